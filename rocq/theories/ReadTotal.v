(** The reader stops on every input, whether it is the text of a datum or not. *)
From stdpp Require Import base gmap list fin_maps.
From Coq Require Import ZArith Lia.
From Coq Require Import ZifyBool ZifyNat.
From Verif Require Import CInt Symbols Heap HeapLemmas DataModel DataSpec DataLemmas CoreProofs StringProofs HashProofs ListProofs ArrayProofs LibModel PropsHash ReadModel ReadSpec ReadProofs.
Import Strings.String.StringSyntax.
Open Scope Z_scope.
Open Scope mes_scope.

(** ** Calls that stop *)
(** the call ended; if it returned normally, then with a result and state that satisfy [Q] *)
Definition fin {A} (r : res A) (Q : A -> state -> Prop) : Prop :=
  match r with ROk a s => Q a s | ROutOfFuel => False | _ => True end.
Lemma fin_bind {A B} (m : M A) (k : A -> M B) s Q R : fin (m s) Q -> (forall a s', Q a s' -> fin (k a s') R) -> fin (bind m k s) R.
Proof. unfold fin, bind. destruct (m s) as [a s'| | | |]; try done. intros H H'. by apply H'. Qed.
Lemma fin_weaken {A} (r : res A) (Q R : A -> state -> Prop) : fin r Q -> (forall a s, Q a s -> R a s) -> fin r R.
Proof. unfold fin. destruct r; try done. eauto. Qed.
Lemma fin_ok {A} (r : res A) a s (Q : A -> state -> Prop) : r = ROk a s -> Q a s -> fin r Q.
Proof. by intros ->. Qed.
(** calls without loops *)
Definition straight {A} (m : M A) : Prop := forall s, m s <> ROutOfFuel.
Lemma straight_fin {A} (m : M A) s : straight m -> fin (m s) (fun _ _ => True).
Proof. intros H. specialize (H s). unfold fin. by destruct (m s). Qed.
Lemma straight_bind {A B} (m : M A) (k : A -> M B) : straight m -> (forall a, straight (k a)) -> straight (bind m k).
Proof. intros Hm Hk s. unfold bind. specialize (Hm s). destruct (m s) as [a s'| | | |]; try done. apply Hk. Qed.
Lemma straight_ret {A} (a : A) : straight (ret a). Proof. by intros s. Qed.
Lemma straight_get : straight get. Proof. by intros s. Qed.
Lemma straight_gets {A} (f : state -> A) : straight (gets f). Proof. by intros s. Qed.
Lemma straight_modify f : straight (modify f). Proof. by intros s. Qed.
Lemma straight_error {A} k x : straight (error (A := A) k x). Proof. by intros s. Qed.
Lemma straight_abort {A} : straight (abort (A := A)). Proof. by intros s. Qed.
Lemma straight_ub {A} : straight (ub (A := A)). Proof. by intros s. Qed.
Lemma straight_rd p : straight (rd p). Proof. intros s. unfold rd. by destruct (heap s !! p). Qed.
Lemma straight_wr p c : straight (wr p c). Proof. intros s. unfold wr. by destruct (_ && _). Qed.
Lemma straight_assert b : straight (assert_msg b). Proof. intros s. unfold assert_msg. by destruct b. Qed.
Ltac straight := repeat (first
  [ apply straight_bind | match goal with |- forall _, _ => intros ? end | progress cbv zeta | apply straight_ret | apply straight_get | apply straight_gets | apply straight_modify
  | apply straight_error | apply straight_abort | apply straight_ub | apply straight_rd | apply straight_wr | apply straight_assert
  | match goal with |- straight (if ?b then _ else _) => destruct b end
  | match goal with |- straight (match ?b with _ => _ end) => destruct b end ]).
Lemma straight_make_cell t a d : straight (make_cell t a d). Proof. unfold make_cell. straight. Qed.
Lemma straight_make_bytes bs : straight (make_bytes bs). Proof. unfold make_bytes, alloc, set_bytes. straight. Qed.
Lemma straight_make_string bs : straight (make_string bs).
Proof.
  unfold make_string, make_string_term, make_pointer_cell, set_cdr. straight.
Qed.
Lemma straight_make_string0 bs : straight (make_string0 bs). Proof. apply straight_make_string. Qed.

(** ** Characters *)
Lemma unread_fin f s bs : cur s bs -> fin (unreadchar f (first bs) s) (fun _ s' => quiet s s' /\ input s' bs).
Proof.
  intros [Hb Hi]. destruct Hi as [Hi|(H0 & _ & c & r & E & Hu & Hf)].
  - destruct (unreadchar_ok f s bs Hb Hi) as (s' & -> & Hq & Hi'). done.
  - unfold unreadchar. rewrite bind_gets, (proj2 (Z.leb_le _ _) H0). unfold fdungetc. destruct bs as [|b bs]; [done|]. cbn [first] in *.
    inversion Hb as [|? ? Hb0 _]; subst. unfold is_byte in Hb0. rewrite (proj2 (Z.eqb_neq b (-1))) by lia. rewrite bind_get, Hu. done.
Qed.
Lemma cur_input s bs : cur s bs -> input s (tail bs). Proof. by intros [_ ?]. Qed.
(** [bs'] comes after [n] characters of [bs] *)
Definition left_of (bs bs' : list Z) : Prop := exists t, bs = t ++ bs'.
Lemma left_refl bs : left_of bs bs. Proof. by exists []. Qed.
Lemma left_trans a b c : left_of a b -> left_of b c -> left_of a c.
Proof. intros [t ->] [u ->]. exists (t ++ u). by rewrite app_assoc. Qed.
Lemma left_tail bs : left_of bs (tail bs). Proof. destruct bs as [|c bs]; [apply left_refl|by exists [c]]. Qed.
Lemma left_cons c bs bs' : left_of bs bs' -> left_of (c :: bs) bs'. Proof. intros [t ->]. by exists (c :: t). Qed.
Lemma left_length bs bs' : left_of bs bs' -> (length bs' <= length bs)%nat. Proof. intros [t ->]. rewrite app_length. lia. Qed.
(** conditions on all of the rest of the input *)
Definition comments_closed_left bs bs' : comments_closed bs -> left_of bs bs' -> comments_closed bs'.
Proof. intros H [t ->] u s v -> Hs. apply (H (t ++ u) s v); [by rewrite app_assoc|done]. Qed.
Definition dots_followed_left bs bs' : dots_followed bs -> left_of bs bs' -> dots_followed bs'.
Proof. intros H [t ->] u v ->. apply (H (t ++ u) v). by rewrite app_assoc. Qed.
Lemma ascii_left bs bs' : ascii bs -> left_of bs bs' -> ascii bs'.
Proof. intros H [t ->]. by apply Forall_app in H as [_ H]. Qed.

(** ** Comments and white space *)
Lemma line_comment_fin : forall f bs s, cur s bs -> (length bs < f)%nat ->
  fin (reader_read_line_comment f (first bs) s) (fun c s' => exists bs', c = first bs' /\ cur s' bs' /\ quiet s s' /\ left_of bs bs' /\ first bs' = 10).
Proof.
  induction f as [|f IH]; intros bs s Hc Hf; [lia|]. cbn [reader_read_line_comment]. destruct bs as [|c bs]; cbn [first].
  - change (-1 =? -1) with true. cbn iota. eapply fin_bind; [apply straight_fin, straight_make_string0|]. intros a s' _. done.
  - pose proof (cur_byte _ _ _ Hc). rewrite (proj2 (Z.eqb_neq c (-1))) by lia. destruct (Z.eqb_spec c 10) as [->|].
    + exists (10 :: bs). split; [done|]. split; [done|]. split; [done|]. split; [apply left_refl|done].
    + destruct (cur_next f _ _ _ Hc) as (s1 & E1 & Hq1 & _ & Hc1). rewrite (bind_ok _ _ _ _ _ E1). cbn [length] in Hf.
      eapply fin_weaken; [apply IH; [done|lia]|]. intros a s' (bs' & ? & ? & ? & ? & ?). exists bs'. split; [done|]. split; [done|].
      split; [by eapply quiet_trans|]. split; [by apply left_cons|done].
Qed.
Lemma block_comment_fin sc : 0 <= sc -> forall f bs s, cur s bs -> (exists x y, bs = x ++ sc :: 35 :: y) -> (length bs < f)%nat ->
  fin (reader_read_block_comment f sc (first bs) s) (fun _ s' => exists bs', input s' bs' /\ quiet s s' /\ left_of bs bs').
Proof.
  intros Hsc. induction f as [|f IH]; intros bs s Hc Hx Hf; [lia|]. cbn [reader_read_block_comment]. destruct bs as [|c bs]; cbn [first].
  { destruct Hx as ([|] & y & Hx); discriminate. }
  assert (forall s1, cur s1 (c :: bs) -> quiet s s1 -> (c = sc -> first bs <> 35) ->
    fin ((c <- readchar f ;; reader_read_block_comment f sc c) s1) (fun _ s' => exists bs', input s' bs' /\ quiet s s' /\ left_of (c :: bs) bs')) as Hgo.
  { intros s1 Hc1 Hq1 Hn. destruct (cur_next f _ _ _ Hc1) as (s2 & E2 & Hq2 & _ & Hc2). rewrite (bind_ok _ _ _ _ _ E2). cbn [length] in Hf.
    eapply fin_weaken; [apply IH; [done| |lia]|].
    - destruct Hx as ([|x0 x] & y & Hx); injection Hx as -> ->; [by exfalso; apply Hn|]. by exists x, y.
    - intros a s' (bs' & Hi & Hq & Hl). exists bs'. split; [done|]. split; [unfold quiet in *; congruence|by apply left_cons]. }
  destruct (Z.eqb_spec c sc) as [->|Hne].
  - destruct (cur_peek f _ _ _ Hc) as (s1 & E1 & Hq1 & Hc1). rewrite (bind_ok _ _ _ _ _ E1). cbn [andb].
    destruct (Z.eqb_spec (first bs) 35) as [E|Hne]; [|by apply Hgo].
    destruct (cur_next f _ _ _ Hc1) as (s2 & E2 & Hq2 & Hi2 & Hc2). rewrite (bind_ok _ _ _ _ _ E2). exists (tail bs). split; [apply Hc2|].
    split; [unfold quiet in *; congruence|]. apply left_cons, left_tail.
  - rewrite bind_ret. cbn [andb]. by apply Hgo.
Qed.
Lemma block_closed bs sc : comments_closed (35 :: sc :: bs) -> sc = 33 \/ sc = 124 -> exists x y, bs = x ++ sc :: 35 :: y.
Proof. intros H Hs. apply (H [] sc bs eq_refl). lits. rewrite !elem_of_cons. tauto. Qed.
(** the white space of lists; what is left is not white *)
Lemma eat_fin : forall f bs s, cur s bs -> comments_closed bs -> (2 * length bs + 1 < f)%nat ->
  fin (reader_eat_whitespace f (first bs) s) (fun c s' => exists bs', c = first bs' /\ cur s' bs' /\ quiet s s' /\ left_of bs bs' /\ c_isspace c = false /\ c <> 59 /\
    (forall ws r, bs = ws ++ r -> Forall white ws -> datum_start r -> bs' = r)).
Proof.
  induction f as [|f IH]; intros bs s Hc Hcl Hf; [lia|]. cbn [reader_eat_whitespace]. destruct bs as [|c bs]; cbn [first].
  { change (c_isspace (-1)) with false. cbn. exists []. split; [done|]. split; [done|]. split; [done|]. split; [apply left_refl|]. split; [done|]. split; [done|].
    intros ws r E _ _. symmetry in E. by apply app_eq_nil in E as [_ ->]. }
  pose proof (cur_byte _ _ _ Hc) as Hb. cbn [length] in Hf.
  assert (forall s1 bs1, cur s1 bs1 -> quiet s s1 -> left_of bs bs1 -> (forall ws r, c :: bs = ws ++ r -> Forall white ws -> datum_start r -> exists ws', bs1 = ws' ++ r /\ Forall white ws') ->
    fin (reader_eat_whitespace f (first bs1) s1) (fun c' s' => exists bs', c' = first bs' /\ cur s' bs' /\ quiet s s' /\ left_of (c :: bs) bs' /\ c_isspace c' = false /\ c' <> 59 /\
      (forall ws r, c :: bs = ws ++ r -> Forall white ws -> datum_start r -> bs' = r))) as Hgo.
  { intros s1 bs1 Hc1 Hq1 Hl1 Hw. pose proof (left_length _ _ Hl1). eapply fin_weaken; [apply IH; [done| |lia]|].
    - eapply comments_closed_left; [exact Hcl|by apply left_cons].
    - intros a s' (bs' & ? & ? & ? & ? & ? & ? & Hd). exists bs'. split; [done|]. split; [done|]. split; [unfold quiet in *; congruence|]. split; [|split; [done|split; [done|]]].
      + apply left_cons. by eapply left_trans.
      + intros ws r E HF Hds. destruct (Hw ws r E HF Hds) as (ws' & E' & HF'). by eapply Hd. }
  destruct (c_isspace c) eqn:Esp.
  { destruct (cur_next f _ _ _ Hc) as (s1 & E1 & Hq1 & _ & Hc1). rewrite (bind_ok _ _ _ _ _ E1). apply Hgo; [done|done|apply left_refl|].
    intros [|c' ws] r E HF Hds.
    - exfalso. cbn in E. subst r. cbn [datum_start] in Hds. lits. apply white_space in Esp. destruct Hds as [[_ Hn]|[-> _]]; [done|]. by vm_compute in Esp; set_solver.
    - injection E as <- ->. exists ws. split; [done|]. by inversion HF. }
  assert (forall ws r, c :: bs = ws ++ r -> Forall white ws -> ws = [] /\ r = c :: bs) as Hnil.
  { intros [|c' ws] r E HF; [done|]. exfalso. injection E as <- ->. inversion HF as [|? ? Hw _]; subst. apply white_space in Hw. congruence. }
  destruct (Z.eqb_spec c 59) as [->|H59].
  { eapply fin_bind; [apply (line_comment_fin f (59 :: bs)); [done|cbn [length]; lia]|]. intros a s1 (bs1 & -> & Hc1 & Hq1 & Hl1 & H10).
    assert (left_of bs bs1) as Hl1'. { destruct Hl1 as ([|x t] & E); [|by injection E as <- ->; exists t]. cbn in E. subst bs1. discriminate. }
    apply Hgo; [done|done|done|]. intros ws r E HF Hds. destruct (Hnil _ _ E HF) as [-> ->]. cbn [datum_start] in Hds. exfalso. lits. destruct Hds as [[Hn _]|[? _]]; [|done]. set_solver. }
  assert (forall s1, cur s1 (c :: bs) -> quiet s s1 -> fin (ret c s1) (fun c' s' => exists bs', c' = first bs' /\ cur s' bs' /\ quiet s s' /\ left_of (c :: bs) bs' /\ c_isspace c' = false /\ c' <> 59 /\
      (forall ws r, c :: bs = ws ++ r -> Forall white ws -> datum_start r -> bs' = r))) as Hret.
  { intros s1 Hc1 Hq1. exists (c :: bs). split; [done|]. split; [done|]. split; [done|]. split; [apply left_refl|]. split; [done|]. split; [done|].
    intros ws r E HF _. by destruct (Hnil _ _ E HF) as [_ ->]. }
  destruct (Z.eqb_spec c 35) as [->|H35]; [|by apply Hret].
  destruct (cur_peek f _ _ _ Hc) as (s1 & E1 & Hq1 & Hc1). rewrite (bind_ok _ _ _ _ _ E1).
  destruct ((first bs =? 33) || (first bs =? 124)) eqn:Ep; [|by apply Hret].
  assert (first bs = 33 \/ first bs = 124) as Hp by lia. destruct bs as [|sc bs]; [cbn in Hp; lia|]. cbn [first] in *. cbn [length] in Hf.
  destruct (cur_next f _ _ _ Hc1) as (s2 & E2 & Hq2 & _ & Hc2). rewrite (bind_ok _ _ _ _ _ E2).
  destruct (cur_next f _ _ _ Hc2) as (s3 & E3 & Hq3 & _ & Hc3). rewrite (bind_ok _ _ _ _ _ E3). cbn [first].
  eapply fin_bind; [apply (block_comment_fin sc ltac:(lia) f bs); [done|by apply block_closed|lia]|].
  intros _ s4 (bs4 & Hi4 & Hq4 & Hl4). destruct (cur_read f _ _ Hi4) as (s5 & E5 & Hq5 & Hc5). rewrite (bind_ok _ _ _ _ _ E5).
  apply Hgo; [done|unfold quiet in *; congruence|by apply left_cons|].
  intros ws r E HF Hds. destruct (Hnil _ _ E HF) as [-> ->]. cbn [datum_start] in Hds. exfalso. lits. destruct Hds as [[Hn _]|[_ (d & r'' & E' & Hd)]]; [set_solver|]. injection E' as <- <-.
  rewrite !elem_of_cons, elem_of_nil in Hd. lia.
Qed.

(** ** Words *)
Lemma to_byte_char c : 0 <= c < 256 -> to_byte c = c. Proof. apply to_byte_id. Qed.
Lemma store_fin buf c s : fin (g_buf_store buf c s) (fun b s' => b = buf ++ [to_byte c] /\ s' = s /\ Z.of_nat (length buf) < MAX_STRING s).
Proof. unfold g_buf_store. rewrite bind_gets. destruct (Z.ltb_spec (Z.of_nat (length buf)) (MAX_STRING s)); done. Qed.
Lemma checked_fin n s : fin (checked n s) (fun m s' => m = n /\ s' = s).
Proof. unfold checked. by destruct (in_long n). Qed.
Lemma digits_fin : forall f bs n buf s, cur s bs -> (length bs < f)%nat ->
  fin (read_digits f (first bs) n buf s) (fun x s' => exists ds bs', x.1.1 = first bs' /\ x.2 = buf ++ ds /\ bs = ds ++ bs' /\ Forall (fun c => c_isdigit c = true) ds /\
    cur s' bs' /\ quiet s s' /\ c_isdigit (first bs') = false).
Proof.
  induction f as [|f IH]; intros bs n buf s Hc Hf; [lia|]. cbn [read_digits]. destruct (c_isdigit (first bs)) eqn:Ed.
  - destruct bs as [|c bs]; [discriminate Ed|]. cbn [first length] in *. pose proof (cur_byte _ _ _ Hc) as Hb.
    eapply fin_bind; [apply store_fin|]. intros b s0 (-> & -> & _). eapply fin_bind; [apply checked_fin|]. intros n1 s0 (-> & ->).
    eapply fin_bind; [apply checked_fin|]. intros n2 s0 (-> & ->). destruct (cur_next f _ _ _ Hc) as (s1 & E1 & Hq1 & _ & Hc1). rewrite (bind_ok _ _ _ _ _ E1).
    eapply fin_weaken; [apply IH; [done|lia]|]. intros x s' (ds & bs' & H1 & H2 & H3 & H4 & H5 & H6 & H7). exists (c :: ds), bs'.
    split; [done|]. split; [rewrite H2, <- app_assoc; cbn; by rewrite to_byte_char|]. split; [by rewrite H3|]. split; [by constructor|]. split; [done|].
    split; [by eapply quiet_trans|done].
  - exists [], bs. cbn [fst snd app]. rewrite app_nil_r. split; [done|]. split; [done|]. split; [done|]. split; [constructor|]. split; [done|]. split; [done|done].
Qed.
Lemma word_fin : forall f bs buf s, cur s bs -> (length bs < f)%nat ->
  fin (read_word f (first bs) buf s) (fun x s' => exists wd bs', x.1 = first bs' /\ x.2 = buf ++ wd /\ bs = wd ++ bs' /\ Forall (fun c => reader_end_of_word_p c = false) wd /\
    cur s' bs' /\ quiet s s' /\ reader_end_of_word_p (first bs') = true).
Proof.
  induction f as [|f IH]; intros bs buf s Hc Hf; [lia|]. cbn [read_word]. destruct (reader_end_of_word_p (first bs)) eqn:Ed.
  - exists [], bs. cbn [fst snd app]. rewrite app_nil_r. split; [done|]. split; [done|]. split; [done|]. split; [constructor|]. split; [done|]. split; [done|done].
  - destruct bs as [|c bs]; [discriminate Ed|]. cbn [first length] in *. pose proof (cur_byte _ _ _ Hc) as Hb.
    eapply fin_bind; [apply store_fin|]. intros b s0 (-> & -> & _). destruct (cur_next f _ _ _ Hc) as (s1 & E1 & Hq1 & _ & Hc1). rewrite (bind_ok _ _ _ _ _ E1).
    eapply fin_weaken; [apply IH; [done|lia]|]. intros x s' (ds & bs' & H1 & H2 & H3 & H4 & H5 & H6 & H7). exists (c :: ds), bs'.
    split; [done|]. split; [rewrite H2, <- app_assoc; cbn; by rewrite to_byte_char|]. split; [by rewrite H3|]. split; [by constructor|]. split; [done|].
    split; [by eapply quiet_trans|done].
Qed.
Lemma sign_fin f bs s : cur s bs ->
  fin (read_sign f (first bs) s) (fun x s' => exists sg bs', x.2 = first bs' /\ bs = sg ++ bs' /\ cur s' bs' /\ quiet s s' /\ (sg = [] \/ c_isdigit (first bs') = true)).
Proof.
  intros Hc. unfold read_sign. destruct bs as [|c bs]; cbn [first].
  { cbn. exists [], []. split; [done|]. split; [done|]. split; [done|]. split; [done|]. by left. }
  destruct (Z.eqb_spec c 43) as [->|H43].
  - destruct (cur_peek f _ _ _ Hc) as (s1 & E1 & Hq1 & Hc1). rewrite bind_assoc, (bind_ok _ _ _ _ _ E1). destruct (c_isdigit (first bs)) eqn:Ed.
    + destruct (cur_next f _ _ _ Hc1) as (s2 & E2 & Hq2 & _ & Hc2). rewrite (bind_ok _ _ _ _ _ E2).
      assert (first bs =? 45 = false) as ->. { unfold c_isdigit in Ed. lia. }
      exists [43], bs. split; [done|]. split; [done|]. split; [done|]. split; [by eapply quiet_trans|by right].
    + rewrite bind_ret. cbn. exists [], (43 :: bs). split; [done|]. split; [done|]. split; [done|]. split; [done|]. by left.
  - rewrite bind_ret. destruct (Z.eqb_spec c 45) as [->|H45].
    + destruct (cur_peek f _ _ _ Hc) as (s1 & E1 & Hq1 & Hc1). rewrite (bind_ok _ _ _ _ _ E1). destruct (c_isdigit (first bs)) eqn:Ed.
      * destruct (cur_next f _ _ _ Hc1) as (s2 & E2 & Hq2 & _ & Hc2). rewrite (bind_ok _ _ _ _ _ E2).
        exists [45], bs. split; [done|]. split; [done|]. split; [done|]. split; [by eapply quiet_trans|by right].
      * exists [], (45 :: bs). split; [done|]. split; [done|]. split; [done|]. split; [done|]. by left.
    + exists [], (c :: bs). split; [done|]. split; [done|]. split; [done|]. split; [done|]. by left.
Qed.

(** ** Interning any name *)
Lemma ascii_hash name : ascii name -> 0 <= name_hash name.
Proof.
  intros H. assert (forall c, 0 <= c < 128 -> 0 <= to_schar c) as Hc. { intros c ?. unfold to_schar. lia. }
  destruct H as [|c name Hc0 H]; cbn [name_hash]; [lia|]. pose proof (Hc _ Hc0). destruct (to_schar c =? 0); [lia|].
  destruct H as [|d name Hd H]; [lia|]. pose proof (Hc _ Hd). lia.
Qed.
Lemma ascii_nul bs : ascii bs -> ascii (until_nul bs).
Proof. induction 1 as [|c bs Hc H IH]; cbn; [constructor|]. destruct (c =? 0); [constructor|by constructor]. Qed.
Lemma nul_length bs : (length (until_nul bs) <= length bs)%nat.
Proof. induction bs as [|c bs IH]; cbn; [lia|]. destruct (c =? 0); cbn; lia. Qed.
Lemma intern_any fuel x bs w size al s : symbols_at s w size al -> text_at (cells s) TSTRING x bs -> 0 <= name_hash bs ->
  (length al < fuel)%nat -> can_alloc 6 s ->
  exists r s' n al', string_to_symbol fuel x s = ROk r s' /\ symbols_at s' w size al' /\ survives s s' /\ is_symbol (cells s') r bs /\
    n <= 6 /\ (exists p, w <= p < w + size /\ modifies (eq p) n s s') /\ (length al' <= S (length al))%nat /\
    (forall bs' r', bs' <> bytes_of "#f" -> latest (same_name bs') al = Some r' -> latest (same_name bs') al' = Some r').
Proof.
  intros Hs Hx Hh Hfuel Ha. destruct (decide (bs = bytes_of "#f")) as [->|Hne].
  2:{ destruct (intern_at fuel x bs w size al s Hs Hx (conj Hne Hh) Hfuel Ha) as (r & s' & n & al' & H1 & H2 & H3 & H4 & H5 & H6 & H7 & H8 & H9 & _).
      exists r, s', n, al'. repeat (split; [done|]). intros bs' r' _. apply H9. }
  destruct Hs as (Ht & Hc & Hv & Hf).
  assert (0 < size) as Hsize by (destruct Ht as (? & ? & ? & ? & ? & ? & ? & ? & ? & ? & ? & ? & ? & ?); lia).
  pose proof (cell_f_type _ Hc) as (cf & Hcf & Htf). apply cells_heap in Hcf as [Hcf Hfl].
  assert (key_at (cells s) [TSTRING] x (bytes_of "#f")) as Hk by (exists TSTRING; split; [set_solver|done]).
  destruct (hash_ref_ok fuel (g_symbols s) w size al x (bytes_of "#f") cell_f cf s) as (r & E & Hr); try done.
  { by exists cf. } { eapply can_alloc_le; [done|lia]. }
  unfold string_to_symbol. rewrite bind_gets, (bind_ok _ _ _ _ _ E).
  set (s1 := with_cell (Cell TNUMBER 0 size []) s) in *.
  assert (modifies nothing 1 s s1) as Hm1 by apply modifies_with_cell.
  assert (cells s ⊆ cells s1) as Hsub by by eapply modifies_cells.
  assert (Forall (fun e => exists t, t ∈ [TSPECIAL; TSYMBOL] /\ text_at (cells s1) t (e_value e) (e_name e)) al) as Hv1.
  { eapply Forall_impl; [exact Hv|]. intros e (t & Hin & Hte). exists t. split; [done|]. by eapply text_at_mono. }
  destruct (Z.eqb_spec r cell_f) as [->|Hrf].
  - unfold make_symbol.
    assert (text_at (heap s1) TSTRING x (bytes_of "#f")) as Hx1 by (eapply text_at_mono; [apply cells_sub|by eapply text_at_mono]).
    pose proof Hx as (cx & cb & Hcx & Hct & Hcl & Hcb & Hcbt & Hcbb).
    erewrite bind_ok. 2:{ apply rd_ok'. eapply lookup_weaken; [|apply cells_sub]. eapply lookup_weaken; [exact Hcx|done]. }
    erewrite bind_ok. 2:{ apply make_cell_s. eapply modifies_can_alloc; [exact Hm1|eapply can_alloc_le; [done|lia]|lia]. }
    set (s2 := with_cell _ s1). rewrite bind_gets. change (g_symbols s2) with (g_symbols s).
    assert (modifies nothing 2 s s2) as Hm2 by (eapply (modifies_trans _ _ 1 1); [done|apply modifies_with_cell|done]).
    assert (cells s ⊆ cells s2) as Hsub2 by by eapply modifies_cells.
    assert (text_at (cells s2) TSYMBOL (g_free s1) (bytes_of "#f")) as Hr2.
    { eexists _, cb. split; [unfold s2; rewrite cells_with_cell; apply lookup_insert|]. cbn [c_ty c_car c_cdr]. split; [done|]. split; [done|].
      split; [|done]. eapply lookup_weaken; [exact Hcb|]. done. }
    destruct (hash_set_ok (g_symbols s) w size al x (bytes_of "#f") (g_free s1) s2) as (s3 & n & E3 & Hn & Hm3 & Ht3).
    { by eapply table_mono. } { by eapply key_mono. } { apply cell_nil_type. by eapply constants_mono. }
    { eapply modifies_can_alloc; [exact Hm2|eapply can_alloc_le; [done|lia]|lia]. }
    rewrite (bind_ok _ _ _ _ _ E3).
    assert (keeps (cells s2) (cells s3)) as Hkp by (eapply table_keeps; [|exact Hm3]; by eapply table_mono).
    assert (text_at (cells s3) TSYMBOL (g_free s1) (bytes_of "#f")) as Hr3 by (eapply text_keeps; [done|discriminate|done]).
    assert (keeps (cells s) (cells s3)) as Hk3 by (eapply keeps_trans; [by eapply extends_keeps|done]).
    exists (g_free s1), s3, (2 + n), (Entry x (bytes_of "#f") (g_free s1) :: al). split; [done|]. split.
    { split; [rewrite (modifies_symbols _ _ _ _ Hm3); done|]. split; [by eapply constants_keeps|]. split.
      - constructor; [exists TSYMBOL; split; [set_solver|done]|]. eapply Forall_impl; [exact Hv|]. intros e (t & Hin & Hte). exists t. split; [done|].
        eapply text_keeps; [done| |done]. assert (t = TSPECIAL \/ t = TSYMBOL) as [-> | ->] by set_solver; discriminate.
      - eapply text_keeps; [done|discriminate|done]. }
    split; [done|]. split; [exists TSYMBOL; split; [set_solver|done]|]. split; [lia|].
    split; [eexists; split; [|eapply modifies_trans; [eapply modifies_weaken; [|exact Hm2]; by intros ? ? []|exact Hm3|done]];
      pose proof (Z.mod_pos_bound (name_hash (bytes_of "#f")) size Hsize); lia|].
    split; [cbn [length]; lia|]. intros bs' r' Hbs Hl'. cbn [latest]. unfold same_name at 1. cbn [e_name]. rewrite bool_decide_eq_false_2; [done|]. by intros <-.
  - destruct (latest (same_name (bytes_of "#f")) al) as [v|] eqn:El.
    2:{ exfalso. rewrite Htf, andb_comm in Hr. cbn in Hr. done. }
    subst v. assert (is_symbol (cells s) r (bytes_of "#f")) as Hsym.
    { rewrite latest_find in El. destruct (List.find _ al) as [e|] eqn:Ef; [|done]. injection El as <-.
      apply List.find_some in Ef as [Hin Hb]. apply bool_decide_eq_true in Hb. rewrite <- Hb.
      rewrite Forall_forall in Hv. apply Hv. by apply elem_of_list_In. }
    exists r, s1, 1, al. split; [done|]. split.
    { split; [by eapply table_mono|]. split; [by eapply constants_mono|]. split; [done|]. by eapply text_at_mono. }
    split; [by eapply extends_keeps|]. split; [destruct Hsym as (t & ? & ?); exists t; split; [done|by eapply text_at_mono]|].
    split; [lia|]. split; [exists w; split; [lia|]; eapply modifies_weaken; [|exact Hm1]; by intros ? ? []|]. split; [lia|]. done.
Qed.

(** ** What reading leaves behind *)
(** the value [p]; a tree of pairs if it is a pair, with [n] pairs along the spine *)
Inductive tree (h : gmap Z cell) : Z -> nat -> Prop :=
| tree_atom p sl c : value_at h p sl -> h !! p = Some c -> c_ty c <> TPAIR -> tree h p 0
| tree_pair p a d m n : pair_at h p a d -> tree h a m -> tree h d n -> tree h p (S n).
Lemma tree_mono h h' p n : h ⊆ h' -> tree h p n -> tree h' p n.
Proof.
  intros Hs. induction 1 as [p sl c Hv Hp Ht|p a d m n Hp _ IHa _ IHd].
  - econstructor; [by eapply value_at_mono|by eapply lookup_weaken|done].
  - econstructor; [by eapply pair_at_mono|done|done].
Qed.
Lemma tree_value h p n : tree h p n -> exists sl, value_at h p sl.
Proof.
  destruct 1 as [p sl c Hv Hp Ht|p a d m n (c & Hc & Ht & _) _ _]; [by exists sl|]. exists (SRef p). split; [done|]. exists c. split; [done|]. rewrite Ht.
  vm_compute. set_solver.
Qed.
Lemma tree_other h p c : h !! p = Some c -> c_ty c ∉ [TNUMBER; TCHAR; TREF; TPAIR] -> tree h p 0.
Proof.
  intros Hc Ht. apply (tree_atom _ p (SRef p) c); [|done|set_solver]. split; [done|]. exists c. split; [done|]. set_solver.
Qed.

Section Machine.
Context (max w size : Z).
Local Notation ready := (ready max w size).
Local Notation outside := (outside w size).
Local Notation in_buckets := (in_buckets w size).

(** from the state [s] with the input [bs] to the state [s'] with the input [rest]: at most [n] cells were allocated *)
Record step (n : Z) (s : state) (al : list entry) (bs : list Z) (s' : state) (al' : list entry) (rest : list Z) : Prop := {
  st_ready : ready s' al';
  st_input : input s' rest;
  st_left : left_of bs rest;
  st_heap : exists k, k <= n /\ modifies in_buckets k (blind s) (blind s');
  st_size : (length al' + length rest <= length al + length bs)%nat }.
Lemma step_quiet n s s1 al bs bs1 s' al' rest : quiet s s1 -> left_of bs bs1 -> step n s1 al bs1 s' al' rest -> step n s al bs s' al' rest.
Proof.
  intros Hq Hl [H1 H2 H3 (k & Hk & Hm) H4]. pose proof (left_length _ _ Hl). split; [done|done|by eapply left_trans| |lia].
  exists k. split; [done|]. by eapply modifies_quiet.
Qed.
Lemma step_same n s al bs s' rest : ready s al -> quiet s s' -> input s' rest -> left_of bs rest -> 0 <= n -> step n s al bs s' al rest.
Proof.
  intros Hr Hq Hi Hl Hn. pose proof (left_length _ _ Hl). split; [by eapply ready_quiet|done|done| |lia]. exists 0. split; [done|]. rewrite Hq. apply modifies_refl.
Qed.
Lemma step_new n k s al bs s' rest : ready s al -> input s rest -> left_of bs rest -> modifies nothing k s s' -> k <= n -> step n s al bs s' al rest.
Proof.
  intros Hr Hi Hl Hm Hk. pose proof (left_length _ _ Hl). split; [by eapply ready_extends|by eapply modifies_input|done| |lia].
  exists k. split; [done|]. apply modifies_blind. eapply modifies_weaken; [|done]. by intros ? ? [].
Qed.
Lemma step_trans n1 n2 s al bs s1 al1 bs1 s2 al2 bs2 : step n1 s al bs s1 al1 bs1 -> step n2 s1 al1 bs1 s2 al2 bs2 -> step (n1 + n2) s al bs s2 al2 bs2.
Proof.
  intros [_ _ L1 (k1 & Hk1 & M1) Z1] [R2 I2 L2 (k2 & Hk2 & M2) Z2]. split; [done|done|by eapply left_trans| |lia].
  exists (k1 + k2). split; [lia|]. eapply modifies_trans; [exact M1|exact M2|done].
Qed.
Lemma step_weaken n n' s al bs s' al' rest : n <= n' -> step n s al bs s' al' rest -> step n' s al bs s' al' rest.
Proof. intros Hn [H1 H2 H3 (k & Hk & Hm) H4]. split; try done. exists k. split; [lia|done]. Qed.
Lemma step_alloc n s al bs s' al' rest j : step n s al bs s' al' rest -> can_alloc (j + n) s -> 0 <= j -> can_alloc j s'.
Proof.
  intros [_ _ _ (k & Hk & Hm) _] Ha Hj. change (can_alloc j (blind s')). eapply modifies_can_alloc; [exact Hm| |done].
  change (can_alloc (j + k) s). eapply can_alloc_le; [done|lia].
Qed.
Lemma step_sub n s al bs s' al' rest : step n s al bs s' al' rest -> outside (cells s) ⊆ outside (cells s').
Proof. intros [_ _ _ (k & _ & Hm) _]. exact (outside_mono _ _ _ _ _ Hm). Qed.
Lemma step_tree n s al bs s' al' rest p m : step n s al bs s' al' rest -> tree (outside (cells s)) p m -> tree (outside (cells s')) p m.
Proof. intros H. eapply tree_mono, step_sub, H. Qed.
Lemma step_length n s al bs s' al' rest : step n s al bs s' al' rest -> (length rest <= length bs)%nat.
Proof. intros [_ _ H _ _]. by apply left_length. Qed.

(** the objects that are no dots *)
Definition solid (s : state) (r : Z) : Prop := r <> cell_dot /\ exists m, tree (outside (cells s)) r m.
Lemma not_dot s al r c : ready s al -> outside (cells s) !! r = Some c -> c_ty c <> TSPECIAL -> r <> cell_dot.
Proof.
  intros Hr Hc Ht ->. destruct (ready_dot _ _ _ _ _ Hr) as (c' & b & Hc' & Ht' & _). apply outside_lookup in Hc as [Hc _]. congruence.
Qed.
Lemma new_cell s al bs rest c n : ready s al -> input s rest -> left_of bs rest -> 1 <= n -> c_ty c <> TREF ->
  step n s al bs (with_cell c s) al rest /\ outside (cells (with_cell c s)) !! g_free s = Some c.
Proof.
  intros Hr Hi Hl Hn Ht. assert (step n s al bs (with_cell c s) al rest) as H by (eapply step_new; [done|done|done|apply modifies_with_cell|lia]).
  split; [done|]. eapply outside_other; [apply (st_ready _ _ _ _ _ _ _ H)|rewrite cells_with_cell; apply lookup_insert|done].
Qed.
Lemma number_fin n s al bs rest : ready s al -> input s rest -> left_of bs rest -> can_alloc 1 s ->
  exists s', make_number n s = ROk (g_free s) s' /\ step 1 s al bs s' al rest /\ number_at (outside (cells s')) (g_free s) n.
Proof.
  intros Hr Hi Hl Ha. eexists. split; [by apply make_number_s|]. destruct (new_cell s al bs rest (Cell TNUMBER 0 n []) 1 Hr Hi Hl ltac:(lia) ltac:(discriminate)) as [H1 H2].
  split; [done|]. eexists. split; [exact H2|done].
Qed.
Lemma tree_number s p n : number_at (outside (cells s)) p n -> tree (outside (cells s)) p 0.
Proof. intros (c & Hc & Ht & Hn). apply (tree_atom _ p (SNum n) c); [exists c; done|done|rewrite Ht; discriminate]. Qed.
Lemma number_not_dot s al p n : ready s al -> number_at (outside (cells s)) p n -> p <> cell_dot.
Proof. intros Hr (c & Hc & Ht & Hn). eapply not_dot; [done|done|rewrite Ht; discriminate]. Qed.

(** ** Symbols *)
Lemma tags_false : Forall (fun q => fst q <> bytes_of "#f") tag_symbols.
Proof. repeat constructor; discriminate. Qed.
Lemma symbol_fin name s f al bs rest : ready s al -> input s rest -> left_of bs rest -> (length rest < length bs)%nat -> ascii name -> Z.of_nat (length name) <= max ->
  can_alloc (string_cells (until_nul name) + 6) s -> (length al < f)%nat ->
  exists r s' al', cstring_to_symbol f name s = ROk r s' /\ step (string_cells (until_nul name) + 6) s al bs s' al' rest /\ is_symbol (outside (cells s')) r (until_nul name).
Proof.
  intros Hr Hi Hle Hlt Has Hl Ha Hf. unfold cstring_to_symbol, make_string0. pose proof (nul_length name). set (nm := until_nul name) in *.
  assert (0 <= string_cells nm) by (unfold string_cells, bytes_cells; lia).
  destruct (make_string_ok nm s) as (s1 & E1 & Hm1 & Ht1); [eapply can_alloc_le; [done|lia]|rewrite (ready_max _ _ _ _ _ Hr); lia|].
  rewrite (bind_ok _ _ _ _ _ E1). pose proof (ready_extends _ _ _ _ _ _ _ Hm1 Hr) as Hr1.
  destruct (intern_any f (g_free s) nm w size al s1) as (r & s2 & n & al' & E2 & Hs2 & _ & Hsym & Hn & (p & Hp & Hm2) & Hlen & Hold).
  { apply Hr1. } { done. } { by apply ascii_hash, ascii_nul. } { done. }
  { eapply modifies_can_alloc; [exact Hm1| |lia]. eapply can_alloc_le; [done|lia]. }
  exists r, s2, al'. split; [done|].
  assert (modifies in_buckets n s1 s2) as Hm2'. { eapply modifies_weaken; [|exact Hm2]. by intros q _ <-. }
  split.
  - split.
    + split; [done|rewrite (modifies_max _ _ _ _ Hm2); apply Hr1|apply Hr| |].
      * pose proof (ready_tags _ _ _ _ _ Hr) as Htg. pose proof tags_false as Hfl. rewrite Forall_forall in Htg, Hfl |- *. intros q Hq. apply Hold; [by apply Hfl|by apply Htg].
      * eapply Forall_impl; [apply Hr1|]. intros q Hq. pose proof (outside_text _ _ _ _ _ _ _ (ready_symbols _ _ _ _ _ Hr1) (ltac:(discriminate) : TSPECIAL <> TREF) Hq) as Hd.
        eapply text_at_mono; [|exact Hd]. etrans; [eapply outside_mono; exact Hm2'|apply outside_sub].
    + eapply modifies_input; [exact Hm2|]. by eapply modifies_input.
    + done.
    + exists (string_cells nm + n). split; [lia|]. eapply modifies_trans; [|apply modifies_blind; exact Hm2'|done].
      eapply modifies_weaken; [|apply modifies_blind; exact Hm1]. by intros ? ? [].
    + lia.
  - destruct Hsym as (t & Htt & Ht). exists t. split; [done|]. eapply outside_text; [done| |done].
    rewrite !elem_of_cons, elem_of_nil in Htt. destruct Htt as [->|[->|[]]]; discriminate.
Qed.
Lemma symbol_tree h p name : is_symbol h p name -> tree h p 0.
Proof.
  intros (t & Htt & (c & b & Hc & Ht & _)). eapply tree_other; [exact Hc|]. rewrite Ht. rewrite !elem_of_cons, elem_of_nil in Htt.
  destruct Htt as [->|[->|[]]]; vm_compute; set_solver.
Qed.
Lemma symbol_dot s al name : ready s al -> is_symbol (outside (cells s)) cell_dot name -> name = bytes_of ".".
Proof.
  intros Hr (t & _ & Ht). pose proof (ready_dot _ _ _ _ _ Hr) as Hd. eapply text_at_mono in Ht; [|apply outside_sub].
  exact (text_at_fun _ _ _ _ _ _ Ht Hd).
Qed.

(** an identifier or a number; nothing is taken only if a word ends there *)
Definition word_post (s : state) (al : list entry) (bs : list Z) (r : Z) (s' : state) : Prop :=
  exists al' rest n, step n s al bs s' al' rest /\
    ((exists v, number_at (outside (cells s')) r v /\ n <= 1 /\ (reader_end_of_word_p (first bs) = true \/ (length rest < length bs)%nat)) \/
     (exists name, is_symbol (outside (cells s')) r name /\ (length rest < length bs)%nat /\ n <= 20 * Z.of_nat (length bs - length rest) - 5 /\
        (name = bytes_of "." -> first bs = 46 /\ reader_identifier_p (first (tail bs)) = false))).
Lemma identifier_not_end c : reader_identifier_p c = true -> reader_end_of_word_p c = false /\ 32 < c.
Proof. unfold reader_identifier_p, reader_end_of_word_p, c_isspace. lia. Qed.
Lemma digit_not_end c : c_isdigit c = true -> reader_end_of_word_p c = false.
Proof. unfold c_isdigit, reader_end_of_word_p, c_isspace. lia. Qed.
Lemma dot_word name : until_nul name = bytes_of "." -> exists r, name = 46 :: r /\ (r = [] \/ exists r', r = 0 :: r').
Proof.
  change (bytes_of ".") with [46]. destruct name as [|c name]; [done|]. cbn. destruct (c =? 0); [done|]. intros [= -> H]. exists name. split; [done|].
  destruct name as [|d name]; [by left|]. cbn in H. destruct (Z.eqb_spec d 0) as [->|]; [|done]. right. by exists name.
Qed.
Lemma word_cells name n : name <> [] -> (length name <= n)%nat -> string_cells (until_nul name) + 6 <= 20 * Z.of_nat n - 5.
Proof. intros Hne Hn. pose proof (nul_length name). assert (1 <= n)%nat by (destruct name; [done|cbn in Hn; lia]). unfold string_cells, bytes_cells. lia. Qed.

Lemma identifier_fin f bs s al : ready s al -> cur s bs -> ascii bs -> can_alloc (Z.max 1 (20 * Z.of_nat (length bs))) s -> (length bs < f)%nat -> (length al < f)%nat ->
  fin (reader_read_identifier_or_number f (first bs) s) (word_post s al bs).
Proof.
  intros Hr Hc Has Ha Hf Hfa. unfold reader_read_identifier_or_number.
  eapply fin_bind; [by apply sign_fin|]. intros sg s1 (sgn & bs1 & E1 & -> & Hc1 & Hq1 & Hsg). rewrite E1. rewrite app_length in *.
  eapply fin_bind; [apply (digits_fin f bs1); [done|lia]|]. intros x s2 (ds & bs2 & E2 & E3 & -> & Hds & Hc2 & Hq2 & Hnd). rewrite E2, E3. cbn [app]. rewrite app_length in *.
  assert (left_of (sgn ++ ds ++ bs2) bs2) as Hl2 by (exists (sgn ++ ds); by rewrite app_assoc).
  assert (ds = [] -> sgn = []) as Hsd. { intros ->. destruct Hsg as [|Hd]; [done|]. cbn in Hd. congruence. }
  destruct (reader_end_of_word_p (first bs2)) eqn:Ee.
  - eapply fin_bind; [by apply unread_fin|]. intros _ s3 (Hq3 & Hi3). assert (quiet s s3) as Hq by (unfold quiet in *; congruence).
    destruct (number_fin (if sg.1 then 0 - x.1.2 else x.1.2) s3 al (sgn ++ ds ++ bs2) bs2) as (s4 & E4 & Hst & Hn); [by eapply ready_quiet|done|done| |].
    { eapply alloc_quiet; [done|]. eapply can_alloc_le; [done|lia]. }
    rewrite E4. exists al, bs2, 1. split; [eapply step_quiet; [done|apply left_refl|done]|]. left. eexists. split; [done|]. split; [lia|].
    destruct ds as [|d ds]; [|right; rewrite !app_length; cbn [length]; lia]. rewrite (Hsd eq_refl). by left.
  - eapply fin_bind; [apply (word_fin f bs2); [done|lia]|]. intros y s3 (wd & bs3 & E4 & E5 & -> & Hwd & Hc3 & Hq3 & He3). rewrite E4, E5. rewrite app_length in *.
    assert (wd <> []) as Hwne. { intros ->. cbn [app] in Ee. congruence. }
    eapply fin_bind; [by apply unread_fin|]. intros _ s4 (Hq4 & Hi4). assert (quiet s s4) as Hq by (unfold quiet in *; congruence).
    eapply fin_bind; [apply store_fin|]. intros b s5 (_ & -> & Hlen).
    assert (ready s4 al) as Hr4 by by eapply ready_quiet. rewrite (ready_max _ _ _ _ _ Hr4) in Hlen.
    assert (ds ++ wd <> []) as Hne by (destruct ds; [done|done]).
    assert (length (sgn ++ ds ++ wd ++ bs3) - length bs3 = length sgn + length (ds ++ wd))%nat as Hd by (rewrite !app_length; lia).
    assert (0 < length (ds ++ wd))%nat as Hpos by (destruct (ds ++ wd); [done|cbn; lia]).
    pose proof (word_cells (ds ++ wd) (length sgn + length (ds ++ wd)) Hne ltac:(lia)) as Hcost.
    destruct (symbol_fin (ds ++ wd) s4 f al (sgn ++ ds ++ wd ++ bs3) bs3) as (r & s6 & al' & E6 & Hst & Hsym).
    { done. } { done. } { exists (sgn ++ ds ++ wd). by rewrite <- !app_assoc. } { rewrite !app_length in *. lia. }
    { rewrite app_assoc, app_assoc in Has. apply Forall_app in Has as [Has _]. rewrite <- app_assoc in Has. by apply Forall_app in Has as [_ Has]. }
    { lia. } { eapply alloc_quiet; [done|]. eapply can_alloc_le; [done|]. rewrite app_length in *. lia. } { done. }
    rewrite E6. exists al', bs3, (string_cells (until_nul (ds ++ wd)) + 6). split; [eapply step_quiet; [done|apply left_refl|done]|].
    right. exists (until_nul (ds ++ wd)). split; [done|]. split; [rewrite !app_length in *; lia|]. split; [rewrite Hd; lia|].
    intros Hdot. apply dot_word in Hdot as (r' & Hn & Hr'). destruct ds as [|d ds].
    2:{ exfalso. cbn in Hn. injection Hn as -> _. inversion Hds as [|? ? F _]; subst. discriminate F. }
    rewrite (Hsd eq_refl). cbn [app] in *. rewrite Hn in *. cbn [first tail app]. split; [done|].
    destruct (reader_identifier_p (first (r' ++ bs3))) eqn:Ei; [|done]. exfalso. apply identifier_not_end in Ei as [Ei ?].
    destruct Hr' as [->|(r'' & ->)]; cbn in *; [congruence|lia].
Qed.

(** ** Numbers in other bases *)
Lemma base_digit_eof base : base_digit base (-1) = None.
Proof. unfold base_digit. destruct (base =? 16); [done|]. done. Qed.
Lemma base_digits_fin base : forall f bs n s, input s bs -> (length bs < f)%nat ->
  fin (read_base_digits f base (first bs) n s) (fun _ s' => exists rest, input s' rest /\ quiet s s' /\ left_of bs rest).
Proof.
  induction f as [|f IH]; intros bs n s Hi Hf; [lia|]. cbn [read_base_digits]. destruct bs as [|c bs]; cbn [first length] in *.
  { rewrite base_digit_eof. exists []. split; [done|]. split; [done|apply left_refl]. }
  destruct (base_digit base c) as [d|].
  - eapply fin_bind; [apply checked_fin|]. intros ? ? (-> & ->). eapply fin_bind; [apply checked_fin|]. intros ? ? (_ & ->).
    destruct (readchar_ok f _ _ Hi) as (s1 & E1 & Hq1 & Hi1). rewrite (bind_ok _ _ _ _ _ E1).
    destruct (peekchar_ok f _ _ (input_0 _ _ Hi1)) as (s2 & E2 & Hq2 & Hi2). rewrite (bind_ok _ _ _ _ _ E2). cbn [tail] in *.
    eapply fin_weaken; [apply IH; [done|lia]|]. intros x s' (rest & Hr & Hq & Hl). exists rest. split; [done|]. split; [unfold quiet in *; congruence|by apply left_cons].
  - exists (c :: bs). split; [done|]. split; [done|apply left_refl].
Qed.
Lemma base_fin base f bs s al : ready s al -> input s bs -> can_alloc 1 s -> (length bs < f)%nat ->
  fin (reader_read_base base f s) (fun r s' => exists rest n, step 1 s al bs s' al rest /\ number_at (outside (cells s')) r n).
Proof.
  intros Hr Hi Ha Hf. unfold reader_read_base. destruct (peekchar_ok f _ _ Hi) as (s1 & E1 & Hq1 & Hi1). rewrite (bind_ok _ _ _ _ _ E1). cbv zeta.
  eapply (fin_bind _ _ _ (fun c s2 => exists bs2, c = first bs2 /\ input s2 bs2 /\ quiet s s2 /\ left_of bs bs2)).
  { destruct (first bs =? 45) eqn:E45.
    - destruct (readchar_ok f _ _ Hi1) as (s2 & E2 & Hq2 & Hi2). rewrite (bind_ok _ _ _ _ _ E2).
      destruct (peekchar_ok f _ _ (input_0 _ _ Hi2)) as (s3 & E3 & Hq3 & Hi3). rewrite E3. exists (tail bs). split; [done|]. split; [done|].
      split; [unfold quiet in *; congruence|apply left_tail].
    - exists bs. split; [done|]. split; [done|]. split; [done|apply left_refl]. }
  intros c s2 (bs2 & -> & Hi2 & Hq2 & Hl2). pose proof (left_length _ _ Hl2).
  eapply fin_bind; [apply base_digits_fin; [done|lia]|]. intros n s3 (rest & Hi3 & Hq3 & Hl3).
  assert (quiet s s3) as Hq by by eapply quiet_trans.
  destruct (number_fin (if first bs =? 45 then 0 - n else n) s3 al bs rest) as (s4 & E4 & Hst & Hn); [by eapply ready_quiet|done|by eapply left_trans|by eapply alloc_quiet|].
  rewrite E4. exists rest. eexists. split; [|exact Hn]. eapply step_quiet; [done|apply left_refl|done].
Qed.

(** ** Characters *)
Lemma octal_char_fin : forall f bs c s, input s bs -> 0 <= c -> in_int c = true -> (length bs < f)%nat ->
  fin (read_octal_char f c (first bs) s) (fun c s' => exists rest, input s' rest /\ quiet s s' /\ left_of bs rest /\ in_int c = true).
Proof.
  induction f as [|f IH]; intros bs c s Hi H0 Hc Hf; [lia|]. cbn [read_octal_char]. destruct bs as [|d bs]; cbn [first length] in *.
  { change (octal_p (-1)) with false. exists []. split; [done|]. split; [done|]. split; [apply left_refl|done]. }
  destruct (octal_p d) eqn:Eo.
  - destruct (readchar_ok f _ _ Hi) as (s1 & E1 & Hq1 & Hi1). rewrite (bind_ok _ _ _ _ _ E1). cbn [first tail] in *. destruct (in_int (c * 8 + d)) eqn:Ei; [|done].
    rewrite bind_ret. destruct (peekchar_ok f _ _ (input_0 _ _ Hi1)) as (s2 & E2 & Hq2 & Hi2). rewrite (bind_ok _ _ _ _ _ E2).
    unfold octal_p, in_int, INT_MIN, INT_MAX in *.
    eapply fin_weaken; [apply IH; [done|lia|unfold in_int, INT_MIN, INT_MAX in *; lia|lia]|]. intros x s' (rest & Hr & Hq & Hl & Hx). exists rest. split; [done|]. split; [unfold quiet in *; congruence|].
    split; [by apply left_cons|done].
  - exists (d :: bs). split; [done|]. split; [done|]. split; [apply left_refl|done].
Qed.
Lemma char_name_fin : forall f bs buf s, input s bs -> (length bs < f)%nat ->
  fin (read_char_name f (first bs) buf s) (fun _ s' => exists rest, input s' rest /\ quiet s s' /\ left_of bs rest).
Proof.
  induction f as [|f IH]; intros bs buf s Hi Hf; [lia|]. cbn [read_char_name]. destruct (_ <? 10); [|done]. destruct bs as [|d bs]; cbn [first length] in *.
  { change (name_char_p (-1)) with false. exists []. split; [done|]. split; [done|apply left_refl]. }
  destruct (name_char_p d).
  - destruct (readchar_ok f _ _ Hi) as (s1 & E1 & Hq1 & Hi1). rewrite (bind_ok _ _ _ _ _ E1). cbn [first tail] in *.
    destruct (peekchar_ok f _ _ (input_0 _ _ Hi1)) as (s2 & E2 & Hq2 & Hi2). rewrite (bind_ok _ _ _ _ _ E2).
    eapply fin_weaken; [apply IH; [done|lia]|]. intros x s' (rest & Hr & Hq & Hl). exists rest. split; [done|]. split; [unfold quiet in *; congruence|by apply left_cons].
  - exists (d :: bs). split; [done|]. split; [done|apply left_refl].
Qed.
Lemma eputs_ok bs s : exists s', eputs bs s = ROk tt s' /\ quiet s s' /\ (forall b, input s b -> input s' b).
Proof. unfold eputs, fdputs, write_fd, modify. eexists. split; [reflexivity|]. split; [done|]. done. Qed.
Lemma char_named_int l name c : Forall (fun e => in_int (snd e) = true) l -> char_named l name = Some c -> in_int c = true.
Proof. induction 1 as [|[n v] l Hv Hl IH]; cbn; [done|]. destruct (bool_decide _); [by intros [= <-]|done]. Qed.
Lemma to_s32_int v : in_int (to_s32 v) = true.
Proof. apply to_s32_range. Qed.
Lemma character_fin f bs s al : ready s al -> input s bs -> can_alloc 2 s -> (length bs < f)%nat ->
  fin (reader_read_character f s) (fun r s' => exists rest, step 2 s al bs s' al rest /\ tree (outside (cells s')) r 0 /\ r <> cell_dot).
Proof.
  intros Hr Hi Ha Hf. unfold reader_read_character. destruct (readchar_ok f _ _ Hi) as (s1 & E1 & Hq1 & Hi1). rewrite (bind_ok _ _ _ _ _ E1).
  destruct (peekchar_ok f _ _ (input_0 _ _ Hi1)) as (s2 & E2 & Hq2 & Hi2). rewrite (bind_ok _ _ _ _ _ E2).
  assert (quiet s s2) as Hq by by eapply quiet_trans. assert (length (tail bs) < f)%nat by (destruct bs; cbn in *; lia).
  assert (in_int (first bs) = true) as Hfi. { destruct bs as [|c bs]; [done|]. pose proof (input_bytes _ _ Hi) as Hb. inversion Hb; subst. by apply byte_int. }
  assert (ready s2 al) as Hr2 by by eapply ready_quiet. assert (can_alloc 2 s2) as Ha2 by by eapply alloc_quiet.
  eapply (fin_bind _ _ _ (fun c s3 => exists rest, step 1 s al bs s3 al rest /\ in_int c = true)).
  - destruct (octal_p (first bs) && octal_p (first (tail bs))) eqn:Eo.
    { eapply fin_weaken; [apply octal_char_fin; [done|unfold octal_p in Eo; lia|unfold in_int, INT_MIN, INT_MAX, octal_p in *; lia|done]|].
      intros c s' (rest & Hir & Hqr & Hlr & Hc). exists rest. split; [|done]. eapply step_same; [done|by eapply quiet_trans|done|eapply left_trans; [apply left_tail|done]|lia]. }
    destruct ((first bs =? 120) && hex_start_p (first (tail bs))).
    { eapply fin_bind; [apply (base_fin 16 f (tail bs) s2 al); [done|done|eapply can_alloc_le; [done|lia]|done]|].
      intros r s3 (rest & n & Hst & (c & Hc & Ht & Hn)). apply outside_lookup in Hc as [Hc _]. apply cells_heap in Hc as [Hc _].
      unfold cdr_of. rewrite bind_assoc, (bind_ok _ _ _ _ _ (rd_ok' _ _ _ Hc)), bind_ret.
      destruct (eputs_ok (bytes_of "reading hex c=") s3) as (s4 & E4 & Hq4 & Hi4). rewrite (bind_ok _ _ _ _ _ E4).
      destruct (eputs_ok [10] s4) as (s5 & E5 & Hq5 & Hi5). rewrite (bind_ok _ _ _ _ _ E5). exists rest. split; [|apply to_s32_int].
      eapply (step_trans 1 0); [eapply step_quiet; [exact Hq|apply left_tail|exact Hst]|].
      eapply step_same; [apply Hst|by eapply quiet_trans|apply Hi5, Hi4, Hst|apply left_refl|lia]. }
    destruct (name_char_p (first bs) && name_char_p (first (tail bs))).
    { eapply fin_bind; [apply (char_name_fin f (tail bs)); [done|done]|]. intros buf s3 (rest & Hi3 & Hq3 & Hl3).
      destruct (char_named char_names buf) as [c|] eqn:Ec.
      - exists rest. split; [eapply step_same; [done|by eapply quiet_trans|done|eapply left_trans; [apply left_tail|done]|lia]|].
        eapply char_named_int; [|exact Ec]. repeat constructor.
      - eapply fin_bind; [apply straight_fin, straight_modify|intros _ ? _]. eapply fin_bind; [apply straight_fin, straight_modify|intros _ ? _].
        eapply fin_bind; [apply straight_fin, straight_modify|intros _ ? _]. eapply fin_bind; [apply straight_fin, straight_make_string0|intros msg ? _]. done. }
    exists (tail bs). split; [|done]. eapply step_same; [done|done|done|apply left_tail|lia].
  - intros c s3 (rest & Hst & Hc). unfold make_char.
    assert (can_alloc 1 s3) as Ha3. { eapply step_alloc; [exact Hst| |lia]. done. }
    rewrite (make_cell_s _ _ _ _ Ha3). destruct (new_cell s3 al rest rest (Cell TCHAR 0 c []) 1) as [H1 H2]; [apply Hst|apply Hst|apply left_refl|lia|discriminate|].
    exists rest. split; [eapply (step_trans 1 1); [exact Hst|exact H1]|]. split.
    + eapply (tree_atom _ _ (SChar c)); [|exact H2|discriminate]. split; [|done]. eexists. split; [exact H2|done].
    + eapply not_dot; [apply H1|exact H2|discriminate].
Qed.

(** ** Strings *)
(** at the end of the input the string never ends: the buffer overflows *)
Lemma string_eof : forall f buf s, input s [] -> Z.of_nat (length buf) <= MAX_STRING s -> MAX_STRING s - Z.of_nat (length buf) < Z.of_nat f -> fin (read_string_chars f buf s) (fun _ _ => False).
Proof.
  induction f as [|f IH]; intros buf s Hi Hb Hf; [lia|].
  cbn [read_string_chars]. destruct (readchar_ok f _ _ Hi) as (s1 & E1 & Hq1 & Hi1). rewrite (bind_ok _ _ _ _ _ E1). cbn [first tail Z.eqb] in *. rewrite bind_ret.
  eapply fin_bind; [apply store_fin|]. intros b s2 (-> & -> & Hlt). rewrite (quiet_max _ _ Hq1) in *. apply IH; [by apply input_0| |]; rewrite app_length, (quiet_max _ _ Hq1); cbn [length]; lia.
Qed.
Lemma string_chars_fin : forall f bs buf s al, ready s al -> input s bs -> can_alloc (Z.of_nat (length bs)) s -> Z.of_nat (length buf) <= max ->
  max - Z.of_nat (length buf) + Z.of_nat (length bs) < Z.of_nat f ->
  fin (read_string_chars f buf s) (fun buf' s' => exists rest n, step n s al bs s' al rest /\ Z.of_nat (length buf') + n + 1 + Z.of_nat (length rest) <= Z.of_nat (length buf) + Z.of_nat (length bs)).
Proof.
  induction f as [|f IH]; intros bs buf s al Hr Hi Ha Hb Hf; [lia|]. pose proof (ready_max _ _ _ _ _ Hr) as Hmx.
  destruct bs as [|c bs].
  { eapply fin_weaken; [apply string_eof; [done|lia|lia]|]. done. }
  cbn [read_string_chars]. destruct (readchar_ok f _ _ Hi) as (s1 & E1 & Hq1 & Hi1). rewrite (bind_ok _ _ _ _ _ E1). cbn [first tail length] in *.
  assert (ready s1 al) as Hr1 by by eapply ready_quiet.
  destruct (Z.eqb_spec c 34) as [->|H34].
  { exists bs, 0. split; [|lia]. eapply step_same; [done|done|by apply input_0|by apply left_cons, left_refl|lia]. }
  eapply (fin_bind _ _ _ (fun c' s2 => exists bs2 n, step n s al (c :: bs) s2 al bs2 /\ Z.of_nat (length bs2) + 1 + n <= Z.of_nat (length (c :: bs)) /\ 0 <= n)).
  - destruct (c =? 92).
    2:{ exists bs, 0. split; [|cbn [length]; lia]. eapply step_same; [done|done|by apply input_0|by apply left_cons, left_refl|lia]. }
    destruct (readchar_ok f _ _ (input_0 _ _ Hi1)) as (s2 & E2 & Hq2 & Hi2). rewrite (bind_ok _ _ _ _ _ E2). assert (quiet s s2) as Hq by by eapply quiet_trans.
    destruct (Z.eqb_spec (first bs) 120) as [H120|].
    + destruct bs as [|d bs]; [discriminate H120|]. cbn [first tail length] in *.
      eapply fin_bind; [apply (base_fin 16 f bs s2 al); [by eapply ready_quiet|by apply input_0|eapply alloc_quiet; [done|eapply can_alloc_le; [done|lia]]|lia]|].
      intros r s3 (rest & n & Hst & (cc & Hc & Ht & Hn)). apply outside_lookup in Hc as [Hc _]. apply cells_heap in Hc as [Hc _].
      unfold cdr_of. rewrite (bind_ok _ _ _ _ _ (rd_ok' _ _ _ Hc)). exists rest, 1. split; [|split; [|lia]].
      * eapply step_quiet; [exact Hq| |exact Hst]. by do 2 apply left_cons; apply left_refl.
      * apply step_length in Hst. cbn [length]. lia.
    + exists (tail bs), 0. split; [|destruct bs; cbn [length tail]; lia]. eapply step_same; [done|done|by apply input_0|apply left_cons, left_tail|lia].
  - intros c' s2 (bs2 & n2 & Hst & Hn2 & Hn0). eapply fin_bind; [apply store_fin|]. intros b s3 (-> & -> & Hlt). cbn [length] in Hn2.
    pose proof (st_ready _ _ _ _ _ _ _ Hst) as Hr2. rewrite (ready_max _ _ _ _ _ Hr2) in Hlt.
    eapply fin_weaken; [apply (IH bs2 _ s2 al)|].
    { done. } { apply Hst. } { eapply step_alloc; [exact Hst| |lia]. eapply can_alloc_le; [done|lia]. }
    { rewrite app_length. cbn [length]. lia. } { rewrite app_length. cbn [length]. lia. }
    intros buf' s' (rest & n & Hst' & Hn). exists rest, (n2 + n). split; [by eapply step_trans|]. rewrite app_length in Hn. cbn [length] in *. lia.
Qed.
Lemma string_fin f bs s al : ready s al -> input s bs -> can_alloc (2 * Z.of_nat (length bs) + 4) s -> max + Z.of_nat (length bs) < Z.of_nat f ->
  fin (reader_read_string f s) (fun r s' => exists rest n, step n s al bs s' al rest /\ n <= 2 * Z.of_nat (length bs - length rest) + 4 /\ tree (outside (cells s')) r 0 /\ r <> cell_dot).
Proof.
  intros Hr Hi Ha Hf. pose proof (ready_room _ _ _ _ _ Hr). unfold reader_read_string. eapply fin_bind; [apply (string_chars_fin f bs [] s al); [done|done|eapply can_alloc_le; [done|lia]|cbn; lia|cbn [length]; lia]|].
  intros buf s1 (rest & n & Hst & Hn). cbn [length] in Hn. eapply fin_bind; [apply store_fin|]. intros b s2 (_ & -> & Hlt).
  pose proof (st_ready _ _ _ _ _ _ _ Hst) as Hr1. assert (0 <= n) as Hn0 by (destruct (st_heap _ _ _ _ _ _ _ Hst) as (k & ? & [? _ _ _]); lia).
  assert (string_cells buf <= Z.of_nat (length buf) + 4 /\ 0 <= string_cells buf) as [Hsc Hsc0] by (unfold string_cells, bytes_cells; lia).
  destruct (make_string_ok buf s1) as (s3 & E3 & Hm3 & Ht3).
  { eapply step_alloc; [exact Hst| |lia]. eapply can_alloc_le; [done|lia]. } { lia. }
  rewrite E3. assert (step (string_cells buf) s1 al rest s3 al rest) as Hst3 by (eapply step_new; [done|apply Hst|apply left_refl|done|lia]).
  pose proof (outside_text _ _ _ _ _ _ _ (ready_symbols _ _ _ _ _ (st_ready _ _ _ _ _ _ _ Hst3)) (ltac:(discriminate) : TSTRING <> TREF) Ht3) as (c & b' & Hc & Htc & _).
  pose proof (step_length _ _ _ _ _ _ _ Hst).
  exists rest, (n + string_cells buf). split; [by eapply step_trans|]. split; [lia|]. split.
  - eapply tree_other; [exact Hc|]. rewrite Htc. vm_compute. set_solver.
  - eapply not_dot; [apply Hst3|exact Hc|rewrite Htc; discriminate].
Qed.

(** ** Vectors *)
(** a list that does not end in [cell_nil] *)
Inductive improper (h : gmap Z cell) : Z -> nat -> Prop :=
| improper_end p c : p <> cell_nil -> h !! p = Some c -> c_ty c <> TPAIR -> improper h p 0
| improper_pair p a d n : p <> cell_nil -> pair_at h p a d -> improper h d n -> improper h p (S n).
Lemma tree_list s al : ready s al -> forall p n, tree (outside (cells s)) p n ->
  (exists es sls, list_at (cells s) p es /\ Forall2 (value_at (cells s)) es sls /\ length es = n) \/ improper (cells s) p n.
Proof.
  intros Hr p n H. induction H as [p sl c Hv Hp Ht|p a d m n Hp Ha _ Hd IH].
  - destruct (decide (p = cell_nil)) as [->|Hn].
    + left. exists [], []. split; [constructor|]. split; [constructor|done].
    + right. econstructor; [done| |done]. by apply outside_lookup in Hp as [Hp _].
  - assert (p <> cell_nil) as Hpn by (eapply pair_not_nil; [apply Hr|exact Hp]).
    assert (pair_at (cells s) p a d) as Hpc by (eapply pair_at_mono; [apply outside_sub|exact Hp]). destruct IH as [(es & sls & Hes & Hsl & Hlen)|IH].
    + left. destruct (tree_value _ _ _ Ha) as (sl & Hsl0). exists (a :: es), (sl :: sls). split; [by econstructor|].
      split; [constructor; [eapply value_at_mono; [apply outside_sub|done]|done]|cbn; lia].
    + right. by econstructor.
Qed.
Lemma improper_length s p n : improper (cells s) p n -> forall f k, (n < f)%nat -> length_loop f p k s = ROk (-1) s.
Proof.
  induction 1 as [p c Hn Hp Ht|p a d n Hn (c & Hp & Ht & _ & Hd) _ IH]; intros [|f] k Hf; try lia; cbn [length_loop]; rewrite (proj2 (Z.eqb_neq _ _) Hn);
    apply cells_heap in Hp as [Hp _]; rewrite (bind_ok _ _ _ _ _ (rd_ok' _ _ _ Hp)).
  - by rewrite (proj2 (Z.eqb_neq _ _) Ht).
  - rewrite Ht, Hd, Z.eqb_refl. apply IH. lia.
Qed.
(** the cells [h] below [B] are in the heap, and allocation is above *)
Definition below (B : Z) (h : gmap Z cell) (s : state) : Prop := B <= g_free s /\ forall q c, h !! q = Some c -> q < B /\ heap s !! q = Some c.
Lemma wr_below B h q c s : below B h s -> B <= q -> fin (wr q c s) (fun _ s' => below B h s').
Proof.
  intros [H1 H2] Hq. unfold wr. destruct (_ && _); [|done]. cbn. split; [done|]. intros q' c' Hc. destruct (H2 _ _ Hc). split; [done|]. cbn. rewrite lookup_insert_ne by lia. done.
Qed.
Lemma rd_below B h q s : below B h s -> fin (rd q s) (fun _ s' => s' = s).
Proof. intros _. unfold rd. by destruct (heap s !! q). Qed.
Lemma modify_fin g s : fin (modify g s) (fun _ s' => s' = g s). Proof. done. Qed.
Lemma alloc_below B h n s : below B h s -> B <= g_free s + n -> fin (alloc n s) (fun x s' => x = g_free s /\ below B h s' /\ g_free s' = g_free s + n).
Proof.
  intros [H1 H2] Hn. unfold alloc. rewrite bind_gets. eapply fin_bind; [apply modify_fin|]. intros _ s1 ->. rewrite bind_get.
  destruct (_ <? _); [done|]. rewrite bind_ret. cbn. split; [done|]. split; [split; [done|done]|done].
Qed.
Lemma make_below B h t a d s : below B h s -> fin (make_cell t a d s) (fun _ s' => below B h s').
Proof.
  intros [H1 H2]. unfold make_cell. rewrite bind_gets. eapply fin_bind; [apply modify_fin|]. intros _ s1 ->. rewrite bind_get.
  destruct (_ <? _); [done|]. rewrite bind_ret. eapply fin_bind; [apply (wr_below B h); [split; cbn; [lia|done]|cbn; lia]|]. intros u s' H. done.
Qed.
Lemma improper_copy B h p n : improper h p n -> forall f q s, below B h s -> B <= q -> (n < f)%nat -> fin (l2v_loop f q p s) (fun _ _ => False).
Proof.
  induction 1 as [p c Hn Hp Ht|p a d n Hn (c & Hp & Ht & Ha & Hd) _ IH]; intros [|f] q s Hb Hq Hf; try lia; cbn [l2v_loop]; rewrite (proj2 (Z.eqb_neq _ _) Hn).
  - destruct (proj2 Hb _ _ Hp) as [_ Hp']. unfold DataModel.car. rewrite bind_assoc, (bind_ok _ _ _ _ _ (rd_ok' _ _ _ Hp')), (proj2 (Z.eqb_neq _ _) Ht). rewrite bind_assoc. eapply fin_bind; [by apply (make_below B h)|]. intros e s1 _. done.
  - destruct (proj2 Hb _ _ Hp) as [_ Hp']. unfold DataModel.car. rewrite bind_assoc, (bind_ok _ _ _ _ _ (rd_ok' _ _ _ Hp')), Ht, Z.eqb_refl, bind_ret.
    eapply (fin_bind _ _ _ (fun _ s' => below B h s')).
    { unfold vector_entry, ty. rewrite bind_assoc. eapply fin_bind; [by apply (rd_below B h)|]. intros c' s' ->. rewrite bind_ret. destruct (_ && _); [|done]. by apply make_below. }
    intros e s1 Hb1. eapply (fin_bind _ _ _ (fun _ s' => below B h s')).
    { unfold copy_cell. eapply fin_bind; [by apply (rd_below B h)|]. intros c' s' ->. by apply wr_below. }
    intros _ s2 Hb2. destruct (proj2 Hb2 _ _ Hp) as [_ Hp2]. unfold DataModel.cdr. rewrite bind_assoc, (bind_ok _ _ _ _ _ (rd_ok' _ _ _ Hp2)), Ht, Z.eqb_refl, bind_ret.
    rewrite Hd. apply IH; [done|lia|lia].
Qed.
Lemma vector_fin s al bs p n f : ready s al -> input s bs -> tree (outside (cells s)) p n -> (n < f)%nat -> can_alloc (1 + 3 * Z.of_nat n) s ->
  fin (list_to_vector f p s) (fun r s' => step (1 + 3 * Z.of_nat n) s al bs s' al bs /\ tree (outside (cells s')) r 0 /\ r <> cell_dot).
Proof.
  intros Hr Hi Ht Hf Ha. destruct (tree_list s al Hr p n Ht) as [(es & sls & Hes & Hsl & Hlen)|Him].
  - subst n. destruct (list_to_vector_ok f p es sls s Hes Hsl) as (s2 & k & E & Hk & Hm & [(cv & Hcv & Htv & _) _]); [lia|done| |].
    { eapply (constant_type _ _ true); [apply Hr|reflexivity]. }
    rewrite E. assert (step (1 + 3 * Z.of_nat (length es)) s al bs s2 al bs) as Hst by (eapply step_new; [done|done|apply left_refl|done|lia]).
    assert (outside (cells s2) !! g_free s = Some cv) as Hcv'. { eapply outside_other; [apply (st_ready _ _ _ _ _ _ _ Hst)|done|rewrite Htv; discriminate]. }
    split; [done|]. split; [eapply tree_other; [exact Hcv'|rewrite Htv; vm_compute; set_solver]|].
    eapply not_dot; [apply Hst|exact Hcv'|rewrite Htv; discriminate].
  - unfold list_to_vector, length__. rewrite (bind_ok _ _ _ _ _ (improper_length _ _ _ Him f 0 Hf)).
    assert (below (g_free s) (cells s) s) as Hb. { split; [lia|]. intros q c Hc. apply cells_heap in Hc as [? ?]. done. }
    unfold make_vector_. rewrite !bind_assoc. eapply fin_bind; [apply (alloc_below (g_free s) (cells s)); [done|lia]|]. intros x s1 (Ex & Hb1 & Hf1). rewrite Ex. clear x Ex.
    rewrite !bind_assoc. eapply fin_bind; [apply (alloc_below (g_free s) (cells s)); [done|lia]|]. intros v s2 (Ev & Hb2 & Hf2). rewrite Ev. clear v Ev. rewrite !bind_assoc. eapply (fin_bind _ _ _ (fun _ s' => below (g_free s) (cells s) s' /\ heap s' !! g_free s = Some (Cell TVECTOR (-1) (g_free s1) []))).
    { pose proof (wr_below (g_free s) (cells s) (g_free s) (Cell TVECTOR (-1) (g_free s1) []) s2 Hb2 ltac:(lia)) as Hw. revert Hw. unfold wr. destruct (_ && _); [|done]. cbn. intros Hw. split; [done|]. apply lookup_insert. }
    intros _ s3 (Hb3 & Hv). change (Z.to_nat (-1)) with O. cbn [fill_loop]. rewrite bind_assoc, !bind_ret. unfold cdr_of. rewrite bind_assoc, (bind_ok _ _ _ _ _ (rd_ok' _ _ _ Hv)), bind_ret. cbn [c_cdr].
    eapply fin_bind; [apply (improper_copy (g_free s) (cells s) p n); [done|done|lia|lia]|]. done.
Qed.

(** ** Data *)
Lemma tagged_fin s al rest sym x m name : ready s al -> input s rest -> (name, sym) ∈ tag_symbols -> tree (outside (cells s)) x m -> can_alloc 2 s ->
  exists r s', tagged sym x s = ROk r s' /\ step 2 s al rest s' al rest /\ tree (outside (cells s')) r 2 /\ r <> cell_dot.
Proof.
  intros Hr Hi Hs Ht Ha. assert (can_alloc 1 s) as Ha0 by (eapply can_alloc_le; [exact Ha|lia]). unfold tagged, Heap.cons. rewrite (bind_ok _ _ _ _ _ (make_cell_s TPAIR x cell_nil s Ha0)).
  destruct (new_cell s al rest rest (Cell TPAIR x cell_nil []) 1 Hr Hi (left_refl _) ltac:(lia) ltac:(discriminate)) as [H1 C1].
  set (s1 := with_cell (Cell TPAIR x cell_nil []) s) in *. pose proof (st_ready _ _ _ _ _ _ _ H1) as Hr1.
  assert (can_alloc 1 s1) as Ha1 by (eapply step_alloc; [exact H1|done|lia]). rewrite (make_cell_s _ _ _ _ Ha1).
  destruct (new_cell s1 al rest rest (Cell TPAIR sym (g_free s) []) 1 Hr1 (st_input _ _ _ _ _ _ _ H1) (left_refl _) ltac:(lia) ltac:(discriminate)) as [H2 C2].
  eexists _, _. split; [reflexivity|]. split; [by eapply (step_trans 1 1)|]. split; [|eapply not_dot; [apply H2|exact C2|discriminate]].
  assert (is_symbol (cells (with_cell (Cell TPAIR sym (g_free s) []) s1)) sym name) as (t & Htt & Hsym).
  { eapply interned_symbol; [apply (st_ready _ _ _ _ _ _ _ H2)|]. pose proof (ready_tags _ _ _ _ _ Hr) as Htg. rewrite Forall_forall in Htg. exact (Htg _ Hs). }
  assert (type_at (cells s1) cell_nil TSPECIAL) as (cn & Hcn & Htn) by (eapply (constant_type _ _ true); [apply (ready_symbols _ _ _ _ _ Hr1)|reflexivity]).
  eapply (tree_pair _ _ _ _ 0 1); [eexists; split; [exact C2|done]| |].
  - eapply symbol_tree. exists t. split; [done|]. eapply outside_text; [apply (st_ready _ _ _ _ _ _ _ H2)| |exact Hsym].
    rewrite !elem_of_cons, elem_of_nil in Htt. destruct Htt as [->|[->|[]]]; discriminate.
  - eapply step_tree; [exact H2|]. eapply (tree_pair _ _ _ _ m 0); [eexists; split; [exact C1|done]|by eapply step_tree|].
    eapply tree_other; [eapply outside_other; [apply (ready_symbols _ _ _ _ _ Hr1)|exact Hcn|rewrite Htn; discriminate]|rewrite Htn; vm_compute; set_solver].
Qed.
Lemma constant_tree s al k b : ready s al -> In (k, b) [(cell_nil, true); (cell_f, true); (cell_t, true); (cell_dot, true)] -> tree (outside (cells s)) k 0.
Proof.
  intros Hr Hk. assert (type_at (cells s) k TSPECIAL) as (c & Hc & Ht).
  { destruct Hk as [[= <- <-]|[[= <- <-]|[[= <- <-]|[[= <- <-]|[]]]]]; eapply (constant_type _ _ true); try apply (ready_symbols _ _ _ _ _ Hr); reflexivity. }
  eapply tree_other; [eapply outside_other; [apply (ready_symbols _ _ _ _ _ Hr)|exact Hc|rewrite Ht; discriminate]|rewrite Ht; vm_compute; set_solver].
Qed.

Definition good (bs : list Z) : Prop := ascii bs /\ comments_closed bs /\ dots_followed bs.
Lemma good_left bs bs' : good bs -> left_of bs bs' -> good bs'.
Proof. intros (H1 & H2 & H3) Hl. split; [by eapply ascii_left|]. split; [by eapply comments_closed_left|by eapply dots_followed_left]. Qed.
Definition used (bs rest : list Z) : Z := Z.of_nat (length bs) - Z.of_nat (length rest).
(** the object was a dot *)
Definition at_dot (bs rest : list Z) : Prop := exists u, bs = u ++ 46 :: rest /\ reader_identifier_p (first rest) = false.
Definition after_dot (bs : list Z) : Prop := exists ws r, bs = ws ++ r /\ Forall white ws /\ datum_start r.
Definition sexp_post (s : state) (al : list entry) (bs : list Z) (r : Z) (s' : state) : Prop :=
  exists al' rest n m, step n s al bs s' al' rest /\ tree (outside (cells s')) r m /\
    (0 < used bs rest /\ n + 3 * Z.of_nat m <= 20 * used bs rest - 5 \/ n <= 1 /\ m = O /\ (bs = [] /\ n <= 0 /\ r = cell_nil \/ first bs = 11 \/ first bs = 13)) /\
    (r = cell_dot -> at_dot bs rest) /\ (datum_start bs -> bs <> [] -> r <> cell_dot).
Definition list_post (s : state) (al : list entry) (bs : list Z) (r : Z) (s' : state) : Prop :=
  exists al' rest n m, step n s al bs s' al' rest /\ tree (outside (cells s')) r m /\ 0 < used bs rest /\ n + 3 * Z.of_nat m <= 20 * used bs rest /\ r <> cell_dot /\
    (after_dot bs -> exists a d ma, pair_at (outside (cells s')) r a d /\ a <> cell_dot /\ tree (outside (cells s')) a ma /\ n + 3 * Z.of_nat ma <= 20 * used bs rest).
Definition hash_post (s : state) (al : list entry) (bs : list Z) (r : Z) (s' : state) : Prop :=
  exists al' rest n m, step n s al bs s' al' rest /\ tree (outside (cells s')) r m /\ n + 3 * Z.of_nat m <= 20 * used bs rest + 15 /\
    (r = cell_dot -> at_dot bs rest) /\ (first bs ∈ bytes_of "ft\(:box" -> r <> cell_dot).
Context (K : nat).
Context (HK : max + 10 <= Z.of_nat K).
Definition good_sexp (f : nat) : Prop := forall s al bs, ready s al -> cur s bs -> good bs -> can_alloc (20 * Z.of_nat (length bs)) s -> (length al + 8 * length bs + K <= f)%nat ->
  fin (reader_read_sexp_ f (first bs) s) (sexp_post s al bs).
Definition good_list (f : nat) : Prop := forall s al bs, ready s al -> cur s bs -> good bs -> can_alloc (20 * Z.of_nat (length bs)) s -> (length al + 8 * length bs + K + 1 <= f)%nat ->
  fin (reader_read_list f (first bs) s) (list_post s al bs).
Definition good_hash (f : nat) : Prop := forall s al bs, ready s al -> cur s bs -> good (35 :: bs) -> can_alloc (20 * Z.of_nat (length bs) + 15) s -> (length al + 8 * length bs + K + 1 <= f)%nat ->
  fin (reader_read_hash f (first bs) s) (hash_post s al bs).
Lemma not_identifier rest : is_bytes rest -> reader_identifier_p (first rest) = false -> forall c r, rest = c :: r -> ~ printing c.
Proof.
  intros Hb H c r -> [Hc Hn]. cbn [first] in H. lits. rewrite !elem_of_cons, elem_of_nil in Hn. unfold reader_identifier_p in H. lia.
Qed.
Lemma at_dot_app u bs rest : at_dot bs rest -> at_dot (u ++ bs) rest.
Proof. intros (v & -> & H). exists (u ++ v). by rewrite app_assoc. Qed.
Lemma at_dot_left bs bs1 rest : left_of bs bs1 -> at_dot bs1 rest -> at_dot bs rest.
Proof. intros (u & ->). apply at_dot_app. Qed.
Lemma used_trans a b c : used a c = used a b + used b c. Proof. unfold used. lia. Qed.
Lemma used_step n s al bs s' al' rest : step n s al bs s' al' rest -> 0 <= used bs rest.
Proof. intros H. apply step_length in H. unfold used. lia. Qed.
Lemma used_cons c bs rest : used (c :: bs) rest = used bs rest + 1. Proof. unfold used. cbn [length]. lia. Qed.
Lemma step_nonneg n s al bs s' al' rest : step n s al bs s' al' rest -> 0 <= n.
Proof. intros [_ _ _ (k & ? & [? _ _ _]) _]. lia. Qed.

(** the next datum *)
Lemma next_fin f s al bs : good_sexp f -> ready s al -> input s bs -> good bs -> can_alloc (20 * Z.of_nat (length bs)) s -> (length al + 8 * length bs + K <= f)%nat ->
  fin ((c <- readchar f ;; reader_read_sexp_ f c) s) (sexp_post s al bs).
Proof.
  intros IH Hr Hi Hg Ha Hf. destruct (cur_read f _ _ Hi) as (s1 & E1 & Hq1 & Hc1). rewrite (bind_ok _ _ _ _ _ E1).
  eapply fin_weaken; [apply (IH s1 al bs); [by eapply ready_quiet|done|done|by eapply alloc_quiet|done]|].
  intros r s' (al' & rest & n & m & Hst & H). exists al', rest, n, m. split; [eapply step_quiet; [exact Hq1|apply left_refl|exact Hst]|done].
Qed.
(** layout and prefixes before a datum that is passed on *)
Lemma sexp_later s s1 al c bs bs1 r s' : quiet s s1 -> left_of bs bs1 -> ~ datum_start (c :: bs) -> sexp_post s1 al bs1 r s' -> sexp_post s al (c :: bs) r s'.
Proof.
  intros Hq Hl Hn (al' & rest & n & m & Hst & Ht & Hcost & Hd & _). exists al', rest, n, m. split; [eapply step_quiet; [exact Hq|by apply left_cons|exact Hst]|].
  split; [done|]. pose proof (used_step _ _ _ _ _ _ _ Hst). pose proof (left_length _ _ Hl). split; [|split; [|done]].
  - left. unfold used in *. cbn [length] in *. destruct Hcost as [Hcost|(? & -> & _)]; lia.
  - intros E. eapply at_dot_left; [by apply left_cons|]. by apply Hd.
Qed.
Lemma hash_later s s1 al bs bs1 r s' : quiet s s1 -> left_of bs bs1 -> first bs ∉ bytes_of "ft\(:box" -> sexp_post s1 al bs1 r s' -> hash_post s al bs r s'.
Proof.
  intros Hq Hl Hn (al' & rest & n & m & Hst & Ht & Hcost & Hd & _). exists al', rest, n, m. split; [eapply step_quiet; [exact Hq|exact Hl|exact Hst]|].
  split; [done|]. pose proof (used_step _ _ _ _ _ _ _ Hst). pose proof (left_length _ _ Hl). split; [|split; [|done]].
  - unfold used in *. destruct Hcost as [Hcost|(? & -> & _)]; lia.
  - intros E. eapply at_dot_left; [done|]. by apply Hd.
Qed.
(** an abbreviation *)
Lemma abbreviation_fin f s al c bs bs1 s1 name sym : good_sexp f -> ready s al -> quiet s s1 -> left_of bs bs1 -> input s1 bs1 -> good bs1 -> (name, sym) ∈ tag_symbols ->
  can_alloc (20 * Z.of_nat (length (c :: bs)) - 5) s -> (length al + 8 * length bs + K <= f)%nat ->
  fin ((x <- (c <- readchar f ;; reader_read_sexp_ f c) ;; tagged sym x) s1) (fun r s' => exists al' rest n m, step n s al (c :: bs) s' al' rest /\ tree (outside (cells s')) r m /\
    n + 3 * Z.of_nat m <= 20 * used (c :: bs) rest - 5 /\ 0 < used (c :: bs) rest /\ r <> cell_dot).
Proof.
  intros IH Hr Hq Hl Hi Hg Hs Ha Hf. pose proof (left_length _ _ Hl). cbn [length] in Ha.
  eapply fin_bind; [apply (next_fin f s1 al bs1 IH); [by eapply ready_quiet|done|done|eapply alloc_quiet; [done|]; eapply can_alloc_le; [done|lia]|lia]|].
  intros x s2 (al2 & rest & n & m & Hst & Ht & Hcost & _). pose proof (used_step _ _ _ _ _ _ _ Hst) as Hu. pose proof (step_length _ _ _ _ _ _ _ Hst).
  assert (n <= 20 * used bs1 rest + 1) as Hn by (destruct Hcost as [?|(? & ? & _)]; lia).
  destruct (tagged_fin s2 al2 rest sym x m name) as (r & s3 & E3 & Hst3 & Ht3 & Hd3).
  { apply Hst. } { apply Hst. } { done. } { done. }
  { eapply step_alloc; [exact Hst| |lia]. eapply alloc_quiet; [exact Hq|]. eapply can_alloc_le; [done|]. unfold used in *. lia. }
  rewrite E3. exists al2, rest, (n + 2), 2%nat. split; [eapply step_trans; [eapply step_quiet; [exact Hq|apply left_cons; exact Hl|exact Hst]|exact Hst3]|].
  split; [done|]. unfold used in *. cbn [length] in *. split; [destruct Hcost as [?|(? & ? & _)]; lia|]. split; [lia|done].
Qed.
Lemma not_start c bs : white c \/ c = 59 \/ c = 41 \/ c = 46 -> ~ datum_start (c :: bs).
Proof.
  intros H Hd. cbn [datum_start] in Hd. lits. unfold white in *. rewrite !elem_of_cons, !elem_of_nil in Hd. destruct Hd as [[? ?]|[-> _]]; [|rewrite !elem_of_cons, elem_of_nil in H; lia].
  rewrite !elem_of_cons, !elem_of_nil in *. tauto.
Qed.

Ltac tag_in := first [apply elem_of_list_here | apply elem_of_list_further; tag_in].
Ltac tagin := unfold tag_symbols; tag_in.
Lemma sexp_step f : good_sexp f -> good_list f -> good_hash f -> good_sexp (S f).
Proof.
  intros IHs IHl IHh s al bs Hr Hc Hg Ha Hf. cbn [reader_read_sexp_]. cbv zeta. destruct bs as [|c bs].
  { cbn [first Z.eqb]. exists al, [], 0, O. split; [eapply step_same; [done|done|exact (cur_input _ _ Hc)|apply left_refl|lia]|].
    split; [eapply constant_tree; [done|by left]|]. split; [right; split; [lia|]; split; [done|]; left; done|]. split; [discriminate|done]. }
  pose proof (cur_byte _ _ _ Hc) as Hb. pose proof (cur_tail _ _ _ Hc) as Hi. cbn [first length] in *. rewrite (proj2 (Z.eqb_neq c (-1))) by lia.
  assert (good bs) as Hg1 by (eapply good_left; [exact Hg|apply left_cons, left_refl]).
  assert (can_alloc (20 * Z.of_nat (length bs)) s) as Ha1 by (eapply can_alloc_le; [done|lia]).
  destruct (Z.eqb_spec c 59) as [->|H59].
  { eapply fin_bind; [apply (line_comment_fin f (59 :: bs)); [done|cbn [length]; lia]|]. intros a s1 (bs1 & -> & Hc1 & Hq1 & Hl1 & H10).
    assert (left_of bs bs1) as Hl1'. { destruct Hl1 as ([|x t] & E); [|by injection E as <- ->; exists t]. cbn in E. subst bs1. discriminate. }
    pose proof (left_length _ _ Hl1'). eapply fin_weaken; [apply (IHs s1 al bs1); [by eapply ready_quiet|done|by eapply good_left|eapply alloc_quiet; [done|eapply can_alloc_le; [done|lia]]|lia]|].
    intros r s'. apply sexp_later; [done|done|apply not_start; tauto]. }
  destruct ((c =? 32) || (c =? 9) || (c =? 10) || (c =? 12)) eqn:Ew.
  { eapply fin_weaken; [apply (next_fin f s al bs); [done|done|done|done|done|lia]|]. intros r s'. apply sexp_later; [done|apply left_refl|].
    apply not_start. left. unfold white. rewrite !elem_of_cons. lia. }
  destruct (Z.eqb_spec c 40) as [->|H40].
  { destruct (cur_read f _ _ Hi) as (s1 & E1 & Hq1 & Hc1). rewrite (bind_ok _ _ _ _ _ E1).
    eapply fin_weaken; [apply (IHl s1 al bs); [by eapply ready_quiet|done|done|by eapply alloc_quiet|lia]|].
    intros r s' (al' & rest & n & m & Hst & Ht & Hu & Hcost & Hd & _). exists al', rest, n, m. split; [eapply step_quiet; [exact Hq1|by apply left_cons, left_refl|exact Hst]|].
    split; [done|]. rewrite used_cons. split; [left; lia|]. split; [done|]. by intros _ _. }
  destruct (Z.eqb_spec c 41) as [->|H41].
  { exists al, bs, 0, O. split; [eapply step_same; [done|done|done|by apply left_cons, left_refl|lia]|]. split; [eapply constant_tree; [done|by left]|].
    split; [left; unfold used; cbn [length]; lia|]. split; [discriminate|by intros _ _]. }
  destruct (Z.eqb_spec c 35) as [->|H35].
  { destruct (cur_read f _ _ Hi) as (s1 & E1 & Hq1 & Hc1). rewrite (bind_ok _ _ _ _ _ E1).
    eapply fin_weaken; [apply (IHh s1 al bs); [by eapply ready_quiet|done|done|eapply alloc_quiet; [done|]; eapply can_alloc_le; [exact Ha|lia]|lia]|].
    intros r s' (al' & rest & n & m & Hst & Ht & Hcost & Hd & Hds). pose proof (used_step _ _ _ _ _ _ _ Hst). exists al', rest, n, m.
    split; [eapply step_quiet; [exact Hq1|by apply left_cons, left_refl|exact Hst]|].
    split; [done|]. rewrite used_cons. split; [left; lia|]. split; [intros E; eapply at_dot_left; [apply left_cons, left_refl|by apply Hd]|].
    intros Hstart _. cbn [datum_start] in Hstart. destruct Hstart as [[F _]|[_ (d & r'' & -> & Hin)]]; [exfalso; lits; set_solver|]. by apply Hds. }
  assert (forall s1 bs1 name sym, quiet s s1 -> left_of bs bs1 -> input s1 bs1 -> (name, sym) ∈ tag_symbols ->
    fin ((x <- (c <- readchar f ;; reader_read_sexp_ f c) ;; tagged sym x) s1) (sexp_post s al (c :: bs))) as Habb.
  { intros s1 bs1 name sym Hq1 Hl1 Hi1 Hs. eapply fin_weaken; [eapply (abbreviation_fin f s al c bs bs1 s1 name sym); [done|done|done|done|done|by eapply good_left|done| |lia]|].
    { cbn [length]. eapply can_alloc_le; [exact Ha|lia]. }
    intros r s' (al' & rest & n & m & Hst & Ht & Hcost & Hu & Hd). exists al', rest, n, m. split; [done|]. split; [done|]. split; [left; lia|]. split; [done|by intros _ _]. }
  destruct (Z.eqb_spec c 96) as [->|H96]. { eapply Habb; [done|apply left_refl|done|tagin]. }
  destruct (Z.eqb_spec c 44) as [->|H44].
  { destruct (peekchar_ok f _ _ Hi) as (s1 & E1 & Hq1 & Hi1). rewrite (bind_ok _ _ _ _ _ E1). destruct (first bs =? 64).
    - destruct (readchar_ok f _ _ Hi1) as (s2 & E2 & Hq2 & Hi2). rewrite (bind_ok _ _ _ _ _ E2). eapply Habb; [by eapply quiet_trans|apply left_tail|by apply input_0|tagin].
    - eapply Habb; [done|apply left_refl|done|tagin]. }
  destruct (Z.eqb_spec c 39) as [->|H39]. { eapply Habb; [done|apply left_refl|done|tagin]. }
  destruct (Z.eqb_spec c 34) as [->|H34].
  { eapply fin_weaken; [apply (string_fin f bs s al); [done|done|eapply can_alloc_le; [exact Ha|lia]|lia]|].
    intros r s' (rest & n & Hst & Hn & Ht & Hd). pose proof (step_length _ _ _ _ _ _ _ Hst). exists al, rest, n, O.
    split; [eapply step_quiet; [done|by apply left_cons, left_refl|exact Hst]|]. split; [done|].
    split; [left; unfold used; cbn [length]; lia|]. split; [done|by intros _ _]. }
  eapply (fin_bind _ _ _ (fun dot s1 => quiet s s1 /\ cur s1 (c :: bs) /\ dot = ((c =? 46) && negb (reader_identifier_p (first bs))))).
  { destruct (c =? 46).
    - destruct (cur_peek f _ _ _ Hc) as (s1 & E1 & Hq1 & Hc1). rewrite (bind_ok _ _ _ _ _ E1). done.
    - done. }
  intros dot s1 (Hq1 & Hc1 & ->). destruct ((c =? 46) && negb (reader_identifier_p (first bs))) eqn:Ed.
  { assert (c = 46 /\ reader_identifier_p (first bs) = false) as [-> Hid] by (apply andb_true_iff in Ed as [E1 E2]; split; [lia|by apply negb_true_iff]).
    exists al, bs, 0, O. split; [eapply step_same; [done|done|by eapply cur_tail|by apply left_cons, left_refl|lia]|].
    split; [eapply constant_tree; [by eapply ready_quiet|by do 3 right; left]|].
    split; [left; unfold used; cbn [length]; lia|]. split; [intros _; by exists []|]. intros Hst _. exfalso. revert Hst. apply not_start. tauto. }
  eapply fin_weaken; [apply (identifier_fin f (c :: bs) s1 al); [by eapply ready_quiet|done|apply Hg|eapply alloc_quiet; [done|]; cbn [length]; eapply can_alloc_le; [exact Ha|lia]|cbn [length]; lia|lia]|].
  intros r s' (al' & rest & n & Hst & Hres). eapply step_quiet in Hst; [|exact Hq1|apply left_refl]. pose proof (step_length _ _ _ _ _ _ _ Hst) as Hlen. exists al', rest, n, O. split; [done|].
  pose proof (st_ready _ _ _ _ _ _ _ Hst) as Hr'.
  destruct Hres as [(v & Hv & Hn & Hpr)|(name & Hsym & Hlt & Hn & Hdot)].
  - assert (r <> cell_dot) as Hnd by by eapply number_not_dot. split; [by eapply tree_number|]. split; [|split; [done|by intros _ _]].
    destruct Hpr as [He|Hlt]; [|left; unfold used; lia]. right. split; [done|]. split; [done|]. right. cbn [first] in *.
    unfold reader_end_of_word_p, c_isspace in He. lia.
  - assert (r <> cell_dot) as Hnd. { intros ->. destruct (Hdot (symbol_dot _ _ _ Hr' Hsym)) as [E1 E2]. cbn [first tail] in *. subst c. rewrite E2 in Ed. discriminate. }
    split; [by eapply symbol_tree|]. split; [left; unfold used; lia|]. split; [done|by intros _ _].
Qed.

Lemma list_step f : good_sexp f -> good_list f -> good_list (S f).
Proof.
  intros IHs IHl s al bs Hr Hc Hg Ha Hf. pose proof (ready_room _ _ _ _ _ Hr). cbn [reader_read_list].
  eapply fin_bind; [apply (eat_fin f bs); [done|apply Hg|lia]|]. intros c s1 (bs1 & -> & Hc1 & Hq1 & Hl1 & Hsp & H59 & Hws).
  pose proof (left_length _ _ Hl1) as Hlen1. pose proof (good_left _ _ Hg Hl1) as Hg1. assert (ready s1 al) as Hr1 by by eapply ready_quiet.
  assert (forall ws r, bs = ws ++ r -> Forall white ws -> datum_start r -> datum_start bs1) as Hstart. { intros ws r E1 E2 E3. by rewrite (Hws _ _ E1 E2 E3). }
  destruct (Z.eqb_spec (first bs1) 41) as [E41|H41].
  { destruct bs1 as [|c t]; [discriminate E41|]. cbn [first] in E41. subst c. exists al, t, 0, O.
    split; [eapply step_same; [done|done|by eapply cur_tail|eapply left_trans; [exact Hl1|by apply left_cons, left_refl]|lia]|].
    split; [eapply constant_tree; [done|by left]|]. cbn [length] in Hlen1. unfold used. split; [lia|]. split; [lia|]. split; [discriminate|].
    intros (ws & r & E1 & E2 & E3). exfalso. apply (not_start 41 t); [tauto|]. by eapply Hstart. }
  destruct (Z.eqb_spec (first bs1) (-1)) as [E|Hne].
  { eapply fin_bind; [apply straight_fin, straight_make_string0|intros msg ? _]. done. }
  eapply fin_bind; [apply (IHs s1 al bs1); [done|done|done|eapply alloc_quiet; [done|]; eapply can_alloc_le; [done|lia]|lia]|].
  intros x s2 (al2 & rest2 & n2 & m2 & Hst2 & Ht2 & Hcost2 & Hdot2 & Hds2).
  destruct Hcost2 as [[Hu2 Hcost2]|(_ & _ & [(-> & _)|E])]; [|done|exfalso; unfold c_isspace in Hsp; lia].
  pose proof (st_size _ _ _ _ _ _ _ Hst2) as Hsz2. pose proof (step_nonneg _ _ _ _ _ _ _ Hst2) as Hn2. unfold used in Hu2.
  destruct (cur_read f _ _ (st_input _ _ _ _ _ _ _ Hst2)) as (s3 & E3 & Hq3 & Hc3). rewrite (bind_ok _ _ _ _ _ E3).
  eapply fin_bind; [apply (IHl s3 al2 rest2)|].
  { eapply ready_quiet; [exact Hq3|apply Hst2]. } { done. } { eapply good_left; [exact Hg1|apply Hst2]. }
  { eapply alloc_quiet; [exact Hq3|]. eapply step_alloc; [exact Hst2| |lia]. eapply alloc_quiet; [done|]. eapply can_alloc_le; [done|unfold used in *; lia]. } { lia. }
  intros l s4 (al4 & rest4 & n4 & m4 & Hst4 & Ht4 & Hu4 & Hcost4 & Hd4 & Hpair4).
  assert (step (n2 + n4) s al bs s4 al4 rest4) as Hst.
  { eapply step_trans; [eapply step_quiet; [exact Hq1|exact Hl1|exact Hst2]|]. eapply step_quiet; [exact Hq3|apply left_refl|exact Hst4]. }
  assert (used bs rest4 = used bs bs1 + used bs1 rest2 + used rest2 rest4) as Hus by (unfold used; lia). assert (0 <= used bs bs1) by (unfold used; lia).
  destruct (Z.eqb_spec x cell_dot) as [->|Hxd].
  - destruct (Hdot2 eq_refl) as (u & Eu & Hid). assert (after_dot rest2) as Had.
    { destruct Hg1 as (_ & _ & Hdf). eapply (Hdf u rest2 Eu). apply not_identifier; [apply (cur_bytes _ _ Hc3)|done]. }
    destruct (Hpair4 Had) as (a & d & ma & (ca & Hca & Hta & Haa & _) & Hand & Htra & Hcosta).
    unfold car_of. apply outside_lookup in Hca as [Hca _]. apply cells_heap in Hca as [Hca _]. rewrite (bind_ok _ _ _ _ _ (rd_ok' _ _ _ Hca)), Haa.
    exists al4, rest4, (n2 + n4), ma. split; [done|]. split; [done|]. split; [unfold used in *; lia|]. split; [lia|]. split; [done|].
    intros (ws & r & E1 & E2 & E4). exfalso. eapply Hds2; [by eapply Hstart|by intros ->|done].
  - assert (can_alloc 1 s4) as Ha4. { eapply step_alloc; [exact Hst| |lia]. pose proof (step_length _ _ _ _ _ _ _ Hst). eapply can_alloc_le; [done|unfold used in *; lia]. }
    unfold Heap.cons. rewrite (make_cell_s _ _ _ _ Ha4).
    destruct (new_cell s4 al4 rest4 rest4 (Cell TPAIR x l []) 1) as [H5 C5]; [apply Hst4|apply Hst4|apply left_refl|lia|discriminate|].
    assert (tree (outside (cells (with_cell (Cell TPAIR x l []) s4))) x m2) as Htx.
    { eapply step_tree; [exact H5|]. eapply step_tree; [eapply step_quiet; [exact Hq3|apply left_refl|exact Hst4]|done]. }
    assert (pair_at (outside (cells (with_cell (Cell TPAIR x l []) s4))) (g_free s4) x l) as Hp by (eexists; split; [exact C5|done]).
    exists al4, rest4, (n2 + n4 + 1), (S m4). split; [by eapply step_trans|]. split; [econstructor; [exact Hp|exact Htx|by eapply step_tree]|].
    split; [unfold used in *; lia|]. split; [unfold used in *; lia|]. split; [eapply not_dot; [apply H5|exact C5|discriminate]|].
    intros _. exists x, l, m2. split; [done|]. split; [done|]. split; [done|]. unfold used in *. lia.
Qed.

Lemma hash_step f : good_sexp f -> good_list f -> good_hash f -> good_hash (S f).
Proof.
  intros IHs IHl IHh s al bs Hr Hc Hg0 Ha Hf. pose proof (cur_input _ _ Hc) as Hi. pose proof (ready_room _ _ _ _ _ Hr). cbn [reader_read_hash]. cbv zeta.
  assert (length (tail bs) <= length bs)%nat as Htl by (destruct bs; cbn; lia).
  assert (good bs) as Hg by (eapply good_left; [exact Hg0|apply left_cons, left_refl]).
  assert (good (tail bs)) as Hg1 by (eapply good_left; [exact Hg|apply left_tail]).
  assert (forall s1 bs1, quiet s s1 -> left_of (tail bs) bs1 -> input s1 bs1 -> first bs ∉ bytes_of "ft\(:box" -> fin ((c <- readchar f ;; reader_read_sexp_ f c) s1) (hash_post s al bs)) as Hnext.
  { intros s1 bs1 Hq1 Hl1 Hi1 Hn. pose proof (left_length _ _ Hl1). eapply fin_weaken; [apply (next_fin f s1 al bs1 IHs); [by eapply ready_quiet|done|by eapply good_left|eapply alloc_quiet; [done|]; eapply can_alloc_le; [exact Ha|lia]|lia]|].
    intros r s'. apply hash_later; [done|eapply left_trans; [apply left_tail|done]|done]. }
  assert (bytes_of "ft\(:box" = [102; 116; 92; 40; 58; 98; 111; 120]) as Hlit by reflexivity. rewrite Hlit in *.
  destruct bs as [|c bs].
  { cbn [first tail Z.eqb orb] in *. apply (Hnext s []); [done|apply left_refl|done|]. rewrite !elem_of_cons, elem_of_nil. lia. }
  cbn [first tail length] in *.
  assert (left_of (c :: bs) bs) as Hl1 by apply left_cons, left_refl.
  destruct ((c =? 33) || (c =? 124)) eqn:E33.
  { destruct (cur_read f _ _ Hi) as (s1 & E1 & Hq1 & Hc1). rewrite (bind_ok _ _ _ _ _ E1).
    eapply fin_bind; [apply (block_comment_fin c ltac:(lia) f bs); [done|apply block_closed; [apply Hg0|lia]|lia]|].
    intros _ s2 (bs2 & Hi2 & Hq2 & Hl2). apply (Hnext s2 bs2); [by eapply quiet_trans|done|done|]. rewrite !elem_of_cons, elem_of_nil. lia. }
  assert (forall k, In (k, true) [(cell_nil, true); (cell_f, true); (cell_t, true); (cell_dot, true)] -> k <> cell_dot -> fin (ret k s) (hash_post s al (c :: bs))) as Hconst.
  { intros k Hk Hkd. exists al, bs, 0, O. split; [eapply step_same; [done|done|done|done|lia]|]. split; [by eapply constant_tree|].
    split; [unfold used; cbn [length]; lia|]. split; [done|by intros _]. }
  destruct (Z.eqb_spec c 102) as [Hk102|Hk102]. { apply Hconst; [by right; left|discriminate]. }
  destruct (Z.eqb_spec c 116) as [Hk116|Hk116]. { apply Hconst; [by right; right; left|discriminate]. }
  assert (forall s1 bs1 name sym, quiet s s1 -> left_of bs bs1 -> input s1 bs1 -> (name, sym) ∈ tag_symbols ->
    fin ((x <- (c <- readchar f ;; reader_read_sexp_ f c) ;; tagged sym x) s1) (hash_post s al (c :: bs))) as Habb.
  { intros s1 bs1 name sym Hq1 Hlb1 Hi1 Hs. eapply fin_weaken; [eapply (abbreviation_fin f s al c bs bs1 s1 name sym); [done|done|done|done|done|by eapply good_left|done| |lia]|].
    { cbn [length]. eapply can_alloc_le; [exact Ha|lia]. }
    intros r s' (al' & rest & n & m & Hst & Ht & Hcost & Hu & Hd). exists al', rest, n, m. split; [done|]. split; [done|]. split; [lia|]. split; [done|by intros _]. }
  destruct (Z.eqb_spec c 44) as [->|H44].
  { destruct (peekchar_ok f _ _ Hi) as (s1 & E1 & Hq1 & Hi1). rewrite (bind_ok _ _ _ _ _ E1). destruct (first bs =? 64).
    - destruct (readchar_ok f _ _ Hi1) as (s2 & E2 & Hq2 & Hi2). rewrite (bind_ok _ _ _ _ _ E2). eapply Habb; [by eapply quiet_trans|apply left_tail|by apply input_0|tagin].
    - eapply Habb; [done|apply left_refl|done|tagin]. }
  destruct (Z.eqb_spec c 39) as [->|H39]. { eapply Habb; [done|apply left_refl|done|tagin]. }
  destruct (Z.eqb_spec c 96) as [->|H96]. { eapply Habb; [done|apply left_refl|done|tagin]. }
  destruct (Z.eqb_spec c 58) as [->|H58].
  { destruct (cur_read f _ _ Hi) as (s1 & E1 & Hq1 & Hc1). rewrite (bind_ok _ _ _ _ _ E1).
    eapply fin_bind; [apply (identifier_fin f bs s1 al); [by eapply ready_quiet|done|apply Hg1|eapply alloc_quiet; [done|]; eapply can_alloc_le; [exact Ha|lia]|lia|lia]|].
    intros x s2 (al2 & rest & n & Hst & Hres). pose proof (st_ready _ _ _ _ _ _ _ Hst) as Hr2. pose proof (step_length _ _ _ _ _ _ _ Hst) as Hlen2.
    assert (n <= 20 * used bs rest + 1) as Hnn. { destruct Hres as [(v & _ & ? & _)|(name & _ & ? & ? & _)]; unfold used; lia. }
    pose proof (step_nonneg _ _ _ _ _ _ _ Hst) as Hn0.
    assert (exists b cb, outside (cells s2) !! x = Some cb /\ (c_ty cb = TNUMBER \/ c_ty cb <> TNUMBER /\ is_symbol (outside (cells s2)) x b)) as (b & cx & Hcx & Htx).
    { destruct Hres as [(v & (cv & Hcv & Htv & _) & _)|(name & (t & Htt & (cv & b & Hcv & Htv & Hrest)) & _)].
      - exists [], cv. split; [done|by left].
      - exists name, cv. split; [done|]. right. split; [|exists t; split; [done|by exists cv, b]]. rewrite Htv. rewrite !elem_of_cons, elem_of_nil in Htt. destruct Htt as [->|[->|[]]]; discriminate. }
    unfold make_string0. replace (until_nul (bytes_of "keyword perifx ':' not followed by a symbol: ")) with (bytes_of "keyword perifx ':' not followed by a symbol: ") by reflexivity.
    destruct (make_string_ok (bytes_of "keyword perifx ':' not followed by a symbol: ") s2) as (s3 & E3 & Hm3 & _).
    { eapply step_alloc; [exact Hst| |vm_compute; done]. eapply alloc_quiet; [exact Hq1|]. eapply can_alloc_le; [exact Ha|].
      change (string_cells (bytes_of "keyword perifx ':' not followed by a symbol: ")) with 9. unfold used in *. lia. }
    { rewrite (ready_max _ _ _ _ _ Hr2). change (length (bytes_of "keyword perifx ':' not followed by a symbol: ")) with 45%nat. lia. }
    change (string_cells (bytes_of "keyword perifx ':' not followed by a symbol: ")) with 9 in Hm3.
    rewrite (bind_ok _ _ _ _ _ E3). assert (step 9 s2 al2 rest s3 al2 rest) as Hst3 by (eapply step_new; [done|apply Hst|apply left_refl|done|lia]).
    assert (step (n + 9) s al (58 :: bs) s3 al2 rest) as Hst' by (eapply step_trans; [eapply step_quiet; [exact Hq1|exact Hl1|exact Hst]|exact Hst3]).
    assert (outside (cells s3) !! x = Some cx) as Hcx3 by (eapply lookup_weaken; [exact Hcx|by eapply step_sub]).
    assert (heap s3 !! x = Some cx) as Hx3. { apply outside_lookup in Hcx3 as [Hx3 _]. by apply cells_heap in Hx3 as [Hx3 _]. }
    rewrite (bind_ok _ _ _ _ _ (ty_s _ _ _ Hx3)). destruct Htx as [->|[Htx _]].
    { rewrite Z.eqb_refl. eapply fin_bind; [apply straight_fin, straight_make_cell|intros ? ? _]. done. }
    rewrite (proj2 (Z.eqb_neq _ _) Htx). unfold symbol_to_keyword. rewrite (bind_ok _ _ _ _ _ (rd_ok' _ _ _ Hx3)).
    assert (can_alloc 1 s3) as Ha3. { eapply step_alloc; [exact Hst'| |lia]. eapply can_alloc_le; [exact Ha|unfold used in *; lia]. }
    rewrite (make_cell_s _ _ _ _ Ha3).
    destruct (new_cell s3 al2 rest rest (Cell TKEYWORD (c_car cx) (c_cdr cx) []) 1) as [H5 C5]; [apply Hst3|apply Hst3|apply left_refl|lia|discriminate|].
    exists al2, rest, (n + 9 + 1), O. split; [by eapply step_trans|]. split; [eapply tree_other; [exact C5|vm_compute; set_solver]|].
    split; [unfold used in *; cbn [length]; lia|]. assert (g_free s3 <> cell_dot) by (eapply not_dot; [apply H5|exact C5|discriminate]). split; [done|by intros _]. }
  assert (forall base, fin (reader_read_base base f s) (hash_post s al (c :: bs))) as Hbase.
  { intros base. eapply fin_weaken; [apply (base_fin base f bs s al); [done|done|eapply can_alloc_le; [exact Ha|lia]|lia]|].
    intros r s' (rest & n & Hst & Hn). pose proof (step_length _ _ _ _ _ _ _ Hst). exists al, rest, 1, O. split; [eapply step_quiet; [done|exact Hl1|exact Hst]|]. split; [by eapply tree_number|].
    split; [unfold used; cbn [length]; lia|]. assert (r <> cell_dot) by (eapply number_not_dot; [apply Hst|exact Hn]). split; [done|by intros _]. }
  destruct (Z.eqb_spec c 98) as [Hk98|Hk98]; [apply Hbase|]. destruct (Z.eqb_spec c 111) as [Hk111|Hk111]; [apply Hbase|]. destruct (Z.eqb_spec c 120) as [Hk120|Hk120]; [apply Hbase|].
  destruct (Z.eqb_spec c 92) as [Hk92|Hk92].
  { eapply fin_weaken; [apply (character_fin f bs s al); [done|done|eapply can_alloc_le; [exact Ha|lia]|lia]|].
    intros r s' (rest & Hst & Ht & Hd). pose proof (step_length _ _ _ _ _ _ _ Hst). exists al, rest, 2, O. split; [eapply step_quiet; [done|exact Hl1|exact Hst]|]. split; [done|].
    split; [unfold used; cbn [length]; lia|]. split; [done|by intros _]. }
  destruct (Z.eqb_spec c 40) as [Hk40|Hk40].
  { destruct (cur_read f _ _ Hi) as (s1 & E1 & Hq1 & Hc1). rewrite (bind_ok _ _ _ _ _ E1).
    eapply fin_bind; [apply (IHl s1 al bs); [by eapply ready_quiet|done|done|eapply alloc_quiet; [done|]; eapply can_alloc_le; [exact Ha|lia]|lia]|].
    intros l s2 (al2 & rest & n & m & Hst & Ht & Hu & Hcost & _). pose proof (step_length _ _ _ _ _ _ _ Hst) as Hlen2. pose proof (step_nonneg _ _ _ _ _ _ _ Hst).
    eapply fin_weaken; [apply (vector_fin s2 al2 rest l m f)|].
    { apply Hst. } { apply Hst. } { done. } { unfold used in *. lia. } { eapply step_alloc; [exact Hst| |lia]. eapply alloc_quiet; [exact Hq1|]. eapply can_alloc_le; [exact Ha|unfold used in *; lia]. }
    intros r s3 (Hst3 & Ht3 & Hd3). exists al2, rest, (n + (1 + 3 * Z.of_nat m)), O.
    split; [eapply step_trans; [eapply step_quiet; [exact Hq1|exact Hl1|exact Hst]|exact Hst3]|]. split; [done|].
    split; [unfold used in *; cbn [length]; lia|]. split; [done|by intros _]. }
  assert (c ∉ [102; 116; 92; 40; 58; 98; 111; 120]) as Hnc by (rewrite !elem_of_cons, elem_of_nil; lia).
  destruct (Z.eqb_spec c 59) as [->|H59]; [|by apply (Hnext s bs); [done|apply left_refl|done|]].
  eapply fin_bind; [apply (next_fin f s al bs IHs); [done|done|done|eapply can_alloc_le; [exact Ha|lia]|lia]|].
  intros x s2 (al2 & rest & n & m & Hst & Ht & Hcost & _). pose proof (step_length _ _ _ _ _ _ _ Hst) as Hlen2. pose proof (step_nonneg _ _ _ _ _ _ _ Hst). pose proof (st_size _ _ _ _ _ _ _ Hst).
  eapply fin_weaken; [apply (next_fin f s2 al2 rest IHs)|].
  { apply Hst. } { apply Hst. } { eapply good_left; [exact Hg1|apply Hst]. }
  { eapply step_alloc; [exact Hst| |lia]. eapply can_alloc_le; [exact Ha|]. unfold used in *. destruct Hcost as [?|(? & ? & _)]; lia. } { lia. }
  intros r s3 (al3 & rest3 & n3 & m3 & Hst3 & Ht3 & Hcost3 & Hdot3 & _). pose proof (step_length _ _ _ _ _ _ _ Hst3).
  exists al3, rest3, (n + n3), m3. split; [eapply step_trans; [eapply step_quiet; [done|exact Hl1|exact Hst]|exact Hst3]|]. split; [done|].
  split; [unfold used in *; cbn [length]; destruct Hcost as [?|(? & ? & _)]; destruct Hcost3 as [?|(? & ? & _)]; lia|].
  split; [|by intros F]. intros E. eapply at_dot_left; [|by apply Hdot3]. eapply left_trans; [exact Hl1|apply Hst].
Qed.

Lemma reader_stops : forall f, good_sexp f /\ good_list f /\ good_hash f.
Proof.
  induction f as [|f (IHs & IHl & IHh)].
  - split; [|split]; intros s al bs Hr; pose proof (ready_room _ _ _ _ _ Hr); lia.
  - split; [by apply sexp_step|]. split; [by apply list_step|by apply hash_step].
Qed.
End Machine.
