(** The reader finds the datum a text denotes. *)
From stdpp Require Import base gmap list fin_maps.
From Coq Require Import ZArith Lia.
From Coq Require Import ZifyBool ZifyNat.
From Verif Require Import CInt Symbols Heap HeapLemmas DataModel DataSpec DataLemmas CoreProofs StringProofs HashProofs ArrayProofs LibModel PropsHash ReadModel ReadSpec.
Import Strings.String.StringSyntax.
Open Scope Z_scope.
Open Scope mes_scope.

(** character strings as lists of codes *)
Ltac lits := repeat match goal with
  | |- context [bytes_of ?x] => let v := eval vm_compute in (bytes_of x) in change (bytes_of x) with v
  | H : context [bytes_of ?x] |- _ => let v := eval vm_compute in (bytes_of x) in change (bytes_of x) with v in H
  end.

(** ** Input *)
(** the state without its input and output *)
Definition blind (s : state) : state := set_out_fds ∅ (set_in_fds ∅ (set_unget ∅ s)).
(** [s'] differs from [s] at most in the input and output *)
Definition quiet (s s' : state) : Prop := blind s' = blind s.

(** [bs] is what remains to be read from the current input descriptor; nothing is pushed back *)
Definition input0 (s : state) (bs : list Z) : Prop :=
  0 <= std_in s /\ is_bytes bs /\ unget s !! std_in s = None /\ in_fds s !! std_in s = Some bs.
(** the same, where the first byte may have been pushed back *)
Definition input (s : state) (bs : list Z) : Prop :=
  input0 s bs \/
  (0 <= std_in s /\ is_bytes bs /\ exists c r, bs = c :: r /\ unget s !! std_in s = Some c /\ in_fds s !! std_in s = Some r).

(** the next character; -1 at the end *)
Definition first (bs : list Z) : Z := match bs with [] => -1 | c :: _ => c end.
(** the first character of [bs] has been read *)
Definition cur (s : state) (bs : list Z) : Prop := is_bytes bs /\ input s (tail bs).

Lemma quiet_refl s : quiet s s. Proof. done. Qed.
Lemma quiet_trans s1 s2 s3 : quiet s1 s2 -> quiet s2 s3 -> quiet s1 s3.
Proof. unfold quiet. congruence. Qed.
Lemma input_0 s bs : input0 s bs -> input s bs. Proof. by left. Qed.
Lemma input_bytes s bs : input s bs -> is_bytes bs.
Proof. by intros [(? & ? & _)|(? & ? & _)]. Qed.
Lemma input_std s bs : input s bs -> 0 <= std_in s.
Proof. by intros [(? & _)|(? & _)]. Qed.

Lemma readchar_ok f s bs : input s bs ->
  exists s', readchar f s = ROk (first bs) s' /\ quiet s s' /\ input0 s' (tail bs).
Proof.
  intros H. pose proof (input_std _ _ H) as H0. unfold readchar. rewrite bind_gets. rewrite (proj2 (Z.leb_le _ _) H0).
  unfold fdgetc. rewrite bind_get. destruct H as [(_ & Hb & Hu & Hi)|(_ & Hb & c & r & -> & Hu & Hi)]; rewrite Hu.
  - rewrite Hi. destruct bs as [|b bs].
    + exists s. split; [done|]. split; [done|]. by repeat split.
    + eexists. split.
      { rewrite bind_modify. unfold ret. f_equal. cbn. inversion Hb as [|? ? Hb0 _]; subst. unfold is_byte in Hb0. unfold to_schar.
        destruct (Z.ltb_spec ((b + 128) mod 256 - 128) 0); lia. }
      split; [done|]. inversion Hb; subst. split; [done|]. split; [done|]. split; [done|]. cbn. apply lookup_insert.
  - eexists. split; [by rewrite bind_modify|]. split; [done|]. inversion Hb; subst. split; [done|]. split; [done|]. cbn.
    split; [apply lookup_delete|done].
Qed.

Lemma unreadchar_ok f s bs : is_bytes bs -> input0 s (tail bs) ->
  exists s', unreadchar f (first bs) s = ROk (first bs) s' /\ quiet s s' /\ input s' bs.
Proof.
  intros Hb (H0 & Hb' & Hu & Hi). unfold unreadchar. rewrite bind_gets. rewrite (proj2 (Z.leb_le _ _) H0). unfold fdungetc.
  destruct bs as [|c bs]; cbn [first tail] in *.
  - exists s. split; [done|]. split; [done|]. left. done.
  - inversion Hb as [|? ? Hc _]; subst. unfold is_byte in Hc. rewrite (proj2 (Z.eqb_neq c (-1))) by lia. rewrite bind_get, Hu.
    rewrite (proj2 (Z.leb_le 0 c)) by lia. rewrite bind_modify. eexists. split; [done|]. split; [done|].
    right. split; [done|]. split; [done|]. exists c, bs. cbn. split; [done|]. split; [apply lookup_insert|done].
Qed.

Lemma peekchar_ok f s bs : input s bs -> exists s', peekchar f s = ROk (first bs) s' /\ quiet s s' /\ input s' bs.
Proof.
  intros H. pose proof (input_std _ _ H) as H0. unfold peekchar. rewrite bind_gets. rewrite (proj2 (Z.leb_le _ _) H0).
  destruct (readchar_ok f s bs H) as (s1 & E1 & Hq1 & Hi1). rewrite (bind_ok _ _ _ _ _ E1).
  destruct (unreadchar_ok f s1 bs (input_bytes _ _ H) Hi1) as (s2 & E2 & Hq2 & Hi2). rewrite (bind_ok _ _ _ _ _ E2).
  exists s2. split; [done|]. split; [by eapply quiet_trans|done].
Qed.

(** reading on *)
Lemma cur_read f s bs : input s bs -> exists s', readchar f s = ROk (first bs) s' /\ quiet s s' /\ cur s' bs.
Proof.
  intros H. destruct (readchar_ok f s bs H) as (s' & E & Hq & Hi). exists s'. split; [done|]. split; [done|].
  split; [by eapply input_bytes|by left].
Qed.
Lemma cur_next f s c bs : cur s (c :: bs) -> exists s', readchar f s = ROk (first bs) s' /\ quiet s s' /\ input0 s' (tail bs) /\ cur s' bs.
Proof.
  intros [Hb H]. cbn in H. destruct (readchar_ok f s bs H) as (s' & E & Hq & Hi). exists s'. split; [done|]. split; [done|]. split; [done|].
  inversion Hb; subst. split; [done|by left].
Qed.
Lemma cur_peek f s c bs : cur s (c :: bs) -> exists s', peekchar f s = ROk (first bs) s' /\ quiet s s' /\ cur s' (c :: bs).
Proof.
  intros [Hb H]. cbn in H. destruct (peekchar_ok f s bs H) as (s' & E & Hq & Hi). exists s'. split; [done|]. split; [done|].
  split; [done|done].
Qed.
Lemma cur_byte s c bs : cur s (c :: bs) -> 0 <= c < 256.
Proof. intros [Hb _]. inversion Hb. done. Qed.
Lemma cur_suffix s c bs : cur s (c :: bs) -> is_bytes bs.
Proof. intros [Hb _]. by inversion Hb. Qed.

Ltac step H := let s' := fresh "s" in let E := fresh "E" in let Hq := fresh "Hq" in
  destruct H as (s' & E & Hq & ?); rewrite (bind_ok _ _ _ _ _ E).

(** ** Layout *)
Lemma line_comment_ok r : forall body f s, cur s (body ++ 10 :: r) -> Forall (fun c => c <> 10) body -> (length body < f)%nat ->
  exists s', reader_read_line_comment f (first (body ++ 10 :: r)) s = ROk 10 s' /\ quiet s s' /\ cur s' (10 :: r).
Proof.
  induction body as [|c body IH]; intros f s Hc Hb Hf; (destruct f as [|f]; [cbn in Hf; lia|]).
  - cbn. by exists s.
  - cbn [app first reader_read_line_comment]. inversion Hb as [|? ? Hc0 Hb']; subst. pose proof (cur_byte _ _ _ Hc).
    rewrite (proj2 (Z.eqb_neq c (-1))) by lia. rewrite (proj2 (Z.eqb_neq c 10)) by lia.
    destruct (cur_next f _ _ _ Hc) as (s1 & E1 & Hq1 & _ & Hc1). rewrite (bind_ok _ _ _ _ _ E1).
    destruct (IH f s1 Hc1 Hb') as (s2 & E2 & Hq2 & Hc2); [cbn in Hf; lia|]. exists s2. split; [done|]. split; [by eapply quiet_trans|done].
Qed.

Lemma no_end_cons s c body : no_end s (c :: body) -> no_end s body /\ (c = s -> first (body ++ [s]) <> 35).
Proof.
  intros H. split.
  - intros u v F. apply (H (c :: u) v). cbn. by rewrite F.
  - intros -> F. destruct (body ++ [s]) as [|x l] eqn:E; [by destruct body|]. cbn in F. subst x. apply (H [] l). cbn. by rewrite E.
Qed.
Lemma first_app_snoc (body : list Z) x r : first (body ++ x :: r) = first (body ++ [x]).
Proof. by destruct body. Qed.

Lemma block_comment_ok sc r : sc <> 35 -> forall body f s, cur s (body ++ sc :: 35 :: r) -> no_end sc body -> (length body < f)%nat ->
  exists s', reader_read_block_comment f sc (first (body ++ sc :: 35 :: r)) s = ROk tt s' /\ quiet s s' /\ input s' r.
Proof.
  intros Hsc. induction body as [|c body IH]; intros f s Hc Hb Hf; (destruct f as [|f]; [cbn in Hf; lia|]); cbn [app first reader_read_block_comment].
  - rewrite Z.eqb_refl. destruct (cur_peek f _ _ _ Hc) as (s1 & E1 & Hq1 & Hc1). rewrite (bind_ok _ _ _ _ _ E1). cbn [app first andb].
    rewrite Z.eqb_refl. cbn [andb]. destruct (cur_next f _ _ _ Hc1) as (s2 & E2 & Hq2 & Hi2 & _). rewrite (bind_ok _ _ _ _ _ E2).
    exists s2. split; [done|]. split; [by eapply quiet_trans|]. by left.
  - apply no_end_cons in Hb as [Hb Hne].
    assert (exists s1 p, (if c =? sc then peekchar f else ret (-1)) s = ROk p s1 /\ quiet s s1 /\ cur s1 (c :: body ++ sc :: 35 :: r) /\ (c =? sc) && (p =? 35) = false) as (s1 & p & E1 & Hq1 & Hc1 & Hp).
    { destruct (Z.eqb_spec c sc) as [->|].
      - destruct (cur_peek f _ _ _ Hc) as (s1 & E1 & Hq1 & Hc1). exists s1, (first (body ++ sc :: 35 :: r)). split; [done|]. split; [done|]. split; [done|].
        specialize (Hne eq_refl). rewrite first_app_snoc. cbn. lia.
      - exists s, (-1). by repeat split; try apply Hc. }
    rewrite (bind_ok _ _ _ _ _ E1), Hp.
    destruct (cur_next f _ _ _ Hc1) as (s2 & E2 & Hq2 & _ & Hc2). rewrite (bind_ok _ _ _ _ _ E2).
    destruct (IH f s2 Hc2 Hb) as (s3 & E3 & Hq3 & Hc3); [cbn in Hf; lia|]. exists s3. split; [done|]. split; [|done].
    eapply quiet_trans; [done|]. by eapply quiet_trans.
Qed.

(** where eating white space stops *)
Definition stops (bs : list Z) : Prop :=
  ~ white (first bs) /\ first bs <> 59 /\
  (first bs = 35 -> first (tail bs) <> 33 /\ first (tail bs) <> 124).

Lemma white_space c : white c <-> c_isspace c = true.
Proof.
  unfold white, c_isspace. split.
  - intros H. repeat (apply elem_of_cons in H as [->|H]; [done|]). by apply elem_of_nil in H.
  - intros H. rewrite !elem_of_cons. lia.
Qed.
Lemma not_white c : ~ white c -> c_isspace c = false.
Proof. intros H. destruct (c_isspace c) eqn:E; [|done]. by apply white_space in E. Qed.
Lemma block_start s : s ∈ bytes_of "!|" -> s = 33 \/ s = 124.
Proof. intros H. cbn in H. rewrite !elem_of_cons in H. destruct H as [?|[?|H]]; [by left|by right|by apply elem_of_nil in H]. Qed.

Lemma eat_whitespace_ok l : layout white l -> forall f s bs, cur s (l ++ bs) -> stops bs -> (2 * length l < f)%nat ->
  exists s', reader_eat_whitespace f (first (l ++ bs)) s = ROk (first bs) s' /\ quiet s s' /\ cur s' bs.
Proof.
  induction 1 as [|c l Hw Hl IH|body l Hb Hl IH|sc body l Hsc Hb Hl IH]; intros f s bs Hc Hs Hf; (destruct f as [|f]; [lia|]).
  - cbn [app] in *. destruct Hs as (Hs1 & Hs2 & Hs3). cbn [reader_eat_whitespace]. rewrite (not_white _ Hs1).
    rewrite (proj2 (Z.eqb_neq (first bs) 59)) by done. destruct (Z.eqb_spec (first bs) 35) as [E|]; [|by exists s].
    destruct bs as [|b bs]; [done|]. cbn [first] in *. destruct (cur_peek f _ _ _ Hc) as (s1 & E1 & Hq1 & Hc1). rewrite (bind_ok _ _ _ _ _ E1).
    specialize (Hs3 E). cbn [tail] in Hs3. assert ((first bs =? 33) || (first bs =? 124) = false) as -> by lia. by exists s1.
  - cbn [app first] in *. cbn [reader_eat_whitespace]. rewrite (proj1 (white_space _) Hw).
    destruct (cur_next f _ _ _ Hc) as (s1 & E1 & Hq1 & _ & Hc1). rewrite (bind_ok _ _ _ _ _ E1).
    destruct (IH f s1 bs Hc1 Hs) as (s2 & E2 & Hq2 & Hc2); [cbn in Hf; lia|]. exists s2. split; [done|]. split; [by eapply quiet_trans|done].
  - cbn [app first] in *. rewrite <- app_assoc in *. cbn [app] in *. cbn [length] in Hf. rewrite app_length in Hf. cbn [length] in Hf.
    cbn [reader_eat_whitespace]. change (c_isspace 59) with false. change (59 =? 59) with true. cbn iota.
    destruct (line_comment_ok (l ++ bs) (59 :: body) f s Hc) as (s1 & E1 & Hq1 & Hc1); [by constructor|cbn; lia|].
    cbn [app first] in E1. rewrite (bind_ok _ _ _ _ _ E1). destruct f as [|f]; [lia|]. cbn [reader_eat_whitespace].
    change (c_isspace 10) with true. cbn iota. destruct (cur_next f _ _ _ Hc1) as (s2 & E2 & Hq2 & _ & Hc2). rewrite (bind_ok _ _ _ _ _ E2).
    destruct (IH f s2 bs Hc2 Hs) as (s3 & E3 & Hq3 & Hc3); [lia|]. exists s3. split; [done|]. split; [|done].
    eapply quiet_trans; [done|]. by eapply quiet_trans.
  - cbn [app first] in *. rewrite <- app_assoc in *. cbn [app] in *. cbn [length] in Hf. rewrite app_length in Hf. cbn [length] in Hf.
    apply block_start in Hsc.
    cbn [reader_eat_whitespace]. change (c_isspace 35) with false. change (35 =? 59) with false. change (35 =? 35) with true. cbn iota.
    destruct (cur_peek f _ _ _ Hc) as (s1 & E1 & Hq1 & Hc1). rewrite (bind_ok _ _ _ _ _ E1). cbn [first].
    assert ((sc =? 33) || (sc =? 124) = true) as -> by lia.
    destruct (cur_next f _ _ _ Hc1) as (s2 & E2 & Hq2 & _ & Hc2). rewrite (bind_ok _ _ _ _ _ E2). cbn [first].
    destruct (cur_next f _ _ _ Hc2) as (s3 & E3 & Hq3 & _ & Hc3). rewrite (bind_ok _ _ _ _ _ E3).
    destruct (block_comment_ok sc (l ++ bs) ltac:(lia) body f s3 Hc3 Hb ltac:(lia)) as (s4 & E4 & Hq4 & Hi4). rewrite (bind_ok _ _ _ _ _ E4).
    destruct (cur_read f _ _ Hi4) as (s5 & E5 & Hq5 & Hc5). rewrite (bind_ok _ _ _ _ _ E5).
    destruct (IH f s5 bs Hc5 Hs) as (s6 & E6 & Hq6 & Hc6); [lia|]. exists s6. split; [done|]. split; [|done].
    unfold quiet in *. congruence.
Qed.

(** layout before a datum *)
Lemma sexp_layout l : layout blank l -> forall f s bs, cur s (l ++ bs) -> (2 * length l < f)%nat ->
  exists f' s', reader_read_sexp_ f (first (l ++ bs)) s = reader_read_sexp_ f' (first bs) s' /\ quiet s s' /\ cur s' bs /\ (f - 2 * length l <= f' <= f)%nat.
Proof.
  induction 1 as [|c l Hw Hl IH|body l Hb Hl IH|sc body l Hsc Hb Hl IH]; intros f s bs Hc Hf.
  - exists f, s. cbn. repeat split; try apply Hc; lia.
  - destruct f as [|f]; [lia|]. cbn [app first] in *. cbn [reader_read_sexp_].
    assert (c = 32 \/ c = 9 \/ c = 10 \/ c = 12) as Hcc.
    { unfold blank in Hw. rewrite !elem_of_cons in Hw. destruct Hw as [?|[?|[?|[?|H]]]]; try lia. by apply elem_of_nil in H. }
    assert (c =? -1 = false) as -> by lia. assert (c =? 59 = false) as -> by lia.
    assert ((c =? 32) || (c =? 9) || (c =? 10) || (c =? 12) = true) as -> by lia.
    destruct (cur_next f _ _ _ Hc) as (s1 & E1 & Hq1 & _ & Hc1). rewrite (bind_ok _ _ _ _ _ E1).
    destruct (IH f s1 bs Hc1) as (f' & s2 & E2 & Hq2 & Hc2 & Hf2); [cbn in Hf; lia|]. exists f', s2. split; [done|].
    split; [by eapply quiet_trans|]. split; [done|]. cbn [length]. lia.
  - destruct f as [|f]; [lia|]. cbn [app first] in *. rewrite <- app_assoc in *. cbn [app] in *. cbn [length] in *. rewrite app_length in *. cbn [length] in *.
    cbn [reader_read_sexp_]. change (59 =? -1) with false. change (59 =? 59) with true. cbn iota.
    destruct (line_comment_ok (l ++ bs) (59 :: body) f s Hc) as (s1 & E1 & Hq1 & Hc1); [by constructor|cbn; lia|].
    cbn [app first] in E1. rewrite (bind_ok _ _ _ _ _ E1). destruct f as [|f]; [lia|]. cbn [reader_read_sexp_].
    change (10 =? -1) with false. change (10 =? 59) with false. cbn [orb Z.eqb Pos.eqb].
    destruct (cur_next f _ _ _ Hc1) as (s2 & E2 & Hq2 & _ & Hc2). rewrite (bind_ok _ _ _ _ _ E2).
    destruct (IH f s2 bs Hc2) as (f' & s3 & E3 & Hq3 & Hc3 & Hf3); [lia|]. exists f', s3. split; [done|].
    split; [unfold quiet in *; congruence|]. split; [done|]. lia.
  - destruct f as [|f]; [lia|]. cbn [app first] in *. rewrite <- app_assoc in *. cbn [app] in *. cbn [length] in *. rewrite app_length in *. cbn [length] in *.
    apply block_start in Hsc.
    cbn [reader_read_sexp_]. cbn [orb Z.eqb Pos.eqb].
    destruct (cur_next f _ _ _ Hc) as (s1 & E1 & Hq1 & _ & Hc1). rewrite (bind_ok _ _ _ _ _ E1). cbn [first].
    destruct f as [|f]; [lia|]. cbn [reader_read_hash]. assert ((sc =? 33) || (sc =? 124) = true) as -> by lia.
    destruct (cur_next f _ _ _ Hc1) as (s3 & E3 & Hq3 & _ & Hc3). rewrite (bind_ok _ _ _ _ _ E3).
    destruct (block_comment_ok sc (l ++ bs) ltac:(lia) body f s3 Hc3 Hb ltac:(lia)) as (s4 & E4 & Hq4 & Hi4). rewrite (bind_ok _ _ _ _ _ E4).
    destruct (cur_read f _ _ Hi4) as (s5 & E5 & Hq5 & Hc5). rewrite (bind_ok _ _ _ _ _ E5).
    destruct (IH f s5 bs Hc5) as (f' & s6 & E6 & Hq6 & Hc6 & Hf6); [lia|]. exists f', s6. split; [done|].
    split; [unfold quiet in *; congruence|]. split; [done|]. lia.
Qed.

(** ** Words *)
Lemma delimiter_end c : 0 <= c -> (delimiter c <-> reader_end_of_word_p c = true).
Proof.
  intros H. unfold delimiter, reader_end_of_word_p. rewrite white_space. lits. rewrite !elem_of_cons, elem_of_nil. destruct (c_isspace c); lia.
Qed.
Lemma ends_end rest : is_bytes rest -> ends rest -> reader_end_of_word_p (first rest) = true.
Proof. intros Hb H. destruct rest as [|c rest]; [done|]. inversion Hb as [|? ? Hc _]; subst. unfold is_byte in Hc. apply (proj1 (delimiter_end c ltac:(lia))), H. Qed.
Lemma word_char_end c : word_char c -> reader_end_of_word_p c = false.
Proof. intros [H1 H2]. destruct (reader_end_of_word_p c) eqn:E; [|done]. apply (proj2 (delimiter_end c ltac:(lia))) in E. done. Qed.
Lemma digit_isdigit c : decimal_digit c <-> c_isdigit c = true.
Proof. unfold decimal_digit, c_isdigit. lia. Qed.

Definition dvalue_from (base v : Z) (ds : list Z) : Z := fold_left (fun v c => v * base + default 0 (digit_value base c)) ds v.
Lemma digit_value_10 c : decimal_digit c -> digit_value 10 c = Some (c - 48).
Proof. intros H. unfold digit_value, decimal_digit in *. assert ((48 <=? c) && (c <=? 57) = true) as -> by lia. assert (c - 48 <? 10 = true) as -> by lia. done. Qed.
Lemma dvalue_cons base v c d ds : digit_value base c = Some d -> dvalue_from base v (c :: ds) = dvalue_from base (v * base + d) ds.
Proof. intros H. change (dvalue_from base (v * base + default 0 (digit_value base c)) ds = dvalue_from base (v * base + d) ds). by rewrite H. Qed.
Lemma digit_value_nonneg base c d : digit_value base c = Some d -> 0 <= d < base.
Proof.
  unfold digit_value. destruct ((48 <=? c) && (c <=? 57)) eqn:E1; [|destruct ((65 <=? c) && (c <=? 70)) eqn:E2; [|destruct ((97 <=? c) && (c <=? 102)) eqn:E3; [|done]]];
    match goal with |- (if ?x then _ else _) = _ -> _ => destruct x eqn:E end; try done; intros [= <-]; lia.
Qed.
Lemma dvalue_from_le base ds : 2 <= base -> Forall (fun c => is_Some (digit_value base c)) ds -> forall v, 0 <= v -> v <= dvalue_from base v ds.
Proof.
  intros Hb. induction 1 as [|c ds (d & Hd) Hds IH]; intros v Hv; [cbn; lia|]. rewrite (dvalue_cons _ _ _ _ _ Hd).
  pose proof (digit_value_nonneg _ _ _ Hd).
  assert (v <= v * base) by nia. specialize (IH (v * base + d) ltac:(lia)). lia.
Qed.
Lemma decimal_digits ds : Forall decimal_digit ds -> Forall (fun c => is_Some (digit_value 10 c)) ds.
Proof. intros H. eapply Forall_impl; [done|]. intros c Hc. rewrite digit_value_10 by done. by eexists. Qed.

Lemma g_buf_store_ok buf c s : Z.of_nat (length buf) < MAX_STRING s -> g_buf_store buf c s = ROk (buf ++ [to_byte c]) s.
Proof. intros H. unfold g_buf_store. rewrite bind_gets. by rewrite (proj2 (Z.ltb_lt _ _) H). Qed.
Lemma checked_ok n s : LONG_MIN <= n <= LONG_MAX -> checked n s = ROk n s.
Proof. intros H. unfold checked. by rewrite (proj2 (in_long_spec _) H). Qed.
Lemma quiet_max s s' : quiet s s' -> MAX_STRING s' = MAX_STRING s.
Proof. intros H. change (MAX_STRING (blind s') = MAX_STRING (blind s)). by rewrite H. Qed.
Lemma quiet_cells s s' : quiet s s' -> cells s' = cells s.
Proof. intros H. change (cells (blind s') = cells (blind s)). by rewrite H. Qed.

Lemma read_digits_ok rest : c_isdigit (first rest) = false -> forall ds f n buf s, cur s (ds ++ rest) -> Forall decimal_digit ds ->
  0 <= n -> dvalue_from 10 n ds <= LONG_MAX - 48 -> Z.of_nat (length buf + length ds) <= MAX_STRING s -> (length ds < f)%nat ->
  exists s', read_digits f (first (ds ++ rest)) n buf s = ROk (first rest, dvalue_from 10 n ds, buf ++ ds) s' /\ quiet s s' /\ cur s' rest /\
    (ds <> [] -> input0 s' (tail rest)).
Proof.
  intros Hr. induction ds as [|d ds IH]; intros f n buf s Hc Hd Hn Hv Hl Hf; (destruct f as [|f]; [cbn in Hf; lia|]); cbn [app first read_digits] in *.
  - rewrite Hr, app_nil_r. exists s. split; [done|]. split; [done|]. split; [done|]. done.
  - inversion Hd as [|? ? Hd0 Hds]; subst. rewrite (proj1 (digit_isdigit _) Hd0). cbn [length] in *.
    rewrite (bind_ok _ _ _ _ _ (g_buf_store_ok buf d s ltac:(lia))).
    pose proof (dvalue_from_le 10 ds ltac:(lia) (decimal_digits _ Hds) (n * 10 + (d - 48))) as Hle.
    rewrite (dvalue_cons _ _ _ _ _ (digit_value_10 _ Hd0)) in Hv |- *. unfold decimal_digit in Hd0.
    unfold LONG_MAX in *.
    rewrite (bind_ok _ _ _ _ _ (checked_ok (n * 10) s ltac:(unfold LONG_MIN, LONG_MAX; lia))).
    rewrite (bind_ok _ _ _ _ _ (checked_ok (n * 10 + d) s ltac:(unfold LONG_MIN, LONG_MAX; lia))).
    destruct (cur_next f _ _ _ Hc) as (s1 & E1 & Hq1 & Hi1 & Hc1). rewrite (bind_ok _ _ _ _ _ E1).
    destruct (IH f (n * 10 + d - 48) (buf ++ [to_byte d]) s1 Hc1 Hds) as (s2 & E2 & Hq2 & Hc2 & Hi2); try lia.
    { replace (n * 10 + d - 48) with (n * 10 + (d - 48)) by lia. done. }
    { rewrite (quiet_max _ _ Hq1), app_length. cbn. lia. }
    exists s2. split.
    { rewrite E2. rewrite to_byte_id by lia. rewrite <- app_assoc. cbn [app]. do 4 f_equal. lia. }
    split; [by eapply quiet_trans|]. split; [done|]. intros _. destruct ds as [|d' ds']; [|by apply Hi2].
    destruct f as [|f]; [cbn in Hf; lia|]. cbn [app read_digits] in E2. rewrite Hr in E2. unfold ret in E2. injection E2 as _ E2. subst s2. done.
Qed.

Lemma read_word_ok rest : is_bytes rest -> ends rest -> forall w f buf s, cur s (w ++ rest) -> Forall word_char w ->
  Z.of_nat (length buf + length w) <= MAX_STRING s -> (length w < f)%nat ->
  exists s', read_word f (first (w ++ rest)) buf s = ROk (first rest, buf ++ w) s' /\ quiet s s' /\ cur s' rest /\
    (w <> [] -> input0 s' (tail rest)).
Proof.
  intros Hb Hr. induction w as [|c w IH]; intros f buf s Hc Hw Hl Hf; (destruct f as [|f]; [cbn in Hf; lia|]); cbn [app first read_word] in *.
  - rewrite (ends_end _ Hb Hr), app_nil_r. exists s. split; [done|]. split; [done|]. done.
  - inversion Hw as [|? ? Hc0 Hw']; subst. rewrite (word_char_end _ Hc0). cbn [length] in *.
    rewrite (bind_ok _ _ _ _ _ (g_buf_store_ok buf c s ltac:(lia))).
    destruct (cur_next f _ _ _ Hc) as (s1 & E1 & Hq1 & Hi1 & Hc1). rewrite (bind_ok _ _ _ _ _ E1).
    destruct (IH f (buf ++ [to_byte c]) s1 Hc1 Hw') as (s2 & E2 & Hq2 & Hc2 & Hi2); try lia.
    { rewrite (quiet_max _ _ Hq1), app_length. cbn. lia. }
    exists s2. split; [rewrite E2; destruct Hc0; rewrite to_byte_id by lia; by rewrite <- app_assoc|].
    split; [by eapply quiet_trans|]. split; [done|]. intros _. destruct w as [|c' w']; [|by apply Hi2].
    destruct f as [|f]; [cbn in Hf; lia|]. cbn [app read_word] in E2. rewrite (ends_end _ Hb Hr) in E2. unfold ret in E2. injection E2 as E2. subst s2. done.
Qed.

(** ** The machine *)
Section Machine.
Context (max w size : Z).
(** the buckets of the symbol table *)
Definition in_buckets (p : Z) : Prop := w <= p < w + size.
(** the heap without them *)
Definition outside (h : gmap Z cell) : gmap Z cell := filter (fun kv => ~ in_buckets kv.1) h.

(** the symbols the reader uses for abbreviations *)
Definition tag_symbols : list (list Z * Z) :=
  [ (bytes_of "quote", cell_symbol_quote); (bytes_of "quasiquote", cell_symbol_quasiquote); (bytes_of "unquote", cell_symbol_unquote);
    (bytes_of "unquote-splicing", cell_symbol_unquote_splicing); (bytes_of "syntax", cell_symbol_syntax);
    (bytes_of "quasisyntax", cell_symbol_quasisyntax); (bytes_of "unsyntax", cell_symbol_unsyntax);
    (bytes_of "unsyntax-splicing", cell_symbol_unsyntax_splicing) ].

(** the names of the constants *)
Definition special_names : list (list Z * Z) :=
  [ (bytes_of ".", cell_dot); (bytes_of "()", cell_nil); (bytes_of "#t", cell_t); (bytes_of "#f", cell_f); (bytes_of "*circular*", cell_circular) ].

(** The interpreter is set up: the symbol table is in order, the predefined symbols are in it, the
    constants have their names. *)
Record ready (s : state) (al : list entry) : Prop := {
  ready_symbols : symbols_at s w size al;
  ready_max : MAX_STRING s = max;
  ready_room : 64 <= max;
  ready_tags : Forall (fun q => interned al (fst q) (snd q)) tag_symbols;
  ready_names : Forall (fun q => text_at (cells s) TSPECIAL (snd q) (fst q)) special_names }.

Lemma ready_quiet s s' al : quiet s s' -> ready s al -> ready s' al.
Proof.
  intros H [H1 H2 Hroom H3 H4].
  assert (forall P : state -> Prop, (forall t, P t <-> P (blind t)) -> P s -> P s') as HP.
  { intros P HPb Hs. apply HPb. rewrite H. by apply HPb in Hs. }
  split; [|by rewrite (quiet_max _ _ H)|done|done|by rewrite (quiet_cells _ _ H)].
  apply (HP (fun t => symbols_at t w size al)); [done|done].
Qed.
Lemma alloc_quiet s s' n : quiet s s' -> can_alloc n s -> can_alloc n s'.
Proof. intros H Ha. change (can_alloc n (blind s')). rewrite H. exact Ha. Qed.
Lemma quiet_free s s' : quiet s s' -> g_free s' = g_free s.
Proof. intros H. change (g_free (blind s') = g_free (blind s)). by rewrite H. Qed.

Lemma symbols_at_extends k s s' al : modifies nothing k s s' -> symbols_at s w size al -> symbols_at s' w size al.
Proof.
  intros Hm (Ht & Hc & Hv & Hf). assert (cells s ⊆ cells s') as Hsub by by eapply modifies_cells.
  split; [rewrite (modifies_symbols _ _ _ _ Hm); by eapply table_mono|]. split; [by eapply constants_mono|].
  split; [|by eapply text_at_mono]. eapply Forall_impl; [exact Hv|]. intros e (t & Hin & Hte). exists t. split; [done|]. by eapply text_at_mono.
Qed.
Lemma modifies_max P k s s' : modifies P k s s' -> MAX_STRING s' = MAX_STRING s.
Proof. intros [_ _ _ (h & ->)]. done. Qed.
Lemma modifies_input P k s s' bs : modifies P k s s' -> input s bs -> input s' bs.
Proof. intros [_ _ _ (h & ->)]. done. Qed.
Lemma modifies_blind P k s s' : modifies P k s s' -> modifies P k (blind s) (blind s').
Proof. intros [H1 H2 H3 (h & ->)]. split; try done. by exists h. Qed.
Lemma ready_extends k s s' al : modifies nothing k s s' -> ready s al -> ready s' al.
Proof.
  intros Hm [H1 H2 Hroom H3 H4]. split; [by eapply symbols_at_extends|by rewrite (modifies_max _ _ _ _ Hm)|done|done|].
  eapply Forall_impl; [exact H4|]. intros q Hq. eapply text_at_mono; [by eapply modifies_cells|done].
Qed.
Lemma ready_dot s al : ready s al -> text_at (cells s) TSPECIAL cell_dot (bytes_of ".").
Proof. intros [_ _ _ _ H]. unfold special_names in H. by inversion H. Qed.

(** the buckets are allocated *)
Lemma buckets_ref s al p : symbols_at s w size al -> in_buckets p -> exists c, cells s !! p = Some c /\ c_ty c = TREF.
Proof.
  intros ((v & b & st & sp & sn & qs & _ & [_ H2] & H3 & _) & _) Hp. unfold in_buckets in Hp.
  destruct (lookup_lt_is_Some_2 qs (Z.to_nat (p - w)) ltac:(lia)) as (q & Hq).
  destruct (H2 (Z.to_nat (p - w)) (SRef q)) as [(c & Hc & Ht & _) _]; [by rewrite list_lookup_fmap, Hq|].
  replace (w + Z.of_nat (Z.to_nat (p - w))) with p in Hc by lia. by exists c.
Qed.
Lemma outside_fresh s al p : symbols_at s w size al -> g_free s <= p -> ~ in_buckets p.
Proof. intros H Hp F. destruct (buckets_ref _ _ _ H F) as (c & Hc & _). apply cells_heap in Hc. lia. Qed.
Lemma outside_lookup h p c : outside h !! p = Some c <-> h !! p = Some c /\ ~ in_buckets p.
Proof. unfold outside. rewrite map_filter_lookup_Some. done. Qed.
Lemma outside_sub h : outside h ⊆ h.
Proof. apply map_filter_subseteq. Qed.
Lemma outside_other s al p c : symbols_at s w size al -> cells s !! p = Some c -> c_ty c <> TREF -> outside (cells s) !! p = Some c.
Proof.
  intros H Hc Ht. apply outside_lookup. split; [done|]. intros F. destruct (buckets_ref _ _ _ H F) as (c' & Hc' & Ht'). congruence.
Qed.
Lemma outside_text s al t p bs : symbols_at s w size al -> t <> TREF -> text_at (cells s) t p bs -> text_at (outside (cells s)) t p bs.
Proof.
  intros H Hn (c & b & Hc & Ht & Hl & Hb & Htb & Hbs). exists c, b. split; [eapply outside_other; [done|done|congruence]|].
  split; [done|]. split; [done|]. split; [eapply outside_other; [done|done|rewrite Htb; discriminate]|done].
Qed.
Lemma outside_mono k s s' : modifies in_buckets k s s' -> outside (cells s) ⊆ outside (cells s').
Proof.
  intros Hm. apply map_subseteq_spec. intros p c Hp. apply outside_lookup in Hp as [Hp Hn]. apply outside_lookup. split; [|done].
  by eapply modifies_old.
Qed.

(** ** Data *)
Lemma entry_at_mono h h' q e : h ⊆ h' -> entry_at h q e -> entry_at h' q e.
Proof. intros Hs (c & Hc & He). exists c. split; [by eapply lookup_weaken|done]. Qed.
Definition grows (al al' : list entry) : Prop := forall name p, interned al name p -> interned al' name p.
Lemma sexp_at_mono al al' h h' : grows al al' -> h ⊆ h' -> forall x p, sexp_at al h p x -> sexp_at al' h' p x.
Proof.
  intros Ha Hh. fix IH 3. intros x p H. destruct H as [p n H|p c H|p bs H|p bs H|p name H| |b|p a d xa xd H H1 H2|p c es l Hc Ht Hl He Hes].
  - constructor. by eapply number_at_mono.
  - constructor. by eapply char_at_mono.
  - constructor. by eapply text_at_mono.
  - constructor. by eapply text_at_mono.
  - constructor. by apply Ha.
  - constructor.
  - constructor.
  - econstructor; [by eapply pair_at_mono| |]; by apply IH.
  - econstructor; [by eapply lookup_weaken|done|done|intros i e Hi; eapply entry_at_mono; [done|by apply He]|].
    clear He Hl. induction Hes; constructor; [by apply IH|done].
Qed.

(** the result of reading: [r] holds [x], at most [n] cells were allocated and [m] symbols added *)
Record result (n : Z) (m : nat) (s : state) (al : list entry) (rest : list Z) (x : sexp) (r : Z) (s' : state) (al' : list entry) : Prop := {
  res_ready : ready s' al';
  res_input : input s' rest;
  res_heap : exists k, k <= n /\ modifies in_buckets k (blind s) (blind s');
  res_size : (length al' <= length al + m)%nat;
  res_grows : grows al al';
  res_value : sexp_at al' (outside (cells s')) r x }.

Lemma grows_refl al : grows al al. Proof. by intros n p. Qed.
Lemma grows_trans a b c : grows a b -> grows b c -> grows a c. Proof. intros H1 H2 n p H. by apply H2, H1. Qed.
Lemma modifies_quiet k s1 s2 s3 P : quiet s1 s2 -> modifies P k (blind s2) (blind s3) -> modifies P k (blind s1) (blind s3).
Proof. intros H Hm. by rewrite H in Hm. Qed.

(** a state that was only read from *)
Lemma result_quiet n m s0 s al rest x r s' al' : quiet s0 s -> result n m s al rest x r s' al' -> result n m s0 al rest x r s' al'.
Proof.
  intros H [H1 H2 (k & Hk & Hm) H3 H4 H5]. split; try done. exists k. split; [done|]. by eapply modifies_quiet.
Qed.
Lemma result_weaken n n' m m' s al rest x r s' al' : n <= n' -> (m <= m')%nat -> result n m s al rest x r s' al' -> result n' m' s al rest x r s' al'.
Proof. intros Hn Hm [H1 H2 (k & Hk & Hmo) H3 H4 H5]. split; try done; [exists k; split; [lia|done]|lia]. Qed.
(** what can be allocated afterwards *)
Lemma result_alloc n m s al rest x r s' al' j : result n m s al rest x r s' al' -> can_alloc (j + n) s -> 0 <= j -> can_alloc j s'.
Proof.
  intros [_ _ (k & Hk & Hm) _ _ _] Ha Hj. change (can_alloc j (blind s')). eapply modifies_can_alloc; [exact Hm| |done].
  change (can_alloc (j + k) s). eapply can_alloc_le; [done|lia].
Qed.
(** an atom made of newly allocated cells *)
Lemma result_new n k s al rest x r s' : ready s al -> input s rest -> modifies nothing k s s' -> k <= n ->
  sexp_at al (outside (cells s')) r x -> result n 0 s al rest x r s' al.
Proof.
  intros Hr Hi Hm Hk Hx. split; [by eapply ready_extends|by eapply modifies_input| |lia|apply grows_refl|done].
  exists k. split; [done|]. apply modifies_blind. eapply modifies_weaken; [|done]. by intros ? ? [].
Qed.
Lemma result_same n s al rest x r s' : 0 <= n -> ready s al -> quiet s s' -> input s' rest -> sexp_at al (outside (cells s')) r x -> result n 0 s al rest x r s' al.
Proof.
  intros Hn Hr Hq Hi Hx. split; [by eapply ready_quiet|done| |lia|apply grows_refl|done]. exists 0. split; [done|]. rewrite Hq. apply modifies_refl.
Qed.

(** cons *)
Lemma result_cons n1 n2 m1 m2 s al rest1 rest x1 r1 s1 al1 x2 r2 s2 al2 : result n1 m1 s al rest1 x1 r1 s1 al1 -> result n2 m2 s1 al1 rest x2 r2 s2 al2 ->
  can_alloc 1 s2 -> exists r s', cons r1 r2 s2 = ROk r s' /\ result (n1 + n2 + 1) (m1 + m2) s al rest (XPair x1 x2) r s' al2.
Proof.
  intros H1 H2 Ha. eexists _, _. split; [by apply cons_s|]. set (c := Cell TPAIR r1 r2 []).
  pose proof (modifies_with_cell c s2) as Hm. destruct H1 as [R1 I1 (k1 & Hk1 & M1) Z1 G1 V1]. destruct H2 as [R2 I2 (k2 & Hk2 & M2) Z2 G2 V2].
  assert (outside (cells s1) ⊆ outside (cells s2)) as Hs12 by exact (outside_mono _ _ _ M2).
  assert (outside (cells s2) ⊆ outside (cells (with_cell c s2))) as Hs2.
  { apply (outside_mono 1). eapply modifies_weaken; [|exact Hm]. by intros ? ? []. }
  assert (ready (with_cell c s2) al2) as Hr by by eapply ready_extends.
  split; [done|by eapply modifies_input| |lia|by eapply grows_trans|].
  - exists (k1 + (k2 + 1)). split; [lia|]. eapply modifies_trans; [exact M1| |intros; lia || done].
    eapply modifies_trans; [exact M2| |]; [apply modifies_blind; eapply modifies_weaken; [|exact Hm]; by intros ? ? []|done].
  - econstructor.
    + exists c. split; [|done]. eapply outside_other; [apply Hr|rewrite cells_with_cell; apply lookup_insert|discriminate].
    + eapply sexp_at_mono; [exact G2| |exact V1]. by etrans.
    + eapply sexp_at_mono; [apply grows_refl| |exact V2]. done.
Qed.

(** new atoms *)
Lemma number_new n s al rest : ready s al -> input s rest -> can_alloc 1 s ->
  exists r s', make_number n s = ROk r s' /\ result 1 0 s al rest (XNum n) r s' al.
Proof.
  intros Hr Hi Ha. eexists _, _. split; [by apply make_number_s|]. eapply result_new; [done|done|apply modifies_with_cell|lia|].
  constructor. eexists. split; [eapply outside_other; [by eapply symbols_at_extends; [apply modifies_with_cell|apply Hr]|rewrite cells_with_cell; apply lookup_insert|discriminate]|done].
Qed.
Lemma char_new n s al rest : ready s al -> input s rest -> can_alloc 1 s ->
  exists r s', make_char n s = ROk r s' /\ result 1 0 s al rest (XChar n) r s' al.
Proof.
  intros Hr Hi Ha. eexists _, _. split; [by apply make_cell_s|]. eapply result_new; [done|done|apply modifies_with_cell|lia|].
  constructor. eexists. split; [eapply outside_other; [by eapply symbols_at_extends; [apply modifies_with_cell|apply Hr]|rewrite cells_with_cell; apply lookup_insert|discriminate]|done].
Qed.
Lemma string_new bs s al rest : ready s al -> input s rest -> can_alloc (string_cells bs) s -> Z.of_nat (length bs) <= max ->
  exists r s', make_string bs s = ROk r s' /\ result (string_cells bs) 0 s al rest (XStr bs) r s' al.
Proof.
  intros Hr Hi Ha Hl. destruct (make_string_ok bs s Ha) as (s' & E & Hm & Ht); [by rewrite (ready_max _ _ Hr)|].
  exists (g_free s), s'. split; [done|]. eapply result_new; [done|done|done|lia|]. constructor.
  eapply outside_text; [by eapply symbols_at_extends; [|apply Hr]|discriminate|done].
Qed.

Lemma word_char_hash name : Forall word_char name -> 0 <= name_hash name.
Proof.
  intros H. assert (forall c, word_char c -> 0 < to_schar c) as Hc. { intros c [? _]. unfold to_schar. lia. }
  destruct H as [|c name Hc0 H]; cbn [name_hash]; [lia|]. pose proof (Hc _ Hc0). destruct (to_schar c =? 0); [lia|].
  destruct H as [|d name Hd H]; [lia|]. pose proof (Hc _ Hd). lia.
Qed.

Lemma symbol_new name s f al rest : ready s al -> input s rest -> key_name name -> Z.of_nat (length name) <= max -> can_alloc (string_cells name + 6) s ->
  (length al < f)%nat ->
  exists r s' al', cstring_to_symbol f name s = ROk r s' /\ result (string_cells name + 6) 1 s al rest (XSym name) r s' al'.
Proof.
  intros Hr Hi (Hne & Hw & _ & Hf0) Hl Ha Hf. unfold cstring_to_symbol, make_string0.
  rewrite until_nul_id by (eapply Forall_impl; [exact Hw|]; intros c [? _]; lia).
  assert (0 <= string_cells name) by (unfold string_cells, bytes_cells; lia).
  destruct (make_string_ok name s) as (s1 & E1 & Hm1 & Ht1); [eapply can_alloc_le; [done|lia]|by rewrite (ready_max _ _ Hr)|].
  rewrite (bind_ok _ _ _ _ _ E1). pose proof (ready_extends _ _ _ _ Hm1 Hr) as Hr1.
  destruct (intern_at f (g_free s) name w size al s1) as (r & s2 & n & al' & E2 & Hs2 & _ & _ & Hn & (p & Hp & Hm2) & Hlen & Hlat & Hold & _).
  { apply Hr1. } { done. } { split; [done|by apply word_char_hash]. } { done. }
  { eapply modifies_can_alloc; [exact Hm1| |lia]. eapply can_alloc_le; [done|lia]. }
  exists r, s2, al'. split; [done|].
  assert (modifies in_buckets n s1 s2) as Hm2'. { eapply modifies_weaken; [|exact Hm2]. by intros q _ <-. }
  split.
  - split; [done|rewrite (modifies_max _ _ _ _ Hm2); apply Hr1|apply Hr| |].
    + eapply Forall_impl; [apply Hr|]. intros q Hq. by apply Hold.
    + eapply Forall_impl; [apply Hr1|]. intros q Hq. pose proof (outside_text _ _ _ _ _ (ready_symbols _ _ Hr1) (ltac:(discriminate) : TSPECIAL <> TREF) Hq) as Hd.
      eapply text_at_mono; [|exact Hd]. etrans; [eapply outside_mono; exact Hm2'|apply outside_sub].
  - eapply modifies_input; [exact Hm2|]. by eapply modifies_input.
  - exists (string_cells name + n). split; [lia|]. eapply modifies_trans; [|apply modifies_blind; exact Hm2'|done].
    eapply modifies_weaken; [|apply modifies_blind; exact Hm1]. by intros ? ? [].
  - lia.
  - intros bs' p' H'. by apply Hold.
  - by constructor.
Qed.

(** what the machine allows does not depend on the input *)
Lemma alloc_le n n' s : can_alloc n s -> n' <= n -> can_alloc n' s.
Proof. intros. by eapply can_alloc_le. Qed.

(** leading digits *)
Lemma split_digits (name : list Z) : exists ds r, name = ds ++ r /\ Forall decimal_digit ds /\ c_isdigit (first r) = false.
Proof.
  induction name as [|c name (ds & r & -> & Hd & Hr)]; [by exists [], []|]. destruct (c_isdigit c) eqn:E.
  - exists (c :: ds), r. split; [done|]. split; [constructor; [by apply digit_isdigit|done]|done].
  - exists [], (c :: ds ++ r). done.
Qed.

Lemma first_digit_ends rest : is_bytes rest -> ends rest -> c_isdigit (first rest) = false.
Proof.
  intros Hb H. destruct rest as [|c rest]; [done|]. cbn in *. destruct (c_isdigit c) eqn:E; [|done]. unfold c_isdigit in E.
  destruct H as [H|H]; [unfold white in H|lits]; rewrite !elem_of_cons, elem_of_nil in H; lia.
Qed.

Lemma tail_app_first (l r : list Z) : l <> [] -> first (l ++ r) = first l.
Proof. by destruct l. Qed.
Lemma cur_bytes s bs : cur s bs -> is_bytes bs. Proof. by intros [? _]. Qed.
Lemma bytes_app_r l r : is_bytes (l ++ r) -> is_bytes r.
Proof. unfold is_bytes. rewrite Forall_app. tauto. Qed.

(** the sign of a number is skipped *)
Lemma read_sign_number sign ds rest f s : sign ∈ [[]; bytes_of "+"; bytes_of "-"] -> ds <> [] -> Forall decimal_digit ds -> cur s (sign ++ ds ++ rest) ->
  exists s', read_sign f (first (sign ++ ds ++ rest)) s = ROk (bool_decide (sign = bytes_of "-"), first (ds ++ rest)) s' /\ quiet s s' /\ cur s' (ds ++ rest).
Proof.
  intros Hs Hne Hd Hc.
  assert (c_isdigit (first (ds ++ rest)) = true) as Hdig.
  { rewrite tail_app_first by done. destruct ds as [|d ds]; [done|]. cbn. inversion Hd; subst. by apply digit_isdigit. }
  assert (48 <= first (ds ++ rest) <= 57) as Hdig' by (unfold c_isdigit in Hdig; lia).
  unfold read_sign. lits. rewrite !elem_of_cons, elem_of_nil in Hs. destruct Hs as [->|[->|[->|[]]]]; cbn [app first] in *.
  - rewrite (proj2 (Z.eqb_neq _ 43)) by lia. rewrite bind_ret. rewrite (proj2 (Z.eqb_neq _ 45)) by lia. by exists s.
  - cbn [Z.eqb Pos.eqb]. destruct (cur_peek f _ _ _ Hc) as (s1 & E1 & Hq1 & Hc1). rewrite bind_assoc, (bind_ok _ _ _ _ _ E1).
    rewrite Hdig. destruct (cur_next f _ _ _ Hc1) as (s2 & E2 & Hq2 & _ & Hc2). rewrite (bind_ok _ _ _ _ _ E2).
    rewrite (proj2 (Z.eqb_neq _ 45)) by lia. exists s2. split; [done|]. split; [by eapply quiet_trans|done].
  - cbn [Z.eqb Pos.eqb]. rewrite bind_ret. cbn [Z.eqb Pos.eqb]. destruct (cur_peek f _ _ _ Hc) as (s1 & E1 & Hq1 & Hc1). rewrite (bind_ok _ _ _ _ _ E1).
    rewrite Hdig. destruct (cur_next f _ _ _ Hc1) as (s2 & E2 & Hq2 & _ & Hc2). rewrite (bind_ok _ _ _ _ _ E2).
    exists s2. split; [done|]. split; [by eapply quiet_trans|done].
Qed.

Lemma number_ok sign ds rest f s al : sign ∈ [[]; bytes_of "+"; bytes_of "-"] -> ds <> [] -> Forall decimal_digit ds -> Z.of_nat (length ds) < max ->
  digits_value 10 ds <= LONG_MAX - 48 -> ends rest -> ready s al -> cur s (sign ++ ds ++ rest) -> can_alloc 1 s -> (length ds < f)%nat ->
  exists r s', reader_read_identifier_or_number f (first (sign ++ ds ++ rest)) s = ROk r s' /\
    result 1 0 s al rest (XNum (if bool_decide (sign = bytes_of "-") then - digits_value 10 ds else digits_value 10 ds)) r s' al.
Proof.
  intros Hs Hne Hd Hsh Hv He Hr Hc Ha Hf.
  assert (is_bytes rest) as Hb by (apply cur_bytes in Hc; by do 2 apply bytes_app_r in Hc).
  destruct (read_sign_number sign ds rest f s Hs Hne Hd Hc) as (s1 & E1 & Hq1 & Hc1). unfold reader_read_identifier_or_number.
  rewrite (bind_ok _ _ _ _ _ E1). cbn [fst snd].
  destruct (read_digits_ok rest (first_digit_ends _ Hb He) ds f 0 [] s1 Hc1 Hd) as (s2 & E2 & Hq2 & Hc2 & Hi2); [lia|done| |done|].
  { rewrite (quiet_max _ _ Hq1), (ready_max _ _ Hr). cbn [length]. lia. }
  rewrite (bind_ok _ _ _ _ _ E2). cbn [fst snd]. rewrite (ends_end _ Hb He).
  destruct (unreadchar_ok f s2 rest Hb (Hi2 Hne)) as (s3 & E3 & Hq3 & Hi3). rewrite (bind_ok _ _ _ _ _ E3).
  assert (quiet s s3) as Hq by (unfold quiet in *; congruence).
  destruct (number_new (if bool_decide (sign = bytes_of "-") then 0 - dvalue_from 10 0 ds else dvalue_from 10 0 ds) s3 al rest) as (r & s4 & E4 & H4).
  { by eapply ready_quiet. } { done. } { by eapply alloc_quiet. }
  exists r, s4. split; [done|]. eapply result_quiet; [done|]. destruct (bool_decide (sign = bytes_of "-")); [|done].
  by replace (- digits_value 10 ds) with (0 - dvalue_from 10 0 ds) by (unfold digits_value, dvalue_from; lia).
Qed.

Lemma read_sign_name name rest f s : name <> [] -> no_number name -> is_bytes rest -> ends rest -> cur s (name ++ rest) ->
  exists s', read_sign f (first (name ++ rest)) s = ROk (false, first (name ++ rest)) s' /\ quiet s s' /\ cur s' (name ++ rest).
Proof.
  intros Hne (_ & Hsign & _) Hb He Hc. destruct name as [|c name]; [done|]. cbn [app first] in *.
  assert (c ∈ bytes_of "+-" -> c_isdigit (first (name ++ rest)) = false) as Hdig.
  { intros Hin. destruct name as [|d name]; [by apply first_digit_ends|]. cbn. destruct (c_isdigit d) eqn:E; [|done].
    exfalso. eapply Hsign; [done|done|]. by apply digit_isdigit. }
  unfold read_sign. lits. destruct (Z.eqb_spec c 43) as [->|Hn43].
  - destruct (cur_peek f _ _ _ Hc) as (s1 & E1 & Hq1 & Hc1). rewrite bind_assoc, (bind_ok _ _ _ _ _ E1). rewrite Hdig by set_solver.
    rewrite bind_ret. cbn [Z.eqb Pos.eqb]. by exists s1.
  - rewrite bind_ret. destruct (Z.eqb_spec c 45) as [->|Hn45]; [|by exists s].
    destruct (cur_peek f _ _ _ Hc) as (s1 & E1 & Hq1 & Hc1). rewrite (bind_ok _ _ _ _ _ E1). rewrite Hdig by set_solver. by exists s1.
Qed.

Lemma name_ok name rest f s al : key_name name -> Z.of_nat (length name) < max -> ends rest -> ready s al -> cur s (name ++ rest) ->
  can_alloc (string_cells name + 6) s -> (length name < f)%nat -> (length al < f)%nat ->
  exists r s' al', reader_read_identifier_or_number f (first (name ++ rest)) s = ROk r s' /\
    result (string_cells name + 6) 1 s al rest (XSym name) r s' al'.
Proof.
  intros Hk Hsh He Hr Hc Ha Hf Hfa. pose proof Hk as (Hne & Hw & Hno & Hnf).
  assert (is_bytes rest) as Hb by (apply cur_bytes in Hc; by apply bytes_app_r in Hc).
  destruct (read_sign_name name rest f s Hne Hno Hb He Hc) as (s1 & E1 & Hq1 & Hc1). unfold reader_read_identifier_or_number.
  rewrite (bind_ok _ _ _ _ _ E1). cbn [fst snd].
  destruct (split_digits name) as (ds & r & Hname & Hd & Hr0).
  destruct r as [|c r]; [exfalso; apply (proj1 Hno); rewrite Hname, app_nil_r; done|].
  assert (length name = length ds + S (length r))%nat as Hlen by (rewrite Hname, app_length; done).
  rewrite Hname, <- app_assoc in *.
  destruct (read_digits_ok ((c :: r) ++ rest) Hr0 ds f 0 [] s1 Hc1 Hd) as (s2 & E2 & Hq2 & Hc2 & Hi2); [lia| | |lia|].
  { eapply Hno; [|done]. by rewrite Hname. }
  { rewrite (quiet_max _ _ Hq1), (ready_max _ _ Hr). cbn [length]. lia. }
  rewrite (bind_ok _ _ _ _ _ E2). cbn [fst snd app]. cbn [app first] in *.
  rewrite Forall_app in Hw. destruct Hw as [Hw1 Hw2]. rewrite word_char_end by (by inversion Hw2).
  destruct (read_word_ok rest Hb He (c :: r) f ds s2 Hc2 Hw2) as (s3 & E3 & Hq3 & Hc3 & Hi3).
  { rewrite (quiet_max _ _ Hq2), (quiet_max _ _ Hq1), (ready_max _ _ Hr). cbn [length]. lia. }
  { cbn [length]. lia. }
  cbn [app first] in E3. rewrite (bind_ok _ _ _ _ _ E3). cbn [fst snd].
  destruct (unreadchar_ok f s3 rest Hb (Hi3 ltac:(done))) as (s4 & E4 & Hq4 & Hi4). rewrite (bind_ok _ _ _ _ _ E4).
  assert (quiet s s4) as Hq by (unfold quiet in *; congruence).
  assert (ready s4 al) as Hr4 by by eapply ready_quiet.
  rewrite (bind_ok _ _ _ _ _ (g_buf_store_ok (ds ++ c :: r) 0 s4 (ltac:(rewrite (ready_max _ _ Hr4), app_length; cbn [length]; lia)))).
  destruct (symbol_new (ds ++ c :: r) s4 f al rest Hr4 Hi4) as (r' & s5 & al' & E5 & H5).
  { done. } { lia. } { by eapply alloc_quiet. } { done. }
  exists r', s5, al'. split; [done|]. by eapply result_quiet.
Qed.

(** ** Numbers in other bases *)
Lemma base_digit_spec base c : base ∈ [2; 8; 16] -> base_digit base c = digit_value base c.
Proof.
  intros Hb. unfold base_digit, digit_value, c_isdigit. rewrite !elem_of_cons, elem_of_nil in Hb.
  destruct Hb as [->|[->|[->|[]]]]; cbn [Z.eqb Pos.eqb];
    destruct ((48 <=? c) && (c <=? 57)) eqn:E1; try (destruct ((65 <=? c) && (c <=? 70)) eqn:E2); try (destruct ((97 <=? c) && (c <=? 102)) eqn:E3);
    repeat match goal with |- context [if ?b then _ else _] => destruct b eqn:? end; try done; try (f_equal; lia); exfalso; lia.
Qed.
Lemma digit_value_char base c d : digit_value base c = Some d -> 48 <= c <= 102 /\ d <= c - 48.
Proof.
  unfold digit_value. destruct ((48 <=? c) && (c <=? 57)) eqn:E1; [|destruct ((65 <=? c) && (c <=? 70)) eqn:E2; [|destruct ((97 <=? c) && (c <=? 102)) eqn:E3; [|done]]];
    match goal with |- (if ?x then _ else _) = _ -> _ => destruct x eqn:E end; try done; intros [= <-]; lia.
Qed.

Lemma base_digits_ok base rest : base ∈ [2; 8; 16] -> digit_value base (first rest) = None -> forall ds f n s, input s (ds ++ rest) ->
  Forall (fun c => is_Some (digit_value base c)) ds -> 0 <= n -> dvalue_from base n ds <= LONG_MAX - 128 -> (length ds < f)%nat ->
  exists s', read_base_digits f base (first (ds ++ rest)) n s = ROk (dvalue_from base n ds) s' /\ quiet s s' /\ input s' rest.
Proof.
  intros Hb Hr. assert (2 <= base) as Hb2 by (rewrite !elem_of_cons, elem_of_nil in Hb; lia).
  induction ds as [|d ds IH]; intros f n s Hi Hd Hn Hv Hf; (destruct f as [|f]; [cbn in Hf; lia|]); cbn [app first read_base_digits] in *; rewrite base_digit_spec by done.
  - rewrite Hr. by exists s.
  - inversion Hd as [|? ? (v & Hv0) Hds]; subst. rewrite Hv0. cbn [length] in *.
    pose proof (digit_value_nonneg _ _ _ Hv0). pose proof (digit_value_char _ _ _ Hv0). rewrite (dvalue_cons _ _ _ _ _ Hv0) in Hv |- *.
    assert (0 <= n * base) by nia.
    pose proof (dvalue_from_le base ds Hb2 Hds (n * base + v) ltac:(lia)). unfold LONG_MAX in Hv.
    rewrite (bind_ok _ _ _ _ _ (checked_ok (n * base) s ltac:(unfold LONG_MIN, LONG_MAX; lia))).
    rewrite (bind_ok _ _ _ _ _ (checked_ok (n * base + d) s ltac:(unfold LONG_MIN, LONG_MAX; lia))).
    destruct (readchar_ok f _ _ Hi) as (s1 & E1 & Hq1 & Hi1). rewrite (bind_ok _ _ _ _ _ E1).
    destruct (peekchar_ok f _ _ (input_0 _ _ Hi1)) as (s2 & E2 & Hq2 & Hi2). rewrite (bind_ok _ _ _ _ _ E2). cbn [tail] in *.
    destruct (IH f (n * base + v) s2 Hi2 Hds) as (s3 & E3 & Hq3 & Hi3); try lia. { unfold LONG_MAX. lia. }
    exists s3. split; [done|]. split; [unfold quiet in *; congruence|done].
Qed.

Lemma based_ok base sign ds rest f s al : base ∈ [2; 8; 16] -> sign ∈ [[]; bytes_of "-"] ->
  Forall (fun c => is_Some (digit_value base c)) ds -> digits_value base ds <= LONG_MAX - 128 ->
  match ds ++ rest with [] => True | c :: _ => sign = [] -> c <> 45 end ->
  match rest with [] => True | c :: _ => digit_value base c = None end ->
  ready s al -> input s (sign ++ ds ++ rest) -> can_alloc 1 s -> (length ds < f)%nat ->
  exists r s', reader_read_base base f s = ROk r s' /\
    result 1 0 s al rest (XNum (if bool_decide (sign = bytes_of "-") then - digits_value base ds else digits_value base ds)) r s' al.
Proof.
  intros Hb Hs Hd Hv Hsg Hend Hr Hi Ha Hf. unfold reader_read_base.
  destruct (peekchar_ok f _ _ Hi) as (s1 & E1 & Hq1 & Hi1). rewrite (bind_ok _ _ _ _ _ E1).
  assert (digit_value base (first rest) = None) as Hr0 by by destruct rest.
  set (neg := first (sign ++ ds ++ rest) =? 45).
  assert (neg = bool_decide (sign = bytes_of "-") /\ exists s2, (if neg then readchar f ;;; peekchar f else ret (first (sign ++ ds ++ rest))) s1 = ROk (first (ds ++ rest)) s2 /\ quiet s1 s2 /\ input s2 (ds ++ rest)) as (Hneg & s2 & E2 & Hq2 & Hi2).
  { unfold neg. clear neg. lits. rewrite !elem_of_cons, elem_of_nil in Hs. destruct Hs as [->|[->|[]]]; cbn [app first] in *.
    - assert (first (ds ++ rest) =? 45 = false) as ->. { destruct (ds ++ rest) as [|c l]; [done|]. cbn. specialize (Hsg eq_refl). lia. }
      split; [done|]. by exists s1.
    - split; [done|]. cbn [Z.eqb Pos.eqb]. destruct (readchar_ok f _ _ Hi1) as (s2 & E2 & Hq2 & Hi2). rewrite (bind_ok _ _ _ _ _ E2).
      cbn [tail] in Hi2. destruct (peekchar_ok f _ _ (input_0 _ _ Hi2)) as (s3 & E3 & Hq3 & Hi3). exists s3. split; [done|]. split; [by eapply quiet_trans|done]. }
  cbv zeta. rewrite (bind_ok _ _ _ _ _ E2).
  destruct (base_digits_ok base rest Hb Hr0 ds f 0 s2 Hi2 Hd) as (s3 & E3 & Hq3 & Hi3); [lia|done|done|]. rewrite (bind_ok _ _ _ _ _ E3).
  assert (quiet s s3) as Hq by (unfold quiet in *; congruence). rewrite Hneg.
  destruct (number_new (if bool_decide (sign = bytes_of "-") then 0 - dvalue_from base 0 ds else dvalue_from base 0 ds) s3 al rest) as (r & s4 & E4 & H4).
  { by eapply ready_quiet. } { done. } { by eapply alloc_quiet. }
  exists r, s4. split; [done|]. eapply result_quiet; [done|]. destruct (bool_decide (sign = bytes_of "-")); [|done].
  by replace (- digits_value base ds) with (0 - dvalue_from base 0 ds) by (unfold digits_value, dvalue_from; lia).
Qed.

(** ** Strings *)
Lemma unescape_escape c b : (c, b) ∈ escapes -> unescape c = b.
Proof. unfold escapes. rewrite !elem_of_cons, elem_of_nil. intros H. repeat (destruct H as [[= -> ->]|H]; [done|]). done. Qed.
Lemma unescape_other c : (forall b, (c, b) ∉ escapes) -> unescape c = c.
Proof.
  intros H. unfold unescape. repeat match goal with |- (if ?c =? ?k then ?v else _) = _ => destruct (Z.eqb_spec c k) as [->|?]; [exfalso; apply (H v); unfold escapes; set_solver|] end. done.
Qed.
Lemma string_bytes t bs rest : string_text t bs -> is_bytes (t ++ rest) -> is_bytes bs.
Proof.
  induction 1 as [|c t bs Hc H IH|c b t bs Hc H IH|c t bs Hx Hc H IH]; cbn [app]; intros Hb; [constructor|..].
  - inversion Hb; subst. constructor; [done|by apply IH].
  - inversion Hb as [|? ? _ Hb1]; subst. inversion Hb1; subst. constructor; [|by apply IH].
    unfold escapes in Hc. rewrite !elem_of_cons, elem_of_nil in Hc. unfold is_byte. repeat (destruct Hc as [[= -> ->]|Hc]; [lia|]). done.
  - inversion Hb as [|? ? _ Hb1]; subst. inversion Hb1; subst. constructor; [done|by apply IH].
Qed.
Lemma string_text_len t bs : string_text t bs -> (length bs <= length t)%nat.
Proof. induction 1; cbn; lia. Qed.
Lemma string_chars_ok rest t bs : string_text t bs -> forall f buf s, input s (t ++ 34 :: rest) -> Z.of_nat (length buf + length bs) <= MAX_STRING s -> (length t < f)%nat ->
  exists s', read_string_chars f buf s = ROk (buf ++ bs) s' /\ quiet s s' /\ input s' rest.
Proof.
  induction 1 as [|c t bs Hc H IH|c b t bs Hc H IH|c t bs Hx Hc H IH]; intros f buf s Hi Hl Hf; (destruct f as [|f]; [cbn in Hf; lia|]); cbn [app length read_string_chars] in *;
    destruct (readchar_ok f _ _ Hi) as (s1 & E1 & Hq1 & Hi1); rewrite (bind_ok _ _ _ _ _ E1); cbn [first tail] in *.
  - cbn [Z.eqb Pos.eqb]. rewrite app_nil_r. exists s1. split; [done|]. split; [done|by left].
  - assert (c <> 34 /\ c <> 92) as [Hc1 Hc2] by (split; intros ->; apply Hc; vm_compute; set_solver).
    rewrite (proj2 (Z.eqb_neq _ _) Hc1), (proj2 (Z.eqb_neq _ _) Hc2), bind_ret.
    rewrite (bind_ok _ _ _ _ _ (g_buf_store_ok buf c s1 ltac:(rewrite (quiet_max _ _ Hq1); lia))).
    apply input_bytes in Hi. inversion Hi as [|? ? Hcb _]; subst. rewrite to_byte_id by done.
    destruct (IH f (buf ++ [c]) s1 (input_0 _ _ Hi1)) as (s2 & E2 & Hq2 & Hi2); [rewrite (quiet_max _ _ Hq1), app_length; cbn; lia|lia|].
    exists s2. split; [by rewrite E2, <- app_assoc|]. split; [by eapply quiet_trans|done].
  - cbn [Z.eqb Pos.eqb]. destruct (readchar_ok f _ _ (input_0 _ _ Hi1)) as (s2 & E2 & Hq2 & Hi2). rewrite bind_assoc, (bind_ok _ _ _ _ _ E2). cbn [first tail] in *.
    assert (c <> 120 /\ is_byte b) as [Hc1 Hbb]. { unfold escapes in Hc. rewrite !elem_of_cons, elem_of_nil in Hc. unfold is_byte. repeat (destruct Hc as [[= -> ->]|Hc]; [lia|]). done. }
    rewrite (proj2 (Z.eqb_neq _ _) Hc1), bind_ret, (unescape_escape _ _ Hc).
    rewrite (bind_ok _ _ _ _ _ (g_buf_store_ok buf b s2 ltac:(rewrite (quiet_max _ _ Hq2), (quiet_max _ _ Hq1); lia))). rewrite to_byte_id by done.
    destruct (IH f (buf ++ [b]) s2 (input_0 _ _ Hi2)) as (s3 & E3 & Hq3 & Hi3); [rewrite (quiet_max _ _ Hq2), (quiet_max _ _ Hq1), app_length; cbn; lia|lia|].
    exists s3. split; [by rewrite E3, <- app_assoc|]. split; [unfold quiet in *; congruence|done].
  - cbn [Z.eqb Pos.eqb]. destruct (readchar_ok f _ _ (input_0 _ _ Hi1)) as (s2 & E2 & Hq2 & Hi2). rewrite bind_assoc, (bind_ok _ _ _ _ _ E2). cbn [first tail] in *.
    rewrite (proj2 (Z.eqb_neq _ _) Hx), bind_ret, (unescape_other _ Hc).
    rewrite (bind_ok _ _ _ _ _ (g_buf_store_ok buf c s2 ltac:(rewrite (quiet_max _ _ Hq2), (quiet_max _ _ Hq1); lia))).
    apply input_bytes in Hi. inversion Hi as [|? ? _ Hcb]; subst. inversion Hcb as [|? ? Hcb' _]; subst. rewrite to_byte_id by done.
    destruct (IH f (buf ++ [c]) s2 (input_0 _ _ Hi2)) as (s3 & E3 & Hq3 & Hi3); [rewrite (quiet_max _ _ Hq2), (quiet_max _ _ Hq1), app_length; cbn; lia|lia|].
    exists s3. split; [by rewrite E3, <- app_assoc|]. split; [unfold quiet in *; congruence|done].
Qed.
Lemma string_ok t bs rest f s al : string_text t bs -> Z.of_nat (length bs) < max -> ready s al -> input s (t ++ 34 :: rest) ->
  can_alloc (string_cells bs) s -> (length t < f)%nat ->
  exists r s', reader_read_string f s = ROk r s' /\ result (string_cells bs) 0 s al rest (XStr bs) r s' al.
Proof.
  intros Ht Hl Hr Hi Ha Hf. unfold reader_read_string. pose proof (ready_max _ _ Hr).
  destruct (string_chars_ok rest t bs Ht f [] s Hi) as (s1 & E1 & Hq1 & Hi1); [cbn [length]; lia|done|]. rewrite (bind_ok _ _ _ _ _ E1). cbn [app].
  rewrite (bind_ok _ _ _ _ _ (g_buf_store_ok bs 0 s1 ltac:(rewrite (quiet_max _ _ Hq1); lia))).
  destruct (string_new bs s1 al rest) as (r & s2 & E2 & H2).
  { by eapply ready_quiet. } { done. } { by eapply alloc_quiet. } { lia. }
  exists r, s2. split; [done|]. by eapply result_quiet.
Qed.

(** ** Characters *)
Lemma name_char_letter c : name_char_p c = true <-> letter c.
Proof. unfold name_char_p, letter. lia. Qed.
Lemma char_name_ok rest : name_char_p (first rest) = false -> forall name f buf s, input s (name ++ rest) -> Forall letter name ->
  (length buf + length name < 10)%nat -> (length name < f)%nat ->
  exists s', read_char_name f (first (name ++ rest)) buf s = ROk (buf ++ name) s' /\ quiet s s' /\ input s' rest.
Proof.
  intros Hr. induction name as [|c name IH]; intros f buf s Hi Hn Hl Hf; (destruct f as [|f]; [cbn in Hf; lia|]); cbn [app first length read_char_name] in *;
    rewrite (proj2 (Z.ltb_lt _ 10)) by lia.
  - rewrite Hr, app_nil_r. by exists s.
  - inversion Hn as [|? ? Hc Hn']; subst. rewrite (proj2 (name_char_letter c) Hc).
    destruct (readchar_ok f _ _ Hi) as (s1 & E1 & Hq1 & Hi1). rewrite (bind_ok _ _ _ _ _ E1). cbn [tail first] in *.
    destruct (peekchar_ok f _ _ (input_0 _ _ Hi1)) as (s2 & E2 & Hq2 & Hi2). rewrite (bind_ok _ _ _ _ _ E2).
    destruct (IH f (buf ++ [c]) s2 Hi2 Hn') as (s3 & E3 & Hq3 & Hi3); [rewrite app_length; cbn; lia|lia|].
    exists s3. split; [by rewrite E3, <- app_assoc|]. split; [unfold quiet in *; congruence|done].
Qed.
Lemma named_chars_ok name c : (name, c) ∈ named_chars ->
  exists a b n, name = a :: b :: n /\ Forall letter name /\ (length name < 10)%nat /\ char_named char_names name = Some c /\ octal_p a = false /\ a <> 120.
Proof.
  unfold named_chars. rewrite !elem_of_cons, elem_of_nil. intros H.
  repeat (destruct H as [[= -> ->]|H]; [lits; eexists _, _, _; split; [done|]; split; [repeat constructor; unfold letter; lia|]; split; [cbn; lia|]; split; [vm_compute; done|]; split; [done|lia]|]). done.
Qed.
Lemma lone_char_ok c rest f s al : lone c rest -> ready s al -> input s (c :: rest) -> can_alloc 1 s ->
  exists r s', reader_read_character f s = ROk r s' /\ result 1 0 s al rest (XChar c) r s' al.
Proof.
  intros Hl Hr Hi Ha. unfold reader_read_character. destruct (readchar_ok f _ _ Hi) as (s1 & E1 & Hq1 & Hi1). rewrite (bind_ok _ _ _ _ _ E1). cbn [tail first] in *.
  destruct (peekchar_ok f _ _ (input_0 _ _ Hi1)) as (s2 & E2 & Hq2 & Hi2). rewrite (bind_ok _ _ _ _ _ E2).
  assert (octal_p c && octal_p (first rest) = false /\ (c =? 120) && hex_start_p (first rest) = false /\ name_char_p c && name_char_p (first rest) = false) as (-> & -> & ->).
  { destruct rest as [|p rest]; cbn [first lone] in *.
    { change (octal_p (-1)) with false. change (hex_start_p (-1)) with false. change (name_char_p (-1)) with false. by rewrite !andb_false_r. }
    destruct Hl as (H1 & H2 & H3). unfold octal, decimal_digit, letter in *. unfold octal_p, hex_start_p, name_char_p, c_isdigit. lia. }
  rewrite bind_ret. destruct (char_new c s2 al rest) as (r & s3 & E3 & H3).
  { eapply ready_quiet; [|done]. by eapply quiet_trans. } { done. } { eapply alloc_quiet; [|done]. by eapply quiet_trans. }
  exists r, s3. split; [done|]. eapply result_quiet; [|done]. by eapply quiet_trans.
Qed.
Lemma named_char_ok name c rest f s al : (name, c) ∈ named_chars -> not_letter rest -> ready s al -> input s (name ++ rest) -> can_alloc 1 s -> (length name < f)%nat ->
  exists r s', reader_read_character f s = ROk r s' /\ result 1 0 s al rest (XChar c) r s' al.
Proof.
  intros Hin Hl Hr Hi Ha Hf. destruct (named_chars_ok _ _ Hin) as (a & b & n & -> & Hlet & Hlen & Hnamed & Hoct & Hx). unfold reader_read_character.
  destruct (readchar_ok f _ _ Hi) as (s1 & E1 & Hq1 & Hi1). rewrite (bind_ok _ _ _ _ _ E1). cbn [app tail first] in *.
  destruct (peekchar_ok f _ _ (input_0 _ _ Hi1)) as (s2 & E2 & Hq2 & Hi2). rewrite (bind_ok _ _ _ _ _ E2). cbn [first] in *.
  rewrite Hoct. cbn [andb]. rewrite (proj2 (Z.eqb_neq _ _) Hx). cbn [andb]. inversion Hlet as [|? ? Hla Hlet']; subst. inversion Hlet' as [|? ? Hlb _]; subst.
  rewrite (proj2 (name_char_letter a) Hla), (proj2 (name_char_letter b) Hlb). cbn [andb].
  assert (name_char_p (first rest) = false) as Hr0.
  { destruct rest as [|p rest]; [done|]. cbn in *. destruct (name_char_p p) eqn:E; [|done]. exfalso. by apply Hl, name_char_letter. }
  cbn [length] in *. destruct (char_name_ok rest Hr0 (b :: n) f [a] s2 Hi2 Hlet') as (s3 & E3 & Hq3 & Hi3); [cbn; lia|cbn; lia|].
  cbn [app first] in E3. rewrite bind_assoc, (bind_ok _ _ _ _ _ E3). rewrite Hnamed, bind_ret.
  assert (quiet s s3) as Hq by (unfold quiet in *; congruence).
  destruct (char_new c s3 al rest) as (r & s4 & E4 & H4).
  { by eapply ready_quiet. } { done. } { by eapply alloc_quiet. }
  exists r, s4. split; [done|]. by eapply result_quiet.
Qed.

(** ** What a text looks like *)
Fixpoint spine (x : sexp) : Z := match x with XPair _ d => 1 + spine d | _ => 0 end.
Lemma spine_nonneg x : 0 <= spine x.
Proof. induction x; cbn [spine]; lia. Qed.
Definition char_ok (x : sexp) : Prop := match x with XChar c => in_int c = true | _ => True end.
Fixpoint chars_ok (x : sexp) : Prop := match x with XPair a d => char_ok a /\ chars_ok d | _ => True end.

Lemma byte_int c : is_byte c -> in_int c = true.
Proof. unfold is_byte, in_int, INT_MIN, INT_MAX. lia. Qed.

Lemma symbol_head name : symbol_name name -> exists c r, name = c :: r /\ word_char c /\ c ∉ bytes_of "#'`,".
Proof. intros [(_ & Hw & _) H]. destruct name as [|c r]; [done|]. exists c, r. inversion Hw; subst. destruct H. done. Qed.
Lemma word_char_not c : word_char c -> c ∉ [32; 9; 10; 12; 11; 13] /\ c ∉ [34; 40; 41; 59] /\ 1 <= c < 128.
Proof. intros [H1 H2]. unfold delimiter, white in H2. lits. split; [tauto|]. split; [tauto|done]. Qed.

(** a datum begins with neither white space nor a closing parenthesis nor a comment *)
Definition head_ok (t : list Z) : Prop :=
  exists c r, t = c :: r /\ c ∉ [32; 9; 10; 12; 11; 13; 41; 59; -1] /\ (c = 35 -> exists d r', r = d :: r' /\ d <> 33 /\ d <> 124).
Lemma text_head : (forall rest t x, text max rest t x -> head_ok t) /\ (forall dot rest t x, items max dot rest t x -> True).
Proof.
  apply text_items_ind; try done; unfold head_ok; lits.
  - intros sign ds rest Hs Hne Hd _ _ _. destruct ds as [|d ds]; [done|]. inversion Hd as [|? ? Hd0 _]; subst. unfold decimal_digit in Hd0.
    rewrite !elem_of_cons, elem_of_nil in Hs. destruct Hs as [->|[->|[->|[]]]]; cbn [app]; eexists _, _; split; try done; rewrite !elem_of_cons, elem_of_nil; lia.
  - intros r base sign ds rest Hr _ _ _ _ _. eexists _, _. split; [done|]. split; [set_solver|]. intros _. eexists _, _. split; [done|]. set_solver.
  - intros name rest Hn _ _. destruct (symbol_head _ Hn) as (c & r & -> & Hw & Hc). lits. apply word_char_not in Hw as (Hw1 & Hw2 & Hw3). eexists _, _. split; [done|].
    rewrite !elem_of_cons, elem_of_nil in *. lia.
  - intros name rest _ _ _. cbn [app]. eexists _, _. split; [done|]. split; [set_solver|]. intros _. eexists _, _. split; [done|]. lia.
  - intros t bs rest _ _. eexists _, _. split; [done|]. split; [set_solver|]. lia.
  - intros c rest _. cbn [app]. eexists _, _. split; [done|]. split; [set_solver|]. intros _. eexists _, _. split; [done|]. lia.
  - intros name c rest _ _. cbn [app]. eexists _, _. split; [done|]. split; [set_solver|]. intros _. eexists _, _. split; [done|]. lia.
  - intros rest. eexists _, _. split; [done|]. split; [set_solver|]. intros _. eexists _, _. split; [done|]. lia.
  - intros rest. eexists _, _. split; [done|]. split; [set_solver|]. intros _. eexists _, _. split; [done|]. lia.
  - intros t x rest _ _. eexists _, _. split; [done|]. split; [set_solver|]. lia.
  - intros t l rest _ _. eexists _, _. split; [done|]. split; [set_solver|]. intros _. eexists _, _. split; [done|]. lia.
  - intros q name l t x rest Hq _ _ _ _. unfold abbreviations in Hq. lits. rewrite !elem_of_cons, elem_of_nil in Hq.
    repeat (destruct Hq as [[= -> _]|Hq]; [cbn [app]; eexists _, _; (split; [done|]); (split; [set_solver|]); first [lia|intros _; eexists _, _; (split; [done|]); lia]|]). done.
  - intros l1 t1 x1 l2 t2 x2 rest _ _ _ _ _ _. cbn [app]. eexists _, _. split; [done|]. split; [set_solver|]. intros _. eexists _, _. split; [done|]. lia.
Qed.
Lemma text_data : (forall rest t x, text max rest t x -> is_bytes t -> char_ok x /\ chars_ok x /\ x <> XSym (bytes_of ".")) /\
  (forall dot rest t x, items max dot rest t x -> is_bytes t -> chars_ok x /\ (dot = false -> char_ok x /\ x <> XSym (bytes_of "."))).
Proof.
  apply text_items_ind; try done.
  - intros name rest [(Hne & _) Hn] _ _ _. split; [done|]. split; [done|]. intros [= ->]. lits. destruct Hn as [_ Hn]. destruct (Hn eq_refl) as (d & r' & ? & _). done.
  - intros c rest _ Hb. lits. split; [|done]. apply byte_int. inversion Hb as [|? ? _ Hb1]; subst. inversion Hb1 as [|? ? _ Hb2]; subst. by inversion Hb2.
  - intros name c rest Hn _ _. split; [|done]. unfold named_chars in Hn. rewrite !elem_of_cons, elem_of_nil in Hn. repeat (destruct Hn as [[= _ ->]|Hn]; [done|]). done.
  - intros t x rest _ IH Hb. inversion Hb as [|? ? _ Hb1]; subst. destruct (IH Hb1) as [Hx1 Hx2]. destruct (Hx2 eq_refl). done.
  - intros q name l t x rest Hq _ Ht IH _ Hb. apply bytes_app_r in Hb. apply bytes_app_r in Hb. destruct (IH Hb). done.
  - intros l1 t1 x1 l2 t2 x2 rest _ _ _ _ _ IH Hb. apply IH. do 3 apply bytes_app_r in Hb. by apply bytes_app_r in Hb.
  - intros dot l t1 x1 t2 x2 rest _ _ IH1 _ IH2 Hb. apply bytes_app_r in Hb. unfold is_bytes in Hb. apply Forall_app in Hb as [Hb1 Hb2].
    split; [split; [apply IH1; done|apply IH2; done]|done].
  - intros l l1 t1 x1 l2 rest _ _ _ IH _ _ Hb. split; [|done]. apply bytes_app_r in Hb. inversion Hb as [|? ? _ Hb1]; subst. apply bytes_app_r in Hb1.
    unfold is_bytes in Hb1. apply Forall_app in Hb1 as [Hb1 _]. apply IH. done.
Qed.

(** ** Combining results *)
Lemma result_with n m s al rest x r s' al' x' r' : result n m s al rest x r s' al' -> sexp_at al' (outside (cells s')) r' x' ->
  result n m s al rest x' r' s' al'.
Proof. intros [H1 H2 H3 H4 H5 _] H. by split. Qed.
Lemma result_pair n m s al rest x r s2 al2 x1 r1 : result n m s al rest x r s2 al2 -> sexp_at al2 (outside (cells s2)) r1 x1 ->
  can_alloc 1 s2 -> exists r' s', cons r1 r s2 = ROk r' s' /\ result (n + 1) m s al rest (XPair x1 x) r' s' al2.
Proof.
  intros [R2 I2 (k2 & Hk2 & M2) Z2 G2 V2] V1 Ha. eexists _, _. split; [by apply cons_s|]. set (c := Cell TPAIR r1 r []).
  pose proof (modifies_with_cell c s2) as Hm.
  assert (outside (cells s2) ⊆ outside (cells (with_cell c s2))) as Hs2.
  { apply (outside_mono 1). eapply modifies_weaken; [|exact Hm]. by intros ? ? []. }
  assert (ready (with_cell c s2) al2) as Hr by by eapply ready_extends.
  split; [done|by eapply modifies_input| |lia|done|].
  - exists (k2 + 1). split; [lia|]. eapply modifies_trans; [exact M2| |]; [apply modifies_blind; eapply modifies_weaken; [|exact Hm]; by intros ? ? []|done].
  - econstructor.
    + exists c. split; [|done]. eapply outside_other; [apply Hr|rewrite cells_with_cell; apply lookup_insert|discriminate].
    + eapply sexp_at_mono; [apply grows_refl|exact Hs2|exact V1].
    + eapply sexp_at_mono; [apply grows_refl|exact Hs2|exact V2].
Qed.
Lemma result_trans n1 n2 m1 m2 s al rest1 rest x1 r1 s1 al1 x2 r2 s2 al2 : result n1 m1 s al rest1 x1 r1 s1 al1 -> result n2 m2 s1 al1 rest x2 r2 s2 al2 ->
  result (n1 + n2) (m1 + m2) s al rest x2 r2 s2 al2 /\ sexp_at al2 (outside (cells s2)) r1 x1.
Proof.
  intros [R1 I1 (k1 & Hk1 & M1) Z1 G1 V1] [R2 I2 (k2 & Hk2 & M2) Z2 G2 V2]. split; [split|]; try done.
  - exists (k1 + k2). split; [lia|]. by eapply modifies_trans.
  - lia.
  - by eapply grows_trans.
  - eapply sexp_at_mono; [exact G2| |exact V1]. exact (outside_mono _ _ _ M2).
Qed.
Lemma tagged_ok n m s al rest x r s' al' name sym : result n m s al rest x r s' al' -> (name, sym) ∈ tag_symbols -> can_alloc 2 s' ->
  exists r' s'', tagged sym r s' = ROk r' s'' /\ result (n + 2) m s al rest (XTag name x) r' s'' al'.
Proof.
  intros H Hin Ha. unfold tagged.
  assert (result n m s al rest XNil cell_nil s' al') as H0 by (eapply result_with; [exact H|constructor]).
  destruct (result_pair _ _ _ _ _ _ _ _ _ x r H0) as (r1 & s1 & E1 & H1); [apply H|by eapply can_alloc_le; [done|lia]|].
  rewrite (bind_ok _ _ _ _ _ E1).
  assert (interned al' name sym) as Hsym.
  { pose proof (ready_tags _ _ (res_ready _ _ _ _ _ _ _ _ _ H)) as Ht. rewrite Forall_forall in Ht. by apply (Ht (name, sym)). }
  destruct (result_pair _ _ _ _ _ _ _ _ _ (XSym name) sym H1) as (r2 & s2 & E2 & H2); [by constructor| |].
  { assert (modifies nothing 1 s' s1) as Hm. { revert E1. rewrite cons_s by (eapply can_alloc_le; [done|lia]). intros [= <- <-]. apply modifies_with_cell. }
    eapply modifies_can_alloc; [exact Hm|done|lia]. }
  exists r2, s2. split; [done|]. eapply result_weaken; [| |exact H2]; lia.
Qed.

(** a symbol of the table *)
Lemma interned_symbol s al name p : symbols_at s w size al -> interned al name p -> is_symbol (cells s) p name.
Proof.
  intros (_ & _ & Hv & _) Hi. unfold interned in Hi. induction Hv as [|e al (t & Hin & Ht) Hv IH]; [done|]. cbn [latest] in Hi.
  destruct (same_name name e) eqn:E; [|by apply IH]. injection Hi as <-. unfold same_name in E. apply bool_decide_eq_true in E. subst name. by exists t.
Qed.

Lemma keyword_ok name rest f s al : key_name name -> Z.of_nat (length name) < max -> ends rest -> ready s al -> input s (name ++ rest) ->
  can_alloc (string_cells name + 16) s -> (length name < f)%nat -> (length al < f)%nat ->
  exists r s' al', (c <- readchar f ;;
        x <- reader_read_identifier_or_number f c ;;
        msg <- make_string0 (bytes_of "keyword perifx ':' not followed by a symbol: ") ;;
        t <- ty x ;;
        if t =? TNUMBER then e <- cons msg x ;; error cell_symbol_system_error e
        else symbol_to_keyword x) s = ROk r s' /\
    result (string_cells name + 16) 1 s al rest (XKey name) r s' al'.
Proof.
  intros Hk Hl He Hr Hi Ha Hf Hfa. assert (0 <= string_cells name) by (unfold string_cells, bytes_cells; lia).
  destruct (cur_read f _ _ Hi) as (s0 & E0 & Hq0 & Hc0). rewrite (bind_ok _ _ _ _ _ E0).
  destruct (name_ok name rest f s0 al Hk Hl He) as (r1 & s1 & al1 & E1 & H1).
  { by eapply ready_quiet. } { done. } { eapply alloc_quiet; [done|]. eapply can_alloc_le; [done|lia]. } { done. } { done. }
  rewrite (bind_ok _ _ _ _ _ E1). eapply result_quiet in H1; [|exact Hq0]. pose proof (res_ready _ _ _ _ _ _ _ _ _ H1) as Hr1.
  assert (can_alloc 10 s1) as Ha1. { eapply result_alloc; [exact H1| |lia]. eapply can_alloc_le; [done|lia]. }
  pose proof (ready_max _ _ Hr1) as Hmx. pose proof (ready_room _ _ Hr1) as Hroom.
  unfold make_string0. replace (until_nul (bytes_of "keyword perifx ':' not followed by a symbol: ")) with (bytes_of "keyword perifx ':' not followed by a symbol: ") by reflexivity.
  destruct (string_new (bytes_of "keyword perifx ':' not followed by a symbol: ") s1 al1 rest Hr1) as (r2 & s2 & E2 & H2).
  { apply H1. } { eapply can_alloc_le; [done|]. vm_compute. done. } { change (length (bytes_of "keyword perifx ':' not followed by a symbol: ")) with 45%nat. lia. }
  rewrite (bind_ok _ _ _ _ _ E2). destruct (result_trans _ _ _ _ _ _ _ _ _ _ _ _ _ _ _ _ H1 H2) as [H12 V1].
  pose proof (res_ready _ _ _ _ _ _ _ _ _ H12) as Hr2. inversion V1 as [| | | |? ? Hin| | | |]; subst.
  destruct (interned_symbol _ _ _ _ (ready_symbols _ _ Hr2) Hin) as (t & Htt & (c & b & Hc & Ht & Hlen & Hb & Htb & Hbs)).
  assert (t <> TNUMBER) as Htn by (rewrite !elem_of_cons, elem_of_nil in Htt; destruct Htt as [->|[->|[]]]; discriminate).
  apply cells_heap in Hc as [Hc Hc']. rewrite (bind_ok _ _ _ _ _ (ty_s _ _ _ Hc)). rewrite Ht, (proj2 (Z.eqb_neq _ _) Htn).
  unfold symbol_to_keyword. rewrite (bind_ok _ _ _ _ _ (rd_ok' _ _ _ Hc)).
  assert (can_alloc 1 s2) as Ha2. { eapply result_alloc; [exact H2| |lia]. eapply can_alloc_le; [done|]. vm_compute. done. }
  eexists _, _, al1. split; [by apply make_cell_s|]. set (k := Cell TKEYWORD (c_car c) (c_cdr c) []).
  assert (result 1 0 s2 al1 rest (XKey name) (g_free s2) (with_cell k s2) al1) as H3.
  { eapply result_new; [done|apply H12|apply modifies_with_cell|lia|]. constructor.
    eapply outside_text; [eapply symbols_at_extends; [apply modifies_with_cell|apply Hr2]|discriminate|].
    exists k, b. rewrite cells_with_cell. split; [apply lookup_insert|]. split; [done|]. split; [done|]. split; [|done].
    change (c_cdr k) with (c_cdr c). rewrite lookup_insert_ne; [done|]. apply cells_heap in Hb. lia. }
  destruct (result_trans _ _ _ _ _ _ _ _ _ _ _ _ _ _ _ _ H12 H3) as [H4 _].
  eapply result_weaken; [| |exact H4]; [|lia].
  change (string_cells (bytes_of "keyword perifx ':' not followed by a symbol: ")) with 9. lia.
Qed.

(** ** Vectors *)
Lemma pair_not_nil s al p a d : symbols_at s w size al -> pair_at (outside (cells s)) p a d -> p <> cell_nil.
Proof.
  intros (_ & Hc & _) (c & Hp & Ht & _) ->. destruct (constant_type _ cell_nil true Hc ltac:(reflexivity)) as (c' & Hc' & Ht').
  apply outside_lookup in Hp as [Hp _]. rewrite Hp in Hc'. injection Hc' as <-. rewrite Ht in Ht'. discriminate.
Qed.
Lemma list_data s al : symbols_at s w size al -> forall l p, sexp_at al (outside (cells s)) p (XList l) ->
  exists es, list_at (cells s) p es /\ Forall2 (sexp_at al (outside (cells s))) es l.
Proof.
  intros Hs. induction l as [|x l IH]; intros p H; cbn [XList foldr] in H; inversion H as [| | | | | | |? a d ? ? Hp Ha Hd|]; subst.
  - exists []. split; constructor.
  - destruct (IH _ Hd) as (es & Hes & HF). exists (a :: es). split; [|by constructor]. econstructor; [by eapply pair_not_nil| |exact Hes].
    eapply pair_at_mono; [apply outside_sub|done].
Qed.
(** what an element slot holds *)
Lemma slot_data s al e x : symbols_at s w size al -> sexp_at al (outside (cells s)) e x -> char_ok x ->
  exists sl, value_at (cells s) e sl /\ match sl with SNum n => x = XNum n | SChar n => x = XChar n | SRef p => p = e end.
Proof.
  intros Hs H Hx. pose proof Hs as (_ & Hcon & _). assert (outside (cells s) ⊆ cells s) as Hsub by apply outside_sub.
  assert (forall c, cells s !! e = Some c -> c_ty c ∉ [TNUMBER; TCHAR; TREF] -> exists sl, value_at (cells s) e sl /\ match sl with SNum n => x = XNum n | SChar n => x = XChar n | SRef p => p = e end) as Hother.
  { intros c Hc Ht. exists (SRef e). split; [|done]. split; [done|]. by exists c. }
  destruct H as [p n H|p c H|p bs H|p bs H|p name H| |b|p a d xa xd H H1 H2|p c es l Hc Ht Hl He Hes].
  - exists (SNum n). split; [|done]. by eapply number_at_mono.
  - exists (SChar c). split; [|done]. split; [by eapply char_at_mono|done].
  - destruct H as (c & b & Hc & Ht & _). eapply Hother; [by eapply lookup_weaken|]. rewrite Ht. vm_compute. set_solver.
  - destruct H as (c & b & Hc & Ht & _). eapply Hother; [by eapply lookup_weaken|]. rewrite Ht. vm_compute. set_solver.
  - destruct (interned_symbol _ _ _ _ Hs H) as (t & Htt & (c & b & Hc & Ht & _)). eapply Hother; [done|]. rewrite Ht.
    rewrite !elem_of_cons, elem_of_nil in Htt. destruct Htt as [->|[->|[]]]; vm_compute; set_solver.
  - destruct (constant_type _ cell_nil true Hcon ltac:(reflexivity)) as (c & Hc & Ht). eapply Hother; [done|]. rewrite Ht. vm_compute. set_solver.
  - assert (type_at (cells s) (if b then cell_t else cell_f) TSPECIAL) as (c & Hc & Ht).
    { destruct b; eapply (constant_type _ _ true Hcon); reflexivity. }
    eapply Hother; [done|]. rewrite Ht. vm_compute. set_solver.
  - destruct H as (c & Hc & Ht & _). eapply Hother; [by eapply lookup_weaken|]. rewrite Ht. vm_compute. set_solver.
  - eapply Hother; [by eapply lookup_weaken|]. rewrite Ht. vm_compute. set_solver.
Qed.
Lemma chars_ok_list l : chars_ok (XList l) <-> Forall char_ok l.
Proof. induction l as [|x l IH]; cbn [XList foldr chars_ok]; [done|]. rewrite Forall_cons, <- IH. done. Qed.

Lemma vector_ok n m s al rest l p s1 al1 f : result n m s al rest (XList l) p s1 al1 -> chars_ok (XList l) -> (length l <= f)%nat ->
  can_alloc (1 + 3 * Z.of_nat (length l)) s1 ->
  exists r s2, list_to_vector f p s1 = ROk r s2 /\ result (n + (1 + 3 * Z.of_nat (length l))) m s al rest (XVec l) r s2 al1.
Proof.
  intros H Hch Hf Ha. pose proof (res_ready _ _ _ _ _ _ _ _ _ H) as Hr. pose proof (ready_symbols _ _ Hr) as Hs.
  destruct (list_data _ _ Hs l p (res_value _ _ _ _ _ _ _ _ _ H)) as (es & Hes & HF). apply chars_ok_list in Hch.
  assert (exists sls, Forall2 (value_at (cells s1)) es sls /\
    forall i e x sl, es !! i = Some e -> l !! i = Some x -> sls !! i = Some sl -> match sl with SNum n => x = XNum n | SChar n => x = XChar n | SRef p => p = e end) as (sls & Hv & Hmatch).
  { clear Hes Ha Hf H. induction HF as [|e x es l He HF IH]; [exists []; split; [constructor|done]|]. inversion Hch; subst.
    destruct (slot_data _ _ _ _ Hs He) as (sl & Hsl & Hm); [done|]. destruct IH as (sls & Hsls & Hms); [done|].
    exists (sl :: sls). split; [by constructor|]. intros [|i] e' x' sl'; cbn.
    - intros [= <-] [= <-] [= <-]. done.
    - apply Hms. }
  pose proof (Forall2_length _ _ _ HF) as Hlen. pose proof (Forall2_length _ _ _ Hv) as Hlen2. rewrite <- Hlen in *.
  destruct (list_to_vector_ok f p es sls s1 Hes Hv Hf Ha) as (s2 & k & E & Hk & Hm & [(cv & Hcv & Htv & Hcar & Hcdr) Hslots]).
  { eapply (constant_type _ _ true); [apply Hs|reflexivity]. }
  exists (g_free s1), s2. split; [done|].
  assert (modifies in_buckets k (blind s1) (blind s2)) as Hmb.
  { apply modifies_blind. eapply modifies_weaken; [|exact Hm]. by intros ? ? []. }
  pose proof (ready_extends _ _ _ _ Hm Hr) as Hr2. pose proof (ready_symbols _ _ Hr2) as Hs2.
  assert (outside (cells s1) ⊆ outside (cells s2)) as Hsub by exact (outside_mono _ _ _ Hmb).
  destruct H as [_ I1 (k1 & Hk1 & M1) Z1 G1 V1].
  split; [done|by eapply modifies_input| |done|done|].
  { exists (k1 + k). split; [lia|]. by eapply modifies_trans. }
  set (es' := imap (fun i sl => match sl with SRef p => p | _ => g_free s1 + 1 + Z.of_nat i end) sls).
  assert (length es' = length sls) as Hlen3 by apply imap_length.
  apply (at_vec _ _ _ cv es').
  { eapply outside_other; [done|done|]. rewrite Htv. discriminate. } { done. } { rewrite Hcar. lia. }
  { intros i e Hi. rewrite Hcdr. unfold es' in Hi. rewrite list_lookup_imap in Hi. destruct (sls !! i) as [sl|] eqn:Esl; [|done]. cbn in Hi. injection Hi as <-.
    specialize (Hslots i sl Esl). assert (~ in_buckets (g_free s1 + 1 + Z.of_nat i)) as Hnb by (eapply outside_fresh; [exact Hs|lia]).
    destruct sl as [n'|n'|q]; cbn in Hslots.
    - destruct Hslots as (c & Hc & Ht & _). exists c. split; [apply outside_lookup; done|]. by rewrite Ht.
    - destruct Hslots as [(c & Hc & Ht & _) _]. exists c. split; [apply outside_lookup; done|]. by rewrite Ht.
    - destruct Hslots as [(c & Hc & Ht & Hq) _]. exists c. split; [apply outside_lookup; done|]. rewrite Ht. done. }
  apply Forall2_same_length_lookup_2; [lia|]. intros i e x Hi Hx. unfold es' in Hi. rewrite list_lookup_imap in Hi.
  destruct (sls !! i) as [sl|] eqn:Esl; [|done]. cbn in Hi. injection Hi as <-. specialize (Hslots i sl Esl).
  destruct (lookup_lt_is_Some_2 es i) as (e & He). { rewrite Hlen2. by eapply lookup_lt_Some. }
  specialize (Hmatch i e x sl He Hx Esl). assert (~ in_buckets (g_free s1 + 1 + Z.of_nat i)) as Hnb by (eapply outside_fresh; [exact Hs|lia]).
  destruct sl as [n'|n'|q]; cbn in Hslots.
  - subst x. constructor. destruct Hslots as (c & Hc & Ht & Hn). exists c. split; [apply outside_lookup; done|done].
  - subst x. constructor. destruct Hslots as [(c & Hc & Ht & Hn) _]. exists c. split; [apply outside_lookup; done|done].
  - subst q. eapply sexp_at_mono; [apply grows_refl|exact Hsub|]. rewrite Forall2_lookup in HF. specialize (HF i). rewrite He, Hx in HF. by inversion HF.
Qed.

(** ** The reader *)
Definition room (t : list Z) : Z := 20 * Z.of_nat (length t).
Definition good_text (rest t : list Z) (x : sexp) : Prop := forall f s al, ready s al -> cur s (t ++ rest) -> can_alloc (room t - 5) s ->
  (length al + 4 * length t + 4 <= f)%nat ->
  exists r s' al', reader_read_sexp_ f (first (t ++ rest)) s = ROk r s' /\ result (room t - 5 - 3 * spine x) (length t) s al rest x r s' al'.
Definition good_items (rest t : list Z) (x : sexp) : Prop := forall f s al, ready s al -> cur s (t ++ rest) -> can_alloc (room t) s ->
  (length al + 4 * length t + 4 <= f)%nat ->
  exists r s' al', reader_read_list f (first (t ++ rest)) s = ROk r s' /\ result (room t - 3 * spine x) (length t) s al rest x r s' al'.

Lemma sexp_word c f s : c ∉ [-1; 59; 32; 9; 10; 12; 40; 41; 35; 96; 44; 39; 34] -> reader_read_sexp_ (S f) c s =
  (dot <- (if c =? 46 then p <- peekchar f ;; ret (negb (reader_identifier_p p)) else ret false) ;;
   if dot : bool then ret cell_dot else reader_read_identifier_or_number f c) s.
Proof.
  intros H. rewrite !elem_of_cons, elem_of_nil in H. cbn [reader_read_sexp_].
  rewrite (proj2 (Z.eqb_neq c (-1))), (proj2 (Z.eqb_neq c 59)), (proj2 (Z.eqb_neq c 32)), (proj2 (Z.eqb_neq c 9)), (proj2 (Z.eqb_neq c 10)),
    (proj2 (Z.eqb_neq c 12)), (proj2 (Z.eqb_neq c 40)), (proj2 (Z.eqb_neq c 41)), (proj2 (Z.eqb_neq c 35)), (proj2 (Z.eqb_neq c 96)),
    (proj2 (Z.eqb_neq c 44)), (proj2 (Z.eqb_neq c 39)), (proj2 (Z.eqb_neq c 34)) by tauto. done.
Qed.
Lemma sexp_hash f s rest : cur s (35 :: rest) -> exists s', reader_read_sexp_ (S f) 35 s = reader_read_hash f (first rest) s' /\ quiet s s' /\ cur s' rest.
Proof.
  intros Hc. cbn [reader_read_sexp_ Z.eqb Pos.eqb orb]. destruct (cur_next f _ _ _ Hc) as (s1 & E1 & Hq1 & _ & Hc1). rewrite (bind_ok _ _ _ _ _ E1).
  by exists s1.
Qed.
Lemma next_ok rest t x l f s al : good_text rest t x -> layout blank l -> ready s al -> input s (l ++ t ++ rest) -> can_alloc (room t - 5) s ->
  (length al + 4 * length t + 4 + 2 * length l <= f)%nat ->
  exists r s' al', (c <- readchar f ;; reader_read_sexp_ f c) s = ROk r s' /\ result (room t - 5 - 3 * spine x) (length t) s al rest x r s' al'.
Proof.
  intros Ht Hl Hr Hi Ha Hf. destruct (cur_read f _ _ Hi) as (s1 & E1 & Hq1 & Hc1). rewrite (bind_ok _ _ _ _ _ E1).
  destruct (sexp_layout l Hl f s1 (t ++ rest) Hc1) as (f' & s2 & -> & Hq2 & Hc2 & Hf'); [lia|].
  assert (quiet s s2) as Hq by by eapply quiet_trans.
  destruct (Ht f' s2 al) as (r & s3 & al' & E3 & H3). { by eapply ready_quiet. } { done. } { by eapply alloc_quiet. } { lia. }
  exists r, s3, al'. split; [done|]. by eapply result_quiet.
Qed.
Lemma cur_tail s c bs : cur s (c :: bs) -> input s bs.
Proof. by intros [_ ?]. Qed.

Lemma result_alloc_text t x m s al rest r s' al' : result (room t - 5 - 3 * spine x) m s al rest x r s' al' -> can_alloc (room t + 15) s -> can_alloc 2 s'.
Proof. intros H Ha. pose proof (spine_nonneg x). eapply result_alloc; [exact H| |lia]. eapply can_alloc_le; [done|lia]. Qed.

(** what follows an abbreviation *)
Lemma abbreviation_ok rest t x l f s al name sym n q : good_text rest t x -> layout blank l -> (name, sym) ∈ tag_symbols -> ready s al -> input s (l ++ t ++ rest) -> q = l ++ t ->
  can_alloc (room t + 15) s -> (length al + 4 * length t + 4 + 2 * length l <= f)%nat -> n = room t + 15 - 3 * spine (XTag name x) ->
  exists r s' al', (x <- (c <- readchar f ;; reader_read_sexp_ f c) ;; tagged sym x) s = ROk r s' /\
    result n (S (length q)) s al rest (XTag name x) r s' al'.
Proof.
  intros Ht Hl Hin Hr Hi -> Ha Hf ->. destruct (next_ok rest t x l f s al Ht Hl Hr Hi) as (r & s1 & al1 & E1 & H1); [by eapply can_alloc_le; [done|lia]|done|].
  rewrite (bind_ok _ _ _ _ _ E1). destruct (tagged_ok _ _ _ _ _ _ _ _ _ name sym H1 Hin) as (r2 & s2 & E2 & H2).
  { by eapply result_alloc_text. }
  exists r2, s2, al1. split; [done|]. pose proof (spine_nonneg x). eapply result_weaken; [| |exact H2]; [cbn [XTag spine]; lia|rewrite app_length; lia].
Qed.

Lemma text_stops rest t x bs : text max rest t x -> stops (t ++ bs) /\ first (t ++ bs) <> 41 /\ first (t ++ bs) <> -1.
Proof.
  intros H. destruct (proj1 text_head _ _ _ H) as (c & r & -> & Hc & H35). rewrite !elem_of_cons, elem_of_nil in Hc. unfold stops, white. cbn [app first tail].
  rewrite !elem_of_cons, elem_of_nil. split; [|lia]. split; [lia|]. split; [lia|]. intros Hc35. destruct (H35 Hc35) as (d & r' & -> & Hd). done.
Qed.

(** one more element *)
Lemma item_strong l t1 x1 t2 x2 rest : layout white l -> text max (t2 ++ rest) t1 x1 -> good_text (t2 ++ rest) t1 x1 -> good_items rest t2 x2 -> (0 < length t2)%nat ->
  forall f s al, ready s al -> cur s ((l ++ t1 ++ t2) ++ rest) -> can_alloc (room (l ++ t1 ++ t2)) s -> (length al + 4 * length (l ++ t1 ++ t2) + 4 <= f)%nat ->
  exists r s' al', reader_read_list f (first ((l ++ t1 ++ t2) ++ rest)) s = ROk r s' /\
    result (room (l ++ t1 ++ t2) - 4 - 3 * spine x1 - 3 * spine x2) (length (l ++ t1 ++ t2)) s al rest (XPair x1 x2) r s' al'.
Proof.
  intros Hl Ht1 H1 H2 Hpos [|f] s al Hr Hc Ha Hf; [lia|]. rewrite !app_length in Hf. rewrite <- !app_assoc in *.
  destruct (text_stops _ _ _ (t2 ++ rest) Ht1) as (Hst & H41 & Heof). cbn [reader_read_list].
  destruct (eat_whitespace_ok l Hl f s _ Hc Hst) as (s1 & E1 & Hq1 & Hc1); [lia|]. rewrite (bind_ok _ _ _ _ _ E1).
  rewrite (proj2 (Z.eqb_neq _ _) H41), (proj2 (Z.eqb_neq _ _) Heof).
  assert (is_bytes t1) as Hb1. { pose proof (cur_bytes _ _ Hc1) as Hb. by apply Forall_app in Hb as [? _]. }
  destruct (proj1 text_data _ _ _ Ht1 Hb1) as (_ & _ & Hnd).
  assert (room (l ++ t1 ++ t2) = 20 * Z.of_nat (length l) + room t1 + room t2) as Hroom by (unfold room; rewrite !app_length; lia).
  assert (0 < Z.of_nat (length t1)) as Hpos1. { destruct t1; [|cbn; lia]. destruct (proj1 text_head _ _ _ Ht1) as (? & ? & ? & _). done. }
  destruct (H1 f s1 al) as (r1 & s2 & al1 & E2 & R1). { by eapply ready_quiet. } { done. } { eapply alloc_quiet; [done|]. eapply can_alloc_le; [done|unfold room in *; lia]. } { lia. }
  rewrite (bind_ok _ _ _ _ _ E2). pose proof (spine_nonneg x1) as Hsp1. pose proof (spine_nonneg x2) as Hsp2.
  destruct (cur_read f _ _ (res_input _ _ _ _ _ _ _ _ _ R1)) as (s3 & E3 & Hq3 & Hc3). rewrite (bind_ok _ _ _ _ _ E3).
  assert (can_alloc (room t2 + 5) s2) as Ha2. { eapply result_alloc; [exact R1| |unfold room; lia]. eapply alloc_quiet; [done|]. eapply can_alloc_le; [done|unfold room in *; lia]. }
  pose proof (res_size _ _ _ _ _ _ _ _ _ R1) as Hsz1.
  destruct (H2 f s3 al1) as (r2 & s4 & al2 & E4 & R2).
  { eapply ready_quiet; [done|]. apply R1. } { done. } { eapply alloc_quiet; [done|]. eapply can_alloc_le; [done|lia]. } { lia. }
  rewrite (bind_ok _ _ _ _ _ E4). eapply result_quiet in R2; [|exact Hq3].
  destruct (result_trans _ _ _ _ _ _ _ _ _ _ _ _ _ _ _ _ R1 R2) as [R V1].
  assert (r1 <> cell_dot) as Hr1.
  { intros ->. pose proof (ready_dot _ _ (res_ready _ _ _ _ _ _ _ _ _ R)) as (cd & bd & Hcd & Htd & _ & Hbd & _ & Hbs).
    inversion V1 as [? ? (c & Hc0 & Ht & _)|? ? (c & Hc0 & Ht & _)|? ? (c & b & Hc0 & Ht & _)|? ? (c & b & Hc0 & Ht & _)|? ? Hi|HH|b HH|? ? ? ? ? (c & Hc0 & Ht & _)|? c ? ? Hc0 Ht]; subst;
      try (apply outside_lookup in Hc0 as [Hc0 _]; rewrite Hcd in Hc0; injection Hc0 as <-; rewrite Htd in Ht; discriminate).
    - destruct (interned_symbol _ _ _ _ (ready_symbols _ _ (res_ready _ _ _ _ _ _ _ _ _ R)) Hi) as (t & _ & (c & b & Hc0 & _ & _ & Hb0 & _ & Hbs0)).
      rewrite Hcd in Hc0. injection Hc0 as <-. rewrite Hbd in Hb0. injection Hb0 as <-. rewrite Hbs in Hbs0. apply app_inj_tail in Hbs0 as [<- _]. done.
    - match goal with H : (if _ then cell_t else cell_f) = _ |- _ => revert H; vm_compute; by destruct b end. }
  rewrite (proj2 (Z.eqb_neq _ _) Hr1).
  destruct (result_pair _ _ _ _ _ _ _ _ _ x1 r1 R V1) as (r & s5 & E5 & R5).
  { eapply result_alloc; [exact R2| |lia]. eapply can_alloc_le; [done|lia]. }
  exists r, s5, al2. split; [done|]. eapply result_quiet; [exact Hq1|]. eapply result_weaken; [| |exact R5]; [cbn [spine]; unfold room in *; lia|rewrite !app_length; lia].
Qed.
Lemma item_ok l t1 x1 t2 x2 rest : layout white l -> text max (t2 ++ rest) t1 x1 -> good_text (t2 ++ rest) t1 x1 -> good_items rest t2 x2 -> (0 < length t2)%nat ->
  good_items rest (l ++ t1 ++ t2) (XPair x1 x2).
Proof.
  intros Hl Ht1 H1 H2 Hpos f s al Hr Hc Ha Hf. destruct (item_strong l t1 x1 t2 x2 rest Hl Ht1 H1 H2 Hpos f s al Hr Hc Ha Hf) as (r & s' & al' & E & H).
  exists r, s', al'. split; [done|]. pose proof (spine_nonneg x1). eapply result_weaken; [| |exact H]; [cbn [spine]; lia|lia].
Qed.
Lemma close_ok l rest : layout white l -> good_items rest (l ++ [41]) XNil.
Proof.
  intros Hl [|f] s al Hr Hc Ha Hf; [lia|]. rewrite app_length in Hf. rewrite <- !app_assoc in *. cbn [app length] in *. cbn [reader_read_list].
  destruct (eat_whitespace_ok l Hl f s (41 :: rest) Hc) as (s1 & E1 & Hq1 & Hc1).
  { unfold stops, white. cbn [first]. split; [set_solver|]. lia. } { lia. }
  rewrite (bind_ok _ _ _ _ _ E1). cbn [first Z.eqb Pos.eqb]. exists cell_nil, s1, al. split; [done|].
  eapply result_weaken; [| |eapply (result_same 0); [lia|exact Hr|exact Hq1|exact (cur_tail _ _ _ Hc1)|constructor]]; [unfold room; cbn [spine]; lia|lia].
Qed.

Lemma items_pos dot rest t x : items max dot rest t x -> (0 < length t)%nat.
Proof.
  destruct 1 as [dot l rest _|dot l t1 x1 t2 x2 rest _ Ht _|l l1 t1 x1 l2 rest _ _ Ht _ _]; rewrite !app_length; cbn [length]; try lia.
  destruct (proj1 text_head _ _ _ Ht) as (c & r & -> & _). cbn. lia.
Qed.
Lemma name_room name n : name <> [] -> (length name <= n)%nat -> string_cells name + 6 <= 20 * Z.of_nat n - 5.
Proof. intros H Hn. destruct name; [done|]. cbn [length] in *. unfold string_cells, bytes_cells. cbn [length]. lia. Qed.

Lemma spine_len : (forall rest t x, text max rest t x -> spine x <= Z.of_nat (length t)) /\ (forall dot rest t x, items max dot rest t x -> spine x <= Z.of_nat (length t)).
Proof.
  apply text_items_ind; intros; cbn [spine length XTag] in *; try lia; rewrite ?app_length; cbn [length]; rewrite ?app_length; cbn [length]; try lia.
  - match goal with H : (?q, _) ∈ abbreviations |- _ => assert (0 < length q)%nat by (unfold abbreviations in H; lits; rewrite !elem_of_cons, elem_of_nil in H; repeat (destruct H as [[= -> _]|H]; [cbn; lia|]); done) end.
    match goal with H : text max _ ?t _ |- _ => destruct (proj1 text_head _ _ _ H) as (c & r & -> & _) end. cbn [length]. lia.
  - match goal with H : text max _ ?t _ |- _ => destruct (proj1 text_head _ _ _ H) as (c & r & -> & _) end. cbn [length]. lia.
Qed.

Lemma first_app_ne (l t rest : list Z) c : l ++ t <> [] -> head (l ++ t) <> Some c -> first (l ++ t ++ rest) <> c.
Proof. rewrite app_assoc. destruct (l ++ t); [done|]. cbn. intros _ H ->. done. Qed.

Lemma read_ok : (forall rest t x, text max rest t x -> good_text rest t x) /\ (forall dot rest t x, items max dot rest t x -> good_items rest t x).
Proof.
  apply text_items_ind.
  - (* number *) intros sign ds rest Hs Hne Hd Hsh Hv He [|f] s al Hr Hc Ha Hf; [lia|].
    assert (0 < length ds)%nat as Hpos by (destruct ds; [done|cbn; lia]). unfold room in *. rewrite app_length in *. rewrite <- app_assoc in *.
    destruct (number_ok sign ds rest f s al Hs Hne Hd Hsh Hv He Hr Hc) as (r & s' & E & H); [eapply can_alloc_le; [done|lia]|lia|].
    exists r, s', al. split; [|eapply result_weaken; [| |exact H]; [cbn [spine]; lia|lia]]. rewrite <- E.
    assert (exists c l, sign ++ ds ++ rest = c :: l /\ (48 <= c <= 57 \/ c = 43 \/ c = 45)) as (c & l & Ec & Hcr).
    { destruct ds as [|d ds]; [done|]. inversion Hd as [|? ? Hd0 _]; subst. unfold decimal_digit in Hd0. lits. rewrite !elem_of_cons, elem_of_nil in Hs.
      destruct Hs as [->|[->|[->|[]]]]; eexists _, _; (split; [done|]); lia. }
    rewrite Ec. cbn [first]. rewrite sexp_word by (rewrite !elem_of_cons, elem_of_nil; lia). rewrite (proj2 (Z.eqb_neq c 46)) by lia. by rewrite bind_ret.
  - (* number in another base *) intros r base sign ds rest Hrb Hs Hd Hv Hsg He f s al Hr Hc Ha Hf. destruct f as [|[|f]]; [lia|lia|].
    unfold room in *. cbn [length app] in *. rewrite app_length in *. cbn [first].
    destruct (sexp_hash (S f) s _ Hc) as (s1 & -> & Hq1 & Hc1). rewrite <- app_assoc in Hc1. cbn [first].
    destruct (based_ok base sign ds rest f s1 al) as (r' & s2 & E & H); try done.
    { set_solver. } { by eapply ready_quiet. } { exact (cur_tail _ _ _ Hc1). } { eapply alloc_quiet; [done|]. eapply can_alloc_le; [done|lia]. } { lia. }
    exists r', s2, al. split.
    { rewrite <- E. rewrite !elem_of_cons, elem_of_nil in Hrb. destruct Hrb as [[= -> ->]|[[= -> ->]|[[= -> ->]|[]]]]; done. }
    eapply result_quiet; [done|]. eapply result_weaken; [| |exact H]; [cbn [spine]; lia|lia].
  - (* symbol *) intros name rest Hn Hsh He [|f] s al Hr Hc Ha Hf; [lia|]. pose proof Hn as [Hk Hdot]. pose proof Hk as (Hne & _).
    pose proof (name_room name (length name) Hne ltac:(lia)) as Hroom. unfold room in *.
    assert (0 < length name)%nat as Hpos by (destruct name; [done|cbn; lia]).
    destruct (symbol_head _ Hn) as (c & r & Ec & Hw & Hc0). apply word_char_not in Hw as (Hw1 & Hw2 & Hw3). lits. rewrite !elem_of_cons, elem_of_nil in *.
    assert (first (name ++ rest) = c) as Hfirst by by rewrite Ec. rewrite Hfirst. rewrite sexp_word by (rewrite !elem_of_cons, elem_of_nil; lia).
    assert (exists s1, (if c =? 46 then p <- peekchar f ;; ret (negb (reader_identifier_p p)) else ret false) s = ROk false s1 /\ quiet s s1 /\ cur s1 (name ++ rest)) as (s1 & E1 & Hq1 & Hc1).
    { destruct (Z.eqb_spec c 46) as [->|_]; [|by exists s]. rewrite Ec in Hc, Hdot |- *. cbn [app] in *. destruct (cur_peek f _ _ _ Hc) as (s1 & E1 & Hq1 & Hc1).
      rewrite (bind_ok _ _ _ _ _ E1). exists s1. split; [|done]. destruct Hdot as [_ Hd]. destruct (Hd eq_refl) as (d & r' & -> & Hdr). cbn [app first].
      unfold ret. f_equal. destruct Hk as (_ & Hkw & _). rewrite Ec in Hkw. inversion Hkw as [|? ? _ Hkw1]; subst. inversion Hkw1 as [|? ? Hdw _]; subst.
      apply word_char_not in Hdw as (_ & Hdw & _). rewrite !elem_of_cons, elem_of_nil in Hdw. unfold reader_identifier_p. lia. }
    rewrite (bind_ok _ _ _ _ _ E1). destruct (name_ok name rest f s1 al Hk Hsh He) as (r' & s2 & al' & E2 & H2).
    { by eapply ready_quiet. } { done. } { eapply alloc_quiet; [done|]. eapply can_alloc_le; [done|lia]. } { lia. } { lia. }
    rewrite Hfirst in E2. exists r', s2, al'. split; [done|]. eapply result_quiet; [done|]. eapply result_weaken; [| |exact H2]; [cbn [spine]; lia|lia].
  - (* keyword *) intros name rest Hk Hsh He f s al Hr Hc Ha Hf. pose proof Hk as (Hne & _). destruct f as [|[|f]]; [lia|lia|].
    pose proof (name_room name (length name) Hne ltac:(lia)) as Hroom. lits. unfold room in *. cbn [length app] in *. cbn [first].
    destruct (sexp_hash (S f) s _ Hc) as (s1 & -> & Hq1 & Hc1). cbn [first reader_read_hash Z.eqb Pos.eqb orb].
    destruct (keyword_ok name rest f s1 al Hk Hsh He) as (r & s2 & al' & E2 & H2).
    { by eapply ready_quiet. } { exact (cur_tail _ _ _ Hc1). } { eapply alloc_quiet; [done|]. eapply can_alloc_le; [done|lia]. } { lia. } { lia. }
    exists r, s2, al'. split; [done|]. eapply result_quiet; [done|]. eapply result_weaken; [| |exact H2]; [cbn [spine]; lia|lia].
  - (* string *) intros t bs rest Ht Hsh [|f] s al Hr Hc Ha Hf; [lia|]. pose proof (string_text_len _ _ Ht). unfold room in *. cbn [length app] in *.
    rewrite app_length in *. cbn [length] in *. rewrite <- app_assoc in *. cbn [app first] in *. cbn [reader_read_sexp_ Z.eqb Pos.eqb orb].
    assert (string_cells bs <= 20 * Z.of_nat (length t) + 30) by (unfold string_cells, bytes_cells; lia).
    destruct (string_ok t bs rest f s al Ht Hsh Hr) as (r & s2 & E2 & H2).
    { exact (cur_tail _ _ _ Hc). } { eapply can_alloc_le; [done|lia]. } { lia. }
    exists r, s2, al. split; [done|]. eapply result_weaken; [| |exact H2]; [cbn [spine]; lia|lia].
  - (* character *) intros c rest Hl f s al Hr Hc Ha Hf. destruct f as [|[|f]]; [lia|lia|]. lits. unfold room in *. cbn [length app] in *. cbn [first].
    destruct (sexp_hash (S f) s _ Hc) as (s1 & -> & Hq1 & Hc1). cbn [first reader_read_hash Z.eqb Pos.eqb orb].
    destruct (lone_char_ok c rest f s1 al Hl) as (r & s2 & E2 & H2).
    { by eapply ready_quiet. } { exact (cur_tail _ _ _ Hc1). } { eapply alloc_quiet; [done|]. eapply can_alloc_le; [done|lia]. }
    exists r, s2, al. split; [done|]. eapply result_quiet; [done|]. eapply result_weaken; [| |exact H2]; [cbn [spine]; lia|lia].
  - (* named character *) intros name c rest Hin Hl f s al Hr Hc Ha Hf. destruct f as [|[|f]]; [lia|lia|]. change (bytes_of "#\") with [35; 92] in *. unfold room in *. cbn [length app] in *. cbn [first].
    destruct (sexp_hash (S f) s _ Hc) as (s1 & -> & Hq1 & Hc1). cbn [first reader_read_hash Z.eqb Pos.eqb orb].
    destruct (named_char_ok name c rest f s1 al Hin Hl) as (r & s2 & E2 & H2).
    { by eapply ready_quiet. } { exact (cur_tail _ _ _ Hc1). } { eapply alloc_quiet; [done|]. eapply can_alloc_le; [done|lia]. } { lia. }
    exists r, s2, al. split; [done|]. eapply result_quiet; [done|]. eapply result_weaken; [| |exact H2]; [cbn [spine]; lia|lia].
  - (* true *) intros rest f s al Hr Hc Ha Hf. destruct f as [|[|f]]; [cbn in Hf; lia|cbn in Hf; lia|]. lits. unfold room in *. cbn [length app] in *. cbn [first].
    destruct (sexp_hash (S f) s _ Hc) as (s1 & -> & Hq1 & Hc1). exists cell_t, s1, al. split; [done|].
    eapply result_weaken; [| |eapply (result_same 0); [lia|exact Hr|exact Hq1|exact (cur_tail _ _ _ Hc1)|exact (at_bool _ _ true)]]; [cbn [spine]; lia|lia].
  - (* false *) intros rest f s al Hr Hc Ha Hf. destruct f as [|[|f]]; [cbn in Hf; lia|cbn in Hf; lia|]. lits. unfold room in *. cbn [length app] in *. cbn [first].
    destruct (sexp_hash (S f) s _ Hc) as (s1 & -> & Hq1 & Hc1). exists cell_f, s1, al. split; [done|].
    eapply result_weaken; [| |eapply (result_same 0); [lia|exact Hr|exact Hq1|exact (cur_tail _ _ _ Hc1)|exact (at_bool _ _ false)]]; [cbn [spine]; lia|lia].
  - (* list *) intros t x rest _ IH [|f] s al Hr Hc Ha Hf; [lia|]. cbn [length app] in *. cbn [first]. cbn [reader_read_sexp_ Z.eqb Pos.eqb orb].
    assert (room (40 :: t) = room t + 20) as Hroom by (unfold room; cbn [length]; lia).
    destruct (cur_next f _ _ _ Hc) as (s1 & E1 & Hq1 & _ & Hc1). rewrite (bind_ok _ _ _ _ _ E1).
    destruct (IH f s1 al) as (r & s2 & al' & E2 & H2). { by eapply ready_quiet. } { done. } { eapply alloc_quiet; [done|]. eapply can_alloc_le; [done|lia]. } { lia. }
    exists r, s2, al'. split; [done|]. eapply result_quiet; [done|]. eapply result_weaken; [| |exact H2]; lia.
  - (* vector *) intros t l rest Hit IH f s al Hr Hc Ha Hf. destruct f as [|[|f]]; [lia|lia|]. cbn [length app] in *. cbn [first].
    assert (room (35 :: 40 :: t) = room t + 40) as Hroom by (unfold room; cbn [length]; lia).
    destruct (sexp_hash (S f) s _ Hc) as (s1 & -> & Hq1 & Hc1). cbn [first reader_read_hash Z.eqb Pos.eqb orb].
    destruct (cur_next f _ _ _ Hc1) as (s2 & E2 & Hq2 & _ & Hc2). rewrite (bind_ok _ _ _ _ _ E2). assert (quiet s s2) as Hq by by eapply quiet_trans.
    destruct (IH f s2 al) as (r & s3 & al' & E3 & H3). { by eapply ready_quiet. } { done. } { eapply alloc_quiet; [done|]. eapply can_alloc_le; [done|lia]. } { lia. }
    rewrite (bind_ok _ _ _ _ _ E3).
    assert (spine (XList l) = Z.of_nat (length l)) as Hsp. { clear. induction l; [done|]. cbn [XList foldr spine length] in *. unfold XList in *. lia. }
    assert (length l <= length t)%nat as Hlt.
    { pose proof (proj2 spine_len _ _ _ _ Hit). lia. }
    destruct (vector_ok _ _ _ _ _ l r s3 al' f H3) as (r' & s4 & E4 & H4).
    { apply (proj2 text_data _ _ _ _ Hit). pose proof (cur_bytes _ _ Hc2) as Hb. by apply Forall_app in Hb as [? _]. } { lia. }
    { eapply result_alloc; [exact H3| |lia]. eapply alloc_quiet; [exact Hq|]. eapply can_alloc_le; [done|lia]. }
    exists r', s4, al'. split; [done|]. eapply result_quiet; [done|]. eapply result_weaken; [| |exact H4]; [cbn [spine]; lia|lia].
  - (* abbreviation *) intros q name l t x rest Hq Hl Ht IH Hat f s al Hr Hc Ha Hf.
    assert (0 < length t)%nat as Hpos by (destruct (proj1 text_head _ _ _ Ht) as (c & r & -> & _); cbn; lia).
    assert (l ++ t <> []) as Hlt by (intros F; apply app_eq_nil in F as [_ ->]; cbn in Hpos; lia).
    rewrite !app_length in Hf. rewrite <- !app_assoc in *.
    assert (room (q ++ l ++ t) = 20 * Z.of_nat (length q) + 20 * Z.of_nat (length l) + room t) as Hroom by (unfold room; rewrite !app_length; lia).
    assert (forall f' s' name' sym, (name', sym) ∈ tag_symbols -> quiet s s' -> input s' (l ++ t ++ rest) -> (length al + 4 * length t + 4 + 2 * length l <= f')%nat -> (0 < length q)%nat -> name' = name ->
      exists r s'' al', (x <- (c <- readchar f' ;; reader_read_sexp_ f' c) ;; tagged sym x) s' = ROk r s'' /\ result (room (q ++ l ++ t) - 5 - 3 * spine (XTag name x)) (length (q ++ l ++ t)) s al rest (XTag name x) r s'' al') as Hnext.
    { intros f' s' name' sym Hin Hq' Hi' Hf' Hq0 ->. destruct (abbreviation_ok rest t x l f' s' al name sym (room t + 15 - 3 * spine (XTag name x)) (l ++ t) IH Hl Hin) as (r & s'' & al' & E & H); [by eapply ready_quiet|done|done| |done|reflexivity|].
      { eapply alloc_quiet; [done|]. eapply can_alloc_le; [done|lia]. }
      exists r, s'', al'. split; [done|]. eapply result_quiet; [done|]. eapply result_weaken; [| |exact H]; [lia|rewrite !app_length in *; lia]. }
    destruct f as [|[|f]]; [lia|lia|]. unfold abbreviations in Hq. lits. rewrite !elem_of_cons, elem_of_nil in Hq.
    destruct Hq as [[= -> ->]|[[= -> ->]|[[= -> ->]|[[= -> ->]|[[= -> ->]|[[= -> ->]|[[= -> ->]|[[= -> ->]|[]]]]]]]]]; cbn [app first length] in *.
    + cbn [reader_read_sexp_ Z.eqb Pos.eqb orb]. eapply Hnext; [|done|exact (cur_tail _ _ _ Hc)|lia|lia|reflexivity]. unfold tag_symbols. set_solver.
    + cbn [reader_read_sexp_ Z.eqb Pos.eqb orb]. eapply Hnext; [|done|exact (cur_tail _ _ _ Hc)|lia|lia|reflexivity]. unfold tag_symbols. set_solver.
    + cbn [reader_read_sexp_ Z.eqb Pos.eqb orb]. destruct (cur_peek (S f) _ _ _ Hc) as (s1 & E1 & Hq1 & Hc1). rewrite (bind_ok _ _ _ _ _ E1).
      rewrite (proj2 (Z.eqb_neq _ 64)) by (apply first_app_ne; [done|by apply Hat]).
      eapply Hnext; [|done|exact (cur_tail _ _ _ Hc1)|lia|lia|reflexivity]. unfold tag_symbols. set_solver.
    + cbn [reader_read_sexp_ Z.eqb Pos.eqb orb]. destruct (cur_peek (S f) _ _ _ Hc) as (s1 & E1 & Hq1 & Hc1). rewrite (bind_ok _ _ _ _ _ E1). cbn [first Z.eqb Pos.eqb].
      destruct (cur_next (S f) _ _ _ Hc1) as (s2 & E2 & Hq2 & Hi2 & Hc2). rewrite (bind_ok _ _ _ _ _ E2).
      eapply Hnext; [|by eapply quiet_trans|exact (cur_tail _ _ _ Hc2)|lia|lia|reflexivity]. unfold tag_symbols. set_solver.
    + destruct (sexp_hash (S f) s _ Hc) as (s1 & -> & Hq1 & Hc1). cbn [first reader_read_hash Z.eqb Pos.eqb orb].
      eapply Hnext; [|done|exact (cur_tail _ _ _ Hc1)|lia|lia|reflexivity]. unfold tag_symbols. set_solver.
    + destruct (sexp_hash (S f) s _ Hc) as (s1 & -> & Hq1 & Hc1). cbn [first reader_read_hash Z.eqb Pos.eqb orb].
      eapply Hnext; [|done|exact (cur_tail _ _ _ Hc1)|lia|lia|reflexivity]. unfold tag_symbols. set_solver.
    + destruct (sexp_hash (S f) s _ Hc) as (s1 & -> & Hq1 & Hc1). cbn [first reader_read_hash Z.eqb Pos.eqb orb].
      destruct (cur_peek f _ _ _ Hc1) as (s2 & E2 & Hq2 & Hc2). rewrite (bind_ok _ _ _ _ _ E2).
      rewrite (proj2 (Z.eqb_neq _ 64)) by (apply first_app_ne; [done|by apply Hat]).
      eapply Hnext; [|by eapply quiet_trans|exact (cur_tail _ _ _ Hc2)|lia|lia|reflexivity]. unfold tag_symbols. set_solver.
    + destruct (sexp_hash (S f) s _ Hc) as (s1 & -> & Hq1 & Hc1). cbn [first reader_read_hash Z.eqb Pos.eqb orb].
      destruct (cur_peek f _ _ _ Hc1) as (s2 & E2 & Hq2 & Hc2). rewrite (bind_ok _ _ _ _ _ E2). cbn [first Z.eqb Pos.eqb].
      destruct (cur_next f _ _ _ Hc2) as (s3 & E3 & Hq3 & Hi3 & Hc3). rewrite (bind_ok _ _ _ _ _ E3).
      eapply Hnext; [| |exact (cur_tail _ _ _ Hc3)|lia|lia|reflexivity]; [unfold tag_symbols; set_solver|]. unfold quiet in *. congruence.
  - (* datum comment *) intros l1 t1 x1 l2 t2 x2 rest Hl1 Ht1 IH1 Hl2 Ht2 IH2 f s al Hr Hc Ha Hf. lits. destruct f as [|[|f]]; [lia|lia|].
    cbn [app first length] in *. rewrite !app_length in *. rewrite <- !app_assoc in *.
    assert (room (35 :: 59 :: l1 ++ t1 ++ l2 ++ t2) = 40 + 20 * Z.of_nat (length l1) + room t1 + 20 * Z.of_nat (length l2) + room t2) as Hroom by (unfold room; cbn [length]; rewrite !app_length; lia).
    pose proof (spine_nonneg x1) as Hsp1. pose proof (spine_nonneg x2) as Hsp2. rewrite Hroom in *.
    assert (0 <= room t1 /\ 0 <= room t2) as [Hr1 Hr2] by (unfold room; lia).
    destruct (sexp_hash (S f) s _ Hc) as (s1 & -> & Hq1 & Hc1). cbn [first reader_read_hash Z.eqb Pos.eqb orb].
    destruct (next_ok _ _ _ l1 f s1 al IH1 Hl1) as (r1 & s2 & al1 & E2 & R1).
    { by eapply ready_quiet. } { exact (cur_tail _ _ _ Hc1). } { eapply alloc_quiet; [done|]. eapply can_alloc_le; [done|lia]. } { lia. }
    rewrite (bind_ok _ _ _ _ _ E2). eapply result_quiet in R1; [|exact Hq1]. pose proof (res_size _ _ _ _ _ _ _ _ _ R1) as Hsz.
    destruct (next_ok _ _ _ l2 f s2 al1 IH2 Hl2) as (r2 & s3 & al2 & E3 & R2).
    { apply R1. } { apply R1. } { destruct (proj1 text_head _ _ _ Ht2) as (c & r & -> & _). eapply result_alloc; [exact R1| |unfold room; cbn [length]; lia]. eapply can_alloc_le; [done|lia]. } { lia. }
    destruct (result_trans _ _ _ _ _ _ _ _ _ _ _ _ _ _ _ _ R1 R2) as [R _].
    exists r2, s3, al2. split; [done|]. eapply result_weaken; [| |exact R]; lia.
  - intros dot l rest Hl. by apply close_ok.
  - intros dot l t1 x1 t2 x2 rest Hl Ht1 IH1 Ht2 IH2. apply item_ok; try done. by eapply items_pos.
  - (* dot *) intros l l1 t1 x1 l2 rest Hl Hl1 Ht1 IH1 Hl2 Hd [|[|f]] s al Hr Hc Ha Hf; [lia|lia|].
    pose proof (item_strong l1 t1 x1 (l2 ++ [41]) XNil rest Hl1) as HI. rewrite <- app_assoc in HI. specialize (HI Ht1 IH1 (close_ok _ _ Hl2)). rewrite app_length in HI. specialize (HI ltac:(cbn; lia)).
    rewrite !app_length in Hf. cbn [length] in Hf. rewrite !app_length in Hf. rewrite <- !app_assoc in Hc |- *. cbn [app] in Hc |- *. rewrite <- !app_assoc in Hc |- *. cbn [app] in Hc |- *.
    assert (room (l ++ 46 :: l1 ++ t1 ++ l2 ++ [41]) = 20 * Z.of_nat (length l) + 20 + room (l1 ++ t1 ++ l2 ++ [41])) as Hroom.
    { unfold room. rewrite !app_length. cbn [length]. rewrite !app_length. cbn [length]. lia. }
    cbn [reader_read_list]. destruct (eat_whitespace_ok l Hl (S f) s (46 :: l1 ++ t1 ++ l2 ++ 41 :: rest) Hc) as (s1 & E1 & Hq1 & Hc1).
    { unfold stops, white. cbn [first]. split; [set_solver|]. lia. } { cbn [length] in *. lia. }
    rewrite (bind_ok _ _ _ _ _ E1). cbn [first Z.eqb Pos.eqb].
    assert (exists s2, reader_read_sexp_ (S f) 46 s1 = ROk cell_dot s2 /\ quiet s1 s2 /\ cur s2 (46 :: l1 ++ t1 ++ l2 ++ 41 :: rest)) as (s2 & E2 & Hq2 & Hc2).
    { rewrite sexp_word by (rewrite !elem_of_cons, elem_of_nil; lia). cbn [Z.eqb Pos.eqb]. destruct (cur_peek f _ _ _ Hc1) as (s2 & E2 & Hq2 & Hc2).
      rewrite bind_assoc, (bind_ok _ _ _ _ _ E2), bind_ret. exists s2. split; [|done].
      assert (reader_identifier_p (first (l1 ++ t1 ++ l2 ++ 41 :: rest)) = false) as ->; [|done].
      assert (l1 ++ t1 <> []) as Hne. { destruct (proj1 text_head _ _ _ Ht1) as (c & r & -> & _). by destruct l1. }
      rewrite app_assoc. destruct (l1 ++ t1) as [|c r]; [done|]. cbn [app first]. unfold delimiter, white in Hd. lits. rewrite !elem_of_cons, elem_of_nil in Hd.
      unfold reader_identifier_p. lia. }
    rewrite (bind_ok _ _ _ _ _ E2). destruct (cur_next (S f) _ _ _ Hc2) as (s3 & E3 & Hq3 & _ & Hc3). rewrite (bind_ok _ _ _ _ _ E3).
    assert (quiet s s3) as Hq by (unfold quiet in *; congruence).
    destruct (HI (S f) s3 al) as (r & s4 & al' & E4 & H4).
    { by eapply ready_quiet. } { by rewrite <- !app_assoc. } { eapply alloc_quiet; [done|]. eapply can_alloc_le; [done|lia]. } { rewrite !app_length. cbn [length] in *. lia. }
    rewrite <- !app_assoc in E4. cbn [app] in E4. rewrite (bind_ok _ _ _ _ _ E4). rewrite Z.eqb_refl.
    pose proof (res_value _ _ _ _ _ _ _ _ _ H4) as V. inversion V as [| | | | | | |? a d ? ? Hp Hva Hvd|]; subst.
    exists a, s4, al'. split.
    { eapply car_of_pair. eapply pair_at_mono; [|exact Hp]. etrans; [apply outside_sub|apply cells_sub]. }
    eapply result_quiet; [done|]. eapply result_with; [|exact Hva]. eapply result_weaken; [| |exact H4].
    + rewrite Hroom. cbn [spine]. lia.
    + rewrite !app_length. cbn [length]. rewrite !app_length. cbn [length]. lia.
Qed.

End Machine.
