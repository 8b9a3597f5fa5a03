(** Encodings of numbers in MesCC: lemmas. *)
From stdpp Require Import base gmap list fin_maps.
From Coq Require Import ZArith Lia.
From Coq Require Import ZifyBool ZifyNat.
From Verif Require Import CInt Symbols Heap HeapLemmas PropsNum EvalSplice.
From Verif Require Import DataModel DataSpec DataLemmas CoreProofs StringProofs MathModel MathProofs MesccModel.
Import Strings.String.StringSyntax.
Open Scope Z_scope. Open Scope mes_scope.

(** [m] ends normally, allocates at most [n] cells and changes nothing else *)
Definition runs (n : Z) (m : M Z) (s : state) (Q : Z -> state -> Prop) : Prop :=
  exists k r s', k <= n /\ m s = ROk r s' /\ modifies nothing k s s' /\ Q r s'.
(** what a later state keeps *)
Definition later (s s' : state) : Prop := cells s ⊆ cells s' /\ g_free s <= g_free s' /\ MAX_STRING s' = MAX_STRING s.

Lemma later_refl s : later s s.
Proof. done. Qed.
Lemma later_trans s1 s2 s3 : later s1 s2 -> later s2 s3 -> later s1 s3.
Proof. intros (H1 & H2 & H3) (H4 & H5 & H6). split; [by etrans|]. split; [lia|congruence]. Qed.
Lemma modifies_later k s s' : modifies nothing k s s' -> later s s'.
Proof.
  intros H. split; [by eapply modifies_cells|]. destruct H as [H1 H2 _ (h & ->)]. split; [cbn in *; lia|done].
Qed.

Lemma runs_bind n n1 (m : M Z) (f : Z -> M Z) s Q1 Q :
  runs n1 m s Q1 -> n1 <= n -> can_alloc n s ->
  (forall r s1, later s s1 -> can_alloc (n - n1) s1 -> Q1 r s1 -> runs (n - n1) (f r) s1 Q) ->
  runs n (r <- m ;; f r) s Q.
Proof.
  intros (k & r & s1 & Hk & E & Hm & HQ) Hn Ha Hf. pose proof (mod_size _ _ _ _ Hm).
  assert (can_alloc (n - n1) s1) as Ha1.
  { eapply modifies_can_alloc; [exact Hm| |lia]. eapply can_alloc_le; [exact Ha|lia]. }
  destruct (Hf r s1 (modifies_later _ _ _ Hm) Ha1 HQ) as (k' & r' & s' & Hk' & E' & Hm' & HQ').
  exists (k + k'), r', s'. split; [lia|]. split; [by rewrite (bind_ok _ _ _ _ _ E)|]. split; [|done].
  eapply modifies_trans; [exact Hm|exact Hm'|by intros p Hp []].
Qed.
Lemma runs_ret n x s (Q : Z -> state -> Prop) : 0 <= n -> Q x s -> runs n (ret x) s Q.
Proof. intros Hn HQ. exists 0, x, s. split; [done|]. split; [done|]. split; [apply modifies_refl|done]. Qed.
Lemma runs_le n n' m s Q : runs n m s Q -> n <= n' -> runs n' m s Q.
Proof. intros (k & r & s' & Hk & H) Hn. exists k, r, s'. split; [lia|done]. Qed.
Lemma runs_cell c m s (Q : Z -> state -> Prop) :
  m s = ROk (g_free s) (with_cell c s) -> Q (g_free s) (with_cell c s) -> runs 1 m s Q.
Proof. intros E HQ. exists 1, (g_free s), (with_cell c s). split; [done|]. split; [done|]. split; [apply modifies_with_cell|done]. Qed.
Lemma runs_same m r s (Q : Z -> state -> Prop) : m s = ROk r s -> Q r s -> runs 0 m s Q.
Proof. intros E HQ. exists 0, r, s. split; [done|]. split; [done|]. split; [apply modifies_refl|done]. Qed.

Definition num (s : state) (p n : Z) : Prop := number_at (cells s) p n.
Lemma num_later s s' p n : later s s' -> num s p n -> num s' p n.
Proof. intros (H & _). by apply number_at_mono. Qed.
Lemma num_heap s p n : num s p n -> number_at (heap s) p n.
Proof. apply number_at_mono, cells_sub. Qed.
Lemma num_new n s : num (with_cell (Cell TNUMBER 0 n []) s) (g_free s) n.
Proof. eexists. rewrite cells_with_cell, lookup_insert. done. Qed.

Lemma make_number_runs n s : can_alloc 1 s -> runs 1 (make_number n) s (fun r s' => num s' r n).
Proof. intros H. eapply runs_cell; [by apply make_number_s|apply num_new]. Qed.

Definition nums (s : state) (p : Z) (ns : list Z) : Prop := numbers_at (cells s) p ns.
Lemma nums_later s s' p ns : later s s' -> nums s p ns -> nums s' p ns.
Proof.
  intros (H & _) (vs & Hl & Hv). exists vs. split; [by eapply list_at_mono|].
  eapply Forall2_impl; [exact Hv|]. intros. by eapply number_at_mono.
Qed.
Lemma nums_heap s p ns : nums s p ns -> numbers_at (heap s) p ns.
Proof.
  intros (vs & Hl & Hv). exists vs. split; [eapply list_at_mono; [apply cells_sub|done]|].
  eapply Forall2_impl; [exact Hv|]. intros. eapply number_at_mono; [apply cells_sub|done].
Qed.
Lemma nums_nil s : nums s cell_nil [].
Proof. exists []. split; [constructor|constructor]. Qed.

(** the constants are in use *)
Definition booted (s : state) : Prop := cell_nil < g_free s.
Lemma booted_later s s' : later s s' -> booted s -> booted s'.
Proof. unfold booted. intros (_ & H & _). lia. Qed.

Lemma cons_runs a l n ns s :
  can_alloc 1 s -> booted s -> num s a n -> nums s l ns -> runs 1 (cons a l) s (fun r s' => nums s' r (n :: ns)).
Proof.
  intros Ha Hb Hn Hl. eapply runs_cell; [by apply cons_s|]. unfold booted in Hb.
  pose proof (modifies_later _ _ _ (modifies_with_cell (Cell TPAIR a l []) s)) as HL.
  destruct (nums_later _ _ _ _ HL Hl) as (vs & Hvs & Hns). exists (a :: vs). split.
  - econstructor; [lia|apply pair_with_cell|done].
  - constructor; [by apply (num_later _ _ _ _ HL)|done].
Qed.
Lemma call2_runs (f : Z -> M Z) n a b x y s (Q : Z -> state -> Prop) :
  can_alloc n s -> booted s -> 2 <= n -> num s a x -> num s b y ->
  (forall l s', later s s' -> can_alloc (n - 2) s' -> nums s' l [x; y] -> runs (n - 2) (f l) s' Q) ->
  runs n (call2 f a b) s Q.
Proof.
  intros Ha Hb Hn Hx Hy Hf. unfold call2.
  eapply (runs_bind _ 1); [apply cons_runs; [eapply can_alloc_le; [exact Ha|lia]|done|exact Hy|apply nums_nil]|lia|done|].
  intros l s1 HL1 Ha1 Hl.
  eapply (runs_bind _ 1).
  { apply cons_runs; [eapply can_alloc_le; [exact Ha1|lia]|by eapply booted_later|by eapply num_later|exact Hl]. }
  { lia. } { done. }
  intros l2 s2 HL2 Ha2 Hl2. replace (n - 2) with (n - 1 - 1) in * by lia. eapply Hf; [by eapply later_trans|done|done].
Qed.
Lemma call1_runs (f : Z -> M Z) n a x s (Q : Z -> state -> Prop) :
  can_alloc n s -> booted s -> 1 <= n -> num s a x ->
  (forall l s', later s s' -> can_alloc (n - 1) s' -> nums s' l [x] -> runs (n - 1) (f l) s' Q) ->
  runs n (call1 f a) s Q.
Proof.
  intros Ha Hb Hn Hx Hf. unfold call1.
  eapply (runs_bind _ 1); [apply cons_runs; [eapply can_alloc_le; [exact Ha|lia]|done|exact Hx|apply nums_nil]|lia|done|].
  intros l s1 HL1 Ha1 Hl. by apply Hf.
Qed.

Definition long (x : Z) : Prop := LONG_MIN < x <= LONG_MAX.
(** the arithmetic used: two arguments, results in range *)
Lemma divide2_runs fuel n a b x y s :
  (2 <= fuel)%nat -> 3 <= n -> can_alloc n s -> booted s -> num s a x -> num s b y -> long x -> 0 < y <= LONG_MAX ->
  runs n (call2 (divide fuel) a b) s (fun r s' => num s' r (Z.quot x y)).
Proof.
  intros Hf Hn Ha Hb Hx Hy Hxl Hyl. apply (call2_runs _ _ _ _ x y); try done; [lia|].
  intros l s1 HL Ha1 Hl. eapply (runs_le 1); [|lia]. eapply runs_cell.
  { apply (divide_pos fuel l x [y]); [by apply nums_heap|cbn; lia|by apply Forall_singleton|done|by eapply can_alloc_le; [exact Ha1|lia]]. }
  apply num_new.
Qed.
Lemma minus2_runs fuel n a b x y s :
  (2 <= fuel)%nat -> 3 <= n -> can_alloc n s -> booted s -> num s a x -> num s b y -> in_long (x - y) = true -> in_long x = true ->
  runs n (call2 (minus fuel) a b) s (fun r s' => num s' r (x - y)).
Proof.
  intros Hf Hn Ha Hb Hx Hy Hr Hxl. apply (call2_runs _ _ _ _ x y); try done; [lia|].
  intros l s1 HL Ha1 Hl. eapply (runs_le 1); [|lia]. eapply runs_cell.
  { apply (minus_ok fuel l x [y]); [by apply nums_heap|cbn; lia|done| |by eapply can_alloc_le; [exact Ha1|lia]].
    intros k Hk. cbn in Hk. destruct k as [|[|]]; cbn; try done; lia. }
  apply num_new.
Qed.
Lemma times2_runs fuel n a b x y s :
  (2 <= fuel)%nat -> 3 <= n -> can_alloc n s -> booted s -> num s a x -> num s b y -> in_long x = true -> in_long (x * y) = true ->
  runs n (call2 (multiply fuel) a b) s (fun r s' => num s' r (x * y)).
Proof.
  intros Hf Hn Ha Hb Hx Hy Hxl Hr. apply (call2_runs _ _ _ _ x y); try done; [lia|].
  intros l s1 HL Ha1 Hl. eapply (runs_le 1); [|lia]. eapply runs_cell.
  { apply (multiply_ok fuel l [x; y]); [by apply nums_heap|cbn; lia| |by eapply can_alloc_le; [exact Ha1|lia]].
    intros k Hk. cbn [length] in Hk. destruct k as [|[|[|]]]; cbn [take foldl]; rewrite ?Z.mul_1_l; try done; lia. }
  assert (foldl Z.mul 1 [x; y] = x * y) as -> by (cbn [foldl]; lia). apply num_new.
Qed.
Lemma plus2_runs fuel n a b x y s :
  (2 <= fuel)%nat -> 3 <= n -> can_alloc n s -> booted s -> num s a x -> num s b y -> in_long x = true -> in_long (x + y) = true ->
  runs n (call2 (plus fuel) a b) s (fun r s' => num s' r (x + y)).
Proof.
  intros Hf Hn Ha Hb Hx Hy Hxl Hr. apply (call2_runs _ _ _ _ x y); try done; [lia|].
  intros l s1 HL Ha1 Hl. eapply (runs_le 1); [|lia]. eapply runs_cell.
  { apply (plus_ok fuel l [x; y]); [by apply nums_heap|cbn; lia| |by eapply can_alloc_le; [exact Ha1|lia]].
    intros k Hk. cbn [length] in Hk. destruct k as [|[|[|]]]; cbn [take foldl]; rewrite ?Z.add_0_l; try done; lia. }
  assert (foldl Z.add 0 [x; y] = x + y) as -> by (cbn [foldl]; lia). apply num_new.
Qed.
Lemma chain2 (R : Z -> Z -> Prop) x y : chain R [x; y] <-> R x y.
Proof.
  split; [intros H; by apply (H 0%nat)|]. intros H i a b Ha Hb. destruct i as [|[|]]; cbn in *; simplify_eq; done.
Qed.
Lemma compare2_runs (p : nat -> Z -> M Z) (R : Z -> Z -> Prop) (t : bool) fuel n a b x y s :
  (forall fuel l ns s, numbers_at (heap s) l ns -> (length ns <= fuel)%nat ->
     exists b, p fuel l s = ROk (scm_bool b) s /\ (b = true <-> chain R ns)) ->
  (t = true <-> R x y) ->
  (2 <= fuel)%nat -> 2 <= n -> can_alloc n s -> booted s -> num s a x -> num s b y ->
  runs n (call2 (p fuel) a b) s (fun r s' => r = scm_bool t).
Proof.
  intros Hp Ht Hf Hn Ha Hb Hx Hy. apply (call2_runs _ _ _ _ x y); try done.
  intros l s1 HL Ha1 Hl. eapply (runs_le 0); [|lia].
  destruct (Hp fuel l [x; y] s1 (nums_heap _ _ _ Hl) ltac:(cbn; lia)) as (c & E & Hc).
  eapply runs_same; [exact E|]. rewrite chain2 in Hc. f_equal. destruct c, t; intuition.
Qed.
Lemma scm_bool_f t : (scm_bool t =? cell_f) = negb t.
Proof. by destruct t. Qed.

Lemma scm_abs_runs fuel a x s :
  (2 <= fuel)%nat -> can_alloc 6 s -> booted s -> num s a x -> long x ->
  runs 6 (scm_abs fuel a) s (fun r s' => num s' r (Z.abs x)).
Proof.
  intros Hf Ha Hb Hx Hl. unfold scm_abs.
  eapply (runs_bind _ 1); [apply make_number_runs; by eapply can_alloc_le; [exact Ha|lia]|lia|done|].
  intros z s1 L1 A1 Hz. cbn beta in Hz.
  eapply (runs_bind _ 1); [apply (cons_runs _ _ 0 []); [by eapply can_alloc_le; [exact A1|lia]|by eapply booted_later|done|apply nums_nil]|lia|done|].
  intros r1 s2 L2 A2 H2. cbn beta in H2. pose proof (later_trans _ _ _ L1 L2) as L12.
  eapply (runs_bind _ 1); [apply (cons_runs _ _ x [0]); [by eapply can_alloc_le; [exact A2|lia]|by eapply booted_later|by eapply num_later|done]|lia|done|].
  intros r2 s3 L3 A3 H3. cbn beta in H3. pose proof (later_trans _ _ _ L12 L3) as L13.
  destruct (greater_p_ok fuel r2 [x; 0] s3 (nums_heap _ _ _ H3) ltac:(cbn; lia)) as (b1 & E1 & B1). rewrite chain2 in B1.
  eapply (runs_bind _ 0); [by eapply (runs_same _ _ _ (fun r s' => r = scm_bool b1 /\ s' = s3)); [exact E1|]|lia|done|].
  intros ? ? _ A4 [-> ->]. rewrite scm_bool_f.
  destruct (is_p_ok fuel r2 [x; 0] s3 (nums_heap _ _ _ H3) ltac:(cbn; lia)) as (b2 & E2 & B2). rewrite chain2 in B2.
  eapply (runs_bind _ 0 _ _ _ (fun r s' => r = scm_bool (0 <=? x) /\ s' = s3)).
  { destruct b1; cbn [negb].
    - apply runs_ret; [lia|]. split; [|done]. destruct B1 as [B1 _]. specialize (B1 eq_refl). f_equal. lia.
    - eapply runs_same; [exact E2|]. split; [|done]. f_equal. destruct b2.
      + destruct B2 as [B2 _]. specialize (B2 eq_refl). lia.
      + destruct (Z.leb_spec 0 x); [|done]. exfalso. destruct (decide (x = 0)) as [->|]; [by destruct B2 as [_ B2]; specialize (B2 eq_refl)|].
        destruct B1 as [_ B1]. specialize (B1 ltac:(lia)). done. }
  { lia. } { done. }
  intros ? ? _ A5 [-> ->]. rewrite scm_bool_f. destruct (Z.leb_spec 0 x) as [Hx0|Hx0]; cbn [negb].
  - apply runs_ret; [lia|]. replace (Z.abs x) with x by lia. by eapply num_later.
  - eapply (call1_runs _ _ _ x); [done|by eapply booted_later|lia|by eapply num_later|].
    intros l s4 L4 A6 Hnl. eapply (runs_le 1); [|lia]. eapply runs_cell.
    { apply (negate_ok fuel l x); [by apply nums_heap|done|by eapply can_alloc_le; [exact A6|lia]]. }
    replace (- x) with (Z.abs x) by lia. apply num_new.
Qed.

Lemma remainder_runs fuel a b x y s :
  (2 <= fuel)%nat -> can_alloc 9 s -> booted s -> num s a x -> num s b y -> 0 <= x <= LONG_MAX -> 0 < y <= LONG_MAX ->
  runs 9 (remainder fuel a b) s (fun r s' => num s' r (x mod y)).
Proof.
  intros Hf Ha Hb Hx Hy Hxl Hyl. unfold remainder. unfold LONG_MAX in *.
  assert (Z.quot x y = x / y) as Eq by (apply Z.quot_div_nonneg; lia).
  pose proof (Z.div_pos x y ltac:(lia) ltac:(lia)). pose proof (Z_div_mod_eq_full x y). pose proof (Z.mod_pos_bound x y ltac:(lia)).
  assert (x / y <= x) by (apply Z.div_le_upper_bound; nia).
  eapply (runs_bind _ 3); [apply (divide2_runs fuel 3 a b x y); try done; [by eapply can_alloc_le; [exact Ha|lia]|unfold long, LONG_MIN, LONG_MAX; lia]|lia|done|].
  intros q s1 L1 A1 Hq. cbn beta in Hq. rewrite Eq in Hq.
  eapply (runs_bind _ 3).
  { apply (times2_runs fuel 3 q b (x / y) y); try done; [by eapply can_alloc_le; [exact A1|lia]|by eapply booted_later|by eapply num_later| |];
      unfold in_long, LONG_MIN, LONG_MAX; lia. }
  { lia. } { done. }
  intros p s2 L2 A2 Hp. cbn beta in Hp. pose proof (later_trans _ _ _ L1 L2) as L12.
  replace (x mod y) with (x - x / y * y) by lia.
  apply minus2_runs; try done; [by eapply booted_later|by eapply num_later| |]; unfold in_long, LONG_MIN, LONG_MAX; lia.
Qed.

Definition ch (s : state) (p n : Z) : Prop := char_at (cells s) p n.

Lemma digit_char_runs fuel a i s :
  (2 <= fuel)%nat -> can_alloc 12 s -> booted s -> num s a i -> 0 <= i < 36 ->
  runs 12 (digit_char fuel a) s (fun r s' => ch s' r (PropsNum.chr i)).
Proof.
  intros Hf Ha Hb Hi Hr. unfold digit_char.
  eapply (runs_bind _ 1); [apply make_number_runs; by eapply can_alloc_le; [exact Ha|lia]|lia|done|].
  intros ten s1 L1 A1 Hten. cbn beta in Hten.
  eapply (runs_bind _ 2).
  { apply (compare2_runs less_p Z.lt (i <? 10) fuel 2 a ten i 10); try done; [intros; by apply less_p_ok|lia|by eapply can_alloc_le; [exact A1|lia]|by eapply booted_later|by eapply num_later]. }
  { lia. } { done. }
  intros ? s2 L2 A2 ->. pose proof (later_trans _ _ _ L1 L2) as L12. rewrite scm_bool_f.
  eapply (runs_bind _ 5 _ _ _ (fun r s' => num s' r (if i <? 10 then 48 else 87))).
  { destruct (i <? 10); cbn [negb].
    - eapply (runs_le 1); [|lia]. apply make_number_runs. by eapply can_alloc_le; [exact A2|lia].
    - assert (can_alloc 5 s2) as A2' by (by eapply can_alloc_le; [exact A2|lia]).
      eapply (runs_bind _ 1); [apply make_number_runs; by eapply can_alloc_le; [exact A2'|lia]|lia|done|].
      intros x s3 L3 A3 Hx. cbn beta in Hx.
      eapply (runs_bind _ 1); [apply make_number_runs; by eapply can_alloc_le; [exact A3|lia]|lia|done|].
      intros y s4 L4 A4 Hy. cbn beta in Hy. pose proof (later_trans _ _ _ L3 L4) as L34. pose proof (later_trans _ _ _ L12 L34).
      apply (minus2_runs fuel _ x y 97 10); try done; [eapply (booted_later s); done|eapply (num_later s3); done]. }
  { lia. } { done. }
  intros off s3 L3 A3 Hoff. cbn beta in Hoff. pose proof (later_trans _ _ _ L12 L3) as L13.
  eapply (runs_bind _ 3).
  { apply (plus2_runs fuel 3 a off i (if i <? 10 then 48 else 87)); try done; [by eapply can_alloc_le; [exact A3|lia]|by eapply booted_later|by eapply num_later| |];
      unfold in_long, LONG_MIN, LONG_MAX; destruct (i <? 10); lia. }
  { lia. } { done. }
  intros c s4 L4 A4 Hc. cbn beta in Hc.
  assert (i + (if i <? 10 then 48 else 87) = PropsNum.chr i) as Ec.
  { unfold PropsNum.chr. destruct (Z.ltb_spec i 10), (Z.ltb_spec 9 i); lia. }
  rewrite Ec in Hc. unfold integer_to_char.
  assert (runs 1 (make_char (to_s32 (PropsNum.chr i))) s4 (fun r s' => ch s' r (PropsNum.chr i))) as Hmk.
  { rewrite to_s32_id. 2: { unfold PropsNum.chr, in_int, INT_MIN, INT_MAX. destruct (9 <? i); lia. }
    unfold make_char. eapply runs_cell; [by apply make_cell_s; eapply can_alloc_le; [exact A4|lia]|].
    eexists. rewrite cells_with_cell, lookup_insert. done. }
  destruct Hmk as (k & r & s5 & Hk & E & Hm & HQ). exists k, r, s5. split; [lia|]. split; [|done].
  destruct (num_heap _ _ _ Hc) as (cc & Hcc & _ & Hv). rewrite (bind_ok _ _ _ _ _ (cdr_of_s _ _ _ Hcc)). by rewrite Hv.
Qed.

Definition chs (s : state) (p : Z) (cs : list Z) : Prop := chars_at (cells s) p cs.
Lemma chs_later s s' p ns : later s s' -> chs s p ns -> chs s' p ns.
Proof.
  intros (H & _) (vs & Hl & Hv). exists vs. split; [by eapply list_at_mono|].
  eapply Forall2_impl; [exact Hv|]. intros. by eapply char_at_mono.
Qed.
Lemma cons_chars_runs a l n ns s :
  can_alloc 1 s -> booted s -> ch s a n -> chs s l ns -> runs 1 (cons a l) s (fun r s' => chs s' r (n :: ns)).
Proof.
  intros Ha Hb Hn Hl. eapply runs_cell; [by apply cons_s|]. unfold booted in Hb.
  pose proof (modifies_later _ _ _ (modifies_with_cell (Cell TPAIR a l []) s)) as HL.
  destruct (chs_later _ _ _ _ HL Hl) as (vs & Hvs & Hns). exists (a :: vs). split.
  - econstructor; [lia|apply pair_with_cell|done].
  - constructor; [|done]. destruct HL as (HL & _). by eapply char_at_mono.
Qed.

Lemma numeral_one b d : 0 <= d < b -> b <= 36 -> numeral b [PropsNum.chr d] d.
Proof.
  intros Hd Hb. split; [|split; [|split; [done|by right]]].
  - constructor; [|constructor]. exists d. rewrite digit_chr by lia. split; [done|lia].
  - unfold value, value_from. cbn. rewrite digit_chr by lia. cbn. lia.
Qed.
Lemma numeral_more b ds n d : 2 <= b <= 36 -> numeral b ds n -> 0 < n -> 0 <= d < b -> numeral b (ds ++ [PropsNum.chr d]) (n * b + d).
Proof.
  intros Hb (Hd & Hv & Hne & Hh) Hn Hdb. split; [|split; [|split]].
  - apply Forall_app. split; [done|]. constructor; [|constructor]. exists d. rewrite digit_chr by lia. split; [done|lia].
  - rewrite value_snoc, Hv, digit_chr by lia. done.
  - by destruct ds.
  - left. destruct ds as [|c ds]; [done|]. cbn. destruct Hh as [Hh|Hh]; [done|]. destruct ds; [|done].
    intros [= ->]. cbn in Hv. lia.
Qed.

(** 34 cells a turn *)
Lemma digits_loop_runs fuel k : forall n lst radix x b cs s,
  (2 <= fuel)%nat -> (1 <= k)%nat -> 0 <= x < b ^ Z.of_nat k -> x <= LONG_MAX -> 2 <= b <= 36 ->
  can_alloc (34 * Z.of_nat k) s -> booted s -> num s n x -> num s radix b -> chs s lst cs ->
  runs (34 * Z.of_nat k) (digits_loop fuel k n lst radix) s (fun r s' => exists ds, (length ds <= k)%nat /\ numeral b ds x /\ chs s' r (ds ++ cs)).
Proof.
  induction k as [|k IH]; intros n lst radix x b cs s Hf Hk1 Hx Hxl Hb Ha Hbt Hn Hr Hc; [lia|].
  cbn [digits_loop]. replace (Z.of_nat (S k)) with (Z.of_nat k + 1) in * by lia.
  assert (0 < b ^ Z.of_nat k) by (apply Z.pow_pos_nonneg; lia). rewrite Z.pow_add_r in Hx by lia.
  pose proof (Z.mod_pos_bound x b ltac:(lia)) as Hmod. pose proof (Z_div_mod_eq_full x b) as Hdm.
  assert (0 <= x / b < b ^ Z.of_nat k) as Hdiv by (split; [apply Z.div_pos; lia|apply Z.div_lt_upper_bound; lia]).
  set (N := 34 * Z.of_nat k).
  replace (34 * (Z.of_nat k + 1)) with (N + 34) in * by lia.
  assert (0 <= N) by lia. unfold LONG_MAX in *.
  eapply (runs_bind _ 9).
  { apply (remainder_runs fuel n radix x b); try done; [by eapply can_alloc_le; [exact Ha|lia]|unfold LONG_MAX; lia|unfold LONG_MAX; lia]. }
  { lia. } { done. }
  intros r s1 L1 A1 H1. cbn beta in H1.
  eapply (runs_bind _ 6).
  { apply (scm_abs_runs fuel r (x mod b)); try done; [by eapply can_alloc_le; [exact A1|lia]|by eapply booted_later|unfold long, LONG_MIN, LONG_MAX; lia]. }
  { lia. } { done. }
  intros i s2 L2 A2 H2. cbn beta in H2. replace (Z.abs (x mod b)) with (x mod b) in H2 by lia. pose proof (later_trans _ _ _ L1 L2) as L12.
  eapply (runs_bind _ 12).
  { apply (digit_char_runs fuel i (x mod b)); try done; [by eapply can_alloc_le; [exact A2|lia]|by eapply booted_later|lia]. }
  { lia. } { done. }
  intros c s3 L3 A3 H3. cbn beta in H3. pose proof (later_trans _ _ _ L12 L3) as L13.
  eapply (runs_bind _ 1).
  { apply (cons_chars_runs c lst (PropsNum.chr (x mod b)) cs); [by eapply can_alloc_le; [exact A3|lia]|by eapply booted_later|done|by eapply chs_later]. }
  { lia. } { done. }
  intros l s4 L4 A4 H4. cbn beta in H4. pose proof (later_trans _ _ _ L13 L4) as L14.
  eapply (runs_bind _ 3).
  { apply (divide2_runs fuel 3 n radix x b); try done;
      [by eapply can_alloc_le; [exact A4|lia]|by eapply booted_later|by eapply num_later|by eapply num_later|unfold long, LONG_MIN, LONG_MAX; lia|unfold LONG_MAX; lia]. }
  { lia. } { done. }
  intros n' s5 L5 A5 H5. cbn beta in H5. rewrite Z.quot_div_nonneg in H5 by lia. pose proof (later_trans _ _ _ L14 L5) as L15.
  eapply (runs_bind _ 1); [apply make_number_runs; by eapply can_alloc_le; [exact A5|lia]|lia|done|].
  intros z s6 L6 A6 H6. cbn beta in H6. pose proof (later_trans _ _ _ L15 L6) as L16.
  eapply (runs_bind _ 2).
  { apply (compare2_runs is_p eq (0 =? x / b) fuel 2 z n' 0 (x / b)); try done;
      [intros; by apply is_p_ok|lia|by eapply can_alloc_le; [exact A6|lia]|eapply (booted_later s); done|eapply (num_later s5); done]. }
  { lia. } { done. }
  intros ? s7 L7 A7 ->. rewrite scm_bool_f. pose proof (later_trans _ _ _ L16 L7) as L17.
  replace (N + 34 - 9 - 6 - 12 - 1 - 3 - 1 - 2) with N in * by lia.
  assert (chs s7 l (PropsNum.chr (x mod b) :: cs)) as H7.
  { eapply chs_later; [|exact H4]. eapply later_trans; [exact L5|]. eapply later_trans; [exact L6|exact L7]. }
  destruct (Z.eqb_spec 0 (x / b)) as [E0|E0]; cbn [negb].
  - apply runs_ret; [lia|]. exists [PropsNum.chr (x mod b)]. split; [cbn; lia|]. split; [|done].
    replace x with (x mod b) at 2 by lia. apply numeral_one; lia.
  - destruct (IH n' l radix (x / b) b (PropsNum.chr (x mod b) :: cs) s7) as (k' & r' & s8 & Hk & E & Hm & ds & Hl & Hds & Hres); try done.
    + destruct k; [cbn in Hdiv; lia|lia].
    + lia.
    + by eapply booted_later.
    + eapply num_later; [|exact H5]. by eapply later_trans.
    + by eapply num_later.
    + exists k', r', s8. split; [lia|]. split; [done|]. split; [done|]. exists (ds ++ [PropsNum.chr (x mod b)]).
      split; [rewrite app_length; cbn; lia|]. split; [|by rewrite <- app_assoc].
      rewrite Hdm at 2. rewrite (Z.mul_comm b). apply numeral_more; try done; lia.
Qed.

(** ** number->string *)
Definition log_fuel : nat := 63.
Lemma list_at_seg_app h p q ps vs ws : seg h p q ps vs -> list_at h q ws -> list_at h p (vs ++ ws).
Proof. induction 1; [done|]. intros. cbn. econstructor; eauto. Qed.

Lemma numeral_bytes b ds n : numeral b ds n -> is_bytes ds.
Proof.
  intros (H & _). eapply Forall_impl; [exact H|]. intros c (d & Hd & _). unfold digit in Hd.
  unfold is_byte. repeat case_match; simplify_eq; lia.
Qed.

Lemma number_to_string_runs fuel k n radix x b s :
  (2 <= fuel)%nat -> (k < fuel)%nat -> (1 <= k)%nat -> Z.abs x < b ^ Z.of_nat k -> long x -> 2 <= b <= 36 ->
  Z.of_nat k + 1 < MAX_STRING s ->
  can_alloc (40 * Z.of_nat k + 40) s -> booted s -> num s n x -> num s radix b ->
  runs (40 * Z.of_nat k + 40) (number_to_string fuel k n radix) s
    (fun r s' => exists bs, text_at (cells s') TSTRING r bs /\ text b bs x).
Proof.
  intros Hf Hkf Hk Hx Hl Hb Hmax Ha Hbt Hn Hr. unfold number_to_string. unfold long, LONG_MIN, LONG_MAX in Hl.
  eapply (runs_bind _ 1); [apply make_number_runs; by eapply can_alloc_le; [exact Ha|lia]|lia|done|].
  intros z s1 L1 A1 H1. cbn beta in H1.
  eapply (runs_bind _ 2).
  { apply (compare2_runs less_p Z.lt (x <? 0) fuel 2 n z x 0); try done;
      [intros; by apply less_p_ok|lia|by eapply can_alloc_le; [exact A1|lia]|by eapply booted_later|by eapply num_later]. }
  { lia. } { done. }
  intros ? s2 L2 A2 ->. pose proof (later_trans _ _ _ L1 L2) as L12. rewrite scm_bool_f.
  eapply (runs_bind _ 2 _ _ _ (fun r s' => chs s' r (if x <? 0 then [45] else []))).
  { destruct (x <? 0); cbn [negb].
    - eapply (runs_bind _ 1 _ _ _ (fun r s' => ch s' r 45)).
      + unfold make_char. eapply runs_cell; [by apply make_cell_s; eapply can_alloc_le; [exact A2|lia]|].
        eexists. rewrite cells_with_cell, lookup_insert. done.
      + lia.
      + by eapply can_alloc_le; [exact A2|lia].
      + intros c s3 L3 A3 H3. apply cons_chars_runs; [done| |done|].
        * eapply (booted_later s); [by eapply later_trans|done].
        * exists []. split; constructor.
    - apply runs_ret; [lia|]. exists []. split; constructor. }
  { lia. } { done. }
  intros sg s3 L3 A3 H3. cbn beta in H3. pose proof (later_trans _ _ _ L12 L3) as L13.
  eapply (runs_bind _ 6).
  { apply (scm_abs_runs fuel n x); try done; [by eapply can_alloc_le; [exact A3|lia]|eapply (booted_later s); done|eapply (num_later s); done]. }
  { lia. } { done. }
  intros a s4 L4 A4 H4. cbn beta in H4. pose proof (later_trans _ _ _ L13 L4) as L14.
  eapply (runs_bind _ (34 * Z.of_nat k)).
  { apply (digits_loop_runs fuel k a cell_nil radix (Z.abs x) b []); try done;
      [lia|unfold LONG_MAX; lia|by eapply can_alloc_le; [exact A4|lia]|eapply (booted_later s); done|eapply (num_later s); done|exists []; split; constructor]. }
  { lia. } { done. }
  intros l s5 L5 A5 (ds & Hds & Hnum & H5). rewrite app_nil_r in H5. pose proof (later_trans _ _ _ L14 L5) as L15.
  set (sgn := if x <? 0 then [45] else []) in *.
  assert (length sgn <= 1)%nat as Hsg by (unfold sgn; destruct (x <? 0); cbn; lia).
  eapply (runs_bind _ 1 _ _ _ (fun r s' => chs s' r (sgn ++ ds))).
  { assert (chs s5 sg sgn) as (vs & Hvs & Hcs) by (eapply (chs_later s3); [eapply later_trans; [exact L4|exact L5]|done]).
    pose proof (Forall2_length _ _ _ Hcs) as Hlen.
    destruct (append2_fresh' fuel sg vs l s5) as (s6 & r & ps & E & Hm & Hseg & _); [done|lia| |by apply (booted_later s)|].
    { eapply can_alloc_le; [exact A5|lia]. }
    exists (Z.of_nat (length vs)), r, s6. split; [lia|]. split; [done|]. split; [done|].
    pose proof (modifies_later _ _ _ Hm) as L6. destruct (chs_later _ _ _ _ L6 H5) as (ws & Hws & Hcw).
    exists (vs ++ ws). split; [by eapply list_at_seg_app|]. apply Forall2_app; [|done].
    eapply Forall2_impl; [exact Hcs|]. intros. eapply char_at_mono; [apply L6|done]. }
  { lia. } { done. }
  intros l2 s6 L6 A6 H6. cbn beta in H6. pose proof (later_trans _ _ _ L15 L6) as L16.
  assert (is_bytes (sgn ++ ds)) as Hby.
  { apply Forall_app. split; [|by eapply numeral_bytes]. unfold sgn. destruct (x <? 0); [|constructor]. constructor; [|constructor]. unfold is_byte. lia. }
  assert (chars_at (heap s6) l2 (sgn ++ ds)) as Hch.
  { destruct H6 as (vs & Hv & Hc). exists vs. split; [eapply list_at_mono; [apply cells_sub|done]|].
    eapply Forall2_impl; [exact Hc|]. intros. eapply char_at_mono; [apply cells_sub|done]. }
  assert (length (sgn ++ ds) <= S k)%nat as Hlen by (rewrite app_length; lia).
  assert (string_cells (map to_byte (sgn ++ ds)) <= 6 * Z.of_nat k + 20) as Hsc.
  { unfold string_cells, bytes_cells. rewrite map_length. cbv zeta. lia. }
  destruct (list_to_string_ok fuel l2 (sgn ++ ds) s6 Hch) as (s7 & E & Hm & Ht).
  { lia. } { destruct L16 as (_ & _ & ->). lia. } { eapply can_alloc_le; [exact A6|lia]. }
  rewrite (map_to_byte _ Hby) in *.
  exists (string_cells (sgn ++ ds)), (g_free s6), s7. split; [lia|]. split; [done|]. split; [done|].
  exists (sgn ++ ds). split; [done|]. unfold text, sgn. destruct (Z.ltb_spec x 0).
  - exists ds. split; [done|]. by replace (- x) with (Z.abs x) by lia.
  - cbn. by rewrite Z.abs_eq in Hnum by lia.
Qed.

(** ** bytevectors *)
Fixpoint bytes_from (n : nat) (v : Z) : list Z :=
  match n with O => [] | S n' => v mod 256 :: bytes_from n' (v / 256) end.

Lemma byte_at_runs fuel a v k s :
  can_alloc 4 s -> booted s -> num s a v -> in_long v = true -> 0 <= k < 64 -> - v <= Z.of_nat fuel * 256 ->
  runs 4 (byte_at fuel a k) s (fun r s' => num s' r (v / 2 ^ k mod 256)).
Proof.
  intros Ha Hb Hv Hl Hk Hf. unfold byte_at. unfold in_long, LONG_MIN, LONG_MAX in Hl.
  assert (LONG_MIN <= v / 2 ^ k <= LONG_MAX /\ - (v / 2 ^ k) <= Z.of_nat fuel * 256) as [Hq Hqf].
  { assert (0 < 2 ^ k) by (apply Z.pow_pos_nonneg; lia). unfold LONG_MIN, LONG_MAX.
    pose proof (Z.mul_div_le v (2 ^ k) ltac:(lia)). pose proof (Z.mul_succ_div_gt v (2 ^ k) ltac:(lia)). nia. }
  eapply (runs_bind _ 2 _ _ _ (fun r s' => num s' r (v / 2 ^ k))).
  { destruct (Z.eqb_spec k 0) as [->|Hk0].
    - apply runs_ret; [lia|]. rewrite Z.pow_0_r. by rewrite Z.div_1_r.
    - assert (can_alloc 2 s) as A0 by (eapply can_alloc_le; [exact Ha|lia]).
      eapply (runs_bind _ 1); [apply make_number_runs; eapply can_alloc_le; [exact Ha|lia]|lia|done|].
      intros c s1 L1 A1 H1. cbn beta in H1. eapply (runs_cell (Cell TNUMBER 0 (v / 2 ^ k) [])); [|apply num_new].
      rewrite (ash_ok v (- k)); [|by eapply num_heap, (num_later s)|by apply num_heap|unfold LONG_MIN, LONG_MAX; lia|lia|done].
      rewrite Z.shiftl_opp_r, Z.shiftr_div_pow2 by lia. rewrite to_s64_id; [done|unfold in_long; lia]. }
  { lia. } { done. }
  intros x s1 L1 A1 H1. cbn beta in H1.
  eapply (runs_bind _ 1); [apply make_number_runs; eapply can_alloc_le; [exact A1|lia]|lia|done|].
  intros m s2 L2 A2 H2. cbn beta in H2.
  eapply (runs_cell (Cell TNUMBER 0 (v / 2 ^ k mod 256) [])); [|apply num_new].
  rewrite (modulo_ok fuel x m (v / 2 ^ k) 256); [done|by eapply num_heap, (num_later s1)|by apply num_heap|done|lia|unfold LONG_MIN, LONG_MAX; lia|lia|done].
Qed.

(** a list of numbers whose pairs are at [base] or above *)
Definition fresh_nums (base : Z) (s : state) (p : Z) (ns : list Z) : Prop :=
  exists ps vs, seg (cells s) p cell_nil ps vs /\ Forall2 (number_at (cells s)) vs ns /\ Forall (fun q => base <= q) ps.

Lemma byte_list_runs fuel base n : forall a v k s,
  can_alloc (5 * Z.of_nat n) s -> booted s -> base <= g_free s -> num s a v -> in_long v = true ->
  0 <= k -> k + 8 * Z.of_nat n <= 64 -> - v <= Z.of_nat fuel * 256 ->
  runs (5 * Z.of_nat n) (byte_list fuel n a k) s (fun r s' => fresh_nums base s' r (bytes_from n (v / 2 ^ k))).
Proof.
  induction n as [|n IH]; intros a v k s Ha Hb Hba Hv Hl Hk Hkn Hf; cbn [byte_list bytes_from].
  { apply runs_ret; [lia|]. exists [], []. repeat constructor. }
  replace (5 * Z.of_nat (S n)) with (5 * Z.of_nat n + 5) in * by lia.
  eapply (runs_bind _ 4).
  { apply (byte_at_runs fuel a v k); try done; [by eapply can_alloc_le; [exact Ha|lia]|lia]. }
  { lia. } { done. }
  intros b s1 L1 A1 H1. cbn beta in H1.
  eapply (runs_bind _ (5 * Z.of_nat n)).
  { apply (IH a v (k + 8)); try done; [eapply can_alloc_le; [exact A1|lia]|by eapply booted_later| |by eapply num_later|lia|lia].
    destruct L1 as (_ & L1 & _). lia. }
  { lia. } { done. }
  intros l s2 L2 A2 H2. cbn beta in H2. pose proof (later_trans _ _ _ L1 L2) as L12.
  replace (5 * Z.of_nat n + 5 - 4 - 5 * Z.of_nat n) with 1 in * by lia.
  eapply runs_cell; [by apply cons_s|].
  pose proof (modifies_later _ _ _ (modifies_with_cell (Cell TPAIR b l []) s2)) as L3.
  destruct H2 as (ps & vs & Hs & Hn & Hp). exists (g_free s2 :: ps), (b :: vs). split; [|split].
  - econstructor; [pose proof (booted_later _ _ L12 Hb); unfold booted in *; lia|apply pair_with_cell|].
    eapply seg_mono; [apply L3|done].
  - constructor.
    + eapply (num_later s1); [by eapply later_trans|done].
    + replace (v / 2 ^ k / 256) with (v / 2 ^ (k + 8)).
      2: { rewrite Z.pow_add_r by lia. rewrite Z.div_div by (try apply Z.pow_nonzero; lia). done. }
      eapply Forall2_impl; [exact Hn|]. intros. eapply number_at_mono; [apply L3|done].
  - constructor; [|done]. destruct L12 as (_ & L12 & _). lia.
Qed.

Lemma make_list_runs n : forall z s, can_alloc (Z.of_nat n) s ->
  runs (Z.of_nat n) (make_list n z) s (fun r s' => (1 <= n)%nat -> g_free s <= r /\ exists d, pair_at (cells s') r z d).
Proof.
  induction n as [|n IH]; intros z s Ha; cbn [make_list].
  { apply runs_ret; [lia|]. lia. }
  eapply (runs_bind _ (Z.of_nat n)); [apply IH; eapply can_alloc_le; [exact Ha|lia]|lia|done|].
  intros l s1 L1 A1 _. replace (Z.of_nat (S n) - Z.of_nat n) with 1 in * by lia.
  eapply runs_cell; [by apply cons_s|]. intros _. split; [apply L1|]. eexists. apply pair_with_cell.
Qed.
Lemma make_bytevector_runs n s : can_alloc (Z.of_nat n + 1) s -> (1 <= n)%nat ->
  runs (Z.of_nat n + 1) (make_bytevector n) s (fun r s' => g_free s <= r /\ exists a d, pair_at (cells s') r a d).
Proof.
  intros Ha Hn. unfold make_bytevector.
  eapply (runs_bind _ 1); [apply make_number_runs; eapply can_alloc_le; [exact Ha|lia]|lia|done|].
  intros z s1 L1 A1 _. replace (Z.of_nat n + 1 - 1) with (Z.of_nat n) in * by lia.
  destruct (make_list_runs n z s1 A1) as (k & r & s2 & Hk & E & Hm & HQ). exists k, r, s2.
  split; [lia|]. split; [done|]. split; [done|]. destruct (HQ Hn) as (H1 & d & H2). split; [|by eauto].
  destruct L1 as (_ & L1 & _). lia.
Qed.

Lemma set_car_x_s fuel p a d v s : pair_at (cells s) p a d -> 1 <= p < limit s ->
  exists s', set_car_x fuel p v s = ROk cell_unspecified s' /\ modifies (eq p) 0 s s' /\ pair_at (cells s') p v d.
Proof.
  intros (c & Hc & Ht & <- & <-) Hp. apply cells_heap in Hc as [Hc Hlt]. unfold set_car_x.
  rewrite (bind_ok _ _ _ _ _ (ty_s _ _ _ Hc)). rewrite Ht, Z.eqb_refl, bind_ret.
  eexists. split; [by rewrite (bind_ok _ _ _ _ _ (set_car_s _ _ _ _ Hc Hp))|]. split; [apply modifies_put|].
  eexists. rewrite cells_put by done. rewrite lookup_insert. split; [done|]. by rewrite Ht.
Qed.
Lemma set_cdr_x_s fuel p a d v s : pair_at (cells s) p a d -> 1 <= p < limit s ->
  exists s', set_cdr_x fuel p v s = ROk cell_unspecified s' /\ modifies (eq p) 0 s s' /\ pair_at (cells s') p a v.
Proof.
  intros (c & Hc & Ht & <- & <-) Hp. apply cells_heap in Hc as [Hc Hlt]. unfold set_cdr_x.
  rewrite (bind_ok _ _ _ _ _ (ty_s _ _ _ Hc)). rewrite Ht, Z.eqb_refl, bind_ret.
  eexists. split; [by rewrite (bind_ok _ _ _ _ _ (set_cdr_s _ _ _ _ Hc Hp))|]. split; [apply modifies_put|].
  eexists. rewrite cells_put by done. rewrite lookup_insert. split; [done|]. by rewrite Ht.
Qed.

(** changing one pair leaves the numbers and the other pairs alone *)
Lemma number_at_other p s s' q n a d : modifies (eq p) 0 s s' -> pair_at (cells s) p a d -> number_at (cells s) q n -> number_at (cells s') q n.
Proof.
  intros Hm (c & Hc & Ht & _) (c' & Hc' & Ht' & Hn). exists c'. split; [|done].
  eapply modifies_old; [exact Hm|done|]. intros <-. rewrite Hc in Hc'. simplify_eq. rewrite Ht in Ht'. done.
Qed.
Lemma seg_other p s s' x y ps vs : modifies (eq p) 0 s s' -> p ∉ ps -> seg (cells s) x y ps vs -> seg (cells s') x y ps vs.
Proof.
  intros Hm Hp H. induction H as [|x y a d ps vs Hx Hpa Hs IH]; [constructor|].
  apply not_elem_of_cons in Hp as [Hp1 Hp2]. econstructor; [done| |by apply IH].
  destruct Hpa as (c & Hc & H'). exists c. split; [|done]. eapply modifies_old; [exact Hm|done|done].
Qed.
Lemma modifies_limit' P k s s' : modifies P k s s' -> limit s' = limit s.
Proof. intros [_ _ _ (h & ->)]. done. Qed.

Lemma int_to_bv_runs fuel n a v s : (1 <= n <= 8)%nat ->
  can_alloc (6 * Z.of_nat n + 1) s -> booted s -> num s a v -> in_long v = true -> - v <= Z.of_nat fuel * 256 ->
  runs (6 * Z.of_nat n + 1) (int_to_bv fuel n a) s (fun r s' => nums s' r (bytes_from n v)).
Proof.
  intros Hn Ha Hb Hv Hl Hf. unfold int_to_bv.
  destruct (make_bytevector_runs n s) as (k1 & bv & s1 & Hk1 & E1 & Hm1 & Hbv & a0 & d0 & Hpa); [eapply can_alloc_le; [exact Ha|lia]|lia|].
  pose proof (modifies_later _ _ _ Hm1) as L1. pose proof (mod_size _ _ _ _ Hm1) as Hk1'.
  assert (can_alloc (5 * Z.of_nat n) s1) as A1.
  { eapply modifies_can_alloc; [exact Hm1| |lia]. eapply can_alloc_le; [exact Ha|lia]. }
  assert (bv < g_free s1) as Hbv1. { destruct Hpa as (c & Hc & _). by apply cells_heap in Hc as [_ Hc]. }
  destruct (byte_list_runs fuel (g_free s1) n a v 0 s1) as (k2 & x & s2 & Hk2 & E2 & Hm2 & ps & vs & Hs & Hns & Hps); try done;
    [by eapply booted_later|by eapply num_later|lia|].
  pose proof (mod_size _ _ _ _ Hm2) as Hk2'. pose proof (modifies_later _ _ _ Hm2) as L2. rewrite Z.div_1_r in Hns.
  destruct n as [|n]; [lia|]. cbn [bytes_from] in Hns. inversion Hns as [|b ? vs' ? Hb0 Hvs' E3 E4]. subst.
  inversion Hs as [|? ? ? d ps' ? Hx Hxp Hs']. subst.
  assert (pair_at (cells s2) bv a0 d0) as Hpa2 by (eapply pair_at_mono; [apply L2|done]).
  assert (limit s2 = limit s) as Hlim by (rewrite (modifies_limit' _ _ _ _ Hm2); by apply (modifies_limit' _ _ _ _ Hm1)).
  assert (1 <= bv < limit s2) as Hr.
  { pose proof (mod_free _ _ _ _ Hm1). destruct Ha as (? & ? & ?). unfold booted, cell_nil in *. rewrite Hlim. lia. }
  destruct (set_car_x_s fuel bv a0 d0 b s2 Hpa2 Hr) as (s3 & E3' & Hm3 & Hp3).
  apply Forall_cons in Hps as [Hx1 Hps'].
  assert (bv ∉ x :: ps') as Hni.
  { apply not_elem_of_cons. split; [lia|]. intros Hin. rewrite Forall_forall in Hps'. specialize (Hps' _ Hin). lia. }
  pose proof (seg_other _ _ _ _ _ _ _ Hm3 Hni Hs) as Hs3. inversion Hs3 as [|? ? ? d2 ? ? Hx3 Hxp3 Hs3']. subst.
  assert (d2 = d) as ->.
  { destruct Hxp as (c & Hc & _ & _ & <-). destruct Hxp3 as (c3 & Hc3 & _ & _ & <-).
    assert (cells s3 !! x = Some c) as Hc' by (eapply modifies_old; [exact Hm3|done|lia]).
    congruence. }
  destruct (set_cdr_x_s fuel bv b d0 d s3 Hp3) as (s4 & E4' & Hm4 & Hp4). { by rewrite (modifies_limit' _ _ _ _ Hm3). }
  apply not_elem_of_cons in Hni as [_ Hni].
  pose proof (seg_other _ _ _ _ _ _ _ Hm4 Hni Hs3') as Hs4.
  exists (k1 + (k2 + (0 + 0))), bv, s4. split; [lia|]. split; [|split].
  - rewrite (bind_ok _ _ _ _ _ E1). unfold native_set. rewrite !bind_assoc, (bind_ok _ _ _ _ _ E2).
    rewrite !bind_assoc. rewrite (bind_ok _ _ _ _ _ (car_pair _ _ _ _ (pair_at_mono _ _ _ _ _ (cells_sub _) Hxp))).
    rewrite !bind_assoc, (bind_ok _ _ _ _ _ E3'). rewrite !bind_assoc.
    rewrite (bind_ok _ _ _ _ _ (cdr_pair _ _ _ _ (pair_at_mono _ _ _ _ _ (cells_sub _) Hxp3))).
    rewrite !bind_assoc, (bind_ok _ _ _ _ _ E4'). done.
  - apply (modifies_trans nothing (eq bv) _ _ s s1 s4 Hm1); [|intros p Hp <-; lia].
    apply (modifies_trans (eq bv) (eq bv) _ _ s1 s2 s4); [apply (modifies_weaken nothing (eq bv)); [by intros p _ []|done]| |done].
    by apply (modifies_trans (eq bv) (eq bv) _ _ s2 s3 s4).
  - exists (b :: vs'). split.
    + econstructor; [unfold booted in Hb; lia|done|]. apply seg_list. by eexists.
    + constructor.
      * eapply number_at_other; [exact Hm4|done|]. by eapply number_at_other.
      * eapply Forall2_impl; [exact Hvs'|]. intros. eapply number_at_other; [exact Hm4|done|]. by eapply number_at_other.
Qed.

Lemma int_to_bv8_runs fuel a v s :
  can_alloc 7 s -> booted s -> num s a v -> in_long v = true -> - v <= Z.of_nat fuel * 256 ->
  runs 7 (int_to_bv8 fuel a) s (fun r s' => nums s' r (bytes_from 1 v)).
Proof.
  intros Ha Hb Hv Hl Hf. unfold int_to_bv8.
  assert (can_alloc 1 s) as A0 by (eapply can_alloc_le; [exact Ha|lia]).
  pose proof (make_number_s 0 s A0) as E1. set (z := g_free s) in *. set (s1 := with_cell _ s) in *.
  pose proof (modifies_with_cell (Cell TNUMBER 0 0 []) s) as Hm1. fold s1 in Hm1. pose proof (modifies_later _ _ _ Hm1) as L1.
  assert (can_alloc 6 s1) as A1. { eapply modifies_can_alloc; [exact Hm1| |lia]. eapply can_alloc_le; [exact Ha|lia]. }
  pose proof (booted_later _ _ L1 Hb) as Hb1.
  assert (can_alloc 1 s1) as A1' by (eapply can_alloc_le; [exact A1|lia]).
  pose proof (cons_s z cell_nil s1 A1') as E2. set (bv := g_free s1) in *. set (s2 := with_cell _ s1) in *.
  pose proof (modifies_with_cell (Cell TPAIR z cell_nil []) s1) as Hm2. fold s2 in Hm2. pose proof (modifies_later _ _ _ Hm2) as L2.
  pose proof (later_trans _ _ _ L1 L2) as L12.
  assert (can_alloc 4 s2) as A2. { eapply modifies_can_alloc; [exact Hm2| |lia]. eapply can_alloc_le; [exact A1|lia]. }
  destruct (byte_at_runs fuel a v 0 s2) as (k & x & s3 & Hk & E3 & Hm3 & Hx); try done; [by eapply booted_later|by eapply num_later|].
  rewrite Z.div_1_r in Hx.
  assert (pair_at (cells s3) bv z cell_nil) as Hp by (eapply pair_at_mono; [eapply modifies_cells; exact Hm3|apply pair_with_cell]).
  assert (limit s3 = limit s1) as Hlim by (rewrite (modifies_limit' _ _ _ _ Hm3); by apply (modifies_limit' _ _ _ _ Hm2)).
  destruct (set_car_x_s fuel bv z cell_nil x s3 Hp) as (s4 & E4 & Hm4 & Hp4).
  { rewrite Hlim. destruct A1 as (? & ? & ?). unfold booted, cell_nil, bv in *. lia. }
  pose proof (mod_size _ _ _ _ Hm3).
  exists (1 + (1 + (k + 0))), bv, s4. split; [lia|]. split; [|split].
  - unfold make_bytevector. cbn [make_list]. rewrite !bind_assoc, (bind_ok _ _ _ _ _ E1). rewrite !bind_assoc, bind_ret, (bind_ok _ _ _ _ _ E2).
    unfold u8_set. rewrite !bind_assoc, (bind_ok _ _ _ _ _ E3). rewrite !bind_assoc, (bind_ok _ _ _ _ _ E4). done.
  - apply (modifies_trans nothing nothing _ _ s s1 s4 Hm1); [|done].
    apply (modifies_trans nothing (eq bv) _ _ s1 s2 s4 Hm2); [|intros p Hpp <-; unfold bv in *; lia].
    by apply (modifies_trans (eq bv) (eq bv) _ _ s2 s3 s4); [apply (modifies_weaken nothing (eq bv)); [by intros p _ []|done]| |].
  - exists [x]. split.
    + econstructor; [unfold booted, bv in *; lia|exact Hp4|constructor].
    + constructor; [|constructor]. by eapply number_at_other.
Qed.

(** ** hex2:immediate *)
Definition str (s : state) (p : Z) (bs : list Z) : Prop := text_at (cells s) TSTRING p bs.
Lemma str_later s s' p bs : later s s' -> str s p bs -> str s' p bs.
Proof. intros (H & _). by apply text_at_mono. Qed.
Definition strs (s : state) (p : Z) (bss : list (list Z)) : Prop :=
  exists vs, list_at (cells s) p vs /\ Forall2 (text_at (cells s) TSTRING) vs bss.
Lemma strs_later s s' p bss : later s s' -> strs s p bss -> strs s' p bss.
Proof.
  intros (H & _) (vs & Hl & Hv). exists vs. split; [by eapply list_at_mono|].
  eapply Forall2_impl; [exact Hv|]. intros. by eapply text_at_mono.
Qed.
Lemma strs_nil s : strs s cell_nil [].
Proof. exists []. split; constructor. Qed.
Lemma cons_strs_runs a l bs bss s :
  can_alloc 1 s -> booted s -> str s a bs -> strs s l bss -> runs 1 (cons a l) s (fun r s' => strs s' r (bs :: bss)).
Proof.
  intros Ha Hb Hn Hl. eapply runs_cell; [by apply cons_s|]. unfold booted in Hb.
  pose proof (modifies_later _ _ _ (modifies_with_cell (Cell TPAIR a l []) s)) as HL.
  destruct (strs_later _ _ _ _ HL Hl) as (vs & Hvs & Hns). exists (a :: vs). split.
  - econstructor; [lia|apply pair_with_cell|done].
  - constructor; [by apply (str_later _ _ _ _ HL)|done].
Qed.
Lemma make_string_runs n bs s : Z.of_nat (length bs) <= MAX_STRING s -> can_alloc n s -> 8 + Z.of_nat (length bs) <= n ->
  runs n (make_string bs) s (fun r s' => str s' r bs).
Proof.
  intros Hm Ha Hn. assert (string_cells bs <= n) as Hc by (unfold string_cells, bytes_cells; lia).
  destruct (make_string_ok bs s) as (s' & E & Hmod & Ht); [by eapply can_alloc_le|done|].
  exists (string_cells bs), (g_free s), s'. by split.
Qed.
Lemma string_append_runs n fuel l bss s : strs s l bss -> (length bss <= fuel)%nat -> Z.of_nat (length (concat bss)) < MAX_STRING s ->
  can_alloc n s -> 8 + Z.of_nat (length (concat bss)) <= n -> runs n (string_append fuel l) s (fun r s' => str s' r (concat bss)).
Proof.
  intros (vs & Hl & Ht) Hf Hm Ha Hn. pose proof (Forall2_length _ _ _ Ht) as Hlen.
  assert (string_cells (concat bss) <= n) as Hc by (unfold string_cells, bytes_cells; lia).
  destruct (string_append_ok fuel l vs bss s) as (s' & E & Hmod & Hr); [..|].
  { eapply list_at_mono; [apply cells_sub|done]. }
  { eapply Forall2_impl; [exact Ht|]. intros. eapply text_at_mono; [apply cells_sub|done]. }
  { lia. } { done. } { by eapply can_alloc_le. }
  exists (string_cells (concat bss)), (g_free s), s'. by split.
Qed.

(** at most [k] digits and a sign *)
Lemma text_length b bs x k : 2 <= b -> text b bs x -> Z.abs x < b ^ Z.of_nat k -> (1 <= k)%nat -> (length bs <= k + 1)%nat.
Proof.
  intros Hb Ht Hx Hk. unfold text in Ht. destruct (Z.ltb_spec x 0).
  - destruct Ht as (ds & -> & Hn). cbn. assert (length ds <= k)%nat; [|lia]. eapply numeral_length; [done|done|lia|lia].
  - assert (length bs <= k)%nat; [|lia]. eapply numeral_length; [done|done|lia|lia].
Qed.

Definition hex_cells : Z := 681.
Lemma dec_to_hex_runs fuel a x s :
  (17 <= fuel)%nat -> long x -> 17 < MAX_STRING s ->
  can_alloc hex_cells s -> booted s -> num s a x ->
  runs hex_cells (dec_to_hex fuel 16 a) s (fun r s' => exists bs, str s' r bs /\ (length bs <= 17)%nat /\ text 16 bs x).
Proof.
  intros Hf Hl Hm Ha Hb Hx. unfold dec_to_hex, hex_cells in *.
  assert (Z.abs x < 16 ^ Z.of_nat 16) as Hx16 by (unfold long, LONG_MIN, LONG_MAX in Hl; change (16 ^ Z.of_nat 16) with 18446744073709551616; lia).
  eapply (runs_bind _ 1); [apply make_number_runs; eapply can_alloc_le; [exact Ha|lia]|lia|done|].
  intros r s1 L1 A1 H1. cbn beta in H1.
  destruct (number_to_string_runs fuel 16 a r x 16 s1) as (k & y & s2 & Hk & E & Hm2 & bs & Hbs & Ht); try done; try lia.
  { destruct L1 as (_ & _ & ->). lia. } { by eapply booted_later. } { by eapply num_later. }
  exists k, y, s2. split; [lia|]. split; [done|]. split; [done|]. exists bs. split; [done|]. split; [|done].
  eapply (text_length 16 bs x 16); [lia|done|exact Hx16|lia].
Qed.

Lemma later_max s s' : later s s' -> MAX_STRING s' = MAX_STRING s.
Proof. by intros (_ & _ & ?). Qed.
Ltac max := match goal with L : later _ ?s |- context [MAX_STRING ?s] => rewrite (later_max _ _ L) end; lia.

Lemma hex2_immediate_runs fuel a x pre s :
  (17 <= fuel)%nat -> long x -> (length pre <= 8)%nat -> 30 < MAX_STRING s ->
  can_alloc 800 s -> booted s -> num s a x ->
  runs 800 (hex2_immediate fuel 16 pre a) s (fun r s' => exists bs, str s' r (pre ++ bs) /\ text 16 bs x).
Proof.
  intros Hf Hl Hp Hm Ha Hb Hx. unfold hex2_immediate.
  eapply (runs_bind _ 16); [apply make_string_runs; [lia|eapply can_alloc_le; [exact Ha|lia]|lia]|lia|done|].
  intros p s1 L1 A1 H1. cbn beta in H1.
  eapply (runs_bind _ hex_cells).
  { apply (dec_to_hex_runs fuel a x); try done; [max|eapply can_alloc_le; [exact A1|unfold hex_cells; lia]|by eapply booted_later|by eapply num_later]. }
  { unfold hex_cells. lia. } { done. }
  intros h s2 L2 A2 (bs & H2 & Hlen & Ht). pose proof (later_trans _ _ _ L1 L2) as L12. unfold hex_cells in *.
  unfold call2.
  eapply (runs_bind _ 1).
  { apply (cons_strs_runs h cell_nil bs []); [eapply can_alloc_le; [exact A2|lia]|by apply (booted_later s)|done|apply strs_nil]. }
  { lia. } { done. }
  intros l s3 L3 A3 H3. cbn beta in H3. pose proof (later_trans _ _ _ L12 L3) as L13.
  eapply (runs_bind _ 1).
  { apply (cons_strs_runs p l pre [bs]); [eapply can_alloc_le; [exact A3|lia]|by apply (booted_later s)| |done].
    eapply (str_later s1); [by eapply later_trans|done]. }
  { lia. } { done. }
  intros l2 s4 L4 A4 H4. cbn beta in H4. pose proof (later_trans _ _ _ L13 L4) as L14.
  destruct (string_append_runs 100 fuel l2 [pre; bs] s4) as (k & r & s5 & Hk & E & Hmod & Hr);
    [done|cbn; lia| |eapply can_alloc_le; [exact A4|lia]| |].
  { cbn [concat]. rewrite !app_length. rewrite (later_max _ _ L14). cbn. lia. }
  { cbn [concat]. rewrite !app_length. cbn. lia. }
  exists k, r, s5. split; [lia|]. split; [done|]. split; [done|]. exists bs. split; [|done]. cbn [concat] in Hr. by rewrite app_nil_r in Hr.
Qed.

Lemma hex2_immediate8_runs fuel a x s :
  (17 <= fuel)%nat -> in_long x = true -> - x <= Z.of_nat fuel * 2 ^ 32 -> 60 < MAX_STRING s ->
  can_alloc 1600 s -> booted s -> num s a x ->
  runs 1600 (hex2_immediate8 fuel 16 a) s (fun r s' => exists h u, str s' r ([37; 48; 120] ++ h ++ [32; 37; 48; 120] ++ u)
    /\ text 16 h (x mod 2 ^ 32) /\ text 16 u (if x <? 0 then -1 else x / 2 ^ 32)).
Proof.
  intros Hf Hl Hlf Hm Ha Hb Hx. unfold hex2_immediate8.
  change (bytes_of "%0x") with [37; 48; 120]. change (bytes_of " %0x") with [32; 37; 48; 120]. change (bytes_of "-1") with [45; 49].
  unfold in_long, LONG_MIN, LONG_MAX in Hl. change (2 ^ 32) with 4294967296 in *.
  eapply (runs_bind _ 16); [apply make_string_runs; [cbn; lia|eapply can_alloc_le; [exact Ha|lia]|cbn; lia]|lia|done|].
  intros p s1 L1 A1 H1. cbn beta in H1.
  eapply (runs_bind _ 1); [apply make_number_runs; eapply can_alloc_le; [exact A1|lia]|lia|done|].
  intros c s2 L2 A2 H2. cbn beta in H2. pose proof (later_trans _ _ _ L1 L2) as L12.
  eapply (runs_bind _ 1 _ _ _ (fun r s' => num s' r (x mod 4294967296))).
  { eapply (runs_cell (Cell TNUMBER 0 (x mod 4294967296) [])); [|apply num_new].
    rewrite (modulo_ok fuel a c x 4294967296); [done|by apply num_heap, (num_later s)|by apply num_heap|unfold LONG_MIN, LONG_MAX; lia|lia|
      unfold LONG_MIN, LONG_MAX; lia|lia|eapply can_alloc_le; [exact A2|lia]]. }
  { lia. } { done. }
  intros lo s3 L3 A3 H3. cbn beta in H3. pose proof (later_trans _ _ _ L12 L3) as L13.
  eapply (runs_bind _ hex_cells).
  { apply (dec_to_hex_runs fuel lo (x mod 4294967296)); try done; [unfold long, LONG_MIN, LONG_MAX; lia|rewrite (later_max _ _ L13); lia|
      eapply can_alloc_le; [exact A3|unfold hex_cells; lia]|by apply (booted_later s)]. }
  { unfold hex_cells. lia. } { done. }
  intros h s4 L4 A4 (bs & H4 & Hlen & Ht). pose proof (later_trans _ _ _ L13 L4) as L14. unfold hex_cells in A4.
  eapply (runs_bind _ 16); [apply make_string_runs; [rewrite (later_max _ _ L14); cbn; lia|eapply can_alloc_le; [exact A4|lia]|cbn; lia]|unfold hex_cells; lia|done|].
  intros p' s5 L5 A5 H5. cbn beta in H5. pose proof (later_trans _ _ _ L14 L5) as L15. unfold hex_cells in *.
  eapply (runs_bind _ 1); [apply make_number_runs; eapply can_alloc_le; [exact A5|lia]|lia|done|].
  intros z s6 L6 A6 H6. cbn beta in H6. pose proof (later_trans _ _ _ L15 L6) as L16.
  eapply (runs_bind _ 2).
  { apply (compare2_runs less_p Z.lt (x <? 0) fuel 2 a z x 0); try done;
      [intros; by apply less_p_ok|lia|lia|eapply can_alloc_le; [exact A6|lia]|by apply (booted_later s)|by apply (num_later s)]. }
  { lia. } { done. }
  intros ? s7 L7 A7 ->. pose proof (later_trans _ _ _ L16 L7) as L17. rewrite scm_bool_f.
  eapply (runs_bind _ 700 _ _ _ (fun r s' => exists u, str s' r u /\ (length u <= 17)%nat /\ text 16 u (if x <? 0 then -1 else x / 4294967296))).
  { assert (can_alloc 700 s7) as A7' by (eapply can_alloc_le; [exact A7|lia]).
    destruct (Z.ltb_spec x 0); cbn [negb].
    - eapply (runs_le 16); [|lia].
      destruct (make_string_runs 16 [45; 49] s7) as (k & r & s8 & Hk & E & Hmod & Hr); [rewrite (later_max _ _ L17); cbn; lia|by eapply can_alloc_le; [exact A7|lia]|cbn; lia|].
      exists k, r, s8. split; [done|]. split; [done|]. split; [done|]. exists [45; 49]. split; [done|]. split; [cbn; lia|].
      exists [49]. split; [done|]. apply (numeral_one 16 1); lia.
    - eapply (runs_bind _ 1); [apply make_number_runs; eapply can_alloc_le; [exact A7'|lia]|lia|done|].
      intros c' s8 L8 A8 H8. cbn beta in H8. pose proof (later_trans _ _ _ L17 L8) as L18.
      eapply (runs_bind _ 3).
      { apply (divide2_runs fuel 3 a c' x 4294967296); try done;
          [lia|eapply can_alloc_le; [exact A8|lia]|by apply (booted_later s)|by apply (num_later s)|unfold long, LONG_MIN, LONG_MAX; lia]. }
      { lia. } { done. }
      intros q s9 L9 A9 H9. cbn beta in H9. rewrite Z.quot_div_nonneg in H9 by lia. pose proof (later_trans _ _ _ L18 L9) as L19.
      eapply (runs_le hex_cells); [|unfold hex_cells; lia].
      apply dec_to_hex_runs; try done; [unfold long, LONG_MIN, LONG_MAX; lia|rewrite (later_max _ _ L19); lia|eapply can_alloc_le; [exact A9|unfold hex_cells; lia]|by apply (booted_later s)]. }
  { lia. } { done. }
  intros u s8 L8 A8 (us & H8 & Hul & Hut). pose proof (later_trans _ _ _ L17 L8) as L18.
  eapply (runs_bind _ 1).
  { apply (cons_strs_runs u cell_nil us []); [eapply can_alloc_le; [exact A8|lia]|by apply (booted_later s)|done|apply strs_nil]. }
  { lia. } { done. }
  intros l1 s9 L9 A9 H9. cbn beta in H9. pose proof (later_trans _ _ _ L18 L9) as L19.
  pose proof (later_trans _ _ _ L6 (later_trans _ _ _ L7 (later_trans _ _ _ L8 L9))) as L5_9.
  eapply (runs_bind _ 1).
  { apply (cons_strs_runs p' l1 [32; 37; 48; 120] [us]); [eapply can_alloc_le; [exact A9|lia]|by apply (booted_later s)|by apply (str_later s5)|done]. }
  { lia. } { done. }
  intros l2 s10 L10 A10 H10. cbn beta in H10. pose proof (later_trans _ _ _ L19 L10) as L110.
  pose proof (later_trans _ _ _ L5_9 L10) as L5_10. pose proof (later_trans _ _ _ L5 L5_10) as L4_10.
  eapply (runs_bind _ 1).
  { apply (cons_strs_runs h l2 bs [[32; 37; 48; 120]; us]); [eapply can_alloc_le; [exact A10|lia]|by apply (booted_later s)|by apply (str_later s4)|done]. }
  { lia. } { done. }
  intros l3 s11 L11 A11 H11. cbn beta in H11. pose proof (later_trans _ _ _ L110 L11) as L111.
  pose proof (later_trans _ _ _ L2 (later_trans _ _ _ L3 (later_trans _ _ _ L4 (later_trans _ _ _ L4_10 L11)))) as L1_11.
  eapply (runs_bind _ 1).
  { apply (cons_strs_runs p l3 [37; 48; 120] [bs; [32; 37; 48; 120]; us]); [eapply can_alloc_le; [exact A11|lia]|by apply (booted_later s)|by apply (str_later s1)|done]. }
  { lia. } { done. }
  intros l4 s12 L12' A12 H12. cbn beta in H12. pose proof (later_trans _ _ _ L111 L12') as L112.
  destruct (string_append_runs 100 fuel l4 _ s12 H12) as (k & r & s13 & Hk & E & Hmod & Hr).
  { cbn. lia. } { cbn [concat]. rewrite !app_length. rewrite (later_max _ _ L112). cbn. lia. }
  { eapply can_alloc_le; [exact A12|lia]. } { cbn [concat]. rewrite !app_length. cbn. lia. }
  exists k, r, s13. split; [lia|]. split; [done|]. split; [done|]. exists bs, us. split; [|done].
  cbn [concat] in Hr. by rewrite app_nil_r in Hr.
Qed.

(** the most negative number has no absolute value *)
Lemma scm_abs_min fuel a s :
  (2 <= fuel)%nat -> can_alloc 6 s -> booted s -> num s a LONG_MIN -> scm_abs fuel a s = RUB.
Proof.
  intros Hf Ha Hb Hx. unfold scm_abs.
  destruct (make_number_runs 0 s) as (k1 & z & s1 & Hk1 & E1 & Hm1 & H1); [eapply can_alloc_le; [exact Ha|lia]|].
  rewrite (bind_ok _ _ _ _ _ E1). pose proof (modifies_later _ _ _ Hm1) as L1.
  assert (can_alloc 5 s1) as A1. { eapply modifies_can_alloc; [exact Hm1|eapply can_alloc_le; [exact Ha|lia]|lia]. }
  destruct (cons_runs z cell_nil 0 [] s1) as (k2 & r2 & s2 & Hk2 & E2 & Hm2 & H2); [eapply can_alloc_le; [exact A1|lia]|by eapply booted_later|done|apply nums_nil|].
  rewrite (bind_ok _ _ _ _ _ E2). pose proof (later_trans _ _ _ L1 (modifies_later _ _ _ Hm2)) as L2.
  assert (can_alloc 4 s2) as A2. { eapply modifies_can_alloc; [exact Hm2|eapply can_alloc_le; [exact A1|lia]|lia]. }
  destruct (cons_runs a r2 LONG_MIN [0] s2) as (k3 & r3 & s3 & Hk3 & E3 & Hm3 & H3); [eapply can_alloc_le; [exact A2|lia]|by eapply booted_later|by apply (num_later s)|done|].
  rewrite (bind_ok _ _ _ _ _ E3). pose proof (later_trans _ _ _ L2 (modifies_later _ _ _ Hm3)) as L3.
  assert (can_alloc 3 s3) as A3. { eapply modifies_can_alloc; [exact Hm3|eapply can_alloc_le; [exact A2|lia]|lia]. }
  destruct (greater_p_ok fuel r3 [LONG_MIN; 0] s3 (nums_heap _ _ _ H3) ltac:(cbn; lia)) as (b1 & F1 & B1). rewrite chain2 in B1.
  destruct (is_p_ok fuel r3 [LONG_MIN; 0] s3 (nums_heap _ _ _ H3) ltac:(cbn; lia)) as (b2 & F2 & B2). rewrite chain2 in B2.
  destruct b1; [unfold LONG_MIN in B1; destruct B1 as [B1 _]; specialize (B1 eq_refl); lia|].
  destruct b2; [unfold LONG_MIN in B2; destruct B2 as [B2 _]; by specialize (B2 eq_refl)|].
  rewrite (bind_ok _ _ _ _ _ F1). cbn [scm_bool]. rewrite Z.eqb_refl, (bind_ok _ _ _ _ _ F2). cbn [scm_bool]. rewrite Z.eqb_refl.
  unfold call1.
  destruct (cons_runs a cell_nil LONG_MIN [] s3) as (k4 & r4 & s4 & Hk4 & E4 & Hm4 & H4); [eapply can_alloc_le; [exact A3|lia]|by eapply booted_later|by apply (num_later s)|apply nums_nil|].
  rewrite (bind_ok _ _ _ _ _ E4). apply nums_heap in H4. unfold minus.
  apply numbers_cons in H4 as (_ & v & d & Hpa & Hv & H4). apply numbers_nil in H4 as ->. run. rewrite Z.eqb_refl.
  reflexivity.
Qed.
Lemma number_to_string_min fuel k n radix s :
  (2 <= fuel)%nat -> can_alloc 40 s -> booted s -> num s n LONG_MIN -> number_to_string fuel k n radix s = RUB.
Proof.
  intros Hf Ha Hb Hn. unfold number_to_string.
  destruct (make_number_runs 0 s) as (k1 & z & s1 & Hk1 & E1 & Hm1 & H1); [eapply can_alloc_le; [exact Ha|lia]|].
  rewrite (bind_ok _ _ _ _ _ E1). pose proof (modifies_later _ _ _ Hm1) as L1.
  assert (can_alloc 30 s1) as A1. { eapply modifies_can_alloc; [exact Hm1|eapply can_alloc_le; [exact Ha|lia]|lia]. }
  destruct (compare2_runs less_p Z.lt true fuel 2 n z LONG_MIN 0 s1) as (k2 & r2 & s2 & Hk2 & E2 & Hm2 & ->); try done;
    [intros; by apply less_p_ok|eapply can_alloc_le; [exact A1|lia]|by eapply booted_later|by eapply num_later|].
  rewrite (bind_ok _ _ _ _ _ E2). pose proof (later_trans _ _ _ L1 (modifies_later _ _ _ Hm2)) as L2. rewrite scm_bool_f. cbn [negb].
  assert (can_alloc 28 s2) as A2. { eapply modifies_can_alloc; [exact Hm2|eapply can_alloc_le; [exact A1|lia]|lia]. }
  rewrite !bind_assoc. unfold make_char. assert (can_alloc 1 s2) as A2' by (eapply can_alloc_le; [exact A2|lia]).
  rewrite (bind_ok _ _ _ _ _ (make_cell_s _ _ _ _ A2')). set (s3 := with_cell _ s2).
  pose proof (modifies_with_cell (Cell TCHAR 0 45 []) s2) as Hm3. fold s3 in Hm3. pose proof (later_trans _ _ _ L2 (modifies_later _ _ _ Hm3)) as L3.
  assert (can_alloc 20 s3) as A3. { eapply modifies_can_alloc; [exact Hm3|eapply can_alloc_le; [exact A2|lia]|lia]. }
  assert (can_alloc 1 s3) as A3' by (eapply can_alloc_le; [exact A3|lia]).
  rewrite (bind_ok _ _ _ _ _ (cons_s _ _ _ A3')). set (s4 := with_cell _ s3).
  pose proof (modifies_with_cell (Cell TPAIR (g_free s2) cell_nil []) s3) as Hm4. fold s4 in Hm4. pose proof (later_trans _ _ _ L3 (modifies_later _ _ _ Hm4)) as L4.
  assert (can_alloc 6 s4) as A4. { eapply modifies_can_alloc; [exact Hm4|eapply can_alloc_le; [exact A3|lia]|lia]. }
  unfold bind at 1. rewrite scm_abs_min; [done|done|done|by apply (booted_later s)|by apply (num_later s)].
Qed.
