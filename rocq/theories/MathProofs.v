(** Proofs about src/math.c. *)
From stdpp Require Import base gmap list.
From Coq Require Import ZArith Lia.
From Coq Require Import ZifyBool ZifyNat.
From Verif Require Import CInt Symbols Heap HeapLemmas DataModel DataSpec DataLemmas MathModel.
Open Scope Z_scope.
Open Scope mes_scope.

Lemma chain_cons R a b ns : chain R (a :: b :: ns) <-> R a b /\ chain R (b :: ns).
Proof.
  split.
  - intros H. split; [by apply (H 0%nat)|]. intros i x y Hx Hy. by apply (H (S i)).
  - intros [H1 H2] [|i] x y Hx Hy; cbn in *; [by simplify_eq|]. by apply (H2 i).
Qed.
Lemma chain_one R a : chain R [a].
Proof. intros [|i] x y Hx Hy; cbn in *; done. Qed.

Lemma numbers_nil h p : numbers_at h p [] -> p = cell_nil.
Proof. intros (vs & Hl & Hf). inversion Hf; subst. by inversion Hl. Qed.
Lemma numbers_cons h p n ns : numbers_at h p (n :: ns) ->
  p <> cell_nil /\ exists a d, pair_at h p a d /\ number_at h a n /\ numbers_at h d ns.
Proof.
  intros (vs & Hl & Hf). inversion Hf as [|v ? vs' ? Hn Hf']; subst.
  inversion Hl as [|? ? d ? Hp Hpa Hl']; subst. split; [done|]. exists v, d. split; [done|]. split; [done|].
  by exists vs'.
Qed.

Ltac list_step H :=
  let Hne := fresh "Hne" in let a := fresh "a" in let d := fresh "d" in
  let Hp := fresh "Hp" in let Hn := fresh "Hn" in
  apply numbers_cons in H as (Hne & a & d & Hp & Hn & H);
  try (rewrite (proj2 (Z.eqb_neq _ _) Hne)).

Lemma greater_loop_ok fuel : forall p n ns s, numbers_at (heap s) p ns -> (length ns <= fuel)%nat ->
  exists b, greater_loop fuel p n s = ROk (scm_bool b) s /\ (b = true <-> chain Z.gt (n :: ns)).
Proof.
  induction fuel as [|fuel IH]; intros p n [|m ns] s H Hf; cbn in Hf; try lia.
  1,2: apply numbers_nil in H as ->; exists true; split; [done|]; split; [intros _; apply chain_one|done].
  cbn [greater_loop]. list_step H. run. destruct (Z.leb_spec n m).
  - exists false. split; [done|]. rewrite chain_cons. split; [done|]. lia.
  - run. destruct (IH _ m ns s H ltac:(lia)) as (b & -> & Hb). exists b; split; [done|].
    rewrite chain_cons, Hb. split; [intros; split; [lia|done]|by intros [_ ?]].
Qed.
Lemma less_loop_ok fuel : forall p n ns s, numbers_at (heap s) p ns -> (length ns <= fuel)%nat ->
  exists b, less_loop fuel p n s = ROk (scm_bool b) s /\ (b = true <-> chain Z.lt (n :: ns)).
Proof.
  induction fuel as [|fuel IH]; intros p n [|m ns] s H Hf; cbn in Hf; try lia.
  1,2: apply numbers_nil in H as ->; exists true; split; [done|]; split; [intros _; apply chain_one|done].
  cbn [less_loop]. list_step H. run. destruct (Z.leb_spec m n).
  - exists false. split; [done|]. rewrite chain_cons. split; [done|]. lia.
  - run. destruct (IH _ m ns s H ltac:(lia)) as (b & -> & Hb). exists b; split; [done|].
    rewrite chain_cons, Hb. split; [intros; split; [lia|done]|by intros [_ ?]].
Qed.
Lemma chain_eq_cons n m ns : n = m -> chain eq (n :: ns) -> chain eq (n :: m :: ns).
Proof. intros -> H. by apply chain_cons. Qed.
Lemma is_loop_ok fuel : forall p n ns s, numbers_at (heap s) p ns -> (length ns <= fuel)%nat ->
  exists b, is_loop fuel p n s = ROk (scm_bool b) s /\ (b = true <-> chain eq (n :: ns)).
Proof.
  induction fuel as [|fuel IH]; intros p n [|m ns] s H Hf; cbn in Hf; try lia.
  1,2: apply numbers_nil in H as ->; exists true; split; [done|]; split; [intros _; apply chain_one|done].
  cbn [is_loop]. list_step H. run. destruct (Z.eqb_spec m n) as [->|].
  - run. destruct (IH _ n ns s H ltac:(lia)) as (b & -> & Hb). exists b; split; [done|].
    rewrite chain_cons, Hb. split; [intros; split; [done|done]|by intros [_ ?]].
  - exists false. split; [done|]. rewrite chain_cons. split; [done|]. intros [? _]; congruence.
Qed.

Lemma chain_nil R : chain R [].
Proof. intros i x y Hx; by rewrite lookup_nil in Hx. Qed.

Lemma greater_p_ok fuel p ns s : numbers_at (heap s) p ns -> (length ns <= fuel)%nat ->
  exists b, greater_p fuel p s = ROk (scm_bool b) s /\ (b = true <-> chain Z.gt ns).
Proof.
  intros H Hf. unfold greater_p. destruct ns as [|n ns].
  { apply numbers_nil in H as ->. exists true. split; [done|]. split; [intros; apply chain_nil|done]. }
  list_step H. run. eapply greater_loop_ok; [done|cbn in *; lia].
Qed.
Lemma less_p_ok fuel p ns s : numbers_at (heap s) p ns -> (length ns <= fuel)%nat ->
  exists b, less_p fuel p s = ROk (scm_bool b) s /\ (b = true <-> chain Z.lt ns).
Proof.
  intros H Hf. unfold less_p. destruct ns as [|n ns].
  { apply numbers_nil in H as ->. exists true. split; [done|]. split; [intros; apply chain_nil|done]. }
  list_step H. run. eapply less_loop_ok; [done|cbn in *; lia].
Qed.
Lemma is_p_ok fuel p ns s : numbers_at (heap s) p ns -> (length ns <= fuel)%nat ->
  exists b, is_p fuel p s = ROk (scm_bool b) s /\ (b = true <-> chain eq ns).
Proof.
  intros H Hf. unfold is_p. destruct ns as [|n ns].
  { apply numbers_nil in H as ->. exists true. split; [done|]. split; [intros; apply chain_nil|done]. }
  list_step H. run. eapply is_loop_ok; [done|cbn in *; lia].
Qed.

(** folding a checked operation *)
Lemma num_loop_ok (op : Z -> Z -> M Z) (f : Z -> Z -> Z) fuel : forall p n ns s,
  numbers_at (heap s) p ns -> (length ns <= fuel)%nat ->
  (forall k m v, ns !! k = Some v -> m = foldl f n (take k ns) -> op m v s = ROk (f m v) s) ->
  num_loop op fuel p n s = ROk (foldl f n ns) s.
Proof.
  induction fuel as [|fuel IH]; intros p n [|m ns] s H Hf Hop; cbn in Hf; try lia.
  1,2: apply numbers_nil in H as ->; done.
  cbn [num_loop]. list_step H. run. rewrite (bind_ok _ _ _ _ _ (Hop 0%nat n m eq_refl eq_refl)). run.
  rewrite (IH _ (f n m) ns s H ltac:(lia)); [done|].
  intros k m' v Hk Hm. by apply (Hop (S k)).
Qed.
Lemma num_loop_ub (op : Z -> Z -> M Z) (f : Z -> Z -> Z) fuel : forall p n ns s k,
  numbers_at (heap s) p ns -> (length ns <= fuel)%nat ->
  (forall m v, op m v s = (if in_long (f m v) then ROk (f m v) s else RUB)) ->
  (k <= length ns)%nat -> in_long n = true ->
  in_long (foldl f n (take k ns)) = false ->
  num_loop op fuel p n s = RUB.
Proof.
  induction fuel as [|fuel IH]; intros p n [|m ns] s k H Hf Hop Hk Hn Hbad; cbn in Hf; try lia.
  1,2: destruct k; cbn in *; congruence.
  destruct k as [|k]; [cbn in *; congruence|]. cbn in Hbad, Hk.
  cbn [num_loop]. list_step H. run. unfold bind at 1. rewrite Hop.
  destruct (in_long (f n m)) eqn:E; [|done]. run.
  eapply (IH _ (f n m) ns s k); try done; lia.
Qed.

Lemma num_loop_type_error (op : Z -> Z -> M Z) (f : Z -> Z -> Z) fuel : forall p n vs ns s bad c rest,
  list_at (heap s) p (vs ++ bad :: rest) -> Forall2 (number_at (heap s)) vs ns ->
  heap s !! bad = Some c -> c_ty c <> TNUMBER ->
  (length vs < fuel)%nat ->
  (forall k m v, ns !! k = Some v -> m = foldl f n (take k ns) -> op m v s = ROk (f m v) s) ->
  num_loop op fuel p n s = RThrow cell_symbol_not_a_number bad s.
Proof.
  induction fuel as [|fuel IH]; intros p n vs ns s bad c rest Hl Hf Hb Ht Hlen Hop; [lia|].
  cbn [num_loop]. destruct vs as [|v vs]; cbn in Hl; inversion Hl as [|? ? d ? Hp Hpa Hl']; subst.
  - rewrite (proj2 (Z.eqb_neq _ _) Hp). run. unfold bind at 1. by erewrite assert_number_bad by done.
  - rewrite (proj2 (Z.eqb_neq _ _) Hp). inversion Hf as [|? m ? ns' Hn Hf']; subst. run.
    rewrite (bind_ok _ _ _ _ _ (Hop 0%nat n m eq_refl eq_refl)). run.
    eapply (IH d (f n m) vs ns'); try done; [cbn in *; lia|].
    intros k m' w Hk Hm. by apply (Hop (S k)).
Qed.

Lemma chk_long_ok z s : in_long z = true -> chk_long z s = ROk z s.
Proof. intros H. unfold chk_long. by rewrite H. Qed.
Lemma chk_long_eq z s : chk_long z s = (if in_long z then ROk z s else RUB).
Proof. unfold chk_long. by destruct (in_long z). Qed.

(** sums of prefixes *)
Definition prefixes_fit (f : Z -> Z -> Z) (n : Z) (ns : list Z) : Prop :=
  forall k, (k <= length ns)%nat -> in_long (foldl f n (take k ns)) = true.

Lemma arith_loop_ok (f : Z -> Z -> Z) fuel p n ns s :
  numbers_at (heap s) p ns -> (length ns <= fuel)%nat -> prefixes_fit f n ns ->
  num_loop (fun n v => chk_long (f n v)) fuel p n s = ROk (foldl f n ns) s.
Proof.
  intros H Hf Hp. eapply num_loop_ok; [done|done|]. intros k m v Hk ->. apply chk_long_ok.
  pose proof (Hp (S k)) as Hk'. erewrite take_S_r in Hk' by done. rewrite foldl_app in Hk'. apply Hk'.
  by apply lookup_lt_Some in Hk.
Qed.
Lemma bits_loop_ok (f : Z -> Z -> Z) fuel p n ns s :
  numbers_at (heap s) p ns -> (length ns <= fuel)%nat ->
  num_loop (fun n v => ret (f n v)) fuel p n s = ROk (foldl f n ns) s.
Proof. intros H Hf. by eapply num_loop_ok. Qed.
Lemma arith_loop_ub (f : Z -> Z -> Z) fuel p n ns s :
  numbers_at (heap s) p ns -> (length ns <= fuel)%nat -> in_long n = true -> ~ prefixes_fit f n ns ->
  num_loop (fun n v => chk_long (f n v)) fuel p n s = RUB.
Proof.
  intros H Hf Hn Hp.
  assert (exists k, (k <= length ns)%nat /\ in_long (foldl f n (take k ns)) = false) as (k & Hk & Hbad).
  { destruct (decide (Forall (fun k => in_long (foldl f n (take k ns)) = true) (seq 0 (S (length ns))))) as [HF|HF].
    - destruct Hp. intros k Hk. rewrite Forall_forall in HF. apply HF, elem_of_seq. lia.
    - apply not_Forall_Exists, Exists_exists in HF as (k & Hk & Hbad); [|intros ?; apply _].
      exists k. apply elem_of_seq in Hk. split; [lia|]. by apply not_true_is_false. }
  eapply (num_loop_ub _ f fuel p n ns s k); try done. intros m v. apply chk_long_eq.
Qed.

(** divide *)
Lemma divide_loop_pos fuel : forall p ns sg u s,
  numbers_at (heap s) p ns -> (length ns <= fuel)%nat -> Forall (fun v => 0 < v <= LONG_MAX) ns ->
  0 <= u -> divide_loop fuel p sg u s = ROk (sg, foldl Z.div u ns) s.
Proof.
  induction fuel as [|fuel IH]; intros p [|v ns] sg u s H Hf HF Hu; cbn in Hf; try lia.
  1,2: apply numbers_nil in H as ->; done.
  cbn [divide_loop]. list_step H. inversion HF as [|? ? Hv HF']; subst. run.
  replace (sg && (0 <? v) || negb sg && (v <? 0)) with sg by (destruct sg; lia).
  destruct (Z.eqb_spec v 0); [lia|]. run.
  assert (to_u64 v = v) as -> by (apply to_u64_id; unfold LONG_MAX, two64 in *; lia).
  destruct (Z.eqb_spec u 0) as [->|].
  - f_equal. f_equal. cbn. rewrite Z.div_0_l by lia. clear - HF'.
    induction HF' as [|w ns Hw _ IH]; cbn; [done|]. rewrite Z.div_0_l by lia. done.
  - run. rewrite (IH _ ns); try done; [|lia|].
    + cbn. destruct (Z.eqb_spec v 1) as [->|]; [|done]. by rewrite Z.div_1_r.
    + destruct (v =? 1); [lia|]. apply Z.div_pos; lia.
Qed.
Lemma foldl_div_range u ns : 0 <= u -> Forall (fun v => 0 < v <= LONG_MAX) ns -> 0 <= foldl Z.div u ns <= u.
Proof.
  intros Hu H. revert u Hu. induction H as [|v ns Hv _ IH]; intros u Hu; cbn; [lia|].
  assert (0 <= u / v <= u) by (split; [apply Z.div_pos; lia|apply Z.div_le_upper_bound; nia]).
  pose proof (IH (u / v) ltac:(lia)). lia.
Qed.
Lemma foldl_quot_abs n ns : Forall (fun v => 0 < v <= LONG_MAX) ns ->
  foldl Z.quot n ns = (if n <? 0 then - foldl Z.div (- n) ns else foldl Z.div n ns).
Proof.
  intros H. revert n. induction H as [|v ns Hv HF IH]; intros n; cbn; [destruct (Z.ltb_spec n 0); lia|].
  rewrite IH. destruct (Z.ltb_spec n 0).
  - destruct (Z.ltb_spec (n ÷ v) 0) as [Hq|Hq].
    + rewrite <- Z.quot_opp_l by lia. rewrite Z.quot_div_nonneg by lia. done.
    + assert (n ÷ v = - ((- n) / v)) as E.
      { rewrite <- Z.quot_div_nonneg by lia. rewrite Z.quot_opp_l by lia. lia. }
      assert ((- n) / v = 0) as E'.
      { assert (0 <= (- n) / v) by (apply Z.div_pos; lia). lia. }
      rewrite E, E'. cbn. clear - HF. change (- 0) with 0.
      assert (foldl Z.div 0 ns = 0) as ->; [|done].
      induction HF as [|w ns Hw _ IH]; cbn; [done|]. by rewrite Z.div_0_l by lia.
  - rewrite Z.quot_div_nonneg by lia. destruct (Z.ltb_spec (n / v) 0) as [Hq|]; [|done].
    pose proof (Z.div_pos n v). lia.
Qed.

Lemma divide_pos fuel p n ns s :
  numbers_at (heap s) p (n :: ns) -> (length ns <= fuel)%nat ->
  Forall (fun v => 0 < v <= LONG_MAX) ns -> LONG_MIN < n <= LONG_MAX -> can_alloc 1 s ->
  divide fuel p s = ROk (g_free s) (with_cell (Cell TNUMBER 0 (foldl Z.quot n ns) []) s).
Proof.
  intros H Hf HF Hn Ha. unfold divide. list_step H. run. cbv zeta. cbn [fst snd].
  rewrite foldl_quot_abs by done. unfold LONG_MIN, LONG_MAX in *. destruct (Z.ltb_spec n 0).
  - run. erewrite bind_ok by (apply chk_long_ok; unfold in_long, LONG_MIN, LONG_MAX; lia). run. cbn [fst snd].
    assert (to_u64 (- n) = - n) as -> by (apply to_u64_id; unfold two64; lia).
    erewrite bind_ok by (apply divide_loop_pos; [done|done|done|lia]). cbn [fst snd].
    pose proof (foldl_div_range (- n) ns ltac:(lia) HF) as Hr.
    rewrite to_s64_id by (unfold in_long, LONG_MIN, LONG_MAX; lia).
    erewrite bind_ok by (apply chk_long_ok; unfold in_long, LONG_MIN, LONG_MAX; lia).
    by apply make_number_s.
  - run. cbn [fst snd].
    assert (to_u64 n = n) as -> by (apply to_u64_id; unfold two64; lia).
    erewrite bind_ok by (apply divide_loop_pos; [done|done|done|lia]). cbn [fst snd].
    pose proof (foldl_div_range n ns ltac:(lia) HF) as Hr.
    rewrite to_s64_id by (unfold in_long, LONG_MIN, LONG_MAX; lia). run.
    by apply make_number_s.
Qed.

(** modulo *)
Lemma modulo_loop_ok fuel : forall n w s, LONG_MIN <= n <= LONG_MAX -> 0 < w <= LONG_MAX ->
  - n <= Z.of_nat fuel * w ->
  exists m, modulo_loop fuel n w s = ROk m s /\ 0 <= m <= LONG_MAX /\ m mod w = n mod w.
Proof.
  unfold LONG_MIN, LONG_MAX in *.
  induction fuel as [|fuel IH]; intros n w s Hn Hw Hf; cbn [modulo_loop]; destruct (Z.ltb_spec n 0);
    try (exists n; split; [done|]; lia).
  - lia.
  - assert (to_s64 (to_u64 (to_u64 n + w)) = n + w) as ->.
    { unfold to_s64, to_u64, two64. lia. }
    destruct (IH (n + w) w s) as (m & -> & Hm & Hmod); [lia|lia|nia|].
    exists m. split; [done|]. split; [done|]. rewrite Hmod.
    rewrite <- (Z_mod_plus_full n 1 w). f_equal. lia.
Qed.

Lemma modulo_ok fuel a b n v s :
  number_at (heap s) a n -> number_at (heap s) b v -> LONG_MIN <= n <= LONG_MAX ->
  v <> 0 -> LONG_MIN < v <= LONG_MAX ->
  - n <= Z.of_nat fuel * Z.abs v -> can_alloc 1 s ->
  modulo fuel a b s = ROk (g_free s)
    (with_cell (Cell TNUMBER 0 (if v <? 0 then - (n mod (- v)) else n mod v) []) s).
Proof.
  intros Ha Hb Hn Hv0 Hv Hf Hal. unfold modulo. run.
  destruct (Z.eqb_spec v 0); [lia|]. run. unfold LONG_MIN, LONG_MAX in *.
  destruct (Z.ltb_spec v 0).
  - run. erewrite bind_ok by (apply chk_long_ok; unfold in_long, LONG_MIN, LONG_MAX; lia). run.
    assert (to_u64 (- v) = - v) as -> by (apply to_u64_id; unfold two64; lia).
    destruct (modulo_loop_ok fuel n (- v) s) as (m & Hm & Hr & Hmod); [unfold LONG_MIN, LONG_MAX; lia..|].
    erewrite bind_ok by done. unfold LONG_MAX in Hr.
    assert (to_u64 m = m) as -> by (apply to_u64_id; unfold two64; lia).
    assert ((if m =? 0 then m else m mod - v) = n mod - v) as ->.
    { rewrite <- Hmod. destruct (Z.eqb_spec m 0) as [->|]; [by rewrite Z.mod_0_l by lia|done]. }
    pose proof (Z.mod_pos_bound n (- v) ltac:(lia)).
    rewrite to_s64_id by (unfold in_long, LONG_MIN, LONG_MAX; lia).
    erewrite bind_ok by (apply chk_long_ok; unfold in_long, LONG_MIN, LONG_MAX; lia).
    by apply make_number_s.
  - run. assert (to_u64 v = v) as -> by (apply to_u64_id; unfold two64; lia).
    destruct (modulo_loop_ok fuel n v s) as (m & Hm & Hr & Hmod); [unfold LONG_MIN, LONG_MAX; lia..|].
    erewrite bind_ok by done. unfold LONG_MAX in Hr.
    assert (to_u64 m = m) as -> by (apply to_u64_id; unfold two64; lia).
    assert ((if m =? 0 then m else m mod v) = n mod v) as ->.
    { rewrite <- Hmod. destruct (Z.eqb_spec m 0) as [->|]; [by rewrite Z.mod_0_l by lia|done]. }
    pose proof (Z.mod_pos_bound n v ltac:(lia)).
    rewrite to_s64_id by (unfold in_long, LONG_MIN, LONG_MAX; lia). run.
    by apply make_number_s.
Qed.

Lemma ash_ok n c a b s :
  number_at (heap s) a n -> number_at (heap s) b c -> LONG_MIN <= n <= LONG_MAX ->
  -63 <= c <= 63 -> can_alloc 1 s ->
  ash a b s = ROk (g_free s) (with_cell (Cell TNUMBER 0 (to_s64 (Z.shiftl n c)) []) s).
Proof.
  intros Ha Hb Hn Hc Hal. unfold ash. run. destruct (Z.ltb_spec c 0).
  - run. erewrite bind_ok by (apply chk_long_ok; unfold in_long, LONG_MIN, LONG_MAX; lia).
    destruct (Z.ltb_spec (- c) 64); [|lia]. run.
    assert (to_s64 (Z.shiftl n c) = Z.shiftr n (- c)) as ->; [|by apply make_number_s].
    rewrite <- Z.shiftl_opp_r, Z.opp_involutive. apply to_s64_id.
    rewrite <- (Z.opp_involutive c), Z.shiftl_opp_r, Z.shiftr_div_pow2 by lia.
    unfold in_long, LONG_MIN, LONG_MAX in *.
    assert (1 <= 2 ^ (- c)) by (pose proof (Z.pow_pos_nonneg 2 (- c)); lia).
    pose proof (Z_div_mod_eq_full n (2 ^ - c)). pose proof (Z.mod_pos_bound n (2 ^ - c) ltac:(lia)).
    nia.
  - destruct (Z.ltb_spec c 64); [|lia]. run. by apply make_number_s.
Qed.

(** a non-number in an ordered prefix *)
Lemma greater_loop_bad fuel : forall p n vs ns s bad c rest,
  list_at (heap s) p (vs ++ bad :: rest) -> Forall2 (number_at (heap s)) vs ns ->
  heap s !! bad = Some c -> c_ty c <> TNUMBER -> (length vs < fuel)%nat -> chain Z.gt (n :: ns) ->
  greater_loop fuel p n s = RThrow cell_symbol_not_a_number bad s.
Proof.
  induction fuel as [|fuel IH]; intros p n vs ns s bad c rest Hl Hf Hb Ht Hlen Hc; [lia|].
  cbn [greater_loop]. destruct vs as [|v vs]; cbn in Hl; inversion Hl as [|? ? d ? Hp Hpa Hl']; subst;
    rewrite (proj2 (Z.eqb_neq _ _) Hp).
  - run. unfold bind at 1. by erewrite assert_number_bad by done.
  - inversion Hf as [|? m ? ns' Hn Hf']; subst. run. apply chain_cons in Hc as [Hnm Hc].
    destruct (Z.leb_spec n m); [lia|]. run. eapply IH; try done. cbn in Hlen. lia.
Qed.
Lemma less_loop_bad fuel : forall p n vs ns s bad c rest,
  list_at (heap s) p (vs ++ bad :: rest) -> Forall2 (number_at (heap s)) vs ns ->
  heap s !! bad = Some c -> c_ty c <> TNUMBER -> (length vs < fuel)%nat -> chain Z.lt (n :: ns) ->
  less_loop fuel p n s = RThrow cell_symbol_not_a_number bad s.
Proof.
  induction fuel as [|fuel IH]; intros p n vs ns s bad c rest Hl Hf Hb Ht Hlen Hc; [lia|].
  cbn [less_loop]. destruct vs as [|v vs]; cbn in Hl; inversion Hl as [|? ? d ? Hp Hpa Hl']; subst;
    rewrite (proj2 (Z.eqb_neq _ _) Hp).
  - run. unfold bind at 1. by erewrite assert_number_bad by done.
  - inversion Hf as [|? m ? ns' Hn Hf']; subst. run. apply chain_cons in Hc as [Hnm Hc].
    destruct (Z.leb_spec m n); [lia|]. run. eapply IH; try done. cbn in Hlen. lia.
Qed.

Lemma order_type_error fuel p vs ns s bad c rest :
  list_at (heap s) p (vs ++ bad :: rest) -> Forall2 (number_at (heap s)) vs ns ->
  heap s !! bad = Some c -> c_ty c <> TNUMBER -> (length vs < fuel)%nat ->
  (chain Z.gt ns -> greater_p fuel p s = RThrow cell_symbol_not_a_number bad s) /\
  (chain Z.lt ns -> less_p fuel p s = RThrow cell_symbol_not_a_number bad s).
Proof.
  intros Hl Hf Hb Ht Hlen. unfold greater_p, less_p.
  destruct vs as [|v vs]; cbn in Hl; inversion Hl as [|? ? d ? Hp Hpa Hl']; subst;
    rewrite (proj2 (Z.eqb_neq _ _) Hp).
  - split; intros _; run; unfold bind at 1; by erewrite assert_number_bad by done.
  - inversion Hf as [|? m ? ns' Hn Hf']; subst. cbn in Hlen.
    split; intros Hc; run; [eapply greater_loop_bad|eapply less_loop_bad]; try done; lia.
Qed.

Lemma is_p_pair_value fuel p n c v x s : (1 <= fuel)%nat ->
  list_at (heap s) p [n; c] -> number_at (heap s) n v -> heap s !! c = Some x -> c_cdr x = v ->
  is_p fuel p s = ROk cell_t s.
Proof.
  intros Hfuel Hl Hn Hx Hv. inversion Hl as [|? ? d ? Hp Hpa Hl']; subst.
  inversion Hl' as [|? ? d' ? Hp' Hpa' Hl'']; subst. inversion Hl''; subst.
  unfold is_p. rewrite (proj2 (Z.eqb_neq _ _) Hp). run. destruct fuel as [|fuel]; [lia|]. cbn [is_loop].
  rewrite (proj2 (Z.eqb_neq _ _) Hp'). run. rewrite Z.eqb_refl. run. by destruct fuel.
Qed.

(** negative divisors *)
Lemma divide_neg fuel p n v s :
  numbers_at (heap s) p [n; v] -> (1 <= fuel)%nat ->
  LONG_MIN <= v < 0 -> LONG_MIN < n <= LONG_MAX -> can_alloc 1 s ->
  divide fuel p s = ROk (g_free s) (with_cell (Cell TNUMBER 0 0 []) s).
Proof.
  intros H Hf Hv Hn Ha. unfold divide. list_step H. list_step H. apply numbers_nil in H as ->.
  run. cbv zeta. cbn [fst snd]. unfold LONG_MIN, LONG_MAX in *.
  assert (forall sg u, 0 <= u < 9223372036854775808 -> exists sg',
            divide_loop fuel d sg u s = ROk (sg', 0) s) as Hloop.
  { intros sg u Hu. destruct fuel as [|fuel]; [lia|]. cbn [divide_loop].
    rewrite (proj2 (Z.eqb_neq _ _) Hne0). run. destruct (Z.eqb_spec v 0); [lia|]. run.
    destruct (Z.eqb_spec u 0) as [->|]; [by eexists|].
    assert (to_u64 v = v + two64) as ->.
    { unfold to_u64. rewrite <- (Z_mod_plus_full v 1 two64). rewrite Z.mod_small; unfold two64; lia. }
    unfold two64. destruct (Z.eqb_spec (v + 18446744073709551616) 1); [lia|]. run.
    rewrite Z.div_small by lia. destruct fuel; cbn; by eexists. }
  destruct (Z.ltb_spec n 0).
  - run. erewrite bind_ok by (apply chk_long_ok; unfold in_long, LONG_MIN, LONG_MAX; lia). run. cbn [fst snd].
    assert (to_u64 (- n) = - n) as -> by (apply to_u64_id; unfold two64; lia).
    destruct (Hloop true (- n) ltac:(lia)) as (sg & E). erewrite bind_ok by done. cbn [fst snd].
    destruct sg; cbn; by apply make_number_s.
  - run. cbn [fst snd].
    assert (to_u64 n = n) as -> by (apply to_u64_id; unfold two64; lia).
    destruct (Hloop false n ltac:(lia)) as (sg & E). erewrite bind_ok by done. cbn [fst snd].
    destruct sg; cbn; by apply make_number_s.
Qed.

(** plus, minus, multiply and the bit operations allocate one number *)
Lemma plus_ok fuel p ns s : numbers_at (heap s) p ns -> (length ns <= fuel)%nat ->
  prefixes_fit Z.add 0 ns -> can_alloc 1 s ->
  plus fuel p s = ROk (g_free s) (with_cell (Cell TNUMBER 0 (foldl Z.add 0 ns) []) s).
Proof.
  intros H Hf Hp Ha. unfold plus. erewrite bind_ok by by apply arith_loop_ok. by apply make_number_s.
Qed.
Lemma multiply_ok fuel p ns s : numbers_at (heap s) p ns -> (length ns <= fuel)%nat ->
  prefixes_fit Z.mul 1 ns -> can_alloc 1 s ->
  multiply fuel p s = ROk (g_free s) (with_cell (Cell TNUMBER 0 (foldl Z.mul 1 ns) []) s).
Proof.
  intros H Hf Hp Ha. unfold multiply. erewrite bind_ok by by apply arith_loop_ok. by apply make_number_s.
Qed.
Lemma minus_ok fuel p n ns s : numbers_at (heap s) p (n :: ns) -> (length ns <= fuel)%nat -> ns <> [] ->
  prefixes_fit Z.sub n ns -> can_alloc 1 s ->
  minus fuel p s = ROk (g_free s) (with_cell (Cell TNUMBER 0 (foldl Z.sub n ns) []) s).
Proof.
  intros H Hf Hne0 Hp Ha. unfold minus. apply numbers_cons in H as (_ & a & d & Hpa & Hn & H). run.
  destruct ns as [|m ns]; [done|].
  assert (d <> cell_nil) as Hd by by apply numbers_cons in H as (? & _).
  rewrite (proj2 (Z.eqb_neq _ _) Hd). run.
  erewrite bind_ok by by apply arith_loop_ok. by apply make_number_s.
Qed.
Lemma negate_ok fuel p n s : numbers_at (heap s) p [n] -> LONG_MIN < n <= LONG_MAX -> can_alloc 1 s ->
  minus fuel p s = ROk (g_free s) (with_cell (Cell TNUMBER 0 (- n) []) s).
Proof.
  intros H Hn Ha. unfold minus. apply numbers_cons in H as (_ & a & d & Hpa & Hv & H).
  apply numbers_nil in H as ->. run. rewrite Z.eqb_refl.
  erewrite bind_ok by (apply chk_long_ok; unfold in_long, LONG_MIN, LONG_MAX in *; lia).
  destruct fuel; cbn [num_loop]; rewrite Z.eqb_refl; run; by apply make_number_s.
Qed.
