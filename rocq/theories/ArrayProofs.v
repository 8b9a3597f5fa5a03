(** Proofs about vectors and structs. *)
From stdpp Require Import base gmap list.
From Coq Require Import ZArith Lia.
From Coq Require Import ZifyBool ZifyNat.
From Verif Require Import CInt Symbols Heap HeapLemmas DataModel DataSpec DataLemmas CoreProofs ListProofs.
Open Scope Z_scope.
Open Scope mes_scope.

Lemma other_mono h h' p : h ⊆ h' -> other h p -> other h' p.
Proof. intros Hs (c & Hc & Ht). exists c. split; [by eapply lookup_weaken|done]. Qed.
Lemma slot_at_mono h h' q sl : h ⊆ h' -> slot_at h q sl -> slot_at h' q sl.
Proof.
  intros Hs. destruct sl; cbn.
  - by apply number_at_mono.
  - intros [H ?]. split; [by eapply char_at_mono|done].
  - intros [(c & Hc & Ht) Ho]. split; [|by eapply other_mono]. exists c. split; [by eapply lookup_weaken|done].
Qed.
Lemma value_at_mono h h' q sl : h ⊆ h' -> value_at h q sl -> value_at h' q sl.
Proof.
  intros Hs. destruct sl; cbn.
  - by apply number_at_mono.
  - intros [H ?]. split; [by eapply char_at_mono|done].
  - intros [? Ho]. split; [done|by eapply other_mono].
Qed.
Lemma array_at_mono h h' t x v sls : h ⊆ h' -> array_at h t x v sls -> array_at h' t x v sls.
Proof.
  intros Hs [(c & Hc & Hr) Hsl]. split.
  - exists c. split; [by eapply lookup_weaken|done].
  - intros i sl Hi. eapply slot_at_mono; [done|]. by apply Hsl.
Qed.

(** what survives a modification *)
Lemma other_keep P k s s' p : modifies P k s s' -> ~ P p -> other (cells s) p -> other (cells s') p.
Proof. intros Hm HP (c & Hc & Ht). exists c. split; [by eapply modifies_old|done]. Qed.
Lemma value_at_keep P k s s' e sl : modifies P k s s' -> ~ P e -> value_at (cells s) e sl -> value_at (cells s') e sl.
Proof.
  intros Hm HP. destruct sl; cbn.
  - intros (c & Hc & Ht). exists c. split; [by eapply modifies_old|done].
  - intros [(c & Hc & Ht) ?]. split; [|done]. exists c. split; [by eapply modifies_old|done].
  - intros [<- Ho]. split; [done|]. by eapply other_keep.
Qed.
Lemma slot_at_keep P k s s' q sl : modifies P k s s' -> ~ P q -> (forall p, sl = SRef p -> ~ P p) ->
  slot_at (cells s) q sl -> slot_at (cells s') q sl.
Proof.
  intros Hm HP HR. destruct sl; cbn.
  - intros (c & Hc & Ht). exists c. split; [by eapply modifies_old|done].
  - intros [(c & Hc & Ht) ?]. split; [|done]. exists c. split; [by eapply modifies_old|done].
  - intros [(c & Hc & Ht) Ho]. split; [|eapply other_keep; [done|by apply HR|done]].
    exists c. split; [by eapply modifies_old|done].
Qed.
Lemma value_at_lt s e sl : value_at (cells s) e sl -> e < g_free s.
Proof.
  destruct sl; cbn; [intros (c & Hc & _)|intros [(c & Hc & _) _]|intros [-> (c & Hc & _)]];
    by apply cells_heap in Hc as [_ ?].
Qed.
Lemma value_at_type h e sl : value_at h e sl -> exists c, h !! e = Some c /\
  match sl with SNum _ => c_ty c = TNUMBER | SChar _ => c_ty c = TCHAR | SRef _ => c_ty c ∉ [TNUMBER; TCHAR; TREF] end.
Proof.
  destruct sl; cbn; [intros (c & Hc & ? & _)|intros [(c & Hc & ? & _) _]|intros [-> (c & Hc & ?)]]; by exists c.
Qed.

Lemma not_num_char c : c_ty c ∉ [TNUMBER; TCHAR; TREF] -> (c_ty c =? TCHAR) = false /\ (c_ty c =? TNUMBER) = false /\ (c_ty c =? TREF) = false.
Proof.
  intros H. repeat split; apply Z.eqb_neq; intros E; apply H; rewrite E; set_solver.
Qed.

(** storing an element *)
Lemma set_entry_ok v i e sl s : value_at (cells s) e sl -> can_alloc 1 s -> 1 <= v + i < g_free s -> e <> v + i ->
  exists s' k, set_entry v i e s = ROk tt s' /\ k <= 1 /\ modifies (eq (v + i)) k s s' /\ slot_at (cells s') (v + i) sl.
Proof.
  intros Hv Ha Hr Hne. unfold set_entry, vector_entry, cell_ref.
  destruct (value_at_type _ _ _ Hv) as (c & Hc & Ht). pose proof (cells_heap _ _ _ Hc) as [Hh Hlt].
  assert (limit s >= g_free s + 1) as Hlim by (unfold can_alloc in Ha; lia).
  destruct sl as [n|n|p]; cbn in Hv.
  - eexists _, 0. split.
    { run. rewrite Ht. cbn [negb andb]. change (TNUMBER =? TCHAR) with false. rewrite Z.eqb_refl. cbn [negb andb]. run.
      eapply copy_cell_s; [exact Hh|lia]. }
    split; [lia|]. split; [apply modifies_put|].
    eexists. rewrite cells_put by lia.  rewrite lookup_insert. split; [done|]. split; [done|].
    destruct Hv as (c' & Hc' & _ & <-). cbn. congruence.
  - eexists _, 0. split.
    { run. rewrite Ht. rewrite Z.eqb_refl. cbn [negb andb]. run.
      eapply copy_cell_s; [exact Hh|lia]. }
    split; [lia|]. split; [apply modifies_put|]. destruct Hv as [Hv Hi]. split; [|done].
    eexists. rewrite cells_put by lia.  rewrite lookup_insert. split; [done|]. split; [done|].
    destruct Hv as (c' & Hc' & _ & <-). cbn. congruence.
  - destruct Hv as [<- Ho]. apply not_num_char in Ht as (T1 & T2 & T3). eexists _, 1. split.
    { run. rewrite T1, T2. cbn [negb andb]. unfold make_ref.
      erewrite bind_ok by by apply make_cell_s.
      eapply copy_cell_s; [cbn; apply lookup_insert|cbn; lia]. }
    split; [lia|].
    assert (modifies (eq (v + i)) (1 + 0) s (put (v + i) (Cell TREF e 0 []) (with_cell (Cell TREF e 0 []) s))) as Hm.
    { eapply modifies_trans; [|apply modifies_put|done]. eapply modifies_weaken; [|apply modifies_with_cell]. intros ? ? []. }
    split; [exact Hm|]. split.
    + eexists. rewrite cells_put by (cbn; lia).  rewrite lookup_insert. done.
    + eapply other_keep; [exact Hm|congruence|done].
Qed.

Lemma array_keep_slots P k s s' v sls : modifies P k s s' ->
  (forall i sl, sls !! i = Some sl -> slot_at (cells s) (v + Z.of_nat i) sl) ->
  (forall i, (i < length sls)%nat -> ~ P (v + Z.of_nat i)) ->
  (forall p, SRef p ∈ sls -> ~ P p) ->
  (forall i sl, sls !! i = Some sl -> slot_at (cells s') (v + Z.of_nat i) sl).
Proof.
  intros Hm Hs H1 H2 i sl Hi. eapply slot_at_keep; [done|apply H1; by eapply lookup_lt_Some| |by apply Hs].
  intros p ->. apply H2. by eapply elem_of_list_lookup_2.
Qed.

Lemma fill_loop_ok n : forall v i e sl s, value_at (cells s) e sl -> can_alloc (Z.of_nat n) s ->
  1 <= v + i -> v + i + Z.of_nat n <= g_free s -> ~ (v + i <= e < v + i + Z.of_nat n) ->
  exists s' k, fill_loop n v i e s = ROk tt s' /\ k <= Z.of_nat n /\
    modifies (fun q => v + i <= q < v + i + Z.of_nat n) k s s' /\
    (forall j sl', replicate n sl !! j = Some sl' -> slot_at (cells s') (v + i + Z.of_nat j) sl').
Proof.
  induction n as [|n IH]; intros v i e sl s Hv Ha H1 H2 H3; cbn [fill_loop].
  { exists s, 0. split; [done|]. split; [lia|]. split; [apply modifies_refl|]. intros j sl' Hj. cbn in Hj. by rewrite lookup_nil in Hj. }
  destruct (set_entry_ok v i e sl s Hv) as (s1 & k1 & E1 & Hk1 & Hm1 & Hs1); [eapply can_alloc_le; [done|lia]|lia|lia|].
  pose proof (mod_size _ _ _ _ Hm1) as Hk0. pose proof (mod_free _ _ _ _ Hm1) as Hf1.
  destruct (IH v (i + 1) e sl s1) as (s2 & k2 & E2 & Hk2 & Hm2 & Hs2).
  { eapply value_at_keep; [done| |done]. lia. }
  { eapply modifies_can_alloc; [done|eapply can_alloc_le; [done|lia]|lia]. }
  { lia. } { lia. } { lia. }
  exists s2, (k1 + k2). split; [by erewrite bind_ok by exact E1|]. split; [lia|]. split.
  { eapply modifies_trans; [eapply modifies_weaken; [|exact Hm1]|exact Hm2|]; cbn; intros; lia. }
  intros [|j] sl' Hj; cbn in Hj.
  - injection Hj as <-. rewrite Z.add_0_r. eapply slot_at_keep; [done|cbn; lia| |done]. cbn. intros p ->.
    destruct Hv as [<- _]. lia.
  - replace (v + i + Z.of_nat (S j)) with (v + (i + 1) + Z.of_nat j) by lia. by apply Hs2.
Qed.

Lemma modifies_alloc n s : 0 <= n -> modifies nothing n s (set_g_free (g_free s + n) s).
Proof. intros Hn. split; [done|done|done|]. exists (heap s). by destruct s. Qed.

(** reserving the header and [k] element cells *)
Lemma alloc_array k t s : 0 <= k -> can_alloc (1 + k) s ->
  exists s1, (x <- alloc 1 ;; v <- alloc k ;; wr x (Cell t k v []) ;;; ret (x, v)) s = ROk (g_free s, g_free s + 1) s1 /\
    modifies nothing (1 + k) s s1 /\ cells s1 !! g_free s = Some (Cell t k (g_free s + 1) []).
Proof.
  intros Hk (A1 & A2 & A3). eexists. split.
  { erewrite bind_ok by (apply alloc_s; lia). erewrite bind_ok by (apply alloc_s; cbn; lia).
    erewrite bind_ok by (apply wr_s; cbn; lia). done. }
  split.
  - rewrite <- (Z.add_0_r (1 + k)). eapply modifies_trans with (Q := eq (g_free s)); [|apply modifies_put|].
    + eapply modifies_trans; [apply (modifies_alloc 1); lia|by apply (modifies_alloc k)|done].
    + cbn. intros p Hp <-. lia.
  - rewrite cells_put by (cbn; lia). cbn. by rewrite lookup_insert.
Qed.

Lemma make_vector_ok k e sl s : 0 <= k -> value_at (cells s) e sl -> can_alloc (1 + 2 * k) s ->
  exists s' kk, make_vector_ k e s = ROk (g_free s) s' /\ kk <= 1 + 2 * k /\ modifies nothing kk s s' /\
    array_at (cells s') TVECTOR (g_free s) (g_free s + 1) (replicate (Z.to_nat k) sl).
Proof.
  intros Hk Hv Ha. pose proof Ha as (A1 & A2 & A3). pose proof (value_at_lt _ _ _ Hv).
  destruct (alloc_array k TVECTOR s Hk) as (s1 & E1 & Hm1 & Hx); [eapply can_alloc_le; [done|lia]|].
  pose proof (mod_free _ _ _ _ Hm1) as Hf1.
  destruct (fill_loop_ok (Z.to_nat k) (g_free s + 1) 0 e sl s1) as (s2 & k2 & E2 & Hk2 & Hm2 & Hs2).
  { eapply value_at_mono; [by eapply modifies_cells|done]. }
  { eapply modifies_can_alloc; [done|eapply can_alloc_le; [done|lia]|lia]. }
  { lia. } { lia. } { lia. }
  exists s2, (1 + k + k2). split.
  { unfold make_vector_. revert E1. unfold bind. destruct (alloc 1 s) as [x sa| | | |]; try discriminate.
    destruct (alloc k sa) as [v sb| | | |]; try discriminate. destruct (wr x _ sb) as [[] sc| | | |]; try discriminate.
    unfold ret. intros [= -> -> ->]. by rewrite E2. }
  split; [lia|]. split; [eapply modifies_trans; [done|done|cbn; intros; lia]|]. split.
  - eexists. split; [eapply modifies_old; [exact Hm2|exact Hx|cbn; lia]|]. rewrite replicate_length. cbn. split; [done|lia].
  - intros i sl' Hi. apply Hs2 in Hi. by rewrite Z.add_0_r in Hi.
Qed.

Lemma car_ok p a d s : pair_at (heap s) p a d -> car p s = ROk a s.
Proof. intros (c & Hc & Ht & <- & <-). unfold car. run. by rewrite Ht, Z.eqb_refl. Qed.
Lemma cdr_ok p a d s : pair_at (heap s) p a d -> cdr p s = ROk d s.
Proof. intros (c & Hc & Ht & <- & <-). unfold cdr. run. by rewrite Ht, Z.eqb_refl. Qed.

(** filling consecutive element cells from a list *)
Lemma l2v_loop_ok es : forall fuel p x ps sls s, seg (cells s) x cell_nil ps es -> Forall2 (value_at (cells s)) es sls ->
  (length es <= fuel)%nat -> can_alloc (Z.of_nat (length es)) s ->
  1 <= p -> p + Z.of_nat (length es) <= g_free s -> (forall q, q ∈ ps -> q < p) -> (forall e, e ∈ es -> e < p) ->
  exists s' k, l2v_loop fuel p x s = ROk tt s' /\ k <= Z.of_nat (length es) /\
    modifies (fun q => p <= q < p + Z.of_nat (length es)) k s s' /\
    (forall j sl, sls !! j = Some sl -> slot_at (cells s') (p + Z.of_nat j) sl).
Proof.
  induction es as [|e es IH]; intros fuel p x ps sls s Hs Hv Hf Ha H1 H2 Hps Hes;
    inversion Hs as [|? ? a d ps' vs' Hp Hpa Hl]; subst; inversion Hv as [|? sl ? sls' Hve Hvr]; subst.
  { exists s, 0. split. { destruct fuel; cbn [l2v_loop]; by rewrite Z.eqb_refl. }
    split; [cbn; lia|]. split; [apply modifies_refl|]. intros j sl Hj. by rewrite lookup_nil in Hj. }
  cbn [length] in *. destruct fuel as [|fuel]; [lia|]. cbn [l2v_loop]. rewrite (proj2 (Z.eqb_neq _ _) Hp).
  destruct (set_entry_ok p 0 e sl s Hve) as (s1 & k1 & E1 & Hk1 & Hm1 & Hs1).
  { eapply can_alloc_le; [done|lia]. } { lia. } { specialize (Hes e ltac:(constructor)). lia. }
  rewrite Z.add_0_r in Hs1, Hm1. pose proof (mod_size _ _ _ _ Hm1). pose proof (mod_free _ _ _ _ Hm1).
  assert (forall q, q < p -> q < g_free s) as Hlt by (intros; lia).
  destruct (IH fuel (p + 1) d ps' sls' s1) as (s2 & k2 & E2 & Hk2 & Hm2 & Hs2).
  { eapply seg_agree; [|exact Hl]. intros q Hq. specialize (Hps q ltac:(by constructor)).
    eapply modifies_cells_eq; [exact Hm1|lia|lia]. }
  { apply Forall2_same_length_lookup_2; [by eapply Forall2_length|]. intros i y z Hy Hz.
    eapply value_at_keep; [exact Hm1| |by eapply (Forall2_lookup_lr _ _ _ _ _ _ Hvr)].
    assert (y ∈ e :: es) as Hin by (constructor; by eapply elem_of_list_lookup_2). specialize (Hes y Hin). lia. }
  { lia. } { eapply modifies_can_alloc; [done|eapply can_alloc_le; [done|lia]|lia]. }
  { lia. } { lia. }
  { intros q Hq. specialize (Hps q ltac:(by constructor)). lia. }
  { intros q Hq. specialize (Hes q ltac:(by constructor)). lia. }
  exists s2, (k1 + k2). split.
  { erewrite bind_ok by (eapply car_ok, pair_at_heap; done). unfold set_entry in E1.
    rewrite <- bind_assoc. unfold cell_ref in E1. rewrite Z.add_0_r in E1. erewrite bind_ok by exact E1.
    erewrite bind_ok. 2:{ eapply cdr_ok, pair_at_heap. destruct Hpa as (c & Hc & Hcr). exists c. split; [|done].
      eapply modifies_old; [exact Hm1|done|]. specialize (Hps x ltac:(constructor)). lia. }
    exact E2. }
  split; [lia|]. split.
  { eapply modifies_trans; [eapply modifies_weaken; [|exact Hm1]|exact Hm2|]; cbn; intros; lia. }
  intros [|j] sl' Hj; cbn in Hj.
  - injection Hj as <-. rewrite Z.add_0_r. eapply slot_at_keep; [done|cbn; lia| |done]. cbn. intros q ->.
    destruct Hve as [<- _]. specialize (Hes e ltac:(constructor)). lia.
  - replace (p + Z.of_nat (S j)) with (p + 1 + Z.of_nat j) by lia. by apply Hs2.
Qed.

Lemma unspecified_ok (s : state) : type_at (cells s) cell_unspecified TSPECIAL -> value_at (cells s) cell_unspecified (SRef cell_unspecified).
Proof. intros (c & Hc & Ht). split; [done|]. exists c. split; [done|]. rewrite Ht. intros H. repeat (apply elem_of_cons in H as [H|H]; [discriminate H|]). by apply elem_of_nil in H. Qed.

Lemma seg_lt s p q ps vs x : seg (cells s) p q ps vs -> x ∈ ps -> x < g_free s.
Proof. intros H Hx. destruct (seg_elem _ _ _ _ _ _ H Hx) as (a & d & Hp & _). by eapply pair_at_lt. Qed.

Lemma list_to_vector_any fuel x es sls s : list_at (cells s) x es -> Forall2 (value_at (cells s)) es sls ->
  (length es <= fuel)%nat -> can_alloc (1 + 3 * Z.of_nat (length es)) s -> value_at (cells s) cell_unspecified (SRef cell_unspecified) ->
  exists s' k, list_to_vector fuel x s = ROk (g_free s) s' /\ k <= 1 + 3 * Z.of_nat (length es) /\ modifies nothing k s s' /\
    array_at (cells s') TVECTOR (g_free s) (g_free s + 1) sls.
Proof.
  intros Hl Hv Hf Ha Hu. unfold list_to_vector. erewrite bind_ok by (eapply length__ok; [by apply list_at_heap|done]).
  destruct (make_vector_ok (Z.of_nat (length es)) cell_unspecified _ s ltac:(lia) Hu) as (s1 & k1 & E1 & Hk1 & Hm1 & (c & Hc & Ht & Hlen & Hvec) & Hsl).
  { eapply can_alloc_le; [done|lia]. }
  erewrite bind_ok by exact E1. apply seg_list in Hl as (ps & Hs).
  rewrite replicate_length in Hlen.
  pose proof (mod_free _ _ _ _ Hm1) as Hf1. pose proof Ha as (A1 & A2 & A3).
  pose proof (modifies_cells _ _ _ Hm1) as Hsub. pose proof (cells_heap _ _ _ Hc) as [Hch Hclt].
  assert (g_free s + 1 + Z.of_nat (length es) <= g_free s1) as Hbound.
  { destruct (decide (length es = 0%nat)) as [->|Hn]; [lia|].
    destruct (Hsl (Nat.pred (length es)) (SRef cell_unspecified)) as [(c' & Hc' & _) _].
    { rewrite Nat2Z.id. apply lookup_replicate. split; [done|lia]. }
    apply cells_heap in Hc' as [_ Hlt]. lia. }
  destruct (l2v_loop_ok es fuel (g_free s + 1) x ps sls s1) as (s2 & k2 & E2 & Hk2 & Hm2 & Hs2).
  { by eapply seg_mono. }
  { eapply Forall2_impl; [done|]. intros e sl. by apply value_at_mono. }
  { done. } { eapply modifies_can_alloc; [done|eapply can_alloc_le; [done|lia]|lia]. } { lia. } { lia. }
  { intros q Hq. pose proof (seg_lt _ _ _ _ _ _ Hs Hq). lia. }
  { intros e He. apply elem_of_list_lookup in He as (i & Hi).
    destruct (Forall2_lookup_l _ _ _ _ _ Hv Hi) as (sl & _ & Hve). pose proof (value_at_lt _ _ _ Hve). lia. }
  exists s2, (k1 + k2). split.
  { run. rewrite Hvec. erewrite bind_ok by exact E2. done. }
  split; [lia|]. split; [eapply modifies_trans; [done|done|cbn; intros; lia]|]. split; [|done].
  exists c. split; [eapply modifies_old; [exact Hm2|done|cbn; lia]|]. split; [done|]. split; [|done].
  rewrite (Forall2_length _ _ _ Hv) in Hlen. lia.
Qed.
Lemma list_to_vector_ok fuel x es sls s : list_at (cells s) x es -> Forall2 (value_at (cells s)) es sls ->
  (length es <= fuel)%nat -> can_alloc (1 + 3 * Z.of_nat (length es)) s -> type_at (cells s) cell_unspecified TSPECIAL ->
  exists s' k, list_to_vector fuel x s = ROk (g_free s) s' /\ k <= 1 + 3 * Z.of_nat (length es) /\ modifies nothing k s s' /\
    array_at (cells s') TVECTOR (g_free s) (g_free s + 1) sls.
Proof. intros Hl Hv Hf Ha Hu. by apply list_to_vector_any with (es := es); [..|apply unspecified_ok]. Qed.

(** reading an element *)
Lemma get_entry_ok v i sl s : slot_at (heap s) (v + i) sl -> can_alloc 1 s ->
  exists r s', get_entry v i s = ROk r s' /\ extends s s' /\
    (value_at (heap s') r sl) /\ (forall p, sl = SRef p -> s' = s).
Proof.
  intros Hs Ha. unfold get_entry, deref, cell_ref. destruct sl as [n|n|p]; cbn in Hs.
  - destruct Hs as (c & Hc & Ht & Hn). eexists _, _. split.
    { run. rewrite Ht. change (TNUMBER =? TREF) with false. run. rewrite Ht. change (TNUMBER =? TCHAR) with false. run.
      rewrite Ht, Z.eqb_refl. apply make_cell_s. done. }
    split; [apply extends_with_cell|]. split; [|done]. eexists. cbn. rewrite lookup_insert. done.
  - destruct Hs as [(c & Hc & Ht & Hn) Hi]. eexists _, _. split.
    { run. rewrite Ht. change (TCHAR =? TREF) with false. run. rewrite Ht, Z.eqb_refl. run.
      erewrite bind_ok by (by apply make_cell_s). erewrite bind_ok by (apply rd_ok'; cbn; apply lookup_insert).
      cbn [c_ty]. change (TCHAR =? TNUMBER) with false. done. }
    split; [apply extends_with_cell|]. split; [|done]. split; [|done]. eexists. cbn. rewrite lookup_insert.
    split; [done|]. split; [done|]. cbn. rewrite Hn. by apply to_s32_id.
  - destruct Hs as [(c & Hc & Ht & <-) (c' & Hc' & Ht')]. apply not_num_char in Ht' as (T1 & T2 & T3).
    exists (c_car c), s. split.
    { run. rewrite Ht, Z.eqb_refl. run. rewrite T1. run. rewrite T2. done. }
    split; [apply extends_refl|]. split; [|done]. split; [done|]. exists c'. split; [done|].
    apply Z.eqb_neq in T1, T2, T3. set_solver.
Qed.

(** vector->list *)
Definition elem_of_slot (v : Z) (i : nat) (sl : slot) : Z := match sl with SRef p => p | _ => v + Z.of_nat i end.
Lemma deref_slot v i sl s : slot_at (heap s) (v + Z.of_nat i) sl -> deref (v + Z.of_nat i) s = ROk (elem_of_slot v i sl) s.
Proof.
  unfold deref. destruct sl as [n|n|p]; cbn.
  - intros (c & Hc & Ht & _). run. rewrite Ht. done.
  - intros [(c & Hc & Ht & _) _]. run. rewrite Ht. done.
  - intros [(c & Hc & Ht & <-) _]. run. rewrite Ht. done.
Qed.
Lemma elem_value h v i sl : slot_at h (v + Z.of_nat i) sl -> value_at h (elem_of_slot v i sl) sl.
Proof. destruct sl; cbn; [done|done|]. by intros [_ H]. Qed.
Lemma v2l_loop_ok n : forall v x sls s, (forall i sl, sls !! i = Some sl -> slot_at (cells s) (v + Z.of_nat i) sl) ->
  n = length sls -> can_alloc (Z.of_nat n) s -> cell_nil < g_free s ->
  exists r s' ps, v2l_loop n v x s = ROk r s' /\ modifies nothing (Z.of_nat n) s s' /\
    seg (cells s') r x ps (imap (elem_of_slot v) sls).
Proof.
  induction n as [|n IH]; intros v x sls s Hs Hn Ha Hnil; cbn [v2l_loop].
  { destruct sls; [|done]. exists x, s, []. split; [done|]. split; [apply modifies_refl|constructor]. }
  destruct sls as [|sl sls _] using rev_ind; [done|]. rewrite app_length in Hn. cbn [length] in Hn.
  assert (n = length sls) as Hn' by lia.
  assert (slot_at (cells s) (v + Z.of_nat n) sl) as Hsl.
  { apply Hs. rewrite Hn'. by apply list_lookup_middle. }
  unfold cell_ref. erewrite bind_ok by (apply deref_slot; eapply slot_at_mono; [apply cells_sub|done]).
  erewrite bind_ok by (apply cons_s; eapply can_alloc_le; [done|lia]).
  set (s1 := with_cell _ s). assert (modifies nothing 1 s s1) as Hm1 by apply modifies_with_cell.
  destruct (IH v (g_free s) sls s1) as (r & s2 & ps & E & Hm2 & Hseg).
  { intros i sl' Hi. eapply slot_at_mono; [by eapply modifies_cells|]. apply Hs.
    rewrite lookup_app_l; [done|]. by eapply lookup_lt_Some. }
  { done. } { eapply modifies_can_alloc; [done|eapply can_alloc_le; [done|lia]|lia]. } { cbn. lia. }
  exists r, s2, (ps ++ [g_free s]). split; [done|]. split.
  { replace (Z.of_nat (S n)) with (1 + Z.of_nat n) by lia. by eapply modifies_trans. }
  rewrite imap_app. eapply seg_app; [done|]. cbn. rewrite Nat.add_0_r, <- Hn'. econstructor; [lia| |constructor].
  eapply pair_at_mono; [by eapply modifies_cells|]. apply pair_with_cell.
Qed.
Lemma vector_to_list_ok x v sls s : array_at (cells s) TVECTOR x v sls -> can_alloc (Z.of_nat (length sls)) s ->
  cell_nil < g_free s ->
  exists r s' es, vector_to_list x s = ROk r s' /\ modifies nothing (Z.of_nat (length sls)) s s' /\
    list_at (cells s') r es /\ Forall2 (value_at (cells s')) es sls.
Proof.
  intros [(c & Hc & Ht & Hl & <-) Hs] Ha Hnil. unfold vector_to_list. pose proof (cells_heap _ _ _ Hc) as [Hch _].
  destruct (v2l_loop_ok (length sls) (c_cdr c) cell_nil sls s Hs eq_refl Ha Hnil) as (r & s' & ps & E & Hm & Hseg).
  exists r, s', (imap (elem_of_slot (c_cdr c)) sls). split.
  { run. rewrite Hl. destruct (Z.ltb_spec (Z.of_nat (length sls)) 0); [lia|]. by rewrite Nat2Z.id. }
  split; [done|]. split; [apply seg_list; by exists ps|].
  apply Forall2_same_length_lookup_2; [by rewrite imap_length|]. intros i e sl He Hi.
  rewrite list_lookup_imap, Hi in He. injection He as <-. apply elem_value.
  eapply slot_at_mono; [by eapply modifies_cells|]. by apply Hs.
Qed.

(** make-struct *)
Lemma struct_loop_ok es : forall v i x ps sls s, seg (cells s) x cell_nil ps es -> Forall2 (value_at (cells s)) es sls ->
  can_alloc (Z.of_nat (length es)) s ->
  1 <= v + i -> v + i + Z.of_nat (length es) <= g_free s -> (forall q, q ∈ ps -> q < v) -> (forall e, e ∈ es -> e < v) -> 0 <= i ->
  exists s' k, struct_loop (length es) v i x s = ROk tt s' /\ k <= Z.of_nat (length es) /\
    modifies (fun q => v + i <= q < v + i + Z.of_nat (length es)) k s s' /\
    (forall j sl, sls !! j = Some sl -> slot_at (cells s') (v + i + Z.of_nat j) sl).
Proof.
  induction es as [|e es IH]; intros v i x ps sls s Hs Hv Ha H1 H2 Hps Hes Hi;
    inversion Hs as [|? ? a d ps' vs' Hp Hpa Hl]; subst; inversion Hv as [|? sl ? sls' Hve Hvr]; subst.
  { exists s, 0. split; [done|].
    split; [cbn; lia|]. split; [apply modifies_refl|]. intros j sl Hj. by rewrite lookup_nil in Hj. }
  cbn [length struct_loop] in *.
  destruct (set_entry_ok v i e sl s Hve) as (s1 & k1 & E1 & Hk1 & Hm1 & Hs1).
  { eapply can_alloc_le; [done|lia]. } { lia. } { specialize (Hes e ltac:(constructor)). lia. }
  pose proof (mod_size _ _ _ _ Hm1). pose proof (mod_free _ _ _ _ Hm1).
  destruct (IH v (i + 1) d ps' sls' s1) as (s2 & k2 & E2 & Hk2 & Hm2 & Hs2).
  { eapply seg_agree; [|exact Hl]. intros q Hq. specialize (Hps q ltac:(by constructor)).
    eapply modifies_cells_eq; [exact Hm1|lia|lia]. }
  { apply Forall2_same_length_lookup_2; [by eapply Forall2_length|]. intros j y z Hy Hz.
    eapply value_at_keep; [exact Hm1| |by eapply (Forall2_lookup_lr _ _ _ _ _ _ Hvr)].
    assert (y ∈ e :: es) as Hin by (constructor; by eapply elem_of_list_lookup_2). specialize (Hes y Hin). lia. }
  { eapply modifies_can_alloc; [done|eapply can_alloc_le; [done|lia]|lia]. }
  { lia. } { lia. }
  { intros q Hq. specialize (Hps q ltac:(by constructor)). lia. }
  { intros q Hq. specialize (Hes q ltac:(by constructor)). lia. }
  { lia. }
  exists s2, (k1 + k2). split.
  { rewrite (proj2 (Z.eqb_neq _ _) Hp). destruct Hpa as (c & Hc & _ & Hca & Hcd). apply cells_heap in Hc as [Hc _].
    run. cbn [fst snd]. rewrite Hca, Hcd. erewrite bind_ok by exact E1. exact E2. }
  split; [lia|]. split.
  { eapply modifies_trans; [eapply modifies_weaken; [|exact Hm1]|exact Hm2|]; cbn; intros; lia. }
  intros [|j] sl' Hj; cbn in Hj.
  - injection Hj as <-. rewrite Z.add_0_r. eapply slot_at_keep; [done|cbn; lia| |done]. cbn. intros q ->.
    destruct Hve as [<- _]. specialize (Hes e ltac:(constructor)). lia.
  - replace (v + i + Z.of_nat (S j)) with (v + (i + 1) + Z.of_nat j) by lia. by apply Hs2.
Qed.

Lemma make_struct_ok fuel type printer x es st sp sls s :
  value_at (cells s) type st -> value_at (cells s) printer sp ->
  list_at (cells s) x es -> Forall2 (value_at (cells s)) es sls -> (length es <= fuel)%nat ->
  can_alloc (5 + 2 * Z.of_nat (length es)) s ->
  exists s' k, make_struct fuel type x printer s = ROk (g_free s) s' /\ k <= 5 + 2 * Z.of_nat (length es) /\
    modifies nothing k s s' /\ array_at (cells s') TSTRUCT (g_free s) (g_free s + 1) (st :: sp :: sls).
Proof.
  intros Ht Hpr Hl Hv Hf Ha. unfold make_struct. erewrite bind_ok by (eapply length__ok; [by apply list_at_heap|done]).
  cbv zeta. set (n := Z.of_nat (length es)) in *. pose proof Ha as (A1 & A2 & A3).
  destruct (alloc_array (2 + n) TSTRUCT s ltac:(lia)) as (s1 & E1 & Hm1 & Hx); [eapply can_alloc_le; [done|lia]|].
  pose proof (mod_free _ _ _ _ Hm1) as Hf1. pose proof (modifies_cells _ _ _ Hm1) as Hsub.
  pose proof (value_at_lt _ _ _ Ht). pose proof (value_at_lt _ _ _ Hpr).
  destruct (set_entry_ok (g_free s + 1) 0 type st s1) as (s2 & k2 & E2 & Hk2 & Hm2 & Hs2).
  { by eapply value_at_mono. } { eapply modifies_can_alloc; [done|eapply can_alloc_le; [done|lia]|lia]. } { lia. } { lia. }
  pose proof (mod_size _ _ _ _ Hm2). pose proof (mod_free _ _ _ _ Hm2).
  destruct (set_entry_ok (g_free s + 1) 1 printer sp s2) as (s3 & k3 & E3 & Hk3 & Hm3 & Hs3).
  { eapply value_at_keep; [exact Hm2|lia|]. by eapply value_at_mono. }
  { eapply modifies_can_alloc; [exact Hm2|eapply modifies_can_alloc; [exact Hm1|eapply can_alloc_le; [done|lia]|lia]|lia]. } { lia. } { lia. }
  pose proof (mod_size _ _ _ _ Hm3). pose proof (mod_free _ _ _ _ Hm3).
  assert (modifies (fun q => g_free s + 1 <= q < g_free s + 3) (k2 + k3) s1 s3) as Hm23.
  { eapply modifies_trans; [eapply modifies_weaken; [|exact Hm2]|exact Hm3|]; cbn; intros; lia. }
  apply seg_list in Hl as (ps & Hseg).
  destruct (struct_loop_ok es (g_free s + 1) 2 x ps sls s3) as (s4 & k4 & E4 & Hk4 & Hm4 & Hs4).
  { eapply seg_agree; [|eapply seg_mono; [exact Hsub|exact Hseg]]. intros q Hq. pose proof (seg_lt _ _ _ _ _ _ Hseg Hq).
    eapply modifies_cells_eq; [exact Hm23|lia|cbn; lia]. }
  { apply Forall2_same_length_lookup_2; [by eapply Forall2_length|]. intros j y z Hy Hz.
    pose proof (Forall2_lookup_lr _ _ _ _ _ _ Hv Hy Hz) as Hyz. pose proof (value_at_lt _ _ _ Hyz).
    eapply value_at_keep; [exact Hm23|cbn; lia|]. by eapply value_at_mono. }
  { eapply modifies_can_alloc; [exact Hm23|eapply modifies_can_alloc; [exact Hm1|eapply can_alloc_le; [done|lia]|lia]|lia]. }
  { lia. } { lia. }
  { intros q Hq. pose proof (seg_lt _ _ _ _ _ _ Hseg Hq). lia. }
  { intros e He. apply elem_of_list_lookup in He as (i & Hi).
    destruct (Forall2_lookup_l _ _ _ _ _ Hv Hi) as (sl & _ & Hve). pose proof (value_at_lt _ _ _ Hve). lia. }
  { lia. }
  exists s4, (2 + n + 1 + (k2 + k3) + k4). split.
  { revert E1. unfold bind at 1 2 3. intros E1. unfold bind at 1.
    destruct (alloc 1 s) as [x0 sa| | | |]; try discriminate. unfold bind at 1.
    destruct (alloc (2 + n) sa) as [v sb| | | |]; try discriminate. unfold bind at 1. destruct (wr x0 _ sb) as [[] sc| | | |]; try discriminate.
    unfold ret in E1. injection E1 as -> -> ->. erewrite bind_ok by exact E2. erewrite bind_ok by exact E3.
    replace (Z.to_nat (2 + n - 2)) with (length es) by lia. erewrite bind_ok by exact E4. done. }
  split; [lia|]. split.
  { eapply modifies_trans; [|exact Hm4|cbn; intros; lia]. eapply modifies_trans; [|exact Hm23|cbn; intros; lia].
    replace (2 + n + 1) with (1 + (2 + n)) by lia. done. }
  split.
  - eexists. split.
    { eapply modifies_old; [exact Hm4| |cbn; lia]. eapply modifies_old; [exact Hm23|exact Hx|cbn; lia]. }
    cbn [length]. rewrite <- (Forall2_length _ _ _ Hv). cbn. split; [done|]. split; [lia|done].
  - intros [|[|i]] sl Hi; cbn in Hi.
    + injection Hi as <-. change (Z.of_nat 0) with 0. eapply slot_at_keep; [exact Hm4|cbn; lia| |].
      { intros p ->. destruct Ht as [<- _]. cbn. lia. }
      eapply slot_at_keep; [exact Hm3|cbn; lia| |done]. intros p ->. destruct Ht as [<- _]. lia.
    + injection Hi as <-. change (Z.of_nat 1) with 1. eapply slot_at_keep; [exact Hm4|cbn; lia| |done].
      intros p ->. destruct Hpr as [<- _]. cbn. lia.
    + apply Hs4 in Hi. by replace (g_free s + 1 + Z.of_nat (S (S i))) with (g_free s + 1 + 2 + Z.of_nat i) by lia.
Qed.

(** an update of one element *)
Lemma array_set_ok t x v sls (i : nat) e sl s :
  array_at (cells s) t x v sls -> t <> TNUMBER -> t <> TCHAR -> t <> TREF -> in_arena s ->
  (i < length sls)%nat -> value_at (cells s) e sl -> can_alloc 1 s ->
  ~ (v <= e < v + Z.of_nat (length sls)) ->
  exists s' k, set_entry v (Z.of_nat i) e s = ROk tt s' /\ k <= 1 /\ modifies (eq (v + Z.of_nat i)) k s s' /\
    array_at (cells s') t x v (<[i := sl]> sls).
Proof.
  intros [(c & Hc & Ht & Hlen & Hvec) Hsl] T1 T2 T3 Hin Hi Hv Ha Hout.
  destruct (lookup_lt_is_Some_2 sls i Hi) as (old & Hold). pose proof (Hsl _ _ Hold) as Hq.
  assert (exists cq, cells s !! (v + Z.of_nat i) = Some cq /\ (c_ty cq = TNUMBER \/ c_ty cq = TCHAR \/ c_ty cq = TREF)) as (cq & Hcq & Htq).
  { destruct old; cbn in Hq; [destruct Hq as (cq & ? & ? & _)|destruct Hq as [(cq & ? & ? & _) _]|destruct Hq as [(cq & ? & ? & _) _]];
      exists cq; auto. }
  pose proof (cells_heap _ _ _ Hcq) as [Hqh Hqlt].
  destruct (set_entry_ok v (Z.of_nat i) e sl s Hv Ha) as (s' & k & E & Hk & Hm & Hs').
  { apply Hin in Hqh. lia. } { lia. }
  exists s', k. split; [done|]. split; [done|]. split; [done|]. split.
  - exists c. split; [|by rewrite insert_length]. eapply modifies_old; [done|done|]. intros E'. rewrite E' in Hcq.
    rewrite Hc in Hcq. injection Hcq as <-. destruct Htq as [?|[?|?]]; congruence.
  - intros j sl' Hj. destruct (decide (i = j)) as [<-|Hne].
    + rewrite list_lookup_insert in Hj by done. by injection Hj as <-.
    + rewrite list_lookup_insert_ne in Hj by done. eapply slot_at_keep; [done|lia| |by apply Hsl].
      intros p -> E'. specialize (Hsl _ _ Hj). destruct Hsl as [_ (cp & Hcp & Htp)]. rewrite <- E', Hcq in Hcp.
      injection Hcp as <-. apply not_num_char in Htp as (N1 & N2 & N3). destruct Htq as [F|[F|F]]; rewrite F, Z.eqb_refl in *; done.
Qed.
