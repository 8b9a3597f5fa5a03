(** The root-copying phase of gc_ (src/gc.c:636-647) and facts about reachability. *)
From stdpp Require Import base gmap list relations.
From Coq Require Import ZArith Lia.
From Coq Require Import ZifyBool ZifyNat.
From Verif Require Import CInt Symbols Heap HeapLemmas GcModel GcSpec GcCopy GcScan.
Open Scope Z_scope.
Open Scope mes_scope.

(** reachability only depends on the cells of live objects *)
Lemma reach_agree lo hi h h' roots :
  heap_ok lo hi h roots -> (forall q, lo <= q < hi -> h' !! q = h !! q) ->
  forall p, reach h roots p <-> reach h' roots p.
Proof.
  intros Hok Hag.
  assert (Hpt : forall p q, reach h roots p -> points_to h p q <-> points_to h' p q).
  { intros p q Hp. destruct (ok_obj _ _ _ _ Hok p Hp) as (c & Hc & Hw).
    pose proof (wf_range _ _ _ _ _ Hw) as Hr.
    assert (Hc' : h' !! p = Some c) by (rewrite Hag; done).
    split; intros H; inversion H as [? c' ? H1 H2| ? c' i e ? H1 H2 H3 H4 H5]; subst.
    - rewrite Hc in H1. injection H1 as <-. by eapply pt_cell.
    - rewrite Hc in H1. injection H1 as <-. destruct (wf_array _ _ _ _ _ Hw H2) as (?&?&?&_).
      eapply pt_elem; try done. by rewrite Hag by lia.
    - rewrite Hc' in H1. injection H1 as <-. by eapply pt_cell.
    - rewrite Hc' in H1. injection H1 as <-. destruct (wf_array _ _ _ _ _ Hw H2) as (?&?&?&_).
      eapply pt_elem; try done. by rewrite <- Hag by lia. }
  intros p. split.
  - intros (r & Hr & Hrp). exists r. split; [done|].
    revert p Hrp. apply rtc_ind_r; [done|]. intros p q Hrp Hpq IH.
    eapply rtc_r; [exact IH|]. apply Hpt; [|done]. by exists r.
  - intros (r & Hr & Hrp). revert p Hrp. apply rtc_ind_r; [by exists r|].
    intros p q Hrp Hpq (r' & Hr' & IH). exists r'. split; [done|]. eapply rtc_r; [done|].
    apply Hpt; [|done]. by exists r'.
Qed.

Lemma heap_ok_agree lo hi h h' roots :
  heap_ok lo hi h roots -> (forall q, lo <= q < hi -> h' !! q = h !! q) -> heap_ok lo hi h' roots.
Proof.
  intros Hok Hag. pose proof (reach_agree _ _ _ _ _ Hok Hag) as Hre.
  assert (Hsame : forall p, reach h' roots p -> exists c, h !! p = Some c /\ h' !! p = Some c /\ wf_obj lo hi h p c).
  { intros p Hp. apply Hre in Hp. destruct (ok_obj _ _ _ _ Hok p Hp) as (c & Hc & Hw).
    pose proof (wf_range _ _ _ _ _ Hw). exists c. split; [done|]. split; [|done]. by rewrite Hag. }
  constructor.
  - intros p Hp. destruct (Hsame p Hp) as (c & Hc & Hc' & [W1 W2 W3 W4]). exists c. split; [done|].
    constructor; try done. intros Ha. destruct (W3 Ha) as (?&?&?&?&H5). repeat split; try done.
    intros i Hi. destruct (H5 i Hi) as (e & He & ?). exists e. split; [|done]. rewrite Hag by lia. done.
  - intros p q c d a Hp Hq Hne Hc Hd.
    destruct (Hsame p Hp) as (c0 & Hc0 & Hc0' & _). destruct (Hsame q Hq) as (d0 & Hd0 & Hd0' & _).
    rewrite Hc0' in Hc. rewrite Hd0' in Hd. injection Hc as <-. injection Hd as <-.
    apply Hre in Hp, Hq. by eapply (ok_disj _ _ _ _ Hok p q).
Qed.

(** live objects fit into the region they are spread over *)
Definition addresses (p : Z) (c : cell) : list Z :=
  if is_array c then p :: seqZ (c_cdr c) (c_car c)
  else if is_bytes c then seqZ p (bytes_cells (c_car c)) else [p].

Lemma addresses_spec lo hi h p c : wf_obj lo hi h p c ->
  (forall a, a ∈ addresses p c -> occupies p c a /\ lo <= a < hi) /\ NoDup (addresses p c)
  /\ Z.of_nat (length (addresses p c)) = obj_size c.
Proof.
  intros [W1 W2 W3 W4]. unfold addresses, obj_size, occupies.
  destruct (is_array c) eqn:Ha.
  - destruct (W3 eq_refl) as (H1 & H2 & H3 & H4 & _). split; [|split].
    + intros a Ha'. apply elem_of_cons in Ha' as [->|Ha']; [split; [by left|lia]|].
      apply elem_of_seqZ in Ha'. split; [right; left; split; [done|lia]|lia].
    + apply NoDup_cons. split; [|apply NoDup_seqZ]. rewrite elem_of_seqZ. lia.
    + cbn [length]. rewrite seqZ_length. lia.
  - destruct (is_bytes c) eqn:Hb.
    + destruct (W4 eq_refl) as [H1 H2]. assert (2 <= bytes_cells (c_car c)) by (apply bytes_cells_pos; lia).
      split; [|split].
      * intros a Ha'. apply elem_of_seqZ in Ha'. split; [right; right; split; [done|lia]|lia].
      * apply NoDup_seqZ.
      * rewrite seqZ_length. lia.
    + split; [|split].
      * intros a Ha'. apply elem_of_list_singleton in Ha' as ->. split; [by left|lia].
      * apply NoDup_singleton.
      * done.
Qed.

Lemma total_size_bound lo hi h roots L :
  heap_ok lo hi h roots -> lo <= hi -> NoDup L -> (forall p, p ∈ L -> reach h roots p) ->
  total_size h L <= hi - lo.
Proof.
  intros Hok Hlh Hnd HL.
  set (A := L ≫= (fun p => addresses p (cell_at h p))).
  assert (HA : NoDup A /\ (forall a, a ∈ A -> lo <= a < hi) /\ Z.of_nat (length A) = total_size h L
    /\ forall a, a ∈ A -> exists p, p ∈ L /\ occupies p (cell_at h p) a).
  { subst A. induction Hnd as [|p L Hnin Hnd IH].
    - cbn. split; [constructor|]. split; [intros a Ha; by apply elem_of_nil in Ha|]. split; [done|].
      intros a Ha; by apply elem_of_nil in Ha.
    - destruct IH as (I1 & I2 & I3 & I4); [intros q Hq; apply HL; by constructor|].
      destruct (reach_cell _ _ _ _ Hok p) as [Hc Hw]; [apply HL; constructor|].
      destruct (addresses_spec _ _ _ _ _ Hw) as (A1 & A2 & A3).
      rewrite bind_cons. split; [|split; [|split]].
      + apply NoDup_app. split; [done|]. split; [|done]. intros a Ha Ha'.
        destruct (I4 a Ha') as (q & Hq & Hoq). destruct (A1 a Ha) as [Hop _].
        assert (Hq' : reach h roots q) by (apply HL; by constructor).
        destruct (reach_cell _ _ _ _ Hok q Hq') as [Hcq _].
        eapply (ok_disj _ _ _ _ Hok p q); [apply HL; constructor|done| |done|done|done|done].
        intros ->. done.
      + intros a Ha. apply elem_of_app in Ha as [Ha|Ha]; [by apply A1|by apply I2].
      + rewrite app_length, Nat2Z.inj_add, I3, A3. cbn [total_size foldr]. unfold size_at at 1. by rewrite Hc.
      + intros a Ha. apply elem_of_app in Ha as [Ha|Ha].
        * exists p. split; [constructor|]. by apply A1.
        * destruct (I4 a Ha) as (q & ? & ?). exists q. split; [by constructor|done]. }
  destruct HA as (H1 & H2 & H3 & _).
  assert (Hsub : A ⊆+ seqZ lo (hi - lo)).
  { apply NoDup_submseteq; [done|]. intros a Ha. apply elem_of_seqZ. apply H2 in Ha. lia. }
  apply submseteq_length in Hsub. rewrite seqZ_length in Hsub. lia.
Qed.

Section roots.
  Context (h0 : gmap Z cell) (roots : list Z) (lo hi base T : Z).
  Context (Hok : heap_ok lo hi h0 roots) (Hlo : 1 <= lo) (Hhi : hi <= base) (Hbase : 1 <= base).
  Context (HT : forall L, NoDup L -> (forall p, p ∈ L -> reach h0 roots p) -> total_size h0 L <= T).

  Notation sinv := (scan_inv h0 roots base).
  Notation top := (top h0 base).

  Lemma empty_inv h : (forall q, q < base -> h !! q = h0 !! q) -> sinv [] ∅ h [] [].
  Proof.
    intros Hh. constructor; [constructor|done|].
    - constructor.
    - intros p. rewrite lookup_empty, elem_of_nil. split; [done|by intros []].
    - intros L1 p L2 H. by destruct L1.
    - intros p H. by apply elem_of_nil in H.
    - intros q Hq _. by apply Hh.
    - intros q n H. by rewrite lookup_empty in H.
    - done.
    - constructor.
    - done.
    - intros c q H. by apply elem_of_nil in H.
  Qed.

  Lemma copy_root L φ h td p s : base + T <= limit s ->
    sinv L φ h [] td -> reach h0 roots p ->
    exists φ' h' n td', gc_copy p (upd h (top L) s) = ROk n (upd h' (top (add L p)) s)
      /\ φ' !! p = Some n /\ φ ⊆ φ' /\ sinv (add L p) φ' h' [] td'.
  Proof.
    intros Hfit [I Hl Hd] Hp.
    destruct (copy_inv h0 roots lo hi base Hok Hlo Hhi Hbase T s HT Hfit _ _ _ _ _ I Hp)
      as (φ' & h' & n & ext & Hrun & Hn & Hsub & I' & Hl').
    exists φ', h', n, (td ++ ext). split; [done|]. split; [done|]. split; [done|].
    constructor.
    - cbn. cbn in I'. done.
    - rewrite Hl', Hl. done.
    - intros c q H. by apply elem_of_nil in H.
  Qed.

  Lemma copy_symbols_ok n : forall k φ h td s, base + T <= limit s -> 0 <= k ->
    sinv (seqZ cell_nil k) φ h [] td ->
    (forall p, cell_nil <= p < cell_nil + k + Z.of_nat n -> reach h0 roots p) ->
    exists φ' h' td',
      copy_symbols n (cell_nil + k) (upd h (top (seqZ cell_nil k)) s)
        = ROk tt (upd h' (top (seqZ cell_nil (k + Z.of_nat n))) s)
      /\ φ ⊆ φ' /\ sinv (seqZ cell_nil (k + Z.of_nat n)) φ' h' [] td'.
  Proof.
    induction n as [|n IH]; intros k φ h td s Hfit Hk SI Hr.
    - exists φ, h, td. cbn [copy_symbols]. replace (k + Z.of_nat 0) with k by lia. done.
    - cbn [copy_symbols].
      destruct (copy_root _ _ _ _ (cell_nil + k) s Hfit SI) as (φ1 & h1 & m & td1 & Hrun & _ & Hsub & SI1).
      { apply Hr. lia. }
      assert (Hadd : add (seqZ cell_nil k) (cell_nil + k) = seqZ cell_nil (k + 1)).
      { unfold add. destruct (decide _) as [H|_]; [apply elem_of_seqZ in H; lia|].
        rewrite (seqZ_app cell_nil k 1) by lia. done. }
      rewrite Hadd in *. rewrite (bind_ok _ _ _ _ _ Hrun).
      destruct (IH (k + 1) φ1 h1 td1 s) as (φ2 & h2 & td2 & Hrun2 & Hsub2 & SI2); try done; try lia.
      { intros p Hp. apply Hr. lia. }
      exists φ2, h2, td2. replace (k + Z.of_nat (S n)) with (k + 1 + Z.of_nat n) by lia.
      split; [|split; [by etrans|done]]. rewrite <- Hrun2. f_equal. lia.
  Qed.

  Lemma stack_get_upd i h fr s v : 0 <= i < STACK_SIZE s -> g_stack_array s !! i = Some v ->
    stack_get i (upd h fr s) = ROk v (upd h fr s).
  Proof.
    intros Hi Hv. unfold stack_get. autorewrite with upd.
    destruct (Z.leb_spec 0 i), (Z.ltb_spec i (STACK_SIZE s)); try lia. cbn. by rewrite Hv.
  Qed.
  Lemma stack_set_upd i h fr s v : 0 <= i < STACK_SIZE s ->
    stack_set i v (upd h fr s) = ROk tt (upd h fr (set_g_stack_array (<[i:=v]> (g_stack_array s)) s)).
  Proof.
    intros Hi. unfold stack_set. autorewrite with upd.
    destruct (Z.leb_spec 0 i), (Z.ltb_spec i (STACK_SIZE s)); try lia. cbn. done.
  Qed.

  Lemma copy_stack_ok n : forall i L φ h td s, base + T <= limit s ->
    sinv L φ h [] td -> 0 <= i -> i + Z.of_nat n <= STACK_SIZE s ->
    (forall j, i <= j < i + Z.of_nat n -> exists v, g_stack_array s !! j = Some v /\ reach h0 roots v) ->
    exists L' φ' h' td' a',
      copy_stack_entries n i (upd h (top L) s) = ROk tt (upd h' (top L') (set_g_stack_array a' s))
      /\ L `prefix_of` L' /\ φ ⊆ φ' /\ sinv L' φ' h' [] td'
      /\ (forall j, i <= j < i + Z.of_nat n ->
            exists v m, g_stack_array s !! j = Some v /\ φ' !! v = Some m /\ a' !! j = Some m)
      /\ (forall j, j < i \/ i + Z.of_nat n <= j -> a' !! j = g_stack_array s !! j).
  Proof.
    induction n as [|n IH]; intros i L φ h td s Hfit SI Hi Hn Hj.
    - exists L, φ, h, td, (g_stack_array s). cbn. split; [by destruct s|]. split; [done|]. split; [done|].
      split; [done|]. split; [lia|done].
    - cbn [copy_stack_entries]. destruct (Hj i) as (v & Hv & Hrv); [lia|].
      erewrite bind_ok by (apply stack_get_upd; [lia|done]).
      destruct (copy_root _ _ _ _ v s Hfit SI Hrv) as (φ1 & h1 & m & td1 & Hrun & Hm & Hsub & SI1).
      rewrite (bind_ok _ _ _ _ _ Hrun).
      erewrite bind_ok by (apply stack_set_upd; lia).
      destruct (IH (i + 1) (add L v) φ1 h1 td1 (set_g_stack_array (<[i:=m]> (g_stack_array s)) s))
        as (L2 & φ2 & h2 & td2 & a2 & Hrun2 & Hpre2 & Hsub2 & SI2 & H1 & H2).
      + done.
      + done.
      + lia.
      + cbn. lia.
      + cbn. intros j Hj'. rewrite lookup_insert_ne by lia. apply Hj. lia.
      + exists L2, φ2, h2, td2, a2. cbn in H1, H2. split; [by rewrite Hrun2; destruct s|].
        split; [etrans; [apply add_prefix|done]|]. split; [by etrans|]. split; [done|]. split.
        * intros j Hj'. destruct (decide (j = i)) as [->|].
          -- exists v, m. split; [done|]. split; [by eapply lookup_weaken|].
             rewrite H2 by lia. by rewrite lookup_insert.
          -- destruct (H1 j) as (v' & m' & Hv' & ?); [lia|]. rewrite lookup_insert_ne in Hv' by lia. eauto.
        * intros j Hj'. rewrite H2 by lia. apply lookup_insert_ne. lia.
  Qed.
End roots.
