(** A whole collection: gc_ (src/gc.c:604-654) and gc (656-692). *)
From stdpp Require Import base gmap list relations.
From Coq Require Import ZArith Lia.
From Coq Require Import ZifyBool ZifyNat.
From Verif Require Import CInt Symbols Heap HeapLemmas GcModel GcSpec GcCopy GcScan GcFlip GcRoots.
Open Scope Z_scope.
Open Scope mes_scope.

Ltac rsteps := repeat first [rewrite bind_assoc | rewrite bind_gets | rewrite bind_get | rewrite bind_modify | rewrite bind_ret];
  autorewrite with upd.

(** * generic facts about faithful copies *)
Lemma same_cell_refs f c c' : same_cell f c c' -> cell_refs c' = f <$> cell_refs c.
Proof.
  intros (Ht & Hcar & Hcdr). unfold cell_refs. rewrite Ht, fmap_app. f_equal.
  - rewrite Hcar. by destruct (car_is_ref (c_ty c)).
  - destruct (cdr_is_ref (c_ty c)) eqn:E; [|done].
    rewrite Hcdr; [done| |].
    + destruct (is_array c) eqn:Ha; [|done]. unfold is_array in Ha.
      assert (c_ty c = TVECTOR \/ c_ty c = TSTRUCT) as [H|H] by lia; rewrite H in E; done.
    + destruct (is_bytes c) eqn:Ha; [|done]. unfold is_bytes in Ha.
      assert (c_ty c = TBYTES) as H by lia; rewrite H in E; done.
Qed.

Lemma bytes_not_array c : is_bytes c = true -> is_array c = false.
Proof.
  unfold is_bytes, is_array. intros H. assert (c_ty c = TBYTES) as -> by lia. done.
Qed.

Lemma same_cell_array f c c' : same_cell f c c' -> is_array c = true ->
  is_array c' = true /\ c_car c' = c_car c.
Proof.
  intros (Ht & Hcar & _) Ha. unfold is_array in *. rewrite Ht. split; [done|].
  rewrite Hcar. assert (c_ty c = TVECTOR \/ c_ty c = TSTRUCT) as [H|H] by lia; by rewrite H.
Qed.

Lemma same_object_points f h h' p q' : same_object f h h' p ->
  points_to h' (f p) q' <-> exists q, points_to h p q /\ q' = f q.
Proof.
  intros (c & c' & Hc & Hc' & Hs & _ & Harr). split.
  - intros H. inversion H as [? x ? H1 H2| ? x i e ? H1 H2 H3 H4 H5]; subst.
    + rewrite Hc' in H1. injection H1 as <-. rewrite (same_cell_refs _ _ _ Hs) in H2.
      apply elem_of_list_fmap in H2 as (q & -> & Hq). exists q. split; [by eapply pt_cell|done].
    + rewrite Hc' in H1. injection H1 as <-.
      assert (Ha : is_array c = true). { unfold is_array in *. destruct Hs as [Ht _]. by rewrite Ht in H2. }
      destruct (same_cell_array _ _ _ Hs Ha) as [_ Hcar]. rewrite Hcar in H3.
      destruct (Harr Ha i H3) as (e0 & e1 & He0 & He1 & Hse). rewrite He1 in H4. injection H4 as <-.
      rewrite (same_cell_refs _ _ _ Hse) in H5.
      apply elem_of_list_fmap in H5 as (q & -> & Hq). exists q. split; [by eapply pt_elem|done].
  - intros (q & H & ->). inversion H as [? x ? H1 H2| ? x i e ? H1 H2 H3 H4 H5]; subst.
    + rewrite Hc in H1. injection H1 as <-. eapply pt_cell; [done|].
      rewrite (same_cell_refs _ _ _ Hs). by apply elem_of_list_fmap_1.
    + rewrite Hc in H1. injection H1 as <-.
      destruct (same_cell_array _ _ _ Hs H2) as [Ha' Hcar].
      destruct (Harr H2 i H3) as (e0 & e1 & He0 & He1 & Hse). rewrite He0 in H4. injection H4 as <-.
      eapply pt_elem; [done|done|by rewrite Hcar|done|].
      rewrite (same_cell_refs _ _ _ Hse). by apply elem_of_list_fmap_1.
Qed.

Lemma reach_image f h h' (roots : list Z) :
  (forall p, reach h roots p -> same_object f h h' p) ->
  forall p', reach h' (f <$> roots) p' <-> exists p, reach h roots p /\ p' = f p.
Proof.
  intros Hso p'. split.
  - intros (r' & Hr' & Hrp). apply elem_of_list_fmap in Hr' as (r & -> & Hr).
    revert p' Hrp. apply rtc_ind_r.
    + exists r. split; [|done]. exists r. by split.
    + intros p' q' Hrp Hpq (p & Hp & ->).
      apply (same_object_points _ _ _ _ _ (Hso p Hp)) in Hpq as (q & Hq & ->).
      exists q. split; [|done]. by eapply reach_step.
  - intros (p & (r & Hr & Hrp) & ->). exists (f r). split; [by apply elem_of_list_fmap_1|].
    revert p Hrp. apply rtc_ind_r; [done|].
    intros p q Hrp Hpq IH. eapply rtc_r; [done|].
    apply (same_object_points f h h' p); [apply Hso; by exists r|]. eauto.
Qed.

(** * two members of the copying order occupy disjoint stretches *)
Lemma order_disj h L L1 p L2 M1 q M2 :
  (forall x, x ∈ L -> 0 <= size_at h x) ->
  L = L1 ++ p :: L2 -> L = M1 ++ q :: M2 -> p <> q ->
  total_size h L1 + size_at h p <= total_size h M1 \/ total_size h M1 + size_at h q <= total_size h L1.
Proof.
  intros Hpos. revert L1 M1. induction L as [|x L IH]; intros L1 M1 H1 H2 Hne; [by destruct L1|].
  assert (Hnn : forall K K', L = K ++ K' -> 0 <= total_size h K).
  { intros K K' HK. assert (HKp : forall y, y ∈ K -> 0 <= size_at h y).
    { intros y Hy. apply Hpos. constructor. rewrite HK. apply elem_of_app; by left. }
    clear -HKp. induction K as [|y K IHK]; [done|]. cbn [total_size foldr]. fold (total_size h K).
    assert (0 <= size_at h y) by (apply HKp; constructor).
    assert (0 <= total_size h K) by (apply IHK; intros z Hz; apply HKp; by constructor). unfold total_size in *. lia. }
  destruct L1 as [|y L1], M1 as [|z M1]; cbn [app] in *.
  - congruence.
  - left. injection H1 as E1 E2. injection H2 as E3 E4. subst z p.
    assert (0 <= total_size h M1) by by eapply Hnn. cbn [total_size foldr]. unfold total_size in *; cbn. lia.
  - right. injection H1 as E1 E2. injection H2 as E3 E4. subst y q.
    assert (0 <= total_size h L1) by by eapply Hnn. cbn [total_size foldr]. unfold total_size in *; cbn. lia.
  - injection H1 as E1 E2. injection H2 as E3 E4. subst y z.
    destruct (IH ltac:(intros y Hy; apply Hpos; by constructor) L1 M1 E2 E4 Hne); cbn [total_size foldr];
      unfold total_size in *; cbn; lia.
Qed.

(** * after the flip *)
Section final.
  Context (h0 : gmap Z cell) (roots : list Z) (lo hi base : Z).
  Context (Hok : heap_ok lo hi h0 roots) (Hlo : 1 <= lo) (Hhi : hi <= base) (Hbase : base = hi + 2).
  Context (L : list Z) (φ : gmap Z Z) (h : gmap Z cell).
  Context (SI : scan_inv h0 roots base L φ h (layout h0 base L) []).
  Context (Hroots : forall r, r ∈ roots -> r ∈ L).
  Context (h' : gmap Z cell) (dist : Z) (Hdist : dist = hi + 1 - lo) (Hlohi : lo <= hi).
  Context (Htl : tiled h' (lo + 1) (shift dist <$> (reloc φ <$> layout h0 base L))).

  Definition newaddr (p : Z) : Z := fwd φ p - dist.
  Let f := newaddr.

  Lemma L_reach p : p ∈ L <-> reach h0 roots p.
  Proof.
    split; [apply (i_reach _ _ _ _ _ _ _ (s_inv _ _ _ _ _ _ _ _ SI))|].
    intros (r & Hr & Hrp). revert p Hrp. apply rtc_ind_r; [by apply Hroots|].
    intros p q Hrp Hpq Hp. eapply (layout_closed h0 roots lo hi base Hok Hlo Hhi ltac:(lia) base L); try done.
    - apply (i_reach _ _ _ _ _ _ _ (s_inv _ _ _ _ _ _ _ _ SI)).
    - intros c x Hc Hx. by eapply (s_done _ _ _ _ _ _ _ _ SI).
  Qed.

  Lemma L_reach1 p : p ∈ L -> reach h0 roots p.
  Proof. apply L_reach. Qed.

  Lemma addr_split p : p ∈ L -> exists L1 L2, L = L1 ++ p :: L2 /\ φ !! p = Some (base + total_size h0 L1)
    /\ f p = lo + 1 + total_size h0 L1.
  Proof.
    intros Hp. apply elem_of_list_split in Hp as (L1 & L2 & HL). exists L1, L2. split; [done|].
    pose proof (i_addr _ _ _ _ _ _ _ (s_inv _ _ _ _ _ _ _ _ SI) L1 p L2 HL) as H.
    split; [done|]. unfold f, newaddr, fwd. rewrite H. cbn. lia.
  Qed.

  Lemma copied p : p ∈ L -> tiled h' (f p) (shift dist <$> (reloc φ <$> cells_of h0 (cell_at h0 p) (fwd φ p))).
  Proof.
    intros Hp. destruct (addr_split p Hp) as (L1 & L2 & HL & Hφ & Hf).
    pose proof Htl as Ht. rewrite HL, layout_app in Ht. cbn [layout] in Ht.
    rewrite !fmap_app in Ht. apply tiled_app in Ht as [_ Ht]. apply tiled_app in Ht as [Ht _].
    rewrite widths_shift, widths_reloc in Ht.
    rewrite (proj1 (layout_widths h0 roots lo hi Hok base L1
      ltac:(intros x Hx; apply L_reach; rewrite HL; apply elem_of_app; by left))) in Ht.
    rewrite Hf. unfold fwd. rewrite Hφ. cbn [default]. done.
  Qed.

  Lemma moved_array p i e : p ∈ L -> is_array (cell_at h0 p) = true ->
    h' !! f p = Some (Cell (c_ty (cell_at h0 p)) (c_car (cell_at h0 p)) (f p + 1) [])
    /\ (0 <= i < c_car (cell_at h0 p) -> h0 !! (c_cdr (cell_at h0 p) + i) = Some e ->
        h' !! (f p + 1 + i) = Some (shift dist (reloc φ (strip e)))).
  Proof.
    intros Hp Ha. pose proof (copied p Hp) as Ht. unfold cells_of in Ht. rewrite Ha in Ht.
    destruct (reach_cell h0 roots lo hi Hok p (L_reach1 p Hp)) as [Hc Hw].
    destruct (wf_array _ _ _ _ _ Hw Ha) as (H1 & H2 & H3 & H4 & Hel).
    assert (Hty : c_ty (cell_at h0 p) = TVECTOR \/ c_ty (cell_at h0 p) = TSTRUCT).
    { unfold is_array in Ha. lia. }
    rewrite !fmap_cons in Ht. cbn [tiled] in Ht. destruct Ht as [Hh Ht]. split.
    { rewrite Hh. unfold shift, reloc, f, newaddr. cbn.
      destruct Hty as [-> | ->]; cbn; do 2 f_equal; lia. }
    intros Hi He.
    rewrite width_shift, width_reloc in Ht.
    assert (width (Cell (c_ty (cell_at h0 p)) (c_car (cell_at h0 p)) (fwd φ p + 1) []) = 1) as Hw1.
    { unfold width; cbn. by destruct Hty as [-> | ->]. }
    rewrite Hw1 in Ht.
    assert (Hk : elements h0 (cell_at h0 p) !! Z.to_nat i = Some e) by by apply elements_lookup_2.
    set (es := elements h0 (cell_at h0 p)) in *.
    assert (Hes : es = take (Z.to_nat i) es ++ e :: drop (S (Z.to_nat i)) es) by (symmetry; by apply take_drop_middle).
    rewrite Hes in Ht. rewrite !fmap_app, !fmap_cons in Ht.
    apply tiled_lookup in Ht. rewrite widths_shift, widths_reloc, widths_ones in Ht.
    - rewrite fmap_length, take_length_le in Ht.
      + rewrite Z2Nat.id in Ht by lia. done.
      + apply lookup_lt_Some in Hk. lia.
    - apply Forall_fmap, Forall_take, Forall_forall. intros x Hx. apply elem_of_list_lookup in Hx as [k Hx].
      apply elements_lookup in Hx as [Hx Hlt]; [|intros j Hj; destruct (Hel j Hj) as (?&?&?); eauto].
      destruct (Hel (Z.of_nat k)) as (x' & Hx' & Hxt); [lia|]. rewrite Hx in Hx'. injection Hx' as <-.
      unfold width; cbn. destruct Hxt as [-> | [-> | ->]]; done.
  Qed.

  Lemma moved_bytes p : p ∈ L -> is_bytes (cell_at h0 p) = true ->
    h' !! f p = Some (cell_at h0 p).
  Proof.
    intros Hp Hb. pose proof (copied p Hp) as Ht. unfold cells_of in Ht.
    pose proof (bytes_not_array _ Hb) as Ha.
    rewrite Ha, Hb in Ht. cbn in Ht. destruct Ht as [Ht _]. rewrite Ht.
    unfold is_bytes in Hb. unfold shift, reloc; cbn.
    assert (c_ty (cell_at h0 p) = TBYTES) as Hty by lia. 
    destruct (cell_at h0 p); cbn in *. subst. done.
  Qed.

  Lemma moved_other p : p ∈ L -> is_array (cell_at h0 p) = false -> is_bytes (cell_at h0 p) = false ->
    h' !! f p = Some (shift dist (reloc φ (strip (cell_at h0 p)))).
  Proof.
    intros Hp Ha Hb. pose proof (copied p Hp) as Ht. unfold cells_of in Ht.
    rewrite Ha, Hb in Ht. cbn in Ht. apply Ht.
  Qed.

  Lemma shifted_same c :
    is_array c = false -> is_bytes c = false -> same_cell f c (shift dist (reloc φ (strip c))).
  Proof.
    intros Ha Hb. unfold same_cell, shift, reloc, strip, f, newaddr; cbn.
    rewrite <- !car_pointer_ref, <- !cdr_pointer_ref. unfold is_array, is_bytes in *.
    split; [done|]. split; [by destruct (car_pointer (c_ty c))|]. intros _ _.
    unfold cdr_shifted, cdr_pointer in *.
    destruct (c_ty c =? TBYTES) eqn:E1; [lia|].
    destruct (c_ty c =? TSTRUCT) eqn:E2; [lia|].
    destruct (c_ty c =? TVECTOR) eqn:E3; [lia|].
    destruct (c_ty c =? TCLOSURE), (c_ty c =? TCONTINUATION), (c_ty c =? TKEYWORD), (c_ty c =? TMACRO),
      (c_ty c =? TPAIR), (c_ty c =? TPORT), (c_ty c =? TSPECIAL), (c_ty c =? TSTRING), (c_ty c =? TSYMBOL),
      (c_ty c =? TVALUES); done.
  Qed.

  Lemma moved_same p : reach h0 roots p -> same_object f h0 h' p.
  Proof.
    intros Hr. pose proof (proj2 (L_reach p) Hr) as Hp.
    destruct (reach_cell h0 roots lo hi Hok p Hr) as [Hc Hw].
    exists (cell_at h0 p).
    destruct (is_array (cell_at h0 p)) eqn:Ha; [|destruct (is_bytes (cell_at h0 p)) eqn:Hb].
    - assert (Hty : c_ty (cell_at h0 p) = TVECTOR \/ c_ty (cell_at h0 p) = TSTRUCT).
      { unfold is_array in Ha. lia. }
      eexists. split; [done|]. split; [by apply (moved_array p 0 dummy)|]. split; [|split].
      + split; [done|]. cbn. split; [destruct Hty as [-> | ->]; done|]. by rewrite Ha.
      + unfold is_bytes. destruct Hty as [-> | ->]; done.
      + intros _ i Hi. destruct (wf_array _ _ _ _ _ Hw Ha) as (_ & _ & _ & _ & Hel).
        destruct (Hel i Hi) as (e & He & Hte). exists e. eexists. split; [done|].
        split; [cbn [c_cdr]; by apply (moved_array p i e)|].
        apply shifted_same; unfold is_array, is_bytes; by destruct Hte as [-> | [-> | ->]].
    - exists (cell_at h0 p). split; [done|]. split; [by apply moved_bytes|]. split; [|split].
      + split; [done|]. split; [|by rewrite Hb]. unfold is_bytes in Hb.
        assert (c_ty (cell_at h0 p) = TBYTES) as -> by lia. done.
      + done.
      + done.
    - eexists. split; [done|]. split; [by apply moved_other|]. split; [by apply shifted_same|]. done.
  Qed.

  Lemma moved_inj p q : reach h0 roots p -> reach h0 roots q -> f p = f q -> p = q.
  Proof.
    intros Hp Hq Hf. apply L_reach in Hp, Hq.
    destruct (decide (p = q)) as [|Hne]; [done|]. exfalso.
    destruct (addr_split p Hp) as (L1 & L2 & HL & _ & Hfp).
    destruct (addr_split q Hq) as (M1 & M2 & HM & _ & Hfq).
    assert (Hpos : forall x, x ∈ L -> 1 <= size_at h0 x).
    { intros x Hx. by apply (size_pos h0 roots lo hi Hok), L_reach. }
    pose proof (Hpos p Hp). pose proof (Hpos q Hq).
    destruct (order_disj h0 L L1 p L2 M1 q M2) as [H1|H1]; try done; [|lia|lia].
    intros x Hx. apply Hpos in Hx. lia.
  Qed.

  Definition newtop : Z := lo + 1 + total_size h0 L.

  Lemma moved_range p : p ∈ L -> lo + 1 <= f p /\ f p + size_at h0 p <= newtop.
  Proof.
    intros Hp. destruct (addr_split p Hp) as (L1 & L2 & HL & _ & Hfp).
    assert (Hnn : forall K, (forall x, x ∈ K -> x ∈ L) -> 0 <= total_size h0 K).
    { intros K HK. induction K as [|x K IHK]; [done|]. cbn [total_size foldr]. fold (total_size h0 K).
      assert (1 <= size_at h0 x) by (apply (size_pos h0 roots lo hi Hok), L_reach, HK; constructor).
      assert (0 <= total_size h0 K) by (apply IHK; intros z Hz; apply HK; by constructor). unfold total_size in *. lia. }
    assert (0 <= total_size h0 L1). { apply Hnn. intros x Hx. rewrite HL. apply elem_of_app; by left. }
    assert (0 <= total_size h0 L2). { apply Hnn. intros x Hx. rewrite HL. apply elem_of_app; right. by constructor. }
    unfold newtop. rewrite HL, total_size_app. cbn [total_size foldr]. unfold total_size in *. lia.
  Qed.

  Lemma moved_cell p c' : p ∈ L -> h' !! f p = Some c' ->
    c_ty c' = c_ty (cell_at h0 p)
    /\ (is_array c' = true -> c_car c' = c_car (cell_at h0 p) /\ c_cdr c' = f p + 1)
    /\ (is_bytes c' = true -> c' = cell_at h0 p)
    /\ obj_size c' = size_at h0 p.
  Proof.
    intros Hp Hc'. pose proof (proj1 (L_reach p) Hp) as Hr.
    destruct (reach_cell h0 roots lo hi Hok p Hr) as [Hc Hw].
    unfold size_at. rewrite Hc.
    destruct (is_array (cell_at h0 p)) eqn:Ha; [|destruct (is_bytes (cell_at h0 p)) eqn:Hb].
    - destruct (moved_array p 0 dummy Hp Ha) as [H _]. rewrite H in Hc'. injection Hc' as <-.
      cbn. split; [done|]. split; [done|]. split.
      + intros Hb. apply bytes_not_array in Hb. unfold is_array in *. cbn in Hb. congruence.
      + unfold obj_size, is_array in *; cbn. rewrite Ha. done.
    - rewrite (moved_bytes p Hp Hb) in Hc'. injection Hc' as <-. split; [done|]. split; [by rewrite Ha|]. done.
    - rewrite (moved_other p Hp Ha Hb) in Hc'. injection Hc' as <-. unfold obj_size, is_array, is_bytes in *. cbn.
      rewrite Ha, Hb. done.
  Qed.

  Lemma moved_occupies p c' a : p ∈ L -> h' !! f p = Some c' -> occupies (f p) c' a ->
    f p <= a < f p + size_at h0 p.
  Proof.
    intros Hp Hc' Ho. pose proof (proj1 (L_reach p) Hp) as Hr.
    pose proof (size_pos h0 roots lo hi Hok p Hr).
    destruct (moved_cell p c' Hp Hc') as (Ht & Harr & Hby & Hsz).
    destruct Ho as [->|[[Ha Ho]|[Hb Ho]]]; [lia| |].
    - destruct (Harr Ha) as [E1 E2]. unfold obj_size in Hsz. rewrite Ha in Hsz. lia.
    - unfold obj_size in Hsz. rewrite Hb, (bytes_not_array _ Hb) in Hsz. lia.
  Qed.

  Lemma moved_ok : heap_ok (lo + 1) newtop h' (f <$> roots).
  Proof.
    pose proof (reach_image f h0 h' roots moved_same) as Him. constructor.
    - intros p' Hp'. apply Him in Hp' as (p & Hr & ->). pose proof (proj2 (L_reach p) Hr) as Hp.
      destruct (reach_cell h0 roots lo hi Hok p Hr) as [Hc Hw].
      destruct (moved_same p Hr) as (c & c' & Hc0 & Hc' & Hs & Hsb & Hsa).
      rewrite Hc in Hc0. injection Hc0 as <-.
      exists c'. split; [done|].
      destruct (moved_cell p c' Hp Hc') as (Ht & Harr & Hby & Hsz).
      pose proof (moved_range p Hp). pose proof (size_pos h0 roots lo hi Hok p Hr).
      constructor.
      + lia.
      + rewrite Ht. apply (wf_type _ _ _ _ _ Hw).
      + intros Ha. destruct (Harr Ha) as [E1 E2].
        assert (Ha0 : is_array (cell_at h0 p) = true) by (unfold is_array in *; by rewrite Ht in Ha).
        destruct (wf_array _ _ _ _ _ Hw Ha0) as (H1 & _ & _ & _ & Hel).
        unfold obj_size in Hsz. rewrite Ha in Hsz.
        rewrite E1, E2. split; [lia|]. split; [lia|]. split; [lia|]. split; [lia|].
        intros i Hi. destruct (Hsa Ha0 i Hi) as (e & e' & He & He' & Hse). exists e'.
        rewrite E2 in He'. split; [done|]. destruct (Hel i Hi) as (e0 & He0 & Hte).
        rewrite He in He0. injection He0 as <-. unfold is_element in *. destruct Hse as [-> _]. done.
      + intros Hb. assert (c' = cell_at h0 p) as -> by by apply Hby.
        destruct (wf_bytes _ _ _ _ _ Hw Hb) as [H1 H2]. split; [done|].
        unfold obj_size in Hsz. rewrite Hb, (bytes_not_array _ Hb) in Hsz. lia.
    - intros p' q' c d a Hp' Hq' Hne Hc Hd Hoc Hod.
      apply Him in Hp' as (p & Hrp & ->). apply Him in Hq' as (q & Hrq & ->).
      pose proof (proj2 (L_reach p) Hrp) as Hp. pose proof (proj2 (L_reach q) Hrq) as Hq.
      apply (moved_occupies p) in Hoc; [|done|done]. apply (moved_occupies q) in Hod; [|done|done].
      destruct (addr_split p Hp) as (L1 & L2 & HL & _ & Hfp).
      destruct (addr_split q Hq) as (M1 & M2 & HM & _ & Hfq).
      destruct (order_disj h0 L L1 p L2 M1 q M2) as [H1|H1]; try done; [|congruence|lia|lia].
      intros x Hx. apply L_reach, (size_pos h0 roots lo hi Hok) in Hx. lia.
  Qed.
End final.
