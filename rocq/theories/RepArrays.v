(** Vectors, seen through [rep]: making one, changing an element, reading an element. *)
From stdpp Require Import base gmap list fin_maps.
From Coq Require Import ZArith Lia.
From Coq Require Import ZifyBool ZifyNat.
From Verif Require Import CInt Symbols Heap HeapLemmas GcModel GcSpec DataModel DataSpec DataLemmas CoreProofs ArrayProofs StackModel Rep RepProofs.
Open Scope Z_scope. Open Scope mes_scope.

(** what an element of an array becomes when the object [j] is stored *)
Definition aentry (σ : gmap id obj) (j : id) : aslot :=
  match σ !! j with
  | Some (OCell t _ (WInt n)) => if t =? TNUMBER then ANum n else if t =? TCHAR then AChar n else ARef j
  | _ => ARef j
  end.

(** a call takes at most [k] cells and leaves the sizes alone *)
Definition grows (k : Z) (s s' : state) : Prop :=
  g_free s' <= g_free s + k /\ limit s' = limit s /\ ARENA_SIZE s' = ARENA_SIZE s /\ g_cells s' = g_cells s
  /\ MAX_STRING s' = MAX_STRING s /\ g_stack s' = g_stack s.
Lemma grows_refl k s : 0 <= k -> grows k s s.
Proof. intros Hk. split; [lia|done]. Qed.
Lemma grows_trans k k' s s1 s' : grows k s s1 -> grows k' s1 s' -> grows (k + k') s s'.
Proof. intros (H1 & H2 & H3 & H4 & H5 & H6) (G1 & G2 & G3 & G4 & G5 & G6). split; [lia|]. repeat split; congruence. Qed.
Lemma grows_modifies P k s s' : modifies P k s s' -> grows k s s'.
Proof. intros [H1 H2 H3 (h & ->)]. split; [lia|done]. Qed.
Lemma grows_le k k' s s' : grows k s s' -> k <= k' -> grows k' s s'.
Proof. intros (H1 & H2) Hk. split; [lia|done]. Qed.

Ltac grows_same := split; [cbn; lia|done].

Lemma rep_new f M s s' k i o p c : rep f M s -> modifies nothing k s s' -> can_alloc k s -> m_heap M !! i = None ->
  heap s' !! p = Some c -> obj_at f (heap s') o p -> wf_obj cell_nil (g_free s') (heap s') p c ->
  (forall a, occupies p c a -> g_free s <= a) ->
  rep (add_id f i p) (new_obj i o M) s'.
Proof.
  intros R Hm Ha Hi Hc Ho Hw Hocc. pose proof (rep_extends _ _ _ _ _ R Hm Ha) as R'.
  assert (forall j p', f j p' -> add_id f i p j p') as Hle by (intros; by left).
  destruct Hm as [H1 H2 H3 (h & ->)]. cbn in *.
  split; cbn; try apply R'; try (apply Hle; apply R').
  - eapply (rep_heap_new f _ s); [apply R|done|done|cbn; lia| |done|exact Hc|exact Ho|exact Hw|exact Hocc].
    intros q Hq. cbn. apply H3; [lia|intros []].
  - intros n j Hn. destruct (rp_stk _ _ _ R _ _ Hn) as (q & Hq & Hj). exists q. split; [done|by apply Hle].
  - eapply Forall2_impl; [apply R|done].
Qed.


(** a new array *)
Definition slot_as (f : idmap) (e : aslot) (sl : slot) : Prop :=
  match e, sl with
  | ANum n, SNum n' => n = n'
  | AChar n, SChar n' => n = n'
  | ARef j, SRef q => f j q
  | _, _ => False
  end.
Lemma rep_new_array f M s s' kk i es sls : rep f M s -> modifies nothing kk s s' -> can_alloc kk s -> m_heap M !! i = None ->
  array_at (cells s') TVECTOR (g_free s) (g_free s + 1) sls -> Forall2 (slot_as f) es sls ->
  rep (add_id f i (g_free s)) (new_obj i (OArr TVECTOR es) M) s'.
Proof.
  intros R Hm Ha Hi ((x & Hx & Hxt & Hxl & Hxv) & Hsl) He. pose proof Ha as (A1 & A2 & A3).
  pose proof (rp_cells _ _ _ R) as Hcl. pose proof (rp_free _ _ _ R) as Hfr. pose proof (Forall2_length _ _ _ He) as El.
  pose proof (mod_size _ _ _ _ Hm). pose proof (mod_free _ _ _ _ Hm) as Hf.
  apply cells_heap in Hx as [Hx Hxlt]. pose proof Hm as [_ _ _ (h & Es')].
  assert (g_cells s' = g_cells s) as Hcc by (by rewrite Es').
  assert (forall n sl, sls !! n = Some sl -> exists c, heap s' !! (g_free s + 1 + Z.of_nat n) = Some c /\ is_element c /\
    (forall e, slot_as f e sl -> slot_rel f e c) /\ g_free s + 1 + Z.of_nat n < g_free s') as Hel.
  { intros n sl Hn. specialize (Hsl _ _ Hn). unfold is_element. destruct sl as [m|m|p]; cbn in Hsl.
    - destruct Hsl as (c & Hc & Ht & Hd). apply cells_heap in Hc as [Hc Hlt]. exists c. split; [done|]. split; [tauto|]. split; [|done]. intros [] Hs; cbn in Hs; try done. subst. done.
    - destruct Hsl as [(c & Hc & Ht & Hd) _]. apply cells_heap in Hc as [Hc Hlt]. exists c. split; [done|]. split; [tauto|]. split; [|done]. intros [] Hs; cbn in Hs; try done. subst. done.
    - destruct Hsl as [(c & Hc & Ht & Hd) _]. apply cells_heap in Hc as [Hc Hlt]. exists c. split; [done|]. split; [tauto|]. split; [|done]. intros [] Hs; cbn in Hs; try done. subst. done. }
  assert (g_free s + 1 + Z.of_nat (length sls) <= g_free s') as Hbound.
  { destruct (decide (length sls = 0%nat)) as [->|Hn]; [lia|]. destruct (lookup_lt_is_Some_2 sls (Nat.pred (length sls)) ltac:(lia)) as [sl Hsl'].
    destruct (Hel _ _ Hsl') as (_ & _ & _ & _ & ?). lia. }
  eapply (rep_new f M s s' kk _ _ _ x); [exact R|exact Hm|done|done|exact Hx| | |].
  - exists x. split; [done|]. split; [done|]. split; [by left|]. split; [lia|].
    intros n w Hw. destruct (Forall2_lookup_l _ _ _ _ _ He Hw) as (sl & Hs & Hws). destruct (Hel _ _ Hs) as (c & Hc & _ & Hr & _). rewrite Hxv. exists c. split; [done|by apply Hr].
  - split; [lia|by rewrite Hxt| |].
    + intros _. rewrite Hxl, Hxv. do 3 (split; [lia|]). split; [lia|]. intros n Hn. destruct (lookup_lt_is_Some_2 sls (Z.to_nat n) ltac:(lia)) as [sl Hs].
      destruct (Hel _ _ Hs) as (c & Hc & Hie & _). exists c. rewrite Z2Nat.id in Hc by lia. done.
    + unfold GcSpec.is_bytes. rewrite Hxt. done.
  - intros a [->|[[_ Hr]|[Eb _]]]; [lia|rewrite Hxv in Hr; lia|]. unfold GcSpec.is_bytes in Eb. by rewrite Hxt in Eb.
Qed.

Lemma rep_make_vector f M s i k : rep f M s -> can_alloc (1 + 2 * Z.of_nat k) s -> m_heap M !! i = None ->
  exists s', make_vector_ (Z.of_nat k) cell_unspecified s = ROk (g_free s) s' /\ grows (1 + 2 * Z.of_nat k) s s'
    /\ rep (add_id f i (g_free s)) (new_obj i (OArr TVECTOR (replicate k (ARef (Imp cell_unspecified)))) M) s'.
Proof.
  intros R Ha Hi. pose proof Ha as (A1 & A2 & A3).
  pose proof (rep_const _ _ _ cell_unspecified R ltac:(done)) as Hu.
  destruct (rp_constants _ _ _ R) as [[C1 C2] C3].
  destruct (C2 cell_unspecified) as (c & Hc & Ht). { unfold cell_nil, cell_unspecified, cell_symbol_test in *. lia. }
  destruct (make_vector_ok (Z.of_nat k) cell_unspecified (SRef cell_unspecified) s) as (s' & kk & E & Hk & Hm & Harr).
  { lia. } { split; [done|]. exists c. split; [apply heap_cells; [done|by apply (rep_range _ _ _ _ _ R Hu)]|].
    intros Hin. repeat (apply elem_of_cons in Hin as [Hin|Hin]; [rewrite Hin in Ht; destruct Ht; discriminate|]). by apply elem_of_nil in Hin. }
  { done. }
  exists s'. split; [done|]. split; [by eapply grows_le, Hk; eapply grows_modifies|].
  eapply rep_new_array; [done|done|by eapply can_alloc_le|done|exact Harr|]. rewrite Nat2Z.id. by apply Forall2_replicate.
Qed.


(** changing an element of an array *)
Lemma rep_put_slot f M s i p t es c k w x : rep f M s -> f i p ->
  m_heap M !! i = Some (OArr t es) -> heap s !! p = Some c -> (forall n, i <> Imp n) -> (k < length es)%nat ->
  slot_rel f w x ->
  rep f (new_obj i (OArr t (<[k := w]> es)) M) (put (c_cdr c + Z.of_nat k) x s).
Proof.
  intros R Hi Ho Hc Hni Hk Hw. pose proof (rp_heap _ _ _ R) as RH.
  destruct (rh_obj _ _ _ RH _ _ Hi) as (o & Ho' & Hat). rewrite Ho in Ho'. injection Ho' as <-.
  destruct Hat as (c0 & Hc0 & Ht & Htt & Hl & Hes). rewrite Hc in Hc0. injection Hc0 as <-.
  destruct (rh_wf _ _ _ RH _ _ Hi) as (c0 & Hc0 & W). rewrite Hc in Hc0. injection Hc0 as <-.
  assert (is_array c = true) as Harr by (unfold is_array; lia).
  destruct (wf_array _ _ _ _ _ W Harr) as (B1 & B2 & B3 & B4 & B5).
  set (a := c_cdr c + Z.of_nat k).
  assert (occupies p c a) as Hocc by (right; left; split; [done|unfold a; lia]).
  assert (p <> a) as Hpa by (unfold a; lia).
  assert (forall j q c', f j q -> q <> p -> heap s !! q = Some c' -> forall ad, occupies q c' ad -> <[a := x]> (heap s) !! ad = heap s !! ad) as Hold.
  { intros j q c' Hj Hne Hc' ad Had. rewrite lookup_insert_ne; [done|]. intros <-.
    by eapply (rh_disj _ _ _ RH j i q p c' c a). }
  assert (forall j q, f j q -> q <> a) as Hqa.
  { intros j q Hj ->. destruct (rh_wf _ _ _ RH _ _ Hj) as (c' & Hc' & _). eapply (rh_disj _ _ _ RH j i a p c' c a); try done. by left. }
  assert (forall j q, f j q -> j <> i -> q <> p) as Hqp.
  { intros j q Hj Hne ->. by apply Hne, (rh_inj _ _ _ RH _ _ _ Hj Hi). }
  assert (is_element x) as Hx by (unfold is_element; destruct w; cbn in Hw; tauto).
  split; cbn; try apply R.
  - split.
    + apply RH.
    + apply RH.
    + apply RH.
    + intros j q Hj. destruct (decide (j = i)) as [->|Hne].
      * rewrite (rh_fun _ _ _ RH _ _ _ Hj Hi). eexists. cbn. rewrite lookup_insert. split; [done|]. cbn.
        exists c. fold a. rewrite lookup_insert_ne by done. do 3 (split; [done|]). rewrite insert_length. split; [done|].
        intros n w' Hw'. destruct (decide (n = k)) as [->|Hnk].
        -- rewrite list_lookup_insert in Hw' by done. injection Hw' as <-. exists x. by rewrite lookup_insert.
        -- rewrite list_lookup_insert_ne in Hw' by done. rewrite lookup_insert_ne by (unfold a; lia). by apply Hes.
      * destruct (rh_obj _ _ _ RH _ _ Hj) as (o & Ho' & Hat). exists o. cbn. rewrite lookup_insert_ne by done. split; [done|].
        eapply obj_at_agree; [done|]. intros c' ad Hc' Had. fold a. eapply (Hold j q); try done. by eapply Hqp.
    + intros j q Hj. cbn. fold a. rewrite lookup_insert_ne by (apply not_eq_sym; by eapply Hqa). destruct (decide (j = i)) as [->|Hne].
      * rewrite (rh_fun _ _ _ RH _ _ _ Hj Hi). exists c. split; [done|]. destruct W as [W1 W2 _ W4]. split; [done|done| |done].
        intros _. do 4 (split; [done|]). intros n Hn. destruct (decide (n = Z.of_nat k)) as [->|Hnk].
        -- exists x. unfold a. by rewrite lookup_insert.
        -- rewrite lookup_insert_ne by (unfold a; lia). by apply B5.
      * destruct (rh_wf _ _ _ RH _ _ Hj) as (c' & Hc' & W'). exists c'. split; [done|].
        eapply wf_obj_agree; [done|lia|]. eapply (Hold j q); try done. by eapply Hqp.
    + intros j j' q r c1 c2 ad Hj Hj' Hne. cbn. fold a.
      rewrite !lookup_insert_ne by (apply not_eq_sym; by eapply Hqa). by apply (rh_disj _ _ _ RH j j' q r c1 c2 ad).
  - destruct (rp_arena _ _ _ R) as (c' & Hc'). exists c'. fold a. rewrite lookup_insert_ne; [done|]. pose proof (rp_cells _ _ _ R). unfold a. lia.
  - destruct (rp_constants _ _ _ R) as [[C1 C2] C3]. split; [|done]. split; [done|]. intros q Hq. fold a.
    rewrite lookup_insert_ne; [by apply C2|]. apply not_eq_sym. eapply Hqa, (rh_const _ _ _ RH). lia.
Qed.

Lemma set_entry_any f M s i p t es c k j q : rep f M s -> f i p -> m_heap M !! i = Some (OArr t es) -> heap s !! p = Some c ->
  (forall n, i <> Imp n) -> (k < length es)%nat -> f j q -> can_alloc 1 s ->
  exists s', set_entry (c_cdr c) (Z.of_nat k) q s = ROk tt s' /\ grows 1 s s'
    /\ rep f (new_obj i (OArr t (<[k := aentry (m_heap M) j]> es)) M) s'.
Proof.
  intros R Hi Ho Hc Hni Hk Hq Ha.
  destruct (rh_obj _ _ _ (rp_heap _ _ _ R) _ _ Hi) as (o & Ho' & Hat). rewrite Ho in Ho'. injection Ho' as <-.
  destruct Hat as (c0 & Hc0 & Ht & Htt & Hl & Hes). rewrite Hc in Hc0. injection Hc0 as <-.
  assert (is_array c = true) as Harr by (unfold is_array; lia).
  destruct (rh_wf _ _ _ (rp_heap _ _ _ R) _ _ Hi) as (c0 & Hc0 & W). rewrite Hc in Hc0. injection Hc0 as <-.
  destruct (wf_array _ _ _ _ _ W Harr) as (B1 & B2 & B3 & B4 & B5).
  pose proof (rp_cells _ _ _ R) as Hcl. pose proof (rp_top _ _ _ R) as Htop. unfold cell_nil in Hcl.
  assert (1 <= c_cdr c + Z.of_nat k < limit s) as Hr by (unfold cell_nil in *; lia).
  destruct (rh_obj _ _ _ (rp_heap _ _ _ R) _ _ Hq) as (oq & Hoq & Hatq).
  assert (exists e, heap s !! q = Some e) as (e & He).
  { destruct oq; destruct Hatq as (e & He & _); eauto. }
  unfold set_entry, vector_entry, cell_ref.
  destruct (decide (c_ty e = TNUMBER \/ c_ty e = TCHAR)) as [Hn|Hn].
  - assert (exists w v, oq = OCell (c_ty e) w (WInt v) /\ c_cdr e = v) as (w & v & -> & Hv).
    { destruct oq as [t' w' d'|t' es'|bs]; destruct Hatq as (e' & He' & Hte & K); rewrite He in He'; injection He' as <-.
      - destruct K as ((_ & _ & _ & _ & _ & K) & _ & W2). rewrite <- Hte in K. exists w'. destruct d' as [d'|v].
        + destruct Hn as [Hn|Hn]; rewrite Hn in K; done.
        + exists v. by rewrite Hte.
      - destruct K as [K _]. exfalso. destruct Hn as [Hn|Hn]; rewrite Hn in Hte; subst t'; destruct K; done.
      - exfalso. destruct Hn as [Hn|Hn]; rewrite Hn in Hte; done. }
    eexists. split.
    { unfold ty. rewrite !bind_assoc. erewrite bind_ok by (by apply rd_ok'). rewrite bind_ret.
      replace (negb (c_ty e =? TCHAR) && negb (c_ty e =? TNUMBER)) with false by lia. rewrite bind_ret.
      apply copy_cell_s; [exact He|lia]. }
    split; [grows_same|]. eapply rep_put_slot; try done. unfold aentry. rewrite Hoq.
    destruct Hn as [Hn|Hn]; rewrite Hn; done.
  - pose proof (modifies_with_cell (Cell TREF q 0 []) s) as Hm. pose proof (rep_extends _ _ _ _ _ R Hm Ha) as R'.
    assert (heap (with_cell (Cell TREF q 0 []) s) !! p = Some c) as Hc'.
    { erewrite (mod_keep _ _ _ _ Hm); [done| |intros []]. by apply (rep_range _ _ _ _ _ R Hi). }
    eexists. split.
    { unfold ty. rewrite !bind_assoc. erewrite bind_ok by (by apply rd_ok'). rewrite bind_ret.
      replace (negb (c_ty e =? TCHAR) && negb (c_ty e =? TNUMBER)) with true by lia.
      unfold make_ref. erewrite bind_ok by (by apply make_cell_s).
      apply copy_cell_s; [cbn; apply lookup_insert|cbn; lia]. }
    split; [grows_same|]. eapply rep_put_slot; try done.
    assert (aentry (m_heap M) j = ARef j) as ->; [|done]. unfold aentry. rewrite Hoq.
    destruct oq as [t' w' [d'|v]|t' es'|bs]; try done. destruct Hatq as (e' & He' & Hte & _). rewrite He in He'. injection He' as <-.
    destruct (Z.eqb_spec t' TNUMBER); [exfalso; apply Hn; left; congruence|]. destruct (Z.eqb_spec t' TCHAR); [exfalso; apply Hn; right; congruence|]. done.
Qed.
