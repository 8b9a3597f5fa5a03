(** append2 on lists known by their abstract view: the copy consists of new pairs. *)
From stdpp Require Import base gmap list fin_maps.
From Coq Require Import ZArith Lia.
From Coq Require Import ZifyBool ZifyNat.
From Verif Require Import CInt Symbols Heap HeapLemmas GcModel GcSpec DataModel DataSpec DataLemmas CoreProofs StackModel.
From Verif Require Import EvalModel Rep RepProofs EvalSpec EvalRep EvalLemmas EvalBind.
Open Scope Z_scope. Open Scope mes_scope.

Section globals.
Context {GE : genv}.
Notation consts_ok := (consts_ok GE).
Notation store_ok := (store_ok GE).


Lemma reverse_loop_ok' fuel : forall p ps vs r s, seg (cells s) p cell_nil ps vs -> (length vs <= fuel)%nat ->
  Forall (fun q => 1 <= q < limit s) ps ->
  exists s' r', reverse_loop fuel p r s = ROk r' s' /\ modifies (fun q => q ∈ ps) 0 s s'
    /\ seg (cells s') r' r (rev ps) (rev vs).
Proof.
  induction fuel as [|fuel IH]; intros p ps vs r s H Hf Ha;
    pose proof (seg_nodup _ _ _ _ H) as Hnd;
    inversion H as [|? ? a d ps' vs' Hp Hpa Hl]; subst; cbn in Hf; try lia; cbn [reverse_loop].
  1,2: rewrite Z.eqb_refl; exists s, r; split; [done|]; split; [apply modifies_refl|constructor].
  rewrite (proj2 (Z.eqb_neq _ _) Hp). pose proof (pair_at_lt _ _ _ _ Hpa) as Hlt.
  run. destruct Hpa as (c & Hc & Ht & <- & <-). inversion Ha as [|? ? Ha0 Ha1]; subst.
  apply cells_heap in Hc as [Hc _].
  erewrite bind_ok by (eapply set_cdr_s; done).
  set (s1 := put p _ s). apply NoDup_cons in Hnd as [Hnin Hnd].
  assert (seg (cells s1) (c_cdr c) cell_nil ps' vs') as Hl1.
  { eapply seg_agree; [|exact Hl]. intros x Hx. unfold s1. rewrite cells_put by done.
    rewrite lookup_insert_ne; [done|]. congruence. }
  destruct (IH (c_cdr c) ps' vs' p s1 Hl1 ltac:(lia) Ha1) as (s' & r' & E & Hm & Hs).
  exists s', r'. split; [exact E|]. split.
  - change 0 with (0 + 0). eapply modifies_trans.
    + eapply modifies_weaken; [|apply modifies_put]. intros q Hq <-. constructor.
    + exact Hm.
    + intros q Hq Hin. by constructor.
  - cbn [rev]. eapply seg_app; [exact Hs|]. econstructor; [done| |constructor].
    eexists. erewrite modifies_cells_eq; [|exact Hm|done|done]. unfold s1. rewrite cells_put by done.
    rewrite lookup_insert. done.
Qed.
Lemma append_reverse_loop_ok' fuel : forall p vs r s, list_at (cells s) p vs -> (length vs <= fuel)%nat ->
  can_alloc (Z.of_nat (length vs)) s -> cell_nil < g_free s ->
  exists s' r', append_reverse_loop fuel p r s = ROk r' s' /\ modifies nothing (Z.of_nat (length vs)) s s'
    /\ seg (cells s') r' r (fresh_from (g_free s) (length vs)) (rev vs).
Proof.
  induction fuel as [|fuel IH]; intros p vs r s H Hf Hal Hnil;
    inversion H as [|? a d vs' Hp Hpa Hl]; subst; cbn in Hf; try lia; cbn [append_reverse_loop].
  1,2: rewrite Z.eqb_refl; exists s, r; split; [done|]; split; [apply modifies_refl|constructor].
  rewrite (proj2 (Z.eqb_neq _ _) Hp). pose proof (pair_at_lt _ _ _ _ Hpa) as Hlt.
  destruct Hpa as (c & Hc & Ht & <- & <-). pose proof Hc as Hc'. apply cells_heap in Hc as [Hc _]. run.
  cbn [length] in Hal. rewrite Nat2Z.inj_succ in Hal.
  erewrite bind_ok by (apply cons_s; eapply can_alloc_le; [done|lia]).
  set (s1 := with_cell _ s).
  assert (modifies nothing 1 s s1) as Hm1 by apply modifies_with_cell.
  erewrite bind_ok.
  2:{ eapply cdr_of_s. erewrite (mod_keep _ _ _ _ Hm1); [exact Hc|lia|intros []]. }
  destruct (IH (c_cdr c) vs' (g_free s) s1) as (s' & r' & E & Hm & Hs).
  { eapply list_at_mono; [by eapply modifies_cells|done]. }
  { lia. }
  { eapply modifies_can_alloc; [exact Hm1|eapply can_alloc_le; [done|lia]|lia]. }
  { cbn. lia. }
  exists s', r'. split; [exact E|]. split.
  - replace (Z.of_nat (length (c_car c :: vs'))) with (1 + Z.of_nat (length vs')) by (cbn [length]; lia).
    by eapply modifies_trans.
  - cbn [rev length fresh_from]. eapply seg_app; [exact Hs|]. econstructor; [lia| |constructor].
    eapply pair_at_mono; [by eapply modifies_cells|]. apply pair_with_cell.
Qed.
Lemma append2_fresh' fuel p vs y s : list_at (cells s) p vs -> (length vs <= fuel)%nat ->
  can_alloc (Z.of_nat (length vs)) s -> cell_nil < g_free s ->
  exists s' r ps, append2 fuel p y s = ROk r s' /\ modifies nothing (Z.of_nat (length vs)) s s'
    /\ seg (cells s') r y ps vs /\ Forall (fun q => g_free s <= q < g_free s + Z.of_nat (length vs)) ps /\ NoDup ps.
Proof.
  intros H Hf Hal Hnil. unfold append2. destruct (Z.eqb_spec p cell_nil) as [->|Hp].
  - inversion H; subst; [|done]. exists s, y, []. split; [done|]. split; [apply modifies_refl|]. repeat constructor.
  - inversion H as [|? a d vs' _ Hpa Hl]; subst; [done|]. run.
    destruct (append_reverse_loop_ok' fuel p (a :: vs') cell_nil s H Hf Hal Hnil) as (s1 & r1 & E & Hm & Hs).
    erewrite bind_ok by exact E.
    assert (Forall (fun q => 1 <= q < limit s1) (fresh_from (g_free s) (length (a :: vs')))) as Hr.
    { apply Forall_forall. intros q Hq. apply fresh_from_elem in Hq. destruct Hm as [? ? ? (h & ->)]. cbn in *. destruct Hal as (A1 & A2 & A3). lia. }
    assert (exists s2 r2, reverse_x_ fuel r1 y s1 = ROk r2 s2 /\ modifies (fun q => q ∈ fresh_from (g_free s) (length (a :: vs'))) 0 s1 s2
       /\ seg (cells s2) r2 y (rev (fresh_from (g_free s) (length (a :: vs')))) (rev (rev (a :: vs')))) as (s2 & r2 & E2 & Hm2 & Hs2).
    { unfold reverse_x_. destruct (reverse_loop_ok' fuel r1 _ _ y s1 Hs ltac:(by rewrite rev_length) Hr) as (s2 & r2 & E2 & Hx).
      exists s2, r2. split; [|done]. destruct (Z.eqb_spec r1 cell_nil) as [->|Hr1]; [by run|].
      inversion Hs as [? E0|? ? a0 d0 ps0 vs0 _ Hpa0 Hl0]; [done|]. by run. }
    rewrite rev_involutive in Hs2. exists s2, r2, (rev (fresh_from (g_free s) (length (a :: vs')))).
    split; [exact E2|]. split; [|split; [done|split]].
    + rewrite <- (Z.add_0_r (Z.of_nat _)). eapply modifies_trans; [exact Hm|exact Hm2|].
      intros q Hq Hin. apply fresh_from_elem in Hin. unfold nothing. lia.
    + apply Forall_forall. intros q Hq. rewrite elem_of_list_In, <- in_rev, <- elem_of_list_In in Hq. by apply fresh_from_elem in Hq.
    + rewrite NoDup_ListNoDup. apply NoDup_rev. rewrite <- NoDup_ListNoDup. by eapply seg_nodup.
Qed.

(** names for the pairs of a chain that belong to nothing yet *)
Inductive mseg (σ : oheap) : id -> id -> list id -> Prop :=
| ms_nil i : mseg σ i i []
| ms_cons k a d j es : σ !! Imp k = Some (opair a d) -> mseg σ d j es -> mseg σ (Imp k) j (a :: es).
Lemma mseg_sub σ σ' i j es : σ ⊆ σ' -> mseg σ i j es -> mseg σ' i j es.
Proof. intros Hs. induction 1; econstructor; [by eapply lookup_weaken|done]. Qed.
Lemma rep_add_seg s r y ps vs : seg (heap s) r y ps vs -> NoDup ps -> forall f M is j,
  rep f M s -> Forall2 f is vs -> f j y -> Forall (fun q => cell_nil <= q < g_free s) ps ->
  (forall i q c p, f i q -> heap s !! q = Some c -> p ∈ ps -> ~ occupies q c p) ->
  exists f' σ' i, rep f' (with_heap σ' M) s /\ (forall i p, f i p -> f' i p) /\ f' i r /\ m_heap M ⊆ σ' /\ mseg σ' i j is
    /\ (forall l, σ' !! Loc l = m_heap M !! Loc l) /\ (forall i q, f' i q -> f i q \/ q ∈ ps).
Proof.
  induction 1 as [y|p y a d ps vs Hp Hpa Hs IH]; intros Hnd f M is j R Hf Hj Hr Ho.
  - inversion Hf; subst. exists f, (m_heap M), j. split; [by destruct M|]. split; [done|]. split; [done|]. split; [done|]. split; [constructor|].
    split; [done|]. by left.
  - inversion Hf as [|ia ? is' ? Ha Hf']; subst. inversion Hr as [|? ? Hr1 Hr2]; subst. apply NoDup_cons in Hnd as [Hn1 Hn2].
    destruct (IH Hn2 f M is' j R Hf' Hj Hr2) as (f' & σ' & i & R' & G & Hi & Sub & Hseg & Hloc & Hnew).
    { intros i q c p' Hi Hc Hp'. apply (Ho i q c p' Hi Hc). by right. }
    destruct (fresh_imp σ') as (k & Hk).
    exists (add_id f' (Imp k) p), (<[Imp k := opair ia i]> σ'), (Imp k). split; [|split; [|split; [|split; [|split; [|split]]]]].
    + eapply (rep_add_pair f' (with_heap σ' M) s (Imp k) p ia i a d R'); [done|done|by apply G|done|done|].
      intros j' q c Hj' Hc Hoc. destruct (Hnew j' q Hj') as [Hq|Hq].
      * eapply (Ho j' q c p Hq Hc); [by left|done].
      * assert (p <> q) by (intros ->; done).
        destruct (seg_elem _ _ _ _ _ _ Hs Hq) as (a0 & d0 & (c0 & Hc0 & Ht0 & _) & _). rewrite Hc in Hc0. injection Hc0 as <-.
        destruct Hoc as [->|[[E _]|[E _]]]; [done|..]; unfold is_array, GcSpec.is_bytes in E; rewrite Ht0 in E; done.
    + intros i' q Hq. left. by apply G.
    + by right.
    + etrans; [exact Sub|]. by apply insert_subseteq.
    + econstructor; [by rewrite lookup_insert|]. eapply mseg_sub; [|exact Hseg]. by apply insert_subseteq.
    + intros l. by rewrite lookup_insert_ne.
    + intros i' q [Hq|[-> ->]]; [|right; by left]. destruct (Hnew i' q Hq); [by left|right; by right].
Qed.

Lemma wp_append2 fuel f M s i p es j y (Q : Z -> state -> Prop) : rep f M s -> consts_ok (m_heap M) ->
  f i p -> ml (m_heap M) i es -> f j y -> can_alloc (Z.of_nat (length es)) s -> g_free s <= Z.of_nat fuel ->
  (forall f' r i' s' σ', rep f' (with_heap σ' M) s' -> (forall k q, f k q -> f' k q) -> f' i' r -> m_heap M ⊆ σ' ->
     mseg σ' i' j es -> (forall l, σ' !! Loc l = m_heap M !! Loc l) -> Q r s') ->
  wp (append2 fuel p y) s Q.
Proof.
  intros R C Hi Hl Hj Ha Hfuel HQ. destruct (ml_seg _ _ _ _ _ _ R C Hi Hl) as (ps0 & vs & Hs & Hf & Hr0).
  assert (Z.of_nat (length es) < g_free s) as Hlen by by destruct (ml_list _ _ _ _ _ _ R C Hi Hl) as (_ & _ & _ & ?).
  pose proof (Forall2_length _ _ _ Hf) as Hlv. pose proof (rp_free _ _ _ R) as Hfree.
  destruct (append2_fresh' fuel p vs y s) as (s' & r & ps & E & Hm & Hs' & Hr & Hnd).
  { apply seg_list. exists ps0. eapply seg_agree; [|exact Hs]. intros x Hx. rewrite Forall_forall in Hr0. apply Hr0 in Hx.
    rewrite cells_lookup. destruct (Z.ltb_spec x (g_free s)); [done|lia]. }
  { lia. }
  { by rewrite <- Hlv. }
  { assert (f (Imp cell_nil) cell_nil) as Hcn by (eapply rep_const; [exact R|vm_compute; split; congruence]). 
    pose proof (rep_range _ _ _ _ _ R Hcn). lia. }
  assert (modifies nothing (Z.of_nat (length es)) s s') as Hm' by by rewrite Hlv.
  pose proof (rep_extends _ _ _ _ _ R Hm' Ha) as R'.
  assert (g_free s' = g_free s + Z.of_nat (length es) /\ g_cells s' = g_cells s) as [Efree Ecells].
  { destruct Hm' as [? ? ? (h & ->)]. done. }
  destruct (rep_add_seg s' r y ps vs (seg_mono _ _ _ _ _ _ (cells_sub s') Hs') Hnd f M es j R' Hf Hj) as (f' & σ' & i' & R'' & G & Hi' & Sub & Hseg & Hloc & _).
  { eapply Forall_impl; [exact Hr|]. intros q Hq. cbn in Hq. pose proof (rp_cells _ _ _ R). lia. }
  { intros i0 q c p0 Hi0 Hc Hp0 Hoc. rewrite Forall_forall in Hr. apply Hr in Hp0.
    destruct (rh_wf _ _ _ (rp_heap _ _ _ R) _ _ Hi0) as (c0 & Hc0 & W).
    assert (c = c0) as ->. { destruct W as [W _ _ _]. pose proof (mod_keep _ _ _ _ Hm' q) as Hk. rewrite Hk in Hc; [congruence|lia|intros []]. }
    pose proof (wf_occupies _ _ _ _ _ _ W Hoc). lia. }
  eapply wp_eq; [exact E|]. by eapply (HQ f' r i' s' σ').
Qed.
Lemma mseg_codes σ i j es es' is : mseg σ i j is -> Forall2 (code_at σ) es is -> codes_at σ es' j -> codes_at σ (es ++ es') i.
Proof.
  intros H. revert es. induction H as [i|k a d j es0 Ho _ IH]; intros es Hf Hc; inversion Hf; subst; [done|].
  cbn. econstructor; [done|done|]. by apply IH.
Qed.
End globals.
