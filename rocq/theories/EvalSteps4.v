(** Steps of the evaluator: builtin procedures and sequences. *)
From stdpp Require Import base gmap list fin_maps.
From Coq Require Import ZArith Lia.
From Coq Require Import ZifyBool ZifyNat.
From Verif Require Import CInt Symbols Heap HeapLemmas GcModel GcSpec DataModel DataSpec DataLemmas CoreProofs StackModel.
From Verif Require Import EvalModel Rep RepProofs EvalSpec EvalRep EvalLemmas EvalBind EvalSplice EvalRun EvalSteps EvalSteps2 EvalSteps3 EvalErrSpec EvalRaise.
Open Scope Z_scope. Open Scope mes_scope.

Section globals.
Context {GE : genv}.
Notation consts_ok := (consts_ok GE).
Notation store_ok := (store_ok GE).


Section evaluator.
Context {defs : bool}.
Context (prim : Z -> list Z -> M Z) (load_program : Z -> M Z) (fuel : nat).
Notation step := (step GcModel.gc_check prim load_program fuel).
Notation enough := (enough fuel).
Notation runs := (runs (defs := defs) prim load_program fuel).
Notation runsP := (runsP (defs := defs) prim load_program fuel).

(** the C function behind a builtin does what its specification says: given the arguments, it gets
    to a state that holds the result *)
Definition prim_does (p n : Z) (vs : list val) (μ μ1 : store) (v : val) (js : list (option Z)) (N : Z) : Prop :=
  forall f M s ai ap xs, rep f M s -> consts_ok (m_heap M) -> f ai ap -> alist_at (m_heap M) js vs ai ->
    store_at (locs_of js) μ (m_heap M) -> can_alloc N s -> g_free s <= Z.of_nat fuel ->
    (if n =? -1 then xs = [ap] else Forall2 (fun v x => exists i, val_at (m_heap M) v i /\ f i x) vs xs) ->
    wp (prim p xs) s (fun q s' => exists f' σ' i, rep f' (with_heap σ' M) s' /\ f' i q /\ val_at σ' v i
      /\ ext (m_heap M) σ' /\ store_at [] μ1 σ').

Ltac w := first [apply wp_bind | apply wp_ret | apply wp_gets | apply wp_modify | apply wr_bind].
Ltac regs R := pose proof (rp_r0 _ _ _ R) as HR0; pose proof (rp_r1 _ _ _ R) as HR1;
  pose proof (rp_r2 _ _ _ R) as HR2; pose proof (rp_r3 _ _ _ R) as HR3; cbn in HR0, HR1, HR2, HR3.
Ltac kc := (vm_compute; split; congruence).

Lemma wp_val_ty f M s rs μ v i p (Q : Z -> state -> Prop) : rep f M s -> store_at rs μ (m_heap M) ->
  (forall l, l ∈ rs -> exists a d, m_heap M !! Loc l = Some (opair a d)) -> val_at (m_heap M) v i -> f i p ->
  (forall t, (t =? TVALUES) = false -> Q t s) -> wp (ty p) s Q.
Proof.
  intros R S Hrs Hv Hi HQ. destruct (rh_obj _ _ _ (rp_heap _ _ _ R) _ _ Hi) as (o & Ho & Hat).
  assert (exists t, (t =? TVALUES) = false /\ exists c, heap s !! p = Some c /\ c_ty c = t) as (t & Ht & c & Hc & Hct).
  { destruct v as [n|n|k|k|l]; cbn in Hv.
    - destruct Hv as [_ Hv]. rewrite Hv in Ho. injection Ho as <-. destruct Hat as (c & Hc & Ht & _). exists TNUMBER. split; [done|]. by exists c.
    - destruct Hv as [_ Hv]. rewrite Hv in Ho. injection Ho as <-. destruct Hat as (c & Hc & Ht & _). exists TCHAR. split; [done|]. by exists c.
    - destruct Hv as [-> (o' & Ho' & Ha)]. rewrite Ho in Ho'. injection Ho' as <-. destruct o as [t a d|t es|bs]; cbn in Hat, Ha.
      + destruct Hat as (c & Hc & Ht & _). exists t. split; [|by exists c]. repeat (destruct Ha as [->|Ha]; [done|]); by subst.
      + destruct Hat as (c & Hc & Ht & _). exists t. split; [|by exists c]. by subst.
      + destruct Hat as (c & Hc & Ht & _). exists TBYTES. split; [done|by exists c].
    - destruct Hv as [_ (a & d & Hv)]. rewrite Hv in Ho. injection Ho as <-. destruct Hat as (c & Hc & Ht & _). exists TKEYWORD. split; [done|]. by exists c.
    - subst i. destruct (μ !! l) as [so|] eqn:El.
      + pose proof (sa_obj _ _ _ S _ _ El) as Hso. destruct so; cbn in Hso.
        * destruct Hso as (j & Hj & _). rewrite Hj in Ho. injection Ho as <-. destruct Hat as (c & Hc & Ht & _). exists TPAIR. split; [done|by exists c].
        * destruct Hso as (j & j' & Hj & _). rewrite Hj in Ho. injection Ho as <-. destruct Hat as (c & Hc & Ht & _). exists TPAIR. split; [done|by exists c].
        * destruct Hso as (k & c & e & a & fm & b & Hj & _). rewrite Hj in Ho. injection Ho as <-. destruct Hat as (c' & Hc & Ht & _). exists TCLOSURE. split; [done|by exists c'].
        * destruct Hso as (es & Hj & _). rewrite Hj in Ho. injection Ho as <-. destruct Hat as (c' & Hc & Ht & _). exists TSTRUCT. split; [done|by exists c'].
        * destruct Hso as (kk & dd & ww & Hj & _). rewrite Hj in Ho. injection Ho as <-. destruct Hat as (c' & Hc & Ht & _). exists TPAIR. split; [done|by exists c'].
        * destruct Hso as (es & Hj & _). rewrite Hj in Ho. injection Ho as <-. destruct Hat as (c' & Hc & Ht & _). exists TVECTOR. split; [done|by exists c'].
      + destruct (decide (l ∈ rs)) as [Hl|Hl].
        * destruct (Hrs l Hl) as (a & d & Hj). rewrite Hj in Ho. injection Ho as <-. destruct Hat as (c & Hc & Ht & _). exists TPAIR. split; [done|by exists c].
        * rewrite (sa_free _ _ _ S l El Hl) in Ho. done. }
  unfold ty. w. exists c, s. split; [by unfold rd; rewrite Hc|]. w. rewrite Hct. by apply HQ.
Qed.

(** the number of values of the parameters, and the call *)
Lemma wr_apply_builtin f M s l p n vs μ es js N ai ap fp (K : res Z -> Prop) :
  rep f M s -> consts_ok (m_heap M) -> f (Loc l) fp -> m_heap M !! Loc l = Some (OArr TSTRUCT es) ->
  es !! 4%nat = Some (ANum n) -> es !! 5%nat = Some (ANum p) -> -1 <= n <= 3 -> n = -1 \/ n = Z.of_nat (length vs) ->
  f ai ap -> alist_at (m_heap M) js vs ai -> store_at (locs_of js) μ (m_heap M) -> can_alloc (N + 2) s -> g_free s + N + 2 <= Z.of_nat fuel -> 0 <= N ->
  (forall f' σ' s' ai ap xs, rep f' (with_heap σ' M) s' -> (forall i q, f i q -> f' i q) -> m_heap M ⊆ σ' -> consts_ok σ' -> f' ai ap -> alist_at σ' js vs ai ->
    store_at (locs_of js) μ σ' -> can_alloc N s' -> g_free s' <= Z.of_nat fuel ->
    (if n =? -1 then xs = [ap] else Forall2 (fun v x => exists i, val_at σ' v i /\ f' i x) vs xs) ->
    K (prim p xs s')) ->
  K (apply_builtin prim fp ap s).
Proof.
  intros R C Hfp Ho H4 H5 Hn Hnv Hap Hal S HA Hfu HN Hprim. unfold apply_builtin, builtin_arity, builtin_function.
  w. change 4 with (Z.of_nat 4). eapply (wp_struct_ref_num _ _ _ R _ _ _ _ _ _ Hfp Ho H4); [eapply can_alloc_le; [exact HA|lia]|].
  intros f1 q1 k1 s1 (G1 & A1 & F1 & _) Hk1 Hq1 R1. cbn [m_heap new_obj] in *.
  assert (can_alloc (N + 1) s1) as HA1. { apply A1. by replace (N + 1 + 1) with (N + 2) by lia. }
  set (σ1 := <[Imp k1 := OCell TNUMBER (WInt 0) (WInt n)]> (m_heap M)) in *.
  assert (m_heap M ⊆ σ1) as Sub1 by by apply insert_subseteq.
  assert (consts_ok σ1) as C1 by (eapply consts_ok_ext; [by apply ext_sub|done]).
  assert (alist_at σ1 js vs ai) as Hal1 by by eapply alist_at_sub.
  assert (store_at (locs_of js) μ σ1) as S1 by by apply store_at_imp.
  assert (σ1 !! Loc l = Some (OArr TSTRUCT es)) as Ho1 by by eapply lookup_weaken.
  assert (forall l0, l0 ∈ locs_of js -> exists a d, σ1 !! Loc l0 = Some (opair a d)) as Hlocs by (intros l0 Hl0; by eapply alist_locs).
  w. unfold cdr_of at 1. w. eapply (wp_rd _ _ _ R1 (Imp k1)); [done|cbn; apply lookup_insert|]. intros c1 _ _ Hc1. cbn in Hc1. w. rewrite Hc1.
  replace (to_s32 n) with n. 2:{ assert (n = -1 \/ n = 0 \/ n = 1 \/ n = 2 \/ n = 3) as [->|[->|[->|[->| ->]]]] by lia; done. }
  w. eapply (wp_mono _ _ (fun a' s' => a' = ap /\ s' = s1)).
  { destruct ((n >? 0) || (n =? -1)); [|by w]. cbn [andb]. inversion Hal1 as [|j js' v0 vs' i a d Hj Hio Hv0 Hal']; subst.
    - rewrite (eqc _ _ _ R1 _ _ cell_nil (G1 _ _ Hap)) by (done || kc). by w.
    - rewrite (neqc _ _ _ R1 _ _ cell_nil (G1 _ _ Hap)); [|kc|intros ->; by eapply (nil_not_pair σ1)]. cbn [negb].
      w. eapply (wp_car_of _ _ _ R1 _ _ _ _ _ _ (G1 _ _ Hap) Hio). intros a0 Ha0.
      w. eapply (wp_val_ty f1 _ s1 _ μ v0 a a0); [exact R1|exact S1|exact Hlocs|exact Hv0|exact Ha0|]. intros t Ht. rewrite Ht. by w. }
  intros ? ? [-> ->].
  w. eapply (wp_mono _ _ (fun a' s' => a' = ap /\ s' = s1)).
  { destruct ((n >? 1) || (n =? -1)); [|by w]. cbn [andb]. inversion Hal1 as [|j js' v0 vs' i a d Hj Hio Hv0 Hal']; subst.
    - rewrite (eqc _ _ _ R1 _ _ cell_nil (G1 _ _ Hap)) by (done || kc). by w.
    - rewrite (neqc _ _ _ R1 _ _ cell_nil (G1 _ _ Hap)); [|kc|intros ->; by eapply (nil_not_pair σ1)]. cbn [negb].
      w. eapply (wp_car_of _ _ _ R1 _ _ _ _ _ _ (G1 _ _ Hap) Hio). intros a0 Ha0.
      w. eapply (wp_cdr_of _ _ _ R1 _ _ _ _ _ _ (G1 _ _ Hap) Hio). intros d0 Hd0.
      inversion Hal' as [|j2 js2 v2 vs2 i2 a2 d2 Hj2 Hio2 Hv2 Hal2]; subst.
      + destruct (cst_const _ _ C1 cell_nil) as (t & m & dd & Hno & Ht & _); [kc|]. w. eapply (wp_ty _ _ _ R1 _ _ _ _ _ _ Hd0 Hno).
        assert (t =? TPAIR = false) as -> by (destruct Ht as [->| ->]; done). by w.
      + w. eapply (wp_ty _ _ _ R1 _ _ _ _ _ _ Hd0 Hio2). change (TPAIR =? TPAIR) with true. cbv iota.
        w. eapply (wp_car_of _ _ _ R1 _ _ _ _ _ _ Hd0 Hio2). intros a1 Ha1.
        w. eapply (wp_val_ty f1 _ s1 _ μ v2 a2 a1); [exact R1|exact S1|exact Hlocs|exact Hv2|exact Ha1|]. intros t Ht. rewrite Ht. by w. }
  intros ? ? [-> ->].
  assert (forall xs, (if n =? -1 then xs = [ap] else Forall2 (fun v x => exists i, val_at σ1 v i /\ f1 i x) vs xs) ->
    K ((f0 <- (x <- struct_ref_ fp 5 ;; cdr_of x) ;; prim f0 xs) s1)) as Hcall.
  { intros xs Hxs. w. w. change 5 with (Z.of_nat 5). eapply (wp_struct_ref_num _ _ _ R1 _ _ _ _ _ _ (G1 _ _ Hfp) Ho1 H5); [eapply can_alloc_le; [exact HA1|lia]|].
    intros f2 q2 k2 s2 (G2 & A2 & F2 & _) Hk2 Hq2 R2. cbn [m_heap new_obj] in *. fold σ1 in Hk2.
    unfold cdr_of. w. eapply (wp_rd _ _ _ R2 (Imp k2)); [done|cbn; apply lookup_insert|]. intros c2 _ _ Hc2. cbn in Hc2. w. rewrite Hc2.
    assert (σ1 ⊆ <[Imp k2 := OCell TNUMBER (WInt 0) (WInt p)]> σ1) as Sub2 by by apply insert_subseteq.
    eapply (Hprim f2 (<[Imp k2 := OCell TNUMBER (WInt 0) (WInt p)]> σ1) s2 ai ap xs R2).
    - intros i q Hi. by apply G2, G1.
    - by etrans.
    - eapply consts_ok_ext; [by apply ext_sub|done].
    - by apply G2, G1.
    - by eapply alist_at_sub.
    - by apply store_at_imp.
    - apply A2. exact HA1.
    - lia.
    - destruct (n =? -1); [done|]. eapply Forall2_impl; [exact Hxs|]. intros v0 x0 (i0 & Hv0 & Hi0). exists i0. split; [|by apply G2].
      eapply val_at_ext; [by apply ext_sub|done]. }
  assert (n = -1 \/ n = 0 \/ n = 1 \/ n = 2 \/ n = 3) as [->|Hn'] by lia.
  { change (-1 =? 0) with false. change (-1 =? 1) with false. change (-1 =? 2) with false. change (-1 =? 3) with false. change (-1 =? -1) with true. cbv iota.
    by apply Hcall. }
  assert (n <> -1) as Hn1 by lia. rewrite (proj2 (Z.eqb_neq _ _) Hn1) in Hcall.
  destruct Hnv as [Hnv|Hnv]; [done|].
  destruct Hn' as [->|[->|[->| ->]]].
  - destruct vs; [|cbn in Hnv; lia]. change (0 =? 0) with true. cbv iota. apply Hcall. constructor.
  - destruct vs as [|v0 [|? ?]]; cbn in Hnv; try lia. inversion Hal1 as [|j js' ? ? i a d Hj Hio Hv0 Hal']; subst.
    change (1 =? 0) with false. change (1 =? 1) with true. cbv iota.
    w. eapply (wp_car_of _ _ _ R1 _ _ _ _ _ _ (G1 _ _ Hap) Hio). intros a0 Ha0. apply Hcall. repeat constructor. by exists a.
  - destruct vs as [|v0 [|v1 [|? ?]]]; cbn in Hnv; try lia. inversion Hal1 as [|j js' ? ? i a d Hj Hio Hv0 Hal']; subst.
    inversion Hal' as [|j2 js2 ? ? i2 a2 d2 Hj2 Hio2 Hv2 Hal2]; subst.
    change (2 =? 0) with false. change (2 =? 1) with false. change (2 =? 2) with true. cbv iota.
    w. eapply (wp_car_of _ _ _ R1 _ _ _ _ _ _ (G1 _ _ Hap) Hio). intros a0 Ha0.
    w. eapply (wp_cdr_of _ _ _ R1 _ _ _ _ _ _ (G1 _ _ Hap) Hio). intros d0 Hd0.
    w. eapply (wp_car_of _ _ _ R1 _ _ _ _ _ _ Hd0 Hio2). intros a1 Ha1.
    apply Hcall. repeat constructor; [by exists a|by exists a2].
  - destruct vs as [|v0 [|v1 [|v2 [|? ?]]]]; cbn in Hnv; try lia. inversion Hal1 as [|j js' ? ? i a d Hj Hio Hv0 Hal']; subst.
    inversion Hal' as [|j2 js2 ? ? i2 a2 d2 Hj2 Hio2 Hv2 Hal2]; subst. inversion Hal2 as [|j3 js3 ? ? i3 a3 d3 Hj3 Hio3 Hv3 Hal3]; subst.
    change (3 =? 0) with false. change (3 =? 1) with false. change (3 =? 2) with false. change (3 =? 3) with true. cbv iota.
    w. eapply (wp_car_of _ _ _ R1 _ _ _ _ _ _ (G1 _ _ Hap) Hio). intros a0 Ha0.
    w. eapply (wp_cdr_of _ _ _ R1 _ _ _ _ _ _ (G1 _ _ Hap) Hio). intros d0 Hd0.
    w. eapply (wp_car_of _ _ _ R1 _ _ _ _ _ _ Hd0 Hio2). intros a1 Ha1.
    w. eapply (wp_cdr_of _ _ _ R1 _ _ _ _ _ _ Hd0 Hio2). intros d1 Hd1.
    w. eapply (wp_car_of _ _ _ R1 _ _ _ _ _ _ Hd1 Hio3). intros a4 Ha4.
    apply Hcall. repeat constructor; [by exists a|by exists a2|by exists a3].
Qed.


Lemma wp_apply_builtin f M s l p n vs μ μ1 v es js N ai ap fp (Q : Z -> state -> Prop) :
  rep f M s -> consts_ok (m_heap M) -> f (Loc l) fp -> m_heap M !! Loc l = Some (OArr TSTRUCT es) ->
  es !! 4%nat = Some (ANum n) -> es !! 5%nat = Some (ANum p) -> -1 <= n <= 3 -> n = -1 \/ n = Z.of_nat (length vs) ->
  f ai ap -> alist_at (m_heap M) js vs ai -> store_at (locs_of js) μ (m_heap M) -> can_alloc (N + 2) s -> g_free s + N + 2 <= Z.of_nat fuel -> 0 <= N ->
  prim_does p n vs μ μ1 v js N ->
  (forall f' σ' i q s', rep f' (with_heap σ' M) s' -> f' i q -> val_at σ' v i -> ext (m_heap M) σ' -> store_at [] μ1 σ' -> Q q s') ->
  wp (apply_builtin prim fp ap) s Q.
Proof.
  intros R C Hfp Ho H4 H5 Hn Hnv Hap Hal S HA Hfu HN Hprim HQ.
  eapply (wr_apply_builtin f M s l p n vs μ es js N ai ap fp (fun r => exists a s', r = ROk a s' /\ Q a s')); try done.
  intros f' σ' s' ai' ap' xs R' _ Sub C' Hap' Hal' S' HA' Hfu' Hxs.
  destruct (Hprim f' _ s' ai' ap' xs R' C' Hap' Hal' S' HA' Hfu' Hxs) as (q & s2 & E & f2 & σ2 & i & R2 & Hq & Hv & X & S2).
  exists q, s2. split; [done|]. eapply (HQ f2 σ2 i); try done. eapply ext_trans; [by apply ext_sub|exact X].
Qed.

Context (sz : Z) (gl : list id).
Notation MS σ r0 r1 r2 r3 st := (Mst σ r0 r1 r2 r3 st sz gl).
Notation frame c b x a e st := (c :: b :: x :: a :: e :: st).
Notation room st k := (Z.of_nat (length st) + 5 * k <= sz).
Notation runs_step := (runs_step prim load_program fuel).
Notation runsP_step := (runsP_step prim load_program fuel).

Tactic Notation "apply_head" hyp(R) hyp(H) ident(HR1) ident(y) ident(Hy) ident(R') := cbn [EvalModel.step]; unfold step_apply; regs R; do 2 w;
  w; eapply (wp_car_of _ _ _ R _ _ _ _ _ _ HR1 H); intros y Hy; do 2 w;
  let Hs := fresh in let E := fresh in
  pose proof (rep_stack_set _ _ _ 4 _ _ R ltac:(cbn; lia) Hy) as Hs; change GC_FRAME_PROCEDURE with (Z.of_nat 4);
  destruct Hs as [E R']; w; eapply wp_eq; [exact E|]; cbn [m_stk list_insert insert with_stk] in R'.
Lemma runs_apply_prim p n vs μ μ1 v js N : prim_does p n vs μ μ1 v js N -> 0 <= N -> -1 <= n <= 3 -> n = -1 \/ n = Z.of_nat (length vs) ->
  forall l σ r0 i ai r2 r3 c b x a pp st,
    μ !! l = Some (SPrim p n) -> consts_ok σ -> σ !! i = Some (opair (Loc l) ai) -> alist_at σ js vs ai -> store_at (locs_of js) μ σ ->
    runsP (N + 3) L_apply (MS σ r0 i r2 r3 (frame c b x a pp st)) L_vm_return
      (fun M => exists σ' j, M = MS σ' r0 j r2 r3 (frame c b x a (Loc l) st) /\ ext σ σ' /\ val_at σ' v j /\ store_at [] μ1 σ').
Proof.
  intros Hprim HN Hn Hnv.
  intros l σ r0 i ai r2 r3 c b x a pp st Hl C Ho Hal S. destruct (sa_obj _ _ _ S _ _ Hl) as (es & Hlo & H2 & H4 & H5).
  apply runsP_step; [lia|]. intros f vv s R En. apply_head R Ho HR1 y Hy R'.
  w. eapply (wp_arr_ty _ _ _ R' _ _ _ _ _ Hy Hlo). change (TSTRUCT =? TSTRUCT) with true. cbv iota.
  w. unfold builtin_p. w. eapply (wp_arr_ty _ _ _ R' _ _ _ _ _ Hy Hlo). change (TSTRUCT =? TSTRUCT) with true. cbv iota.
  w. apply (wp_struct_ref_const _ _ _ R' _ _ _ 2 cell_symbol_builtin _ C Hy Hlo H2); [kc|]. rewrite Z.eqb_refl. w. change (cell_t =? cell_t) with true. cbv iota.
  w. eapply (wp_cdr_of _ _ _ R' _ _ _ _ _ _ HR1 Ho). intros ap Hap.
  set (s1 := set_g_stack_array _ s) in *. assert (can_alloc (N + 3) s1) as Ha by exact (en_alloc _ _ _ _ En).
  assert (g_free s1 + (N + 3) <= Z.of_nat fuel) as Hfu by (cbn; destruct En; lia).
  w. unfold builtin_arity. change 4 with (Z.of_nat 4). eapply (wp_struct_ref_num _ _ _ R' _ _ _ _ _ _ Hy Hlo H4); [eapply can_alloc_le; [exact Ha|lia]|].
  intros f1 q1 k1 s2 (G1 & A1 & F1 & _) Hk1 Hq1 R1. cbn [m_heap new_obj] in *.
  assert (can_alloc (N + 2) s2) as HA1. { apply A1. by replace (N + 2 + 1) with (N + 3) by lia. }
  set (σ1 := <[Imp k1 := OCell TNUMBER (WInt 0) (WInt n)]> σ) in *.
  assert (σ ⊆ σ1) as Sub1 by by apply insert_subseteq.
  assert (consts_ok σ1) as C1 by (eapply consts_ok_ext; [by apply ext_sub|done]).
  assert (alist_at σ1 js vs ai) as Hal1 by by eapply alist_at_sub.
  assert (store_at (locs_of js) μ σ1) as S1 by by apply store_at_imp.
  assert (σ1 !! Loc l = Some (OArr TSTRUCT es)) as Ho1 by by eapply lookup_weaken.
  w. eapply (wp_check_arity _ _ _ R1 fuel _ (Imp k1) q1 n js vs ai ap); [exact C1|done|cbn; apply lookup_insert|by apply G1|exact Hal1|lia|done|].
  w. eapply (wp_apply_builtin f1 _ s2 l p n vs μ μ1 v es js N ai ap y); [exact R1|exact C1|by apply G1|exact Ho1|done|done|done|done|by apply G1|exact Hal1|exact S1|done|lia|done|exact Hprim|].
  intros f' σ' j q s' R2 Hq Hv Hext S2. w. w. w. split; [done|]. exists f'. eexists. split; [exact (rep_set_R1 _ _ _ _ _ R2 Hq)|].
  exists σ', j. split; [done|]. split; [|done]. eapply ext_trans; [by apply ext_sub|exact Hext].
Qed.

(** * Sequences *)
Lemma runs_begin σ r0 i r2 r3 st : i <> Imp cell_nil ->
  runs 0 L_begin (MS σ r0 i r2 r3 st) L_begin_body (MS σ r0 i r2 r3 st).
Proof.
  intros Hi. split; [lia|]. intros f v s R Hr. exists f, s, v. split; [|split; [apply keeps_refl|done]]. regs R.
  eapply steps_cons; [reflexivity|]. eapply steps_cons; [|constructor]. cbn [EvalModel.step]. unfold bind, gets.
  rewrite (neqc _ _ _ R _ _ cell_nil HR1) by (done || kc). done.
Qed.
Lemma runs_begin_eval σ r0 x k i d r3 st : σ !! Imp k = Some (opair i d) -> d <> Imp cell_nil ->
  runs 0 L_begin_eval (MS σ r0 x (Imp k) r3 st) L_begin_body (MS σ r0 d (Imp k) r3 st).
Proof.
  intros Ho Hd. split; [lia|]. intros f v s R Hr. regs R.
  destruct (rh_cell _ _ _ _ _ _ _ _ (rp_heap _ _ _ R) HR2 Ho) as (c & Hc & Ht & _ & Hca & Hcd). cbn in Hcd.
  exists f, (set_R1 (c_cdr c) s), v. split; [|split; [apply keeps_refl|exact (rep_set_R1 _ _ _ _ _ R Hcd)]].
  eapply steps_cons; [|eapply steps_cons; [|constructor]]; cbn [EvalModel.step].
  - unfold bind, gets, cdr_of, rd, modify, bind, ret. rewrite Hc. reflexivity.
  - unfold bind, gets. cbn. rewrite (neqc _ _ _ R _ _ cell_nil Hcd) by (done || kc). done.
Qed.
Definition splice (es : list exp) : list exp := match es with EBegin es1 :: es2 => es1 ++ es2 | _ => es end.
(** one round of the loop: up to the evaluation of the first expression *)
Definition round_to (μ : store) (σ : oheap) (r0 r2 r3 : id) (st : list id) (es : list exp) (M : mst) : Prop :=
  exists σ' k i d e es', es = e :: es' /\ ext σ σ' /\ store_at [] μ σ' /\ σ' !! Imp k = Some (opair i d) /\ code_at σ' e i /\ codes_at σ' es' d /\
   M = match es' with [] => MS σ' r0 i r2 r3 st | _ => MS σ' r0 i (Imp k) r3 (frame (Imp cell_vm_begin_eval) (Imp k) (Imp k) r0 (Imp cell_f) st) end.
Lemma wp_round_end f M s μ σ0 es r0 r2 r3 st v : rep f M s -> consts_ok (m_heap M) -> ext σ0 (m_heap M) -> store_at [] μ (m_heap M) ->
  codes_at (m_heap M) es (m_r1 M) -> es <> [] -> m_r0 M = r0 -> m_r2 M = r2 -> m_r3 M = r3 -> m_stk M = st -> m_size M = sz -> m_glob M = gl -> room st 1 ->
  wp (r1 <- gets R1 ;; c <- rd r1 ;;
      if c_cdr c =? cell_nil then modify (set_R1 (c_car c)) ;;; ret (Goto L_eval v)
      else r0 <- gets R0 ;; push_cc (c_car c) r1 r0 cell_vm_begin_eval ;;; ret (Goto L_eval v)) s
    (fun n s' => n = Goto L_eval v /\ exists f' M', rep f' M' s' /\ round_to μ σ0 r0 r2 r3 st es M').
Proof.
  destruct M as [σ m0 m1 m2 m3 ms mz mg]. cbn. intros R C Hext S Hes Hne <- <- <- <- -> -> Hroom. regs R. do 2 w.
  inversion Hes as [|e es' k i d Ho Hc Hcs]; subst; [done|].
  w. eapply (wp_rd _ _ _ R _ _ _ _ _ _ HR1 Ho). intros c _ Hca Hcd. cbn in Hca, Hcd.
  destruct es' as [|e' es'].
  - inversion Hcs; subst. rewrite (eqc _ _ _ R _ _ cell_nil Hcd) by (done || kc). w. w. w. split; [done|]. exists f.
    eexists. split; [exact (rep_set_R1 _ _ _ _ _ R Hca)|]. exists σ, k, i, (Imp cell_nil), e, []. repeat (split; [done|]). done.
  - rewrite (neqc _ _ _ R _ _ cell_nil Hcd); [|kc|by eapply codes_nil]. do 3 w.
    eapply (wp_push_cc _ _ _ R i (Imp k) m0 (Imp cell_vm_begin_eval)); [cbn; lia|done|done|done|eapply rep_const; [exact R|kc]|].
    intros s' R'. w. split; [done|]. exists f. eexists. split; [exact R'|]. exists σ, k, i, d, e, (e' :: es'). repeat (split; [done|]). done.
Qed.
Lemma runs_round μ σ r0 i r2 r3 st es : consts_ok σ -> codes_at σ es i -> es <> [] -> splice es <> [] -> store_at [] μ σ -> room st 1 ->
  runsP (Z.of_nat (length (splice es))) L_begin_body (MS σ r0 i r2 r3 st) L_eval (round_to μ σ r0 r2 r3 st (splice es)).
Proof.
  intros C Hes Hne Hsp S Hroom. eapply (runsP_bind _ _ _ _ 0 _ _ L_begin_round (MS σ r0 i r2 r3 st)); [|lia|].
  { apply runs_step; [lia|]. intros f v s R En. cbn [EvalModel.step]. w.
    destruct (rep_gc_check _ _ _ R) as (f' & s' & E & R' & _).
    { destruct (rp_size _ _ _ R) as [_ Hs]. pose proof (rp_stack_size _ _ _ R) as Hsz. cbn in Hs, Hsz. lia. }
    { intros Hc. apply (en_room _ _ _ _ En). split; [by right; left|done]. }
    eapply wp_eq; [exact E|]. w. split; [done|]. by exists f'. }
  apply runsP_step; [lia|]. intros f v s R En. cbn [EvalModel.step]. regs R. do 2 w.
  inversion Hes as [|e es' k j d Ho Hc Hcs]; subst; [done|].
  w. eapply (wp_rd _ _ _ R _ _ _ _ _ _ HR1 Ho). intros c Ht Hca Hcd. cbn in Hca, Hcd. rewrite Ht. change (TPAIR =? TPAIR) with true. cbv iota.
  w. eapply (wp_code_head _ _ _ R e j _ _ C Hc Hca). intros x Hx. rewrite Hx. unfold begin_splice. do 2 w.
  w. eapply (wp_rd _ _ _ R _ _ _ _ _ _ HR1 Ho). intros c' Ht' Hca' Hcd'. cbn in Hca', Hcd'. rewrite Ht'. change (TPAIR =? TPAIR) with true. cbv iota.
  w. eapply (wp_code_begin _ _ _ R e j _ _ _ C Hc Hca').
  - intros ca Hnb E. rewrite E. w. replace (splice (e :: es')) with (e :: es') by (destruct e; try done; by destruct (Hnb es)).
    eapply (wp_round_end f _ s μ σ (e :: es')); try done.
  - intros ca es1 kk dd -> -> Hbo Hcs1 Hdd E. rewrite E. cbn [splice] in *.
    destruct (codes_ml _ _ _ Hcs1) as (is & Hml & Hfi). pose proof (Forall2_length _ _ _ Hfi) as Hli.
    w. eapply (wp_append2 fuel f _ s dd (c_cdr ca) is d (c_cdr c')); [exact R|exact C|done|done|done| |destruct En; lia|].
    { eapply can_alloc_le; [apply (en_alloc _ _ _ _ En)|]. rewrite app_length. lia. }
    intros f' r i' s' σ' R' G Hr Sub Hms Hloc. w.
    eapply (wp_round_end f' _ _ μ σ (es1 ++ es') r0 r2 r3 st v (rep_set_R1 _ _ _ _ _ R' Hr)); try done; cbn.
    + eapply consts_ok_ext; [by apply ext_sub|done].
    + by apply ext_sub.
    + split.
      * intros l o Hl. eapply sobj_at_ext; [by apply ext_sub|apply Hloc|by apply (sa_obj _ _ _ S)].
      * intros l Hl Hin. rewrite Hloc. by apply (sa_free _ _ _ S).
    + eapply mseg_codes; [exact Hms|eapply Forall2_impl; [exact Hfi|]; intros; eapply code_at_ext; [by apply ext_sub|done]|].
      eapply codes_at_ext; [by apply ext_sub|done].
Qed.
(** (begin ...) is first evaluated as a sequence that starts with the symbol begin *)
Lemma runs_begin_form σ r0 k b r2 r3 st : consts_ok σ -> σ !! Imp k = Some (opair (Imp cell_symbol_begin) b) -> b <> Imp cell_nil -> room st 1 ->
  runs 0 L_begin (MS σ r0 (Imp k) r2 r3 st) L_begin_body (MS σ r0 b (Imp k) (Imp cell_vm_begin_eval) st).
Proof.
  intros C Ho Hb Hroom. pose proof (runs_begin σ r0 (Imp k) r2 r3 st) as H1. eapply (runs_trans _ _ _ 0 0); [apply H1; intros [= ->]; by eapply nil_not_pair|].
  assert (runs 0 L_begin_body (MS σ r0 (Imp k) r2 r3 st) L_begin_round (MS σ r0 (Imp k) r2 r3 st)) as H2.
  { apply runs_step; [lia|]. intros f v s R En. cbn [EvalModel.step]. w.
    destruct (rep_gc_check _ _ _ R) as (f' & s' & E & R' & _).
    { destruct (rp_size _ _ _ R) as [_ Hs]. pose proof (rp_stack_size _ _ _ R) as Hsz. cbn in Hs, Hsz. lia. }
    { intros Hc. apply (en_room _ _ _ _ En). split; [by right; left|done]. }
    eapply wp_eq; [exact E|]. w. split; [done|]. by exists f'. }
  eapply (runs_trans _ _ _ 0 0); [exact H2|].
  destruct (cst_const _ _ C cell_symbol_begin) as (t & n & dd & Hbo & Hbt & Hnl); [kc|].
  eapply (runs_trans _ _ _ 0 0 _ _ L_eval (MS σ r0 (Imp cell_symbol_begin) (Imp k) r3 (frame (Imp cell_vm_begin_eval) (Imp k) (Imp k) r0 (Imp cell_f) st))).
  { apply runs_step; [lia|]. intros f v s R En. cbn [EvalModel.step]. regs R. do 2 w.
    w. eapply (wp_rd _ _ _ R _ _ _ _ _ _ HR1 Ho). intros c Ht Hca Hcd. cbn in Hca, Hcd. rewrite Ht. change (TPAIR =? TPAIR) with true. cbv iota.
    w. unfold car_of. w. eapply (wp_rd _ _ _ R _ _ _ _ _ _ Hca Hbo). intros c2 _ Hc2 _. cbn in Hc2. w.
    rewrite (proj2 (Z.eqb_neq (c_car c2) _)). 2:{ rewrite Hc2. intros E. apply Hnl. by rewrite E. }
    unfold begin_splice. do 2 w. w. eapply (wp_rd _ _ _ R _ _ _ _ _ _ HR1 Ho). intros c' Ht' Hca' Hcd'. cbn in Hca', Hcd'. rewrite Ht'. change (TPAIR =? TPAIR) with true. cbv iota.
    w. w. eapply (wp_rd _ _ _ R _ _ _ _ _ _ Hca' Hbo). intros c3 Hc3 _ _. rewrite Hc3.
    assert (t =? TPAIR = false) as -> by (destruct Hbt as [->| ->]; done). cbn [andb]. w. do 2 w.
    w. eapply (wp_rd _ _ _ R _ _ _ _ _ _ HR1 Ho). intros c4 _ Hca4 Hcd4. cbn in Hca4, Hcd4.
    rewrite (neqc _ _ _ R _ _ cell_nil Hcd4) by (done || kc). do 3 w.
    eapply (wp_push_cc _ _ _ R (Imp cell_symbol_begin) (Imp k) r0 (Imp cell_vm_begin_eval)); [cbn; lia|done|done|done|eapply rep_const; [exact R|kc]|].
    intros s' R'. w. split; [done|]. by exists f. }
  eapply (runs_trans _ _ _ 0 0); [by eapply (runs_eval_begin_symbol (GE := GE))|].
  eapply (runs_trans _ _ _ 0 0); [apply runs_return|].
  eapply (runs_trans _ _ _ 0 0); [apply runs_dispatch; [reflexivity|kc]|].
  by apply (runs_begin_eval _ _ _ _ (Imp cell_symbol_begin)).
Qed.
End evaluator.
End globals.
