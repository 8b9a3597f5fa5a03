(** The primitive procedures signal the errors that EvalErrSpec.v says; from steps that end with an
    error to runs of eval_apply. *)
From stdpp Require Import base gmap list fin_maps.
From Coq Require Import ZArith Lia.
From Coq Require Import ZifyBool ZifyNat.
From Verif Require Import CInt Symbols Heap HeapLemmas GcModel GcSpec DataModel DataSpec DataLemmas CoreProofs StackModel MathModel MathProofs Builtins.
From Verif Require Import EvalModel PrimModel Rep RepProofs EvalSpec EvalPrimSpec EvalErrSpec EvalRep EvalLemmas EvalBind EvalSplice EvalRun EvalSteps EvalSteps2 EvalSteps3 EvalRaise EvalSteps4 EvalRaiseSteps EvalMain EvalErrMain EvalPrimLemmas EvalPrims EvalTop.
Open Scope Z_scope. Open Scope mes_scope.

Section globals.
Context {GE : genv}.
Notation consts_ok := (consts_ok GE).
Notation store_ok := (store_ok GE).
Notation const_at := (const_at (GE := GE)).
Notation prim_fail := (prim_fail (GE := GE) prim_call).
Ltac kc := (vm_compute; split; congruence).
Ltac args1 Hxs i x Hv Hi := inversion Hxs as [|? x ? ? (i & Hv & Hi) Hxs1]; subst; inversion Hxs1; subst; clear Hxs Hxs1.
Ltac args2 Hxs i x Hv Hi j y Hw Hj := inversion Hxs as [|? x ? ? (i & Hv & Hi) Hxs1]; subst; inversion Hxs1 as [|? y ? ? (j & Hw & Hj) Hxs2]; subst; inversion Hxs2; subst; clear Hxs Hxs1 Hxs2.

Lemma not_number_cell f M s μ v i p : rep f M s -> store_at [] μ (m_heap M) -> f i p -> val_at (m_heap M) v i -> not_number μ v ->
  exists c, heap s !! p = Some c /\ c_ty c <> TNUMBER.
Proof.
  intros R S Hp Hv Hn. destruct (val_obj _ _ _ _ _ _ _ R S Hp Hv) as (c & Hc & Ht); [by destruct v|]. exists c. split; [done|].
  intros E. pose proof (val_cell_number _ _ _ Ht E) as ->. done.
Qed.
Lemma not_pair_cell f M s μ v i p : rep f M s -> store_at [] μ (m_heap M) -> f i p -> val_at (m_heap M) v i -> is_pair μ v false ->
  exists c, heap s !! p = Some c /\ c_ty c <> TPAIR.
Proof.
  intros R S Hp Hv Hn. assert (known μ v) as K. { destruct v as [| | | |l]; try done. cbn in *. destruct (μ !! l); [by eexists|done]. }
  destruct (val_obj _ _ _ _ _ _ _ R S Hp Hv K) as (c & Hc & Ht). exists c. split; [done|]. intros E.
  destruct v as [n|n|k|k|l]; cbn in Ht, Hn; rewrite E in Ht; [by destruct Ht|by destruct Ht|by repeat destruct Ht as [Ht|Ht]|done|].
  by destruct (μ !! l) as [[]|].
Qed.
Lemma throws_not_number {A} f M s μ v i p : rep f M s -> consts_ok (m_heap M) -> store_at [] μ (m_heap M) -> f i p -> val_at (m_heap M) v i ->
  throws μ (VAtom cell_symbol_not_a_number) (IVal v) (RThrow cell_symbol_not_a_number p s : res A).
Proof.
  intros R C S Hp Hv. eapply (throws_error (A := A)); [exact R|done|eapply rep_const; [exact R|kc]|apply const_at; [done|kc]|exact Hp|done].
Qed.
Lemma first_bad fuel ns v vs f M s μ js ai ap :
  rep f M s -> consts_ok (m_heap M) -> store_at [] μ (m_heap M) -> f ai ap -> alist_at (m_heap M) js ((VNum <$> ns) ++ v :: vs) ai ->
  g_free s <= Z.of_nat fuel -> not_number μ v ->
  exists ps1 q ps3 c e, list_at (heap s) ap (ps1 ++ q :: ps3) /\ Forall2 (number_at (heap s)) ps1 ns
    /\ heap s !! q = Some c /\ c_ty c <> TNUMBER /\ (length ps1 < fuel)%nat /\ f e q /\ val_at (m_heap M) v e.
Proof.
  intros R C S Hap Hal Hfu Hn. destruct (alist_ml _ _ _ _ Hal) as (es & Hml & Hvs). destruct (ml_list _ _ _ _ _ _ R C Hap Hml) as (ps & Hl & Hf & Hlen).
  apply Forall2_app_inv_l in Hvs as (es1 & es2 & Hvs1 & Hvs2 & ->). inversion Hvs2 as [|? e ? es3 Hv Hvs3]; subst.
  apply Forall2_app_inv_l in Hf as (ps1 & ps2 & Hf1 & Hf2 & ->). inversion Hf2 as [|? q ? ps3 Hq Hf3]; subst.
  destruct (not_number_cell _ _ _ _ _ _ _ R S Hq Hv Hn) as (c & Hc & Ht).
  assert (Forall2 (number_at (heap s)) ps1 ns) as Hns.
  { clear -R Hvs1 Hf1. revert es1 ps1 Hvs1 Hf1. induction ns as [|n ns IH]; intros es1 ps1 Hvs Hf.
    - inversion Hvs; subst. inversion Hf; subst. constructor.
    - inversion Hvs as [|? i ? es2 Hv Hvs2]; subst. inversion Hf as [|? x ? vs1 Hx Hf2]; subst. constructor; [by eapply val_number|by eapply IH]. }
  rewrite app_length in Hlen. pose proof (Forall2_length _ _ _ Hf1). cbn in Hlen.
  exists ps1, q, ps3, c, e. repeat split; try done. lia.
Qed.
Lemma loop_throws (op : Z -> Z -> M Z) (g : Z -> Z -> Z) fuel n0 ns v vs f M s μ js ai ap :
  rep f M s -> consts_ok (m_heap M) -> store_at [] μ (m_heap M) -> f ai ap -> alist_at (m_heap M) js ((VNum <$> ns) ++ v :: vs) ai ->
  g_free s <= Z.of_nat fuel -> not_number μ v ->
  (forall k m x, ns !! k = Some x -> m = foldl g n0 (take k ns) -> op m x s = ROk (g m x) s) ->
  throws μ (VAtom cell_symbol_not_a_number) (IVal v) ((n <- num_loop op fuel ap n0 ;; make_number n) s).
Proof.
  intros R C S Hap Hal Hfu Hn Hop. destruct (first_bad _ _ _ _ _ _ _ _ _ _ _ R C S Hap Hal Hfu Hn) as (ps1 & q & ps3 & c & e & Hl & Hns & Hc & Ht & Hlen & Hq & Hv).
  apply throws_bind. erewrite (num_loop_type_error op g fuel ap n0 ps1 ns s q c ps3); try done. by eapply throws_not_number.
Qed.
Lemma fits_step (g : Z -> Z -> Z) n0 ns s : fits g n0 ns ->
  forall k m x, ns !! k = Some x -> m = foldl g n0 (take k ns) -> chk_long (g m x) s = ROk (g m x) s.
Proof.
  intros Hp k m x Hk ->. apply chk_long_ok. pose proof (Hp (S k)) as Hk'. erewrite take_S_r in Hk' by done. rewrite foldl_app in Hk'. apply Hk'.
  by apply lookup_lt_Some in Hk.
Qed.
Lemma prim_errs_fail p n vs μ key w : prim_errs p n vs μ key w -> prim_fail p n vs μ key w.
Proof.
  intros H. destruct H; (split; [lia|]).
  - exists 0. split; [lia|]. intros fuel f M s ai ap xs R C Hap Hal S HA Hfu Hxs. cbn in Hxs. args2 Hxs i0 x0 Hv Hi j y Hw Hj.
    change (throws μ k (IVal x) (error x0 y s : res Z)). by eapply throws_error.
  - exists 1. split; [lia|]. intros fuel f M s ai ap xs R C Hap Hal S HA Hfu Hxs. cbn in Hxs. args1 Hxs i x Hv Hi.
    destruct (not_pair_cell _ _ _ _ _ _ _ R S Hi Hv H) as (c & Hc & Ht). change (throws μ (VAtom cell_symbol_not_a_pair) (IPair v (VAtom cell_symbol_car)) (DataModel.car x s)).
    unfold DataModel.car. apply wr_bind. eapply wp_eq; [unfold rd; by rewrite Hc|]. rewrite (proj2 (Z.eqb_neq _ _) Ht).
    eapply throws_pair; [exact R|exact C|exact S|kc|exact Hi|exact Hv|eapply rep_const; [exact R|kc]|apply const_at; [done|kc]|done].
  - exists 1. split; [lia|]. intros fuel f M s ai ap xs R C Hap Hal S HA Hfu Hxs. cbn in Hxs. args1 Hxs i x Hv Hi.
    destruct (not_pair_cell _ _ _ _ _ _ _ R S Hi Hv H) as (c & Hc & Ht). change (throws μ (VAtom cell_symbol_not_a_pair) (IPair v (VAtom cell_symbol_cdr)) (DataModel.cdr x s)).
    unfold DataModel.cdr. apply wr_bind. eapply wp_eq; [unfold rd; by rewrite Hc|]. rewrite (proj2 (Z.eqb_neq _ _) Ht).
    eapply throws_pair; [exact R|exact C|exact S|kc|exact Hi|exact Hv|eapply rep_const; [exact R|kc]|apply const_at; [done|kc]|done].
  - exists 0. split; [lia|]. intros fuel f M s ai ap xs R C Hap Hal S HA Hfu ->.
    change (prim_call fuel fn_plus [ap]) with (plus fuel ap). unfold plus. eapply (loop_throws _ Z.add); try done. by apply (fits_step Z.add).
  - exists 0. split; [lia|]. intros fuel f M s ai ap xs R C Hap Hal S HA Hfu ->.
    change (prim_call fuel fn_multiply [ap]) with (multiply fuel ap). unfold multiply. eapply (loop_throws _ Z.mul); try done. by apply (fits_step Z.mul).
  - exists 0. split; [lia|]. intros fuel f M s ai ap xs R C Hap Hal S HA Hfu ->.
    change (prim_call fuel fn_minus [ap]) with (minus fuel ap).
    destruct (first_bad _ (n :: ns) _ _ _ _ _ _ _ _ _ R C S Hap Hal Hfu H0) as (ps1 & q & ps3 & c & e & Hl & Hns & Hc & Ht & Hlen & Hq & Hv).
    inversion Hns as [|p0 ? ps1' ? Hp0 Hns']; subst. cbn in Hl, Hlen. inversion Hl as [|? ? d ? Hp Hpa Hl']; subst.
    assert (minus fuel ap s = RThrow cell_symbol_not_a_number q s) as E; [|rewrite E; by eapply throws_not_number].
    unfold minus. run.
    assert (d <> cell_nil) as Hd by (inversion Hl' as [Hx|? ? ? ? Hx]; [by destruct ps1'|done]). rewrite (proj2 (Z.eqb_neq _ _) Hd). run. unfold bind at 1.
    erewrite (num_loop_type_error _ Z.sub fuel d n ps1' ns s q c ps3); try done; [lia|]. by apply (fits_step Z.sub).
  - exists 0. split; [lia|]. intros fuel f M s ai ap xs R C Hap Hal S HA Hfu ->.
    change (prim_call fuel fn_minus [ap]) with (minus fuel ap).
    destruct (first_bad _ [] _ _ _ _ _ _ _ _ _ R C S Hap Hal Hfu H) as (ps1 & q & ps3 & c & e & Hl & Hns & Hc & Ht & Hlen & Hq & Hv).
    inversion Hns; subst. cbn in Hl. inversion Hl as [|? ? d ? Hp Hpa Hl']; subst.
    assert (minus fuel ap s = RThrow cell_symbol_not_a_number q s) as E; [|rewrite E; by eapply throws_not_number].
    unfold minus. run. unfold bind at 1. by erewrite assert_number_bad by done.
  - exists 0. split; [lia|]. intros fuel f M s ai ap xs R C Hap Hal S HA Hfu ->.
    change (prim_call fuel fn_greater_p [ap]) with (greater_p fuel ap).
    destruct (first_bad _ _ _ _ _ _ _ _ _ _ _ R C S Hap Hal Hfu H0) as (ps1 & q & ps3 & c & e & Hl & Hns & Hc & Ht & Hlen & Hq & Hv).
    rewrite (proj1 (order_type_error fuel ap ps1 ns s q c ps3 Hl Hns Hc Ht Hlen)) by done. by eapply throws_not_number.
  - exists 0. split; [lia|]. intros fuel f M s ai ap xs R C Hap Hal S HA Hfu ->.
    change (prim_call fuel fn_less_p [ap]) with (less_p fuel ap).
    destruct (first_bad _ _ _ _ _ _ _ _ _ _ _ R C S Hap Hal Hfu H0) as (ps1 & q & ps3 & c & e & Hl & Hns & Hc & Ht & Hlen & Hq & Hv).
    rewrite (proj2 (order_type_error fuel ap ps1 ns s q c ps3 Hl Hns Hc Ht Hlen)) by done. by eapply throws_not_number.
  - exists 0. split; [lia|]. intros fuel f M s ai ap xs R C Hap Hal S HA Hfu ->.
    change (prim_call fuel fn_is_p [ap]) with (is_p fuel ap).
    destruct (first_bad _ [] _ _ _ _ _ _ _ _ _ R C S Hap Hal Hfu H) as (ps1 & q & ps3 & c & e & Hl & Hns & Hc & Ht & Hlen & Hq & Hv).
    inversion Hns; subst. cbn in Hl. inversion Hl as [|? ? d ? Hp Hpa Hl']; subst.
    assert (is_p fuel ap s = RThrow cell_symbol_not_a_number q s) as E; [|rewrite E; by eapply throws_not_number].
    unfold is_p. rewrite (proj2 (Z.eqb_neq _ _) Hp). run. unfold bind at 1. by erewrite assert_number_bad by done.
  - exists 0. split; [lia|]. intros fuel f M s ai ap xs R C Hap Hal S HA Hfu ->.
    change (prim_call fuel fn_logand [ap]) with (logand fuel ap). unfold logand. by eapply (loop_throws _ Z.land).
  - exists 0. split; [lia|]. intros fuel f M s ai ap xs R C Hap Hal S HA Hfu ->.
    change (prim_call fuel fn_logior [ap]) with (logior fuel ap). unfold logior. by eapply (loop_throws _ Z.lor).
  - exists 0. split; [lia|]. intros fuel f M s ai ap xs R C Hap Hal S HA Hfu ->.
    change (prim_call fuel fn_logxor [ap]) with (logxor fuel ap). unfold logxor. by eapply (loop_throws _ Z.lxor).
  - exists 0. split; [lia|]. intros fuel f M s ai ap xs R C Hap Hal S HA Hfu Hxs. cbn in Hxs. args1 Hxs i x Hv Hi.
    destruct (not_number_cell _ _ _ _ _ _ _ R S Hi Hv H) as (c & Hc & Ht). change (throws μ (VAtom cell_symbol_not_a_number) (IVal v) (lognot x s)).
    unfold lognot. apply throws_bind. erewrite assert_number_bad by done. by eapply throws_not_number.
  - exists 0. split; [lia|]. intros fuel f M s ai ap xs R C Hap Hal S HA Hfu Hxs. cbn in Hxs. args2 Hxs i x Hv Hi j y Hw Hj.
    destruct (not_number_cell _ _ _ _ _ _ _ R S Hi Hv H) as (c & Hc & Ht). change (throws μ (VAtom cell_symbol_not_a_number) (IVal v) (modulo fuel x y s)).
    unfold modulo. apply throws_bind. erewrite assert_number_bad by done. by eapply throws_not_number.
  - exists 0. split; [lia|]. intros fuel f M s ai ap xs R C Hap Hal S HA Hfu Hxs. cbn in Hxs. args2 Hxs i x Hv Hi j y Hw Hj.
    pose proof (val_number _ _ _ _ _ _ R Hi Hv) as Hx.
    destruct (not_number_cell _ _ _ _ _ _ _ R S Hj Hw H) as (c & Hc & Ht). change (throws μ (VAtom cell_symbol_not_a_number) (IVal v) (modulo fuel x y s)).
    unfold modulo. apply wr_bind. eapply wp_eq; [by eapply assert_number_ok|]. apply throws_bind. erewrite assert_number_bad by done. by eapply throws_not_number.
Qed.
End globals.

Section top.
Context (GE : genv) (defs : bool).
Notation consts_ok := (consts_ok GE).
Notation store_ok := (store_ok GE).
Context (load_program : nat -> Z -> M Z) (fuel : nat).
Notation steps := (steps (prim_call fuel) (load_program fuel) fuel).
Notation roomy := (roomy (prim_call fuel) (load_program fuel) fuel).
Notation texts := (texts (prim_call fuel) (load_program fuel) fuel).
Notation eval_apply := (eval_apply GcModel.gc_check (prim_call fuel) (load_program fuel) fuel).

Lemma raise_top width d ρ μ e μ' key w : raises width (prims width) prim_errs (ge_vars GE) (ge_missing GE) defs d ρ μ e μ' key w -> env_ok μ ρ -> store_ok μ ->
  forall f s σ r0 i r2 c b x a p st sz gl,
    rep f (Mst σ r0 i r2 (Imp cell_vm_eval) (Imp c :: b :: x :: a :: p :: st) sz gl) s ->
    consts_ok σ -> code_at σ e i -> env_at σ ρ r0 -> store_at [] μ σ ->
    gl !! 3%nat = Some (ge_module GE) -> Z.of_nat (length st) + 5 * (Z.of_nat d + 2) <= sz ->
    roomy (step_memory width) L_eval_apply (Locals false false) s -> texts L_eval_apply (Locals false false) s ->
    exists n kx x s', (forall m, (n <= m)%nat -> eval_apply m s = RThrow kx x s') /\ raised_at μ' key w kx x s'.
Proof.
  intros H Eo So f s σ r0 i r2 c b x a p st sz gl R C Hc He S Hgl Hsz Hroom Htexts.
  pose proof (raises_sound (GE := GE) (defs := defs) prim_call load_program sz gl width Hgl (prims width) (prims_ok width) (prims_frame width) prim_errs prim_errs_fail _ _ _ _ _ _ _ H Eo So) as Hrun.
  cbn in Hrun.
  assert (runsX (prim_call fuel) (load_program fuel) fuel (step_memory width) L_eval_apply
     (Mst σ r0 i r2 (Imp cell_vm_eval) (Imp c :: b :: x :: a :: p :: st) sz gl) μ' key w) as [_ Hr].
  { eapply (runsX_bind (defs := defs)); [apply (runs_dispatch _ _ _ _ _ cell_vm_eval L_eval); [reflexivity|vm_compute; split; congruence]|unfold step_memory; lia|].
    apply Hrun; try done. cbn. lia. }
  destruct (Hr f _ s R Hroom Htexts) as (l1 & v1 & s1 & St & kx & x1 & s' & E & Hra).
  destruct (steps_run _ _ _ _ _ _ _ _ _ St) as (n & Hn). exists (Datatypes.S n), kx, x1, s'. split; [|done].
  intros m Hm. unfold EvalModel.eval_apply. replace m with (n + Datatypes.S (m - Datatypes.S n))%nat by lia. rewrite Hn.
  cbn [EvalModel.run_eval]. unfold bind at 1. by rewrite E.
Qed.
End top.
