(** From steps of the evaluator to runs of eval_apply. *)
From stdpp Require Import base gmap list fin_maps.
From Coq Require Import ZArith Lia.
From Coq Require Import ZifyBool ZifyNat.
From Verif Require Import CInt Symbols Heap HeapLemmas GcModel GcSpec DataModel DataSpec DataLemmas CoreProofs StackModel.
From Verif Require Import EvalModel Rep RepProofs EvalSpec EvalRep EvalLemmas EvalBind EvalSplice EvalRun EvalSteps EvalSteps2 EvalSteps3 EvalSteps4 EvalMain.
From Verif Require Import PrimModel EvalPrimSpec EvalPrims.
Open Scope Z_scope. Open Scope mes_scope.

Section evaluator.
Context (prim : Z -> list Z -> M Z) (load_program : Z -> M Z) (fuel : nat).
Notation run_eval := (run_eval GcModel.gc_check prim load_program fuel).
Notation steps := (steps prim load_program fuel).

Lemma steps_run l v s l' v' s' : steps l v s l' v' s' -> exists n, forall m, run_eval (n + m)%nat l v s = run_eval m l' v' s'.
Proof.
  induction 1 as [l v s|l v s l1 v1 s1 l2 v2 s2 H _ (n & IH)]; [by exists 0%nat|].
  exists (S n). intros m. cbn [Nat.add EvalModel.run_eval]. rewrite (bind_ok _ _ _ _ _ H). apply IH.
Qed.
(** the frame of the caller of eval_apply is on top, and R1 is the result *)
Lemma steps_return l v s v' s' : steps l v s L_eval_apply v' s' -> R3 s' = cell_unspecified ->
  exists n, forall m, (n <= m)%nat -> run_eval m l v s = ROk (R1 s') s'.
Proof.
  intros H HR. destruct (steps_run _ _ _ _ _ _ H) as (n & Hn). exists (S n). intros m Hm.
  replace m with (n + S (m - S n))%nat by lia. rewrite Hn. cbn [EvalModel.run_eval EvalModel.step].
  run. rewrite HR. done.
Qed.
End evaluator.

(** memory that one step needs *)
Definition step_memory (width : nat) : Z := 2 * Z.of_nat width + 12.

Section top.
Context (GE : genv) (defs : bool).
Notation consts_ok := (consts_ok GE).
Notation store_ok := (store_ok GE).
Context (load_program : nat -> Z -> M Z) (fuel : nat).
Notation steps := (steps (prim_call fuel) (load_program fuel) fuel).
Notation roomy := (roomy (prim_call fuel) (load_program fuel) fuel).
Notation eval_apply := (eval_apply GcModel.gc_check (prim_call fuel) (load_program fuel) fuel).

Lemma eval_top width d ρ μ e μ' v : eval width (prims width) (ge_vars GE) defs d ρ μ e μ' v -> env_ok μ ρ -> store_ok μ ->
  forall f s σ r0 i r2 c b x a p st sz gl,
    rep f (Mst σ r0 i r2 (Imp cell_vm_eval) (Imp c :: b :: x :: a :: p :: st) sz gl) s -> c = cell_unspecified ->
    consts_ok σ -> code_at σ e i -> env_at σ ρ r0 -> store_at [] μ σ ->
    gl !! 3%nat = Some (ge_module GE) -> Z.of_nat (length st) + 5 * (Z.of_nat d + 2) <= sz ->
    roomy (step_memory width) L_eval_apply (Locals false false) s ->
    exists n q s' f' σ' j, (forall m, (n <= m)%nat -> eval_apply m s = ROk q s')
      /\ rep f' (Mst σ' a j b (Imp c) st sz gl) s' /\ f' j q /\ val_at σ' v j /\ store_at [] μ' σ' /\ ext σ σ'.
Proof.
  intros H Eo So f s σ r0 i r2 c b x a p st sz gl R -> C Hc He S Hgl Hsz Hroom.
  destruct (eval_sound (GE := GE) (defs := defs) prim_call load_program sz gl width Hgl (prims width) (prims_ok width) (prims_frame width) _ _ _ _ _ _ H Eo So) as (_ & _ & Hrun).
  assert (runsP (defs := defs) (prim_call fuel) (load_program fuel) fuel (step_memory width) L_eval_apply
     (Mst σ r0 i r2 (Imp cell_vm_eval) (Imp cell_unspecified :: b :: x :: a :: p :: st) sz gl) L_eval_apply (returned sz gl μ' v σ a b (Imp cell_unspecified) st)) as [_ Hr].
  { eapply runsP_bind; [apply (runs_dispatch _ _ _ _ _ cell_vm_eval L_eval); [reflexivity|vm_compute; split; congruence]|unfold step_memory; lia|].
    apply Hrun; try done. cbn. lia. }
  destruct (Hr f _ s R Hroom) as (f' & s' & M' & v' & St & _ & R' & σ' & j & -> & X & S' & V).
  destruct (steps_return _ _ _ _ _ _ _ _ St) as (n & Hn).
  { pose proof (rp_r3 _ _ _ R') as H3. cbn in H3. eapply (rh_fun _ _ _ (rp_heap _ _ _ R')); [exact H3|].
    eapply rep_const; [exact R'|]. vm_compute; split; congruence. }
  exists n, (R1 s'), s', f', σ', j. split; [exact Hn|]. split; [exact R'|]. split; [exact (rp_r1 _ _ _ R')|]. done.
Qed.
End top.
