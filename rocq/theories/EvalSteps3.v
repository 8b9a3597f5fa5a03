(** Steps of the evaluator: conditionals, assignments, arguments, calls and sequences. *)
From stdpp Require Import base gmap list fin_maps.
From Coq Require Import ZArith Lia.
From Coq Require Import ZifyBool ZifyNat.
From Verif Require Import CInt Symbols Heap HeapLemmas GcModel GcSpec DataModel DataSpec DataLemmas CoreProofs StackModel.
From Verif Require Import EvalModel Rep RepProofs EvalSpec EvalRep EvalLemmas EvalBind EvalSplice EvalRun EvalSteps EvalSteps2.
Open Scope Z_scope. Open Scope mes_scope.

Section globals.
Context {GE : genv}.
Notation consts_ok := (consts_ok GE).
Notation store_ok := (store_ok GE).
Notation pairlis_ok := (pairlis_ok (GE := GE)).


Section evaluator.
Context {defs : bool}.
Context (prim : Z -> list Z -> M Z) (load_program : Z -> M Z) (fuel : nat).
Notation step := (step GcModel.gc_check prim load_program fuel).
Notation steps := (steps prim load_program fuel).
Notation enough := (enough fuel).
Notation roomy := (roomy prim load_program fuel).
Notation runs := (runs (defs := defs) prim load_program fuel).

(** like [runs], to a state with property [P] *)
Definition runsP (N : Z) (l : label) (M : mst) (l' : label) (P : mst -> Prop) : Prop :=
  0 <= N /\ forall f v s, rep f M s -> roomy N l v s ->
    exists f' s' M' v', steps l v s l' v' s' /\ keeps defs v v' /\ rep f' M' s' /\ P M'.
Lemma runsP_here N l M (P : mst -> Prop) : 0 <= N -> P M -> runsP N l M l P.
Proof. intros H0 HP. split; [done|]. intros f v s R _. exists f, s, M, v. split; [constructor|]. split; [apply keeps_refl|done]. Qed.
Lemma runsP_le N N' l M l' P : runsP N l M l' P -> N <= N' -> runsP N' l M l' P.
Proof. intros [H0 H] Hle. split; [lia|]. intros f v s R Hr. eapply H; [done|]. eapply roomy_le; [done|lia]. Qed.
Lemma runsP_mono N l M l' (P P' : mst -> Prop) : runsP N l M l' P -> (forall M', P M' -> P' M') -> runsP N l M l' P'.
Proof. intros [H0 H] HP. split; [done|]. intros f v s R Hr. destruct (H f v s R Hr) as (f' & s' & M' & v' & S' & K' & R' & HP'). exists f', s', M', v'. auto. Qed.
Lemma runsP_seq N N1 l M l1 (P1 : mst -> Prop) l2 P2 : runsP N1 l M l1 P1 -> N1 <= N -> (forall M1, P1 M1 -> runsP N l1 M1 l2 P2) -> runsP N l M l2 P2.
Proof.
  intros [H0 H] Hle H'. split; [lia|]. intros f v s R Hr.
  destruct (H f v s R) as (f1 & s1 & M1 & v1 & S1 & K1 & R1 & HP1). { eapply roomy_le; [done|lia]. }
  destruct (H' M1 HP1) as [_ H1]. destruct (H1 f1 v1 s1 R1) as (f2 & s2 & M2 & v2 & S2 & K2 & R2 & HP2). { by eapply roomy_steps. }
  exists f2, s2, M2, v2. split; [by eapply steps_trans|]. split; [by eapply keeps_trans|done].
Qed.
Lemma runsP_of N l M l' M' (P : mst -> Prop) : runs N l M l' M' -> P M' -> runsP N l M l' P.
Proof. intros [H0 H] HP. split; [done|]. intros f v s R Hr. destruct (H f v s R Hr) as (f' & s' & v' & S' & K' & R'). exists f', s', M', v'. auto. Qed.
Lemma runsP_bind N N1 l M l1 M1 l2 P2 : runs N1 l M l1 M1 -> N1 <= N -> runsP N l1 M1 l2 P2 -> runsP N l M l2 P2.
Proof. intros H Hle H'. eapply (runsP_seq _ _ _ _ _ (fun M' => M' = M1)); [by eapply runsP_of|done|]. by intros ? ->. Qed.
Lemma runsP_step N l M l' (P : mst -> Prop) : 0 <= N -> (forall f v s, rep f M s -> enough N l s ->
    wp (step l v) s (fun n s' => n = Goto l' v /\ exists f' M', rep f' M' s' /\ P M')) -> runsP N l M l' P.
Proof.
  intros H0 H. split; [done|]. intros f v s R Hr.
  destruct (H f v s R) as (n & s' & E & -> & f' & M' & R' & HP). { apply (Hr l v). constructor. }
  exists f', s', M', v. split; [|split; [apply keeps_refl|done]]. econstructor; [done|constructor].
Qed.

Ltac w := first [apply wp_bind | apply wp_ret | apply wp_gets | apply wp_modify].
Ltac regs R := pose proof (rp_r0 _ _ _ R) as HR0; pose proof (rp_r1 _ _ _ R) as HR1;
  pose proof (rp_r2 _ _ _ R) as HR2; pose proof (rp_r3 _ _ _ R) as HR3; cbn in HR0, HR1, HR2, HR3.
Ltac kc := (vm_compute; split; congruence).
Context (sz : Z) (gl : list id).
Notation MS σ r0 r1 r2 r3 st := (Mst σ r0 r1 r2 r3 st sz gl).
Notation frame c b x a e st := (c :: b :: x :: a :: e :: st).
Notation room st k := (Z.of_nat (length st) + 5 * k <= sz).
Notation runs_step := (runs_step prim load_program fuel).
Notation runs_trans := (runs_trans prim load_program fuel).

Context (Hgl : gl !! 3%nat = Some (ge_module GE)).
(** * Variables *)
Lemma runs_eval_var rs μ ρ σ r0 x r2 r3 st l j : consts_ok σ -> name_ok σ x -> env_at σ ρ r0 -> store_at rs μ σ -> store_ok μ -> env_ok μ ρ ->
  finds (ge_vars GE) μ x ρ l -> σ !! Loc l = Some (opair (Imp x) j) -> j <> Imp cell_undefined ->
  runsP 1 L_eval (MS σ r0 (Imp x) r2 r3 st) L_vm_return (fun M => exists σ', M = MS σ' r0 j r2 r3 st /\ grown σ σ').
Proof using Hgl.
  intros C Hx He S So Eo Hl Hlo Hj. apply runsP_step; [lia|]. intros f v s R En. pose proof Hx as [(n & d & Ho & _) Hr].
  cbn [EvalModel.step]; unfold step_eval; regs R; do 4 w; w.
  eapply (wp_rd _ _ _ R _ _ _ _ _ _ HR1 Ho). intros c -> _ _.
  change (TSYMBOL =? TPAIR) with false. change (TSYMBOL =? TSYMBOL) with true. cbv iota zeta.
  assert (forall k, k ∈ reserved -> (R1 s =? k) = false) as Hne.
  { intros k Hk. eapply (neqc _ _ _ R _ _ _ HR1); [by apply reserved_const|]. intros [= ->]. done. }
  rewrite !Hne by (unfold reserved, hidden; cbn; set_solver). cbn [orb]. w.
  unfold module_ref. w. eapply (wp_module_variable fuel f _ s rs μ ρ r0 (R0 s) x (R1 s) l); try done; [destruct En; lia|apply (en_alloc _ _ _ _ En)|].
  intros f' s' σ' r R' Hf' Hg Sh Hrl E1 E2. rewrite E1. eapply (wp_cdr_of _ _ _ R' _ _ _ _ _ _ Hrl); [cbn; rewrite (proj2 Hg); exact Hlo|]. intros y Hy.
  unfold assert_defined. rewrite (neqc _ _ _ R' _ _ _ Hy) by (done || kc). w. w. w. w. w. split; [done|]. eexists f', _. split.
  - exact (rep_set_R1 _ _ _ _ _ R' Hy).
  - by exists σ'.
Qed.

(** * Conditionals *)
Lemma runs_if_true σ r0 x d ic d' it d'' r3 st : σ !! d = Some (opair ic d') -> σ !! d' = Some (opair it d'') -> x <> Imp cell_f ->
  runs 0 L_if_expr (MS σ r0 x d r3 st) L_eval (MS σ r0 it d r3 st).
Proof.
  intros Hd Hd' Hx. apply runs_step; [lia|]. intros f v s R En. cbn [EvalModel.step]. regs R. do 4 w. do 2 w.
  pose proof (rep_set_R1 _ _ _ _ _ R HR2) as R'. w. eapply (wp_cdr_of _ _ _ R' _ _ _ _ _ _ HR2 Hd). intros y Hy.
  rewrite (neqc _ _ _ R _ _ _ HR1) by (done || kc). cbn [negb].
  w. eapply (wp_car_of _ _ _ R' _ _ _ _ _ _ Hy Hd'). intros z Hz. w. w. w. split; [done|]. exists f. exact (rep_set_R1 _ _ _ _ _ R' Hz).
Qed.
Lemma runs_if_false σ r0 d ic d' it d'' ie d3 r3 st : consts_ok σ -> σ !! d = Some (opair ic d') -> σ !! d' = Some (opair it d'') ->
  σ !! d'' = Some (opair ie d3) ->
  runs 0 L_if_expr (MS σ r0 (Imp cell_f) d r3 st) L_eval (MS σ r0 ie d r3 st).
Proof.
  intros C Hd Hd' Hd'' . apply runs_step; [lia|]. intros f v s R En. cbn [EvalModel.step]. regs R. do 4 w. do 2 w.
  pose proof (rep_set_R1 _ _ _ _ _ R HR2) as R'. w. eapply (wp_cdr_of _ _ _ R' _ _ _ _ _ _ HR2 Hd). intros y Hy.
  rewrite (eqc _ _ _ R _ _ _ HR1) by (done || kc). cbn [negb].
  w. eapply (wp_cdr_of _ _ _ R' _ _ _ _ _ _ Hy Hd'). intros z Hz.
  rewrite (neqc _ _ _ R' _ _ cell_nil Hz); [|kc|intros ->; by eapply nil_not_pair]. cbn [negb].
  w. eapply (wp_car_of _ _ _ R' _ _ _ _ _ _ Hz Hd''). intros u Hu. w. w. w. split; [done|]. exists f. exact (rep_set_R1 _ _ _ _ _ R' Hu).
Qed.
Lemma runs_if_none σ r0 d ic d' it r3 st : σ !! d = Some (opair ic d') -> σ !! d' = Some (opair it (Imp cell_nil)) ->
  runs 0 L_if_expr (MS σ r0 (Imp cell_f) d r3 st) L_vm_return (MS σ r0 (Imp cell_unspecified) d r3 st).
Proof.
  intros Hd Hd'. apply runs_step; [lia|]. intros f v s R En. cbn [EvalModel.step]. regs R. do 4 w. do 2 w.
  pose proof (rep_set_R1 _ _ _ _ _ R HR2) as R'. w. eapply (wp_cdr_of _ _ _ R' _ _ _ _ _ _ HR2 Hd). intros y Hy.
  rewrite (eqc _ _ _ R _ _ _ HR1) by (done || kc). cbn [negb].
  w. eapply (wp_cdr_of _ _ _ R' _ _ _ _ _ _ Hy Hd'). intros z Hz.
  rewrite (eqc _ _ _ R' _ _ cell_nil Hz) by (done || kc). cbn [negb]. w. w. w. split; [done|]. exists f.
  apply (rep_set_R1 _ _ _ _ _ R'). eapply rep_const; [exact R|kc].
Qed.

(** * Assignment *)
Lemma runs_set_local μ ρ σ r0 j i x ie l w0 r3 st : consts_ok σ -> ilist σ i [Imp cell_symbol_set_x; Imp x; ie] -> name_ok σ x ->
  env_at σ ρ r0 -> store_at [] μ σ -> store_ok μ -> env_ok μ ρ -> finds (ge_vars GE) μ x ρ l -> σ !! Loc l = Some (opair (Imp x) w0) ->
  runsP 1 L_eval_set_x (MS σ r0 j i r3 st) L_vm_return
    (fun M => exists σ', M = MS (<[Loc l := opair (Imp x) j]> σ') r0 (Imp cell_unspecified) i r3 st /\ grown σ σ').
Proof using Hgl.
  intros C Hl Hx He S So Eo Hlook Hlo. inversion Hl as [|k ? d ? Ho Hl']; subst. inversion Hl' as [|k' ? d' ? Ho' _]; subst.
  apply runsP_step; [lia|]. intros f v s R En. cbn [EvalModel.step]. regs R. do 6 w.
  w. eapply (wp_cdr_of _ _ _ R _ _ _ _ _ _ HR2 Ho). intros y Hy. w. eapply (wp_car_of _ _ _ R _ _ _ _ _ _ Hy Ho'). intros z Hz.
  w. unfold set_env_x. pose proof Hx as [(m & dd & Hxo & _) _]. w. eapply (wp_rd _ _ _ R _ _ _ _ _ _ Hz Hxo). intros c Hc _ _. rewrite Hc.
  change (TSYMBOL =? TVARIABLE) with false. cbv iota. w. w.
  eapply (wp_module_variable fuel f _ s [] μ ρ r0 _ x _ l); try done; [destruct En; lia|apply (en_alloc _ _ _ _ En)|].
  intros f' s' σ' r R' Hf' Hg Sh Hr E1 E2. unfold assert_defined. rewrite E2. w. w.
  assert (m_heap (with_heap σ' (MS σ r0 j (Imp k) r3 st)) !! Loc l = Some (opair (Imp x) w0)) as Hlo' by (cbn; rewrite (proj2 Hg); exact Hlo).
  eapply (wp_ty _ _ _ R' _ _ _ _ _ _ Hr Hlo').
  change (TPAIR =? TPAIR) with true. cbv iota. w. w. eapply (wp_set_cdr_x _ _ _ R' _ _ _ _ _ _ _ _ Hr Hlo' (Hf' _ _ HR1)). intros s2 R2.
  w. w. w. split; [done|]. eexists f', _. split; [refine (rep_set_R1 _ _ _ (Imp cell_unspecified) _ R2 _); eapply rep_const; [exact R2|kc]|]. by exists σ'.
Qed.
Lemma runs_set_global σ r0 j i k ie l x w0 r3 st : ilist σ i [Imp cell_symbol_set_x; Imp k; ie] ->
  σ !! Imp k = Some (OCell TVARIABLE (WId (Loc l)) (WInt 0)) -> σ !! Loc l = Some (opair (Imp x) w0) ->
  runs 0 L_eval_set_x (MS σ r0 j i r3 st) L_vm_return (MS (<[Loc l := opair (Imp x) j]> σ) r0 (Imp cell_unspecified) i r3 st).
Proof.
  intros Hl Hk Hlo. inversion Hl as [|k0 ? d ? Ho Hl']; subst. inversion Hl' as [|k' ? d' ? Ho' _]; subst.
  apply runs_step; [lia|]. intros f v s R En. cbn [EvalModel.step]. regs R. do 6 w.
  w. eapply (wp_cdr_of _ _ _ R _ _ _ _ _ _ HR2 Ho). intros y Hy. w. eapply (wp_car_of _ _ _ R _ _ _ _ _ _ Hy Ho'). intros z Hz.
  w. unfold set_env_x. w. eapply (wp_rd _ _ _ R _ _ _ _ _ _ Hz Hk). intros c Hc Hr _. rewrite Hc. cbn in Hr.
  change (TVARIABLE =? TVARIABLE) with true. cbv iota. w. w. w. eapply (wp_ty _ _ _ R _ _ _ _ _ _ Hr Hlo).
  change (TPAIR =? TPAIR) with true. cbv iota. w. w. eapply (wp_set_cdr_x _ _ _ R _ _ _ _ _ _ _ _ Hr Hlo HR1). intros s' R'.
  w. w. w. split; [done|]. exists f. apply (rep_set_R1 _ _ _ _ _ R'). eapply rep_const; [exact R'|kc].
Qed.

(** * Arguments *)
Lemma runs_check_func σ r0 r1 k op d r3 st : σ !! Imp k = Some (opair op d) -> room st 1 ->
  runs 0 L_eval_check_func (MS σ r0 r1 (Imp k) r3 st) L_evlis (MS σ r0 d (Imp k) r3 (frame (Imp cell_vm_eval2) (Imp k) r1 r0 (Imp cell_f) st)).
Proof.
  intros Ho Hroom. apply runs_step; [lia|]. intros f v s R En. cbn [EvalModel.step]. regs R. do 4 w.
  w. eapply (wp_cdr_of _ _ _ R _ _ _ _ _ _ HR2 Ho). intros y Hy. w.
  eapply (wp_push_cc _ _ _ R d (Imp k) r0 (Imp cell_vm_eval2)); [cbn; lia|done|done|done|eapply rep_const; [exact R|kc]|].
  intros s' R'. w. split; [done|]. by exists f.
Qed.
Lemma runs_evlis_nil σ r0 r2 r3 st : runs 0 L_evlis (MS σ r0 (Imp cell_nil) r2 r3 st) L_vm_return (MS σ r0 (Imp cell_nil) r2 r3 st).
Proof.
  apply runs_step; [lia|]. intros f v s R En. cbn [EvalModel.step]. regs R. do 2 w. rewrite (eqc _ _ _ R _ _ _ HR1) by (done || kc).
  w. split; [done|]. by exists f.
Qed.
Lemma runs_evlis_cons σ r0 k i d r2 r3 st : consts_ok σ -> σ !! Imp k = Some (opair i d) -> room st 1 ->
  runs 0 L_evlis (MS σ r0 (Imp k) r2 r3 st) L_eval (MS σ r0 i (Imp k) r3 (frame (Imp cell_vm_evlis2) (Imp k) (Imp k) r0 (Imp cell_f) st)).
Proof.
  intros C Ho Hroom. apply runs_step; [lia|]. intros f v s R En. cbn [EvalModel.step]. regs R. do 2 w.
  rewrite (neqc _ _ _ R _ _ cell_nil HR1); [|kc|intros [= ->]; by eapply nil_not_pair].
  w. eapply (wp_rd _ _ _ R _ _ _ _ _ _ HR1 Ho). intros c Hc Hca Hcd. rewrite Hc. change (negb (TPAIR =? TPAIR)) with false. cbv iota. cbn in Hca.
  do 3 w. eapply (wp_push_cc _ _ _ R i (Imp k) r0 (Imp cell_vm_evlis2)); [cbn; lia|done|done|done|eapply rep_const; [exact R|kc]|].
  intros s' R'. w. split; [done|]. by exists f.
Qed.
Lemma runs_evlis2 σ r0 j k i d r3 st : σ !! Imp k = Some (opair i d) -> room st 1 ->
  runs 0 L_evlis2 (MS σ r0 j (Imp k) r3 st) L_evlis (MS σ r0 d j r3 (frame (Imp cell_vm_evlis3) j j r0 (Imp cell_f) st)).
Proof.
  intros Ho Hroom. apply runs_step; [lia|]. intros f v s R En. cbn [EvalModel.step]. regs R. do 6 w.
  w. eapply (wp_cdr_of _ _ _ R _ _ _ _ _ _ HR2 Ho). intros y Hy. w.
  eapply (wp_push_cc _ _ _ R d j r0 (Imp cell_vm_evlis3)); [cbn; lia|done|done|done|eapply rep_const; [exact R|kc]|].
  intros s' R'. w. split; [done|]. by exists f.
Qed.
Lemma runs_evlis3 σ r0 ai j i r3 st : σ !! i = None ->
  runs 1 L_evlis3 (MS σ r0 ai j r3 st) L_vm_return (MS (<[i := opair j ai]> σ) r0 i j r3 st).
Proof.
  intros Hi. apply runs_step; [lia|]. intros f v s R En. cbn [EvalModel.step]. regs R. do 4 w.
  w. eapply (wp_cons _ _ _ R i j ai); [apply (en_alloc _ _ _ _ En)|done|done|done|]. intros f1 q1 s1 G Hq R1.
  w. w. w. split; [done|]. exists f1. exact (rep_set_R1 _ _ _ _ _ R1 Hq).
Qed.
Lemma runs_eval2 σ r0 ai k op d i r3 st : σ !! Imp k = Some (opair op d) -> σ !! i = None ->
  runs 1 L_eval2 (MS σ r0 ai (Imp k) r3 st) L_apply (MS (<[i := opair op ai]> σ) r0 i (Imp k) r3 st).
Proof.
  intros Ho Hi. apply runs_step; [lia|]. intros f v s R En. cbn [EvalModel.step]. regs R. do 4 w.
  w. eapply (wp_car_of _ _ _ R _ _ _ _ _ _ HR2 Ho). intros y Hy.
  w. eapply (wp_cons _ _ _ R i op ai); [apply (en_alloc _ _ _ _ En)|done|done|done|]. intros f1 q1 s1 G Hq R1.
  w. w. w. split; [done|]. exists f1. exact (rep_set_R1 _ _ _ _ _ R1 Hq).
Qed.

(** * Calls *)
Tactic Notation "apply_head" hyp(R) hyp(H) ident(HR1) ident(y) ident(Hy) ident(R') := cbn [EvalModel.step]; unfold step_apply; regs R; do 2 w;
  w; eapply (wp_car_of _ _ _ R _ _ _ _ _ _ HR1 H); intros y Hy; do 2 w;
  let Hs := fresh in let E := fresh in
  pose proof (rep_stack_set _ _ _ 4 _ _ R ltac:(cbn; lia) Hy) as Hs; change GC_FRAME_PROCEDURE with (Z.of_nat 4);
  destruct Hs as [E R']; w; eapply wp_eq; [exact E|]; cbn [m_stk list_insert insert with_stk] in R'.
Lemma runs_apply_var σ r0 i op ai r2 r3 c b x a p st : consts_ok σ -> σ !! i = Some (opair op ai) ->
  (exists y, op = Imp y /\ name_ok σ y) \/ (exists k l, op = Imp k /\ σ !! Imp k = Some (OCell TVARIABLE (WId (Loc l)) (WInt 0))) ->
  room (frame c b x a p st) 1 ->
  runs 0 L_apply (MS σ r0 i r2 r3 (frame c b x a p st)) L_eval
    (MS σ r0 op i r3 (frame (Imp cell_vm_apply2) i i r0 (Imp cell_f) (frame c b x a op st))).
Proof.
  intros C Ho Hop Hroom. apply runs_step; [lia|]. intros f v s R En. apply_head R Ho HR1 y Hy R'.
  destruct Hop as [(u & -> & [(n & d & Huo & _) Hres])|(k & l & -> & Hko)].
  - w. eapply (wp_ty _ _ _ R' _ _ _ _ _ _ Hy Huo). change (TSYMBOL =? TSTRUCT) with false. cbv iota. w. w.
    change (cell_f =? cell_t) with false. change (TSYMBOL =? TCLOSURE) with false. change (TSYMBOL =? TCONTINUATION) with false.
    change (TSYMBOL =? TSPECIAL) with false. change (TSYMBOL =? TSYMBOL) with true. change (TSYMBOL =? TPAIR) with false. cbn [andb]. cbv iota. w. w.
    assert (forall k, k ∈ reserved -> (y =? k) = false) as Hne.
    { intros k Hk. eapply (neqc _ _ _ R _ _ _ Hy); [by apply reserved_const|]. intros [= ->]. done. }
    rewrite !Hne by (unfold reserved, hidden; cbn; set_solver). cbv iota. w. w. change (cell_f =? cell_symbol_lambda) with false. cbv iota.
    do 3 w. eapply (wp_push_cc _ _ _ R' (Imp u) i r0 (Imp cell_vm_apply2)); [cbn in *; lia|done|done|done|eapply rep_const; [exact R|kc]|].
    intros s' R''. w. split; [done|]. by exists f.
  - w. eapply (wp_ty _ _ _ R' _ _ _ _ _ _ Hy Hko). change (TVARIABLE =? TSTRUCT) with false. cbv iota. w. w.
    change (cell_f =? cell_t) with false. change (TVARIABLE =? TCLOSURE) with false. change (TVARIABLE =? TCONTINUATION) with false.
    change (TVARIABLE =? TSPECIAL) with false. change (TVARIABLE =? TSYMBOL) with false. change (TVARIABLE =? TPAIR) with false. cbn [andb]. cbv iota. w. w.
    w. w. change (cell_f =? cell_symbol_lambda) with false. cbv iota.
    do 3 w. eapply (wp_push_cc _ _ _ R' (Imp k) i r0 (Imp cell_vm_apply2)); [cbn in *; lia|done|done|done|eapply rep_const; [exact R|kc]|].
    intros s' R''. w. split; [done|]. by exists f.
Qed.
Lemma runs_apply_exp σ r0 i k h t ai r2 r3 c b x a p st : consts_ok σ -> σ !! i = Some (opair (Imp k) ai) ->
  σ !! Imp k = Some (opair h t) -> h <> Imp cell_symbol_lambda -> room (frame c b x a p st) 1 ->
  runs 0 L_apply (MS σ r0 i r2 r3 (frame c b x a p st)) L_eval
    (MS σ r0 (Imp k) i r3 (frame (Imp cell_vm_apply2) i i r0 (Imp cell_f) (frame c b x a (Imp k) st))).
Proof.
  intros C Ho Hk Hh Hroom. apply runs_step; [lia|]. intros f v s R En. apply_head R Ho HR1 y Hy R'.
  w. eapply (wp_ty _ _ _ R' _ _ _ _ _ _ Hy Hk). change (TPAIR =? TSTRUCT) with false. cbv iota. w. w.
  change (cell_f =? cell_t) with false. change (TPAIR =? TCLOSURE) with false. change (TPAIR =? TCONTINUATION) with false.
  change (TPAIR =? TSPECIAL) with false. change (TPAIR =? TSYMBOL) with false. change (TPAIR =? TPAIR) with true. cbn [andb]. cbv iota. w. w.
  w. eapply (wp_car_of _ _ _ R' _ _ _ _ _ _ Hy Hk). intros z Hz. rewrite (neqc _ _ _ R' _ _ _ Hz) by (done || kc).
  do 3 w. eapply (wp_push_cc _ _ _ R' (Imp k) i r0 (Imp cell_vm_apply2)); [cbn in *; lia|done|done|done|eapply rep_const; [exact R|kc]|].
  intros s' R''. w. split; [done|]. by exists f.
Qed.
Lemma runs_apply2 σ r0 l o i op ai k r3 st : consts_ok σ -> σ !! i = Some (opair op ai) -> sobj_at σ o (Loc l) ->
  (exists xs r bd ρ, o = SClo xs r bd ρ) \/ (exists q n, o = SPrim q n) -> σ !! Imp k = None ->
  runs 1 L_apply2 (MS σ r0 (Loc l) i r3 st) L_apply (MS (<[Imp k := opair (Loc l) ai]> σ) r0 (Imp k) i r3 st).
Proof.
  intros C Ho Hso Hpr Hk. apply runs_step; [lia|]. intros f v s R En. cbn [EvalModel.step]. regs R. do 4 w.
  w. eapply (wp_check_apply _ _ _ R l o _ _ C HR1 Hso Hpr).
  w. eapply (wp_cdr_of _ _ _ R _ _ _ _ _ _ HR2 Ho). intros y Hy.
  w. eapply (wp_cons _ _ _ R (Imp k) (Loc l) ai); [apply (en_alloc _ _ _ _ En)|done|done|done|]. intros f1 q1 s1 G Hq R1.
  w. w. w. split; [done|]. exists f1. exact (rep_set_R1 _ _ _ _ _ R1 Hq).
Qed.

(** entering the body of a procedure *)
Definition entered (σ : oheap) (μ1 : store) (fr : Z) (ρ : env) (b r2 r3 : id) (st : list id) (M : mst) : Prop :=
  exists σ', M = MS σ' (Loc fr) b r2 r3 st /\ σ ⊆ σ' /\ store_at [] (<[fr := SFrame ρ]> μ1) σ'.
Lemma wp_call_lambda f M s b bp i p μ1 fr ρ (Q : unit -> state -> Prop) : rep f M s -> consts_ok (m_heap M) -> f b bp -> f i p -> env_at (m_heap M) ρ i -> store_at [] μ1 (m_heap M) ->
  μ1 !! fr = None -> can_alloc 2 s ->
  (forall f' s' σ', rep f' (with_r1 b (with_r0 (Loc fr) (with_heap σ' M))) s' -> m_heap M ⊆ σ' -> store_at [] (<[fr := SFrame ρ]> μ1) σ' -> Q tt s') ->
  wp (call_lambda bp p) s Q.
Proof.
  intros R C Hb Hi He S Hfr Ha HQ. unfold call_lambda.
  destruct (fresh_key (m_heap M)) as (k & Hk). w. eapply (wp_cons _ _ _ R (Key k) (Imp cell_closure) i); [eapply can_alloc_le; [done|lia]|done|eapply rep_const; [exact R|kc]|done|].
  intros f1 q1 s1 (G1 & A1 & _) Hq1 R1.
  assert (m_heap M !! Loc fr = None) as Fl. { apply (sa_free _ _ _ S); [done|]. intros Hin. by apply elem_of_nil in Hin. }
  assert (<[Key k := opair (Imp cell_closure) i]> (m_heap M) !! Loc fr = None) as Fl' by by rewrite lookup_insert_ne.
  w. eapply (wp_cons _ _ _ R1 (Loc fr) (Key k) i); [by apply A1|done|done|by apply G1|]. intros f2 q2 s2 (G2 & _) Hq2 R2.
  w. w. w. apply (HQ f2 _ (<[Loc fr := opair (Key k) i]> (<[Key k := opair (Imp cell_closure) i]> (m_heap M)))).
  - exact (rep_set_R0 _ _ _ _ _ (rep_set_R1 _ _ _ _ _ R2 (G2 _ _ (G1 _ _ Hb))) Hq2).
  - etrans; by apply insert_subseteq.
  - apply store_at_put.
    + eapply store_at_heap; [exact S|by apply ext_new|]. intros l. by rewrite lookup_insert_ne.
    + exists k, i, i. rewrite lookup_insert. split; [done|]. rewrite lookup_insert_ne, lookup_insert by done. split; [done|].
      eapply env_at_ext; [|exact He]. eapply ext_trans; by apply ext_new.
Qed.
(** the environment of the body of a closure *)
Lemma env_tail rs μ σ ρ ρ' i : store_at rs μ σ -> env_at σ ρ i -> closure_env μ ρ = Some ρ' ->
  exists a d, σ !! i = Some (opair a d) /\ env_at σ ρ' d.
Proof.
  intros S He Hc. inversion He as [|? k e d key w Ho Ho' Hkey He'|? ? ? k d Ho He'|fr]; subst; cbn in Hc; [done|injection Hc as <-; eauto..|].
  destruct (μ !! fr) as [[]|] eqn:Hf; try done. injection Hc as <-.
  destruct (sa_obj _ _ _ S _ _ Hf) as (k & d & w & Hfo & Hko & Hd). eauto.
Qed.
Lemma with_heap_id M : with_heap (m_heap M) M = M.
Proof. by destruct M. Qed.

Definition good_js (js : list (option Z)) (vs : list val) (μ : store) : Prop :=
  length js = length vs /\ NoDup (locs_of js) /\ (forall l, l ∈ locs_of js -> μ !! l = None) /\
  exists n ls, js = replicate n None ++ map Some ls.
Lemma runs_apply_clo xs r vs μ ρ1 μ1 bd js : bind_args xs r vs μ ρ1 μ1 -> pairlis_ok xs r vs μ ρ1 μ1 js ->
  forall l ρ ρ' fr σ r0 i ai r2 r3 c b x a p st,
    μ !! l = Some (SClo xs r bd ρ) -> closure_env μ ρ = Some ρ' -> μ1 !! fr = None -> consts_ok σ -> σ !! i = Some (opair (Loc l) ai) -> alist_at σ js vs ai -> store_at (locs_of js) μ σ ->
    runsP (2 * (Z.of_nat (length xs) + 1) + 2) L_apply (MS σ r0 i r2 r3 (frame c b x a p st)) L_begin
      (fun M => exists bi, codes_at σ bd bi /\ entered σ μ1 fr (extend ρ1 ρ') bi r2 r3 (frame c b x a (Loc l) st) M).
Proof.
  intros Hb Hp. destruct (bind_args_length _ _ _ _ _ _ Hb) as [Hle Hr].
  intros l ρ ρ' fr σ r0 i ai r2 r3 c b x a p st Hl Hcl_ Hfr C Ho Hal S.
  destruct (sa_obj _ _ _ S _ _ Hl) as (k & kc_ & ke & ca & fm & bi & Hlo & Hk & Hkc & Hcur & Hke & Hfm & Hbd).
  apply runsP_step; [lia|]. intros f v s R En. apply_head R Ho HR1 y Hy R'.
  w. eapply (wp_ty _ _ _ R' _ _ _ _ _ _ Hy Hlo). change (TCLOSURE =? TSTRUCT) with false. cbv iota. w. w.
  change (cell_f =? cell_t) with false. change (TCLOSURE =? TCLOSURE) with true. cbv iota.
  w. eapply (wp_cdr_of _ _ _ R' _ _ _ _ _ _ Hy Hlo). intros cl Hcl.
  w. eapply (wp_cdr_of _ _ _ R' _ _ _ _ _ _ Hcl Hk). intros cd Hcd.
  w. eapply (wp_cdr_of _ _ _ R' _ _ _ _ _ _ Hcd Hke). intros bp Hbp.
  w. eapply (wp_car_of _ _ _ R' _ _ _ _ _ _ Hcd Hke). intros fp Hfp.
  w. eapply (wp_cdr_of _ _ _ R' _ _ _ _ _ _ HR1 Ho). intros ap Hap.
  w. eapply (wp_car_of _ _ _ R' _ _ _ _ _ _ Hcl Hk). intros cap Hcap.
  w. eapply (wp_cdr_of _ _ _ R' _ _ _ _ _ _ Hcap Hkc). intros aa Haa.
  destruct (env_tail _ _ _ _ _ _ S Hcur Hcl_) as (er & dr & Hkr & Henv).
  w. eapply (wp_cdr_of _ _ _ R' _ _ _ _ _ _ Haa Hkr). intros ep Hep.
  destruct (alist_ml _ _ _ _ Hal) as (es & Hml & Hfv). pose proof (Forall2_length _ _ _ Hfv) as Hlen.
  destruct (ml_list _ _ _ _ _ _ R' C Hap Hml) as (_ & _ & _ & Hlt).
  set (s1 := set_g_stack_array _ s) in *. assert (can_alloc (2 * (Z.of_nat (length xs) + 1) + 2) s1) as Ha by exact (en_alloc _ _ _ _ En).
  assert (g_free s1 <= Z.of_nat fuel) as Hfu by (cbn; destruct En; lia).
  w. eapply (wp_check_names _ _ _ R' fuel _ xs r fm fp js vs ai ap _ C Hfp Hfm Hap Hal); [done|done|done|].
  w. eapply (Hp fuel f _ s1 fm fp ai ap dr ep ρ' _ R' C Hfp Hfm Hap Hal Hep Henv S); [eapply can_alloc_le; [exact Ha|lia]|lia|].
  intros f' q i' s' σ' R2 G Hq Sub S1 Env Sh. cbn in Sub.
  w. eapply (wp_call_lambda f' _ s' bi bp i' q μ1 fr (extend ρ1 ρ')); [exact R2|eapply consts_ok_ext; [by apply ext_sub|done]|by apply G|done|exact Env|exact S1|exact Hfr|apply (proj1 Sh); eapply can_alloc_le; [exact Ha|lia]|].
  intros f3 s3 σ3 R3 Sub3 S3. w. split; [done|]. exists f3. eexists. split; [exact R3|].
  exists bi. split; [done|]. exists σ3. cbn in Sub3. split; [done|]. split; [by etrans|done].
Qed.
Lemma runs_apply_lam xs r vs μ ρ1 μ1 bd js : bind_args xs r vs μ ρ1 μ1 -> pairlis_ok xs r vs μ ρ1 μ1 js ->
  forall ρ fr σ r0 i fi ai r2 r3 c b x a p st,
    code_at σ (ELam xs r bd) fi -> μ1 !! fr = None -> env_at σ ρ r0 -> consts_ok σ -> σ !! i = Some (opair fi ai) -> alist_at σ js vs ai -> store_at (locs_of js) μ σ ->
    runsP (2 * (Z.of_nat (length xs) + 1) + 2) L_apply (MS σ r0 i r2 r3 (frame c b x a p st)) L_begin
      (fun M => exists bi, codes_at σ bd bi /\ entered σ μ1 fr (extend ρ1 ρ) bi r2 r3 (frame c b x a fi st) M).
Proof.
  intros Hb Hp. destruct (bind_args_length _ _ _ _ _ _ Hb) as [Hle Hr].
  intros ρ fr σ r0 i fi ai r2 r3 c b x a p st Hlam Hfr Hcur C Ho Hal S.
  inversion Hlam as [| | | | | |? ? ? k k' fm bi Hk Hk' Hfm Hbd| | | | | |]; subst.
  apply runsP_step; [lia|]. intros f v s R En. apply_head R Ho HR1 y Hy R'.
  w. eapply (wp_ty _ _ _ R' _ _ _ _ _ _ Hy Hk). change (TPAIR =? TSTRUCT) with false. cbv iota. w. w.
  change (cell_f =? cell_t) with false. change (TPAIR =? TCLOSURE) with false. change (TPAIR =? TCONTINUATION) with false.
  change (TPAIR =? TSPECIAL) with false. change (TPAIR =? TSYMBOL) with false. change (TPAIR =? TPAIR) with true. cbn [andb]. cbv iota. w. w.
  w. eapply (wp_car_of _ _ _ R' _ _ _ _ _ _ Hy Hk). intros z Hz. rewrite (eqc _ _ _ R' _ _ _ Hz) by (done || kc).
  w. eapply (wp_cdr_of _ _ _ R' _ _ _ _ _ _ Hy Hk). intros ad Had.
  w. eapply (wp_car_of _ _ _ R' _ _ _ _ _ _ Had Hk'). intros fp Hfp.
  w. eapply (wp_cdr_of _ _ _ R' _ _ _ _ _ _ HR1 Ho). intros ap Hap.
  w. eapply (wp_cdr_of _ _ _ R' _ _ _ _ _ _ Had Hk'). intros bp Hbp. do 2 w.
  destruct (alist_ml _ _ _ _ Hal) as (es & Hml & Hfv). pose proof (Forall2_length _ _ _ Hfv) as Hlen.
  destruct (ml_list _ _ _ _ _ _ R' C Hap Hml) as (_ & _ & _ & Hlt).
  set (s1 := set_g_stack_array _ s) in *. assert (can_alloc (2 * (Z.of_nat (length xs) + 1) + 2) s1) as Ha by exact (en_alloc _ _ _ _ En).
  assert (g_free s1 + (2 * (Z.of_nat (length xs) + 1) + 2) <= Z.of_nat fuel) as Hfu by (cbn; destruct En; lia).
  w. eapply (Hp fuel f _ s1 fm fp ai ap r0 _ ρ _ R' C Hfp Hfm Hap Hal HR0 Hcur S); [eapply can_alloc_le; [exact Ha|lia]|lia|].
  intros f' q i' s' σ' R2 G Hq Sub S1 Env Sh. cbn in Sub.
  assert (g_free s' <= Z.of_nat fuel) as Hfu'. { destruct Sh as [_ Sh]. cbn in *. lia. }
  w. eapply (wp_check_names _ _ _ R2 fuel _ xs r fm fp js vs ai ap); [eapply consts_ok_ext; [by apply ext_sub|done]|by apply G|eapply names_at_ext; [by apply ext_sub|done]|by apply G|by eapply alist_at_sub|done|done|done|].
  w. eapply (wp_call_lambda f' _ s' bi bp i' q μ1 fr (extend ρ1 ρ)); [exact R2|eapply consts_ok_ext; [by apply ext_sub|done]|by apply G|done|exact Env|exact S1|exact Hfr|apply (proj1 Sh); eapply can_alloc_le; [exact Ha|lia]|].
  intros f3 s3 σ3 R3 Sub3 S3. w. split; [done|]. exists f3. eexists. split; [exact R3|].
  exists bi. split; [done|]. exists σ3. cbn in Sub3. split; [done|]. split; [by etrans|done].
Qed.
End evaluator.
End globals.
