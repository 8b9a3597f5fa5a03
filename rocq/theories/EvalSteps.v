(** One lemma for each way through a label of the evaluator. *)
From stdpp Require Import base gmap list fin_maps.
From Coq Require Import ZArith Lia.
From Coq Require Import ZifyBool ZifyNat.
From Verif Require Import CInt Symbols Heap HeapLemmas GcModel GcSpec DataModel DataSpec DataLemmas CoreProofs StackModel.
From Verif Require Import EvalModel Rep RepProofs EvalSpec EvalRep EvalLemmas EvalRun.
Open Scope Z_scope. Open Scope mes_scope.

Section globals.
Context {GE : genv}.
Notation consts_ok := (consts_ok GE).
Notation store_ok := (store_ok GE).


(** the local variables of the evaluator's main procedure may only change when there is a definition inside a body *)
Definition keeps (defs : bool) (v v' : locals) : Prop := v' = v \/ (defs = true /\ v' = Locals false false).
Lemma keeps_refl defs v : keeps defs v v.
Proof. by left. Qed.
Lemma keeps_trans defs v v' v'' : keeps defs v v' -> keeps defs v' v'' -> keeps defs v v''.
Proof. intros [->|[E ->]] [->|[E' ->]]; unfold keeps; tauto. Qed.
Section evaluator.
Context {defs : bool}.
Context (prim : Z -> list Z -> M Z) (load_program : Z -> M Z) (fuel : nat).
Notation step := (step GcModel.gc_check prim load_program fuel).
Notation steps := (steps prim load_program fuel).
Notation enough := (enough fuel).
Notation roomy := (roomy prim load_program fuel).

Lemma steps_trans l v s l1 v1 s1 l2 v2 s2 : steps l v s l1 v1 s1 -> steps l1 v1 s1 l2 v2 s2 -> steps l v s l2 v2 s2.
Proof. induction 1; [done|]. intros. econstructor; [done|auto]. Qed.
Lemma roomy_steps N l v s l1 v1 s1 : roomy N l v s -> steps l v s l1 v1 s1 -> roomy N l1 v1 s1.
Proof. intros H Hs l2 v2 s2 H2. eapply H. by eapply steps_trans. Qed.
Lemma roomy_le N N' l v s : roomy N' l v s -> 0 <= N <= N' -> roomy N l v s.
Proof.
  intros H Hle l1 v1 s1 Hs. destruct (H _ _ _ Hs) as [E1 (A1 & A2 & A3) E3 E4]. split; [lia| |lia|done].
  unfold can_alloc. lia.
Qed.

(** from label [l] and abstract state [M], memory permitting, the evaluator gets to [l'] and [M'] *)
Definition runs (N : Z) (l : label) (M : mst) (l' : label) (M' : mst) : Prop :=
  0 <= N /\ forall f v s, rep f M s -> roomy N l v s -> exists f' s' v', steps l v s l' v' s' /\ keeps defs v v' /\ rep f' M' s'.
Lemma runs_refl l M : runs 0 l M l M.
Proof. split; [lia|]. intros f v s R _. exists f, s, v. split; [constructor|]. split; [apply keeps_refl|done]. Qed.
Lemma runs_le N N' l M l' M' : runs N l M l' M' -> N <= N' -> runs N' l M l' M'.
Proof. intros [H0 H] Hle. split; [lia|]. intros f v s R Hr. eapply H; [done|]. eapply roomy_le; [done|lia]. Qed.
Lemma runs_trans N N' l M l1 M1 l2 M2 : runs N l M l1 M1 -> runs N' l1 M1 l2 M2 -> runs (Z.max N N') l M l2 M2.
Proof.
  intros [H0 H] [H0' H']. split; [lia|]. intros f v s R Hr.
  destruct (H f v s R) as (f1 & s1 & v1 & S1 & K1 & R1). { eapply roomy_le; [done|lia]. }
  destruct (H' f1 v1 s1 R1) as (f2 & s2 & v2 & S2 & K2 & R2). { eapply roomy_le; [by eapply roomy_steps|lia]. }
  exists f2, s2, v2. split; [by eapply steps_trans|]. split; [by eapply keeps_trans|done].
Qed.
Lemma runs_step N l M l' M' : 0 <= N -> (forall f v s, rep f M s -> enough N l s ->
    wp (step l v) s (fun n s' => n = Goto l' v /\ exists f', rep f' M' s')) -> runs N l M l' M'.
Proof.
  intros H0 H. split; [done|]. intros f v s R Hr.
  destruct (H f v s R) as (n & s' & E & -> & f' & R'). { apply (Hr l v). constructor. }
  exists f', s', v. split; [|split; [apply keeps_refl|done]]. econstructor; [done|constructor].
Qed.

Ltac w := first [apply wp_bind | apply wp_ret | apply wp_gets | apply wp_modify].
Ltac regs R := pose proof (rp_r0 _ _ _ R) as HR0; pose proof (rp_r1 _ _ _ R) as HR1;
  pose proof (rp_r2 _ _ _ R) as HR2; pose proof (rp_r3 _ _ _ R) as HR3; cbn in HR0, HR1, HR2, HR3.
Ltac const k := let H := fresh "K" in assert (cell_nil <= k <= cell_symbol_test) as H by (unfold cell_nil; vm_compute; split; congruence).

Ltac kc := (vm_compute; split; congruence).
Context (sz : Z) (gl : list id).
Notation MS σ r0 r1 r2 r3 st := (Mst σ r0 r1 r2 r3 st sz gl).
Notation frame c b x a e st := (c :: b :: x :: a :: e :: st).
Notation room st k := (Z.of_nat (length st) + 5 * k <= sz).

Lemma runs_dispatch k l σ r0 r1 r2 st : dispatch k = Some (Some l) -> is_const k ->
  runs 0 L_eval_apply (MS σ r0 r1 r2 (Imp k) st) l (MS σ r0 r1 r2 (Imp k) st).
Proof.
  intros Hd Hk. apply runs_step; [lia|]. intros f v s R En. cbn [EvalModel.step]. regs R. do 2 w.
  rewrite (const_val _ _ _ R _ _ HR3 Hk), Hd. w. split; [done|]. by exists f.
Qed.
Lemma runs_return σ r0 r1 r2 r3 c b x a e st :
  runs 0 L_vm_return (MS σ r0 r1 r2 r3 (frame c b x a e st)) L_eval_apply (MS σ a r1 b c st).
Proof.
  apply runs_step; [lia|]. intros f v s R En. cbn [EvalModel.step]. unfold return_with. regs R.
  destruct (rep_pop _ _ _ _ _ _ _ _ _ R eq_refl) as (s' & E & R' & _). do 2 w. w.
  eapply wp_eq; [exact E|]. do 2 w. w. w. w. split; [done|]. exists f.
  exact (rep_set_R1 _ _ _ _ _ R' HR1).
Qed.

(** * L_eval *)
Tactic Notation "eval_pair" hyp(R) hyp(H) ident(HR1) ident(c) ident(Hca) ident(Hcd) := cbn [EvalModel.step]; unfold step_eval; regs R; do 4 w; w;
  eapply (wp_rd _ _ _ R _ _ _ _ _ _ HR1 H); let Hc := fresh "Hc" in intros c Hc Hca Hcd; cbn [word_rel] in Hca, Hcd; rewrite Hc;
  change (TPAIR =? TPAIR) with true; cbv iota zeta.
Lemma runs_eval_const σ r0 i r2 r3 st v : code_at σ (EConst v) i ->
  runs 0 L_eval (MS σ r0 i r2 r3 st) L_vm_return (MS σ r0 i r2 r3 st).
Proof.
  intros H. inversion H as [? k o Hv Ho Hs| | | | | | | | | | | |]; subst. destruct o as [t a d| |]; try done. destruct Hs as [Ht _].
  apply runs_step; [lia|]. intros f v' s R En. cbn [EvalModel.step]; unfold step_eval; regs R; do 4 w; w.
  eapply (wp_rd _ _ _ R _ _ _ _ _ _ HR1 Ho). intros c -> _ _.
  destruct Ht as [->|[->|[->|[->| ->]]]]; (w; split; [done|]; by exists f).
Qed.
Lemma runs_eval_quote σ r0 i r2 r3 c b x a e st q : ilist σ i [Imp cell_symbol_quote; q] ->
  runs 0 L_eval (MS σ r0 i r2 r3 (frame c b x a e st)) L_eval_apply (MS σ a q b c st).
Proof.
  intros H. inversion H as [|k ? d ? Ho H1]; subst. inversion H1 as [|k' ? d' ? Ho' _]; subst.
  apply runs_step; [lia|]. intros f v s R En. eval_pair R Ho HR1 cl Hca Hcd.
  rewrite (const_val _ _ _ R _ _ Hca) by kc.
  change (cell_symbol_quote =? cell_symbol_pmatch_car) with false. change (cell_symbol_quote =? cell_symbol_pmatch_cdr) with false.
  rewrite Z.eqb_refl. cbv iota.
  destruct (rep_pop _ _ _ _ _ _ _ _ _ R eq_refl) as (s' & E & R' & _). w. eapply wp_eq; [exact E|].
  w. eapply (wp_cdr_of _ _ _ R' _ _ _ _ _ _ HR1 Ho). intros y Hy.
  w. eapply (wp_car_of _ _ _ R' _ _ _ _ _ _ Hy Ho'). intros z Hz. w. w. w. split; [done|]. exists f.
  exact (rep_set_R1 _ _ _ _ _ R' Hz).
Qed.
Lemma runs_eval_global σ r0 k r2 r3 st l x j : σ !! Imp k = Some (OCell TVARIABLE (WId (Loc l)) (WInt 0)) ->
  σ !! Loc l = Some (opair (Imp x) j) ->
  runs 0 L_eval (MS σ r0 (Imp k) r2 r3 st) L_vm_return (MS σ r0 j r2 r3 st).
Proof.
  intros Ho Hlo. apply runs_step; [lia|]. intros f v s R En.
  cbn [EvalModel.step]; unfold step_eval; regs R; do 4 w; w.
  eapply (wp_rd _ _ _ R _ _ _ _ _ _ HR1 Ho). intros c -> Hca _. cbn in Hca.
  change (TVARIABLE =? TPAIR) with false. change (TVARIABLE =? TSYMBOL) with false. rewrite Z.eqb_refl. cbv iota zeta.
  w. eapply (wp_cdr_of _ _ _ R _ _ _ _ _ _ Hca Hlo). intros y Hy. w. w. w. split; [done|]. exists f.
  exact (rep_set_R1 _ _ _ _ _ R Hy).
Qed.
(** the head of a form is one of the evaluator's symbols *)
Ltac head R Hca := rewrite (const_val _ _ _ R _ _ Hca) by kc;
  repeat match goal with |- context [?a =? ?b] => let e := eval vm_compute in (a =? b) in
    change (a =? b) with e; cbv iota end; cbn [orb].
Lemma runs_eval_lam σ r0 k k' fm b r2 r3 st k1 k2 k3 l :
  σ !! Imp k = Some (opair (Imp cell_symbol_lambda) (Imp k')) -> σ !! Imp k' = Some (opair fm b) ->
  σ !! Imp k1 = None -> σ !! Imp k2 = None -> σ !! Imp k3 = None -> k1 <> k2 -> k1 <> k3 -> k2 <> k3 -> σ !! Loc l = None ->
  runs 4 L_eval (MS σ r0 (Imp k) r2 r3 st) L_vm_return
    (MS (<[Loc l := OCell TCLOSURE (WInt cell_f) (WId (Imp k3))]> (<[Imp k3 := opair (Imp k1) (Imp k2)]>
         (<[Imp k2 := opair fm b]> (<[Imp k1 := opair (Imp cell_circular) r0]> σ)))) r0 (Loc l) r2 r3 st).
Proof.
  intros Ho Ho' F1 F2 F3 N12 N13 N23 Fl. apply runs_step; [lia|]. intros f v s R En. eval_pair R Ho HR1 cl Hca Hcd. head R Hca.
  w. eapply (wp_cdr_of _ _ _ R _ _ _ _ _ _ HR1 Ho). intros d Hd.
  w. eapply (wp_car_of _ _ _ R _ _ _ _ _ _ Hd Ho'). intros x Hx.
  w. eapply (wp_cdr_of _ _ _ R _ _ _ _ _ _ Hd Ho'). intros y Hy.
  pose proof (en_alloc _ _ _ _ En) as Ha. unfold make_closure_. do 2 w.
  eapply (wp_cons f _ s R (Imp k1) (Imp cell_circular) r0); [by eapply can_alloc_le; [exact Ha|lia]|done|eapply rep_const; [exact R|kc]|done|].
  intros f1 q1 s1 (G1 & A1 & _) Hq1 R1. specialize (A1 3 Ha). w.
  eapply (wp_cons f1 _ s1 R1 (Imp k2) fm b); [by eapply can_alloc_le; [exact A1|lia]|cbn; by rewrite lookup_insert_ne by congruence|auto|auto|].
  intros f2 q2 s2 (G2 & A2 & _) Hq2 R2. specialize (A2 2 A1). w.
  eapply (wp_cons f2 _ s2 R2 (Imp k3) (Imp k1) (Imp k2)); [by eapply can_alloc_le; [exact A2|lia]|cbn; by rewrite !lookup_insert_ne by congruence|auto|auto|].
  intros f3 q3 s3 (G3 & A3 & _) Hq3 R3. specialize (A3 1 A2).
  eapply (wp_make_cell f3 _ s3 R3 (Loc l) TCLOSURE (WInt cell_f) (WId (Imp k3))); [done|cbn; by rewrite !lookup_insert_ne by congruence|done|done|done|].
  intros f4 q4 s4 (G4 & _) Hq4 R4. w. w. w. split; [done|]. exists f4.
  exact (rep_set_R1 _ _ _ _ _ R4 Hq4).
Qed.
Lemma runs_eval_if σ r0 k d ic d' r2 r3 st : σ !! Imp k = Some (opair (Imp cell_symbol_if) d) -> σ !! d = Some (opair ic d') -> room st 1 ->
  runs 0 L_eval (MS σ r0 (Imp k) r2 r3 st) L_eval (MS σ r0 ic d r3 (frame (Imp cell_vm_if_expr) d d r0 (Imp cell_f) st)).
Proof.
  intros Ho Hd Hroom. eapply (runs_trans 0 0 _ _ L_vm_if (MS σ r0 d r2 r3 st)).
  - apply runs_step; [lia|]. intros f v s R En. eval_pair R Ho HR1 cl Hca Hcd. head R Hca.
    w. eapply (wp_cdr_of _ _ _ R _ _ _ _ _ _ HR1 Ho). intros y Hy. w. w. w. split; [done|]. exists f.
    exact (rep_set_R1 _ _ _ _ _ R Hy).
  - apply runs_step; [lia|]. intros f v s R En. cbn [EvalModel.step]. regs R. do 4 w. w.
    eapply (wp_car_of _ _ _ R _ _ _ _ _ _ HR1 Hd). intros y Hy. w.
    eapply (wp_push_cc _ _ _ R ic d r0 (Imp cell_vm_if_expr)); [cbn; lia|done|done|done|eapply rep_const; [exact R|kc]|].
    intros s' R'. w. split; [done|]. by exists f.
Qed.
Lemma runs_eval_set σ r0 k d x dd e r2 r3 st nil' : σ !! Imp k = Some (opair (Imp cell_symbol_set_x) d) -> σ !! d = Some (opair x dd) ->
  σ !! dd = Some (opair e nil') -> room st 1 ->
  runs 0 L_eval (MS σ r0 (Imp k) r2 r3 st) L_eval (MS σ r0 e (Imp k) r3 (frame (Imp cell_vm_eval_set_x) (Imp k) (Imp k) r0 (Imp cell_f) st)).
Proof.
  intros Ho Hd Hdd Hroom. apply runs_step; [lia|]. intros f v s R En. eval_pair R Ho HR1 cl Hca Hcd. head R Hca.
  w. eapply (wp_cdr_of _ _ _ R _ _ _ _ _ _ HR1 Ho). intros y Hy.
  w. eapply (wp_cdr_of _ _ _ R _ _ _ _ _ _ Hy Hd). intros y' Hy'.
  w. eapply (wp_car_of _ _ _ R _ _ _ _ _ _ Hy' Hdd). intros z Hz. w.
  eapply (wp_push_cc _ _ _ R e (Imp k) r0 (Imp cell_vm_eval_set_x)); [cbn; lia|done|done|done|eapply rep_const; [exact R|kc]|].
  intros s' R'. w. split; [done|]. by exists f.
Qed.
Lemma runs_eval_begin σ r0 k d r2 r3 st : σ !! Imp k = Some (opair (Imp cell_symbol_begin) d) ->
  runs 0 L_eval (MS σ r0 (Imp k) r2 r3 st) L_begin (MS σ r0 (Imp k) r2 r3 st).
Proof.
  intros Ho. apply runs_step; [lia|]. intros f v s R En. eval_pair R Ho HR1 cl Hca Hcd. head R Hca. w. split; [done|]. by exists f.
Qed.
Lemma runs_eval_begin_symbol σ r0 r2 r3 st : consts_ok σ ->
  runs 0 L_eval (MS σ r0 (Imp cell_symbol_begin) r2 r3 st) L_vm_return (MS σ r0 (Imp cell_symbol_begin) r2 r3 st).
Proof.
  intros C. destruct (cst_const _ _ C cell_symbol_begin) as (t & n & d & Ho & Ht & _); [kc|].
  apply runs_step; [lia|]. intros f v s R En. cbn [EvalModel.step]; unfold step_eval; regs R; do 4 w; w.
  eapply (wp_rd _ _ _ R _ _ _ _ _ _ HR1 Ho). intros c -> _ _. rewrite (const_val _ _ _ R _ _ HR1) by kc.
  destruct Ht as [->| ->]; (w; split; [done|]; by exists f).
Qed.
Lemma runs_eval_app σ r0 k op d r2 r3 st : consts_ok σ -> σ !! Imp k = Some (opair op d) -> (forall c, c ∈ reserved -> op <> Imp c) -> room st 2 ->
  runs 0 L_eval (MS σ r0 (Imp k) r2 r3 st) L_eval (MS σ r0 op (Imp k) r3 (frame (Imp cell_vm_eval_check_func) (Imp k) (Imp k) r0 (Imp cell_f) st)).
Proof.
  intros C Ho Hop Hroom. eapply (runs_trans 0 0 _ _ L_eval_operator (MS σ r0 op (Imp k) r3 (frame (Imp cell_vm_eval_check_func) (Imp k) (Imp k) r0 (Imp cell_f) st))).
  - apply runs_step; [lia|]. intros f v s R En. eval_pair R Ho HR1 cl Hca Hcd.
    assert (forall c', c' ∈ reserved -> (c_car cl =? c') = false) as Hne.
    { intros c' Hc'. eapply (neqc _ _ _ R _ _ _ Hca); [by apply reserved_const|by apply Hop]. }
    rewrite !Hne by (unfold reserved, hidden; cbn; set_solver). cbn [orb]. w.
    eapply (wp_push_cc _ _ _ R op (Imp k) r0 (Imp cell_vm_eval_check_func)); [cbn; lia|done|done|done|eapply rep_const; [exact R|kc]|].
    intros s' R'. w. split; [done|]. by exists f.
  - apply runs_step; [lia|]. intros f v s R En. cbn [EvalModel.step]. w.
    destruct (rep_gc_check _ _ _ R) as (f' & s' & E & R' & _).
    { destruct (rp_size _ _ _ R) as [_ Hs]. pose proof (rp_stack_size _ _ _ R) as Hsz. cbn in Hs, Hsz. lia. }
    { intros Hc. apply (en_room _ _ _ _ En). split; [by left|done]. }
    eapply wp_eq; [exact E|]. w. split; [done|]. by exists f'.
Qed.
End evaluator.
End globals.
