(** C48: what a program does that goes wrong. *)
From stdpp Require Import base gmap list fin_maps.
From Coq Require Import ZArith Lia.
From Coq Require Import ZifyBool ZifyNat.
From Verif Require Import CInt Symbols Heap HeapLemmas GcModel GcSpec GcCheck DataModel BootModel Builtins DataSpec.
From Verif Require Import EvalModel Rep EvalSpec EvalRep EvalRun RepProofs EvalSteps PrimModel EvalPrimSpec EvalErrSpec EvalRaise EvalTop EvalErrTop EvalCheck Samples.
From Verif Require Import TopSpec TopErrSpec TopRep TopRun TopMain TopCheck TopErr PropsEval PropsErr PropsTop.
Import Strings.String.StringSyntax.
Open Scope Z_scope. Open Scope mes_scope.

(** C48.  [s] is a state in which a program, the list [i] of forms, is to be run, as in C44.  If the
    semantics of programs (TopErrSpec.v) says that the forms up to some form are run and that this
    form signals the error with key [key] and irritant [w], the store being [μ'] by then, then the
    evaluator calls error() with exactly that key and that irritant, with the store [μ']: the forms
    before have had their effects, the form itself those it has before the error, and the forms
    after it none. *)
Theorem C48_programs_signal T xs m load fuel width d ρ gs μ es μ' key w :
  program_raises width (prims width) prim_errs d ρ xs gs μ es μ' key w ->
  forall f s σ r0 i r2 r2' x r0' p st sz gl ts D K,
    rep f (Mst σ r0 i r2 (Imp cell_vm_begin_expand) (Imp cell_unspecified :: r2' :: x :: r0' :: p :: st) sz gl) s ->
    world T xs m ρ gs μ σ r0 -> forms T xs m σ i ts es ->
    NoDup (all_nodes ts) -> Forall (untouched (all_nodes ts)) (r2' :: x :: r0' :: p :: st ++ gl) ->
    gl !! 1%nat = Some (Imp m) -> gl !! 3%nat = Some (Imp (tb_module T)) ->
    Forall (fun t => (depth t <= D)%nat /\ 4 * size t <= K) ts -> 0 <= K ->
    Z.of_nat (length st) + 5 * (Z.of_nat (Nat.max d D) + 4) <= sz ->
    roomy_ load fuel (step_memory width + K) L_eval_apply (Locals false false) s ->
    texts_ load fuel L_eval_apply (Locals false false) s ->
    exists n kx x s', (forall k, (n <= k)%nat -> eval_apply_ load fuel k s = RThrow kx x s')
      /\ exists f' M jk j, rep f' M s' /\ f' jk kx /\ val_at (m_heap M) key jk
           /\ f' j x /\ irritant_at (m_heap M) w j /\ store_at [] μ' (m_heap M).
Proof.
  intros H f s σ r0 i r2 r2' x r0' p st sz gl ts D K R W F Hnd Hu Hm HM Hsz HK Hst Hroom Ht.
  assert (runsX (prim_call fuel) (load fuel) fuel (step_memory width + K) L_eval_apply
     (Mst σ r0 i r2 (Imp cell_vm_begin_expand) (Imp cell_unspecified :: r2' :: x :: r0' :: p :: st) sz gl) μ' key w) as [_ Hr].
  { eapply (runsX_bind (defs := true)); [apply (runs_dispatch _ _ _ _ _ cell_vm_begin_expand L_begin_expand); [reflexivity|vm_compute; split; congruence]|unfold step_memory; lia|].
    eapply (program_wrong T xs m ρ width d load fuel sz gl HM Hm gs μ es μ' key w H (step_memory width + K) K D);
      [apply (arrives_start xs)|exact W|exact F|exact Hnd| |exact Hsz|cbn [length]; lia..|exact HK|unfold step_memory; lia].
    cbn. constructor; [by intros ? _|exact Hu]. }
  destruct (Hr f _ s R Hroom Ht) as (l1 & v1 & s1 & St & kx & x1 & s' & E & Hra).
  destruct (steps_run _ _ _ _ _ _ _ _ _ St) as (n & Hn). exists (Datatypes.S n), kx, x1, s'. split; [|done].
  intros k Hk. unfold EvalModel.eval_apply. replace k with (n + Datatypes.S (k - Datatypes.S n))%nat by lia. rewrite Hn.
  cbn [EvalModel.run_eval]. unfold bind at 1. by rewrite E.
Qed.

(** What the handler sees. *)
Corollary C48_what_the_handler_sees T xs m load fuel width d ρ gs μ es μ' key w :
  program_raises width (prims width) prim_errs d ρ xs gs μ es μ' key w ->
  forall f s σ r0 i r2 r2' x r0' p st sz gl ts D K,
    rep f (Mst σ r0 i r2 (Imp cell_vm_begin_expand) (Imp cell_unspecified :: r2' :: x :: r0' :: p :: st) sz gl) s ->
    world T xs m ρ gs μ σ r0 -> forms T xs m σ i ts es ->
    NoDup (all_nodes ts) -> Forall (untouched (all_nodes ts)) (r2' :: x :: r0' :: p :: st ++ gl) ->
    gl !! 1%nat = Some (Imp m) -> gl !! 3%nat = Some (Imp (tb_module T)) ->
    Forall (fun t => (depth t <= D)%nat /\ 4 * size t <= K) ts -> 0 <= K ->
    Z.of_nat (length st) + 5 * (Z.of_nat (Nat.max d D) + 4) <= sz ->
    roomy_ load fuel (step_memory width + K) L_eval_apply (Locals false false) s ->
    texts_ load fuel L_eval_apply (Locals false false) s ->
    exists n kx x s', (forall k, (n <= k)%nat -> eval_apply_ load fuel k s = RThrow kx x s')
      /\ is_simple s' key kx /\ is_irritant s' w x.
Proof.
  intros H f s σ r0 i r2 r2' x r0' p st sz gl ts D K R W F Hnd Hu Hm HM Hsz HK Hst Hroom Ht.
  destruct (C48_programs_signal T xs m load fuel width d ρ gs μ es μ' key w H f s σ r0 i r2 r2' x r0' p st sz gl ts D K R W F Hnd Hu Hm HM Hsz HK Hst Hroom Ht)
    as (n & kx & x1 & s' & H1 & f' & M & jk & j & R' & Fk & Hk & Fx & Hx & _).
  exists n, kx, x1, s'. split; [done|]. split; [by eapply simple_cell|by eapply irritant_cell].
Qed.

(** A program does not both come to its end and signal an error. *)
Theorem C48_value_or_error T xs m load fuel width d ρ gs μ es gs1 μ1 v d' μ' key w :
  run_program width (prims width) d ρ gs μ v_unspecified es gs1 μ1 v ->
  program_raises width (prims width) prim_errs d' ρ xs gs μ es μ' key w ->
  forall f s σ r0 i r2 r2' x r0' p st sz gl ts D K,
    rep f (Mst σ r0 i r2 (Imp cell_vm_begin_expand) (Imp cell_unspecified :: r2' :: x :: r0' :: p :: st) sz gl) s ->
    world T xs m ρ gs μ σ r0 -> forms T xs m σ i ts es ->
    NoDup (all_nodes ts) -> Forall (untouched (all_nodes ts)) (r2' :: x :: r0' :: p :: st ++ gl) ->
    gl !! 1%nat = Some (Imp m) -> gl !! 3%nat = Some (Imp (tb_module T)) ->
    Forall (fun t => (depth t <= D)%nat /\ 4 * size t <= K) ts -> 0 <= K ->
    Z.of_nat (length st) + 5 * (Z.of_nat (Nat.max (Nat.max d d') D) + 4) <= sz ->
    roomy_ load fuel (step_memory width + K) L_eval_apply (Locals false false) s ->
    texts_ load fuel L_eval_apply (Locals false false) s -> False.
Proof.
  intros H H' f s σ r0 i r2 r2' x r0' p st sz gl ts D K R W F Hnd Hu Hm HM Hsz HK Hst Hroom Ht.
  destruct (C44_programs T xs m load fuel width d ρ gs μ es gs1 μ1 v H f s σ r0 i r2 r2' x r0' p st sz gl ts D K R W F Hnd Hu Hm HM Hsz HK ltac:(lia) Hroom)
    as (n & q & s1 & _ & _ & _ & H1 & _).
  destruct (C48_programs_signal T xs m load fuel width d' ρ gs μ es μ' key w H' f s σ r0 i r2 r2' x r0' p st sz gl ts D K R W F Hnd Hu Hm HM Hsz HK ltac:(lia) Hroom Ht)
    as (n' & kx & x1 & s' & H2 & _).
  specialize (H1 (n `max` n')%nat ltac:(lia)). specialize (H2 (n `max` n')%nat ltac:(lia)). congruence.
Qed.

(** * Concrete runs *)
(** (define k 2)
    (begin (set! k 7) (car k))
    (set! k 100) *)
Definition car_program : list (M Z) :=
  let car := sym (bytes_of "car") in let k := sym (bytes_of "k") in
  [list_m [ret cell_symbol_define; k; make_number 2];
   list_m [ret cell_symbol_begin; list_m [ret cell_symbol_set_x; k; make_number 7]; list_m [car; k]];
   list_m [ret cell_symbol_set_x; k; make_number 100]].
(** (f k) with global variables [f], the procedure car, and [k], the number [n] *)
Definition car_form_chk (n : Z) (gs : list (Z * Z)) (μ : store) (e : exp) : bool :=
  match e with
  | EApp (EVar c) [EVar k] =>
      match lookup_var c gs, lookup_var k gs with
      | Some gc, Some gk =>
          match μ !! gc, μ !! gk with
          | Some (SVar _ (VLoc pg)), Some (SVar _ (VNum n')) => (n' =? n) && match μ !! pg with Some (SPrim f a) => (f =? fn_car) && (a =? 1) | _ => false end
          | _, _ => false
          end
      | _, _ => false
      end
  | _ => false
  end.
Lemma car_form_chk_ok w d xs n gs ρ μ e : car_form_chk n gs μ e = true ->
  form_raises w (prims w) prim_errs (S (S d)) ρ xs gs μ e μ (VAtom cell_symbol_not_a_pair) (IPair (VNum n) (VAtom cell_symbol_car)).
Proof.
  unfold car_form_chk. intros H. destruct e as [| | | | | | | | | | | |f fs]; try done. destruct f as [| |c| | | | | | | | | |]; try done. destruct fs as [|a fs]; try done. destruct a as [| |k| | | | | | | | | |]; try done. destruct fs; try done.
  destruct (lookup_var c gs) as [gc|] eqn:Ec; [|done]. destruct (lookup_var k gs) as [gk|] eqn:Ek; [|done].
  destruct (μ !! gc) as [[y [| | | |pg]| | | | |]|] eqn:Eg; try done. destruct (μ !! gk) as [[y' [n'| | | |]| | | | |]|] eqn:Eh; try done.
  apply andb_prop in H as [->%Z.eqb_eq H]. destruct (μ !! pg) as [[| | |f ar| |]|] eqn:Ep; try done. apply andb_prop in H as [->%Z.eqb_eq ->%Z.eqb_eq].
  apply (fr_exp _ _ _ _ _ _ _ _ _ []); [done|constructor|].
  replace (resolve_form gs (EApp (EVar c) [EVar k])) with (EApp (EGlobal gc) [EGlobal gk]).
  - eapply ra_apply; [cbn; eauto| |cbn; eauto|].
    { econstructor; [|constructor]. apply ev_var. cbn. eauto. }
    eapply ar_prim; [done|by right|]. by apply pe_car.
  - cbn. unfold reference. by rewrite Ec, Ek.
Qed.
Definition plain_b (e : exp) : bool := match e with EBegin _ => false | _ => true end.
Lemma plain_b_ok e : plain_b e = true -> forall bs, e <> EBegin bs.
Proof. by destruct e. Qed.
(** the first form is run, then the first one of a (begin ...); the next one goes wrong *)
Definition car_program_chk (gs : list (Z * Z)) (ρ : env) (es : list exp) (μ : store) : bool :=
  match es with
  | [e1; EBegin [e2; e3]; _] => plain_b e1 && plain_b e3 &&
      match form_fn 4 40 ρ gs μ e1 with
      | Some (gs1, μ1, _) => match form_fn 4 40 ρ gs1 μ1 e2 with Some (gs2, μ2, _) => car_form_chk 7 gs2 μ2 e3 | None => false end
      | None => false
      end
  | _ => false
  end.
Lemma car_program_chk_ok xs gs ρ es μ : car_program_chk gs ρ es μ = true ->
  exists μ', program_raises 4 (prims 4) prim_errs 40 ρ xs gs μ es μ' (VAtom cell_symbol_not_a_pair) (IPair (VNum 7) (VAtom cell_symbol_car)).
Proof.
  unfold car_program_chk. destruct es as [|e1 es]; [done|]. destruct es as [|e es]; [done|]. destruct e as [| | | | | | | | | | |bs|]; try done. destruct bs as [|e2 bs]; [done|]. destruct bs as [|e3 bs]; [done|]. destruct bs; [|done].
  destruct es as [|e4 es]; [done|]. destruct es; [|done]. intros H. apply andb_prop in H as [[P1 P3]%andb_prop H].
  destruct (form_fn 4 40 ρ gs μ e1) as [[[gs1 μ1] v1]|] eqn:E1; [|done]. apply form_fn_ok in E1.
  destruct (form_fn 4 40 ρ gs1 μ1 e2) as [[[gs2 μ2] v2]|] eqn:E2; [|done]. apply form_fn_ok in E2.
  exists μ2. eapply pr_later; [by apply plain_b_ok|exact E1|]. eapply pr_begin_later; [reflexivity|exact E2|].
  apply pr_here; [by apply plain_b_ok|]. by apply car_form_chk_ok.
Qed.
Example C48_car_ex : exists l s, program_state car_program = ROk l s /\
  exists n x s', (forall k, (n <= k)%nat -> eval_apply_ no_load sample_fuel k s = RThrow cell_symbol_not_a_pair x s')
    /\ exists c, heap s' !! x = Some c /\ c_ty c = TPAIR /\ c_cdr c = cell_symbol_car
         /\ exists a, heap s' !! c_car c = Some a /\ c_ty a = TNUMBER /\ c_cdr a = 7.
Proof.
  destruct (check_res (program_state car_program) (fun l s => program_ok 4 20 240 car_program_chk l s && sample_texts s)) as (l & s & E & H). { vm_compute. reflexivity. }
  exists l, s. split; [exact E|]. clear E. apply andb_prop in H as [H Ht]. apply texts_b_ok in Ht.
  apply program_ok_spec in H as (ρ & es & μ & ts & r2' & x & r0' & p & Hchk & R & W & F & Hnd & Hu & Hm & HM & Hsz & Hroom).
  apply (car_program_chk_ok (fun x => x ∈ program_names l s)) in Hchk as (μ' & Hrun).
  destruct (C48_what_the_handler_sees _ _ _ no_load sample_fuel 4 40 ρ _ μ es μ' _ _ Hrun
     _ s _ _ _ _ _ _ _ _ [] _ _ ts 20 240 R W F Hnd Hu Hm HM Hsz ltac:(lia) ltac:(cbn; lia) Hroom Ht) as (n & kx & q & s' & Q1 & Q2 & c & Q3 & Q4 & Q5 & Q6).
  cbn in Q2, Q5, Q6. rewrite Q2 in Q1 by (vm_compute; split; congruence). exists n, q, s'. split; [done|]. exists c. split; [done|]. split; [done|].
  split; [|done]. apply Q6. vm_compute; split; congruence.
Qed.

(** (define a 1)
    (define b (+ a nosuch))
    (set! a 2) *)
Definition unbound_program : list (M Z) :=
  let plus := sym (bytes_of "+") in let a := sym (bytes_of "a") in let b := sym (bytes_of "b") in let nosuch := sym (bytes_of "nosuch") in
  [list_m [ret cell_symbol_define; a; make_number 1];
   list_m [ret cell_symbol_define; b; list_m [plus; a; nosuch]];
   list_m [ret cell_symbol_set_x; a; make_number 2]].
Definition unbound_define_chk (xs : list Z) (ρ : env) (gs : list (Z * Z)) (μ : store) (e : exp) : bool :=
  match e with
  | EDefine b (EApp (EVar p) [EVar a; EVar x]) => bool_decide (x ∈ xs) && negb (x =? b) && negb (p =? b) && negb (a =? b) && hides_b ρ &&
      match declare_fn gs μ b with
      | Some (l, gs1, μ1) =>
          match lookup_var p gs, lookup_var a gs, lookup_var x gs1, lookup_var x gs with
          | Some gp, Some ga, None, None => negb (gp =? fresh_loc μ1) && negb (ga =? fresh_loc μ1) && bool_decide (μ1 !! fresh_loc μ1 = None) &&
              match μ1 !! gp, μ1 !! ga with Some (SVar _ (VLoc _)), Some (SVar _ (VNum _)) => true | _, _ => false end
          | _, _, _, _ => false
          end
      | None => false
      end
  | _ => false
  end.
Lemma unbound_hides ms μ x ρ : hides ρ -> x ∈ ms -> unbound ms μ x ρ.
Proof. intros H Hx. induction H; by constructor. Qed.
Lemma unbound_define_chk_ok w d xs ρ gs μ e : unbound_define_chk xs ρ gs μ e = true -> exists μ' x,
  form_raises w (prims w) prim_errs (S (S (S d))) ρ (fun x => x ∈ xs) gs μ e μ' (VAtom cell_symbol_unbound_variable) (IVal (VAtom x)).
Proof.
  unfold unbound_define_chk. intros H. destruct e as [| | | | | | | | |b e| | |]; try done. destruct e as [| | | | | | | | | | | |f fs]; try done. destruct f as [| |p| | | | | | | | | |]; try done.
  destruct fs as [|g fs]; try done. destruct g as [| |a| | | | | | | | | |]; try done. destruct fs as [|g fs]; try done. destruct g as [| |x| | | | | | | | | |]; try done. destruct fs; try done.
  apply andb_prop in H as [H H']. apply andb_prop in H as [H Hh%hides_b_ok]. apply andb_prop in H as [H Hab]. apply andb_prop in H as [H Hpb]. apply andb_prop in H as [Hx%bool_decide_eq_true Hxb].
  destruct (declare_fn gs μ b) as [[[l gs1] μ1]|] eqn:Ed; [|done]. apply declare_fn_ok in Ed.
  destruct (lookup_var p gs) as [gp|] eqn:Ep; [|done]. destruct (lookup_var a gs) as [ga|] eqn:Ea; [|done]. destruct (lookup_var x gs1) eqn:Ex; [done|]. destruct (lookup_var x gs) eqn:Ex0; [done|].
  apply andb_prop in H' as [H' Hv]. apply andb_prop in H' as [H' Hfr%bool_decide_eq_true]. apply andb_prop in H' as [Hgp Hga]. set (l0 := fresh_loc μ1) in *.
  destruct (μ1 !! gp) as [[y1 [| | | |pg]| | | | |]|] eqn:Eg; try done. destruct (μ1 !! ga) as [[y2 [n'| | | |]| | | | |]|] eqn:Eh; try done.
  exists (<[l0 := SVar b (VAtom b)]> μ1), x. eapply (fr_define _ _ _ _ _ _ _ _ _ _ l gs1 μ1 l0 [x]); [exact Ed|exact Hfr|repeat constructor; done|].
  replace (resolve gs (binders (EApp (EVar p) [EVar a; EVar x]) ++ [b]) (EApp (EVar p) [EVar a; EVar x])) with (EApp (EGlobal gp) [EGlobal ga; EVar x]).
  - eapply ra_args; [apply ev_var; cbn; exists y1; rewrite lookup_insert_ne by lia; exact Eg|].
    eapply xr_later; [apply ev_var; cbn; exists y2; rewrite lookup_insert_ne by lia; exact Eh|].
    apply xr_here, ra_unbound. constructor; [lia|]. apply unbound_hides; [done|by left].
  - cbn. unfold reference. rewrite Ep, Ea, Ex0. rewrite !decide_False by (rewrite elem_of_list_singleton; lia). done.
Qed.
Definition unbound_program_chk (xs : list Z) (gs : list (Z * Z)) (ρ : env) (es : list exp) (μ : store) : bool :=
  match es with
  | [e1; e2; _] => plain_b e1 && plain_b e2 &&
      match form_fn 4 40 ρ gs μ e1 with Some (gs1, μ1, _) => unbound_define_chk xs ρ gs1 μ1 e2 | None => false end
  | _ => false
  end.
Lemma unbound_program_chk_ok xs gs ρ es μ : unbound_program_chk xs gs ρ es μ = true -> exists μ' x,
  program_raises 4 (prims 4) prim_errs 40 ρ (fun x => x ∈ xs) gs μ es μ' (VAtom cell_symbol_unbound_variable) (IVal (VAtom x)).
Proof.
  unfold unbound_program_chk. destruct es as [|e1 es]; [done|]. destruct es as [|e2 es]; [done|]. destruct es as [|e3 es]; [done|]. destruct es; [|done]. intros H. apply andb_prop in H as [[P1 P2]%andb_prop H].
  destruct (form_fn 4 40 ρ gs μ e1) as [[[gs1 μ1] v1]|] eqn:E1; [|done]. apply form_fn_ok in E1. apply (unbound_define_chk_ok 4 37) in H as (μ' & x & H).
  exists μ', x. eapply pr_later; [by apply plain_b_ok|exact E1|]. apply pr_here; [by apply plain_b_ok|done].
Qed.
Example C48_unbound_ex : exists l s, program_state unbound_program = ROk l s /\
  exists n x s', (forall k, (n <= k)%nat -> eval_apply_ no_load sample_fuel k s = RThrow cell_symbol_unbound_variable x s').
Proof.
  destruct (check_res (program_state unbound_program) (fun l s => program_ok 4 20 240 (unbound_program_chk (program_names l s)) l s && sample_texts s)) as (l & s & E & H). { vm_compute. reflexivity. }
  exists l, s. split; [exact E|]. clear E. apply andb_prop in H as [H Ht]. apply texts_b_ok in Ht.
  apply program_ok_spec in H as (ρ & es & μ & ts & r2' & x & r0' & p & Hchk & R & W & F & Hnd & Hu & Hm & HM & Hsz & Hroom).
  apply unbound_program_chk_ok in Hchk as (μ' & y & Hrun).
  destruct (C48_what_the_handler_sees _ _ _ no_load sample_fuel 4 40 ρ _ μ es μ' _ _ Hrun
     _ s _ _ _ _ _ _ _ _ [] _ _ ts 20 240 R W F Hnd Hu Hm HM Hsz ltac:(lia) ltac:(cbn; lia) Hroom Ht) as (n & kx & q & s' & Q1 & Q2 & _).
  cbn in Q2. rewrite Q2 in Q1 by (vm_compute; split; congruence). by exists n, q, s'.
Qed.

Print Assumptions C48_programs_signal.
Print Assumptions C48_what_the_handler_sees.
Print Assumptions C48_value_or_error.
