(** C35, C36: what the evaluator computes, and how much stack it needs. *)
From stdpp Require Import base gmap list fin_maps.
From Coq Require Import ZArith Lia.
From Coq Require Import ZifyBool ZifyNat.
From Verif Require Import CInt Symbols Heap HeapLemmas GcModel GcSpec GcCheck DataModel BootModel Builtins DataSpec.
From Verif Require Import EvalModel Rep EvalSpec EvalRep EvalRun PrimModel EvalPrimSpec EvalTop EvalCheck Samples.
Import Strings.String.StringSyntax.
Open Scope Z_scope. Open Scope mes_scope.

Notation roomy_ load fuel := (roomy (prim_call fuel%nat) (load fuel%nat) fuel%nat).
Notation eval_apply_ load fuel := (eval_apply GcModel.gc_check (prim_call fuel%nat) (load fuel%nat) fuel%nat).

(** C35.  [s] is a state of the interpreter in which an expression [e] is to be evaluated in the
    environment [ρ] and the store [μ], with the frame of the caller on top of the stack.  If the
    semantics gives [e] the value [v] and the store [μ'] (with a budget of [d] unfinished
    evaluations), there is stack for that budget and memory lasts, then the evaluator returns [v],
    the store is [μ'], and the stack and the registers R0, R2 and R3 are what the caller saved:
    however often the collector moved everything on the way.
    An operator that is neither a variable nor a lambda expression is evaluated twice, before the
    arguments and after them (rule [ev_app_exp]): see [C35_operator_twice_refuted]. *)
Theorem C35_evaluation G defs load fuel width d ρ μ e μ' v :
  eval width (prims width) (ge_vars G) defs d ρ μ e μ' v -> env_ok μ ρ -> store_ok G μ ->
  forall f s σ r0 i r2 r2' x r0' p st sz gl,
    rep f (Mst σ r0 i r2 (Imp cell_vm_eval) (Imp cell_unspecified :: r2' :: x :: r0' :: p :: st) sz gl) s ->
    consts_ok G σ -> code_at σ e i -> env_at σ ρ r0 -> store_at [] μ σ -> gl !! 3%nat = Some (ge_module G) ->
    Z.of_nat (length st) + 5 * (Z.of_nat d + 2) <= sz ->
    roomy_ load fuel (step_memory width) L_eval_apply (Locals false false) s ->
    exists n q s' f' σ' j, (forall m, (n <= m)%nat -> eval_apply_ load fuel m s = ROk q s')
      /\ rep f' (Mst σ' r0' j r2' (Imp cell_unspecified) st sz gl) s'
      /\ f' j q /\ val_at σ' v j /\ store_at [] μ' σ'.
Proof.
  intros H Eo So f s σ r0 i r2 r2' x r0' p st sz gl R C Hc He S HM Hsz Hroom.
  destruct (eval_top G defs load fuel width d ρ μ e μ' v H Eo So f s σ r0 i r2 _ r2' x r0' p st sz gl R eq_refl C Hc He S HM Hsz Hroom)
    as (n & q & s' & f' & σ' & j & H1 & H2 & H3 & H4 & H5 & _).
  exists n, q, s', f', σ', j. done.
Qed.

(** What the caller sees if the value is a number, a character, or a constant like #t, #f or (). *)
Corollary C35_returned_number G defs load fuel width d ρ μ e μ' n0 :
  eval width (prims width) (ge_vars G) defs d ρ μ e μ' (VNum n0) -> env_ok μ ρ -> store_ok G μ ->
  forall f s σ r0 i r2 r2' x r0' p st sz gl,
    rep f (Mst σ r0 i r2 (Imp cell_vm_eval) (Imp cell_unspecified :: r2' :: x :: r0' :: p :: st) sz gl) s ->
    consts_ok G σ -> code_at σ e i -> env_at σ ρ r0 -> store_at [] μ σ -> gl !! 3%nat = Some (ge_module G) ->
    Z.of_nat (length st) + 5 * (Z.of_nat d + 2) <= sz ->
    roomy_ load fuel (step_memory width) L_eval_apply (Locals false false) s ->
    exists n q s', (forall m, (n <= m)%nat -> eval_apply_ load fuel m s = ROk q s')
      /\ (exists c, heap s' !! q = Some c /\ c_ty c = TNUMBER /\ c_cdr c = n0)
      /\ g_stack s' = STACK_SIZE s' - Z.of_nat (length st).
Proof.
  intros H Eo So f s σ r0 i r2 r2' x r0' p st sz gl R C Hc He S HM Hsz Hroom.
  destruct (C35_evaluation G defs load fuel width d ρ μ e μ' _ H Eo So f s σ r0 i r2 r2' x r0' p st sz gl R C Hc He S HM Hsz Hroom)
    as (n & q & s' & f' & σ' & j & H1 & H2 & H3 & H4 & H5).
  exists n, q, s'. split; [done|]. destruct H4 as [_ H4]. split.
  - destruct (rh_obj _ _ _ (rp_heap _ _ _ H2) _ _ H3) as (o & Ho & Hobj). cbn in Ho. rewrite H4 in Ho. injection Ho as <-.
    destruct Hobj as (c & Hc' & Ht & _ & _ & Hd). by exists c.
  - destruct (rp_size _ _ _ H2) as [_ Hs]. cbn in Hs. lia.
Qed.
Corollary C35_returned_constant G defs load fuel width d ρ μ e μ' k :
  eval width (prims width) (ge_vars G) defs d ρ μ e μ' (VAtom k) -> cell_nil <= k <= cell_symbol_test -> env_ok μ ρ -> store_ok G μ ->
  forall f s σ r0 i r2 r2' x r0' p st sz gl,
    rep f (Mst σ r0 i r2 (Imp cell_vm_eval) (Imp cell_unspecified :: r2' :: x :: r0' :: p :: st) sz gl) s ->
    consts_ok G σ -> code_at σ e i -> env_at σ ρ r0 -> store_at [] μ σ -> gl !! 3%nat = Some (ge_module G) ->
    Z.of_nat (length st) + 5 * (Z.of_nat d + 2) <= sz ->
    roomy_ load fuel (step_memory width) L_eval_apply (Locals false false) s ->
    exists n s', forall m, (n <= m)%nat -> eval_apply_ load fuel m s = ROk k s'.
Proof.
  intros H Hk Eo So f s σ r0 i r2 r2' x r0' p st sz gl R C Hc He S HM Hsz Hroom.
  destruct (C35_evaluation G defs load fuel width d ρ μ e μ' _ H Eo So f s σ r0 i r2 r2' x r0' p st sz gl R C Hc He S HM Hsz Hroom)
    as (n & q & s' & f' & σ' & j & H1 & H2 & H3 & [-> _] & H5).
  exists n, s'. assert (q = k) as <-; [|done].
  eapply (rh_fun _ _ _ (rp_heap _ _ _ H2)); [exact H3|]. apply (rh_const _ _ _ (rp_heap _ _ _ H2)).
  pose proof (rp_constants _ _ _ H2) as [_ Hs]. lia.
Qed.

(** C36.  A loop: the variable [go] is bound to the procedure
    (lambda (n) (if (= n 0) n (go (- n 1)))), which calls itself in tail position.  For every
    number of iterations (go k) has its value with the same budget 5: by C35, a stack with room for
    seven frames is enough for every number of iterations. *)
Section loop.
Context (gs : list (Z * Z)) (defs : bool) (go n : Z) (leq lminus peq pminus : Z).
Definition loop_body : exp :=
  EIf (EApp (EGlobal leq) [EVar n; EConst (VNum 0)]) (EVar n)
      (EApp (EVar go) [EApp (EGlobal lminus) [EVar n; EConst (VNum 1)]]).
(** the store has the procedures = and -, and [go] is bound to the closure *)
Record loop_store (ρ ρ' : env) (lgo lclo : Z) (μ : store) : Prop := {
  ls_eq : exists x, μ !! leq = Some (SVar x (VLoc peq));
  ls_peq : μ !! peq = Some (SPrim fn_is_p (-1));
  ls_minus : exists x, μ !! lminus = Some (SVar x (VLoc pminus));
  ls_pminus : μ !! pminus = Some (SPrim fn_minus (-1));
  ls_env : finds gs μ go ρ' lgo;
  ls_go : μ !! lgo = Some (SVar go (VLoc lclo));
  ls_clo : μ !! lclo = Some (SClo [n] None [loop_body] ρ);
  ls_made : closure_env μ ρ = Some ρ' }.
Lemma finds_new μ l o x ρ l' : μ !! l = None -> finds gs μ x ρ l' -> finds gs (<[l := o]> μ) x ρ l'.
Proof.
  intros Hl H. induction H; try (by constructor). econstructor; [|done]. rewrite lookup_insert_ne; congruence.
Qed.
Lemma loop_store_new ρ ρ' lgo lclo μ l o : μ !! l = None -> loop_store ρ ρ' lgo lclo μ -> loop_store ρ ρ' lgo lclo (<[l := o]> μ).
Proof.
  intros Hl [(x1 & A1) B1 (x2 & A2) B2 H4 H5 H6 H7].
  assert (forall k v, μ !! k = Some v -> <[l := o]> μ !! k = Some v) as Hk by (intros k v Hk; rewrite lookup_insert_ne; congruence).
  split; eauto; [by apply finds_new|]. destruct ρ as [| | |f]; try done. cbn in *. destruct (μ !! f) eqn:E; [|done]. by rewrite (Hk _ _ E).
Qed.
Lemma ordered_two a b : ordered eq [a; b] <-> a = b.
Proof.
  split; [intros H; by apply (H 0%nat a b)|]. intros -> [|[|i]] x y; cbn; congruence.
Qed.

Theorem C36_loop_constant_budget ρ ρ' lgo lclo : go <> n -> forall (k : nat) μ,
  loop_store ρ ρ' lgo lclo μ -> Z.of_nat k <= LONG_MAX ->
  exists μ', apply 2 (prims 2) gs defs 5 μ (VLoc lclo) [VNum (Z.of_nat k)] μ' (VNum 0) /\ loop_store ρ ρ' lgo lclo μ'.
Proof.
  intros Hne. induction k as [|k IH]; intros μ L Hk.
  all: set (l := fresh (dom μ)); assert (Hl : μ !! l = None) by (apply not_elem_of_dom, is_fresh).
  1: pose (N := 0). 2: pose (N := Z.of_nat (S k)).
  all: set (μ0 := <[l := SVar n (VNum N)]> μ) in *.
  all: pose proof (loop_store_new _ _ _ _ _ _ (SVar n (VNum N)) Hl L : loop_store ρ ρ' lgo lclo μ0) as L0.
  all: set (f := fresh (dom μ0)); assert (Hf : μ0 !! f = None) by (apply not_elem_of_dom, is_fresh).
  all: assert (Hlf : l <> f) by (intros E; rewrite <- E in Hf; unfold μ0 in Hf; by rewrite lookup_insert in Hf).
  all: set (μ1 := <[f := SFrame (EBind n l ρ')]> μ0) in *.
  all: pose proof (loop_store_new _ _ _ _ _ _ (SFrame (EBind n l ρ')) Hf L0 : loop_store ρ ρ' lgo lclo μ1) as L1.
  all: assert (Hf1 : μ1 !! f = Some (SFrame (EBind n l ρ'))) by apply lookup_insert.
  all: assert (Hl1 : μ1 !! l = Some (SVar n (VNum N))) by (unfold μ1; rewrite lookup_insert_ne by done; apply lookup_insert).
  all: assert (Hn : forall d, eval 2 (prims 2) gs defs d (EFrame f) μ1 (EVar n) μ1 (VNum N)) by
    (intros d; apply ev_var; exists l; split; [eapply finds_frame; [exact Hf1|constructor]|]; split; [exact Hl1|done]).
  all: destruct (ls_eq _ _ _ _ _ L1) as [x1 E1]; destruct (ls_minus _ _ _ _ _ L1) as [x2 E2].
  all: assert (Hv : forall w, var_value gs (EFrame f) μ1 (EGlobal leq) w <-> w = VLoc peq) by
    (intros w; cbn; split; [intros [y Hy]; congruence|intros ->; eauto]).
  - exists μ1. split; [|done]. eapply apply_clo; [apply (ls_clo _ _ _ _ _ L)|apply (ls_made _ _ _ _ _ L)|].
    eapply (call_body _ _ _ _ _ _ _ _ _ _ _ [(n, l)] μ0); [cbn; lia|by repeat constructor|exact Hf|]. change (extend [(n, l)] ρ') with (EBind n l ρ'). fold μ1.
    apply body_last; [cbn; lia|]. eapply (ev_if_true _ _ _ _ _ _ _ _ _ _ _ v_true); [|done|apply Hn].
    eapply ev_app; [by apply Hv|repeat (econstructor; try apply Hn)|by apply Hv|].
    eapply apply_prim; [apply (ls_peq _ _ _ _ _ L1)|by left|].
    apply (pr_equal _ [0; 0] true). rewrite ordered_two. done.
  - destruct (IH μ1 L1 ltac:(lia)) as (μ' & HA & L'). exists μ'. split; [|done].
    eapply apply_clo; [apply (ls_clo _ _ _ _ _ L)|apply (ls_made _ _ _ _ _ L)|].
    eapply (call_body _ _ _ _ _ _ _ _ _ _ _ [(n, l)] μ0); [cbn; lia|by repeat constructor|exact Hf|]. change (extend [(n, l)] ρ') with (EBind n l ρ'). fold μ1.
    apply body_last; [cbn; lia|]. eapply ev_if_false.
    + eapply ev_app; [by apply Hv|repeat (econstructor; try apply Hn)|by apply Hv|].
      eapply apply_prim; [apply (ls_peq _ _ _ _ _ L1)|by left|].
      apply (pr_equal _ [Z.of_nat (S k); 0] false). rewrite ordered_two. split; [done|lia].
    + assert (Hg : var_value gs (EFrame f) μ1 (EVar go) (VLoc lclo)).
      { exists lgo. split; [eapply finds_frame; [exact Hf1|]; apply finds_next; [done|apply (ls_env _ _ _ _ _ L1)]|]. split; [apply (ls_go _ _ _ _ _ L1)|done]. }
      eapply ev_app; [apply Hg| |apply Hg|exact HA]. econstructor; [|constructor].
      eapply ev_app; [cbn; eauto|repeat (econstructor; try apply Hn)|cbn; eauto|].
      eapply apply_prim; [apply (ls_pminus _ _ _ _ _ L1)|by left|].
      replace (VNum (Z.of_nat k)) with (VNum (foldl Z.sub (Z.of_nat (S k)) [1])) by (cbn; f_equal; lia).
      apply (pr_minus _ _ 1 []). intros [|[|j]] Hj; cbn in *; apply in_long_spec; unfold LONG_MIN, LONG_MAX in *; lia.
Qed.

(** the whole program:
    ((lambda (go) (set! go (lambda (n) (if (= n 0) n (go (- n 1))))) (go k)) #f) *)
Definition loop_program (k : Z) : exp :=
  EApp (ELam [go] None [ESet go (ELam [n] None [loop_body]); EApp (EVar go) [EConst (VNum k)]]) [EConst v_false].
Record loop_globals (μ : store) : Prop := {
  lg_eq : exists x, μ !! leq = Some (SVar x (VLoc peq));
  lg_peq : μ !! peq = Some (SPrim fn_is_p (-1));
  lg_minus : exists x, μ !! lminus = Some (SVar x (VLoc pminus));
  lg_pminus : μ !! pminus = Some (SPrim fn_minus (-1)) }.
Lemma loop_globals_new μ l o : μ !! l = None -> loop_globals μ -> loop_globals (<[l := o]> μ).
Proof.
  intros Hl [(x1 & A1) B1 (x2 & A2) B2].
  assert (forall k v, μ !! k = Some v -> <[l := o]> μ !! k = Some v) as Hk by (intros k v Hk; rewrite lookup_insert_ne; congruence).
  split; eauto.
Qed.
Lemma loop_program_value ρ μ (k : nat) : go <> n -> loop_globals μ -> Z.of_nat k <= LONG_MAX ->
  exists μ', eval 2 (prims 2) gs defs 5 ρ μ (loop_program (Z.of_nat k)) μ' (VNum 0).
Proof.
  intros Hne G Hk. set (bd := [ESet go (ELam [n] None [loop_body]); EApp (EVar go) [EConst (VNum (Z.of_nat k))]]).
  set (l0 := fresh (dom μ)). assert (H0 : μ !! l0 = None) by (apply not_elem_of_dom, is_fresh).
  set (μ0 := <[l0 := SClo [go] None bd ρ]> μ). pose proof (loop_globals_new _ _ (SClo [go] None bd ρ) H0 G : loop_globals μ0) as G0.
  set (lgo := fresh (dom μ0)). assert (H1 : μ0 !! lgo = None) by (apply not_elem_of_dom, is_fresh).
  set (μ0' := <[lgo := SVar go v_false]> μ0). pose proof (loop_globals_new _ _ (SVar go v_false) H1 G0 : loop_globals μ0') as G0'.
  set (ρ1 := EBind go lgo ρ). set (f := fresh (dom μ0')). assert (Hf : μ0' !! f = None) by (apply not_elem_of_dom, is_fresh).
  assert (f <> lgo) as Hfl by (intros E; rewrite E in Hf; unfold μ0' in Hf; by rewrite lookup_insert in Hf).
  set (μ1 := <[f := SFrame ρ1]> μ0'). pose proof (loop_globals_new _ _ (SFrame ρ1) Hf G0' : loop_globals μ1) as G1.
  set (lclo := fresh (dom μ1)). assert (H2 : μ1 !! lclo = None) by (apply not_elem_of_dom, is_fresh).
  set (clo := SClo [n] None [loop_body] (EFrame f)).
  set (μ2 := <[lclo := clo]> μ1). pose proof (loop_globals_new _ _ clo H2 G1 : loop_globals μ2) as G2.
  assert (Hgo1 : μ1 !! lgo = Some (SVar go v_false)) by (unfold μ1, μ0'; rewrite lookup_insert_ne by done; apply lookup_insert).
  assert (Hf1 : μ1 !! f = Some (SFrame ρ1)) by apply lookup_insert.
  assert (lclo <> lgo) as Hd by congruence. assert (lclo <> f) as Hd' by congruence.
  assert (Hgo : μ2 !! lgo = Some (SVar go v_false)) by (unfold μ2; by rewrite lookup_insert_ne by done).
  set (μ3 := <[lgo := SVar go (VLoc lclo)]> μ2).
  assert (Hf3 : μ3 !! f = Some (SFrame ρ1)) by (unfold μ3, μ2; by rewrite !lookup_insert_ne by done).
  assert (Hfind : forall ν, ν !! f = Some (SFrame ρ1) -> finds gs ν go (EFrame f) lgo) by (intros ν Hν; eapply finds_frame; [exact Hν|constructor]).
  assert (L3 : loop_store (EFrame f) ρ1 lgo lclo μ3).
  { assert (forall k v, k <> lgo -> μ2 !! k = Some v -> μ3 !! k = Some v) as Hk' by (intros; unfold μ3; by rewrite lookup_insert_ne).
    destruct G0 as [(y1 & A1') B1' (y2 & A2') B2']. destruct G2 as [(x1' & A1'') B1'' (x2' & A2'') B2''].
    split; eauto; try (eexists; apply Hk'; [|eassumption]; congruence); try (apply Hk'; [congruence|done]).
    - constructor.
    - apply lookup_insert.
    - apply Hk'; [done|]. unfold μ2. apply lookup_insert.
    - cbn. by rewrite Hf3. }
  destruct (C36_loop_constant_budget (EFrame f) ρ1 lgo lclo Hne k μ3 L3 Hk) as (μ' & HA & _). exists μ'.
  eapply ev_app_lam; [exact H0|repeat econstructor|].
  eapply (call_body _ _ _ _ _ _ _ _ _ _ _ [(go, lgo)] μ0'); [cbn; lia|repeat constructor; exact H1|exact Hf|]. change (extend [(go, lgo)] ρ) with ρ1. fold μ1.
  unfold bd. eapply (body_cons _ _ _ _ _ _ _ _ _ _ μ3); [cbn; lia| |].
  - eapply ev_set; [apply ev_lam; exact H2|apply Hfind; unfold μ2; by rewrite lookup_insert_ne by done|exact Hgo].
  - apply body_last; [cbn; lia|].
    assert (Hg : var_value gs (EFrame f) μ3 (EVar go) (VLoc lclo)).
    { exists lgo. split; [by apply Hfind|]. split; [apply lookup_insert|done]. }
    eapply ev_app; [exact Hg|repeat econstructor|exact Hg|exact HA].
Qed.
End loop.

(** C36.  The loop takes no stack: 35 words above the stack of the caller are enough for every
    number [k] of iterations. *)
Theorem C36_tail_calls G load fuel go n leq lminus peq pminus μ (k : nat) :
  go <> n -> loop_globals leq lminus peq pminus μ -> Z.of_nat k <= LONG_MAX -> store_ok G μ ->
  forall f s σ ρ r0 i r2 r2' x r0' p st sz gl, env_ok μ ρ ->
    rep f (Mst σ r0 i r2 (Imp cell_vm_eval) (Imp cell_unspecified :: r2' :: x :: r0' :: p :: st) sz gl) s ->
    consts_ok G σ -> code_at σ (loop_program go n leq lminus (Z.of_nat k)) i -> env_at σ ρ r0 -> store_at [] μ σ -> gl !! 3%nat = Some (ge_module G) ->
    Z.of_nat (length st) + 35 <= sz ->
    roomy_ load fuel (step_memory 2) L_eval_apply (Locals false false) s ->
    exists n q s', (forall m, (n <= m)%nat -> eval_apply_ load fuel m s = ROk q s')
      /\ (exists c, heap s' !! q = Some c /\ c_ty c = TNUMBER /\ c_cdr c = 0)
      /\ g_stack s' = STACK_SIZE s' - Z.of_nat (length st).
Proof.
  intros Hne HG Hk So f s σ ρ r0 i r2 r2' x r0' p st sz gl Eo R C Hc He S HM Hsz Hroom.
  destruct (loop_program_value (ge_vars G) false go n leq lminus peq pminus ρ μ k Hne HG Hk) as (μ' & Hev).
  eapply (C35_returned_number G false load fuel 2 5 ρ μ _ μ' 0 Hev Eo So); eauto.
Qed.

(** * Concrete runs *)
(** The boot sequence with a small table of builtin procedures; then the expression made by [code]
    from the variables [gs] of the builtin procedures is about to be evaluated in an environment
    without local variables.  The arena is so small that the collector runs during the loop. *)
Definition sym (b : list Z) : M Z := cstring_to_symbol 200 b.
Definition sample_table : list (list Z * Z * Z) :=
  [(bytes_of "=", -1, fn_is_p); (bytes_of "-", -1, fn_minus); (bytes_of "+", -1, fn_plus); (bytes_of "car", 1, fn_car); (bytes_of "cons", 2, fn_cons)].
Fixpoint sample_globals (t : list (list Z * Z * Z)) : M (list Z) :=
  match t with
  | [] => ret []
  | (b, _, _) :: t' => y <- sym b ;; v <- module_variable 200 cell_nil y ;; vs <- sample_globals t' ;; ret (v :: vs)
  end.
Fixpoint cdrs (ps : list Z) : M (list Z) :=
  match ps with [] => ret [] | p :: ps' => c <- rd p ;; vs <- cdrs ps' ;; ret (c_cdr c :: vs) end.
Definition sample_state (code : list Z -> M Z) : res (list Z * list Z) :=
  (boot 200 7 sample_table (bytes_of "/usr/share/mes") [bytes_of "mes"] ;;;
   gs <- sample_globals sample_table ;; e <- code gs ;;
   r0 <- acons cell_symbol_program cell_nil cell_nil ;;
   push_cc e cell_unspecified r0 cell_unspecified ;;;
   modify (set_R3 cell_vm_eval) ;;;
   ps <- cdrs gs ;; ret (gs, ps)) (init_state 4000 4000 1000 500 1000).
Global Instance val_eq_dec : EqDecision val.
Proof. solve_decision. Defined.
Section same.
Context (same : exp -> exp -> bool).
Fixpoint same_list (es es' : list exp) : bool :=
  match es, es' with [], [] => true | e :: es, e' :: es' => same e e' && same_list es es' | _, _ => false end.
End same.
Fixpoint same_exp (n : nat) (e e' : exp) : bool :=
  match n with
  | O => false
  | S n =>
    match e, e' with
    | EConst v, EConst v' | EQuote v, EQuote v' => bool_decide (v = v')
    | EVar x, EVar x' | EGlobal x, EGlobal x' => x =? x'
    | EIf c t e, EIf c' t' e' => same_exp n c c' && same_exp n t t' && same_exp n e e'
    | EWhen c t, EWhen c' t' => same_exp n c c' && same_exp n t t'
    | ELam xs r bd, ELam xs' r' bd' => bool_decide (xs = xs') && bool_decide (r = r') && same_list (same_exp n) bd bd'
    | EDefun x xs r bd, EDefun x' xs' r' bd' => (x =? x') && bool_decide (xs = xs') && bool_decide (r = r') && same_list (same_exp n) bd bd'
    | ESet x e, ESet x' e' | ESetGlobal x e, ESetGlobal x' e' | EDefine x e, EDefine x' e' => (x =? x') && same_exp n e e'
    | EBegin es, EBegin es' => same_list (same_exp n) es es'
    | EApp f es, EApp f' es' => same_exp n f f' && same_list (same_exp n) es es'
    | _, _ => false
    end
  end.
Lemma same_exp_ok n : forall e e', same_exp n e e' = true -> e = e'.
Proof.
  induction n as [|n IH]; intros e e' H; [done|].
  assert (forall es es', same_list (same_exp n) es es' = true -> es = es') as IHs.
  { induction es as [|a es IHl]; intros [|a' es'] Hs; try done. cbn in Hs. apply andb_prop in Hs as [H1 H2].
    f_equal; [by apply IH|by apply IHl]. }
  destruct e, e'; cbn in H; try discriminate;
    repeat match goal with H : _ && _ = true |- _ => apply andb_prop in H as [? ?] end; f_equal;
    first [by apply IH|by apply IHs|by apply Z.eqb_eq|by eapply bool_decide_eq_true_1].
Qed.
Definition no_load (fuel : nat) (p : Z) : M Z := ret p.
Definition sample_fuel : nat := Z.to_nat 20000.
(** the names of the global variables *)
Definition sample_vars (l : list Z * list Z) (s : state) : list (Z * Z) :=
  map (fun v => (match heap s !! v with Some c => c_car c | None => 0 end, v)) (fst l).
Definition vars_b (μ : store) (gs : list (Z * Z)) : bool :=
  forallb (fun g => match μ !! snd g with Some (SVar x _) => x =? fst g | _ => false end) gs.
Definition the_module (s : state) : Z := nth 3 (globals s) 0.
Definition sample_ok (width : nat) (chk : list (Z * Z) -> env -> exp -> store -> bool) (l : list Z * list Z) (s : state) : bool :=
  let L := locs (fst l) (snd l) [] in
  let gs := sample_vars l s in
  machine_check s (live_objects s) && (g_cells s + ARENA_SIZE s <? limit s) && (g_free s <=? limit s) && (cell_symbol_test <? g_symbol_max s)
  && forallb (fun k => (k <? cell_nil) || (g_symbol_max s <=? k)) (fst l ++ snd l)
  && consts_b L s && forallb (fun g => global_b L s gs (the_module s) (fst g) (snd g)) gs
  && (R3 s =? cell_vm_eval) && (STACK_SIZE s =? 1000)
  && (match stack_entries s with [x; _; _; _; _] => x =? cell_unspecified | _ => false end)
  && (match dec_env L s 10 (R0 s), dec L s 40 (R1 s), dec_store (fst l) (snd l) [] s with
      | Some ρ, Some e, Some μ => chk gs ρ e μ && vars_b μ gs && map_fold (fun _ o b => match o with SClo _ _ _ _ => false | _ => b end) true μ
      | _, _, _ => false
      end)
  && roomy_b (prim_call sample_fuel) (no_load sample_fuel) sample_fuel (Z.to_nat 20000) (step_memory width) L_eval_apply (Locals false false) s.

Lemma no_closures G μ : map_fold (fun (_ : Z) o b => match o with SClo _ _ _ _ => false | _ => b end) true μ = true -> vars_b μ (ge_vars G) = true -> store_ok G μ.
Proof.
  intros H Hg. split.
  - intros l xs r bd ρ Hl. exfalso. revert l H Hl.
    apply (map_fold_ind (fun b m => forall l, b = true -> m !! l = Some (SClo xs r bd ρ) -> False)); [done|].
    intros i o m b Hi IH l Hb Hl. destruct (decide (l = i)) as [->|].
    + rewrite lookup_insert in Hl. injection Hl as ->. done.
    + rewrite lookup_insert_ne in Hl by done. apply (IH l); [|done]. by destruct o.
  - intros x l Hin. unfold vars_b in Hg. rewrite forallb_forall in Hg. apply elem_of_list_In in Hin. specialize (Hg _ Hin). cbn in Hg.
    destruct (μ !! l) as [[y v| | | | |]|]; try done. apply Z.eqb_eq in Hg as ->. by exists v.
Qed.
Definition sample_env (l : list Z * list Z) (s : state) : genv := Genv (name (locs (fst l) (snd l) []) (the_module s)) (sample_vars l s).
Lemma sample_ok_spec width chk l s : sample_ok width chk l s = true ->
  exists ρ e μ r2' x r0' p, chk (ge_vars (sample_env l s)) ρ e μ = true /\ store_ok (sample_env l s) μ
    /\ rep (view_map (locs (fst l) (snd l) []) s) (Mst (abs_heap (locs (fst l) (snd l) []) s) (name (locs (fst l) (snd l) []) (R0 s)) (name (locs (fst l) (snd l) []) (R1 s))
         (name (locs (fst l) (snd l) []) (R2 s)) (Imp cell_vm_eval) [Imp cell_unspecified; r2'; x; r0'; p] 1000 (name (locs (fst l) (snd l) []) <$> globals s)) s
    /\ consts_ok (sample_env l s) (abs_heap (locs (fst l) (snd l) []) s) /\ code_at (abs_heap (locs (fst l) (snd l) []) s) e (name (locs (fst l) (snd l) []) (R1 s))
    /\ env_at (abs_heap (locs (fst l) (snd l) []) s) ρ (name (locs (fst l) (snd l) []) (R0 s)) /\ env_ok μ ρ /\ store_at [] μ (abs_heap (locs (fst l) (snd l) []) s)
    /\ (name (locs (fst l) (snd l) []) <$> globals s) !! 3%nat = Some (ge_module (sample_env l s))
    /\ roomy_ no_load sample_fuel (step_memory width) L_eval_apply (Locals false false) s.
Proof.
  unfold sample_ok. set (L := locs (fst l) (snd l) []). cbv zeta. intros H.
  apply andb_prop in H as [H Hroom]. apply andb_prop in H as [H He]. apply andb_prop in H as [H Hst]. apply andb_prop in H as [H Hsz].
  apply andb_prop in H as [H H3]. apply andb_prop in H as [H Hg]. apply andb_prop in H as [H Hc].
  apply andb_prop in H as [H Hl]. apply andb_prop in H as [H Hmax]. apply andb_prop in H as [H Hf]. apply andb_prop in H as [Hm Ha].
  destruct (consts_b_ok _ _ _ _ Hc Hg) as [C HL]. pose proof (HL cell_nil ltac:(vm_compute; split; congruence)) as Hnil.
  destruct (dec_env L s 10 (R0 s)) as [ρ|] eqn:Er; [|done].
  destruct (dec L s 40 (R1 s)) as [e|] eqn:Ee; [|done]. destruct (dec_store (fst l) (snd l) [] s) as [μ|] eqn:Eμ; [|done].
  apply andb_prop in He as [He Hclo]. apply andb_prop in He as [Hchk Hvars].
  destruct (stack_entries s) as [|c [|r2' [|x [|r0' [|p [|]]]]]] eqn:Est; try done. apply Z.eqb_eq in Hst as ->.
  exists ρ, e, μ, (name L r2'), (name L x), (name L r0'), (name L p). split; [done|]. split; [by apply no_closures|].
  destruct (dec_env_ok _ _ _ Hnil _ _ Er) as [Er1 Er2].
  split; [|split; [done|]]; [|split; [by eapply dec_ok|split; [done|split; [done|]]]].
  - pose proof (view_ok L s (machine_check_ok _ _ Hm) ltac:(lia) ltac:(lia) ltac:(lia)) as Hv.
    unfold view in Hv. rewrite Est in Hv. apply Z.eqb_eq in H3, Hsz. rewrite H3, Hsz in Hv. cbn in Hv.
    rewrite (inL_imp L cell_unspecified), (inL_imp L cell_vm_eval) in Hv by (apply HL; vm_compute; split; congruence).
    apply Hv. intros k Hk. unfold inL. apply orb_false_iff. split; apply bool_decide_eq_false; [|exact (not_elem_of_empty (C := gset Z) k)]. intros Hin. unfold L, locs in Hin. apply elem_of_list_to_set in Hin.
    rewrite forallb_forall in Hl. apply elem_of_list_In in Hin. specialize (Hl _ Hin). lia.
  - split; [|split; [done|by eapply roomy_b_ok]]. apply dec_store_ok; [apply HL; vm_compute; split; congruence|done].
Qed.

(** ((lambda (go) (set! go (lambda (n) (if (= n 0) n (go (- n 1))))) (go 10)) #f) *)
Definition loop_code (gs : list Z) : M Z :=
  let go := sym (bytes_of "go") in let n := sym (bytes_of "n") in
  let g k := make_variable_ (nth k gs 0) in
  let cond := list_m [ret cell_symbol_if; list_m [g 0%nat; n; make_number 0]; n; list_m [go; list_m [g 1%nat; n; make_number 1]]] in
  let lam := list_m [ret cell_symbol_lambda; list_m [n]; cond] in
  list_m [list_m [ret cell_symbol_lambda; list_m [go]; list_m [ret cell_symbol_set_x; go; lam]; list_m [go; make_number 10]]; ret cell_f].
Definition global_is (μ : store) (l : list Z * list Z) (k : nat) (p n : Z) : bool :=
  match μ !! nth k (fst l) 0, μ !! nth k (snd l) 0 with
  | Some (SVar _ (VLoc l')), Some (SPrim p' n') => (l' =? nth k (snd l) 0) && (p' =? p) && (n' =? n)
  | _, _ => false
  end.
Lemma global_is_ok μ l k p n : global_is μ l k p n = true ->
  (exists x, μ !! nth k (fst l) 0 = Some (SVar x (VLoc (nth k (snd l) 0)))) /\ μ !! nth k (snd l) 0 = Some (SPrim p n).
Proof.
  unfold global_is. intros H. destruct (μ !! nth k (fst l) 0) as [[x [| | | |l']| | | | |]|]; try done.
  destruct (μ !! nth k (snd l) 0) as [[| | |p' n'| |]|]; try done. apply andb_prop in H as [H H1]. apply andb_prop in H as [H H2].
  apply Z.eqb_eq in H, H1, H2. subst. eauto.
Qed.
Definition loop_chk (l : list Z * list Z) (gs : list (Z * Z)) (ρ : env) (e : exp) (μ : store) : bool :=
  global_is μ l 0 fn_is_p (-1) && global_is μ l 1 fn_minus (-1) &&
  match e with
  | EApp (ELam [go] _ (ESet _ (ELam [n] _ _) :: _)) _ => negb (go =? n) && same_exp 40 e (loop_program go n (nth 0 (fst l) 0) (nth 1 (fst l) 0) 10)
  | _ => false
  end.
Example C36_tail_calls_ex : exists l s, sample_state loop_code = ROk l s /\
  exists n q s', (forall m, (n <= m)%nat -> eval_apply_ no_load sample_fuel m s = ROk q s')
      /\ (exists c, heap s' !! q = Some c /\ c_ty c = TNUMBER /\ c_cdr c = 0) /\ g_stack s' = STACK_SIZE s'.
Proof.
  destruct (check_res (sample_state loop_code) (fun l s => sample_ok 2 (loop_chk l) l s)) as (l & s & E & H). { vm_compute. reflexivity. }
  exists l, s. split; [exact E|]. clear E.
  apply sample_ok_spec in H as (ρ & e & μ & r2' & x & r0' & p & Hchk & So & R & C & Hc & He & Eo & S & HM & Hroom).
  unfold loop_chk in Hchk. apply andb_prop in Hchk as [Hg Hchk]. apply andb_prop in Hg as [Hg1 Hg2].
  apply global_is_ok in Hg1 as [Ha1 Hb1]. apply global_is_ok in Hg2 as [Ha2 Hb2].
  destruct e as [| | | | | | | | | | | |[] es]; try done. destruct xs as [|go [|]]; try done. destruct body as [|[| | | | | | |? []| | | | |] ?]; try done.
  destruct xs as [|n [|]]; try done. apply andb_prop in Hchk as [Hne Hsame]. apply same_exp_ok in Hsame. rewrite Hsame in Hc.
  destruct (C36_tail_calls _ no_load sample_fuel go n (nth 0 (fst l) 0) (nth 1 (fst l) 0) (nth 0 (snd l) 0) (nth 1 (snd l) 0) μ 10
    ltac:(lia) ltac:(by split) ltac:(vm_compute; congruence) So _ s _ ρ _ _ _ _ _ _ _ [] _ _ Eo R C Hc He S HM ltac:(cbn; lia) Hroom)
    as (m & q & s' & Q1 & Q2 & Q3).
  exists m, q, s'. split; [done|]. split; [done|]. cbn in Q3. lia.
Qed.

(** ((lambda (f x . r) (set! x (f x)) (if r (car (cons x r)) 5)) (lambda (y) (+ y 1)) 41 7) *)
Definition call_code (gs : list Z) : M Z :=
  let f := sym (bytes_of "f") in let x := sym (bytes_of "x") in let r := sym (bytes_of "r") in let y := sym (bytes_of "y") in
  let g k := make_variable_ (nth k gs 0) in
  let formals := (a <- f ;; b <- x ;; c <- r ;; p <- cons b c ;; cons a p) in
  list_m [list_m [ret cell_symbol_lambda; formals; list_m [ret cell_symbol_set_x; x; list_m [f; x]];
                  list_m [ret cell_symbol_if; r; list_m [g 3%nat; list_m [g 4%nat; x; r]]; make_number 5]];
          list_m [ret cell_symbol_lambda; list_m [y]; list_m [g 2%nat; y; make_number 1]]; make_number 41; make_number 7].
Definition call_chk (defs : bool) (gs : list (Z * Z)) (ρ : env) (e : exp) (μ : store) : bool :=
  match ev gs 4 defs 40 20 ρ μ e with Some (_, VNum n) => n =? 42 | _ => false end.
Lemma call_chk_ok defs gs ρ e μ : call_chk defs gs ρ e μ = true -> exists μ', eval 4 (prims 4) gs defs 20 ρ μ e μ' (VNum 42).
Proof.
  unfold call_chk. generalize 40%nat. intros k H. destruct (ev gs 4 defs k 20 ρ μ e) as [[μ' [n| | | |]]|] eqn:Hev; try discriminate H.
  apply Z.eqb_eq in H as ->. apply ev_ok in Hev. by exists μ'.
Qed.
Example C35_evaluation_ex : exists l s, sample_state call_code = ROk l s /\
  exists n q s', (forall m, (n <= m)%nat -> eval_apply_ no_load sample_fuel m s = ROk q s')
      /\ (exists c, heap s' !! q = Some c /\ c_ty c = TNUMBER /\ c_cdr c = 42) /\ g_stack s' = STACK_SIZE s'.
Proof.
  destruct (check_res (sample_state call_code) (fun l s => sample_ok 4 (call_chk true) l s)) as (l & s & E & H). { vm_compute. reflexivity. }
  exists l, s. split; [exact E|]. clear E.
  apply sample_ok_spec in H as (ρ & e & μ & r2' & x & r0' & p & Hchk & So & R & C & Hc & He & Eo & S & HM & Hroom).
  apply call_chk_ok in Hchk as [μ' Hev].
  destruct (C35_returned_number _ true no_load sample_fuel 4 20 ρ μ e μ' 42 Hev Eo So
     _ s _ _ _ _ _ _ _ _ [] _ _ R C Hc He S HM ltac:(cbn; lia) Hroom) as (m & q & s' & Q1 & Q2 & Q3).
  exists m, q, s'. split; [done|]. split; [done|]. cbn in Q3. lia.
Qed.

(** The operator is itself a call: [(((lambda (x) (lambda (y) (- y x))) 3) (car (cons 45 4)))] *)
Definition curried_code (gs : list Z) : M Z :=
  let x := sym (bytes_of "x") in let y := sym (bytes_of "y") in
  let g k := make_variable_ (nth k gs 0) in
  list_m [list_m [list_m [ret cell_symbol_lambda; list_m [x]; list_m [ret cell_symbol_lambda; list_m [y]; list_m [g 1%nat; y; x]]]; make_number 3];
          list_m [g 3%nat; list_m [g 4%nat; make_number 45; make_number 4]]].
Example C35_curried_ex : exists l s, sample_state curried_code = ROk l s /\
  exists n q s', (forall m, (n <= m)%nat -> eval_apply_ no_load sample_fuel m s = ROk q s')
      /\ (exists c, heap s' !! q = Some c /\ c_ty c = TNUMBER /\ c_cdr c = 42) /\ g_stack s' = STACK_SIZE s'.
Proof.
  destruct (check_res (sample_state curried_code) (fun l s => sample_ok 4 (call_chk true) l s)) as (l & s & E & H). { vm_compute. reflexivity. }
  exists l, s. split; [exact E|]. clear E.
  apply sample_ok_spec in H as (ρ & e & μ & r2' & x & r0' & p & Hchk & So & R & C & Hc & He & Eo & S & HM & Hroom).
  apply call_chk_ok in Hchk as [μ' Hev].
  destruct (C35_returned_number _ true no_load sample_fuel 4 20 ρ μ e μ' 42 Hev Eo So
     _ s _ _ _ _ _ _ _ _ [] _ _ R C Hc He S HM ltac:(cbn; lia) Hroom) as (m & q & s' & Q1 & Q2 & Q3).
  exists m, q, s'. split; [done|]. split; [done|]. cbn in Q3. lia.
Qed.

(** Definitions in a body, and global variables found by their names:
    [((lambda (x) (define y (+ x 1)) (define (down n) (if (= n 0) y (down (- n 1)))) (down 3)) 41)] *)
Definition define_code (gs : list Z) : M Z :=
  let x := sym (bytes_of "x") in let y := sym (bytes_of "y") in let down := sym (bytes_of "down") in let n := sym (bytes_of "n") in
  let plus := sym (bytes_of "+") in let minus := sym (bytes_of "-") in let is := sym (bytes_of "=") in
  let fn_body := list_m [ret cell_symbol_if; list_m [is; n; make_number 0]; y; list_m [down; list_m [minus; n; make_number 1]]] in
  list_m [list_m [ret cell_symbol_lambda; list_m [x];
                  list_m [ret cell_symbol_define; y; list_m [plus; x; make_number 1]];
                  list_m [ret cell_symbol_define; list_m [down; n]; fn_body];
                  list_m [down; make_number 3]];
          make_number 41].
Example C35_define_ex : exists l s, sample_state define_code = ROk l s /\
  exists n q s', (forall m, (n <= m)%nat -> eval_apply_ no_load sample_fuel m s = ROk q s')
      /\ (exists c, heap s' !! q = Some c /\ c_ty c = TNUMBER /\ c_cdr c = 42) /\ g_stack s' = STACK_SIZE s'.
Proof.
  destruct (check_res (sample_state define_code) (fun l s => sample_ok 4 (call_chk true) l s)) as (l & s & E & H). { vm_compute. reflexivity. }
  exists l, s. split; [exact E|]. clear E.
  apply sample_ok_spec in H as (ρ & e & μ & r2' & x & r0' & p & Hchk & So & R & C & Hc & He & Eo & S & HM & Hroom).
  apply call_chk_ok in Hchk as [μ' Hev].
  destruct (C35_returned_number _ true no_load sample_fuel 4 20 ρ μ e μ' 42 Hev Eo So
     _ s _ _ _ _ _ _ _ _ [] _ _ R C Hc He S HM ltac:(cbn; lia) Hroom) as (m & q & s' & Q1 & Q2 & Q3).
  exists m, q, s'. split; [done|]. split; [done|]. cbn in Q3. lia.
Qed.

(** ** Where evaluation differs from Scheme
    An operator that is neither a variable, a global nor a lambda expression is evaluated twice:
    once before the arguments, and again when the call is made.
    [((lambda (n f) ((begin (set! n (+ n 1)) f)) n) 0 (lambda () 5))] should be 1 and is 2. *)
Definition twice_code (gs : list Z) : M Z :=
  let n := sym (bytes_of "n") in let f := sym (bytes_of "f") in
  let op := list_m [ret cell_symbol_begin; list_m [ret cell_symbol_set_x; n; list_m [make_variable_ (nth 2 gs 0); n; make_number 1]]; f] in
  list_m [list_m [ret cell_symbol_lambda; list_m [n; f]; list_m [op]; n]; make_number 0; list_m [ret cell_symbol_lambda; ret cell_nil; make_number 5]].
Lemma run_more gcc prim load fuel n : forall m l v s q s', (n <= m)%nat -> run_eval gcc prim load fuel n l v s = ROk q s' ->
  run_eval gcc prim load fuel m l v s = ROk q s'.
Proof.
  induction n as [|n IH]; intros m l v s q s' Hm H; [done|]. destruct m as [|m]; [lia|]. cbn [run_eval] in *.
  unfold bind in *. destruct (step gcc prim load fuel l v s) as [[l' v'|x] s1| | | |]; try done. apply IH; [lia|done].
Qed.
Theorem C35_operator_twice_refuted : exists l s, sample_state twice_code = ROk l s /\
  exists n q s', (forall m, (n <= m)%nat -> eval_apply_ no_load sample_fuel m s = ROk q s') /\ exists c, heap s' !! q = Some c /\ c_ty c = TNUMBER /\ c_cdr c = 2.
Proof.
  destruct (check_res (sample_state twice_code) (fun l s => match eval_apply_ no_load sample_fuel sample_fuel s with
    ROk q s' => match heap s' !! q with Some c => (c_ty c =? TNUMBER) && (c_cdr c =? 2) | None => false end | _ => false end)) as (l & s & E & H). { vm_compute. reflexivity. }
  exists l, s. split; [exact E|]. clear E. destruct (check_res _ _ H) as (q & s' & E & Hq). exists sample_fuel, q, s'. clear H. split.
  - intros m Hm. revert E. unfold eval_apply. by apply run_more.
  - clear E. destruct (heap s' !! q) as [c|]; [|done]. exists c. split; [done|]. apply andb_prop in Hq as [H1 H2]. apply Z.eqb_eq in H1, H2. done.
Qed.

(** While the value of a definition in a body is computed, the name is bound to its own symbol.  A
    procedure made inside a call there keeps that binding, and calling the name aborts:
    [((lambda () (define f ((lambda (a) (lambda (n) (if (= n 0) a (f (- n 1))))) 5)) (f 1)))]
    should be 5.  (A procedure that is itself the value, as in [C35_define_ex], does see the
    variable: the environment of a closure loses its first entry when it is called.) *)
Definition define_inside_code (gs : list Z) : M Z :=
  let f := sym (bytes_of "f") in let a := sym (bytes_of "a") in let n := sym (bytes_of "n") in
  let minus := sym (bytes_of "-") in let is := sym (bytes_of "=") in
  let inner := list_m [ret cell_symbol_lambda; list_m [n]; list_m [ret cell_symbol_if; list_m [is; n; make_number 0]; a; list_m [f; list_m [minus; n; make_number 1]]]] in
  list_m [list_m [ret cell_symbol_lambda; ret cell_nil;
    list_m [ret cell_symbol_define; f; list_m [list_m [ret cell_symbol_lambda; list_m [a]; inner]; make_number 5]];
    list_m [f; make_number 1]]].
Theorem C35_define_inside_refuted : exists l s, sample_state define_inside_code = ROk l s /\ eval_apply_ no_load sample_fuel sample_fuel s = RAbort.
Proof.
  destruct (check_res (sample_state define_inside_code) (fun l s => match eval_apply_ no_load sample_fuel sample_fuel s with RAbort => true | _ => false end)) as (l & s & E & H). { vm_compute. reflexivity. }
  exists l, s. split; [exact E|]. clear E. destruct (eval_apply _ _ _ _ _ s); try discriminate H. reflexivity.
Qed.

Print Assumptions C35_define_inside_refuted.
Print Assumptions C35_operator_twice_refuted.
Print Assumptions C35_evaluation.
Print Assumptions C36_tail_calls.
