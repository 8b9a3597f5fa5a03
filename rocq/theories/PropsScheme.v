(** C49: what procedures of the Scheme library compute. *)
From stdpp Require Import base gmap list fin_maps.
From Coq Require Import ZArith Lia.
From Coq Require Import ZifyBool ZifyNat.
From Verif Require Import CInt Symbols Heap HeapLemmas GcModel GcSpec GcCheck DataModel BootModel Builtins DataSpec.
From Verif Require Import EvalModel Rep EvalSpec EvalRep EvalRun RepProofs EvalSteps PrimModel EvalPrimSpec EvalTop EvalCheck Samples.
From Verif Require Import TopSpec TopRep TopRun TopMain TopCheck PropsEval PropsTop SchemeSpec SchemeLib.
Open Scope Z_scope.

(** C49.  The definition of a procedure makes its name a global variable that holds the procedure;
    nothing else in the store changes. *)
Theorem C49_definition w P d ρ gs μ p gs1 μ1 v :
  run_form w P d ρ gs μ (definition p) gs1 μ1 v ->
  (forall l, lookup_var (p_name p) gs = Some l -> exists u, μ !! l = Some (SVar (p_name p) u)) ->
  (exists f, installed gs gs1 μ1 p f) /\
  forall l c, μ !! l = Some c -> (forall u, c <> SVar (p_name p) u) -> μ1 !! l = Some c.
Proof. intros H Hwf. by destruct (definition_installs _ _ _ _ _ _ _ _ _ _ H Hwf) as (_ & ? & ?). Qed.

Section apply.
(** [gs0] and [gs1]: the global variables before and after the definition; [gs]: those at the call. *)
Context (w : nat) (gs0 gs1 gs : list (Z * Z)) (defs : bool).
Notation apply := (apply w (prims w) gs defs).

(** (map1 f lst), (map f lst): a new list of what [f] gives for the elements, in order. *)
Theorem C49_map d0 g map1 f lst null_p list cons car cdr μ v fv lv vs d :
  NoDup [map1; f; lst; null_p; list; cons; car; cdr] -> (2 <= w)%nat ->
  installed gs0 gs1 μ (map1_proc map1 f lst null_p list cons car cdr) v ->
  builtin gs0 μ null_p fn_null_p 1 -> builtin gs0 μ list fn_list (-1) -> builtin gs0 μ cons fn_cons 2 ->
  builtin gs0 μ car fn_car 1 -> builtin gs0 μ cdr fn_cdr 1 ->
  list_val μ lv vs -> fv <> v_undefined -> computes w gs defs d0 μ fv (map (fun a => [a]) vs) (fun us => match us with [a] => g a | _ => v_false end) ->
  (d0 + 3 * length vs + 8 <= d)%nat ->
  exists μ' r, apply d μ v [fv; lv] μ' r /\ list_val μ' r (map g vs) /\ μ ⊆ μ'.
Proof. intros. by eapply (map1_applies w gs defs gs0 gs1 d0 (fun us => match us with [a] => g a | _ => v_false end)). Qed.

(** (list-tail lst k): the very tail, not a copy; [k] may be any number that lst has that many pairs for. *)
Theorem C49_list_tail list_tail x n is cdr minus μ v lv k r d :
  NoDup [list_tail; x; n; is; cdr; minus] -> (2 <= w)%nat ->
  installed gs0 gs1 μ (list_tail_proc list_tail x n is cdr minus) v ->
  builtin gs0 μ is fn_is_p (-1) -> builtin gs0 μ cdr fn_cdr 1 -> builtin gs0 μ minus fn_minus (-1) ->
  nth_tail μ k lv r -> r <> v_undefined -> Z.of_nat k <= LONG_MAX -> (6 <= d)%nat ->
  exists μ', apply d μ v [lv; VNum (Z.of_nat k)] μ' r /\ μ ⊆ μ'.
Proof. intros. by eapply (list_tail_applies w gs defs gs0 gs1). Qed.

(** (list-head lst k): a new list of the first [k] elements. *)
Theorem C49_list_head list_head x n is cons car cdr minus μ v lv vs d :
  NoDup [list_head; x; n; is; cons; car; cdr; minus] -> (2 <= w)%nat ->
  installed gs0 gs1 μ (list_head_proc list_head x n is cons car cdr minus) v ->
  builtin gs0 μ is fn_is_p (-1) -> builtin gs0 μ cons fn_cons 2 -> builtin gs0 μ car fn_car 1 ->
  builtin gs0 μ cdr fn_cdr 1 -> builtin gs0 μ minus fn_minus (-1) ->
  begins μ lv vs -> Z.of_nat (length vs) <= LONG_MAX -> (3 * length vs + 9 <= d)%nat ->
  exists μ' r, apply d μ v [lv; VNum (Z.of_nat (length vs))] μ' r /\ list_val μ' r vs /\ μ ⊆ μ'.
Proof. intros. by eapply (list_head_applies w gs defs gs0 gs1). Qed.

(** (srfi-1:member x lst eq): the tail of the list that starts with the first element for which
    [eq], applied to [x] and it, is true; #f when there is none. *)
Theorem C49_member d0 same member x lst eq null_p car cdr μ v xv lv ev vs r d :
  NoDup [member; x; lst; eq; null_p; car; cdr] -> (3 <= w)%nat -> xv <> v_undefined -> ev <> v_undefined ->
  installed gs0 gs1 μ (member_proc member x lst eq null_p car cdr) v ->
  builtin gs0 μ null_p fn_null_p 1 -> builtin gs0 μ car fn_car 1 -> builtin gs0 μ cdr fn_cdr 1 ->
  list_val μ lv vs -> computes w gs defs d0 μ ev (map (fun a => [xv; a]) vs) (fun us => match us with [_; a] => v_bool (same a) | _ => v_false end) ->
  member_tail μ same lv r -> (d0 + 8 <= d)%nat ->
  exists μ', apply d μ v [xv; lv; ev] μ' r /\ μ ⊆ μ'.
Proof. intros. by eapply (member_applies w gs defs gs0 gs1). Qed.

(** cadr, cddr, caddr, ...: what the letters of the name say, from right to left. *)
Theorem C49_cxr path cxr x car cdr μ v a r d :
  NoDup [cxr; x; car; cdr] -> (1 <= w)%nat -> installed gs0 gs1 μ (cxr_proc path cxr x car cdr) v ->
  builtin gs0 μ car fn_car 1 -> builtin gs0 μ cdr fn_cdr 1 ->
  path_val μ path a r -> a <> v_undefined -> (2 * length path <= d)%nat ->
  exists μ', apply d μ v [a] μ' r /\ μ ⊆ μ'.
Proof. intros. by eapply (cxr_applies w gs defs gs0 gs1). Qed.

(** (not x): #t for #f and #f for everything else, '() included. *)
Theorem C49_not not x μ v a b d :
  NoDup [not; x] -> (1 <= w)%nat -> installed gs0 gs1 μ (not_proc not x) v -> a <> v_undefined -> (1 <= d)%nat ->
  (b = true <-> a = v_false) -> exists μ', apply d μ v [a] μ' (v_bool b) /\ μ ⊆ μ'.
Proof. intros. by eapply (not_applies w gs defs gs0 gs1). Qed.

(** (remainder n m) for a positive [m]: it has the sign of [n]. *)
Theorem C49_remainder remainder x y minus times quotient μ v n m d :
  NoDup [remainder; x; y; minus; times; quotient] -> (2 <= w)%nat ->
  installed gs0 gs1 μ (remainder_proc remainder x y minus times quotient) v ->
  builtin gs0 μ minus fn_minus (-1) -> builtin gs0 μ times fn_multiply (-1) -> builtin gs0 μ quotient fn_divide (-1) ->
  LONG_MIN < n <= LONG_MAX -> 0 < m <= LONG_MAX -> (8 <= d)%nat ->
  exists μ', apply d μ v [VNum n; VNum m] μ' (VNum (Z.rem n m)) /\ μ ⊆ μ'.
Proof. intros. by eapply (remainder_applies w gs defs gs0 gs1). Qed.
End apply.

Lemma parity_applies k w gs0 gs1 gr0 gr1 gs defs even x is remainder y minus times quotient μ v vr l n d :
  NoDup [even; x; is; remainder; y; minus; times; quotient] -> (2 <= w)%nat ->
  installed gr0 gr1 μ (remainder_proc remainder x y minus times quotient) vr ->
  installed gs0 gs1 μ (Proc even [x] (EApp (EVar is) [EConst (VNum k); EApp (EVar remainder) [EVar x; EConst (VNum 2)]])) v ->
  lookup_var remainder gs0 = Some l -> μ !! l = Some (SVar remainder vr) -> builtin gs0 μ is fn_is_p (-1) ->
  builtin gr0 μ minus fn_minus (-1) -> builtin gr0 μ times fn_multiply (-1) -> builtin gr0 μ quotient fn_divide (-1) ->
  LONG_MIN < n <= LONG_MAX -> (11 <= d)%nat ->
  exists μ', apply w (prims w) gs defs d μ v [VNum n] μ' (v_bool (Z.rem n 2 =? k)) /\ μ ⊆ μ'.
Proof.
  intros Hnd Hw Hr Hi El Hl Be Bm Bt Bq Hn Hd. rewrite !NoDup_cons, !not_elem_of_cons in Hnd; destruct_and! Hnd.
  destruct (apply_installed w gs defs _ _ _ _ _ [VNum n] Hi) as (ρ1 & μ1 & K1 & Happ & Hloc); [done|cbn; nlia|nlia|cbn; apply NoDup_singleton|done|].
  pose proof (Hloc 0%nat x _ eq_refl eq_refl) as Lx; clear Hloc.
  destruct (builtin_prim _ _ _ _ _ Be) as (le & Ee & Pe). apply (prim_at_keep _ _ _ _ _ K1) in Pe.
  cbn [p_formals p_body resolve_all elements resolve binders app] in Happ; rewrite ?binders_ref in Happ; cbn [binders app] in Happ.
  rewrite (ref_global gs0 _ is le), (ref_global gs0 _ remainder l), (ref_formal gs0 _ x) in Happ by (try done; distinct).
  cbn [resolve] in Happ. rewrite (ref_formal gs1 _ x) in Happ by distinct.
  destruct (C49_remainder w gr0 gr1 gs defs remainder x y minus times quotient μ1 vr n 2 (pred (pred (pred d)))) as (μ2 & Hap & K2).
  { rewrite !NoDup_cons; split_and!; try apply NoDup_nil_2; distinct. }
  { done. } { by eapply installed_keep. } 1-3: (by eapply builtin_keep). { done. } { unfold LONG_MAX; nlia. } { nlia. }
  destruct d as [|[|[|[|[|[|d]]]]]]; try nlia. cbn [pred] in Hap.
  exists μ2. split; [|by etrans]. apply Happ. eapply (ev_prim w gs defs _ _ _ _ _ _ _ _ [VNum k; VNum (Z.rem n 2)]); [exact Pe| |exact K2|by left|].
  - eapply args2; [constructor|]. eapply ev_global_call; [exact (keep K1 Hl)| |reflexivity|exact Hap]. eapply args2; [by apply ev_local|constructor].
  - apply (pr_equal _ [k; Z.rem n 2] (Z.rem n 2 =? k)). rewrite PropsEval.ordered_two. nlia.
Qed.
(** (even? n), which calls remainder; [gr0] and [gr1] are the global variables before and after the
    definition of remainder. *)
Theorem C49_even w gs0 gs1 gr0 gr1 gs defs even x is remainder y minus times quotient μ v vr l n d :
  NoDup [even; x; is; remainder; y; minus; times; quotient] -> (2 <= w)%nat ->
  installed gr0 gr1 μ (remainder_proc remainder x y minus times quotient) vr ->
  installed gs0 gs1 μ (even_proc even x is remainder) v ->
  lookup_var remainder gs0 = Some l -> μ !! l = Some (SVar remainder vr) -> builtin gs0 μ is fn_is_p (-1) ->
  builtin gr0 μ minus fn_minus (-1) -> builtin gr0 μ times fn_multiply (-1) -> builtin gr0 μ quotient fn_divide (-1) ->
  LONG_MIN < n <= LONG_MAX -> (11 <= d)%nat ->
  exists μ', apply w (prims w) gs defs d μ v [VNum n] μ' (v_bool (Z.even n)) /\ μ ⊆ μ'.
Proof.
  intros. replace (Z.even n) with (Z.rem n 2 =? 0).
  - by eapply (parity_applies 0 w gs0 gs1 gr0 gr1 gs defs even).
  - clear. rewrite Zeven_mod. unfold Zeq_bool. destruct (Z.eqb_spec (Z.rem n 2) 0) as [E|E].
    + apply Z.rem_divide in E; [|done]. apply Z.mod_divide in E; [|done]. by rewrite E.
    + destruct (n mod 2 ?= 0) eqn:E2; try done. apply Z.compare_eq in E2. apply Z.mod_divide in E2; [|done]. apply Z.rem_divide in E2; [|done]. done.
Qed.
(** (odd? n) for a number that is not negative *)
Theorem C49_odd w gs0 gs1 gr0 gr1 gs defs odd x is remainder y minus times quotient μ v vr l n d :
  NoDup [odd; x; is; remainder; y; minus; times; quotient] -> (2 <= w)%nat ->
  installed gr0 gr1 μ (remainder_proc remainder x y minus times quotient) vr ->
  installed gs0 gs1 μ (odd_proc odd x is remainder) v ->
  lookup_var remainder gs0 = Some l -> μ !! l = Some (SVar remainder vr) -> builtin gs0 μ is fn_is_p (-1) ->
  builtin gr0 μ minus fn_minus (-1) -> builtin gr0 μ times fn_multiply (-1) -> builtin gr0 μ quotient fn_divide (-1) ->
  0 <= n <= LONG_MAX -> (11 <= d)%nat ->
  exists μ', apply w (prims w) gs defs d μ v [VNum n] μ' (v_bool (Z.odd n)) /\ μ ⊆ μ'.
Proof.
  intros ? ? ? ? ? ? ? ? ? ? Hn ?. replace (Z.odd n) with (Z.rem n 2 =? 1).
  - eapply (parity_applies 1 w gs0 gs1 gr0 gr1 gs defs odd); try done. unfold LONG_MIN. clear - Hn. lia.
  - clear - Hn. rewrite Z.rem_mod_nonneg by lia. rewrite Zodd_mod. unfold Zeq_bool. destruct (Z.eqb_spec (n mod 2) 1) as [->|E]; [done|]. destruct (n mod 2 ?= 1) eqn:E2; try done. by apply Z.compare_eq in E2.
Qed.
(** but a negative odd number is not odd: the remainder is -1 *)
Theorem C49_odd_refuted w gs0 gs1 gr0 gr1 gs defs odd x is remainder y minus times quotient μ v vr l n d :
  NoDup [odd; x; is; remainder; y; minus; times; quotient] -> (2 <= w)%nat ->
  installed gr0 gr1 μ (remainder_proc remainder x y minus times quotient) vr ->
  installed gs0 gs1 μ (odd_proc odd x is remainder) v ->
  lookup_var remainder gs0 = Some l -> μ !! l = Some (SVar remainder vr) -> builtin gs0 μ is fn_is_p (-1) ->
  builtin gr0 μ minus fn_minus (-1) -> builtin gr0 μ times fn_multiply (-1) -> builtin gr0 μ quotient fn_divide (-1) ->
  LONG_MIN < n < 0 -> (11 <= d)%nat ->
  exists μ', apply w (prims w) gs defs d μ v [VNum n] μ' v_false /\ μ ⊆ μ'.
Proof.
  intros ? ? ? ? ? ? ? ? ? ? Hn ?. change v_false with (v_bool false). replace false with (Z.rem n 2 =? 1).
  - eapply (parity_applies 1 w gs0 gs1 gr0 gr1 gs defs odd); try done. unfold LONG_MAX. clear - Hn. lia.
  - clear - Hn. pose proof (Z.rem_nonpos n 2 ltac:(lia) ltac:(lia)). lia.
Qed.

(** A definition always succeeds; so the hypotheses about [installed] above can be met. *)
Theorem C49_definition_succeeds w P d ρ gs μ p :
  (length (p_formals p) <= w)%nat -> exists gs1 μ1, run_form w P d ρ gs μ (definition p) gs1 μ1 v_unspecified.
Proof.
  intros Hw. assert (exists l gs1 μ1, declares gs μ (p_name p) l gs1 μ1) as (l & gs1 & μ1 & Hd).
  { destruct (lookup_var (p_name p) gs) as [l|] eqn:E; [exists l, gs, μ; by constructor|]. destruct (fresh_place μ) as (l & Hl). eexists l, _, _. by constructor. }
  destruct (bind_args_total (p_name p :: p_formals p ++ []) (map VAtom (p_name p :: p_formals p ++ [])) μ1) as (bs & μ2 & Hb & _). { by rewrite map_length. }
  destruct (fresh_place μ2) as (lc & Hlc). eexists gs1, _. unfold definition. by eapply run_defun.
Qed.

(** A definition of another name leaves a procedure, and the primitive procedures, as they are. *)
Theorem C49_stays w P d ρ gs μ p gs1 μ1 v q g0 g1 f :
  run_form w P d ρ gs μ (definition p) gs1 μ1 v ->
  (forall l, lookup_var (p_name p) gs = Some l -> exists u, μ !! l = Some (SVar (p_name p) u)) ->
  p_name q <> p_name p ->
  (installed g0 g1 μ q f -> installed g0 g1 μ1 q f)
  /\ forall x fn n, x <> p_name p -> builtin g0 μ x fn n -> builtin g0 μ1 x fn n.
Proof.
  intros H Hwf Hq. destruct (C49_definition _ _ _ _ _ _ _ _ _ _ H Hwf) as (_ & Hk). split.
  - intros (l & lc & ρ1 & ρ' & H1 & H2 & H3 & H4 & H5 & H6). exists l, lc, ρ1, ρ'. split_and!; try done.
    + apply Hk; [done|]. intros u [= E _]. done.
    + by apply Hk.
    + destruct ρ1 as [|? ? ?|?|fr]; try done. cbn in *. destruct (μ !! fr) as [[]|] eqn:E; try done. by rewrite (Hk _ _ E).
  - intros x fn n Hx B. by eapply builtin_defined.
Qed.

(** * The procedures run by the interpreter *)
(** A program that defines the procedure [p] and calls it: if every procedure that the definition
    can have made gives, for these arguments, a value and a store with [Q], then the evaluator
    returns such a value, and leaves such a store.  The hypotheses about the state [s] are those of C44.
    With it each of the theorems above speaks about the evaluator. *)
Theorem C49_call_program (Q : store -> val -> Prop) T xs m load fuel w d ρ gs μ p es gs1 μ1 v0 μ2 vs :
  (forall l, lookup_var (p_name p) gs = Some l -> exists u, μ !! l = Some (SVar (p_name p) u)) ->
  run_form w (prims w) (S d) ρ gs μ (definition p) gs1 μ1 v0 ->
  args w (prims w) gs1 true d ρ μ1 (resolve_all gs1 [] es) μ2 vs -> μ1 ⊆ μ2 ->
  (forall f, installed gs gs1 μ2 p f -> exists μ' r, apply w (prims w) gs1 true (S d) μ2 f vs μ' r /\ Q μ' r) ->
  forall h s σ r0 i r2 r2' x r0' q st sz gl ts D K,
    rep h (Mst σ r0 i r2 (Imp cell_vm_begin_expand) (Imp cell_unspecified :: r2' :: x :: r0' :: q :: st) sz gl) s ->
    world T xs m ρ gs μ σ r0 -> forms T xs m σ i ts [definition p; EApp (EVar (p_name p)) es] ->
    NoDup (all_nodes ts) -> Forall (untouched (all_nodes ts)) (r2' :: x :: r0' :: q :: st ++ gl) ->
    gl !! 1%nat = Some (Imp m) -> gl !! 3%nat = Some (Imp (tb_module T)) ->
    Forall (fun t => (depth t <= D)%nat /\ 4 * size t <= K) ts -> 0 <= K ->
    Z.of_nat (length st) + 5 * (Z.of_nat (Nat.max (S d) D) + 4) <= sz ->
    roomy_ load fuel (step_memory w + K) L_eval_apply (Locals false false) s ->
    exists n a s' h' σ' j μ' r, (forall k, (n <= k)%nat -> eval_apply_ load fuel k s = ROk a s')
      /\ rep h' (Mst σ' r0' j r2' (Imp cell_unspecified) st sz gl) s' /\ h' j a
      /\ val_at σ' r j /\ world T xs m ρ gs1 μ' σ' r0 /\ Q μ' r.
Proof.
  intros Hwf Hdef Hargs K12 Hap h s σ r0 i r2 r2' x r0' q st sz gl ts D K R W F Hn Hu Hm HM Hsz HK Hst Hroom.
  destruct (C49_definition _ _ _ _ _ _ _ _ _ _ Hdef Hwf) as ((v & Hi) & Hk).
  destruct (Hap v) as (μ' & r & Ha & HQ). { by eapply installed_keep. }
  assert (run_program w (prims w) (S d) ρ gs μ v_unspecified [definition p; EApp (EVar (p_name p)) es] gs1 μ' r) as Hrun.
  { eapply run_next; [done|exact Hdef|]. eapply run_next; [done| |constructor]. by eapply (call_form w d ρ gs gs1 μ1 p). }
  destruct (C44_programs T xs m load fuel w (S d) ρ gs μ _ gs1 μ' r Hrun h s σ r0 i r2 r2' x r0' q st sz gl ts D K R W F Hn Hu Hm HM Hsz HK Hst Hroom) as (n & a & s' & h' & σ' & j & Q1 & Q2 & Q3 & Q4 & Q5).
  by exists n, a, s', h', σ', j, μ', r.
Qed.
(** A program that defines map1 (or map) and calls it: the evaluator returns the list of what the
    procedure gives for the elements.  The hypotheses about the state [s] are those of C44. *)
Theorem C49_map_program T xs m load fuel w d ρ gs μ d0 g map1 f lst null_p list cons car cdr es gs1 μ1 v0 μ2 fv lv vs :
  NoDup [map1; f; lst; null_p; list; cons; car; cdr] -> (2 <= w)%nat ->
  (forall l, lookup_var map1 gs = Some l -> exists u, μ !! l = Some (SVar map1 u)) ->
  builtin gs μ null_p fn_null_p 1 -> builtin gs μ list fn_list (-1) -> builtin gs μ cons fn_cons 2 ->
  builtin gs μ car fn_car 1 -> builtin gs μ cdr fn_cdr 1 ->
  let p := map1_proc map1 f lst null_p list cons car cdr in
  run_form w (prims w) (S d) ρ gs μ (definition p) gs1 μ1 v0 ->
  args w (prims w) gs1 true d ρ μ1 (resolve_all gs1 [] es) μ2 [fv; lv] -> μ1 ⊆ μ2 ->
  list_val μ2 lv vs -> fv <> v_undefined ->
  computes w gs1 true d0 μ2 fv (map (fun a => [a]) vs) (fun us => match us with [a] => g a | _ => v_false end) ->
  (d0 + 3 * length vs + 8 <= S d)%nat ->
  forall h s σ r0 i r2 r2' x r0' q st sz gl ts D K,
    rep h (Mst σ r0 i r2 (Imp cell_vm_begin_expand) (Imp cell_unspecified :: r2' :: x :: r0' :: q :: st) sz gl) s ->
    world T xs m ρ gs μ σ r0 -> forms T xs m σ i ts [definition p; EApp (EVar map1) es] ->
    NoDup (all_nodes ts) -> Forall (untouched (all_nodes ts)) (r2' :: x :: r0' :: q :: st ++ gl) ->
    gl !! 1%nat = Some (Imp m) -> gl !! 3%nat = Some (Imp (tb_module T)) ->
    Forall (fun t => (depth t <= D)%nat /\ 4 * size t <= K) ts -> 0 <= K ->
    Z.of_nat (length st) + 5 * (Z.of_nat (Nat.max (S d) D) + 4) <= sz ->
    roomy_ load fuel (step_memory w + K) L_eval_apply (Locals false false) s ->
    exists n a s' h' σ' j μ' r, (forall k, (n <= k)%nat -> eval_apply_ load fuel k s = ROk a s')
      /\ rep h' (Mst σ' r0' j r2' (Imp cell_unspecified) st sz gl) s' /\ h' j a
      /\ val_at σ' r j /\ world T xs m ρ gs1 μ' σ' r0 /\ list_val μ' r (map g vs).
Proof.
  intros Hnd Hw Hwf Bn Bl Bc Ba Bd p Hdef Hargs K12 Hl Hfu Hc Hd.
  apply (C49_call_program (fun μ' r => list_val μ' r (map g vs)) T xs m load fuel w d ρ gs μ p es gs1 μ1 v0 μ2 [fv; lv] Hwf Hdef Hargs K12).
  intros v Hi. assert (forall y fn k, y <> map1 -> builtin gs μ y fn k -> builtin gs μ2 y fn k) as Hb.
  { intros y fn k Hy B. eapply builtin_keep; [exact K12|]. by eapply builtin_defined. }
  pose proof Hnd as Hnd'. rewrite !NoDup_cons, !not_elem_of_cons in Hnd'; destruct_and! Hnd'.
  destruct (C49_map w gs gs1 gs1 true d0 g map1 f lst null_p list cons car cdr μ2 v fv lv vs (S d)) as (μ' & r & Hap & Hlr & K2); try done.
  1-5: (apply Hb; [by apply not_eq_sym|done]). by exists μ', r.
Qed.

(** * Examples: a store with primitive procedures and the list ((5) (7)) *)
Definition ex_prims : list (Z * Z * Z) :=
  [(1, fn_null_p, 1); (2, fn_list, -1); (3, fn_cons, 2); (4, fn_car, 1); (5, fn_cdr, 1); (6, fn_is_p, -1); (7, fn_minus, -1); (8, fn_multiply, -1); (9, fn_divide, -1); (10, fn_eq_p, 2)].
Definition ex_gs : list (Z * Z) := map (fun t => (t.1.1, 100 + t.1.1)) ex_prims.
Definition ex_store : store :=
  list_to_map (map (fun t => (100 + t.1.1, SVar t.1.1 (VLoc (200 + t.1.1)))) ex_prims ++ map (fun t => (200 + t.1.1, SPrim t.1.2 t.2)) ex_prims
    ++ [(301, SPair (VLoc 303) (VLoc 302)); (302, SPair (VLoc 304) v_nil); (303, SPair (VNum 5) v_nil); (304, SPair (VNum 7) v_nil)]).
Lemma ex_list : list_val ex_store (VLoc 301) [VLoc 303; VLoc 304].
Proof. repeat (econstructor; [reflexivity|]). constructor. Qed.
Ltac ex_builtin K k := eapply builtin_keep; [exact K|exists (100 + k), (200 + k); split_and!; vm_compute; reflexivity].
Ltac ex_names := apply (bool_decide_unpack _); vm_compute; exact I.
Lemma ex_installed p : 20 <= p_name p -> (length (p_formals p) <= 4)%nat -> exists gs1 μ1 v, installed ex_gs gs1 μ1 p v /\ ex_store ⊆ μ1.
Proof.
  intros Hp Hf. destruct (C49_definition_succeeds 4 (prims 4) 40 (EHide ENil) ex_gs ex_store p Hf) as (gs1 & μ1 & H).
  assert (lookup_var (p_name p) ex_gs = None) as Hnone. { unfold ex_gs. cbn. by rewrite !decide_False by lia. }
  destruct (C49_definition _ _ _ _ _ _ _ _ _ _ H) as ((v & Hi) & Hk). { by rewrite Hnone. }
  exists gs1, μ1, v. split; [done|]. apply map_subseteq_spec. intros l c Hc. apply Hk; [done|]. intros u ->.
  apply elem_of_list_to_map_2 in Hc. unfold ex_prims in Hc. cbn [map app] in Hc. rewrite !elem_of_cons in Hc.
  repeat (destruct Hc as [Hc|Hc]; [first [discriminate Hc|injection Hc as _ E _; cbn in E; lia]|]). by apply elem_of_nil in Hc.
Qed.

Lemma ex_computes w gs defs d0 μ : ex_store ⊆ μ ->
  computes w gs defs d0 μ (VLoc 204) (map (fun a => [a]) [VLoc 303; VLoc 304]) (fun us => match us with [a] => (match a with VLoc 303 => VNum 5 | _ => VNum 7 end) | _ => v_false end).
Proof.
  intros K d μ' us _ K' Hus. exists μ'. split; [done|]. assert (ex_store ⊆ μ') as Ks by (by etrans).
  cbn [map] in Hus. rewrite !elem_of_cons, elem_of_nil in Hus. destruct Hus as [->|[->|[]]].
  all: eapply apply_prim; [eapply (keep Ks); reflexivity|by right|]; eapply pr_car; eapply (keep Ks); reflexivity.
Qed.
(** (map1 car '((5) (7))) is (5 7) *)
Example C49_map_ex : exists gs1 μ1 v μ' r, installed ex_gs gs1 μ1 (map1_proc 20 30 31 1 2 3 4 5) v
  /\ apply 4 (prims 4) gs1 true 20 μ1 v [VLoc 204; VLoc 301] μ' r /\ list_val μ' r [VNum 5; VNum 7].
Proof.
  destruct (ex_installed (map1_proc 20 30 31 1 2 3 4 5)) as (gs1 & μ1 & v & Hi & K); [done|cbn; lia|].
  destruct (C49_map 4 ex_gs gs1 gs1 true 0 (fun a => match a with VLoc 303 => VNum 5 | _ => VNum 7 end) 20 30 31 1 2 3 4 5 μ1 v (VLoc 204) (VLoc 301) [VLoc 303; VLoc 304] 20) as (μ' & r & H1 & H2 & _).
  1: ex_names. 1: lia. 1: exact Hi. 1: ex_builtin K 1. 1: ex_builtin K 2. 1: ex_builtin K 3. 1: ex_builtin K 4. 1: ex_builtin K 5.
  { eapply list_val_keep; [exact K|apply ex_list]. } 1: discriminate. { apply ex_computes; exact K. } { cbn; lia. }
  exists gs1, μ1, v, μ', r. split; [exact Hi|]. split; [exact H1|exact H2].
Qed.
(** (list-tail '((5) (7)) 1) is the second pair itself *)
Example C49_list_tail_ex : exists gs1 μ1 v μ', installed ex_gs gs1 μ1 (list_tail_proc 20 30 31 6 5 7) v
  /\ apply 4 (prims 4) gs1 true 6 μ1 v [VLoc 301; VNum 1] μ' (VLoc 302).
Proof.
  destruct (ex_installed (list_tail_proc 20 30 31 6 5 7)) as (gs1 & μ1 & v & Hi & K); [done|cbn; lia|].
  destruct (C49_list_tail 4 ex_gs gs1 gs1 true 20 30 31 6 5 7 μ1 v (VLoc 301) 1 (VLoc 302) 6) as (μ' & H1 & _).
  1: ex_names. 1: lia. 1: exact Hi. 1: ex_builtin K 6. 1: ex_builtin K 5. 1: ex_builtin K 7.
  { econstructor; [eapply (keep K); reflexivity|constructor]. } 1: discriminate. 1: (unfold LONG_MAX; lia). 1: lia.
  exists gs1, μ1, v, μ'. split; [exact Hi|exact H1].
Qed.
(** (list-head '((5) (7)) 1) is a new list of (5) *)
Example C49_list_head_ex : exists gs1 μ1 v μ' r, installed ex_gs gs1 μ1 (list_head_proc 20 30 31 6 3 4 5 7) v
  /\ apply 4 (prims 4) gs1 true 12 μ1 v [VLoc 301; VNum 1] μ' r /\ list_val μ' r [VLoc 303].
Proof.
  destruct (ex_installed (list_head_proc 20 30 31 6 3 4 5 7)) as (gs1 & μ1 & v & Hi & K); [done|cbn; lia|].
  destruct (C49_list_head 4 ex_gs gs1 gs1 true 20 30 31 6 3 4 5 7 μ1 v (VLoc 301) [VLoc 303] 12) as (μ' & r & H1 & H2 & _).
  1: ex_names. 1: lia. 1: exact Hi. 1: ex_builtin K 6. 1: ex_builtin K 3. 1: ex_builtin K 4. 1: ex_builtin K 5. 1: ex_builtin K 7.
  { econstructor; [eapply (keep K); reflexivity|constructor]. } 1: (cbn; unfold LONG_MAX; lia). 1: (cbn; lia).
  exists gs1, μ1, v, μ', r. split; [exact Hi|]. split; [exact H1|exact H2].
Qed.
(** (srfi-1:member (cadr l) l eq?), with l the list ((5) (7)), is the second pair *)
Example C49_member_ex : exists gs1 μ1 v μ', installed ex_gs gs1 μ1 (member_proc 20 30 31 32 1 4 5) v
  /\ apply 4 (prims 4) gs1 true 8 μ1 v [VLoc 304; VLoc 301; VLoc 210] μ' (VLoc 302).
Proof.
  destruct (ex_installed (member_proc 20 30 31 32 1 4 5)) as (gs1 & μ1 & v & Hi & K); [done|cbn; lia|].
  destruct (C49_member 4 ex_gs gs1 gs1 true 0 (fun a => match a with VLoc 304 => true | _ => false end) 20 30 31 32 1 4 5 μ1 v (VLoc 304) (VLoc 301) (VLoc 210) [VLoc 303; VLoc 304] (VLoc 302) 8) as (μ' & H1 & _).
  1: ex_names. 1: lia. 1: discriminate. 1: discriminate. 1: exact Hi. 1: ex_builtin K 1. 1: ex_builtin K 4. 1: ex_builtin K 5.
  { eapply list_val_keep; [exact K|apply ex_list]. }
  { intros d μ' us _ K' Hus. exists μ'. split; [done|]. assert (ex_store ⊆ μ') as Ks by (by etrans).
    cbn [map] in Hus. rewrite !elem_of_cons, elem_of_nil in Hus. destruct Hus as [->|[->|[]]].
    all: eapply apply_prim; [eapply (keep Ks); reflexivity|by right|]; apply pr_eq; [|split; congruence].
    all: split; [|split; [|exact I]]; unfold known; eexists; eapply (keep Ks); reflexivity. }
  { eapply mt_next; [eapply (keep K); reflexivity|done|]. eapply mt_here; [eapply (keep K); reflexivity|done]. } 1: lia.
  exists gs1, μ1, v, μ'. split; [exact Hi|exact H1].
Qed.
(** (caadr '((5) (7))) is 7 *)
Example C49_cxr_ex : exists gs1 μ1 v μ', installed ex_gs gs1 μ1 (cxr_proc [true; true; false] 20 30 4 5) v
  /\ apply 4 (prims 4) gs1 true 6 μ1 v [VLoc 301] μ' (VNum 7).
Proof.
  destruct (ex_installed (cxr_proc [true; true; false] 20 30 4 5)) as (gs1 & μ1 & v & Hi & K); [done|cbn; lia|].
  destruct (C49_cxr 4 ex_gs gs1 gs1 true [true; true; false] 20 30 4 5 μ1 v (VLoc 301) (VNum 7) 6) as (μ' & H1 & _).
  1: ex_names. 1: lia. 1: exact Hi. 1: ex_builtin K 4. 1: ex_builtin K 5.
  { eapply (pv_step _ true _ _ 304 (VNum 7) v_nil); [|eapply (keep K); reflexivity]. eapply (pv_step _ true _ _ 302 (VLoc 304) v_nil); [|eapply (keep K); reflexivity].
    eapply (pv_step _ false _ _ 301 (VLoc 303) (VLoc 302)); [|eapply (keep K); reflexivity]. constructor. } 1: discriminate. 1: (cbn; lia).
  exists gs1, μ1, v, μ'. split; [exact Hi|exact H1].
Qed.
(** (not '()) is #f *)
Example C49_not_ex : exists gs1 μ1 v μ', installed ex_gs gs1 μ1 (not_proc 20 30) v /\ apply 4 (prims 4) gs1 true 1 μ1 v [v_nil] μ' v_false.
Proof.
  destruct (ex_installed (not_proc 20 30)) as (gs1 & μ1 & v & Hi & K); [done|cbn; lia|].
  destruct (C49_not 4 ex_gs gs1 gs1 true 20 30 μ1 v v_nil false 1) as (μ' & H1 & _).
  1: ex_names. 1: lia. 1: exact Hi. 1: discriminate. 1: lia. 1: (split; discriminate).
  exists gs1, μ1, v, μ'. split; [exact Hi|exact H1].
Qed.
(** (remainder -7 3) is -1 *)
Example C49_remainder_ex : exists gs1 μ1 v μ', installed ex_gs gs1 μ1 (remainder_proc 20 30 31 7 8 9) v /\ apply 4 (prims 4) gs1 true 8 μ1 v [VNum (-7); VNum 3] μ' (VNum (-1)).
Proof.
  destruct (ex_installed (remainder_proc 20 30 31 7 8 9)) as (gs1 & μ1 & v & Hi & K); [done|cbn; lia|].
  destruct (C49_remainder 4 ex_gs gs1 gs1 true 20 30 31 7 8 9 μ1 v (-7) 3 8) as (μ' & H1 & _).
  1: ex_names. 1: lia. 1: exact Hi. 1: ex_builtin K 7. 1: ex_builtin K 8. 1: ex_builtin K 9. 1: (unfold LONG_MIN, LONG_MAX; lia). 1: (unfold LONG_MAX; lia). 1: lia.
  exists gs1, μ1, v, μ'. split; [exact Hi|exact H1].
Qed.

(** (even? -8) is #t, with remainder and even? defined one after the other *)
Example C49_even_ex : exists gr1 μr gs1 μ1 v μ', run_form 4 (prims 4) 40 (EHide ENil) ex_gs ex_store (definition (remainder_proc 20 30 31 7 8 9)) gr1 μr v_unspecified
  /\ run_form 4 (prims 4) 40 (EHide ENil) gr1 μr (definition (even_proc 21 30 6 20)) gs1 μ1 v_unspecified
  /\ apply 4 (prims 4) gs1 true 11 μ1 v [VNum (-8)] μ' v_true.
Proof.
  destruct (C49_definition_succeeds 4 (prims 4) 40 (EHide ENil) ex_gs ex_store (remainder_proc 20 30 31 7 8 9)) as (gr1 & μr & Hr); [cbn; lia|].
  assert (lookup_var 20 ex_gs = None) as N20 by (vm_compute; reflexivity). assert (lookup_var 21 ex_gs = None) as N21 by (vm_compute; reflexivity).
  destruct (C49_definition _ _ _ _ _ _ _ _ _ _ Hr) as ((vr & Hir) & Hk). { intros l E. cbn [p_name remainder_proc] in E. by rewrite N20 in E. }
  destruct (C49_definition_succeeds 4 (prims 4) 40 (EHide ENil) gr1 μr (even_proc 21 30 6 20)) as (gs1 & μ1 & He); [cbn; lia|].
  assert (exists l, gr1 = (20, l) :: ex_gs) as (lr & ->).
  { inversion Hr as [? ? ? Hx| |? ? ? ? l ? ? ? ? ? Hd]; subst; [done|]. inversion Hd as [E|]; subst; [by rewrite N20 in E|]. by exists l. }
  assert (forall l, lookup_var (p_name (even_proc 21 30 6 20)) ((20, lr) :: ex_gs) = Some l -> exists u, μr !! l = Some (SVar 21 u)) as Hwf.
  { intros l E. cbn [p_name even_proc lookup_var] in E. rewrite decide_False in E by lia. by rewrite N21 in E. }
  destruct (C49_definition _ _ _ _ _ _ _ _ _ _ He Hwf) as ((v & Hi) & Hk2).
  destruct (C49_stays _ _ _ _ _ _ _ _ _ _ (remainder_proc 20 30 31 7 8 9) ex_gs ((20, lr) :: ex_gs) vr He Hwf) as (Hst & Hb); [cbn; lia|].
  assert (forall x fn n, builtin ex_gs ex_store x fn n -> x <> 20 -> x <> 21 -> builtin ex_gs μ1 x fn n) as Hb2.
  { intros x fn n B H20 H21. apply Hb; [done|]. eapply builtin_defined; [exact Hr| |done|exact B]. intros l E. cbn [p_name remainder_proc] in E. by rewrite N20 in E. }
  pose proof (Hst Hir) as Hir1. destruct (installed_var _ _ _ _ _ Hir1) as (l & El & _ & Hl). cbn [p_name remainder_proc] in El, Hl.
  destruct (C49_even 4 ((20, lr) :: ex_gs) gs1 ex_gs ((20, lr) :: ex_gs) gs1 true 21 30 6 20 31 7 8 9 μ1 v vr l (-8) 11) as (μ' & H1 & _).
  1: ex_names. 1: lia. 1: exact Hir1. 1: exact Hi. 1: exact El. 1: exact Hl.
  { destruct (Hb2 6 fn_is_p (-1)) as (l6 & p6 & E1 & E2 & E3); [ex_builtin (reflexivity ex_store : ex_store ⊆ ex_store) 6|lia|lia|]. exists l6, p6. split; [|done]. cbn [lookup_var]. by rewrite decide_False by lia. }
  1-3: (apply Hb2; [|lia|lia]). 1: ex_builtin (reflexivity ex_store : ex_store ⊆ ex_store) 7. 1: ex_builtin (reflexivity ex_store : ex_store ⊆ ex_store) 8. 1: ex_builtin (reflexivity ex_store : ex_store ⊆ ex_store) 9.
  1: (unfold LONG_MIN, LONG_MAX; lia). 1: lia.
  exists ((20, lr) :: ex_gs), μr, gs1, μ1, v, μ'. split; [exact Hr|]. split; [exact He|exact H1].
Qed.

(** (odd? 7) is #t and (odd? -7) is #f *)
Example C49_odd_ex : exists gr1 μr gs1 μ1 v μ' μ'', run_form 4 (prims 4) 40 (EHide ENil) ex_gs ex_store (definition (remainder_proc 20 30 31 7 8 9)) gr1 μr v_unspecified
  /\ run_form 4 (prims 4) 40 (EHide ENil) gr1 μr (definition (odd_proc 21 30 6 20)) gs1 μ1 v_unspecified
  /\ apply 4 (prims 4) gs1 true 11 μ1 v [VNum 7] μ' v_true
  /\ apply 4 (prims 4) gs1 true 11 μ1 v [VNum (-7)] μ'' v_false.
Proof.
  destruct (C49_definition_succeeds 4 (prims 4) 40 (EHide ENil) ex_gs ex_store (remainder_proc 20 30 31 7 8 9)) as (gr1 & μr & Hr); [cbn; lia|].
  assert (lookup_var 20 ex_gs = None) as N20 by (vm_compute; reflexivity). assert (lookup_var 21 ex_gs = None) as N21 by (vm_compute; reflexivity).
  destruct (C49_definition _ _ _ _ _ _ _ _ _ _ Hr) as ((vr & Hir) & Hk). { intros l E. cbn [p_name remainder_proc] in E. by rewrite N20 in E. }
  destruct (C49_definition_succeeds 4 (prims 4) 40 (EHide ENil) gr1 μr (odd_proc 21 30 6 20)) as (gs1 & μ1 & He); [cbn; lia|].
  assert (exists l, gr1 = (20, l) :: ex_gs) as (lr & ->).
  { inversion Hr as [? ? ? Hx| |? ? ? ? l ? ? ? ? ? Hd]; subst; [done|]. inversion Hd as [E|]; subst; [by rewrite N20 in E|]. by exists l. }
  assert (forall l, lookup_var (p_name (odd_proc 21 30 6 20)) ((20, lr) :: ex_gs) = Some l -> exists u, μr !! l = Some (SVar 21 u)) as Hwf.
  { intros l E. cbn [p_name odd_proc lookup_var] in E. rewrite decide_False in E by lia. by rewrite N21 in E. }
  destruct (C49_definition _ _ _ _ _ _ _ _ _ _ He Hwf) as ((v & Hi) & Hk2).
  destruct (C49_stays _ _ _ _ _ _ _ _ _ _ (remainder_proc 20 30 31 7 8 9) ex_gs ((20, lr) :: ex_gs) vr He Hwf) as (Hst & Hb); [cbn; lia|].
  assert (forall x fn n, builtin ex_gs ex_store x fn n -> x <> 20 -> x <> 21 -> builtin ex_gs μ1 x fn n) as Hb2.
  { intros x fn n B H20 H21. apply Hb; [done|]. eapply builtin_defined; [exact Hr| |done|exact B]. intros l E. cbn [p_name remainder_proc] in E. by rewrite N20 in E. }
  pose proof (Hst Hir) as Hir1. destruct (installed_var _ _ _ _ _ Hir1) as (l & El & _ & Hl). cbn [p_name remainder_proc] in El, Hl.
  destruct (C49_odd 4 ((20, lr) :: ex_gs) gs1 ex_gs ((20, lr) :: ex_gs) gs1 true 21 30 6 20 31 7 8 9 μ1 v vr l 7 11) as (μ' & H1 & _).
  1: ex_names. 1: lia. 1: exact Hir1. 1: exact Hi. 1: exact El. 1: exact Hl.
  { destruct (Hb2 6 fn_is_p (-1)) as (l6 & p6 & E1 & E2 & E3); [ex_builtin (reflexivity ex_store : ex_store ⊆ ex_store) 6|lia|lia|]. exists l6, p6. split; [|done]. cbn [lookup_var]. by rewrite decide_False by lia. }
  1-3: (apply Hb2; [|lia|lia]). 1: ex_builtin (reflexivity ex_store : ex_store ⊆ ex_store) 7. 1: ex_builtin (reflexivity ex_store : ex_store ⊆ ex_store) 8. 1: ex_builtin (reflexivity ex_store : ex_store ⊆ ex_store) 9.
  1: (unfold LONG_MIN, LONG_MAX; lia). 1: lia.
  destruct (C49_odd_refuted 4 ((20, lr) :: ex_gs) gs1 ex_gs ((20, lr) :: ex_gs) gs1 true 21 30 6 20 31 7 8 9 μ1 v vr l (-7) 11) as (μ'' & H2 & _).
  1: ex_names. 1: lia. 1: exact Hir1. 1: exact Hi. 1: exact El. 1: exact Hl.
  { destruct (Hb2 6 fn_is_p (-1)) as (l6 & p6 & E1 & E2 & E3); [ex_builtin (reflexivity ex_store : ex_store ⊆ ex_store) 6|lia|lia|]. exists l6, p6. split; [|done]. cbn [lookup_var]. by rewrite decide_False by lia. }
  1-3: (apply Hb2; [|lia|lia]). 1: ex_builtin (reflexivity ex_store : ex_store ⊆ ex_store) 7. 1: ex_builtin (reflexivity ex_store : ex_store ⊆ ex_store) 8. 1: ex_builtin (reflexivity ex_store : ex_store ⊆ ex_store) 9.
  1: (unfold LONG_MIN, LONG_MAX; lia). 1: lia.
  exists ((20, lr) :: ex_gs), μr, gs1, μ1, v, μ', μ''. split; [exact Hr|]. split; [exact He|]. split; [exact H1|exact H2].
Qed.

(** * The same by the evaluator: (define (map1 f lst) ...) (map1 car (list (list 5) (list 7))) *)
Import Strings.String.StringSyntax.
Open Scope mes_scope.
(** equal expressions, as far as they occur in the example *)
Fixpoint same_exp (n : nat) (a b : exp) : bool :=
  match n with
  | O => false
  | S n' =>
      let fix all (l l' : list exp) : bool := match l, l' with [], [] => true | x :: l, y :: l' => same_exp n' x y && all l l' | _, _ => false end in
      match a, b with
      | EVar x, EVar y => x =? y
      | EConst (VNum x), EConst (VNum y) => x =? y
      | EIf a1 a2 a3, EIf b1 b2 b3 => same_exp n' a1 b1 && same_exp n' a2 b2 && same_exp n' a3 b3
      | EApp f es, EApp f' es' => same_exp n' f f' && all es es'
      | EDefun x xs None es, EDefun y ys None es' => (x =? y) && bool_decide (xs = ys) && all es es'
      | _, _ => false
      end
  end.
Lemma same_exp_ok n : forall a b, same_exp n a b = true -> a = b.
Proof.
  induction n as [|n IH]; [done|]. intros a b H.
  assert (forall l l' : list exp, (fix all (l l' : list exp) : bool := match l, l' with [], [] => true | x :: l, y :: l' => same_exp n x y && all l l' | _, _ => false end) l l' = true -> l = l') as Hall.
  { clear H. induction l as [|x l IHl]; intros [|y l'] H; try done. apply andb_prop in H as [H1 H2]. f_equal; [by apply IH|by apply IHl]. }
  destruct a as [va| | | | | | | | | |x xs ra bda| |], b as [vb| | | | | | | | | |y ys rb bdb| |]; try done; cbn in H.
  all: try (match goal with v : val |- _ => destruct v; discriminate H end).
  all: try (match goal with r : option Z |- _ => destruct r; discriminate H end).
  all: repeat match goal with H : _ && _ = true |- _ => apply andb_prop in H as [? ?] end.
  all: try (f_equal; auto; lia).
  - destruct va, vb; try done. f_equal. f_equal. lia.
  - destruct ra; [done|]. destruct rb; [done|]. repeat match goal with H : _ && _ = true |- _ => apply andb_prop in H as [? ?] end.
    match goal with H : bool_decide _ = true |- _ => apply bool_decide_eq_true in H as -> end. f_equal; auto. lia.
Qed.
Definition builtin_b (gs : list (Z * Z)) (μ : store) (x fn n : Z) : bool :=
  match lookup_var x gs with
  | Some l => match μ !! l with Some (SVar y (VLoc p)) => (y =? x) && match μ !! p with Some (SPrim f k) => (f =? fn) && (k =? n) | _ => false end | _ => false end
  | None => false
  end.
Lemma builtin_b_ok gs μ x fn n : builtin_b gs μ x fn n = true -> builtin gs μ x fn n.
Proof.
  unfold builtin_b. destruct (lookup_var x gs) as [l|] eqn:E; [|done]. destruct (μ !! l) as [[y [| | | |p]| | | | |]|] eqn:E1; try done. intros [Hy H]%andb_prop.
  destruct (μ !! p) as [[| | |f k| |]|] eqn:E2; try done. apply andb_prop in H as [H1 H2]. exists l, p. apply Z.eqb_eq in Hy, H1, H2. by subst.
Qed.
Definition map_table : list (list Z * Z * Z) :=
  [(bytes_of "null?", 1, fn_null_p); (bytes_of "list", -1, fn_list); (bytes_of "cons", 2, fn_cons); (bytes_of "car", 1, fn_car); (bytes_of "cdr", 1, fn_cdr)].
Definition map_code : list (M Z) :=
  let map1 := sym (bytes_of "map1") in let f := sym (bytes_of "f") in let lst := sym (bytes_of "lst") in let null_p := sym (bytes_of "null?") in
  let list_ := sym (bytes_of "list") in let cons_ := sym (bytes_of "cons") in let car_ := sym (bytes_of "car") in let cdr_ := sym (bytes_of "cdr") in
  [list_m [ret cell_symbol_define; list_m [map1; f; lst];
     list_m [ret cell_symbol_if; list_m [null_p; lst]; list_m [list_]; list_m [cons_; list_m [f; list_m [car_; lst]]; list_m [map1; f; list_m [cdr_; lst]]]]];
   list_m [map1; car_; list_m [list_; list_m [list_; make_number 5]; list_m [list_; make_number 7]]]].
Definition map_call (list_ car_ : Z) : list exp := [EVar car_; EApp (EVar list_) [EApp (EVar list_) [EConst (VNum 5)]; EApp (EVar list_) [EConst (VNum 7)]]].
(** the names map1 f lst null? list cons car cdr *)
Definition map_names (es : list exp) : option (list Z) :=
  match es with
  | EDefun map1 [f; lst] _ [EIf (EApp (EVar null_p) _) (EApp (EVar list_) _) (EApp (EVar cons_) [EApp _ [EApp (EVar car_) _]; EApp _ [_; EApp (EVar cdr_) _]])] :: _ =>
      Some [map1; f; lst; null_p; list_; cons_; car_; cdr_]
  | _ => None
  end.
Definition map_chk (gs : list (Z * Z)) (ρ : env) (es : list exp) (μ : store) : bool :=
  match map_names es with
  | Some ns => bool_decide (NoDup ns) &&
      match ns with
      | [map1; f; lst; null_p; list_; cons_; car_; cdr_] =>
          bool_decide (lookup_var map1 gs = None) && builtin_b gs μ null_p fn_null_p 1 && builtin_b gs μ list_ fn_list (-1) && builtin_b gs μ cons_ fn_cons 2
          && builtin_b gs μ car_ fn_car 1 && builtin_b gs μ cdr_ fn_cdr 1 &&
          match es with
          | [e1; e2] => same_exp 20 e1 (definition (map1_proc map1 f lst null_p list_ cons_ car_ cdr_)) && same_exp 20 e2 (EApp (EVar map1) (map_call list_ car_))
          | _ => false
          end
      | _ => false
      end
  | None => false
  end.

Lemma map_chk_ok gs ρ es μ : map_chk gs ρ es μ = true -> exists map1 f lst null_p list_ cons_ car_ cdr_, NoDup [map1; f; lst; null_p; list_; cons_; car_; cdr_]
  /\ lookup_var map1 gs = None /\ builtin gs μ null_p fn_null_p 1 /\ builtin gs μ list_ fn_list (-1) /\ builtin gs μ cons_ fn_cons 2
  /\ builtin gs μ car_ fn_car 1 /\ builtin gs μ cdr_ fn_cdr 1
  /\ es = [definition (map1_proc map1 f lst null_p list_ cons_ car_ cdr_); EApp (EVar map1) (map_call list_ car_)].
Proof.
  unfold map_chk. destruct (map_names es) as [ns|]; [|done]. intros [Hnd%bool_decide_eq_true H]%andb_prop.
  destruct ns as [|map1 ns]; [done|]. destruct ns as [|f ns]; [done|]. destruct ns as [|lst ns]; [done|]. destruct ns as [|null_p ns]; [done|].
  destruct ns as [|list_ ns]; [done|]. destruct ns as [|cons_ ns]; [done|]. destruct ns as [|car_ ns]; [done|]. destruct ns as [|cdr_ ns]; [done|]. destruct ns; [|done].
  apply andb_prop in H as [H He]. apply andb_prop in H as [H Hd%builtin_b_ok]. apply andb_prop in H as [H Ha%builtin_b_ok]. apply andb_prop in H as [H Hc%builtin_b_ok].
  apply andb_prop in H as [H Hl%builtin_b_ok]. apply andb_prop in H as [H Hn%builtin_b_ok]. apply bool_decide_eq_true in H.
  destruct es as [|e1 es]; [done|]. destruct es as [|e2 es]; [done|]. destruct es; [|done]. apply andb_prop in He as [->%same_exp_ok ->%same_exp_ok].
  by exists map1, f, lst, null_p, list_, cons_, car_, cdr_.
Qed.
Lemma ev_list1 w gs defs d μ ρ l n : prim_at μ l fn_list (-1) -> exists μ' q, eval w (prims w) gs defs (S (S d)) ρ μ (EApp (EGlobal l) [EConst (VNum n)]) μ' (VLoc q) /\ μ ⊆ μ' /\ μ' !! q = Some (SPair (VNum n) v_nil).
Proof.
  intros Hp. destruct (fresh_place μ) as (q & Hq). exists (<[q := SPair (VNum n) v_nil]> μ), q. split; [|split; [by apply grow|apply lookup_insert]].
  eapply (ev_prim w gs defs _ _ _ _ _ _ _ _ [VNum n]); [exact Hp|apply args1; constructor|done|by left|]. apply (pr_list _ [q]). cbn. by rewrite decide_True.
Qed.
(** the arguments of the call *)
Lemma map_call_args w gs defs d μ ρ list_ car_ : builtin gs μ list_ fn_list (-1) -> builtin gs μ car_ fn_car 1 ->
  exists μ2 fv lv q1 q2, args w (prims w) gs defs (7 + d) ρ μ (resolve_all gs [] (map_call list_ car_)) μ2 [fv; lv] /\ μ ⊆ μ2
    /\ list_val μ2 lv [VLoc q1; VLoc q2] /\ fv <> v_undefined /\ q1 <> q2
    /\ computes w gs defs 0 μ2 fv (map (fun a => [a]) [VLoc q1; VLoc q2]) (fun us => match us with [a] => match a with VLoc q => if q =? q1 then VNum 5 else VNum 7 | _ => v_false end | _ => v_false end).
Proof.
  intros Bl Ba. destruct (builtin_prim _ _ _ _ _ Bl) as (ll & El & Pl). destruct Ba as (la & pa & Ea & Hla & Hpa).
  destruct (ev_list1 w gs defs (1 + d) μ ρ ll 5 Pl) as (μa & q1 & H1 & K1 & Hq1). destruct (ev_list1 w gs defs d μa ρ ll 7) as (μb & q2 & H2 & K2 & Hq2). { by eapply prim_at_keep. }
  destruct (fresh_place μb) as (c2 & Hc2). set (μc := <[c2 := SPair (VLoc q2) v_nil]> μb). destruct (fresh_place μc) as (c1 & Hc1). set (μd := <[c1 := SPair (VLoc q1) (VLoc c2)]> μc).
  assert (μb ⊆ μd) as Kd. { etrans; [apply grow; exact Hc2|]. by apply grow. } assert (μ ⊆ μd) as K by (etrans; [exact K1|]; by etrans).
  exists μd, (VLoc pa), (VLoc c1), q1, q2. split; [|split; [exact K|split; [|split; [done|split]]]].
  - cbn [map_call resolve_all elements resolve binders app]. rewrite ?binders_ref. cbn [binders app]. rewrite (ref_global gs [] list_ ll), (ref_global gs [] car_ la) by (done || apply not_elem_of_nil).
    eapply args2; [apply ev_var; by exists car_|]. eapply (ev_prim w gs defs _ _ _ _ _ _ _ μb [VLoc q1; VLoc q2]); [exact Pl|eapply args2; [exact H1|exact H2]|(etrans; [exact K1|exact K2])|by left|].
    apply (pr_list _ [c1; c2]). cbn. rewrite decide_True by done. cbn. by rewrite decide_True.
  - econstructor; [apply lookup_insert|]. econstructor; [|constructor]. unfold μd. rewrite lookup_insert_ne; [apply lookup_insert|]. intros ->. unfold μc in Hc1. by rewrite lookup_insert in Hc1.
  - intros ->. rewrite (keep K2 Hq1) in Hq2. discriminate Hq2.
  - intros d' μ' us _ K' Hus. exists μ'. split; [done|]. assert (q1 <> q2) as Hne. { intros ->. rewrite (keep K2 Hq1) in Hq2. discriminate Hq2. }
    assert (μb ⊆ μ') as Kb by (by etrans). assert (μ' !! pa = Some (SPrim fn_car 1)) as Hpa'. { eapply keep; [|exact Hpa]. by etrans. }
    pose proof (keep Kb (keep K2 Hq1)) as Hq1'. pose proof (keep Kb Hq2) as Hq2'.
    cbn [map] in Hus. rewrite !elem_of_cons, elem_of_nil in Hus. destruct Hus as [->|[->|[]]].
    + rewrite Z.eqb_refl. eapply apply_prim; [exact Hpa'|by right|by eapply pr_car].
    + destruct (Z.eqb_spec q2 q1); [congruence|]. eapply apply_prim; [exact Hpa'|by right|by eapply pr_car].
Qed.
(** the evaluator returns the list (5 7) *)
Example C49_map_program_ex : exists l s, program_state_with map_table map_code = ROk l s /\
  exists n a s' h' σ' j r0' r2' st sz gl r μ', (forall k, (n <= k)%nat -> eval_apply_ no_load sample_fuel k s = ROk a s')
    /\ rep h' (Mst σ' r0' j r2' (Imp cell_unspecified) st sz gl) s' /\ h' j a /\ val_at σ' r j /\ list_val μ' r [VNum 5; VNum 7].
Proof.
  destruct (check_res (program_state_with map_table map_code) (fun l s => program_ok 4 20 240 map_chk l s)) as (l & s & E & H). { vm_compute. reflexivity. }
  exists l, s. split; [exact E|]. clear E.
  apply program_ok_spec in H as (ρ & es & μ & ts & r2' & x & r0' & p & Hchk & R & W & F & Hnd & Hu & Hm & HM & Hsz & Hroom).
  apply map_chk_ok in Hchk as (map1 & f & lst & null_p & list_ & cons_ & car_ & cdr_ & Hnn & Hnone & Bn & Bl & Bc & Ba & Bd & ->).
  set (gs := sample_vars l s) in *. clearbody gs.
  destruct (C49_definition_succeeds 4 (prims 4) 40 ρ gs μ (map1_proc map1 f lst null_p list_ cons_ car_ cdr_)) as (gs1 & μ1 & Hdef); [cbn; lia|].
  assert (exists l1, gs1 = (map1, l1) :: gs) as (l1 & ->).
  { inversion Hdef as [? ? ? Hx| |? ? ? ? l1 ? ? ? ? ? Hd]; subst; [done|]. inversion Hd as [E1|]; subst; [cbn in E1; congruence|]. by exists l1. }
  assert (forall l2, lookup_var map1 gs = Some l2 -> exists u, μ !! l2 = Some (SVar map1 u)) as Hwf by (intros l2 E2; congruence).
  pose proof Hnn as Hnn'. rewrite !NoDup_cons, !not_elem_of_cons in Hnn'; destruct_and! Hnn'.
  assert (forall y fn k, y <> map1 -> builtin gs μ y fn k -> builtin ((map1, l1) :: gs) μ1 y fn k) as Hb.
  { intros y fn k Hy B. destruct (builtin_defined _ _ _ _ _ _ _ _ _ _ gs y fn k Hdef Hwf Hy B) as (ly & py & E1 & E2 & E3). exists ly, py. split; [|done]. cbn [lookup_var]. by rewrite decide_False. }
  destruct (map_call_args 4 ((map1, l1) :: gs) true 32 μ1 ρ list_ car_) as (μ2 & fv & lv & q1 & q2 & A1 & A2 & A3 & A4 & A5 & A6); [apply Hb; [by apply not_eq_sym|done]..|].
  destruct (C49_map_program _ _ _ no_load sample_fuel 4 39 ρ gs μ 0 (fun a => match a with VLoc q => if q =? q1 then VNum 5 else VNum 7 | _ => v_false end) map1 f lst null_p list_ cons_ car_ cdr_ (map_call list_ car_) _ μ1 _ μ2 fv lv [VLoc q1; VLoc q2]
     Hnn ltac:(lia) Hwf Bn Bl Bc Ba Bd Hdef A1 A2 A3 A4 A6 ltac:(cbn; lia) _ s _ _ _ _ _ _ _ _ [] _ _ ts 20 240 R W F Hnd Hu Hm HM Hsz ltac:(lia) ltac:(cbn; lia) Hroom) as (n & a & s' & h' & σ' & j & μ' & r & Q1 & Q2 & Q3 & Q4 & Q5 & Q6).
  exists n, a, s', h', σ', j, r0', r2', [], 1000, (name (program_view l s) <$> globals s), r, μ'. split; [exact Q1|]. split; [exact Q2|]. split; [exact Q3|]. split; [exact Q4|].
  cbn [map] in Q6. rewrite Z.eqb_refl in Q6. destruct (Z.eqb_spec q2 q1); [congruence|]. exact Q6.
Qed.
Print Assumptions C49_definition.
Print Assumptions C49_definition_succeeds.
Print Assumptions C49_map.
Print Assumptions C49_list_tail.
Print Assumptions C49_list_head.
Print Assumptions C49_member.
Print Assumptions C49_cxr.
Print Assumptions C49_not.
Print Assumptions C49_remainder.
Print Assumptions C49_even.
Print Assumptions C49_map_program.
Print Assumptions C49_stays.
Print Assumptions C49_odd.
Print Assumptions C49_odd_refuted.
Print Assumptions C49_call_program.
