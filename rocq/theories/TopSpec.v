(** What a program means: a sequence of top-level definitions and expressions, evaluated one after
    the other with the semantics of EvalSpec.v.  No reference to the evaluator's code. *)
From stdpp Require Import base gmap list.
From Coq Require Import ZArith.
From Verif Require Import CInt Symbols EvalSpec.
Open Scope Z_scope.

(** * Resolution of global variables
    Before a top-level form is evaluated, its free variables that name a global variable that
    exists already are replaced by references to it.  A name is not replaced where it is among the
    formals [fs]: the formals of the surrounding lambda expressions and definitions, and, in
    addition, those of the lambda expressions and definitions that stand further left in the same
    list. *)
Section resolve.
Context (gs : list (Z * Z)).
Definition binders (e : exp) : list Z :=
  match e with
  | ELam xs r _ => xs ++ opt_list r
  | EDefine x _ => [x]
  | EDefun x xs r _ => x :: xs ++ opt_list r
  | _ => []
  end.
Definition reference (fs : list Z) (x : Z) : exp :=
  if decide (x ∈ fs) then EVar x else match lookup_var x gs with Some l => EGlobal l | None => EVar x end.
Section elements.
Context (resolve : list Z -> exp -> exp).
Fixpoint elements (fs : list Z) (es : list exp) : list exp :=
  match es with
  | [] => []
  | e :: es' => resolve (binders e ++ fs) e :: elements (binders e ++ fs) es'
  end.
End elements.
Fixpoint resolve (fs : list Z) (e : exp) {struct e} : exp :=
  match e with
  | EConst _ | EQuote _ | EGlobal _ => e
  | EVar x => reference fs x
  | EIf c t e => let f1 := binders c ++ fs in let f2 := binders t ++ f1 in
      EIf (resolve f1 c) (resolve f2 t) (resolve (binders e ++ f2) e)
  | EWhen c t => let f1 := binders c ++ fs in EWhen (resolve f1 c) (resolve (binders t ++ f1) t)
  | ELam xs r bd => ELam xs r (elements resolve (xs ++ opt_list r ++ fs) bd)
  | ESet x e => match reference fs x with
                | EGlobal l => ESetGlobal l (resolve (binders e ++ fs) e)
                | _ => ESet x (resolve (binders e ++ fs) e)
                end
  | ESetGlobal l e => ESetGlobal l (resolve (binders e ++ fs) e)
  | EDefine x e => EDefine x (resolve (binders e ++ x :: fs) e)
  | EDefun x xs r bd => EDefun x xs r (elements resolve (x :: xs ++ opt_list r ++ fs) bd)
  | EBegin es => EBegin (elements resolve fs es)
  | EApp f es => EApp (resolve (binders f ++ fs) f) (elements resolve (binders f ++ fs) es)
  end.
Definition resolve_all : list Z -> list exp -> list exp := elements resolve.
(** a whole form: a variable by itself is looked up by its name *)
Definition resolve_form (e : exp) : exp := match e with EVar _ => e | _ => resolve [] e end.
End resolve.

(** * Programs *)
Section program.
Context (width : nat) (prim_sem : Z -> Z -> list val -> store -> store -> val -> Prop) (d : nat) (ρ : env).

(** the location of the global variable [x]; a new variable is #f *)
Inductive declares (gs : list (Z * Z)) (μ : store) (x l : Z) : list (Z * Z) -> store -> Prop :=
| declares_old : lookup_var x gs = Some l -> declares gs μ x l gs μ
| declares_new : lookup_var x gs = None -> μ !! l = None -> declares gs μ x l ((x, l) :: gs) (<[l := SVar x v_false]> μ).

Definition expression (e : exp) : Prop :=
  match e with EDefine _ _ | EDefun _ _ _ _ => False | _ => True end.

(** one form: global variables and store before, form, global variables and store after, value *)
Inductive run_form (gs : list (Z * Z)) (μ : store) : exp -> list (Z * Z) -> store -> val -> Prop :=
| run_exp e μ' v : expression e ->
    eval width prim_sem gs true d ρ μ (resolve_form gs e) μ' v ->
    run_form gs μ e gs μ' v
(** While the value of (define x e) is computed, [x] is bound to its own symbol (outside of
    procedures); there are no definitions inside the bodies of the procedures called. *)
| run_define x e l gs1 μ1 l0 μ2 v :
    declares gs μ x l gs1 μ1 -> μ1 !! l0 = None ->
    eval width prim_sem gs1 false d (EBind x l0 ρ) (<[l0 := SVar x (VAtom x)]> μ1) (resolve gs (binders e ++ [x]) e) μ2 v ->
    run_form gs μ (EDefine x e) gs1 (<[l := SVar x v]> μ2) v_unspecified
(** the name and the formals are bound to their own symbols outside of the procedure that is
    defined; of those bindings the first one, for the name, is not in the procedure's environment *)
| run_defun x xs r bd l gs1 μ1 bs μ2 lc :
    declares gs μ x l gs1 μ1 -> (length xs <= width)%nat ->
    bind_args (x :: xs ++ opt_list r) None (map VAtom (x :: xs ++ opt_list r)) μ1 bs μ2 -> μ2 !! lc = None ->
    let body := resolve_all gs1 (xs ++ opt_list r) (resolve_all gs (xs ++ opt_list r) bd) in
    run_form gs μ (EDefun x xs r bd) gs1
      (<[l := SVar x (VLoc lc)]> (<[lc := SClo xs r body (extend bs ρ)]> μ2)) v_unspecified.

(** The value of a program is the value of its last form.  The forms in (begin ...) are forms of the
    program, except that a (begin ...) at the start of it is an expression. *)
Inductive run_program (gs : list (Z * Z)) (μ : store) : val -> list exp -> list (Z * Z) -> store -> val -> Prop :=
| run_end v : run_program gs μ v [] gs μ v
| run_next v0 e es gs1 μ1 v1 gs2 μ2 v : (forall bs, e <> EBegin bs) ->
    run_form gs μ e gs1 μ1 v1 -> run_program gs1 μ1 v1 es gs2 μ2 v ->
    run_program gs μ v0 (e :: es) gs2 μ2 v
| run_begin v0 bs es e1 es1 gs1 μ1 v1 gs2 μ2 v : bs ++ es = e1 :: es1 ->
    run_form gs μ e1 gs1 μ1 v1 -> run_program gs1 μ1 v1 es1 gs2 μ2 v ->
    run_program gs μ v0 (EBegin bs :: es) gs2 μ2 v.
End program.
