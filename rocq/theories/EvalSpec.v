(** What Scheme expressions mean: a big-step semantics with a store, without any reference to
    the evaluator, its registers, its stack, heap cells or the collector.

    A budget counts the unfinished non-tail evaluations: an expression in tail position (the
    branches of a conditional, the last expression of a body, the body of the procedure called)
    is evaluated with the same budget as the expression it is the value of. *)
From stdpp Require Import base gmap list.
From Coq Require Import ZArith.
From Verif Require Import CInt Symbols.
Open Scope Z_scope.

(** Values: numbers, characters, other objects that are only known by their identity (symbols,
    strings, (), #t, #f, ...), keywords, and objects in the store. *)
Inductive val : Type := VNum (n : Z) | VChar (n : Z) | VAtom (k : Z) | VKey (k : Z) | VLoc (l : Z).
Definition v_false := VAtom cell_f.
Definition v_true := VAtom cell_t.
Definition v_nil := VAtom cell_nil.
Definition v_unspecified := VAtom cell_unspecified.
Definition v_undefined := VAtom cell_undefined.
Definition v_bool (b : bool) := if b then v_true else v_false.

(** Expressions.  A variable is named by the number of its symbol; [EGlobal] is a reference to a
    global variable that has been resolved to its location (what the evaluator makes of free
    variables of top-level definitions). *)
Inductive exp : Type :=
| EConst (v : val)
| EQuote (v : val)
| EVar (x : Z)
| EGlobal (l : Z)
| EIf (c t e : exp)
| EWhen (c t : exp)                                   (* (if c t) *)
| ELam (xs : list Z) (rest : option Z) (body : list exp)
| ESet (x : Z) (e : exp)
| ESetGlobal (l : Z) (e : exp)
| EDefine (x : Z) (e : exp)                           (* (define x e), inside a body *)
| EDefun (x : Z) (xs : list Z) (rest : option Z) (body : list exp)
                                                      (* (define (x xs ... . rest) body ...), inside a body *)
| EBegin (es : list exp)
| EApp (f : exp) (es : list exp).

Fixpoint lookup_var (x : Z) (ρ : list (Z * Z)) : option Z :=
  match ρ with
  | [] => None
  | (y, l) :: ρ' => if decide (x = y) then Some l else lookup_var x ρ'
  end.

(** Environments: the innermost binding of a name comes first.  [EHide]: an entry that the
    evaluator keeps for itself.  [EFrame f]: the bindings of the call with frame [f], to which the
    definitions in the body of the procedure add; what is in it is found in the store. *)
Inductive env : Type :=
| ENil
| EBind (x l : Z) (ρ : env)
| EHide (ρ : env)
| EFrame (f : Z).
Definition extend (bs : list (Z * Z)) (ρ : env) : env := foldr (fun b ρ' => EBind b.1 b.2 ρ') ρ bs.

(** The store: variables, pairs, closures, primitive procedures, the frames of calls, and vectors. *)
Inductive sobj : Type :=
| SVar (x : Z) (v : val)
| SPair (a d : val)
| SClo (xs : list Z) (rest : option Z) (body : list exp) (ρ : env)
| SPrim (p : Z) (arity : Z)
| SFrame (ρ : env)
| SVec (vs : list val).
Notation store := (gmap Z sobj).

(** a list of values made of fresh pairs [ls] *)
Fixpoint store_list (ls : list Z) (vs : list val) (μ : store) : option (store * val) :=
  match ls, vs with
  | [], [] => Some (μ, v_nil)
  | l :: ls', v :: vs' =>
      match store_list ls' vs' μ with
      | Some (μ', d) => if decide (μ' !! l = None) then Some (<[l := SPair v d]> μ', VLoc l) else None
      | None => None
      end
  | _, _ => None
  end.

(** bind the formals to the arguments: a new variable for each formal, and one for the list of
    the remaining arguments if there is a rest formal *)
Inductive bind_args : list Z -> option Z -> list val -> store -> list (Z * Z) -> store -> Prop :=
| bind_nil μ : bind_args [] None [] μ [] μ
| bind_rest r vs ls l μ μ1 v :
    store_list ls vs μ = Some (μ1, v) -> μ1 !! l = None ->
    bind_args [] (Some r) vs μ [(r, l)] (<[l := SVar r v]> μ1)
| bind_cons x xs r v vs l μ ρ μ1 :
    μ !! l = None -> bind_args xs r vs (<[l := SVar x v]> μ) ρ μ1 ->
    bind_args (x :: xs) r (v :: vs) μ ((x, l) :: ρ) μ1.

(** the number of expressions in a body, those of nested begin forms included *)
Fixpoint exp_len (e : exp) : nat :=
  match e with EBegin es => S (list_sum (map exp_len es)) | _ => 1 end.
Definition body_len (es : list exp) : nat := list_sum (map exp_len es).

(** the location of variable [x]: the first binding of the environment, or else a global one *)
Inductive finds (globals : list (Z * Z)) (μ : store) (x : Z) : env -> Z -> Prop :=
| finds_here l ρ : finds globals μ x (EBind x l ρ) l
| finds_next y l' l ρ : x <> y -> finds globals μ x ρ l -> finds globals μ x (EBind y l' ρ) l
| finds_hide l ρ : finds globals μ x ρ l -> finds globals μ x (EHide ρ) l
| finds_frame f l ρ : μ !! f = Some (SFrame ρ) -> finds globals μ x ρ l -> finds globals μ x (EFrame f) l
| finds_global l : lookup_var x globals = Some l -> finds globals μ x ENil l.

(** variable [x] has no binding in the environment, and no global one: its name is in [missing] *)
Inductive unbound (missing : list Z) (μ : store) (x : Z) : env -> Prop :=
| ub_nil : x ∈ missing -> unbound missing μ x ENil
| ub_bind y l ρ : x <> y -> unbound missing μ x ρ -> unbound missing μ x (EBind y l ρ)
| ub_hide ρ : unbound missing μ x ρ -> unbound missing μ x (EHide ρ)
| ub_frame f ρ : μ !! f = Some (SFrame ρ) -> unbound missing μ x ρ -> unbound missing μ x (EFrame f).

(** The environment of the body of a closure made in environment [ρ] does not have the first entry
    of [ρ].  In a frame that is the evaluator's own entry, so what is defined there up to the call
    is visible. *)
Definition closure_env (μ : store) (ρ : env) : option env :=
  match ρ with
  | ENil => None
  | EBind _ _ ρ' | EHide ρ' => Some ρ'
  | EFrame f => match μ !! f with Some (SFrame ρ') => Some ρ' | _ => None end
  end.
Definition opt_list (r : option Z) : list Z := match r with Some x => [x] | None => [] end.

Section semantics.
(** a bound on the number of formals of the procedures that are called and on the length of
    bodies.  No value depends on it: it bounds the memory that one step needs. *)
Context (width : nat).
(** what primitive procedure [p] of arity [n] does *)
Context (prim_sem : Z -> Z -> list val -> store -> store -> val -> Prop).
(** the global variables that are found by their name *)
Context (globals : list (Z * Z)).
(** whether definitions inside bodies are evaluated *)
Context (defs : bool).
Notation finds := (finds globals).

(** operators that the evaluator looks up when the arguments are known *)
Definition var_value (ρ : env) (μ : store) (f : exp) (v : val) : Prop :=
  match f with
  | EVar x => exists l, finds μ x ρ l /\ μ !! l = Some (SVar x v) /\ v <> v_undefined
  | EGlobal l => exists x, μ !! l = Some (SVar x v)
  | _ => False
  end.

Definition compound (f : exp) : Prop :=
  match f with EConst _ | EVar _ | EGlobal _ | ELam _ _ _ => False | _ => True end.

Inductive eval : nat -> env -> store -> exp -> store -> val -> Prop :=
| ev_const d ρ μ v : eval d ρ μ (EConst v) μ v
| ev_quote d ρ μ v : eval d ρ μ (EQuote v) μ v
| ev_var d ρ μ f v : var_value ρ μ f v -> eval d ρ μ f μ v
| ev_if_true d ρ μ c t e μ1 v1 μ2 v :
    eval d ρ μ c μ1 v1 -> v1 <> v_false -> eval (S d) ρ μ1 t μ2 v ->
    eval (S d) ρ μ (EIf c t e) μ2 v
| ev_if_false d ρ μ c t e μ1 μ2 v :
    eval d ρ μ c μ1 v_false -> eval (S d) ρ μ1 e μ2 v ->
    eval (S d) ρ μ (EIf c t e) μ2 v
| ev_when_true d ρ μ c t μ1 v1 μ2 v :
    eval d ρ μ c μ1 v1 -> v1 <> v_false -> eval (S d) ρ μ1 t μ2 v ->
    eval (S d) ρ μ (EWhen c t) μ2 v
| ev_when_false d ρ μ c t μ1 :
    eval d ρ μ c μ1 v_false -> eval (S d) ρ μ (EWhen c t) μ1 v_unspecified
| ev_lam d ρ μ xs r body l :
    μ !! l = None -> eval d ρ μ (ELam xs r body) (<[l := SClo xs r body ρ]> μ) (VLoc l)
| ev_set d ρ μ x e μ1 v l w :
    eval d ρ μ e μ1 v -> finds μ1 x ρ l -> μ1 !! l = Some (SVar x w) ->
    eval (S d) ρ μ (ESet x e) (<[l := SVar x v]> μ1) v_unspecified
| ev_set_global d ρ μ x e μ1 v l w :
    eval d ρ μ e μ1 v -> μ1 !! l = Some (SVar x w) ->
    eval (S d) ρ μ (ESetGlobal l e) (<[l := SVar x v]> μ1) v_unspecified
(** A definition in a body: while the value is computed the name is bound to its own symbol;
    then a new variable is added to the frame. *)
| ev_define d f μ x e l0 μ1 v ρ1 l :
    defs = true -> μ !! l0 = None ->
    eval d (EBind x l0 (EFrame f)) (<[l0 := SVar x (VAtom x)]> μ) e μ1 v ->
    μ1 !! f = Some (SFrame ρ1) -> μ1 !! l = None ->
    eval (S d) (EFrame f) μ (EDefine x e) (<[f := SFrame (EBind x l ρ1)]> (<[l := SVar x v]> μ1)) v_unspecified
| ev_defun d f μ x xs r bd bs μ1 lc ρ1 l :
    defs = true -> (length xs <= width)%nat ->
    bind_args (x :: xs ++ opt_list r) None (map VAtom (x :: xs ++ opt_list r)) μ bs μ1 ->
    μ1 !! f = Some (SFrame ρ1) -> μ1 !! lc = None -> μ1 !! l = None -> l <> lc ->
    eval (S d) (EFrame f) μ (EDefun x xs r bd)
      (<[f := SFrame (EBind x l ρ1)]> (<[l := SVar x (VLoc lc)]>
         (<[lc := SClo xs r bd (extend bs (EFrame f))]> μ1))) v_unspecified
| ev_begin d ρ μ es μ1 v : body (S d) ρ μ es μ1 v -> eval (S d) ρ μ (EBegin es) μ1 v
| ev_app d ρ μ f es v0 μ1 vs fv μ2 v :
    var_value ρ μ f v0 ->                     (* the operator is bound already *)
    args d ρ μ es μ1 vs -> var_value ρ μ1 f fv -> apply (S d) μ1 fv vs μ2 v ->
    eval (S d) ρ μ (EApp f es) μ2 v
| ev_app_lam d ρ μ xs r bd l es μ1 vs μ2 v :
    μ !! l = None ->
    args d ρ (<[l := SClo xs r bd ρ]> μ) es μ1 vs -> call (S d) μ1 xs r bd ρ vs μ2 v ->
    eval (S d) ρ μ (EApp (ELam xs r bd) es) μ2 v
(** any other expression in the operator's place is evaluated twice: before the arguments, when its
    value is not used, and after them *)
| ev_app_exp d ρ μ f es μ0 v0 μ1 vs μ2 fv μ3 v :
    compound f -> eval d ρ μ f μ0 v0 -> args d ρ μ0 es μ1 vs -> eval d ρ μ1 f μ2 fv ->
    apply (S d) μ2 fv vs μ3 v -> eval (S d) ρ μ (EApp f es) μ3 v
(** arguments are evaluated from left to right; every argument already evaluated is kept *)
with args : nat -> env -> store -> list exp -> store -> list val -> Prop :=
| args_nil d ρ μ : args d ρ μ [] μ []
| args_cons d ρ μ e es μ1 v μ2 vs :
    eval d ρ μ e μ1 v -> args d ρ μ1 es μ2 vs -> args (S d) ρ μ (e :: es) μ2 (v :: vs)
(** the value of a body is the value of its last expression *)
with body : nat -> env -> store -> list exp -> store -> val -> Prop :=
| body_last d ρ μ e μ1 v : (body_len [e] <= width)%nat -> eval d ρ μ e μ1 v -> body d ρ μ [e] μ1 v
| body_cons d ρ μ e e' es μ1 v1 μ2 v :
    (body_len (e :: e' :: es) <= width)%nat ->
    eval d ρ μ e μ1 v1 -> body (S d) ρ μ1 (e' :: es) μ2 v -> body (S d) ρ μ (e :: e' :: es) μ2 v
with apply : nat -> store -> val -> list val -> store -> val -> Prop :=
| apply_clo d μ l xs r bd ρ ρ' vs μ2 v :
    μ !! l = Some (SClo xs r bd ρ) -> closure_env μ ρ = Some ρ' ->
    call d μ xs r bd ρ' vs μ2 v -> apply d μ (VLoc l) vs μ2 v
| apply_prim d μ l p n vs μ1 v :
    μ !! l = Some (SPrim p n) -> n = -1 \/ n = Z.of_nat (length vs) ->
    prim_sem p n vs μ μ1 v -> apply d μ (VLoc l) vs μ1 v
(** a call: new variables for the formals, in a new frame *)
with call : nat -> store -> list Z -> option Z -> list exp -> env -> list val -> store -> val -> Prop :=
| call_body d μ xs r bd ρ vs bs μ1 f μ2 v :
    (length xs <= width)%nat -> bind_args xs r vs μ bs μ1 -> μ1 !! f = None ->
    body d (EFrame f) (<[f := SFrame (extend bs ρ)]> μ1) bd μ2 v -> call d μ xs r bd ρ vs μ2 v.
End semantics.
