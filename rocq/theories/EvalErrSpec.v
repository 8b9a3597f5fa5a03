(** What goes wrong: which expressions signal an error, which error, and what has been done until
    then.  An error has a key, which is a value, and something that goes with it: a value, a new
    pair, or a new pair of a text and a value. *)
From stdpp Require Import base gmap list.
From Coq Require Import ZArith.
From Verif Require Import CInt Symbols Heap DataModel Builtins EvalSpec EvalPrimSpec.
Import Strings.String.StringSyntax.
Open Scope Z_scope.

Inductive irritant : Type :=
| IVal (v : val)
| IPair (a d : val)
| IText (text : list Z) (v : val).
(** The end of an evaluation: a value, or an error *)
Inductive outcome : Type :=
| Ret (μ : store) (v : val)
| Exc (μ : store) (key : val) (w : irritant).

Definition arity_text : list Z := bytes_of "apply: wrong number of arguments; expected: ".
Definition apply_text : list Z := bytes_of "cannot apply: ".
(** values that are not procedures, whatever the store *)
Definition not_procedure (v : val) : Prop :=
  match v with
  | VNum _ | VChar _ => True
  | VAtom k => k ∈ [cell_f; cell_t; cell_nil; cell_unspecified; cell_undefined]
  | VKey _ | VLoc _ => False
  end.
Definition not_number (μ : store) (v : val) : Prop := match v with VNum _ => False | _ => known μ v end.

(** the errors of the primitive procedures *)
Inductive prim_errs : Z -> Z -> list val -> store -> val -> irritant -> Prop :=
| pe_error k x μ : known μ k -> known μ x -> prim_errs fn_error 2 [k; x] μ k (IVal x)
| pe_car v μ : is_pair μ v false -> prim_errs fn_car 1 [v] μ (VAtom cell_symbol_not_a_pair) (IPair v (VAtom cell_symbol_car))
| pe_cdr v μ : is_pair μ v false -> prim_errs fn_cdr 1 [v] μ (VAtom cell_symbol_not_a_pair) (IPair v (VAtom cell_symbol_cdr))
| pe_plus ns v vs μ : fits Z.add 0 ns -> not_number μ v -> prim_errs fn_plus (-1) ((VNum <$> ns) ++ v :: vs) μ (VAtom cell_symbol_not_a_number) (IVal v)
| pe_times ns v vs μ : fits Z.mul 1 ns -> not_number μ v -> prim_errs fn_multiply (-1) ((VNum <$> ns) ++ v :: vs) μ (VAtom cell_symbol_not_a_number) (IVal v)
| pe_minus n ns v vs μ : fits Z.sub n ns -> not_number μ v -> prim_errs fn_minus (-1) ((VNum <$> n :: ns) ++ v :: vs) μ (VAtom cell_symbol_not_a_number) (IVal v)
| pe_minus_first v vs μ : not_number μ v -> prim_errs fn_minus (-1) (v :: vs) μ (VAtom cell_symbol_not_a_number) (IVal v)
(** the arguments of > and < are compared from the left, up to the first pair out of order *)
| pe_greater ns v vs μ : ordered Z.gt ns -> not_number μ v -> prim_errs fn_greater_p (-1) ((VNum <$> ns) ++ v :: vs) μ (VAtom cell_symbol_not_a_number) (IVal v)
| pe_less ns v vs μ : ordered Z.lt ns -> not_number μ v -> prim_errs fn_less_p (-1) ((VNum <$> ns) ++ v :: vs) μ (VAtom cell_symbol_not_a_number) (IVal v)
(** = looks at the type of its first argument only *)
| pe_equal_first v vs μ : not_number μ v -> prim_errs fn_is_p (-1) (v :: vs) μ (VAtom cell_symbol_not_a_number) (IVal v)
| pe_logand ns v vs μ : not_number μ v -> prim_errs fn_logand (-1) ((VNum <$> ns) ++ v :: vs) μ (VAtom cell_symbol_not_a_number) (IVal v)
| pe_logior ns v vs μ : not_number μ v -> prim_errs fn_logior (-1) ((VNum <$> ns) ++ v :: vs) μ (VAtom cell_symbol_not_a_number) (IVal v)
| pe_logxor ns v vs μ : not_number μ v -> prim_errs fn_logxor (-1) ((VNum <$> ns) ++ v :: vs) μ (VAtom cell_symbol_not_a_number) (IVal v)
| pe_lognot v μ : not_number μ v -> prim_errs fn_lognot 1 [v] μ (VAtom cell_symbol_not_a_number) (IVal v)
| pe_modulo_left v u μ : not_number μ v -> prim_errs fn_modulo 2 [v; u] μ (VAtom cell_symbol_not_a_number) (IVal v)
| pe_modulo_right n v μ : not_number μ v -> prim_errs fn_modulo 2 [VNum n; v] μ (VAtom cell_symbol_not_a_number) (IVal v).

Section semantics.
Context (width : nat).
Context (prim_sem : Z -> Z -> list val -> store -> store -> val -> Prop).
(** the error that primitive procedure [p] of arity [n] signals *)
Context (prim_err : Z -> Z -> list val -> store -> val -> irritant -> Prop).
(** the global variables that are found by their name, and names that are not those of a global
    variable *)
Context (globals : list (Z * Z)) (missing : list Z).
Context (defs : bool).
Notation eval := (eval width prim_sem globals defs).
Notation args := (args width prim_sem globals defs).
Notation var_value := (var_value globals).

(** [raises d ρ μ e μ' k w]: the evaluation of [e] changes the store to [μ'] and then signals the
    error with key [k] and irritant [w].  Budgets are as in [eval]. *)
Inductive raises : nat -> env -> store -> exp -> store -> val -> irritant -> Prop :=
| ra_unbound d ρ μ x : unbound missing μ x ρ ->
    raises d ρ μ (EVar x) μ (VAtom cell_symbol_unbound_variable) (IVal (VAtom x))
| ra_undefined d ρ μ x l : finds globals μ x ρ l -> μ !! l = Some (SVar x v_undefined) ->
    raises d ρ μ (EVar x) μ (VAtom cell_symbol_unbound_variable) (IVal (VAtom x))
| ra_if_test d ρ μ c t e μ' k w : raises d ρ μ c μ' k w -> raises (S d) ρ μ (EIf c t e) μ' k w
| ra_if_true d ρ μ c t e μ1 v1 μ' k w :
    eval d ρ μ c μ1 v1 -> v1 <> v_false -> raises (S d) ρ μ1 t μ' k w -> raises (S d) ρ μ (EIf c t e) μ' k w
| ra_if_false d ρ μ c t e μ1 μ' k w :
    eval d ρ μ c μ1 v_false -> raises (S d) ρ μ1 e μ' k w -> raises (S d) ρ μ (EIf c t e) μ' k w
| ra_when_test d ρ μ c t μ' k w : raises d ρ μ c μ' k w -> raises (S d) ρ μ (EWhen c t) μ' k w
| ra_when_true d ρ μ c t μ1 v1 μ' k w :
    eval d ρ μ c μ1 v1 -> v1 <> v_false -> raises (S d) ρ μ1 t μ' k w -> raises (S d) ρ μ (EWhen c t) μ' k w
| ra_set d ρ μ x e μ' k w : raises d ρ μ e μ' k w -> raises (S d) ρ μ (ESet x e) μ' k w
| ra_set_unbound d ρ μ x e μ1 v : eval d ρ μ e μ1 v -> unbound missing μ1 x ρ ->
    raises (S d) ρ μ (ESet x e) μ1 (VAtom cell_symbol_not_a_pair) (IPair v_false (VAtom x))
| ra_set_global d ρ μ l e μ' k w : raises d ρ μ e μ' k w -> raises (S d) ρ μ (ESetGlobal l e) μ' k w
| ra_define d f μ x e l0 μ' k w : defs = true -> μ !! l0 = None ->
    raises d (EBind x l0 (EFrame f)) (<[l0 := SVar x (VAtom x)]> μ) e μ' k w ->
    raises (S d) (EFrame f) μ (EDefine x e) μ' k w
| ra_begin d ρ μ es μ' k w : body_raises (S d) ρ μ es μ' k w -> raises (S d) ρ μ (EBegin es) μ' k w
(** the operator is evaluated before the arguments, and looked up or evaluated again after them *)
| ra_operator d ρ μ f es μ' k w : raises d ρ μ f μ' k w -> raises (S d) ρ μ (EApp f es) μ' k w
| ra_args d ρ μ f es μ0 v0 μ' k w : eval d ρ μ f μ0 v0 -> args_raise d ρ μ0 es μ' k w ->
    raises (S d) ρ μ (EApp f es) μ' k w
| ra_operator_again d ρ μ f es μ0 v0 μ1 vs μ' k w : compound f -> eval d ρ μ f μ0 v0 -> args d ρ μ0 es μ1 vs ->
    raises d ρ μ1 f μ' k w -> raises (S d) ρ μ (EApp f es) μ' k w
| ra_apply d ρ μ f es v0 μ1 vs fv μ' k w : var_value ρ μ f v0 -> args d ρ μ es μ1 vs -> var_value ρ μ1 f fv ->
    apply_raises (S d) μ1 fv vs μ' k w -> raises (S d) ρ μ (EApp f es) μ' k w
| ra_apply_lam d ρ μ xs r bd l es μ1 vs μ' k w : μ !! l = None -> args d ρ (<[l := SClo xs r bd ρ]> μ) es μ1 vs ->
    call_raises (S d) μ1 xs r bd ρ vs μ' k w -> raises (S d) ρ μ (EApp (ELam xs r bd) es) μ' k w
| ra_apply_exp d ρ μ f es μ0 v0 μ1 vs μ2 fv μ' k w : compound f -> eval d ρ μ f μ0 v0 -> args d ρ μ0 es μ1 vs -> eval d ρ μ1 f μ2 fv ->
    apply_raises (S d) μ2 fv vs μ' k w -> raises (S d) ρ μ (EApp f es) μ' k w
with args_raise : nat -> env -> store -> list exp -> store -> val -> irritant -> Prop :=
| xr_here d ρ μ e es μ' k w : raises d ρ μ e μ' k w -> args_raise (S d) ρ μ (e :: es) μ' k w
| xr_later d ρ μ e es μ1 v μ' k w : eval d ρ μ e μ1 v -> args_raise d ρ μ1 es μ' k w -> args_raise (S d) ρ μ (e :: es) μ' k w
with body_raises : nat -> env -> store -> list exp -> store -> val -> irritant -> Prop :=
| br_last d ρ μ e μ' k w : (body_len [e] <= width)%nat -> raises d ρ μ e μ' k w -> body_raises d ρ μ [e] μ' k w
| br_here d ρ μ e e' es μ' k w : (body_len (e :: e' :: es) <= width)%nat ->
    raises d ρ μ e μ' k w -> body_raises (S d) ρ μ (e :: e' :: es) μ' k w
| br_later d ρ μ e e' es μ1 v1 μ' k w : (body_len (e :: e' :: es) <= width)%nat ->
    eval d ρ μ e μ1 v1 -> body_raises (S d) ρ μ1 (e' :: es) μ' k w -> body_raises (S d) ρ μ (e :: e' :: es) μ' k w
with apply_raises : nat -> store -> val -> list val -> store -> val -> irritant -> Prop :=
| ar_clo d μ l xs r bd ρ ρ' vs μ' k w :
    μ !! l = Some (SClo xs r bd ρ) -> closure_env μ ρ = Some ρ' -> call_raises d μ xs r bd ρ' vs μ' k w ->
    apply_raises d μ (VLoc l) vs μ' k w
| ar_clo_arity d μ l xs bd ρ ρ' vs :
    μ !! l = Some (SClo xs None bd ρ) -> closure_env μ ρ = Some ρ' -> length vs <> length xs ->
    apply_raises d μ (VLoc l) vs μ (VAtom cell_symbol_wrong_number_of_args) (IText arity_text (VLoc l))
| ar_prim d μ l p n vs k w :
    μ !! l = Some (SPrim p n) -> n = -1 \/ n = Z.of_nat (length vs) -> prim_err p n vs μ k w ->
    apply_raises d μ (VLoc l) vs μ k w
| ar_prim_arity d μ l p n vs :
    μ !! l = Some (SPrim p n) -> n <> -1 -> n <> Z.of_nat (length vs) ->
    apply_raises d μ (VLoc l) vs μ (VAtom cell_symbol_wrong_number_of_args) (IText arity_text (VLoc l))
| ar_not_procedure d μ fv vs :
    not_procedure fv -> apply_raises d μ fv vs μ (VAtom cell_symbol_wrong_type_arg) (IText apply_text fv)
with call_raises : nat -> store -> list Z -> option Z -> list exp -> env -> list val -> store -> val -> irritant -> Prop :=
| cr_body d μ xs r bd ρ vs bs μ1 f μ' k w :
    (length xs <= width)%nat -> bind_args xs r vs μ bs μ1 -> μ1 !! f = None ->
    body_raises d (EFrame f) (<[f := SFrame (extend bs ρ)]> μ1) bd μ' k w -> call_raises d μ xs r bd ρ vs μ' k w.
End semantics.
