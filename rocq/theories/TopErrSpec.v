(** What a program means that goes wrong: its forms are run one after the other (TopSpec.v) up to the
    first one that signals an error (EvalErrSpec.v). *)
From stdpp Require Import base gmap list.
From Coq Require Import ZArith.
From Verif Require Import CInt Symbols EvalSpec EvalErrSpec TopSpec.
Open Scope Z_scope.

Section program.
Context (width : nat) (prim_sem : Z -> Z -> list val -> store -> store -> val -> Prop).
Context (prim_err : Z -> Z -> list val -> store -> val -> irritant -> Prop) (d : nat) (ρ : env).
(** the names the program may use *)
Context (names : Z -> Prop).
Notation run_form := (run_form width prim_sem d ρ).

(** names of the program that are not those of global variables *)
Definition missing_in (gs : list (Z * Z)) (ms : list Z) : Prop := Forall (fun x => names x /\ lookup_var x gs = None) ms.

(** one form: global variables and store before, form, store after, key and irritant of the error *)
Inductive form_raises (gs : list (Z * Z)) (μ : store) : exp -> store -> val -> irritant -> Prop :=
| fr_exp e ms μ' key w : expression e -> missing_in gs ms ->
    raises width prim_sem prim_err gs ms true d ρ μ (resolve_form gs e) μ' key w ->
    form_raises gs μ e μ' key w
(** the variable exists when the error is signalled; a new one is #f *)
| fr_define x e l gs1 μ1 l0 ms μ' key w :
    declares gs μ x l gs1 μ1 -> μ1 !! l0 = None -> missing_in gs1 ms ->
    raises width prim_sem prim_err gs1 ms false d (EBind x l0 ρ) (<[l0 := SVar x (VAtom x)]> μ1) (resolve gs (binders e ++ [x]) e) μ' key w ->
    form_raises gs μ (EDefine x e) μ' key w.

(** the forms before the one that goes wrong have been run, the forms after it have not *)
Inductive program_raises (gs : list (Z * Z)) (μ : store) : list exp -> store -> val -> irritant -> Prop :=
| pr_here e es μ' key w : (forall bs, e <> EBegin bs) -> form_raises gs μ e μ' key w -> program_raises gs μ (e :: es) μ' key w
| pr_later e es gs1 μ1 v1 μ' key w : (forall bs, e <> EBegin bs) ->
    run_form gs μ e gs1 μ1 v1 -> program_raises gs1 μ1 es μ' key w -> program_raises gs μ (e :: es) μ' key w
| pr_begin_here bs es e1 es1 μ' key w : bs ++ es = e1 :: es1 -> form_raises gs μ e1 μ' key w -> program_raises gs μ (EBegin bs :: es) μ' key w
| pr_begin_later bs es e1 es1 gs1 μ1 v1 μ' key w : bs ++ es = e1 :: es1 ->
    run_form gs μ e1 gs1 μ1 v1 -> program_raises gs1 μ1 es1 μ' key w -> program_raises gs μ (EBegin bs :: es) μ' key w.
End program.
