(** Procedures of the Scheme library: their definitions, and what is meant by a list, a tail, ...
    The definitions are the ones of mes/module; a name stands for the number of its symbol. *)
From stdpp Require Import base gmap list.
From Coq Require Import ZArith.
From Verif Require Import CInt Symbols Builtins EvalSpec EvalPrimSpec TopSpec.
Open Scope Z_scope.

(** * The definitions *)
Notation scall f es := (EApp (EVar f) es).
(** A procedure: its name, its formals and its body. *)
Record proc := Proc { p_name : Z; p_formals : list Z; p_body : exp }.
(** (define (name formals ...) body) *)
Definition definition (p : proc) : exp := EDefun (p_name p) (p_formals p) None [p_body p].

(** mes/module/mes/boot-0.scm:60-66, [map1] and [map] (the same but for the name):
    (define (map1 f lst) (if (null? lst) (list) (cons (f (car lst)) (map1 f (cdr lst))))) *)
Definition map1_proc (map1 f lst null_p list cons car cdr : Z) : proc :=
  Proc map1 [f; lst] (EIf (scall null_p [EVar lst]) (scall list [])
    (scall cons [scall f [scall car [EVar lst]]; scall map1 [EVar f; scall cdr [EVar lst]]])).
(** mes/module/mes/scm.mes:158-160: (define (list-head x n) (if (= 0 n) '() (cons (car x) (list-head (cdr x) (- n 1))))) *)
Definition list_head_proc (list_head x n is cons car cdr minus : Z) : proc :=
  Proc list_head [x; n] (EIf (scall is [EConst (VNum 0); EVar n]) (EQuote v_nil)
    (scall cons [scall car [EVar x]; scall list_head [scall cdr [EVar x]; scall minus [EVar n; EConst (VNum 1)]]])).
(** mes/module/mes/scm.mes:162-164: (define (list-tail x n) (if (= 0 n) x (list-tail (cdr x) (- n 1)))) *)
Definition list_tail_proc (list_tail x n is cdr minus : Z) : proc :=
  Proc list_tail [x; n] (EIf (scall is [EConst (VNum 0); EVar n]) (EVar x)
    (scall list_tail [scall cdr [EVar x]; scall minus [EVar n; EConst (VNum 1)]])).
(** mes/module/srfi/srfi-1.mes:109-112:
    (define (srfi-1:member x lst eq) (if (null? lst) #f (if (eq x (car lst)) lst (srfi-1:member x (cdr lst) eq)))) *)
Definition member_proc (member x lst eq null_p car cdr : Z) : proc :=
  Proc member [x; lst; eq] (EIf (scall null_p [EVar lst]) (EConst v_false)
    (EIf (scall eq [EVar x; scall car [EVar lst]]) (EVar lst)
      (scall member [EVar x; scall cdr [EVar lst]; EVar eq]))).
(** mes/module/mes/base.mes:30-67, [cadr] and its like: (define (caddr x) (car (cdr (cdr x)))).  The path
    lists the letters from the left: [true] for a, car, and [false] for d, cdr. *)
Fixpoint path_exp (car cdr : Z) (path : list bool) (e : exp) : exp :=
  match path with [] => e | b :: path' => scall (if b then car else cdr) [path_exp car cdr path' e] end.
Definition cxr_proc (path : list bool) (cxr x car cdr : Z) : proc := Proc cxr [x] (path_exp car cdr path (EVar x)).
(** mes/module/mes/boot-0.scm:45: (define (not x) (if x #f #t)) *)
Definition not_proc (not x : Z) : proc := Proc not [x] (EIf (EVar x) (EConst v_false) (EConst v_true)).
(** mes/module/mes/scm.mes:326-327: (define (remainder x y) (- x ( * (quotient x y) y))); quotient is / (scm.mes:316) *)
Definition remainder_proc (remainder x y minus times quotient : Z) : proc :=
  Proc remainder [x; y] (scall minus [EVar x; scall times [scall quotient [EVar x; EVar y]; EVar y]]).
(** mes/module/mes/scm.mes:329-330: (define (even? x) (= 0 (remainder x 2))) *)
Definition even_proc (even x is remainder : Z) : proc :=
  Proc even [x] (scall is [EConst (VNum 0); scall remainder [EVar x; EConst (VNum 2)]]).
(** mes/module/mes/scm.mes:332-333: (define (odd? x) (= 1 (remainder x 2))) *)
Definition odd_proc (odd x is remainder : Z) : proc :=
  Proc odd [x] (scall is [EConst (VNum 1); scall remainder [EVar x; EConst (VNum 2)]]).

(** * States *)
(** The global variable [x] holds the primitive procedure [fn] with [n] arguments (-1: any number). *)
Definition builtin (gs : list (Z * Z)) (μ : store) (x fn n : Z) : Prop :=
  exists l p, lookup_var x gs = Some l /\ μ !! l = Some (SVar x (VLoc p)) /\ μ !! p = Some (SPrim fn n).
(** The global variable named as [p] holds the procedure [v] that the definition of [p] made: there
    were the global variables [gs0] before the definition and [gs] after it. *)
Definition installed (gs0 gs : list (Z * Z)) (μ : store) (p : proc) (v : val) : Prop :=
  exists l lc ρ ρ', lookup_var (p_name p) gs = Some l
    /\ (lookup_var (p_name p) gs0 = None \/ lookup_var (p_name p) gs0 = Some l)
    /\ μ !! l = Some (SVar (p_name p) v) /\ v = VLoc lc
    /\ μ !! lc = Some (SClo (p_formals p) None (resolve_all gs (p_formals p) (resolve_all gs0 (p_formals p) [p_body p])) ρ)
    /\ closure_env μ ρ = Some ρ'.

(** * Lists *)
(** what is left of [v] after [k] times cdr *)
Inductive nth_tail (μ : store) : nat -> val -> val -> Prop :=
| nt_here v : nth_tail μ O v v
| nt_next k l a d r : μ !! l = Some (SPair a d) -> nth_tail μ k d r -> nth_tail μ (S k) (VLoc l) r.
(** [v] begins with the elements [vs] *)
Inductive begins (μ : store) : val -> list val -> Prop :=
| bg_nil v : begins μ v []
| bg_cons l a d vs : μ !! l = Some (SPair a d) -> begins μ d vs -> begins μ (VLoc l) (a :: vs).
(** the first tail of a list whose first element is one of those that [same] says *)
Inductive member_tail (μ : store) (same : val -> bool) : val -> val -> Prop :=
| mt_none : member_tail μ same v_nil v_false
| mt_here l a d : μ !! l = Some (SPair a d) -> same a = true -> member_tail μ same (VLoc l) (VLoc l)
| mt_next l a d r : μ !! l = Some (SPair a d) -> same a = false -> member_tail μ same d r -> member_tail μ same (VLoc l) r.
(** [r] is what car and cdr, applied as the path says, from right to left, get from [v] *)
Inductive path_val (μ : store) : list bool -> val -> val -> Prop :=
| pv_end v : path_val μ [] v v
| pv_step b path v l a d : path_val μ path v (VLoc l) -> μ !! l = Some (SPair a d) ->
    path_val μ (b :: path) v (if b then a else d).

Section semantics.
Context (w : nat) (gs : list (Z * Z)) (defs : bool).
(** Applied to any of the argument lists in [As], the procedure [f] has the value that [g] says,
    leaves everything in the store as it is, and needs the budget [d0]. *)
Definition computes (d0 : nat) (μ0 : store) (f : val) (As : list (list val)) (g : list val -> val) : Prop :=
  forall d μ vs, (d0 <= d)%nat -> μ0 ⊆ μ -> vs ∈ As ->
    exists μ', μ ⊆ μ' /\ apply w (prims w) gs defs d μ f vs μ' (g vs).
End semantics.
