(** What a program can see of a heap: which objects it reaches from its roots by taking
    fields, and what their contents are.  Independent of where objects lie. *)
From stdpp Require Import base gmap list relations.
From Coq Require Import ZArith Lia.
From Verif Require Import CInt Symbols Heap GcSpec.
Open Scope Z_scope.

(** A field selection: first word, second word, or the reference in an array slot. *)
Inductive field := FCar | FCdr | FElem (i : nat).

Definition get_field (h : gmap Z cell) (p : Z) (f : field) : option Z :=
  c ← h !! p;
  match f with
  | FCar => if car_is_ref (c_ty c) then Some (c_car c) else None
  | FCdr => if cdr_is_ref (c_ty c) then Some (c_cdr c) else None
  | FElem i =>
      if is_array c && (Z.of_nat i <? c_car c) then
        e ← h !! (c_cdr c + Z.of_nat i);
        if c_ty e =? TREF then Some (c_car e) else None
      else None
  end.

(** Following a chain of field selections. *)
Fixpoint follow (h : gmap Z cell) (p : Z) (path : list field) : option Z :=
  match path with
  | [] => Some p
  | f :: path' => q ← get_field h p f; follow h q path'
  end.

(** The non-reference words of a cell. *)
Definition words (c : cell) : Z * option Z * option Z :=
  (c_ty c,
   if car_is_ref (c_ty c) then None else Some (c_car c),
   if cdr_is_ref (c_ty c) || is_array c || is_bytes c then None else Some (c_cdr c)).

(** The contents of an object: its words, its bytes, and the words of its slots. *)
Definition observe (h : gmap Z cell) (p : Z)
  : option ((Z * option Z * option Z) * list Z * list (option (Z * option Z * option Z))) :=
  c ← h !! p;
  Some (words c, if is_bytes c then c_bytes c else [],
        if is_array c then (fun i => words <$> h !! (c_cdr c + i)) <$> seqZ 0 (c_car c) else []).

(** The interpreter's root variables. *)
Inductive root_name :=
| Constant (p : Z)      (* one of the built-in constants, a fixed address *)
| Global (i : nat)      (* g_symbols, g_macros, g_ports, M0 *)
| Register (i : nat)    (* R0, R1, R2, R3 *)
| Stack (i : Z).        (* a slot of the interpreter's stack in use *)

Definition root (s : state) (r : root_name) : option Z :=
  match r with
  | Constant p => if (cell_nil <=? p) && (p <? g_symbol_max s) then Some p else None
  | Global i => globals s !! i
  | Register i => regs s !! i
  | Stack i => if (g_stack s <=? i) && (i <? STACK_SIZE s) then g_stack_array s !! i else None
  end.

(** The object a program gets at by starting from a root and selecting fields. *)
Definition access (s : state) (r : root_name) (path : list field) : option Z :=
  p ← root s r; follow (heap s) p path.
