(** Heap cells, machine state and the outcome monad, and the allocation part of src/gc.c.

    Models include/mes/mes.h:25-53 (struct scm), src/gc.c:33-321.
    Simplifications, valid for the whole interpreter model:
    - an address is a cell index; the malloc'ed arena starts at index 1 and NULL is 0;
    - the payload of a TBYTES cell, which in C starts in its third word and runs over
      the following cells, is kept as a byte list in the head cell; the cells it runs
      over are removed from the map, so that using them as cells is [UB];
    - [error] (src/core.c:148-162) and assert_msg end the modelled call with the outcomes
      [RThrow]/[RAbort] instead of running the Scheme-level throw. *)
From stdpp Require Import base gmap list.
From Coq Require Import ZArith Lia.
From Verif Require Import CInt Symbols.
Open Scope Z_scope.

(** include/mes/constants.h:26-62 *)
Definition TCHAR := 0.         Definition TBYTES := 1.
Definition TCLOSURE := 2.      Definition TCONTINUATION := 3.
Definition TKEYWORD := 4.      Definition TMACRO := 5.
Definition TNUMBER := 6.       Definition TPAIR := 7.
Definition TPORT := 8.         Definition TREF := 9.
Definition TSPECIAL := 10.     Definition TSTRING := 11.
Definition TSTRUCT := 12.      Definition TSYMBOL := 13.
Definition TVALUES := 14.      Definition TVARIABLE := 15.
Definition TVECTOR := 16.      Definition TBROKEN_HEART := 17.

(** include/mes/mes.h:25-53: type word, first union (car/length/ref/...), second union
    (cdr/value/string/vector/...), and the payload when the type is TBYTES. *)
Record cell := Cell { c_ty : Z; c_car : Z; c_cdr : Z; c_bytes : list Z }.

Record state := St {
  heap : gmap Z cell (* contents of the arena (src/gc.c g_arena) *) ;
  g_free : Z (* next free cell *) ;
  g_cells : Z (* first cell after cell_arena *) ;
  g_news : Z (* start of the copy space during a collection *) ;
  limit : Z (* first cell index behind the malloc'ed arena (where g_stack_array starts), src/gc.c:88-93 *) ;
  ARENA_SIZE : Z ;
  MAX_ARENA_SIZE : Z ;
  JAM_SIZE : Z ;
  GC_SAFETY : Z ;
  MAX_STRING : Z ;
  STACK_SIZE : Z ;
  g_stack_array : gmap Z Z (* the interpreter stack *) ;
  g_stack : Z (* stack pointer, grows down from STACK_SIZE *) ;
  R0 : Z (* environment *) ;
  R1 : Z (* argument/value *) ;
  R2 : Z (* save *) ;
  R3 : Z (* continuation label *) ;
  M0 : Z (* current module *) ;
  g_symbols : Z (* symbol hash table, 0 while booting *) ;
  g_macros : Z ;
  g_ports : Z ;
  g_symbol_max : Z (* one past the built-in symbol cells *) ;
  g_continuations : Z ;
  std_in : Z (* __stdin: current input port number *) ;
  in_fds : gmap Z (list Z) (* unread input bytes of each open file descriptor *) ;
  unget : gmap Z Z (* lib/mes/fdungetc.c push-back slot of each descriptor (present = pushed back) *) ;
  out_fds : gmap Z (list Z) (* bytes written so far to each descriptor, most recent last *) }.

(** field updates *)
Definition set_heap (v : gmap Z cell) (s : state) : state :=
  St v (g_free s) (g_cells s) (g_news s) (limit s) (ARENA_SIZE s) (MAX_ARENA_SIZE s) (JAM_SIZE s) (GC_SAFETY s) (MAX_STRING s) (STACK_SIZE s) (g_stack_array s) (g_stack s) (R0 s) (R1 s) (R2 s) (R3 s) (M0 s) (g_symbols s) (g_macros s) (g_ports s) (g_symbol_max s) (g_continuations s) (std_in s) (in_fds s) (unget s) (out_fds s).
Definition set_g_free (v : Z) (s : state) : state :=
  St (heap s) v (g_cells s) (g_news s) (limit s) (ARENA_SIZE s) (MAX_ARENA_SIZE s) (JAM_SIZE s) (GC_SAFETY s) (MAX_STRING s) (STACK_SIZE s) (g_stack_array s) (g_stack s) (R0 s) (R1 s) (R2 s) (R3 s) (M0 s) (g_symbols s) (g_macros s) (g_ports s) (g_symbol_max s) (g_continuations s) (std_in s) (in_fds s) (unget s) (out_fds s).
Definition set_g_cells (v : Z) (s : state) : state :=
  St (heap s) (g_free s) v (g_news s) (limit s) (ARENA_SIZE s) (MAX_ARENA_SIZE s) (JAM_SIZE s) (GC_SAFETY s) (MAX_STRING s) (STACK_SIZE s) (g_stack_array s) (g_stack s) (R0 s) (R1 s) (R2 s) (R3 s) (M0 s) (g_symbols s) (g_macros s) (g_ports s) (g_symbol_max s) (g_continuations s) (std_in s) (in_fds s) (unget s) (out_fds s).
Definition set_g_news (v : Z) (s : state) : state :=
  St (heap s) (g_free s) (g_cells s) v (limit s) (ARENA_SIZE s) (MAX_ARENA_SIZE s) (JAM_SIZE s) (GC_SAFETY s) (MAX_STRING s) (STACK_SIZE s) (g_stack_array s) (g_stack s) (R0 s) (R1 s) (R2 s) (R3 s) (M0 s) (g_symbols s) (g_macros s) (g_ports s) (g_symbol_max s) (g_continuations s) (std_in s) (in_fds s) (unget s) (out_fds s).
Definition set_limit (v : Z) (s : state) : state :=
  St (heap s) (g_free s) (g_cells s) (g_news s) v (ARENA_SIZE s) (MAX_ARENA_SIZE s) (JAM_SIZE s) (GC_SAFETY s) (MAX_STRING s) (STACK_SIZE s) (g_stack_array s) (g_stack s) (R0 s) (R1 s) (R2 s) (R3 s) (M0 s) (g_symbols s) (g_macros s) (g_ports s) (g_symbol_max s) (g_continuations s) (std_in s) (in_fds s) (unget s) (out_fds s).
Definition set_ARENA_SIZE (v : Z) (s : state) : state :=
  St (heap s) (g_free s) (g_cells s) (g_news s) (limit s) v (MAX_ARENA_SIZE s) (JAM_SIZE s) (GC_SAFETY s) (MAX_STRING s) (STACK_SIZE s) (g_stack_array s) (g_stack s) (R0 s) (R1 s) (R2 s) (R3 s) (M0 s) (g_symbols s) (g_macros s) (g_ports s) (g_symbol_max s) (g_continuations s) (std_in s) (in_fds s) (unget s) (out_fds s).
Definition set_MAX_ARENA_SIZE (v : Z) (s : state) : state :=
  St (heap s) (g_free s) (g_cells s) (g_news s) (limit s) (ARENA_SIZE s) v (JAM_SIZE s) (GC_SAFETY s) (MAX_STRING s) (STACK_SIZE s) (g_stack_array s) (g_stack s) (R0 s) (R1 s) (R2 s) (R3 s) (M0 s) (g_symbols s) (g_macros s) (g_ports s) (g_symbol_max s) (g_continuations s) (std_in s) (in_fds s) (unget s) (out_fds s).
Definition set_JAM_SIZE (v : Z) (s : state) : state :=
  St (heap s) (g_free s) (g_cells s) (g_news s) (limit s) (ARENA_SIZE s) (MAX_ARENA_SIZE s) v (GC_SAFETY s) (MAX_STRING s) (STACK_SIZE s) (g_stack_array s) (g_stack s) (R0 s) (R1 s) (R2 s) (R3 s) (M0 s) (g_symbols s) (g_macros s) (g_ports s) (g_symbol_max s) (g_continuations s) (std_in s) (in_fds s) (unget s) (out_fds s).
Definition set_GC_SAFETY (v : Z) (s : state) : state :=
  St (heap s) (g_free s) (g_cells s) (g_news s) (limit s) (ARENA_SIZE s) (MAX_ARENA_SIZE s) (JAM_SIZE s) v (MAX_STRING s) (STACK_SIZE s) (g_stack_array s) (g_stack s) (R0 s) (R1 s) (R2 s) (R3 s) (M0 s) (g_symbols s) (g_macros s) (g_ports s) (g_symbol_max s) (g_continuations s) (std_in s) (in_fds s) (unget s) (out_fds s).
Definition set_MAX_STRING (v : Z) (s : state) : state :=
  St (heap s) (g_free s) (g_cells s) (g_news s) (limit s) (ARENA_SIZE s) (MAX_ARENA_SIZE s) (JAM_SIZE s) (GC_SAFETY s) v (STACK_SIZE s) (g_stack_array s) (g_stack s) (R0 s) (R1 s) (R2 s) (R3 s) (M0 s) (g_symbols s) (g_macros s) (g_ports s) (g_symbol_max s) (g_continuations s) (std_in s) (in_fds s) (unget s) (out_fds s).
Definition set_STACK_SIZE (v : Z) (s : state) : state :=
  St (heap s) (g_free s) (g_cells s) (g_news s) (limit s) (ARENA_SIZE s) (MAX_ARENA_SIZE s) (JAM_SIZE s) (GC_SAFETY s) (MAX_STRING s) v (g_stack_array s) (g_stack s) (R0 s) (R1 s) (R2 s) (R3 s) (M0 s) (g_symbols s) (g_macros s) (g_ports s) (g_symbol_max s) (g_continuations s) (std_in s) (in_fds s) (unget s) (out_fds s).
Definition set_g_stack_array (v : gmap Z Z) (s : state) : state :=
  St (heap s) (g_free s) (g_cells s) (g_news s) (limit s) (ARENA_SIZE s) (MAX_ARENA_SIZE s) (JAM_SIZE s) (GC_SAFETY s) (MAX_STRING s) (STACK_SIZE s) v (g_stack s) (R0 s) (R1 s) (R2 s) (R3 s) (M0 s) (g_symbols s) (g_macros s) (g_ports s) (g_symbol_max s) (g_continuations s) (std_in s) (in_fds s) (unget s) (out_fds s).
Definition set_g_stack (v : Z) (s : state) : state :=
  St (heap s) (g_free s) (g_cells s) (g_news s) (limit s) (ARENA_SIZE s) (MAX_ARENA_SIZE s) (JAM_SIZE s) (GC_SAFETY s) (MAX_STRING s) (STACK_SIZE s) (g_stack_array s) v (R0 s) (R1 s) (R2 s) (R3 s) (M0 s) (g_symbols s) (g_macros s) (g_ports s) (g_symbol_max s) (g_continuations s) (std_in s) (in_fds s) (unget s) (out_fds s).
Definition set_R0 (v : Z) (s : state) : state :=
  St (heap s) (g_free s) (g_cells s) (g_news s) (limit s) (ARENA_SIZE s) (MAX_ARENA_SIZE s) (JAM_SIZE s) (GC_SAFETY s) (MAX_STRING s) (STACK_SIZE s) (g_stack_array s) (g_stack s) v (R1 s) (R2 s) (R3 s) (M0 s) (g_symbols s) (g_macros s) (g_ports s) (g_symbol_max s) (g_continuations s) (std_in s) (in_fds s) (unget s) (out_fds s).
Definition set_R1 (v : Z) (s : state) : state :=
  St (heap s) (g_free s) (g_cells s) (g_news s) (limit s) (ARENA_SIZE s) (MAX_ARENA_SIZE s) (JAM_SIZE s) (GC_SAFETY s) (MAX_STRING s) (STACK_SIZE s) (g_stack_array s) (g_stack s) (R0 s) v (R2 s) (R3 s) (M0 s) (g_symbols s) (g_macros s) (g_ports s) (g_symbol_max s) (g_continuations s) (std_in s) (in_fds s) (unget s) (out_fds s).
Definition set_R2 (v : Z) (s : state) : state :=
  St (heap s) (g_free s) (g_cells s) (g_news s) (limit s) (ARENA_SIZE s) (MAX_ARENA_SIZE s) (JAM_SIZE s) (GC_SAFETY s) (MAX_STRING s) (STACK_SIZE s) (g_stack_array s) (g_stack s) (R0 s) (R1 s) v (R3 s) (M0 s) (g_symbols s) (g_macros s) (g_ports s) (g_symbol_max s) (g_continuations s) (std_in s) (in_fds s) (unget s) (out_fds s).
Definition set_R3 (v : Z) (s : state) : state :=
  St (heap s) (g_free s) (g_cells s) (g_news s) (limit s) (ARENA_SIZE s) (MAX_ARENA_SIZE s) (JAM_SIZE s) (GC_SAFETY s) (MAX_STRING s) (STACK_SIZE s) (g_stack_array s) (g_stack s) (R0 s) (R1 s) (R2 s) v (M0 s) (g_symbols s) (g_macros s) (g_ports s) (g_symbol_max s) (g_continuations s) (std_in s) (in_fds s) (unget s) (out_fds s).
Definition set_M0 (v : Z) (s : state) : state :=
  St (heap s) (g_free s) (g_cells s) (g_news s) (limit s) (ARENA_SIZE s) (MAX_ARENA_SIZE s) (JAM_SIZE s) (GC_SAFETY s) (MAX_STRING s) (STACK_SIZE s) (g_stack_array s) (g_stack s) (R0 s) (R1 s) (R2 s) (R3 s) v (g_symbols s) (g_macros s) (g_ports s) (g_symbol_max s) (g_continuations s) (std_in s) (in_fds s) (unget s) (out_fds s).
Definition set_g_symbols (v : Z) (s : state) : state :=
  St (heap s) (g_free s) (g_cells s) (g_news s) (limit s) (ARENA_SIZE s) (MAX_ARENA_SIZE s) (JAM_SIZE s) (GC_SAFETY s) (MAX_STRING s) (STACK_SIZE s) (g_stack_array s) (g_stack s) (R0 s) (R1 s) (R2 s) (R3 s) (M0 s) v (g_macros s) (g_ports s) (g_symbol_max s) (g_continuations s) (std_in s) (in_fds s) (unget s) (out_fds s).
Definition set_g_macros (v : Z) (s : state) : state :=
  St (heap s) (g_free s) (g_cells s) (g_news s) (limit s) (ARENA_SIZE s) (MAX_ARENA_SIZE s) (JAM_SIZE s) (GC_SAFETY s) (MAX_STRING s) (STACK_SIZE s) (g_stack_array s) (g_stack s) (R0 s) (R1 s) (R2 s) (R3 s) (M0 s) (g_symbols s) v (g_ports s) (g_symbol_max s) (g_continuations s) (std_in s) (in_fds s) (unget s) (out_fds s).
Definition set_g_ports (v : Z) (s : state) : state :=
  St (heap s) (g_free s) (g_cells s) (g_news s) (limit s) (ARENA_SIZE s) (MAX_ARENA_SIZE s) (JAM_SIZE s) (GC_SAFETY s) (MAX_STRING s) (STACK_SIZE s) (g_stack_array s) (g_stack s) (R0 s) (R1 s) (R2 s) (R3 s) (M0 s) (g_symbols s) (g_macros s) v (g_symbol_max s) (g_continuations s) (std_in s) (in_fds s) (unget s) (out_fds s).
Definition set_g_symbol_max (v : Z) (s : state) : state :=
  St (heap s) (g_free s) (g_cells s) (g_news s) (limit s) (ARENA_SIZE s) (MAX_ARENA_SIZE s) (JAM_SIZE s) (GC_SAFETY s) (MAX_STRING s) (STACK_SIZE s) (g_stack_array s) (g_stack s) (R0 s) (R1 s) (R2 s) (R3 s) (M0 s) (g_symbols s) (g_macros s) (g_ports s) v (g_continuations s) (std_in s) (in_fds s) (unget s) (out_fds s).
Definition set_g_continuations (v : Z) (s : state) : state :=
  St (heap s) (g_free s) (g_cells s) (g_news s) (limit s) (ARENA_SIZE s) (MAX_ARENA_SIZE s) (JAM_SIZE s) (GC_SAFETY s) (MAX_STRING s) (STACK_SIZE s) (g_stack_array s) (g_stack s) (R0 s) (R1 s) (R2 s) (R3 s) (M0 s) (g_symbols s) (g_macros s) (g_ports s) (g_symbol_max s) v (std_in s) (in_fds s) (unget s) (out_fds s).
Definition set_std_in (v : Z) (s : state) : state :=
  St (heap s) (g_free s) (g_cells s) (g_news s) (limit s) (ARENA_SIZE s) (MAX_ARENA_SIZE s) (JAM_SIZE s) (GC_SAFETY s) (MAX_STRING s) (STACK_SIZE s) (g_stack_array s) (g_stack s) (R0 s) (R1 s) (R2 s) (R3 s) (M0 s) (g_symbols s) (g_macros s) (g_ports s) (g_symbol_max s) (g_continuations s) v (in_fds s) (unget s) (out_fds s).
Definition set_in_fds (v : gmap Z (list Z)) (s : state) : state :=
  St (heap s) (g_free s) (g_cells s) (g_news s) (limit s) (ARENA_SIZE s) (MAX_ARENA_SIZE s) (JAM_SIZE s) (GC_SAFETY s) (MAX_STRING s) (STACK_SIZE s) (g_stack_array s) (g_stack s) (R0 s) (R1 s) (R2 s) (R3 s) (M0 s) (g_symbols s) (g_macros s) (g_ports s) (g_symbol_max s) (g_continuations s) (std_in s) v (unget s) (out_fds s).
Definition set_unget (v : gmap Z Z) (s : state) : state :=
  St (heap s) (g_free s) (g_cells s) (g_news s) (limit s) (ARENA_SIZE s) (MAX_ARENA_SIZE s) (JAM_SIZE s) (GC_SAFETY s) (MAX_STRING s) (STACK_SIZE s) (g_stack_array s) (g_stack s) (R0 s) (R1 s) (R2 s) (R3 s) (M0 s) (g_symbols s) (g_macros s) (g_ports s) (g_symbol_max s) (g_continuations s) (std_in s) (in_fds s) v (out_fds s).
Definition set_out_fds (v : gmap Z (list Z)) (s : state) : state :=
  St (heap s) (g_free s) (g_cells s) (g_news s) (limit s) (ARENA_SIZE s) (MAX_ARENA_SIZE s) (JAM_SIZE s) (GC_SAFETY s) (MAX_STRING s) (STACK_SIZE s) (g_stack_array s) (g_stack s) (R0 s) (R1 s) (R2 s) (R3 s) (M0 s) (g_symbols s) (g_macros s) (g_ports s) (g_symbol_max s) (g_continuations s) (std_in s) (in_fds s) (unget s) v.

(** Outcome of a C call.  [RUB]: undefined behaviour (bad access, overflow, ...).
    [ROutOfFuel]: the model's loop bound was reached (not a behaviour of the program). *)
Inductive res (A : Type) : Type :=
| ROk (a : A) (s : state)
| RThrow (key x : Z) (s : state)
| RAbort
| RUB
| ROutOfFuel.
Global Arguments ROk {A}. Global Arguments RThrow {A}. Global Arguments RAbort {A}.
Global Arguments RUB {A}. Global Arguments ROutOfFuel {A}.

Definition M (A : Type) : Type := state -> res A.
Definition ret {A} (a : A) : M A := fun s => ROk a s.
Definition bind {A B} (m : M A) (k : A -> M B) : M B := fun s =>
  match m s with
  | ROk a s' => k a s'
  | RThrow key x s' => RThrow key x s'
  | RAbort => RAbort
  | RUB => RUB
  | ROutOfFuel => ROutOfFuel
  end.
Declare Scope mes_scope.
Delimit Scope mes_scope with mes.
Notation "x <- m ;; k" := (bind m (fun x => k)) (at level 100, m at next level, right associativity) : mes_scope.
Notation "m ;;; k" := (bind m (fun _ => k)) (at level 100, right associativity) : mes_scope.
Open Scope mes_scope.

Definition ub {A} : M A := fun _ => RUB.
Definition abort {A} : M A := fun _ => RAbort.
Definition out_of_fuel {A} : M A := fun _ => ROutOfFuel.
Definition get : M state := fun s => ROk s s.
Definition gets {A} (f : state -> A) : M A := fun s => ROk (f s) s.
Definition modify (f : state -> state) : M unit := fun s => ROk tt (f s).
Definition assert_msg (b : bool) : M unit := fun s => if b then ROk tt s else RAbort.
(** src/core.c:148-162, see the header comment *)
Definition error {A} (key x : Z) : M A := fun s => RThrow key x s.

(** p-> : reading a cell; anything that is not an accessible cell is UB *)
Definition rd (p : Z) : M cell := fun s =>
  match heap s !! p with Some c => ROk c s | None => RUB end.
(** writing a whole cell inside the malloc'ed arena *)
Definition wr (p : Z) (c : cell) : M unit := fun s =>
  if (1 <=? p) && (p <? limit s) then ROk tt (set_heap (<[p := c]> (heap s)) s) else RUB.

Definition ty (p : Z) : M Z := c <- rd p ;; ret (c_ty c).
Definition car_of (p : Z) : M Z := c <- rd p ;; ret (c_car c).   (* ->car ->length ->ref ->variable ->macro ->port *)
Definition cdr_of (p : Z) : M Z := c <- rd p ;; ret (c_cdr c).   (* ->cdr ->value ->string ->vector ->closure ... *)
Definition set_ty (p t : Z) : M unit := c <- rd p ;; wr p (Cell t (c_car c) (c_cdr c) (c_bytes c)).
Definition set_car (p a : Z) : M unit := c <- rd p ;; wr p (Cell (c_ty c) a (c_cdr c) (c_bytes c)).
Definition set_cdr (p d : Z) : M unit := c <- rd p ;; wr p (Cell (c_ty c) (c_car c) d (c_bytes c)).

(** cell_bytes (p), src/gc.c:35-40: the payload bytes; UB on a cell that has none *)
Definition cell_bytes (p : Z) : M (list Z) :=
  c <- rd p ;; if c_ty c =? TBYTES then ret (c_bytes c) else ub.

(** src/gc.c:248-252 bytes_cells *)
Definition bytes_cells (length : Z) : Z := (8 + 8 + length - 1 + 8) / 8.

(** cells that a payload of [length] bytes behind two words actually touches *)
Definition touched_cells (length : Z) : Z := (16 + length + 23) / 24.

Fixpoint del_cells (h : gmap Z cell) (p : Z) (n : nat) : gmap Z cell :=
  match n with
  | O => h
  | S n' => del_cells (delete p h) (p + 1) n'
  end.

(** memcpy (cell_bytes (x), bs, len): the payload overwrites what was in the cells it runs over *)
Definition set_bytes (p : Z) (bs : list Z) : M unit :=
  c <- rd p ;;
  s <- get ;;
  let n := touched_cells (Z.of_nat (length bs)) in
  if p + n <=? limit s then
    modify (fun s => set_heap
       (<[p := Cell (c_ty c) (c_car c) (c_cdr c) bs]>
          (del_cells (heap s) (p + 1) (Z.to_nat (n - 1)))) s)
  else ub.

(** src/gc.c:156-167 alloc *)
Definition alloc (n : Z) : M Z :=
  x <- gets g_free ;;
  modify (fun s => set_g_free (g_free s + n) s) ;;;
  s <- get ;;
  (if ARENA_SIZE s <? g_free s - g_cells s then abort else ret tt) ;;;
  ret x.

(** src/gc.c:169-182 make_cell (184-197 make_pointer_cell and 199-212 make_value_cell are the
    same code at other C types) *)
Definition make_cell (t a d : Z) : M Z :=
  x <- gets g_free ;;
  modify (fun s => set_g_free (g_free s + 1) s) ;;;
  s <- get ;;
  (if ARENA_SIZE s <? g_free s - g_cells s then abort else ret tt) ;;;
  wr x (Cell t a d []) ;;;
  ret x.
Definition make_pointer_cell := make_cell.
Definition make_value_cell := make_cell.

(** src/gc.c:214-220 copy_cell, 222-228 copy_news: three words *)
Definition copy_cell (to from : Z) : M unit :=
  c <- rd from ;; wr to (Cell (c_ty c) (c_car c) (c_cdr c) []).

(** src/gc.c:236-240 cell_ref *)
Definition cell_ref (cell index : Z) : Z := cell + index.

(** src/gc.c:242-246 cons *)
Definition cons (x y : Z) : M Z := make_cell TPAIR x y.

(** src/gc.c:254-268 make_bytes; the caller's C string is a byte list of the given length
    (length == 0 stores a NUL, which the zero-length payload does not show) *)
Definition make_bytes (bs : list Z) : M Z :=
  let length := Z.of_nat (List.length bs) in
  x <- alloc (bytes_cells length) ;;
  wr x (Cell TBYTES length 0 []) ;;;
  set_bytes x bs ;;;
  ret x.

(** src/gc.c:270-274 make_char: the argument is an int *)
Definition make_char (n : Z) : M Z := make_value_cell TCHAR 0 n.
(** src/gc.c:276-280 make_continuation *)
Definition make_continuation (n : Z) : M Z :=
  g <- gets g_stack ;; make_value_cell TCONTINUATION n g.
(** src/gc.c:282-286 make_macro *)
Definition make_macro (name x : Z) : M Z := d <- cdr_of name ;; make_cell TMACRO x d.
(** src/gc.c:288-292 make_number *)
Definition make_number (n : Z) : M Z := make_value_cell TNUMBER 0 n.
(** src/gc.c:294-298 make_ref *)
Definition make_ref (x : Z) : M Z := make_cell TREF x 0.

(** src/gc.c:300-309 make_string; [bs] are the [length] bytes at s, the byte s[length] that
    make_bytes (s, length + 1) also copies is [term] (a NUL for every C string) *)
Definition make_string_term (bs : list Z) (term : Z) : M Z :=
  s <- get ;;
  (if MAX_STRING s <? Z.of_nat (List.length bs) then error cell_symbol_system_error cell_f else ret tt) ;;;
  x <- make_pointer_cell TSTRING (Z.of_nat (List.length bs)) 0 ;;
  v <- make_bytes (bs ++ [term]) ;;
  set_cdr x v ;;;
  ret x.
Definition make_string (bs : list Z) : M Z := make_string_term bs 0.

(** bytes up to the first NUL: what strlen sees *)
Fixpoint until_nul (bs : list Z) : list Z :=
  match bs with
  | [] => []
  | b :: bs' => if b =? 0 then [] else b :: until_nul bs'
  end.
(** src/gc.c:311-315 make_string0 *)
Definition make_string0 (bs : list Z) : M Z := make_string (until_nul bs).

(** src/gc.c:694-705 gc_push_frame *)
Definition stack_set (i v : Z) : M unit := fun s =>
  if (0 <=? i) && (i <? STACK_SIZE s)
  then ROk tt (set_g_stack_array (<[i := v]> (g_stack_array s)) s) else RUB.
Definition stack_get (i : Z) : M Z := fun s =>
  if (0 <=? i) && (i <? STACK_SIZE s) then
    match g_stack_array s !! i with Some v => ROk v s | None => RUB end
  else RUB.
Definition GC_FRAME_SIZE := 5.
Definition GC_FRAME_PROCEDURE := 4.
Definition gc_push_frame : M unit :=
  s <- get ;;
  let g := g_stack s in
  (if g <? GC_FRAME_SIZE then abort else ret tt) ;;;
  stack_set (g - 1) cell_f ;;;
  stack_set (g - 2) (R0 s) ;;;
  stack_set (g - 3) (R1 s) ;;;
  stack_set (g - 4) (R2 s) ;;;
  stack_set (g - 5) (R3 s) ;;;
  modify (set_g_stack (g - GC_FRAME_SIZE)).

(** src/gc.c:707-715 gc_peek_frame *)
Definition gc_peek_frame : M unit :=
  g <- gets g_stack ;;
  v <- stack_get g ;; modify (set_R3 v) ;;;
  v <- stack_get (g + 1) ;; modify (set_R2 v) ;;;
  v <- stack_get (g + 2) ;; modify (set_R1 v) ;;;
  v <- stack_get (g + 3) ;; modify (set_R0 v) ;;;
  stack_get (g + GC_FRAME_PROCEDURE) ;;; ret tt.

(** src/gc.c:717-722 gc_pop_frame *)
Definition gc_pop_frame : M unit :=
  gc_peek_frame ;;;
  modify (fun s => set_g_stack (g_stack s + GC_FRAME_SIZE) s).
