(** Start-up of the interpreter: src/mes.c:31-74 and 184-206, up to reading the boot program. *)
From stdpp Require Import base gmap list.
From Coq Require Import ZArith Lia.
From Verif Require Import CInt Symbols Heap DataModel.
Import Strings.String.StringSyntax.
Open Scope Z_scope.
Open Scope mes_scope.

(** src/mes.c:31-40 mes_g_stack *)
Definition mes_g_stack (a : Z) : M Z :=
  modify (fun s => set_g_stack (STACK_SIZE s) s) ;;;
  modify (set_R0 a) ;;;
  x <- make_char 0 ;; modify (set_R1 x) ;;;
  x <- make_char 0 ;; modify (set_R2 x) ;;;
  x <- make_char 0 ;; modify (set_R3 x) ;;;
  gets R0.

(** src/mes.c:65-69: the command line, last argument first *)
Fixpoint argv_loop (args : list (list Z)) (lst : Z) : M Z :=
  match args with
  | [] => ret lst
  | s :: args' => x <- make_string0 s ;; lst <- cons x lst ;; argv_loop args' lst
  end.

(** src/mes.c:42-74 mes_environment, for x86_64 and gcc *)
Definition mes_environment (buckets : Z) (datadir : list Z) (argv : list (list Z)) : M Z :=
  a <- init_symbols buckets (bytes_of "0.23") datadir ;;
  x <- make_string0 (bytes_of "gnuc") ;; a <- acons cell_symbol_compiler x a ;;
  x <- make_string0 (bytes_of "x86_64") ;; a <- acons cell_symbol_arch x a ;;
  lst <- argv_loop (rev argv) cell_nil ;;
  a <- acons cell_symbol_argv lst a ;;
  mes_g_stack a.

(** src/builtins.c:24-35 make_builtin_type *)
Definition make_builtin_type (fuel : nat) : M Z :=
  y <- cstring_to_symbol fuel (bytes_of "address") ;; fields <- cons y cell_nil ;;
  y <- cstring_to_symbol fuel (bytes_of "arity") ;; fields <- cons y fields ;;
  y <- cstring_to_symbol fuel (bytes_of "name") ;; fields <- cons y fields ;;
  fields <- cons fields cell_nil ;;
  fields <- cons cell_symbol_builtin fields ;;
  make_struct fuel cell_symbol_record_type fields cell_unspecified.

(** src/builtins.c:37-46 make_builtin *)
Definition make_builtin (fuel : nat) (builtin_type name arity function : Z) : M Z :=
  values <- cons function cell_nil ;;
  values <- cons arity values ;;
  values <- cons name values ;;
  values <- cons cell_symbol_builtin values ;;
  y <- cstring_to_symbol fuel (bytes_of "builtin-printer") ;;
  make_struct fuel builtin_type values y.

(** src/builtins.c:98-106 init_builtin; a C function is identified by a number *)
Definition init_builtin (fuel : nat) (builtin_type : Z) (name : list Z) (arity function a : Z) : M Z :=
  y <- cstring_to_symbol fuel name ;;
  f <- make_number function ;;
  n <- make_number arity ;;
  nm <- symbol_to_string y ;;
  b <- make_builtin fuel builtin_type nm n f ;;
  acons y b a.

Fixpoint init_builtins (fuel : nat) (builtin_type : Z) (l : list (list Z * Z * Z)) (a : Z) : M Z :=
  match l with
  | [] => ret a
  | (name, arity, function) :: l' =>
      a <- init_builtin fuel builtin_type name arity function a ;; init_builtins fuel builtin_type l' a
  end.

(** src/mes.c:184-193 main, up to the creation of g_macros; [builtins] is the table of
    src/builtins.c:108-263; init_time (src/posix.c), which adds one number, is left out *)
Definition boot (fuel : nat) (buckets : Z) (builtins : list (list Z * Z * Z))
    (datadir : list Z) (argv : list (list Z)) : M unit :=
  a <- mes_environment buckets datadir argv ;;
  bt <- make_builtin_type fuel ;;
  a <- init_builtins fuel bt builtins a ;;
  m <- make_initial_module fuel a ;;
  modify (set_M0 m) ;;;
  t <- make_hash_table_ 0 ;;
  modify (set_g_macros t).
