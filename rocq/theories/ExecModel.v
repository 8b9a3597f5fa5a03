(** Finding and running programs: /repo/lib/mes/search-path.c, lib/posix/execvp.c, execl.c, execlp.c.
    Memory and the string functions are those of LibModel.v.  The file system is a predicate on file
    names: [access (name, X_OK)] succeeds.  The debug output is left out. *)
From stdpp Require Import base gmap list.
From Coq Require Import ZArith.
From Verif Require Import CInt LibModel.
Open Scope Z_scope.
Open Scope clib_scope.

Section search.
Context (fuel : nat) (access : list Z -> bool).
(** the file name the kernel reads at [p] *)
Fixpoint kernel_string (n : nat) (p : Z) : CM (list Z) :=
  match n with
  | O => cfuel
  | S n' => b <- ldu p ;; if b =? 0 then cret [] else s <- kernel_string n' (p + 1) ;; cret (b :: s)
  end.
(** search-path.c:37-64; [buf] is the static array of 256 bytes, [slash] the string constant "/" *)
Fixpoint search_loop (n : nat) (buf slash file path : Z) : CM Z :=
  match n with
  | O => cfuel
  | S n' =>
      v <- ld path ;;
      if v =? 0 then cret 0 else
      e <- strchr fuel path 58 ;;
      e <- (if e =? 0 then strchr fuel path 0 else cret e) ;;
      strncpy fuel buf path (e - path) ;;;
      st (buf + (e - path)) 0 ;;;
      v <- ld (buf + (e - path)) ;;
      (if negb (v =? 47) then strcat fuel buf slash ;;; cret tt else cret tt) ;;;
      strcat fuel buf file ;;;
      name <- kernel_string fuel buf ;;
      if access name then cret buf else search_loop n' buf slash file (e + 1)
  end.
(** search-path.c:26-66; [path] is what getenv gives, reading through a null pointer is undefined *)
Definition search_path (n : nat) (buf slash path file : Z) : CM Z :=
  if path =? 0 then cub else search_loop n buf slash file path.

(** what a call of the exec family does: replaces the program, or returns -1 with ENOENT *)
Inductive eresult : Type := Executes (file : Z) | NotFound.
(** execvp.c:26-53 up to the system call *)
Definition execvp (n : nat) (buf slash path file : Z) : CM eresult :=
  e <- strchr fuel file 47 ;;
  f <- (if e =? 0 then search_path n buf slash path file else cret file) ;;
  if f =? 0 then cret NotFound else cret (Executes f).
End search.

(** execl.c:25-50: the array of arguments that [vexec] makes of the variable arguments that follow
    [arg]; [None] if they do not fit in the array of 1000 pointers.  The arguments are addresses. *)
Fixpoint vexec_loop (argv : list Z) (args : list Z) : option (list Z) :=
  match args with
  | [] => if (length argv <? 1000)%nat then Some argv else None
  | a :: args' => if (length argv <? 1000)%nat then vexec_loop (argv ++ [a]) args' else None
  end.
(** execl.c:52-67: the file and the arguments that the new program gets *)
Definition execl (file arg : Z) (args : list Z) : option (Z * list Z) :=
  match vexec_loop [file] args with Some v => Some (file, v) | None => None end.

(** execlp.c:25-47; [None]: returns -1 with ENOENT; the arguments are [None] if they overflow *)
Definition execlp (fuel : nat) (access : list Z -> bool) (n : nat) (buf slash path file arg : Z) (args : list Z)
  : CM (option (option (Z * list Z))) :=
  e <- strchr fuel file 47 ;;
  f <- (if e =? 0 then search_path fuel access n buf slash path file else cret file) ;;
  if f =? 0 then cret None else cret (Some (execl f arg args)).
