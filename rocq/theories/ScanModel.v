(** Formatted input: lib/stdio/vsscanf.c and vfscanf.c, in the memory of LibModel.v. *)
From stdpp Require Import base gmap list.
From Coq Require Import ZArith.
From Verif Require Import CInt LibModel LibNumModel FmtModel.
Open Scope Z_scope. Open Scope clib_scope.

(** lib/stdio/vsscanf.c:42-46, vfscanf.c:40-44: the conversion character, after an 'l' *)
Definition conversion_char (t : Z) : CM (Z * Z) :=
  c <- ld t ;; if c =? 108 then c <- ld (t + 1) ;; cret (t + 1, c) else cret (t, c).

(** lib/stdio/vsscanf.c:40-90: one directive, [t] after the '%'; gives [t], [p], the arguments left
    and [count].  The floating point conversions (lines 71-80) are not modelled: CAbort.  The message
    about a directive that is not supported (lines 83-85) is left out. *)
Definition sdirective (fuel : nat) (t p : Z) (args : list Z) (count : Z) : CM (Z * Z * list Z * Z) :=
  tc <- conversion_char t ;;
  let t := fst tc in
  let c := snd tc in
  if c =? 37 then cret (t + 1, p + 1, args, count)
  else if c =? 99 then
    a <- va_arg args ;; v <- ld p ;; st (fst a) v ;;; n <- c_int (count + 1) ;; cret (t + 1, p + 1, snd a, n)
  else if existsb (Z.eqb c) [100; 105; 117] then
    a <- va_arg args ;; r <- abtol fuel p 10 ;; store_int (fst a) (to_s32 (fst r)) ;;;
    n <- c_int (count + 1) ;; cret (t + 1, snd r, snd a, n)
  else if existsb (Z.eqb c) [101; 102; 103; 69; 71] then cabort
  else cret (t + 2, p + 1, args, count).
(** lib/stdio/vsscanf.c:34-91 *)
Fixpoint vsscanf_loop (n fuel : nat) (t p : Z) (args : list Z) (count : Z) : CM Z :=
  match n with
  | O => cfuel
  | S n' =>
      c <- ld t ;; if c =? 0 then cret count else
      d <- ld p ;; if d =? 0 then cret count else
      if negb (c =? 37) then vsscanf_loop n' fuel (t + 1) (p + 1) args count
      else r <- sdirective fuel (t + 1) p args count ;;
           vsscanf_loop n' fuel (fst (fst (fst r))) (snd (fst (fst r))) (snd (fst r)) (snd r)
  end.
(** lib/stdio/vsscanf.c:28-94; lib/stdio/sscanf.c calls it *)
Definition vsscanf (fuel : nat) (s template : Z) (args : list Z) : CM Z := vsscanf_loop fuel fuel template s args 0.

(** ** lib/stdio/vfscanf.c.  A file is the bytes still to be read: what fgetc and ungetc do on
    it is C29.  [fgetc] into a [char]: the end of the file is -1, and so is byte 255 *)
Definition fget (f : list Z) : Z * list Z := match f with [] => (-1, []) | b :: f' => (to_schar b, f') end.
Definition funget (c : Z) (f : list Z) : list Z := if c =? -1 then f else to_byte c :: f.
(** lines 70-74: the digits go to the buffer, which has 20 bytes *)
Definition c_digit (c : Z) : bool := (48 <=? c) && (c <=? 57).
Fixpoint fdigits (n : nat) (p : Z) (f : list Z) (q : Z) (buf : Z) : CM (Z * list Z * Z) :=
  match n with
  | O => cfuel
  | S n' =>
      if c_digit p then
        (if q <? buf + 20 then st q p else cub) ;;;
        fdigits n' (fst (fget f)) (snd (fget f)) (q + 1) buf
      else cret (p, f, q)
  end.
(** lines 63-81; gives [p] and the file *)
Definition fnumber (fuel : nat) (buf a p : Z) (f : list Z) : CM (Z * list Z) :=
  pfq <- (if (p =? 43) || (p =? 45) then st buf p ;;; cret (fst (fget f), snd (fget f), buf + 1) else cret (p, f, buf)) ;;
  pfq <- fdigits fuel (fst (fst pfq)) (snd (fst pfq)) (snd pfq) buf ;;
  let p := fst (fst pfq) in
  let f := funget p (snd (fst pfq)) in
  (if snd pfq <? buf + 20 then st (snd pfq) 0 else cub) ;;;
  r <- abtol fuel buf 10 ;;
  store_int a (to_s32 (fst r)) ;;;
  cret (p, f).
(** lines 33-113; [buf] is the block of the variable [buf] *)
Fixpoint vfscanf_loop (n fuel : nat) (buf t p : Z) (f : list Z) (args : list Z) (count : Z) : CM (Z * list Z) :=
  match n with
  | O => cfuel
  | S n' =>
      c <- ld t ;; if c =? 0 then cret (count, f) else
      if p =? -1 then cret (count, f) else
      if negb (c =? 37) then vfscanf_loop n' fuel buf (t + 1) (fst (fget f)) (snd (fget f)) args count
      else
        tc <- conversion_char (t + 1) ;;
        let t := fst tc in
        let c := snd tc in
        if c =? 37 then vfscanf_loop n' fuel buf (t + 1) (fst (fget f)) (snd (fget f)) args count
        else if c =? 99 then
          a <- va_arg args ;; st (fst a) p ;;; n <- c_int (count + 1) ;;
          vfscanf_loop n' fuel buf (t + 1) (fst (fget f)) (snd (fget f)) (snd a) n
        else if existsb (Z.eqb c) [100; 105; 117] then
          a <- va_arg args ;; r <- fnumber fuel buf (fst a) p f ;; n <- c_int (count + 1) ;;
          vfscanf_loop n' fuel buf (t + 1) (fst r) (snd r) (snd a) n
        else if existsb (Z.eqb c) [101; 102; 103; 69; 71] then cabort
        else vfscanf_loop n' fuel buf (t + 2) (fst (fget f)) (snd (fget f)) args count
  end.
(** lib/stdio/vfscanf.c:26-117; gives the result and what is left of the file *)
Definition vfscanf (fuel : nat) (buf : Z) (f : list Z) (template : Z) (args : list Z) : CM (Z * list Z) :=
  vfscanf_loop fuel fuel buf template (fst (fget f)) (snd (fget f)) args 0.
