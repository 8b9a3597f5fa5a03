(** Byte memory and the string functions of the mes C library, /repo/lib/string,
    /repo/lib/ctype, /repo/lib/mes.  Memory is a finite map from addresses to
    bytes; an address that is not in the map is not part of any object, and
    loading from or storing to it is undefined behaviour.  Addresses are
    unbounded integers: no object wraps around the end of the address space.
    [char] is signed, [int] 32 bits, [size_t] 64 bits. *)
From stdpp Require Import base gmap list.
From Coq Require Import ZArith.
From Verif Require Import CInt.
Open Scope Z_scope.

Notation mem := (gmap Z Z) (only parsing).

(** what a library call can do.  [CAbort] is a failed assertion or [exit];
    [CFuel] is the model's fuel running out *)
Inductive cres (A : Type) : Type :=
| COk (a : A) (m : mem)
| CUB
| CAbort
| CFuel.
Arguments COk {A}. Arguments CUB {A}. Arguments CAbort {A}. Arguments CFuel {A}.

Definition CM (A : Type) : Type := mem -> cres A.
Definition cret {A} (a : A) : CM A := fun m => COk a m.
Definition cbind {A B} (c : CM A) (k : A -> CM B) : CM B := fun m =>
  match c m with COk a m' => k a m' | CUB => CUB | CAbort => CAbort | CFuel => CFuel end.
Definition cub {A} : CM A := fun _ => CUB.
Definition cabort {A} : CM A := fun _ => CAbort.
Definition cfuel {A} : CM A := fun _ => CFuel.

Declare Scope clib_scope.
Delimit Scope clib_scope with clib.
Notation "x <- c ;; k" := (cbind c (fun x => k)) (at level 100, c at next level, right associativity) : clib_scope.
Notation "c ;;; k" := (cbind c (fun _ => k)) (at level 100, right associativity) : clib_scope.
Open Scope clib_scope.

(** [*p] through a [char *]: the stored byte, sign-extended *)
Definition ld (p : Z) : CM Z := fun m =>
  match m !! p with Some b => COk (to_schar b) m | None => CUB end.
(** [*p] through an [unsigned char *] *)
Definition ldu (p : Z) : CM Z := fun m =>
  match m !! p with Some b => COk b m | None => CUB end.
(** [*p = v] through a [char *] *)
Definition st (p v : Z) : CM unit := fun m =>
  match m !! p with Some _ => COk tt (<[p := to_byte v]> m) | None => CUB end.

(** arithmetic on [int]: overflow is undefined *)
Definition c_int (z : Z) : CM Z := if in_int z then cret z else cub.
(** arithmetic on [long] *)
Definition c_long (z : Z) : CM Z := if in_long z then cret z else cub.

(** lib/string/memcpy.c:29-35; [n] counts down from the [size_t] argument *)
Fixpoint memcpy_loop (n : nat) (dest src : Z) : CM unit :=
  match n with
  | O => cret tt
  | S n' => v <- ld src ;; st dest v ;;; memcpy_loop n' (dest + 1) (src + 1)
  end.
(** lib/string/memcpy.c:24-44 *)
Definition memcpy (dest src n : Z) : CM Z := memcpy_loop (Z.to_nat n) dest src ;;; cret dest.

(** lib/string/memmove.c:30-31 *)
Fixpoint memmove_loop (n : nat) (p q : Z) : CM unit :=
  match n with
  | O => cret tt
  | S n' => v <- ld (q - 1) ;; st (p - 1) v ;;; memmove_loop n' (p - 1) (q - 1)
  end.
(** lib/string/memmove.c:23-33 *)
Definition memmove (dest src n : Z) : CM Z :=
  if dest <? src then memcpy dest src n
  else memmove_loop (Z.to_nat n) (dest + n) (src + n) ;;; cret dest.

(** lib/string/memset.c:27-32 *)
Fixpoint memset_loop (n : nat) (s c : Z) : CM unit :=
  match n with
  | O => cret tt
  | S n' => st s c ;;; memset_loop n' (s + 1) c
  end.
(** lib/string/memset.c:23-40 *)
Definition memset (s c n : Z) : CM Z := memset_loop (Z.to_nat n) s c ;;; cret s.

(** lib/string/bzero.c, lib/string/bcopy.c, lib/string/bcmp.c are one-line calls of memset, memmove, memcmp *)

(** lib/string/memchr.c:28-34; NULL is 0 *)
Fixpoint memchr_loop (n : nat) (p c : Z) : CM Z :=
  match n with
  | O => cret 0
  | S n' => v <- ld p ;; if c =? v then cret p else memchr_loop n' (p + 1) c
  end.
(** lib/string/memchr.c:23-37 *)
Definition memchr (block c size : Z) : CM Z := memchr_loop (Z.to_nat size) block c.

(** lib/string/memcmp.c:32-39 with [size - 1] further turns possible *)
Fixpoint memcmp_loop (n : nat) (a b : Z) : CM Z :=
  x <- ld a ;; y <- ld b ;;
  match n with
  | O => c_int (x - y)
  | S n' => if x =? y then memcmp_loop n' (a + 1) (b + 1) else c_int (x - y)
  end.
(** lib/string/memcmp.c:23-40 *)
Definition memcmp (s1 s2 size : Z) : CM Z :=
  if size =? 0 then cret 0 else memcmp_loop (Z.to_nat (size - 1)) s1 s2.

(** lib/string/strlen.c:26-31; [i] is an [int] *)
Fixpoint strlen_loop (fuel : nat) (s i : Z) : CM Z :=
  match fuel with
  | O => cfuel
  | S f => v <- ld (s + i) ;; if v =? 0 then cret i else i' <- c_int (i + 1) ;; strlen_loop f s i'
  end.
(** lib/string/strlen.c:23-32 *)
Definition strlen (fuel : nat) (s : Z) : CM Z := strlen_loop fuel s 0.

(** lib/string/strchr.c:23-34 *)
Fixpoint strchr (fuel : nat) (p c : Z) : CM Z :=
  match fuel with
  | O => cfuel
  | S f =>
      v <- ld p ;;
      if negb (v =? 0) || (c =? 0) then if c =? v then cret p else strchr f (p + 1) c
      else cret 0
  end.

(** lib/string/strrchr.c:33-39; [n] is the count still to go *)
Fixpoint strrchr_loop (n : nat) (p c : Z) : CM Z :=
  match n with
  | O => cret 0
  | S n' =>
      v <- ld p ;;
      if negb (v =? 0) || (c =? 0) then if c =? v then cret p else strrchr_loop n' (p - 1) c
      else cret 0
  end.
(** lib/string/strrchr.c:23-40 *)
Definition strrchr (fuel : nat) (s c : Z) : CM Z :=
  n <- strlen fuel s ;;
  if n =? 0 then cret 0
  else
    v <- ld (s + n) ;;
    if (v =? 0) && (c =? 0) then cret (s + n)
    else strrchr_loop (Z.to_nat n) (s + n - 1) c.

(** lib/string/strcmp.c:23-33 *)
Fixpoint strcmp (fuel : nat) (a b : Z) : CM Z :=
  match fuel with
  | O => cfuel
  | S f =>
      x <- ld a ;;
      if x =? 0 then y <- ld b ;; c_int (x - y)
      else
        y <- ld b ;;
        if negb (y =? 0) && (x =? y) then strcmp f (a + 1) (b + 1) else c_int (x - y)
  end.

(** lib/string/strncmp.c:29-36 with [size - 1] further turns possible *)
Fixpoint strncmp_loop (n : nat) (a b : Z) : CM Z :=
  x <- ld a ;;
  if x =? 0 then y <- ld b ;; c_int (x - y)
  else
    y <- ld b ;;
    match n with
    | O => c_int (x - y)
    | S n' => if negb (y =? 0) && (x =? y) then strncmp_loop n' (a + 1) (b + 1) else c_int (x - y)
    end.
(** lib/string/strncmp.c:23-37 *)
Definition strncmp (a b size : Z) : CM Z :=
  if size =? 0 then cret 0 else strncmp_loop (Z.to_nat (size - 1)) a b.

(** lib/string/strcpy.c:28-34: the loop and the final store *)
Fixpoint strcpy_loop (fuel : nat) (p src : Z) : CM unit :=
  match fuel with
  | O => cfuel
  | S f =>
      v <- ld src ;;
      if v =? 0 then st p 0 else st p v ;;; strcpy_loop f (p + 1) (src + 1)
  end.
(** lib/string/strcpy.c:23-37 *)
Definition strcpy (fuel : nat) (dest src : Z) : CM Z := strcpy_loop fuel dest src ;;; cret dest.

(** lib/string/strncpy.c:29-30: the copying loop; [size] is a [size_t], and
    the test [size--] that ends the loop leaves it wrapped around.  Result:
    (p, from, size) *)
Fixpoint strncpy_loop (fuel : nat) (p from size : Z) : CM (Z * Z * Z) :=
  match fuel with
  | O => cfuel
  | S f =>
      v <- ld from ;;
      if v =? 0 then cret (p, from, size)
      else
        let size' := to_u64 (size - 1) in
        if size =? 0 then cret (p, from, size')
        else v2 <- ld from ;; st p v2 ;;; strncpy_loop f (p + 1) (from + 1) size'
  end.
(** lib/string/strncpy.c:33-34 *)
Fixpoint strncpy_pad (n : nat) (p : Z) : CM unit :=
  match n with O => cret tt | S n' => st p 0 ;;; strncpy_pad n' (p + 1) end.
(** lib/string/strncpy.c:23-36 *)
Definition strncpy (fuel : nat) (to from size : Z) : CM Z :=
  if size =? 0 then cret to
  else
    r <- strncpy_loop fuel to from size ;;
    v <- ld (snd (fst r)) ;;
    let size' := if negb (v =? 0) then to_u64 (snd r + 1) else snd r in
    strncpy_pad (Z.to_nat size') (fst (fst r)) ;;; cret to.

(** lib/string/strcat.c:23-31; lines 27-29 are the loop of strcpy *)
Definition strcat (fuel : nat) (to from : Z) : CM Z :=
  p <- strchr fuel to 0 ;; strcpy_loop fuel p from ;;; cret to.

(** lib/string/strncat.c:29-31: the loop and the final store *)
Fixpoint strncat_loop (fuel : nat) (p from size : Z) : CM unit :=
  match fuel with
  | O => cfuel
  | S f =>
      v <- ld from ;;
      if v =? 0 then st p 0
      else if 0 <? size then v2 <- ld from ;; st p v2 ;;; strncat_loop f (p + 1) (from + 1) (size - 1)
      else st p 0
  end.
(** lib/string/strncat.c:23-33 *)
Definition strncat (fuel : nat) (to from size : Z) : CM Z :=
  if size =? 0 then cret to
  else p <- strchr fuel to 0 ;; strncat_loop fuel p from size ;;; cret to.

(** lib/string/strcspn.c:27-31, lib/string/strpbrk.c:27-31 (want = true) and
    lib/string/strspn.c:27-31 (want = false): where the scan stops *)
Fixpoint span_loop (fuel : nat) (want : bool) (p set : Z) : CM Z :=
  match fuel with
  | O => cfuel
  | S f =>
      v <- ld p ;;
      if v =? 0 then cret p
      else
        r <- strchr fuel set v ;;
        if Bool.eqb want (negb (r =? 0)) then cret p else span_loop f want (p + 1) set
  end.
(** lib/string/strcspn.c:23-33 *)
Definition strcspn (fuel : nat) (s set : Z) : CM Z := p <- span_loop fuel true s set ;; cret (p - s).
(** lib/string/strspn.c:23-33 *)
Definition strspn (fuel : nat) (s set : Z) : CM Z := p <- span_loop fuel false s set ;; cret (p - s).
(** lib/string/strpbrk.c:23-33 *)
Definition strpbrk (fuel : nat) (s set : Z) : CM Z := span_loop fuel true s set.

(** lib/string/memmem.c:42-44: does the needle occur here? *)
Fixpoint memmem_here (n : nat) (needle hay : Z) : CM bool :=
  match n with
  | O => cret true
  | S n' => x <- ldu needle ;; y <- ldu hay ;; if x =? y then memmem_here n' (needle + 1) (hay + 1) else cret false
  end.
(** lib/string/memmem.c:38-51; [n] turns are left *)
Fixpoint memmem_loop (n : nat) (hay needle nlen : Z) : CM Z :=
  match n with
  | O => cret 0
  | S n' => r <- memmem_here (Z.to_nat nlen) needle hay ;;
      if (r : bool) then cret hay else memmem_loop n' (hay + 1) needle nlen
  end.
(** lib/string/memmem.c:30-60 *)
Definition memmem (hay hlen needle nlen : Z) : CM Z :=
  memmem_loop (Z.to_nat (hlen - nlen + 1)) hay needle nlen.

(** lib/string/strstr.c:25-29; the lengths pass through [int] parameters *)
Definition strstr (fuel : nat) (hay needle : Z) : CM Z :=
  h <- strlen fuel hay ;; n <- strlen fuel needle ;; memmem hay (to_s32 h) needle (to_s32 n).

(** lib/ctype: isupper.c:22-26 and the like *)
Definition c_isupper (c : Z) : bool := (65 <=? c) && (c <=? 90).
Definition c_islower (c : Z) : bool := (97 <=? c) && (c <=? 122).
(** lib/ctype/isdigit.c:23-27 *)
Definition c_isdigit (c : Z) : bool := (48 <=? c) && (c <=? 57).
(** lib/ctype/isxdigit.c:22-26 *)
Definition c_isxdigit (c : Z) : bool := c_isdigit c || ((97 <=? c) && (c <=? 102)).
(** lib/ctype/isspace.c:23-27 *)
Definition c_isspace (c : Z) : bool :=
  (c =? 9) || (c =? 10) || (c =? 11) || (c =? 12) || (c =? 13) || (c =? 32).
(** lib/ctype/tolower.c:23-29 *)
Definition c_tolower (c : Z) : Z := if c_isupper c then c + 32 else c.
(** lib/ctype/toupper.c:23-29 *)
Definition c_toupper (c : Z) : Z := if c_islower c then c - 32 else c.

(** lib/string/strlwr.c:26-32, lib/string/strupr.c:27-33 *)
Fixpoint strmap_loop (fuel : nat) (f : Z -> Z) (p : Z) : CM unit :=
  match fuel with
  | O => cfuel
  | S n => v <- ld p ;; if v =? 0 then cret tt else st p (f v) ;;; strmap_loop n f (p + 1)
  end.
(** lib/string/strlwr.c:23-34 *)
Definition strlwr (fuel : nat) (s : Z) : CM Z := strmap_loop fuel c_tolower s ;;; cret s.
(** lib/string/strupr.c:24-35 *)
Definition strupr (fuel : nat) (s : Z) : CM Z := strmap_loop fuel c_toupper s ;;; cret s.
