(** Model of the number formatting and parsing functions of the C library. *)
From stdpp Require Import base gmap list.
From Coq Require Import ZArith.
From Verif Require Import CInt LibModel.
Open Scope Z_scope. Open Scope clib_scope.

(** lib/mes/ntoab.c:62-71: the do-while loop, from [p]; the result is [p] at
    its end.  [u] and [b] are [size_t]; [__mesabi_uldiv] is the one of
    ntoab.c:26-33 (the gcc build), a plain [%] and [/]; b = 0 was excluded *)
Fixpoint ntoab_loop (fuel : nat) (p u b : Z) : CM Z :=
  match fuel with
  | O => cfuel
  | S f =>
      let i := u mod b in
      let u' := u / b in
      (if 9 <? i then st p (97 + i - 10) else st p (48 + i)) ;;;
      if u' =? 0 then cret (p - 1) else ntoab_loop f (p - 1) u' b
  end.

(** lib/mes/ntoab.c:37-80.  [buf] is the value of [__itoa_buf] after lines
    40-41: a block of 20 bytes that malloc returned on the first call.
    [x] is a [long], [base] an [unsigned] *)
Definition ntoab (fuel : nat) (buf x base : Z) (signed_p : bool) : CM Z :=
  let p := buf + 11 in
  st p 0 ;;;
  let p := p - 1 in
  if base =? 0 then cabort
  else
    let sign_p := signed_p && (x <? 0) in
    let u := if sign_p then to_u64 (to_u64 (- (x + 1)) + 1) else to_u64 x in
    p <- ntoab_loop fuel p u base ;;
    if (sign_p : bool) then
      c <- ld (p + 1) ;;
      if negb (c =? 48) then st p 45 ;;; cret (p - 1 + 1) else cret (p + 1)
    else cret (p + 1).

(** lib/mes/itoa.c:23-27 ([x] an int), lib/mes/ltoa.c, lib/mes/utoa.c, lib/mes/ultoa.c, lib/mes/ltoab.c;
    arguments are converted to the parameter types *)
Definition itoa (fuel : nat) (buf x : Z) : CM Z := ntoab fuel buf x 10 true.
Definition ltoa (fuel : nat) (buf x : Z) : CM Z := ntoab fuel buf x 10 true.
Definition utoa (fuel : nat) (buf x : Z) : CM Z := ntoab fuel buf x 10 false.
Definition ultoa (fuel : nat) (buf x : Z) : CM Z := ntoab fuel buf (to_s64 x) 10 true.
Definition ltoab (fuel : nat) (buf x base : Z) : CM Z := ntoab fuel buf x (to_u32 base) true.

(** lib/ctype/isnumber.c:23-34: for another base no value is returned, and
    using it is undefined *)
Definition isnumber (c base : Z) : CM bool :=
  if base =? 2 then cret ((48 <=? c) && (c <=? 49))
  else if base =? 8 then cret ((48 <=? c) && (c <=? 55))
  else if base =? 10 then cret (c_isdigit c)
  else if base =? 16 then cret (c_isxdigit c)
  else cub.

(** lib/mes/abtol.c:33-34 *)
Fixpoint skip_space (fuel : nat) (s : Z) : CM Z :=
  match fuel with
  | O => cfuel
  | S f => c <- ld s ;; if c_isspace c then skip_space f (s + 1) else cret s
  end.
(** lib/mes/abtol.c:42-49: [i] and [m] are [int]s, and [m] keeps its value
    from one turn to the next.  Result: (i, s) *)
Fixpoint abtol_loop (fuel : nat) (s i m base : Z) : CM (Z * Z) :=
  match fuel with
  | O => cfuel
  | S f =>
      c <- ld s ;;
      n <- isnumber c base ;;
      if (n : bool) then
        i1 <- c_int (i * base) ;;
        let m' := if 57 <? c then 97 - 10 else m in
        i2 <- c_int (i1 + c) ;;
        i3 <- c_int (i2 - m') ;;
        abtol_loop f (s + 1) i3 m' base
      else cret (i, s)
  end.
(** lib/mes/abtol.c:24-55: the number and the new [p[0]] *)
Definition abtol (fuel : nat) (s base : Z) : CM (Z * Z) :=
  let base := if base =? 0 then 10 else base in
  s <- skip_space fuel s ;;
  c <- ld s ;;
  let s := if negb (c =? 0) && (c =? 43) then s + 1 else s in
  c <- ld s ;;
  let sign_p := negb (c =? 0) && (c =? 45) in
  let s := if sign_p then s + 1 else s in
  r <- abtol_loop fuel s 0 48 base ;;
  if (sign_p : bool) then v <- c_int (- fst r) ;; cret (v, snd r) else cret r.

(** lib/stdlib/atoi.c:23-28 *)
Definition atoi (fuel : nat) (s : Z) : CM Z := r <- abtol fuel s 0 ;; cret (fst r).

(** lib/stdlib/strtol.c:25-40: the number and the tail pointer.  The
    comparison [strncmp (string, "0x", 2)] is written out: it looks at the
    second character only if the first is '0' *)
Definition strtol (fuel : nat) (s base : Z) : CM (Z * Z) :=
  c <- ld s ;;
  if c =? 48 then
    d <- ld (s + 1) ;;
    if d =? 120 then abtol fuel (s + 2) 16 else abtol fuel s base
  else abtol fuel s base.
