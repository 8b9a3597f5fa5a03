(** Model of the C library's integer division, /repo/lib/mes/div.c: the code
    that mescc-compiled programs and the mes library call for [/] and [%] on
    targets without a divide instruction.  [unsigned long] is 64 bits. *)
From Coq Require Import ZArith Bool.
From Verif Require Import CInt.
Open Scope Z_scope.

(** what a call can do: return, raise SIGFPE (modelled as the end of the call:
    a handler that returns is outside the model), meet undefined behaviour
    (signed overflow), or exceed the fuel of the model's loops *)
Inductive dres (A : Type) : Type :=
| DOk (a : A)
| DFpe
| DUB
| DFuel.
Arguments DOk {A}. Arguments DFpe {A}. Arguments DUB {A}. Arguments DFuel {A}.

(** [-x] on [long] *)
Definition long_neg (x : Z) : dres Z := if in_long (- x) then DOk (- x) else DUB.
(** [x + y] on [long] *)
Definition long_add (x y : Z) : dres Z := if in_long (x + y) then DOk (x + y) else DUB.

Definition dbind {A B} (m : dres A) (k : A -> dres B) : dres B :=
  match m with DOk a => k a | DFpe => DFpe | DUB => DUB | DFuel => DFuel end.
Notation "'let!' x := m 'in' k" := (dbind m (fun x => k)) (at level 200, x name, m at level 100, k at level 200).

(** lib/mes/div.c:74-87, the loop of [__mesabi_log2i]; [n] and [i] are
    [unsigned int]; shift counts stay below 64 *)
Fixpoint log2i_loop (fuel : nat) (n i D : Z) : dres Z :=
  match fuel with
  | O => DFuel
  | S fuel' =>
      if 2 <=? n then
        let n' := Z.shiftr n 1 in
        let D1 := Z.shiftr D n' in
        if 0 <? D1 then log2i_loop fuel' n' (to_u32 (i + n')) D1
        else log2i_loop fuel' n' i D
      else DOk i
  end.

(** lib/mes/div.c:68-89 *)
Definition log2i (D : Z) : dres Z := log2i_loop 7 64 0 D.

(** lib/mes/div.c:151-159, the loop of [__mesabi_uldiv1]; [j] counts down to 0 *)
Fixpoint uldiv1_loop (j : nat) (quotient R D : Z) : Z * Z :=
  match j with
  | O => (quotient, R)
  | S j' =>
      let q2 := to_u64 (Z.shiftl quotient 1) in
      if D <=? R then uldiv1_loop j' (Z.lor q2 1) (to_u64 (R - D)) (Z.shiftr D 1)
      else uldiv1_loop j' q2 R (Z.shiftr D 1)
  end.

(** lib/mes/div.c:143-162; a shift by 64 or more (only for D = 0 with no bit
    set would [j - 1] be 63, never more) does not arise *)
Definition uldiv1 (N D : Z) : dres (Z * Z) :=
  let! l := log2i D in
  let j := to_u32 (64 - l) in
  DOk (uldiv1_loop (Z.to_nat j) 0 N (to_u64 (Z.shiftl D (j - 1)))).

(** lib/mes/div.c:190-226: quotient and remainder *)
Definition uldiv (a b : Z) : dres (Z * Z) :=
  if b =? 64 then DOk (Z.shiftr a 6, Z.land a 63)
  else if b =? 32 then DOk (Z.shiftr a 5, Z.land a 31)
  else if b =? 16 then DOk (Z.shiftr a 4, Z.land a 15)
  else if b =? 8 then DOk (Z.shiftr a 3, Z.land a 7)
  else if b =? 4 then DOk (Z.shiftr a 2, Z.land a 3)
  else if b =? 2 then DOk (Z.shiftr a 1, Z.land a 1)
  else if b =? 1 then DOk (a, 0)
  else if b =? 0 then DFpe
  else uldiv1 a b.

(** lib/mes/div.c:265-267, the loop for [a == LONG_MIN]: (x, a) at its end *)
Fixpoint ldiv_loop (fuel : nat) (x a b : Z) : dres (Z * Z) :=
  match fuel with
  | O => DFuel
  | S fuel' =>
      let! nb := long_neg b in
      if a <=? nb then
        let! x' := long_add x 1 in
        let! a' := long_add a b in
        ldiv_loop fuel' x' a' b
      else DOk (x, a)
  end.

(** lib/mes/div.c:231-274: quotient and remainder.  [uldiv] takes and
    returns [unsigned long]; the stores to the [long] fields convert *)
Definition ldiv (fuel : nat) (a b : Z) : dres (Z * Z) :=
  let negate_result := xorb (a <? 0) (b <? 0) in
  if b =? LONG_MIN then DFpe
  else if negb (a =? LONG_MIN) then
    let negative_a := a <? 0 in
    let! a' := (if negative_a then long_neg a else DOk a) in
    let! b' := (if b <? 0 then long_neg b else DOk b) in
    let! qr := uldiv (to_u64 a') (to_u64 b') in
    let quot := to_s64 (fst qr) in
    let rem := to_s64 (snd qr) in
    let! quot' := (if negate_result then long_neg quot else DOk quot) in
    let! rem' := (if negative_a then long_neg rem else DOk rem) in
    DOk (quot', rem')
  else
    let! b' := (if b <? 0 then long_neg b else DOk b) in
    if b' =? 1 then
      let! quot := (if negb negate_result then long_neg a else DOk a) in
      DOk (quot, 0)
    else if b' =? 0 then DFpe
    else
      let! xa := ldiv_loop fuel 0 a b' in
      let! quot := (if negate_result then long_neg (fst xa) else DOk (fst xa)) in
      DOk (quot, snd xa).

(** lib/mes/div.c:276-282 *)
Definition imod (fuel : nat) (a b : Z) : dres Z := let! r := ldiv fuel a b in DOk (snd r).
(** lib/mes/div.c:284-290 *)
Definition idiv (fuel : nat) (a b : Z) : dres Z := let! r := ldiv fuel a b in DOk (fst r).
(** lib/mes/div.c:292-298 *)
Definition umod (a b : Z) : dres Z := let! r := uldiv a b in DOk (snd r).
(** lib/mes/div.c:300-305 *)
Definition udiv (a b : Z) : dres Z := let! r := uldiv a b in DOk (fst r).
