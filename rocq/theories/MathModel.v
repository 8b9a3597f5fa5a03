(** src/math.c, function by function.  Numbers are cells holding a [long]; the values are
    taken to be in the range of long (Forall in_long in the theorems). *)
From stdpp Require Import base gmap list.
From Coq Require Import ZArith Lia.
From Verif Require Import CInt Symbols Heap DataModel.
Import Strings.String.StringSyntax.
Open Scope Z_scope.
Open Scope mes_scope.

(** signed arithmetic on long: overflow is UB *)
Definition chk_long (z : Z) : M Z := if in_long z then ret z else ub.

(** src/math.c:40-61 greater_p *)
Fixpoint greater_loop (fuel : nat) (x n : Z) : M Z :=
  if x =? cell_nil then ret cell_t else
  match fuel with
  | O => out_of_fuel
  | S fuel' =>
      a <- car_of x ;;
      assert_number a ;;;
      i <- car x ;;
      v <- cdr_of i ;;
      if n <=? v then ret cell_f else
      d <- cdr x ;;
      greater_loop fuel' d v
  end.
Definition greater_p (fuel : nat) (x : Z) : M Z :=
  if x =? cell_nil then ret cell_t else
  a <- car_of x ;;
  assert_number a ;;;
  n <- cdr_of a ;;
  d <- cdr_of x ;;
  greater_loop fuel d n.

(** src/math.c:63-84 less_p *)
Fixpoint less_loop (fuel : nat) (x n : Z) : M Z :=
  if x =? cell_nil then ret cell_t else
  match fuel with
  | O => out_of_fuel
  | S fuel' =>
      a <- car_of x ;;
      assert_number a ;;;
      i <- car x ;;
      v <- cdr_of i ;;
      if v <=? n then ret cell_f else
      d <- cdr x ;;
      less_loop fuel' d v
  end.
Definition less_p (fuel : nat) (x : Z) : M Z :=
  if x =? cell_nil then ret cell_t else
  a <- car_of x ;;
  assert_number a ;;;
  n <- cdr_of a ;;
  d <- cdr_of x ;;
  less_loop fuel d n.

(** src/math.c:86-105 is_p: only the first argument is checked to be a number *)
Fixpoint is_loop (fuel : nat) (x n : Z) : M Z :=
  if x =? cell_nil then ret cell_t else
  match fuel with
  | O => out_of_fuel
  | S fuel' =>
      i <- car x ;;
      v <- cdr_of i ;;
      if v =? n then d <- cdr x ;; is_loop fuel' d n else ret cell_f
  end.
Definition is_p (fuel : nat) (x : Z) : M Z :=
  if x =? cell_nil then ret cell_t else
  a <- car_of x ;;
  assert_number a ;;;
  n <- cdr_of a ;;
  d <- cdr x ;;
  is_loop fuel d n.

(** the loops of minus, plus, multiply, logand, logior, logxor:
    while (x != cell_nil) { i = car (x); assert_number (i); v = i->value; n = op (n, v); x = cdr (x); } *)
Fixpoint num_loop (op : Z -> Z -> M Z) (fuel : nat) (x n : Z) : M Z :=
  if x =? cell_nil then ret n else
  match fuel with
  | O => out_of_fuel
  | S fuel' =>
      i <- car x ;;
      assert_number i ;;;
      v <- cdr_of i ;;
      n <- op n v ;;
      d <- cdr x ;;
      num_loop op fuel' d n
  end.

(** src/math.c:107-126 minus *)
Definition minus (fuel : nat) (x : Z) : M Z :=
  a <- car_of x ;;
  assert_number a ;;;
  n <- cdr_of a ;;
  x <- cdr x ;;
  n <- (if x =? cell_nil then chk_long (- n) else ret n) ;;
  n <- num_loop (fun n v => chk_long (n - v)) fuel x n ;;
  make_number n.

(** src/math.c:128-143 plus *)
Definition plus (fuel : nat) (x : Z) : M Z :=
  n <- num_loop (fun n v => chk_long (n + v)) fuel x 0 ;; make_number n.

(** src/math.c:215-230 multiply *)
Definition multiply (fuel : nat) (x : Z) : M Z :=
  n <- num_loop (fun n v => chk_long (n * v)) fuel x 1 ;; make_number n.

(** src/math.c:232-247 logand, 249-264 logior, 274-289 logxor *)
Definition logand (fuel : nat) (x : Z) : M Z :=
  n <- num_loop (fun n v => ret (Z.land n v)) fuel x (-1) ;; make_number n.
Definition logior (fuel : nat) (x : Z) : M Z :=
  n <- num_loop (fun n v => ret (Z.lor n v)) fuel x 0 ;; make_number n.
Definition logxor (fuel : nat) (x : Z) : M Z :=
  n <- num_loop (fun n v => ret (Z.lxor n v)) fuel x 0 ;; make_number n.

(** src/math.c:266-272 lognot *)
Definition lognot (x : Z) : M Z :=
  assert_number x ;;; v <- cdr_of x ;; make_number (Z.lnot v).

(** src/math.c:145-186 divide; [u] and [w] are size_t *)
Fixpoint divide_loop (fuel : nat) (x : Z) (sign_p : bool) (u : Z) : M (bool * Z) :=
  if x =? cell_nil then ret (sign_p, u) else
  match fuel with
  | O => out_of_fuel
  | S fuel' =>
      i <- car x ;;
      assert_number i ;;;
      v <- cdr_of i ;;
      let sign_p := (sign_p && (0 <? v)) || (negb sign_p && (v <? 0)) in
      let w := to_u64 v in
      (if v =? 0 then y <- cstring_to_symbol fuel (bytes_of "divide-by-zero") ;; error y x else ret tt) ;;;
      if u =? 0 then ret (sign_p, u) else
      let u := if w =? 1 then u else u / w in
      d <- cdr x ;;
      divide_loop fuel' d sign_p u
  end.
Definition divide (fuel : nat) (x : Z) : M Z :=
  nx <- (if x =? cell_nil then ret (1, x) else
         i <- car x ;;
         assert_number i ;;;
         v <- cdr_of i ;;
         d <- cdr x ;;
         ret (v, d)) ;;
  let n := fst nx in
  su <- (if n <? 0 then m <- chk_long (- n) ;; ret (true, to_u64 m) else ret (false, to_u64 n)) ;;
  r <- divide_loop fuel (snd nx) (fst su) (snd su) ;;
  let n := to_s64 (snd r) in
  n <- (if fst r : bool then chk_long (- n) else ret n) ;;
  make_number n.

(** src/math.c:188-213 modulo; [w] and [u] are size_t, [n + w] is computed in size_t *)
Fixpoint modulo_loop (fuel : nat) (n w : Z) : M Z :=
  if n <? 0 then
    match fuel with
    | O => out_of_fuel
    | S fuel' => modulo_loop fuel' (to_s64 (to_u64 (to_u64 n + w))) w
    end
  else ret n.
Definition modulo (fuel : nat) (a b : Z) : M Z :=
  assert_number a ;;;
  assert_number b ;;;
  n <- cdr_of a ;;
  v <- cdr_of b ;;
  (if v =? 0 then y <- cstring_to_symbol fuel (bytes_of "divide-by-zero") ;; error y a else ret tt) ;;;
  w <- (if v <? 0 then m <- chk_long (- v) ;; ret (to_u64 m) else ret (to_u64 v)) ;;
  n <- modulo_loop fuel n w ;;
  let u := to_u64 n in
  let u := if u =? 0 then u else u mod w in
  let n := to_s64 u in
  n <- (if v <? 0 then chk_long (- n) else ret n) ;;
  make_number n.

(** src/math.c:291-305 ash; >> of a negative long is gcc's arithmetic shift, << wraps (gcc);
    a shift count outside 0..63 is UB *)
Definition ash (n count : Z) : M Z :=
  assert_number n ;;;
  assert_number count ;;;
  cn <- cdr_of n ;;
  ccount <- cdr_of count ;;
  r <- (if ccount <? 0 then
          k <- chk_long (- ccount) ;; if k <? 64 then ret (Z.shiftr cn k) else ub
        else if ccount <? 64 then ret (to_s64 (Z.shiftl cn ccount)) else ub) ;;
  make_number r.
