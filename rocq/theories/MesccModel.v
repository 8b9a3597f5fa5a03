(** Encodings of numbers in the compiler MesCC, run by the interpreter: module/mescc/as.scm,
    module/mescc/bytevectors.scm, and number->string, remainder, abs of
    mes/module/mes/scm.mes.

    The Scheme text is transcribed into calls of the builtins' models, in the order in which
    the evaluator makes them; that the evaluator makes these calls is not proved here (C35 is
    about the evaluator).  Literals are fresh number cells; a call of a builtin with any
    number of arguments gets a fresh list of them. *)
From stdpp Require Import base gmap list.
From Coq Require Import ZArith.
From Verif Require Import CInt Symbols Heap DataModel MathModel.
Import Strings.String.StringSyntax.
Open Scope Z_scope. Open Scope mes_scope.

(** the evaluator's argument lists (src/eval-apply.c:429-442 evlis) *)
Definition call1 (f : Z -> M Z) (a : Z) : M Z := l <- cons a cell_nil ;; f l.
Definition call2 (f : Z -> M Z) (a b : Z) : M Z := l <- cons b cell_nil ;; l <- cons a l ;; f l.

(** ** module/mescc/bytevectors.scm *)

(** [(modulo (ash value -k) #x100)]; the lowest byte is not shifted *)
Definition byte_at (fuel : nat) (value k : Z) : M Z :=
  x <- (if k =? 0 then ret value else c <- make_number (- k) ;; ash value c) ;;
  m <- make_number 256 ;;
  modulo fuel x m.
(** [(list (modulo value #x100) (modulo (ash value -8) #x100) ...)]: [n] bytes from bit [k] on *)
Fixpoint byte_list (fuel n : nat) (value k : Z) : M Z :=
  match n with
  | O => ret cell_nil
  | S n' => b <- byte_at fuel value k ;; l <- byte_list fuel n' value (k + 8) ;; cons b l
  end.
(** mes/module/mes/scm.mes:142-146 make-list, with 0 (bytevectors.scm:73-74 make-bytevector) *)
Fixpoint make_list (n : nat) (fill : Z) : M Z :=
  match n with O => ret cell_nil | S n' => l <- make_list n' fill ;; cons fill l end.
Definition make_bytevector (n : nat) : M Z := z <- make_number 0 ;; make_list n z.

(** bytevectors.scm:31-65: bytevector-u64-native-set!, -u32-, -u16-, for index 0 (the only one
    as.scm uses) *)
Definition native_set (fuel n : nat) (bv value : Z) : M Z :=
  x <- byte_list fuel n value 0 ;;
  a <- car x ;; set_car_x fuel bv a ;;;
  d <- cdr x ;; set_cdr_x fuel bv d ;;;
  ret x.
(** bytevectors.scm:67-71: bytevector-u8-set! *)
Definition u8_set (fuel : nat) (bv value : Z) : M Z :=
  x <- byte_at fuel value 0 ;; set_car_x fuel bv x ;;; ret x.

(** as.scm:36-54: int->bv64, int->bv32, int->bv16 ([n] = 8, 4, 2), int->bv8 *)
Definition int_to_bv (fuel n : nat) (value : Z) : M Z :=
  bv <- make_bytevector n ;; native_set fuel n bv value ;;; ret bv.
Definition int_to_bv8 (fuel : nat) (value : Z) : M Z :=
  bv <- make_bytevector 1 ;; u8_set fuel bv value ;;; ret bv.

(** ** mes/module/mes/scm.mes *)

(** scm.mes:322-324, 351-352: [(if (>= x 0) x (- x))]; [>=] is [(or (apply > rest) (apply = rest))] *)
Definition scm_abs (fuel : nat) (x : Z) : M Z :=
  z <- make_number 0 ;;
  rest <- cons z cell_nil ;; rest <- cons x rest ;;
  r <- greater_p fuel rest ;;
  r <- (if r =? cell_f then is_p fuel rest else ret r) ;;
  if r =? cell_f then call1 (minus fuel) x else ret x.
(** scm.mes:316, 326-327: x minus (quotient x y) times y *)
Definition remainder (fuel : nat) (x y : Z) : M Z :=
  q <- call2 (divide fuel) x y ;; p <- call2 (multiply fuel) q y ;; call2 (minus fuel) x p.

(** scm.mes:266-267: the character of a digit *)
Definition digit_char (fuel : nat) (i : Z) : M Z :=
  ten <- make_number 10 ;;
  b <- call2 (less_p fuel) i ten ;;
  off <- (if b =? cell_f then a <- make_number 97 ;; t <- make_number 10 ;; call2 (minus fuel) a t
          else make_number 48) ;;
  c <- call2 (plus fuel) i off ;;
  integer_to_char c.
(** scm.mes:264-270: the named let [loop]; [k]: its number of turns *)
Fixpoint digits_loop (fuel k : nat) (n lst radix : Z) : M Z :=
  match k with
  | O => out_of_fuel
  | S k' =>
      r <- remainder fuel n radix ;; i <- scm_abs fuel r ;;
      c <- digit_char fuel i ;; lst <- cons c lst ;;
      n <- call2 (divide fuel) n radix ;;
      z <- make_number 0 ;; b <- call2 (is_p fuel) z n ;;
      if b =? cell_f then digits_loop fuel k' n lst radix else ret lst
  end.
(** scm.mes:261-270 number->string; boot-0.scm:76-79 append *)
Definition number_to_string (fuel k : nat) (n radix : Z) : M Z :=
  z <- make_number 0 ;; neg <- call2 (less_p fuel) n z ;;
  sign <- (if neg =? cell_f then ret cell_nil else c <- make_char 45 ;; cons c cell_nil) ;;
  a <- scm_abs fuel n ;;
  l <- digits_loop fuel k a cell_nil radix ;;
  l <- append2 fuel sign l ;;
  list_to_string fuel l.

(** as.scm:56-59: dec->hex of a number *)
Definition dec_to_hex (fuel k : nat) (o : Z) : M Z := r <- make_number 16 ;; number_to_string fuel k o r.

(** ** module/mescc/M1.scm *)

(** string literals are fresh strings here *)
(** M1.scm:75-89: hex2:immediate, -1, -2, -4; [prefix]: "%0x", "!0x", "@0x"; hex? is #t *)
Definition hex2_immediate (fuel k : nat) (prefix : list Z) (o : Z) : M Z :=
  p <- make_string prefix ;; h <- dec_to_hex fuel k o ;; call2 (string_append fuel) p h.
(** M1.scm:93-97: hex2:immediate8; hex? is #t and mesc? is #f *)
Definition hex2_immediate8 (fuel k : nat) (o : Z) : M Z :=
  p <- make_string (bytes_of "%0x") ;;
  c <- make_number (2 ^ 32) ;; lo <- modulo fuel o c ;; h <- dec_to_hex fuel k lo ;;
  p' <- make_string (bytes_of " %0x") ;;
  z <- make_number 0 ;; neg <- call2 (less_p fuel) o z ;;
  u <- (if neg =? cell_f then
          c <- make_number (2 ^ 32) ;; q <- call2 (divide fuel) o c ;; dec_to_hex fuel k q
        else make_string (bytes_of "-1")) ;;
  l <- cons u cell_nil ;; l <- cons p' l ;; l <- cons h l ;; l <- cons p l ;;
  string_append fuel l.
