(** What ISO C says formatted output prints, for the directives the library gets right. *)
From stdpp Require Import base gmap list.
From Coq Require Import ZArith.
From Verif Require Import CInt LibSpec PropsNum.
Open Scope Z_scope.

(** a width or precision: not there, a number, or '*' *)
Inductive number := Absent | Fixed (n : Z) | Star.
(** %[-][0][width][.precision][l][l][l]conversion *)
Record conversion := Conversion {
  left : bool; zero : bool; width : number; precision : number; ells : nat; letter : Z }.
Inductive piece :=
| Plain (c : Z)
| Percent
| Convert (v : conversion).

(** ** how a piece is written.  Characters: % 37, - 45, 0 48, * 42, . 46, l 108 *)
Definition number_text (n : number) (t : list Z) : Prop :=
  match n with
  | Absent => t = []
  | Fixed n => numeral 10 t n /\ n <= 2147483560
  | Star => t = [42]
  end.
Definition width_text (v : conversion) (t : list Z) : Prop :=
  number_text (width v) t /\
  (** a leading zero is a flag *)
  (forall n, width v = Fixed n -> 0 < n) /\
  (** "%0*d" is not understood: C31_zero_star_refuted *)
  (zero v = true -> width v <> Star).
Definition precision_text (v : conversion) (t : list Z) : Prop :=
  match precision v with Absent => t = [] | n => exists t', t = 46 :: t' /\ number_text n t' end.
Inductive piece_text : piece -> list Z -> Prop :=
| text_plain c : 0 < c < 256 -> c <> 37 -> piece_text (Plain c) [c]
| text_percent : piece_text Percent [37; 37]
| text_convert v w p :
    width_text v w -> precision_text v p -> (ells v <= 3)%nat ->
    letter v ∈ [99; 100; 105; 111; 117; 120; 88; 115] ->
    piece_text (Convert v)
      (37 :: (if left v then [45] else []) ++ (if zero v then [48] else []) ++ w ++ p ++
       replicate (ells v) 108 ++ [letter v]).

(** ** what a piece prints *)

(** the value of a width or precision, and the arguments left *)
Inductive resolves : number -> list Z -> option Z -> list Z -> Prop :=
| resolve_absent args : resolves Absent args None args
| resolve_fixed n args : resolves (Fixed n) args (Some n) args
| resolve_star a args : 0 <= a <= INT_MAX -> resolves Star (a :: args) (Some a) args.

(** at least [w] characters: blanks — or zeros — before it, or blanks after it *)
Definition field (left zero : bool) (w : option Z) (body : list Z) : list Z :=
  let fill c := replicate (Z.to_nat (default 0 w) - length body) c in
  if left then body ++ fill 32 else if zero then fill 48 ++ body else fill 32 ++ body.

(** d i: decimal, o: octal, u: decimal unsigned, x X: hexadecimal unsigned *)
Definition radix (c : Z) : Z := if c =? 111 then 8 else if (c =? 120) || (c =? 88) then 16 else 10.
Definition unsigned (c : Z) : bool := (c =? 117) || (c =? 120) || (c =? 88).
Definition capital (c : Z) : Z := if (97 <=? c) && (c <=? 122) then c - 32 else c.
Definition number_body (c x : Z) (p : option Z) (body : list Z) : Prop :=
  exists ds, text (radix c) ds (if unsigned c then x mod 2 ^ 64 else x) /\
    (** longer ones overrun the library's own buffer: C26_format_overruns *)
    (length ds <= 11)%nat /\
    let ds := if c =? 88 then map capital ds else ds in
    body = replicate (Z.to_nat (default 0 p) - length ds) 48 ++ ds.

(** [renders m free piece args bytes args']: with these arguments the piece prints these
    bytes, and leaves those arguments.  [free] tells which strings may be printed *)
Inductive renders (m : gmap Z Z) (free : Z -> nat -> Prop) : piece -> list Z -> list Z -> list Z -> Prop :=
| render_plain c args : renders m free (Plain c) args [c] args
| render_percent args : renders m free Percent args [37] args
| render_char v a args :
    letter v = 99 -> left v = false -> zero v = false -> width v = Absent -> precision v = Absent ->
    renders m free (Convert v) (a :: args) [a mod 256] args
| render_number v args w args1 p x args' body :
    letter v ∈ [100; 105; 111; 117; 120; 88] ->
    resolves (width v) args w args1 -> resolves (precision v) args1 p (x :: args') ->
    number_body (letter v) x p body ->
    in_long x = true ->
    (** where the code agrees with C *)
    (forall n, p = Some n -> left v = false /\ zero v = false /\ 0 <= x /\ length body = Z.to_nat n) ->
    (zero v = true -> left v = false /\ (0 <= x \/ unsigned (letter v) = true)) ->
    (letter v = 111 -> 0 <= x) ->
    renders m free (Convert v) args (field (left v) (zero v) w body) args'
| render_string v args w args1 p a args' s :
    letter v = 115 -> zero v = false ->
    resolves (width v) args w args1 -> resolves (precision v) args1 p (a :: args') ->
    a <> 0 -> cstr m a s -> free a (length s) ->
    (** where the code agrees with C *)
    (left v = false -> forall n, p = Some n -> n <= Z.of_nat (length s) \/ default 0 w <= Z.of_nat (length s)) ->
    renders m free (Convert v) args
      (field (left v) false w (match p with Some n => take (Z.to_nat n) s | None => s end)) args'.

Inductive renders_all (m : gmap Z Z) (free : Z -> nat -> Prop) : list piece -> list Z -> list Z -> Prop :=
| render_nil args : renders_all m free [] args []
| render_cons x xs args bs args' bs' :
    renders m free x args bs args' -> renders_all m free xs args' bs' ->
    renders_all m free (x :: xs) args (bs ++ bs').
