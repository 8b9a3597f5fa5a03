(** What ISO C says formatted input reads, for the directives the library gets right.  Nothing here
    mentions the model's functions. *)
From stdpp Require Import base gmap list.
From Coq Require Import ZArith.
From Verif Require Import CInt LibSpec PropsNum.
Open Scope Z_scope.

(** what a conversion stores: a character, or an [int] *)
Inductive item := GotChar (b : Z) | GotInt (v : Z).
(** how it is stored: the [int] with its low byte first *)
Definition item_bytes (i : item) : list Z :=
  match i with
  | GotChar b => [b]
  | GotInt v => [v mod 256; v / 256 mod 256; v / 65536 mod 256; v / 16777216 mod 256]
  end.

(** the next directive reads a number, and skips white space itself *)
Definition number_next (t : list Z) : Prop := exists c t', t = 37 :: c :: t' /\ c ∈ [100; 105; 117].
Definition no_space (x : list Z) : Prop := match x with [] => True | c :: _ => ~ space c end.

(** [scans template input items ended]: the input up to some point is what the template asks for,
    and the conversions give these items; [ended] is true if the input ended before the template
    did.  Characters: % 37, c 99, d 100, i 105, u 117 *)
Inductive scans : list Z -> list Z -> list item -> bool -> Prop :=
| scan_done x : scans [] x [] false
| scan_blanks_left t : Forall space t -> scans t [] [] false
| scan_ended t c : c ∈ t -> ~ space c -> scans t [] [] true
| scan_plain c t x r e : c <> 37 -> ~ space c -> scans t x r e -> scans (c :: t) (c :: x) r e
(** white space stands for any white space *)
| scan_space c b t x r e : space c -> space b -> (no_space x \/ number_next t) -> scans t x r e ->
    scans (c :: t) (b :: x) r e
| scan_percent t x r e : scans t x r e -> scans (37 :: 37 :: t) (37 :: x) r e
| scan_char b t x r e : scans t x r e -> scans (37 :: 99 :: t) (b :: x) (GotChar b :: r) e
| scan_number c ws sign ds t x r e :
    c ∈ [100; 105; 117] -> Forall space ws -> sign = [] \/ sign = [43] \/ sign = [45] ->
    digits_of_base 10 ds -> ds <> [] -> ends 10 x ->
    (** with %i a leading zero means octal or hexadecimal *)
    (c = 105 -> head ds <> Some 48) ->
    (** the library has no room for larger ones: C26_parse *)
    value 10 ds <= 2147483647 - 87 ->
    scans t x r e ->
    scans (37 :: c :: t) (ws ++ sign ++ ds ++ x)
      (GotInt (if bool_decide (sign = [45]) then - value 10 ds else value 10 ds) :: r) e.

(** the result: the number of items, or EOF if the input ended before there was one *)
Definition scan_result (r : list item) (ended : bool) : Z :=
  if ended && bool_decide (r = []) then -1 else Z.of_nat (length r).

(** each item is stored at the address that belongs to it, in order; nothing else changes *)
Inductive stored : gmap Z Z -> list Z -> list item -> gmap Z Z -> Prop :=
| stored_nil m args : stored m args [] m
| stored_cons m a args i r m1 m' : patched m a (item_bytes i) m1 -> stored m1 args r m' -> stored m (a :: args) (i :: r) m'.
(** the places for the items are there, and are not part of the two strings *)
Inductive places (m : gmap Z Z) (s : Z) (ns : nat) (t : Z) (nt : nat) : list Z -> list item -> Prop :=
| places_nil args : places m s ns t nt args []
| places_cons a args i r : room m a (length (item_bytes i)) -> apart a (length (item_bytes i)) s ns -> apart a (length (item_bytes i)) t nt ->
    places m s ns t nt args r -> places m s ns t nt (a :: args) (i :: r).
