(** What formatted output to a file prints: FmtSpec.v, except for strings with a precision, where
    vfprintf and vsnprintf follow ISO C in different cases. *)
From stdpp Require Import base gmap list.
From Coq Require Import ZArith.
From Verif Require Import CInt LibSpec PropsNum FmtSpec.
Open Scope Z_scope.

(** [frenders m free piece args bytes args']: with these arguments the piece prints these bytes,
    and leaves those arguments *)
Inductive frenders (m : gmap Z Z) (free : Z -> nat -> Prop) : piece -> list Z -> list Z -> list Z -> Prop :=
| frender_other x args bs args' :
    (forall v, x = Convert v -> letter v <> 115) -> renders m free x args bs args' -> frenders m free x args bs args'
| frender_string v args w args1 p a args' s :
    letter v = 115 -> zero v = false ->
    resolves (width v) args w args1 -> resolves (precision v) args1 p (a :: args') ->
    a <> 0 -> cstr m a s -> free a (length s) ->
    (** where the code agrees with C *)
    (left v = false -> forall n, p = Some n -> n <= Z.of_nat (length s) \/ n <= default 0 w) ->
    frenders m free (Convert v) args
      (field (left v) false w (match p with Some n => take (Z.to_nat n) s | None => s end)) args'.

Inductive frenders_all (m : gmap Z Z) (free : Z -> nat -> Prop) : list piece -> list Z -> list Z -> Prop :=
| frender_nil args : frenders_all m free [] args []
| frender_cons x xs args bs args' bs' :
    frenders m free x args bs args' -> frenders_all m free xs args' bs' ->
    frenders_all m free (x :: xs) args (bs ++ bs').
(** a second 'l' causes a message on the error output *)
Definition one_l (x : piece) : Prop := forall v, x = Convert v -> (ells v <= 1)%nat.
