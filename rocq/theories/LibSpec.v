(** What the C library's callers see: byte arrays and strings in memory.
    Nothing here mentions the model's functions. *)
From stdpp Require Import base gmap list.
From Coq Require Import ZArith.
Open Scope Z_scope.

Definition byte (b : Z) : Prop := 0 <= b < 256.

(** the array at [p] holds exactly the bytes [bs] *)
Definition bytes_at (m : gmap Z Z) (p : Z) (bs : list Z) : Prop :=
  Forall byte bs /\ forall i b, bs !! i = Some b -> m !! (p + Z.of_nat i) = Some b.

(** the C string at [p] is [bs] *)
Definition cstr (m : gmap Z Z) (p : Z) (bs : list Z) : Prop :=
  bytes_at m p (bs ++ [0]) /\ 0 ∉ bs.

(** [n] writable bytes at [p] *)
Definition room (m : gmap Z Z) (p : Z) (n : nat) : Prop :=
  forall i, (i < n)%nat -> is_Some (m !! (p + Z.of_nat i)).

(** [m'] is [m] with the bytes [bs] written at [p] and nothing else changed *)
Definition patched (m : gmap Z Z) (p : Z) (bs : list Z) (m' : gmap Z Z) : Prop :=
  forall q, m' !! q =
    if (p <=? q) && (q <? p + Z.of_nat (length bs)) then bs !! Z.to_nat (q - p) else m !! q.

(** the ranges [p, p+n) and [q, q+k) have no byte in common *)
Definition apart (p : Z) (n : nat) (q : Z) (k : nat) : Prop :=
  p + Z.of_nat n <= q \/ q + Z.of_nat k <= p.

(** a byte read as a signed [char] *)
Definition signed (b : Z) : Z := if b <? 128 then b else b - 256.

(** [i] is the first position in [bs] holding a byte with property [P] *)
Definition first_at (P : Z -> Prop) (bs : list Z) (i : nat) : Prop :=
  (exists b, bs !! i = Some b /\ P b) /\ forall j b, (j < i)%nat -> bs !! j = Some b -> ~ P b.
Definition last_at (P : Z -> Prop) (bs : list Z) (i : nat) : Prop :=
  (exists b, bs !! i = Some b /\ P b) /\ forall j b, (i < j)%nat -> bs !! j = Some b -> ~ P b.

(** after a common prefix, [bs] continues with a byte that [R]-relates to that of [cs] *)
Definition differ (R : Z -> Z -> Prop) (bs cs : list Z) : Prop :=
  exists l x y bs' cs', bs = l ++ x :: bs' /\ cs = l ++ y :: cs' /\ R x y.
Definition signed_lt (x y : Z) : Prop := signed x < signed y.

(** [r] reports the order of [bs] and [cs]: zero for equal, negative for less, positive for greater *)
Definition orders (lt : Z -> Z -> Prop) (bs cs : list Z) (r : Z) : Prop :=
  (r = 0 <-> bs = cs) /\ (r < 0 <-> differ lt bs cs) /\ (r > 0 <-> differ lt cs bs).
