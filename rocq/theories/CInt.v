(** Machine integers of the x86_64 gcc build (LP64): ranges and conversions.
    [long] is 64 bit two's complement, [int] is 32 bit, [char] is signed. *)
From Coq Require Import ZArith Lia Bool List.
From Coq Require Import ZifyBool.
Import ListNotations.
Open Scope Z_scope.

Definition LONG_MIN : Z := -9223372036854775808.
Definition LONG_MAX : Z := 9223372036854775807.
Definition INT_MIN : Z := -2147483648.
Definition INT_MAX : Z := 2147483647.
Definition two64 : Z := 18446744073709551616.
Definition two32 : Z := 4294967296.

Definition in_long (z : Z) : bool := (LONG_MIN <=? z) && (z <=? LONG_MAX).
Definition in_int (z : Z) : bool := (INT_MIN <=? z) && (z <=? INT_MAX).
Definition in_u64 (z : Z) : bool := (0 <=? z) && (z <? two64).
Definition in_byte (z : Z) : bool := (0 <=? z) && (z <? 256).

(** conversion to [size_t]/[unsigned long]: C11 6.3.1.3p2 *)
Definition to_u64 (z : Z) : Z := z mod two64.
(** conversion to [unsigned] *)
Definition to_u32 (z : Z) : Z := z mod two32.
(** conversion to [long]: gcc's implementation-defined wrap-around *)
Definition to_s64 (z : Z) : Z := (z + 9223372036854775808) mod two64 - 9223372036854775808.
(** conversion to [int] *)
Definition to_s32 (z : Z) : Z := (z + 2147483648) mod two32 - 2147483648.
(** a stored byte (0..255) read back through a signed [char] *)
Definition to_schar (z : Z) : Z := (z + 128) mod 256 - 128.
(** the byte stored when an integer is assigned to a [char] *)
Definition to_byte (z : Z) : Z := z mod 256.

Lemma in_long_spec z : in_long z = true <-> LONG_MIN <= z <= LONG_MAX.
Proof. unfold in_long; lia. Qed.
Lemma in_int_spec z : in_int z = true <-> INT_MIN <= z <= INT_MAX.
Proof. unfold in_int; lia. Qed.

Ltac Zify.zify_post_hook ::= Z.div_mod_to_equations.

Lemma to_s64_id z : in_long z = true -> to_s64 z = z.
Proof. unfold in_long, to_s64, LONG_MIN, LONG_MAX, two64. lia. Qed.
Lemma to_u64_id z : 0 <= z < two64 -> to_u64 z = z.
Proof. unfold to_u64. intros; apply Z.mod_small; lia. Qed.
Lemma to_s32_id z : in_int z = true -> to_s32 z = z.
Proof. unfold in_int, to_s32, INT_MIN, INT_MAX, two32. lia. Qed.
Lemma to_s32_range z : in_int (to_s32 z) = true.
Proof. unfold in_int, to_s32, INT_MIN, INT_MAX, two32. lia. Qed.
Lemma to_s64_range z : in_long (to_s64 z) = true.
Proof. unfold in_long, to_s64, LONG_MIN, LONG_MAX, two64. lia. Qed.
Lemma to_byte_range z : 0 <= to_byte z < 256.
Proof. unfold to_byte. lia. Qed.
Lemma to_schar_byte b : 0 <= b < 256 -> to_byte (to_schar b) = b.
Proof. unfold to_byte, to_schar. lia. Qed.
Lemma to_byte_id b : 0 <= b < 256 -> to_byte b = b.
Proof. unfold to_byte. lia. Qed.
