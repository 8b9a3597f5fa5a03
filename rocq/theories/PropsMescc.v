(** C40: the compiler's encodings of numbers.

    The compiler runs in the interpreter; a value is a cell that holds a number.  A result is
    found by reading the cells of the state in which the call ends, and the calls change
    nothing but fresh cells ([modifies nothing]). *)
From stdpp Require Import base gmap list fin_maps.
From Coq Require Import ZArith Lia.
From Coq Require Import ZifyBool ZifyNat.
From Verif Require Import CInt Symbols Heap HeapLemmas PropsNum.
From Verif Require Import DataModel DataSpec DataLemmas MesccModel MesccProofs Samples.
Import Strings.String.StringSyntax.
Open Scope Z_scope. Open Scope mes_scope.

(** ** specification *)

(** the number that bytes stand for, the lowest byte first *)
Fixpoint little_endian (bs : list Z) : Z :=
  match bs with [] => 0 | b :: bs' => b + 256 * little_endian bs' end.
(** two's complement in [n] bytes *)
Definition signed (n : nat) (u : Z) : Z :=
  if u <? 2 ^ (8 * Z.of_nat n - 1) then u else u - 2 ^ (8 * Z.of_nat n).
(** [bs] are the [n] bytes that encode [v] *)
Definition encodes (n : nat) (bs : list Z) (v : Z) : Prop :=
  length bs = n /\ Forall (fun b => 0 <= b < 256) bs
  /\ little_endian bs = v mod 2 ^ (8 * Z.of_nat n)
  /\ (0 <= v < 2 ^ (8 * Z.of_nat n) -> little_endian bs = v)
  /\ (- 2 ^ (8 * Z.of_nat n - 1) <= v < 2 ^ (8 * Z.of_nat n - 1) -> signed n (little_endian bs) = v).

Lemma bytes_from_encodes n : forall v, length (bytes_from n v) = n /\ Forall (fun b => 0 <= b < 256) (bytes_from n v)
  /\ little_endian (bytes_from n v) = v mod 2 ^ (8 * Z.of_nat n).
Proof.
  induction n as [|n IH]; intros v; cbn [bytes_from little_endian length].
  - split; [done|]. split; [constructor|]. by rewrite Z.mod_1_r.
  - destruct (IH (v / 256)) as (H1 & H2 & H3). split; [lia|]. split; [constructor; [lia|done]|].
    rewrite H3. replace (8 * Z.of_nat (S n)) with (8 + 8 * Z.of_nat n) by lia. rewrite Z.pow_add_r by lia.
    change (2 ^ 8) with 256. rewrite Z.rem_mul_r; [done|done|apply Z.pow_pos_nonneg; lia].
Qed.
Lemma encodes_mod n bs v : (1 <= n)%nat -> length bs = n -> Forall (fun b => 0 <= b < 256) bs ->
  little_endian bs = v mod 2 ^ (8 * Z.of_nat n) -> encodes n bs v.
Proof.
  intros Hn Hl Hb Hv. split; [done|]. split; [done|]. split; [done|]. rewrite Hv. unfold signed.
  assert (2 ^ (8 * Z.of_nat n) = 2 * 2 ^ (8 * Z.of_nat n - 1)) as E.
  { rewrite <- (Z.pow_succ_r 2) by lia. f_equal. lia. }
  assert (0 < 2 ^ (8 * Z.of_nat n - 1)) as Hp by (apply Z.pow_pos_nonneg; lia).
  rewrite E. set (h := 2 ^ (8 * Z.of_nat n - 1)) in *. clearbody h. split; [apply Z.mod_small|]. intros Hr.
  destruct (Z.le_gt_cases 0 v).
  - rewrite Z.mod_small by lia. by rewrite (proj2 (Z.ltb_lt v h)) by lia.
  - assert (v mod (2 * h) = v + 2 * h) as ->. { symmetry. apply (Z.mod_unique _ _ (-1)); lia. }
    destruct (Z.ltb_spec (v + 2 * h) h); lia.
Qed.

(** ** theorems *)

(** int->bv16, int->bv32, int->bv64: for every integer that the interpreter holds, a list of
    that many bytes, little endian, two's complement.  [fuel]: the builtin [modulo] adds the
    modulus until the number is not negative. *)
Theorem C40_int_to_bv fuel n x v s :
  n = 2%nat \/ n = 4%nat \/ n = 8%nat ->
  number_at (cells s) x v -> in_long v = true ->
  can_alloc 49 s -> cell_nil < g_free s -> - v <= 256 * Z.of_nat fuel ->
  exists r s' bs, int_to_bv fuel n x s = ROk r s' /\ extends s s' /\ numbers_at (cells s') r bs /\ encodes n bs v.
Proof.
  intros Hn Hx Hv Ha Hb Hf.
  destruct (int_to_bv_runs fuel n x v s) as (k & r & s' & Hk & E & Hm & Hr); try done; [lia|eapply can_alloc_le; [exact Ha|lia]|lia|].
  exists r, s', (bytes_from n v). split; [done|]. split; [by exists k|]. split; [done|].
  destruct (bytes_from_encodes n v) as (H1 & H2 & H3). apply encodes_mod; try done. lia.
Qed.
(** int->bv8 *)
Theorem C40_int_to_bv8 fuel x v s :
  number_at (cells s) x v -> in_long v = true ->
  can_alloc 7 s -> cell_nil < g_free s -> - v <= 256 * Z.of_nat fuel ->
  exists r s' bs, int_to_bv8 fuel x s = ROk r s' /\ extends s s' /\ numbers_at (cells s') r bs /\ encodes 1 bs v.
Proof.
  intros Hx Hv Ha Hb Hf.
  destruct (int_to_bv8_runs fuel x v s) as (k & r & s' & Hk & E & Hm & Hr); try done; [lia|].
  exists r, s', (bytes_from 1 v). split; [done|]. split; [by exists k|]. split; [done|].
  destruct (bytes_from_encodes 1 v) as (H1 & H2 & H3). by apply encodes_mod.
Qed.

(** number->string: the text of the number in any base from 2 to 36 ([text]: PropsNum) *)
Theorem C40_number_to_string fuel k x radix v b s :
  number_at (cells s) x v -> number_at (cells s) radix b -> 2 <= b <= 36 ->
  LONG_MIN < v <= LONG_MAX -> (1 <= k)%nat -> Z.abs v < b ^ Z.of_nat k -> (k + 1 < fuel)%nat ->
  Z.of_nat k + 1 < MAX_STRING s -> can_alloc (40 * Z.of_nat k + 40) s -> cell_nil < g_free s ->
  exists r s' bs, number_to_string fuel k x radix s = ROk r s' /\ extends s s'
    /\ string_at (cells s') r bs /\ text b bs v.
Proof.
  intros Hx Hr Hb Hv Hk Hvk Hf Hm Ha Hnil.
  destruct (number_to_string_runs fuel k x radix v b s) as (k' & r & s' & Hk' & E & Hmod & bs & Hs & Ht); try done; try lia.
  exists r, s', bs. split; [done|]. split; [by exists k'|]. done.
Qed.
(** dec->hex: hexadecimal *)
Theorem C40_dec_to_hex fuel x v s :
  number_at (cells s) x v -> LONG_MIN < v <= LONG_MAX -> (17 <= fuel)%nat ->
  17 < MAX_STRING s -> can_alloc 700 s -> cell_nil < g_free s ->
  exists r s' bs, dec_to_hex fuel 16 x s = ROk r s' /\ extends s s' /\ string_at (cells s') r bs /\ text 16 bs v.
Proof.
  intros Hx Hv Hf Hm Ha Hnil.
  destruct (dec_to_hex_runs fuel x v s) as (k' & r & s' & Hk' & E & Hmod & bs & Hs & _ & Ht); try done.
  { eapply can_alloc_le; [exact Ha|unfold hex_cells; lia]. }
  exists r, s', bs. split; [done|]. split; [by exists k'|]. done.
Qed.
(** hex2:immediate, hex2:immediate1, 2, 4: a mark and the number in hexadecimal *)
Theorem C40_immediate fuel x v mark s :
  mark = bytes_of "%0x" \/ mark = bytes_of "!0x" \/ mark = bytes_of "@0x" ->
  number_at (cells s) x v -> LONG_MIN < v <= LONG_MAX -> (17 <= fuel)%nat ->
  30 < MAX_STRING s -> can_alloc 800 s -> cell_nil < g_free s ->
  exists r s' bs, hex2_immediate fuel 16 mark x s = ROk r s' /\ extends s s' /\ string_at (cells s') r (mark ++ bs) /\ text 16 bs v.
Proof.
  intros Hp Hx Hv Hf Hm Ha Hnil.
  destruct (hex2_immediate_runs fuel x v mark s) as (k' & r & s' & Hk' & E & Hmod & bs & Hs & Ht); try done.
  { destruct Hp as [->|[->| ->]]; vm_compute; lia. }
  exists r, s', bs. split; [done|]. split; [by exists k'|]. done.
Qed.
(** hex2:immediate8: two 32-bit halves, the lower one first, which make up the number, if it
    is not below -2^32 *)
Theorem C40_immediate8 fuel x v s :
  number_at (cells s) x v -> - 2 ^ 32 <= v <= LONG_MAX -> (17 <= fuel)%nat ->
  60 < MAX_STRING s -> can_alloc 1600 s -> cell_nil < g_free s ->
  exists r s' h u lo hi, hex2_immediate8 fuel 16 x s = ROk r s' /\ extends s s'
    /\ string_at (cells s') r (bytes_of "%0x" ++ h ++ bytes_of " %0x" ++ u)
    /\ text 16 h lo /\ text 16 u hi /\ 0 <= lo < 2 ^ 32 /\ - 2 ^ 31 <= hi < 2 ^ 31 /\ lo + 2 ^ 32 * hi = v.
Proof.
  intros Hx Hv Hf Hm Ha Hnil. unfold LONG_MAX in Hv.
  destruct (hex2_immediate8_runs fuel x v s) as (k' & r & s' & Hk' & E & Hmod & h & u & Hs & Hh & Hu); try done.
  { unfold in_long, LONG_MIN, LONG_MAX. lia. } { lia. }
  exists r, s', h, u, (v mod 2 ^ 32), (if v <? 0 then -1 else v / 2 ^ 32). split; [done|]. split; [by exists k'|].
  split; [done|]. split; [done|]. split; [done|]. destruct (Z.ltb_spec v 0); lia.
Qed.
(** ... and for every number below that the halves make up another number, also modulo 2^64 *)
Theorem C40_immediate8_refuted fuel x v s :
  number_at (cells s) x v -> LONG_MIN <= v < - 2 ^ 32 -> (17 <= fuel)%nat -> - v <= 2 ^ 32 * Z.of_nat fuel ->
  60 < MAX_STRING s -> can_alloc 1600 s -> cell_nil < g_free s ->
  exists r s' h u lo hi, hex2_immediate8 fuel 16 x s = ROk r s'
    /\ string_at (cells s') r (bytes_of "%0x" ++ h ++ bytes_of " %0x" ++ u)
    /\ text 16 h lo /\ text 16 u hi /\ (lo + 2 ^ 32 * hi) mod 2 ^ 64 <> v mod 2 ^ 64.
Proof.
  intros Hx Hv Hf Hlf Hm Ha Hnil. unfold LONG_MIN in Hv.
  destruct (hex2_immediate8_runs fuel x v s) as (k' & r & s' & Hk' & E & Hmod & h & u & Hs & Hh & Hu); try done.
  { unfold in_long, LONG_MIN, LONG_MAX. lia. } { lia. }
  exists r, s', h, u, (v mod 2 ^ 32), (if v <? 0 then -1 else v / 2 ^ 32). split; [done|].
  split; [done|]. split; [done|]. split; [done|]. destruct (Z.ltb_spec v 0); [|lia].
  assert (v mod 2 ^ 32 + 2 ^ 32 * -1 = (v mod 2 ^ 32 - 2 ^ 32)) as -> by lia.
  pose proof (Z.mod_pos_bound v (2 ^ 32) ltac:(lia)).
  assert ((v mod 2 ^ 32 - 2 ^ 32) mod 2 ^ 64 = v mod 2 ^ 32 - 2 ^ 32 + 2 ^ 64) as -> by (symmetry; apply (Z.mod_unique _ _ (-1)); lia).
  assert (v mod 2 ^ 64 = v + 2 ^ 64) as -> by (symmetry; apply (Z.mod_unique _ _ (-1)); lia). lia.
Qed.
(** number->string of the most negative number overflows a long *)
Theorem C40_most_negative_refuted fuel k x radix s :
  number_at (cells s) x LONG_MIN -> (2 <= fuel)%nat -> can_alloc 40 s -> cell_nil < g_free s ->
  number_to_string fuel k x radix s = RUB.
Proof. intros Hx Hf Ha Hb. by apply number_to_string_min. Qed.

(** a booted interpreter meets the hypotheses, and the calls give what they say *)
Definition number_b (s : state) (p v : Z) : bool :=
  match cells s !! p with Some c => (c_ty c =? TNUMBER) && (c_cdr c =? v) | None => false end.
Lemma number_check s p v : number_b s p v = true -> number_at (cells s) p v.
Proof. unfold number_b. destruct (cells s !! p) as [c|] eqn:E; [|done]. intros H. exists c. split; [done|]. lia. Qed.
Example mescc_hypotheses_hold : exists p s,
  on_sample (make_number (-1234567)) = ROk p s /\
  number_at (cells s) p (-1234567) /\ can_alloc 1600 s /\ cell_nil < g_free s /\ 60 < MAX_STRING s
  /\ - (-1234567) <= 256 * Z.of_nat 5000 /\ encodes 4 [121; 41; 237; 255] (-1234567)
  /\ text 16 (bytes_of "-12d687") (-1234567).
Proof.
  destruct (check_res (on_sample (make_number (-1234567)))
    (fun p s => number_b s p (-1234567) && can_alloc_b 1600 s && (cell_nil <? g_free s) && (60 <? MAX_STRING s))) as (p & s & E & H).
  { vm_compute. reflexivity. }
  exists p, s. split; [exact E|]. clear E. repeat (apply andb_prop in H as [H ?]).
  split; [by apply number_check|]. split; [by apply can_alloc_check|]. split; [lia|]. split; [lia|]. split; [lia|]. split.
  - apply encodes_mod; [lia|done|repeat constructor; lia|reflexivity].
  - exists (bytes_of "12d687"). split; [done|]. split; [|split; [reflexivity|split; [done|left; done]]].
    cbn. repeat (constructor; [eexists; split; [vm_compute; reflexivity|lia]|]). constructor.
Qed.

Print Assumptions C40_int_to_bv.
Print Assumptions C40_int_to_bv8.
Print Assumptions C40_number_to_string.
Print Assumptions C40_dec_to_hex.
Print Assumptions C40_immediate.
Print Assumptions C40_immediate8.
Print Assumptions C40_immediate8_refuted.
Print Assumptions C40_most_negative_refuted.
