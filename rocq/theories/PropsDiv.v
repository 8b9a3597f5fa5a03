(** C25: the C library's division routines.  The specification is plain
    integer arithmetic: for unsigned operands the quotient and remainder of
    Euclidean division, for signed ones the quotient truncated toward zero
    with [a = q * b + r]. *)
From Coq Require Import ZArith Bool Lia ZifyBool ZifyNat.
From Verif Require Import CInt LibDivModel.
Open Scope Z_scope.
Ltac Zify.zify_post_hook ::= Z.div_mod_to_equations.

Definition ulong (z : Z) : Prop := 0 <= z < 2 ^ 64.
Definition slong (z : Z) : Prop := - 2 ^ 63 <= z < 2 ^ 63.

Lemma slong_in z : slong z <-> in_long z = true.
Proof. unfold slong, in_long, LONG_MIN, LONG_MAX. change (2 ^ 63) with 9223372036854775808. lia. Qed.

Lemma div_le_self a b : 0 <= a -> 0 < b -> 0 <= a / b <= a.
Proof.
  intros Ha Hb. split; [apply Z.div_pos; assumption|].
  apply Z.div_le_upper_bound; [assumption|]. rewrite <- (Z.mul_1_l a) at 1.
  apply Z.mul_le_mono_nonneg_r; lia.
Qed.

Lemma fuel_exists z : 0 <= z -> exists f, z < Z.of_nat f.
Proof. intros Hz. exists (S (Z.to_nat z)). rewrite Nat2Z.inj_succ, Z2Nat.id by exact Hz. apply Z.lt_succ_diag_r. Qed.

(** ** the bisection for the highest set bit *)
Lemma log2_small_shift D n : 0 <= n -> 0 < Z.shiftr D n -> Z.log2 D = Z.log2 (Z.shiftr D n) + n.
Proof.
  intros Hn H. destruct (Z.lt_trichotomy D 0) as [?|[->|?]].
  - pose proof (Z.shiftr_neg D n). lia.
  - rewrite Z.shiftr_0_l in H. lia.
  - rewrite Z.log2_shiftr by lia.
    assert (n <= Z.log2 D).
    { apply Z.log2_le_pow2; [lia|]. rewrite Z.shiftr_div_pow2 in H by lia.
      pose proof (Z.pow_pos_nonneg 2 n). destruct (Z.lt_ge_cases D (2 ^ n)); [|lia].
      rewrite Z.div_small in H; lia. }
    lia.
Qed.

Lemma log2i_loop_ok (k : nat) : (k <= 6)%nat -> forall i D, 0 <= i -> i + 2 ^ Z.of_nat k <= 64 ->
  0 < D < 2 ^ (2 ^ Z.of_nat k) ->
  log2i_loop (S k) (2 ^ Z.of_nat k) i D = DOk (i + Z.log2 D).
Proof.
  induction k as [|k IH]; intros Hk i D Hi Hb HD.
  - assert (D = 1) as -> by (change (2 ^ (2 ^ Z.of_nat 0)) with 2 in HD; lia).
    cbn. f_equal. lia.
  - remember (S k) as k1 eqn:Ek1. cbn [log2i_loop].
    assert (Epow : 2 ^ Z.of_nat k1 = 2 * 2 ^ Z.of_nat k).
    { subst k1. rewrite Nat2Z.inj_succ, Z.pow_succ_r; lia. }
    pose proof (Z.pow_pos_nonneg 2 (Z.of_nat k)) as Hpos.
    assert (Hpos' : 1 <= 2 ^ Z.of_nat k) by lia. clear Hpos.
    destruct (Z.leb_spec 2 (2 ^ Z.of_nat k1)); [|lia].
    assert (Eh : Z.shiftr (2 ^ Z.of_nat k1) 1 = 2 ^ Z.of_nat k).
    { rewrite Z.shiftr_div_pow2 by lia. change (2 ^ 1) with 2. rewrite Epow. lia. }
    rewrite Eh. subst k1.
    destruct (Z.ltb_spec 0 (Z.shiftr D (2 ^ Z.of_nat k))) as [Hh|Hh].
    + assert (to_u32 (i + 2 ^ Z.of_nat k) = i + 2 ^ Z.of_nat k) as ->.
      { unfold to_u32, two32. apply Z.mod_small. lia. }
      rewrite IH; [|lia..|].
      * f_equal. rewrite (log2_small_shift D (2 ^ Z.of_nat k)) by lia. lia.
      * split; [lia|]. rewrite Z.shiftr_div_pow2 by lia.
        apply Z.div_lt_upper_bound; [apply Z.pow_pos_nonneg; lia|].
        rewrite <- Z.pow_add_r by lia. rewrite Epow in HD.
        replace (2 ^ Z.of_nat k + 2 ^ Z.of_nat k) with (2 * 2 ^ Z.of_nat k) by lia. lia.
    + rewrite IH; [reflexivity|lia..|].
      split; [lia|]. rewrite Z.shiftr_div_pow2 in Hh by lia.
      pose proof (Z.pow_pos_nonneg 2 (2 ^ Z.of_nat k)).
      destruct (Z.lt_ge_cases D (2 ^ (2 ^ Z.of_nat k))); [lia|].
      assert (1 <= D / 2 ^ (2 ^ Z.of_nat k)) by (apply Z.div_le_lower_bound; lia). lia.
Qed.

Lemma log2i_ok D : 0 < D < 2 ^ 64 -> log2i D = DOk (Z.log2 D).
Proof. intros HD. unfold log2i. apply (log2i_loop_ok 6 (le_n 6) 0 D); cbn; lia. Qed.

(** ** the long division loop *)
Lemma uldiv1_loop_ok (j : nat) : forall q R d D, 0 < d -> (j <= 64)%nat ->
  ((0 < j)%nat -> D = d * 2 ^ (Z.of_nat j - 1)) ->
  0 <= q -> 0 <= R < 2 ^ Z.of_nat j * d -> R < two64 -> q * 2 ^ Z.of_nat j + R / d < two64 ->
  uldiv1_loop j q R D = (q * 2 ^ Z.of_nat j + R / d, R mod d).
Proof.
  induction j as [|j IH]; intros q R d D Hd Hj HD Hq HR HR64 Hb; cbn [uldiv1_loop].
  { change (2 ^ Z.of_nat 0) with 1 in *. rewrite Z.div_small, Z.mod_small by lia. f_equal; lia. }
  assert (Ej : Z.of_nat (S j) - 1 = Z.of_nat j) by lia.
  rewrite Ej in HD. specialize (HD ltac:(lia)).
  rewrite Nat2Z.inj_succ, Z.pow_succ_r in * by lia.
  remember (2 ^ Z.of_nat j) as P eqn:EP.
  assert (HP : 1 <= P) by (pose proof (Z.pow_pos_nonneg 2 (Z.of_nat j)); lia).
  assert (HRd : 0 <= R / d) by (apply Z.div_pos; lia).
  assert (Hq2 : to_u64 (Z.shiftl q 1) = 2 * q).
  { rewrite Z.shiftl_mul_pow2 by lia. change (2 ^ 1) with 2. rewrite (Z.mul_comm q 2). apply to_u64_id. generalize dependent (R / d). intros. nia. }
  rewrite Hq2.
  assert (Hnext : (0 < j)%nat -> Z.shiftr D 1 = d * 2 ^ (Z.of_nat j - 1)).
  { intros. rewrite Z.shiftr_div_pow2 by lia. change (2 ^ 1) with 2. rewrite HD, EP.
    replace (2 ^ Z.of_nat j) with (2 ^ (Z.of_nat j - 1) * 2).
    - rewrite Z.mul_assoc, Z.div_mul by lia. reflexivity.
    - replace (Z.of_nat j) with (Z.succ (Z.of_nat j - 1)) at 2 by lia. rewrite Z.pow_succ_r; lia. }
  destruct (Z.leb_spec D R) as [HDR|HDR].
  - assert (Elor : Z.lor (2 * q) 1 = 2 * q + 1).
    { rewrite <- Z.lxor_lor, <- Z.add_nocarry_lxor; [lia| |].
      all: apply Z.bits_inj'; intros i Hi; rewrite Z.land_spec, Z.bits_0;
        destruct (Z.eq_dec i 0) as [->|Hne];
        [rewrite Z.testbit_even_0; reflexivity|
         rewrite andb_comm; change 1 with (2 ^ 0); rewrite Z.pow2_bits_false by lia; reflexivity]. }
    rewrite Elor.
    assert (ER : to_u64 (R - D) = R - D) by (apply to_u64_id; nia).
    rewrite ER.
    assert (EQ : R / d = (R - D) / d + P).
    { replace R with ((R - D) + P * d) at 1 by (rewrite HD; lia). rewrite Z.div_add by lia. reflexivity. }
    assert (EM : R mod d = (R - D) mod d).
    { replace R with ((R - D) + P * d) at 1 by (rewrite HD; lia). rewrite Z.mod_add by lia. reflexivity. }
    rewrite (IH _ _ d).
    + rewrite EQ, EM. f_equal. nia.
    + lia. + lia. + exact Hnext. + lia. + nia. + nia. + nia.
  - rewrite (IH _ _ d).
    + f_equal. nia.
    + lia. + lia. + exact Hnext. + lia. + nia. + nia. + nia.
Qed.

Lemma uldiv1_ok N D : ulong N -> 0 < D < 2 ^ 64 -> uldiv1 N D = DOk (N / D, N mod D).
Proof.
  unfold ulong. intros HN HD. unfold uldiv1. rewrite log2i_ok by lia. cbn [dbind].
  pose proof (Z.log2_spec D ltac:(lia)) as [Hlo Hhi].
  assert (Hl : 0 <= Z.log2 D < 64) by (split; [apply Z.log2_nonneg|apply Z.log2_lt_pow2; lia]).
  assert (to_u32 (64 - Z.log2 D) = 64 - Z.log2 D) as ->.
  { unfold to_u32, two32. apply Z.mod_small. lia. }
  assert (E64 : 2 ^ 64 = 2 ^ Z.log2 D * 2 ^ (64 - Z.log2 D)).
  { rewrite <- Z.pow_add_r by lia. f_equal. lia. }
  assert (E64' : 2 ^ 64 = 2 ^ (Z.succ (Z.log2 D)) * 2 ^ (64 - Z.log2 D - 1)).
  { rewrite <- Z.pow_add_r by lia. f_equal. lia. }
  pose proof (Z.pow_pos_nonneg 2 (64 - Z.log2 D - 1)).
  pose proof (Z.pow_pos_nonneg 2 (64 - Z.log2 D)).
  rewrite (uldiv1_loop_ok _ _ _ D).
  - f_equal.
  - lia.
  - lia.
  - intros _. rewrite Z2Nat.id by lia. rewrite Z.shiftl_mul_pow2 by lia. apply to_u64_id.
    change two64 with (2 ^ 64). nia.
  - lia.
  - rewrite Z2Nat.id by lia. nia.
  - change two64 with (2 ^ 64). lia.
  - change two64 with (2 ^ 64).
    assert (N / D <= N) by (apply Z.div_le_upper_bound; nia). lia.
Qed.

Lemma shift_mask a k m : 0 <= k -> m = Z.ones k -> Z.land a m = a mod 2 ^ k /\ Z.shiftr a k = a / 2 ^ k.
Proof. intros Hk ->. split; [apply Z.land_ones; lia|apply Z.shiftr_div_pow2; lia]. Qed.

(** every pair of 64-bit words: the exact quotient and remainder, or SIGFPE for a zero divisor *)
Theorem C25_unsigned_division a b : ulong a -> ulong b ->
  uldiv a b = (if b =? 0 then DFpe else DOk (a / b, a mod b)) /\
  udiv a b = (if b =? 0 then DFpe else DOk (a / b)) /\
  umod a b = (if b =? 0 then DFpe else DOk (a mod b)).
Proof.
  intros Ha Hb.
  assert (E : uldiv a b = (if b =? 0 then DFpe else DOk (a / b, a mod b))).
  { unfold uldiv.
    destruct (Z.eqb_spec b 64) as [->|]. { destruct (shift_mask a 6 63) as [-> ->]; [lia|reflexivity|reflexivity]. }
    destruct (Z.eqb_spec b 32) as [->|]. { destruct (shift_mask a 5 31) as [-> ->]; [lia|reflexivity|reflexivity]. }
    destruct (Z.eqb_spec b 16) as [->|]. { destruct (shift_mask a 4 15) as [-> ->]; [lia|reflexivity|reflexivity]. }
    destruct (Z.eqb_spec b 8) as [->|]. { destruct (shift_mask a 3 7) as [-> ->]; [lia|reflexivity|reflexivity]. }
    destruct (Z.eqb_spec b 4) as [->|]. { destruct (shift_mask a 2 3) as [-> ->]; [lia|reflexivity|reflexivity]. }
    destruct (Z.eqb_spec b 2) as [->|]. { destruct (shift_mask a 1 1) as [-> ->]; [lia|reflexivity|reflexivity]. }
    destruct (Z.eqb_spec b 1) as [->|]. { rewrite Z.div_1_r, Z.mod_1_r. reflexivity. }
    destruct (Z.eqb_spec b 0) as [->|]; [reflexivity|].
    apply uldiv1_ok; [exact Ha|]. unfold ulong in Hb. lia. }
  split; [exact E|]. unfold udiv, umod. rewrite E. destruct (b =? 0); split; reflexivity.
Qed.

(** ** signed division *)
Lemma long_neg_ok x : slong (- x) -> long_neg x = DOk (- x).
Proof. intros H. apply slong_in in H. unfold long_neg. rewrite H. reflexivity. Qed.
Lemma long_add_ok x y : slong (x + y) -> long_add x y = DOk (x + y).
Proof. intros H. apply slong_in in H. unfold long_add. rewrite H. reflexivity. Qed.

Ltac powers := change (2 ^ 63) with 9223372036854775808 in *; change (2 ^ 64) with 18446744073709551616 in *;
  unfold LONG_MIN, LONG_MAX, two64 in *.

(** the subtraction loop for the one dividend whose absolute value is no [long] *)
Lemma ldiv_loop_ok (n : nat) : forall x a b, 2 <= b < 2 ^ 63 -> - 2 ^ 63 <= a <= 0 -> 0 <= x -> x + (- a) / b < 2 ^ 63 ->
  (- a) / b < Z.of_nat n ->
  ldiv_loop n x a b = DOk (x + (- a) / b, - ((- a) mod b)).
Proof.
  induction n as [|n IH]; intros x a b Hb Ha Hx Hxb Hn.
  { assert (0 <= (- a) / b) by (apply Z.div_pos; lia). lia. }
  assert (Hd : 0 <= (- a) / b) by (apply Z.div_pos; lia).
  cbn [ldiv_loop]. rewrite long_neg_ok by (unfold slong; powers; lia). cbn [dbind].
  destruct (Z.leb_spec a (- b)) as [Hle|Hgt].
  - assert (EQ : (- a) / b = (- (a + b)) / b + 1).
    { replace (- a) with (- (a + b) + 1 * b) by lia. rewrite Z.div_add by lia. reflexivity. }
    assert (EM : (- a) mod b = (- (a + b)) mod b).
    { replace (- a) with (- (a + b) + 1 * b) by lia. rewrite Z.mod_add by lia. reflexivity. }
    assert (0 <= (- (a + b)) / b) by (apply Z.div_pos; lia).
    rewrite long_add_ok by (unfold slong; powers; lia). cbn [dbind].
    rewrite long_add_ok by (unfold slong; powers; lia). cbn [dbind].
    rewrite IH by (powers; lia). rewrite EQ, EM. f_equal. f_equal. lia.
  - rewrite (Z.div_small (- a) b) by lia. rewrite (Z.mod_small (- a) b) by lia. f_equal. f_equal; lia.
Qed.

Lemma to_s64_pos z : 0 <= z < 2 ^ 63 -> to_s64 z = z.
Proof. intros H. apply to_s64_id, slong_in. unfold slong. powers. lia. Qed.

(** truncated division through absolute values *)
Lemma quot_abs a b : b <> 0 ->
  Z.quot a b = (if xorb (a <? 0) (b <? 0) then - (Z.abs a / Z.abs b) else Z.abs a / Z.abs b) /\
  Z.rem a b = (if a <? 0 then - (Z.abs a mod Z.abs b) else Z.abs a mod Z.abs b).
Proof.
  intros Hb.
  assert (Hq : Z.quot (Z.abs a) (Z.abs b) = Z.abs a / Z.abs b) by (apply Z.quot_div_nonneg; lia).
  assert (Hr : Z.rem (Z.abs a) (Z.abs b) = Z.abs a mod Z.abs b) by (apply Z.rem_mod_nonneg; lia).
  rewrite <- Hq, <- Hr.
  destruct (Z.ltb_spec a 0) as [Ha|Ha]; destruct (Z.ltb_spec b 0) as [Hb'|Hb']; cbn [xorb].
  - rewrite !Z.abs_neq by lia. rewrite Z.quot_opp_opp, Z.rem_opp_opp by lia. lia.
  - rewrite (Z.abs_neq a), (Z.abs_eq b) by lia. rewrite Z.quot_opp_l, Z.rem_opp_l by lia. lia.
  - rewrite (Z.abs_eq a), (Z.abs_neq b) by lia. rewrite Z.quot_opp_r, Z.rem_opp_r by lia. lia.
  - rewrite !Z.abs_eq by lia. lia.
Qed.

(** the outcome the C standard prescribes, save that the code as written also
    raises SIGFPE for the divisor LONG_MIN; [DUB] is the overflowing
    LONG_MIN / -1 *)
Definition ldiv_spec (a b : Z) : dres (Z * Z) :=
  if (b =? 0) || (b =? - 2 ^ 63) then DFpe
  else if (a =? - 2 ^ 63) && (b =? -1) then DUB
  else DOk (Z.quot a b, Z.rem a b).

Lemma ldiv_ok fuel a b : slong a -> slong b -> (2 ^ 63 < Z.of_nat fuel) -> ldiv fuel a b = ldiv_spec a b.
Proof.
  unfold slong. intros Ha Hb Hf. unfold ldiv, ldiv_spec.
  destruct (Z.eqb_spec b LONG_MIN) as [->|Hbm]. { reflexivity. }
  assert (Hbm' : (b =? - 2 ^ 63) = false) by (powers; lia). rewrite Hbm', orb_false_r.
  assert (EA : (a =? LONG_MIN) = (a =? - 2 ^ 63)) by (powers; lia). rewrite EA.
  assert (Eb : (if b <? 0 then long_neg b else DOk b) = DOk (Z.abs b)).
  { destruct (Z.ltb_spec b 0).
    - rewrite long_neg_ok by (unfold slong; powers; lia). rewrite Z.abs_neq by lia. reflexivity.
    - rewrite Z.abs_eq by lia. reflexivity. }
  rewrite Eb.
  destruct (Z.eqb_spec a (- 2 ^ 63)) as [Eam|Ham]; cbn [negb andb].
  - cbn [dbind].
    assert (Ea0 : (a <? 0) = true) by (powers; lia). rewrite Ea0.
    destruct (Z.eqb_spec (Z.abs b) 1) as [Eb1|Eb1].
    + destruct (Z.eqb_spec b 0); [lia|].
      destruct (Z.eqb_spec b (-1)) as [->|].
      * cbn. unfold long_neg. rewrite Eam. reflexivity.
      * assert (b = 1) as -> by lia. cbn. rewrite Z.quot_1_r, Z.rem_1_r. reflexivity.
    + destruct (Z.eqb_spec (Z.abs b) 0) as [Eb0|Eb0].
      { destruct (Z.eqb_spec b 0); [reflexivity|lia]. }
      destruct (Z.eqb_spec b 0); [lia|].
      destruct (Z.eqb_spec b (-1)); [lia|].
      assert (0 <= (- a) / Z.abs b <= 2 ^ 62).
      { split; [apply Z.div_pos; powers; lia|]. apply Z.div_le_upper_bound; [lia|].
        change (2 ^ 62) with 4611686018427387904. powers. nia. }
      assert (Hm : 0 <= (- a) mod Z.abs b < Z.abs b) by (apply Z.mod_pos_bound; lia).
      change (2 ^ 62) with 4611686018427387904 in *.
      rewrite ldiv_loop_ok by (powers; lia). cbn [dbind fst snd].
      destruct (quot_abs a b ltac:(lia)) as [Eq Er].
      rewrite Ea0 in Eq, Er. rewrite (Z.abs_neq a) in Eq, Er by lia.
      rewrite Eq, Er. destruct (xorb true (b <? 0)).
      * rewrite long_neg_ok by (unfold slong; powers; lia). reflexivity.
      * reflexivity.
  - assert (Ea : (if a <? 0 then long_neg a else DOk a) = DOk (Z.abs a)).
    { destruct (Z.ltb_spec a 0).
      - rewrite long_neg_ok by (unfold slong; powers; lia). rewrite Z.abs_neq by lia. reflexivity.
      - rewrite Z.abs_eq by lia. reflexivity. }
    rewrite Ea. cbn [dbind].
    rewrite !to_u64_id by (powers; lia).
    destruct (C25_unsigned_division (Z.abs a) (Z.abs b)) as (E & _).
    1,2: unfold ulong; powers; lia.
    rewrite E.
    destruct (Z.eqb_spec (Z.abs b) 0) as [Eb0|Eb0].
    { destruct (Z.eqb_spec b 0); [reflexivity|lia]. }
    destruct (Z.eqb_spec b 0); [lia|].
    cbn [dbind fst snd].
    assert (Hd : 0 <= Z.abs a / Z.abs b <= Z.abs a).
    { apply div_le_self; lia. }
    assert (Hm : 0 <= Z.abs a mod Z.abs b < Z.abs b) by (apply Z.mod_pos_bound; lia).
    rewrite !to_s64_pos by (powers; lia).
    destruct (quot_abs a b ltac:(lia)) as [Eq Er]. rewrite Eq, Er.
    destruct (xorb (a <? 0) (b <? 0)); [rewrite long_neg_ok by (unfold slong; powers; lia)|];
      cbn [dbind]; (destruct (a <? 0); [rewrite long_neg_ok by (unfold slong; powers; lia)|]); reflexivity.
Qed.

(** every pair of signed words, with the loop's fuel large enough for its at
    most 2^62 turns (so the call always ends) *)
Theorem C25_signed_division a b fuel : slong a -> slong b -> 2 ^ 63 < Z.of_nat fuel ->
  ldiv fuel a b =
    (if (b =? 0) || (b =? - 2 ^ 63) then DFpe
     else if (a =? - 2 ^ 63) && (b =? -1) then DUB
     else DOk (Z.quot a b, Z.rem a b)) /\
  (forall q r, ldiv fuel a b = DOk (q, r) ->
     idiv fuel a b = DOk q /\ imod fuel a b = DOk r /\
     a = q * b + r /\ Z.abs r < Z.abs b /\ 0 <= r * a /\ slong q /\ slong r).
Proof.
  intros Ha Hb Hf. split; [exact (ldiv_ok fuel a b Ha Hb Hf)|].
  intros q r E. unfold idiv, imod. rewrite E. cbn [dbind fst snd].
  rewrite ldiv_ok in E by assumption. unfold ldiv_spec in E.
  destruct ((b =? 0) || (b =? - 2 ^ 63)) eqn:E1; [discriminate|].
  destruct ((a =? - 2 ^ 63) && (b =? -1)) eqn:E2; [discriminate|].
  assert (b <> 0) by lia.
  injection E as <- <-. split; [reflexivity|]. split; [reflexivity|].
  pose proof (Z.quot_rem' a b). pose proof (Z.rem_bound_abs a b ltac:(lia)).
  pose proof (Z.rem_sign_mul a b ltac:(lia)).
  split; [lia|]. split; [lia|]. split; [lia|]. unfold slong in *. split; [|powers; lia].
  destruct (quot_abs a b ltac:(lia)) as [Eq _].
  assert (0 <= Z.abs a / Z.abs b <= Z.abs a).
  { apply div_le_self; lia. }
  destruct (Z.eq_dec a (- 2 ^ 63)) as [Eam|].
  - assert (b <> -1) by lia. rewrite Eq.
    destruct (Z.eq_dec (Z.abs b) 1).
    + assert (b = 1) by lia. subst b. rewrite Z.div_1_r in *.
      assert (Ea0 : (a <? 0) = true) by (powers; lia). rewrite Ea0. cbn [xorb Z.ltb Z.compare]. powers. lia.
    + assert (Z.abs a / Z.abs b < Z.abs a) by (apply Z.div_lt; powers; lia).
      destruct (xorb (a <? 0) (b <? 0)); powers; lia.
  - rewrite Eq. destruct (xorb (a <? 0) (b <? 0)); powers; lia.
Qed.

(** the quotient by the smallest [long] exists (it is 0, or 1 for itself) but
    the code raises SIGFPE for it: the full claim "exact for every nonzero
    divisor" is false of the code *)
Theorem C25_smallest_divisor_refuted :
  ~ (forall fuel a b, slong a -> slong b -> b <> 0 -> slong (Z.quot a b) -> 2 ^ 63 < Z.of_nat fuel ->
       ldiv fuel a b = DOk (Z.quot a b, Z.rem a b)).
Proof.
  intros H. destruct (fuel_exists (2 ^ 63)) as [f Hf]; [discriminate|].
  specialize (H f 5 (- 2 ^ 63)).
  assert (E : ldiv f 5 (- 2 ^ 63) = DFpe) by reflexivity.
  rewrite E in H. discriminate H; try discriminate; try exact Hf; unfold slong; powers; try lia.
Qed.

(** the hypotheses hold of unremarkable operands, and the results are the known ones *)
Example division_hypotheses_hold :
  ulong 18446744073709551615 /\ ulong 10 /\
  uldiv 18446744073709551615 10 = DOk (1844674407370955161, 5) /\
  uldiv 18446744073709551615 9223372036854775809 = DOk (1, 9223372036854775806) /\
  slong (-7) /\ slong 2 /\ ldiv 1 (-7) 2 = DOk (-3, -1) /\
  ldiv 5 (- 2 ^ 63) 4611686018427387905 = DOk (-1, -4611686018427387903).
Proof. unfold ulong, slong. powers. repeat split; try lia; vm_compute; reflexivity. Qed.

Print Assumptions C25_unsigned_division.
Print Assumptions C25_signed_division.
Print Assumptions C25_smallest_divisor_refuted.
