(** C21-C24: arithmetic of the interpreter (src/math.c). *)
From stdpp Require Import base gmap list.
From Coq Require Import ZArith Lia.
From Coq Require Import ZifyBool ZifyNat.
From Verif Require Import CInt Symbols Heap HeapLemmas DataModel DataSpec DataLemmas MathModel MathProofs Samples.
Import Strings.String.StringSyntax.
Open Scope Z_scope.
Open Scope mes_scope.

(** * C21: (> n0 n1 ...), (< n0 n1 ...), (= n0 n1 ...) *)

(** For every list of numbers: the answer is #t exactly when every number is greater than its
    successor; nothing in the heap changes. *)
Theorem C21_greater_chain fuel p ns s :
  numbers_at (heap s) p ns -> (length ns <= fuel)%nat ->
  (chain Z.gt ns -> greater_p fuel p s = ROk cell_t s) /\
  (~ chain Z.gt ns -> greater_p fuel p s = ROk cell_f s).
Proof.
  intros H Hf. destruct (greater_p_ok fuel p ns s H Hf) as (b & -> & Hb).
  destruct b; split; intros Hc; try done; [destruct Hc; by apply Hb|apply Hb in Hc; discriminate].
Qed.
Theorem C21_less_chain fuel p ns s :
  numbers_at (heap s) p ns -> (length ns <= fuel)%nat ->
  (chain Z.lt ns -> less_p fuel p s = ROk cell_t s) /\
  (~ chain Z.lt ns -> less_p fuel p s = ROk cell_f s).
Proof.
  intros H Hf. destruct (less_p_ok fuel p ns s H Hf) as (b & -> & Hb).
  destruct b; split; intros Hc; try done; [destruct Hc; by apply Hb|apply Hb in Hc; discriminate].
Qed.
Theorem C21_equal_chain fuel p ns s :
  numbers_at (heap s) p ns -> (length ns <= fuel)%nat ->
  (chain eq ns -> is_p fuel p s = ROk cell_t s) /\
  (~ chain eq ns -> is_p fuel p s = ROk cell_f s).
Proof.
  intros H Hf. destruct (is_p_ok fuel p ns s H Hf) as (b & -> & Hb).
  destruct b; split; intros Hc; try done; [destruct Hc; by apply Hb|apply Hb in Hc; discriminate].
Qed.
(** A chain over an order means every earlier number is above every later one. *)
Theorem C21_chain_is_pairwise (R : Z -> Z -> Prop) ns : (forall a b c, R a b -> R b c -> R a c) ->
  chain R ns -> forall i j a b, (i < j)%nat -> ns !! i = Some a -> ns !! j = Some b -> R a b.
Proof.
  intros Ht Hc i j a b Hij. revert a b. induction j as [|j IH]; intros a b Ha Hb; [lia|].
  destruct (decide (i = j)) as [->|Hne]; [by eapply Hc|].
  destruct (ns !! j) as [m|] eqn:Em.
  - eapply Ht; [apply IH|eapply Hc]; try done. lia.
  - apply lookup_ge_None in Em. apply lookup_lt_Some in Hb. lia.
Qed.

(** A non-number is reported with the key not-a-number, as soon as the numbers before it are in
    order (otherwise the answer is already #f). *)
Theorem C21_order_type_error fuel p vs ns s bad c rest :
  list_at (heap s) p (vs ++ bad :: rest) -> Forall2 (number_at (heap s)) vs ns ->
  heap s !! bad = Some c -> c_ty c <> TNUMBER -> (length vs < fuel)%nat ->
  (chain Z.gt ns -> greater_p fuel p s = RThrow cell_symbol_not_a_number bad s) /\
  (chain Z.lt ns -> less_p fuel p s = RThrow cell_symbol_not_a_number bad s).
Proof. apply order_type_error. Qed.

(** For = this fails: (= 97 #\a) answers #t. *)
Theorem C21_equal_type_error_refuted : exists p n c s,
  list_at (heap s) p [n; c] /\ number_at (heap s) n 97 /\ char_at (heap s) c 97 /\
  is_p 2 p s = ROk cell_t s.
Proof.
  destruct (check_res (on_sample (list_m [make_number 97; make_char 97]))
    (fun p s => match list_b 3 (heap s) p with
                | Some [n; c] => number_at_b (heap s) n 97 && char_at_b (heap s) c 97
                | _ => false end)) as (p & s & E & H).
  { vm_compute. reflexivity. }
  clear E. destruct (list_b 3 (heap s) p) as [[|n [|c [|? ?]]]|] eqn:El; try discriminate.
  apply andb_prop in H as [Hn Hc]. apply number_check in Hn. apply char_check in Hc. apply list_check in El.
  exists p, n, c, s. do 3 (split; [done|]). destruct Hc as (x & Hx & _ & Hv).
  eapply is_p_pair_value; [lia|done|done|exact Hx|done].
Qed.

(** * C22: + - * are exact as long as the results fit a long *)

(** [prefixes_fit f n ns]: all intermediate results of folding [ns] with [f] fit a long. *)
Theorem C22_plus_exact fuel p ns s :
  numbers_at (heap s) p ns -> (length ns <= fuel)%nat -> can_alloc 1 s ->
  (forall k, (k <= length ns)%nat -> in_long (foldl Z.add 0 (take k ns)) = true) ->
  exists r s', plus fuel p s = ROk r s' /\ number_at (heap s') r (foldl Z.add 0 ns) /\ extends s s'.
Proof.
  intros H Hf Ha Hp. eexists _, _. split; [by apply plus_ok|]. split; [|apply extends_with_cell].
  eexists. cbn. rewrite lookup_insert. done.
Qed.
Theorem C22_multiply_exact fuel p ns s :
  numbers_at (heap s) p ns -> (length ns <= fuel)%nat -> can_alloc 1 s ->
  (forall k, (k <= length ns)%nat -> in_long (foldl Z.mul 1 (take k ns)) = true) ->
  exists r s', multiply fuel p s = ROk r s' /\ number_at (heap s') r (foldl Z.mul 1 ns) /\ extends s s'.
Proof.
  intros H Hf Ha Hp. eexists _, _. split; [by apply multiply_ok|]. split; [|apply extends_with_cell].
  eexists. cbn. rewrite lookup_insert. done.
Qed.
Theorem C22_minus_exact fuel p n ns s :
  numbers_at (heap s) p (n :: ns) -> (length ns <= fuel)%nat -> can_alloc 1 s -> ns <> [] ->
  (forall k, (k <= length ns)%nat -> in_long (foldl Z.sub n (take k ns)) = true) ->
  exists r s', minus fuel p s = ROk r s' /\ number_at (heap s') r (foldl Z.sub n ns) /\ extends s s'.
Proof.
  intros H Hf Ha Hne Hp. eexists _, _. split; [by apply minus_ok|]. split; [|apply extends_with_cell].
  eexists. cbn. rewrite lookup_insert. done.
Qed.
Theorem C22_negate fuel p n s :
  numbers_at (heap s) p [n] -> LONG_MIN < n <= LONG_MAX -> can_alloc 1 s ->
  exists r s', minus fuel p s = ROk r s' /\ number_at (heap s') r (- n) /\ extends s s'.
Proof.
  intros H Hn Ha. eexists _, _. split; [by apply negate_ok|]. split; [|apply extends_with_cell].
  eexists. cbn. rewrite lookup_insert. done.
Qed.
(** When an intermediate result does not fit, the C expression overflows: undefined behaviour,
    never a wrong number delivered as a defined result. *)
Theorem C22_overflow_is_not_silent fuel p ns s :
  numbers_at (heap s) p ns -> (length ns <= fuel)%nat ->
  (~ (forall k, (k <= length ns)%nat -> in_long (foldl Z.add 0 (take k ns)) = true) -> plus fuel p s = RUB) /\
  (~ (forall k, (k <= length ns)%nat -> in_long (foldl Z.mul 1 (take k ns)) = true) -> multiply fuel p s = RUB).
Proof.
  intros H Hf. split; intros Hp; unfold plus, multiply, bind.
  - by rewrite (arith_loop_ub Z.add fuel p 0 ns s H Hf eq_refl Hp).
  - by rewrite (arith_loop_ub Z.mul fuel p 1 ns s H Hf eq_refl Hp).
Qed.
(** A non-number after numbers whose partial results fit is reported. *)
Theorem C22_type_error fuel p vs ns s bad c rest :
  list_at (heap s) p (vs ++ bad :: rest) -> Forall2 (number_at (heap s)) vs ns ->
  heap s !! bad = Some c -> c_ty c <> TNUMBER -> (length vs < fuel)%nat ->
  ((forall k, (k <= length ns)%nat -> in_long (foldl Z.add 0 (take k ns)) = true) ->
     plus fuel p s = RThrow cell_symbol_not_a_number bad s) /\
  ((forall k, (k <= length ns)%nat -> in_long (foldl Z.mul 1 (take k ns)) = true) ->
     multiply fuel p s = RThrow cell_symbol_not_a_number bad s).
Proof.
  intros Hl Hf Hb Ht Hfu. split; intros Hp; unfold plus, multiply, bind;
    erewrite num_loop_type_error; try done; cbv beta;
    intros k m v Hk ->; apply chk_long_ok;
    specialize (Hp (S k)); erewrite take_S_r in Hp by done; rewrite foldl_app in Hp; apply Hp;
    by apply lookup_lt_Some in Hk.
Qed.

(** * C23: quotient (the builtin [/]) and modulo *)

Theorem C23_divide_positive fuel p n ns s :
  numbers_at (heap s) p (n :: ns) -> (length ns <= fuel)%nat -> can_alloc 1 s ->
  Forall (fun v => 0 < v <= LONG_MAX) ns -> LONG_MIN < n <= LONG_MAX ->
  exists r s', divide fuel p s = ROk r s' /\ number_at (heap s') r (foldl Z.quot n ns) /\ extends s s'.
Proof.
  intros H Hf Ha HF Hn. eexists _, _. split; [by apply divide_pos|]. split; [|apply extends_with_cell].
  eexists. cbn. rewrite lookup_insert. done.
Qed.
(** Dividing by a negative number always answers 0, because the divisor is converted to an
    unsigned number; so [(/ 10 -2)] is 0 and not -5. *)
Theorem C23_divide_negative_gives_zero fuel p n v s :
  numbers_at (heap s) p [n; v] -> (1 <= fuel)%nat -> can_alloc 1 s ->
  LONG_MIN <= v < 0 -> LONG_MIN < n <= LONG_MAX ->
  exists r s', divide fuel p s = ROk r s' /\ number_at (heap s') r 0 /\ extends s s'.
Proof.
  intros H Hf Ha Hv Hn. eexists _, _. split; [by eapply divide_neg|]. split; [|apply extends_with_cell].
  eexists. cbn. rewrite lookup_insert. done.
Qed.
Theorem C23_divide_is_quotient_refuted : exists p s r s',
  numbers_at (heap s) p [10; -2] /\ can_alloc 1 s /\ divide 1 p s = ROk r s' /\
  ~ number_at (heap s') r (Z.quot 10 (-2)).
Proof.
  destruct (check_res (on_sample (number_list [10; -2]))
    (fun p s => numbers_at_b (heap s) p [10; -2] && can_alloc_b 1 s)) as (p & s & E & H).
  { vm_compute. reflexivity. }
  clear E. apply andb_prop in H as [Hn Ha]. apply numbers_check in Hn. apply can_alloc_check in Ha.
  destruct (C23_divide_negative_gives_zero 1 p 10 (-2) s Hn ltac:(lia) Ha) as (r & s' & E & (c & Hc & Ht & Hv) & _);
    [unfold LONG_MIN; lia|unfold LONG_MIN, LONG_MAX; lia|].
  exists p, s, r, s'. do 3 (split; [done|]). intros (c' & Hc' & _ & Hv'). cbn in Hv'.
  rewrite Hc in Hc'. injection Hc' as <-. lia.
Qed.
(** A zero divisor is signalled with the symbol divide-by-zero, whatever the dividend, for [/]
    and for modulo (making the symbol may allocate: [s']). *)
Theorem C23_division_by_zero fuel p n ns s y s' :
  numbers_at (heap s) p (n :: 0 :: ns) -> LONG_MIN < n <= LONG_MAX ->
  cstring_to_symbol (S fuel) (bytes_of "divide-by-zero") s = ROk y s' ->
  exists x, divide (S fuel) p s = RThrow y x s'.
Proof.
  intros H Hn Hy. unfold divide. list_step H. list_step H. run. cbv zeta. cbn [fst snd].
  assert (forall sg u, divide_loop (S fuel) d sg u s = RThrow y d s') as Hloop.
  { intros sg u. cbn [divide_loop]. rewrite (proj2 (Z.eqb_neq _ _) Hne0). run. rewrite Z.eqb_refl.
    unfold bind. by rewrite Hy. }
  destruct (Z.ltb_spec n 0).
  - run. erewrite bind_ok by (apply chk_long_ok; unfold in_long, LONG_MIN, LONG_MAX in *; lia). run.
    unfold bind. rewrite Hloop. by eexists.
  - run. unfold bind. rewrite Hloop. by eexists.
Qed.
Theorem C23_modulo_by_zero fuel a b n s y s' :
  number_at (heap s) a n -> number_at (heap s) b 0 ->
  cstring_to_symbol fuel (bytes_of "divide-by-zero") s = ROk y s' ->
  modulo fuel a b s = RThrow y a s'.
Proof. intros Ha Hb Hy. unfold modulo. run. rewrite Z.eqb_refl. unfold bind. by rewrite Hy. Qed.
(** modulo: the result has the sign of the divisor when the divisor is positive, for all
    dividends; the number of loop iterations needed is |n / v|. *)
Theorem C23_modulo_positive fuel a b n v s :
  number_at (heap s) a n -> number_at (heap s) b v -> can_alloc 1 s ->
  LONG_MIN <= n <= LONG_MAX -> 0 < v <= LONG_MAX -> - n <= Z.of_nat fuel * v ->
  exists r s', modulo fuel a b s = ROk r s' /\ number_at (heap s') r (n mod v) /\ extends s s'.
Proof.
  intros Ha Hb Hal Hn Hv Hf. eexists _, _. split.
  { eapply modulo_ok; try done; unfold LONG_MIN in *; lia. }
  destruct (Z.ltb_spec v 0); [lia|]. split; [|apply extends_with_cell].
  eexists. cbn. rewrite lookup_insert. done.
Qed.
(** For a negative divisor the answer is the negated remainder by |v|, which is not modulo:
    (modulo 7 -3) is -1 rather than -2. *)
Theorem C23_modulo_negative fuel a b n v s :
  number_at (heap s) a n -> number_at (heap s) b v -> can_alloc 1 s ->
  LONG_MIN <= n <= LONG_MAX -> LONG_MIN < v < 0 -> - n <= Z.of_nat fuel * - v ->
  exists r s', modulo fuel a b s = ROk r s' /\ number_at (heap s') r (- (n mod (- v))) /\ extends s s'.
Proof.
  intros Ha Hb Hal Hn Hv Hf. eexists _, _. split.
  { eapply modulo_ok; try done; unfold LONG_MIN, LONG_MAX in *; lia. }
  destruct (Z.ltb_spec v 0); [|lia]. split; [|apply extends_with_cell].
  eexists. cbn. rewrite lookup_insert. done.
Qed.
Theorem C23_modulo_floor_refuted : exists a b s r s',
  number_at (heap s) a 7 /\ number_at (heap s) b (-3) /\ can_alloc 1 s /\
  modulo 0 a b s = ROk r s' /\ ~ number_at (heap s') r (7 mod (-3)).
Proof.
  destruct (check_res (on_sample (a <- make_number 7 ;; b <- make_number (-3) ;; cons a b))
    (fun p s => match heap s !! p with
                | Some c => number_at_b (heap s) (c_car c) 7 && number_at_b (heap s) (c_cdr c) (-3) && can_alloc_b 1 s
                | None => false end)) as (p & s & E & H).
  { vm_compute. reflexivity. }
  clear E. destruct (heap s !! p) as [c|]; [|discriminate].
  apply andb_prop in H as [H Ha]. apply andb_prop in H as [H1 H2].
  apply number_check in H1, H2. apply can_alloc_check in Ha.
  destruct (C23_modulo_negative 0 _ _ 7 (-3) s H1 H2 Ha) as (r & s' & E & (x & Hx & Ht & Hv) & _);
    [unfold LONG_MIN, LONG_MAX; lia..|].
  exists (c_car c), (c_cdr c), s, r, s'. do 4 (split; [done|]). intros (x' & Hx' & _ & Hv').
  rewrite Hx in Hx'. injection Hx' as <-. rewrite Hv in Hv'. vm_compute in Hv'. discriminate.
Qed.

(** * C24: bit operations *)
Theorem C24_logand fuel p ns s :
  numbers_at (heap s) p ns -> (length ns <= fuel)%nat -> can_alloc 1 s ->
  exists r s' z, logand fuel p s = ROk r s' /\ number_at (heap s') r z /\ extends s s' /\
    forall i, 0 <= i -> Z.testbit z i = forallb (fun n => Z.testbit n i) ns.
Proof.
  intros H Hf Ha. eexists _, _, _. split; [unfold logand; erewrite bind_ok by (apply bits_loop_ok with (ns := ns); done); by apply make_number_s|].
  split; [eexists; cbn; rewrite lookup_insert; done|]. split; [apply extends_with_cell|].
  intros i Hi. clear - Hi.
  transitivity (Z.testbit (foldl Z.land (-1) ns) i); [done|].
  assert (forall n, Z.testbit (foldl Z.land n ns) i = Z.testbit n i && forallb (fun n => Z.testbit n i) ns) as ->.
  { induction ns as [|m ns IH]; intros n; cbn; [by rewrite andb_true_r|]. rewrite IH, Z.land_spec, andb_assoc. done. }
  by rewrite Z.bits_m1.
Qed.
Theorem C24_logior fuel p ns s :
  numbers_at (heap s) p ns -> (length ns <= fuel)%nat -> can_alloc 1 s ->
  exists r s' z, logior fuel p s = ROk r s' /\ number_at (heap s') r z /\ extends s s' /\
    forall i, 0 <= i -> Z.testbit z i = existsb (fun n => Z.testbit n i) ns.
Proof.
  intros H Hf Ha. eexists _, _, _. split; [unfold logior; erewrite bind_ok by (apply bits_loop_ok with (ns := ns); done); by apply make_number_s|].
  split; [eexists; cbn; rewrite lookup_insert; done|]. split; [apply extends_with_cell|].
  intros i Hi. clear - Hi.
  transitivity (Z.testbit (foldl Z.lor 0 ns) i); [done|].
  assert (forall n, Z.testbit (foldl Z.lor n ns) i = Z.testbit n i || existsb (fun n => Z.testbit n i) ns) as ->.
  { induction ns as [|m ns IH]; intros n; cbn; [by rewrite orb_false_r|]. rewrite IH, Z.lor_spec, orb_assoc. done. }
  by rewrite Z.bits_0.
Qed.
Theorem C24_logxor fuel p ns s :
  numbers_at (heap s) p ns -> (length ns <= fuel)%nat -> can_alloc 1 s ->
  exists r s' z, logxor fuel p s = ROk r s' /\ number_at (heap s') r z /\ extends s s' /\
    forall i, 0 <= i -> Z.testbit z i = foldr xorb false (map (fun n => Z.testbit n i) ns).
Proof.
  intros H Hf Ha. eexists _, _, _. split; [unfold logxor; erewrite bind_ok by (apply bits_loop_ok with (ns := ns); done); by apply make_number_s|].
  split; [eexists; cbn; rewrite lookup_insert; done|]. split; [apply extends_with_cell|].
  intros i Hi. clear - Hi.
  transitivity (Z.testbit (foldl Z.lxor 0 ns) i); [done|].
  assert (forall n, Z.testbit (foldl Z.lxor n ns) i = xorb (Z.testbit n i) (foldr xorb false (map (fun n => Z.testbit n i) ns))) as ->.
  { induction ns as [|m ns IH]; intros n; cbn; [by rewrite xorb_false_r|].
    rewrite IH, Z.lxor_spec. by rewrite xorb_assoc. }
  rewrite Z.bits_0. by destruct (foldr _ _ _).
Qed.
Theorem C24_lognot a n s :
  number_at (heap s) a n -> can_alloc 1 s ->
  exists r s', lognot a s = ROk r s' /\ number_at (heap s') r (- n - 1) /\ extends s s'.
Proof.
  intros H Ha. eexists _, _. split; [unfold lognot; run; by apply make_number_s|].
  split; [|apply extends_with_cell]. eexists. cbn. rewrite lookup_insert. split; [done|]. cbn.
  unfold Z.lnot. split; [done|]. lia.
Qed.
(** ash: left shift modulo 2^64 read as signed, right shift rounds down. *)
Theorem C24_ash_left a b n c s :
  number_at (heap s) a n -> number_at (heap s) b c -> can_alloc 1 s ->
  LONG_MIN <= n <= LONG_MAX -> 0 <= c <= 63 ->
  exists r s' z, ash a b s = ROk r s' /\ number_at (heap s') r z /\ extends s s' /\
    in_long z = true /\ (z - n * 2 ^ c) mod 2 ^ 64 = 0.
Proof.
  intros Ha Hb Hal Hn Hc. eexists _, _, _. split; [eapply ash_ok; try done; lia|].
  split; [eexists; cbn; rewrite lookup_insert; done|]. split; [apply extends_with_cell|].
  split; [apply to_s64_range|]. rewrite Z.shiftl_mul_pow2 by lia. unfold to_s64, two64.
  generalize (n * 2 ^ c). intros m. change (2 ^ 64) with 18446744073709551616.
  pose proof (Z_div_mod_eq_full (m + 9223372036854775808) 18446744073709551616) as E.
  cbn [c_cdr]. match goal with |- ?x mod _ = 0 => replace x with (- ((m + 9223372036854775808) / 18446744073709551616) * 18446744073709551616) by lia end.
  apply Z_mod_mult.
Qed.
Theorem C24_ash_right a b n c s :
  number_at (heap s) a n -> number_at (heap s) b c -> can_alloc 1 s ->
  LONG_MIN <= n <= LONG_MAX -> -63 <= c < 0 ->
  exists r s', ash a b s = ROk r s' /\ number_at (heap s') r (n / 2 ^ (- c)) /\ extends s s'.
Proof.
  intros Ha Hb Hal Hn Hc. eexists _, _. split; [eapply ash_ok; try done; lia|].
  split; [|apply extends_with_cell]. eexists. cbn. rewrite lookup_insert. split; [done|]. split; [done|].
  cbn. rewrite to_s64_id.
  - replace c with (- - c) at 1 by lia. rewrite Z.shiftl_opp_r, Z.shiftr_div_pow2 by lia. done.
  - replace c with (- - c) at 1 by lia. rewrite Z.shiftl_opp_r, Z.shiftr_div_pow2 by lia.
    unfold in_long, LONG_MIN, LONG_MAX in *.
    assert (1 <= 2 ^ (- c)) by (pose proof (Z.pow_pos_nonneg 2 (- c)); lia).
    pose proof (Z_div_mod_eq_full n (2 ^ - c)). pose proof (Z.mod_pos_bound n (2 ^ - c) ltac:(lia)).
    nia.
Qed.
Theorem C24_ash_out_of_range_is_undefined a b n c s :
  number_at (heap s) a n -> number_at (heap s) b c -> (64 <= c \/ c <= -64) -> LONG_MIN < c -> ash a b s = RUB.
Proof.
  intros Ha Hb Hc Hm. unfold ash. run. destruct (Z.ltb_spec c 0).
  - run. unfold bind, chk_long, in_long. destruct ((LONG_MIN <=? - c) && (- c <=? LONG_MAX)); [|done]. cbn.
    destruct (Z.ltb_spec (- c) 64); [lia|]. done.
  - destruct (Z.ltb_spec c 64); [lia|]. done.
Qed.

(** The hypotheses of the theorems above are met by a list built in a running interpreter. *)
Example math_hypotheses_hold : exists p s,
  on_sample (number_list [100; 7; 3]) = ROk p s /\
  numbers_at (heap s) p [100; 7; 3] /\ can_alloc 1 s /\
  chain Z.gt [100; 7; 3] /\ ~ chain Z.lt [100; 7; 3] /\
  (forall k, (k <= length [100; 7; 3])%nat -> in_long (foldl Z.mul 1 (take k [100; 7; 3])) = true) /\
  Forall (fun v => 0 < v <= LONG_MAX) [7; 3] /\ foldl Z.quot 100 [7; 3] = 4.
Proof.
  destruct (check_res (on_sample (number_list [100; 7; 3]))
    (fun p s => numbers_at_b (heap s) p [100; 7; 3] && can_alloc_b 1 s)) as (p & s & E & H).
  { vm_compute. reflexivity. }
  apply andb_prop in H as [Hn Ha]. exists p, s. split; [exact E|]. clear E.
  split; [by apply numbers_check|]. split; [by apply can_alloc_check|].
  split; [repeat (apply chain_cons; split; [lia|]); apply chain_one|].
  split; [intros Hc; apply chain_cons in Hc as [Hc _]; lia|].
  split; [|split; [repeat constructor; unfold LONG_MAX; lia|done]].
  intros k Hk. cbn in Hk. destruct k as [|[|[|[|k]]]]; try reflexivity; lia.
Qed.

Print Assumptions C21_greater_chain.
Print Assumptions C21_less_chain.
Print Assumptions C21_equal_chain.
Print Assumptions C21_order_type_error.
Print Assumptions C21_equal_type_error_refuted.
Print Assumptions C22_plus_exact.
Print Assumptions C22_multiply_exact.
Print Assumptions C22_minus_exact.
Print Assumptions C22_negate.
Print Assumptions C22_overflow_is_not_silent.
Print Assumptions C22_type_error.
Print Assumptions C23_divide_positive.
Print Assumptions C23_divide_negative_gives_zero.
Print Assumptions C23_divide_is_quotient_refuted.
Print Assumptions C23_division_by_zero.
Print Assumptions C23_modulo_by_zero.
Print Assumptions C23_modulo_positive.
Print Assumptions C23_modulo_negative.
Print Assumptions C23_modulo_floor_refuted.
Print Assumptions C24_logand.
Print Assumptions C24_logior.
Print Assumptions C24_logxor.
Print Assumptions C24_lognot.
Print Assumptions C24_ash_left.
Print Assumptions C24_ash_right.
