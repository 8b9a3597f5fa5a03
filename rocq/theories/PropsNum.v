(** C26: formatting a number and parsing it back. *)
From stdpp Require Import base gmap list.
From Coq Require Import ZArith Lia.
From Coq Require Import ZifyBool ZifyNat.
From Verif Require Import CInt LibModel LibSpec LibProofs LibNumModel.
Open Scope Z_scope.
Ltac Zify.zify_post_hook ::= Z.div_mod_to_equations.

(** ** specification: numerals *)

(** the value of a digit character: '0'..'9', 'a'..'z' *)
Definition digit (c : Z) : option Z :=
  if (48 <=? c) && (c <=? 57) then Some (c - 48)
  else if (97 <=? c) && (c <=? 122) then Some (c - 87)
  else None.
(** all of [bs] are digits of the base *)
Definition digits_of_base (base : Z) (bs : list Z) : Prop :=
  Forall (fun c => exists d, digit c = Some d /\ d < base) bs.
(** positional value *)
Definition value_from (base v : Z) (bs : list Z) : Z :=
  fold_left (fun v c => v * base + default 0 (digit c)) bs v.
Definition value (base : Z) (bs : list Z) : Z := value_from base 0 bs.
(** [bs] is the numeral of [v]: digits, that value, no superfluous leading zero *)
Definition numeral (base : Z) (bs : list Z) (v : Z) : Prop :=
  digits_of_base base bs /\ value base bs = v /\ bs <> [] /\ (head bs <> Some 48 \/ length bs = 1%nat).
(** the text of an integer: a minus sign before a negative one *)
Definition text (base : Z) (bs : list Z) (x : Z) : Prop :=
  if x <? 0 then exists ds, bs = 45 :: ds /\ numeral base ds (- x) else numeral base bs x.

(** ** digits as the loop produces them *)
Definition chr (d : Z) : Z := if 9 <? d then 87 + d else 48 + d.
Fixpoint digs (n : nat) (b u : Z) : list Z :=
  match n with
  | O => []
  | S n' => if u / b =? 0 then [chr (u mod b)] else digs n' b (u / b) ++ [chr (u mod b)]
  end.

Lemma digit_chr d : 0 <= d < 36 -> digit (chr d) = Some d.
Proof.
  intros H. unfold digit, chr. destruct (Z.ltb_spec 9 d).
  - assert ((48 <=? 87 + d) && (87 + d <=? 57) = false) as -> by lia.
    assert ((97 <=? 87 + d) && (87 + d <=? 122) = true) as -> by lia. f_equal. lia.
  - assert ((48 <=? 48 + d) && (48 + d <=? 57) = true) as -> by lia. f_equal. lia.
Qed.
Lemma chr_byte d : 0 <= d < 36 -> byte (chr d).
Proof. unfold chr, byte. destruct (Z.ltb_spec 9 d); lia. Qed.

Lemma value_from_app b v xs ys : value_from b v (xs ++ ys) = value_from b (value_from b v xs) ys.
Proof. unfold value_from. by rewrite fold_left_app. Qed.
Lemma value_snoc b xs c : value b (xs ++ [c]) = value b xs * b + default 0 (digit c).
Proof. unfold value. by rewrite value_from_app. Qed.

Lemma digit_nonneg c d : digit c = Some d -> 0 <= d.
Proof. unfold digit. destruct (_ && _) eqn:E1; [intros [= <-]; lia|]. destruct ((97 <=? c) && _) eqn:E2; [intros [= <-]; lia|done]. Qed.

Lemma pow_step b n : 2 <= b -> b ^ Z.of_nat (S n) = b * b ^ Z.of_nat n /\ 1 <= b ^ Z.of_nat n.
Proof.
  intros Hb. rewrite Nat2Z.inj_succ, Z.pow_succ_r by lia. split; [done|].
  pose proof (Z.pow_pos_nonneg b (Z.of_nat n)). lia.
Qed.

Lemma digs_ok b : 2 <= b <= 36 -> forall n u, 0 <= u < b ^ Z.of_nat n -> (0 < n)%nat ->
  numeral b (digs n b u) u /\ Forall byte (digs n b u) /\ (u <> 0 -> head (digs n b u) <> Some 48).
Proof.
  intros Hb n. induction n as [|n IH]; intros u Hu Hn; [lia|].
  destruct (pow_step b n ltac:(lia)) as [Hp1 Hp2]. rewrite Hp1 in Hu.
  assert (Hq : 0 <= u / b < b ^ Z.of_nat n).
  { split; [apply Z.div_pos; lia|]. apply Z.div_lt_upper_bound; lia. }
  assert (Hm : 0 <= u mod b < b) by (apply Z.mod_pos_bound; lia).
  assert (Hdm : u = b * (u / b) + u mod b) by (apply Z.div_mod; lia).
  cbn [digs]. destruct (Z.eqb_spec (u / b) 0) as [E|E].
  - rewrite E in Hdm. assert (u mod b = u) as Hum by lia. rewrite Hum in *. split; [|split].
    + split; [|split; [|split; [done|by right]]].
      * constructor; [|constructor]. exists u. rewrite digit_chr by lia. split; [done|lia].
      * unfold value, value_from. cbn. rewrite digit_chr by lia. cbn. lia.
    + constructor; [|constructor]. apply chr_byte. lia.
    + intros Hu0. cbn. unfold chr. destruct (Z.ltb_spec 9 u); intros [=]; lia.
  - assert ((0 < n)%nat) as Hn'. { destruct n; [|lia]. cbn in Hq. lia. }
    destruct (IH (u / b) Hq Hn') as ((Hd & Hv & Hne & _) & Hby & Hh). specialize (Hh ltac:(lia)).
    assert (Hhead : head (digs n b (u / b) ++ [chr (u mod b)]) = head (digs n b (u / b))).
    { by destruct (digs n b (u / b)). }
    split; [|split].
    + split; [|split; [|split]].
      * apply Forall_app. split; [done|]. constructor; [|constructor].
        exists (u mod b). rewrite digit_chr by lia. split; [done|lia].
      * rewrite value_snoc, Hv, digit_chr by lia. cbn. lia.
      * by destruct (digs n b (u / b)).
      * left. by rewrite Hhead.
    + apply Forall_app. split; [done|]. constructor; [|constructor]. apply chr_byte. lia.
    + intros _. by rewrite Hhead.
Qed.

(** how long a numeral is *)
Lemma value_bound b xs v : 2 <= b -> digits_of_base b xs -> 0 <= v ->
  v * b ^ Z.of_nat (length xs) <= value_from b v xs < (v + 1) * b ^ Z.of_nat (length xs).
Proof.
  intros Hb. revert v. induction xs as [|c xs IH]; intros v Hd Hv.
  - change (value_from b v []) with v. cbn. lia.
  - inversion Hd as [|? ? (d & Hc & Hdb) Hd']; subst. pose proof (digit_nonneg _ _ Hc).
    cbn [length]. destruct (pow_step b (length xs) ltac:(lia)) as [-> Hp].
    change (value_from b v (c :: xs)) with (value_from b (v * b + default 0 (digit c)) xs).
    rewrite Hc. cbn. specialize (IH (v * b + d) Hd' ltac:(nia)). nia.
Qed.

Lemma numeral_length b ds v k : 2 <= b -> numeral b ds v -> (0 < k)%nat ->
  (length ds <= k)%nat <-> v < b ^ Z.of_nat k.
Proof.
  intros Hb (Hd & Hv & Hne & Hlead) Hk. destruct ds as [|c ds]; [done|].
  inversion Hd as [|? ? (d & Hc & Hdb) Hd']; subst. pose proof (digit_nonneg _ _ Hc).
  assert (Hval : value b (c :: ds) = value_from b d ds).
  { unfold value. change (value_from b 0 (c :: ds)) with (value_from b (0 * b + default 0 (digit c)) ds).
    rewrite Hc. done. }
  rewrite Hval. pose proof (value_bound b ds d ltac:(lia) Hd' ltac:(lia)) as [Hlo Hhi].
  pose proof (Z.pow_pos_nonneg b (Z.of_nat (length ds))) as Hpos.
  cbn [length]. split.
  - intros Hl. assert (b ^ Z.of_nat (S (length ds)) <= b ^ Z.of_nat k) by (apply Z.pow_le_mono_r; lia).
    destruct (pow_step b (length ds) ltac:(lia)) as [E _]. rewrite E in *. nia.
  - intros Hlt. destruct (Nat.le_gt_cases (S (length ds)) k); [done|]. exfalso.
    assert (b ^ Z.of_nat k <= b ^ Z.of_nat (length ds)) by (apply Z.pow_le_mono_r; lia).
    destruct Hlead as [Hlead|Hlead].
    + assert (d <> 0). { intros ->. apply Hlead. cbn. f_equal. revert Hc. unfold digit.
        destruct (_ && _) eqn:E1; [intros [=]; lia|]. destruct ((97 <=? c) && _) eqn:E2; [intros [=]; lia|done]. }
      nia.
    + cbn in Hlead. assert (length ds = O) as Hl0 by lia. rewrite Hl0 in *. lia.
Qed.

(** ** the formatting loop *)
Lemma ntoab_loop_ok b : 2 <= b <= 36 -> forall n u p m fuel, 0 <= u < b ^ Z.of_nat n -> (0 < n)%nat -> (n <= fuel)%nat ->
  let ds := digs n b u in
  let q := p - Z.of_nat (length ds) in
  room m (q + 1) (length ds) ->
  ntoab_loop fuel p u b m = COk q (blit (q + 1) ds m).
Proof.
  intros Hb n. induction n as [|n IH]; intros u p m fuel Hu Hn Hf ds q Hr; [lia|].
  destruct fuel as [|fuel]; [lia|].
  destruct (pow_step b n ltac:(lia)) as [Hp1 Hp2]. rewrite Hp1 in Hu.
  assert (Hq : 0 <= u / b < b ^ Z.of_nat n).
  { split; [apply Z.div_pos; lia|]. apply Z.div_lt_upper_bound; lia. }
  assert (Hm : 0 <= u mod b < b) by (apply Z.mod_pos_bound; lia).
  subst q ds. cbn [digs ntoab_loop] in *.
  assert (Hst : is_Some (m !! p) -> (if 9 <? u mod b then st p (97 + u mod b - 10) else st p (48 + u mod b)) m = COk tt (<[p := chr (u mod b)]> m)).
  { intros Hs. unfold chr. destruct (Z.ltb_spec 9 (u mod b)); rewrite st_ok by done; do 2 f_equal; unfold to_byte; lia. }
  destruct (Z.eqb_spec (u / b) 0) as [E|E].
  - cbn [length] in *. change (Z.of_nat 1) with 1 in *. erewrite cbind_ok.
    2:{ apply Hst. specialize (Hr O ltac:(lia)). by replace (p - 1 + 1 + Z.of_nat 0) with p in Hr by lia. }
    unfold cret. f_equal. cbn. f_equal. lia.
  - assert ((0 < n)%nat) as Hn'. { destruct n; [|lia]. cbn in Hq. lia. }
    rewrite app_length in *. cbn [length] in *. rewrite Nat.add_1_r in *.
    set (k := length (digs n b (u / b))) in *.
    erewrite cbind_ok.
    2:{ apply Hst. specialize (Hr k ltac:(lia)). by replace (p - Z.of_nat (S k) + 1 + Z.of_nat k) with p in Hr by lia. }
    rewrite IH; [|done|done|lia|].
    + fold k. replace (p - 1 - Z.of_nat k) with (p - Z.of_nat (S k)) by lia. f_equal.
      rewrite <- blit_snoc_first. fold k. do 2 f_equal. lia.
    + fold k. replace (p - 1 - Z.of_nat k + 1) with (p - Z.of_nat (S k) + 1) by lia. apply room_insert.
      apply (room_le _ _ (S k)); [done|lia].
Qed.

(** a store outside the block ends in undefined behaviour *)
Lemma ntoab_loop_bad b : 2 <= b <= 36 -> forall n u p m fuel k, 0 <= u < b ^ Z.of_nat n -> (0 < n)%nat -> (n <= fuel)%nat ->
  (k < length (digs n b u))%nat -> m !! (p - Z.of_nat k) = None ->
  ntoab_loop fuel p u b m = CUB.
Proof.
  intros Hb n. induction n as [|n IH]; intros u p m fuel k Hu Hn Hf Hk Hno; [lia|].
  destruct fuel as [|fuel]; [lia|].
  destruct (pow_step b n ltac:(lia)) as [Hp1 Hp2]. rewrite Hp1 in Hu.
  assert (Hq : 0 <= u / b < b ^ Z.of_nat n).
  { split; [apply Z.div_pos; lia|]. apply Z.div_lt_upper_bound; lia. }
  cbn [digs ntoab_loop] in *.
  destruct (m !! p) as [old|] eqn:Ep.
  2:{ unfold cbind, st. by destruct (9 <? u mod b); rewrite Ep. }
  destruct (Z.eqb_spec (u / b) 0) as [E|E].
  - cbn in Hk. assert (k = O) as -> by lia. rewrite Z.sub_0_r in Hno. by rewrite Hno in Ep.
  - destruct k as [|k]. { rewrite Z.sub_0_r in Hno. by rewrite Hno in Ep. }
    assert ((0 < n)%nat) as Hn'. { destruct n; [|lia]. cbn in Hq. lia. }
    rewrite app_length in Hk. cbn in Hk.
    assert (Hst : exists m1, (if 9 <? u mod b then st p (97 + u mod b - 10) else st p (48 + u mod b)) m = COk tt m1 /\
      m1 !! (p - 1 - Z.of_nat k) = None).
    { destruct (9 <? u mod b); (rewrite st_ok by (by rewrite Ep; eexists)); eexists; (split; [done|]);
        rewrite lookup_insert_ne by lia; rewrite <- Hno; f_equal; lia. }
    destruct Hst as (m1 & E1 & Hno'). erewrite cbind_ok by exact E1. apply (IH _ _ _ _ k); try done; lia.
Qed.

(** ** ntoab as a whole *)

(** the buffer: twenty bytes at [buf], and nothing just below it *)
Definition buffer (m : gmap Z Z) (buf : Z) : Prop := room m buf 20 /\ m !! (buf - 1) = None.

(** the magnitude ntoab converts *)
Definition magnitude (x : Z) (signed_p : bool) : Z := if signed_p then Z.abs x else x mod 2 ^ 64.
Definition minus (x : Z) (signed_p : bool) : nat := if signed_p && (x <? 0) then 1 else 0.

Lemma pow64 b : 2 <= b -> 2 ^ 64 <= b ^ Z.of_nat 64.
Proof. intros. change (Z.of_nat 64) with 64. apply Z.pow_le_mono_l. lia. Qed.

Lemma ntoab_u x signed_p : in_long x = true ->
  (if signed_p && (x <? 0) then to_u64 (to_u64 (- (x + 1)) + 1) else to_u64 x) = magnitude x signed_p /\
  0 <= magnitude x signed_p < 2 ^ 64.
Proof.
  unfold in_long, LONG_MIN, LONG_MAX, magnitude, to_u64, two64. change (2 ^ 64) with 18446744073709551616. intros H.
  destruct signed_p; cbn [andb].
  - destruct (Z.ltb_spec x 0).
    + rewrite (Z.mod_small (- (x + 1))) by lia. rewrite Z.mod_small by lia. lia.
    + rewrite Z.mod_small by lia. lia.
  - split; [done|]. apply Z.mod_pos_bound. lia.
Qed.

Lemma room_sub m p n q k : room m p n -> p <= q -> q + Z.of_nat k <= p + Z.of_nat n -> room m q k.
Proof.
  intros H Hpq Hk i Hi. specialize (H (Z.to_nat (q + Z.of_nat i - p)) ltac:(lia)).
  by replace (p + Z.of_nat (Z.to_nat (q + Z.of_nat i - p))) with (q + Z.of_nat i) in H by lia.
Qed.

(** exactly when the text fits in eleven characters does the call return it,
    with nothing but the first twelve bytes of the buffer changed *)
Theorem C26_format m buf x base signed_p fuel :
  buffer m buf -> 2 <= base <= 36 -> in_long x = true -> (64 <= fuel)%nat ->
  magnitude x signed_p < base ^ (11 - Z.of_nat (minus x signed_p)) ->
  exists p bs m', ntoab fuel buf x base signed_p m = COk p m' /\ cstr m' p bs /\
    text base bs (if signed_p then x else x mod 2 ^ 64) /\
    (forall q, m' !! q <> m !! q -> buf <= q <= buf + 11) /\ buffer m' buf /\
    buf <= p /\ p + Z.of_nat (length bs) = buf + 11.
Proof.
  intros [Hb Hbelow] Hbase Hx Hf Hfit. unfold ntoab.
  set (m1 := <[buf + 11 := 0]> m).
  erewrite cbind_ok. 2:{ apply st_ok. apply (Hb 11%nat). lia. } change (to_byte 0) with 0. fold m1.
  destruct (Z.eqb_spec base 0); [lia|].
  destruct (ntoab_u x signed_p Hx) as [-> Hu].
  pose proof (pow64 base ltac:(lia)) as H64.
  destruct (digs_ok base Hbase 64 (magnitude x signed_p) ltac:(lia) ltac:(lia)) as (Hnum & Hby & Hhd).
  set (ds := digs 64 base (magnitude x signed_p)) in *.
  assert (Hlen : (length ds + minus x signed_p <= 11)%nat).
  { assert ((length ds <= 11 - minus x signed_p)%nat); [|unfold minus in *; destruct (_ && _); lia].
    apply (numeral_length base ds _ _ ltac:(lia) Hnum); [unfold minus; destruct (_ && _); lia|].
    replace (Z.of_nat (11 - minus x signed_p)) with (11 - Z.of_nat (minus x signed_p)); [done|].
    unfold minus; destruct (_ && _); lia. }
  assert (Hm1 : room m1 buf 20) by by apply room_insert.
  erewrite cbind_ok.
  2:{ apply (ntoab_loop_ok base Hbase 64); [lia|lia|done|]. fold ds.
      eapply room_sub; [exact Hm1|lia|lia]. }
  fold ds. set (q := buf + 11 - 1 - Z.of_nat (length ds)).
  assert (Hds : bytes_at (blit (q + 1) ds m1) (q + 1) (ds ++ [0])).
  { apply bytes_at_app. split; [by apply blit_bytes_at|]. apply bytes_at_cons. split; [unfold byte; lia|].
    split; [|apply bytes_at_nil]. rewrite blit_outside by lia. subst m1 q.
    replace (buf + 11 - 1 - Z.of_nat (length ds) + 1 + Z.of_nat (length ds)) with (buf + 11) by lia. apply lookup_insert. }
  assert (Hz : 0 ∉ ds).
  { intros Hin. destruct Hnum as [Hd _]. unfold digits_of_base in Hd. rewrite Forall_forall in Hd.
    destruct (Hd 0 Hin) as (d & H & _). done. }
  assert (Hframe : forall r, blit (q + 1) ds m1 !! r <> m !! r -> buf <= r <= buf + 11).
  { intros r Hr. destruct (decide (buf <= r <= buf + 11)); [done|]. exfalso. apply Hr.
    rewrite blit_outside by lia. subst m1. by rewrite lookup_insert_ne by lia. }
  unfold minus in *.
  destruct (signed_p && (x <? 0)) eqn:Es.
  - destruct signed_p; [|done]. cbn [andb] in Es.
    destruct ds as [|c ds'] eqn:Eds; [by destruct Hnum as (_ & _ & ? & _)|].
    pose proof Hds as Hds2. cbn [app] in Hds2. apply bytes_at_cons in Hds2 as (Hcb & Hc & _).
    erewrite cbind_ok by (by apply ld_ok).
    assert (Hc48 : c <> 48).
    { intros ->. apply Hhd; [|done]. unfold magnitude. lia. }
    assert ((to_schar c =? 48) = false) as ->.
    { unfold byte, to_schar in *. lia. }
    cbn [negb].
    assert (Hqs : is_Some (blit (q + 1) (c :: ds') m1 !! q)).
    { apply room_blit with (n := 20%nat) (p := buf) (q := q + 1) (bs := c :: ds') in Hm1.
      specialize (Hm1 (Z.to_nat (q - buf)) ltac:(lia)).
      by replace (buf + Z.of_nat (Z.to_nat (q - buf))) with q in Hm1 by lia. }
    erewrite cbind_ok by (by apply st_ok). change (to_byte 45) with 45.
    exists q, (45 :: c :: ds'). eexists. split; [unfold cret; f_equal; lia|]. split; [|split; [|split; [|split]]].
    + split.
      * cbn [app]. apply bytes_at_cons. split; [unfold byte; lia|]. split; [by rewrite lookup_insert|].
        apply bytes_at_insert; [exact Hds|lia].
      * apply not_elem_of_cons. split; [lia|done].
    + unfold text. rewrite Es. eexists. split; [done|]. unfold magnitude in Hnum. by replace (- x) with (Z.abs x) by lia.
    + intros r. destruct (Z.eq_dec r q) as [->|]; [intros _; subst q; lia|]. rewrite lookup_insert_ne by lia. apply Hframe.
    + split; [by apply room_insert, room_blit|]. rewrite lookup_insert_ne by lia. rewrite blit_outside by lia.
      subst m1. by rewrite lookup_insert_ne by lia.
    + cbn [length] in *. subst q. lia.
  - exists (q + 1), ds. eexists. split; [done|]. split; [by split|]. split; [|split; [|split]].
    + unfold text. destruct signed_p; cbn [andb magnitude] in *.
      * rewrite Es. assert (Ex : Z.abs x = x) by lia. rewrite Ex in Hnum. exact Hnum.
      * assert ((x mod 2 ^ 64 <? 0) = false) as -> by lia. done.
    + exact Hframe.
    + split; [by apply room_blit|]. rewrite blit_outside by lia. subst m1. by rewrite lookup_insert_ne by lia.
    + subst q. lia.
Qed.

(** otherwise it writes below the buffer: undefined behaviour *)
Theorem C26_format_overruns m buf x base signed_p fuel :
  buffer m buf -> 2 <= base <= 36 -> in_long x = true -> (64 <= fuel)%nat ->
  base ^ (11 - Z.of_nat (minus x signed_p)) <= magnitude x signed_p ->
  ntoab fuel buf x base signed_p m = CUB.
Proof.
  intros [Hb Hbelow] Hbase Hx Hf Hbig. unfold ntoab.
  set (m1 := <[buf + 11 := 0]> m).
  erewrite cbind_ok. 2:{ apply st_ok. apply (Hb 11%nat). lia. } change (to_byte 0) with 0. fold m1.
  destruct (Z.eqb_spec base 0); [lia|].
  destruct (ntoab_u x signed_p Hx) as [-> Hu].
  pose proof (pow64 base ltac:(lia)) as H64.
  destruct (digs_ok base Hbase 64 (magnitude x signed_p) ltac:(lia) ltac:(lia)) as (Hnum & Hby & Hhd).
  set (ds := digs 64 base (magnitude x signed_p)) in *.
  assert (Hlen : (11 < length ds + minus x signed_p)%nat).
  { assert (~ (length ds <= 11 - minus x signed_p)%nat); [|unfold minus in *; destruct (_ && _); lia].
    rewrite (numeral_length base ds _ _ ltac:(lia) Hnum); [|unfold minus; destruct (_ && _); lia].
    replace (Z.of_nat (11 - minus x signed_p)) with (11 - Z.of_nat (minus x signed_p)); [lia|].
    unfold minus; destruct (_ && _); lia. }
  assert (Hbelow1 : m1 !! (buf - 1) = None) by (subst m1; by rewrite lookup_insert_ne by lia).
  destruct (Nat.le_gt_cases (length ds) 11) as [Hle|Hgt].
  - (* the sign is the twelfth character *)
    assert (Hlen11 : length ds = 11%nat) by (unfold minus in Hlen; destruct (_ && _); lia).
    unfold minus in Hlen. destruct (signed_p && (x <? 0)) eqn:Es; [|lia].
    assert (Hm1 : room m1 buf 20) by by apply room_insert.
    erewrite cbind_ok.
    2:{ apply (ntoab_loop_ok base Hbase 64); [lia|lia|done|]. fold ds. eapply room_sub; [exact Hm1|lia|lia]. }
    fold ds. rewrite Hlen11. replace (buf + 11 - 1 - Z.of_nat 11) with (buf - 1) by lia.
    destruct ds as [|c ds'] eqn:Eds; [done|].
    assert (Hc : blit (buf - 1 + 1) (c :: ds') m1 !! (buf - 1 + 1) = Some c).
    { pose proof (blit_bytes_at (buf - 1 + 1) _ m1 Hby) as Hl. by apply bytes_at_cons in Hl as (_ & ? & _). }
    erewrite cbind_ok by (by apply ld_ok).
    assert (Hc48 : c <> 48).
    { intros ->. destruct signed_p; [|done]. cbn [andb] in Es. apply Hhd; [|done]. unfold magnitude. lia. }
    inversion Hby as [|? ? Hcb _]; subst.
    assert ((to_schar c =? 48) = false) as -> by (unfold byte, to_schar in *; lia). cbn [negb].
    unfold cbind, st. rewrite blit_outside by lia. by rewrite Hbelow1.
  - unfold cbind. rewrite (ntoab_loop_bad base Hbase 64 _ _ _ _ 11); try done; try lia.
    rewrite <- Hbelow1. f_equal. lia.
Qed.

(** ultoa converts its argument as if it were signed: half of its domain comes out negative *)
Theorem C26_ultoa_refuted m buf x fuel : buffer m buf -> (64 <= fuel)%nat -> 2 ^ 63 <= x < 2 ^ 64 ->
  ultoa fuel buf x m = ltoa fuel buf (x - 2 ^ 64) m.
Proof.
  intros Hb Hf Hx. unfold ultoa, ltoa. f_equal.
  change (2 ^ 63) with 9223372036854775808 in *. change (2 ^ 64) with 18446744073709551616 in *.
  unfold to_s64, two64. lia.
Qed.

(** ** parsing *)
Definition parse_base (base : Z) : Prop := base = 2 \/ base = 8 \/ base = 10 \/ base = 16.
(** a character that ends the number *)
Definition ends (base : Z) (rest : list Z) : Prop :=
  match rest with [] => True | c :: _ => (forall d, digit c = Some d -> base <= d) end.

Lemma isnumber_ok c base m : parse_base base -> byte c ->
  isnumber (to_schar c) base m = COk (match digit c with Some d => d <? base | None => false end) m.
Proof.
  intros Hb Hc. unfold byte, isnumber, digit, c_isdigit, c_isxdigit, c_isdigit, cret, to_schar in *.
  destruct Hb as [->|[->|[->| ->]]]; cbn [Z.eqb Pos.eqb];
    destruct ((48 <=? c) && (c <=? 57)) eqn:E1; destruct ((97 <=? c) && (c <=? 122)) eqn:E2; f_equal; lia.
Qed.

(** no decimal digit after a letter *)
Definition letters_last (bs : list Z) : Prop :=
  exists ds ls, bs = ds ++ ls /\ Forall (fun c => c <= 57) ds /\ Forall (fun c => 57 < c) ls.

Lemma digit_range c d : digit c = Some d -> byte c.
Proof. unfold digit, byte. destruct (_ && _) eqn:E1; [intros; lia|]. destruct ((97 <=? c) && _) eqn:E2; [intros; lia|done]. Qed.

Lemma digits_value_mono b v xs : 2 <= b -> digits_of_base b xs -> 0 <= v -> v <= value_from b v xs.
Proof. intros Hb Hd Hv. pose proof (value_bound b xs v Hb Hd Hv). pose proof (Z.pow_pos_nonneg b (Z.of_nat (length xs))). nia. Qed.

(** the loop, for a run of digits that agree with the sticky offset *)
Lemma abtol_loop_ok base ds : parse_base base -> forall m s v off tail fuel,
  digits_of_base base ds -> bytes_at m s (ds ++ tail) -> tail <> [] -> ends base tail ->
  0 <= v -> (off = 48 /\ letters_last ds \/ off = 87 /\ Forall (fun c => 57 < c) ds) ->
  value_from base v ds + off + 39 * (if bool_decide (Exists (fun c => 57 < c) ds) then 1 else 0) <= INT_MAX + (if off =? 87 then 39 * (if bool_decide (Exists (fun c => 57 < c) ds) then 1 else 0) else 0) ->
  (length ds < fuel)%nat ->
  abtol_loop fuel s v off base m = COk (value_from base v ds, s + Z.of_nat (length ds)) m.
Proof.
  intros Hbase. assert (Hb2 : 2 <= base <= 16) by (destruct Hbase as [->|[->|[->| ->]]]; lia).
  induction ds as [|c ds IH]; intros m s v off tail fuel Hd Hs Ht He Hv Hoff Hmax Hf;
    (destruct fuel as [|fuel]; [lia|]); cbn [abtol_loop].
  - destruct tail as [|c tail]; [done|]. cbn in Hs. apply bytes_at_cons in Hs as (Hcb & Hc & _).
    erewrite cbind_ok by (by apply ld_ok). erewrite cbind_ok by (by apply isnumber_ok).
    cbn in He. destruct (digit c) as [d|].
    + destruct (Z.ltb_spec d base); [specialize (He d eq_refl); lia|]. cbn. unfold cret. f_equal. f_equal. lia.
    + cbn. unfold cret. f_equal. f_equal. lia.
  - cbn [app] in Hs. apply bytes_at_cons in Hs as (Hcb & Hc & Hs).
    inversion Hd as [|? ? (d & Hcd & Hdb) Hd']; subst. pose proof (digit_nonneg _ _ Hcd).
    erewrite cbind_ok by (by apply ld_ok). erewrite cbind_ok by (by apply isnumber_ok).
    rewrite Hcd. assert ((d <? base) = true) as -> by lia. cbn iota.
    change (value_from base v (c :: ds)) with (value_from base (v * base + default 0 (digit c)) ds) in *.
    rewrite Hcd in *. cbn [default from_option id] in *.
    assert (Hvd : 0 <= v * base) by nia.
    pose proof (digits_value_mono base (v * base + d) ds ltac:(lia) Hd' ltac:(lia)) as Hmono.
    assert (Hcase : (c <= 57 /\ c = d + 48 \/ 57 < c /\ c = d + 87) /\ to_schar c = c /\ c <= 122).
    { revert Hcd. unfold digit. destruct (_ && _) eqn:E1.
      - intros [= <-]. split; [left; lia|]. unfold to_schar. lia.
      - destruct ((97 <=? c) && _) eqn:E2; [|done]. intros [= <-]. split; [right; lia|]. unfold to_schar. lia. }
    destruct Hcase as (Hcase & Hsc & Hc122). rewrite Hsc.
    assert (Hex : 57 < c -> bool_decide (Exists (fun c => 57 < c) (c :: ds)) = true).
    { intros. apply bool_decide_eq_true_2. by left. }
    assert (Hle87 : 48 <= off <= 87) by (destruct Hoff as [[-> _]|[-> _]]; lia).
    assert (Hmax' : v * base + d + off <= INT_MAX /\ (57 < c -> v * base + d + 87 <= INT_MAX)).
    { destruct (bool_decide (Exists (fun c => 57 < c) (c :: ds))) eqn:Eb.
      - destruct Hoff as [[-> _]|[-> _]]; cbn [Z.eqb Pos.eqb] in Hmax; split; intros; lia.
      - destruct Hoff as [[-> _]|[-> _]]; cbn [Z.eqb Pos.eqb] in Hmax; split; intros; try lia.
        all: rewrite Hex in Eb by done; done. }
    destruct Hmax' as [Hm1 Hm2].
    erewrite cbind_ok. 2:{ apply c_int_ok. unfold in_int, INT_MIN, INT_MAX in *. lia. }
    assert (Hofd : (c <= 57 /\ off = 48) \/ 57 < c).
    { destruct Hoff as [[-> _]|[-> Hall]]; [lia|]. right. by inversion Hall. }
    destruct (Z.ltb_spec 57 c) as [Hgt|Hle].
    + erewrite cbind_ok. 2:{ apply c_int_ok. unfold in_int, INT_MIN, INT_MAX in *. lia. }
      erewrite cbind_ok. 2:{ apply c_int_ok. unfold in_int, INT_MIN, INT_MAX in *. lia. }
      change (97 - 10) with 87. replace (v * base + c - 87) with (v * base + d) by lia.
      assert (Hall : Forall (fun c => 57 < c) ds).
      { destruct Hoff as [[-> (xs & ls & E & Hxs & Hls)]|[-> Hall]]; [|by inversion Hall].
        destruct xs as [|x xs]; [|injection E as <- _; inversion Hxs; lia]. cbn in E. subst ls. by inversion Hls. }
      rewrite (IH m (s + 1) (v * base + d) 87 tail fuel); try done; try lia.
      * f_equal. cbn [length]. f_equal. lia.
      * right. by split.
      * rewrite Hex in Hmax by done. rewrite (Z.eqb_refl 87).
        destruct Hoff as [[-> _]|[-> _]]; cbn [Z.eqb Pos.eqb] in Hmax; lia.
      * cbn [length] in Hf. lia.
    + assert (off = 48) as -> by lia.
      erewrite cbind_ok. 2:{ apply c_int_ok. unfold in_int, INT_MIN, INT_MAX in *. lia. }
      erewrite cbind_ok. 2:{ apply c_int_ok. unfold in_int, INT_MIN, INT_MAX in *. lia. }
      replace (v * base + c - 48) with (v * base + d) by lia.
      rewrite (IH m (s + 1) (v * base + d) 48 tail fuel); try done; try lia.
      * f_equal. cbn [length]. f_equal. lia.
      * left. split; [done|]. destruct Hoff as [[_ (xs & ls & E & Hxs & Hls)]|[? _]]; [|done].
        destruct xs as [|x xs]. { cbn in E. subst ls. inversion Hls. lia. }
        cbn in E. injection E as <- ->. inversion Hxs. by exists xs, ls.
      * cbn [Z.eqb Pos.eqb] in *.
        assert (bool_decide (Exists (fun c => 57 < c) (c :: ds)) = bool_decide (Exists (fun c => 57 < c) ds)) as Eb.
        { apply bool_decide_ext. rewrite Exists_cons. split; [intros [?|?]; [lia|done]|by right]. }
        by rewrite Eb in Hmax.
      * cbn [length] in Hf. lia.
Qed.

Lemma skip_space_ok ws : forall m s c tail fuel, bytes_at m s (ws ++ c :: tail) -> Forall (fun c => c_isspace c = true) ws ->
  c_isspace (to_schar c) = false -> (length ws < fuel)%nat ->
  skip_space fuel s m = COk (s + Z.of_nat (length ws)) m.
Proof.
  induction ws as [|w ws IH]; intros m s c tail fuel Hs Hw Hc Hf; (destruct fuel as [|fuel]; [lia|]); cbn [skip_space].
  - apply bytes_at_cons in Hs as (_ & H0 & _). erewrite cbind_ok by (by apply ld_ok). rewrite Hc. unfold cret. f_equal. cbn. lia.
  - cbn in Hs. apply bytes_at_cons in Hs as (Hb & H0 & Hs). inversion Hw; subst.
    erewrite cbind_ok by (by apply ld_ok).
    assert (c_isspace (to_schar w) = true) as -> by (unfold c_isspace, to_schar, byte in *; lia).
    rewrite (IH m (s + 1) c tail fuel); try done; [|cbn in Hf; lia]. f_equal. cbn. lia.
Qed.

(** white space as isspace defines it *)
Definition space (c : Z) : Prop := c = 9 \/ c = 10 \/ c = 11 \/ c = 12 \/ c = 13 \/ c = 32.

(** parsing white space, an optional sign and a run of digits followed by
    anything that is no digit: the signed value and the place of the first
    character after the digits.  The value must leave room in an [int] for
    the addition of a character code; in base 16 no decimal digit may follow
    a letter (see the refutations) *)
Theorem C26_parse m s ws sign ds rest base fuel :
  cstr m s (ws ++ sign ++ ds ++ rest) -> parse_base base -> Forall space ws ->
  (sign = [] \/ sign = [43] \/ sign = [45]) ->
  digits_of_base base ds -> ds <> [] -> ends base rest -> letters_last ds ->
  value base ds <= 2147483647 - 87 -> (length ws + length ds < fuel)%nat ->
  abtol fuel s base m =
    COk (if bool_decide (sign = [45]) then - value base ds else value base ds,
         s + Z.of_nat (length ws + length sign + length ds)) m.
Proof.
  intros [Hs Hz] Hbase Hws Hsign Hd Hne Hend Hll Hval Hf. unfold abtol.
  assert (Hb0 : (base =? 0) = false) by (destruct Hbase as [->|[->|[->| ->]]]; done). rewrite Hb0.
  rewrite <- !app_assoc in Hs.
  destruct ds as [|c0 ds0] eqn:Eds; [done|]. rewrite <- Eds in *.
  assert (Hc0 : exists d, digit c0 = Some d). { subst ds. inversion Hd as [|? ? (d & Hc & _) _]. by exists d. }
  destruct Hc0 as [d0 Hc0]. pose proof (digit_range _ _ Hc0) as Hc0b.
  assert (Hc0r : c0 = 48 \/ 48 < c0 <= 122).
  { revert Hc0. unfold digit. destruct (_ && _) eqn:E1; [intros; lia|]. destruct ((97 <=? c0) && _) eqn:E2; [intros; lia|done]. }
  (* the first character after the white space *)
  assert (Hfirst : exists c tl, sign ++ ds ++ rest ++ [0] = c :: tl /\ c_isspace (to_schar c) = false).
  { destruct Hsign as [->|[->| ->]]; subst ds; cbn; eexists _, _; (split; [done|]); [|done|done].
    unfold c_isspace, to_schar in *. lia. }
  destruct Hfirst as (c & tl & Ec & Hcsp).
  assert (Hwsp : Forall (fun c => c_isspace c = true) ws).
  { eapply Forall_impl; [exact Hws|]. intros x Hx. unfold space, c_isspace in *. lia. }
  erewrite cbind_ok.
  2:{ apply (skip_space_ok ws m s c tl); [by rewrite <- Ec|done|done|lia]. }
  apply bytes_at_app in Hs as [_ Hs]. set (s1 := s + Z.of_nat (length ws)) in *.
  apply bytes_at_app in Hs as [Hsg Hs].
  assert (Htail : rest ++ [0] <> []) by by destruct rest.
  assert (Hend' : ends base (rest ++ [0])). { destruct rest; [|done]. cbn. by intros d [=]. }
  assert (Hloop : forall s2, bytes_at m s2 (ds ++ rest ++ [0]) ->
    abtol_loop fuel s2 0 48 base m = COk (value base ds, s2 + Z.of_nat (length ds)) m).
  { intros s2 Hs2. apply (abtol_loop_ok base ds Hbase m s2 0 48 (rest ++ [0])); try done.
    - by left. - cbn [Z.eqb Pos.eqb]. unfold value in Hval. unfold INT_MAX. destruct (bool_decide _); lia. - lia. }
  assert (Hv0 : 0 <= value base ds).
  { apply digits_value_mono; [destruct Hbase as [->|[->|[->| ->]]]; lia|done|lia]. }
  assert (Hhead : forall s2, bytes_at m s2 (ds ++ rest ++ [0]) -> m !! s2 = Some c0).
  { intros s2 Hs2. subst ds. cbn in Hs2. by apply bytes_at_cons in Hs2 as (_ & ? & _). }
  destruct Hsign as [->|[->| ->]].
  - cbn [length] in Hs. change (Z.of_nat 0) with 0 in Hs. rewrite Z.add_0_r in Hs.
    erewrite cbind_ok by (apply ld_ok, Hhead, Hs).
    assert (negb (to_schar c0 =? 0) && (to_schar c0 =? 43) = false) as -> by (unfold to_schar; lia).
    erewrite cbind_ok by (apply ld_ok, Hhead, Hs).
    assert (negb (to_schar c0 =? 0) && (to_schar c0 =? 45) = false) as -> by (unfold to_schar; lia).
    erewrite cbind_ok by (by apply Hloop). cbn. unfold cret. f_equal. f_equal. subst s1. lia.
  - apply bytes_at_cons in Hsg as (_ & H0 & _). cbn [length] in Hs. change (Z.of_nat 1) with 1 in Hs.
    erewrite cbind_ok by (by apply ld_ok). change (negb (to_schar 43 =? 0) && (to_schar 43 =? 43)) with true. cbn iota.
    erewrite cbind_ok by (apply ld_ok, Hhead, Hs).
    assert (negb (to_schar c0 =? 0) && (to_schar c0 =? 45) = false) as -> by (unfold to_schar; lia).
    erewrite cbind_ok by (by apply Hloop). cbn. unfold cret. f_equal. f_equal. subst s1. lia.
  - apply bytes_at_cons in Hsg as (_ & H0 & _). cbn [length] in Hs. change (Z.of_nat 1) with 1 in Hs.
    erewrite cbind_ok by (by apply ld_ok). change (negb (to_schar 45 =? 0) && (to_schar 45 =? 43)) with false. cbn iota.
    erewrite cbind_ok by (by apply ld_ok). change (negb (to_schar 45 =? 0) && (to_schar 45 =? 45)) with true. cbn iota.
    erewrite cbind_ok by (by apply Hloop). cbn [fst snd].
    erewrite cbind_ok. 2:{ apply c_int_ok. unfold in_int, INT_MIN, INT_MAX. lia. }
    unfold cret. f_equal. f_equal. subst s1. cbn [length]. lia.
Qed.

(** ** there and back *)
Lemma decimal_letters_last base bs : base <= 10 -> digits_of_base base bs -> letters_last bs.
Proof.
  intros Hb Hd. exists bs, []. split; [by rewrite app_nil_r|]. split; [|constructor].
  eapply Forall_impl; [exact Hd|]. intros c (d & Hc & Hdb). revert Hc. unfold digit.
  destruct (_ && _) eqn:E1; [intros; lia|]. destruct ((97 <=? c) && _) eqn:E2; [|done]. intros [= <-]. lia.
Qed.

(** in the bases 2, 8 and 10: what ltoab formats, abtol reads back, for every
    number whose text fits the buffer and whose magnitude leaves 87 below the
    largest [int] *)
Theorem C26_round_trip m buf x base fuel :
  buffer m buf -> base = 2 \/ base = 8 \/ base = 10 -> (64 <= fuel)%nat ->
  Z.abs x <= 2147483647 - 87 -> Z.abs x < base ^ (if x <? 0 then 10 else 11) ->
  exists p m' e, ltoab fuel buf x base m = COk p m' /\ abtol fuel p base m' = COk (x, e) m' /\
    m' !! e = Some 0.
Proof.
  intros Hb Hbase Hf Hx Hfit. unfold ltoab.
  assert (Hbr : 2 <= base <= 10) by (destruct Hbase as [->|[->| ->]]; lia).
  assert (to_u32 base = base) as -> by (unfold to_u32, two32; apply Z.mod_small; lia).
  destruct (C26_format m buf x base true fuel) as (p & bs & m' & E & Hs & Ht & _); try done.
  - lia.
  - unfold in_long, LONG_MIN, LONG_MAX. lia.
  - unfold magnitude, minus. cbn [andb]. destruct (x <? 0); exact Hfit.
  - exists p, m'. cbn iota in Ht. unfold text in Ht.
    assert (Hpb : parse_base base) by (unfold parse_base; tauto).
    assert (Hgo : forall ds sign, numeral base ds (Z.abs x) -> bs = sign ++ ds -> (sign = [] /\ 0 <= x \/ sign = [45] /\ x < 0) ->
      exists e, ntoab fuel buf x base true m = COk p m' /\ abtol fuel p base m' = COk (x, e) m' /\ m' !! e = Some 0).
    { intros ds sign (Hd & Hv & Hne & Hlead) -> Hsign.
      assert (Hlen : (length ds <= 11)%nat).
      { apply (numeral_length base ds (Z.abs x)); [lia|done|lia|]. change (Z.of_nat 11) with 11.
        destruct (x <? 0); [|done]. eapply Z.lt_le_trans; [exact Hfit|]. apply Z.pow_le_mono_r; lia. }
      pose proof (C26_parse m' p [] sign ds [] base fuel) as HP. cbn [app length] in HP. rewrite app_nil_r in HP.
      rewrite HP; try done.
      - eexists. split; [exact E|]. split.
        + f_equal. f_equal. destruct Hsign as [[-> ?]|[-> ?]].
          * rewrite bool_decide_eq_false_2 by done. lia.
          * rewrite bool_decide_eq_true_2 by done. lia.
        + destruct Hs as [Hs _]. apply bytes_at_app in Hs as [_ Hs]. apply bytes_at_cons in Hs as (_ & H0 & _).
          rewrite app_length in H0. rewrite <- H0. f_equal.
      - destruct Hsign as [[-> _]|[-> _]]; tauto.
      - apply (decimal_letters_last base); [lia|done].
      - lia.
      - lia. }
    destruct (Z.ltb_spec x 0) as [Hneg|Hpos].
    + destruct Ht as (ds & -> & Hn). replace (- x) with (Z.abs x) in Hn by lia.
      by apply (Hgo ds [45] Hn eq_refl); right.
    + replace x with (Z.abs x) in Ht by lia. by apply (Hgo bs [] Ht eq_refl); left.
Qed.

(** ** what is false *)
Definition num_mem : gmap Z Z :=
  blit 100 [48; 120; 97; 49; 0] (blit 200 [50; 49; 52; 55; 52; 56; 51; 54; 52; 55; 0] (blit 300 (replicate 20 7) ∅)).

(** the hexadecimal numeral a1 is 161, but the digit offset of a letter stays
    in force for the digits after it *)
Theorem C26_hexadecimal_refuted :
  ~ (forall m s ds fuel, cstr m s ds -> digits_of_base 16 ds -> ds <> [] -> value 16 ds <= 2147483647 - 87 ->
       (length ds < fuel)%nat ->
       abtol fuel s 16 m = COk (value 16 ds, s + Z.of_nat (length ds)) m) /\
  (exists m', strtol 20 100 10 num_mem = COk (122, 104) m').
Proof.
  split.
  - intros H. assert (E : abtol 20 102 16 num_mem = COk (122, 104) num_mem) by (vm_compute; reflexivity).
    rewrite (H num_mem 102 [97; 49] 20%nat) in E.
    + apply (f_equal (fun r : cres (Z * Z) => match r with COk a _ => fst a | _ => 0 end)) in E.
      revert E. vm_compute. discriminate.
    + split; [|refine (bool_decide_eq_true_1 _ _); vm_compute; reflexivity].
      split; [repeat constructor; unfold byte; lia|].
      intros [|[|[|i]]] b Hi; cbn in Hi; try (injection Hi as <-); try done; vm_compute; reflexivity.
    + repeat constructor; eexists; (split; [vm_compute; reflexivity|lia]).
    + done.
    + vm_compute. discriminate.
    + cbn; lia.
  - eexists. vm_compute. reflexivity.
Qed.

(** the largest [int] cannot be parsed without signed overflow: the character
    code is added before its offset is taken off *)
Theorem C26_largest_int_refuted :
  atoi 20 200 num_mem = CUB /\
  exists p m', itoa 64 300 2147483647 num_mem = COk p m' /\ atoi 64 p m' = CUB.
Proof.
  split; [vm_compute; reflexivity|].
  destruct (itoa 64 300 2147483647 num_mem) as [p m'| | |] eqn:E.
  - exists p, m'. split; [reflexivity|].
    assert (match itoa 64 300 2147483647 num_mem with COk p m' => atoi 64 p m' | _ => CFuel end = CUB) as H by (vm_compute; reflexivity).
    rewrite E in H. exact H.
  - exfalso. revert E. vm_compute. discriminate.
  - exfalso. revert E. vm_compute. discriminate.
  - exfalso. revert E. vm_compute. discriminate.
Qed.

(** a base other than 2, 8, 10 and 16 is undefined whatever the text *)
Theorem C26_other_base_refuted m s bs base fuel : cstr m s bs -> Forall (fun c => ~ space c) bs -> (2 < fuel)%nat ->
  base <> 0 -> ~ parse_base base -> abtol fuel s base m = CUB.
Proof.
  intros [Hs Hz] Hsp Hf Hb0 Hnb. unfold abtol. rewrite (proj2 (Z.eqb_neq _ _) Hb0).
  assert (Hnum : forall c, isnumber c base = cub).
  { intros c. unfold isnumber, parse_base in *.
    destruct (Z.eqb_spec base 2); [tauto|]. destruct (Z.eqb_spec base 8); [tauto|].
    destruct (Z.eqb_spec base 10); [tauto|]. destruct (Z.eqb_spec base 16); [tauto|]. done. }
  assert (Hc : exists c tl, bs ++ [0] = c :: tl /\ c_isspace (to_schar c) = false).
  { destruct bs as [|c bs]; cbn; eexists _, _; (split; [done|]); [done|].
    inversion Hsp as [|? ? Hc _]; subst. apply bytes_at_cons in Hs as (Hb & _ & _).
    unfold space, c_isspace, to_schar, byte in *. lia. }
  destruct Hc as (c & tl & Ec & Hcs). rewrite Ec in Hs.
  erewrite cbind_ok. 2:{ apply (skip_space_ok [] m s c tl); [exact Hs|constructor|done|cbn; lia]. }
  cbn [length]. change (Z.of_nat 0) with 0. rewrite Z.add_0_r.
  assert (Hloop : forall p, is_Some (m !! p) -> abtol_loop fuel p 0 48 base m = CUB).
  { intros p [b Hp]. destruct fuel; [lia|]. cbn [abtol_loop]. erewrite cbind_ok by (by apply ld_ok). by rewrite Hnum. }
  pose proof Hs as Hs'. apply bytes_at_cons in Hs' as (Hcb & Hc & Htl).
  assert (Hnext : forall i c' tl', drop i (bs ++ [0]) = c' :: tl' -> c' <> 0 -> exists c2 tl2, drop (S i) (bs ++ [0]) = c2 :: tl2).
  { intros i c' tl' Hdr Hc'. assert (Hl : (i < length bs)%nat).
    { destruct (Nat.lt_ge_cases i (length bs)); [done|]. destruct (decide (i = length bs)) as [->|].
      - rewrite drop_app in Hdr. injection Hdr as <-. done.
      - rewrite drop_ge in Hdr; [done|]. rewrite app_length. cbn. lia. }
    destruct (drop (S i) (bs ++ [0])) eqn:E; [|by eexists _, _].
    apply (f_equal length) in E. rewrite drop_length, app_length in E. cbn in E. lia. }
  rewrite <- Ec in Hs. destruct Hs as [_ Hs].
  assert (Hat : forall i c' tl', drop i (bs ++ [0]) = c' :: tl' -> m !! (s + Z.of_nat i) = Some c').
  { intros i c' tl' Hdr. apply Hs. rewrite <- (Nat.add_0_r i), <- lookup_drop, Hdr. done. }
  erewrite cbind_ok by (by apply ld_ok).
  destruct (negb (to_schar c =? 0) && (to_schar c =? 43)) eqn:Ep.
  - assert (c <> 0). { intros ->. done. }
    destruct (Hnext O c tl Ec ltac:(done)) as (c2 & tl2 & E2). pose proof (Hat 1%nat _ _ E2) as H2.
    change (Z.of_nat 1) with 1 in H2. erewrite cbind_ok by (by apply ld_ok).
    destruct (negb (to_schar c2 =? 0) && (to_schar c2 =? 45)) eqn:Em.
    + assert (c2 <> 0). { intros ->. done. }
      destruct (Hnext 1%nat c2 tl2 E2 ltac:(done)) as (c3 & tl3 & E3). pose proof (Hat 2%nat _ _ E3) as H3.
      change (Z.of_nat 2) with 2 in H3. unfold cbind. rewrite Hloop; [done|].
      replace (s + 1 + 1) with (s + 2) by lia. by eexists.
    + unfold cbind. rewrite Hloop; [done|by eexists].
  - erewrite cbind_ok by (by apply ld_ok).
    destruct (negb (to_schar c =? 0) && (to_schar c =? 45)) eqn:Em.
    + assert (c <> 0). { intros ->. done. }
      destruct (Hnext O c tl Ec ltac:(done)) as (c2 & tl2 & E2). pose proof (Hat 1%nat _ _ E2) as H2.
      change (Z.of_nat 1) with 1 in H2. unfold cbind. rewrite Hloop; [done|by eexists].
    + unfold cbind. rewrite Hloop; [done|by eexists].
Qed.

(** the hypotheses hold of an ordinary buffer and number, and the round trip runs *)
Example num_hypotheses_hold :
  buffer num_mem 300 /\ 2 <= 10 <= 36 /\ in_long (-1234567) = true /\
  magnitude (-1234567) true < 10 ^ (11 - Z.of_nat (minus (-1234567) true)) /\
  (exists p m', ltoab 64 300 (-1234567) 10 num_mem = COk p m' /\ cstr m' p [45; 49; 50; 51; 52; 53; 54; 55]) /\
  (10 ^ (11 - Z.of_nat (minus 123456789012 true)) <= magnitude 123456789012 true).
Proof.
  split; [|split; [lia|split; [done|split; [vm_compute; reflexivity|split; [|vm_compute; discriminate]]]]].
  - split; [|vm_compute; reflexivity]. intros i Hi.
    do 20 (destruct i as [|i]; [eexists; vm_compute; reflexivity|]). lia.
  - destruct (C26_format num_mem 300 (-1234567) 10 true 64) as (p & bs & m' & E & Hs & Ht & _).
    + split; [|vm_compute; reflexivity]. intros i Hi.
      do 20 (destruct i as [|i]; [eexists; vm_compute; reflexivity|]). lia.
    + lia. + done. + done. + vm_compute; reflexivity.
    + exists p, m'. split; [exact E|].
      assert (H : match ltoab 64 300 (-1234567) 10 num_mem with COk p m' => forallb (fun i => match m' !! (p + Z.of_nat i), [45; 49; 50; 51; 52; 53; 54; 55; 0] !! i with Some a, Some b => a =? b | _, _ => false end) (seq 0 9) | _ => false end = true) by (vm_compute; reflexivity).
      revert H. unfold ltoab. change (to_u32 10) with 10. rewrite E. intros H.
      split; [|refine (bool_decide_eq_true_1 _ _); vm_compute; reflexivity]. split; [repeat constructor; unfold byte; lia|].
      intros i b Hi. rewrite forallb_forall in H. specialize (H i). rewrite in_seq in H.
      pose proof (lookup_lt_Some _ _ _ Hi) as Hlt. cbn in Hlt. specialize (H ltac:(lia)).
      change ([45; 49; 50; 51; 52; 53; 54; 55] ++ [0]) with [45; 49; 50; 51; 52; 53; 54; 55; 0] in Hi.
      rewrite Hi in H. destruct (m' !! (p + Z.of_nat i)); [f_equal; lia|done].
Qed.

Print Assumptions C26_format.
Print Assumptions C26_format_overruns.
Print Assumptions C26_parse.
Print Assumptions C26_round_trip.
Print Assumptions C26_hexadecimal_refuted.
