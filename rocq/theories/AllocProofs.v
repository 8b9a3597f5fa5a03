(** The allocator: lemmas. *)
From stdpp Require Import base gmap list.
From Coq Require Import ZArith Lia.
From Coq Require Import ZifyBool ZifyNat.
From Verif Require Import CInt LibModel LibSpec LibProofs PropsLib AllocModel AllocSpec.
Open Scope Z_scope. Open Scope proc_scope.
Ltac Zify.zify_post_hook ::= Z.div_mod_to_equations.

Lemma pbind_ok {A B} (c : PM A) (k : A -> PM B) p a p' : c p = POk a p' -> pbind c k p = k a p'.
Proof. intros E. unfold pbind. by rewrite E. Qed.
(** evaluating a call: [f] tells of the answer and the process after it *)
Lemma run_check {A} (c : pres A) (f : A -> proc -> bool) :
  match c with POk a p => f a p | _ => false end = true -> exists a p, c = POk a p /\ f a p = true.
Proof. destruct c as [a p| |]; [|done|done]. intros H. by exists a, p. Qed.
Lemma lib_ok {A} (c : CM A) p a m : c (pmem p) = COk a m -> lib c p = POk a (Proc m (pbrk p) (kbrk p) (slots p)).
Proof. intros E. unfold lib. by rewrite E. Qed.
Lemma lib_same {A} (c : CM A) p a : c (pmem p) = COk a (pmem p) -> lib c p = POk a p.
Proof. intros E. rewrite (lib_ok _ _ _ _ E). by destruct p. Qed.

Lemma map_zero_lookup n : forall a m q,
  map_zero n a m !! q = if (a <=? q) && (q <? a + Z.of_nat n) then Some 0 else m !! q.
Proof.
  induction n as [|n IH]; intros a m q; cbn [map_zero].
  - destruct ((a <=? q) && (q <? a + Z.of_nat 0)) eqn:E; [lia|done].
  - destruct (Z.eqb_spec q a) as [->|Hne].
    + rewrite lookup_insert. by destruct ((a <=? a) && (a <? a + Z.of_nat (S n))) eqn:E; [|lia].
    + rewrite lookup_insert_ne by done. rewrite IH.
      destruct ((a + 1 <=? q) && _) eqn:E1, ((a <=? q) && _) eqn:E2; lia || done.
Qed.

(** rounding up to a multiple of 8 *)
Lemma aligned_ok b : 0 <= b -> b + 8 <= LONG_MAX -> aligned b = (b + 7) / 8 * 8.
Proof.
  intros Hb Hl. unfold aligned, LONG_MAX in *. rewrite to_u64_id by (unfold two64; lia).
  replace (to_u64 (-8)) with (Z.shiftl (Z.ones 61) 3) by reflexivity.
  replace (b + 8 - 1) with (b + 7) by lia.
  rewrite <- (Z.shiftl_mul_pow2 _ 3) by lia. rewrite <- (Z.shiftr_div_pow2 _ 3) by lia.
  apply Z.bits_inj'. intros n Hn. rewrite Z.land_spec.
  destruct (Z.ltb_spec n 3).
  - rewrite !Z.shiftl_spec_low by lia. by rewrite andb_false_r.
  - rewrite !Z.shiftl_spec by lia. rewrite Z.shiftr_spec by lia. rewrite Z.sub_add.
    rewrite Z.testbit_ones by lia.
    destruct (Z.ltb_spec (n - 3) 61).
    + replace (0 <=? n - 3) with true by lia. by rewrite andb_true_r.
    + rewrite !andb_false_r. symmetry. apply Z.bits_above_log2; [lia|].
      assert (b + 7 < 2 ^ 63) by (change (2 ^ 63) with 9223372036854775808; lia).
      destruct (Z.eq_dec (b + 7) 0); [lia|]. assert (Z.log2 (b + 7) < 63) by (apply Z.log2_lt_pow2; lia). lia.
Qed.

(** a forward copy: what it changes, and what it copies before the source is overwritten *)
Lemma memcpy_loop_runs n : forall m d s,
  room m s n -> room m d n ->
  exists m', memcpy_loop n d s m = COk tt m' /\
    (forall q, (q < d \/ d + Z.of_nat n <= q) -> m' !! q = m !! q) /\
    (forall q, d <= q < d + Z.of_nat n -> exists b, m' !! q = Some b /\ byte b).
Proof.
  induction n as [|n IH]; intros m d s Hs Hd; cbn [memcpy_loop].
  - exists m. split; [done|]. split; [done|]. lia.
  - apply room_cons in Hs as [[b Hb] Hs]. apply room_cons in Hd as [Hd0 Hd].
    rewrite (cbind_ok _ _ _ _ _ (ld_ok _ _ _ Hb)), (cbind_ok _ _ _ _ _ (st_ok _ _ _ Hd0)).
    destruct (IH (<[d := to_byte (to_schar b)]> m) (d + 1) (s + 1)) as (m' & E & H1 & H2); [by apply room_insert..|].
    exists m'. split; [done|]. split.
    + intros q Hq. rewrite H1 by lia. by rewrite lookup_insert_ne by lia.
    + intros q Hq. destruct (Z.eq_dec q d) as [->|]; [|apply H2; lia].
      rewrite H1 by lia. rewrite lookup_insert. eexists. split; [done|]. apply byte_to_byte.
Qed.

Lemma memcpy_loop_app a : forall b m d s,
  memcpy_loop (a + b) d s m
  = cbind (memcpy_loop a d s) (fun _ => memcpy_loop b (d + Z.of_nat a) (s + Z.of_nat a)) m.
Proof.
  induction a as [|a IH]; intros b m d s; cbn [memcpy_loop Nat.add].
  - unfold cbind, cret. by rewrite !Z.add_0_r.
  - unfold cbind. destruct (ld s m) as [v m1| | |]; [|done..]. destruct (st d v m1) as [u m2| | |]; [|done..].
    rewrite IH. unfold cbind. replace (d + 1 + Z.of_nat a) with (d + Z.of_nat (S a)) by lia.
    by replace (s + 1 + Z.of_nat a) with (s + Z.of_nat (S a)) by lia.
Qed.

Section Alloc.
Context (page kstart limit : Z).
Hypothesis Hpage : 0 < page.
Hypothesis Hstart : 0 < kstart.
Hypothesis Hlimit : limit + page + 16 <= LONG_MAX.

Notation page_up := (page_up page).

Lemma page_up_ge z : z <= page_up z.
Proof. unfold AllocModel.page_up. nia. Qed.
Lemma page_up_lt z : page_up z < z + page.
Proof. unfold AllocModel.page_up. nia. Qed.
Lemma page_up_mono a b : a <= b -> page_up a <= page_up b.
Proof.
  intros. unfold AllocModel.page_up.
  assert ((a + (page - 1)) / page <= (b + (page - 1)) / page) by (apply Z.div_le_mono; lia). nia.
Qed.

Notation heap_ok := (heap_ok page kstart limit).

(** [malloc] of a size the kernel grants *)
Lemma malloc_ok size p :
  heap_ok p -> 0 <= size -> (cur p + 7) / 8 * 8 + size <= limit ->
  exists p', let a := (cur p + 7) / 8 * 8 in
    malloc page kstart limit size p = POk a p' /\ heap_ok p' /\ cur p' = a + size /\ slots p' = slots p /\
    (forall q, (q < page_up (cur p) \/ page_up limit <= q) -> pmem p' !! q = pmem p !! q).
Proof.
  intros [Hc Hb Hm] Hs Hl. set (a := (cur p + 7) / 8 * 8) in *. cbn zeta.
  assert (cur p <= a < cur p + 8) as Ha by lia.
  unfold LONG_MAX in *.
  set (p1 := Proc (pmem p) (cur p) (kbrk p) (slots p)).
  assert ((if pbrk p =? 0 then b <- brk page kstart limit 0 ;; set_brk b else pret tt) p = POk tt p1) as E1.
  { unfold cur in p1. destruct (Z.eqb_spec (pbrk p) 0).
    - unfold brk, pbind. assert ((0 <? kstart) || (limit <? 0) = true) as -> by lia. done.
    - unfold pret. subst p1. by destruct p. }
  unfold malloc. rewrite (pbind_ok _ _ _ _ _ E1).
  assert (aligned (pbrk p1) = a) as ->.
  { cbn. apply aligned_ok; [lia|unfold LONG_MAX; lia]. }
  cbn zeta. rewrite to_u64_id by (unfold two64; lia).
  set (p2 := Proc (pmem p) a (kbrk p) (slots p)).
  rewrite (pbind_ok (set_brk a) _ p1 tt p2) by done.
  set (m := map_zero (Z.to_nat (page_up (a + size) - page_up (kbrk p))) (page_up (kbrk p)) (pmem p)).
  pose proof (page_up_mono (kbrk p) (a + size) ltac:(lia)) as Hmono.
  pose proof (page_up_mono (a + size) limit ltac:(lia)) as Hmono2.
  rewrite (pbind_ok _ _ p2 (a + size) (Proc m a (a + size) (slots p))).
  2: { unfold brk. assert ((a + size <? kstart) || (limit <? a + size) = false) as -> by lia.
       cbn [kbrk p2 pmem pbrk slots]. assert (page_up (kbrk p) <=? page_up (a + size) = true) as -> by lia. done. }
  rewrite to_s64_id by (unfold in_long, LONG_MIN, LONG_MAX; lia).
  destruct (Z.eqb_spec (a + size) (-1)); [lia|].
  eexists. split; [reflexivity|]. cbn [kbrk pmem pbrk slots].
  assert (forall q, m !! q = if (page_up (kbrk p) <=? q) && (q <? page_up (a + size)) then Some 0 else pmem p !! q) as Hlk.
  { intros q. unfold m. rewrite map_zero_lookup. by replace (page_up (kbrk p) + _) with (page_up (a + size)) by lia. }
  split; [|split; [|split; [done|]]].
  - split; cbn [kbrk pmem pbrk slots].
    + unfold cur. cbn. by destruct (a + size =? 0).
    + lia.
    + intros q Hq. rewrite Hlk. destruct ((page_up (kbrk p) <=? q) && _) eqn:E.
      * exists 0. split; [done|]. unfold byte. lia.
      * apply Hm. lia.
  - unfold cur. cbn. destruct (Z.eqb_spec (a + size) 0); [lia|done].
  - intros q Hq. rewrite Hlk. rewrite Hc in Hq. destruct ((page_up (kbrk p) <=? q) && _) eqn:E; [lia|done].
Qed.

Lemma heap_room p a n : heap_ok p -> kstart <= a -> a + Z.of_nat n <= cur p -> room (pmem p) a n.
Proof.
  intros [Hc Hb Hm] Ha Hn i Hi. pose proof (page_up_ge (kbrk p)).
  destruct (Hm (a + Z.of_nat i)) as (b & Eb & _); [lia|]. by exists b.
Qed.

Lemma heap_bytes n : forall p a, heap_ok p -> kstart <= a -> a + Z.of_nat n <= cur p ->
  exists bs, length bs = n /\ bytes_at (pmem p) a bs.
Proof.
  induction n as [|n IH]; intros p a Hp Ha Hn.
  - exists []. split; [done|]. apply bytes_at_nil.
  - destruct (IH p (a + 1) Hp ltac:(lia) ltac:(lia)) as (bs & Hl & Hbs).
    pose proof Hp as [Hc Hb Hm]. pose proof (page_up_ge (kbrk p)).
    destruct (Hm a) as (b & Eb & Hbb); [lia|].
    exists (b :: bs). split; [cbn; lia|]. by apply bytes_at_cons.
Qed.

(** a store that stays inside the heap *)
Lemma heap_ok_mem p m :
  heap_ok p ->
  (forall q, kstart <= q < page_up (kbrk p) -> exists b, m !! q = Some b /\ byte b) ->
  heap_ok (Proc m (pbrk p) (kbrk p) (slots p)).
Proof. intros [Hc Hb Hm] H. split; done. Qed.

(** the table of blocks, in memory *)
Record table_ok (p : proc) (ptrs : list Z) (B : list block) : Prop := {
  to_heap : heap_ok p;
  to_out : laid_out (pmem p) ptrs B;
  to_below : forall i q bs, ptrs !! i = Some q -> B !! i = Some (Block bs true) ->
    kstart <= q /\ q + Z.of_nat (length bs) <= cur p;
}.

Lemma table_new p p' ptrs B a bs :
  table_ok p ptrs B -> heap_ok p' ->
  a mod 8 = 0 -> cur p <= a -> a + Z.of_nat (length bs) <= cur p' ->
  (forall q, kstart <= q < cur p -> pmem p' !! q = pmem p !! q) ->
  bytes_at (pmem p') a bs ->
  table_ok p' (ptrs ++ [a]) (B ++ [Block bs true]).
Proof.
  intros [Hh [Ho1 Ho2 Ho3 Ho4] Hb] Hh' Ha Hca Hca' Hm Hbs.
  assert (kstart <= cur p) by (destruct Hh; lia).
  assert (forall i q cs, (ptrs ++ [a]) !! i = Some q -> (B ++ [Block bs true]) !! i = Some (Block cs true) ->
     (ptrs !! i = Some q /\ B !! i = Some (Block cs true)) \/ (i = length ptrs /\ q = a /\ cs = bs)) as Hcase.
  { intros i q cs H1 H2. apply lookup_app_Some in H1 as [H1|[Hl H1]].
    - left. split; [done|]. rewrite lookup_app_l in H2; [done|]. rewrite <- Ho1. by eapply lookup_lt_Some.
    - right. rewrite lookup_app_r in H2 by lia. rewrite <- Ho1 in H2.
      destruct (i - length ptrs)%nat eqn:E; [|done]. cbn in *. split; [lia|].
      by injection H1 as ->; injection H2 as ->. }
  split; [done|split|].
  - rewrite !app_length. cbn. lia.
  - intros i q cs H1 H2. destruct (Hcase _ _ _ H1 H2) as [[]|(-> & -> & ->)]; [by eapply Ho2|]. lia.
  - intros i q cs H1 H2. destruct (Hcase _ _ _ H1 H2) as [[K1 K2]|(-> & -> & ->)]; [|done].
    destruct (Hb _ _ _ K1 K2). eapply bytes_at_agree; [by eapply Ho3|]. intros i' Hi'. apply Hm. lia.
  - intros i j q r cs ds Hij H1 H2 H3 H4.
    destruct (Hcase _ _ _ H1 H2) as [[K1 K2]|(-> & -> & ->)], (Hcase _ _ _ H3 H4) as [[K3 K4]|(-> & -> & ->)].
    + by eapply (Ho4 i j).
    + destruct (Hb _ _ _ K1 K2). unfold apart. lia.
    + destruct (Hb _ _ _ K3 K4). unfold apart. lia.
    + done.
  - intros i q cs H1 H2. destruct (Hcase _ _ _ H1 H2) as [[K1 K2]|(-> & -> & ->)]; [|lia].
    destruct (Hb _ _ _ K1 K2). lia.
Qed.

Lemma table_kill p ptrs B i bs :
  table_ok p ptrs B -> B !! i = Some (Block bs true) -> table_ok p ptrs (<[i := Block bs false]> B).
Proof.
  intros [Hh [Ho1 Ho2 Ho3 Ho4] Hb] Hi.
  assert (forall j cs, <[i := Block bs false]> B !! j = Some (Block cs true) -> B !! j = Some (Block cs true)) as Hc.
  { intros j cs H. destruct (decide (i = j)) as [->|]; [|by rewrite list_lookup_insert_ne in H].
    rewrite list_lookup_insert in H; [done|]. by eapply lookup_lt_Some. }
  split; [done|split|].
  - by rewrite insert_length.
  - intros j q cs H1 H2. by eapply Ho2; [|apply Hc].
  - intros j q cs H1 H2. by eapply Ho3; [|apply Hc].
  - intros j k q r cs ds Hjk H1 H2 H3 H4. eapply (Ho4 j k); [done|done|by apply Hc|done|by apply Hc].
  - intros j q cs H1 H2. by eapply Hb; [|apply Hc].
Qed.

(** one call *)
Lemma do_aop_ok o p ptrs B :
  table_ok p ptrs B -> permitted B o -> cur p + need o <= limit ->
  exists ptrs' p' B', do_aop page kstart limit o ptrs p = POk ptrs' p' /\ step B o B' /\
    table_ok p' ptrs' B' /\ cur p' <= cur p + need o /\
    (forall q, (q < kstart \/ page_up limit <= q) -> pmem p' !! q = pmem p !! q) /\ slots p' = slots p.
Proof.
  intros Ht Hp Hn. pose proof (to_heap _ _ _ Ht) as Hh. pose proof Hh as [Hc Hb Hm].
  assert (kstart <= cur p) as Hks by lia.
  pose proof (page_up_ge (cur p)) as Hpu.
  unfold LONG_MAX in Hlimit.
  destruct o as [n|x y|i n|i|i k v]; cbn [do_aop permitted need] in *.
  - destruct (malloc_ok n p Hh ltac:(lia) ltac:(lia)) as (p' & E & Hh' & Hc' & Hsl & Hmem). cbn zeta in *.
    set (a := (cur p + 7) / 8 * 8) in *.
    destruct (heap_bytes (Z.to_nat n) p' a Hh' ltac:(lia) ltac:(lia)) as (bs & Hl & Hbs).
    rewrite (pbind_ok _ _ _ _ _ E).
    eexists _, p', _. split; [reflexivity|]. split; [apply (step_malloc _ n bs); lia|].
    split; [|split; [lia|split; [|done]]].
    + eapply table_new; try done; try lia. intros q Hq. apply Hmem. lia.
    + intros q Hq. apply Hmem. lia.
  - assert (to_u64 (x * y) = x * y) as Eu by (apply to_u64_id; unfold two64; nia).
    unfold calloc. rewrite Eu.
    destruct (malloc_ok (x * y) p Hh ltac:(nia) ltac:(lia)) as (p' & E & Hh' & Hc' & Hsl & Hmem). cbn zeta in *.
    set (a := (cur p + 7) / 8 * 8) in *.
    assert (0 <= x * y) by nia.
    pose proof (heap_room p' a (Z.to_nat (x * y)) Hh' ltac:(lia) ltac:(lia)) as Hr.
    destruct (C27_memset (pmem p') a 0 (Z.to_nat (x * y)) Hr) as (m' & Es & Hpat).
    rewrite Z2Nat.id in Es by lia. change (0 mod 256) with 0 in Hpat.
    unfold pbind at 1 2. rewrite E. rewrite (pbind_ok _ _ _ _ _ (lib_ok _ _ _ _ Es)).
    assert (length (replicate (Z.to_nat (x * y)) 0) = Z.to_nat (x * y)) as Hlr by apply replicate_length.
    assert (forall q, m' !! q = if (a <=? q) && (q <? a + x * y) then Some 0 else pmem p' !! q) as Hm'.
    { intros q. rewrite Hpat, Hlr. rewrite Z2Nat.id by lia.
      destruct ((a <=? q) && _) eqn:Eq; [|done]. rewrite lookup_replicate_2; [done|lia]. }
    eexists _, _, _. split; [reflexivity|]. split; [apply step_calloc|].
    cbn [pbrk kbrk slots pmem].
    assert (heap_ok (Proc m' (pbrk p') (kbrk p') (slots p'))) as Hh''.
    { apply heap_ok_mem; [done|]. intros q Hq. rewrite Hm'.
      destruct ((a <=? q) && _); [exists 0; split; [done|unfold byte; lia]|]. by apply Hh'. }
    assert (cur (Proc m' (pbrk p') (kbrk p') (slots p')) = cur p') as Ec by done.
    split; [|split; [rewrite Ec; lia|split; [|done]]].
    + eapply table_new; try done; try (rewrite ?Hlr, ?Ec; lia).
      * intros q Hq. cbn. rewrite Hm'. destruct ((a <=? q) && _) eqn:Eq; [lia|]. apply Hmem. lia.
      * cbn. split; [apply Forall_replicate; unfold byte; lia|].
        intros j b Hj. apply lookup_replicate in Hj as [-> Hj]. rewrite Hm'.
        destruct ((a <=? a + Z.of_nat j) && _) eqn:Eq; [done|lia].
    + intros q Hq. rewrite Hm'. pose proof (page_up_ge limit).
      destruct ((a <=? q) && _) eqn:Eq; [lia|]. apply Hmem. lia.
  - destruct Hp as (Hn0 & bs & Hi).
    pose proof (lo_length _ _ _ (to_out _ _ _ Ht)) as Hlen.
    destruct (ptrs !! i) as [q0|] eqn:Eq0.
    2: { apply lookup_ge_None_1 in Eq0. apply lookup_lt_Some in Hi. lia. }
    destruct (to_below _ _ _ Ht _ _ _ Eq0 Hi) as [Hlo Hhi].
    destruct (malloc_ok n p Hh ltac:(lia) ltac:(lia)) as (p' & E & Hh' & Hc' & Hsl & Hmem). cbn zeta in *.
    set (a := (cur p + 7) / 8 * 8) in *.
    unfold realloc. unfold pbind at 1 2. rewrite E.
    assert (negb (q0 =? 0) && negb (a =? 0) = true) as -> by lia.
    set (k := Nat.min (length bs) (Z.to_nat n)).
    assert (bytes_at (pmem p') q0 (take k bs)) as Hsrc.
    { apply bytes_at_take. eapply bytes_at_agree; [by eapply (lo_bytes _ _ _ (to_out _ _ _ Ht))|].
      intros j Hj. apply Hmem. lia. }
    assert (length (take k bs) = k) as Hlk by (rewrite take_length; lia).
    assert (memcpy_loop k a q0 (pmem p') = COk tt (blit a (take k bs) (pmem p'))) as Ek.
    { rewrite <- Hlk at 1. apply memcpy_loop_ok; [done| |].
      - rewrite Hlk. apply heap_room; [done|lia|lia].
      - rewrite Hlk. lia. }
    destruct (memcpy_loop_runs (Z.to_nat n - k) (blit a (take k bs) (pmem p')) (a + Z.of_nat k) (q0 + Z.of_nat k)) as (m' & Em & Hm1 & Hm2).
    { apply room_blit. apply heap_room; [done|lia|lia]. }
    { apply room_blit. apply heap_room; [done|lia|lia]. }
    assert (memcpy a q0 n (pmem p') = COk a m') as Ecpy.
    { unfold memcpy. replace (Z.to_nat n) with (k + (Z.to_nat n - k))%nat by lia.
      erewrite cbind_ok; [reflexivity|]. rewrite memcpy_loop_app. rewrite (cbind_ok _ _ _ _ _ Ek). done. }
    unfold pbind at 1 2. rewrite (lib_ok _ _ _ _ Ecpy). cbn [free pret].
    assert (forall q, (q < a \/ a + n <= q) -> m' !! q = pmem p' !! q) as Hout.
    { intros q Hq. rewrite Hm1 by lia. apply blit_outside. rewrite Hlk. lia. }
    assert (forall q, a <= q < a + n -> exists b, m' !! q = Some b /\ byte b) as Hin.
    { intros q Hq. destruct (Z.ltb_spec q (a + Z.of_nat k)).
      - rewrite Hm1 by lia. pose proof (blit_lookup a (take k bs) (pmem p') q) as Hb1. rewrite Hb1, Hlk. clear Hb1.
        assert ((a <=? q) && (q <? a + Z.of_nat k) = true) as -> by lia.
        destruct (take k bs !! Z.to_nat (q - a)) as [b|] eqn:Eb.
        + exists b. split; [done|]. destruct Hsrc as [Hf _]. by eapply Forall_lookup_1 in Hf.
        + apply lookup_ge_None_1 in Eb. lia.
      - apply Hm2. lia. }
    set (p2 := Proc m' (pbrk p') (kbrk p') (slots p')).
    assert (heap_ok p2) as Hh2.
    { apply heap_ok_mem; [done|]. intros q Hq. destruct (Z.ltb_spec q a); [rewrite Hout by lia; by apply Hh'|].
      destruct (Z.ltb_spec q (a + n)); [apply Hin; lia|rewrite Hout by lia; by apply Hh']. }
    assert (cur p2 = cur p') as Ec by done.
    destruct (heap_bytes (Z.to_nat n) p2 a Hh2 ltac:(lia) ltac:(lia)) as (bs' & Hl & Hbs').
    eexists _, p2, _. split; [reflexivity|]. split.
    { apply (step_realloc _ _ _ bs bs'); [done|lia|].
      apply list_eq. intros j.
      destruct (decide (j < length bs)%nat) as [Hj|Hj]; cycle 1.
      { rewrite !lookup_ge_None_2; [done|rewrite take_length; lia..]. }
      rewrite lookup_take by lia.
      destruct (decide (j < Z.to_nat n)%nat) as [Hj2|Hj2]; cycle 1.
      { rewrite !lookup_ge_None_2; [done|rewrite take_length; lia|lia]. }
      rewrite lookup_take by lia.
      destruct (bs' !! j) as [b|] eqn:Eb; [|apply lookup_ge_None_1 in Eb; lia].
      destruct (bytes_at_lookup _ _ _ _ _ Hbs' Eb) as [Hb1 _]. cbn in Hb1.
      rewrite Hm1 in Hb1 by lia. rewrite (blit_lookup a (take k bs) (pmem p')) in Hb1. rewrite Hlk in Hb1.
      destruct ((a <=? a + Z.of_nat j) && _) eqn:Eq; [|lia].
      replace (Z.to_nat (a + Z.of_nat j - a)) with j in Hb1 by lia. rewrite lookup_take in Hb1 by lia. done. }
    split; [|split; [rewrite Ec; lia|split; [|done]]].
    + eapply table_new; [by apply table_kill|done|lia|lia|rewrite Ec; lia| |done].
      intros q Hq. cbn. rewrite Hout by lia. apply Hmem. lia.
    + intros q Hq. cbn. pose proof (page_up_ge limit). rewrite Hout by lia. apply Hmem. lia.
  - destruct Hp as (bs & Hi).
    destruct (ptrs !! i) as [q0|] eqn:Eq0.
    2: { apply lookup_ge_None_1 in Eq0. apply lookup_lt_Some in Hi. pose proof (lo_length _ _ _ (to_out _ _ _ Ht)). lia. }
    eexists _, p, _. split; [reflexivity|]. split; [by eapply step_free|].
    split; [by apply table_kill|]. split; [lia|]. done.
  - destruct Hp as (bs & Hi & Hk).
    destruct (ptrs !! i) as [q0|] eqn:Eq0.
    2: { apply lookup_ge_None_1 in Eq0. apply lookup_lt_Some in Hi. pose proof (lo_length _ _ _ (to_out _ _ _ Ht)). lia. }
    destruct (to_below _ _ _ Ht _ _ _ Eq0 Hi) as [Hlo Hhi].
    assert (is_Some (pmem p !! (q0 + k))) as Hsome.
    { destruct (Hm (q0 + k)) as (b & Eb & _); [rewrite <- Hc; lia|]. by exists b. }
    rewrite (pbind_ok _ _ _ _ _ (lib_ok _ _ _ _ (st_ok _ _ v Hsome))).
    eexists _, _, _. split; [reflexivity|]. split; [by apply (step_store _ i k v bs)|].
    cbn [pbrk kbrk slots pmem]. fold (to_byte v).
    set (p2 := Proc (<[q0 + k := to_byte v]> (pmem p)) (pbrk p) (kbrk p) (slots p)).
    destruct Ht as [_ [Ho1 Ho2 Ho3 Ho4] Hbl].
    set (B' := <[i := Block (<[Z.to_nat k := to_byte v]> bs) true]> B).
    assert (forall j cs, B' !! j = Some (Block cs true) ->
       (j = i /\ cs = <[Z.to_nat k := to_byte v]> bs) \/ (j <> i /\ B !! j = Some (Block cs true))) as Hcase.
    { intros j cs H. unfold B' in H. destruct (decide (i = j)) as [->|].
      - rewrite list_lookup_insert in H by (by eapply lookup_lt_Some). left. by injection H as <-.
      - rewrite list_lookup_insert_ne in H by done. by right. }
    assert (forall j cs, B' !! j = Some (Block cs true) -> exists ds, B !! j = Some (Block ds true) /\ length cs = length ds) as Hcase'.
    { intros j cs H. destruct (Hcase j cs H) as [[-> ->]|[_ H']]; eexists; (split; [eassumption|]); rewrite ?insert_length; done. }
    split; [split; [|split|]|split; [cbn; unfold cur in *; cbn; lia|split; [|done]]].
    + apply heap_ok_mem; [done|]. intros q Hq. destruct (Z.eq_dec q (q0 + k)) as [->|].
      * rewrite lookup_insert. eexists. split; [done|]. apply byte_to_byte.
      * rewrite lookup_insert_ne by done. by apply Hm.
    + unfold B'. by rewrite insert_length.
    + intros j q cs H1 H2. destruct (Hcase' _ _ H2) as (ds & H3 & _). by eapply Ho2.
    + intros j q cs H1 H2. cbn. destruct (Hcase _ _ H2) as [[-> ->]|[Hji H3]].
      * assert (q = q0) as -> by congruence. pose proof (Ho3 _ _ _ H1 Hi) as [Hf Hby]. split.
        -- apply Forall_insert; [done|]. apply byte_to_byte.
        -- intros l b Hl. destruct (decide (l = Z.to_nat k)) as [->|].
           ++ rewrite list_lookup_insert in Hl by lia. injection Hl as <-.
              rewrite Z2Nat.id by lia. by rewrite lookup_insert.
           ++ rewrite list_lookup_insert_ne in Hl by done. rewrite lookup_insert_ne by lia. by apply Hby.
      * pose proof (Ho4 j i _ _ _ _ Hji H1 H3 Eq0 Hi) as Hap. unfold apart in Hap.
        apply bytes_at_insert; [by eapply Ho3|]. lia.
    + intros j l q r cs ds Hjl H1 H2 H3 H4.
      destruct (Hcase' _ _ H2) as (cs' & K2 & ->), (Hcase' _ _ H4) as (ds' & K4 & ->). by eapply (Ho4 j l).
    + intros j q cs H1 H2. destruct (Hcase' _ _ H2) as (cs' & K2 & ->). by eapply Hbl.
    + intros q Hq. cbn. rewrite lookup_insert_ne; [done|]. pose proof (page_up_ge limit). lia.
Qed.

Lemma do_aops_ok l : forall p ptrs B,
  table_ok p ptrs B -> safe B l -> cur p + needs l <= limit ->
  exists ptrs' p' B', do_aops page kstart limit l ptrs p = POk ptrs' p' /\ steps B l B' /\ table_ok p' ptrs' B' /\
    (forall q, (q < kstart \/ page_up limit <= q) -> pmem p' !! q = pmem p !! q) /\ slots p' = slots p.
Proof.
  induction l as [|o l IH]; intros p ptrs B Ht Hs Hn; cbn [do_aops].
  - eexists _, p, B. split; [reflexivity|]. split; [constructor|]. done.
  - destruct Hs as [Hp Hs]. cbn in Hn. fold (needs l) in Hn.
    assert (0 <= needs l) as Hpos.
    { clear. induction l as [|o l IH]; cbn; [done|]. fold (needs l). destruct o; cbn; lia. }
    destruct (do_aop_ok o p ptrs B Ht Hp ltac:(lia)) as (ptrs1 & p1 & B1 & E1 & S1 & T1 & C1 & M1 & L1).
    destruct (IH p1 ptrs1 B1 T1 (Hs _ S1) ltac:(lia)) as (ptrs2 & p2 & B2 & E2 & S2 & T2 & M2 & L2).
    rewrite (pbind_ok _ _ _ _ _ E1). eexists _, p2, B2. split; [exact E2|]. split; [by econstructor|].
    split; [done|]. split; [|congruence]. intros q Hq. rewrite M2 by done. by apply M1.
Qed.
End Alloc.
