(** C27: the byte and string functions of the C library.  Each theorem gives
    the call's result and the whole memory afterwards; [CUB], the outcome of a
    load or store outside every object, is excluded by the equation, so a
    theorem also says that the function reads and writes nothing else than its
    hypotheses mention.  The full ISO C contract is false of five of the
    functions; the [_refuted] theorems say where. *)
From stdpp Require Import base gmap list.
From Coq Require Import ZArith Lia.
From Coq Require Import ZifyBool ZifyNat.
From Verif Require Import CInt LibModel LibSpec LibProofs.
Open Scope Z_scope.
Ltac Zify.zify_post_hook ::= Z.div_mod_to_equations.

(** a [size_t] argument counting the bytes of a list *)
Definition size_of (bs : list Z) : Z := Z.of_nat (length bs).

(** ** memory blocks *)

(** disjoint blocks: the destination becomes the source, nothing else changes *)
Theorem C27_memcpy m d s bs :
  bytes_at m s bs -> room m d (length bs) -> apart d (length bs) s (length bs) ->
  exists m', memcpy d s (size_of bs) m = COk d m' /\ patched m d bs m'.
Proof.
  intros Hs Hd Ho. exists (blit d bs m). split; [|apply blit_lookup].
  unfold memcpy, size_of. rewrite Nat2Z.id. erewrite cbind_ok; [done|]. apply memcpy_loop_ok; [done|done|].
  unfold apart in Ho. lia.
Qed.

(** blocks that overlap in any way: the destination holds what the source held before *)
Theorem C27_memmove m d s bs :
  bytes_at m s bs -> room m d (length bs) ->
  exists m', memmove d s (size_of bs) m = COk d m' /\ patched m d bs m'.
Proof.
  intros Hs Hd. exists (blit d bs m). split; [|apply blit_lookup].
  unfold memmove. destruct (Z.ltb_spec d s).
  - unfold memcpy, size_of. rewrite Nat2Z.id. erewrite cbind_ok; [done|]. apply memcpy_loop_ok; [done|done|lia].
  - unfold size_of. rewrite Nat2Z.id. erewrite cbind_ok; [done|]. apply memmove_loop_ok; [done|done|lia].
Qed.

Theorem C27_memset m s c n :
  room m s n ->
  exists m', memset s c (Z.of_nat n) m = COk s m' /\ patched m s (replicate n (c mod 256)) m'.
Proof.
  intros Hr. exists (blit s (replicate n (to_byte c)) m). split; [|apply blit_lookup].
  unfold memset. rewrite Nat2Z.id. erewrite cbind_ok; [done|]. by apply memset_loop_ok.
Qed.

(** the order memcmp reports is that of [signed char]s *)
Theorem C27_memcmp m a b bs cs :
  bytes_at m a bs -> bytes_at m b cs -> length bs = length cs ->
  exists r, memcmp a b (size_of bs) m = COk r m /\ orders signed_lt bs cs r.
Proof.
  intros Ha Hb Hl. unfold memcmp, size_of. destruct (Z.eqb_spec (Z.of_nat (length bs)) 0) as [E|E].
  - destruct bs; [|done]. destruct cs; [|done]. exists 0. split; [done|apply orders_nil].
  - replace (Z.to_nat (Z.of_nat (length bs) - 1)) with (length bs - 1)%nat by lia.
    apply memcmp_loop_ok; [done| |done|done]. by intros ->.
Qed.

(** a byte sought by a [char] value *)
Theorem C27_memchr m p c bs :
  bytes_at m p bs -> -128 <= c < 128 ->
  exists r, memchr p c (size_of bs) m = COk r m /\
    ((r = 0 /\ c mod 256 ∉ bs) \/ exists i, r = p + Z.of_nat i /\ first_at (fun b => b = c mod 256) bs i).
Proof. intros Hp Hc. unfold memchr, size_of. rewrite Nat2Z.id. by apply memchr_loop_ok. Qed.

Theorem C27_memmem m p q hs ns :
  bytes_at m p hs -> bytes_at m q ns ->
  exists r, memmem p (size_of hs) q (size_of ns) m = COk r m /\
   ((r = 0 /\ forall i, ~ occurs ns hs i) \/
    exists i, r = p + Z.of_nat i /\ occurs ns hs i /\ forall j, (j < i)%nat -> ~ occurs ns hs j).
Proof. intros Hp Hq. unfold memmem, size_of. apply memmem_loop_ok; [done|done|lia]. Qed.

(** ** strings.  The length must be an [int] where strlen is involved; [fuel]
    bounds the scan and any value above the length will do *)
Theorem C27_strlen m s bs fuel :
  cstr m s bs -> size_of bs < 2 ^ 31 -> (length bs < fuel)%nat ->
  strlen fuel s m = COk (size_of bs) m.
Proof. intros Hs Hl Hf. apply strlen_ok; [done| |done]. unfold size_of, INT_MAX in *. change (2 ^ 31) with 2147483648 in Hl. lia. Qed.

(** the whole memory is unchanged, and the order is that of [signed char]s with the terminator as 0 *)
Theorem C27_strcmp m a b bs cs fuel :
  cstr m a bs -> cstr m b cs -> (length bs < fuel)%nat ->
  exists r, strcmp fuel a b m = COk r m /\ orders signed_lt (bs ++ [0]) (cs ++ [0]) r /\ (r = 0 <-> bs = cs).
Proof.
  intros [Ha Hza] [Hb Hzb] Hf. destruct (strcmp_ok bs cs m a b fuel Ha Hza Hb Hzb Hf) as (r & E & Hr).
  exists r. split; [done|]. split; [done|]. by apply orders_zero_tail.
Qed.

(** strncmp needs only the first [n] bytes of each string to be readable *)
Theorem C27_strncmp m a b bs cs n :
  0 ∉ bs -> 0 ∉ cs -> bytes_at m a (take n (bs ++ [0])) -> bytes_at m b (take n (cs ++ [0])) ->
  exists r, strncmp a b (Z.of_nat n) m = COk r m /\
    orders signed_lt (take n (bs ++ [0])) (take n (cs ++ [0])) r.
Proof.
  intros Hza Hzb Ha Hb. unfold strncmp. destruct n as [|n].
  - exists 0. split; [done|]. rewrite !take_0. apply orders_nil.
  - destruct (Z.eqb_spec (Z.of_nat (S n)) 0); [lia|].
    replace (Z.to_nat (Z.of_nat (S n) - 1)) with n by lia. by apply strncmp_loop_ok.
Qed.

Theorem C27_strcpy m d s bs fuel :
  cstr m s bs -> room m d (S (length bs)) -> apart d (S (length bs)) s (S (length bs)) -> (length bs < fuel)%nat ->
  exists m', strcpy fuel d s m = COk d m' /\ patched m d (bs ++ [0]) m' /\ cstr m' d bs /\ cstr m' s bs.
Proof.
  intros [Hs Hz] Hd Ho Hf. exists (blit d (bs ++ [0]) m). split; [|split; [|split; split; try done]].
  - unfold strcpy. erewrite cbind_ok; [done|]. apply strcpy_loop_ok; try done. unfold apart in Ho. lia.
  - apply blit_lookup.
  - apply blit_bytes_at. by destruct Hs.
  - apply bytes_at_blit; [done|]. rewrite app_length. unfold apart in *. cbn. lia.
Qed.

(** copies the string and pads with zeros to [n] bytes; no terminator if there is no room for one *)
Theorem C27_strncpy m d s bs n fuel :
  cstr m s bs -> room m d n -> apart d n s (S (length bs)) -> (length bs < fuel)%nat -> Z.of_nat n < 2 ^ 64 ->
  exists m', strncpy fuel d s (Z.of_nat n) m = COk d m' /\ patched m d (take n (bs ++ replicate n 0)) m'.
Proof.
  intros [Hs Hz] Hd Ho Hf Hn. unfold strncpy.
  destruct (Z.eqb_spec (Z.of_nat n) 0) as [E|E].
  { exists m. split; [done|]. assert (n = O) as -> by lia. rewrite take_0. apply (blit_lookup d [] m). }
  exists (blit d (take n (bs ++ replicate n 0)) m). split; [|apply blit_lookup].
  pose proof (strncpy_loop_ok bs m d s (Z.of_nat n) fuel Hs Hz) as Hloop.
  rewrite Nat2Z.id in Hloop. specialize (Hloop ltac:(unfold two64; change (2 ^ 64) with 18446744073709551616 in *; lia) Hd Ho Hf).
  cbn zeta in Hloop. erewrite cbind_ok by exact Hloop. clear Hloop. cbn [fst snd].
  set (k := Nat.min (length bs) n).
  assert (Hb : exists v, (bs ++ [0]) !! k = Some v).
  { apply lookup_lt_is_Some_2. rewrite app_length. cbn. lia. }
  destruct Hb as [v Hv].
  assert (Hk : length (take k bs) = k) by (rewrite take_length; lia).
  assert (Hs' : bytes_at (blit d (take k bs) m) s (bs ++ [0])).
  { apply bytes_at_blit; [done|]. rewrite app_length, Hk. cbn. unfold apart in *. lia. }
  destruct (bytes_at_lookup _ _ _ _ _ Hs' Hv) as [Hv' Hvb].
  erewrite cbind_ok by (by apply ld_ok). rewrite to_schar_zero by done.
  destruct (Z.leb_spec (Z.of_nat (length bs)) (Z.of_nat n)) as [Hle|Hgt].
  - assert (k = length bs) as Ek by lia. rewrite Ek in *.
    rewrite lookup_app_r, Nat.sub_diag in Hv by lia. injection Hv as <-. change (negb (0 =? 0)) with false. cbn iota.
    erewrite cbind_ok.
    2:{ apply strncpy_pad_ok. apply room_blit. intros i Hi.
        replace (d + Z.of_nat (length bs) + Z.of_nat i) with (d + Z.of_nat (length bs + i)) by lia. apply Hd. lia. }
    unfold cret. f_equal. rewrite take_ge by lia. rewrite take_app_ge by lia. rewrite take_replicate.
    replace (Nat.min (n - length bs) n) with (n - length bs)%nat by lia.
    rewrite blit_app. f_equal. f_equal. lia.
  - assert (k = n) as Ek by lia. rewrite Ek in *.
    assert (v <> 0). { rewrite lookup_app_l in Hv by lia. intros ->. apply Hz. by eapply elem_of_list_lookup_2. }
    destruct (Z.eqb_spec v 0); [done|]. cbn [negb]. change (to_u64 (two64 - 1 + 1)) with 0. cbn.
    unfold cret, cbind. f_equal. by rewrite take_app_le by lia.
Qed.

Theorem C27_strcat m t ts s bs fuel :
  cstr m t ts -> cstr m s bs -> room m t (S (length ts + length bs)) ->
  apart t (S (length ts + length bs)) s (S (length bs)) -> (length ts < fuel)%nat -> (length bs < fuel)%nat ->
  exists m', strcat fuel t s m = COk t m' /\ patched m (t + size_of ts) (bs ++ [0]) m' /\ cstr m' t (ts ++ bs).
Proof.
  intros [Ht Hzt] [Hs Hzs] Hr Ho Hft Hfs. unfold size_of. exists (blit (t + Z.of_nat (length ts)) (bs ++ [0]) m).
  split; [|split; [apply blit_lookup|split]].
  - unfold strcat. erewrite cbind_ok by (by apply (strchr_end ts)). erewrite cbind_ok; [done|].
    apply strcpy_loop_ok; try done.
    + intros i Hi. replace (t + Z.of_nat (length ts) + Z.of_nat i) with (t + Z.of_nat (length ts + i)) by lia. apply Hr. lia.
    + unfold apart in Ho. lia.
  - rewrite <- app_assoc. apply bytes_at_app in Ht as [Ht _]. apply bytes_at_app. split.
    + apply bytes_at_blit; [done|]. unfold apart, size_of. lia.
    + apply blit_bytes_at. by destruct Hs.
  - apply not_elem_of_app. by split.
Qed.

Theorem C27_strncat m t ts s bs n fuel :
  cstr m t ts -> cstr m s bs -> room m t (S (length ts + length bs)) ->
  apart t (S (length ts + length bs)) s (S (length bs)) -> (length ts < fuel)%nat -> (length bs < fuel)%nat ->
  exists m', strncat fuel t s (Z.of_nat n) m = COk t m' /\ patched m (t + size_of ts) (take n bs ++ [0]) m' /\
    cstr m' t (ts ++ take n bs).
Proof.
  intros [Ht Hzt] [Hs Hzs] Hr Ho Hft Hfs. unfold size_of.
  assert (Hf : forall m', patched m (t + Z.of_nat (length ts)) (take n bs ++ [0]) m' -> cstr m' t (ts ++ take n bs)).
  { intros m' Hp. assert (m' = blit (t + Z.of_nat (length ts)) (take n bs ++ [0]) m) as -> by (eapply patched_fun; [done|apply blit_lookup]).
    split.
    - rewrite <- app_assoc. apply bytes_at_app in Ht as [Ht _]. apply bytes_at_app. split.
      + apply bytes_at_blit; [done|]. unfold apart, size_of. lia.
      + apply blit_bytes_at. destruct Hs as [Hs _]. apply Forall_app in Hs as [Hs _]. apply Forall_app. split; [by apply Forall_take|].
        constructor; [unfold byte; lia|constructor].
    - apply not_elem_of_app. split; [done|]. intros Hin. apply Hzs. apply elem_of_list_lookup in Hin as [i Hi].
      apply lookup_take_Some in Hi as [Hi _]. by eapply elem_of_list_lookup_2. }
  assert (Hgoal : exists m', strncat fuel t s (Z.of_nat n) m = COk t m' /\ patched m (t + Z.of_nat (length ts)) (take n bs ++ [0]) m').
  { unfold strncat. destruct (Z.eqb_spec (Z.of_nat n) 0) as [E|E].
    - exists m. split; [done|]. assert (n = O) as -> by lia. rewrite take_0. cbn [app].
      intros q. destruct ((t + Z.of_nat (length ts) <=? q) && (q <? t + Z.of_nat (length ts) + Z.of_nat (length [0]))) eqn:Eq; [|done].
      cbn in Eq. assert (q = t + Z.of_nat (length ts)) as -> by lia.
      apply bytes_at_app in Ht as [_ Ht]. apply bytes_at_cons in Ht as (_ & H0 & _). unfold size_of. rewrite H0.
      by replace (Z.to_nat _) with O by lia.
    - exists (blit (t + Z.of_nat (length ts)) (take n bs ++ [0]) m). split; [|apply blit_lookup].
      erewrite cbind_ok by (by apply (strchr_end ts)). erewrite cbind_ok; [done|].
      rewrite (strncat_loop_ok bs); try done; try lia.
      + rewrite Nat2Z.id. unfold size_of. do 3 f_equal. destruct (Nat.le_ge_cases (length bs) n).
        * rewrite Nat.min_l by lia. rewrite !take_ge; [done|lia|lia].
        * by rewrite Nat.min_r by lia.
      + rewrite Nat2Z.id. intros i Hi.
        replace (t + Z.of_nat (length ts) + Z.of_nat i) with (t + Z.of_nat (length ts + i)) by lia. apply Hr. lia.
      + rewrite Nat2Z.id. unfold apart in *. lia. }
  destruct Hgoal as (m' & E & Hp). exists m'. split; [done|]. split; [done|]. by apply Hf.
Qed.

(** the first (last) occurrence of a nonzero [char]; of the terminator for 0 *)
Theorem C27_strchr m p c bs fuel :
  cstr m p bs -> -128 <= c < 128 -> (length bs < fuel)%nat ->
  exists r, strchr fuel p c m = COk r m /\
    ((r = 0 /\ c mod 256 ∉ bs ++ [0]) \/ exists i, r = p + Z.of_nat i /\ first_at (fun b => b = c mod 256) (bs ++ [0]) i).
Proof.
  intros [Hs Hz] Hc Hf. destruct (Z.eq_dec c 0) as [->|Hc0].
  - eexists. split; [by apply (strchr_end bs)|]. right. exists (length bs). split; [done|]. split.
    + exists 0. split; [|done]. by rewrite lookup_app_r, Nat.sub_diag by lia.
    + intros j b Hj Hl. rewrite lookup_app_l in Hl by lia. intros E. apply Hz.
      change (0 mod 256) with 0 in E. subst b. by eapply elem_of_list_lookup_2.
  - destruct (strchr_ok bs m p c fuel Hs Hz Hc0 Hc Hf) as (r & E & Hr). exists r. split; [done|].
    assert (c mod 256 <> 0) by lia. unfold to_byte in Hr.
    destruct Hr as [[-> Hn]|(i & -> & (b & Hb & ->) & Hfi)].
    + left. split; [done|]. apply not_elem_of_app. split; [done|]. apply not_elem_of_cons. split; [done|apply not_elem_of_nil].
    + right. exists i. split; [done|]. pose proof (lookup_lt_Some _ _ _ Hb). split.
      * exists (c mod 256). split; [|done]. by rewrite lookup_app_l by lia.
      * intros j b2 Hj Hl. rewrite lookup_app_l in Hl by lia. by apply (Hfi j).
Qed.

(** strrchr agrees with ISO C except on the empty string sought for its terminator *)
Theorem C27_strrchr m p c bs fuel :
  cstr m p bs -> size_of bs < 2 ^ 31 -> -128 <= c < 128 -> (length bs < fuel)%nat -> (bs <> [] \/ c <> 0) ->
  exists r, strrchr fuel p c m = COk r m /\
    ((r = 0 /\ c mod 256 ∉ bs ++ [0]) \/ exists i, r = p + Z.of_nat i /\ last_at (fun b => b = c mod 256) (bs ++ [0]) i).
Proof.
  intros Hs Hl Hc Hf Hne. pose proof Hs as [Hs' Hz]. unfold strrchr.
  erewrite cbind_ok by (by apply C27_strlen). unfold size_of in *.
  assert (Hnil : bs = [] -> exists r, cret 0 m = COk r m /\
    ((r = 0 /\ c mod 256 ∉ bs ++ [0]) \/ exists i, r = p + Z.of_nat i /\ last_at (fun b => b = c mod 256) (bs ++ [0]) i)).
  { intros ->. exists 0. split; [done|]. left. split; [done|]. destruct Hne as [?|Hne]; [done|].
    cbn. apply not_elem_of_cons. split; [lia|apply not_elem_of_nil]. }
  destruct (Z.eqb_spec (Z.of_nat (length bs)) 0) as [E|E].
  { apply Hnil. by destruct bs. }
  clear Hnil. pose proof Hs' as Hs2. apply bytes_at_app in Hs2 as [Hs2 H0]. apply bytes_at_cons in H0 as (_ & H0 & _).
  erewrite cbind_ok by (by apply ld_ok). change (to_schar 0 =? 0) with true. cbn [andb].
  destruct (Z.eqb_spec c 0) as [->|Hc0].
  - eexists. split; [done|]. right. exists (length bs). split; [done|]. split.
    + exists 0. split; [|done]. by rewrite lookup_app_r, Nat.sub_diag by lia.
    + intros j b Hj Hl'. apply lookup_lt_Some in Hl'. rewrite app_length in Hl'. cbn in Hl'. lia.
  - rewrite Nat2Z.id. destruct (strrchr_loop_ok bs m p c Hs2 Hz Hc0 Hc) as (r & E' & Hr). exists r. split; [done|].
    assert (c mod 256 <> 0) by lia. unfold to_byte in Hr.
    destruct Hr as [[-> Hn]|(i & -> & (b & Hb & ->) & Hfi)].
    + left. split; [done|]. apply not_elem_of_app. split; [done|]. apply not_elem_of_cons. split; [done|apply not_elem_of_nil].
    + right. exists i. split; [done|]. pose proof (lookup_lt_Some _ _ _ Hb). split.
      * exists (c mod 256). split; [|done]. by rewrite lookup_app_l by lia.
      * intros j b2 Hj Hl'. destruct (decide (j < length bs)%nat).
        -- rewrite lookup_app_l in Hl' by lia. by apply (Hfi j).
        -- rewrite lookup_app_r in Hl' by lia. destruct (j - length bs)%nat; cbn in Hl'; [|done].
           injection Hl' as <-. lia.
Qed.

(** the length of the longest prefix without (with only) bytes of the set *)
Theorem C27_strcspn m p q bs set fuel :
  cstr m p bs -> cstr m q set -> 0 < q -> (length bs + length set < fuel)%nat ->
  exists k, strcspn fuel p q m = COk (Z.of_nat k) m /\ (k <= length bs)%nat /\
    (forall j b, (j < k)%nat -> bs !! j = Some b -> b ∉ set) /\ (forall b, bs !! k = Some b -> b ∈ set).
Proof.
  intros [Hs Hz] Hset Hq Hf. destruct (span_loop_ok true bs m p q set fuel Hs Hz Hset Hq Hf) as (k & E & Hk & H1 & H2).
  exists k. unfold strcspn. erewrite cbind_ok by exact E. split; [unfold cret; f_equal; lia|]. split; [done|]. split.
  - intros j b Hj Hl. specialize (H1 j b Hj Hl). by apply bool_decide_eq_false in H1.
  - intros b Hl. specialize (H2 b Hl). by apply bool_decide_eq_true in H2.
Qed.
Theorem C27_strspn m p q bs set fuel :
  cstr m p bs -> cstr m q set -> 0 < q -> (length bs + length set < fuel)%nat ->
  exists k, strspn fuel p q m = COk (Z.of_nat k) m /\ (k <= length bs)%nat /\
    (forall j b, (j < k)%nat -> bs !! j = Some b -> b ∈ set) /\ (forall b, bs !! k = Some b -> b ∉ set).
Proof.
  intros [Hs Hz] Hset Hq Hf. destruct (span_loop_ok false bs m p q set fuel Hs Hz Hset Hq Hf) as (k & E & Hk & H1 & H2).
  exists k. unfold strspn. erewrite cbind_ok by exact E. split; [unfold cret; f_equal; lia|]. split; [done|]. split.
  - intros j b Hj Hl. specialize (H1 j b Hj Hl). by apply bool_decide_eq_true in H1.
  - intros b Hl. specialize (H2 b Hl). by apply bool_decide_eq_false in H2.
Qed.
(** strpbrk finds the first byte of the set when there is one *)
Theorem C27_strpbrk_found m p q bs set fuel :
  cstr m p bs -> cstr m q set -> 0 < q -> (length bs + length set < fuel)%nat -> (exists b, b ∈ bs /\ b ∈ set) ->
  exists i, strpbrk fuel p q m = COk (p + Z.of_nat i) m /\ first_at (fun b => b ∈ set) bs i.
Proof.
  intros [Hs Hz] Hset Hq Hf (b0 & Hb0 & Hb0s).
  destruct (span_loop_ok true bs m p q set fuel Hs Hz Hset Hq Hf) as (k & E & Hk & H1 & H2).
  exists k. split; [exact E|]. split.
  - destruct (bs !! k) as [b|] eqn:Ek.
    + exists b. split; [done|]. specialize (H2 b eq_refl). by apply bool_decide_eq_true in H2.
    + apply lookup_ge_None_1 in Ek. apply elem_of_list_lookup in Hb0 as [j Hj].
      pose proof (lookup_lt_Some _ _ _ Hj). specialize (H1 j b0 ltac:(lia) Hj). by apply bool_decide_eq_false in H1.
  - intros j b Hj Hl. specialize (H1 j b Hj Hl). by apply bool_decide_eq_false in H1.
Qed.

Theorem C27_strstr m p q hs ns fuel :
  cstr m p hs -> cstr m q ns -> size_of hs < 2 ^ 31 -> size_of ns < 2 ^ 31 ->
  (length hs < fuel)%nat -> (length ns < fuel)%nat ->
  exists r, strstr fuel p q m = COk r m /\
   ((r = 0 /\ forall i, ~ occurs ns hs i) \/
    exists i, r = p + Z.of_nat i /\ occurs ns hs i /\ forall j, (j < i)%nat -> ~ occurs ns hs j).
Proof.
  intros Hh Hn Hlh Hln Hfh Hfn. unfold strstr. erewrite cbind_ok by (by apply C27_strlen).
  erewrite cbind_ok by (by apply C27_strlen).
  unfold size_of in *. change (2 ^ 31) with 2147483648 in *.
  rewrite !to_s32_id by (unfold in_int, INT_MIN, INT_MAX; lia).
  destruct Hh as [Hh _], Hn as [Hn _]. apply bytes_at_app in Hh as [Hh _]. apply bytes_at_app in Hn as [Hn _].
  by apply C27_memmem.
Qed.

(** case mapping: ASCII letters only *)
Definition lower (b : Z) : Z := if (65 <=? b) && (b <=? 90) then b + 32 else b.
Definition upper (b : Z) : Z := if (97 <=? b) && (b <=? 122) then b - 32 else b.
Theorem C27_strlwr_strupr m p bs fuel :
  cstr m p bs -> (length bs < fuel)%nat ->
  (exists m', strlwr fuel p m = COk p m' /\ patched m p (map lower bs) m') /\
  (exists m', strupr fuel p m = COk p m' /\ patched m p (map upper bs) m').
Proof.
  intros [Hs Hz] Hf.
  assert (Hb : Forall byte bs). { destruct Hs as [Hs _]. by apply Forall_app in Hs as [? _]. }
  split.
  - exists (blit p ((fun b => to_byte (c_tolower (to_schar b))) <$> bs) m). split.
    { unfold strlwr. erewrite cbind_ok; [done|]. by apply strmap_loop_ok. }
    replace (map lower bs) with ((fun b => to_byte (c_tolower (to_schar b))) <$> bs); [|apply (list_fmap_ext _ lower bs)].
    + apply blit_lookup.
    + intros i b Hi. eapply Forall_lookup_1 in Hb; [|exact Hi]. unfold byte in Hb.
      unfold to_byte, c_tolower, c_isupper, lower, to_schar.
      destruct ((65 <=? (b + 128) mod 256 - 128) && _) eqn:E1, ((65 <=? b) && _) eqn:E2; lia.
  - exists (blit p ((fun b => to_byte (c_toupper (to_schar b))) <$> bs) m). split.
    { unfold strupr. erewrite cbind_ok; [done|]. by apply strmap_loop_ok. }
    replace (map upper bs) with ((fun b => to_byte (c_toupper (to_schar b))) <$> bs); [|apply (list_fmap_ext _ upper bs)].
    + apply blit_lookup.
    + intros i b Hi. eapply Forall_lookup_1 in Hb; [|exact Hi]. unfold byte in Hb.
      unfold to_byte, c_toupper, c_islower, upper, to_schar.
      destruct ((97 <=? (b + 128) mod 256 - 128) && _) eqn:E1, ((97 <=? b) && _) eqn:E2; lia.
Qed.

(** ** where the library departs from ISO C *)

(** a small memory to exhibit the departures: the string "\200" at 10, "a" at 20, "" at 30, "xy" without terminator at 40, room at 50 *)
Definition sample_mem : gmap Z Z :=
  <[10 := 200]> (<[11 := 0]> (<[20 := 97]> (<[21 := 0]> (<[30 := 0]>
  (<[40 := 120]> (<[41 := 121]> (<[50 := 1]> (<[51 := 1]> (<[52 := 0]> (<[53 := 9]> (<[54 := 9]> ∅))))))))))).

Lemma sample_check m p bs : forallb (fun b => (0 <=? b) && (b <? 256)) bs = true ->
  forallb (fun '(i, b) => match m !! (p + Z.of_nat i) with Some c => c =? b | None => false end)
    (zip (seq 0 (length bs)) bs) = true -> bytes_at m p bs.
Proof.
  intros H1 H2. split.
  - apply Forall_forall. intros b Hb. apply forallb_forall with (x := b) in H1; [unfold byte; lia|]. by apply elem_of_list_In.
  - intros i b Hi. pose proof (lookup_lt_Some _ _ _ Hi).
    apply forallb_forall with (x := (i, b)) in H2.
    + destruct (m !! (p + Z.of_nat i)) as [c|]; [|done]. f_equal. lia.
    + apply elem_of_list_In. apply elem_of_list_lookup. exists i.
      apply lookup_zip_with_Some. exists i, b. split; [done|]. split; [|done]. by apply lookup_seq.
Qed.
Ltac sample := apply sample_check; vm_compute; reflexivity.
Ltac sample_str := split; [sample|]; refine (bool_decide_eq_true_1 _ _); vm_compute; reflexivity.

(** a byte above 127 is not found by its value: [c] is not converted to [char] *)
Theorem C27_strchr_high_byte_refuted :
  ~ (forall m p c bs fuel, cstr m p bs -> 0 <= c < 256 -> c ∈ bs -> (length bs < fuel)%nat ->
       exists i, strchr fuel p c m = COk (p + Z.of_nat i) m).
Proof.
  intros H. destruct (H sample_mem 10 200 [200] 5%nat) as (i & Hi).
  - sample_str. - lia. - by apply elem_of_cons; left. - cbn; lia.
  - assert (E : strchr 5 10 200 sample_mem = COk 0 sample_mem) by (vm_compute; reflexivity).
    rewrite E in Hi. injection Hi. lia.
Qed.
Theorem C27_memchr_high_byte_refuted :
  ~ (forall m p c bs, bytes_at m p bs -> 0 <= c < 256 -> c ∈ bs ->
       exists i, memchr p c (size_of bs) m = COk (p + Z.of_nat i) m).
Proof.
  intros H. destruct (H sample_mem 10 200 [200]) as (i & Hi).
  - sample. - lia. - by apply elem_of_cons; left.
  - assert (E : memchr 10 200 (size_of [200]) sample_mem = COk 0 sample_mem) by (vm_compute; reflexivity).
    rewrite E in Hi. injection Hi. lia.
Qed.
(** bytes above 127 sort before the others: ISO C compares as [unsigned char] *)
Theorem C27_memcmp_strcmp_unsigned_refuted :
  ~ (forall m a b bs cs r, bytes_at m a bs -> bytes_at m b cs -> length bs = length cs ->
       memcmp a b (size_of bs) m = COk r m -> (r < 0 <-> differ Z.lt bs cs)) /\
  ~ (forall m a b bs cs fuel r, cstr m a bs -> cstr m b cs ->
       strcmp fuel a b m = COk r m -> (r < 0 <-> differ Z.lt (bs ++ [0]) (cs ++ [0]))).
Proof.
  assert (Hd : forall x y, ~ differ Z.lt (200 :: x) (97 :: y)).
  { intros x y H. apply differ_head in H; lia. }
  split.
  - intros H. apply (Hd [] []). apply (H sample_mem 10 20 [200] [97] (-153)).
    + sample. + sample. + done. + vm_compute; reflexivity. + lia.
  - intros H. apply (Hd [0] [0]). apply (H sample_mem 10 20 [200] [97] 5%nat (-153)).
    + sample_str. + sample_str. + vm_compute; reflexivity. + lia.
Qed.
(** the terminator of an empty string is not found *)
Theorem C27_strrchr_empty_refuted m p fuel : cstr m p [] -> p <> 0 -> (0 < fuel)%nat ->
  strrchr fuel p 0 m = COk 0 m.
Proof.
  intros Hs Hp Hf. unfold strrchr. erewrite cbind_ok by (apply C27_strlen; [exact Hs|done|cbn; lia]). done.
Qed.
(** with no byte of the set in the string the result is the terminator's address, not NULL *)
Theorem C27_strpbrk_none_refuted m p q bs set fuel :
  cstr m p bs -> cstr m q set -> 0 < q -> (length bs + length set < fuel)%nat -> (forall b, b ∈ bs -> b ∉ set) ->
  strpbrk fuel p q m = COk (p + size_of bs) m.
Proof.
  intros [Hs Hz] Hset Hq Hf Hno. destruct (span_loop_ok true bs m p q set fuel Hs Hz Hset Hq Hf) as (k & E & Hk & H1 & H2).
  unfold strpbrk. rewrite E. destruct (bs !! k) as [b|] eqn:Ek.
  - specialize (H2 b eq_refl). apply bool_decide_eq_true in H2. by apply elem_of_list_lookup_2, Hno in Ek.
  - apply lookup_ge_None_1 in Ek. unfold size_of. do 2 f_equal. lia.
Qed.
(** strncpy and strncat look at the byte after the limit: an array of exactly [n]
    bytes without terminator, which ISO C allows, is read past its end *)
Theorem C27_strncpy_reads_past_limit_refuted :
  ~ (forall m d s bs fuel, bytes_at m s bs -> 0 ∉ bs -> room m d (length bs) -> apart d (length bs) s (length bs) ->
       (length bs < fuel)%nat -> exists m', strncpy fuel d s (size_of bs) m = COk d m') /\
  ~ (forall m t ts s bs fuel, cstr m t ts -> bytes_at m s bs -> 0 ∉ bs -> room m t (S (length ts + length bs)) ->
       apart t (S (length ts + length bs)) s (length bs) -> (length ts + length bs < fuel)%nat ->
       exists m', strncat fuel t s (size_of bs) m = COk t m').
Proof.
  assert (Hr : forall p n, (n <= 4)%nat -> p + Z.of_nat n <= 55 -> 50 <= p -> room sample_mem p n).
  { intros p n Hn Hp Hp' i Hi. assert (p + Z.of_nat i = 50 \/ p + Z.of_nat i = 51 \/ p + Z.of_nat i = 52 \/ p + Z.of_nat i = 53 \/ p + Z.of_nat i = 54) as [->|[->|[->|[->| ->]]]] by lia;
      (eexists; vm_compute; reflexivity). }
  split.
  - intros H. destruct (H sample_mem 50 40 [120; 121] 5%nat) as (m' & E).
    + sample. + refine (bool_decide_eq_true_1 _ _); vm_compute; reflexivity. + apply Hr; cbn; lia. + unfold apart; cbn; lia. + cbn; lia.
    + assert (E2 : strncpy 5 50 40 (size_of [120; 121]) sample_mem = CUB) by (vm_compute; reflexivity).
      rewrite E2 in E. discriminate.
  - intros H. destruct (H sample_mem 52 [] 40 [120; 121] 5%nat) as (m' & E).
    1: sample_str. 1: sample. 1: refine (bool_decide_eq_true_1 _ _); vm_compute; reflexivity. 3: cbn; lia.
    2: unfold apart; cbn; lia.
    2:{ assert (E2 : strncat 5 52 40 (size_of [120; 121]) sample_mem = CUB) by (vm_compute; reflexivity).
        rewrite E2 in E. discriminate. }
    apply Hr; cbn; lia.
Qed.

(** the hypotheses of the theorems above hold of ordinary data *)
Definition sample_mem2 : gmap Z Z :=
  blit 100 [104; 101; 108; 108; 111; 0] (blit 200 [108; 108; 0] (blit 300 (replicate 20 7) ∅)).
Example lib_hypotheses_hold :
  cstr sample_mem2 100 [104; 101; 108; 108; 111] /\ cstr sample_mem2 200 [108; 108] /\
  room sample_mem2 300 6 /\ apart 300 6 100 6 /\ size_of [104; 101; 108; 108; 111] < 2 ^ 31 /\
  (exists b, b ∈ [104; 101; 108; 108; 111] /\ b ∈ [108; 108]) /\
  strstr 9 100 200 sample_mem2 = COk 102 sample_mem2.
Proof.
  split; [sample_str|]. split; [sample_str|]. split.
  { intros i Hi. do 6 (destruct i as [|i]; [eexists; vm_compute; reflexivity|]). lia. }
  split; [unfold apart; lia|]. split; [vm_compute; reflexivity|]. split.
  { exists 108. split; refine (bool_decide_eq_true_1 _ _); vm_compute; reflexivity. }
  vm_compute. reflexivity.
Qed.

Print Assumptions C27_memmove.
Print Assumptions C27_strncpy.
Print Assumptions C27_strncat.
Print Assumptions C27_strstr.
Print Assumptions C27_strncmp.
Print Assumptions C27_strncpy_reads_past_limit_refuted.
