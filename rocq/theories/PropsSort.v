(** C28: qsort.  Elements are byte strings of one size; [cmp] is what the
    caller's comparison function computes on them. *)
From stdpp Require Import base gmap list sorting.
From Coq Require Import ZArith Lia.
From Coq Require Import ZifyBool ZifyNat.
From Verif Require Import CInt LibModel LibSpec LibProofs LibSortModel.
Open Scope Z_scope.

(** ** specification *)

(** an array at [base] of elements of [size] bytes *)
Definition array (m : gmap Z Z) (base : Z) (size : nat) (es : list (list Z)) : Prop :=
  forall k e, es !! k = Some e -> length e = size /\ bytes_at m (base + Z.of_nat k * Z.of_nat size) e.
(** memory outside the [n] bytes at [base] is the same *)
Definition only_within (m m' : gmap Z Z) (base : Z) (n : Z) : Prop :=
  forall q, q < base \/ base + n <= q -> m' !! q = m !! q.
(** the comparison function reads its two elements and returns [cmp] of them *)
Definition compares (size : nat) (compare : Z -> Z -> CM Z) (cmp : list Z -> list Z -> Z) : Prop :=
  forall m a b x y, bytes_at m a x -> bytes_at m b y -> length x = size -> length y = size ->
    compare a b m = COk (cmp x y) m.
(** the order is antisymmetric and transitive *)
Definition ordering (cmp : list Z -> list Z -> Z) : Prop :=
  (forall x y, 0 < cmp x y <-> cmp y x < 0) /\
  (forall x y z, cmp x y < 0 -> cmp y z < 0 -> cmp x z < 0).

(** ** swapping *)
Lemma qswap_loop_ok xs : forall ys m a b, length xs = length ys -> bytes_at m a xs -> bytes_at m b ys ->
  (a = b \/ apart a (length xs) b (length xs)) ->
  qswap_loop (length xs) a b m = COk tt (blit b xs (blit a ys m)).
Proof.
  induction xs as [|x xs IH]; intros ys m a b Hl Ha Hb Ho; (destruct ys as [|y ys]; [try done|]); [done|].
  injection Hl as Hl. apply bytes_at_cons in Ha as (Hx & Hxa & Ha). apply bytes_at_cons in Hb as (Hy & Hyb & Hb).
  cbn [length qswap_loop blit]. erewrite cbind_ok by (by apply ld_ok). erewrite cbind_ok by (by apply ld_ok).
  erewrite cbind_ok. 2:{ apply st_ok. by rewrite Hxa; eexists. }
  rewrite to_byte_schar by done.
  erewrite cbind_ok. 2:{ apply st_ok. rewrite lookup_insert_is_Some'. right. by rewrite Hyb; eexists. }
  rewrite to_byte_schar by done. cbn [length] in Ho. rewrite (IH ys).
  - f_equal. apply map_eq. intros q. rewrite !blit_lookup.
    destruct ((b + 1 <=? q) && (q <? b + 1 + Z.of_nat (length xs))) eqn:E1; [done|].
    destruct (Z.eq_dec q b) as [->|Hqb].
    + rewrite lookup_insert. destruct ((a + 1 <=? b) && (b <? a + 1 + Z.of_nat (length ys))) eqn:E2; [|by rewrite lookup_insert].
      unfold apart in Ho. lia.
    + destruct ((a + 1 <=? q) && (q <? a + 1 + Z.of_nat (length ys))) eqn:E2.
      * rewrite lookup_insert_ne by lia. by rewrite blit_lookup, E2.
      * rewrite !(lookup_insert_ne _ b) by lia. by rewrite blit_lookup, E2.
  - done.
  - apply bytes_at_insert; [apply bytes_at_insert; [done|]|]; unfold apart in Ho; lia.
  - apply bytes_at_insert; [apply bytes_at_insert; [done|]|]; unfold apart in Ho; lia.
  - unfold apart in *. lia.
Qed.

Definition swap (i j : nat) (es : list (list Z)) : list (list Z) :=
  match es !! i, es !! j with
  | Some x, Some y => <[j := x]> (<[i := y]> es)
  | _, _ => es
  end.

Lemma swap_length i j es : length (swap i j es) = length es.
Proof. unfold swap. destruct (es !! i), (es !! j); try done. by rewrite !insert_length. Qed.

Lemma swap_lookup i j es k x y : es !! i = Some x -> es !! j = Some y ->
  swap i j es !! k = if decide (k = j) then Some x else if decide (k = i) then Some y else es !! k.
Proof.
  intros Hi Hj. unfold swap. rewrite Hi, Hj. pose proof (lookup_lt_Some _ _ _ Hi). pose proof (lookup_lt_Some _ _ _ Hj).
  destruct (decide (k = j)) as [->|].
  - rewrite list_lookup_insert; [done|]. by rewrite insert_length.
  - rewrite list_lookup_insert_ne by done. destruct (decide (k = i)) as [->|].
    + by rewrite list_lookup_insert.
    + by rewrite list_lookup_insert_ne by done.
Qed.

Lemma swap_perm i j es : swap i j es ≡ₚ es.
Proof.
  unfold swap. destruct (es !! i) as [x|] eqn:Hi; [|done]. destruct (es !! j) as [y|] eqn:Hj; [|done].
  destruct (decide (i = j)) as [->|Hne].
  - rewrite Hi in Hj. injection Hj as ->. rewrite list_insert_insert, list_insert_id by done. done.
  - pose proof (lookup_lt_Some _ _ _ Hi). pose proof (lookup_lt_Some _ _ _ Hj).
    apply Permutation_inj. split; [by rewrite !insert_length|].
    exists (fun k => if decide (k = i) then j else if decide (k = j) then i else k). split.
    + intros a b Hab. repeat case_decide; congruence.
    + intros k. repeat case_decide; subst.
      * rewrite list_lookup_insert_ne by done. rewrite list_lookup_insert by done. done.
      * rewrite list_lookup_insert by (by rewrite insert_length). done.
      * by rewrite !list_lookup_insert_ne by done.
Qed.

Lemma ssorted_app (R : list Z -> list Z -> Prop) xs ys : (forall x y, x ∈ xs -> y ∈ ys -> R x y) ->
  StronglySorted R xs -> StronglySorted R ys -> StronglySorted R (xs ++ ys).
Proof.
  intros Hc Hx Hy. induction Hx as [|x xs Hx IH Hall]; cbn; [done|]. constructor.
  - apply IH. intros; apply Hc; [by right|done].
  - apply Forall_app. split; [done|]. apply Forall_forall. intros y Hin. apply Hc; [by left|done].
Qed.

Section proofs.
  Context (size : nat) (Hsize : (0 < size)%nat).
  Context (compare : Z -> Z -> CM Z) (cmp : list Z -> list Z -> Z).
  Context (Hcmp : compares size compare cmp).
  Local Notation sz := (Z.of_nat size).

  Lemma array_byte m base es k e : array m base size es -> es !! k = Some e -> Forall byte e.
  Proof. intros Ha He. by destruct (Ha k e He) as [_ [? _]]. Qed.

  Lemma slots_apart base (i j : nat) : i <> j -> apart (base + Z.of_nat i * sz) size (base + Z.of_nat j * sz) size.
  Proof. intros Hij. unfold apart. destruct (Nat.lt_ge_cases i j) as [H|H]; [left|right]; nia. Qed.

  Lemma qswap_ok m base es i j : array m base size es -> (i < length es)%nat -> (j < length es)%nat ->
    exists m', qswap (base + Z.of_nat i * sz) (base + Z.of_nat j * sz) sz m = COk tt m' /\
      array m' base size (swap i j es) /\ only_within m m' base (Z.of_nat (length es) * sz).
  Proof.
    intros Ha Hi Hj. destruct (lookup_lt_is_Some_2 _ _ Hi) as [x Hx]. destruct (lookup_lt_is_Some_2 _ _ Hj) as [y Hy].
    destruct (Ha i x Hx) as [Hlx Hbx]. destruct (Ha j y Hy) as [Hly Hby].
    exists (blit (base + Z.of_nat j * sz) x (blit (base + Z.of_nat i * sz) y m)). split; [|split].
    - unfold qswap. destruct (Z.eqb_spec sz 0); [lia|]. rewrite Nat2Z.id. rewrite <- Hlx at 1. apply qswap_loop_ok; try done.
      + by rewrite Hlx.
      + rewrite Hlx. destruct (decide (i = j)) as [->|]; [by left|]. right. by apply slots_apart.
    - intros k e Hk. rewrite (swap_lookup i j es k x y Hx Hy) in Hk.
      destruct (decide (k = j)) as [->|Hkj].
      + injection Hk as <-. split; [done|]. apply blit_bytes_at. by destruct Hbx.
      + assert (Hout : forall z (mm : gmap Z Z), length z = size -> bytes_at mm (base + Z.of_nat k * sz) e -> length e = size ->
          bytes_at (blit (base + Z.of_nat j * sz) z mm) (base + Z.of_nat k * sz) e).
        { intros z mm Hz Hb Hle. apply bytes_at_blit; [done|]. rewrite Hle, Hz. by apply slots_apart. }
        destruct (decide (k = i)) as [->|Hki].
        * injection Hk as <-. split; [done|]. apply Hout; [done| |done]. apply blit_bytes_at. by destruct Hby.
        * destruct (Ha k e Hk) as [Hle Hbe]. split; [done|]. apply Hout; [done| |done].
          apply bytes_at_blit; [done|]. rewrite Hle, Hly. by apply slots_apart.
    - intros q Hq. rewrite !blit_outside; [done|rewrite Hly; nia|rewrite Hlx; nia].
  Qed.

  Lemma compare_ok m base es i j x y : array m base size es -> es !! i = Some x -> es !! j = Some y ->
    compare (base + Z.of_nat i * sz) (base + Z.of_nat j * sz) m = COk (cmp x y) m.
  Proof. intros Ha Hx Hy. destruct (Ha i x Hx), (Ha j y Hy). by apply Hcmp. Qed.

  (** ** the partition step on lists *)
  Fixpoint part_loop (n : nat) (piv : list Z) (i j : nat) (es : list (list Z)) : nat * list (list Z) :=
    match n with
    | O => (i, es)
    | S n' =>
        match es !! j with
        | Some x =>
            if cmp x piv <? 0 then part_loop n' piv (S i) (S j) (swap i j es)
            else if cmp x piv =? 0 then part_loop n' piv (S i) (S j) es
            else part_loop n' piv i (S j) es
        | None => (i, es)
        end
    end.
  Definition part (es : list (list Z)) : nat * list (list Z) :=
    let c := (length es - 1)%nat in
    match es !! c with
    | Some piv =>
        let r := part_loop c piv 0 0 es in
        match snd r !! fst r with
        | Some y => if cmp piv y <? 0 then (fst r, swap (fst r) c (snd r)) else r
        | None => r
        end
    | None => (O, es)
    end.

  Lemma part_loop_inv n : forall piv i j es c, es !! c = Some piv -> (i <= j)%nat -> (j + n = c)%nat ->
    let r := part_loop n piv i j es in
    (i <= fst r <= i + n)%nat /\ snd r ≡ₚ es /\ snd r !! c = Some piv /\ length (snd r) = length es.
  Proof.
    induction n as [|n IH]; intros piv i j es c Hc Hij Hj r; subst r; cbn [part_loop].
    { cbn. repeat split; try done; lia. }
    pose proof (lookup_lt_Some _ _ _ Hc). destruct (lookup_lt_is_Some_2 es j ltac:(lia)) as [x Hx]. rewrite Hx.
    destruct (lookup_lt_is_Some_2 es i ltac:(lia)) as [z Hz].
    destruct (cmp x piv <? 0).
    - destruct (IH piv (S i) (S j) (swap i j es) c) as (H1 & H2 & H3 & H4).
      + rewrite (swap_lookup i j es c z x Hz Hx). destruct (decide (c = j)); [lia|]. destruct (decide (c = i)); [lia|]. done.
      + lia. + lia.
      + repeat split; try lia; try done. * by rewrite H2, swap_perm. * by rewrite H4, swap_length.
    - destruct (cmp x piv =? 0).
      + destruct (IH piv (S i) (S j) es c Hc ltac:(lia) ltac:(lia)) as (H1 & H2 & H3 & H4). repeat split; try done; lia.
      + destruct (IH piv i (S j) es c Hc ltac:(lia) ltac:(lia)) as (H1 & H2 & H3 & H4). repeat split; try done; lia.
  Qed.

  Lemma part_perm es : (0 < length es)%nat ->
    (fst (part es) < length es)%nat /\ snd (part es) ≡ₚ es /\ length (snd (part es)) = length es.
  Proof.
    intros Hl. unfold part. destruct (lookup_lt_is_Some_2 es (length es - 1) ltac:(lia)) as [piv Hp]. rewrite Hp.
    destruct (part_loop_inv (length es - 1) piv 0 0 es (length es - 1) Hp ltac:(lia) ltac:(lia)) as (H1 & H2 & H3 & H4).
    destruct (part_loop (length es - 1) piv 0 0 es) as [i es']. cbn [fst snd] in *.
    destruct (es' !! i) as [y|]; [destruct (cmp piv y <? 0)|]; cbn [fst snd]; repeat split; try lia; try done.
    - by rewrite swap_perm. - by rewrite swap_length.
  Qed.

  (** memory follows the list *)
  Lemma qpart_loop_ok n : forall m base piv i j es c, array m base size es -> es !! c = Some piv -> (i <= j)%nat -> (j + n = c)%nat ->
    exists m', qpart_loop compare n base (base + Z.of_nat c * sz) sz (Z.of_nat i) (Z.of_nat j) m =
        COk (Z.of_nat (fst (part_loop n piv i j es))) m' /\
      array m' base size (snd (part_loop n piv i j es)) /\ only_within m m' base (Z.of_nat (length es) * sz).
  Proof.
    induction n as [|n IH]; intros m base piv i j es c Ha Hc Hij Hj; cbn [qpart_loop part_loop].
    { exists m. split; [done|]. split; [done|]. by intros q _. }
    pose proof (lookup_lt_Some _ _ _ Hc). destruct (lookup_lt_is_Some_2 es j ltac:(lia)) as [x Hx].
    destruct (lookup_lt_is_Some_2 es i ltac:(lia)) as [z Hz]. rewrite Hx.
    erewrite cbind_ok by (by eapply compare_ok).
    replace (Z.of_nat i + 1) with (Z.of_nat (S i)) by lia. replace (Z.of_nat j + 1) with (Z.of_nat (S j)) by lia.
    destruct (cmp x piv <? 0).
    - destruct (qswap_ok m base es i j Ha ltac:(lia) ltac:(lia)) as (m1 & E1 & Ha1 & Hw1).
      erewrite cbind_ok by exact E1.
      destruct (IH m1 base piv (S i) (S j) (swap i j es) c Ha1) as (m2 & E2 & Ha2 & Hw2).
      + rewrite (swap_lookup i j es c z x Hz Hx). destruct (decide (c = j)); [lia|]. destruct (decide (c = i)); [lia|]. done.
      + lia. + lia.
      + exists m2. split; [done|]. split; [done|]. rewrite swap_length in Hw2. intros q Hq. by rewrite Hw2, Hw1.
    - destruct (cmp x piv =? 0); apply IH; try done; lia.
  Qed.

  Lemma qpart_ok m base es : array m base size es -> (0 < length es)%nat ->
    exists m', qpart compare base (Z.of_nat (length es) - 1) sz m = COk (Z.of_nat (fst (part es))) m' /\
      array m' base size (snd (part es)) /\ only_within m m' base (Z.of_nat (length es) * sz).
  Proof.
    intros Ha Hl. unfold qpart, part. set (c := (length es - 1)%nat).
    destruct (lookup_lt_is_Some_2 es c ltac:(lia)) as [piv Hp]. rewrite Hp.
    replace (Z.of_nat (length es) - 1) with (Z.of_nat c) by lia. rewrite Nat2Z.id.
    destruct (qpart_loop_ok c m base piv 0 0 es c Ha Hp ltac:(lia) ltac:(lia)) as (m1 & E1 & Ha1 & Hw1).
    destruct (part_loop_inv c piv 0 0 es c Hp ltac:(lia) ltac:(lia)) as (H1 & H2 & H3 & H4).
    erewrite cbind_ok by exact E1.
    destruct (part_loop c piv 0 0 es) as [i es']. cbn [fst snd] in *.
    destruct (lookup_lt_is_Some_2 es' i ltac:(lia)) as [y Hy]. rewrite Hy.
    erewrite cbind_ok by (by eapply compare_ok).
    destruct (cmp piv y <? 0); cbn [fst snd].
    - destruct (qswap_ok m1 base es' i c Ha1 ltac:(lia) ltac:(lia)) as (m2 & E2 & Ha2 & Hw2).
      erewrite cbind_ok by exact E2. exists m2. split; [done|]. split; [done|].
      rewrite H4 in Hw2. intros q Hq. by rewrite Hw2, Hw1.
    - exists m1. by split.
  Qed.

  (** ** progress: an empty left part is followed by a non-empty one *)
  Context (Hanti : forall x y, 0 < cmp x y <-> cmp y x < 0).

  Lemma part_loop_zero n : forall piv j es, fst (part_loop n piv 0 j es) = O -> (j + n <= length es)%nat ->
    snd (part_loop n piv 0 j es) = es /\ forall k x, (j <= k < j + n)%nat -> es !! k = Some x -> 0 < cmp x piv.
  Proof.
    induction n as [|n IH]; intros piv j es H0 Hl; cbn [part_loop] in *.
    { split; [done|]. intros; lia. }
    destruct (lookup_lt_is_Some_2 es j ltac:(lia)) as [x Hx]. rewrite Hx in *.
    assert (Hpos : forall es' j', (1 <= fst (part_loop n piv 1 j' es'))%nat).
    { clear. induction n as [|n IH]; intros es' j'; cbn [part_loop]; [done|]. destruct (es' !! j') as [x|]; [|done].
      assert (Hmono : forall k i j es, (i <= fst (part_loop k piv i j es))%nat).
      { clear. induction k as [|k IHk]; intros i j es; cbn [part_loop]; [done|]. destruct (es !! j) as [x|]; [|done].
        destruct (cmp x piv <? 0); [etransitivity; [|apply IHk]; lia|].
        destruct (cmp x piv =? 0); [etransitivity; [|apply IHk]; lia|apply IHk]. }
      destruct (cmp x piv <? 0); [etransitivity; [|apply Hmono]; lia|].
      destruct (cmp x piv =? 0); [etransitivity; [|apply Hmono]; lia|apply IH]. }
    destruct (Z.ltb_spec (cmp x piv) 0) as [Hlt|Hge]. { specialize (Hpos (swap 0 j es) (S j)). lia. }
    destruct (Z.eqb_spec (cmp x piv) 0) as [Heq|Hne]. { specialize (Hpos es (S j)). lia. }
    destruct (IH piv (S j) es H0 ltac:(lia)) as [H1 H2]. split; [done|]. intros k y Hk Hy.
    destruct (decide (k = j)) as [->|]; [|apply (H2 k); [lia|done]]. rewrite Hx in Hy. injection Hy as <-. lia.
  Qed.

  Lemma part_loop_first n piv j es x : (0 < n)%nat -> es !! j = Some x -> cmp x piv <= 0 -> (1 <= fst (part_loop n piv 0 j es))%nat.
  Proof.
    intros Hn Hx Hc. destruct n as [|n]; [lia|]. cbn [part_loop]. rewrite Hx.
    assert (Hmono : forall k i j es, (i <= fst (part_loop k piv i j es))%nat).
    { clear. induction k as [|k IHk]; intros i j es; cbn [part_loop]; [done|]. destruct (es !! j) as [x|]; [|done].
      destruct (cmp x piv <? 0); [etransitivity; [|apply IHk]; lia|].
      destruct (cmp x piv =? 0); [etransitivity; [|apply IHk]; lia|apply IHk]. }
    destruct (Z.ltb_spec (cmp x piv) 0); [apply Hmono|]. destruct (Z.eqb_spec (cmp x piv) 0); [apply Hmono|lia].
  Qed.

  Lemma part_zero es : (2 <= length es)%nat -> fst (part es) = O -> (1 <= fst (part (snd (part es))))%nat.
  Proof.
    intros Hl H0. set (c := (length es - 1)%nat).
    destruct (lookup_lt_is_Some_2 es c ltac:(lia)) as [piv Hp].
    destruct (lookup_lt_is_Some_2 es O ltac:(lia)) as [a0 Ha0].
    assert (E : snd (part es) = swap 0 c es).
    { revert H0. unfold part. fold c. rewrite Hp. destruct (part_loop c piv 0 0 es) as [i es'] eqn:El. cbn [fst snd].
      destruct (es' !! i) as [y|] eqn:Hy.
      - destruct (Z.ltb_spec (cmp piv y) 0) as [Hlt|Hge]; cbn [fst snd]; intros ->.
        + destruct (part_loop_zero c piv 0 es) as [E _]; [by rewrite El|lia|]. rewrite El in E. cbn in E. by subst es'.
        + exfalso. destruct (part_loop_zero c piv 0 es) as [E Hgt]; [by rewrite El|lia|]. rewrite El in E. cbn in E. subst es'.
          specialize (Hgt O y ltac:(lia) Hy). apply Hanti in Hgt. lia.
      - cbn [fst snd]. intros ->. destruct (part_loop_zero c piv 0 es) as [E _]; [by rewrite El|lia|].
        rewrite El in E. cbn in E. subst es'. by rewrite Ha0 in Hy. }
    assert (Hgt : 0 < cmp a0 piv).
    { revert H0. unfold part. fold c. rewrite Hp. destruct (part_loop c piv 0 0 es) as [i es'] eqn:El. cbn [fst snd].
      intros H0. assert (i = O) as ->.
      { destruct (es' !! i); [destruct (cmp piv _ <? 0)|]; done. }
      destruct (part_loop_zero c piv 0 es) as [_ Hgt]; [by rewrite El|lia|]. apply (Hgt O a0); [lia|done]. }
    rewrite E. unfold part. rewrite swap_length. fold c.
    assert (Hc' : swap 0 c es !! c = Some a0).
    { rewrite (swap_lookup 0 c es c a0 piv Ha0 Hp). by rewrite decide_True. }
    assert (H0' : swap 0 c es !! O = Some piv).
    { rewrite (swap_lookup 0 c es 0 a0 piv Ha0 Hp). rewrite decide_False by lia. by rewrite decide_True. }
    rewrite Hc'. pose proof (part_loop_first c a0 0 (swap 0 c es) piv ltac:(lia) H0') as Hf.
    specialize (Hf ltac:(apply Hanti in Hgt; lia)).
    destruct (part_loop c a0 0 0 (swap 0 c es)) as [i es']. cbn [fst snd] in *.
    destruct (es' !! i); [destruct (cmp a0 _ <? 0)|]; cbn; lia.
  Qed.

  (** ** the whole sort *)

  (** what the recursion does on the list, with the same fuel *)
  Fixpoint lsort (fuel : nat) (es : list (list Z)) : list (list Z) :=
    match fuel with
    | O => es
    | S f => if (1 <? length es)%nat then
        let r := part es in lsort f (take (fst r) (snd r)) ++ lsort f (drop (fst r) (snd r))
      else es
    end.

  Definition enough (fuel : nat) (es : list (list Z)) : Prop :=
    (2 * length es < fuel)%nat \/ ((2 * length es <= fuel)%nat /\ (0 < fuel)%nat /\ (2 <= length es)%nat /\ (1 <= fst (part es))%nat).

  Lemma array_take m base es k : array m base size es -> array m base size (take k es).
  Proof. intros Ha i e Hi. apply lookup_take_Some in Hi as [Hi _]. by apply Ha. Qed.
  Lemma array_drop m base es k : array m base size es -> array m (base + Z.of_nat k * sz) size (drop k es).
  Proof.
    intros Ha i e Hi. rewrite lookup_drop in Hi. destruct (Ha _ _ Hi) as [Hl Hb]. split; [done|].
    by replace (base + Z.of_nat k * sz + Z.of_nat i * sz) with (base + Z.of_nat (k + i) * sz) by lia.
  Qed.
  Lemma array_app m base xs ys : array m base size xs -> array m (base + Z.of_nat (length xs) * sz) size ys ->
    array m base size (xs ++ ys).
  Proof.
    intros Hx Hy i e Hi. destruct (decide (i < length xs)%nat).
    - rewrite lookup_app_l in Hi by lia. by apply Hx.
    - rewrite lookup_app_r in Hi by lia. destruct (Hy _ _ Hi) as [Hl Hb]. split; [done|].
      by replace (base + Z.of_nat i * sz) with (base + Z.of_nat (length xs) * sz + Z.of_nat (i - length xs) * sz) by nia.
  Qed.
  Lemma array_agree m m' base es : array m base size es ->
    (forall q, base <= q < base + Z.of_nat (length es) * sz -> m' !! q = m !! q) -> array m' base size es.
  Proof.
    intros Ha He i e Hi. destruct (Ha i e Hi) as [Hl Hb]. split; [done|]. pose proof (lookup_lt_Some _ _ _ Hi).
    eapply bytes_at_agree; [exact Hb|]. intros q Hq. apply He. rewrite Hl in Hq. nia.
  Qed.

  Lemma lsort_perm fuel : forall es, lsort fuel es ≡ₚ es.
  Proof.
    induction fuel as [|fuel IH]; intros es; cbn [lsort]; [done|].
    destruct (Nat.ltb_spec 1 (length es)) as [Hl|Hl]; [|done]. cbn zeta. rewrite !IH.
    rewrite take_drop. by destruct (part_perm es ltac:(lia)) as (_ & ? & _).
  Qed.

  Lemma qsort_ok fuel : forall m base es, array m base size es -> Z.of_nat (length es) < 2 ^ 31 -> enough fuel es ->
    exists m', qsort compare fuel base (Z.of_nat (length es)) sz m = COk tt m' /\
      array m' base size (lsort fuel es) /\ only_within m m' base (Z.of_nat (length es) * sz).
  Proof.
    induction fuel as [|fuel IH]; intros m base es Ha H31 Hen. { destruct Hen; lia. }
    cbn [qsort lsort]. destruct (Nat.ltb_spec 1 (length es)) as [Hl|Hl].
    2:{ assert ((1 <? Z.of_nat (length es)) = false) as -> by lia. exists m. split; [done|]. split; [done|]. by intros q _. }
    assert ((1 <? Z.of_nat (length es)) = true) as -> by lia. cbn zeta.
    destruct (qpart_ok m base es Ha ltac:(lia)) as (m1 & E1 & Ha1 & Hw1). erewrite cbind_ok by exact E1.
    destruct (part_perm es ltac:(lia)) as (Hi & Hperm & Hlen).
    set (p := fst (part es)) in *. set (es1 := snd (part es)) in *.
    change (2 ^ 31) with 2147483648 in *.
    assert (to_s32 (Z.of_nat p) = Z.of_nat p) as ->. { apply to_s32_id. unfold in_int, INT_MIN, INT_MAX. lia. }
    assert (Hlt : length (take p es1) = p) by (rewrite take_length; lia).
    assert (Hld : length (drop p es1) = (length es - p)%nat) by (rewrite drop_length; lia).
    assert (Hen1 : enough fuel (take p es1)).
    { left. rewrite Hlt. destruct Hen as [?|(? & ? & ? & ?)]; lia. }
    assert (Hen2 : enough fuel (drop p es1)).
    { unfold enough. rewrite Hld. destruct Hen as [?|(? & ? & ? & Hp)].
      - destruct (decide (p = O)) as [Hp0|]; [|left; lia]. right. rewrite Hp0 at 1 2. repeat split; try lia.
        rewrite Hp0, drop_0. subst es1. by apply part_zero.
      - left. fold p in Hp. lia. }
    destruct (IH m1 base (take p es1)) as (m2 & E2 & Ha2 & Hw2); [by apply array_take|lia|done|].
    rewrite Hlt in E2, Hw2. erewrite cbind_ok by exact E2.
    assert (Hd2 : array m2 (base + Z.of_nat p * sz) size (drop p es1)).
    { eapply array_agree; [by apply array_drop|]. intros q Hq. apply Hw2. lia. }
    destruct (IH m2 (base + Z.of_nat p * sz) (drop p es1) Hd2) as (m3 & E3 & Ha3 & Hw3); [lia|done|].
    rewrite Hld in E3, Hw3. replace (Z.of_nat (length es) - Z.of_nat p) with (Z.of_nat (length es - p)) by lia.
    exists m3. split; [exact E3|]. split.
    - apply array_app.
      + eapply array_agree; [exact Ha2|]. intros q Hq. apply Hw3.
        rewrite (Permutation_length (lsort_perm fuel (take p es1))), Hlt in Hq. lia.
      + rewrite (Permutation_length (lsort_perm fuel (take p es1))), Hlt. exact Ha3.
    - intros q Hq. rewrite Hw3 by nia. rewrite Hw2 by nia. by apply Hw1.
  Qed.

  (** ** sortedness, for elements that all differ *)
  Context (Htrans : forall x y z, cmp x y < 0 -> cmp y z < 0 -> cmp x z < 0).
  Definition distinct (es : list (list Z)) : Prop :=
    forall i j x y, i <> j -> es !! i = Some x -> es !! j = Some y -> cmp x y <> 0.
  Definition below (x y : list Z) : Prop := cmp x y < 0.

  Lemma distinct_perm xs ys : xs ≡ₚ ys -> distinct xs -> distinct ys.
  Proof.
    intros Hp Hd i j x y Hij Hx Hy. apply Permutation_sym, Permutation_inj in Hp as (Hlen & f & Hinj & Hf).
    assert (f i <> f j) by (intros E; by apply Hinj in E). eapply (Hd (f i) (f j)); [done| |]; rewrite <- Hf; done.
  Qed.
  Lemma distinct_take es k : distinct es -> distinct (take k es).
  Proof. intros Hd i j x y Hij Hx Hy. apply lookup_take_Some in Hx as [Hx _]. apply lookup_take_Some in Hy as [Hy _]. by eapply Hd. Qed.
  Lemma distinct_drop es k : distinct es -> distinct (drop k es).
  Proof. intros Hd i j x y Hij Hx Hy. rewrite lookup_drop in Hx, Hy. eapply (Hd (k + i)%nat (k + j)%nat); [lia|done|done]. Qed.

  (** the loop separates the elements below the pivot from those above *)
  Lemma part_loop_split n : forall piv i j es c, es !! c = Some piv -> (i <= j)%nat -> (j + n = c)%nat -> distinct es ->
    (forall k x, (k < i)%nat -> es !! k = Some x -> cmp x piv < 0) ->
    (forall k x, (i <= k < j)%nat -> es !! k = Some x -> 0 < cmp x piv) ->
    let r := part_loop n piv i j es in
    (forall k x, (k < fst r)%nat -> snd r !! k = Some x -> cmp x piv < 0) /\
    (forall k x, (fst r <= k < c)%nat -> snd r !! k = Some x -> 0 < cmp x piv).
  Proof.
    induction n as [|n IH]; intros piv i j es c Hc Hij Hj Hd Hlo Hhi r; subst r; cbn [part_loop].
    { cbn. split; [done|]. intros k x Hk. apply Hhi. lia. }
    pose proof (lookup_lt_Some _ _ _ Hc). destruct (lookup_lt_is_Some_2 es j ltac:(lia)) as [x Hx]. rewrite Hx.
    destruct (lookup_lt_is_Some_2 es i ltac:(lia)) as [z Hz].
    destruct (Z.ltb_spec (cmp x piv) 0) as [Hlt|Hge].
    - apply (IH piv (S i) (S j) (swap i j es) c).
      + rewrite (swap_lookup i j es c z x Hz Hx). rewrite decide_False by lia. by rewrite decide_False by lia.
      + lia. + lia.
      + eapply distinct_perm; [|exact Hd]. symmetry. apply swap_perm.
      + intros k y Hk Hy. rewrite (swap_lookup i j es k z x Hz Hx) in Hy.
        destruct (decide (k = j)) as [->|].
        * assert (i = j) as <- by lia. injection Hy as <-. rewrite Hz in Hx. by injection Hx as ->.
        * destruct (decide (k = i)) as [->|]; [by injection Hy as <-|]. apply (Hlo k); [lia|done].
      + intros k y Hk Hy. rewrite (swap_lookup i j es k z x Hz Hx) in Hy.
        destruct (decide (k = j)) as [->|].
        * injection Hy as <-. apply (Hhi i z); [lia|done].
        * rewrite decide_False in Hy by lia. apply (Hhi k y); [lia|done].
    - destruct (Z.eqb_spec (cmp x piv) 0) as [He|Hne]. { exfalso. by eapply (Hd j c); [lia| | |]. }
      apply (IH piv i (S j) es c); try done; [lia|lia|].
      intros k y Hk Hy. destruct (decide (k = j)) as [->|]; [|apply (Hhi k); [lia|done]]. rewrite Hx in Hy. injection Hy as <-. lia.
  Qed.

  (** after the step, everything before the pivot's place is below everything from it on *)
  Lemma part_split es : (0 < length es)%nat -> distinct es ->
    forall i j x y, (i < fst (part es) <= j)%nat -> snd (part es) !! i = Some x -> snd (part es) !! j = Some y -> cmp x y < 0.
  Proof.
    intros Hl Hd. set (c := (length es - 1)%nat).
    destruct (lookup_lt_is_Some_2 es c ltac:(lia)) as [piv Hp]. unfold part. fold c. rewrite Hp.
    destruct (part_loop_split c piv 0 0 es c Hp ltac:(lia) ltac:(lia) Hd) as [Hlo Hhi]; [intros; lia|intros; lia|].
    destruct (part_loop_inv c piv 0 0 es c Hp ltac:(lia) ltac:(lia)) as (H1 & H2 & H3 & H4).
    destruct (part_loop c piv 0 0 es) as [p es']. cbn [fst snd] in *.
    destruct (lookup_lt_is_Some_2 es' p ltac:(lia)) as [w Hw]. rewrite Hw.
    assert (Hd' : distinct es') by (eapply distinct_perm; [symmetry; exact H2|done]).
    intros i j x y Hij.
    destruct (Z.ltb_spec (cmp piv w) 0) as [Hlt|Hge]; cbn [fst snd].
    - cbn [fst] in Hij. rewrite !(swap_lookup p c es' _ w piv Hw H3).
      rewrite (decide_False (P := i = c)) by lia. rewrite (decide_False (P := i = p)) by (cbn in Hij; lia).
      intros Hx Hy. assert (Hxp : cmp x piv < 0) by (apply (Hlo i); [cbn in Hij; lia|done]).
      destruct (decide (j = c)) as [->|].
      + injection Hy as <-. by eapply Htrans.
      + destruct (decide (j = p)) as [->|]; [by injection Hy as <-|].
        eapply Htrans; [exact Hxp|]. apply Hanti. pose proof (lookup_lt_Some _ _ _ Hy). apply (Hhi j); [cbn in Hij; lia|done].
    - intros Hx Hy. assert (Hxp : cmp x piv < 0) by (apply (Hlo i); [cbn in Hij; lia|done]).
      destruct (decide (j = c)) as [->|].
      + rewrite H3 in Hy. by injection Hy as <-.
      + eapply Htrans; [exact Hxp|]. apply Hanti. pose proof (lookup_lt_Some _ _ _ Hy). apply (Hhi j); [cbn in Hij; lia|done].
  Qed.

  Lemma lsort_sorted fuel : forall es, distinct es -> enough fuel es -> StronglySorted below (lsort fuel es).
  Proof.
    induction fuel as [|fuel IH]; intros es Hd Hen. { destruct Hen; lia. }
    cbn [lsort]. destruct (Nat.ltb_spec 1 (length es)) as [Hl|Hl].
    2:{ destruct es as [|x [|y es]]; cbn in Hl; try lia; repeat constructor. }
    cbn zeta. destruct (part_perm es ltac:(lia)) as (Hi & Hperm & Hlen).
    pose proof (part_split es ltac:(lia) Hd) as Hsplit.
    assert (Hd1 : distinct (snd (part es))) by (eapply distinct_perm; [symmetry; exact Hperm|done]).
    set (p := fst (part es)) in *. set (es1 := snd (part es)) in *.
    assert (Hlt : length (take p es1) = p) by (rewrite take_length; lia).
    assert (Hld : length (drop p es1) = (length es - p)%nat) by (rewrite drop_length; lia).
    assert (Hs1 : StronglySorted below (lsort fuel (take p es1))).
    { apply IH; [by apply distinct_take|]. left. rewrite Hlt. destruct Hen as [?|(? & ? & ? & ?)]; lia. }
    assert (Hs2 : StronglySorted below (lsort fuel (drop p es1))).
    { apply IH; [by apply distinct_drop|]. unfold enough. rewrite Hld. destruct Hen as [?|(? & ? & ? & Hp)].
      - destruct (decide (p = O)) as [Hp0|]; [|left; lia]. right. rewrite Hp0 at 1 2. repeat split; try lia.
        rewrite Hp0, drop_0. subst es1. by apply part_zero.
      - left. fold p in Hp. lia. }
    apply ssorted_app.
    - intros x y Hx Hy. rewrite (lsort_perm fuel) in Hx. rewrite (lsort_perm fuel) in Hy.
      apply elem_of_list_lookup in Hx as [i Hx]. apply elem_of_list_lookup in Hy as [j Hy].
      apply lookup_take_Some in Hx as [Hx Hxi]. rewrite lookup_drop in Hy.
      by apply (Hsplit i (p + j)%nat); [lia| |].
    - done.
    - done.
  Qed.
End proofs.

(** ** the theorems *)

(** whatever the order (only antisymmetric), qsort ends, permutes the
    elements and touches nothing outside the array *)
Theorem C28_permutes size compare cmp m base es fuel :
  (0 < size)%nat -> compares size compare cmp -> (forall x y, 0 < cmp x y <-> cmp y x < 0) ->
  array m base size es -> Z.of_nat (length es) < 2 ^ 31 -> (2 * length es < fuel)%nat ->
  exists m' es', qsort compare fuel base (Z.of_nat (length es)) (Z.of_nat size) m = COk tt m' /\
    array m' base size es' /\ es' ≡ₚ es /\ only_within m m' base (Z.of_nat (length es) * Z.of_nat size).
Proof.
  intros Hs Hc Ha Harr H31 Hf.
  destruct (qsort_ok size Hs compare cmp Hc Ha fuel m base es Harr H31 ltac:(by left)) as (m' & E & Ha' & Hw).
  exists m', (lsort cmp fuel es). split; [done|]. split; [done|]. split; [|done]. (by eapply lsort_perm).
Qed.

(** elements that all differ come out in increasing order *)
Theorem C28_sorts_distinct size compare cmp m base es fuel :
  (0 < size)%nat -> compares size compare cmp -> ordering cmp ->
  array m base size es -> Z.of_nat (length es) < 2 ^ 31 -> (2 * length es < fuel)%nat ->
  (forall i j x y, i <> j -> es !! i = Some x -> es !! j = Some y -> cmp x y <> 0) ->
  exists m' es', qsort compare fuel base (Z.of_nat (length es)) (Z.of_nat size) m = COk tt m' /\
    array m' base size es' /\ es' ≡ₚ es /\
    (forall i j x y, (i < j)%nat -> es' !! i = Some x -> es' !! j = Some y -> cmp x y < 0) /\
    only_within m m' base (Z.of_nat (length es) * Z.of_nat size).
Proof.
  intros Hs Hc [Ha Ht] Harr H31 Hf Hd.
  destruct (qsort_ok size Hs compare cmp Hc Ha fuel m base es Harr H31 ltac:(by left)) as (m' & E & Ha' & Hw).
  exists m', (lsort cmp fuel es). split; [done|]. split; [done|]. split; [by eapply lsort_perm|]. split; [|done].
  assert (HS : StronglySorted (below cmp) (lsort cmp fuel es)) by (eapply lsort_sorted; eauto; by left). revert HS. generalize (lsort cmp fuel es). clear.
  intros l HS. induction HS as [|a l HS IH Hall]; intros i j x y Hij Hx Hy; [by rewrite lookup_nil in Hx|].
  destruct j as [|j]; [lia|]. cbn in Hy. destruct i as [|i]; cbn in Hx.
  - injection Hx as <-. rewrite Forall_lookup in Hall. by apply (Hall j).
  - apply (IH i j); [lia|done|done].
Qed.

(** with equal elements the result need not be sorted: 3 2 2 stays as it is *)
Definition cmp_byte (x y : list Z) : Z := match x, y with [a], [b] => a - b | _, _ => 0 end.
Definition compare_byte (a b : Z) : CM Z := cbind (ldu a) (fun x => cbind (ldu b) (fun y => cret (x - y))).

Lemma compares_byte : compares 1 compare_byte cmp_byte.
Proof.
  intros m a b x y Ha Hb Hx Hy. destruct x as [|x [|]]; try done. destruct y as [|y [|]]; try done.
  apply bytes_at_cons in Ha as (_ & Ha & _). apply bytes_at_cons in Hb as (_ & Hb & _).
  unfold compare_byte. erewrite cbind_ok by (by apply ldu_ok). by erewrite cbind_ok by (by apply ldu_ok).
Qed.
Lemma cmp_byte_anti x y : 0 < cmp_byte x y <-> cmp_byte y x < 0.
Proof. unfold cmp_byte. destruct x as [|a [|]], y as [|b [|]]; try lia. Qed.
Lemma array_bytes m base bs : bytes_at m base bs -> array m base 1 (map (fun b => [b]) bs).
Proof.
  intros Hb k e Hk. apply list_lookup_fmap_inv in Hk as (b & -> & Hk). split; [done|].
  destruct (bytes_at_lookup _ _ _ _ _ Hb Hk) as [H1 H2]. apply bytes_at_cons. split; [done|].
  replace (base + Z.of_nat k * Z.of_nat 1) with (base + Z.of_nat k) by lia. split; [done|apply bytes_at_nil].
Qed.
Lemma blit_at p bs m : Forall byte bs -> bytes_at (blit p bs m) p bs.
Proof. apply blit_bytes_at. Qed.

Theorem C28_equal_elements_refuted :
  ~ (forall size compare cmp m base es fuel,
       (0 < size)%nat -> compares size compare cmp -> (forall x y, 0 < cmp x y <-> cmp y x < 0) ->
       array m base size es -> Z.of_nat (length es) < 2 ^ 31 -> (2 * length es < fuel)%nat ->
       exists m' es', qsort compare fuel base (Z.of_nat (length es)) (Z.of_nat size) m = COk tt m' /\
         array m' base size es' /\ es' ≡ₚ es /\
         (forall i j x y, (i < j)%nat -> es' !! i = Some x -> es' !! j = Some y -> cmp x y <= 0)).
Proof.
  intros H. set (m := blit 10 [3; 2; 2] ∅).
  destruct (H 1%nat compare_byte cmp_byte m 10 (map (fun b => [b]) [3; 2; 2]) 7%nat) as (m' & es' & E & Ha & Hp & Hs).
  - lia. - apply compares_byte. - apply cmp_byte_anti.
  - apply array_bytes, blit_at. repeat constructor; unfold byte; lia.
  - done. - cbn; lia.
  - assert (E2 : qsort compare_byte 7 10 3 1 m = COk tt m) by (vm_compute; reflexivity).
    change (Z.of_nat (length (map (λ b : Z, [b]) [3; 2; 2]))) with 3 in E. change (Z.of_nat 1) with 1 in E.
    rewrite E2 in E. injection E as <-.
    assert (Hl : forall k e, es' !! k = Some e -> exists b, e = [b] /\ m !! (10 + Z.of_nat k) = Some b).
    { intros k e Hk. destruct (Ha k e Hk) as [Hl Hb]. destruct e as [|b [|]]; try done. exists b. split; [done|].
      apply bytes_at_cons in Hb as (_ & Hb & _). by replace (10 + Z.of_nat k) with (10 + Z.of_nat k * Z.of_nat 1) by lia. }
    apply Permutation_length in Hp. destruct es' as [|a [|b es']]; [done|done|].
    destruct (Hl 0%nat a eq_refl) as (x & -> & Hx). destruct (Hl 1%nat b eq_refl) as (y & -> & Hy).
    specialize (Hs 0%nat 1%nat [x] [y] ltac:(lia) eq_refl eq_refl). vm_compute in Hx, Hy.
    injection Hx as <-. injection Hy as <-. cbn in Hs. lia.
Qed.

(** the hypotheses are met by an array of five distinct bytes *)
Example sort_hypotheses_hold : exists m, array m 10 1 (map (fun b => [b]) [9; 200; 3; 7; 1]) /\ compares 1 compare_byte cmp_byte /\
  (forall i j x y, i <> j -> map (fun b => [b]) [9; 200; 3; 7; 1] !! i = Some x -> map (fun b => [b]) [9; 200; 3; 7; 1] !! j = Some y -> cmp_byte x y <> 0) /\
  exists m', qsort compare_byte 11 10 5 1 m = COk tt m' /\ bytes_at m' 10 [1; 3; 7; 9; 200].
Proof.
  exists (blit 10 [9; 200; 3; 7; 1] ∅). split; [|split; [|split]].
  - apply array_bytes, blit_at. repeat constructor; unfold byte; lia.
  - apply compares_byte.
  - intros i j x y Hij Hx Hy. do 5 (destruct i as [|i]; [injection Hx as <-; do 5 (destruct j as [|j]; [injection Hy as <-; cbn; lia|]); done|]). done.
  - eexists. split; [vm_compute; reflexivity|]. split; [repeat constructor; unfold byte; lia|].
    intros i b Hi. do 5 (destruct i as [|i]; [injection Hi as <-; vm_compute; reflexivity|]). done.
Qed.
Print Assumptions C28_permutes.
Print Assumptions C28_sorts_distinct.
Print Assumptions C28_equal_elements_refuted.
