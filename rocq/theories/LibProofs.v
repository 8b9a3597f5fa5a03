(** Proofs about the string functions of the C library. *)
From stdpp Require Import base gmap list.
From Coq Require Import ZArith Lia.
From Coq Require Import ZifyBool ZifyNat.
From Verif Require Import CInt LibModel LibSpec.
Open Scope Z_scope. Open Scope clib_scope.
Ltac Zify.zify_post_hook ::= Z.div_mod_to_equations.

(** ** bytes *)
Lemma to_schar_signed b : byte b -> to_schar b = signed b.
Proof. unfold byte, to_schar, signed. intros. destruct (Z.ltb_spec b 128); lia. Qed.
Lemma to_schar_zero b : byte b -> (to_schar b =? 0) = (b =? 0).
Proof. unfold byte, to_schar. intros. lia. Qed.
Lemma to_schar_eq a b : byte a -> byte b -> (to_schar a =? to_schar b) = (a =? b).
Proof. unfold byte, to_schar. intros. lia. Qed.
Lemma to_byte_schar b : byte b -> to_byte (to_schar b) = b.
Proof. intros. by apply to_schar_byte. Qed.
Lemma signed_inj a b : byte a -> byte b -> signed a = signed b -> a = b.
Proof. unfold byte, signed. intros. destruct (Z.ltb_spec a 128), (Z.ltb_spec b 128); lia. Qed.
Lemma byte_to_byte z : byte (to_byte z).
Proof. apply to_byte_range. Qed.
Lemma schar_diff a b : in_int (to_schar a - to_schar b) = true.
Proof. unfold in_int, to_schar, INT_MIN, INT_MAX. lia. Qed.

(** ** the monad *)
Lemma cbind_ok {A B} (c : CM A) (k : A -> CM B) m a m' : c m = COk a m' -> cbind c k m = k a m'.
Proof. unfold cbind. by intros ->. Qed.
Lemma cbind_ret {A B} (a : A) (k : A -> CM B) m : cbind (cret a) k m = k a m.
Proof. done. Qed.
Lemma ld_ok m p b : m !! p = Some b -> ld p m = COk (to_schar b) m.
Proof. unfold ld. by intros ->. Qed.
Lemma ldu_ok m p b : m !! p = Some b -> ldu p m = COk b m.
Proof. unfold ldu. by intros ->. Qed.
Lemma st_ok m p v : is_Some (m !! p) -> st p v m = COk tt (<[p := to_byte v]> m).
Proof. unfold st. by intros [? ->]. Qed.
Lemma c_int_ok z m : in_int z = true -> c_int z m = COk z m.
Proof. unfold c_int. by intros ->. Qed.

(** ** byte arrays *)
Lemma bytes_at_nil m p : bytes_at m p [].
Proof. split; [constructor|]. intros i b H. by rewrite lookup_nil in H. Qed.

Lemma bytes_at_cons m p b bs : bytes_at m p (b :: bs) <-> byte b /\ m !! p = Some b /\ bytes_at m (p + 1) bs.
Proof.
  split.
  - intros [Hf Hl]. inversion Hf as [|? ? Hb Hbs]; subst. split; [done|]. split.
    { rewrite <- (Hl O b eq_refl). f_equal. lia. }
    split; [done|]. intros i c Hi. rewrite <- (Hl (S i) c Hi). f_equal. lia.
  - intros (Hb & H0 & [Hf Hl]). split; [by constructor|]. intros [|i] c Hi; cbn in Hi.
    + injection Hi as <-. rewrite <- H0. f_equal. lia.
    + rewrite <- (Hl i c Hi). f_equal. lia.
Qed.

Lemma bytes_at_app m p bs cs : bytes_at m p (bs ++ cs) <-> bytes_at m p bs /\ bytes_at m (p + Z.of_nat (length bs)) cs.
Proof.
  revert p. induction bs as [|b bs IH]; intros p; cbn.
  - rewrite Z.add_0_r. split; [intros H; split; [apply bytes_at_nil|done]|by intros [_ ?]].
  - rewrite !bytes_at_cons, IH. replace (p + Z.of_nat (S (length bs))) with (p + 1 + Z.of_nat (length bs)) by lia. tauto.
Qed.

Lemma bytes_at_room m p bs : bytes_at m p bs -> room m p (length bs).
Proof. intros [_ Hl] i Hi. destruct (lookup_lt_is_Some_2 bs i Hi) as [b Hb]. rewrite (Hl _ _ Hb). by eexists. Qed.

Lemma bytes_at_lookup m p bs i b : bytes_at m p bs -> bs !! i = Some b -> m !! (p + Z.of_nat i) = Some b /\ byte b.
Proof. intros [Hf Hl] Hi. split; [by apply Hl|]. by eapply Forall_lookup_1. Qed.

Lemma bytes_at_insert m p bs q v : bytes_at m p bs -> (q < p \/ p + Z.of_nat (length bs) <= q) -> bytes_at (<[q := v]> m) p bs.
Proof.
  intros [Hf Hl] Hq. split; [done|]. intros i b Hi. pose proof (lookup_lt_Some _ _ _ Hi).
  rewrite lookup_insert_ne by lia. by apply Hl.
Qed.

Lemma bytes_at_take m p bs n : bytes_at m p bs -> bytes_at m p (take n bs).
Proof.
  intros [Hf Hl]. split; [by apply Forall_take|]. intros i b Hi. apply Hl.
  destruct (decide (i < n)%nat); [by rewrite lookup_take in Hi|]. by rewrite lookup_take_ge in Hi by lia.
Qed.

Lemma bytes_at_agree m m' p bs : bytes_at m p bs ->
  (forall q, p <= q < p + Z.of_nat (length bs) -> m' !! q = m !! q) -> bytes_at m' p bs.
Proof.
  intros [Hf Hl] He. split; [done|]. intros i b Hi. pose proof (lookup_lt_Some _ _ _ Hi).
  rewrite He by lia. by apply Hl.
Qed.

Lemma room_cons m p n : room m p (S n) <-> is_Some (m !! p) /\ room m (p + 1) n.
Proof.
  split.
  - intros H. split.
    { specialize (H O ltac:(lia)). by rewrite Z.add_0_r in H. }
    intros i Hi. specialize (H (S i) ltac:(lia)). by replace (p + 1 + Z.of_nat i) with (p + Z.of_nat (S i)) by lia.
  - intros [H0 H] [|i] Hi. { by rewrite Z.add_0_r. }
    specialize (H i ltac:(lia)). by replace (p + Z.of_nat (S i)) with (p + 1 + Z.of_nat i) by lia.
Qed.

Lemma room_insert m p n q v : room m p n -> room (<[q := v]> m) p n.
Proof. intros H i Hi. rewrite lookup_insert_is_Some'. right. by apply H. Qed.

Lemma room_le m p n k : room m p n -> (k <= n)%nat -> room m p k.
Proof. intros H Hk i Hi. apply H. lia. Qed.

(** writing a list of bytes *)
Fixpoint blit (p : Z) (bs : list Z) (m : mem) : mem :=
  match bs with [] => m | b :: bs' => blit (p + 1) bs' (<[p := b]> m) end.

Lemma blit_lookup p bs m : patched m p bs (blit p bs m).
Proof.
  revert p m. induction bs as [|b bs IH]; intros p m q; cbn.
  - rewrite Z.add_0_r. destruct (Z.leb_spec p q), (Z.ltb_spec q p); try lia; done.
  - rewrite IH. destruct (Z.eq_dec q p) as [->|Hne].
    + assert ((p + 1 <=? p) && (p <? p + 1 + Z.of_nat (length bs)) = false) as -> by lia.
      assert ((p <=? p) && (p <? p + Z.of_nat (S (length bs))) = true) as -> by lia.
      rewrite lookup_insert. by replace (Z.to_nat (p - p)) with O by lia.
    + rewrite lookup_insert_ne by lia.
      assert ((p <=? q) && (q <? p + Z.of_nat (S (length bs))) = (p + 1 <=? q) && (q <? p + 1 + Z.of_nat (length bs))) as -> by lia.
      destruct (_ && _) eqn:E; [|done].
      replace (Z.to_nat (q - p)) with (S (Z.to_nat (q - (p + 1)))) by lia. done.
Qed.

Lemma patched_fun m p bs m1 m2 : patched m p bs m1 -> patched m p bs m2 -> m1 = m2.
Proof. intros H1 H2. apply map_eq. intros q. by rewrite H1, H2. Qed.

Lemma blit_app p bs cs m : blit p (bs ++ cs) m = blit (p + Z.of_nat (length bs)) cs (blit p bs m).
Proof.
  revert p m. induction bs as [|b bs IH]; intros p m; cbn.
  - by rewrite Z.add_0_r.
  - rewrite IH. f_equal. lia.
Qed.

Lemma blit_snoc_first p bs b m : blit p bs (<[p + Z.of_nat (length bs) := b]> m) = blit p (bs ++ [b]) m.
Proof.
  apply map_eq. intros q. rewrite !(blit_lookup _ _ _ q). rewrite app_length. cbn.
  destruct (Z.eq_dec q (p + Z.of_nat (length bs))) as [->|Hne].
  - assert ((p <=? p + Z.of_nat (length bs)) && (p + Z.of_nat (length bs) <? p + Z.of_nat (length bs)) = false) as -> by lia.
    assert ((p <=? p + Z.of_nat (length bs)) && (p + Z.of_nat (length bs) <? p + Z.of_nat (length bs + 1)) = true) as -> by lia.
    rewrite lookup_insert. rewrite lookup_app_r by lia. by replace (Z.to_nat _ - length bs)%nat with O by lia.
  - rewrite lookup_insert_ne by lia.
    assert ((p <=? q) && (q <? p + Z.of_nat (length bs + 1)) = (p <=? q) && (q <? p + Z.of_nat (length bs))) as -> by lia.
    destruct (_ && _) eqn:E; [|done]. by rewrite lookup_app_l by lia.
Qed.

Lemma blit_bytes_at p bs m : Forall byte bs -> bytes_at (blit p bs m) p bs.
Proof.
  intros Hf. split; [done|]. intros i b Hi. pose proof (lookup_lt_Some _ _ _ Hi). rewrite blit_lookup.
  destruct (Z.leb_spec p (p + Z.of_nat i)), (Z.ltb_spec (p + Z.of_nat i) (p + Z.of_nat (length bs))); try lia.
  cbn. by replace (Z.to_nat (p + Z.of_nat i - p)) with i by lia.
Qed.

Lemma blit_outside p bs m q : (q < p \/ p + Z.of_nat (length bs) <= q) -> blit p bs m !! q = m !! q.
Proof.
  intros H. rewrite blit_lookup.
  destruct (Z.leb_spec p q), (Z.ltb_spec q (p + Z.of_nat (length bs))); try lia; done.
Qed.

(** ** copying *)
Lemma memcpy_loop_ok bs : forall m d s, bytes_at m s bs -> room m d (length bs) ->
  (d <= s \/ s + Z.of_nat (length bs) <= d) ->
  memcpy_loop (length bs) d s m = COk tt (blit d bs m).
Proof.
  induction bs as [|b bs IH]; intros m d s Hs Hd Ho; [done|].
  apply bytes_at_cons in Hs as (Hb & H0 & Hs). apply room_cons in Hd as [Hd0 Hd].
  cbn [memcpy_loop length blit]. cbn [length] in Ho.
  erewrite cbind_ok by (by apply ld_ok). erewrite cbind_ok by (by apply st_ok).
  rewrite to_byte_schar by done. apply IH.
  - apply bytes_at_insert; [done|lia].
  - by apply room_insert.
  - lia.
Qed.

Lemma memmove_loop_ok bs : forall m d s, bytes_at m s bs -> room m d (length bs) -> s <= d ->
  memmove_loop (length bs) (d + Z.of_nat (length bs)) (s + Z.of_nat (length bs)) m = COk tt (blit d bs m).
Proof.
  induction bs as [|b bs IH] using rev_ind; intros m d s Hs Hd Ho; [done|].
  apply bytes_at_app in Hs as [Hs Hb]. apply bytes_at_cons in Hb as (Hb & H0 & _).
  rewrite app_length in *. cbn [length] in *. rewrite Nat.add_1_r in *. cbn [memmove_loop].
  replace (s + Z.of_nat (S (length bs)) - 1) with (s + Z.of_nat (length bs)) by lia.
  replace (d + Z.of_nat (S (length bs)) - 1) with (d + Z.of_nat (length bs)) by lia.
  erewrite cbind_ok by (by apply ld_ok).
  erewrite cbind_ok. 2:{ apply st_ok. apply Hd. lia. }
  rewrite to_byte_schar by done. rewrite IH.
  - by rewrite blit_snoc_first.
  - apply bytes_at_insert; [done|lia].
  - apply room_insert. by apply (room_le _ _ (S (length bs))); [|lia].
  - lia.
Qed.

Lemma memset_loop_ok n : forall m s c, room m s n ->
  memset_loop n s c m = COk tt (blit s (replicate n (to_byte c)) m).
Proof.
  induction n as [|n IH]; intros m s c Hr; [done|]. apply room_cons in Hr as [H0 Hr].
  cbn. erewrite cbind_ok by (by apply st_ok). apply IH. by apply room_insert.
Qed.

(** ** scanning *)
Lemma memchr_loop_ok bs : forall m p c, bytes_at m p bs -> -128 <= c < 128 ->
  exists r, memchr_loop (length bs) p c m = COk r m /\
    ((r = 0 /\ to_byte c ∉ bs) \/ exists i, r = p + Z.of_nat i /\ first_at (fun b => b = to_byte c) bs i).
Proof.
  induction bs as [|b bs IH]; intros m p c Hp Hc.
  { exists 0. split; [done|]. left. split; [done|]. apply not_elem_of_nil. }
  apply bytes_at_cons in Hp as (Hb & H0 & Hp). cbn [length memchr_loop].
  erewrite cbind_ok by (by apply ld_ok).
  assert (Ec : (c =? to_schar b) = (b =? to_byte c)) by (unfold byte, to_schar, to_byte in *; lia).
  rewrite Ec. destruct (Z.eqb_spec b (to_byte c)) as [->|Hne].
  - exists p. split; [done|]. right. exists O. split; [lia|]. split; [by exists (to_byte c)|]. intros; lia.
  - destruct (IH m (p + 1) c Hp Hc) as (r & E & [[-> Hn]|(i & -> & (b' & Hb' & Heq) & Hf)]).
    + exists 0. split; [exact E|]. left. split; [done|]. apply not_elem_of_cons. split; [congruence|exact Hn].
    + eexists. split; [exact E|]. right. exists (S i). split; [lia|]. split; [by exists b'|].
      intros [|j] b2 Hj Hl; [by injection Hl as <-|]. apply (Hf j b2); [lia|done].
Qed.

Lemma strlen_loop_ok bs : forall m s k fuel, bytes_at m (s + k) (bs ++ [0]) -> 0 ∉ bs -> 0 <= k ->
  k + Z.of_nat (length bs) <= INT_MAX -> (length bs < fuel)%nat ->
  strlen_loop fuel s k m = COk (k + Z.of_nat (length bs)) m.
Proof.
  induction bs as [|b bs IH]; intros m s k fuel Hs Hz Hk Hb Hf; (destruct fuel as [|fuel]; [lia|]); cbn [strlen_loop].
  - apply bytes_at_cons in Hs as (_ & H0 & _). erewrite cbind_ok by (by apply ld_ok). cbn. f_equal. lia.
  - cbn in Hs. apply bytes_at_cons in Hs as (Hb' & H0 & Hs). apply not_elem_of_cons in Hz as [Hz0 Hz].
    erewrite cbind_ok by (by apply ld_ok). rewrite to_schar_zero by done.
    destruct (Z.eqb_spec b 0); [lia|]. cbn [length] in *.
    erewrite cbind_ok. 2:{ apply c_int_ok. unfold in_int, INT_MIN. lia. }
    rewrite IH; [f_equal; lia| |done|lia|lia|lia].
    by replace (s + (k + 1)) with (s + k + 1) by lia.
Qed.

Lemma strlen_ok m s bs fuel : cstr m s bs -> Z.of_nat (length bs) <= INT_MAX -> (length bs < fuel)%nat ->
  strlen fuel s m = COk (Z.of_nat (length bs)) m.
Proof.
  intros [Hs Hz] Hb Hf. unfold strlen. rewrite (strlen_loop_ok bs); try done; try lia.
  by rewrite Z.add_0_r.
Qed.

Lemma strchr_end bs : forall m p fuel, bytes_at m p (bs ++ [0]) -> 0 ∉ bs -> (length bs < fuel)%nat ->
  strchr fuel p 0 m = COk (p + Z.of_nat (length bs)) m.
Proof.
  induction bs as [|b bs IH]; intros m p fuel Hs Hz Hf; (destruct fuel as [|fuel]; [lia|]); cbn [strchr].
  - apply bytes_at_cons in Hs as (_ & H0 & _). erewrite cbind_ok by (by apply ld_ok). cbn. f_equal. lia.
  - cbn in Hs. apply bytes_at_cons in Hs as (Hb' & H0 & Hs). apply not_elem_of_cons in Hz as [Hz0 Hz].
    erewrite cbind_ok by (by apply ld_ok). rewrite to_schar_zero by done.
    destruct (Z.eqb_spec b 0) as [|Hne]; [lia|]. cbn [negb orb].
    rewrite (Z.eqb_sym 0), to_schar_zero by done. rewrite (proj2 (Z.eqb_neq _ _) Hne).
    cbn [length] in *. rewrite IH by (done || lia). f_equal. lia.
Qed.

Lemma strchr_ok bs : forall m p c fuel, bytes_at m p (bs ++ [0]) -> 0 ∉ bs -> c <> 0 -> -128 <= c < 128 -> (length bs < fuel)%nat ->
  exists r, strchr fuel p c m = COk r m /\
    ((r = 0 /\ to_byte c ∉ bs) \/ exists i, r = p + Z.of_nat i /\ first_at (fun b => b = to_byte c) bs i).
Proof.
  induction bs as [|b bs IH]; intros m p c fuel Hs Hz Hc0 Hc Hf; (destruct fuel as [|fuel]; [lia|]); cbn [strchr].
  - apply bytes_at_cons in Hs as (_ & H0 & _). exists 0. erewrite cbind_ok by (by apply ld_ok).
    rewrite (proj2 (Z.eqb_neq c 0) Hc0). split; [done|]. left. split; [done|apply not_elem_of_nil].
  - cbn in Hs. apply bytes_at_cons in Hs as (Hb' & H0 & Hs). apply not_elem_of_cons in Hz as [Hz0 Hz].
    cbn [length] in *. erewrite cbind_ok by (by apply ld_ok). rewrite to_schar_zero by done.
    destruct (Z.eqb_spec b 0) as [|Hne]; [lia|]. cbn [negb orb].
    assert (Ec : (c =? to_schar b) = (b =? to_byte c)) by (unfold byte, to_schar, to_byte in *; lia).
    rewrite Ec. destruct (Z.eqb_spec b (to_byte c)) as [->|Hneb].
    + exists p. split; [done|]. right. exists O. split; [lia|]. split; [by exists (to_byte c)|]. intros; lia.
    + destruct (IH m (p + 1) c fuel Hs Hz Hc0 Hc ltac:(lia)) as (r & E & [[-> Hn]|(i & -> & (b2 & Hb2 & Heq) & Hff)]).
      * exists 0. split; [exact E|]. left. split; [done|]. apply not_elem_of_cons. split; [congruence|exact Hn].
      * eexists. split; [exact E|]. right. exists (S i). split; [lia|]. split; [by exists b2|].
        intros [|j] b3 Hj Hl; [by injection Hl as <-|]. apply (Hff j b3); [lia|done].
Qed.

Lemma strrchr_loop_ok bs : forall m p c, bytes_at m p bs -> 0 ∉ bs -> c <> 0 -> -128 <= c < 128 ->
  exists r, strrchr_loop (length bs) (p + Z.of_nat (length bs) - 1) c m = COk r m /\
    ((r = 0 /\ to_byte c ∉ bs) \/ exists i, r = p + Z.of_nat i /\ last_at (fun b => b = to_byte c) bs i).
Proof.
  induction bs as [|b bs IH] using rev_ind; intros m p c Hs Hz Hc0 Hc.
  { exists 0. split; [done|]. left. split; [done|apply not_elem_of_nil]. }
  apply bytes_at_app in Hs as [Hs Hb]. apply bytes_at_cons in Hb as (Hb & H0 & _).
  apply not_elem_of_app in Hz as [Hz Hz0]. apply not_elem_of_cons in Hz0 as [Hz0 _].
  rewrite app_length. cbn [length]. rewrite Nat.add_1_r. cbn [strrchr_loop].
  replace (p + Z.of_nat (S (length bs)) - 1) with (p + Z.of_nat (length bs)) by lia.
  erewrite cbind_ok by (by apply ld_ok). rewrite to_schar_zero by done.
  destruct (Z.eqb_spec b 0) as [|Hne]; [lia|]. cbn [negb orb].
  assert (Ec : (c =? to_schar b) = (b =? to_byte c)) by (unfold byte, to_schar, to_byte in *; lia).
  rewrite Ec. destruct (Z.eqb_spec b (to_byte c)) as [->|Hneb].
  - eexists. split; [done|]. right. exists (length bs). split; [done|]. split.
    { exists (to_byte c). split; [|done]. rewrite lookup_app_r by lia. by rewrite Nat.sub_diag. }
    intros j b2 Hj Hl. apply lookup_lt_Some in Hl. rewrite app_length in Hl. cbn in Hl. lia.
  - destruct (IH m p c Hs Hz Hc0 Hc) as (r & E & [[-> Hn]|(i & -> & (b2 & Hb2 & Heq) & Hff)]).
    + exists 0. split; [exact E|]. left. split; [done|]. apply not_elem_of_app. split; [done|].
      apply not_elem_of_cons. split; [congruence|apply not_elem_of_nil].
    + eexists. split; [exact E|]. right. exists i. split; [done|]. split.
      { exists b2. split; [|done]. rewrite lookup_app_l; [done|]. by eapply lookup_lt_Some. }
      intros j b3 Hj Hl. destruct (decide (j < length bs)%nat).
      * rewrite lookup_app_l in Hl by lia. by apply (Hff j b3).
      * rewrite lookup_app_r in Hl by lia. destruct (j - length bs)%nat as [|k]; cbn in Hl; [|done].
        injection Hl as <-. done.
Qed.

(** ** comparing *)
Lemma differ_cons R b bs cs : (forall x, ~ R x x) -> differ R (b :: bs) (b :: cs) <-> differ R bs cs.
Proof.
  intros Hirr. split.
  - intros (l & x & y & bs' & cs' & E1 & E2 & HR). destruct l as [|z l]; cbn in *.
    + injection E1 as <- <-. injection E2 as <- <-. by apply Hirr in HR.
    + injection E1 as <- ->. injection E2 as ->. by exists l, x, y, bs', cs'.
  - intros (l & x & y & bs' & cs' & -> & -> & HR). by exists (b :: l), x, y, bs', cs'.
Qed.
Lemma differ_head (R : Z -> Z -> Prop) b c bs cs : b <> c -> differ R (b :: bs) (c :: cs) <-> R b c.
Proof.
  intros Hne. split.
  - intros (l & x & y & bs' & cs' & E1 & E2 & HR). destruct l as [|z l]; cbn in *.
    + injection E1 as <- <-. by injection E2 as <- <-.
    + injection E1 as <- ->. injection E2 as -> ->. done.
  - intros HR. by exists [], b, c, bs, cs.
Qed.

Lemma orders_cons bs cs b r : orders signed_lt bs cs r -> orders signed_lt (b :: bs) (b :: cs) r.
Proof.
  assert (Hi : forall x, ~ signed_lt x x) by (unfold signed_lt; lia).
  intros (H1 & H2 & H3). split; [|split].
  - rewrite H1. split; [by intros ->|by intros [=]].
  - by rewrite H2, differ_cons.
  - by rewrite H3, differ_cons.
Qed.
Lemma orders_diff bs cs b c : byte b -> byte c -> b <> c ->
  orders signed_lt (b :: bs) (c :: cs) (to_schar b - to_schar c).
Proof.
  intros Hb Hc Hne. rewrite !to_schar_signed by done.
  assert (Hs : signed b <> signed c). { intros E. by apply Hne, signed_inj. }
  split; [|split].
  - split; [intros; lia|]. intros [=]. done.
  - rewrite differ_head by done. unfold signed_lt. lia.
  - rewrite differ_head by done. unfold signed_lt. lia.
Qed.
Lemma orders_nil : orders signed_lt [] [] 0.
Proof.
  assert (Hd : ~ differ signed_lt [] []). { intros (l & x & y & bs' & cs' & E & _). by destruct l. }
  split; [done|]. split; (split; [lia|done]).
Qed.

Lemma memcmp_loop_ok bs : forall cs m a b, length bs = length cs -> bs <> [] -> bytes_at m a bs -> bytes_at m b cs ->
  exists r, memcmp_loop (length bs - 1) a b m = COk r m /\ orders signed_lt bs cs r.
Proof.
  induction bs as [|x bs IH]; intros cs m a b Hl Hne Ha Hb; [done|].
  destruct cs as [|y cs]; [done|]. injection Hl as Hl. cbn [length]. rewrite Nat.sub_succ, Nat.sub_0_r.
  apply bytes_at_cons in Ha as (Hx & Hx0 & Ha). apply bytes_at_cons in Hb as (Hy & Hy0 & Hb).
  destruct bs as [|x2 bs].
  - destruct cs; [|done]. cbn [length memcmp_loop]. erewrite cbind_ok by (by apply ld_ok).
    erewrite cbind_ok by (by apply ld_ok). rewrite c_int_ok by apply schar_diff. eexists. split; [done|].
    destruct (Z.eq_dec x y) as [->|]; [|by apply orders_diff].
    rewrite Z.sub_diag. apply orders_cons, orders_nil.
  - cbn [length]. cbn [memcmp_loop]. erewrite cbind_ok by (by apply ld_ok).
    erewrite cbind_ok by (by apply ld_ok). rewrite to_schar_eq by done.
    destruct (Z.eqb_spec x y) as [->|].
    + destruct (IH cs m (a + 1) (b + 1) Hl ltac:(done) Ha Hb) as (r & E & Hr).
      cbn [length] in E. rewrite Nat.sub_succ, Nat.sub_0_r in E.
      exists r. split; [exact E|]. by apply orders_cons.
    + rewrite c_int_ok by apply schar_diff. eexists. split; [done|]. by apply orders_diff.
Qed.

Lemma orders_zero_tail bs cs r : orders signed_lt (bs ++ [0]) (cs ++ [0]) r -> (r = 0 <-> bs = cs).
Proof. intros (H & _). rewrite H. split; [by intros E; apply app_inj_tail in E as [? _]|by intros ->]. Qed.

Lemma strcmp_ok bs : forall cs m a b fuel, bytes_at m a (bs ++ [0]) -> 0 ∉ bs -> bytes_at m b (cs ++ [0]) -> 0 ∉ cs ->
  (length bs < fuel)%nat ->
  exists r, strcmp fuel a b m = COk r m /\ orders signed_lt (bs ++ [0]) (cs ++ [0]) r.
Proof.
  induction bs as [|x bs IH]; intros cs m a b fuel Ha Hza Hb Hzb Hf; (destruct fuel as [|fuel]; [lia|]); cbn [strcmp].
  - apply bytes_at_cons in Ha as (_ & H0 & _). erewrite cbind_ok by (by apply ld_ok). cbn [to_schar Z.eqb].
    change (to_schar 0 =? 0) with true. cbn iota.
    destruct cs as [|y cs]; cbn in Hb; apply bytes_at_cons in Hb as (Hy & Hy0 & _);
      (erewrite cbind_ok by (by apply ld_ok)); rewrite c_int_ok by apply schar_diff; eexists; (split; [done|]).
    + apply orders_cons, orders_nil.
    + apply not_elem_of_cons in Hzb as [Hy1 _]. cbn. apply orders_diff; [unfold byte; lia|done|done].
  - cbn in Ha. apply bytes_at_cons in Ha as (Hx & Hx0 & Ha). apply not_elem_of_cons in Hza as [Hx1 Hza].
    cbn [length] in Hf. erewrite cbind_ok by (by apply ld_ok). rewrite to_schar_zero by done.
    destruct (Z.eqb_spec x 0); [lia|].
    destruct cs as [|y cs]; cbn in Hb; apply bytes_at_cons in Hb as (Hy & Hy0 & Hb);
      (erewrite cbind_ok by (by apply ld_ok)); rewrite to_schar_zero by done.
    + change (negb (0 =? 0)) with false. cbn [andb]. rewrite c_int_ok by apply schar_diff. eexists. split; [done|].
      cbn. apply orders_diff; [done|unfold byte; lia|done].
    + apply not_elem_of_cons in Hzb as [Hy1 Hzb]. destruct (Z.eqb_spec y 0); [lia|]. cbn [negb andb].
      rewrite to_schar_eq by done. destruct (Z.eqb_spec x y) as [->|].
      * destruct (IH cs m (a + 1) (b + 1) fuel Ha Hza Hb Hzb ltac:(lia)) as (r & E & Hr).
        exists r. split; [exact E|]. cbn. by apply orders_cons.
      * rewrite c_int_ok by apply schar_diff. eexists. split; [done|]. cbn. by apply orders_diff.
Qed.

Lemma strncmp_loop_ok n : forall bs cs m a b, 0 ∉ bs -> 0 ∉ cs ->
  bytes_at m a (take (S n) (bs ++ [0])) -> bytes_at m b (take (S n) (cs ++ [0])) ->
  exists r, strncmp_loop n a b m = COk r m /\ orders signed_lt (take (S n) (bs ++ [0])) (take (S n) (cs ++ [0])) r.
Proof.
  induction n as [|n IH]; intros bs cs m a b Hza Hzb Ha Hb.
  - destruct bs as [|x bs]; cbn in Ha |- *; apply bytes_at_cons in Ha as (Hx & Hx0 & _);
      (destruct cs as [|y cs]; cbn in Hb |- *; apply bytes_at_cons in Hb as (Hy & Hy0 & _));
      (erewrite cbind_ok by (by apply ld_ok));
      try (rewrite to_schar_zero by done).
    all: repeat match goal with |- context [if ?c then _ else _] => destruct c end;
      (erewrite cbind_ok by (by apply ld_ok)); rewrite c_int_ok by apply schar_diff; eexists; (split; [done|]);
      rewrite ?take_0;
      match goal with |- orders _ [?u] [?v] _ => destruct (Z.eq_dec u v) as [E|E];
        [(rewrite E || idtac); rewrite Z.sub_diag; apply orders_cons, orders_nil|by apply orders_diff] end.
  - destruct bs as [|x bs].
    + cbn [app take] in *. apply bytes_at_cons in Ha as (_ & H0 & _). cbn [strncmp_loop].
      erewrite cbind_ok by (by apply ld_ok). change (to_schar 0 =? 0) with true. cbn iota.
      destruct cs as [|y cs]; cbn [app take] in *; apply bytes_at_cons in Hb as (Hy & Hy0 & _);
        (erewrite cbind_ok by (by apply ld_ok)); rewrite c_int_ok by apply schar_diff; eexists; (split; [done|]).
      * rewrite ?take_nil. apply orders_cons, orders_nil.
      * apply not_elem_of_cons in Hzb as [Hy1 _]. apply orders_diff; [unfold byte; lia|done|done].
    + apply not_elem_of_cons in Hza as [Hx1 Hza]. cbn [app] in *. rewrite firstn_cons in *.
      apply bytes_at_cons in Ha as (Hx & Hx0 & Ha). cbn [strncmp_loop].
      erewrite cbind_ok by (by apply ld_ok). rewrite to_schar_zero by done.
      destruct (Z.eqb_spec x 0); [lia|].
      destruct cs as [|y cs].
      * cbn [app] in *. rewrite firstn_cons in *. apply bytes_at_cons in Hb as (Hy & Hy0 & _).
        erewrite cbind_ok by (by apply ld_ok). rewrite to_schar_zero by done.
        change (negb (0 =? 0)) with false. cbn [andb]. rewrite c_int_ok by apply schar_diff. eexists. split; [done|].
        apply orders_diff; [done|unfold byte; lia|done].
      * apply not_elem_of_cons in Hzb as [Hy1 Hzb]. cbn [app] in *. rewrite firstn_cons in *.
        apply bytes_at_cons in Hb as (Hy & Hy0 & Hb).
        erewrite cbind_ok by (by apply ld_ok). rewrite to_schar_zero by done.
        destruct (Z.eqb_spec y 0); [lia|]. cbn [negb andb].
        rewrite to_schar_eq by done. destruct (Z.eqb_spec x y) as [->|].
        -- destruct (IH bs cs m (a + 1) (b + 1) Hza Hzb Ha Hb) as (r & E & Hr).
           exists r. split; [exact E|]. by apply orders_cons.
        -- rewrite c_int_ok by apply schar_diff. eexists. split; [done|]. by apply orders_diff.
Qed.

(** ** copying strings *)
Lemma strcpy_loop_ok bs : forall m d s fuel, bytes_at m s (bs ++ [0]) -> 0 ∉ bs -> room m d (S (length bs)) ->
  (d <= s \/ s + Z.of_nat (length bs) < d) -> (length bs < fuel)%nat ->
  strcpy_loop fuel d s m = COk tt (blit d (bs ++ [0]) m).
Proof.
  induction bs as [|b bs IH]; intros m d s fuel Hs Hz Hd Ho Hf; (destruct fuel as [|fuel]; [lia|]); cbn [strcpy_loop].
  - apply bytes_at_cons in Hs as (_ & H0 & _). erewrite cbind_ok by (by apply ld_ok). cbn.
    apply room_cons in Hd as [Hd _]. by apply st_ok.
  - cbn in Hs. apply bytes_at_cons in Hs as (Hb & H0 & Hs). apply not_elem_of_cons in Hz as [Hz0 Hz].
    apply room_cons in Hd as [Hd0 Hd]. cbn [length] in *.
    erewrite cbind_ok by (by apply ld_ok). rewrite to_schar_zero by done. destruct (Z.eqb_spec b 0); [lia|].
    erewrite cbind_ok by (by apply st_ok). rewrite to_byte_schar by done. rewrite IH; [done| |done|..].
    + apply bytes_at_insert; [done|]. rewrite app_length. cbn. lia.
    + by apply room_insert.
    + lia.
    + lia.
Qed.

Lemma strncpy_pad_ok n : forall m p, room m p n -> strncpy_pad n p m = COk tt (blit p (replicate n 0) m).
Proof.
  induction n as [|n IH]; intros m p Hr; [done|]. apply room_cons in Hr as [H0 Hr].
  cbn. erewrite cbind_ok by (by apply st_ok). apply IH. by apply room_insert.
Qed.

Lemma room_blit m p n q bs : room m p n -> room (blit q bs m) p n.
Proof.
  intros H i Hi. rewrite blit_lookup. destruct (_ && _) eqn:E; [|by apply H].
  apply andb_true_iff in E as [E1 E2]. apply lookup_lt_is_Some_2. lia.
Qed.
Lemma bytes_at_blit m p bs q cs : bytes_at m p bs -> apart p (length bs) q (length cs) -> bytes_at (blit q cs m) p bs.
Proof.
  intros H Ha. apply (bytes_at_agree m); [done|]. intros x Hx. apply blit_outside. unfold apart in Ha. lia.
Qed.

(** where the copying loop stops: after all of the string, or after [size] bytes *)
Lemma strncpy_loop_ok bs : forall m d s size fuel, bytes_at m s (bs ++ [0]) -> 0 ∉ bs ->
  0 <= size < two64 -> room m d (Z.to_nat size) ->
  apart d (Z.to_nat size) s (S (length bs)) -> (length bs < fuel)%nat ->
  let k := Nat.min (length bs) (Z.to_nat size) in
  strncpy_loop fuel d s size m =
    COk (d + Z.of_nat k, s + Z.of_nat k,
         if Z.of_nat (length bs) <=? size then size - Z.of_nat (length bs) else two64 - 1)
      (blit d (take k bs) m).
Proof.
  induction bs as [|b bs IH]; intros m d s size fuel Hs Hz Hsz Hd Ho Hf; (destruct fuel as [|fuel]; [lia|]);
    cbn [strncpy_loop].
  - apply bytes_at_cons in Hs as (_ & H0 & _). erewrite cbind_ok by (by apply ld_ok).
    change (to_schar 0 =? 0) with true. cbn [length Nat.min]. cbn iota zeta.
    destruct (Z.leb_spec (Z.of_nat 0) size); [|lia]. rewrite take_nil. cbn.
    unfold cret. f_equal. repeat (apply pair_equal_spec; split); lia.
  - cbn in Hs. apply bytes_at_cons in Hs as (Hb & H0 & Hs). apply not_elem_of_cons in Hz as [Hz0 Hz].
    cbn [length] in *. erewrite cbind_ok by (by apply ld_ok). rewrite to_schar_zero by done.
    destruct (Z.eqb_spec b 0); [lia|].
    destruct (Z.eqb_spec size 0) as [->|Hne].
    + change (Z.to_nat 0) with O. rewrite Nat.min_0_r. cbn zeta. rewrite take_0. cbn.
      unfold cret. f_equal. repeat (apply pair_equal_spec; split); try lia; done.
    + replace (Z.to_nat size) with (S (Z.to_nat (size - 1))) in * by lia.
      apply room_cons in Hd as [Hd0 Hd].
      erewrite cbind_ok by (by apply ld_ok). erewrite cbind_ok by (by apply st_ok).
      rewrite to_byte_schar by done. rewrite to_u64_id by lia.
      rewrite IH.
      * cbn zeta. rewrite <- Nat.succ_min_distr. cbn [take blit].
        f_equal. apply pair_equal_spec. split; [apply pair_equal_spec; split; lia|].
        destruct (Z.leb_spec (Z.of_nat (length bs)) (size - 1)), (Z.leb_spec (Z.of_nat (S (length bs))) size); lia.
      * apply bytes_at_insert; [done|]. rewrite app_length. cbn. unfold apart in Ho. lia.
      * done.
      * lia.
      * by apply room_insert.
      * unfold apart in *. lia.
      * lia.
Qed.

Lemma strncat_loop_ok bs : forall m d s size fuel, bytes_at m s (bs ++ [0]) -> 0 ∉ bs ->
  0 <= size -> let k := Nat.min (length bs) (Z.to_nat size) in
  room m d (S k) -> apart d k s (S (length bs)) -> (length bs < fuel)%nat ->
  strncat_loop fuel d s size m = COk tt (blit d (take k bs ++ [0]) m).
Proof.
  induction bs as [|b bs IH]; intros m d s size fuel Hs Hz Hsz k Hd Ho Hf; (destruct fuel as [|fuel]; [lia|]);
    cbn [strncat_loop]; subst k.
  - apply bytes_at_cons in Hs as (_ & H0 & _). erewrite cbind_ok by (by apply ld_ok).
    change (to_schar 0 =? 0) with true. cbn iota. rewrite take_nil. cbn.
    apply room_cons in Hd as [Hd0 _]. by apply st_ok.
  - cbn in Hs. apply bytes_at_cons in Hs as (Hb & H0 & Hs). apply not_elem_of_cons in Hz as [Hz0 Hz].
    cbn [length] in *. apply room_cons in Hd as [Hd0 Hd].
    erewrite cbind_ok by (by apply ld_ok). rewrite to_schar_zero by done.
    destruct (Z.eqb_spec b 0); [lia|].
    destruct (Z.ltb_spec 0 size) as [Hlt|Hge].
    + replace (Z.to_nat size) with (S (Z.to_nat (size - 1))) in * by lia.
      rewrite <- Nat.succ_min_distr in *.
      erewrite cbind_ok by (by apply ld_ok). erewrite cbind_ok by (by apply st_ok).
      rewrite to_byte_schar by done. cbn [take app blit]. apply IH.
      * apply bytes_at_insert; [done|]. rewrite app_length. cbn. unfold apart in Ho. lia.
      * done.
      * lia.
      * by apply room_insert.
      * unfold apart in *. lia.
      * lia.
    + assert (size = 0) as -> by lia. change (Z.to_nat 0) with O. rewrite Nat.min_0_r. rewrite take_0. cbn.
      by apply st_ok.
Qed.

(** ** spans *)
Lemma elem_first {P : Z -> Prop} bs i : first_at P bs i -> exists b, b ∈ bs /\ P b.
Proof. intros [(b & Hb & HP) _]. exists b. split; [by eapply elem_of_list_lookup_2|done]. Qed.

Lemma strchr_in set q m v fuel : cstr m q set -> 0 < q -> byte v -> v <> 0 -> (length set < fuel)%nat ->
  exists r, strchr fuel q (to_schar v) m = COk r m /\ negb (r =? 0) = bool_decide (v ∈ set).
Proof.
  intros [Hs Hz] Hq Hv Hv0 Hf.
  destruct (strchr_ok set m q (to_schar v) fuel Hs Hz) as (r & E & Hr).
  { unfold byte, to_schar in *. lia. } { unfold to_schar. lia. } { done. }
  rewrite to_byte_schar in Hr by done. exists r. split; [done|].
  destruct Hr as [[-> Hn]|(i & -> & Hfi)].
  - by rewrite bool_decide_eq_false_2.
  - apply elem_first in Hfi as (b & Hb & ->). rewrite bool_decide_eq_true_2 by done. lia.
Qed.

Lemma span_loop_ok want bs : forall m p q set fuel, bytes_at m p (bs ++ [0]) -> 0 ∉ bs -> cstr m q set -> 0 < q ->
  (length bs + length set < fuel)%nat ->
  exists k, span_loop fuel want p q m = COk (p + Z.of_nat k) m /\
    (k <= length bs)%nat /\
    (forall j b, (j < k)%nat -> bs !! j = Some b -> bool_decide (b ∈ set) = negb want) /\
    (forall b, bs !! k = Some b -> bool_decide (b ∈ set) = want).
Proof.
  induction bs as [|b bs IH]; intros m p q set fuel Hs Hz Hset Hq Hf; (destruct fuel as [|fuel]; [lia|]); cbn [span_loop].
  - apply bytes_at_cons in Hs as (_ & H0 & _). exists O. erewrite cbind_ok by (by apply ld_ok).
    split; [unfold cret; cbn; f_equal; lia|]. split; [done|]. split; [intros; lia|done].
  - cbn in Hs. apply bytes_at_cons in Hs as (Hb & H0 & Hs). apply not_elem_of_cons in Hz as [Hz0 Hz].
    cbn [length] in *. erewrite cbind_ok by (by apply ld_ok). rewrite to_schar_zero by done.
    destruct (Z.eqb_spec b 0); [lia|].
    destruct (strchr_in set q m b (S fuel) Hset Hq Hb ltac:(done) ltac:(lia)) as (r & E & Hr).
    erewrite cbind_ok by exact E. rewrite Hr.
    destruct (Bool.eqb want (bool_decide (b ∈ set))) eqn:Ew.
    + apply Bool.eqb_prop in Ew. exists O. split; [unfold cret; f_equal; lia|]. split; [lia|]. split; [intros; lia|].
      intros b' [= <-]. done.
    + apply Bool.eqb_false_iff in Ew.
      destruct (IH m (p + 1) q set fuel Hs Hz Hset Hq ltac:(lia)) as (k & Ek & Hk & H1 & H2).
      exists (S k). split; [rewrite Ek; f_equal; lia|]. split; [lia|]. split; [|exact H2].
      intros [|j] b' Hj Hl; cbn in Hl.
      * injection Hl as <-. destruct want, (bool_decide (b ∈ set)); done.
      * apply (H1 j); [lia|done].
Qed.

(** ** searching *)
Lemma memmem_here_ok ns : forall hs m p q, bytes_at m q ns -> bytes_at m p hs -> (length ns <= length hs)%nat ->
  memmem_here (length ns) q p m = COk (bool_decide (take (length ns) hs = ns)) m.
Proof.
  induction ns as [|n ns IH]; intros hs m p q Hn Hh Hl.
  { cbn. by rewrite take_0, bool_decide_eq_true_2. }
  destruct hs as [|h hs]; cbn in Hl; [lia|].
  apply bytes_at_cons in Hn as (_ & Hn0 & Hn). apply bytes_at_cons in Hh as (_ & Hh0 & Hh).
  cbn [length memmem_here take]. erewrite cbind_ok by (by apply ldu_ok). erewrite cbind_ok by (by apply ldu_ok).
  destruct (Z.eqb_spec n h) as [->|Hne].
  - rewrite (IH hs m (p + 1) (q + 1) Hn Hh ltac:(lia)). f_equal. apply bool_decide_ext. split; [by intros ->|by intros [=]].
  - unfold cret. rewrite bool_decide_eq_false_2; [done|]. by intros [= <-].
Qed.

(** the needle starts at position [i] of the haystack *)
Definition occurs (ns hs : list Z) (i : nat) : Prop :=
  (i + length ns <= length hs)%nat /\ take (length ns) (drop i hs) = ns.

Lemma memmem_loop_ok ns n : forall hs m p q, bytes_at m q ns -> bytes_at m p hs ->
  (n = S (length hs) - length ns)%nat ->
  exists r, memmem_loop n p q (Z.of_nat (length ns)) m = COk r m /\
   ((r = 0 /\ forall i, ~ occurs ns hs i) \/
    exists i, r = p + Z.of_nat i /\ occurs ns hs i /\ forall j, (j < i)%nat -> ~ occurs ns hs j).
Proof.
  induction n as [|n IH]; intros hs m p q Hn Hh Hl.
  { exists 0. split; [done|]. left. split; [done|]. intros i [Hi _]. lia. }
  cbn [memmem_loop]. rewrite Nat2Z.id.
  erewrite cbind_ok. 2:{ apply (memmem_here_ok ns hs); [done|done|lia]. }
  case_bool_decide as Ht; cbn iota.
  - eexists. split; [done|]. right. exists O. split; [lia|]. split; [|intros; lia]. split; [lia|by rewrite drop_0].
  - destruct hs as [|h hs].
    { cbn in Hl. assert (length ns = O) as E by lia. apply nil_length_inv in E. subst ns. done. }
    apply bytes_at_cons in Hh as (_ & _ & Hh). cbn [length] in Hl.
    destruct (IH hs m (p + 1) q Hn Hh ltac:(lia)) as (r & E & [[-> Hno]|(i & -> & Hi & Hfi)]).
    + exists 0. split; [exact E|]. left. split; [done|]. intros [|i] [Ho1 Ho2].
      * rewrite drop_0 in Ho2. done.
      * apply (Hno i). split; [cbn in Ho1; lia|exact Ho2].
    + eexists. split; [exact E|]. right. exists (S i). split; [lia|]. split.
      { destruct Hi as [Hi1 Hi2]. split; [cbn; lia|exact Hi2]. }
      intros [|j] Hj [Ho1 Ho2].
      * rewrite drop_0 in Ho2. done.
      * apply (Hfi j ltac:(lia)). split; [cbn in Ho1; lia|exact Ho2].
Qed.

(** ** case mapping *)
Lemma strmap_loop_ok f bs : forall m p fuel, bytes_at m p (bs ++ [0]) -> 0 ∉ bs -> (length bs < fuel)%nat ->
  strmap_loop fuel f p m = COk tt (blit p ((fun b => to_byte (f (to_schar b))) <$> bs) m).
Proof.
  induction bs as [|b bs IH]; intros m p fuel Hs Hz Hf; (destruct fuel as [|fuel]; [lia|]); cbn [strmap_loop].
  - apply bytes_at_cons in Hs as (_ & H0 & _). by erewrite cbind_ok by (by apply ld_ok).
  - cbn in Hs. apply bytes_at_cons in Hs as (Hb & H0 & Hs). apply not_elem_of_cons in Hz as [Hz0 Hz].
    cbn [length] in *. erewrite cbind_ok by (by apply ld_ok). rewrite to_schar_zero by done.
    destruct (Z.eqb_spec b 0); [lia|]. erewrite cbind_ok. 2:{ apply st_ok. by rewrite H0; eexists. }
    rewrite IH; [done| |done|lia]. apply bytes_at_insert; [done|lia].
Qed.
