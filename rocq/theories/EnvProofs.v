(** The environment: lemmas. *)
From stdpp Require Import base gmap list.
From Coq Require Import ZArith Lia.
From Coq Require Import ZifyBool ZifyNat.
From Verif Require Import CInt LibModel LibSpec LibProofs PropsLib AllocModel AllocSpec AllocProofs EnvSpec.
Open Scope Z_scope. Open Scope proc_scope.
Ltac Zify.zify_post_hook ::= Z.div_mod_to_equations.

Lemma split_entry n v : 61 ∉ n -> split (n ++ 61 :: v) = Some (n, v).
Proof.
  induction n as [|c n IH]; intros Hn; cbn; [done|].
  apply not_elem_of_cons in Hn as [Hc Hn]. destruct (Z.eqb_spec c 61); [congruence|].
  by rewrite IH.
Qed.
Lemma split_Some t : forall n v, split t = Some (n, v) -> t = n ++ 61 :: v /\ 61 ∉ n.
Proof.
  induction t as [|c t IH]; intros n v E; cbn in E; [done|].
  destruct (Z.eqb_spec c 61) as [->|Hc].
  - injection E as <- <-. split; [done|]. apply not_elem_of_nil.
  - destruct (split t) as [[n' v']|] eqn:Es; [|done]. injection E as <- <-.
    destruct (IH n' v' eq_refl) as [-> Hn]. split; [done|]. apply not_elem_of_cons. split; [congruence|done].
Qed.

(** does the entry set the name? *)
Definition sets_name (n t : list Z) : bool :=
  match split t with Some (n', _) => bool_decide (n' = n) | None => false end.

Lemma sets_name_true n t : sets_name n t = true <-> exists v, split t = Some (n, v).
Proof.
  unfold sets_name. destruct (split t) as [[n' v]|]; [|split; [done|by intros [? ?]]].
  rewrite bool_decide_eq_true. split; [intros ->; by exists v|by intros (w & [= -> ->])].
Qed.

Lemma env_of_cons_no n t E : sets_name n t = false -> env_of (t :: E) !! n = env_of E !! n.
Proof.
  unfold sets_name. cbn. destruct (split t) as [[n' v]|]; [|done].
  intros H. apply bool_decide_eq_false in H. by rewrite lookup_insert_ne.
Qed.

(** the entry that counts: the first *)
Definition first (n : list Z) (E : list (list Z)) (i : nat) (t : list Z) : Prop :=
  E !! i = Some t /\ sets_name n t = true /\ forall j u, (j < i)%nat -> E !! j = Some u -> sets_name n u = false.

Lemma env_first n E : forall i t v, first n E i t -> split t = Some (n, v) -> env_of E !! n = Some v.
Proof.
  induction E as [|u E IH]; intros i t v (Hi & Ht & Hf) Hs; [done|].
  destruct i as [|i].
  - injection Hi as ->. cbn. rewrite Hs. apply lookup_insert.
  - rewrite env_of_cons_no by (apply (Hf 0%nat u); [lia|done]).
    eapply IH; [|done]. split; [done|]. split; [done|]. intros j w Hj Hw. apply (Hf (S j) w); [lia|done].
Qed.
Lemma env_none n E : (forall t, t ∈ E -> sets_name n t = false) -> env_of E !! n = None.
Proof.
  induction E as [|u E IH]; intros H; [apply lookup_empty|].
  rewrite env_of_cons_no by (apply H; constructor). apply IH. intros t Ht. apply H. by constructor.
Qed.

Lemma env_replace n v E : forall i t, first n E i t -> 61 ∉ n ->
  env_of (<[i := n ++ 61 :: v]> E) = <[n := v]> (env_of E).
Proof.
  induction E as [|u E IH]; intros i t (Hi & Ht & Hf) Hn; [done|].
  destruct i as [|i]; cbn [insert list_insert env_of].
  - injection Hi as ->. rewrite split_entry by done. apply sets_name_true in Ht as (w & ->). by rewrite insert_insert.
  - assert (env_of (<[i := n ++ 61 :: v]> E) = <[n := v]> (env_of E)) as IH'.
    { apply (IH i t); [|done]. split; [done|]. split; [done|]. intros j w Hj Hw. apply (Hf (S j) w); [lia|done]. }
    pose proof (Hf 0%nat u ltac:(lia) eq_refl) as Hu. unfold sets_name in Hu.
    destruct (split u) as [[n' v']|]; [|exact IH']. apply bool_decide_eq_false in Hu.
    etrans; [apply (f_equal (insert n' v')), IH'|]. by apply insert_commute.
Qed.
Lemma env_snoc n v E : (forall t, t ∈ E -> sets_name n t = false) -> 61 ∉ n ->
  env_of (E ++ [n ++ 61 :: v]) = <[n := v]> (env_of E).
Proof.
  induction E as [|u E IH]; intros H Hn; cbn [app env_of].
  - by rewrite split_entry.
  - rewrite IH; [|intros t Ht; apply H; by constructor|done].
    pose proof (H u ltac:(constructor)) as Hu. unfold sets_name in Hu.
    destruct (split u) as [[n' v']|]; [|done]. apply bool_decide_eq_false in Hu. by apply insert_commute.
Qed.

Lemma env_delete n E : forall i t, first n E i t -> (forall j u, E !! j = Some u -> sets_name n u = true -> j = i) ->
  env_of (delete i E) = delete n (env_of E).
Proof.
  induction E as [|u E IH]; intros i t (Hi & Ht & Hf) Hu; [done|].
  destruct i as [|i]; cbn [delete list_delete env_of].
  - injection Hi as ->. apply sets_name_true in Ht as (w & ->). rewrite delete_insert; [done|].
    apply env_none. intros t' Ht'. apply elem_of_list_lookup in Ht' as (j & Hj).
    destruct (sets_name n t') eqn:E'; [|done]. by pose proof (Hu (S j) t' Hj E').
  - assert (env_of (delete i E) = delete n (env_of E)) as IH'.
    { apply (IH i t).
      - split; [done|]. split; [done|]. intros j w Hj Hw. apply (Hf (S j) w); [lia|done].
      - intros j w Hj Hw. pose proof (Hu (S j) w Hj Hw). lia. }
    pose proof (Hf 0%nat u ltac:(lia) eq_refl) as Hs. unfold sets_name in Hs.
    destruct (split u) as [[n' v']|]; [|exact IH']. apply bool_decide_eq_false in Hs.
    etrans; [apply (f_equal (insert n' v')), IH'|]. by rewrite delete_insert_ne.
Qed.

(** either some entry comes first, or there is none *)
Lemma first_or_none n E : (exists i t, first n E i t) \/ (forall t, t ∈ E -> sets_name n t = false).
Proof.
  induction E as [|u E IH]; [right; intros t Ht; by inversion Ht|].
  destruct (sets_name n u) eqn:Eu.
  - left. exists 0%nat, u. split; [done|]. split; [done|]. lia.
  - destruct IH as [(i & t & Hi & Ht & Hf)|Hn].
    + left. exists (S i), t. split; [done|]. split; [done|]. intros [|j] w Hj Hw; [by injection Hw as <-|].
      eapply Hf; [|done]. lia.
    + right. intros t Ht. apply elem_of_cons in Ht as [->|Ht]; [done|by apply Hn].
Qed.

(** the comparison the functions make *)
Lemma entry_matches_ok p s e n t :
  cstr (pmem p) s n -> cstr (pmem p) e t -> good_name n ->
  entry_matches s e (Z.of_nat (length n)) p = POk (sets_name n t) p.
Proof.
  intros [Hs Hsz] [He Hez] [Hne Heq]. unfold entry_matches.
  destruct (C27_strncmp (pmem p) s e n t (length n)) as (r & E & Hr & _); [done|done| | |].
  { by apply bytes_at_take. }
  { by apply bytes_at_take. }
  rewrite (pbind_ok _ _ _ _ _ (lib_same _ _ _ E)).
  rewrite take_app in Hr.
  destruct (Z.eqb_spec r 0) as [->|Hr0].
  - destruct Hr as [Hr _]. specialize (Hr eq_refl).
    assert (length n <= length t)%nat as Hlen.
    { destruct (decide (length n <= length t)%nat); [done|]. exfalso. apply Hsz.
      rewrite Hr. rewrite take_ge by (rewrite app_length; cbn; lia). apply elem_of_app. right. constructor. }
    rewrite take_app_le in Hr by done.
    assert (t = n ++ drop (length n) t) as Ht by (rewrite Hr at 1; by rewrite take_drop).
    set (u := drop (length n) t) in *. clearbody u. subst t.
    rewrite <- app_assoc in He. apply bytes_at_app in He as [_ He].
    destruct u as [|c u]; cbn [app] in He; apply bytes_at_cons in He as (Hc & He & _).
    + rewrite (pbind_ok _ _ _ _ _ (lib_same _ _ _ (ld_ok _ _ _ He))). unfold pret. f_equal.
      change (to_schar 0 =? 61) with false. symmetry. apply not_true_iff_false. rewrite sets_name_true.
      intros (v & Hv). apply split_Some in Hv as [Hv _]. apply (f_equal length) in Hv. rewrite !app_length in Hv. cbn in Hv. lia.
    + rewrite (pbind_ok _ _ _ _ _ (lib_same _ _ _ (ld_ok _ _ _ He))). unfold pret. f_equal.
      change 61 with (to_schar 61) at 1. rewrite to_schar_eq by (done || unfold byte; lia).
      destruct (Z.eqb_spec c 61) as [->|Hc61].
      * symmetry. apply sets_name_true. exists u. by apply split_entry.
      * symmetry. apply not_true_iff_false. rewrite sets_name_true.
        intros (v & Hv). apply split_Some in Hv as [Hv _]. apply app_inv_head in Hv. congruence.
  - unfold pret. f_equal. symmetry. apply not_true_iff_false. rewrite sets_name_true.
    intros (v & Hv). apply split_Some in Hv as [-> _]. apply Hr0, Hr.
    by rewrite <- app_assoc, take_app.
Qed.

Section Env.
Context (page kstart limit : Z).
Hypothesis Hpage : 0 < page.
Hypothesis Hstart : 0 < kstart.
Hypothesis Hlimit : limit + page + 16 <= LONG_MAX.
Context (bound : nat).
Hypothesis Hbound : Z.of_nat bound <= INT_MAX.

Notation text_at := (text_at page limit).
Notation environment := (environment page limit).
Notation heap_ok := (heap_ok page kstart limit).

Lemma text_strlen p s t : text_at p bound s t -> lib (strlen bound s) p = POk (Z.of_nat (length t)) p.
Proof.
  intros (_ & Hs & Hl & _). apply lib_same. apply strlen_ok; [done|lia|done].
Qed.

Lemma slot_ok i v p : slots p !! i = Some v -> slot i p = POk v p.
Proof. intros E. unfold slot. by rewrite E. Qed.

(** the scan of [getenv] *)
Lemma getenv_loop_ok p s n E : forall pre qs rest k,
  text_at p bound s n -> good_name n ->
  slots p = pre ++ qs ++ 0 :: rest -> Forall2 (text_at p bound) qs E ->
  (length qs < k)%nat ->
  exists r, getenv_loop k (length pre) s (Z.of_nat (length n)) p = POk r p /\
    match env_of E !! n with Some v => r <> 0 /\ cstr (pmem p) r v | None => r = 0 end.
Proof.
  induction E as [|t E IH]; intros pre qs rest k Hs Hn Hsl Hq Hk; inversion Hq as [|q ? qs' ? Hqt Hq']; subst; cbn [length] in Hk;
    (destruct k as [|k]; [lia|]); cbn [getenv_loop].
  - rewrite (pbind_ok _ _ _ _ _ (slot_ok (length pre) 0 p ltac:(rewrite Hsl, lookup_app_r, Nat.sub_diag by lia; done))).
    exists 0. split; [done|]. cbn [env_of]. by rewrite lookup_empty.
  - rewrite (pbind_ok _ _ _ _ _ (slot_ok (length pre) q p ltac:(rewrite Hsl, lookup_app_r, Nat.sub_diag by lia; done))).
    destruct Hqt as (Hq0 & Hqt & ?). destruct (Z.eqb_spec q 0); [lia|].
    destruct Hs as (Hs0 & Hs1 & Hs2).
    rewrite (pbind_ok _ _ _ _ _ (entry_matches_ok p s q n t Hs1 Hqt Hn)).
    destruct (sets_name n t) eqn:Et.
    + apply sets_name_true in Et as (v & Hv). eexists. split; [reflexivity|].
      cbn [env_of]. rewrite Hv, lookup_insert. apply split_Some in Hv as [-> _]. split; [lia|].
      destruct Hqt as [Hb Hz]. rewrite <- app_assoc in Hb. cbn in Hb. apply bytes_at_app in Hb as [_ Hb].
      apply bytes_at_cons in Hb as (_ & _ & Hb). split; [done|].
      apply not_elem_of_app in Hz as [_ Hz]. by apply not_elem_of_cons in Hz as [_ Hz].
    + rewrite env_of_cons_no by done.
      specialize (IH (pre ++ [q]) qs' rest k). rewrite app_length in IH. cbn in IH. rewrite Nat.add_1_r in IH.
      apply IH; [done|done|by rewrite <- app_assoc|done|lia].
Qed.

Lemma setenv_loop_ok p s n E : forall pre qs rest k,
  text_at p bound s n -> good_name n ->
  slots p = pre ++ qs ++ 0 :: rest -> Forall2 (text_at p bound) qs E ->
  (length qs < k)%nat ->
  exists i, setenv_loop k (length pre) s (Z.of_nat (length n)) p = POk (length pre + i)%nat p /\
    ((exists t, first n E i t) \/ (i = length E /\ forall t, t ∈ E -> sets_name n t = false)).
Proof.
  induction E as [|t E IH]; intros pre qs rest k Hs Hn Hsl Hq Hk; inversion Hq as [|q ? qs' ? Hqt Hq']; subst; cbn [length] in Hk;
    (destruct k as [|k]; [lia|]); cbn [setenv_loop].
  - rewrite (pbind_ok _ _ _ _ _ (slot_ok (length pre) 0 p ltac:(rewrite Hsl, lookup_app_r, Nat.sub_diag by lia; done))).
    exists 0%nat. rewrite Nat.add_0_r. split; [done|]. right. split; [done|]. intros t Ht. by inversion Ht.
  - rewrite (pbind_ok _ _ _ _ _ (slot_ok (length pre) q p ltac:(rewrite Hsl, lookup_app_r, Nat.sub_diag by lia; done))).
    destruct Hqt as (Hq0 & Hqt & ?). destruct (Z.eqb_spec q 0); [lia|].
    destruct Hs as (Hs0 & Hs1 & Hs2).
    rewrite (pbind_ok _ _ _ _ _ (entry_matches_ok p s q n t Hs1 Hqt Hn)).
    destruct (sets_name n t) eqn:Et.
    + exists 0%nat. rewrite Nat.add_0_r. split; [done|]. left. exists t. split; [done|]. split; [done|]. lia.
    + specialize (IH (pre ++ [q]) qs' rest k). rewrite app_length in IH. cbn in IH. rewrite Nat.add_1_r in IH.
      destruct IH as (i & Ei & Hi); [done|done|by rewrite <- app_assoc|done|lia|].
      exists (S i). replace (length pre + S i)%nat with (S (length pre) + i)%nat by lia. split; [done|].
      destruct Hi as [(u & Hi1 & Hi2 & Hi3)|[-> Hi]].
      * left. exists u. split; [done|]. split; [done|]. intros [|j] w Hj Hw; [by injection Hw as <-|].
        eapply Hi3; [|done]. lia.
      * right. split; [done|]. intros u Hu. apply elem_of_cons in Hu as [->|Hu]; [done|by apply Hi].
Qed.

(** texts stay when only memory that was free changes, and stay out of the free memory *)
Lemma text_keep p p' s t :
  text_at p bound s t -> cur p <= cur p' ->
  (forall q, (q < cur p \/ page_up page limit <= q) -> pmem p' !! q = pmem p !! q) ->
  text_at p' bound s t.
Proof.
  intros (H1 & [H2 H2'] & H3 & H4) Hc Hm. split; [done|]. split; [split; [|done]|].
  - eapply bytes_at_agree; [done|]. rewrite app_length. cbn. intros i Hi. apply Hm. lia.
  - split; [done|]. lia.
Qed.

Lemma page_up_gt b : b mod page <> 0 -> b < page_up page b.
Proof. intros H. pose proof (page_up_ge page Hpage b). unfold page_up in *. 
  assert (b <> (b + (page - 1)) / page * page); [|lia]. intros E. apply H. rewrite E. by apply Z.mod_mul; lia.
Qed.

Lemma set_slot_ok i v w p : slots p !! i = Some w ->
  set_slot i v p = POk tt (Proc (pmem p) (pbrk p) (kbrk p) (<[i := v]> (slots p))).
Proof. intros E. unfold set_slot. by rewrite E. Qed.

(** [setenv] *)
Lemma setenv_ok p s v w n x E spare :
  heap_ok p -> environment p bound E spare ->
  text_at p bound s n -> text_at p bound v x -> good_name n -> (0 < spare)%nat ->
  let e := (cur p + 7) / 8 * 8 + Z.of_nat (length n) + Z.of_nat (length x) + 2 in
  e <= limit -> e mod page <> 0 ->
  (length n + length x + 1 < bound)%nat ->
  exists p' E' spare', setenv page kstart limit bound s v w p = POk 0 p' /\
    heap_ok p' /\ environment p' bound E' spare' /\ cur p' = e /\ (spare <= S spare')%nat /\
    env_of E' = <[n := x]> (env_of E) /\ (distinct E -> distinct E') /\
    (forall q, (q < cur p \/ page_up page limit <= q) -> pmem p' !! q = pmem p !! q).
Proof.
  intros Hh (qs & rest & Hsl & Hrest & Hqs) Hs Hv Hn Hsp e He Hem Hnx.
  unfold setenv. rewrite (pbind_ok _ _ _ _ _ (text_strlen _ _ _ Hs)).
  destruct (setenv_loop_ok p s n E [] qs rest (S (length (slots p))) Hs Hn Hsl Hqs) as (i & Ei & Hi).
  { rewrite Hsl, app_length. cbn. lia. }
  cbn [length Nat.add] in Ei. rewrite (pbind_ok _ _ _ _ _ Ei).
  rewrite (pbind_ok _ _ _ _ _ (text_strlen _ _ _ Hv)).
  pose proof Hh as [Hc Hb Hm].
  destruct (malloc_ok page kstart limit Hpage Hstart Hlimit (Z.of_nat (length n) + Z.of_nat (length x) + 2) p Hh) as (p1 & E1 & Hh1 & Hc1 & Hs1 & Hm1); [lia|lia|].
  cbn zeta in *. set (a := (cur p + 7) / 8 * 8) in *.
  rewrite (pbind_ok _ _ _ _ _ E1).
  assert (cur p1 = e) as Hce by lia.
  pose proof (page_up_ge page Hpage (cur p)) as Hpu.
  pose proof (page_up_gt e Hem) as Hpe.
  pose proof (ho_cur _ _ _ _ Hh1) as Hck. pose proof (ho_bounds _ _ _ _ Hh1) as Hb1.
  assert (length qs = length E) as HlqE by (by eapply Forall2_length).
  assert (i <= length qs)%nat as Hile.
  { destruct Hi as [(t & Ht & _)|[-> _]]; [|lia]. apply lookup_lt_Some in Ht. lia. }
  assert (exists old, slots p1 !! i = Some old /\ (old = 0 <-> i = length qs)) as (old & Hold & Hold0).
  { rewrite Hs1, Hsl. destruct (decide (i = length qs)) as [->|].
    - exists 0. by rewrite lookup_app_r, Nat.sub_diag by lia.
    - destruct (lookup_lt_is_Some_2 qs i ltac:(lia)) as [q Hq]. exists q. rewrite lookup_app_l by lia. split; [done|].
      split; [|done]. intros ->. destruct (Forall2_lookup_l _ _ _ _ _ Hqs Hq) as (t & _ & (H0 & _)). lia. }
  rewrite (pbind_ok _ _ _ _ _ (slot_ok i old p1 Hold)).
  rewrite (pbind_ok _ _ _ _ _ (set_slot_ok i a old p1 Hold)).
  set (p2 := Proc (pmem p1) (pbrk p1) (kbrk p1) (<[i := a]> (slots p1))).
  assert (forall k, (k <= length n + length x + 3)%nat -> room (pmem p1) a k) as Hroom.
  { intros k Hk j Hj. destruct (ho_mapped _ _ _ _ Hh1 (a + Z.of_nat j)) as (b & Eb & _); [rewrite <- Hck, Hce; lia|]. by exists b. }
  assert (text_at p1 bound s n) as (_ & Hs2 & Hsl2 & Hso2).
  { eapply text_keep; [done|lia|]. intros q Hq. apply Hm1. lia. }
  assert (text_at p1 bound v x) as (_ & Hv2 & Hvl2 & Hvo2).
  { eapply text_keep; [done|lia|]. intros q Hq. apply Hm1. lia. }
  destruct Hs as (Hs0 & _ & _ & Hso). destruct Hv as (Hv0 & Hv00 & _ & Hvo).
  pose proof (page_up_mono page Hpage e limit He) as Hpm.
  (* the name *)
  destruct (C27_strcpy (pmem p2) a s n bound Hs2) as (m3 & E3 & Hpat3 & _); [apply Hroom; lia|unfold apart; lia|done|].
  rewrite (pbind_ok _ _ _ _ _ (lib_ok _ p2 _ _ E3)).
  assert (m3 = blit a (n ++ [0]) (pmem p1)) as Em3 by (eapply patched_fun; [exact Hpat3|apply blit_lookup]).
  cbn [pmem pbrk kbrk slots p2].
  assert (forall k, (k <= length n + length x + 3)%nat -> room m3 a k) as Hroom3.
  { intros k Hk. rewrite Em3. apply room_blit. by apply Hroom. }
  (* the equals sign *)
  assert (is_Some (m3 !! (a + Z.of_nat (length n)))) as H4 by (apply (Hroom3 (S (length n))); lia).
  rewrite (pbind_ok _ _ _ _ _ (lib_ok (st (a + Z.of_nat (length n)) 61) (Proc m3 (pbrk p1) (kbrk p1) (<[i:=a]> (slots p1))) _ _ (st_ok _ _ 61 H4))). cbn [pmem pbrk kbrk slots].
  change (to_byte 61) with 61. set (m4 := <[a + Z.of_nat (length n) := 61]> m3).
  assert (is_Some (m4 !! (a + Z.of_nat (length n) + 1))) as H5.
  { unfold m4. rewrite lookup_insert_ne by lia.
    replace (a + Z.of_nat (length n) + 1) with (a + Z.of_nat (S (length n))) by lia. apply (Hroom3 (S (S (length n)))); lia. }
  rewrite (pbind_ok _ _ _ _ _ (lib_ok (st (a + Z.of_nat (length n) + 1) 0) (Proc m4 (pbrk p1) (kbrk p1) (<[i:=a]> (slots p1))) _ _ (st_ok _ _ 0 H5))). cbn [pmem pbrk kbrk slots].
  change (to_byte 0) with 0. set (m5 := <[a + Z.of_nat (length n) + 1 := 0]> m4).
  assert (forall q, (q < a \/ e < q) -> m5 !! q = pmem p1 !! q) as Hm5.
  { intros q Hq. unfold m5, m4. rewrite !lookup_insert_ne by lia. rewrite Em3. apply blit_outside. rewrite app_length. cbn. lia. }
  (* the value *)
  assert (cstr m5 v x) as Hv5.
  { destruct Hv2 as [Hv2 Hvz]. split; [|done]. eapply bytes_at_agree; [done|]. rewrite app_length. cbn. intros j Hj. apply Hm5. lia. }
  assert (room m5 (a + Z.of_nat (length n) + 1) (S (length x))) as Hr5.
  { intros j Hj. unfold m5, m4. 
    destruct (Z.eq_dec (a + Z.of_nat (length n) + 1 + Z.of_nat j) (a + Z.of_nat (length n) + 1)) as [->|];
      [rewrite lookup_insert; by eexists|]. rewrite lookup_insert_ne by lia. rewrite lookup_insert_ne by lia.
    replace (a + Z.of_nat (length n) + 1 + Z.of_nat j) with (a + Z.of_nat (length n + 1 + j)) by lia.
    apply (Hroom3 (length n + length x + 3)%nat); lia. }
  destruct (C27_strcpy m5 (a + Z.of_nat (length n) + 1) v x bound Hv5 Hr5) as (m6 & E6 & Hpat6 & _); [unfold apart; lia|done|].
  rewrite (pbind_ok _ _ _ _ _ (lib_ok (strcpy bound (a + Z.of_nat (length n) + 1) v) (Proc m5 (pbrk p1) (kbrk p1) (<[i:=a]> (slots p1))) _ _ E6)). cbn [pmem pbrk kbrk slots].
  assert (m6 = blit (a + Z.of_nat (length n) + 1) (x ++ [0]) m5) as Em6 by (eapply patched_fun; [exact Hpat6|apply blit_lookup]).
  assert (forall q, (q < a \/ e < q) -> m6 !! q = pmem p1 !! q) as Hm6.
  { intros q Hq. rewrite Em6, blit_outside by (rewrite app_length; cbn; lia). by apply Hm5. }
  assert (cstr m6 v x) as Hv6.
  { destruct Hv2 as [Hv2 Hvz]. split; [|done]. eapply bytes_at_agree; [done|]. rewrite app_length. cbn. intros j Hj. apply Hm6. lia. }
  set (p6 := Proc m6 (pbrk p1) (kbrk p1) (<[i:=a]> (slots p1))).
  assert (lib (strlen bound v) p6 = POk (Z.of_nat (length x)) p6) as E7.
  { apply lib_same. apply strlen_ok; [done|lia|done]. }
  rewrite (pbind_ok _ _ _ _ _ E7).
  (* the byte after the entry *)
  assert (is_Some (m6 !! (a + (Z.of_nat (length n) + Z.of_nat (length x) + 2)))) as H8.
  { rewrite Em6, blit_outside by (rewrite app_length; cbn; lia). unfold m5, m4. rewrite !lookup_insert_ne by lia.
    replace (a + (Z.of_nat (length n) + Z.of_nat (length x) + 2)) with (a + Z.of_nat (length n + length x + 2)) by lia.
    apply (Hroom3 (length n + length x + 3)%nat); lia. }
  rewrite (pbind_ok _ _ _ _ _ (lib_ok (st (a + (Z.of_nat (length n) + Z.of_nat (length x) + 2)) 0) p6 _ _ (st_ok _ _ 0 H8))). cbn [pmem pbrk kbrk slots p6].
  change (to_byte 0) with 0.
  set (m9 := <[a + (Z.of_nat (length n) + Z.of_nat (length x) + 2) := 0]> m6).
  assert (forall q, (q < a \/ e < q) -> m9 !! q = pmem p1 !! q) as Hm9.
  { intros q Hq. unfold m9. rewrite lookup_insert_ne by lia. by apply Hm6. }
  assert (Forall byte n /\ Forall byte x) as [Hbn Hbx].
  { destruct Hs2 as [[Hf1 _] _], Hv2 as [[Hf2 _] _]. apply Forall_app in Hf1 as [? _]. by apply Forall_app in Hf2 as [? _]. }
  assert (cstr m9 a (n ++ 61 :: x)) as Hentry.
  { split.
    - rewrite <- app_assoc. cbn [app]. apply bytes_at_app. split; [|apply bytes_at_cons; split; [unfold byte; lia|split]].
      + unfold m9. apply bytes_at_insert; [|lia]. rewrite Em6. apply bytes_at_blit; [|unfold apart; lia].
        unfold m5, m4. apply bytes_at_insert; [|lia]. apply bytes_at_insert; [|lia].
        rewrite Em3, blit_app. apply bytes_at_blit; [by apply blit_bytes_at|unfold apart; lia].
      + unfold m9. rewrite lookup_insert_ne by lia. rewrite Em6, blit_outside by lia.
        unfold m5, m4. rewrite lookup_insert_ne by lia. by rewrite lookup_insert.
      + unfold m9. apply bytes_at_insert; [|rewrite app_length; cbn; lia]. rewrite Em6. apply blit_bytes_at.
        apply Forall_app. split; [done|]. constructor; [unfold byte; lia|constructor].
    - destruct Hs2 as [_ Hz1], Hv2 as [_ Hz2]. apply not_elem_of_app. split; [done|].
      apply not_elem_of_cons. by split. }
  assert (forall sl, heap_ok (Proc m9 (pbrk p1) (kbrk p1) sl) /\ cur (Proc m9 (pbrk p1) (kbrk p1) sl) = e) as Hh9.
  { intros sl. split; [|rewrite <- Hce; done]. split; [exact Hck|exact Hb1|].
    intros q Hq. cbn [pmem kbrk] in *. 
    destruct (Z.ltb_spec q a); [rewrite Hm9 by lia; by apply Hh1|].
    destruct (Z.ltb_spec e q); [rewrite Hm9 by lia; by apply Hh1|].
    assert (bytes_at m9 a ((n ++ 61 :: x) ++ [0; 0])) as Hall.
    { change [0; 0] with ([0] ++ [0]). rewrite app_assoc. apply bytes_at_app. split; [by destruct Hentry|].
      apply bytes_at_cons. split; [unfold byte; lia|]. split; [|apply bytes_at_nil].
      rewrite !app_length. cbn [length]. unfold m9.
      replace (a + Z.of_nat (length n + S (length x) + 1)) with (a + (Z.of_nat (length n) + Z.of_nat (length x) + 2)) by lia.
      by rewrite lookup_insert. }
    destruct (((n ++ 61 :: x) ++ [0; 0]) !! Z.to_nat (q - a)) as [b|] eqn:Eb.
    2: { apply lookup_ge_None_1 in Eb. rewrite !app_length in Eb. cbn in Eb. lia. }
    destruct (bytes_at_lookup _ _ _ _ _ Hall Eb) as [Hl Hbb]. exists b.
    replace (a + Z.of_nat (Z.to_nat (q - a))) with q in Hl by lia. done. }
  assert (forall sl, text_at (Proc m9 (pbrk p1) (kbrk p1) sl) bound a (n ++ 61 :: x)) as Hte.
  { intros sl. split; [lia|]. split; [done|]. rewrite app_length. cbn [length]. split; [lia|].
    destruct (Hh9 sl) as [_ ->]. lia. }
  assert (forall sl q, (q < cur p \/ page_up page limit <= q) -> pmem (Proc m9 (pbrk p1) (kbrk p1) sl) !! q = pmem p !! q) as Hkeep.
  { intros sl q Hq. cbn. rewrite Hm9 by lia. apply Hm1. lia. }
  assert (forall sl, Forall2 (text_at (Proc m9 (pbrk p1) (kbrk p1) sl) bound) qs E) as Hqs9.
  { intros sl. eapply Forall2_impl; [exact Hqs|]. intros q t Ht. cbn beta in Ht. eapply text_keep; [done| |apply Hkeep].
    destruct (Hh9 sl) as [_ ->]. lia. }
  destruct Hn as [Hn1 Hn2].
  destruct Hi as [(t & Ht)|[-> Hno]].
  - assert (i < length E)%nat as HiE by (destruct Ht as [Ht _]; by eapply lookup_lt_Some).
    destruct (Z.eqb_spec old 0) as [Ho|Ho]; [apply Hold0 in Ho; lia|].
    eexists _, (<[i := n ++ 61 :: x]> E), spare. split; [reflexivity|].
    destruct (Hh9 (<[i:=a]> (slots p1))) as [Hh' Hc'].
    split; [done|]. split.
    { exists (<[i := a]> qs), rest. cbn. rewrite Hs1, Hsl. rewrite insert_app_l by lia. split; [done|]. split; [done|].
      apply Forall2_insert; [apply Hqs9|apply Hte]. }
    split; [done|]. split; [lia|]. split; [by eapply env_replace|]. split; [|apply Hkeep].
    intros Hd j k t1 t2 n' v1 v2 J1 J2 K1 K2.
    assert (forall l u n'' v', <[i := n ++ 61 :: x]> E !! l = Some u -> split u = Some (n'', v') ->
              exists u' v'', E !! l = Some u' /\ split u' = Some (n'', v'')) as Hback.
    { intros l u n'' v' Hl Hu. destruct (decide (i = l)) as [->|].
      - rewrite list_lookup_insert in Hl by done. injection Hl as <-. rewrite split_entry in Hu by done.
        injection Hu as <- <-. destruct Ht as (Ht & Hst & _). apply sets_name_true in Hst as (v' & Hst). by eexists _, _.
      - rewrite list_lookup_insert_ne in Hl by done. by eexists _, _. }
    destruct (Hback _ _ _ _ J1 K1) as (u1 & w1 & L1 & N1). destruct (Hback _ _ _ _ J2 K2) as (u2 & w2 & L2 & N2).
    by eapply Hd.
  - destruct (Z.eqb_spec old 0) as [Ho|Ho]; [|exfalso; apply Ho, Hold0; done].
    destruct rest as [|r0 rest]; [cbn in Hrest; lia|]. cbn in Hrest.
    assert (<[length E := a]> (slots p1) = qs ++ a :: r0 :: rest) as Hsl9.
    { rewrite Hs1, Hsl, <- HlqE. rewrite insert_app_r_alt by lia. by rewrite Nat.sub_diag. }
    rewrite Hsl9.
    rewrite (pbind_ok _ _ _ _ _ (set_slot_ok (S (length E)) 0 r0 (Proc m9 (pbrk p1) (kbrk p1) (qs ++ a :: r0 :: rest))
        ltac:(cbn [slots]; rewrite lookup_app_r by lia; by replace (S (length E) - length qs)%nat with 1%nat by lia))).
    cbn [pmem pbrk kbrk slots].
    rewrite insert_app_r_alt by lia. replace (S (length E) - length qs)%nat with 1%nat by lia. cbn [insert list_insert].
    eexists _, (E ++ [n ++ 61 :: x]), (length rest). split; [reflexivity|].
    destruct (Hh9 (qs ++ a :: 0 :: rest)) as [Hh' Hc'].
    split; [done|]. split.
    { exists (qs ++ [a]), rest. cbn. rewrite <- app_assoc. split; [done|]. split; [done|].
      apply Forall2_app; [apply Hqs9|]. constructor; [apply Hte|constructor]. }
    split; [done|]. split; [lia|]. split; [by apply env_snoc|]. split; [|apply Hkeep].
    intros Hd j k t1 t2 n' v1 v2 J1 J2 K1 K2.
    assert (forall t v', t ∈ E -> split t = Some (n, v') -> False) as Hno'.
    { intros t v' Ht Hs'. pose proof (Hno t Ht) as Hx. apply not_true_iff_false in Hx. apply Hx. apply sets_name_true. by eexists. }
    apply lookup_app_Some in J1 as [J1|[J1 L1]], J2 as [J2|[J2 L2]] || apply lookup_app_Some in J2 as [J2|[J2 L2]].
    all: try (apply lookup_app_Some in J2 as [J2|[J2 L2]]).
    + by eapply Hd.
    + exfalso. destruct (k - length E)%nat; [|done]. injection L2 as <-. rewrite split_entry in K2 by done. injection K2 as <- <-.
      eapply Hno'; [|exact K1]. by eapply elem_of_list_lookup_2.
    + exfalso. destruct (j - length E)%nat; [|done]. injection L1 as <-. rewrite split_entry in K1 by done. injection K1 as <- <-.
      eapply Hno'; [|exact K2]. by eapply elem_of_list_lookup_2.
    + destruct (j - length E)%nat eqn:Ej; [|done]. destruct (k - length E)%nat eqn:Ek; [|done]. lia.
Qed.

(** [unsetenv] *)
Lemma shift_down_ok qs : forall p pre q rest k,
  slots p = pre ++ q :: qs ++ 0 :: rest -> Forall (fun q => q <> 0) qs -> (length qs < k)%nat ->
  shift_down k (length pre) p = POk tt (Proc (pmem p) (pbrk p) (kbrk p) (pre ++ qs ++ 0 :: 0 :: rest)).
Proof.
  induction qs as [|x qs IH]; intros p pre q rest k Hsl Hq Hk; (destruct k as [|k]; [cbn in Hk; lia|]); cbn [shift_down].
  - rewrite (pbind_ok _ _ _ _ _ (slot_ok (S (length pre)) 0 p ltac:(rewrite Hsl, lookup_app_r by lia; by replace (S (length pre) - length pre)%nat with 1%nat by lia))).
    rewrite (pbind_ok _ _ _ _ _ (set_slot_ok (length pre) 0 q p ltac:(rewrite Hsl, lookup_app_r, Nat.sub_diag by lia; done))).
    rewrite Hsl, insert_app_r_alt, Nat.sub_diag by lia. cbn [insert list_insert app].
    rewrite (pbind_ok _ _ _ _ _ (slot_ok (length pre) 0 (Proc (pmem p) (pbrk p) (kbrk p) (pre ++ 0 :: 0 :: rest)) ltac:(cbn; rewrite lookup_app_r, Nat.sub_diag by lia; done))).
    done.
  - inversion Hq as [|? ? Hx Hq']; subst. cbn [length] in Hk.
    rewrite (pbind_ok _ _ _ _ _ (slot_ok (S (length pre)) x p ltac:(rewrite Hsl, lookup_app_r by lia; by replace (S (length pre) - length pre)%nat with 1%nat by lia))).
    rewrite (pbind_ok _ _ _ _ _ (set_slot_ok (length pre) x q p ltac:(rewrite Hsl, lookup_app_r, Nat.sub_diag by lia; done))).
    rewrite Hsl, insert_app_r_alt, Nat.sub_diag by lia. cbn [insert list_insert app].
    rewrite (pbind_ok _ _ _ _ _ (slot_ok (length pre) x (Proc (pmem p) (pbrk p) (kbrk p) (pre ++ x :: x :: qs ++ 0 :: rest)) ltac:(cbn; rewrite lookup_app_r, Nat.sub_diag by lia; done))).
    destruct (Z.eqb_spec x 0); [done|].
    specialize (IH (Proc (pmem p) (pbrk p) (kbrk p) (pre ++ x :: x :: qs ++ 0 :: rest)) (pre ++ [x]) x rest k).
    rewrite app_length in IH. cbn [length] in IH. rewrite Nat.add_1_r in IH. cbn [slots pmem pbrk kbrk] in IH.
    rewrite IH; [by rewrite <- app_assoc|by rewrite <- app_assoc|done|lia].
Qed.

Lemma unsetenv_loop_none p s n E : forall pre qs rest k,
  text_at p bound s n -> good_name n ->
  slots p = pre ++ qs ++ 0 :: rest -> Forall2 (text_at p bound) qs E ->
  (forall t, t ∈ E -> sets_name n t = false) ->
  (length qs < k)%nat ->
  unsetenv_loop k (length pre) s (Z.of_nat (length n)) p = POk tt p.
Proof.
  induction E as [|t E IH]; intros pre qs rest k Hs Hn Hsl Hq Hno Hk; inversion Hq as [|q ? qs' ? Hqt Hq']; subst; cbn [length] in Hk;
    (destruct k as [|k]; [lia|]); cbn [unsetenv_loop].
  - by rewrite (pbind_ok _ _ _ _ _ (slot_ok (length pre) 0 p ltac:(rewrite Hsl, lookup_app_r, Nat.sub_diag by lia; done))).
  - rewrite (pbind_ok _ _ _ _ _ (slot_ok (length pre) q p ltac:(rewrite Hsl, lookup_app_r, Nat.sub_diag by lia; done))).
    destruct Hqt as (Hq0 & Hqt & ?). destruct (Z.eqb_spec q 0); [lia|].
    destruct Hs as (Hs0 & Hs1 & Hs2).
    rewrite (pbind_ok _ _ _ _ _ (entry_matches_ok p s q n t Hs1 Hqt Hn)).
    rewrite (Hno t) by constructor.
    rewrite (pbind_ok (pret tt) _ p tt p) by done.
    specialize (IH (pre ++ [q]) qs' rest k). rewrite app_length in IH. cbn in IH. rewrite Nat.add_1_r in IH.
    apply IH; [done|done|by rewrite <- app_assoc|done| |lia]. intros u Hu. apply Hno. by constructor.
Qed.

(** the entries after an [unsetenv] of a name with at most one entry *)
Lemma unsetenv_loop_ok p s n E : forall pre qs rest k,
  text_at p bound s n -> good_name n ->
  slots p = pre ++ qs ++ 0 :: rest -> Forall2 (text_at p bound) qs E ->
  (forall i j t u, E !! i = Some t -> E !! j = Some u -> sets_name n t = true -> sets_name n u = true -> i = j) ->
  (length qs < k)%nat ->
  exists qs' E' rest', unsetenv_loop k (length pre) s (Z.of_nat (length n)) p
      = POk tt (Proc (pmem p) (pbrk p) (kbrk p) (pre ++ qs' ++ 0 :: rest')) /\
    Forall2 (text_at p bound) qs' E' /\ (length rest <= length rest')%nat /\
    ((exists i t, first n E i t /\ E' = delete i E) \/ (E' = E /\ forall t, t ∈ E -> sets_name n t = false)).
Proof.
  induction E as [|t E IH]; intros pre qs rest k Hs Hn Hsl Hq Hu Hk.
  - exists qs, [], rest. rewrite (unsetenv_loop_none p s n [] pre qs rest k) by (done || (intros t Ht; by inversion Ht)).
    split; [rewrite <- Hsl; by destruct p|]. split; [done|]. split; [lia|]. right. split; [done|]. intros t Ht; by inversion Ht.
  - inversion Hq as [|q ? qs' ? Hqt Hq']; subst; cbn [length] in Hk. destruct k as [|k]; [lia|]; cbn [unsetenv_loop].
    rewrite (pbind_ok _ _ _ _ _ (slot_ok (length pre) q p ltac:(rewrite Hsl, lookup_app_r, Nat.sub_diag by lia; done))).
    pose proof Hqt as (Hq0 & Hqt' & Hqt2). destruct (Z.eqb_spec q 0); [lia|].
    pose proof Hs as (Hs0 & Hs1 & Hs2).
    rewrite (pbind_ok _ _ _ _ _ (entry_matches_ok p s q n t Hs1 Hqt' Hn)).
    destruct (sets_name n t) eqn:Et.
    + rewrite (pbind_ok _ _ _ tt (Proc (pmem p) (pbrk p) (kbrk p) (pre ++ qs' ++ 0 :: 0 :: rest))).
      2: { apply (shift_down_ok qs' p pre q rest); [done| |rewrite Hsl; repeat (rewrite app_length; cbn [length app]); lia].
           apply Forall_forall. intros x Hx. apply elem_of_list_lookup in Hx as (j & Hj).
           destruct (Forall2_lookup_l _ _ _ _ _ Hq' Hj) as (u & _ & (H0 & _)). lia. }
      assert (forall u, u ∈ E -> sets_name n u = false) as Hno.
      { intros u Hin. apply elem_of_list_lookup in Hin as (j & Hj). destruct (sets_name n u) eqn:Eu; [|done].
        by pose proof (Hu 0%nat (S j) t u eq_refl Hj Et Eu). }
      exists qs', E, (0 :: rest).
      split; [|split; [done|]; split; [cbn; lia|]; left; exists 0%nat, t; split; [split; [done|]; split; [done|]; lia|done]].
      destruct E as [|u E]; inversion Hq' as [|x ? qs'' ? Hxu Hq'']; subst; cbn [length app] in *.
      * (* the next slot is the second null pointer *)
        destruct k as [|k]; [lia|]. cbn [unsetenv_loop].
        rewrite (pbind_ok _ _ _ _ _ (slot_ok (S (length pre)) 0 (Proc (pmem p) (pbrk p) (kbrk p) (pre ++ 0 :: 0 :: rest))
           ltac:(cbn; rewrite lookup_app_r by lia; by replace (S (length pre) - length pre)%nat with 1%nat by lia))). done.
      * pose proof (unsetenv_loop_none (Proc (pmem p) (pbrk p) (kbrk p) (pre ++ x :: qs'' ++ 0 :: 0 :: rest)) s n E (pre ++ [x]) qs'' (0 :: rest) k) as L.
        rewrite app_length in L. cbn [length] in L. rewrite Nat.add_1_r in L. apply L; [done|done|cbn; by rewrite <- app_assoc|done| |lia].
        intros w Hw. apply Hno. by constructor.
    + rewrite (pbind_ok (pret tt) _ p tt p) by done.
      specialize (IH (pre ++ [q]) qs' rest k). rewrite app_length in IH. cbn in IH. rewrite Nat.add_1_r in IH.
      destruct IH as (qs2 & E2 & rest2 & E1 & F2 & L2 & C2); [done|done|by rewrite <- app_assoc|done| |lia|].
      { intros i j t1 t2 A B C D. by pose proof (Hu (S i) (S j) t1 t2 A B C D) as [= ->]. }
      exists (q :: qs2), (t :: E2), rest2. rewrite <- app_assoc in E1. split; [done|].
      split; [by constructor|]. split; [done|].
      destruct C2 as [(i & t' & (A & B & C) & ->)|[-> C]].
      * left. exists (S i), t'. split; [|done]. split; [done|]. split; [done|].
        intros [|j] w Hj Hw; [by injection Hw as <-|]. eapply C; [|done]. lia.
      * right. split; [done|]. intros u Hin. apply elem_of_cons in Hin as [->|Hin]; [done|by apply C].
Qed.

Lemma distinct_delete i E : distinct E -> distinct (delete i E).
Proof.
  intros Hd j k t u n v w Hj Hk Ht Hu.
  assert (forall l x, delete i E !! l = Some x -> E !! (if decide (l < i)%nat then l else S l) = Some x) as Hl.
  { intros l x Hx. destruct (decide (l < i)%nat); [by rewrite lookup_delete_lt in Hx|]. by rewrite lookup_delete_ge in Hx by lia. }
  pose proof (Hd _ _ _ _ _ _ _ (Hl _ _ Hj) (Hl _ _ Hk) Ht Hu) as Heq.
  destruct (decide (j < i)%nat), (decide (k < i)%nat); lia.
Qed.

Lemma unsetenv_ok p s n E spare :
  environment p bound E spare -> text_at p bound s n -> good_name n -> distinct E ->
  exists p' E' spare', unsetenv bound s p = POk tt p' /\
    pmem p' = pmem p /\ pbrk p' = pbrk p /\ kbrk p' = kbrk p /\
    environment p' bound E' spare' /\ (spare <= spare')%nat /\
    env_of E' = delete n (env_of E) /\ distinct E'.
Proof.
  intros (qs & rest & Hsl & Hrest & Hqs) Hs Hn Hd. unfold unsetenv.
  rewrite (pbind_ok _ _ _ _ _ (text_strlen _ _ _ Hs)).
  assert (forall i j t u, E !! i = Some t -> E !! j = Some u -> sets_name n t = true -> sets_name n u = true -> i = j) as Hu.
  { intros i j t u A B C D. apply sets_name_true in C as (v & C), D as (w & D). by eapply Hd. }
  destruct (unsetenv_loop_ok p s n E [] qs rest (S (length (slots p))) Hs Hn Hsl Hqs Hu) as (qs' & E' & rest' & E1 & F & L & C).
  { rewrite Hsl, app_length. cbn. lia. }
  cbn [length app] in E1. rewrite E1.
  exists (Proc (pmem p) (pbrk p) (kbrk p) (qs' ++ 0 :: rest')), E', (length rest').
  split; [done|]. split; [done|]. split; [done|]. split; [done|].
  split; [by exists qs', rest'|]. split; [lia|].
  destruct C as [(i & t & Hf & ->)|[-> Hno]].
  - split; [|by apply distinct_delete]. eapply env_delete; [done|]. intros j u A B. destruct Hf as (A' & B' & _). by eapply Hu.
  - split; [|done]. rewrite delete_notin; [done|]. by apply env_none.
Qed.

(** any history *)
Lemma do_eops_ok ops : forall rs p E spare,
  heap_ok p -> environment p bound E spare -> Forall2 (asks page limit p bound) ops rs ->
  (sets rs <= spare)%nat -> fits page limit (cur p) rs -> (forall n, Unset n ∈ rs -> distinct E) ->
  exists p' E' spare', do_eops page kstart limit bound ops p = POk tt p' /\
    heap_ok p' /\ environment p' bound E' spare' /\ cur p <= cur p' /\
    env_of E' = apply_all rs (env_of E) /\
    (forall q, (q < cur p \/ page_up page limit <= q) -> pmem p' !! q = pmem p !! q).
Proof.
  induction ops as [|o ops IH]; intros rs p E spare Hh He Hr Hsp Hf Hd; inversion Hr as [|? r ? rs' Ho Hr']; subst; cbn [do_eops].
  - exists p, E, spare. split; [done|]. split; [done|]. split; [done|]. split; [lia|]. done.
  - assert (forall p1, cur p <= cur p1 -> (forall q, (q < cur p \/ page_up page limit <= q) -> pmem p1 !! q = pmem p !! q) ->
              Forall2 (asks page limit p1 bound) ops rs') as Hkeep.
    { intros p1 Hc Hm. eapply Forall2_impl; [exact Hr'|]. intros o' r' Ha. 
      destruct o', r'; cbn in *; try done; destruct_and!; repeat (split; try done); try (by eapply text_keep); 
        match goal with H : text_at p bound ?s ?t |- _ => idtac end; done. }
    destruct o as [s v w|s], r as [n x|n]; cbn in Ho; try done; cbn [do_eop].
    + destruct Ho as (Hs & Hv & Hn & Hlen). cbn [fits] in Hf. destruct Hf as (F1 & F2 & F3).
      assert (sets (Set_ n x :: rs') = S (sets rs')) as Hss by done. rewrite Hss in Hsp.
      destruct (setenv_ok p s v w n x E spare Hh He Hs Hv Hn ltac:(lia) F1 F2 Hlen) as (p1 & E1 & sp1 & R1 & H1 & V1 & C1 & S1 & M1 & D1 & K1).
      assert (cur p <= cur p1) as Hc1 by (rewrite C1; lia).
      destruct (IH rs' p1 E1 sp1 H1 V1 (Hkeep p1 Hc1 K1)) as (p2 & E2 & sp2 & R2 & H2 & V2 & C2 & M2 & K2);
        [lia|by rewrite C1|intros n' Hn'; apply D1, (Hd n'); by constructor|].
      exists p2, E2, sp2. rewrite (pbind_ok _ _ p tt p1) by (by rewrite (pbind_ok _ _ _ _ _ R1)).
      split; [done|]. split; [done|]. split; [done|]. split; [lia|]. split; [by rewrite M2, M1|].
      intros q Hq. rewrite K2 by lia. by apply K1.
    + destruct Ho as (Hs & Hn). cbn [fits] in Hf.
      destruct (unsetenv_ok p s n E spare He Hs Hn (Hd n ltac:(constructor))) as (p1 & E1 & sp1 & R1 & A1 & A2 & A3 & V1 & S1 & M1 & D1).
      assert (cur p1 = cur p) as Hc1 by (unfold cur; by rewrite A2, A3).
      assert (heap_ok p1) as H1 by (destruct Hh as [X1 X2 X3]; split; rewrite ?Hc1, ?A3, ?A1; done).
      destruct (IH rs' p1 E1 sp1 H1 V1) as (p2 & E2 & sp2 & R2 & H2 & V2 & C2 & M2 & K2);
        [apply Hkeep; [lia|intros q _; by rewrite A1]|change (sets (Unset n :: rs')) with (sets rs') in Hsp; lia|by rewrite Hc1|done|].
      exists p2, E2, sp2. rewrite (pbind_ok _ _ _ _ _ R1).
      split; [done|]. split; [done|]. split; [done|]. split; [lia|]. split; [by rewrite M2, M1|].
      intros q Hq. rewrite K2 by lia. by rewrite A1.
Qed.

Lemma getenv_ok p s n E spare :
  environment p bound E spare -> text_at p bound s n -> good_name n ->
  exists r, getenv bound s p = POk r p /\
    match env_of E !! n with Some v => r <> 0 /\ cstr (pmem p) r v | None => r = 0 end.
Proof.
  intros (qs & rest & Hsl & Hrest & Hqs) Hs Hn. unfold getenv.
  rewrite (pbind_ok _ _ _ _ _ (text_strlen _ _ _ Hs)).
  apply (getenv_loop_ok p s n E [] qs rest); try done.
  rewrite Hsl, app_length. cbn. lia.
Qed.
End Env.
