(** Lemmas about saving the interpreter's stack in a vector and loading it again. *)
From stdpp Require Import base gmap list fin_maps.
From Coq Require Import ZArith Lia.
From Coq Require Import ZifyBool ZifyNat.
From Verif Require Import CInt Symbols Heap HeapLemmas GcSpec DataModel DataSpec DataLemmas CoreProofs ArrayProofs HashProofs StackModel EvalModel.
Open Scope Z_scope. Open Scope mes_scope.

(** the live part of the stack, from the top *)
Definition stack_holds (s : state) (es : list Z) : Prop :=
  0 <= g_stack s /\ g_stack s + Z.of_nat (length es) = STACK_SIZE s /\
  forall j e, es !! j = Some e -> g_stack_array s !! (g_stack s + Z.of_nat j) = Some e.
(** the continuation object [k] has saved a stack with these entries *)
Definition saved (h : gmap Z cell) (k : Z) (sls : list slot) : Prop :=
  exists c v, h !! k = Some c /\ c_ty c = TCONTINUATION /\ array_at h TVECTOR (c_cdr c) v sls.

Lemma array_set_at h h' v sls (j : nat) sl k s s' :
  h = cells s -> h' = cells s' ->
  modifies (eq (v + Z.of_nat j)) k s s' -> slot_at h' (v + Z.of_nat j) sl -> (j < length sls)%nat ->
  (forall p, SRef p ∈ sls -> p <> v + Z.of_nat j) -> forall x, x <> v + Z.of_nat j ->
  array_at h TVECTOR x v sls -> array_at h' TVECTOR x v (<[j := sl]> sls).
Proof.
  intros -> -> Hm Hs Hj Hp x Hx [(c & Hc & Ht & Hl & Hv) Hsl]. split.
  - exists c. split; [eapply modifies_old; [exact Hm|done|congruence]|]. rewrite insert_length. done.
  - intros i sl' Hi. destruct (decide (i = j)) as [->|Hne].
    + rewrite list_lookup_insert in Hi by done. by injection Hi as <-.
    + rewrite list_lookup_insert_ne in Hi by done. eapply slot_at_keep; [exact Hm|lia| |by apply Hsl].
      intros p ->. intros E. eapply (Hp p); [by eapply elem_of_list_lookup_2|congruence].
Qed.

Lemma value_ref_in h e sl p : value_at h e sl -> sl = SRef p -> p = e.
Proof. intros Hv ->. by destruct Hv. Qed.
Lemma save_stack_ok es : forall (j : nat) g sls cur x v s,
  array_at (cells s) TVECTOR x v cur -> length cur = (j + length es)%nat -> Forall2 (value_at (cells s)) es sls ->
  0 <= g + Z.of_nat j -> g + Z.of_nat j + Z.of_nat (length es) <= STACK_SIZE s ->
  (forall i e, es !! i = Some e -> g_stack_array s !! (g + Z.of_nat j + Z.of_nat i) = Some e) ->
  Forall (fun e => e < v) es -> (forall p, SRef p ∈ cur -> p < v) -> x < v -> 1 <= v -> v + Z.of_nat (length cur) <= g_free s ->
  can_alloc (Z.of_nat (length es)) s ->
  exists s' k, save_stack (length es) x (Z.of_nat j) g s = ROk tt s' /\ k <= Z.of_nat (length es)
    /\ modifies (fun q => v <= q < v + Z.of_nat (length cur)) k s s' /\ array_at (cells s') TVECTOR x v (take j cur ++ sls).
Proof.
  induction es as [|e es IH]; intros j g sls cur x v s Ha Hlen Hv Hg1 Hg2 Hst Hlt Hp Hx H1 Hfree Hal;
    inversion Hv as [|? sl ? sls' Hve Hvr]; subst.
  { cbn in *. exists s, 0. split; [done|]. split; [lia|]. split; [apply modifies_refl|].
    rewrite take_ge by lia. by rewrite app_nil_r. }
  cbn [length] in *. apply Forall_cons in Hlt as [Hlt0 Hlt].
  destruct (set_entry_ok v (Z.of_nat j) e sl s Hve) as (s1 & k1 & E1 & Hk1 & Hm1 & Hs1); [eapply can_alloc_le; [done|lia]|lia|lia|].
  pose proof (mod_size _ _ _ _ Hm1). pose proof (mod_free _ _ _ _ Hm1) as Hf1.
  assert (Hcur : array_at (cells s1) TVECTOR x v (<[j := sl]> cur)).
  { eapply array_set_at; [done|done|exact Hm1|exact Hs1|lia| |lia|exact Ha]. intros p Hin. specialize (Hp p Hin). lia. }
  destruct (IH (S j) g sls' (<[j := sl]> cur) x v s1) as (s2 & k2 & E2 & Hk2 & Hm2 & A2).
  { done. } { rewrite insert_length. lia. }
  { clear -Hvr Hlt Hm1. induction Hvr as [|? ? ? ? Hv]; [constructor|]. apply Forall_cons in Hlt as [? ?]. constructor; [|auto].
    eapply value_at_keep; [exact Hm1|lia|done]. }
  { lia. } { destruct Hm1 as [_ _ _ (h & ->)]. cbn. lia. }
  { intros i e' Hi. specialize (Hst (S i) e' Hi). destruct Hm1 as [_ _ _ (h & ->)]. cbn. rewrite <- Hst. f_equal. lia. }
  { done. }
  { intros p Hin. apply elem_of_list_lookup in Hin as (i & Hi). destruct (decide (i = j)) as [->|Hne].
    - rewrite list_lookup_insert in Hi by lia. injection Hi as ->. destruct Hve as [<- _]. lia.
    - rewrite list_lookup_insert_ne in Hi by done. apply Hp. by eapply elem_of_list_lookup_2. }
  { lia. } { lia. } { rewrite insert_length. lia. }
  { eapply modifies_can_alloc; [exact Hm1|eapply can_alloc_le; [done|lia]|lia]. }
  exists s2, (k1 + k2). split.
  { cbn [save_stack]. erewrite bind_ok by (apply stack_get_ok; [lia|by rewrite <- (Hst 0%nat e eq_refl), Z.add_0_r]).
    destruct Ha as [(c & Hc & Ht & Hl & Hcv) _]. pose proof (cells_heap _ _ _ Hc) as [Hch _].
    assert (vector_set_x_ x (Z.of_nat j) e s = ROk cell_unspecified s1) as Evs.
    { unfold vector_set_x_. run. erewrite bind_ok by (apply assert_msg_true; lia).
      erewrite bind_ok by (apply assert_msg_true; lia). rewrite Hcv. by erewrite bind_ok by exact E1. }
    erewrite bind_ok by exact Evs. by replace (Z.of_nat j + 1) with (Z.of_nat (S j)) by lia. }
  rewrite insert_length in Hm2. split; [lia|]. split.
  { eapply modifies_trans; [eapply modifies_weaken; [|exact Hm1]|exact Hm2|done]. cbn. intros; lia. }
  replace (take j cur ++ sl :: sls') with (take (S j) (<[j := sl]> cur) ++ sls'); [done|].
  rewrite (take_S_r _ j sl) by (apply list_lookup_insert; lia). rewrite take_insert by lia. by rewrite <- app_assoc.
Qed.

(** the whole stack as a vector *)
Lemma stack_to_vector_ok es sls s : stack_holds s es -> Forall2 (value_at (cells s)) es sls ->
  other (cells s) cell_unspecified -> can_alloc (1 + 3 * Z.of_nat (length es)) s ->
  exists s' k v, stack_to_vector s = ROk (g_free s) s' /\ k <= 1 + 3 * Z.of_nat (length es) /\ modifies nothing k s s'
    /\ array_at (cells s') TVECTOR (g_free s) v sls.
Proof.
  intros (Hg & Hsz & Hst) Hv Hu Hal. pose proof Hal as (A1 & A2 & A3). set (n := length es) in *.
  destruct (make_vector_ok (Z.of_nat n) cell_unspecified (SRef cell_unspecified) s) as (s1 & k1 & E1 & Hk1 & Hm1 & Ha1); [lia|done|eapply can_alloc_le; [done|lia]|].
  pose proof (mod_free _ _ _ _ Hm1) as Hf1. pose proof (mod_size _ _ _ _ Hm1).
  rewrite Nat2Z.id in Ha1.
  assert (Hlow : Forall (fun e => e < g_free s + 1) es).
  { apply Forall_lookup. intros i e Hi. destruct (Forall2_lookup_l _ _ _ _ _ Hv Hi) as (sl & _ & Hve). pose proof (value_at_lt _ _ _ Hve). lia. }
  assert (Hspace : g_free s + 1 + Z.of_nat n <= g_free s1 \/ n = 0%nat).
  { destruct n as [|n']; [by right|left]. destruct Ha1 as [_ Hs]. specialize (Hs n' (SRef cell_unspecified)).
    rewrite lookup_replicate in Hs. destruct Hs as [(c & Hc & _) _]; [split; [done|lia]|]. apply cells_heap in Hc. lia. }
  destruct (decide (n = 0%nat)) as [Hn0|Hn0].
  { destruct es; [|done]. apply Forall2_nil_inv_l in Hv as ->. unfold n in *. cbn in Ha1, E1, Hsz, Hk1.
    exists s1, k1, (g_free s + 1). split.
    { unfold stack_to_vector. run. replace (STACK_SIZE s - g_stack s) with 0 by lia. erewrite bind_ok by exact E1. done. }
    cbn. split; [lia|done]. }
  destruct (save_stack_ok es 0 (g_stack s) sls (replicate n (SRef cell_unspecified)) (g_free s) (g_free s + 1) s1) as (s2 & k2 & E2 & Hk2 & Hm2 & Ha2).
  { done. } { by rewrite replicate_length. }
  { eapply Forall2_impl; [exact Hv|]. intros. eapply value_at_mono; [by eapply modifies_cells|done]. }
  { lia. } { destruct Hm1 as [_ _ _ (h & ->)]. cbn. lia. }
  { intros i e Hi. destruct Hm1 as [_ _ _ (h & ->)]. cbn. rewrite Z.add_0_r. by apply Hst. }
  { done. } { intros p Hin. apply elem_of_replicate in Hin as [[= ->] _]. destruct Hu as (c & Hc & _). apply cells_heap in Hc. lia. }
  { lia. } { lia. } { rewrite replicate_length. lia. }
  { eapply modifies_can_alloc; [exact Hm1|eapply can_alloc_le; [done|lia]|lia]. }
  rewrite replicate_length in Hm2. cbn [take app] in Ha2.
  exists s2, (k1 + k2), (g_free s + 1). split.
  { unfold stack_to_vector. run. replace (STACK_SIZE s - g_stack s) with (Z.of_nat n) by lia. erewrite bind_ok by exact E1.
    rewrite Nat2Z.id. by erewrite bind_ok by exact E2. }
  split; [lia|]. split; [eapply modifies_trans; [exact Hm1|exact Hm2|cbn; intros; lia]|done].
Qed.

Lemma get_entry_cells v i sl s : slot_at (cells s) (v + i) sl -> can_alloc 1 s ->
  exists r s' k, get_entry v i s = ROk r s' /\ k <= 1 /\ modifies nothing k s s' /\ value_at (cells s') r sl.
Proof.
  intros Hs Ha. destruct sl as [n|n|p].
  - exists (g_free s), (with_cell (Cell TNUMBER 0 n []) s), 1. split.
    { apply get_num; [|done]. eapply slot_at_mono; [apply cells_sub|done]. }
    split; [lia|]. split; [apply modifies_with_cell|]. eexists. rewrite cells_with_cell by apply Ha. rewrite lookup_insert. done.
  - destruct Hs as [Hs Hi]. destruct Hs as (c & Hc & Ht & Hn). apply cells_heap in Hc as [Hc _].
    eexists _, _, 1. split.
    { unfold get_entry, deref, cell_ref. run. rewrite Ht. change (TCHAR =? TREF) with false. run. rewrite Ht, Z.eqb_refl. run.
      erewrite bind_ok by (by apply make_cell_s). erewrite bind_ok by (apply rd_ok'; cbn; apply lookup_insert).
      cbn [c_ty]. change (TCHAR =? TNUMBER) with false. done. }
    split; [lia|]. split; [apply modifies_with_cell|]. split; [|done]. eexists. rewrite cells_with_cell by apply Ha. rewrite lookup_insert.
    split; [done|]. split; [done|]. cbn. rewrite Hn. by apply to_s32_id.
  - exists p, s, 0. split; [apply get_ref; eapply slot_at_mono; [apply cells_sub|done]|]. split; [lia|].
    split; [apply modifies_refl|]. destruct Hs as [_ Ho]. done.
Qed.

Lemma cells_stack_array arr s : cells (set_g_stack_array arr s) = cells s.
Proof. done. Qed.

Lemma load_stack_ok sls : forall (j : nat) all g x v s,
  array_at (cells s) TVECTOR x v all -> drop j all = sls -> 0 <= g + Z.of_nat j ->
  g + Z.of_nat j + Z.of_nat (length sls) <= STACK_SIZE s -> can_alloc (Z.of_nat (length sls)) s ->
  exists es s' k arr s0, load_stack (length sls) x (Z.of_nat j) g s = ROk tt s' /\ k <= Z.of_nat (length sls) /\ modifies nothing k s s0
    /\ s' = set_g_stack_array arr s0 /\ Forall2 (value_at (cells s')) es sls
    /\ (forall i e, es !! i = Some e -> arr !! (g + Z.of_nat j + Z.of_nat i) = Some e)
    /\ (forall q, q < g + Z.of_nat j -> arr !! q = g_stack_array s !! q).
Proof.
  induction sls as [|sl sls IH]; intros j all g x v s Ha Hd Hg1 Hg2 Hal.
  { exists [], s, 0, (g_stack_array s), s. split; [done|]. split; [cbn; lia|]. split; [apply modifies_refl|].
    split; [by destruct s|]. split; [constructor|]. split; [by intros i e Hi; rewrite lookup_nil in Hi|done]. }
  assert (all !! j = Some sl) as Hj by (rewrite <- (Nat.add_0_r j), <- lookup_drop, Hd; done).
  pose proof (lookup_lt_Some _ _ _ Hj) as Hlt. cbn [length] in *.
  destruct Ha as [(c & Hc & Ht & Hl & Hcv) Hsl]. pose proof (cells_heap _ _ _ Hc) as [Hch _].
  destruct (get_entry_cells v (Z.of_nat j) sl s) as (r & s1 & k1 & E1 & Hk1 & Hm1 & Hr); [by apply Hsl|eapply can_alloc_le; [done|lia]|].
  pose proof (mod_size _ _ _ _ Hm1).
  set (arr1 := <[g + Z.of_nat j := r]> (g_stack_array s1)). set (s2 := set_g_stack_array arr1 s1).
  assert (STACK_SIZE s1 = STACK_SIZE s /\ g_stack_array s1 = g_stack_array s) as [Hsz Harr] by (destruct Hm1 as [_ _ _ (h & ->)]; done).
  destruct (IH (S j) all g x v s2) as (es & s' & k2 & arr & s0 & E2 & Hk2 & Hm2 & -> & Hv & Hnew & Hold).
  { assert (array_at (cells s) TVECTOR x v all) as Ha by (split; [by exists c|done]). eapply array_at_mono; [|exact Ha].
    unfold s2. rewrite cells_stack_array. by eapply modifies_cells. }
  { rewrite <- (Nat.add_1_r j), <- drop_drop, Hd. done. } { lia. } { unfold s2. cbn. lia. }
  { assert (can_alloc (Z.of_nat (length sls)) s1) by (eapply modifies_can_alloc; [exact Hm1|eapply can_alloc_le; [done|lia]|lia]). done. }
  assert (exists s0', modifies nothing k2 s1 s0' /\ set_g_stack_array arr s0 = set_g_stack_array arr s0') as (s0' & Hm2' & Es).
  { destruct Hm2 as [B1 B2 B3 (h & ->)]. exists (set_g_free (g_free s1 + k2) (set_heap h s1)). split.
    - split; [done|done|exact B3|]. by exists h.
    - unfold s2. by destruct s1. }
  exists (r :: es), (set_g_stack_array arr s0'), (k1 + k2), arr, s0'. split.
  { cbn [load_stack]. assert (vector_ref_ x (Z.of_nat j) s = ROk r s1) as Er.
    { unfold vector_ref_. run. erewrite bind_ok by (apply assert_msg_true; lia).
      erewrite bind_ok by (apply assert_msg_true; lia). by rewrite Hcv. }
    erewrite bind_ok by exact Er. erewrite bind_ok by (apply stack_set_ok; lia). fold arr1. fold s2.
    replace (Z.of_nat j + 1) with (Z.of_nat (S j)) by lia. by rewrite <- Es. }
  split; [lia|]. split; [by eapply modifies_trans|]. split; [done|]. rewrite <- Es. split.
  { constructor; [|done]. eapply value_at_mono; [|exact Hr]. rewrite Es, cells_stack_array. by eapply modifies_cells. }
  split.
  - intros [|i] e Hi; cbn in Hi.
    + injection Hi as <-. rewrite Z.add_0_r. rewrite Hold by lia. unfold s2, arr1. cbn. apply lookup_insert.
    + replace (g + Z.of_nat j + Z.of_nat (S i)) with (g + Z.of_nat (S j) + Z.of_nat i) by lia. by apply Hnew.
  - intros q Hq. rewrite Hold by lia. unfold s2, arr1. cbn. rewrite lookup_insert_ne by lia. by rewrite Harr.
Qed.

(** * Steps of the evaluator *)
Lemma saved_mono h h' k sls : h ⊆ h' -> saved h k sls -> saved h' k sls.
Proof.
  intros Hh (c & v & Hc & Ht & Ha). exists c, v. split; [by eapply lookup_weaken|]. split; [done|by eapply array_at_mono].
Qed.
(** setting the stack of a continuation *)
Lemma set_cdr_saved s k c w v sls : cells s !! k = Some c -> c_ty c = TCONTINUATION -> array_at (cells s) TVECTOR w v sls ->
  1 <= k < limit s -> exists s', set_cdr k w s = ROk tt s' /\ modifies (eq k) 0 s s' /\ saved (cells s') k sls.
Proof.
  intros Hc Ht Ha Hk. pose proof (cells_heap _ _ _ Hc) as [Hch Hlt].
  eexists. split; [unfold set_cdr; run; apply wr_s; lia|]. split; [apply modifies_put|].
  exists (Cell (c_ty c) (c_car c) w (c_bytes c)), v. rewrite cells_put by lia. rewrite lookup_insert. split; [done|]. split; [done|]. cbn.
  assert (forall p c', cells s !! p = Some c' -> p <> k -> <[k := Cell (c_ty c) (c_car c) w (c_bytes c)]> (cells s) !! p = Some c') as Hkeep.
  { intros p c' Hp Hne. by rewrite lookup_insert_ne. }
  destruct Ha as [(cw & Hcw & Htw & Hl & Hv) Hsl]. split.
  - exists cw. split; [apply Hkeep; [done|]|done]. intros ->. rewrite Hc in Hcw. injection Hcw as ->. rewrite Ht in Htw. done.
  - intros i sl Hi. specialize (Hsl i sl Hi). destruct sl as [n|n|p].
    + destruct Hsl as (e & He & Hte & Hn). exists e. split; [apply Hkeep; [done|]|done]. intros E. rewrite E, Hc in He. injection He as ->. rewrite Ht in Hte. done.
    + destruct Hsl as [(e & He & Hte & Hn) Hint]. split; [|done]. exists e. split; [apply Hkeep; [done|]|done]. intros E. rewrite E, Hc in He. injection He as ->. rewrite Ht in Hte. done.
    + destruct Hsl as [(e & He & Hte & Hn) (o & Ho & Hot)]. split.
      * exists e. split; [apply Hkeep; [done|]|done]. intros E. rewrite E, Hc in He. injection He as ->. rewrite Ht in Hte. done.
      * destruct (decide (p = k)) as [->|Hne].
        -- eexists. rewrite lookup_insert. split; [done|]. cbn. rewrite Ht. rewrite Hc in Ho. injection Ho as ->. by rewrite Ht in Hot.
        -- exists o. split; [by apply Hkeep|done].
Qed.
