(** Proofs about allocation, the stack, pairs and lists. *)
From stdpp Require Import base gmap list.
From Coq Require Import ZArith Lia.
From Coq Require Import ZifyBool ZifyNat.
From Verif Require Import CInt Symbols Heap HeapLemmas DataModel DataSpec DataLemmas.
Open Scope Z_scope.
Open Scope mes_scope.

(** * Allocation *)
Lemma alloc_s n s : g_free s + n - g_cells s <= ARENA_SIZE s ->
  alloc n s = ROk (g_free s) (set_g_free (g_free s + n) s).
Proof.
  intros H. unfold alloc. run. cbn. destruct (Z.ltb_spec (ARENA_SIZE s) (g_free s + n - g_cells s)); [lia|]. done.
Qed.
Lemma alloc_full n s : ARENA_SIZE s < g_free s + n - g_cells s -> alloc n s = RAbort.
Proof.
  intros H. unfold alloc. run. cbn. destruct (Z.ltb_spec (ARENA_SIZE s) (g_free s + n - g_cells s)); [|lia]. done.
Qed.
Lemma make_cell_full t a d s : ARENA_SIZE s < g_free s + 1 - g_cells s -> make_cell t a d s = RAbort.
Proof.
  intros H. unfold make_cell. run. cbn. destruct (Z.ltb_spec (ARENA_SIZE s) (g_free s + 1 - g_cells s)); [|lia]. done.
Qed.

(** the state after make_bytes *)
Definition with_bytes (bs : list Z) (s : state) : state :=
  let n := Z.of_nat (length bs) in
  set_g_free (g_free s + bytes_cells n)
    (set_heap (<[g_free s := Cell TBYTES n 0 bs]>
        (del_cells (<[g_free s := Cell TBYTES n 0 []]> (heap s)) (g_free s + 1) (Z.to_nat (touched_cells n - 1)))) s).
Lemma make_bytes_s bs s : can_alloc (bytes_cells (Z.of_nat (length bs))) s ->
  make_bytes bs s = ROk (g_free s) (with_bytes bs s).
Proof.
  intros (H1 & H2 & H3). unfold make_bytes. rewrite <- (upd_id s) at 1.
  pose proof (touched_le_bytes (Z.of_nat (length bs))).
  erewrite bind_ok by (apply alloc_ok; lia).
  erewrite bind_ok by (apply wr_ok; lia).
  erewrite bind_ok by (eapply set_bytes_ok; [apply lookup_insert|lia]). done.
Qed.
Lemma modifies_with_bytes bs s : modifies nothing (bytes_cells (Z.of_nat (length bs))) s (with_bytes bs s).
Proof.
  pose proof (bytes_cells_pos (Z.of_nat (length bs))).
  split; [lia|done| |by eexists].
  intros p Hp _. cbn. rewrite lookup_insert_ne by lia. rewrite del_cells_lookup_out by lia.
  by rewrite lookup_insert_ne by lia.
Qed.
Lemma bytes_with_bytes bs s : heap (with_bytes bs s) !! g_free s = Some (Cell TBYTES (Z.of_nat (length bs)) 0 bs).
Proof. cbn. by rewrite lookup_insert. Qed.

Definition with_string (bs : list Z) (term : Z) (s : state) : state :=
  let s1 := with_cell (Cell TSTRING (Z.of_nat (length bs)) 0 []) s in
  put (g_free s) (Cell TSTRING (Z.of_nat (length bs)) (g_free s + 1) []) (with_bytes (bs ++ [term]) s1).
Definition string_cells (bs : list Z) : Z := 1 + bytes_cells (Z.of_nat (length bs) + 1).
Lemma make_string_s bs term s :
  can_alloc (string_cells bs) s -> Z.of_nat (length bs) <= MAX_STRING s ->
  make_string_term bs term s = ROk (g_free s) (with_string bs term s).
Proof.
  intros Ha Hm. unfold make_string_term. run. destruct (Z.ltb_spec (MAX_STRING s) (Z.of_nat (length bs))); [lia|].
  run. unfold string_cells in Ha. pose proof (bytes_cells_pos (Z.of_nat (length bs) + 1)).
  unfold make_pointer_cell. erewrite bind_ok by (apply make_cell_s; eapply can_alloc_le; [done|lia]).
  erewrite bind_ok.
  2:{ apply make_bytes_s. rewrite app_length. cbn [length]. eapply modifies_can_alloc; [apply modifies_with_cell| |].
      - eapply can_alloc_le; [done|]. rewrite Nat2Z.inj_add. change (Z.of_nat 1) with 1. lia.
      - pose proof (bytes_cells_pos (Z.of_nat (length bs + 1))). lia. }
  destruct Ha as (H1 & H2 & H3).
  erewrite bind_ok.
  2:{ eapply set_cdr_s; [|cbn; lia].
      erewrite (mod_keep _ _ _ _ (modifies_with_bytes _ _)); [|cbn; lia|intros []]. cbn. rewrite lookup_insert. done. }
  done.
Qed.
Lemma string_with_string bs s : 1 <= g_free s ->
  text_at (cells (with_string bs 0 s)) TSTRING (g_free s) bs.
Proof.
  intros Hf. pose proof (bytes_cells_pos (Z.of_nat (length (bs ++ [0])))).
  eexists _, _. split.
  { apply heap_cells; [|cbn; lia]. cbn. rewrite lookup_insert. done. }
  split; [done|]. split; [done|]. cbn [c_cdr].
  assert (heap (with_string bs 0 s) !! (g_free s + 1) = Some (Cell TBYTES (Z.of_nat (length (bs ++ [0]))) 0 (bs ++ [0]))) as E.
  { unfold with_string. cbn [put heap set_heap]. rewrite lookup_insert_ne by lia.
    rewrite <- (bytes_with_bytes (bs ++ [0]) (with_cell (Cell TSTRING (Z.of_nat (length bs)) 0 []) s)). done. }
  split; [apply heap_cells; [exact E|cbn; lia]|done].
Qed.
Lemma modifies_with_string bs term s : modifies nothing (string_cells bs) s (with_string bs term s).
Proof.
  unfold with_string. replace (string_cells bs) with (1 + (bytes_cells (Z.of_nat (length (bs ++ [term]))) + 0)).
  2:{ unfold string_cells. rewrite app_length. cbn [length]. rewrite Nat2Z.inj_add. change (Z.of_nat 1) with 1. lia. }
  set (s1 := with_cell _ s).
  assert (modifies (eq (g_free s)) (bytes_cells (Z.of_nat (length (bs ++ [term]))) + 0) s1
     (put (g_free s) (Cell TSTRING (Z.of_nat (length bs)) (g_free s + 1) []) (with_bytes (bs ++ [term]) s1))) as Hm.
  { eapply modifies_trans; [eapply modifies_weaken; [|apply modifies_with_bytes]|apply modifies_put|]; [intros ? ? []|done]. }
  eapply (modifies_trans nothing (eq (g_free s))); [apply modifies_with_cell|exact Hm|].
  intros p Hp <-. unfold nothing. lia.
Qed.

(** * Pairs and lists *)
Lemma cons_s a d s : can_alloc 1 s -> cons a d s = ROk (g_free s) (with_cell (Cell TPAIR a d []) s).
Proof. apply make_cell_s. Qed.
Lemma pair_with_cell a d s : pair_at (cells (with_cell (Cell TPAIR a d []) s)) (g_free s) a d.
Proof. eexists. rewrite cells_with_cell, lookup_insert. done. Qed.
Lemma pair_with_cell' a d s : pair_at (heap (with_cell (Cell TPAIR a d []) s)) (g_free s) a d.
Proof. eexists. cbn. rewrite lookup_insert. done. Qed.

Lemma car_bad x c s : heap s !! x = Some c -> c_ty c <> TPAIR -> can_alloc 1 s ->
  car x s = RThrow cell_symbol_not_a_pair (g_free s) (with_cell (Cell TPAIR x cell_symbol_car []) s).
Proof.
  intros H Ht Ha. unfold car. run. destruct (Z.eqb_spec (c_ty c) TPAIR); [done|].
  by erewrite bind_ok by by apply cons_s.
Qed.
Lemma cdr_bad x c s : heap s !! x = Some c -> c_ty c <> TPAIR -> can_alloc 1 s ->
  cdr x s = RThrow cell_symbol_not_a_pair (g_free s) (with_cell (Cell TPAIR x cell_symbol_cdr []) s).
Proof.
  intros H Ht Ha. unfold cdr. run. destruct (Z.eqb_spec (c_ty c) TPAIR); [done|].
  by erewrite bind_ok by by apply cons_s.
Qed.

Lemma length_loop_ok fuel : forall p vs n s, list_at (heap s) p vs -> (length vs <= fuel)%nat ->
  length_loop fuel p n s = ROk (n + Z.of_nat (length vs)) s.
Proof.
  induction fuel as [|fuel IH]; intros p vs n s H Hf; inversion H as [|? a d vs' Hp (c & Hc & Ht & _ & Hd) Hl]; subst;
    cbn in Hf; try lia; cbn [length_loop].
  1,2: rewrite Z.eqb_refl; cbn; f_equal; lia.
  rewrite (proj2 (Z.eqb_neq _ _) Hp). run. rewrite Ht. rewrite Z.eqb_refl.
  rewrite (IH _ vs') by (done || lia). f_equal. cbn [length]. lia.
Qed.
Lemma length__ok fuel p vs s : list_at (heap s) p vs -> (length vs <= fuel)%nat ->
  length__ fuel p s = ROk (Z.of_nat (length vs)) s.
Proof. intros H Hf. unfold length__. by rewrite (length_loop_ok fuel p vs). Qed.
(** improper: a chain of pairs ending in something that is neither () nor a pair *)
Lemma length_loop_bad fuel : forall p q ps vs n s c, seg (heap s) p q ps vs -> q <> cell_nil ->
  heap s !! q = Some c -> c_ty c <> TPAIR -> (length vs < fuel)%nat ->
  length_loop fuel p n s = ROk (-1) s.
Proof.
  induction fuel as [|fuel IH]; intros p q ps vs n s x H Hq Hx Hxt Hf; [lia|]. cbn [length_loop].
  inversion H as [|? ? a d ps' vs' Hp (c & Hc & Ht & _ & Hd) Hl]; subst.
  - rewrite (proj2 (Z.eqb_neq _ _) Hq). run. by rewrite (proj2 (Z.eqb_neq _ _) Hxt).
  - rewrite (proj2 (Z.eqb_neq _ _) Hp). run. rewrite Ht, Z.eqb_refl. eapply IH; try done. cbn in Hf. lia.
Qed.

(** reverse!: every pair of the chain is turned around *)
Lemma reverse_loop_ok fuel : forall p ps vs r s, seg (cells s) p cell_nil ps vs -> (length vs <= fuel)%nat ->
  in_arena s ->
  exists s' r', reverse_loop fuel p r s = ROk r' s' /\ modifies (fun q => q ∈ ps) 0 s s' /\ in_arena s'
    /\ seg (cells s') r' r (rev ps) (rev vs).
Proof.
  induction fuel as [|fuel IH]; intros p ps vs r s H Hf Ha;
    pose proof (seg_nodup _ _ _ _ H) as Hnd;
    inversion H as [|? ? a d ps' vs' Hp Hpa Hl]; subst; cbn in Hf; try lia; cbn [reverse_loop].
  1,2: rewrite Z.eqb_refl; exists s, r; split; [done|]; split; [apply modifies_refl|]; split; [done|constructor].
  rewrite (proj2 (Z.eqb_neq _ _) Hp). pose proof (pair_at_lt _ _ _ _ Hpa) as Hlt.
  run. destruct Hpa as (c & Hc & Ht & <- & <-).
  apply cells_heap in Hc as [Hc _].
  erewrite bind_ok by (eapply set_cdr_s; [done|by eapply Ha]).
  set (s1 := put p _ s). apply NoDup_cons in Hnd as [Hnin Hnd].
  assert (seg (cells s1) (c_cdr c) cell_nil ps' vs') as Hl1.
  { eapply seg_agree; [|exact Hl]. intros x Hx. unfold s1. rewrite cells_put by done.
    rewrite lookup_insert_ne; [done|]. congruence. }
  assert (in_arena s1) as Ha1 by (apply in_arena_put; [done|by eapply Ha]).
  destruct (IH (c_cdr c) ps' vs' p s1 Hl1 ltac:(lia) Ha1) as (s' & r' & E & Hm & Ha' & Hs).
  exists s', r'. split; [exact E|]. split; [|split; [done|]].
  - change 0 with (0 + 0). eapply modifies_trans.
    + eapply modifies_weaken; [|apply modifies_put]. intros q Hq <-. constructor.
    + exact Hm.
    + intros q Hq Hin. by constructor.
  - cbn [rev]. eapply seg_app; [exact Hs|]. econstructor; [done| |constructor].
    eexists. erewrite modifies_cells_eq; [|exact Hm|done|done]. unfold s1. rewrite cells_put by done.
    rewrite lookup_insert. done.
Qed.
Lemma reverse_x_ok fuel p ps vs r s : seg (cells s) p cell_nil ps vs -> (length vs <= fuel)%nat -> in_arena s ->
  exists s' r', reverse_x_ fuel p r s = ROk r' s' /\ modifies (fun q => q ∈ ps) 0 s s' /\ in_arena s'
    /\ seg (cells s') r' r (rev ps) (rev vs).
Proof.
  intros H Hf Ha. unfold reverse_x_. destruct (Z.eqb_spec p cell_nil) as [->|Hp].
  - run. by apply reverse_loop_ok.
  - inversion H as [|? ? a d ps' vs' _ Hpa Hl]; subst; [done|]. run. by apply reverse_loop_ok.
Qed.

(** append_reverse: copies the chain, in reverse order, in front of [r] *)
Fixpoint fresh_from (n : Z) (k : nat) : list Z :=
  match k with O => [] | S k' => fresh_from (n + 1) k' ++ [n] end.
Lemma append_reverse_loop_ok fuel : forall p vs r s, list_at (cells s) p vs -> (length vs <= fuel)%nat ->
  can_alloc (Z.of_nat (length vs)) s -> cell_nil < g_free s -> in_arena s ->
  exists s' r', append_reverse_loop fuel p r s = ROk r' s' /\ modifies nothing (Z.of_nat (length vs)) s s'
    /\ in_arena s' /\ seg (cells s') r' r (fresh_from (g_free s) (length vs)) (rev vs).
Proof.
  induction fuel as [|fuel IH]; intros p vs r s H Hf Hal Hnil Ha;
    inversion H as [|? a d vs' Hp Hpa Hl]; subst; cbn in Hf; try lia; cbn [append_reverse_loop].
  1,2: rewrite Z.eqb_refl; exists s, r; split; [done|]; split; [apply modifies_refl|]; split; [done|constructor].
  rewrite (proj2 (Z.eqb_neq _ _) Hp). pose proof (pair_at_lt _ _ _ _ Hpa) as Hlt.
  destruct Hpa as (c & Hc & Ht & <- & <-). pose proof Hc as Hc'. apply cells_heap in Hc as [Hc _]. run.
  cbn [length] in Hal. rewrite Nat2Z.inj_succ in Hal.
  erewrite bind_ok by (apply cons_s; eapply can_alloc_le; [done|lia]).
  set (s1 := with_cell _ s).
  assert (modifies nothing 1 s s1) as Hm1 by apply modifies_with_cell.
  erewrite bind_ok.
  2:{ eapply cdr_of_s. erewrite (mod_keep _ _ _ _ Hm1); [exact Hc|lia|intros []]. }
  destruct (IH (c_cdr c) vs' (g_free s) s1) as (s' & r' & E & Hm & Ha' & Hs).
  { eapply list_at_mono; [by eapply modifies_cells|done]. }
  { lia. }
  { eapply modifies_can_alloc; [exact Hm1|eapply can_alloc_le; [done|lia]|lia]. }
  { cbn. lia. }
  { apply in_arena_with_cell; [done|eapply can_alloc_le; [done|lia]]. }
  exists s', r'. split; [exact E|]. split; [|split; [done|]].
  - replace (Z.of_nat (length (c_car c :: vs'))) with (1 + Z.of_nat (length vs')) by (cbn [length]; lia).
    by eapply modifies_trans.
  - cbn [rev length fresh_from]. eapply seg_app; [exact Hs|]. econstructor; [lia| |constructor].
    eapply pair_at_mono; [by eapply modifies_cells|]. apply pair_with_cell.
Qed.
Lemma fresh_from_elem n k x : x ∈ fresh_from n k <-> n <= x < n + Z.of_nat k.
Proof.
  revert n. induction k as [|k IH]; intros n; cbn [fresh_from].
  - rewrite elem_of_nil. lia.
  - rewrite elem_of_app, IH, elem_of_list_singleton. lia.
Qed.

Lemma append2_fresh fuel p vs y s : list_at (cells s) p vs -> (length vs <= fuel)%nat ->
  can_alloc (Z.of_nat (length vs)) s -> cell_nil < g_free s -> in_arena s ->
  exists s' r ps, append2 fuel p y s = ROk r s' /\ modifies nothing (Z.of_nat (length vs)) s s'
    /\ in_arena s' /\ seg (cells s') r y ps vs /\ Forall (fun q => g_free s <= q < g_free s + Z.of_nat (length vs)) ps.
Proof.
  intros H Hf Hal Hnil Ha. unfold append2. destruct (Z.eqb_spec p cell_nil) as [->|Hp].
  - inversion H; subst; [|done]. exists s, y, []. split; [done|]. split; [apply modifies_refl|]. split; [done|split; constructor].
  - inversion H as [|? a d vs' _ Hpa Hl]; subst; [done|]. run.
    destruct (append_reverse_loop_ok fuel p (a :: vs') cell_nil s H Hf Hal Hnil Ha) as (s1 & r1 & E & Hm & Ha1 & Hs).
    erewrite bind_ok by exact E.
    destruct (reverse_x_ok fuel r1 _ _ y s1 Hs) as (s2 & r2 & E2 & Hm2 & Ha2 & Hs2).
    { by rewrite rev_length. }
    { done. }
    rewrite rev_involutive in Hs2. exists s2, r2, (rev (fresh_from (g_free s) (length (a :: vs')))).
    split; [exact E2|]. split.
    2:{ split; [done|]. split; [done|]. apply Forall_forall. intros q Hq. rewrite elem_of_list_In, <- in_rev, <- elem_of_list_In in Hq. by apply fresh_from_elem in Hq. }
    rewrite <- (Z.add_0_r (Z.of_nat _)). eapply modifies_trans; [exact Hm|exact Hm2|].
    intros q Hq Hin. apply fresh_from_elem in Hin. unfold nothing. lia.
Qed.
Lemma append_reverse_ok fuel p vs y s : list_at (cells s) p vs -> (length vs <= fuel)%nat ->
  can_alloc (Z.of_nat (length vs)) s -> cell_nil < g_free s -> in_arena s ->
  exists s' r ps, append_reverse fuel p y s = ROk r s' /\ modifies nothing (Z.of_nat (length vs)) s s'
    /\ in_arena s' /\ seg (cells s') r y ps (rev vs).
Proof.
  intros H Hf Hal Hnil Ha. unfold append_reverse. destruct (Z.eqb_spec p cell_nil) as [->|Hp].
  - inversion H; subst; [|done]. exists s, y, []. split; [done|]. split; [apply modifies_refl|]. split; [done|constructor].
  - inversion H as [|? a d vs' _ Hpa Hl]; subst; [done|]. run.
    destruct (append_reverse_loop_ok fuel p (a :: vs') y s H Hf Hal Hnil Ha) as (s1 & r1 & E & Hm & Ha1 & Hs).
    by eexists _, _, _.
Qed.
