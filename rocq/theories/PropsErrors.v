(** Errors signalled with a symbol naming the operation (rest of C09 and C11),
    and lookup by value (rest of C13). *)
From stdpp Require Import base gmap list.
From Coq Require Import ZArith Lia.
From Coq Require Import ZifyBool ZifyNat.
From Verif Require Import CInt Symbols Heap HeapLemmas DataModel DataSpec DataLemmas CoreProofs ListProofs StringProofs HashProofs Samples SamplesHash PropsHash.
Import Strings.String.StringSyntax.
Open Scope Z_scope. Open Scope mes_scope.

Lemma symbols_extends k s s' al : modifies nothing k s s' -> symbols_ok s al -> symbols_ok s' al.
Proof.
  intros Hm ((w & size & Ht) & Hc & Hv & Hf). assert (cells s ⊆ cells s') as Hsub by by eapply modifies_cells.
  split; [exists w, size; rewrite (modifies_symbols _ _ _ _ Hm); by eapply table_mono|]. split; [by eapply constants_mono|].
  split; [|by eapply text_at_mono]. eapply Forall_impl; [exact Hv|]. intros e (t & Hin & Hte). exists t. split; [done|]. by eapply text_at_mono.
Qed.

Lemma cstring_to_symbol_ok fuel bs al s : symbols_ok s al -> good_name (until_nul bs) -> Z.of_nat (length (until_nul bs)) <= MAX_STRING s ->
  (length al < fuel)%nat -> can_alloc (string_cells (until_nul bs) + 6) s ->
  exists r s' n al', cstring_to_symbol fuel bs s = ROk r s' /\ symbols_ok s' al' /\ survives s s' /\ is_symbol (cells s') r (until_nul bs) /\
    n <= string_cells (until_nul bs) + 6 /\ exists p, modifies (eq p) n s s'.
Proof.
  intros Hs Hg Hl Hf Ha. unfold cstring_to_symbol, make_string0.
  assert (0 <= string_cells (until_nul bs)) as Hsc.
  { unfold string_cells. pose proof (bytes_cells_pos (Z.of_nat (length (until_nul bs)) + 1)). lia. }
  destruct (make_string_ok (until_nul bs) s) as (s1 & E1 & Hm1 & Ht1); [eapply can_alloc_le; [done|lia]|done|].
  rewrite (bind_ok _ _ _ _ _ E1).
  destruct (C18_intern fuel (g_free s) (until_nul bs) al s1) as (r & s2 & n & al2 & E2 & Hs2 & Hk2 & Hr & Hn & (p & Hm2) & _); try done.
  { by eapply symbols_extends. } { eapply modifies_can_alloc; [exact Hm1|eapply can_alloc_le; [done|lia]|lia]. }
  exists r, s2, (string_cells (until_nul bs) + n), al2. split; [done|]. split; [done|].
  split; [eapply keeps_trans; [by eapply extends_keeps|done]|]. split; [done|]. split; [lia|].
  exists p. eapply modifies_trans; [eapply modifies_weaken; [|exact Hm1]; by intros ? ? []|exact Hm2|done].
Qed.

(** the error object: the offending value and the name of the operation *)
Definition blames (h : gmap Z cell) (e x : Z) (who : list Z) : Prop :=
  exists sym, pair_at h e x sym /\ is_symbol h sym who.

Lemma not_a_pair_ok {A} fuel x who al s : symbols_ok s al -> good_name (until_nul who) -> Z.of_nat (length (until_nul who)) <= MAX_STRING s ->
  (length al < fuel)%nat -> can_alloc (string_cells (until_nul who) + 7) s ->
  exists e s', not_a_pair (A := A) fuel x who s = RThrow cell_symbol_not_a_pair e s' /\ blames (cells s') e x (until_nul who) /\ survives s s'.
Proof.
  intros Hs Hg Hl Hf Ha. unfold not_a_pair.
  assert (0 <= string_cells (until_nul who)) as Hsc.
  { unfold string_cells. pose proof (bytes_cells_pos (Z.of_nat (length (until_nul who)) + 1)). lia. }
  destruct (cstring_to_symbol_ok fuel who al s) as (r & s1 & n & al1 & E1 & Hs1 & Hk1 & Hr & Hn & p & Hm1); try done; [eapply can_alloc_le; [done|lia]|].
  rewrite (bind_ok _ _ _ _ _ E1).
  assert (can_alloc 1 s1) as Ha1 by (eapply modifies_can_alloc; [exact Hm1|eapply can_alloc_le; [done|]|]; lia).
  erewrite bind_ok by (by apply cons_s). eexists _, _. split; [done|].
  pose proof (modifies_with_cell (Cell TPAIR x r []) s1) as Hm2. pose proof (extends_keeps _ _ _ Hm2) as Hk2. split.
  - exists r. split; [|by eapply survives_symbol]. eexists. rewrite cells_with_cell, lookup_insert. done.
  - by eapply keeps_trans.
Qed.

Definition free_for_error (s : state) (al : list entry) (fuel : nat) : Prop :=
  symbols_ok s al /\ 20 <= MAX_STRING s /\ (length al < fuel)%nat /\ can_alloc 16 s.

(** ** C09: set-car! and set-cdr! of something that is not a pair *)
Theorem C09_set_car_of_non_pair fuel x v c al s : heap s !! x = Some c -> c_ty c <> TPAIR -> free_for_error s al fuel ->
  exists e s', set_car_x fuel x v s = RThrow cell_symbol_not_a_pair e s' /\ blames (cells s') e x (bytes_of "set-car!") /\ survives s s'.
Proof.
  intros Hc Ht (Hs & Hm & Hf & Ha). unfold set_car_x. run. rewrite (proj2 (Z.eqb_neq _ _) Ht).
  destruct (not_a_pair_ok (A := unit) fuel x (bytes_of "set-car!") al s Hs) as (e & s' & E & Hb & Hk);
    [split; vm_compute; discriminate|change (length _) with 8%nat; lia|done|eapply can_alloc_le; [done|vm_compute; discriminate]|].
  exists e, s'. split; [by erewrite bind_throw by exact E|done].
Qed.
Theorem C09_set_cdr_of_non_pair fuel x v c al s : heap s !! x = Some c -> c_ty c <> TPAIR -> free_for_error s al fuel ->
  exists e s', set_cdr_x fuel x v s = RThrow cell_symbol_not_a_pair e s' /\ blames (cells s') e x (bytes_of "set-cdr!") /\ survives s s'.
Proof.
  intros Hc Ht (Hs & Hm & Hf & Ha). unfold set_cdr_x. run. rewrite (proj2 (Z.eqb_neq _ _) Ht).
  destruct (not_a_pair_ok (A := unit) fuel x (bytes_of "set-cdr!") al s Hs) as (e & s' & E & Hb & Hk);
    [split; vm_compute; discriminate|change (length _) with 8%nat; lia|done|eapply can_alloc_le; [done|vm_compute; discriminate]|].
  exists e, s'. split; [by erewrite bind_throw by exact E|done].
Qed.

(** ** C11: append2 of something that is not a list *)
Theorem C11_append2_non_list fuel x y c al s : x <> cell_nil -> heap s !! x = Some c -> c_ty c <> TPAIR -> free_for_error s al fuel ->
  exists e s', append2 fuel x y s = RThrow cell_symbol_not_a_pair e s' /\ blames (cells s') e x (bytes_of "append2") /\ survives s s'.
Proof.
  intros Hx Hc Ht (Hs & Hm & Hf & Ha). unfold append2. rewrite (proj2 (Z.eqb_neq _ _) Hx). run. rewrite (proj2 (Z.eqb_neq _ _) Ht).
  destruct (not_a_pair_ok (A := unit) fuel x (bytes_of "append2") al s Hs) as (e & s' & E & Hb & Hk);
    [split; vm_compute; discriminate|change (length _) with 7%nat; lia|done|eapply can_alloc_le; [done|vm_compute; discriminate]|].
  exists e, s'. split; [by erewrite bind_throw by exact E|done].
Qed.
(** C12: reverse! of something that is not a list *)
Theorem C12_reverse_non_list fuel x y c al s : x <> cell_nil -> heap s !! x = Some c -> c_ty c <> TPAIR -> free_for_error s al fuel ->
  exists e s', reverse_x_ fuel x y s = RThrow cell_symbol_not_a_pair e s' /\ blames (cells s') e x (bytes_of "core:reverse!") /\ survives s s'.
Proof.
  intros Hx Hc Ht (Hs & Hm & Hf & Ha). unfold reverse_x_. rewrite (proj2 (Z.eqb_neq _ _) Hx).
  destruct (not_a_pair_ok (A := unit) fuel x (bytes_of "core:reverse!") al s Hs) as (e & s' & E & Hb & Hk);
    [split; vm_compute; discriminate|change (length _) with 13%nat; lia|done|eapply can_alloc_le; [done|vm_compute; discriminate]|].
  exists e, s'. split; [|done]. erewrite bind_throw; [done|]. run. rewrite (proj2 (Z.eqb_neq _ _) Ht). exact E.
Qed.

(** ** C13: xassq finds the first entry whose value is the object itself *)
Theorem C13_xassq fuel x p es s : list_at (heap s) p es -> (length es <= fuel)%nat ->
  (forall e, e ∈ es -> exists k v, pair_at (heap s) e k v) ->
  exists r, xassq fuel x p s = ROk r s /\ finds (fun e => exists k, pair_at (heap s) e k x) es r.
Proof.
  intros Hl Hf He. unfold xassq. eapply find_elem_ok; [done|done|].
  intros y b d Hy Hb. destruct (He _ Hb) as (k & v & Hk). runx. exists (x =? v). split; [done|].
  rewrite Z.eqb_eq. split; [intros ->; by exists k|]. intros (k' & Hk'). by destruct (pair_at_fun _ _ _ _ _ _ Hk Hk') as [_ ->].
Qed.

(** the hypotheses are met in a running interpreter, by a string where a pair is expected and by an
    association list holding two pairs *)
Example error_hypotheses_hold : exists x p e e' s c al,
  on_sample2 [make_string (bytes_of "foo"); a <- acons cell_symbol_car cell_t cell_nil ;; acons cell_symbol_cdr cell_f a] = ROk [x; p] s /\
  heap s !! x = Some c /\ c_ty c <> TPAIR /\ x <> cell_nil /\ free_for_error s al 4000 /\
  list_at (heap s) p [e; e'] /\ pair_at (heap s) e cell_symbol_cdr cell_f /\ pair_at (heap s) e' cell_symbol_car cell_t.
Proof.
  destruct (check_res (on_sample2 [make_string (bytes_of "foo"); a <- acons cell_symbol_car cell_t cell_nil ;; acons cell_symbol_cdr cell_f a])
    (fun r s => match r with
       | [x; p] =>
           match heap s !! x with Some c => negb (c_ty c =? TPAIR) && negb (x =? cell_nil) | None => false end &&
           match heap s !! p with
           | Some (Cell 7 e q _) => match heap s !! q with
             | Some (Cell 7 e' n _) => match heap s !! e, heap s !! e' with
               | Some (Cell 7 k v _), Some (Cell 7 k' v' _) => (n =? cell_nil) && negb (p =? cell_nil) && negb (q =? cell_nil) &&
                   (k =? cell_symbol_cdr) && (v =? cell_f) && (k' =? cell_symbol_car) && (v' =? cell_t)
               | _, _ => false end
             | _ => false end
           | _ => false end &&
           match table_b (cells s) [TSTRING] (g_symbols s) with
           | Some (_, _, al) => (length al <? 4000)%nat && values_b (cells s) al
           | None => false
           end && bool_decide (text_b (cells s) TSPECIAL cell_f = Some (bytes_of "#f")) &&
           constants_b (cells s) && can_alloc_b 16 s && (20 <=? MAX_STRING s)
       | _ => false end)) as (r & s & E & H).
  { vm_compute. reflexivity. }
  revert E. generalize (on_sample2 [make_string (bytes_of "foo"); a <- acons cell_symbol_car cell_t cell_nil ;; acons cell_symbol_cdr cell_f a]). intros R E.
  destruct r as [|x [|p [|]]]; try discriminate H.
  apply andb_prop in H as [H B1]. apply andb_prop in H as [H B2]. apply andb_prop in H as [H B3]. apply andb_prop in H as [H B4].
  apply andb_prop in H as [H B5]. apply andb_prop in H as [H B6].
  destruct (heap s !! x) as [c|] eqn:Ex; [|discriminate H]. apply andb_prop in H as [H1 H2].
  destruct (table_b (cells s) [TSTRING] (g_symbols s)) as [[[w size] al]|] eqn:E3; [|discriminate B5]. apply table_check in E3.
  apply andb_prop in B5 as [C1 C2]. apply bool_decide_eq_true in B4. apply text_check in B4. apply constants_check in B3.
  destruct (heap s !! p) as [[tp e q bp]|] eqn:Ep; [|discriminate B6].
  assert (tp = 7) as -> by (destruct (Z.eq_dec tp 7) as [|n]; [done|]; exfalso; revert B6; clear -n; destruct tp as [|t|t]; try done; do 4 (destruct t as [t|t|]; try done)).
  destruct (heap s !! q) as [[tq e' n bq]|] eqn:Eq; [|discriminate B6].
  assert (tq = 7) as -> by (destruct (Z.eq_dec tq 7) as [|m]; [done|]; exfalso; revert B6; clear -m; destruct tq as [|t|t]; try done; do 4 (destruct t as [t|t|]; try done)).
  destruct (heap s !! e) as [[t1 k v b1]|] eqn:E1; [|discriminate B6].
  destruct (heap s !! e') as [[t2 k' v' b2]|] eqn:E2.
  2:{ exfalso; revert B6; clear; destruct t1 as [|t|t]; try done; do 4 (destruct t as [t|t|]; try done). }
  assert (t1 = 7) as -> by (destruct (Z.eq_dec t1 7) as [|m]; [done|]; exfalso; revert B6; clear -m; destruct t1 as [|t|t]; try done; do 4 (destruct t as [t|t|]; try done)).
  assert (t2 = 7) as -> by (destruct (Z.eq_dec t2 7) as [|m]; [done|]; exfalso; revert B6; clear -m; destruct t2 as [|t|t]; try done; do 4 (destruct t as [t|t|]; try done)).
  repeat (apply andb_prop in B6 as [B6 ?B]).
  exists x, p, e, e', s, c, al. subst R. split; [done|]. split; [done|]. split; [lia|]. split; [lia|]. split.
  { split; [|split; [lia|split; [by apply Nat.ltb_lt|by apply can_alloc_check]]].
    split; [by exists w, size|]. split; [done|]. split; [by apply values_check|done]. }
  repeat match goal with H : (_ =? _) = true |- _ => apply Z.eqb_eq in H | H : negb (_ =? _) = true |- _ => apply negb_true_iff, Z.eqb_neq in H end.
  subst. split; [|by split; eexists].
  econstructor; [done|by eexists|]. econstructor; [done|by eexists|]. constructor.
Qed.

Print Assumptions C09_set_car_of_non_pair.
Print Assumptions C09_set_cdr_of_non_pair.
Print Assumptions C11_append2_non_list.
Print Assumptions C12_reverse_non_list.
Print Assumptions C13_xassq.
