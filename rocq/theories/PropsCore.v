(** C07-C14: allocation, the interpreter stack, pairs, lists, searching and equality. *)
From stdpp Require Import base gmap list.
From Coq Require Import ZArith Lia.
From Coq Require Import ZifyBool ZifyNat.
From Verif Require Import CInt Symbols Heap HeapLemmas DataModel DataSpec DataLemmas CoreProofs ListProofs StackModel Samples.
Import Strings.String.StringSyntax.
Open Scope Z_scope.
Open Scope mes_scope.

(** * C07: allocation *)

(** An allocation of [n] cells returns the first address after the cells in use; the [n] cells
    are inside the arena; nothing that existed changes. *)
Theorem C07_alloc_fresh n s : 0 <= n -> g_free s + n - g_cells s <= ARENA_SIZE s ->
  exists p s', alloc n s = ROk p s' /\
    (forall q, p <= q < p + n -> cells s !! q = None) /\
    (forall q, cells s !! q <> None -> cells s' !! q = cells s !! q) /\
    heap s' = heap s /\ p + n = g_free s' /\ g_free s' <= g_cells s + ARENA_SIZE s.
Proof.
  intros Hn Ha. exists (g_free s), (set_g_free (g_free s + n) s). split; [by apply alloc_s|].
  split. { intros q Hq. destruct (cells s !! q) eqn:E; [|done]. apply cells_heap in E. lia. }
  split. { intros q Hq. destruct (cells s !! q) as [c|] eqn:E; [|done]. apply cells_heap in E as [E1 E2].
    apply heap_cells; [done|cbn; lia]. }
  split; [done|]. cbn. lia.
Qed.
(** It stops the interpreter, rather than hand out memory it does not have. *)
Theorem C07_alloc_full n s : ARENA_SIZE s < g_free s + n - g_cells s -> alloc n s = RAbort.
Proof. apply alloc_full. Qed.
(** In every sequence of allocations the ranges handed out are disjoint. *)
Fixpoint allocs (ns : list Z) : M (list Z) :=
  match ns with
  | [] => ret []
  | n :: ns' => p <- alloc n ;; ps <- allocs ns' ;; ret (p :: ps)
  end.
Lemma allocs_above ns : forall s ps s', Forall (Z.le 0) ns -> allocs ns s = ROk ps s' ->
  length ps = length ns /\ Forall (Z.le (g_free s)) ps.
Proof.
  induction ns as [|n ns IH]; intros s ps s' Hn; cbn [allocs].
  { intros [= <- <-]. split; [done|constructor]. }
  inversion Hn; subst. destruct (decide (g_free s + n - g_cells s <= ARENA_SIZE s)) as [Ha|Ha].
  - erewrite bind_ok by by apply alloc_s. unfold bind.
    destruct (allocs ns (set_g_free (g_free s + n) s)) as [qs s1| | | |] eqn:E; intros [= <- <-].
    apply IH in E as [E1 E2]; [|done]. split; [cbn; lia|]. constructor; [lia|].
    eapply Forall_impl; [exact E2|]. cbn. intros. lia.
  - unfold bind. rewrite alloc_full by lia. discriminate.
Qed.
Theorem C07_history_disjoint ns s ps s' : Forall (Z.le 0) ns -> allocs ns s = ROk ps s' ->
  forall i j pi ni pj nj, i <> j -> ps !! i = Some pi -> ns !! i = Some ni -> ps !! j = Some pj -> ns !! j = Some nj ->
    forall q, pi <= q < pi + ni -> ~ pj <= q < pj + nj.
Proof.
  revert s ps. induction ns as [|n ns IH]; intros s ps Hn; cbn [allocs].
  { intros [= <- <-] i j pi ni pj nj _ Hi. by rewrite lookup_nil in Hi. }
  inversion Hn as [|? ? Hn0 Hns]; subst.
  destruct (decide (g_free s + n - g_cells s <= ARENA_SIZE s)) as [Ha|Ha];
    [|unfold bind; rewrite alloc_full by lia; discriminate].
  erewrite bind_ok by by apply alloc_s. unfold bind.
  destruct (allocs ns (set_g_free (g_free s + n) s)) as [qs s1| | | |] eqn:E; intros [= <- <-].
  pose proof (allocs_above _ _ _ _ Hns E) as [_ Hab]. cbn in Hab.
  intros [|i] [|j] pi ni pj nj Hij Hi Hni Hj Hnj q Hq; cbn in *; try done.
  - injection Hi as <-. injection Hni as <-.
    apply (proj1 (Forall_lookup _ _) Hab j) in Hj. lia.
  - injection Hj as <-. injection Hnj as <-.
    apply (proj1 (Forall_lookup _ _) Hab i) in Hi. lia.
  - eapply (IH _ _ Hns E i j); try done. congruence.
Qed.
(** Byte objects get a block that holds their 16 bytes of header (an 8-byte type tag and an
    8-byte length) and all their bytes.  (The size is counted in 8-byte words but that many
    24-byte cells are taken, so there is room to spare.) *)
Theorem C07_bytes_fit n : 0 <= n -> 16 + n <= 8 * bytes_cells n < 16 + n + 8 /\ 16 + n <= 24 * bytes_cells n.
Proof. unfold bytes_cells. lia. Qed.
(** Making a byte object stores exactly the given bytes in fresh cells; no cell in use changes. *)
Theorem C07_make_bytes bs s : can_alloc (bytes_cells (Z.of_nat (length bs))) s ->
  exists p s' c, make_bytes bs s = ROk p s' /\ cells s !! p = None /\
    cells s' !! p = Some c /\ c_ty c = TBYTES /\ c_bytes c = bs /\
    (forall q, cells s !! q <> None -> cells s' !! q = cells s !! q) /\
    g_free s' = p + bytes_cells (Z.of_nat (length bs)).
Proof.
  intros Ha. pose proof (modifies_with_bytes bs s) as Hm. pose proof (bytes_cells_pos (Z.of_nat (length bs))).
  eexists _, _, _. split; [by apply make_bytes_s|].
  split. { destruct (cells s !! g_free s) eqn:E; [|done]. apply cells_heap in E. lia. }
  split. { apply heap_cells; [apply bytes_with_bytes|]. cbn. lia. }
  do 2 (split; [done|]). split; [|done].
  intros q Hq. destruct (cells s !! q) as [c|] eqn:E; [|done]. apply cells_heap in E as [E1 E2].
  apply heap_cells; [rewrite (mod_keep _ _ _ _ Hm) by (done || intros []); done|]. rewrite (mod_free _ _ _ _ Hm). lia.
Qed.
(** The same for single cells; a full arena stops the interpreter. *)
Theorem C07_make_cell t a d s : can_alloc 1 s ->
  exists p s', make_cell t a d s = ROk p s' /\ cells s !! p = None /\ cells s' = <[p := Cell t a d []]> (cells s).
Proof.
  intros Ha. eexists _, _. split; [by apply make_cell_s|]. split; [|apply cells_with_cell].
  destruct (cells s !! g_free s) eqn:E; [|done]. apply cells_heap in E. lia.
Qed.
Theorem C07_make_cell_full t a d s : ARENA_SIZE s < g_free s + 1 - g_cells s -> make_cell t a d s = RAbort.
Proof. apply make_cell_full. Qed.

(** * C08: the stack *)

(** A frame pushed, any balanced use of the stack in between, and the frame popped: registers,
    stack pointer, stack contents and the rest of the machine are as before. *)
Theorem C08_frame_restores p s s' : stack_ok s -> run_frames (FFrame p) s = ROk tt s' ->
  R0 s' = R0 s /\ R1 s' = R1 s /\ R2 s' = R2 s /\ R3 s' = R3 s /\ g_stack s' = g_stack s /\
  (forall i, g_stack s <= i -> g_stack_array s' !! i = g_stack_array s !! i) /\
  (exists a, s' = set_g_stack_array a s).
Proof.
  intros Hs E. destruct (decide (5 * nesting (FFrame p) <= g_stack s)) as [Hn|Hn].
  - destruct (run_frame_regs p s s' Hs Hn E) as (E0 & E1 & E2 & E3).
    destruct (run_frames_ok (FFrame p) s Hs Hn) as (s1 & E' & [T C (a & r0 & r1 & r2 & r3 & ->)]).
    rewrite E in E'. injection E' as ->. cbn in *. subst. repeat (split; [done|]). exists a. by destruct s.
  - rewrite run_frames_full in E by (done || lia). discriminate.
Qed.
(** The only outcomes are success, exactly when the frames fit, and the STACK FULL stop:
    the stack array is never accessed out of bounds. *)
Theorem C08_outcome p s : stack_ok s ->
  (5 * nesting p <= g_stack s -> exists s', run_frames p s = ROk tt s') /\
  (g_stack s < 5 * nesting p -> run_frames p s = RAbort).
Proof.
  intros Hs. split.
  - intros Hn. destruct (run_frames_ok p s Hs Hn) as (s' & E & _). by exists s'.
  - by apply run_frames_full.
Qed.
Example stack_hypotheses_hold :
  let s := set_g_stack 1000 (init_state 100 10 1000 10 100) in
  stack_ok s /\ 5 * nesting (FFrame (FSeq (FRegs 1 2 3 4) (FFrame (FRegs 5 6 7 8)))) <= g_stack s.
Proof. cbn. unfold stack_ok. cbn. lia. Qed.

(** * C09: pairs *)
Theorem C09_cons_car_cdr a d s : can_alloc 1 s -> exists p s',
  cons a d s = ROk p s' /\ cells s !! p = None /\ extends s s' /\
  car p s' = ROk a s' /\ cdr p s' = ROk d s'.
Proof.
  intros Ha. eexists _, _. split; [by apply cons_s|].
  split. { destruct (cells s !! g_free s) eqn:E; [|done]. apply cells_heap in E. lia. }
  split; [eexists; apply modifies_with_cell|].
  pose proof (pair_with_cell' a d s) as H. unfold car, cdr. destruct H as (c & Hc & Ht & <- & <-). split; by run; rewrite Ht, Z.eqb_refl.
Qed.
(** set-car! and set-cdr! of a pair change that field of that pair and nothing else. *)
Theorem C09_set_car fuel p a d v s : pair_at (heap s) p a d -> in_arena s ->
  exists s', set_car_x fuel p v s = ROk cell_unspecified s' /\ pair_at (heap s') p v d /\
    (forall q, q <> p -> heap s' !! q = heap s !! q) /\ (exists h, s' = set_heap h s) /\
    car p s' = ROk v s' /\ cdr p s' = ROk d s'.
Proof.
  intros (c & Hc & Ht & <- & <-) Hin. unfold set_car_x. eexists. split.
  { run. rewrite Ht, Z.eqb_refl. run. erewrite bind_ok by (eapply set_car_s; [done|by eapply Hin]). done. }
  assert (pair_at (heap (put p (Cell (c_ty c) v (c_cdr c) (c_bytes c)) s)) p v (c_cdr c)) as Hp.
  { eexists. cbn. rewrite lookup_insert. done. }
  split; [done|]. split. { intros q Hq. cbn. by rewrite lookup_insert_ne. }
  split; [by eexists|]. destruct Hp as (c' & Hc' & Ht' & Hv & Hd). unfold car, cdr.
  split; run; rewrite Ht', Z.eqb_refl; [by rewrite Hv|by rewrite Hd].
Qed.
Theorem C09_set_cdr fuel p a d v s : pair_at (heap s) p a d -> in_arena s ->
  exists s', set_cdr_x fuel p v s = ROk cell_unspecified s' /\ pair_at (heap s') p a v /\
    (forall q, q <> p -> heap s' !! q = heap s !! q) /\ (exists h, s' = set_heap h s) /\
    car p s' = ROk a s' /\ cdr p s' = ROk v s'.
Proof.
  intros (c & Hc & Ht & <- & <-) Hin. unfold set_cdr_x. eexists. split.
  { run. rewrite Ht, Z.eqb_refl. run. erewrite bind_ok by (eapply set_cdr_s; [done|by eapply Hin]). done. }
  assert (pair_at (heap (put p (Cell (c_ty c) (c_car c) v (c_bytes c)) s)) p (c_car c) v) as Hp.
  { eexists. cbn. rewrite lookup_insert. done. }
  split; [done|]. split. { intros q Hq. cbn. by rewrite lookup_insert_ne. }
  split; [by eexists|]. destruct Hp as (c' & Hc' & Ht' & Hv & Hd). unfold car, cdr.
  split; run; rewrite Ht', Z.eqb_refl; [by rewrite Hv|by rewrite Hd].
Qed.
(** car and cdr of a non-pair raise not-a-pair, with the irritant (x . car) or (x . cdr), and
    change nothing that existed. *)
Theorem C09_car_of_non_pair x c s : heap s !! x = Some c -> c_ty c <> TPAIR -> can_alloc 1 s ->
  exists e s', car x s = RThrow cell_symbol_not_a_pair e s' /\ pair_at (heap s') e x cell_symbol_car /\ extends s s'.
Proof.
  intros H Ht Ha. eexists _, _. split; [by eapply car_bad|]. split; [apply pair_with_cell'|].
  eexists. apply modifies_with_cell.
Qed.
Theorem C09_cdr_of_non_pair x c s : heap s !! x = Some c -> c_ty c <> TPAIR -> can_alloc 1 s ->
  exists e s', cdr x s = RThrow cell_symbol_not_a_pair e s' /\ pair_at (heap s') e x cell_symbol_cdr /\ extends s s'.
Proof.
  intros H Ht Ha. eexists _, _. split; [by eapply cdr_bad|]. split; [apply pair_with_cell'|].
  eexists. apply modifies_with_cell.
Qed.

(** * C10: length *)
Theorem C10_length fuel p vs s : list_at (heap s) p vs -> (length vs <= fuel)%nat -> can_alloc 1 s ->
  exists r s', length_ fuel p s = ROk r s' /\ number_at (heap s') r (Z.of_nat (length vs)) /\ extends s s'.
Proof.
  intros H Hf Ha. unfold length_. eexists _, _. split.
  { erewrite bind_ok by (eapply length__ok; done). by apply make_number_s. }
  split; [eexists; cbn; rewrite lookup_insert; done|]. eexists. apply modifies_with_cell.
Qed.
(** On a list that ends in something else than () the answer is -1; also for a non-list (no pairs). *)
Theorem C10_length_improper fuel p q ps vs s c : seg (heap s) p q ps vs -> q <> cell_nil ->
  heap s !! q = Some c -> c_ty c <> TPAIR -> (length vs < fuel)%nat -> can_alloc 1 s ->
  exists r s', length_ fuel p s = ROk r s' /\ number_at (heap s') r (-1) /\ extends s s'.
Proof.
  intros H Hq Hc Ht Hf Ha. unfold length_. eexists _, _. split.
  { erewrite bind_ok by (eapply length_loop_bad; done). by apply make_number_s. }
  split; [eexists; cbn; rewrite lookup_insert; done|]. eexists. apply modifies_with_cell.
Qed.

(** * C11: append2 *)
(** The result is a chain of fresh pairs holding the elements of the first list, in order,
    ending in [y] itself; no cell in use changes. *)
Theorem C11_append2 fuel p vs y s :
  list_at (cells s) p vs -> (length vs <= fuel)%nat ->
  can_alloc (Z.of_nat (length vs)) s -> cell_nil < g_free s -> in_arena s ->
  exists s' r ps, append2 fuel p y s = ROk r s' /\ seg (heap s') r y ps vs /\
    Forall (fun q => cells s !! q = None) ps /\
    modifies nothing (Z.of_nat (length vs)) s s'.
Proof.
  intros H Hf Ha Hnil Hin. destruct (append2_fresh fuel p vs y s H Hf Ha Hnil Hin) as (s' & r & ps & E & Hm & _ & Hs & Hfr).
  exists s', r, ps. split; [done|]. split; [|split; [|done]].
  - eapply seg_mono; [|done]. apply cells_sub.
  - eapply Forall_impl; [exact Hfr|]. intros q Hq. cbn in Hq. destruct (cells s !! q) eqn:E'; [|done]. apply cells_heap in E'. lia.
Qed.
(** In particular: appending to a proper list gives the concatenation. *)
Corollary C11_append2_lists fuel p vs y ws s :
  list_at (cells s) p vs -> list_at (cells s) y ws -> (length vs <= fuel)%nat ->
  can_alloc (Z.of_nat (length vs)) s -> cell_nil < g_free s -> in_arena s ->
  exists s' r, append2 fuel p y s = ROk r s' /\ list_at (heap s') r (vs ++ ws).
Proof.
  intros H Hy Hf Ha Hnil Hin. destruct (C11_append2 fuel p vs y s H Hf Ha Hnil Hin) as (s' & r & ps & E & Hs & _ & Hm).
  exists s', r. split; [done|]. apply seg_list in Hy as (qs & Hq).
  apply seg_list. exists (ps ++ qs). eapply seg_app; [done|].
  eapply seg_mono; [|exact Hq]. etransitivity; [by eapply modifies_cells|apply cells_sub].
Qed.

(** * C12: reverse! *)
(** The same pairs, linked in the opposite order and ending in [t]; no other cell changes and
    nothing is allocated. *)
Theorem C12_reverse fuel p ps vs t s :
  seg (cells s) p cell_nil ps vs -> (length vs <= fuel)%nat -> in_arena s ->
  exists s' r, reverse_x_ fuel p t s = ROk r s' /\ seg (heap s') r t (rev ps) (rev vs) /\
    modifies (fun q => q ∈ ps) 0 s s'.
Proof.
  intros H Hf Hin. destruct (reverse_x_ok fuel p ps vs t s H Hf Hin) as (s' & r & E & Hm & _ & Hs).
  exists s', r. split; [done|]. split; [|done]. eapply seg_mono; [|done]. apply cells_sub.
Qed.
(** With a tail that is a proper list not sharing pairs with the argument, the result is the
    reversed list followed by the tail. *)
Corollary C12_reverse_lists fuel p ps vs t qs ws s :
  seg (cells s) p cell_nil ps vs -> seg (cells s) t cell_nil qs ws -> (forall q, q ∈ qs -> q ∉ ps) ->
  (length vs <= fuel)%nat -> in_arena s ->
  exists s' r, reverse_x_ fuel p t s = ROk r s' /\ list_at (heap s') r (rev vs ++ ws).
Proof.
  intros H Hq Hd Hf Hin. destruct (C12_reverse fuel p ps vs t s H Hf Hin) as (s' & r & E & Hs & Hm).
  exists s', r. split; [done|]. apply seg_list. exists (rev ps ++ qs). eapply seg_app; [done|].
  eapply seg_agree; [|exact Hq]. intros q Hqs. destruct (seg_elem _ _ _ _ _ _ Hq Hqs) as (a & d & Hpa & _).
  pose proof (pair_at_lt _ _ _ _ Hpa). rewrite (mod_keep _ _ _ _ Hm); [|done|by apply Hd].
  destruct Hpa as (c & Hc & _). rewrite Hc. by apply cells_heap.
Qed.

(** * C13: searching *)
Theorem C13_assq fuel x p es s :
  list_at (heap s) p es -> (length es <= fuel)%nat -> type_at (heap s) cell_nil TSPECIAL ->
  (exists cx, heap s !! x = Some cx) ->
  (forall e, e ∈ es -> exists k v, pair_at (heap s) e k v /\ comparable (heap s) x k) ->
  exists r, assq fuel x p s = ROk r s /\
    finds (fun e => exists k v, pair_at (heap s) e k v /\ eqv (heap s) x k) es r.
Proof. apply assq_ok. Qed.
Theorem C13_memq fuel x p ps vs s :
  seg (heap s) p cell_nil ps vs -> (length vs <= fuel)%nat -> named (heap s) x ->
  (forall k, k ∈ vs -> named (heap s) k /\
     (forall cx ck, heap s !! x = Some cx -> heap s !! k = Some ck -> c_ty cx = TNUMBER \/ c_ty cx = TCHAR -> c_ty ck = c_ty cx)) ->
  exists r, memq fuel x p s = ROk r s /\
    finds (fun q => exists a d, pair_at (heap s) q a d /\ eqv (heap s) x a) ps r.
Proof. apply memq_ok. Qed.
Theorem C13_assoc fuel x dx p es s :
  repr (heap s) x dx -> list_at (heap s) p es -> (length es <= fuel)%nat -> (depth dx < fuel)%nat ->
  (forall e, e ∈ es -> exists k v dk, pair_at (heap s) e k v /\ repr (heap s) k dk) ->
  exists r, assoc fuel x p s = ROk r s /\
    finds (fun e => exists k v, pair_at (heap s) e k v /\ repr (heap s) k dx) es r.
Proof. apply assoc_ok. Qed.
Theorem C13_last_pair fuel p ps vs s : seg (heap s) p cell_nil ps vs -> ps <> [] -> (length vs <= fuel)%nat ->
  exists r, last ps = Some r /\ last_pair fuel p s = ROk r s.
Proof. apply last_pair_ok. Qed.
(** Without the restriction on key types the claim is false: (assq 97 '((#\a . x))) finds the
    entry although 97 and #\a are not eq?; so does (memq 97 '(#\a)). *)
Definition mixed_state : state :=
  set_heap (<[200 := Cell TNUMBER 0 97 []]> (<[201 := Cell TCHAR 0 97 []]> (<[202 := Cell TPAIR 201 cell_nil []]>
    (<[203 := Cell TPAIR 202 cell_nil []]> ∅)))) (init_state 1000 100 100 10 100).
Theorem C13_mixed_keys_refuted : exists x k e p q s,
  number_at (heap s) x 97 /\ char_at (heap s) k 97 /\ ~ eqv (heap s) x k /\
  list_at (heap s) p [e] /\ pair_at (heap s) e k cell_nil /\ assq 5 x p s = ROk e s /\
  list_at (heap s) q [k] /\ memq 5 x q s = ROk q s.
Proof.
  exists 200, 201, 202, 203, 202, mixed_state.
  assert (number_at (heap mixed_state) 200 97) as H1 by by eexists.
  assert (char_at (heap mixed_state) 201 97) as H2 by by eexists.
  assert (pair_at (heap mixed_state) 202 201 cell_nil) as H3 by by eexists.
  assert (pair_at (heap mixed_state) 203 202 cell_nil) as H4 by by eexists.
  do 2 (split; [done|]). split.
  { intros H. destruct H2 as (c & Hc & Ht & _). destruct H1 as (c' & Hc' & Ht' & _).
    rewrite (eqv_number _ _ _ _ _ Hc' Ht' Hc) in H. destruct H as [H _]. rewrite Ht in H. discriminate. }
  split; [econstructor; [done|done|constructor]|]. split; [done|]. split; [vm_compute; reflexivity|].
  split; [econstructor; [done|done|constructor]|]. vm_compute; reflexivity.
Qed.

(** * C14: equality *)
(** eq? *)
Theorem C14_eq x y s : named (heap s) x -> named (heap s) y ->
  (eqv (heap s) x y -> eq_p x y s = ROk cell_t s) /\ (~ eqv (heap s) x y -> eq_p x y s = ROk cell_f s).
Proof.
  intros Hx Hy. destruct (eq_p_ok x y s Hx Hy) as (b & -> & Hb).
  destruct b; split; intros H; try done; [destruct H; by apply Hb|apply Hb in H; discriminate].
Qed.
(** equal?: for finite data the answer is #t exactly when the data are the same. *)
Theorem C14_equal fuel p q d d' s : repr (heap s) p d -> repr (heap s) q d' -> (depth d < fuel)%nat ->
  (d = d' -> equal2_p fuel p q s = ROk cell_t s) /\ (d <> d' -> equal2_p fuel p q s = ROk cell_f s).
Proof.
  intros Hp Hq Hf. destruct (equal_ok s fuel d d' p q Hp Hq Hf) as (b & -> & Hb).
  destruct b; split; intros H; try done; [destruct H; by apply Hb|apply Hb in H; discriminate].
Qed.
(** A value denotes at most one datum, so the two cases cannot be confused. *)
Theorem C14_datum_unique h p d d' : repr h p d -> repr h p d' -> d = d'.
Proof. apply repr_fun. Qed.

(** The hypotheses of C09-C14 are met in a running interpreter, by the lists (1 2 3), ("ab" #\x) and
    the association list ((1 . 2) (2 . 3)), with the datum they denote. *)
Example core_hypotheses_hold : exists p q al x s ps vs qs ws,
  on_sample2 [number_list [1; 2; 3]; list_m [make_string0 (bytes_of "ab"); make_char 120];
              list_m [(a <- make_number 1 ;; b <- make_number 2 ;; cons a b);
                      (a <- make_number 2 ;; b <- make_number 3 ;; cons a b)]; make_number 2]
    = ROk [p; q; al; x] s /\
  list_at (cells s) p vs /\ length vs = 3%nat /\ list_at (cells s) q ws /\ length ws = 2%nat /\
  seg (cells s) p cell_nil ps vs /\ seg (cells s) q cell_nil qs ws /\ (forall y, y ∈ qs -> y ∉ ps) /\
  can_alloc 3 s /\ cell_nil < g_free s /\ in_arena s /\ type_at (heap s) cell_nil TSPECIAL /\
  repr (heap s) p (DPair (DNum 1) (DPair (DNum 2) (DPair (DNum 3) (DAtom cell_nil)))) /\
  repr (heap s) q (DPair (DStr (bytes_of "ab")) (DPair (DChar 120) (DAtom cell_nil))) /\
  repr (heap s) al (DPair (DPair (DNum 1) (DNum 2)) (DPair (DPair (DNum 2) (DNum 3)) (DAtom cell_nil))) /\
  number_at (heap s) x 2.
Proof.
  destruct (check_res (on_sample2 [number_list [1; 2; 3]; list_m [make_string0 (bytes_of "ab"); make_char 120];
              list_m [(a <- make_number 1 ;; b <- make_number 2 ;; cons a b);
                      (a <- make_number 2 ;; b <- make_number 3 ;; cons a b)]; make_number 2])
    (fun r s => match r with
       | [p; q; al; x] =>
          match seg_b 5 (cells s) p, seg_b 5 (cells s) q with
          | Some (ps, vs), Some (qs, ws) =>
             (length vs =? 3)%nat && (length ws =? 2)%nat && forallb (fun y => bool_decide (y ∉ ps)) qs
             && can_alloc_b 3 s && (cell_nil <? g_free s) && in_arena_b s
             && match heap s !! cell_nil with Some c => c_ty c =? TSPECIAL | None => false end
             && match datum_b 6 (heap s) p, datum_b 6 (heap s) q, datum_b 6 (heap s) al with
                | Some (DPair (DNum 1) (DPair (DNum 2) (DPair (DNum 3) (DAtom n1)))),
                  Some (DPair (DStr bs) (DPair (DChar c) (DAtom n2))),
                  Some (DPair (DPair (DNum 1) (DNum 2)) (DPair (DPair (DNum 2) (DNum 3)) (DAtom n3))) =>
                   (n1 =? cell_nil) && (n2 =? cell_nil) && (n3 =? cell_nil) && (c =? 120) && bool_decide (bs = bytes_of "ab")
                | _, _, _ => false end
             && number_at_b (heap s) x 2
          | _, _ => false
          end
       | _ => false end)) as (r & s & E & H).
  { vm_compute. reflexivity. }
  destruct r as [|p [|q [|al [|x [|]]]]]; try discriminate H.
  destruct (seg_b 5 (cells s) p) as [[ps vs]|] eqn:E1; [|discriminate H].
  destruct (seg_b 5 (cells s) q) as [[qs ws]|] eqn:E2; [|discriminate H].
  exists p, q, al, x, s, ps, vs, qs, ws. split; [exact E|]. clear E.
  apply andb_prop in H as [H Hx]. apply andb_prop in H as [H Hd]. apply andb_prop in H as [H Hnil].
  apply andb_prop in H as [H Har]. apply andb_prop in H as [H Hfr]. apply andb_prop in H as [H Hal].
  apply andb_prop in H as [H Hdis]. apply andb_prop in H as [Hl1 Hl2].
  apply seg_check in E1, E2.
  split; [apply seg_list; by exists ps|]. split; [lia|]. split; [apply seg_list; by exists qs|]. split; [lia|].
  split; [done|]. split; [done|]. split.
  { intros y Hy. rewrite forallb_forall in Hdis. apply elem_of_list_In in Hy. apply Hdis in Hy.
    by apply bool_decide_eq_true in Hy. }
  split; [by apply can_alloc_check|]. split; [lia|]. split; [by apply in_arena_check|].
  split. { destruct (heap s !! cell_nil) as [c|] eqn:Ec; [|discriminate Hnil]. exists c. split; [done|lia]. }
  destruct (datum_b 6 (heap s) p) as [d1|] eqn:D1; [|discriminate Hd].
  destruct (datum_b 6 (heap s) q) as [d2|] eqn:D2.
  2:{ exfalso. revert Hd. clear. intros Hd. repeat case_match; discriminate. }
  destruct (datum_b 6 (heap s) al) as [d3|] eqn:D3.
  2:{ exfalso. revert Hd. clear. intros Hd. repeat case_match; discriminate. }
  apply datum_check in D1, D2, D3. clear -Hd D1 D2 D3 Hx.
  repeat (case_match; try discriminate). subst.
  apply andb_prop in Hd as [Hd B]. apply bool_decide_eq_true in B. subst.
  repeat (apply andb_prop in Hd as [Hd ?]).
  repeat match goal with H : (_ =? _) = true |- _ => apply Z.eqb_eq in H; subst end.
  split; [done|]. split; [done|]. split; [done|]. by apply number_check.
Qed.

Print Assumptions C07_alloc_fresh.
Print Assumptions C07_history_disjoint.
Print Assumptions C07_make_bytes.
Print Assumptions C08_frame_restores.
Print Assumptions C08_outcome.
Print Assumptions C09_cons_car_cdr.
Print Assumptions C09_set_car.
Print Assumptions C09_set_cdr.
Print Assumptions C09_car_of_non_pair.
Print Assumptions C10_length.
Print Assumptions C10_length_improper.
Print Assumptions C11_append2.
Print Assumptions C11_append2_lists.
Print Assumptions C12_reverse.
Print Assumptions C12_reverse_lists.
Print Assumptions C13_assq.
Print Assumptions C13_memq.
Print Assumptions C13_assoc.
Print Assumptions C13_last_pair.
Print Assumptions C13_mixed_keys_refuted.
Print Assumptions C14_eq.
Print Assumptions C14_equal.
Print Assumptions C14_datum_unique.
