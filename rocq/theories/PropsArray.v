(** C15, C16: vectors and structs. *)
From stdpp Require Import base gmap list.
From Coq Require Import ZArith Lia.
From Coq Require Import ZifyBool ZifyNat.
From Verif Require Import CInt Symbols Heap HeapLemmas DataModel DataSpec DataLemmas CoreProofs ListProofs ArrayProofs Samples.
Import Strings.String.StringSyntax.
Open Scope Z_scope.
Open Scope mes_scope.

(** * Specification: a history of reads and writes of an array *)
Inductive access : Type :=
| Read (i : nat)                       (* (vector-ref v i) *)
| Write (i : nat) (e : Z) (sl : slot)  (* (vector-set! v i e), where the value e is sl *).
(** what the reads must return, and the final contents *)
Fixpoint reads (sls : list slot) (h : list access) : list (option slot) :=
  match h with
  | [] => []
  | Read i :: h' => (sls !! i) :: reads sls h'
  | Write i _ sl :: h' => reads (<[i := sl]> sls) h'
  end.
Fixpoint contents (sls : list slot) (h : list access) : list slot :=
  match h with
  | [] => sls
  | Read _ :: h' => contents sls h'
  | Write i _ sl :: h' => contents (<[i := sl]> sls) h'
  end.
(** the history performed by the interpreter; the results of the reads are collected *)
Fixpoint perform (ref : Z -> Z -> M Z) (set : Z -> Z -> Z -> M Z) (x : Z) (h : list access) : M (list Z) :=
  match h with
  | [] => ret []
  | Read i :: h' => r <- ref x (Z.of_nat i) ;; rs <- perform ref set x h' ;; ret (r :: rs)
  | Write i e _ :: h' => set x (Z.of_nat i) e ;;; perform ref set x h'
  end.
Definition valid_access (s : state) (v : Z) (n : nat) (a : access) : Prop :=
  match a with
  | Read i => (i < n)%nat
  | Write i e sl => (i < n)%nat /\ value_at (cells s) e sl /\ ~ (v <= e < v + Z.of_nat n)
  end.

(** The common body of vector_ref_ / struct_ref_ and vector_set_x_ / struct_set_x_. *)
Definition array_ref (t x i : Z) : M Z :=
  c <- rd x ;; assert_msg (c_ty c =? t) ;;; assert_msg (i <? c_car c) ;;; get_entry (c_cdr c) i.
Definition array_set (t x i e : Z) : M Z :=
  c <- rd x ;; assert_msg (c_ty c =? t) ;;; assert_msg (i <? c_car c) ;;; set_entry (c_cdr c) i e ;;; ret cell_unspecified.

Lemma array_ref_ok t x v sls (i : nat) sl s : array_at (cells s) t x v sls -> sls !! i = Some sl -> can_alloc 1 s ->
  exists r s', array_ref t x (Z.of_nat i) s = ROk r s' /\ extends s s' /\ value_at (heap s') r sl /\ (forall p, sl = SRef p -> s' = s).
Proof.
  intros [(c & Hc & Ht & Hl & <-) Hs] Hi Ha. pose proof (cells_heap _ _ _ Hc) as [Hch _].
  destruct (get_entry_ok (c_cdr c) (Z.of_nat i) sl s) as (r & s' & E & Hr).
  { eapply slot_at_mono; [apply cells_sub|by apply Hs]. } { done. }
  exists r, s'. split; [|done]. unfold array_ref. run.
  erewrite bind_ok by (apply assert_msg_true; lia).
  erewrite bind_ok by (apply assert_msg_true; apply lookup_lt_Some in Hi; lia). exact E.
Qed.
Lemma array_set_run t x v sls (i : nat) e s s' : array_at (cells s) t x v sls -> (i < length sls)%nat ->
  set_entry v (Z.of_nat i) e s = ROk tt s' -> array_set t x (Z.of_nat i) e s = ROk cell_unspecified s'.
Proof.
  intros [(c & Hc & Ht & Hl & <-) Hs] Hi E. pose proof (cells_heap _ _ _ Hc) as [Hch _]. unfold array_set. run.
  erewrite bind_ok by (apply assert_msg_true; lia).
  erewrite bind_ok by (apply assert_msg_true; lia). by erewrite bind_ok by exact E.
Qed.

Lemma slots_lt s t x v sls : array_at (cells s) t x v sls -> sls <> [] -> v + Z.of_nat (length sls) <= g_free s.
Proof.
  intros [_ Hs] Hne. assert (length sls <> 0%nat) by by destruct sls.
  destruct (lookup_lt_is_Some_2 sls (Nat.pred (length sls))) as (sl & Hsl); [lia|]. specialize (Hs _ _ Hsl).
  assert (v + Z.of_nat (Nat.pred (length sls)) < g_free s); [|lia].
  destruct sl; cbn in Hs; [destruct Hs as (c & Hc & _)|destruct Hs as [(c & Hc & _) _]|destruct Hs as [(c & Hc & _) _]];
    by apply cells_heap in Hc as [_ ?].
Qed.
Lemma in_arena_modifies P k s s' : in_arena s -> modifies P k s s' -> (forall p, 1 <= p < limit s \/ heap s' !! p = None \/ heap s' !! p = heap s !! p) -> in_arena s'.
Proof.
  intros Hin Hm Hp p c Hc. rewrite (modifies_limit _ _ _ _ Hm). destruct (Hp p) as [?|[E|E]]; [done|congruence|].
  rewrite E in Hc. by eapply Hin.
Qed.

Lemma get_entry_arena v i s r s' : in_arena s -> can_alloc 1 s -> get_entry v i s = ROk r s' -> in_arena s' /\ g_free s' <= g_free s + 1.
Proof.
  intros Hin Ha. unfold get_entry, deref. unfold bind at 1. unfold bind at 1.
  unfold rd. destruct (heap s !! cell_ref v i) as [c|] eqn:E1; [|discriminate].
  assert (forall e, (c <- rd e ;; e <- (if c_ty c =? TCHAR then make_char (to_s32 (c_cdr c)) else ret e) ;; c <- rd e ;;
    if c_ty c =? TNUMBER then make_number (c_cdr c) else ret e) s = ROk r s' -> in_arena s' /\ g_free s' <= g_free s + 1) as H.
  { intros e. unfold bind at 1. unfold rd at 1. destruct (heap s !! e) as [c1|]; [|discriminate].
    destruct (c_ty c1 =? TCHAR).
    - erewrite bind_ok by (by apply make_cell_s). erewrite bind_ok by (apply rd_ok'; cbn; apply lookup_insert). cbn [c_ty].
      change (TCHAR =? TNUMBER) with false. intros [= <- <-]. split; [by apply in_arena_with_cell|cbn; lia].
    - run. unfold bind, rd. destruct (heap s !! e) as [c2|]; [|discriminate]. destruct (c_ty c2 =? TNUMBER).
      + unfold make_number. rewrite make_cell_s by done. intros [= <- <-]. split; [by apply in_arena_with_cell|cbn; lia].
      + intros [= <- <-]. split; [done|lia]. }
  destruct (c_ty c =? TREF); exact (H _).
Qed.
Lemma set_entry_arena v i e s s' : in_arena s -> can_alloc 1 s -> 1 <= v + i < limit s -> set_entry v i e s = ROk tt s' -> in_arena s'.
Proof.
  intros Hin Ha Hr. unfold set_entry, vector_entry, cell_ref. unfold bind at 1. unfold ty, bind, rd.
  destruct (heap s !! e) as [c|] eqn:Ec; [|discriminate]. cbn.
  destruct (negb (c_ty c =? TCHAR) && negb (c_ty c =? TNUMBER)).
  - unfold make_ref. rewrite make_cell_s by done. intros E. erewrite copy_cell_s in E; [|cbn; apply lookup_insert|cbn; lia].
    injection E as <-. apply in_arena_put; [by apply in_arena_with_cell|done].
  - cbn. intros E. erewrite copy_cell_s in E; [|exact Ec|lia]. injection E as <-. by apply in_arena_put.
Qed.

Lemma value_at_fresh P k s s' e sl : modifies P k s s' -> value_at (cells s) e sl -> ~ P e -> value_at (cells s') e sl.
Proof. intros Hm Hv HP. by eapply value_at_keep. Qed.

Lemma perform_ok t x v : t <> TNUMBER -> t <> TCHAR -> t <> TREF -> forall h sls s,
  array_at (cells s) t x v sls -> in_arena s -> Forall (valid_access s v (length sls)) h ->
  can_alloc (Z.of_nat (length h)) s ->
  exists rs s' k, perform (array_ref t) (array_set t) x h s = ROk rs s' /\ k <= Z.of_nat (length h) /\ in_arena s' /\
    modifies (fun q => v <= q < v + Z.of_nat (length sls)) k s s' /\
    array_at (cells s') t x v (contents sls h) /\
    Forall2 (fun r o => exists sl, o = Some sl /\ value_at (cells s') r sl) rs (reads sls h).
Proof.
  intros T1 T2 T3. induction h as [|a h IH]; intros sls s Hx Hin Hval Ha.
  { exists [], s, 0. split; [done|]. split; [cbn; lia|]. split; [done|]. split; [apply modifies_refl|]. split; [done|constructor]. }
  inversion Hval as [|? ? Hva Hvh]; subst. cbn [length] in Ha. destruct a as [i|i e sl]; cbn [perform reads contents]; cbn in Hva.
  - destruct (lookup_lt_is_Some_2 sls i Hva) as (sl & Hsl). assert (sls <> []) as Hne by by destruct sls.
    destruct (array_ref_ok t x v sls i sl s Hx Hsl) as (r & s1 & E & (k1 & Hm1) & Hr & Hsame).
    { eapply can_alloc_le; [done|lia]. }
    assert (in_arena s1 /\ g_free s1 <= g_free s + 1) as [Hin1 Hg1].
    { revert E. destruct Hx as [(c & Hc & Ht & Hl & <-) Hs]. pose proof (cells_heap _ _ _ Hc) as [Hch _]. unfold array_ref. run.
      erewrite bind_ok by (apply assert_msg_true; lia). erewrite bind_ok by (apply assert_msg_true; lia).
      apply get_entry_arena; [done|]. eapply can_alloc_le; [done|lia]. }
    pose proof (mod_size _ _ _ _ Hm1). pose proof (mod_free _ _ _ _ Hm1).
    pose proof (slots_lt _ _ _ _ _ Hx Hne) as Hlt. pose proof (modifies_cells _ _ _ Hm1) as Hsub.
    destruct (IH sls s1) as (rs & s2 & k2 & E2 & Hk2 & Hin2 & Hm2 & Hx2 & Hrs).
    { by eapply array_at_mono. } { done. }
    { eapply Forall_impl; [done|]. intros [j|j e' sl']; cbn; [done|]. intros (? & ? & ?). split; [done|]. split; [|done]. by eapply value_at_mono. }
    { eapply modifies_can_alloc; [done|eapply can_alloc_le; [done|lia]|lia]. }
    exists (r :: rs), s2, (k1 + k2). split.
    { erewrite bind_ok by exact E. by erewrite bind_ok by exact E2. }
    split; [cbn [length]; lia|]. split; [done|]. split.
    { eapply modifies_trans; [eapply modifies_weaken; [|exact Hm1]|exact Hm2|done]. intros ? ? []. }
    split; [done|]. rewrite Hsl. constructor; [|done]. exists sl. split; [done|].
    (* the value read is not one of the element cells *)
    assert (value_at (cells s1) r sl /\ ~ (v <= r < v + Z.of_nat (length sls))) as [Hr1 Hout].
    { destruct sl as [n|n|p].
      - revert E Hr. destruct Hx as [(c & Hc & Ht & Hl & <-) Hs]. pose proof (cells_heap _ _ _ Hc) as [Hch _].
        unfold array_ref. run. erewrite bind_ok by (apply assert_msg_true; lia). erewrite bind_ok by (apply assert_msg_true; lia).
        unfold get_entry, deref, cell_ref. destruct (Hs _ _ Hsl) as (cq & Hcq & Htq & Hn). apply cells_heap in Hcq as [Hcq _].
        run. rewrite Htq. change (TNUMBER =? TREF) with false. run. rewrite Htq. change (TNUMBER =? TCHAR) with false. run.
        rewrite Htq, Z.eqb_refl. unfold make_number. rewrite make_cell_s by (eapply can_alloc_le; [done|lia]).
        intros [= <- <-] Hr. split; [|lia]. destruct Hr as (c' & Hc' & Hr'). exists c'. split; [|done]. apply heap_cells; [done|cbn; lia].
      - revert E Hr. destruct Hx as [(c & Hc & Ht & Hl & <-) Hs]. pose proof (cells_heap _ _ _ Hc) as [Hch _].
        unfold array_ref. run. erewrite bind_ok by (apply assert_msg_true; lia). erewrite bind_ok by (apply assert_msg_true; lia).
        unfold get_entry, deref, cell_ref. destruct (Hs _ _ Hsl) as [(cq & Hcq & Htq & Hn) _]. apply cells_heap in Hcq as [Hcq _].
        run. rewrite Htq. change (TCHAR =? TREF) with false. run. rewrite Htq, Z.eqb_refl. run.
        erewrite bind_ok by (apply make_cell_s; eapply can_alloc_le; [done|lia]). erewrite bind_ok by (apply rd_ok'; cbn; apply lookup_insert).
        cbn [c_ty]. change (TCHAR =? TNUMBER) with false.
        intros [= <- <-] [Hr Hi]. split; [|lia]. split; [|done]. destruct Hr as (c' & Hc' & Hr'). exists c'. split; [|done]. apply heap_cells; [done|cbn; lia].
      - rewrite (Hsame p eq_refl) in *. destruct Hr as [-> _]. destruct Hx as [_ Hs]. destruct (Hs _ _ Hsl) as [_ Ho]. split; [done|].
        intros Hrange. destruct (lookup_lt_is_Some_2 sls (Z.to_nat (p - v))) as (sl' & Hsl'); [lia|].
        specialize (Hs _ _ Hsl'). replace (v + Z.of_nat (Z.to_nat (p - v))) with p in Hs by lia.
        destruct Ho as (cp & Hcp & Htp). apply not_num_char in Htp as (N1 & N2 & N3). apply Z.eqb_neq in N1, N2, N3.
        destruct sl'; cbn in Hs; [destruct Hs as (c' & Hc' & Ht' & _)|destruct Hs as [(c' & Hc' & Ht' & _) _]|destruct Hs as [(c' & Hc' & Ht' & _) _]];
          rewrite Hcp in Hc'; injection Hc' as <-; done. }
    by eapply value_at_keep.
  - destruct Hva as (Hi & Hv & Hout). assert (sls <> []) as Hne by (intros ->; cbn in Hi; lia).
    destruct (array_set_ok t x v sls i e sl s Hx T1 T2 T3 Hin Hi Hv) as (s1 & k1 & E & Hk1 & Hm1 & Hx1); [eapply can_alloc_le; [done|lia]|done|].
    pose proof (mod_size _ _ _ _ Hm1). pose proof (mod_free _ _ _ _ Hm1).
    assert (in_arena s1) as Hin1.
    { eapply set_entry_arena; [done| | |exact E]; [eapply can_alloc_le; [done|lia]|].
      destruct Hx as [_ Hs]. destruct (lookup_lt_is_Some_2 sls i Hi) as (old & Hold). specialize (Hs _ _ Hold).
      assert (exists cq, cells s !! (v + Z.of_nat i) = Some cq) as (cq & Hcq).
      { destruct old; cbn in Hs; [destruct Hs as (c & Hc & _)|destruct Hs as [(c & Hc & _) _]|destruct Hs as [(c & Hc & _) _]]; by exists c. }
      apply cells_heap in Hcq as [Hcq _]. by eapply Hin. }
    destruct (IH (<[i := sl]> sls) s1) as (rs & s2 & k2 & E2 & Hk2 & Hin2 & Hm2 & Hx2 & Hrs).
    { done. } { done. }
    { rewrite insert_length. eapply Forall_impl; [done|]. intros [j|j e' sl']; cbn; [done|]. intros (? & ? & ?). split; [done|]. split; [|done].
      eapply value_at_keep; [done| |done]. lia. }
    { eapply modifies_can_alloc; [done|eapply can_alloc_le; [done|lia]|lia]. }
    rewrite insert_length in Hm2.
    exists rs, s2, (k1 + k2). split.
    { erewrite bind_ok by (eapply array_set_run; done). exact E2. }
    split; [cbn [length]; lia|]. split; [done|]. split; [|done].
    eapply modifies_trans; [eapply modifies_weaken; [|exact Hm1]|exact Hm2|done]. cbn. intros. lia.
Qed.

Lemma array_ref_bounds t x v sls i s : array_at (cells s) t x v sls -> Z.of_nat (length sls) <= i -> array_ref t x i s = RAbort.
Proof.
  intros [(c & Hc & Ht & Hl & <-) Hs] Hi. pose proof (cells_heap _ _ _ Hc) as [Hch _]. unfold array_ref. run.
  erewrite bind_ok by (apply assert_msg_true; lia). unfold bind, assert_msg. by replace (i <? c_car c) with false by lia.
Qed.
Lemma array_set_bounds t x v sls i e s : array_at (cells s) t x v sls -> Z.of_nat (length sls) <= i -> array_set t x i e s = RAbort.
Proof.
  intros [(c & Hc & Ht & Hl & <-) Hs] Hi. pose proof (cells_heap _ _ _ Hc) as [Hch _]. unfold array_set. run.
  erewrite bind_ok by (apply assert_msg_true; lia). unfold bind, assert_msg. by replace (i <? c_car c) with false by lia.
Qed.

(** * C15: vectors *)

(** (make-vector k e): k elements, all e; nothing that existed changes *)
Theorem C15_make_vector k e sl s : 0 <= k -> value_at (cells s) e sl -> can_alloc (1 + 2 * k) s ->
  exists x v s', make_vector_ k e s = ROk x s' /\ extends s s' /\ cells s !! x = None /\
    array_at (cells s') TVECTOR x v (replicate (Z.to_nat k) sl).
Proof.
  intros Hk Hv Ha. destruct (make_vector_ok k e sl s Hk Hv Ha) as (s' & kk & E & _ & Hm & Hx).
  exists (g_free s), (g_free s + 1), s'. split; [done|]. split; [by exists kk|]. split; [apply cells_fresh; lia|done].
Qed.
(** (list->vector l) holds the elements of l in order *)
Theorem C15_list_to_vector fuel p es sls s : list_at (cells s) p es -> Forall2 (value_at (cells s)) es sls ->
  (length es <= fuel)%nat -> can_alloc (1 + 3 * Z.of_nat (length es)) s -> type_at (cells s) cell_unspecified TSPECIAL ->
  exists x v s', list_to_vector fuel p s = ROk x s' /\ extends s s' /\ cells s !! x = None /\ array_at (cells s') TVECTOR x v sls.
Proof.
  intros Hl Hv Hf Ha Hu. destruct (list_to_vector_ok fuel p es sls s Hl Hv Hf Ha Hu) as (s' & k & E & _ & Hm & Hx).
  exists (g_free s), (g_free s + 1), s'. split; [done|]. split; [by exists k|]. split; [apply cells_fresh; lia|done].
Qed.
(** (vector->list v) is a list of its elements in order *)
Theorem C15_vector_to_list x v sls s : array_at (cells s) TVECTOR x v sls -> can_alloc (Z.of_nat (length sls)) s ->
  cell_nil < g_free s ->
  exists r s' es, vector_to_list x s = ROk r s' /\ extends s s' /\ list_at (heap s') r es /\ Forall2 (value_at (heap s')) es sls.
Proof.
  intros Hx Ha Hn. destruct (vector_to_list_ok x v sls s Hx Ha Hn) as (r & s' & es & E & Hm & Hl & Hv).
  exists r, s', es. split; [done|]. split; [by eexists|]. split; [by apply list_at_heap|].
  eapply Forall2_impl; [done|]. intros e sl. apply value_at_mono, cells_sub.
Qed.
(** so list->vector followed by vector->list gives the same elements back *)
Theorem C15_round_trip fuel p es sls s : list_at (cells s) p es -> Forall2 (value_at (cells s)) es sls ->
  (length es <= fuel)%nat -> can_alloc (1 + 4 * Z.of_nat (length es)) s -> type_at (cells s) cell_unspecified TSPECIAL ->
  cell_nil < g_free s ->
  exists r s' es', (x <- list_to_vector fuel p ;; vector_to_list x) s = ROk r s' /\ extends s s' /\
    list_at (heap s') r es' /\ Forall2 (value_at (heap s')) es' sls.
Proof.
  intros Hl Hv Hf Ha Hu Hn. destruct (list_to_vector_ok fuel p es sls s Hl Hv Hf) as (s1 & k & E & Hk & Hm & Hx); [eapply can_alloc_le; [done|lia]|done|].
  pose proof (mod_size _ _ _ _ Hm). pose proof (mod_free _ _ _ _ Hm).
  destruct (C15_vector_to_list _ _ sls s1 Hx) as (r & s' & es' & E' & He & Hr).
  { eapply modifies_can_alloc; [done|rewrite <- (Forall2_length _ _ _ Hv); eapply can_alloc_le; [done|lia]|lia]. } { lia. }
  exists r, s', es'. split; [by erewrite bind_ok by exact E|]. split; [|done].
  eapply extends_trans; [by exists k|done].
Qed.
Theorem C15_vector_length x v sls s : array_at (cells s) TVECTOR x v sls -> can_alloc 1 s ->
  exists r s', vector_length x s = ROk r s' /\ extends s s' /\ number_at (heap s') r (Z.of_nat (length sls)).
Proof.
  intros [(c & Hc & Ht & Hl & <-) Hs] Ha. pose proof (cells_heap _ _ _ Hc) as [Hch _]. unfold vector_length.
  eexists _, _. split. { run. erewrite bind_ok by (apply assert_msg_true; lia). by apply make_cell_s. }
  split; [apply extends_with_cell|]. eexists. cbn. rewrite lookup_insert. split; [done|]. split; [done|cbn; lia].
Qed.
(** For every history of vector-ref and vector-set! within bounds: each vector-ref returns the value
    last stored at its index, the length stays, and no cell outside the vector changes. *)
Theorem C15_history x v sls h s :
  array_at (cells s) TVECTOR x v sls -> in_arena s -> Forall (valid_access s v (length sls)) h ->
  can_alloc (Z.of_nat (length h)) s ->
  exists rs s' k, perform vector_ref_ vector_set_x_ x h s = ROk rs s' /\
    Forall2 (fun r o => exists sl, o = Some sl /\ value_at (cells s') r sl) rs (reads sls h) /\
    array_at (cells s') TVECTOR x v (contents sls h) /\
    modifies (fun q => v <= q < v + Z.of_nat (length sls)) k s s'.
Proof.
  intros Hx Hin Hv Ha.
  destruct (perform_ok TVECTOR x v ltac:(done) ltac:(done) ltac:(done) h sls s Hx Hin Hv Ha) as (rs & s' & k & E & _ & _ & Hm & Hx' & Hr).
  exists rs, s', k. done.
Qed.
(** indexes at or beyond the length are caught *)
Theorem C15_index_too_large x v sls i e s : array_at (cells s) TVECTOR x v sls -> Z.of_nat (length sls) <= i ->
  vector_ref_ x i s = RAbort /\ vector_set_x_ x i e s = RAbort.
Proof. intros Hx Hi. split; [by eapply (array_ref_bounds TVECTOR)|by eapply (array_set_bounds TVECTOR)]. Qed.
(** But negative indexes are not: (vector-ref v -1) answers the vector itself, and
    (vector-set! v -1 0) destroys it, turning the object into a number. *)
Definition small_vector : state :=
  set_g_free 104 (set_heap (<[100 := Cell TVECTOR 1 101 []]> (<[101 := Cell TNUMBER 0 7 []]> (<[102 := Cell TNUMBER 0 8 []]>
    (<[103 := Cell TNUMBER 0 (-1) []]> ∅)))) (init_state 1000 1000 100 10 100)).
Theorem C15_negative_index_refuted : exists x i n s s' s'',
  array_at (cells s) TVECTOR x (x + 1) [SNum 7] /\ number_at (heap s) i (-1) /\ number_at (heap s) n 8 /\
  vector_ref x i s = ROk x s' /\
  vector_set_x x i n s = ROk cell_unspecified s'' /\ number_at (heap s'') x 8.
Proof.
  exists 100, 103, 102, small_vector. eexists _, _. split.
  { split; [eexists; vm_compute; done|]. intros [|i] sl Hi; [|by destruct i]. injection Hi as <-. eexists. vm_compute. done. }
  split; [by eexists|]. split; [by eexists|]. split; [vm_compute; reflexivity|]. split; [vm_compute; reflexivity|].
  by eexists.
Qed.

(** * C16: structs *)
(** make-struct stores type, printer and the fields in order *)
Theorem C16_make_struct fuel type printer p es st sp sls s :
  value_at (cells s) type st -> value_at (cells s) printer sp ->
  list_at (cells s) p es -> Forall2 (value_at (cells s)) es sls -> (length es <= fuel)%nat ->
  can_alloc (5 + 2 * Z.of_nat (length es)) s ->
  exists x v s', make_struct fuel type p printer s = ROk x s' /\ extends s s' /\ cells s !! x = None /\
    array_at (cells s') TSTRUCT x v (st :: sp :: sls).
Proof.
  intros H1 H2 Hl Hv Hf Ha. destruct (make_struct_ok fuel type printer p es st sp sls s H1 H2 Hl Hv Hf Ha) as (s' & k & E & _ & Hm & Hx).
  exists (g_free s), (g_free s + 1), s'. split; [done|]. split; [by exists k|]. split; [apply cells_fresh; lia|done].
Qed.
Theorem C16_struct_length x v sls s : array_at (cells s) TSTRUCT x v sls -> can_alloc 1 s ->
  exists r s', struct_length x s = ROk r s' /\ extends s s' /\ number_at (heap s') r (Z.of_nat (length sls)).
Proof.
  intros [(c & Hc & Ht & Hl & <-) Hs] Ha. pose proof (cells_heap _ _ _ Hc) as [Hch _]. unfold struct_length.
  eexists _, _. split. { run. erewrite bind_ok by (apply assert_msg_true; lia). by apply make_cell_s. }
  split; [apply extends_with_cell|]. eexists. cbn. rewrite lookup_insert. split; [done|]. split; [done|cbn; lia].
Qed.
Theorem C16_history x v sls h s :
  array_at (cells s) TSTRUCT x v sls -> in_arena s -> Forall (valid_access s v (length sls)) h ->
  can_alloc (Z.of_nat (length h)) s ->
  exists rs s' k, perform struct_ref_ struct_set_x_ x h s = ROk rs s' /\
    Forall2 (fun r o => exists sl, o = Some sl /\ value_at (cells s') r sl) rs (reads sls h) /\
    array_at (cells s') TSTRUCT x v (contents sls h) /\
    modifies (fun q => v <= q < v + Z.of_nat (length sls)) k s s'.
Proof.
  intros Hx Hin Hv Ha.
  destruct (perform_ok TSTRUCT x v ltac:(done) ltac:(done) ltac:(done) h sls s Hx Hin Hv Ha) as (rs & s' & k & E & _ & _ & Hm & Hx' & Hr).
  exists rs, s', k. done.
Qed.
Theorem C16_index_too_large x v sls i e s : array_at (cells s) TSTRUCT x v sls -> Z.of_nat (length sls) <= i ->
  struct_ref_ x i s = RAbort /\ struct_set_x_ x i e s = RAbort.
Proof. intros Hx Hi. split; [by eapply (array_ref_bounds TSTRUCT)|by eapply (array_set_bounds TSTRUCT)]. Qed.
(** a struct is not a vector and a vector is not a struct: the accessors check *)
Theorem C16_type_checked x v sls i e s :
  (array_at (cells s) TSTRUCT x v sls -> vector_ref_ x i s = RAbort /\ vector_set_x_ x i e s = RAbort) /\
  (array_at (cells s) TVECTOR x v sls -> struct_ref_ x i s = RAbort /\ struct_set_x_ x i e s = RAbort).
Proof.
  split; intros [(c & Hc & Ht & Hl & <-) Hs]; pose proof (cells_heap _ _ _ Hc) as [Hch _];
    unfold vector_ref_, vector_set_x_, struct_ref_, struct_set_x_; split; run; rewrite Ht; done.
Qed.

(** The hypotheses are met in a running interpreter: the vector #(10 #\a "ab") built with
    list->vector, and a history of reads and writes on it; and a struct. *)
Definition sample_array : list (M Z) :=
  [list_m [make_number 10; make_char 97; make_string0 (bytes_of "ab")];
   (l <- list_m [make_number 10; make_char 97; make_string0 (bytes_of "ab")] ;; list_to_vector 5 l);
   (l <- list_m [make_number 10; make_number 11] ;; make_struct 5 cell_symbol_record_type l cell_unspecified);
   make_number 33].
Example array_hypotheses_hold : exists l x y e s v q w,
  on_sample2 sample_array = ROk [l; x; y; e] s /\
  array_at (cells s) TVECTOR x v [SNum 10; SChar 97; SRef q] /\
  array_at (cells s) TSTRUCT y w [SRef cell_symbol_record_type; SRef cell_unspecified; SNum 10; SNum 11] /\
  Forall (valid_access s v 3) [Read 0; Write 0 e (SNum 33); Read 0; Read 2; Write 1 y (SRef y); Read 1] /\
  reads [SNum 10; SChar 97; SRef q] [Read 0; Write 0 e (SNum 33); Read 0; Read 2; Write 1 y (SRef y); Read 1]
    = [Some (SNum 10); Some (SNum 33); Some (SRef q); Some (SRef y)] /\
  in_arena s /\ can_alloc 20 s /\ type_at (cells s) cell_unspecified TSPECIAL.
Proof.
  destruct (check_res (on_sample2 sample_array)
    (fun r s => match r with
       | [l; x; y; e] =>
           match array_b (cells s) TVECTOR x, array_b (cells s) TSTRUCT y with
           | Some (v, [SNum 10; SChar 97; SRef q]), Some (w, [SRef t; SRef u; SNum 10; SNum 11]) =>
               (t =? cell_symbol_record_type) && (u =? cell_unspecified) && number_at_b (cells s) e 33
               && (v + 3 <=? e) && (v + 3 <=? y)
               && in_arena_b s && can_alloc_b 20 s
               && match cells s !! cell_unspecified with Some c => c_ty c =? TSPECIAL | None => false end
           | _, _ => false end
       | _ => false end)) as (r & s & E & H).
  { vm_compute. reflexivity. }
  revert E. generalize (on_sample2 sample_array). intros R E.
  destruct r as [|l [|x [|y [|e [|]]]]]; try discriminate H.
  destruct (array_b (cells s) TVECTOR x) as [[v sls]|] eqn:E1; [|discriminate H].
  destruct (array_b (cells s) TSTRUCT y) as [[w sls']|] eqn:E2; [|repeat (case_match; try discriminate)].
  repeat (case_match; try discriminate). subst.
  match goal with H : context [number_at_b] |- _ => rename H into B end.
  apply andb_prop in B as [B B1]. apply andb_prop in B as [B B2]. apply andb_prop in B as [B B3].
  apply andb_prop in B as [B B4]. apply andb_prop in B as [B B5]. apply andb_prop in B as [B B6].
  apply andb_prop in B as [B8 B7]. apply Z.eqb_eq in B7, B8. subst. apply array_check in E1, E2.
  eexists l, x, y, e, s, v, _, w. split; [reflexivity|]. split; [exact E1|]. split; [exact E2|]. split.
  { apply number_check in B6. destruct E2 as [(cy & Hc & Ht & _) _].
    assert (value_at (cells s) y (SRef y)) as Hy.
    { split; [done|]. exists cy. split; [done|]. rewrite Ht. intros H. repeat (apply elem_of_cons in H as [H|H]; [discriminate H|]). by apply elem_of_nil in H. }
    repeat (apply Forall_cons; split); [..|apply Forall_nil; done]; cbn [valid_access]; try lia; (split; [lia|split; [done|lia]]). }
  split; [done|]. split; [by apply in_arena_check|]. split; [by apply can_alloc_check|].
  { match goal with H : cells s !! cell_unspecified = Some ?c |- _ => exists c end. split; [done|lia]. }
  all: exfalso; apply andb_prop in H as [_ H]; discriminate H.
Qed.

Print Assumptions C15_make_vector.
Print Assumptions C15_list_to_vector.
Print Assumptions C15_vector_to_list.
Print Assumptions C15_round_trip.
Print Assumptions C15_vector_length.
Print Assumptions C15_history.
Print Assumptions C15_index_too_large.
Print Assumptions C15_negative_index_refuted.
Print Assumptions C16_make_struct.
Print Assumptions C16_struct_length.
Print Assumptions C16_history.
Print Assumptions C16_index_too_large.
Print Assumptions C16_type_checked.
