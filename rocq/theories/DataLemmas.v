(** Symbolic execution of the data structure code on an arbitrary state. *)
From stdpp Require Import base gmap list.
From Coq Require Import ZArith Lia.
From Coq Require Import ZifyBool ZifyNat.
From Verif Require Import CInt Symbols Heap HeapLemmas DataModel DataSpec.
Open Scope Z_scope.
Open Scope mes_scope.

Lemma ty_s p c s : heap s !! p = Some c -> ty p s = ROk (c_ty c) s.
Proof. intros H. unfold ty. by erewrite bind_ok by by apply rd_ok'. Qed.
Lemma car_of_s p c s : heap s !! p = Some c -> car_of p s = ROk (c_car c) s.
Proof. intros H. unfold car_of. by erewrite bind_ok by by apply rd_ok'. Qed.
Lemma cdr_of_s p c s : heap s !! p = Some c -> cdr_of p s = ROk (c_cdr c) s.
Proof. intros H. unfold cdr_of. by erewrite bind_ok by by apply rd_ok'. Qed.
Lemma ty_pair p a d s : pair_at (heap s) p a d -> ty p s = ROk TPAIR s.
Proof. intros (c & H & <- & _). by apply ty_s. Qed.
Lemma ty_type p t s : type_at (heap s) p t -> ty p s = ROk t s.
Proof. intros (c & H & <-). by apply ty_s. Qed.
Lemma car_of_pair p a d s : pair_at (heap s) p a d -> car_of p s = ROk a s.
Proof. intros (c & H & _ & <- & _). by apply car_of_s. Qed.
Lemma cdr_of_pair p a d s : pair_at (heap s) p a d -> cdr_of p s = ROk d s.
Proof. intros (c & H & _ & _ & <-). by apply cdr_of_s. Qed.
Lemma car_pair p a d s : pair_at (heap s) p a d -> car p s = ROk a s.
Proof. intros (c & H & Ht & <- & _). unfold car. erewrite bind_ok by by apply rd_ok'. by rewrite Ht. Qed.
Lemma cdr_pair p a d s : pair_at (heap s) p a d -> cdr p s = ROk d s.
Proof. intros (c & H & Ht & _ & <-). unfold cdr. erewrite bind_ok by by apply rd_ok'. by rewrite Ht. Qed.
Lemma cdr_of_number p n s : number_at (heap s) p n -> cdr_of p s = ROk n s.
Proof. intros (c & H & _ & <-). by apply cdr_of_s. Qed.
Lemma ty_number p n s : number_at (heap s) p n -> ty p s = ROk TNUMBER s.
Proof. intros (c & H & <- & _). by apply ty_s. Qed.
Lemma assert_number_ok p n s : number_at (heap s) p n -> assert_number p s = ROk tt s.
Proof. intros H. unfold assert_number. by erewrite bind_ok by by eapply ty_number. Qed.
Lemma assert_number_bad p c s : heap s !! p = Some c -> c_ty c <> TNUMBER ->
  assert_number p s = RThrow cell_symbol_not_a_number p s.
Proof.
  intros H Ht. unfold assert_number. erewrite bind_ok by by apply ty_s.
  destruct (Z.eqb_spec (c_ty c) TNUMBER); done.
Qed.
Lemma assert_msg_true b s : b = true -> assert_msg b s = ROk tt s.
Proof. by intros ->. Qed.

Global Hint Resolve rd_ok' ty_pair ty_type car_of_pair cdr_of_pair car_pair cdr_pair cdr_of_number ty_number
  assert_number_ok ty_s car_of_s cdr_of_s : run.

(** one step of symbolic execution *)
Ltac run1 :=
  first [ rewrite bind_assoc | rewrite bind_ret | rewrite bind_gets | rewrite bind_get | rewrite bind_modify
        | erewrite bind_ok by eauto 3 with run ]; cbv beta.
Ltac run := repeat run1.

Lemma make_cell_s t a d s : can_alloc 1 s ->
  make_cell t a d s = ROk (g_free s) (with_cell (Cell t a d []) s).
Proof.
  intros (H1 & H2 & H3). rewrite <- (upd_id s) at 1. rewrite make_cell_ok by lia. done.
Qed.

Global Hint Resolve make_cell_s : run.
Lemma make_number_s n s : can_alloc 1 s ->
  make_number n s = ROk (g_free s) (with_cell (Cell TNUMBER 0 n []) s).
Proof. apply make_cell_s. Qed.

(** the cells in use *)
Lemma cells_lookup s p : cells s !! p = (if p <? g_free s then heap s !! p else None).
Proof.
  unfold cells. destruct (Z.ltb_spec p (g_free s)) as [Hp|Hp].
  - destruct (heap s !! p) as [c|] eqn:E.
    + apply map_filter_lookup_Some. cbn. done.
    + apply map_filter_lookup_None. by left.
  - apply map_filter_lookup_None. right. cbn. lia.
Qed.
Lemma cells_heap s p c : cells s !! p = Some c -> heap s !! p = Some c /\ p < g_free s.
Proof. rewrite cells_lookup. by destruct (Z.ltb_spec p (g_free s)). Qed.
Lemma heap_cells s p c : heap s !! p = Some c -> p < g_free s -> cells s !! p = Some c.
Proof. rewrite cells_lookup. intros ? ?. by destruct (Z.ltb_spec p (g_free s)); [|lia]. Qed.
Lemma cells_sub s : cells s ⊆ heap s.
Proof. apply map_filter_subseteq. Qed.
Lemma cells_fresh s p : g_free s <= p -> cells s !! p = None.
Proof. intros H. rewrite cells_lookup. by destruct (Z.ltb_spec p (g_free s)); [lia|]. Qed.
Lemma cells_with_cell c s : cells (with_cell c s) = <[g_free s := c]> (cells s).
Proof.
  apply map_eq. intros p. rewrite cells_lookup. cbn.
  destruct (decide (p = g_free s)) as [->|Hne].
  - rewrite !lookup_insert. by destruct (Z.ltb_spec (g_free s) (g_free s + 1)); [|lia].
  - rewrite !lookup_insert_ne by done. rewrite cells_lookup.
    by destruct (Z.ltb_spec p (g_free s + 1)), (Z.ltb_spec p (g_free s)); try lia.
Qed.

(** monotonicity of the representation predicates *)
Lemma number_at_mono h h' p n : h ⊆ h' -> number_at h p n -> number_at h' p n.
Proof. intros Hs (c & H & ?). exists c. split; [by eapply lookup_weaken|done]. Qed.
Lemma char_at_mono h h' p n : h ⊆ h' -> char_at h p n -> char_at h' p n.
Proof. intros Hs (c & H & ?). exists c. split; [by eapply lookup_weaken|done]. Qed.
Lemma pair_at_mono h h' p a d : h ⊆ h' -> pair_at h p a d -> pair_at h' p a d.
Proof. intros Hs (c & H & ?). exists c. split; [by eapply lookup_weaken|done]. Qed.
Lemma type_at_mono h h' p t : h ⊆ h' -> type_at h p t -> type_at h' p t.
Proof. intros Hs (c & H & ?). exists c. split; [by eapply lookup_weaken|done]. Qed.
Lemma list_at_mono h h' p vs : h ⊆ h' -> list_at h p vs -> list_at h' p vs.
Proof.
  intros Hs H. induction H as [|p a d vs Hp Hpa _ IH]; [constructor|].
  econstructor; [done| |exact IH]. by eapply pair_at_mono.
Qed.
Lemma text_at_mono h h' t p bs : h ⊆ h' -> text_at h t p bs -> text_at h' t p bs.
Proof.
  intros Hs (c & b & H1 & H2 & H3 & H4 & H5). exists c, b.
  split; [by eapply lookup_weaken|]. do 2 (split; [done|]). split; [by eapply lookup_weaken|done].
Qed.

Lemma can_alloc_le n m s : can_alloc n s -> m <= n -> can_alloc m s.
Proof. unfold can_alloc. lia. Qed.
Lemma can_alloc_with n c s : can_alloc (n + 1) s -> 0 <= n -> can_alloc n (with_cell c s).
Proof. unfold can_alloc. cbn. lia. Qed.

Lemma modifies_refl P s : modifies P 0 s s.
Proof.
  split; [lia|lia|done|]. exists (heap s). destruct s; cbn. unfold set_g_free, set_heap. cbn. f_equal. lia.
Qed.
Lemma modifies_weaken (P Q : Z -> Prop) k s s' : (forall p, p < g_free s -> P p -> Q p) ->
  modifies P k s s' -> modifies Q k s s'.
Proof.
  intros HPQ [H1 H2 H3 H4]. split; try done. intros p Hp Hq. apply H3; [done|]. intros HP. by apply Hq, HPQ.
Qed.
Lemma modifies_trans (P Q : Z -> Prop) k1 k2 s1 s2 s3 :
  modifies P k1 s1 s2 -> modifies Q k2 s2 s3 -> (forall p, p < g_free s1 -> Q p -> P p) ->
  modifies P (k1 + k2) s1 s3.
Proof.
  intros [A1 A2 A3 (h & A4)] [B1 B2 B3 (h' & B4)] HQ. split; [lia|lia| |].
  - intros p Hp HP. rewrite B3, A3; try done; [lia|]. intros HQp. by apply HP, HQ.
  - exists h'. rewrite B4, A4. destruct s1; cbn. unfold set_g_free, set_heap. cbn. f_equal. lia.
Qed.
Lemma modifies_with_cell c s : modifies nothing 1 s (with_cell c s).
Proof.
  split; [lia|done| |by eexists]. intros p Hp _. cbn. rewrite lookup_insert_ne; [done|lia].
Qed.
Definition put (p : Z) (c : cell) (s : state) : state := set_heap (<[p := c]> (heap s)) s.
Lemma modifies_put p c s : modifies (eq p) 0 s (put p c s).
Proof.
  split; [lia|cbn; lia| |].
  - intros q _ Hq. cbn. rewrite lookup_insert_ne; [done|]. congruence.
  - exists (<[p := c]> (heap s)). destruct s; cbn. unfold put, set_g_free, set_heap. cbn. f_equal. lia.
Qed.
Lemma modifies_cells k s s' : modifies nothing k s s' -> cells s ⊆ cells s'.
Proof.
  intros [H1 H2 H3 _]. apply map_subseteq_spec. intros p c Hc. apply cells_heap in Hc as [Hc Hp].
  apply heap_cells; [|lia]. rewrite H3; [done|done|intros []].
Qed.
Lemma extends_cells s s' : extends s s' -> cells s ⊆ cells s'.
Proof. intros (k & H). by eapply modifies_cells. Qed.
Lemma modifies_old P k s s' p c : modifies P k s s' -> cells s !! p = Some c -> ~ P p -> cells s' !! p = Some c.
Proof.
  intros [H1 H2 H3 _] Hc HP. apply cells_heap in Hc as [Hc Hp].
  apply heap_cells; [|lia]. rewrite H3; done.
Qed.
Lemma modifies_can_alloc P k n s s' : modifies P k s s' -> can_alloc (n + k) s -> 0 <= n -> can_alloc n s'.
Proof.
  intros [H1 H2 H3 (h & ->)]. unfold can_alloc in *. cbn in *. lia.
Qed.
Lemma modifies_limit P k s s' : modifies P k s s' -> limit s' = limit s.
Proof. by intros [_ _ _ (h & ->)]. Qed.

Lemma extends_refl s : extends s s.
Proof. exists 0. apply modifies_refl. Qed.
Lemma extends_trans s1 s2 s3 : extends s1 s2 -> extends s2 s3 -> extends s1 s3.
Proof. intros (k & H1) (k' & H2). exists (k + k'). by eapply modifies_trans. Qed.
Lemma extends_with_cell c s : extends s (with_cell c s).
Proof. exists 1. apply modifies_with_cell. Qed.

Lemma wr_s p c s : 1 <= p < limit s -> wr p c s = ROk tt (put p c s).
Proof. intros H. unfold wr. by destruct (Z.leb_spec 1 p), (Z.ltb_spec p (limit s)); try lia. Qed.
Lemma set_cdr_s p c d s : heap s !! p = Some c -> 1 <= p < limit s ->
  set_cdr p d s = ROk tt (put p (Cell (c_ty c) (c_car c) d (c_bytes c)) s).
Proof. intros H Hp. unfold set_cdr. erewrite bind_ok by by apply rd_ok'. by apply wr_s. Qed.
Lemma set_car_s p c a s : heap s !! p = Some c -> 1 <= p < limit s ->
  set_car p a s = ROk tt (put p (Cell (c_ty c) a (c_cdr c) (c_bytes c)) s).
Proof. intros H Hp. unfold set_car. erewrite bind_ok by by apply rd_ok'. by apply wr_s. Qed.
Lemma copy_cell_s to from c s : heap s !! from = Some c -> 1 <= to < limit s ->
  copy_cell to from s = ROk tt (put to (Cell (c_ty c) (c_car c) (c_cdr c) []) s).
Proof. intros H Hp. unfold copy_cell. erewrite bind_ok by by apply rd_ok'. by apply wr_s. Qed.
Lemma in_arena_put p c s : in_arena s -> 1 <= p < limit s -> in_arena (put p c s).
Proof.
  intros H Hp q x. cbn. destruct (decide (p = q)) as [->|Hne]; [by rewrite lookup_insert|].
  rewrite lookup_insert_ne by done. apply H.
Qed.
Lemma in_arena_with_cell c s : in_arena s -> can_alloc 1 s -> in_arena (with_cell c s).
Proof.
  intros H (H1 & H2 & H3) q x. cbn. destruct (decide (g_free s = q)) as [<-|Hne]; [intros _; lia|].
  rewrite lookup_insert_ne by done. apply H.
Qed.

(** segments *)
Lemma seg_list h p vs : list_at h p vs <-> exists ps, seg h p cell_nil ps vs.
Proof.
  split.
  - induction 1 as [|p a d vs Hp Hpa _ (ps & IH)]; [by exists []; constructor|].
    exists (p :: ps). by econstructor.
  - intros (ps & H). remember cell_nil as q eqn:E. induction H; subst; [constructor|]. econstructor; eauto.
Qed.
Lemma seg_app h p q r ps vs ps' vs' : seg h p q ps vs -> seg h q r ps' vs' -> seg h p r (ps ++ ps') (vs ++ vs').
Proof. induction 1; intros; [done|]. cbn. econstructor; eauto. Qed.
Lemma seg_length h p q ps vs : seg h p q ps vs -> length ps = length vs.
Proof. induction 1; cbn; congruence. Qed.
Lemma seg_agree h h' p q ps vs : (forall x, x ∈ ps -> h' !! x = h !! x) -> seg h p q ps vs -> seg h' p q ps vs.
Proof.
  intros Hag H. induction H as [|p q a d ps vs Hp (c & Hc & Hx) H IH]; [constructor|].
  econstructor; [done| |apply IH; intros x Hx'; apply Hag; by constructor].
  exists c. split; [|done]. rewrite Hag by constructor. done.
Qed.
Lemma seg_mono h h' p q ps vs : h ⊆ h' -> seg h p q ps vs -> seg h' p q ps vs.
Proof.
  intros Hs H. induction H; [constructor|]. econstructor; [done|by eapply pair_at_mono|done].
Qed.
Lemma seg_elem h p q ps vs x : seg h p q ps vs -> x ∈ ps -> exists a d, pair_at h x a d /\ x <> cell_nil.
Proof.
  induction 1 as [|p q a d ps vs Hp Hpa _ IH]; intros Hx; [by apply elem_of_nil in Hx|].
  apply elem_of_cons in Hx as [->|Hx]; [by exists a, d|by apply IH].
Qed.
Lemma pair_at_fun h p a d a' d' : pair_at h p a d -> pair_at h p a' d' -> a = a' /\ d = d'.
Proof. intros (c & H & _ & <- & <-) (c' & H' & _ & <- & <-). rewrite H in H'. by injection H' as <-. Qed.
(** a chain that ends in () runs through no pair twice *)
Lemma seg_nil_unique h p ps vs ps' vs' : seg h p cell_nil ps vs -> seg h p cell_nil ps' vs' -> ps = ps' /\ vs = vs'.
Proof.
  intros H. revert ps' vs'. remember cell_nil as q eqn:E. induction H as [p|p q a d ps vs Hp Hpa H IH];
    intros ps' vs' H'; subst; inversion H' as [|? ? a' d' ? ? Hp' Hpa' H'']; subst; try done.
  destruct (pair_at_fun _ _ _ _ _ _ Hpa Hpa') as [-> ->].
  destruct (IH eq_refl _ _ H'') as [-> ->]. done.
Qed.
Lemma seg_suffix h p q ps vs x : seg h p q ps vs -> x ∈ ps -> exists ps' vs', seg h x q (x :: ps') vs' /\ (length ps' < length ps)%nat.
Proof.
  induction 1 as [|p q a d ps vs Hp Hpa H IH]; intros Hx; [by apply elem_of_nil in Hx|].
  apply elem_of_cons in Hx as [->|Hx].
  - exists ps, (a :: vs). split; [by econstructor|cbn; lia].
  - destruct (IH Hx) as (ps' & vs' & Hs & Hl). exists ps', vs'. split; [done|cbn; lia].
Qed.
Lemma seg_nodup h p ps vs : seg h p cell_nil ps vs -> NoDup ps.
Proof.
  intros H. remember cell_nil as q eqn:E. induction H as [|p q a d ps vs Hp Hpa H IH]; subst; constructor.
  - intros Hx. destruct (seg_suffix _ _ _ _ _ _ H Hx) as (ps' & vs' & Hs & Hl).
    assert (seg h p cell_nil (p :: ps) (a :: vs)) as H' by by econstructor.
    destruct (seg_nil_unique _ _ _ _ _ _ Hs H') as [E _]. injection E as ->. lia.
  - by apply IH.
Qed.

Lemma cells_put p c s : p < g_free s -> cells (put p c s) = <[p := c]> (cells s).
Proof.
  intros Hp. apply map_eq. intros q. rewrite cells_lookup. cbn. destruct (decide (p = q)) as [->|Hne].
  - rewrite !lookup_insert. by destruct (Z.ltb_spec q (g_free s)); [|lia].
  - rewrite !lookup_insert_ne by done. by rewrite cells_lookup.
Qed.
Lemma modifies_cells_eq P k s s' p : modifies P k s s' -> p < g_free s -> ~ P p -> cells s' !! p = cells s !! p.
Proof.
  intros [H1 H2 H3 _] Hp HP. rewrite !cells_lookup.
  destruct (Z.ltb_spec p (g_free s')), (Z.ltb_spec p (g_free s)); try lia. by apply H3.
Qed.
Lemma pair_at_heap s p a d : pair_at (cells s) p a d -> pair_at (heap s) p a d.
Proof. apply pair_at_mono, cells_sub. Qed.
Lemma number_at_heap s p n : number_at (cells s) p n -> number_at (heap s) p n.
Proof. apply number_at_mono, cells_sub. Qed.
Lemma pair_at_lt s p a d : pair_at (cells s) p a d -> p < g_free s.
Proof. intros (c & Hc & _). by apply cells_heap in Hc as [_ ?]. Qed.
Lemma list_at_heap s p vs : list_at (cells s) p vs -> list_at (heap s) p vs.
Proof. apply list_at_mono, cells_sub. Qed.
Global Hint Resolve pair_at_heap number_at_heap list_at_heap : run.
