(** The Cheney invariant: gc_copy and gc_scan build a faithful, gap-free copy of the live objects. *)
From stdpp Require Import base gmap list relations.
From Coq Require Import ZArith Lia.
From Coq Require Import ZifyBool ZifyNat.
From Verif Require Import CInt Symbols Heap HeapLemmas GcModel GcSpec GcCopy.
Open Scope Z_scope.
Open Scope mes_scope.

Lemma car_pointer_ref t : car_pointer t = car_is_ref t.
Proof.
  unfold car_pointer, car_is_ref. case_bool_decide as H.
  - rewrite !elem_of_cons, elem_of_nil in H. destruct H as [->|[->|[->|[->|[]]]]]; done.
  - rewrite !elem_of_cons, elem_of_nil in H. lia.
Qed.
Lemma cdr_pointer_ref t : cdr_pointer t = cdr_is_ref t.
Proof.
  unfold cdr_pointer, cdr_is_ref. case_bool_decide as H.
  - rewrite !elem_of_cons, elem_of_nil in H. repeat destruct H as [->|H]; done.
  - rewrite !elem_of_cons, elem_of_nil in H. lia.
Qed.

Definition cell_at (h : gmap Z cell) (p : Z) : cell := default dummy (h !! p).

Fixpoint layout (h : gmap Z cell) (a : Z) (L : list Z) : list cell :=
  match L with
  | [] => []
  | p :: L' => cells_of h (cell_at h p) a ++ layout h (a + size_at h p) L'
  end.

Lemma total_size_app h L1 L2 : total_size h (L1 ++ L2) = total_size h L1 + total_size h L2.
Proof. induction L1 as [|p L1 IH]; cbn [app total_size foldr]; [done|]. unfold total_size in *. rewrite IH. lia. Qed.

Lemma layout_app h a L1 L2 :
  layout h a (L1 ++ L2) = layout h a L1 ++ layout h (a + total_size h L1) L2.
Proof.
  revert a; induction L1 as [|p L1 IH]; intros a; cbn [app layout].
  - cbn. by rewrite Z.add_0_r.
  - rewrite IH, app_assoc. do 2 f_equal. unfold total_size; cbn. lia.
Qed.

(** relocation of a copied cell along the forwarding map *)
Definition fwd (φ : gmap Z Z) (p : Z) : Z := default 0 (φ !! p).
Definition reloc (φ : gmap Z Z) (c : cell) : cell :=
  Cell (c_ty c) (if car_pointer (c_ty c) then fwd φ (c_car c) else c_car c)
                (if cdr_pointer (c_ty c) then fwd φ (c_cdr c) else c_cdr c) (c_bytes c).

Lemma width_reloc φ c : width (reloc φ c) = width c.
Proof.
  unfold width, reloc; cbn. destruct (Z.eqb_spec (c_ty c) TBYTES) as [E|]; [|done]. by rewrite E.
Qed.
Lemma widths_reloc φ cs : widths (reloc φ <$> cs) = widths cs.
Proof. induction cs as [|c cs IH]; [done|]. rewrite fmap_cons, !widths_cons, IH, width_reloc. done. Qed.
Lemma pos_reloc φ cs : Forall pos_width cs -> Forall pos_width (reloc φ <$> cs).
Proof. intros H. apply Forall_fmap. eapply Forall_impl; [done|]. intros c. unfold pos_width; cbn. by rewrite width_reloc. Qed.
Lemma reloc_mono φ φ' c :
  (forall q, q ∈ cell_refs c -> is_Some (φ !! q)) -> φ ⊆ φ' -> reloc φ' c = reloc φ c.
Proof.
  intros Hd Hs. unfold reloc, cell_refs in *. rewrite car_pointer_ref, cdr_pointer_ref.
  assert (Hf : forall q, is_Some (φ !! q) -> fwd φ' q = fwd φ q).
  { intros q [n Hn]. unfold fwd. by rewrite Hn, (lookup_weaken _ _ _ _ Hn Hs). }
  f_equal.
  - destruct (car_is_ref (c_ty c)); [|done]. apply Hf, Hd. set_solver.
  - destruct (cdr_is_ref (c_ty c)); [|done]. apply Hf, Hd. set_solver.
Qed.

Section cheney.
  Context (h0 : gmap Z cell) (roots : list Z) (lo hi base : Z).
  Context (Hok : heap_ok lo hi h0 roots) (Hlo : 1 <= lo) (Hhi : hi <= base) (Hbase : 1 <= base).

  Record inv (L : list Z) (φ : gmap Z Z) (h : gmap Z cell) (cur : list cell) : Prop := {
    i_nodup : NoDup L;
    i_dom : forall p, p ∈ L <-> is_Some (φ !! p);
    i_addr : forall L1 p L2, L = L1 ++ p :: L2 -> φ !! p = Some (base + total_size h0 L1);
    i_reach : forall p, p ∈ L -> reach h0 roots p;
    i_old : forall q, q < base -> φ !! q = None -> h !! q = h0 !! q;
    i_fwd : forall q n, φ !! q = Some n -> exists c, h !! q = Some c /\ c_ty c = TBROKEN_HEART /\ c_car c = n;
    i_tiled : tiled h base cur;
    i_pos : Forall pos_width cur;
    i_size : widths cur = total_size h0 L }.

  Lemma reach_cell p : reach h0 roots p -> h0 !! p = Some (cell_at h0 p) /\ wf_obj lo hi h0 p (cell_at h0 p).
  Proof. intros H. destruct (ok_obj _ _ _ _ Hok p H) as (c & Hc & Hw). unfold cell_at. by rewrite Hc. Qed.

  Lemma size_pos p : reach h0 roots p -> 1 <= size_at h0 p.
  Proof.
    intros H. destruct (reach_cell p H) as [Hc Hw]. unfold size_at. rewrite Hc.
    unfold obj_size. destruct (is_array (cell_at h0 p)) eqn:Ha.
    - destruct (wf_array _ _ _ _ _ Hw Ha). lia.
    - destruct (is_bytes (cell_at h0 p)) eqn:Hb; [|lia]. destruct (wf_bytes _ _ _ _ _ Hw Hb).
      assert (2 <= bytes_cells (c_car (cell_at h0 p))) by (apply bytes_cells_pos; lia). lia.
  Qed.

  Lemma layout_widths a L : (forall p, p ∈ L -> reach h0 roots p) ->
    widths (layout h0 a L) = total_size h0 L /\ Forall pos_width (layout h0 a L).
  Proof.
    revert a; induction L as [|p L IH]; intros a HL; [split; [done|constructor]|].
    destruct (IH (a + size_at h0 p)) as [IH1 IH2]; [intros q Hq; apply HL; by constructor|].
    destruct (reach_cell p) as [Hc Hw]; [apply HL; by constructor|].
    destruct (widths_cells_of _ _ _ _ _ a Hw) as [H1 H2].
    cbn [layout]. rewrite widths_app, IH1, H1. split.
    - cbn [total_size foldr]. unfold size_at at 1. by rewrite Hc.
    - by apply Forall_app.
  Qed.

  (** a cell of the layout comes from the head or an element of a copied object *)
  Lemma layout_origin a L c : (forall p, p ∈ L -> reach h0 roots p) -> c ∈ layout h0 a L ->
    exists p, p ∈ L /\
      ((is_array (cell_at h0 p) = true /\ c_ty c = c_ty (cell_at h0 p) /\ c_bytes c = [])
       \/ (is_array (cell_at h0 p) = false /\ is_bytes (cell_at h0 p) = true /\ c = cell_at h0 p)
       \/ (is_array (cell_at h0 p) = false /\ is_bytes (cell_at h0 p) = false /\ c = strip (cell_at h0 p))
       \/ (is_array (cell_at h0 p) = true /\ exists i e, 0 <= i < c_car (cell_at h0 p)
             /\ h0 !! (c_cdr (cell_at h0 p) + i) = Some e /\ is_element e /\ c = strip e)).
  Proof.
    revert a; induction L as [|p L IH]; intros a HL Hc; [by apply elem_of_nil in Hc|].
    cbn [layout] in Hc. apply elem_of_app in Hc as [Hc|Hc].
    2:{ destruct (IH _ ltac:(intros q Hq; apply HL; by constructor) Hc) as (q & Hq & ?). exists q; split; [by constructor|done]. }
    exists p. split; [by constructor|].
    destruct (reach_cell p) as [Hp Hw]; [apply HL; by constructor|].
    unfold cells_of in Hc. destruct (is_array (cell_at h0 p)) eqn:Ha.
    - apply elem_of_cons in Hc as [->|Hc]; [by left|]. right. right. right. split; [done|].
      apply elem_of_list_fmap in Hc as (e & -> & He). apply elem_of_list_lookup in He as [k Hk].
      destruct (wf_array _ _ _ _ _ Hw Ha) as (H1 & H2 & H3 & H4 & Hel).
      apply elements_lookup in Hk as [Hk Hlt]; [|intros i Hi; destruct (Hel i Hi) as (?&?&?); eauto].
      destruct (Hel (Z.of_nat k)) as (e' & He' & Hty); [lia|].
      rewrite Hk in He'. injection He' as <-.
      exists (Z.of_nat k), e. split; [lia|]. done.
    - destruct (is_bytes (cell_at h0 p)) eqn:Hb; apply elem_of_list_singleton in Hc as ->.
      + right; left. split; [done|]. split; [done|]. by destruct (cell_at h0 p).
      + right; right; left. done.
  Qed.

  Lemma refs_strip c : cell_refs (strip c) = cell_refs c.
  Proof. done. Qed.

  Lemma array_refs c t : is_array c = true -> c_ty t = c_ty c -> cell_refs t = [].
  Proof.
    unfold is_array, cell_refs. intros H Ht. rewrite Ht.
    assert (c_ty c = TVECTOR \/ c_ty c = TSTRUCT) as [->| ->] by lia; done.
  Qed.

  Lemma reach_step p q : reach h0 roots p -> points_to h0 p q -> reach h0 roots q.
  Proof. intros (r & Hr & Hp) Hq. exists r; split; [done|]. by eapply rtc_r. Qed.

  Lemma layout_facts a L c : (forall p, p ∈ L -> reach h0 roots p) -> c ∈ layout h0 a L ->
    c_ty c <> TBROKEN_HEART /\ (forall q, q ∈ cell_refs c -> reach h0 roots q).
  Proof.
    intros HL Hc. destruct (layout_origin _ _ _ HL Hc) as (p & Hp & H).
    destruct (reach_cell p (HL p Hp)) as [Hcp Hw].
    pose proof (wf_type _ _ _ _ _ Hw) as Ht.
    destruct H as [(Ha & Hty & _)|[(Ha & Hb & ->)|[(Ha & Hb & ->)|(Ha & i & e & Hi & He & Hel & ->)]]].
    - split; [lia|]. intros q Hq. rewrite (array_refs _ _ Ha Hty) in Hq. by apply elem_of_nil in Hq.
    - split; [lia|]. intros q Hq. eapply reach_step; [by apply HL|]. by eapply pt_cell.
    - split; [cbn; lia|]. intros q Hq. rewrite refs_strip in Hq.
      eapply reach_step; [by apply HL|]. by eapply pt_cell.
    - split; [cbn; destruct Hel as [->|[->| ->]]; done|]. intros q Hq. rewrite refs_strip in Hq.
      eapply reach_step; [by apply HL|]. by eapply pt_elem.
  Qed.

  (** if the references of all cells of the layout are themselves copied, everything reachable is copied *)
  Lemma layout_closed a L p q : (forall p, p ∈ L -> reach h0 roots p) ->
    (forall c r, c ∈ layout h0 a L -> r ∈ cell_refs c -> r ∈ L) ->
    p ∈ L -> points_to h0 p q -> q ∈ L.
  Proof.
    intros HL Hcl Hp Hpt.
    apply elem_of_list_split in Hp as (L1 & L2 & HLe).
    destruct (reach_cell p) as [Hcp Hw]; [apply HL; rewrite HLe; apply elem_of_app; right; constructor|].
    assert (Hin : forall c, c ∈ cells_of h0 (cell_at h0 p) (a + total_size h0 L1) -> c ∈ layout h0 a L).
    { intros c Hc. rewrite HLe, layout_app. cbn [layout]. set_solver. }
    inversion Hpt as [? c ? Hc Hr| ? c i e ? Hc Ha Hi He Hr]; subst.
    - rewrite Hcp in Hc. injection Hc as <-.
      unfold cells_of in Hin. destruct (is_array (cell_at h0 p)) eqn:Ha.
      + rewrite (array_refs _ _ Ha eq_refl) in Hr. by apply elem_of_nil in Hr.
      + destruct (is_bytes (cell_at h0 p)) eqn:Hb.
        * eapply Hcl; [apply Hin, elem_of_list_singleton; reflexivity|]. done.
        * eapply Hcl; [apply Hin, elem_of_list_singleton; reflexivity|]. done.
    - rewrite Hcp in Hc. injection Hc as <-.
      unfold cells_of in Hin. rewrite Ha in Hin.
      eapply (Hcl (strip e)); [|done]. apply Hin. apply elem_of_cons; right.
      apply elem_of_list_fmap. exists e. split; [done|].
      apply elem_of_list_lookup. exists (Z.to_nat i). by apply elements_lookup_2.
  Qed.

  Lemma total_size_le live L :
    (forall p, reach h0 roots p <-> p ∈ live) ->
    NoDup L -> (forall p, p ∈ L -> reach h0 roots p) ->
    total_size h0 L <= total_size h0 live.
  Proof.
    intros Hlive'. assert (Hlive : forall p, reach h0 roots p -> p ∈ live) by apply Hlive'.
    assert (Hlr : forall p, p ∈ live -> reach h0 roots p) by apply Hlive'.
    intros Hnd HL.
    assert (Hsub : L ⊆+ live). { apply NoDup_submseteq; [done|]. intros p Hp. by apply Hlive, HL. }
    apply submseteq_Permutation in Hsub as [k Hk].
    assert (Hperm : forall l1 l2, l1 ≡ₚ l2 -> total_size h0 l1 = total_size h0 l2).
    { induction 1; cbn in *; unfold total_size in *; lia. }
    rewrite (Hperm _ _ Hk), total_size_app.
    assert (Hk2 : forall p, p ∈ k -> reach h0 roots p).
    { intros p Hp. apply Hlr. rewrite Hk. set_solver. }
    clear Hk. induction k as [|p k IH]; [cbn; lia|].
    cbn [total_size foldr]. unfold total_size in *. 
    assert (1 <= size_at h0 p) by (apply size_pos; set_solver).
    enough (foldr (λ (p : Z) (n : Z), size_at h0 p + n) 0 L ≤ foldr (λ (p : Z) (n : Z), size_at h0 p + n) 0 L + foldr (λ (p : Z) (n : Z), size_at h0 p + n) 0 k) by lia.
    apply IH. set_solver.
  Qed.

  (** the total size of any set of live objects is at most [T], and [T] cells are left *)
  Context (T : Z) (s : state).
  Context (HT : forall L, NoDup L -> (forall p, p ∈ L -> reach h0 roots p) -> total_size h0 L <= T).
  Context (Hfit : base + T <= limit s).

  Definition top (L : list Z) : Z := base + total_size h0 L.
  Definition add (L : list Z) (p : Z) : list Z := if decide (p ∈ L) then L else L ++ [p].

  Lemma copy_inv L φ h cur p :
    inv L φ h cur -> reach h0 roots p ->
    exists φ' h' n ext, gc_copy p (upd h (top L) s) = ROk n (upd h' (top (add L p)) s)
      /\ φ' !! p = Some n /\ φ ⊆ φ'
      /\ inv (add L p) φ' h' (cur ++ ext)
      /\ layout h0 base (add L p) = layout h0 base L ++ ext.
  Proof.
    intros I Hp. unfold add. destruct (decide (p ∈ L)) as [Hin|Hnin].
    - apply (i_dom _ _ _ _ I) in Hin as [n Hn].
      destruct (i_fwd _ _ _ _ I _ _ Hn) as (c & Hc & Hty & Hcar).
      exists φ, h, n, []. split.
      { rewrite (gc_copy_forwarded _ c); [|done|done]. by rewrite Hcar. }
      rewrite !app_nil_r. done.
    - destruct (reach_cell p Hp) as [Hc Hw].
      assert (Hnone : φ !! p = None).
      { destruct (φ !! p) eqn:E; [|done]. exfalso; apply Hnin, (i_dom _ _ _ _ I). eauto. }
      pose proof (wf_range _ _ _ _ _ Hw) as Hrange.
      assert (Hhp : h !! p = Some (cell_at h0 p)).
      { rewrite (i_old _ _ _ _ I) by (lia || done). done. }
      (* the object's interior is untouched *)
      assert (Hint : is_array (cell_at h0 p) = true -> forall i, 0 <= i < c_car (cell_at h0 p) ->
                h !! (c_cdr (cell_at h0 p) + i) = h0 !! (c_cdr (cell_at h0 p) + i)).
      { intros Ha i Hi. destruct (wf_array _ _ _ _ _ Hw Ha) as (H1 & H2 & H3 & H4 & _).
        apply (i_old _ _ _ _ I); [lia|].
        destruct (φ !! (c_cdr (cell_at h0 p) + i)) as [n|] eqn:E; [|done]. exfalso.
        set (q := c_cdr (cell_at h0 p) + i) in *.
        assert (Hq : reach h0 roots q). { apply (i_reach _ _ _ _ I), (i_dom _ _ _ _ I). eauto. }
        destruct (reach_cell q Hq) as [Hcq _].
        eapply (ok_disj _ _ _ _ Hok p q _ _ q Hp Hq); [lia|done|done| |by left].
        right; left. split; [done|]. lia. }
      assert (Hw' : wf_obj lo hi h p (cell_at h0 p)).
      { destruct Hw as [W1 W2 W3 W4]. constructor; try done. intros Ha.
        destruct (W3 Ha) as (H1 & H2 & H3 & H4 & H5). repeat split; try done.
        intros i Hi. rewrite (Hint Ha i Hi). by apply H5. }
      assert (Hcells : forall n, cells_of h (cell_at h0 p) n = cells_of h0 (cell_at h0 p) n).
      { intros n. unfold cells_of. destruct (is_array (cell_at h0 p)) eqn:Ha; [|done].
        do 2 f_equal. unfold elements. apply list_fmap_ext. intros k i Hk.
        apply lookup_seqZ in Hk as [-> Hk]. rewrite (Hint eq_refl) by lia. done. }
      assert (Hsz : size_at h0 p = obj_size (cell_at h0 p)) by (unfold size_at; by rewrite Hc).
      assert (Hnd : NoDup (L ++ [p])).
      { apply NoDup_app. split; [apply (i_nodup _ _ _ _ I)|]. split; [|apply NoDup_singleton].
        intros x Hx Hx'. apply elem_of_list_singleton in Hx' as ->. done. }
      assert (Hreach' : forall q, q ∈ L ++ [p] -> reach h0 roots q).
      { intros q Hq. apply elem_of_app in Hq as [Hq|Hq]; [by apply (i_reach _ _ _ _ I)|].
        apply elem_of_list_singleton in Hq as ->. done. }
      assert (Htot : total_size h0 (L ++ [p]) = total_size h0 L + obj_size (cell_at h0 p)).
      { rewrite total_size_app. cbn. rewrite Hsz. lia. }
      assert (H0 : 0 <= total_size h0 L).
      { rewrite <- (i_size _ _ _ _ I). apply widths_nonneg, (i_pos _ _ _ _ I). }
      pose proof (HT _ Hnd Hreach') as Hle.
      destruct (gc_copy_new lo hi h p (cell_at h0 p) (top L) s Hhp Hw' Hlo) as (h' & Hrun & Hfw & Hfr & Htl).
      { unfold top. lia. }
      { unfold top. lia. }
      exists (<[p := top L]> φ), h', (top L), (cells_of h0 (cell_at h0 p) (top L)).
      split. { rewrite Hrun. f_equal. f_equal. unfold top. lia. }
      split; [by rewrite lookup_insert|].
      split; [by apply insert_subseteq|].
      assert (Hext : layout h0 base (L ++ [p]) = layout h0 base L ++ cells_of h0 (cell_at h0 p) (top L)).
      { rewrite layout_app. cbn [layout]. by rewrite app_nil_r. }
      split; [|done].
      destruct (widths_cells_of _ _ _ _ _ (top L) Hw) as [Hwd Hpw].
      constructor.
      + done.
      + intros q. rewrite elem_of_app, elem_of_list_singleton, lookup_insert_is_Some, (i_dom _ _ _ _ I).
        destruct (decide (p = q)) as [->|]; naive_solver.
      + intros L1 q L2 HL.
        destruct L2 as [|x L2 _] using rev_ind.
        * apply app_inj_tail in HL as [-> ->]. rewrite lookup_insert. done.
        * rewrite app_comm_cons, app_assoc in HL. apply app_inj_tail in HL as [HL ->].
          rewrite lookup_insert_ne. { by apply (i_addr _ _ _ _ I L1 q L2). }
          intros ->. apply Hnin. rewrite HL. set_solver.
      + done.
      + intros q Hq Hn. apply lookup_insert_None in Hn as [Hn Hne].
        rewrite Hfr by (unfold top; lia || done). by apply (i_old _ _ _ _ I).
      + intros q n Hq. destruct (decide (p = q)) as [->|Hne].
        * rewrite lookup_insert in Hq. injection Hq as <-. eexists. split; [exact Hfw|]. done.
        * rewrite lookup_insert_ne in Hq by done.
          destruct (i_fwd _ _ _ _ I _ _ Hq) as (c & Hcq & Hty & Hcar).
          exists c. split; [|done]. rewrite Hfr; [done| |done].
          assert (reach h0 roots q) as Hrq. { apply (i_reach _ _ _ _ I), (i_dom _ _ _ _ I). eauto. }
          destruct (reach_cell q Hrq) as [_ Hwq]. pose proof (wf_range _ _ _ _ _ Hwq). unfold top. lia.
      + apply tiled_app. split.
        * eapply tiled_frame; [apply (i_pos _ _ _ _ I)| |apply (i_tiled _ _ _ _ I)].
          intros q Hq. rewrite (i_size _ _ _ _ I) in Hq. apply Hfr; [unfold top; lia|lia].
        * rewrite (i_size _ _ _ _ I). fold (top L). by rewrite <- Hcells.
      + apply Forall_app. split; [apply (i_pos _ _ _ _ I)|done].
      + rewrite widths_app, (i_size _ _ _ _ I), Hwd, Htot. done.
  Qed.

  Lemma add_subset L p q : q ∈ L -> q ∈ add L p.
  Proof. unfold add. destruct (decide (p ∈ L)); set_solver. Qed.
  Lemma add_in L p : p ∈ add L p.
  Proof. unfold add. destruct (decide (p ∈ L)); set_solver. Qed.
  Lemma add_prefix L p : L `prefix_of` add L p.
  Proof. unfold add. destruct (decide (p ∈ L)); [done|]. by exists [p]. Qed.

  (** scanning invariant: [dn] scanned, [td] still to scan *)
  Record scan_inv (L : list Z) (φ : gmap Z Z) (h : gmap Z cell) (dn td : list cell) : Prop := {
    s_inv : inv L φ h ((reloc φ <$> dn) ++ td);
    s_layout : layout h0 base L = dn ++ td;
    s_done : forall c q, c ∈ dn -> q ∈ cell_refs c -> q ∈ L }.

  Lemma write_inv L φ h cs c c' ds :
    inv L φ h (cs ++ c :: ds) -> width c' = width c ->
    inv L φ (<[base + widths cs := c']> h) (cs ++ c' :: ds).
  Proof.
    intros [I1 I2 I3 I4 I5 I6 I7 I8 I9] Hw.
    apply Forall_app in I8 as [P1 P2]. apply Forall_cons in P2 as [P2 P3].
    pose proof (widths_nonneg _ P1).
    constructor; try done.
    - intros q Hq Hn. rewrite lookup_insert_ne by lia. by apply I5.
    - intros q n Hq. destruct (I6 q n Hq) as (x & Hx & ?). exists x. split; [|done].
      rewrite lookup_insert_ne; [done|].
      assert (reach h0 roots q) as Hrq. { apply I4, I2. eauto. }
      destruct (reach_cell q Hrq) as [_ Hwq]. pose proof (wf_range _ _ _ _ _ Hwq). lia.
    - by eapply tiled_update.
    - apply Forall_app. split; [done|]. apply Forall_cons. split; [|done]. unfold pos_width in *. lia.
    - rewrite widths_app, widths_cons in *. lia.
  Qed.

  Lemma reloc_fmap_mono φ φ' (dn : list cell) :
    (forall c q, c ∈ dn -> q ∈ cell_refs c -> is_Some (φ !! q)) -> φ ⊆ φ' ->
    reloc φ' <$> dn = reloc φ <$> dn.
  Proof.
    intros Hd Hs. apply list_fmap_ext. intros k c Hk. apply reloc_mono; [|done].
    intros q Hq. eapply Hd; [|done]. by eapply elem_of_list_lookup_2.
  Qed.

  Lemma inv_lookup L φ h cs c ds : inv L φ h (cs ++ c :: ds) -> h !! (base + widths cs) = Some c.
  Proof. intros I. pose proof (i_tiled _ _ _ _ I) as Ht. apply tiled_app in Ht as [_ Ht]. cbn [tiled] in Ht. apply Ht. Qed.

  Lemma inv_top L φ h cur : inv L φ h cur -> base <= top L <= limit s.
  Proof.
    intros I. unfold top. rewrite <- (i_size _ _ _ _ I).
    pose proof (widths_nonneg _ (i_pos _ _ _ _ I)). pose proof (HT _ (i_nodup _ _ _ _ I) (i_reach _ _ _ _ I)).
    rewrite <- (i_size _ _ _ _ I) in *. lia.
  Qed.

  Lemma gc_scan_ok fuel : forall L φ h dn td,
    scan_inv L φ h dn td ->
    T - widths dn <= Z.of_nat fuel ->
    exists L' φ' h', gc_scan fuel (base + widths dn) (upd h (top L) s) = ROk tt (upd h' (top L') s)
      /\ L `prefix_of` L' /\ φ ⊆ φ' /\ scan_inv L' φ' h' (layout h0 base L') [].
  Proof.
    induction fuel as [|fuel IH]; intros L φ h dn td SI Hfuel.
    - destruct SI as [I Hlay Hdn].
      pose proof (inv_top _ _ _ _ I) as Htop.
      pose proof (HT _ (i_nodup _ _ _ _ I) (i_reach _ _ _ _ I)) as Hle.
      destruct (layout_widths base L (i_reach _ _ _ _ I)) as [Hlw Hlp].
      rewrite Hlay in Hlw, Hlp. rewrite widths_app in Hlw. apply Forall_app in Hlp as [Hp1 Hp2].
      destruct td as [|c td].
      + exists L, φ, h. cbn [gc_scan]. rewrite bind_gets. autorewrite with upd.
        rewrite widths_nil in Hlw. unfold top at 1.
        destruct (Z.ltb_spec (base + widths dn) (base + total_size h0 L)); [lia|]. cbn.
        split; [done|]. split; [done|]. split; [done|]. rewrite app_nil_r in *. rewrite Hlay.
        constructor; [by rewrite app_nil_r|by rewrite app_nil_r|done].
      + exfalso. rewrite widths_cons in Hlw. apply Forall_cons in Hp2 as [Hc Hp2]. unfold pos_width in Hc.
        pose proof (widths_nonneg _ Hp2). lia.
    - destruct SI as [I Hlay Hdn].
      pose proof (inv_top _ _ _ _ I) as Htop.
      pose proof (HT _ (i_nodup _ _ _ _ I) (i_reach _ _ _ _ I)) as Hle.
      destruct (layout_widths base L (i_reach _ _ _ _ I)) as [Hlw Hlp].
      rewrite Hlay in Hlw, Hlp. rewrite widths_app in Hlw. apply Forall_app in Hlp as [Hp1 Hp2].
      cbn [gc_scan]. rewrite bind_gets. autorewrite with upd.
      destruct td as [|c td].
      { exists L, φ, h. rewrite widths_nil in Hlw. unfold top at 1.
        destruct (Z.ltb_spec (base + widths dn) (base + total_size h0 L)); [lia|]. cbn.
        split; [done|]. split; [done|]. split; [done|]. rewrite app_nil_r in *. rewrite Hlay.
        constructor; [by rewrite app_nil_r|by rewrite app_nil_r|done]. }
      rewrite widths_cons in Hlw. apply Forall_cons in Hp2 as [Hc Hp2]. unfold pos_width in Hc.
      pose proof (widths_nonneg _ Hp2) as Htd0. pose proof (widths_nonneg _ Hp1) as Hdn0.
      unfold top at 1.
      destruct (Z.ltb_spec (base + widths dn) (base + total_size h0 L)); [|lia]. cbn [negb].
      assert (Hcin : c ∈ layout h0 base L) by (rewrite Hlay; set_solver).
      destruct (layout_facts _ _ _ (i_reach _ _ _ _ I) Hcin) as [Hnbh Hrefs].
      pose proof (inv_lookup _ _ _ _ _ _ I) as Hlk. rewrite widths_reloc in Hlk.
      erewrite bind_ok by by apply ty_ok.
      destruct (Z.eqb_spec (c_ty c) TBROKEN_HEART) as [|_]; [done|]. rewrite bind_ret.
      set (scan := base + widths dn) in *.
      (* the car field *)
      assert (Hcar : exists L1 φ1 h1 ext1,
        (if car_pointer (c_ty c) then a <- car_of scan;; car <- gc_copy a;; set_car scan car else ret ())
           (upd h (top L) s) = ROk tt (upd h1 (top L1) s)
        /\ L `prefix_of` L1 /\ φ ⊆ φ1
        /\ (car_pointer (c_ty c) = true -> is_Some (φ1 !! c_car c))
        /\ layout h0 base L1 = dn ++ c :: td ++ ext1
        /\ inv L1 φ1 h1 ((reloc φ1 <$> dn) ++
             Cell (c_ty c) (if car_pointer (c_ty c) then fwd φ1 (c_car c) else c_car c) (c_cdr c) (c_bytes c)
             :: td ++ ext1)).
      { destruct (car_pointer (c_ty c)) eqn:Ecar.
        - assert (Hr : reach h0 roots (c_car c)).
          { apply Hrefs. unfold cell_refs. rewrite <- car_pointer_ref, Ecar. set_solver. }
          erewrite bind_ok by by apply car_of_ok.
          destruct (copy_inv _ _ _ _ _ I Hr) as (φ1 & h1 & n & ext & Hrun & Hn & Hsub & I1 & Hl1).
          erewrite bind_ok by done.
          assert (Hmono : reloc φ1 <$> dn = reloc φ <$> dn).
          { apply reloc_fmap_mono; [|done]. intros x q Hx Hq. apply (i_dom _ _ _ _ I). by eapply Hdn. }
          rewrite <- Hmono in I1. rewrite <- app_assoc in I1. cbn [app] in I1.
          pose proof (inv_lookup _ _ _ _ _ _ I1) as Hlk1. rewrite widths_reloc in Hlk1. fold scan in Hlk1.
          exists (add L (c_car c)), φ1.
          eexists _, ext. split; [apply set_car_ok; [done|unfold scan, top in *; lia]|].
          split; [apply add_prefix|]. split; [done|]. split; [eauto|].
          split. { rewrite Hl1, Hlay, <- app_assoc. done. }
          unfold scan. rewrite <- (widths_reloc φ1 dn).
          unfold fwd. rewrite Hn. cbn [default].
          apply write_inv with c; [done|].
          unfold width. cbn. destruct (Z.eqb_spec (c_ty c) TBYTES) as [E|]; [|done]. rewrite E in Ecar. done.
        - exists L, φ, h, []. rewrite !app_nil_r. split; [done|]. split; [done|]. split; [done|].
          split; [done|]. split; [done|]. by destruct c. }
      destruct Hcar as (L1 & φ1 & h1 & ext1 & Hrun1 & Hpre1 & Hsub1 & Hdom1 & Hlay1 & I1).
      rewrite (bind_ok _ _ _ _ _ Hrun1).
      pose proof (inv_top _ _ _ _ I1) as Htop1.
      (* the cdr field *)
      pose proof (inv_lookup _ _ _ _ _ _ I1) as Hlk1. rewrite widths_reloc in Hlk1. fold scan in Hlk1.
      assert (Hcdr : exists L2 φ2 h2 ext2,
        (if cdr_pointer (c_ty c) then d <- cdr_of scan;; cdr <- gc_copy d;; set_cdr scan cdr else ret ())
           (upd h1 (top L1) s) = ROk tt (upd h2 (top L2) s)
        /\ L1 `prefix_of` L2 /\ φ1 ⊆ φ2
        /\ (cdr_pointer (c_ty c) = true -> is_Some (φ2 !! c_cdr c))
        /\ layout h0 base L2 = dn ++ c :: td ++ ext1 ++ ext2
        /\ inv L2 φ2 h2 ((reloc φ2 <$> dn) ++ reloc φ2 c :: td ++ ext1 ++ ext2)).
      { destruct (cdr_pointer (c_ty c)) eqn:Ecdr.
        - assert (Hr : reach h0 roots (c_cdr c)).
          { apply Hrefs. unfold cell_refs. rewrite <- cdr_pointer_ref, Ecdr. set_solver. }
          erewrite bind_ok by by apply cdr_of_ok. cbn [c_cdr].
          destruct (copy_inv _ _ _ _ _ I1 Hr) as (φ2 & h2 & n & ext & Hrun & Hn & Hsub & I2 & Hl2).
          erewrite bind_ok by done.
          assert (Hmono : reloc φ2 <$> dn = reloc φ1 <$> dn).
          { apply reloc_fmap_mono; [|done]. intros x q Hx Hq.
            eapply lookup_weaken_is_Some; [|exact Hsub1]. apply (i_dom _ _ _ _ I). by eapply Hdn. }
          rewrite <- Hmono in I2. rewrite <- app_assoc in I2. cbn [app] in I2. rewrite <- app_assoc in I2.
          pose proof (inv_lookup _ _ _ _ _ _ I2) as Hlk2. rewrite widths_reloc in Hlk2. fold scan in Hlk2.
          exists (add L1 (c_cdr c)), φ2.
          eexists _, ext. split; [apply set_cdr_ok; [done|unfold scan, top in *; lia]|].
          split; [apply add_prefix|]. split; [done|]. split; [eauto|].
          split. { rewrite Hl2, Hlay1, <- app_assoc. cbn [app]. by rewrite <- app_assoc. }
          unfold scan. rewrite <- (widths_reloc φ2 dn). cbn [c_ty c_car c_bytes].
          assert (reloc φ2 c = Cell (c_ty c) (if car_pointer (c_ty c) then fwd φ1 (c_car c) else c_car c) n (c_bytes c)) as ->.
          { unfold reloc. rewrite Ecdr. unfold fwd at 2. rewrite Hn. cbn [default]. f_equal.
            destruct (car_pointer (c_ty c)) eqn:Ecar; [|done]. destruct (Hdom1 eq_refl) as [m Hm].
            unfold fwd. by rewrite Hm, (lookup_weaken _ _ _ _ Hm Hsub). }
          eapply write_inv; [done|]. unfold width; cbn. done.
        - exists L1, φ1, h1, []. rewrite !app_nil_r. split; [done|]. split; [done|]. split; [done|].
          split; [done|]. split; [done|]. unfold reloc. by rewrite Ecdr. }
      destruct Hcdr as (L2 & φ2 & h2 & ext2 & Hrun2 & Hpre2 & Hsub2 & Hdom2 & Hlay2 & I2).
      rewrite (bind_ok _ _ _ _ _ Hrun2).
      (* advance *)
      assert (SI2 : scan_inv L2 φ2 h2 (dn ++ [c]) (td ++ ext1 ++ ext2)).
      { constructor.
        - rewrite fmap_app, <- app_assoc. done.
        - rewrite Hlay2, <- app_assoc. done.
        - intros x q Hx Hq. apply elem_of_app in Hx as [Hx|Hx].
          + assert (q ∈ L) as Hq' by by eapply Hdn.
            apply elem_of_prefix with L; [done|]. by etrans.
          + apply elem_of_list_singleton in Hx as ->. apply (i_dom _ _ _ _ I2).
            unfold cell_refs in Hq. rewrite <- car_pointer_ref, <- cdr_pointer_ref in Hq.
            apply elem_of_app in Hq as [Hq|Hq].
            * destruct (car_pointer (c_ty c)); [|by apply elem_of_nil in Hq].
              apply elem_of_list_singleton in Hq as ->. eapply lookup_weaken_is_Some; [by apply Hdom1|done].
            * destruct (cdr_pointer (c_ty c)); [|by apply elem_of_nil in Hq].
              apply elem_of_list_singleton in Hq as ->. by apply Hdom2. }
      destruct (IH L2 φ2 h2 _ _ SI2) as (L3 & φ3 & h3 & Hrun3 & Hpre3 & Hsub3 & SI3).
      { rewrite widths_app, widths_cons, widths_nil. lia. }
      rewrite widths_app, widths_cons, widths_nil, Z.add_0_r, Z.add_assoc in Hrun3. fold scan in Hrun3.
      exists L3, φ3, h3. split; [|split; [|split; [|done]]].
      + pose proof (inv_lookup _ _ _ _ _ _ I2) as Hlk2. rewrite widths_reloc in Hlk2. fold scan in Hlk2.
        unfold width in Hrun3. destruct (Z.eqb_spec (c_ty c) TBYTES) as [E|].
        * erewrite bind_ok by by apply car_of_ok. unfold reloc. cbn [c_car]. rewrite E. cbn. done.
        * done.
      + etrans; [done|]. by etrans.
      + etrans; [done|]. by etrans.
  Qed.
End cheney.
