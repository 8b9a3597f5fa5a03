(** gc_copy (src/gc.c:486-531): what one call does to the heap. *)
From stdpp Require Import base gmap list.
From Coq Require Import ZArith Lia.
From Coq Require Import ZifyBool ZifyNat.
From Verif Require Import CInt Symbols Heap HeapLemmas GcModel GcSpec.
Open Scope Z_scope.
Open Scope mes_scope.

(** cells laid out one after the other *)
Definition width (c : cell) : Z := if c_ty c =? TBYTES then bytes_cells (c_car c) else 1.
Definition widths (cs : list cell) : Z := foldr (fun c n => width c + n) 0 cs.
Fixpoint tiled (h : gmap Z cell) (a : Z) (cs : list cell) : Prop :=
  match cs with
  | [] => True
  | c :: cs' => h !! a = Some c /\ tiled h (a + width c) cs'
  end.
Definition strip (c : cell) : cell := Cell (c_ty c) (c_car c) (c_cdr c) [].

Definition pos_width (c : cell) : Prop := 1 <= width c.

Global Arguments widths : simpl never.
Lemma widths_nil : widths [] = 0. Proof. done. Qed.
Lemma widths_cons c cs : widths (c :: cs) = width c + widths cs. Proof. done. Qed.
Lemma widths_app cs ds : widths (cs ++ ds) = widths cs + widths ds.
Proof. induction cs; cbn [app]; rewrite ?widths_cons, ?widths_nil; lia. Qed.
Lemma widths_nonneg cs : Forall pos_width cs -> 0 <= widths cs.
Proof. induction 1 as [|c cs H _ IH]; rewrite ?widths_cons, ?widths_nil; unfold pos_width in *; lia. Qed.
Lemma widths_length cs : Forall pos_width cs -> Z.of_nat (length cs) <= widths cs.
Proof. induction 1 as [|c cs H _ IH]; cbn [length]; rewrite ?widths_cons, ?widths_nil; unfold pos_width in *; lia. Qed.
Lemma widths_ones cs : Forall (fun c => width c = 1) cs -> widths cs = Z.of_nat (length cs).
Proof. induction 1 as [|c cs H _ IH]; cbn [length]; rewrite ?widths_cons, ?widths_nil; lia. Qed.

Lemma tiled_app h a cs ds : tiled h a (cs ++ ds) <-> tiled h a cs /\ tiled h (a + widths cs) ds.
Proof.
  revert a; induction cs as [|c cs IH]; intros a; cbn [tiled app].
  - rewrite widths_nil, Z.add_0_r. tauto.
  - rewrite IH, widths_cons. replace (a + width c + widths cs) with (a + (width c + widths cs)) by lia. tauto.
Qed.

(** changes outside [a, a + widths cs) do not matter *)
Lemma tiled_frame h h' a cs :
  Forall pos_width cs ->
  (forall q, a <= q < a + widths cs -> h' !! q = h !! q) ->
  tiled h a cs -> tiled h' a cs.
Proof.
  intros Hw; revert a; induction Hw as [|c cs Hc Hcs IH]; intros a Hq; cbn [tiled]; [done|].
  intros [H1 H2]. rewrite widths_cons in Hq.
  assert (0 <= widths cs) by by apply widths_nonneg. unfold pos_width in Hc.
  split.
  - rewrite Hq by lia. done.
  - apply IH; [|done]. intros q ?. apply Hq. lia.
Qed.

Lemma tiled_update h a cs c c' ds :
  Forall pos_width cs -> Forall pos_width ds -> pos_width c -> width c' = width c ->
  tiled h a (cs ++ c :: ds) ->
  tiled (<[a + widths cs := c']> h) a (cs ++ c' :: ds).
Proof.
  intros Hcs Hds Hc Hw. rewrite !tiled_app. cbn [tiled]. intros (H1 & H2 & H3).
  unfold pos_width in Hc.
  split; [|split].
  - eapply tiled_frame; [done| |done]. intros q Hq. rewrite lookup_insert_ne by lia. done.
  - by rewrite lookup_insert.
  - rewrite Hw. eapply tiled_frame; [done| |done]. intros q Hq. rewrite lookup_insert_ne by lia. done.
Qed.

Fixpoint fill (h : gmap Z cell) (a : Z) (cs : list cell) : gmap Z cell :=
  match cs with
  | [] => h
  | c :: cs' => fill (<[a := c]> h) (a + 1) cs'
  end.

Lemma fill_lookup_out h a cs q :
  (q < a \/ a + Z.of_nat (length cs) <= q) -> fill h a cs !! q = h !! q.
Proof.
  revert h a; induction cs as [|c cs IH]; intros h a Hq; cbn [fill length] in *; [done|].
  rewrite IH by lia. apply lookup_insert_ne. lia.
Qed.
Lemma fill_lookup_in h a cs k c :
  cs !! k = Some c -> fill h a cs !! (a + Z.of_nat k) = Some c.
Proof.
  revert h a k; induction cs as [|c' cs IH]; intros h a k Hk; [done|].
  destruct k as [|k]; cbn [fill] in *.
  - cbn in Hk. injection Hk as ->. rewrite fill_lookup_out by lia.
    replace (a + Z.of_nat 0) with a by lia. by rewrite lookup_insert.
  - cbn in Hk. replace (a + Z.of_nat (S k)) with (a + 1 + Z.of_nat k) by lia. by apply IH.
Qed.
Lemma fill_tiled h a cs : Forall (fun c => width c = 1) cs -> tiled (fill h a cs) a cs.
Proof.
  intros H. revert h a; induction H as [|c cs Hc _ IH]; intros h a; cbn [fill tiled]; [done|].
  rewrite Hc. split; [|apply IH].
  rewrite fill_lookup_out by lia. by rewrite lookup_insert.
Qed.

Lemma copy_interior_ok n h fr v i es s :
  length es = n ->
  (forall k e, es !! k = Some e -> h !! (v + i + Z.of_nat k) = Some e) ->
  v + i + Z.of_nat n <= fr -> 1 <= fr -> fr + Z.of_nat n <= limit s ->
  copy_interior n v i (upd h fr s) = ROk tt (upd (fill h fr (strip <$> es)) (fr + Z.of_nat n) s).
Proof.
  revert h fr i es; induction n as [|n IH]; intros h fr i es Hlen Hes Hv Hfr Hlim.
  - destruct es; [|done]. cbn. by rewrite Z.add_0_r.
  - destruct es as [|e es]; [done|]. cbn [copy_interior].
    rewrite bind_gets. autorewrite with upd. unfold cell_ref.
    erewrite bind_ok; [|apply (copy_cell_ok _ _ e)]; [| |lia].
    2:{ rewrite <- (Hes 0%nat e) by done. f_equal; lia. }
    rewrite bind_modify. autorewrite with upd.
    rewrite (IH _ _ _ es).
    + cbn. f_equal. f_equal. lia.
    + by injection Hlen.
    + intros k e' Hk. rewrite lookup_insert_ne.
      * rewrite <- (Hes (S k) e') by done. f_equal; lia.
      * apply lookup_lt_Some in Hk. injection Hlen. lia.
    + lia.
    + lia.
    + lia.
Qed.

(** the elements stored inline in an array *)
Definition dummy : cell := Cell TCHAR 0 0 [].
Definition elements (h : gmap Z cell) (c : cell) : list cell :=
  (fun i => default dummy (h !! (c_cdr c + i))) <$> seqZ 0 (c_car c).

(** the cells that make up the copy at [n] of an object whose head is [c] *)
Definition cells_of (h : gmap Z cell) (c : cell) (n : Z) : list cell :=
  if is_array c then Cell (c_ty c) (c_car c) (n + 1) [] :: (strip <$> elements h c)
  else if is_bytes c then [Cell (c_ty c) (c_car c) (c_cdr c) (c_bytes c)]
  else [strip c].

Lemma gc_copy_forwarded p c h fr s :
  h !! p = Some c -> c_ty c = TBROKEN_HEART ->
  gc_copy p (upd h fr s) = ROk (c_car c) (upd h fr s).
Proof.
  intros H Hc. unfold gc_copy. erewrite bind_ok by by apply rd_ok. by rewrite Hc.
Qed.

Lemma elements_length h c : 0 <= c_car c -> length (elements h c) = Z.to_nat (c_car c).
Proof. intros. unfold elements. by rewrite fmap_length, seqZ_length. Qed.

Lemma elements_lookup h c k e :
  (forall i, 0 <= i < c_car c -> exists e, h !! (c_cdr c + i) = Some e) ->
  elements h c !! k = Some e -> h !! (c_cdr c + Z.of_nat k) = Some e /\ (Z.of_nat k < c_car c).
Proof.
  intros Hh Hk. unfold elements in Hk. apply list_lookup_fmap_inv in Hk as (i & -> & Hi).
  apply lookup_seqZ in Hi as [-> Hi].
  destruct (Hh (0 + Z.of_nat k)) as [e He]; [lia|].
  rewrite Z.add_0_l in *. rewrite He. cbn. split; [done|lia].
Qed.
Lemma elements_lookup_2 h c i e :
  0 <= i < c_car c -> h !! (c_cdr c + i) = Some e -> elements h c !! (Z.to_nat i) = Some e.
Proof.
  intros Hi He. unfold elements. rewrite list_lookup_fmap.
  rewrite lookup_seqZ_lt by lia. cbn. replace (0 + Z.of_nat (Z.to_nat i)) with i by lia.
  by rewrite He.
Qed.

Lemma widths_cells_of lo hi h p c n :
  wf_obj lo hi h p c ->
  widths (cells_of h c n) = obj_size c /\ Forall pos_width (cells_of h c n).
Proof.
  intros Hwf. unfold cells_of, obj_size.
  destruct (is_array c) eqn:Ha.
  - destruct (wf_array _ _ _ _ _ Hwf Ha) as (Hlen & _ & _ & _ & Hel).
    assert (Hw : Forall (fun c => width c = 1) (strip <$> elements h c)).
    { apply Forall_fmap, Forall_lookup. intros k e Hk.
      apply elements_lookup in Hk as [Hk Hlt]; [|intros i Hi; destruct (Hel i Hi) as (?&?&?); eauto].
      destruct (Hel (Z.of_nat k)) as (e' & He' & Hty); [lia|].
      rewrite Hk in He'. injection He' as <-.
      unfold width, strip. cbn. destruct Hty as [->|[->| ->]]; done. }
    assert (Hhead : width (Cell (c_ty c) (c_car c) (n + 1) []) = 1).
    { unfold width; cbn. unfold is_array in Ha. destruct (Z.eqb_spec (c_ty c) TBYTES) as [E|]; [|done].
      rewrite E in Ha. done. }
    split.
    + rewrite widths_cons, Hhead, widths_ones by done.
      rewrite fmap_length, elements_length by done. lia.
    + constructor; [unfold pos_width; lia|]. eapply Forall_impl; [done|]. unfold pos_width. intros ? ->. lia.
  - destruct (is_bytes c) eqn:Hb.
    + destruct (wf_bytes _ _ _ _ _ Hwf Hb) as [Hlen _].
      unfold is_bytes in Hb. rewrite widths_cons, widths_nil. unfold width. cbn. rewrite Hb.
      split; [lia|]. repeat constructor. unfold pos_width, width; cbn. rewrite Hb.
      assert (2 <= bytes_cells (c_car c)) by (apply bytes_cells_pos; lia). lia.
    + unfold is_bytes in Hb. rewrite widths_cons, widths_nil. unfold width, strip. cbn. rewrite Hb. split; [done|].
      repeat constructor. unfold pos_width, width; cbn. rewrite Hb. lia.
Qed.

(** copying an object that is not yet forwarded *)
Lemma gc_copy_new lo hi h p c fr s :
  h !! p = Some c -> wf_obj lo hi h p c -> 1 <= lo -> hi <= fr ->
  fr + obj_size c <= limit s ->
  exists h', gc_copy p (upd h fr s) = ROk fr (upd h' (fr + obj_size c) s)
    /\ h' !! p = Some (Cell TBROKEN_HEART fr (c_cdr c) (c_bytes c))
    /\ (forall q, q < fr -> q <> p -> h' !! q = h !! q)
    /\ tiled h' fr (cells_of h c fr).
Proof.
  intros Hp Hwf Hlo Hhi Hlim.
  pose proof (wf_range _ _ _ _ _ Hwf) as Hr.
  pose proof (wf_type _ _ _ _ _ Hwf) as Ht.
  pose proof (widths_cells_of _ _ _ _ _ fr Hwf) as [Hwd Hpw].
  assert (Hsz : 1 <= obj_size c).
  { rewrite <- Hwd. unfold cells_of in *. destruct (is_array c); [|destruct (is_bytes c)];
    inversion Hpw as [|? ? H1 H2]; subst; rewrite widths_cons; unfold pos_width in H1;
    apply widths_nonneg in H2; lia. }
  unfold gc_copy. erewrite bind_ok by by apply rd_ok.
  destruct (Z.eqb_spec (c_ty c) TBROKEN_HEART) as [E|_]; [lia|].
  rewrite bind_gets, bind_modify. autorewrite with upd.
  erewrite bind_ok by (apply copy_cell_ok; [done|lia]).
  (* what is left after the copy: forwarding *)
  assert (Hfin : forall h1, (forall q, q < fr -> h1 !! q = h !! q) -> tiled h1 fr (cells_of h c fr) ->
    exists h', (set_ty p TBROKEN_HEART;;; set_car p fr;;; ret fr) (upd h1 (fr + obj_size c) s)
       = ROk fr (upd h' (fr + obj_size c) s)
    /\ h' !! p = Some (Cell TBROKEN_HEART fr (c_cdr c) (c_bytes c))
    /\ (forall q, q < fr -> q <> p -> h' !! q = h !! q)
    /\ tiled h' fr (cells_of h c fr)).
  { intros h1 Hh1 Htl.
    erewrite bind_ok; [|apply set_ty_ok; [rewrite Hh1 by lia; done|lia]].
    erewrite bind_ok; [|apply set_car_ok; [by rewrite lookup_insert|lia]].
    eexists. split; [reflexivity|]. cbn [c_ty c_cdr c_bytes]. split; [by rewrite lookup_insert|].
    split.
    - intros q Hq Hne. rewrite !lookup_insert_ne by done. by apply Hh1.
    - eapply tiled_frame; [done| |done].
      intros q Hq. rewrite !lookup_insert_ne by lia. done. }
  unfold cells_of, obj_size in *.
  destruct (is_array c) eqn:Ha.
  - assert (Hor : (c_ty c =? TSTRUCT) || (c_ty c =? TVECTOR) = true).
    { unfold is_array in Ha. lia. }
    rewrite Hor.
    destruct (wf_array _ _ _ _ _ Hwf Ha) as (Hlen & Hl1 & Hl2 & Hl3 & Hel).
    rewrite bind_assoc, bind_gets. autorewrite with upd.
    rewrite bind_assoc.
    erewrite bind_ok; [|apply set_cdr_ok; [by rewrite lookup_insert|lia]].
    cbn [c_ty c_car c_bytes]. rewrite insert_insert.
    erewrite bind_ok.
    2:{ apply (copy_interior_ok _ _ _ _ _ (elements h c)).
        - by apply elements_length.
        - intros k e Hk. apply elements_lookup in Hk as [Hk Hlt];
            [|intros i Hi; destruct (Hel i Hi) as (?&?&?); eauto].
          rewrite lookup_insert_ne by lia. rewrite <- Hk. f_equal. lia.
        - lia.
        - lia.
        - lia. }
    replace (fr + 1 + Z.of_nat (Z.to_nat (c_car c))) with (fr + (1 + c_car c)) by lia.
    apply Hfin.
    + intros q Hq. rewrite fill_lookup_out by lia. rewrite lookup_insert_ne by lia. done.
    + cbn [tiled].
      assert (Hhead : width (Cell (c_ty c) (c_car c) (fr + 1) []) = 1).
      { unfold width; cbn. unfold is_array in Ha. destruct (Z.eqb_spec (c_ty c) TBYTES) as [E|]; [|done].
        rewrite E in Ha. done. }
      rewrite Hhead. split.
      * rewrite fill_lookup_out by lia. by rewrite lookup_insert.
      * apply fill_tiled. apply Forall_fmap, Forall_lookup. intros k e Hk.
        apply elements_lookup in Hk as [Hk Hlt]; [|intros i Hi; destruct (Hel i Hi) as (?&?&?); eauto].
        destruct (Hel (Z.of_nat k)) as (e' & He' & Hty); [lia|].
        rewrite Hk in He'. injection He' as <-.
        unfold width, strip. cbn. destruct Hty as [->|[->| ->]]; done.
  - assert (Hor : (c_ty c =? TSTRUCT) || (c_ty c =? TVECTOR) = false).
    { unfold is_array in Ha. lia. }
    rewrite Hor.
    destruct (is_bytes c) eqn:Hb.
    + unfold is_bytes in Hb. rewrite Hb.
      destruct (wf_bytes _ _ _ _ _ Hwf Hb) as [Hlen Hext].
      rewrite bind_assoc. destruct (Z.eqb_spec (Z.of_nat (length (c_bytes c))) (c_car c)) as [_|]; [|done].
      assert (memcpy_apart fr p (c_car c) = true) as ->.
      { unfold memcpy_apart. pose proof (bytes_cells_enough (c_car c)). lia. }
      cbn [andb].
      rewrite bind_ret, bind_assoc.
      pose proof (touched_le_bytes (Z.of_nat (length (c_bytes c))) ltac:(lia)) as Htb.
      rewrite Hlen in Htb.
      erewrite bind_ok; [|apply set_bytes_ok; [by rewrite lookup_insert|rewrite Hlen; lia]].
      rewrite bind_modify. autorewrite with upd.
      replace (fr + 1 + (bytes_cells (c_car c) - 1)) with (fr + bytes_cells (c_car c)) by lia.
      apply Hfin.
      * intros q Hq. rewrite lookup_insert_ne by lia. rewrite del_cells_lookup_out by lia.
        rewrite lookup_insert_ne by lia. done.
      * cbn [tiled]. split; [|done]. by rewrite lookup_insert.
    + unfold is_bytes in Hb. rewrite Hb, bind_ret.
      apply Hfin.
      * intros q Hq. rewrite lookup_insert_ne by lia. done.
      * cbn [tiled]. split; [|done]. by rewrite lookup_insert.
Qed.
