(** Consequences of [moved] for what a program can see. *)
From stdpp Require Import base gmap list relations.
From Coq Require Import ZArith Lia.
From Coq Require Import ZifyBool ZifyNat.
From Verif Require Import CInt Symbols Heap HeapLemmas GcModel GcSpec GcObserve GcScan GcProofs GcWhole.
Open Scope Z_scope.

Lemma get_field_points h p f q : get_field h p f = Some q -> points_to h p q.
Proof.
  unfold get_field. destruct (h !! p) as [c|] eqn:E; cbn; [|done]. destruct f as [| |i].
  - destruct (car_is_ref (c_ty c)) eqn:Ec; [|done]. intros [= <-]. eapply pt_cell; [done|].
    unfold cell_refs. rewrite Ec. apply elem_of_app; left; constructor.
  - destruct (cdr_is_ref (c_ty c)) eqn:Ec; [|done]. intros [= <-]. eapply pt_cell; [done|].
    unfold cell_refs. rewrite Ec. apply elem_of_app; right; constructor.
  - destruct (is_array c) eqn:Ea; cbn; [|done].
    destruct (Z.ltb_spec (Z.of_nat i) (c_car c)); [|done].
    destruct (h !! (c_cdr c + Z.of_nat i)) as [e|] eqn:Ee; cbn; [|done].
    destruct (Z.eqb_spec (c_ty e) TREF) as [Et|]; [|done]. intros [= <-].
    eapply pt_elem; [done|done| |done|]; [lia|].
    unfold cell_refs. rewrite Et. cbn. constructor.
Qed.

Section moved.
Context (f : Z -> Z) (s s' : state).
Hypothesis Hok : machine_ok s.
Hypothesis Hm : moved f s s'.

Lemma moved_field p fl : alive s p ->
  get_field (heap s') (f p) fl = f <$> get_field (heap s) p fl.
Proof.
  intros Hp. destruct (mv_obj _ _ _ Hm p Hp) as (c & c' & Hc & Hc' & (Ht & Ha & Hd) & _ & Hel).
  unfold get_field. rewrite Hc, Hc'. cbn. destruct fl as [| |i].
  - rewrite Ht, Ha. by destruct (car_is_ref (c_ty c)).
  - rewrite Ht. destruct (cdr_is_ref (c_ty c)) eqn:Ed; [|done]. cbn.
    rewrite Hd; [done| |].
    + unfold is_array. revert Ed. unfold cdr_is_ref. rewrite bool_decide_eq_true.
      rewrite !elem_of_cons. unfold TPAIR, TMACRO, TCLOSURE, TCONTINUATION, TKEYWORD, TPORT, TSPECIAL, TSTRING, TSYMBOL, TVALUES, TVECTOR, TSTRUCT.
      intros Hd'. rewrite elem_of_nil in Hd'. lia.
    + unfold is_bytes. revert Ed. unfold cdr_is_ref. rewrite bool_decide_eq_true.
      rewrite !elem_of_cons. unfold TPAIR, TMACRO, TCLOSURE, TCONTINUATION, TKEYWORD, TPORT, TSPECIAL, TSTRING, TSYMBOL, TVALUES, TBYTES.
      intros Hd'. rewrite elem_of_nil in Hd'. lia.
  - assert (is_array c' = is_array c) as -> by (unfold is_array; by rewrite Ht).
    destruct (is_array c) eqn:Ear; cbn; [|done].
    assert (c_car c' = c_car c) as Hcar.
    { rewrite Ha. unfold is_array in Ear. destruct (car_is_ref (c_ty c)) eqn:Ed; [|done].
      revert Ed. unfold car_is_ref. rewrite bool_decide_eq_true, !elem_of_cons, elem_of_nil.
      unfold TPAIR, TMACRO, TREF, TVARIABLE, TVECTOR, TSTRUCT in *. lia. }
    rewrite Hcar. destruct (Z.ltb_spec (Z.of_nat i) (c_car c)); [|done].
    destruct (Hel eq_refl (Z.of_nat i)) as (e & e' & He & He' & (Hte & Hae & _)); [lia|].
    rewrite He, He'. cbn. rewrite Hte. destruct (Z.eqb_spec (c_ty e) TREF) as [Er|]; [|done].
    cbn. rewrite Hae, Er. done.
Qed.

Lemma alive_field p fl q : alive s p -> get_field (heap s) p fl = Some q -> alive s q.
Proof.
  intros (r & Hr & Hp) Hq. exists r; split; [done|]. eapply rtc_r; [done|]. by eapply get_field_points.
Qed.

Lemma moved_follow p path : alive s p ->
  follow (heap s') (f p) path = f <$> follow (heap s) p path.
Proof.
  revert p; induction path as [|fl path IH]; intros p Hp; cbn; [done|].
  rewrite moved_field by done. destruct (get_field (heap s) p fl) as [q|] eqn:E; cbn; [|done].
  apply IH. by eapply alive_field.
Qed.
Lemma alive_follow p path q : alive s p -> follow (heap s) p path = Some q -> alive s q.
Proof.
  revert p; induction path as [|fl path IH]; intros p Hp; cbn; [by intros [= <-]|].
  destruct (get_field (heap s) p fl) as [q'|] eqn:E; cbn; [|done].
  intros H. eapply IH; [|done]. by eapply alive_field.
Qed.

Lemma moved_root r : root s' r = f <$> root s r.
Proof.
  pose proof (mv_rest _ _ _ Hm) as (Hst & Hss & _ & _ & _ & _ & _ & Hsm & _).
  destruct r as [p|i|i|i]; cbn.
  - rewrite Hsm. destruct (Z.leb_spec cell_nil p), (Z.ltb_spec p (g_symbol_max s)); cbn; try done.
    f_equal. symmetry. apply (mv_const _ _ _ Hm). apply elem_of_seqZ. lia.
  - by rewrite (mv_globals _ _ _ Hm), list_lookup_fmap.
  - by rewrite (mv_regs _ _ _ Hm), list_lookup_fmap.
  - rewrite Hst, Hss. destruct (Z.leb_spec (g_stack s) i), (Z.ltb_spec i (STACK_SIZE s)); cbn; try done.
    by apply (mv_stack _ _ _ Hm).
Qed.
Lemma alive_root r p : root s r = Some p -> alive s p.
Proof.
  intros H. exists p; split; [|done]. unfold all_roots, gc_roots. destruct r as [q|i|i|i]; cbn in H.
  - destruct (Z.leb_spec cell_nil q), (Z.ltb_spec q (g_symbol_max s)); cbn in *; try done. simplify_eq.
    do 2 (apply elem_of_app; left). apply elem_of_seqZ. lia.
  - apply elem_of_app; left. apply elem_of_app; right. apply elem_of_app; left.
    by eapply elem_of_list_lookup_2.
  - apply elem_of_app; right. by eapply elem_of_list_lookup_2.
  - destruct (Z.leb_spec (g_stack s) i), (Z.ltb_spec i (STACK_SIZE s)); cbn in *; try done.
    apply elem_of_app; left. apply elem_of_app; right.
    apply (elem_of_app (globals s) (stack_entries s)); right. unfold stack_entries.
    apply elem_of_list_omap. exists i. split; [apply elem_of_seqZ; lia|done].
Qed.

Lemma moved_access r path : access s' r path = f <$> access s r path.
Proof.
  unfold access. rewrite moved_root. destruct (root s r) as [p|] eqn:E; cbn; [|done].
  apply moved_follow. by eapply alive_root.
Qed.
Lemma alive_access r path p : access s r path = Some p -> alive s p.
Proof.
  unfold access. destruct (root s r) as [q|] eqn:E; cbn; [|done].
  apply alive_follow. by eapply alive_root.
Qed.

Lemma moved_words c c' : same_cell f c c' -> words c' = words c.
Proof.
  intros (Ht & Ha & Hd). unfold words. rewrite Ht, Ha.
  assert (is_array c' = is_array c) as -> by (unfold is_array; by rewrite Ht).
  assert (is_bytes c' = is_bytes c) as -> by (unfold is_bytes; by rewrite Ht).
  destruct (is_array c), (is_bytes c); cbn; rewrite ?orb_true_r, ?orb_false_r; cbn;
    try (by destruct (car_is_ref (c_ty c))).
  rewrite Hd by done. by destruct (car_is_ref (c_ty c)), (cdr_is_ref (c_ty c)).
Qed.

Lemma moved_observe p : alive s p -> observe (heap s') (f p) = observe (heap s) p.
Proof.
  intros Hp. destruct (mv_obj _ _ _ Hm p Hp) as (c & c' & Hc & Hc' & Hs & Hb & Hel).
  unfold observe. rewrite Hc, Hc'. cbn. pose proof Hs as (Ht & Ha & _).
  assert (is_array c' = is_array c) as -> by (unfold is_array; by rewrite Ht).
  assert (is_bytes c' = is_bytes c) as -> by (unfold is_bytes; by rewrite Ht).
  rewrite (moved_words c c') by done. f_equal. f_equal; [f_equal|].
  - destruct (is_bytes c) eqn:Eb; [|done]. by apply Hb.
  - destruct (is_array c) eqn:Ear; [|done].
    assert (c_car c' = c_car c) as Hcar.
    { rewrite Ha. unfold is_array in Ear. destruct (car_is_ref (c_ty c)) eqn:Ed; [|done].
      revert Ed. unfold car_is_ref. rewrite bool_decide_eq_true, !elem_of_cons, elem_of_nil.
      unfold TPAIR, TMACRO, TREF, TVARIABLE, TVECTOR, TSTRUCT in *. lia. }
    rewrite Hcar. apply list_fmap_ext. intros k i Hi. apply elem_of_list_lookup_2, elem_of_seqZ in Hi.
    destruct (Hel eq_refl i) as (e & e' & He & He' & Hse); [lia|].
    rewrite He, He'. cbn. f_equal. by apply moved_words.
Qed.

Lemma moved_size p : alive s p -> size_at (heap s') (f p) = size_at (heap s) p.
Proof.
  intros Hp. destruct (mv_obj _ _ _ Hm p Hp) as (c & c' & Hc & Hc' & Hs & _).
  unfold size_at. rewrite Hc, Hc'. pose proof Hs as (Ht & Ha & _).
  unfold obj_size.
  assert (is_array c' = is_array c) as -> by (unfold is_array; by rewrite Ht).
  assert (is_bytes c' = is_bytes c) as -> by (unfold is_bytes; by rewrite Ht).
  assert (is_array c = true \/ is_bytes c = true -> c_car c' = c_car c) as Hcar.
  { intros Hor. rewrite Ha. unfold is_array, is_bytes in Hor. destruct (car_is_ref (c_ty c)) eqn:Ed; [|done].
    revert Ed. unfold car_is_ref. rewrite bool_decide_eq_true, !elem_of_cons, elem_of_nil.
    unfold TPAIR, TMACRO, TREF, TVARIABLE, TVECTOR, TSTRUCT, TBYTES in *. lia. }
  destruct (is_array c); [rewrite Hcar by tauto; done|]. destruct (is_bytes c); [rewrite Hcar by tauto; done|done].
Qed.
Lemma moved_total ps : (forall p, p ∈ ps -> alive s p) -> total_size (heap s') (f <$> ps) = total_size (heap s) ps.
Proof.
  induction ps as [|p ps IH]; intros Hps; cbn; [done|].
  rewrite moved_size by (apply Hps; constructor).
  change (foldr (fun p n => size_at (heap s') p + n) 0 (f <$> ps)) with (total_size (heap s') (f <$> ps)).
  rewrite IH; [done|]. intros q Hq. apply Hps. by constructor.
Qed.
Lemma moved_enum ps : enumerates_live (heap s) (all_roots s) ps ->
  enumerates_live (heap s') (all_roots s') (f <$> ps).
Proof.
  intros [Hn Hps]. split.
  - assert (forall q, q ∈ ps -> alive s q) as Hal by (intros q; apply Hps).
    clear Hps. induction ps as [|p ps IH]; cbn; [constructor|].
    apply NoDup_cons in Hn as [Hq Hn]. constructor.
    + intros (q' & Heq & Hq')%elem_of_list_fmap. apply (mv_inj _ _ _ Hm) in Heq; [by subst| |]; apply Hal; by constructor.
    + apply IH; [done|]. intros q' Hq'. apply Hal. by constructor.
  - intros p'. rewrite elem_of_list_fmap. change (reach (heap s') (all_roots s') p') with (alive s' p').
    rewrite (mv_alive _ _ _ Hm). split.
    + intros (q & -> & Hq). exists q. split; [|done]. by apply Hps.
    + intros (q & Hq & ->). exists q. split; [done|]. by apply Hps.
Qed.
End moved.
