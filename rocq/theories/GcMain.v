(** gc_ and gc as a whole. *)
From stdpp Require Import base gmap list relations.
From Coq Require Import ZArith Lia.
From Coq Require Import ZifyBool ZifyNat.
From Verif Require Import CInt Symbols Heap HeapLemmas GcModel GcSpec GcCopy GcScan GcFlip GcRoots GcProofs.
Open Scope Z_scope.
Open Scope mes_scope.

(** the heap gc_init_news leaves *)
Definition news_heap (s : state) (len : Z) : gmap Z cell :=
  <[g_free s + 1 := Cell TCHAR 0 110 []]> (<[g_free s := Cell TVECTOR len (g_free s + 1) []]> (heap s)).

Lemma gc_init_news_ok s c :
  heap s !! (g_cells s - 1) = Some c -> 1 <= g_free s -> g_free s + 2 <= limit s ->
  gc_init_news s = ROk tt (upd (news_heap s (c_car c)) (g_free s) (set_g_news (g_free s + 1) s)).
Proof.
  intros Hc Hf Hl. unfold gc_init_news. rewrite <- (upd_id s) at 1. rsteps.
  cbn [g_news set_g_news g_cells].
  erewrite bind_ok by (apply car_of_ok; exact Hc). rsteps. cbn [g_news].
  erewrite bind_ok by (apply wr_ok; cbn; lia).
  rewrite wr_ok by (cbn; lia). done.
Qed.

Lemma news_heap_agree s len q : q < g_free s -> news_heap s len !! q = heap s !! q.
Proof. intros H. unfold news_heap. rewrite !lookup_insert_ne by lia. done. Qed.

Lemma rstack_entry s v : v ∈ stack_entries s <->
  exists i, g_stack s <= i < STACK_SIZE s /\ g_stack_array s !! i = Some v.
Proof.
  unfold stack_entries. rewrite elem_of_list_omap. split.
  - intros (i & Hi & Hv). apply elem_of_seqZ in Hi. exists i. split; [lia|done].
  - intros (i & Hi & Hv). exists i. split; [apply elem_of_seqZ; lia|done].
Qed.

Lemma seqZ_total h n : 
  (forall p, cell_nil <= p < cell_nil + Z.of_nat n -> size_at h p = 1) ->
  total_size h (seqZ cell_nil (Z.of_nat n)) = Z.of_nat n.
Proof.
  induction n as [|n IH]; intros H; [done|].
  replace (Z.of_nat (S n)) with (Z.of_nat n + 1) by lia.
  rewrite seqZ_app, total_size_app, IH by (lia || (intros p Hp; apply H; lia)).
  change (total_size h (seqZ (cell_nil + Z.of_nat n) 1)) with (size_at h (cell_nil + Z.of_nat n) + 0).
  rewrite H by lia. lia.
Qed.

(** what remains to be run once the roots are copied *)
Lemma gc_loop_ok h0 roots lo hi base T L φ h td s :
  heap_ok lo hi h0 roots -> 1 <= lo -> lo <= hi -> base = hi + 2 ->
  (forall L, NoDup L -> (forall p, p ∈ L -> reach h0 roots p) -> total_size h0 L <= T) ->
  base + T <= limit s ->
  scan_inv h0 roots base L φ h [] td -> (forall r, r ∈ roots -> r ∈ L) ->
  h0 !! (hi + 1) = Some (Cell TCHAR 0 110 []) ->
  g_cells s = lo -> g_news s = hi + 1 ->
  0 <= g_stack s <= STACK_SIZE s ->
  (forall j, g_stack s <= j < STACK_SIZE s -> is_Some (g_stack_array s !! j)) ->
  exists L' φ' h2 h' a' jam,
    let dist := hi + 1 - lo in
    gc_loop base (upd h (top h0 base L) s) =
      ROk tt (upd h' (newtop h0 lo L')
        (set_g_stack_array a' (set_JAM_SIZE jam (set_M0 (M0 s - dist) (set_g_ports (g_ports s - dist)
          (set_g_macros (g_macros s - dist) (set_g_symbols (g_symbols s - dist) s)))))))
    /\ L `prefix_of` L' /\ φ ⊆ φ'
    /\ scan_inv h0 roots base L' φ' h2 (layout h0 base L') []
    /\ tiled h' (lo + 1) (shift dist <$> (reloc φ' <$> layout h0 base L'))
    /\ (forall j, g_stack s <= j < STACK_SIZE s -> a' !! j = (fun v => v - dist) <$> (g_stack_array s !! j))
    /\ (forall q, q < lo -> h' !! q = h0 !! q).
Proof.
  intros Hok Hlo Hlohi Hbase HT Hfit SI Hroots Hzero Hcells Hnews Hstk Hstack.
  assert (Hfit0 : 0 <= T). { apply (HT []); [constructor|]. intros p Hp. by apply elem_of_nil in Hp. }
  unfold gc_loop. rewrite bind_get. autorewrite with upd.
  destruct (gc_scan_ok h0 roots lo hi base Hok Hlo ltac:(lia) ltac:(lia) T s HT Hfit
    (Z.to_nat (limit s)) L φ h [] td SI) as (L' & φ' & h2 & Hrun & Hpre & Hsub & SI').
  { rewrite widths_nil. lia. }
  rewrite widths_nil, Z.add_0_r in Hrun. rewrite (bind_ok _ _ _ _ _ Hrun).
  pose proof (s_inv _ _ _ _ _ _ _ _ SI') as I'. rewrite app_nil_r in I'.
  assert (Hreg : forall q, hi <= q -> φ' !! q = None).
  { intros q Hq. destruct (φ' !! q) eqn:E; [|done]. exfalso.
    assert (Hr : reach h0 roots q) by (apply (i_reach _ _ _ _ _ _ _ I'), (i_dom _ _ _ _ _ _ _ I'); eauto).
    destruct (reach_cell h0 roots lo hi Hok q Hr) as [_ Hw]. pose proof (wf_range _ _ _ _ _ Hw). lia. }
  assert (Hreg2 : forall q, q < lo -> φ' !! q = None).
  { intros q Hq. destruct (φ' !! q) eqn:E; [|done]. exfalso.
    assert (Hr : reach h0 roots q) by (apply (i_reach _ _ _ _ _ _ _ I'), (i_dom _ _ _ _ _ _ _ I'); eauto).
    destruct (reach_cell h0 roots lo hi Hok q Hr) as [_ Hw]. pose proof (wf_range _ _ _ _ _ Hw). lia. }
  assert (Hz2 : h2 !! (hi + 1) = Some (Cell TCHAR 0 110 [])).
  { rewrite (i_old _ _ _ _ _ _ _ I') by (lia || (apply Hreg; lia)). done. }
  (* flip *)
  pose proof (inv_top h0 roots base T s HT Hfit _ _ _ _ I') as Htop.
  unfold gc_flip. rewrite bind_get, bind_modify. autorewrite with upd.
  set (jam := if JAM_SIZE s <? top h0 base L' - g_news s then
     top h0 base L' - g_news s + (top h0 base L' - g_news s) / 2 else JAM_SIZE s).
  assert (Hjam : (if JAM_SIZE s <? top h0 base L' - g_news s
      then upd h2 (top h0 base L') (set_JAM_SIZE (top h0 base L' - g_news s + (top h0 base L' - g_news s) / 2) s)
      else upd h2 (top h0 base L') s) = upd h2 (top h0 base L') (set_JAM_SIZE jam s)).
  { unfold jam. destruct (JAM_SIZE s <? top h0 base L' - g_news s); [done|]. by destruct s. }
  rewrite Hjam. clear Hjam.
  set (cs := Cell TCHAR 0 110 [] :: (reloc φ' <$> layout h0 base L')).
  assert (HL' : forall p, p ∈ L' -> reach h0 roots p) by apply (i_reach _ _ _ _ _ _ _ I').
  destruct (layout_widths h0 roots lo hi Hok base L' HL') as [Hlw Hlp].
  assert (Hcsw : widths cs = top h0 base L' - g_news s).
  { unfold cs. rewrite widths_cons, widths_reloc, Hlw. unfold width; cbn. unfold top. lia. }
  assert (Hcsp : Forall pos_width cs).
  { apply Forall_cons. split; [unfold pos_width; cbn; lia|]. by apply pos_reloc. }
  destruct (gc_cellcpy_ok (Z.to_nat (limit s)) (g_cells s) (g_news s) cs h2 (top h0 base L') (set_JAM_SIZE jam s))
    as (h' & Hrun2 & Htl & Hfr).
  - unfold cs. cbn [tiled]. rewrite Hnews. split; [done|].
    replace (hi + 1 + width (Cell TCHAR 0 110 [])) with base by (unfold width; cbn; lia).
    apply (i_tiled _ _ _ _ _ _ _ I').
  - done.
  - rewrite Hnews, Hcells. apply Forall_cons. split; [done|].
    apply Forall_fmap, Forall_forall. intros c Hc. cbn.
    destruct (layout_facts h0 roots lo hi Hok _ _ _ HL' Hc) as [Hnb _].
    split; [done|].
    destruct (layout_origin h0 roots lo hi Hok _ _ _ HL' Hc) as (p & Hp & H).
    destruct (reach_cell h0 roots lo hi Hok p (HL' p Hp)) as [Hcp Hw].
    pose proof (wf_range _ _ _ _ _ Hw) as Hr.
    destruct H as [(Ha & Hty & Hb)|[(Ha & Hb & ->)|[(Ha & Hb & ->)|(Ha & i & e & Hi & He & Hel & ->)]]].
    + split; [done|]. cbn. rewrite Hty. intros E. unfold is_array in Ha. rewrite E in Ha. done.
    + split.
      * intros E. unfold is_bytes in Hb. cbn in E. lia.
      * cbn. intros E. rewrite E. cbn. destruct (wf_bytes _ _ _ _ _ Hw Hb) as [H1 H2]. split; [done|].
        pose proof (bytes_cells_enough (c_car (cell_at h0 p))). lia.
    + split; [done|]. cbn. intros E. unfold is_bytes in Hb. lia.
    + split; [done|]. cbn. intros E. destruct Hel as [H|[H|H]]; rewrite H in E; done.
  - lia.
  - lia.
  - rewrite Hcsw. cbn. lia.
  - pose proof (widths_length _ Hcsp). lia.
  - assert (Hgn : g_news (set_JAM_SIZE jam s) = g_news s) by done.
    rewrite Hcsw in Hrun2. rewrite (bind_ok _ _ _ _ _ Hrun2).
    rewrite !bind_modify. autorewrite with upd. 
    set (s3 := set_M0 _ _).
    destruct (shift_stack_ok (Z.to_nat (STACK_SIZE s - g_stack s)) (g_stack s) (g_news s - g_cells s) 
      (upd h' (top h0 base L' - (g_news s - g_cells s)) s3)) as (a' & Hrun3 & H1 & H2).
    { lia. }
    { unfold s3. autorewrite with upd. cbn. lia. }
    { unfold s3. autorewrite with upd. cbn. intros j Hj. apply Hstack. lia. }
    exists L', φ', h2, h', a', jam. cbv zeta.
    rewrite Hnews, Hcells in *.
    split.
    { rewrite Hrun3. autorewrite with upd. unfold s3. f_equal.
      replace (top h0 base L' - (hi + 1 - lo)) with (newtop h0 lo L') by (unfold newtop, top; lia). rewrite Hnews, Hcells. done. }
    split; [done|]. split; [done|]. split; [done|].
    split. { unfold cs in Htl. rewrite fmap_cons in Htl. cbn [tiled] in Htl. destruct Htl as [_ Htl].
      rewrite width_shift in Htl. done. }
    split.
    { intros j Hj. rewrite H1 by lia. done. }
    intros q Hq. rewrite Hfr by lia. apply (i_old _ _ _ _ _ _ _ I'); [lia|]. by apply Hreg2.
Qed.

Lemma constants_of s p : p ∈ constants s <-> cell_nil <= p < g_symbol_max s.
Proof. unfold constants. rewrite elem_of_seqZ. lia. Qed.

Lemma in_dom h0 roots base L φ h cur p : inv h0 roots base L φ h cur -> is_Some (φ !! p) -> p ∈ L.
Proof. intros I. apply (i_dom _ _ _ _ _ _ _ I). Qed.

Lemma same_object_agree lo hi h0 h h' roots f p :
  heap_ok lo hi h roots -> (forall q, lo <= q < hi -> h0 !! q = h !! q) ->
  reach h roots p -> same_object f h0 h' p -> same_object f h h' p.
Proof.
  intros Hok Hag Hr (c & c' & Hc & Hc' & Hs & Hb & Ha).
  destruct (ok_obj _ _ _ _ Hok p Hr) as (c0 & Hc0 & Hw).
  pose proof (wf_range _ _ _ _ _ Hw). rewrite Hag, Hc0 in Hc by lia. injection Hc as <-.
  exists c0, c'. split; [done|]. split; [done|]. split; [done|]. split; [done|].
  intros Harr i Hi. destruct (wf_array _ _ _ _ _ Hw Harr) as (?&?&?&_).
  destruct (Ha Harr i Hi) as (e & e' & He & ?). exists e, e'. rewrite Hag in He by lia. done.
Qed.

Lemma size_agree lo hi h0 h roots ps :
  heap_ok lo hi h roots -> (forall q, lo <= q < hi -> h0 !! q = h !! q) ->
  (forall p, p ∈ ps -> reach h roots p) -> total_size h0 ps = total_size h ps.
Proof.
  intros Hok Hag. induction ps as [|p ps IH]; intros Hps; [done|].
  change (size_at h0 p + total_size h0 ps = size_at h p + total_size h ps).
  rewrite IH by (intros q Hq; apply Hps; by constructor). f_equal.
  destruct (ok_obj _ _ _ _ Hok p) as (c & Hc & Hw); [apply Hps; constructor|].
  pose proof (wf_range _ _ _ _ _ Hw). unfold size_at. by rewrite Hag by lia.
Qed.

(** room for every set of live objects beyond what is allocated now *)
Definition room (s : state) : Prop :=
  forall ps, NoDup ps -> (forall p, p ∈ ps -> live s p) -> g_free s + 2 + total_size (heap s) ps <= limit s.

Lemma heap_ok_lo lo lo' hi h roots : lo <= lo' -> heap_ok lo' hi h roots -> heap_ok lo hi h roots.
Proof.
  intros Hle [H1 H2]. split; [|done]. intros p Hp. destruct (H1 p Hp) as (c & Hc & [W1 W2 W3 W4]). exists c. split; [done|].
  split; [lia|done| |done]. intros Ha. destruct (W3 Ha) as (A1 & A2 & A3 & A4). split; [done|]. split; [lia|]. by split.
Qed.

Lemma gc__correct s : gc_ready s -> room s ->
  exists f s', gc_ s = ROk tt s' /\ collected f s s' /\ gc_ready s'.
Proof.
  intros [Rc Rf [ca Ra] [Rs1 Rs2] [Rk1 Rk2] Rh0] Hroom.
  assert (Rh : heap_ok (g_cells s) (g_free s) (heap s) (gc_roots s)) by (eapply heap_ok_lo; [|exact Rh0]; lia).
  set (F := g_free s) in *. set (lo := g_cells s) in *. set (roots := gc_roots s) in *.
  assert (Hnil : cell_nil = 3) by done.
  assert (Hlo : lo = 2) by lia.
  set (h0 := news_heap s (c_car ca)).
  assert (Hag : forall q, q < F -> h0 !! q = heap s !! q) by (intros; by apply news_heap_agree).
  assert (Hag' : forall q, lo <= q < F -> h0 !! q = heap s !! q) by (intros; apply Hag; lia).
  assert (Hok0 : heap_ok lo F h0 roots) by by eapply heap_ok_agree.
  assert (Hre : forall p, reach h0 roots p <-> live s p).
  { intros p. symmetry. by apply (reach_agree lo F). }
  assert (HroomF : F + 2 <= limit s).
  { specialize (Hroom [] ltac:(constructor) ltac:(intros p Hp; by apply elem_of_nil in Hp)). cbn in Hroom. lia. }
  set (T := limit s - (F + 2)).
  assert (HT : forall L, NoDup L -> (forall p, p ∈ L -> reach h0 roots p) -> total_size h0 L <= T).
  { intros L Hnd HL. rewrite (size_agree lo F h0 (heap s) roots); [|done|done|intros p Hp; by apply Hre, HL].
    specialize (Hroom L Hnd ltac:(intros p Hp; by apply Hre, HL)). unfold T. lia. }
  set (s1 := set_g_news (F + 1) s).
  assert (Hfit : F + 2 + T <= limit s1) by (unfold T; cbn; lia).
  assert (Hrt : forall r, r ∈ roots -> reach h0 roots r). { intros r Hr. exists r. by split. }
  assert (Hsymmax : cell_nil <= g_symbol_max s) by lia.
  assert (Hconst : forall p, cell_nil <= p < g_symbol_max s -> p ∈ roots).
  { intros p Hp. unfold roots, gc_roots. apply elem_of_app; left. by apply constants_of. }
  assert (Hglob : forall p, p ∈ globals s -> p ∈ roots).
  { intros p Hp. unfold roots, gc_roots. apply elem_of_app; right. apply elem_of_app; by left. }
  assert (Hstk : forall p, p ∈ stack_entries s -> p ∈ roots).
  { intros p Hp. unfold roots, gc_roots. apply elem_of_app; right. apply elem_of_app; by right. }
  assert (Hcsz : forall p, cell_nil <= p < g_symbol_max s -> size_at h0 p = 1).
  { intros p Hp. destruct (Rk2 p Hp) as (c & Hc & Ht).
    assert (Hr : reach h0 roots p) by by apply Hrt, Hconst.
    destruct (reach_cell h0 roots lo F Hok0 p Hr) as [Hc0 Hw]. pose proof (wf_range _ _ _ _ _ Hw).
    unfold size_at. rewrite Hag, Hc by lia. unfold obj_size, is_array, is_bytes.
    destruct Ht as [-> | ->]; done. }
  unfold gc_.
  rewrite (bind_ok _ _ _ _ _ (gc_init_news_ok s ca Ra ltac:(lia) HroomF)).
  fold F h0 s1. rewrite bind_modify. autorewrite with upd. rewrite bind_get.
  assert (gc_up_arena_test (upd h0 (g_news s1 + 1) s1) = false) as ->.
  { unfold gc_up_arena_test. autorewrite with upd. cbn. fold lo. rewrite Hlo. cbn. by rewrite andb_false_r. }
  rewrite bind_ret. cbv zeta. autorewrite with upd.
  replace (g_news s1 + 1) with (top h0 (F + 2) (seqZ cell_nil 0)).
  2:{ unfold top. change (g_news s1) with (F + 1). change (total_size h0 (seqZ cell_nil 0)) with 0. lia. }
  destruct (copy_symbols_ok h0 roots lo F (F + 2) T Hok0 ltac:(lia) ltac:(lia) ltac:(lia) HT
    (Z.to_nat (g_symbol_max s - cell_nil)) 0 ∅ h0 [] s1 Hfit ltac:(lia)) as (φ1 & h1 & td1 & Hrun1 & Hsub1 & SI1).
  { apply empty_inv. done. }
  { intros p Hp. apply Hrt, Hconst. lia. }
  replace (cell_nil + 0) with cell_nil in Hrun1 by lia.
  replace (0 + Z.of_nat (Z.to_nat (g_symbol_max s - cell_nil))) with (g_symbol_max s - cell_nil) in * by lia.
  fold (constants s) in *.
  change (g_symbol_max s1) with (g_symbol_max s). rewrite (bind_ok _ _ _ _ _ Hrun1).
  (* the four global tables *)
  pose proof (fun L φ h td p s' => copy_root h0 roots lo F (F+2) T Hok0 ltac:(lia) ltac:(lia) ltac:(lia) HT L φ h td p s') as CR.
  rewrite bind_gets. autorewrite with upd.
  destruct (CR _ _ _ _ (g_symbols s) s1 Hfit SI1) as (φ2 & h2 & n2 & td2 & Hrun2 & Hn2 & Hsub2 & SI2).
  { apply Hrt, Hglob. unfold globals. apply elem_of_list_In; cbn; tauto. }
  change (g_symbols s1) with (g_symbols s). rewrite (bind_ok _ _ _ _ _ Hrun2). rewrite bind_modify. autorewrite with upd.
  rewrite bind_gets. autorewrite with upd.
  destruct (CR _ _ _ _ (g_macros s) (set_g_symbols n2 s1) Hfit SI2) as (φ3 & h3 & n3 & td3 & Hrun3 & Hn3 & Hsub3 & SI3).
  { apply Hrt, Hglob. unfold globals. apply elem_of_list_In; cbn; tauto. }
  change (g_macros (set_g_symbols n2 s1)) with (g_macros s).
  rewrite (bind_ok _ _ _ _ _ Hrun3). rewrite bind_modify. autorewrite with upd.
  rewrite bind_gets. autorewrite with upd.
  destruct (CR _ _ _ _ (g_ports s) (set_g_macros n3 (set_g_symbols n2 s1)) Hfit SI3) as (φ4 & h4 & n4 & td4 & Hrun4 & Hn4 & Hsub4 & SI4).
  { apply Hrt, Hglob. unfold globals. apply elem_of_list_In; cbn; tauto. }
  change (g_ports (set_g_macros n3 (set_g_symbols n2 s1))) with (g_ports s).
  rewrite (bind_ok _ _ _ _ _ Hrun4). rewrite bind_modify. autorewrite with upd.
  rewrite bind_gets. autorewrite with upd.
  destruct (CR _ _ _ _ (M0 s) (set_g_ports n4 (set_g_macros n3 (set_g_symbols n2 s1))) Hfit SI4) as (φ5 & h5 & n5 & td5 & Hrun5 & Hn5 & Hsub5 & SI5).
  { apply Hrt, Hglob. unfold globals. apply elem_of_list_In; cbn; tauto. }
  change (M0 (set_g_ports n4 (set_g_macros n3 (set_g_symbols n2 s1)))) with (M0 s).
  rewrite (bind_ok _ _ _ _ _ Hrun5). rewrite bind_modify. autorewrite with upd.
  clear CR. set (s5 := set_M0 n5 (set_g_ports n4 (set_g_macros n3 (set_g_symbols n2 s1)))) in *.
  (* the stack *)
  destruct (copy_stack_ok h0 roots lo F (F+2) T Hok0 ltac:(lia) ltac:(lia) ltac:(lia) HT
    (Z.to_nat (STACK_SIZE s - g_stack s)) (g_stack s) _ _ _ _ s5 Hfit SI5)
    as (L6 & φ6 & h6 & td6 & a6 & Hrun6 & Hpre6 & Hsub6 & SI6 & Hst6 & _).
  { lia. }
  { cbn. lia. }
  { intros j Hj. change (g_stack_array s5) with (g_stack_array s).
    destruct (Rs2 j) as [v Hv]; [lia|]. exists v. split; [done|]. apply Hrt, Hstk, rstack_entry. exists j. split; [lia|done]. }
  change (STACK_SIZE s1) with (STACK_SIZE s). change (g_stack s1) with (g_stack s).
  rewrite (bind_ok _ _ _ _ _ Hrun6).
  set (s6 := set_g_stack_array a6 s5) in *.
  pose proof (s_inv _ _ _ _ _ _ _ _ SI6) as I6.
  assert (Hpre : constants s `prefix_of` L6).
  { etrans; [|exact Hpre6]. do 4 (etrans; [|apply add_prefix]). done. }
  assert (Hst6' : forall j, g_stack s <= j < STACK_SIZE s -> exists v m,
     g_stack_array s !! j = Some v /\ φ6 !! v = Some m /\ a6 !! j = Some m).
  { intros j Hj. apply (Hst6 j). lia. }
  assert (Hg6 : φ6 !! g_symbols s = Some n2 /\ φ6 !! g_macros s = Some n3 /\ φ6 !! g_ports s = Some n4 /\ φ6 !! M0 s = Some n5).
  { repeat split; eapply lookup_weaken; try eassumption; repeat (etrans; [eassumption|]); done. }
  destruct Hg6 as (Hg2 & Hg3 & Hg4 & Hg5).
  assert (Hroots6 : forall r, r ∈ roots -> r ∈ L6).
  { intros r Hr. unfold roots, gc_roots in Hr. apply elem_of_app in Hr as [Hr|Hr]; [by eapply elem_of_prefix|].
    eapply in_dom; [exact I6|]. apply elem_of_app in Hr as [Hr|Hr].
    - unfold globals in Hr. rewrite !elem_of_cons, elem_of_nil in Hr.
      destruct Hr as [->|[->|[->|[->|[]]]]]; eauto.
    - apply rstack_entry in Hr as (j & Hj & Hv). destruct (Hst6' j Hj) as (v & m & Hv' & Hm & _).
      rewrite Hv in Hv'. injection Hv' as <-. eauto. }
  destruct (gc_loop_ok h0 roots lo F (F + 2) T L6 φ6 h6 td6 s6 Hok0) as
    (L & φ & hs & h' & a' & jam & Hrun & HpreL & Hsubφ & SI & Htl & Hstk' & Hlow); try done; try lia.
  { unfold h0, news_heap. fold F. by rewrite lookup_insert. }
  { intros j Hj. change (g_stack_array s6) with a6. destruct (Hst6' j Hj) as (?&?&?&?&->). eauto. }
  cbv zeta in *.
  replace (top h0 (F + 2) (seqZ cell_nil 0)) with (F + 2) by (unfold top; change (total_size h0 (seqZ cell_nil 0)) with 0; lia).
  rewrite Hrun. clear Hrun.
  set (dist := F + 1 - lo) in *.
  set (f := newaddr φ dist).
  assert (HrootsL : forall r, r ∈ roots -> r ∈ L) by (intros r Hr; eapply elem_of_prefix; [by apply Hroots6|done]).
  assert (Hfwd : forall p n, φ6 !! p = Some n -> n - dist = f p).
  { intros p n Hp. unfold f, newaddr, fwd. by rewrite (lookup_weaken _ _ _ _ Hp Hsubφ). }
  assert (HLr : forall p, p ∈ L <-> reach h0 roots p).
  { intros p. eapply (L_reach h0 roots lo F (F+2)); try done; lia. }
  assert (Hsame0 : forall p, reach h0 roots p -> same_object f h0 h' p).
  { intros p Hp. eapply (moved_same h0 roots lo F (F+2)); try done; lia. }
  assert (Hsame : forall p, live s p -> same_object f (heap s) h' p).
  { intros p Hp. eapply same_object_agree; [exact Rh|exact Hag'|exact Hp|]. apply Hsame0, Hre, Hp. }
  assert (Hinj : forall p q, live s p -> live s q -> f p = f q -> p = q).
  { intros p q Hp Hq. apply (moved_inj h0 roots lo F (F+2) Hok0 ltac:(lia) ltac:(lia) ltac:(lia) L φ hs SI HrootsL dist ltac:(done));
    [lia|by apply Hre|by apply Hre]. }
  assert (Hfc : forall p, p ∈ constants s -> f p = p).
  { intros p Hp. apply constants_of in Hp.
    assert (HpL : exists L2, L = seqZ cell_nil (p - cell_nil) ++ p :: L2).
    { assert (Hp2 : constants s `prefix_of` L) by by etrans. destruct Hp2 as [k ->]. unfold constants.
      replace (g_symbol_max s - cell_nil) with ((p - cell_nil) + (g_symbol_max s - p)) by lia.
      rewrite seqZ_app by lia. replace (cell_nil + (p - cell_nil)) with p by lia.
      rewrite (seqZ_cons p) by lia. rewrite <- app_assoc. eexists. cbn. done. }
    destruct HpL as [L2 HpL]. 
    pose proof (i_addr _ _ _ _ _ _ _ (s_inv _ _ _ _ _ _ _ _ SI) _ _ _ HpL) as Hφ.
    unfold f, newaddr, fwd. rewrite Hφ. cbn [default].
    replace (p - cell_nil) with (Z.of_nat (Z.to_nat (p - cell_nil))) by lia.
    rewrite seqZ_total; [unfold dist, id; lia|]. intros q Hq. apply Hcsz. lia. }
  match goal with |- exists f s', ROk tt ?S = _ /\ _ => set (s' := S) end.
  assert (Hglob' : globals s' = f <$> globals s).
  { unfold globals. cbn. rewrite <- (Hfwd _ _ Hg2), <- (Hfwd _ _ Hg3), <- (Hfwd _ _ Hg4), <- (Hfwd _ _ Hg5). done. }
  assert (Hstack' : forall i, g_stack s <= i < STACK_SIZE s -> g_stack_array s' !! i = f <$> (g_stack_array s !! i)).
  { intros j Hj. change (g_stack_array s') with a'. rewrite Hstk' by exact Hj.
    change (g_stack_array s6) with a6. destruct (Hst6' j Hj) as (v & m & -> & Hm & ->). cbn. f_equal. by apply Hfwd. }
  assert (Hse : stack_entries s' = f <$> stack_entries s).
  { unfold stack_entries. change (g_stack s') with (g_stack s). change (STACK_SIZE s') with (STACK_SIZE s).
    assert (Hin : Forall (fun i => g_stack s <= i < STACK_SIZE s) (seqZ (g_stack s) (STACK_SIZE s - g_stack s))).
    { apply Forall_forall. intros i Hi. apply elem_of_seqZ in Hi. lia. }
    induction Hin as [|i l Hi _ IH]; [done|]. cbn [omap list_omap]. rewrite (Hstack' i Hi).
    destruct (g_stack_array s !! i); cbn; by rewrite IH. }
  assert (Hroots' : gc_roots s' = f <$> roots).
  { unfold roots, gc_roots. rewrite !fmap_app, Hglob', Hse. f_equal.
    change (constants s') with (constants s). 
    assert (Hin : Forall (fun p => f p = p) (constants s)) by (apply Forall_forall; intros p Hp; by apply Hfc).
    clear -Hin. induction Hin as [|p l Hp _ IH]; [done|]. rewrite fmap_cons, Hp. by f_equal. }
  exists f, s'. split; [done|]. split.
  - constructor; try done.
    + intros p'. unfold live at 1. rewrite Hroots'. change (heap s') with h'.
      rewrite (reach_image f (heap s) h' roots Hsame). done.
    + exists L. split.
      * split; [apply (i_nodup _ _ _ _ _ _ _ (s_inv _ _ _ _ _ _ _ _ SI))|]. intros p. rewrite HLr. apply Hre.
      * change (g_free s') with (newtop h0 lo L). unfold newtop.
        rewrite (size_agree lo F h0 (heap s) roots); [lia|done|done|]. intros p Hp. by apply Hre, HLr.
  - constructor.
    + done.
    + change (g_free s') with (newtop h0 lo L). unfold newtop.
      rewrite <- (proj1 (layout_widths h0 roots lo F Hok0 (F + 2) L ltac:(intros p Hp; by apply HLr))).
      pose proof (widths_nonneg _ (proj2 (layout_widths h0 roots lo F Hok0 (F + 2) L ltac:(intros p Hp; by apply HLr)))).
      lia.
    + exists ca. change (heap s') with h'. change (g_cells s') with lo. rewrite Hlow by lia. rewrite Hag by lia. done.
    + split; [done|]. intros i Hi. rewrite (Hstack' i Hi). destruct (Rs2 i Hi) as [v ->]. cbn. eauto.
    + split; [done|]. intros p Hp. destruct (Rk2 p Hp) as (c & Hc & Ht).
      destruct (Hsame p) as (c0 & c' & Hc0 & Hc' & (Hty & _) & _).
      { apply Hre, Hrt. by apply Hconst. }
      rewrite Hfc in Hc' by by apply constants_of. rewrite Hc in Hc0. injection Hc0 as <-.
      exists c'. split; [done|]. by rewrite Hty.
    + rewrite Hroots'. change (heap s') with h'. replace cell_nil with (lo + 1) by lia. change (g_free s') with (newtop h0 lo L).
      eapply (moved_ok h0 roots lo F (F+2)); try done; lia.
Qed.
