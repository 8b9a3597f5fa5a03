(** The heap operations and the collector, seen through [rep]. *)
From stdpp Require Import base gmap relations list.
From Coq Require Import ZArith Lia.
From Coq Require Import ZifyBool ZifyNat.
From Verif Require Import CInt Symbols Heap HeapLemmas GcSpec GcModel GcWhole DataModel DataSpec DataLemmas StackModel Rep.
Open Scope Z_scope.
Open Scope mes_scope.

(** * What an address-free object says about the cell *)
Lemma rh_cell f σ s i p t a d : rep_heap f σ s -> f i p -> σ !! i = Some (OCell t a d) ->
  exists c, heap s !! p = Some c /\ c_ty c = t /\ cell_ok t a d
    /\ word_rel f a (c_car c) /\ word_rel f d (c_cdr c).
Proof.
  intros R Hi Ho. destruct (rh_obj _ _ _ R _ _ Hi) as (o & Ho' & H). rewrite Ho in Ho'. injection Ho' as <-. exact H.
Qed.
Lemma rh_pair f σ s i p a d : rep_heap f σ s -> f i p -> σ !! i = Some (OCell TPAIR (WId a) (WId d)) ->
  exists pa pd, pair_at (heap s) p pa pd /\ f a pa /\ f d pd.
Proof.
  intros R Hi Ho. destruct (rh_cell _ _ _ _ _ _ _ _ R Hi Ho) as (c & Hc & Ht & _ & H1 & H2).
  exists (c_car c), (c_cdr c). split; [|done]. by exists c.
Qed.
Lemma rh_eq f σ s i j p q : rep_heap f σ s -> f i p -> f j q -> (p =? q) = bool_decide (i = j).
Proof.
  intros R Hi Hj. destruct (decide (i = j)) as [->|Hne].
  - rewrite bool_decide_true by done. rewrite (rh_fun _ _ _ R _ _ _ Hi Hj). apply Z.eqb_refl.
  - rewrite bool_decide_false by done. apply Z.eqb_neq. intros ->. by apply Hne, (rh_inj _ _ _ R _ _ _ Hi Hj).
Qed.

(** * Reachability stays inside the represented objects *)
Lemma rh_closed f σ s i p q : rep_heap f σ s -> f i p -> points_to (heap s) p q -> exists j, f j q.
Proof.
  intros R Hi Hpt. destruct (rh_obj _ _ _ R _ _ Hi) as (o & _ & Ho).
  inversion Hpt as [? c ? Hc Hq|? c k e ? Hc Ha Hk He Hq]; subst.
  - destruct o as [t a d|t es|bs]; cbn in Ho.
    + destruct Ho as (c' & Hc' & Ht & (_ & _ & _ & _ & K1 & K2) & W1 & W2). rewrite Hc in Hc'. injection Hc' as <-.
      unfold cell_refs in Hq. rewrite Ht in Hq. apply elem_of_app in Hq as [Hq|Hq].
      * destruct (car_is_ref t); [|by apply elem_of_nil in Hq]. apply elem_of_list_singleton in Hq as ->.
        destruct a as [j|n]; [by exists j|done].
      * destruct (cdr_is_ref t); [|by apply elem_of_nil in Hq]. apply elem_of_list_singleton in Hq as ->.
        destruct d as [j|n]; [by exists j|done].
    + destruct Ho as (c' & Hc' & Ht & Ht' & _). rewrite Hc in Hc'. injection Hc' as <-.
      unfold cell_refs in Hq. rewrite Ht in Hq. destruct Ht' as [-> | ->]; by apply elem_of_nil in Hq.
    + destruct Ho as (c' & Hc' & Ht & _). rewrite Hc in Hc'. injection Hc' as <-.
      unfold cell_refs in Hq. rewrite Ht in Hq. by apply elem_of_nil in Hq.
  - destruct o as [t a d|t es|bs]; cbn in Ho.
    + destruct Ho as (c' & Hc' & Ht & (_ & _ & K1 & K2 & _) & _). rewrite Hc in Hc'. injection Hc' as <-.
      unfold is_array in Ha. rewrite Ht in Ha. lia.
    + destruct Ho as (c' & Hc' & Ht & Ht' & Hl & Hes). rewrite Hc in Hc'. injection Hc' as <-.
      destruct (lookup_lt_is_Some_2 es (Z.to_nat k)) as [w Hw]; [lia|].
      destruct (Hes _ _ Hw) as (e' & He' & Hw'). rewrite Z2Nat.id in He' by lia. rewrite He in He'. injection He' as <-.
      unfold cell_refs in Hq. destruct w as [n|n|j]; cbn in Hw'; destruct Hw' as [Hte Hj]; rewrite Hte in Hq; cbn in Hq.
      * by apply elem_of_nil in Hq.
      * by apply elem_of_nil in Hq.
      * apply elem_of_list_singleton in Hq as ->. by exists j.
    + destruct Ho as (c' & Hc' & Ht & _). rewrite Hc in Hc'. injection Hc' as <-.
      unfold is_array in Ha. rewrite Ht in Ha. done.
Qed.
Lemma rh_reach f σ s p q : rep_heap f σ s -> rtc (points_to (heap s)) p q -> (exists i, f i p) -> exists j, f j q.
Proof. intros R. induction 1 as [|p q r Hpq _ IH]; [done|]. intros (i & Hi). apply IH. by eapply rh_closed. Qed.

Lemma rep_root f M s p : rep f M s -> p ∈ all_roots s -> exists i, f i p.
Proof.
  intros R Hp. unfold all_roots, gc_roots in Hp. rewrite !elem_of_app in Hp. destruct Hp as [[Hp|[Hp|Hp]]|Hp].
  - apply elem_of_seqZ in Hp. exists (Imp p). apply (rh_const _ _ _ (rp_heap _ _ _ R)). lia.
  - apply elem_of_list_lookup in Hp as (k & Hk).
    destruct (Forall2_lookup_r _ _ _ _ _ (rp_glob _ _ _ R) Hk) as (i & _ & Hi). by exists i.
  - apply elem_of_list_omap in Hp as (k & Hk & Hp). apply elem_of_seqZ in Hk. destruct (rp_size _ _ _ R) as [_ Hsz].
    destruct (lookup_lt_is_Some_2 (m_stk M) (Z.to_nat (k - g_stack s))) as [i Hi]; [lia|].
    destruct (rp_stk _ _ _ R _ _ Hi) as (q & Hq & Hf). exists i. rewrite Z2Nat.id in Hq by lia.
    replace (g_stack s + (k - g_stack s)) with k in Hq by lia. rewrite Hp in Hq. by injection Hq as <-.
  - unfold regs in Hp. rewrite !elem_of_cons, elem_of_nil in Hp. destruct Hp as [->|[->|[->|[->|[]]]]].
    + eexists. exact (rp_r0 _ _ _ R).
    + eexists. exact (rp_r1 _ _ _ R).
    + eexists. exact (rp_r2 _ _ _ R).
    + eexists. exact (rp_r3 _ _ _ R).
Qed.
Lemma rep_alive f M s p : rep f M s -> alive s p -> exists i, f i p.
Proof. intros R (r & Hr & Hp). eapply rh_reach; [apply R|done|]. by eapply rep_root. Qed.

Lemma rep_machine_ok f M s : rep f M s -> machine_ok s.
Proof.
  intros R. destruct (rp_constants _ _ _ R) as [K1 K2]. split; try apply R.
  - destruct (rp_size _ _ _ R) as [S1 S2]. split; [lia|]. intros k Hk.
    destruct (lookup_lt_is_Some_2 (m_stk M) (Z.to_nat (k - g_stack s))) as [i Hi]; [lia|].
    destruct (rp_stk _ _ _ R _ _ Hi) as (q & Hq & _). rewrite Z2Nat.id in Hq by lia.
    replace (g_stack s + (k - g_stack s)) with k in Hq by lia. by exists q.
  - split; [done|]. unfold cell_symbol_test, cell_f in *. lia.
  - split.
    + intros p Hp. destruct (rep_alive _ _ _ _ R Hp) as (i & Hi). by eapply (rh_wf _ _ _ (rp_heap _ _ _ R)).
    + intros p q c d a Hp Hq. destruct (rep_alive _ _ _ _ R Hp) as (i & Hi), (rep_alive _ _ _ _ R Hq) as (j & Hj).
      by eapply (rh_disj _ _ _ (rp_heap _ _ _ R)).
Qed.

(** * A collection is invisible *)
Lemma same_cell_ref f c c' q : same_cell f c c' -> c_ty c = TREF -> q = c_car c -> c_ty c' = TREF /\ c_car c' = f q.
Proof. intros (H1 & H2 & _) Ht ->. split; [congruence|]. rewrite H2, Ht. done. Qed.

Lemma rep_moved f M s φ s' : rep f M s -> moved φ s s' -> machine_ok s' -> has_room s ->
  rep (fun i q => exists p, f i p /\ alive s p /\ q = φ p) M s'.
Proof.
  intros R Mv Ok Hroom. pose proof (rep_machine_ok _ _ _ R) as Ok0. destruct Mv as [V1 V2 V3 V4 V5 V6 V7 V8 V9].
  destruct V9 as (E1 & E2 & E3 & E4 & E5 & E6 & E7 & E8 & _). pose proof (rp_heap _ _ _ R) as RH.
  assert (forall p q, alive s p -> points_to (heap s) p q -> alive s q) as Hal.
  { intros p q (r & Hr & Hp) Hpq. exists r. split; [done|]. eapply rtc_r; done. }
  assert (forall p, p ∈ all_roots s -> alive s p) as Hroot.
  { intros p Hp. exists p. split; [done|]. apply rtc_refl. }
  set (g := fun i q => exists p, f i p /\ alive s p /\ q = φ p).
  assert (forall o i p, f i p -> alive s p -> obj_at f (heap s) o p -> obj_at g (heap s') o (φ p)) as Hobj.
  { intros o i p Hi Ha Ho. destruct (V2 _ Ha) as (c & c' & Hc & Hc' & (T1 & T2 & T3) & B & A).
    destruct o as [t a d|t es|bs]; cbn in Ho |- *.
    - destruct Ho as (c0 & Hc0 & Ht & K & W1 & W2). rewrite Hc in Hc0. injection Hc0 as <-.
      exists c'. split; [done|]. split; [congruence|]. split; [done|]. destruct K as (K0 & K1 & K2 & K3 & K4 & K5).
      assert (is_array c = false /\ GcSpec.is_bytes c = false) as [N1 N2].
      { unfold is_array, GcSpec.is_bytes. lia. }
      specialize (T3 N1 N2). rewrite Ht in T2, T3. split.
      + destruct a as [j|n]; cbn in K4, W1 |- *; rewrite K4 in T2; [|congruence]. exists (c_car c). split; [done|].
        split; [|done]. eapply Hal; [done|]. econstructor; [done|]. unfold cell_refs. rewrite Ht, K4. apply elem_of_app. left. by apply elem_of_list_singleton.
      + destruct d as [j|n]; cbn in K5, W2 |- *; rewrite K5 in T3; [|congruence]. exists (c_cdr c). split; [done|].
        split; [|done]. eapply Hal; [done|]. econstructor; [done|]. unfold cell_refs. rewrite Ht, K5. apply elem_of_app. right. by apply elem_of_list_singleton.
    - destruct Ho as (c0 & Hc0 & Ht & Ht' & Hl & Hes). rewrite Hc in Hc0. injection Hc0 as <-.
      assert (is_array c = true) as N1. { unfold is_array. lia. }
      exists c'. split; [done|]. split; [congruence|]. split; [done|]. split.
      { rewrite T2, Ht. destruct Ht' as [-> | ->]; done. }
      intros k w Hw. pose proof (lookup_lt_Some _ _ _ Hw) as Hk. destruct (A N1 (Z.of_nat k)) as (e & e' & He & He' & S); [lia|].
      exists e'. split; [done|]. destruct (Hes _ _ Hw) as (e0 & He0 & HW). rewrite He in He0. injection He0 as <-.
      destruct S as (S1 & S2 & S3). destruct w as [n|n|j]; cbn in HW |- *; destruct HW as [W1 W2]; rewrite W1 in *.
      + split; [done|]. rewrite S3; [done|..]; unfold is_array, GcSpec.is_bytes; rewrite W1; done.
      + split; [done|]. rewrite S3; [done|..]; unfold is_array, GcSpec.is_bytes; rewrite W1; done.
      + split; [done|]. exists (c_car e). split; [done|]. split; [|done]. eapply Hal; [done|]. eapply pt_elem; [done|done| |done|].
        * lia.
        * unfold cell_refs. rewrite W1. cbn. by apply elem_of_list_singleton.
    - destruct Ho as (c0 & Hc0 & Ht & Hb & Hl). rewrite Hc in Hc0. injection Hc0 as <-.
      exists c'. split; [done|]. split; [congruence|]. split; [rewrite B; [done|unfold GcSpec.is_bytes; lia]|].
      rewrite T2, Ht. done. }
  split.
  - split.
    + intros i p q (p0 & F1 & A1 & ->) (q0 & F2 & A2 & ->). by rewrite (rh_fun _ _ _ RH _ _ _ F1 F2).
    + intros i j p (p0 & F1 & A1 & ->) (q0 & F2 & A2 & E). apply V1 in E; [|done..]. subst q0. by eapply (rh_inj _ _ _ RH).
    + intros k Hk. rewrite E8 in Hk. exists k. assert (k ∈ constants s) as Hc. { apply elem_of_seqZ. lia. }
      split; [by apply (rh_const _ _ _ RH)|]. split; [|by rewrite V3]. apply Hroot. unfold all_roots, gc_roots. rewrite !elem_of_app. auto.
    + intros i p (p0 & F1 & A1 & ->). destruct (rh_obj _ _ _ RH _ _ F1) as (o & Ho & Hat). exists o. split; [done|]. by eapply Hobj.
    + intros i p (p0 & F1 & A1 & ->). destruct (ok_obj _ _ _ _ (mo_heap _ Ok) (φ p0)) as (c & Hc & W); [|by exists c].
      apply V7. by exists p0.
    + intros i j p q c d a (p0 & F1 & A1 & ->) (q0 & F2 & A2 & ->) Hne Hc Hd O1 O2.
      refine (ok_disj _ _ _ _ (mo_heap _ Ok) _ _ _ _ _ _ _ Hne Hc Hd O1 O2); apply V7; eauto.
  - injection V5 as H0 H1 H2 H3. exists (R0 s). split; [apply R|]. split; [|done]. apply Hroot. unfold all_roots, regs. rewrite elem_of_app, !elem_of_cons. auto.
  - injection V5 as H0 H1 H2 H3. exists (R1 s). split; [apply R|]. split; [|done]. apply Hroot. unfold all_roots, regs. rewrite elem_of_app, !elem_of_cons. auto.
  - injection V5 as H0 H1 H2 H3. exists (R2 s). split; [apply R|]. split; [|done]. apply Hroot. unfold all_roots, regs. rewrite elem_of_app, !elem_of_cons. auto.
  - injection V5 as H0 H1 H2 H3. exists (R3 s). split; [apply R|]. split; [|done]. apply Hroot. unfold all_roots, regs. rewrite elem_of_app, !elem_of_cons. auto 6.
  - rewrite E1, E2. apply R.
  - rewrite E2. apply R.
  - intros k i Hk. destruct (rp_stk _ _ _ R _ _ Hk) as (p & Hp & Hf). destruct (rp_size _ _ _ R) as [Z1 Z2].
    pose proof (lookup_lt_Some _ _ _ Hk). exists (φ p). rewrite E1, V6 by lia. rewrite Hp. split; [done|]. exists p. split; [done|]. split; [|done].
    apply Hroot. unfold all_roots, gc_roots. rewrite !elem_of_app. left. right. right. apply elem_of_list_omap. eexists. split; [|exact Hp]. apply elem_of_seqZ. lia.
  - rewrite V4. apply Forall2_fmap_r. apply Forall2_same_length_lookup_2; [by eapply Forall2_length, R|].
    intros k i p Hi Hp. pose proof (Forall2_lookup_lr _ _ _ _ _ _ (rp_glob _ _ _ R) Hi Hp) as Hf.
    apply elem_of_list_lookup_2 in Hp. exists p. split; [done|]. split; [|done].
    apply Hroot. unfold all_roots, gc_roots. rewrite !elem_of_app. auto.
  - rewrite E3. apply R.
  - apply Ok.
  - rewrite E3, E4, E5. apply R.
  - destruct V8 as (ps & [N1 N2] & V8). pose proof (rp_free _ _ _ R). rewrite V8, E4. specialize (Hroom ps N1 (fun p Hp => proj1 (N2 p) Hp)). lia.
  - apply Ok.
  - split; [apply Ok|]. rewrite E8. apply R.
Qed.

Lemma rep_gc_check f M s : rep f M s -> 5 <= g_stack s ->
  (ARENA_SIZE s <= g_free s - g_cells s + GC_SAFETY s -> has_room s) ->
  exists f' s', GcModel.gc_check s = ROk tt s' /\ rep f' M s' /\ g_stack s' = g_stack s.
Proof.
  intros R Hg Hr. unfold GcModel.gc_check. rewrite bind_get. case_match.
  - destruct (gc_correct s) as (φ & s' & E & Mv & Ok); [by eapply rep_machine_ok|done|apply Hr; lia|].
    assert (has_room s) by (apply Hr; lia).
    eexists _, s'. split; [exact E|]. split; [by eapply rep_moved|]. by destruct (mv_rest _ _ _ Mv).
  - exists f, s. done.
Qed.

(** * Updates of the abstract state *)
Definition with_heap (σ : gmap id obj) (M : mst) : mst :=
  Mst σ (m_r0 M) (m_r1 M) (m_r2 M) (m_r3 M) (m_stk M) (m_size M) (m_glob M).
Definition with_r0 (i : id) (M : mst) : mst := Mst (m_heap M) i (m_r1 M) (m_r2 M) (m_r3 M) (m_stk M) (m_size M) (m_glob M).
Definition with_r1 (i : id) (M : mst) : mst := Mst (m_heap M) (m_r0 M) i (m_r2 M) (m_r3 M) (m_stk M) (m_size M) (m_glob M).
Definition with_r2 (i : id) (M : mst) : mst := Mst (m_heap M) (m_r0 M) (m_r1 M) i (m_r3 M) (m_stk M) (m_size M) (m_glob M).
Definition with_r3 (i : id) (M : mst) : mst := Mst (m_heap M) (m_r0 M) (m_r1 M) (m_r2 M) i (m_stk M) (m_size M) (m_glob M).
Definition with_stk (l : list id) (M : mst) : mst := Mst (m_heap M) (m_r0 M) (m_r1 M) (m_r2 M) (m_r3 M) l (m_size M) (m_glob M).
Definition new_obj (i : id) (o : obj) (M : mst) : mst := with_heap (<[i := o]> (m_heap M)) M.

Lemma rep_set_R0 f M s i p : rep f M s -> f i p -> rep f (with_r0 i M) (set_R0 p s).
Proof. intros [[] ] ?. split; try done. Qed.
Lemma rep_set_R1 f M s i p : rep f M s -> f i p -> rep f (with_r1 i M) (set_R1 p s).
Proof. intros [[] ] ?. split; try done. Qed.
Lemma rep_set_R2 f M s i p : rep f M s -> f i p -> rep f (with_r2 i M) (set_R2 p s).
Proof. intros [[] ] ?. split; try done. Qed.
Lemma rep_set_R3 f M s i p : rep f M s -> f i p -> rep f (with_r3 i M) (set_R3 p s).
Proof. intros [[] ] ?. split; try done. Qed.

(** constants *)
Lemma rep_const f M s k : rep f M s -> cell_nil <= k <= cell_symbol_test -> f (Imp k) k.
Proof. intros R Hk. destruct (rp_constants _ _ _ R). apply (rh_const _ _ _ (rp_heap _ _ _ R)). lia. Qed.

(** * Frames *)
Lemma rep_stack_ok f M s : rep f M s -> stack_ok s.
Proof. intros R. destruct (rp_size _ _ _ R). split; lia. Qed.
Lemma rep_push f M s : rep f M s -> 5 <= g_stack s ->
  gc_push_frame s = ROk tt (pushed s)
  /\ rep f (with_stk (m_r3 M :: m_r2 M :: m_r1 M :: m_r0 M :: Imp cell_f :: m_stk M) M) (pushed s)
  /\ g_stack (pushed s) = g_stack s - 5.
Proof.
  intros R Hg. split; [by apply push_ok; [eapply rep_stack_ok|]|]. split; [|done].
  pose proof (rep_const _ _ _ cell_f R ltac:(done)) as Hf.
  destruct R as [[] ? ? ? ? [S1 S2] Hsz Hstk ? ? ? ? ? ? ?]. split; try done; cbn in *.
  - lia.
  - intros k i Hk. set (g := g_stack s) in *.
    destruct k as [|k]; [injection Hk as <-; exists (R3 s); split; [|done]; replace (g - 5 + Z.of_nat 0) with (g - 5) by lia; by rewrite lookup_insert|].
    rewrite lookup_insert_ne by lia.
    destruct k as [|k]; [injection Hk as <-; exists (R2 s); split; [|done]; replace (g - 5 + Z.of_nat 1) with (g - 4) by lia; by rewrite lookup_insert|].
    rewrite lookup_insert_ne by lia.
    destruct k as [|k]; [injection Hk as <-; exists (R1 s); split; [|done]; replace (g - 5 + Z.of_nat 2) with (g - 3) by lia; by rewrite lookup_insert|].
    rewrite lookup_insert_ne by lia.
    destruct k as [|k]; [injection Hk as <-; exists (R0 s); split; [|done]; replace (g - 5 + Z.of_nat 3) with (g - 2) by lia; by rewrite lookup_insert|].
    rewrite lookup_insert_ne by lia.
    destruct k as [|k]; [injection Hk as <-; exists cell_f; split; [|done]; replace (g - 5 + Z.of_nat 4) with (g - 1) by lia; by rewrite lookup_insert|].
    rewrite lookup_insert_ne by lia. destruct (Hstk k i Hk) as (p & Hp & Hi). exists p. split; [|done].
    rewrite <- Hp. f_equal. lia.
Qed.
Lemma rep_pop f M s a b c d e rest : rep f M s -> m_stk M = a :: b :: c :: d :: e :: rest ->
  exists s', gc_pop_frame s = ROk tt s'
    /\ rep f (with_stk rest (with_r0 d (with_r1 c (with_r2 b (with_r3 a M))))) s'
    /\ g_stack s' = g_stack s + 5 /\ heap s' = heap s.
Proof.
  intros [[] ? ? ? ? [S1 S2] Hsz Hstk ? ? ? ? ? ? ?] E. rewrite E in Hstk, S2. cbn [length] in S2.
  destruct (Hstk 0%nat _ eq_refl) as (pa & Ga & Fa). destruct (Hstk 1%nat _ eq_refl) as (pb & Gb & Fb).
  destruct (Hstk 2%nat _ eq_refl) as (pc & Gc & Fc). destruct (Hstk 3%nat _ eq_refl) as (pd & Gd & Fd).
  destruct (Hstk 4%nat _ eq_refl) as (pe & Ge & Fe). rewrite Z.add_0_r in Ga.
  eexists. split; [apply (pop_ok s pe pd pc pb pa); try done; lia|]. split; [|done]. split; try done; cbn in *.
  - lia.
  - intros k i Hk. destruct (Hstk (5 + k)%nat i Hk) as (p & Hp & Hi). exists p. split; [|done]. rewrite <- Hp. f_equal. lia.
Qed.
Lemma rep_stack_set f M s k i x : rep f M s -> (k < length (m_stk M))%nat -> f i x ->
  stack_set (g_stack s + Z.of_nat k) x s = ROk tt (set_g_stack_array (<[g_stack s + Z.of_nat k := x]> (g_stack_array s)) s)
  /\ rep f (with_stk (<[k := i]> (m_stk M)) M) (set_g_stack_array (<[g_stack s + Z.of_nat k := x]> (g_stack_array s)) s).
Proof.
  intros [[] ? ? ? ? [S1 S2] Hsz Hstk ? ? ? ? ? ? ?] Hk Hx. split; [apply stack_set_ok; lia|]. split; try done; cbn in *.
  - by rewrite insert_length.
  - intros n j Hn. destruct (decide (k = n)) as [<-|Hne].
    + rewrite list_lookup_insert in Hn by done. injection Hn as <-. exists x. by rewrite lookup_insert.
    + rewrite list_lookup_insert_ne in Hn by done. rewrite lookup_insert_ne by lia. by apply Hstk.
Qed.

(** * Allocation *)
Definition add_id (f : idmap) (i : id) (p : Z) : idmap := fun j q => f j q \/ (j = i /\ q = p).
Lemma word_rel_mono (f g : idmap) w x : (forall i p, f i p -> g i p) -> word_rel f w x -> word_rel g w x.
Proof. intros H. destruct w; cbn; auto. Qed.
Lemma slot_rel_mono (f g : idmap) w x : (forall i p, f i p -> g i p) -> slot_rel f w x -> slot_rel g w x.
Proof. intros H. destruct w; cbn; intros [? ?]; auto. Qed.
Lemma obj_at_mono (f g : idmap) h o p : (forall i q, f i q -> g i q) -> obj_at f h o p -> obj_at g h o p.
Proof.
  intros H. destruct o as [t a d|t es|bs]; cbn.
  - intros (c & Hc & Ht & K & W1 & W2). exists c. split; [done|]. split; [done|]. split; [done|]. split; by eapply word_rel_mono.
  - intros (c & Hc & Ht & Ht' & Hl & He). exists c. do 4 (split; [done|]). intros k w Hw. destruct (He k w Hw) as (e & Hee & Hs).
    exists e. split; [done|]. by eapply slot_rel_mono.
  - done.
Qed.
Lemma obj_at_agree f h h' o p : obj_at f h o p ->
  (forall c a, h !! p = Some c -> occupies p c a -> h' !! a = h !! a) -> obj_at f h' o p.
Proof.
  intros Ho Hag. destruct o as [t a d|t es|bs]; cbn in *.
  - destruct Ho as (c & Hc & K). exists c. rewrite (Hag c p Hc) by by left. done.
  - destruct Ho as (c & Hc & Ht & Ht' & Hl & He). exists c. rewrite (Hag c p Hc) by by left. do 4 (split; [done|]). intros k w Hw.
    destruct (He k w Hw) as (e & Hee & Hs). exists e. split; [|done]. pose proof (lookup_lt_Some _ _ _ Hw).
    rewrite (Hag c); [done|done|]. right. left. split; [unfold is_array; lia|lia].
  - destruct Ho as (c & Hc & K). exists c. rewrite (Hag c p Hc) by by left. done.
Qed.
Lemma wf_obj_agree lo hi hi' h h' p c : wf_obj lo hi h p c -> hi <= hi' ->
  (forall a, occupies p c a -> h' !! a = h !! a) -> wf_obj lo hi' h' p c.
Proof.
  intros [W1 W2 W3 W4] Hle Hag. split; [lia|done| |].
  - intros Ha. destruct (W3 Ha) as (A1 & A2 & A3 & A4 & A5). do 2 (split; [done|]). split; [lia|]. split; [done|]. intros k Hk.
    destruct (A5 k Hk) as (e & He & Hel). exists e. split; [|done]. rewrite Hag; [done|]. right. left. split; [done|lia].
  - intros Hb. destruct (W4 Hb). split; [done|lia].
Qed.
Lemma wf_occupies lo hi h p c a : wf_obj lo hi h p c -> occupies p c a -> lo <= a < hi.
Proof.
  intros [W1 W2 W3 W4] [->|[[Ha Hr]|[Hb Hr]]]; [done| |].
  - destruct (W3 Ha) as (A1 & A2 & A3 & _). lia.
  - destruct (W4 Hb). lia.
Qed.

(** objects may be added behind [g_free] *)
Lemma rep_heap_new f σ s s' i o p c : rep_heap f σ s ->
  g_cells s' = g_cells s -> g_symbol_max s' = g_symbol_max s -> g_free s <= g_free s' ->
  (forall q, cell_nil <= q < g_free s -> heap s' !! q = heap s !! q) ->
  σ !! i = None ->
  heap s' !! p = Some c -> obj_at f (heap s') o p -> wf_obj cell_nil (g_free s') (heap s') p c ->
  (forall a, occupies p c a -> g_free s <= a) ->
  rep_heap (add_id f i p) (<[i := o]> σ) s'.
Proof.
  intros R E1 E2 E3 Hag Hi Hc Ho Hw Hocc.
  assert (forall j q, f j q -> j <> i) as Hni.
  { intros j q Hj ->. destruct (rh_obj _ _ _ R _ _ Hj) as (o' & Ho' & _). congruence. }
  assert (forall j q c', f j q -> heap s !! q = Some c' -> forall a, occupies q c' a -> heap s' !! a = heap s !! a /\ a < g_free s) as Hold.
  { intros j q c' Hj Hc' a Ha. destruct (rh_wf _ _ _ R _ _ Hj) as (c0 & Hc0 & W). rewrite Hc' in Hc0. injection Hc0 as <-.
    pose proof (wf_occupies _ _ _ _ _ _ W Ha). split; [by apply Hag|lia]. }
  assert (forall j q, f j q -> exists c', heap s !! q = Some c' /\ heap s' !! q = Some c' /\ q < g_free s) as Hcell.
  { intros j q Hj. destruct (rh_wf _ _ _ R _ _ Hj) as (c0 & Hc0 & W). exists c0. split; [done|].
    destruct (Hold j q c0 Hj Hc0 q) as [Ha Hlt]; [by left|]. split; [congruence|done]. }
  assert (g_free s <= p) as Hp by (apply Hocc; by left).
  split.
  - intros j q r [Hj|[-> ->]] [Hj'|[E ->]]; [by eapply (rh_fun _ _ _ R)| |by destruct (Hni _ _ Hj')|done]. subst. by destruct (Hni _ _ Hj).
  - intros j k q [Hj|[-> ->]] [Hk|[-> E]]; [by eapply (rh_inj _ _ _ R)| | |done]; subst.
    + destruct (Hcell _ _ Hj) as (? & _ & _ & ?). lia.
    + destruct (Hcell _ _ Hk) as (? & _ & _ & ?). lia.
  - intros k Hk. left. apply (rh_const _ _ _ R). lia.
  - intros j q [Hj|[-> ->]].
    + destruct (rh_obj _ _ _ R _ _ Hj) as (o' & Ho' & Hat). exists o'. rewrite lookup_insert_ne by (apply not_eq_sym; by eapply Hni). split; [done|].
      apply (obj_at_mono f); [by left|]. eapply obj_at_agree; [done|]. intros c' a Hc' Ha. by eapply Hold.
    + exists o. rewrite lookup_insert. split; [done|]. apply (obj_at_mono f); [by left|done].
  - intros j q [Hj|[-> ->]]; [|by exists c]. destruct (rh_wf _ _ _ R _ _ Hj) as (c0 & Hc0 & W). exists c0.
    destruct (Hcell _ _ Hj) as (c1 & Hc1 & Hc1' & _). split; [congruence|]. eapply wf_obj_agree; [done|done|].
    intros a Ha. by destruct (Hold _ _ _ Hj Hc0 _ Ha).
  - intros j k q r c1 c2 a [Hj|[-> ->]] [Hk|[-> ->]] Hne Hc1 Hc2 O1 O2.
    + destruct (Hcell _ _ Hj) as (c1' & G1 & G1' & _), (Hcell _ _ Hk) as (c2' & G2 & G2' & _).
      eapply (rh_disj _ _ _ R j k q r c1 c2 a); try done; congruence.
    + destruct (Hcell _ _ Hj) as (c1' & G1 & G1' & _). assert (c1' = c1) as -> by congruence. assert (c2 = c) as -> by congruence.
      destruct (Hold _ _ _ Hj G1 a O1). specialize (Hocc _ O2). lia.
    + destruct (Hcell _ _ Hk) as (c2' & G2 & G2' & _). assert (c2' = c2) as -> by congruence. assert (c1 = c) as -> by congruence.
      destruct (Hold _ _ _ Hk G2 a O2). specialize (Hocc _ O1). lia.
    + done.
Qed.

Lemma rep_make_cell f M s i t a d x y : rep f M s -> can_alloc 1 s -> m_heap M !! i = None ->
  cell_ok t a d -> word_rel f a x -> word_rel f d y ->
  make_cell t x y s = ROk (g_free s) (with_cell (Cell t x y []) s)
  /\ rep (add_id f i (g_free s)) (new_obj i (OCell t a d) M) (with_cell (Cell t x y []) s).
Proof.
  intros R Ha Hi K W1 W2. split; [by apply make_cell_s|].
  assert (forall j p, f j p -> add_id f i (g_free s) j p) as Hle by (intros; by left).
  pose proof (rp_cells _ _ _ R) as Hcl. pose proof (rp_free _ _ _ R) as Hfr.
  destruct K as (K1 & K2 & K3 & K4 & K5 & K6).
  split; cbn.
  - eapply (rep_heap_new f _ s); [apply R|done|done|cbn; lia| |done|cbn; by rewrite lookup_insert| | |].
    + intros q Hq. cbn. rewrite lookup_insert_ne by lia. done.
    + cbn. eexists. rewrite lookup_insert. split; [done|]. by cbn.
    + cbn. split; cbn; unfold is_array, GcSpec.is_bytes; cbn; try lia.
    + intros q [->|[[Hq _]|[Hq _]]]; [lia|..]; unfold is_array, GcSpec.is_bytes in Hq; cbn in Hq; lia.
  - apply Hle, R. - apply Hle, R. - apply Hle, R. - apply Hle, R. - apply R. - apply R.
  - intros k j Hk. destruct (rp_stk _ _ _ R _ _ Hk) as (p & Hp & Hj). exists p. split; [done|by apply Hle].
  - eapply Forall2_impl; [apply R|done].
  - apply R.
  - lia.
  - apply R.
  - destruct Ha. lia.
  - destruct (rp_arena _ _ _ R) as (c & Hc). exists c. rewrite lookup_insert_ne by lia. done.
  - destruct (rp_constants _ _ _ R) as [[C1 C2] C3]. split; [|done]. split; [done|]. intros p Hp.
    pose proof (rh_const _ _ _ (rp_heap _ _ _ R) p Hp) as Hf. destruct (rh_wf _ _ _ (rp_heap _ _ _ R) _ _ Hf) as (c & Hc & W).
    destruct W as [W _ _ _]. rewrite lookup_insert_ne by lia. by apply C2.
Qed.

(** * Changing a cell *)
Lemma rep_put f M s i p t a d c b a' d' x y : rep f M s -> f i p ->
  m_heap M !! i = Some (OCell t a d) -> heap s !! p = Some c ->
  (forall k, i = Imp k -> t <> TSPECIAL /\ t <> TSYMBOL) -> cell_ok t a' d' -> word_rel f a' x -> word_rel f d' y ->
  rep f (new_obj i (OCell t a' d') M) (put p (Cell t x y b) s).
Proof.
  intros R Hi Ho Hc Hni K W1 W2. pose proof (rp_heap _ _ _ R) as RH.
  destruct (rh_cell _ _ _ _ _ _ _ _ RH Hi Ho) as (c0 & Hc0 & Ht & K0 & _ & _). rewrite Hc in Hc0. injection Hc0 as <-.
  destruct (rh_wf _ _ _ RH _ _ Hi) as (c0 & Hc0 & W). rewrite Hc in Hc0. injection Hc0 as <-.
  assert (is_array c = false /\ GcSpec.is_bytes c = false) as [N1 N2].
  { destruct K0 as (_ & ? & ? & ? & _). unfold is_array, GcSpec.is_bytes. lia. }
  assert (is_array (Cell t x y b) = false /\ GcSpec.is_bytes (Cell t x y b) = false) as [N3 N4].
  { destruct K0 as (_ & ? & ? & ? & _). unfold is_array, GcSpec.is_bytes. cbn. lia. }
  assert (forall j q c', f j q -> q <> p -> heap s !! q = Some c' -> forall a, occupies q c' a -> <[p := Cell t x y b]> (heap s) !! a = heap s !! a) as Hold.
  { intros j q c' Hj Hne Hc' ad Had. rewrite lookup_insert_ne; [done|]. intros <-.
    eapply (rh_disj _ _ _ RH j i q p c' c p); try done. by left. }
  split; cbn; try apply R.
  - split.
    + apply RH.
    + apply RH.
    + apply RH.
    + intros j q Hj. destruct (decide (j = i)) as [->|Hne].
      * rewrite (rh_fun _ _ _ RH _ _ _ Hj Hi). exists (OCell t a' d'). rewrite lookup_insert. split; [done|]. cbn.
        eexists. rewrite lookup_insert. split; [done|]. by cbn.
      * destruct (rh_obj _ _ _ RH _ _ Hj) as (o & Ho' & Hat). exists o. rewrite lookup_insert_ne by done. split; [done|].
        eapply obj_at_agree; [done|]. intros c' ad Hc' Had. cbn. eapply (Hold j q); try done. intros ->. by apply Hne, (rh_inj _ _ _ RH _ _ _ Hj Hi).
    + intros j q Hj. cbn. destruct (decide (j = i)) as [->|Hne].
      * rewrite (rh_fun _ _ _ RH _ _ _ Hj Hi). eexists. rewrite lookup_insert. split; [done|]. destruct W as [W1' W2' _ _]. split; [done|cbn; congruence| |]; intros E; [by rewrite N3 in E|by rewrite N4 in E].
      * destruct (rh_wf _ _ _ RH _ _ Hj) as (c' & Hc' & W'). exists c'. assert (q <> p) as Hqp. { intros ->. by apply Hne, (rh_inj _ _ _ RH _ _ _ Hj Hi). }
        rewrite lookup_insert_ne by done. split; [done|]. eapply wf_obj_agree; [done|lia|]. by eapply Hold.
    + intros j k q r c1 c2 ad Hj Hk Hne Hc1 Hc2 O1 O2. cbn in Hc1, Hc2.
      assert (forall q' c', <[p := Cell t x y b]> (heap s) !! q' = Some c' -> exists c'', heap s !! q' = Some c'' /\ (occupies q' c' ad -> occupies q' c'' ad)) as Hocc.
      { intros q' c' Hq'. destruct (decide (q' = p)) as [->|Hqp].
        - rewrite lookup_insert in Hq'. injection Hq' as <-. exists c. split; [done|]. intros [->|[[E _]|[E _]]]; [by left|..].
          + by rewrite N3 in E. + by rewrite N4 in E.
        - rewrite lookup_insert_ne in Hq' by done. by exists c'. }
      destruct (Hocc _ _ Hc1) as (c1' & G1 & P1), (Hocc _ _ Hc2) as (c2' & G2 & P2).
      eapply (rh_disj _ _ _ RH j k q r c1' c2' ad); try done; auto.
  - destruct (rp_arena _ _ _ R) as (c' & Hc'). exists c'. rewrite lookup_insert_ne; [done|]. destruct W as [W _ _ _]. pose proof (rp_cells _ _ _ R). lia.
  - destruct (rp_constants _ _ _ R) as [[C1 C2] C3]. split; [|done]. split; [done|]. intros q Hq.
    rewrite lookup_insert_ne; [by apply C2|]. intros ->.
    destruct (Hni q) as [T1 T2]; [apply (rh_inj _ _ _ RH _ _ _ Hi), (rh_const _ _ _ RH); lia|].
    destruct (C2 q Hq) as (c' & Hc' & Hty). rewrite Hc in Hc'. injection Hc' as <-. rewrite Ht in Hty. tauto.
Qed.

(** a represented object lies inside the arena *)
Lemma rep_range f M s i p : rep f M s -> f i p -> 1 <= p < limit s /\ p < g_free s.
Proof.
  intros R Hi. destruct (rh_wf _ _ _ (rp_heap _ _ _ R) _ _ Hi) as (c & Hc & [W _ _ _]). pose proof (rp_top _ _ _ R).
  pose proof (rp_cells _ _ _ R) as E. unfold cell_nil in *. lia.
Qed.
Lemma rep_set_cdr f M s i p a d j q : rep f M s -> f i p ->
  m_heap M !! i = Some (OCell TPAIR (WId a) (WId d)) -> f j q ->
  exists c, set_cdr p q s = ROk tt (put p c s)
    /\ rep f (new_obj i (OCell TPAIR (WId a) (WId j)) M) (put p c s).
Proof.
  intros R Hp Ho Hq. destruct (rh_cell _ _ _ _ _ _ _ _ (rp_heap _ _ _ R) Hp Ho) as (c & Hc & Ht & K & W1 & W2).
  eexists. split; [apply set_cdr_s; [done|by eapply rep_range]|]. rewrite Ht.
  eapply rep_put; try done.
Qed.
Lemma rep_set_car f M s i p a d j q : rep f M s -> f i p ->
  m_heap M !! i = Some (OCell TPAIR (WId a) (WId d)) -> f j q ->
  exists c, set_car p q s = ROk tt (put p c s)
    /\ rep f (new_obj i (OCell TPAIR (WId j) (WId d)) M) (put p c s).
Proof.
  intros R Hp Ho Hq. destruct (rh_cell _ _ _ _ _ _ _ _ (rp_heap _ _ _ R) Hp Ho) as (c & Hc & Ht & K & W1 & W2).
  eexists. split; [apply set_car_s; [done|by eapply rep_range]|]. rewrite Ht.
  eapply rep_put; try done.
Qed.
Lemma pair_ok a d : cell_ok TPAIR (WId a) (WId d).
Proof. done. Qed.
Lemma rep_cons f M s i a d x y : rep f M s -> can_alloc 1 s -> m_heap M !! i = None -> f a x -> f d y ->
  cons x y s = ROk (g_free s) (with_cell (Cell TPAIR x y []) s)
  /\ rep (add_id f i (g_free s)) (new_obj i (OCell TPAIR (WId a) (WId d)) M) (with_cell (Cell TPAIR x y []) s).
Proof. intros. by apply rep_make_cell. Qed.

(** * Cells allocated behind the scenes *)
Lemma rep_extends f M s s' k : rep f M s -> modifies nothing k s s' -> can_alloc k s -> rep f M s'.
Proof.
  intros R [H1 H2 H3 (h & ->)] Ha. destruct Ha as (A1 & A2 & A3). cbn in *. pose proof (rp_heap _ _ _ R) as RH.
  assert (forall q, q < g_free s -> h !! q = heap s !! q) as Hag by (intros q Hq; apply H3; [done|intros []]).
  assert (forall j q c', f j q -> heap s !! q = Some c' -> forall a, occupies q c' a -> h !! a = heap s !! a) as Hold.
  { intros j q c' Hj Hc' a Ha. destruct (rh_wf _ _ _ RH _ _ Hj) as (c0 & Hc0 & W). rewrite Hc' in Hc0. injection Hc0 as <-.
    pose proof (wf_occupies _ _ _ _ _ _ W Ha). apply Hag. lia. }
  assert (forall j q, f j q -> exists c', heap s !! q = Some c' /\ h !! q = Some c' /\ q < g_free s) as Hcell.
  { intros j q Hj. destruct (rh_wf _ _ _ RH _ _ Hj) as (c0 & Hc0 & W). exists c0. split; [done|].
    rewrite (Hold j q c0 Hj Hc0 q) by by left. split; [done|]. destruct W as [W _ _ _]. lia. }
  split; cbn; try apply R.
  - split; cbn; try apply RH.
    + intros i p Hi. destruct (rh_obj _ _ _ RH _ _ Hi) as (o & Ho & Hat). exists o. split; [done|].
      eapply obj_at_agree; [done|]. intros c a Hc Hoc. by eapply Hold.
    + intros i p Hi. destruct (rh_wf _ _ _ RH _ _ Hi) as (c & Hc & W). exists c.
      destruct (Hcell _ _ Hi) as (c' & Hc' & Hc'' & _). split; [congruence|].
      eapply wf_obj_agree; [done|lia|]. intros a Hoc. by apply (Hold _ _ _ Hi Hc).
    + intros i j p q c d a Hi Hj Hne Hc Hd. destruct (Hcell _ _ Hi) as (c' & G1 & G2 & _), (Hcell _ _ Hj) as (d' & G3 & G4 & _).
      eapply (rh_disj _ _ _ RH i j); try done; congruence.
  - pose proof (rp_free _ _ _ R). lia.
  - lia.
  - destruct (rp_arena _ _ _ R) as (c & Hc). exists c. rewrite Hag; [done|]. pose proof (rp_free _ _ _ R). pose proof (rp_cells _ _ _ R). lia.
  - destruct (rp_constants _ _ _ R) as [[C1 C2] C3]. split; [|done]. split; [done|]. intros p Hp.
    destruct (Hcell (Imp p) p) as (c & Hc & Hc' & Hlt); [by apply (rh_const _ _ _ RH)|]. destruct (C2 p Hp) as (c' & Hc2 & Ht).
    exists c'. split; [congruence|done].
Qed.
(** giving an identifier to a pair that is there but belongs to nothing yet *)
Lemma rep_add_pair f M s i p a d x y : rep f M s -> m_heap M !! i = None -> pair_at (heap s) p x y ->
  f a x -> f d y -> cell_nil <= p < g_free s ->
  (forall j q c, f j q -> heap s !! q = Some c -> ~ occupies q c p) ->
  rep (add_id f i p) (new_obj i (OCell TPAIR (WId a) (WId d)) M) s.
Proof.
  intros R Hi (c & Hc & Ht & <- & <-) Ha Hd Hp Hocc. pose proof (rp_heap _ _ _ R) as RH.
  assert (forall j p', f j p' -> add_id f i p j p') as Hle by (intros; by left).
  assert (forall j q, f j q -> j <> i) as Hni.
  { intros j q Hj ->. destruct (rh_obj _ _ _ RH _ _ Hj) as (o' & Ho' & _). congruence. }
  assert (forall j, ~ f j p) as Hnp.
  { intros j Hj. eapply (Hocc j p c); try done. by left. }
  assert (forall a, occupies p c a -> a = p) as Hop.
  { intros a' [->|[[E _]|[E _]]]; [done|..]; unfold is_array, GcSpec.is_bytes in E; rewrite Ht in E; done. }
  split; cbn; try apply R; try (apply Hle; apply R).
  - split; cbn.
    + intros j q r [Hj|[-> ->]] [Hj'|[E ->]]; [by eapply (rh_fun _ _ _ RH)| |by destruct (Hni _ _ Hj')|done]. subst. by destruct (Hni _ _ Hj).
    + intros j k q [Hj|[-> ->]] [Hk|[-> E]]; [by eapply (rh_inj _ _ _ RH)| | |done]; subst; by edestruct Hnp.
    + intros k Hk. left. by apply (rh_const _ _ _ RH).
    + intros j q [Hj|[-> ->]].
      * destruct (rh_obj _ _ _ RH _ _ Hj) as (o' & Ho' & Hat). exists o'. rewrite lookup_insert_ne by (apply not_eq_sym; by eapply Hni). split; [done|].
        apply (obj_at_mono f); [by left|done].
      * eexists. rewrite lookup_insert. split; [done|]. cbn. exists c. do 3 (split; [done|]). split; by left.
    + intros j q [Hj|[-> ->]]; [by apply (rh_wf _ _ _ RH _ _ Hj)|]. exists c. split; [done|].
      split; [done|rewrite Ht; done| |]; intros E; unfold is_array, GcSpec.is_bytes in E; rewrite Ht in E; done.
    + intros j k q r c1 c2 ad [Hj|[-> ->]] [Hk|[-> ->]] Hne Hc1 Hc2 O1 O2.
      * by eapply (rh_disj _ _ _ RH j k q r c1 c2 ad).
      * assert (c2 = c) as -> by congruence. apply Hop in O2 as ->. by eapply Hocc.
      * assert (c1 = c) as -> by congruence. apply Hop in O1 as ->. by eapply Hocc.
      * done.
  - intros k j Hk. destruct (rp_stk _ _ _ R _ _ Hk) as (q & Hq & Hj). exists q. split; [done|by apply Hle].
  - eapply Forall2_impl; [apply R|done].
Qed.
