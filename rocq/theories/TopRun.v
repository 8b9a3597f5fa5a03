(** Runs of the evaluator at the top level, and what they keep. *)
From stdpp Require Import base gmap list fin_maps.
From Coq Require Import ZArith Lia.
From Coq Require Import ZifyBool ZifyNat.
From Verif Require Import CInt Symbols Heap HeapLemmas GcModel GcSpec DataModel DataSpec DataLemmas CoreProofs StackModel.
From Verif Require Import EvalModel Rep RepProofs EvalSpec EvalRep EvalLemmas EvalBind EvalSplice EvalRun EvalSteps EvalSteps2 EvalSteps3 EvalSteps4 EvalDefine EvalMain.
From Verif Require Import TopSpec TopRep TopRename TopExpand TopResolve TopForm TopMacro.
Open Scope Z_scope. Open Scope mes_scope.

(** * Runs *)
Definition any (v : locals) : Prop := True.
Definition outer (v : locals) : Prop := v = Locals true false.
Section runs.
Context (prim : Z -> list Z -> M Z) (load_program : Z -> M Z) (fuel : nat).
Notation step := (step GcModel.gc_check prim load_program fuel).
Notation steps := (steps prim load_program fuel).
Notation enough := (enough fuel).
Notation roomy := (roomy prim load_program fuel).
(** with the local variables of eval_apply in [V] at the start and in [W] at the end *)
Definition goes (V W : locals -> Prop) (N : Z) (l : label) (M : mst) (l' : label) (P : mst -> Prop) : Prop :=
  0 <= N /\ forall f v s, V v -> rep f M s -> roomy N l v s -> exists f' s' M' v', steps l v s l' v' s' /\ W v' /\ rep f' M' s' /\ P M'.
Lemma goes_here (V : locals -> Prop) N l M (P : mst -> Prop) : 0 <= N -> P M -> goes V V N l M l P.
Proof. intros HN HP. split; [done|]. intros f v s Hv R _. exists f, s, M, v. split; [constructor|done]. Qed.
Lemma goes_seq (V W X : locals -> Prop) N N1 l M l1 (P1 : mst -> Prop) l2 P2 : goes V W N1 l M l1 P1 -> N1 <= N -> (forall M1, P1 M1 -> goes W X N l1 M1 l2 P2) -> goes V X N l M l2 P2.
Proof.
  intros [H0 H] Hle H'. split; [lia|]. intros f v s Hv R Hr.
  destruct (H f v s Hv R) as (f1 & s1 & M1 & v1 & S1 & K1 & R1 & HP1). { eapply roomy_le; [done|lia]. }
  destruct (H' M1 HP1) as [_ H1]. destruct (H1 f1 v1 s1 K1 R1) as (f2 & s2 & M2 & v2 & S2 & K2 & R2 & HP2). { by eapply roomy_steps. }
  exists f2, s2, M2, v2. split; [by eapply steps_trans|done].
Qed.
Lemma goes_mono (V W W' : locals -> Prop) N l M l' (P P' : mst -> Prop) : goes V W N l M l' P -> (forall M, P M -> P' M) -> (forall v, W v -> W' v) -> goes V W' N l M l' P'.
Proof. intros [H0 H] HP HW. split; [done|]. intros f v s Hv R Hr. destruct (H f v s Hv R Hr) as (f' & s' & M' & v' & S' & K' & R' & HP'). exists f', s', M', v'. auto. Qed.
Lemma goes_any d N l M l' P : runsP (defs := d) prim load_program fuel N l M l' P -> goes any any N l M l' P.
Proof. intros [H0 H]. split; [done|]. intros f v s _ R Hr. destruct (H f v s R Hr) as (f' & s' & M' & v' & S' & _ & R' & HP). by exists f', s', M', v'. Qed.
Lemma goes_outer N l M l' P : runsP (defs := false) prim load_program fuel N l M l' P -> goes outer outer N l M l' P.
Proof.
  intros [H0 H]. split; [done|]. intros f v s Hv R Hr. destruct (H f v s R Hr) as (f' & s' & M' & v' & S' & K' & R' & HP).
  exists f', s', M', v'. split; [done|]. split; [|done]. by destruct K' as [->|[? _]].
Qed.
Lemma goes_bind d (X : locals -> Prop) N N1 l M l1 M1 l2 P2 : runs (defs := d) prim load_program fuel N1 l M l1 M1 -> N1 <= N -> goes any X N l1 M1 l2 P2 -> goes any X N l M l2 P2.
Proof. intros H1 HN H2. eapply goes_seq; [eapply goes_any, (runsP_of _ _ _ _ _ _ _ _ (fun M => M = M1)); [exact H1|done]|done|]. by intros M2 ->. Qed.
Lemma goes_bind_outer (X : locals -> Prop) N N1 l M l1 M1 l2 P2 : runs (defs := false) prim load_program fuel N1 l M l1 M1 -> N1 <= N -> goes outer X N l1 M1 l2 P2 -> goes outer X N l M l2 P2.
Proof. intros H1 HN H2. eapply goes_seq; [eapply goes_outer, (runsP_of _ _ _ _ _ _ _ _ (fun M => M = M1)); [exact H1|done]|done|]. by intros M2 ->. Qed.
Lemma goes_step (V W : locals -> Prop) N l M l' (P : mst -> Prop) : 0 <= N -> (forall f v s, V v -> rep f M s -> enough N l s ->
    wp (step l v) s (fun n s' => exists v', n = Goto l' v' /\ W v' /\ exists f' M', rep f' M' s' /\ P M')) -> goes V W N l M l' P.
Proof.
  intros H0 H. split; [done|]. intros f v s Hv R Hr.
  destruct (H f v s Hv R) as (n & s' & E & v' & -> & HW & f' & M' & R' & HP). { apply (Hr l v). constructor. }
  exists f', s', M', v'. split; [|done]. econstructor; [done|constructor].
Qed.

(** * New names on the way *)
Lemma ren_live U m σ f M s i p : unused U m σ -> m_heap M = σ -> rep f M s -> f i p -> untouched U i -> ren U m i = i.
Proof.
  intros Hu EM R Hi Hn. destruct (rh_obj _ _ _ (rp_heap _ _ _ R) _ _ Hi) as (o & Ho & _). rewrite EM in Ho.
  destruct i as [l|j|k|k]; cbn; try done.
  - by eapply ren_fix.
  - rewrite bool_decide_false; [done|]. intros Hk. by eapply Hn.
Qed.
Lemma ren_live_all U m σ f M s is : unused U m σ -> m_heap M = σ -> rep f M s -> (forall i, i ∈ is -> exists p, f i p) -> Forall (untouched U) is -> map (ren U m) is = is.
Proof.
  intros Hu EM R. induction is as [|i is IH]; [done|]. intros Hf [Hn Hns]%Forall_cons. cbn. destruct (Hf i) as (p & Hp); [by left|]. f_equal; [by eapply ren_live|]. apply IH; [|done]. intros j Hj. apply Hf. by right.
Qed.
Context (sz : Z) (gl : list id).
Notation MS σ r0 r1 r2 r3 st := (Mst σ r0 r1 r2 r3 st sz gl).
Lemma goes_rename (V W : locals -> Prop) U N l l' σ r0 r1 r2 r3 st P : Forall (untouched U) (r0 :: r2 :: r3 :: st ++ gl) ->
  (forall m, unused U m σ -> goes V W N l (MS (ren_heap U m σ) r0 (ren U m r1) r2 r3 st) l' P) -> goes V W N l (MS σ r0 r1 r2 r3 st) l' P.
Proof.
  intros Hf H. destruct (unused_names U σ) as (m & Hm). destruct (H m Hm) as [H0 H']. split; [done|]. intros f v s Hv R Hr.
  rewrite !Forall_cons, Forall_app in Hf. destruct Hf as (F0 & F2 & F3 & Fs & Fg).
  pose proof (rep_rename U m σ Hm f (MS σ r0 r1 r2 r3 st) s eq_refl R) as R'. unfold ren_mst in R'. cbn [m_heap m_r0 m_r1 m_r2 m_r3 m_stk m_size m_glob] in R'.
  pose proof (rp_r0 _ _ _ R) as E0. pose proof (rp_r2 _ _ _ R) as E2. pose proof (rp_r3 _ _ _ R) as E3. pose proof (rp_stk _ _ _ R) as Es. pose proof (rp_glob _ _ _ R) as Eg. cbn [m_r0 m_r2 m_r3 m_stk m_glob] in E0, E2, E3, Es, Eg.
  rewrite (ren_live U m σ f (MS σ r0 r1 r2 r3 st) s _ _ Hm eq_refl R E0 F0), (ren_live U m σ f (MS σ r0 r1 r2 r3 st) s _ _ Hm eq_refl R E2 F2), (ren_live U m σ f (MS σ r0 r1 r2 r3 st) s _ _ Hm eq_refl R E3 F3) in R'.
  assert (map (ren U m) gl = gl) as Egl. { eapply (ren_live_all U m σ f (MS σ r0 r1 r2 r3 st) s _ Hm eq_refl R); [|exact Fg]. intros i (k & Hk)%elem_of_list_lookup. destruct (Forall2_lookup_l _ _ _ _ _ Eg Hk) as (p & _ & Hp). by exists p. }
  assert (map (ren U m) st = st) as Est. { eapply (ren_live_all U m σ f (MS σ r0 r1 r2 r3 st) s _ Hm eq_refl R); [|exact Fs]. intros i (k & Hk)%elem_of_list_lookup. destruct (Es _ _ Hk) as (p & _ & Hp). by exists p. }
  rewrite Egl, Est in R'. by eapply H'.
Qed.
End runs.

Section world.
Context (T : table) (xs : Z -> Prop) (m : Z) (ρ : env).
Notation world := (world T xs m ρ).
Lemma world_setting gs μ σ r0 M : world gs μ σ r0 -> m_r0 M = r0 -> m_glob M !! 3%nat = Some (Imp (tb_module T)) -> setting T xs gs ρ M σ.
Proof. intros [H1 H2 H3 H4 H5 H6 H7] E0 Eg. split; try done; [|by rewrite E0]. eapply vars_at_of; [apply H6|exact H5]. Qed.
Lemma world_env gs μ σ r0 : world gs μ σ r0 -> env_ok μ ρ.
Proof. intros W. destruct (wo_env _ _ _ _ _ _ _ _ W) as (_ & Hh & _). clear W. induction Hh as [|ρ' _ IH]; [apply eo_nil|by apply eo_hide]. Qed.
Lemma ilist_flist σ i es : ilist σ i es -> flist σ i es.
Proof. induction 1; econstructor; try done. Qed.
Lemma world_consts gs μ σ r0 : world gs μ σ r0 -> consts_ok (Genv (Imp (tb_module T)) gs) σ.
Proof.
  intros W. split; [apply (ba_consts _ (wo_base _ _ _ _ _ _ _ _ W))| |intros x Hx; by apply elem_of_nil in Hx]. intros x l Hl. cbn in Hl.
  destruct (wo_globals _ _ _ _ _ _ _ _ W) as (bs & [(ms & M1 & M2) (ts & T1 & T2 & T3 & T4) Hv Hb]).
  destruct (Hb x) as (h & i & (n & nb & nm & N1 & N2 & N3 & ->) & Hi & Hw); [right; congruence|]. rewrite Hl in Hw. destruct Hw as (pre & post & Hw & Hpre).
  exists ms, ts, bs, (Imp (tb_table T)), (Txt (tb_vector T)), (Imp nb), i, (tb_size T), n, nm, pre, post. split; cbn; try done. split; [by apply ilist_flist|done].
Qed.
Lemma world_ext gs μ μ' σ σ' r0 : ext σ σ' -> store_at [] μ' σ' -> store_ok (Genv (Imp (tb_module T)) gs) μ' -> world gs μ σ r0 -> world gs μ' σ' r0.
Proof.
  intros E S O [H1 (bs & H2) H3 H4 H5 H6 H7]. pose proof (ext0_morph _ _ (ext_ext0 _ _ E)) as Em. split; try done.
  - by eapply base_m.
  - exists bs. eapply globals_at_ext0; [by apply ext_ext0| |done]. rewrite (ga_vector _ _ _ _ _ H2). eapply ext_frozen; [done| |apply H2]. done.
  - by eapply top_env_m.
  - eapply no_expander_m; [apply H1|exact Em|done].
Qed.
Lemma world_expanded U gs μ σ σ' r0 : expanded U σ σ' -> tb_vector T ∉ U -> world gs μ σ r0 -> world gs μ σ' r0.
Proof.
  intros E Hn [H1 (bs & H2) H3 H4 H5 H6 H7]. pose proof (expanded_morph _ _ _ E) as Em. split; try done.
  - by eapply base_m.
  - exists bs. eapply globals_at_ext0; [by eapply expanded_ext0| |done]. rewrite (ga_vector _ _ _ _ _ H2). eapply expanded_txt; [done|by apply H2|done].
  - by eapply top_env_m.
  - eapply store_at_ext0; [by eapply expanded_ext0|apply E|done].
  - eapply no_expander_m; [apply H1|exact Em|done].
Qed.
Lemma world_rename U mm gs μ σ r0 : unused U mm σ -> tb_vector T ∉ U -> world gs μ σ r0 -> world gs μ (ren_heap U mm σ) r0.
Proof.
  intros Hu Hn [H1 (bs & H2) H3 H4 H5 H6 H7]. pose proof (ren_morph _ _ _ Hu) as Em. split; try done.
  - by eapply base_m.
  - exists (map (msl (ren U mm)) bs). eapply globals_at_m; [exact Em| |by apply ren_other|done]. rewrite <- (ren_other U mm (tb_vector T)) by done. rewrite ren_lookup, (ga_vector _ _ _ _ _ H2). done.
  - by eapply top_env_m.
  - eapply store_at_m; [exact Em|apply ren_loc|done].
  - eapply no_expander_m; [apply H1|exact Em|done].
Qed.

(** the forms that are still to come: [kk] is the pair of the list of forms with the present one *)
Record rest (σ : oheap) (kk : Z) (ts : list tree) (es : list exp) : Prop := {
  rs_spine : exists a d, σ !! Imp kk = Some (opair a d) /\ ilist σ d (map root ts);
  rs_parse : Forall2 (parse σ) es ts;
  rs_text : Forall (text T xs σ) ts;
  rs_macro : Forall (unmacro m σ) ts }.
Definition kept (U : list Z) (σ σ' : oheap) : Prop :=
  forall kk ts es, (forall t k, t ∈ ts -> k ∈ nodes t -> k ∉ U) -> rest σ kk ts es -> rest σ' kk ts es.
Lemma kept_refl U σ : kept U σ σ.
Proof. by intros kk ts es _ H. Qed.
Lemma kept_trans U σ σ1 σ2 : kept U σ σ1 -> kept U σ1 σ2 -> kept U σ σ2.
Proof. intros H1 H2 kk ts es Hd H. apply H2; [done|]. by apply H1. Qed.
Lemma kept_mono U U' σ σ1 : kept U σ σ1 -> (forall k, k ∈ U -> k ∈ U') -> kept U' σ σ1.
Proof. intros H Hs kk ts es Hd Hr. apply H; [|done]. intros t k Ht Hk Hu. eapply Hd; eauto. Qed.
Lemma unmacro_m π σ σ' t : morph π σ σ' -> unmacro m σ t -> unmacro m σ' t.
Proof.
  intros E H x Hx. destruct (H x Hx) as (o & Ho & Hm). exists (mo π o). split; [by eapply m_obj|]. intros Hs. eapply (no_macro_m _ _ _ E). apply Hm. by destruct o.
Qed.
Lemma known_m π σ σ' (t : tree) (Em : morph π σ σ') :
  (forall x, occurs x t -> exists o, σ !! Imp x = Some o /\ (otype o = TSYMBOL -> xs x)) -> forall x, occurs x t -> exists o, σ' !! Imp x = Some o /\ (otype o = TSYMBOL -> xs x).
Proof. intros H x Hx. destruct (H x Hx) as (o & Ho & Hs). exists (mo π o). split; [by eapply m_obj|]. intros Ht. apply Hs. by destruct o. Qed.
Lemma kept_ext0 U σ σ' : ext0 σ σ' -> (forall k o, k ∉ U -> k <> tb_vector T -> σ !! Txt k = Some o -> σ' !! Txt k = Some o) -> kept U σ σ'.
Proof.
  intros E Ht kk ts es Hd [(a & d & H1 & H1') H2 H3 H4]. pose proof (ext0_morph _ _ E) as Em. split.
  - exists a, d. split; [by apply E|]. apply (ilist_m _ _ _ Em) in H1' as [H1' _]. by rewrite map_id in H1'.
  - eapply Forall2_impl; [exact H2|]. intros e t. by eapply parse_m.
  - rewrite Forall_forall in H3 |- *. intros t Hin. destruct (H3 t Hin) as [A1 A2 A3 A4]. split; [|done|done|by eapply known_m].
    assert (forall k, k ∈ nodes t -> k ∉ U /\ k <> tb_vector T) as Hk. { intros k Hk. split; [by eapply Hd|]. by intros ->. }
    clear -A1 Hk Ht. induction A1 as [|k a d Ho A IHA D IHD]; [by constructor|]. cbn in Hk. constructor.
    + destruct (Hk k) as [? ?]; [by left|]. auto.
    + apply IHA. intros k' Hk'. apply Hk. right. apply elem_of_app. by left.
    + apply IHD. intros k' Hk'. apply Hk. right. apply elem_of_app. by right.
  - eapply Forall_impl; [exact H4|]. intros t. by eapply unmacro_m.
Qed.
Lemma kept_ext U σ σ' : ext σ σ' -> kept U σ σ'.
Proof. intros E. apply kept_ext0; [by apply ext_ext0|]. intros k o _ _. by apply (ext_frozen _ _ E (Txt k)). Qed.
Lemma kept_expanded U σ σ' : expanded U σ σ' -> kept U σ σ'.
Proof. intros E. apply kept_ext0; [by eapply expanded_ext0|]. intros k o Hk _ Ho. by eapply expanded_txt. Qed.
Lemma roots_ren U mm σ i ts : unused U mm σ -> ilist σ i (map root ts) -> Forall (fun t => tree_at σ t /\ forall k, k ∈ nodes t -> k ∉ U) ts -> map (ren U mm) (map root ts) = map root ts.
Proof.
  intros Hu Hl. remember (map root ts) as es eqn:Ees. revert ts Ees. induction Hl as [|k a d es Hk _ IH]; intros ts Ees Hts; [done|].
  destruct ts as [|t ts]; [done|]. cbn in Ees. injection Ees as -> ->. apply Forall_cons in Hts as [[Ht Hd] Hts]. cbn. f_equal; [|by apply (IH ts)].
  eapply ren_root; [exact Hu| |done|done]. right. left. by exists d.
Qed.
Lemma kept_rename U mm σ : unused U mm σ -> kept U σ (ren_heap U mm σ).
Proof.
  intros Hu kk ts es Hd [(a & d & H1 & H1') H2 H3 H4]. pose proof (ren_morph _ _ _ Hu) as Em.
  assert (Forall (fun t => tree_at σ t /\ forall k, k ∈ nodes t -> k ∉ U) ts) as Hts. { rewrite Forall_forall in H3 |- *. intros t Hin. split; [apply (H3 t Hin)|]. intros k. by apply (Hd t). }
  split.
  - destruct (ilist_m _ _ _ Em _ _ H1') as [H1'' Ed]. rewrite (roots_ren _ _ _ _ _ Hu H1' Hts) in H1''. exists (ren U mm a), d. split; [|done].
    apply (m_pair _ _ _ Em) in H1. by rewrite Ed in H1.
  - eapply Forall2_impl; [exact H2|]. intros e t. by eapply parse_m.
  - rewrite Forall_forall in H3, Hts |- *. intros t Hin. destruct (H3 t Hin) as [A1 A2 A3 A4]. destruct (Hts t Hin) as [_ Hk]. split; [|done|done|by eapply known_m]. by eapply ren_tree.
  - eapply Forall_impl; [exact H4|]. intros t. by eapply unmacro_m.
Qed.
End world.
