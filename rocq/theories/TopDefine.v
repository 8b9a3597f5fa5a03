(** Definitions at the top level. *)
From stdpp Require Import base gmap list fin_maps.
From Coq Require Import ZArith Lia.
From Coq Require Import ZifyBool ZifyNat.
From Verif Require Import CInt Symbols Heap HeapLemmas GcModel GcSpec DataModel DataSpec DataLemmas CoreProofs StackModel.
From Verif Require RepArrays.
From Verif Require Import HashProofs EvalModel Rep RepProofs EvalSpec EvalRep EvalLemmas EvalBind EvalSplice EvalRun EvalSteps EvalSteps2 EvalSteps3 EvalSteps4 EvalDefine EvalMain.
From Verif Require Import TopSpec TopRep TopRename TopExpand TopResolve TopForm TopMacro TopRun.
Open Scope Z_scope. Open Scope mes_scope.

Ltac w := first [apply wp_bind | apply wp_ret | apply wp_gets | apply wp_modify].
Ltac kc := (vm_compute; split; congruence).

(** ** A new global variable *)
Lemma wp_vector_set f M s v p bs h k a d q (Q : Z -> state -> Prop) : rep f M s -> f (Txt v) p -> m_heap M !! Txt v = Some (OArr TVECTOR bs) -> (h < length bs)%nat ->
  f (Imp k) q -> m_heap M !! Imp k = Some (opair a d) -> can_alloc 1 s ->
  (forall s', rep f (new_obj (Txt v) (OArr TVECTOR (<[h := ARef (Imp k)]> bs)) M) s' -> shrinks 1 s s' -> Q cell_unspecified s') ->
  wp (vector_set_x_ p (Z.of_nat h) q) s Q.
Proof.
  intros R Hp Hv Hh Hq Hk Ha HQ. unfold vector_set_x_.
  destruct (rh_obj _ _ _ (rp_heap _ _ _ R) _ _ Hp) as (o & Ho & Hat). rewrite Hv in Ho. injection Ho as <-. destruct Hat as (c & Hc & Ht & _ & Hl & _).
  destruct (RepArrays.set_entry_any f M s _ p TVECTOR bs c h (Imp k) q R Hp Hv Hc) as (s' & E & (G1 & G2 & G3 & G4 & _) & R'); [done|done|done|done|].
  w. eapply wp_eq; [by apply rd_ok'|]. rewrite Ht. w. eapply wp_eq; [reflexivity|]. w. rewrite Hl. eapply wp_eq; [unfold assert_msg; by rewrite (proj2 (Z.ltb_lt _ _)) by lia|].
  w. eapply wp_eq; [exact E|]. w. apply HQ.
  - replace (RepArrays.aentry (m_heap M) (Imp k)) with (ARef (Imp k)) in R'; [done|]. unfold RepArrays.aentry. by rewrite Hk.
  - pose proof (rp_free _ _ _ R') as Hf. unfold cell_nil in Hf. split; [|lia]. intros n. unfold can_alloc. lia.
Qed.
Lemma skips_more gs x l σ y e : skips gs σ y e -> skips ((x, l) :: gs) σ y e.
Proof. intros [(z & l' & -> & H & Hn)|H]; [left; exists z, l'; split; [done|]; split; [by right|done]|by right]. Qed.
Lemma skips_all_more gs x l σ y es : Forall (skips gs σ y) es -> Forall (skips ((x, l) :: gs) σ y) es.
Proof. intros H. eapply Forall_impl; [exact H|]. intros. by apply skips_more. Qed.
Lemma ilist_det σ i es es' : consts0 σ -> ilist σ i es -> ilist σ i es' -> es = es'.
Proof.
  intros C H. revert es'. induction H as [|k a d es Hk _ IH]; intros es' H'; inversion H'; subst; try done.
  - exfalso. by eapply nil_not_pair.
  - exfalso. by eapply nil_not_pair.
  - simplify_eq. f_equal. auto.
Qed.
(** the table with an entry [Loc l] for [x] in front of bucket [h] *)
Lemma globals_at_new T xs gs σ bs x l kn kb d i h : consts0 σ -> globals_at T xs gs σ bs -> lookup_var x gs = None -> bucket_of σ (tb_size T) x h -> bs !! Z.to_nat h = Some (ARef i) ->
  bucket_without gs σ x i -> σ !! Imp kn = None -> forall oc, (forall o, σ !! i = Some o -> d = if otype o =? TPAIR then i else Imp cell_nil) ->
  let σ1 := <[Loc l := oc]> (<[Imp kn := OCell TNUMBER (WInt 0) (WInt (tb_size T))]> σ) in σ1 !! Imp kb = None ->
  globals_at T xs ((x, l) :: gs) (<[Txt (tb_vector T) := OArr TVECTOR (<[Z.to_nat h := ARef (Imp kb)]> bs)]> (<[Imp kb := opair (Loc l) d]> σ1)) (<[Z.to_nat h := ARef (Imp kb)]> bs).
Proof.
  intros C [(ms & M1 & M2) Ht Hv Hb] Hx Hh Hi Hw Hkn oc Hd σ1 Hkb. set (σ2 := <[Txt _ := _]> _).
  assert (ext0 σ σ2) as E.
  { split.
    - intros k o Ho. unfold σ2. rewrite lookup_insert_ne by done. assert (σ1 !! Imp k = Some o) as H1. { unfold σ1. rewrite lookup_insert_ne by done. rewrite lookup_insert_ne by congruence. done. }
      rewrite lookup_insert_ne by congruence. done.
    - intros k ww Ho. exists ww. unfold σ2, σ1. rewrite !lookup_insert_ne by done. done. }
  pose proof (ext0_morph _ _ E) as Em.
  assert (forall y es, ilist σ y es -> ilist σ2 y es) as HIL. { intros y es H. apply (ilist_m _ _ _ Em) in H as [H _]. by rewrite map_id in H. }
  assert (σ2 !! Imp kb = Some (opair (Loc l) d)) as Hkb2. { unfold σ2. rewrite lookup_insert_ne by done. by rewrite lookup_insert. }
  assert (exists es, ilist σ d es /\ (i = d \/ es = []) /\ (forall es', ilist σ i es' -> es' <> [] -> es' = es)) as (es & Hdl & Hdi & Hes).
  { destruct Hw as [(k & o & -> & Ho & Ht1 & _)|(es & He & Hne & _)].
    - exists []. rewrite (Hd o Ho). assert (otype o =? TPAIR = false) as -> by (apply Z.eqb_neq; by destruct o). split; [constructor|]. split; [by right|].
      intros es' He' Hne. inversion He' as [|kk a' d' es'' Hkk _]; subst; [done|]. rewrite Hkk in Ho. injection Ho as <-. done.
    - exists es. inversion He as [|kk a' d' es'' Hkk He']; subst; [done|]. rewrite (Hd _ Hkk). cbn. split; [done|]. split; [by left|]. intros es' He2 _. by eapply ilist_det. }
  split.
  - exists ms. split; [by apply E|done].
  - apply (table_at_m _ _ _ Em) in Ht. done.
  - unfold σ2. by rewrite lookup_insert.
  - intros y Hy. destruct (decide (y = x)) as [->|Hyx].
    { exists h, (Imp kb). split; [by eapply bucket_of_m|]. split; [apply list_lookup_insert; by eapply lookup_lt_Some|].
      cbn. rewrite decide_True by done. exists [], es. split; [|constructor]. cbn. econstructor; [exact Hkb2|by apply HIL]. }
    assert (lookup_var y ((x, l) :: gs) = lookup_var y gs) as Ey. { cbn. by rewrite decide_False. } rewrite Ey in Hy. destruct (Hb y Hy) as (h' & i' & B1 & B2 & B3). unfold bound_in. rewrite Ey.
    assert (skips ((x, l) :: gs) σ2 y (Loc l)) as Hskl by (left; exists x, l; split; [done|]; split; [by left|done]).
    destruct (decide (Z.to_nat h' = Z.to_nat h)) as [Eh|Eh].
    + rewrite Eh in B2. rewrite Hi in B2. injection B2 as <-. exists h', (Imp kb). split; [by eapply bucket_of_m|]. rewrite Eh. split; [apply list_lookup_insert; by eapply lookup_lt_Some|].
      destruct (lookup_var y gs) as [l'|] eqn:El.
      * destruct B3 as (pre & post & Bl & Bp). assert (pre ++ Loc l' :: post = es) as Ee by (apply Hes; [done|by destruct pre]).
        exists (Loc l :: pre), post. split; [cbn; econstructor; [exact Hkb2|]; rewrite Ee; by apply HIL|].
        apply (skips_all_m _ _ _ Em) in Bp as [Bp _]. constructor; [done|by apply skips_all_more].
      * right. exists (Loc l :: es). split; [econstructor; [exact Hkb2|by apply HIL]|]. split; [done|]. constructor; [done|].
        destruct B3 as [(k & o & -> & Ho & Ht1 & _)|(es' & Bl & Bn & Bp)].
        -- destruct es as [|e0 es0]; [constructor|]. exfalso. destruct Hdi as [<-|?]; [|done]. inversion Hdl as [|kk a' d' es'' Hkk _]; subst. rewrite Hkk in Ho. injection Ho as <-. done.
        -- rewrite <- (Hes _ Bl Bn). apply (skips_all_m _ _ _ Em) in Bp as [Bp _]. by apply skips_all_more.
    + exists h', i'. split; [by eapply bucket_of_m|]. split; [by rewrite list_lookup_insert_ne|].
      destruct (lookup_var y gs) as [l'|] eqn:El.
      * apply (bucket_with_m _ _ _ Em) in B3 as [(pre & post & Bl & Bp) _]. exists pre, post. split; [done|by apply skips_all_more].
      * apply (bucket_without_m _ _ _ Em) in B3 as [[B3|(es' & Bl & Bn & Bp)] _]; [by left|right]. exists es'. split; [done|]. split; [done|by apply skips_all_more].
Qed.

Section define.
Context (fuel : nat) (T : table) (xs : Z -> Prop) (m : Z) (ρ : env).
Notation world := (world T xs m ρ).
Notation GE gs := (Genv (Imp (tb_module T)) gs).
Lemma declares_ok gs μ x l gs1 μ1 : declares gs μ x l gs1 μ1 -> store_ok (GE gs) μ -> store_ok (GE gs1) μ1 /\ store_le μ μ1 /\ lookup_var x gs1 = Some l.
Proof.
  intros H O. destruct H as [Hl|Hl Hf]; [split; [done|]; split; [apply store_le_refl|done]|].
  split; [|split; [by apply store_le_new|cbn; by rewrite decide_True]].
  assert (store_ok (GE gs) (<[l := SVar x v_false]> μ)) as O' by (by apply store_ok_new). split; [apply O'|].
  intros y l' Hin. cbn in Hin. apply elem_of_cons in Hin as [[= -> ->]|Hin]; [exists v_false; apply lookup_insert|]. by apply O'.
Qed.
(** the heap after a declaration *)
Definition declared (σ σ' : oheap) : Prop := ext0 σ σ' /\ forall k o, k <> tb_vector T -> σ !! Txt k = Some o -> σ' !! Txt k = Some o.
Lemma wp_declare f M s gs μ x l gs1 μ1 xp p (Q : unit -> state -> Prop) : rep f M s -> world gs μ (m_heap M) (m_r0 M) -> m_glob M !! 3%nat = Some (Imp (tb_module T)) ->
  f (m_r0 M) p -> f (Imp x) xp -> name_ok (m_heap M) x -> xs x -> declares gs μ x l gs1 μ1 -> can_alloc 5 s -> g_free s + 5 <= Z.of_nat fuel ->
  (forall f' σ' s', went 5 f M s f' σ' s' -> declared (m_heap M) σ' -> world gs1 μ1 σ' (m_r0 M) -> Q tt s') ->
  wp (entry <- module_variable fuel p xp ;; if entry =? cell_f then mm <- gets M0 ;; module_define_x mm xp cell_f ;;; ret tt else ret tt) s Q.
Proof.
  intros R W Hg Hp Hx Hn Hxs Hd Ha Hfu HQ. pose proof Hn as [(nx & dx & Hxo & _) Hres].
  assert (symbol (m_heap M) x) as Hsy by (eexists _, _; exact Hxo).
  assert (x ∉ hidden) as Hnh. { intros Hin. apply Hres. unfold reserved. apply elem_of_app. by left. }
  w. eapply (wp_variable fuel T xs gs ρ f M s p x xp); [exact R|by eapply world_setting|done|done|done|done|by left|by eapply can_alloc_le; [exact Ha|lia]|lia|].
  intros f1 σ1 r s1 W1 G1 Hf. pose proof W1 as (R1 & I1 & S1). rewrite (found_f f1 (with_heap σ1 M) s1 gs x r R1 Hf).
  assert (world gs μ σ1 (m_r0 M)) as Wo1. { eapply world_ext; [by apply grown_ext|eapply store_at_grown; [apply W|done]|apply W|done]. }
  pose proof (declares_ok _ _ _ _ _ _ Hd (wo_ok _ _ _ _ _ _ _ _ W)) as (O1 & _ & _).
  destruct Hd as [Hl|Hl Hfr].
  { rewrite bool_decide_false by congruence. w. eapply HQ; [eapply went_le; [exact W1|lia]| |done]. split; [apply ext_ext0; by apply grown_ext|]. intros k o _ Ho. eapply lookup_weaken; [exact Ho|apply G1]. }
  rewrite bool_decide_true by done. pose proof (wo_base _ _ _ _ _ _ _ _ Wo1) as B1. pose proof (ba_consts _ B1) as C1.
  destruct (wo_globals _ _ _ _ _ _ _ _ Wo1) as (bs & G). destruct (ga_bound _ _ _ _ _ G x (or_introl Hxs)) as (h & i & Bk & Bi & Bw). rewrite Hl in Bw.
  destruct (ga_module _ _ _ _ _ G) as (ms & M2 & M3). pose proof (ga_table _ _ _ _ _ G) as (ts & T2 & T3 & T4 & Hsz). pose proof (ga_vector _ _ _ _ _ G) as V2.
  pose proof Bk as (n & nb & nm & N1 & N3 & Hs2 & Eh).
  w. w. unfold module_define_x. w. w. w.
  assert (f1 (Imp (tb_module T)) (M0 s1)) as Hm0. { destruct (Forall2_lookup_l _ _ _ _ _ (rp_glob _ _ _ R1) Hg) as (q & Hq & Hf0). cbn in Hq. by injection Hq as <-. }
  w. change 5 with (Z.of_nat 5). eapply (wp_struct_ref_id _ _ _ R1 _ _ _ _ _ _ _ Hm0 M2 M3 T2); [done|done|]. intros tp Htp.
  assert (can_alloc 4 s1) as Ha1 by (eapply went_alloc; [exact W1|by eapply can_alloc_le; [exact Ha|lia]]).
  unfold hashq_set_x. w. change 3 with (Z.of_nat 3). eapply (wp_struct_ref_num _ _ _ R1 _ _ _ _ _ _ Htp T2 T3); [by eapply can_alloc_le; [exact Ha1|lia]|].
  intros f2 q kn s2 Gr Hkn Hq R2. pose proof (grows_went _ _ _ _ _ _ _ Gr R2) as W2. destruct Gr as (G2 & A2 & _). specialize (A2 3 Ha1).
  set (Mx := new_obj (Imp kn) _ _) in *.
  assert (forall j o, σ1 !! j = Some o -> m_heap Mx !! j = Some o) as Up. { intros j o Hj. eapply lookup_weaken; [exact Hj|by apply insert_subseteq]. }
  w. unfold cdr_of at 1. w. eapply (wp_rd _ _ _ R2 _ _ _ _ _ _ Hq); [cbn; by rewrite lookup_insert|]. intros c _ _ Hcd. cbn in Hcd. w. rewrite Hcd.
  w. unfold hashq_. w. eapply (wp_rd _ _ _ R2 _ _ _ _ _ _ (G2 _ _ (I1 _ _ Hx)) (Up _ _ N1)). intros cx Hcx _ Hxb. rewrite Hcx.
  change ((TSYMBOL =? TSPECIAL) || (TSYMBOL =? TSYMBOL)) with true. cbv iota.
  w. eapply (wp_cell_bytes _ _ _ R2 _ _ _ _ Hxb (Up _ _ N3)). eapply wp_eq; [by apply hash_cstring_ok|]. rewrite <- Eh.
  assert (0 <= h < tb_size T) as Hh by (rewrite Eh; apply Z.mod_pos_bound; lia).
  unfold hash_set_x_. w. change 4 with (Z.of_nat 4). eapply (wp_struct_ref_id _ _ _ R2 _ _ _ _ _ _ _ (G2 _ _ Htp) (Up _ _ T2) T4 (Up _ _ V2)); [done|done|]. intros bp Hbp.
  assert (exists o, σ1 !! i = Some o /\ otype o <> TCHAR /\ otype o <> TNUMBER) as (o & Hio & O2 & O3).
  { destruct Bw as [(k & o & -> & Ho & K1 & K2 & K3)|(es & Hml & Hne & _)]; [exists o; split; [done|]; by destruct o|]. inversion Hml; subst; [done|]. eexists; (split; [done|done]). }
  assert (to_u32 h = Z.of_nat (Z.to_nat h)) as -> by (unfold to_u32, two32; rewrite Z.mod_small; lia).
  w. eapply (wp_vector_ref_id _ _ _ R2 _ _ _ _ _ _ _ Hbp (Up _ _ V2) Bi (Up _ _ Hio)); [done|done|]. intros bkp Hbkp.
  w. eapply (wp_ty_any _ _ _ R2 _ _ _ _ Hbkp (Up _ _ Hio)). cbv zeta.
  set (di := if otype o =? TPAIR then i else Imp cell_nil). set (dp := if otype o =? TPAIR then bkp else cell_nil).
  assert (f2 di dp) as Hdi. { unfold di, dp. destruct (otype o =? TPAIR); [done|]. eapply rep_const; [exact R2|kc]. }
  assert (σ1 !! Loc l = None) as Fl. { apply (sa_free _ _ _ (wo_store _ _ _ _ _ _ _ _ Wo1)); [done|]. intros Hin. by apply elem_of_nil in Hin. }
  unfold acons. w. w. eapply (wp_cons _ _ _ R2 (Loc l) (Imp x) (Imp cell_f)); [by eapply can_alloc_le; [exact A2|lia]| |by apply G2, I1|eapply rep_const; [exact R2|kc]|].
  { cbn. by rewrite lookup_insert_ne. }
  intros f3 q3 s3 Gr3 Hq3 R3. pose proof (grows_went _ _ _ _ _ _ _ Gr3 R3) as W3. destruct Gr3 as (G3 & A3 & _). specialize (A3 2 A2). set (My := new_obj (Loc l) _ _) in *.
  destruct (fresh_imp (m_heap My)) as (kb & Hkb).
  eapply (wp_cons _ _ _ R3 (Imp kb) (Loc l) di); [by eapply can_alloc_le; [exact A3|lia]|exact Hkb|exact Hq3|by apply G3|].
  intros f4 q4 s4 Gr4 Hq4 R4. pose proof (grows_went _ _ _ _ _ _ _ Gr4 R4) as W4. destruct Gr4 as (G4 & A4 & _). specialize (A4 1 A3). set (Mz := new_obj (Imp kb) _ _) in *.
  w. eapply (wp_vector_set _ _ _ (tb_vector T) bp bs (Z.to_nat h) kb (Loc l) di q4); [exact R4|by apply G4, G3| | |done| |exact A4|].
  { cbn. rewrite !lookup_insert_ne by done. done. }
  { by eapply lookup_lt_Some. }
  { cbn. by rewrite lookup_insert. }
  intros s5 R5 Sh5. w. w.
  pose proof (went_trans _ _ _ _ _ _ _ _ _ _ _ W2 W3) as W23. pose proof (went_trans _ _ _ _ _ _ _ _ _ _ _ W23 W4) as W24.
  pose proof (went_trans _ _ _ _ _ _ _ _ _ _ _ W1 W24) as W14.
  set (σ' := m_heap (new_obj (Txt (tb_vector T)) (OArr TVECTOR (<[Z.to_nat h:=ARef (Imp kb)]> bs)) Mz)).
  assert (ext0 σ1 σ') as E0.
  { split.
    - intros k o' Ho. unfold σ'. cbn. rewrite lookup_insert_ne by done. assert (m_heap My !! Imp k = Some o') as Hy. { cbn. rewrite lookup_insert_ne by done. by apply Up. }
      rewrite lookup_insert_ne by (intros [= ->]; congruence). exact Hy.
    - intros k ww Ho. exists ww. unfold σ'. cbn. rewrite !lookup_insert_ne by done. done. }
  assert (ext0 (m_heap M) σ') as E0'. { eapply ext0_trans; [apply ext_ext0; by apply grown_ext|done]. }
  assert (forall k o', k <> tb_vector T -> m_heap M !! Txt k = Some o' -> σ' !! Txt k = Some o') as Et.
  { intros k o' Hk Ho. unfold σ'. cbn. rewrite !lookup_insert_ne by congruence. eapply lookup_weaken; [exact Ho|apply G1]. }
  pose proof (ext0_morph _ _ E0) as Em.
  eapply (HQ f4 σ' s5).
  - destruct W14 as (RR & II & SS). split; [exact R5|]. split; [exact II|]. replace 5 with (1 + (1 + 1 + 1) + 1) by lia. by eapply shrinks_trans.
  - by split.
  - destruct Wo1 as [K1 _ K3 K4 K5 K6 K7]. split.
    + by eapply base_m.
    + eexists. eapply (globals_at_new T xs gs σ1 bs x l kn kb di i h); try done. intros o' Ho'. rewrite Hio in Ho'. by injection Ho' as <-.
    + by eapply top_env_m.
    + intros y Hy. cbn. rewrite decide_False by (intros ->; apply Hres; done). by apply K4.
    + apply (store_at_ext0 _ _ (m_heap Mz)); [|intros l'; unfold σ'; cbn; by rewrite lookup_insert_ne|].
      { split; [intros k o' Ho; unfold σ'; cbn; by rewrite lookup_insert_ne|]. intros k ww Ho. exists ww. unfold σ'. cbn. by rewrite lookup_insert_ne. }
      cbn. apply store_at_imp; [|exact Hkb]. apply store_at_put; [by apply store_at_imp|]. exists (Imp cell_f). rewrite lookup_insert. split; [done|].
      destruct (cst_const _ _ C1 cell_f) as (t' & n' & d' & Hno & Ht' & _); [kc|]. cbn. split; [done|]. eexists. split; [rewrite lookup_insert_ne by done; by apply Up|]. cbn. destruct Ht' as [-> | ->]; auto.
    + done.
    + by eapply no_expander_m.
Qed.
End define.

Lemma tree_at_keep σ σ' t : (forall k o, k ∈ nodes t -> σ !! Txt k = Some o -> σ' !! Txt k = Some o) -> tree_at σ t -> tree_at σ' t.
Proof. intros H. induction 1 as [i Hi|k a d Hk _ IHa _ IHd]; [by constructor|]. constructor; [apply H; [by left|done]|apply IHa|apply IHd]; intros k' o Hk'; apply H; cbn; set_solver. Qed.
Lemma text_declared T xs σ σ' t : declared T σ σ' -> text T xs σ t -> text T xs σ' t.
Proof.
  intros [D1 D2] [H1 H2 H3 H4]. split; [|done|done|].
  - eapply tree_at_keep; [|done]. intros k o Hk. apply D2. by intros ->.
  - intros x Hx. destruct (H4 x Hx) as (o & Ho & Hs). exists o. split; [by apply D1|done].
Qed.
Lemma text_sub T xs σ σ' t : σ ⊆ σ' -> text T xs σ t -> text T xs σ' t.
Proof.
  intros Hs [H1 H2 H3 H4]. split; [by eapply tree_at_sub|done|done|]. intros x Hx. destruct (H4 x Hx) as (o & Ho & Hx'). exists o. split; [by eapply lookup_weaken|done].
Qed.
Lemma kept_declared T xs m U σ σ' : declared T σ σ' -> kept T xs m U σ σ'.
Proof. intros [D1 D2]. apply kept_ext0; [done|]. intros k o _. apply D2. Qed.

(** ** The steps of a definition *)
Section steps.
Context (T : table) (xs : Z -> Prop) (m : Z) (ρ : env).
Context (prim : Z -> list Z -> M Z) (load_program : Z -> M Z) (fuel : nat) (sz : Z) (gl : list id).
Notation world := (world T xs m ρ).
Notation GE gs := (Genv (Imp (tb_module T)) gs).
Notation declared := (declared T).
Notation step := (step GcModel.gc_check prim load_program fuel).
Notation enough := (enough fuel).
Notation MS σ r0 r1 r2 r3 st := (Mst σ r0 r1 r2 r3 st sz gl).
Notation frame c b x a e st := (c :: b :: x :: a :: e :: st).
Notation room st k := (Z.of_nat (length st) + 5 * k <= sz).
Notation top := (Locals true false).
Ltac regs R := pose proof (rp_r0 _ _ _ R) as HR0; pose proof (rp_r1 _ _ _ R) as HR1;
  pose proof (rp_r2 _ _ _ R) as HR2; pose proof (rp_r3 _ _ _ R) as HR3; cbn in HR0, HR1, HR2, HR3.
Tactic Notation "eval_pair" hyp(R) hyp(H) ident(HR1) ident(c) ident(Hca) ident(Hcd) := cbn [EvalModel.step]; unfold step_eval; regs R; do 4 w; w;
  eapply (wp_rd _ _ _ R _ _ _ _ _ _ HR1 H); let Hc := fresh "Hc" in intros c Hc Hca Hcd; cbn [word_rel] in Hca, Hcd; rewrite Hc;
  change (TPAIR =? TPAIR) with true; cbv iota zeta.

Lemma wp_top_define_var f v s gs μ σ r0 k k1 k2 x ie r2 r3 st l gs1 μ1 l0 : rep f (MS σ r0 (Imp k) r2 r3 st) s -> enough 7 L_eval s ->
  gl !! 3%nat = Some (Imp (tb_module T)) -> world gs μ σ r0 -> declares gs μ x l gs1 μ1 -> μ1 !! l0 = None ->
  σ !! Imp k = Some (opair (Imp cell_symbol_define) (Imp k1)) -> σ !! Imp k1 = Some (opair (Imp x) (Imp k2)) -> σ !! Imp k2 = Some (opair ie (Imp cell_nil)) ->
  name_ok σ x -> xs x -> room st 1 ->
  wp (step L_eval v) s (fun n s' => exists v', n = Goto L_eval v' /\ outer v' /\ exists f' M', rep f' M' s' /\
    exists σ1 σ' i0, M' = MS σ' i0 ie (Imp k) r3 (frame (Imp cell_vm_eval_define) (Imp k) (Imp k) r0 (Imp cell_f) st) /\
      declared σ σ1 /\ ext σ1 σ' /\ world gs1 (<[l0 := SVar x (VAtom x)]> μ1) σ' r0 /\ env_at σ' (EBind x l0 ρ) i0).
Proof.
  intros R En Hg W Hd Hl0 Ho Ho1 Ho2 Hx Hxs Hroom. destruct (wo_env _ _ _ _ _ _ _ _ W) as (He & Hh & kr & er & dr & key & wr & -> & Hr0 & Hr1 & Hkey).
  eval_pair R Ho HR1 cl Hca Hcd. rewrite (const_val _ _ _ R _ _ Hca) by kc.
  match goal with |- wp ?m _ _ => change m with (step_define fuel) end. unfold step_define. w. w. w. w.
  w. eapply (wp_car_of _ _ _ R _ _ _ _ _ _ HR1 Ho). intros op Hop. assert (op = cell_symbol_define) as -> by (eapply const_val; [exact R|exact Hop|kc]).
  w. eapply (wp_car_of _ _ _ R _ _ _ _ _ _ HR0 Hr0). intros e0 He0. w. eapply (wp_car_of _ _ _ R _ _ _ _ _ _ He0 Hr1). intros kc0 Hkc0.
  rewrite (neqc _ _ _ R _ _ _ Hkc0) by (kc || congruence). cbn [negb]. cbv zeta.
  w. eapply (wp_cdr_of _ _ _ R _ _ _ _ _ _ HR1 Ho). intros dp Hdp. w. eapply (wp_car_of _ _ _ R _ _ _ _ _ _ Hdp Ho1). intros tp Htp.
  pose proof Hx as [(mm & dd & Hxo & _) _]. w. eapply (wp_ty _ _ _ R _ _ _ _ _ _ Htp Hxo). change (TSYMBOL =? TPAIR) with false. cbn [negb]. cbv iota.
  change (cell_symbol_define =? cell_symbol_define_macro) with false. cbv iota.
  pose proof (en_alloc _ _ _ _ En) as Ha. pose proof (en_fuel _ _ _ _ En) as Hu.
  w. w. w. eapply (wp_declare fuel T xs m ρ f _ s gs μ x l gs1 μ1 tp (R0 s)); [exact R|exact W|exact Hg|exact HR0|exact Htp|exact Hx|exact Hxs|exact Hd|by eapply can_alloc_le; [exact Ha|lia]|lia|].
  intros f1 σ1 s1 Wn D W1. pose proof Wn as (R1' & I1 & _). cbn [m_heap m_r0] in *. assert (can_alloc 2 s1) as Ha1 by (eapply went_alloc; [exact Wn|exact Ha]).
  pose proof D as [D1 D2]. apply (e0_imp _ _ D1) in Ho, Ho1, Ho2.
  w. w. pose proof (rep_set_R2 _ _ _ _ _ R1' (I1 _ _ HR1)) as R'. set (s0 := set_R2 _ _) in *.
  w. eapply (wp_cdr_of _ _ _ R' _ _ _ _ _ _ (I1 _ _ Hdp) Ho1). intros ddp Hddp. w. eapply (wp_car_of _ _ _ R' _ _ _ _ _ _ Hddp Ho2). intros ep Hep.
  assert (σ1 !! Loc l0 = None) as Fl by (apply (sa_free _ _ _ (wo_store _ _ _ _ _ _ _ _ W1)); [done|]; intros Hin; by apply elem_of_nil in Hin).
  assert (can_alloc 2 s0) as Ha0 by exact Ha1.
  w. eapply (wp_cons _ _ _ R' (Loc l0) (Imp x) (Imp x)); [by eapply can_alloc_le; [exact Ha0|lia]|done|by apply I1|by apply I1|].
  intros f2 q1 s2 (G1 & A1 & _) Hq1 R2'. specialize (A1 1 Ha0). cbn [m_heap new_obj with_r2 with_heap] in *.
  destruct (fresh_imp (<[Loc l0 := opair (Imp x) (Imp x)]> σ1)) as (ke & Hke).
  w. eapply (wp_cons _ _ _ R2' (Imp ke) (Loc l0) (Imp kr)); [exact A1|exact Hke|done|by apply G1, I1|].
  intros f3 q2 s3 (G2 & _) Hq2 R3'.
  w. eapply (wp_push_cc _ _ _ R3' ie (Imp k) (Imp ke) (Imp cell_vm_eval_define)); [cbn; lia|by apply G2, G1|by apply G2, G1, I1|done|eapply rep_const; [exact R3'|kc]|].
  intros s4 R4. w. exists top. split; [done|]. split; [done|]. exists f3. eexists. split; [exact R4|]. cbn.
  set (σ2 := <[Imp ke := opair (Loc l0) (Imp kr)]> (<[Loc l0 := opair (Imp x) (Imp x)]> σ1)).
  assert (ext σ1 σ2) as X. { eapply ext_trans; [apply ext_loc|by apply ext_new]. }
  exists σ1, σ2, (Imp ke). split; [done|]. split; [done|]. split; [exact X|]. split.
  - eapply world_ext; [exact X| | |exact W1].
    + apply store_at_imp; [|done]. apply store_at_put; [apply W1|]. exists (Imp x). rewrite lookup_insert. split; [done|].
      eapply val_at_ext; [apply ext_loc|]. apply name_val. apply (name_ok_m _ _ _ (ext0_morph _ _ D1)). done.
    + by apply store_ok_new; [apply W1|..].
  - eapply env_bind; [unfold σ2; by rewrite lookup_insert|]. eapply env_at_ext; [exact X|apply W1].
Qed.

Lemma wp_top_define_fun f v s gs μ σ r0 k k1 k2 x ys r bd fm b r2 r3 st l gs1 μ1 bs μ2 : rep f (MS σ r0 (Imp k) r2 r3 st) s -> enough (2 * Z.of_nat (length ys) + 11 + 4 * size b) L_eval s ->
  gl !! 3%nat = Some (Imp (tb_module T)) -> world gs μ σ r0 -> declares gs μ x l gs1 μ1 ->
  bind_args (x :: ys ++ opt_list r) None (map VAtom (x :: ys ++ opt_list r)) μ1 bs μ2 ->
  σ !! Imp k = Some (opair (Imp cell_symbol_define) (Imp k1)) -> σ !! Imp k1 = Some (opair (Imp k2) (root b)) -> σ !! Imp k2 = Some (opair (Imp x) fm) ->
  name_ok σ x -> xs x -> names_at σ ys r fm -> text T xs σ b -> parses σ bd b -> room st 1 ->
  wp (step L_eval v) s (fun n s' => exists v', n = Goto L_eval v' /\ outer v' /\ exists f' M', rep f' M' s' /\
    exists σ' i0 k3 k4 b', M' = MS σ' i0 (Imp k4) (Imp k) r3 (frame (Imp cell_vm_eval_define) (Imp k) (Imp k4) r0 (Imp cell_f) st) /\
      ext0 σ σ' /\ kept T xs m (nodes b) σ σ' /\ world gs1 μ2 σ' r0 /\ env_at σ' (extend bs ρ) i0 /\
      σ' !! Imp k4 = Some (opair (Imp cell_symbol_lambda) (Imp k3)) /\ σ' !! Imp k3 = Some (opair fm (root b')) /\ names_at σ' ys r fm /\
      nodes b' = nodes b /\ text T xs σ' b' /\ parses σ' (resolve_all gs1 (ys ++ opt_list r) bd) b').
Proof.
  intros R En Hg W Hd Hb Ho Ho1 Ho2 Hx Hxs Hnames Htx Hpa Hroom. destruct (wo_env _ _ _ _ _ _ _ _ W) as (He & Hh & kr & er & dr & key & wr & -> & Hr0 & Hr1 & Hkey).
  eval_pair R Ho HR1 cl Hca Hcd. rewrite (const_val _ _ _ R _ _ Hca) by kc.
  match goal with |- wp ?m _ _ => change m with (step_define fuel) end. unfold step_define. w. w. w. w.
  w. eapply (wp_car_of _ _ _ R _ _ _ _ _ _ HR1 Ho). intros op Hop. assert (op = cell_symbol_define) as -> by (eapply const_val; [exact R|exact Hop|kc]).
  w. eapply (wp_car_of _ _ _ R _ _ _ _ _ _ HR0 Hr0). intros e0 He0. w. eapply (wp_car_of _ _ _ R _ _ _ _ _ _ He0 Hr1). intros kc0 Hkc0.
  rewrite (neqc _ _ _ R _ _ _ Hkc0) by (kc || congruence). cbn [negb]. cbv zeta.
  w. eapply (wp_cdr_of _ _ _ R _ _ _ _ _ _ HR1 Ho). intros dp Hdp. w. eapply (wp_car_of _ _ _ R _ _ _ _ _ _ Hdp Ho1). intros tp Htp.
  w. eapply (wp_ty _ _ _ R _ _ _ _ _ _ Htp Ho2). change (TPAIR =? TPAIR) with true. cbn [negb]. cbv iota.
  change (cell_symbol_define =? cell_symbol_define_macro) with false. cbv iota.
  pose proof (en_alloc _ _ _ _ En) as Ha. pose proof (en_fuel _ _ _ _ En) as Hu. pose proof (size_pos b) as Hsz. pose proof (nonneg _ _ _ R) as Hnn.
  w. w. eapply (wp_car_of _ _ _ R _ _ _ _ _ _ Htp Ho2). intros xp Hxp.
  eapply (wp_declare fuel T xs m ρ f _ s gs μ x l gs1 μ1 xp (R0 s)); [exact R|exact W|exact Hg|exact HR0|exact Hxp|exact Hx|exact Hxs|exact Hd|by eapply can_alloc_le; [exact Ha|lia]|lia|].
  intros f1 σ1 s1 Wn D W1. pose proof Wn as (R1' & I1 & _). cbn [m_heap m_r0] in *. assert (can_alloc (2 * Z.of_nat (length ys) + 6 + 4 * size b) s1) as Ha1 by (eapply went_alloc; [exact Wn|]; eapply can_alloc_le; [exact Ha|lia]).
  pose proof (went_free _ _ _ _ _ _ _ Wn) as Fr1.
  pose proof D as [D1 D2]. pose proof (ext0_morph _ _ D1) as Em1. apply (e0_imp _ _ D1) in Ho, Ho1, Ho2. apply (names_at_m _ _ _ Em1) in Hnames as [Hnames _]. apply (name_ok_m _ _ _ Em1) in Hx as [Hx _].
  w. w. pose proof (rep_set_R2 _ _ _ _ _ R1' (I1 _ _ HR1)) as R'. set (s0 := set_R2 _ _) in *.
  assert (can_alloc (2 * Z.of_nat (length ys) + 6 + 4 * size b) s0) as Ha0 by exact Ha1.
  w. eapply (wp_pairlis_self (GE := GE gs1) (x :: ys) r μ1 bs μ2 Hb fuel f1 _ s0 (Imp k2) tp (Imp kr) (R0 s) ρ); [exact R'|by eapply world_consts|by apply I1| |by apply I1|apply W1|apply W1|..].
  { econstructor; [exact Hx|exact Ho2|exact Hnames]. }
  { eapply can_alloc_le; [exact Ha0|cbn [length]; lia]. }
  { cbn [length]. lia. }
  intros f2 q i0 s2 σ2 R2' G2 Hq Sub2 S2 Henv Sh2. cbn in Sub2.
  assert (world gs1 μ2 σ2 (Imp kr)) as W2.
  { destruct (bind_args_ok (GE := GE gs1) _ _ _ _ _ _ Hb (wo_ok _ _ _ _ _ _ _ _ W1)) as (_ & O2 & _). eapply world_ext; [by apply ext_sub|done|done|exact W1]. }
  destruct Sh2 as [Sh2 Fr2]. cbn [length] in Sh2, Fr2. assert (g_free s0 = g_free s1) as E0 by done.
  assert (can_alloc (4 * size b + 2) s2) as Ha2. { apply Sh2. eapply can_alloc_le; [exact Ha0|lia]. }
  w. eapply (wp_cdr_of _ _ _ R2' _ _ _ _ _ _ (G2 _ _ (I1 _ _ Htp))); [cbn; by eapply lookup_weaken|]. intros fmp Hfmp.
  w. eapply (wp_cdr_of _ _ _ R2' _ _ _ _ _ _ (G2 _ _ (I1 _ _ Hdp))); [cbn; by eapply lookup_weaken|]. intros bp Hbp. cbn [orb]. cbv iota.
  pose proof (ext0_morph _ _ (ext_ext0 _ _ (ext_sub _ _ Sub2))) as Em2.
  assert (text T xs σ2 b) as Htx2 by (eapply text_sub; [exact Sub2|by eapply text_declared]).
  assert (parses σ2 bd b) as Hpa2 by (apply (parses_m _ _ _ Em2), (parses_m _ _ _ Em1), Hpa).
  assert (names_at σ2 ys r fm) as Hnm2 by (apply (names_at_m _ _ _ Em2), Hnames).
  w. eapply wp_mono; [eapply (wp_expand_body T xs gs1 ρ fuel (4 * size b) bd b f2 _ s2 bp (ys ++ opt_list r) fm fmp R2')|].
  { by eapply world_setting. } { done. } { done. } { done. } { done. } { exists ys, r. split; [done|]. split; [done|]. lia. } { lia. } { eapply can_alloc_le; [exact Ha2|lia]. } { lia. }
  cbn beta. intros _ s3 (f3 & σ3 & b' & Wn3 & E3 & Er3 & En3 & Htx3 & Hpa3). pose proof Wn3 as (R3' & I3 & _). cbn [m_heap with_heap with_r2] in *.
  assert (can_alloc 2 s3) as Ha3 by (eapply went_alloc; [exact Wn3|]; eapply can_alloc_le; [exact Ha2|lia]).
  assert (tb_vector T ∉ nodes b) as Hap by apply Htx.
  pose proof (world_expanded _ _ _ _ _ _ _ _ _ _ E3 Hap W2) as W3. pose proof (expanded_morph _ _ _ E3) as Em3. apply (names_at_m _ _ _ Em3) in Hnm2 as [Hnm3 _]. apply (env_at_m _ _ _ Em3) in Henv as [Henv _].
  destruct (fresh_imp σ3) as (k3 & F3). w. eapply (wp_cons _ _ _ R3' (Imp k3) fm (root b)); [by eapply can_alloc_le; [exact Ha3|lia]|exact F3|by apply I3|by apply I3|].
  intros f4 q3 s4 (G4 & A4 & _) Hq3 R4. specialize (A4 1 Ha3). cbn [m_heap new_obj with_heap with_r2] in *.
  destruct (fresh_imp (<[Imp k3 := opair fm (root b)]> σ3)) as (k4 & F4). w. eapply (wp_cons _ _ _ R4 (Imp k4) (Imp cell_symbol_lambda) (Imp k3)); [exact A4|exact F4|eapply rep_const; [exact R4|kc]|done|].
  intros f5 q4 s5 (G5 & _) Hq4 R5. w. w. pose proof (rep_set_R1 _ _ _ _ _ R5 Hq4) as R6.
  w. eapply (wp_push_cc _ _ _ R6 (Imp k4) (Imp k) i0 (Imp cell_vm_eval_define)); [cbn; lia|done|by apply G5, G4, I3, G2, I1|by apply G5, G4, I3|eapply rep_const; [exact R6|kc]|].
  intros s7 R7. w. exists top. split; [done|]. split; [done|]. exists f5. eexists. split; [exact R7|]. cbn.
  set (σ4 := <[Imp k4 := opair (Imp cell_symbol_lambda) (Imp k3)]> (<[Imp k3 := opair fm (root b)]> σ3)).
  assert (σ3 ⊆ σ4) as Sub4 by (etrans; by apply insert_subseteq). assert (ext σ3 σ4) as X4 by by apply ext_sub.
  assert (k3 <> k4) as N34 by (intros ->; by rewrite lookup_insert in F4).
  exists σ4, i0, k3, k4, b'. split; [done|]. split; [|split; [|split; [|split; [|split; [|split; [|split; [|split; [|split]]]]]]]].
  - eapply ext0_trans; [exact D1|]. eapply ext0_trans; [by apply ext_ext0, ext_sub|]. eapply ext0_trans; [by eapply expanded_ext0|by apply ext_ext0].
  - eapply kept_trans; [by apply kept_declared|]. eapply kept_trans; [by apply kept_ext, ext_sub|]. eapply kept_trans; [by apply kept_expanded|by apply kept_ext].
  - eapply world_ext; [exact X4| |apply W3|exact W3]. apply store_at_imp; [|done]. apply store_at_imp; [apply W3|done].
  - eapply env_at_ext; [exact X4|exact Henv].
  - unfold σ4. by rewrite lookup_insert.
  - unfold σ4. rewrite lookup_insert_ne by congruence. rewrite lookup_insert. by rewrite Er3.
  - eapply names_at_ext; [exact X4|exact Hnm3].
  - done.
  - by eapply text_sub.
  - apply (parses_m _ _ _ (ext0_morph _ _ (ext_ext0 _ _ X4))), Hpa3.
Qed.

Notation goes := (goes prim load_program fuel).
Lemma goes_eval_define gs μ σ r0 j x k b r3 st l v : gl !! 3%nat = Some (Imp (tb_module T)) -> world gs μ σ r0 -> lookup_var x gs = Some l -> val_at σ v j -> defining σ x k b -> xs x ->
  goes outer outer 1 L_eval_define (MS σ r0 j (Imp k) r3 st) L_vm_return
    (fun M => exists σ', M = MS σ' r0 (Imp cell_unspecified) (Imp k) r3 st /\ ext σ σ' /\ world gs (<[l := SVar x v]> μ) σ' r0).
Proof.
  intros Hg W Hl V (k' & t & Ho & Ho1 & Ht & Hx) Hxs. apply goes_step; [lia|]. intros f ? s -> R En.
  cbn [EvalModel.step]. unfold step_eval_define. regs R. do 6 w.
  w. eapply (wp_cdr_of _ _ _ R _ _ _ _ _ _ HR2 Ho). intros dp Hdp. w. eapply (wp_car_of _ _ _ R _ _ _ _ _ _ Hdp Ho1). intros tp Htp.
  pose proof Hx as [(mm & dd & Hxo & _) Hres].
  assert (forall Q : Z -> state -> Prop, (forall xp, f (Imp x) xp -> Q xp s) -> wp (t0 <- ty tp ;; if t0 =? TPAIR then car_of tp else ret tp) s Q) as Hname.
  { intros Q HQ. destruct Ht as [->|(k2 & fm & -> & Ho2)].
    - w. eapply (wp_ty _ _ _ R _ _ _ _ _ _ Htp Hxo). change (TSYMBOL =? TPAIR) with false. cbv iota. w. by apply HQ.
    - w. eapply (wp_ty _ _ _ R _ _ _ _ _ _ Htp Ho2). change (TPAIR =? TPAIR) with true. cbv iota. eapply (wp_car_of _ _ _ R _ _ _ _ _ _ Htp Ho2). intros xp Hxp. by apply HQ. }
  match goal with |- wp (bind (ty tp) (fun t0 => bind _ ?rest)) _ ?Q =>
    destruct (Hname (fun xp s' => wp (rest xp) s' Q)) as (xp & s' & E & HW) end.
  2:{ unfold wp. destruct (ty tp s) as [t0 s0| | | |] eqn:Ety; unfold bind in E |- *; rewrite Ety in E |- *; try done.
      destruct HW as (a & s'' & E' & HQ). exists a, s''. split; [|done]. rewrite E. exact E'. }
  intros xp0 Hxp0. clear xp s' E HW || idtac. cbn [macro_p global_p]. cbv iota.
  pose proof (en_alloc _ _ _ _ En) as Ha. pose proof (en_fuel _ _ _ _ En) as Hu.
  w. w. eapply (wp_variable fuel T xs gs ρ f _ s (R0 s) x xp0); [exact R|by eapply world_setting|exact HR0|exact Hxp0|by eexists _, _|intros Hin; apply Hres; unfold reserved; apply elem_of_app; by left|by left|done|done|].
  intros f1 σ1 r s1 W1 G1 Hf. pose proof W1 as (R1' & I1 & _). rewrite Hl in Hf. cbn in Hf. cbn [m_heap] in *.
  assert (world gs μ σ1 r0) as Wo1. { eapply world_ext; [by apply grown_ext|eapply store_at_grown; [apply W|done]|apply W|done]. }
  destruct (so_global _ _ (wo_ok _ _ _ _ _ _ _ _ Wo1) x l) as (v0 & Hv0); [by apply lookup_in|].
  destruct (sa_obj _ _ _ (wo_store _ _ _ _ _ _ _ _ Wo1) _ _ Hv0) as (jo & Hjo & _).
  w. eapply (wp_set_cdr_xf fuel _ _ _ R1' (Loc l) _ (Imp x) jo j _ _ Hf Hjo (I1 _ _ HR1)). intros s3 _ R3'. w. w. w. w.
  exists top. split; [done|]. split; [done|]. exists f1. eexists. split; [refine (rep_set_R1 _ _ _ (Imp cell_unspecified) _ R3' _); eapply rep_const; [exact R3'|kc]|].
  assert (ext σ1 (<[Loc l := opair (Imp x) j]> σ1)) as X by apply ext_loc. exists (<[Loc l := opair (Imp x) j]> σ1). split; [done|]. split; [eapply ext_trans; [by apply grown_ext|done]|].
  eapply world_ext; [exact X| | |exact Wo1].
  - apply store_at_put; [apply Wo1|]. exists j. rewrite lookup_insert. split; [done|]. eapply val_at_ext; [exact X|]. eapply val_at_ext; [by apply grown_ext|done].
  - apply store_ok_put; [apply Wo1|by eapply store_le_var|done].
Qed.
End steps.
