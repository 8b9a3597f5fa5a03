(** expand_variable: the symbols of a text that are bound to global variables become references. *)
From stdpp Require Import base gmap list fin_maps.
From Coq Require Import ZArith Lia.
From Coq Require Import ZifyBool ZifyNat.
From Verif Require Import CInt Symbols Heap HeapLemmas GcModel GcSpec DataModel DataSpec DataLemmas CoreProofs StackModel.
From Verif Require Import HashProofs EvalModel Rep RepProofs EvalSpec EvalRep EvalLemmas EvalSteps2 TopSpec TopRep TopRename.
Open Scope Z_scope. Open Scope mes_scope.

Lemma base_m π σ σ' : morph π σ σ' -> base σ -> base σ'.
Proof.
  intros E [C (a & d & N)]. split; [by eapply consts_m|]. apply (m_obj _ _ _ E) in N. by eexists _, _.
Qed.

(** ** Running code *)
Definition went (k : Z) (f : idmap) (M : mst) (s : state) (f' : idmap) (σ' : oheap) (s' : state) : Prop :=
  rep f' (with_heap σ' M) s' /\ (forall j q, f j q -> f' j q) /\ shrinks k s s'.
Lemma shrinks_le k k' s s' : shrinks k s s' -> k <= k' -> shrinks k' s s'.
Proof. intros [H1 H2] Hk. split; [|lia]. intros n Hn. apply H1. eapply can_alloc_le; [exact Hn|lia]. Qed.
Lemma shrinks_trans k k' s s' s'' : shrinks k s s' -> shrinks k' s' s'' -> shrinks (k + k') s s''.
Proof. intros [H1 H2] [H3 H4]. split; [|lia]. intros n Hn. apply H3, H1. by replace (n + k' + k) with (n + (k + k')) by lia. Qed.
Lemma went_refl f M s : rep f M s -> went 0 f M s f (m_heap M) s.
Proof. intros R. split; [by destruct M|]. split; [done|apply shrinks_refl]. Qed.
Lemma went_trans k k' f M s f1 σ1 s1 f2 σ2 s2 : went k f M s f1 σ1 s1 -> went k' f1 (with_heap σ1 M) s1 f2 σ2 s2 -> went (k + k') f M s f2 σ2 s2.
Proof. intros (R1 & G1 & S1) (R2 & G2 & S2). split; [done|]. split; [auto|]. by eapply shrinks_trans. Qed.
Lemma went_le k k' f M s f1 σ1 s1 : went k f M s f1 σ1 s1 -> k <= k' -> went k' f M s f1 σ1 s1.
Proof. intros (R1 & G1 & S1) Hk. split; [done|]. split; [done|]. by eapply shrinks_le. Qed.
Lemma went_alloc k n f M s f1 σ1 s1 : went k f M s f1 σ1 s1 -> can_alloc (n + k) s -> can_alloc n s1.
Proof. intros (_ & _ & H & _). apply H. Qed.
Lemma went_free k f M s f1 σ1 s1 : went k f M s f1 σ1 s1 -> g_free s1 <= g_free s + k.
Proof. intros (_ & _ & _ & H). exact H. Qed.
Lemma grows_went f M s f1 i o s1 : grows f f1 s s1 -> rep f1 (new_obj i o M) s1 -> went 1 f M s f1 (<[i := o]> (m_heap M)) s1.
Proof. intros (G & A & F & _) R. split; [done|]. split; [done|]. split; [done|lia]. Qed.
Lemma grown_trans σ σ1 σ2 : grown σ σ1 -> grown σ1 σ2 -> grown σ σ2.
Proof. intros [H1 L1] [H2 L2]. split; [by etrans|]. intros l. by rewrite L2. Qed.

Ltac w := first [apply wp_bind | apply wp_ret | apply wp_gets | apply wp_modify].
Ltac kc := (vm_compute; split; congruence).

(** ** Tables *)
Definition vars_at (gs : list (Z * Z)) (σ : oheap) : Prop := forall y l, (y, l) ∈ gs -> keyed σ y (Loc l).
Lemma vars_at_of gs rs μ σ : vars_in μ gs -> store_at rs μ σ -> vars_at gs σ.
Proof. intros V S y l H. destruct (V y l H) as (v & Hv). destruct (sa_obj _ _ _ S _ _ Hv) as (j & Hj & _). by exists j. Qed.
Lemma skips_other gs σ x e : vars_at gs σ -> skips gs σ x e -> other σ x e.
Proof. intros V [(y & l & -> & H & Hn)|(k & y & v & -> & H & Hn)]; exists y; split; [by apply V|done|by exists v|done]. Qed.
Lemma lookup_in x gs l : lookup_var x gs = Some l -> (x, l) ∈ gs.
Proof. induction gs as [|[y l'] gs IH]; [done|]. cbn. destruct (decide (x = y)) as [->|]; [intros [= ->]; by left|right; auto]. Qed.
Definition entry (σ : oheap) (x : Z) (i : id) (res : option Z) : Prop :=
  match res with
  | Some l => exists pre post, ml σ i (pre ++ Loc l :: post) /\ Forall (other σ x) pre /\ keyed σ x (Loc l)
  | None => (exists o, σ !! i = Some o /\ otype o <> TPAIR /\ otype o <> TCHAR /\ otype o <> TNUMBER) \/
            (exists es, ml σ i es /\ es <> [] /\ Forall (other σ x) es)
  end.
Lemma entry_of gs σ x i : vars_at gs σ -> match lookup_var x gs with Some l => bucket_with gs σ x l i | None => bucket_without gs σ x i end ->
  entry σ x i (lookup_var x gs).
Proof.
  intros V. destruct (lookup_var x gs) as [l|] eqn:El; cbn.
  - intros (pre & post & H & Hs). exists pre, post. split; [by apply ilist_ml|]. split; [|apply V; by apply lookup_in].
    eapply Forall_impl; [exact Hs|]. intros e. by apply skips_other.
  - intros [(k & o & -> & H & Ht)|(es & H & Hn & Hs)]; [left; by exists o|right]. exists es. split; [by apply ilist_ml|]. split; [done|].
    eapply Forall_impl; [exact Hs|]. intros e. by apply skips_other.
Qed.
Definition found (f : idmap) (res : option Z) (r : Z) : Prop := match res with Some l => f (Loc l) r | None => r = cell_f end.

Lemma wp_handle fuel f M s t tp size v bs x xp h i res dflt (Q : Z -> state -> Prop) : rep f M s -> consts0 (m_heap M) -> f (Imp t) tp ->
  table_at (m_heap M) t size v -> m_heap M !! v = Some (OArr TVECTOR bs) -> bucket_of (m_heap M) size x h -> bs !! Z.to_nat h = Some (ARef i) ->
  f (Imp x) xp -> can_alloc 1 s -> g_free s + 1 <= Z.of_nat fuel -> is_const dflt -> entry (m_heap M) x i res ->
  (forall f' σ' r s', went 1 f M s f' σ' s' -> grown (m_heap M) σ' -> found f' res r -> Q r s') ->
  wp (hashq_get_handle fuel tp xp dflt) s Q.
Proof.
  intros R C Htp (ts & T2 & T3 & T4 & Hs1) V2 (n & nb & nm & N1 & N3 & Hs2 & Eh) Hb Hx Ha Hfuel Hd He HQ.
  unfold hashq_get_handle. w. change 3 with (Z.of_nat 3). eapply (wp_struct_ref_num _ _ _ R _ _ _ _ _ _ Htp T2 T3 Ha).
  intros f1 q k s1 Gr Hk Hq R1. pose proof (grows_went _ _ _ _ _ _ _ Gr R1) as W. destruct Gr as (G1 & A1 & F1 & _). set (M1' := new_obj _ _ _) in R1.
  assert (m_heap M ⊆ m_heap M1') as Sub by (by apply insert_subseteq).
  assert (forall j o, m_heap M !! j = Some o -> m_heap M1' !! j = Some o) as Up by (intros j o Hj; by eapply lookup_weaken).
  w. unfold cdr_of at 1. w. eapply (wp_rd _ _ _ R1 _ _ _ _ _ _ Hq); [cbn; by rewrite lookup_insert|]. intros c _ _ Hcd. cbn in Hcd. w. rewrite Hcd.
  w. unfold hashq_. w. eapply (wp_rd _ _ _ R1 _ _ _ _ _ _ (G1 _ _ Hx) (Up _ _ N1)). intros cx Hcx _ Hxb. rewrite Hcx.
  change ((TSYMBOL =? TSPECIAL) || (TSYMBOL =? TSYMBOL)) with true. cbv iota.
  w. eapply (wp_cell_bytes _ _ _ R1 _ _ _ _ Hxb (Up _ _ N3)). eapply wp_eq; [by apply hash_cstring_ok|]. rewrite <- Eh.
  assert (0 <= h < size) as Hh by (rewrite Eh; apply Z.mod_pos_bound; lia).
  w. change 4 with (Z.of_nat 4). eapply (wp_struct_ref_id _ _ _ R1 _ _ _ _ _ _ _ (G1 _ _ Htp) (Up _ _ T2) T4 (Up _ _ V2)); [done|done|]. intros bp Hbp.
  assert (exists o, m_heap M !! i = Some o /\ otype o <> TCHAR /\ otype o <> TNUMBER) as (o & Hio & O1 & O2).
  { destruct res as [l|]; cbn in He.
    - destruct He as (pre & post & Hml & _). destruct pre; inversion Hml; subst; eexists; (split; [done|done]).
    - destruct He as [(o & Ho & _ & O1 & O2)|(es & Hml & Hne & _)]; [by exists o|]. inversion Hml; subst; [done|]. eexists; (split; [done|done]). }
  w. assert (to_u32 h = Z.of_nat (Z.to_nat h)) as -> by (unfold to_u32, two32; rewrite Z.mod_small; lia).
  eapply (wp_vector_ref_id _ _ _ R1 _ _ _ _ _ _ _ Hbp (Up _ _ V2) Hb (Up _ _ Hio)); [done|done|]. intros bkp Hbkp.
  assert (f1 (Imp dflt) dflt) as Hcf by (by eapply rep_const).
  destruct (cst_const _ _ C dflt Hd) as (t' & n' & d' & Hno & Ht' & _).
  w. eapply (wp_rd _ _ _ R1 _ _ _ _ _ _ Hcf (Up _ _ Hno)). intros c0 Hc0 _ _. rewrite Hc0.
  assert (t' =? TPAIR = false) as -> by (by destruct Ht' as [->| ->]).
  w. eapply (wp_ty_any _ _ _ R1 _ _ _ _ Hbkp (Up _ _ Hio)).
  assert (consts0 (m_heap M1')) as C1 by (eapply consts_ok_ext; [by apply ext_sub|done]).
  assert (grown (m_heap M) (m_heap M1')) as Hg by by apply grown_imp.
  destruct res as [l|]; cbn in He.
  - destruct He as (pre & post & Hml & Hpre & Hkl).
    assert (otype o = TPAIR) as ->. { destruct pre; inversion Hml; subst; simplify_eq; done. }
    change (TPAIR =? TPAIR) with true. cbv iota.
    eapply (wp_assq_here fuel f1 M1' s1 R1 C1 ltac:(lia) i bkp x xp Hbkp (G1 _ _ Hx) _ _ _ (Up _ _ N1)); [by left|by eapply ml_sub| | |].
    + eapply Forall_impl; [exact Hpre|]. intros e He'. by eapply other_sub.
    + by eapply keyed_sub.
    + intros r Hr. by eapply HQ.
  - destruct He as [(o' & Ho & O3 & _)|(es & Hml & Hne & Hall)].
    + rewrite Hio in Ho. injection Ho as <-. rewrite (proj2 (Z.eqb_neq _ _) O3). w. by eapply HQ.
    + assert (otype o = TPAIR) as ->. { inversion Hml; subst; simplify_eq; done. }
      change (TPAIR =? TPAIR) with true. cbv iota.
      eapply (wp_assq_none fuel f1 M1' s1 R1 C1 ltac:(lia) i bkp x xp Hbkp (G1 _ _ Hx) _ _ _ (Up _ _ N1)); [by left|by eapply ml_sub| |].
      * eapply Forall_impl; [exact Hall|]. intros e He'. by eapply other_sub.
      * by eapply HQ.
Qed.

(** ** Global variables, seen from the top level *)
Record setting (T : table) (xs : Z -> Prop) (gs : list (Z * Z)) (ρ : env) (M : mst) (σ : oheap) : Prop := {
  st_base : base σ;
  st_globals : exists bs, globals_at T xs gs σ bs;
  st_vars : vars_at gs σ;
  st_env : top_env σ ρ (m_r0 M);
  st_names : forall x, x ∈ reserved -> lookup_var x gs = None;
  st_module : m_glob M !! 3%nat = Some (Imp (tb_module T)) }.
Lemma hides_entries σ ρ i x : hides ρ -> env_at σ ρ i -> x ∉ hidden -> exists es, ml σ i es /\ Forall (other σ x) es.
Proof.
  intros Hh He Hx. revert Hh. induction He as [|ρ k e d key v Hk He Hin _ IH| |]; intros Hh; inversion Hh; subst.
  - exists []. split; constructor.
  - destruct (IH H0) as (es & Hml & Hall). exists (Imp e :: es). split; [by econstructor|]. constructor; [|done]. exists key. split; [by exists v|congruence].
Qed.
Lemma symbol_cell σ x : symbol σ x -> exists a d, σ !! Imp x = Some (OCell TSYMBOL a d).
Proof. done. Qed.
Lemma wp_variable fuel T xs gs ρ f M s p x xp (Q : Z -> state -> Prop) : rep f M s -> setting T xs gs ρ M (m_heap M) ->
  f (m_r0 M) p -> f (Imp x) xp -> symbol (m_heap M) x -> x ∉ hidden -> xs x \/ lookup_var x gs <> None -> can_alloc 1 s -> g_free s + 1 <= Z.of_nat fuel ->
  (forall f' σ' r s', went 1 f M s f' σ' s' -> grown (m_heap M) σ' -> found f' (lookup_var x gs) r -> Q r s') ->
  wp (module_variable fuel p xp) s Q.
Proof.
  intros R [B (bs & G) V (He & Hh & _) _ Hm] Hp Hx (a & d & Hxo) Hnh Hxs Ha Hfuel HQ. pose proof (ba_consts _ B) as C.
  destruct (hides_entries _ _ _ x Hh He Hnh) as (es & Hml & Hall).
  unfold module_variable. w. eapply (wp_assq_none fuel f M s R C ltac:(lia) _ p x xp Hp Hx _ _ _ Hxo); [by left|exact Hml|exact Hall|]. rewrite Z.eqb_refl.
  destruct G as [(ms & M2 & M3) Ht Hv Hb]. destruct (Hb x Hxs) as (h & i & B1 & B2 & B3). w. w.
  assert (f (Imp (tb_module T)) (M0 s)) as Hm0. { destruct (Forall2_lookup_l _ _ _ _ _ (rp_glob _ _ _ R) Hm) as (q & Hq & Hf). cbn in Hq. by injection Hq as <-. }
  pose proof Ht as (ts & T2 & _).
  w. change 5 with (Z.of_nat 5). eapply (wp_struct_ref_id _ _ _ R _ _ _ _ _ _ _ Hm0 M2 M3 T2); [done|done|]. intros tp Htp.
  eapply (wp_handle fuel f M s (tb_table T) tp (tb_size T) _ bs x xp h i (lookup_var x gs) cell_f Q R C Htp Ht Hv B1 B2 Hx Ha Hfuel); [kc|by apply entry_of|exact HQ].
Qed.
Lemma found_f f M s gs x r : rep f M s -> found f (lookup_var x gs) r -> (r =? cell_f) = bool_decide (lookup_var x gs = None).
Proof.
  intros R. destruct (lookup_var x gs) as [l|]; cbn; [|by intros ->]. intros H. rewrite (neqc _ _ _ R _ _ cell_f H); [done|kc|done].
Qed.

(** ** Formals *)
Lemma wp_formal_p n : forall f M s ys r i p x xp (Q : bool -> state -> Prop), rep f M s -> base (m_heap M) -> f i p -> names_at (m_heap M) ys r i ->
  (length ys <= n)%nat -> f (Imp x) xp -> Q (bool_decide (x ∈ ys ++ opt_list r)) s -> wp (formal_p n xp p) s Q.
Proof.
  induction n as [|n IH]; intros f M s ys r i p x xp Q R B Hp Hn Hl Hx HQ; (inversion Hn as [|r' [(m & d & Ho & _) Hres]|y ys' r' k d Hy Ho Hd]; subst; cbn [formal_p]; w; [
    destruct (ba_nil _ B) as (na & nd & Hnil); eapply (wp_rd _ _ _ R _ _ _ _ _ _ Hp Hnil); intros c -> _ _;
    change (TSPECIAL =? TSYMBOL) with false; change (TSPECIAL =? TPAIR) with false; cbv iota; by w|
    eapply (wp_rd _ _ _ R _ _ _ _ _ _ Hp Ho); intros c -> _ _; change (TSYMBOL =? TSYMBOL) with true; cbv iota; w;
    rewrite (rh_eq _ _ _ _ _ _ _ (rp_heap _ _ _ R) Hx Hp); cbn in HQ; match goal with |- Q (bool_decide ?P) _ => match type of HQ with Q (bool_decide ?P') _ => replace (bool_decide P) with (bool_decide P'); [done|apply bool_decide_ext; set_solver] end end|]);
    cbn in Hl; [lia|].
  eapply (wp_rd _ _ _ R _ _ _ _ _ _ Hp Ho). intros c -> Hca Hcd. change (TPAIR =? TSYMBOL) with false. change (TPAIR =? TPAIR) with true. cbv iota. cbn in Hca, Hcd.
  rewrite (rh_eq _ _ _ _ _ _ _ (rp_heap _ _ _ R) Hca Hx). destruct (decide (Imp y = Imp x)) as [Exy|Exy]; [rewrite (bool_decide_true _ Exy)|rewrite (bool_decide_false _ Exy)].
  - injection Exy as ->. w. by rewrite bool_decide_true in HQ by (cbn; by left).
  - eapply (IH f M s ys' r d (c_cdr c) x xp Q R B Hcd Hd); [lia|done|].
    replace (bool_decide (x ∈ ys' ++ opt_list r)) with (bool_decide (x ∈ (y :: ys') ++ opt_list r)); [done|].
    apply bool_decide_ext. cbn. rewrite elem_of_cons. split; [intros [->|H]; [done|done]|by right].
Qed.
Lemma names_at_grown σ σ' xs r i : grown σ σ' -> names_at σ xs r i -> names_at σ' xs r i.
Proof. intros G. apply names_at_ext. by apply grown_ext. Qed.
Lemma tree_at_sub σ σ' t : σ ⊆ σ' -> tree_at σ t -> tree_at σ' t.
Proof. intros Hs. induction 1; constructor; try done. by eapply lookup_weaken. Qed.
Lemma grown_morph σ σ' : grown σ σ' -> morph (fun i => i) σ σ'.
Proof. intros G. by apply ext0_morph, ext_ext0, grown_ext. Qed.
Lemma wp_add_formals n : forall f M s xs r t p ys r' i ip (Q : Z -> state -> Prop), rep f M s -> base (m_heap M) -> f (root t) p -> names_tree (m_heap M) xs r t -> tree_at (m_heap M) t ->
  (length xs <= n)%nat -> f i ip -> names_at (m_heap M) ys r' i -> can_alloc (Z.of_nat (length (xs ++ opt_list r))) s ->
  (forall f' σ' j q s', went (Z.of_nat (length (xs ++ opt_list r))) f M s f' σ' s' -> grown (m_heap M) σ' -> f' j q -> names_at σ' (rev (xs ++ opt_list r) ++ ys) r' j -> Q q s') ->
  wp (add_formals n ip p) s Q.
Proof.
  induction n as [|n IH]; intros f M s xs r t p ys r' i ip Q R B Hp Hn Ht Hl Hi Hys HA HQ; (inversion Hn as [|r0 Hr|x xs' r0 k d Hx Hd]; subst; cbn [add_formals]; w; [
    destruct (ba_nil _ B) as (na & nd & Hnil); eapply (wp_rd _ _ _ R _ _ _ _ _ _ Hp Hnil); intros c -> _ _;
    change (TSPECIAL =? TSYMBOL) with false; change (TSPECIAL =? TPAIR) with false; cbv iota; w;
    eapply HQ; [by apply went_refl|apply grown_refl|done|done]|
    pose proof Hr as [(m & d & Ho & _) _]; eapply (wp_rd _ _ _ R _ _ _ _ _ _ Hp Ho); intros c -> _ _; change (TSYMBOL =? TSYMBOL) with true; change (TSYMBOL =? TPAIR) with false; cbv iota;
    destruct (fresh_imp (m_heap M)) as (kk & Hkk); eapply (wp_cons _ _ _ R (Imp kk) _ _ _ _ _ HA Hkk Hp Hi); intros f1 q s1 Gr Hq R1;
    eapply (HQ f1 _ (Imp kk) q s1); [by eapply grows_went|by apply grown_imp|done|];
    cbn; econstructor; [eapply name_ok_ext; [by apply ext_new|done]|by rewrite lookup_insert|eapply names_at_ext; [by apply ext_new|done]]|]);
    cbn in Hl; [lia|].
  inversion Ht as [|? ? ? Ho _ Htd]; subst. cbn [root] in *.
  eapply (wp_rd _ _ _ R _ _ _ _ _ _ Hp Ho). intros c -> Hca Hcd. change (TPAIR =? TPAIR) with true. cbv iota. cbn in Hca, Hcd.
  destruct (fresh_imp (m_heap M)) as (kk & Hkk). w. eapply (wp_cons _ _ _ R (Imp kk) _ _ _ _ _); [eapply can_alloc_le; [exact HA|cbn; lia]|exact Hkk|exact Hca|exact Hi|].
  intros f1 q s1 Gr Hq R1. pose proof (grows_went _ _ _ _ _ _ _ Gr R1) as W. destruct Gr as (G1 & A1 & F1 & _). set (M1 := new_obj _ _ M) in R1.
  assert (grown (m_heap M) (m_heap M1)) as Hg by by apply grown_imp. pose proof (grown_morph _ _ Hg) as E.
  w. eapply (wp_cdr_of _ _ _ R1 _ _ _ _ _ _ (G1 _ _ Hp)); [eapply lookup_weaken; [exact Ho|apply Hg]|]. intros dp Hdp.
  eapply (IH f1 M1 s1 xs' r d dp (x :: ys) r' (Imp kk) q Q R1); try done.
  - by eapply base_m.
  - by eapply names_tree_m.
  - eapply tree_at_sub; [apply Hg|done].
  - lia.
  - cbn. econstructor; [by eapply name_ok_m|by rewrite lookup_insert|by eapply names_at_m].
  - apply A1. eapply can_alloc_le; [exact HA|cbn; lia].
  - intros f' σ' j q' s' W' Hg' Hj Hnm. eapply (HQ f' σ' j q' s'); [|by eapply grown_trans|done|].
    + eapply went_le; [by eapply (went_trans 1)|cbn; lia].
    + cbn [app rev]. rewrite <- app_assoc. exact Hnm.
Qed.
