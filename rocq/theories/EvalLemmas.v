(** Facts about the relations of EvalRep.v, and rules to run code on a state known only through
    its abstract view. *)
From stdpp Require Import base gmap list fin_maps.
From Coq Require Import ZArith Lia.
From Coq Require Import ZifyBool ZifyNat.
From Verif Require Import CInt Symbols Heap HeapLemmas GcModel GcSpec DataModel DataSpec DataLemmas CoreProofs StackModel.
From Verif Require Import HashProofs EvalModel Rep RepProofs EvalSpec EvalRep.
Open Scope Z_scope. Open Scope mes_scope.

(** * Growing heaps *)
Global Hint Extern 0 (frozen _) => exact I : core.
Record ext (σ σ' : oheap) : Prop := {
  ext_frozen : forall i o, frozen i -> σ !! i = Some o -> σ' !! i = Some o;
  ext_key : forall k w, σ !! Key k = Some (opair (Imp cell_closure) w) -> exists w', σ' !! Key k = Some (opair (Imp cell_closure) w') }.
Lemma ext_refl σ : ext σ σ.
Proof. split; eauto. Qed.
Lemma ext_trans σ σ' σ'' : ext σ σ' -> ext σ' σ'' -> ext σ σ''.
Proof.
  intros [H1 K1] [H2 K2]. split; [auto|]. intros k w H. destruct (K1 k w H) as (w' & H'). by apply (K2 k w').
Qed.
Lemma ext_sub σ σ' : σ ⊆ σ' -> ext σ σ'.
Proof. intros H. split; [intros i o _ Hk; by eapply lookup_weaken|]. intros k w Hk. exists w. by eapply lookup_weaken. Qed.
Lemma ext_loc σ l o : ext σ (<[Loc l := o]> σ).
Proof. split; [intros i o' Hi H; rewrite lookup_insert_ne; [done|by destruct i]|]. intros k w H. exists w. by rewrite lookup_insert_ne. Qed.
Lemma ext_new σ i o : σ !! i = None -> ext σ (<[i := o]> σ).
Proof. intros H. by apply ext_sub, insert_subseteq. Qed.
Lemma ext_set_key σ k w : ext σ (<[Key k := opair (Imp cell_closure) w]> σ).
Proof.
  split; [intros i o' Hi H; rewrite lookup_insert_ne; [done|by destruct i]|]. intros k' w' H.
  destruct (decide (k' = k)) as [->|Hne]; [rewrite lookup_insert; eauto|]. exists w'. rewrite lookup_insert_ne by congruence. done.
Qed.
Global Hint Resolve ext_refl : core.
Lemma fresh_imp (σ : oheap) : exists k, σ !! Imp k = None.
Proof.
  set (ks := omap (fun i => match i with Imp k => Some k | _ => None end) (map_to_list σ).*1).
  exists (fresh ks). apply eq_None_not_Some. intros (o & Ho). apply (infinite_is_fresh ks). unfold ks at 2.
  apply elem_of_list_omap. exists (Imp (fresh ks)). split; [|reflexivity]. apply elem_of_list_fmap. eexists (_, o). split; [done|]. by apply elem_of_map_to_list.
Qed.
Lemma fresh_key (σ : oheap) : exists k, σ !! Key k = None.
Proof.
  set (ks := omap (fun i => match i with Key k => Some k | _ => None end) (map_to_list σ).*1).
  exists (fresh ks). apply eq_None_not_Some. intros (o & Ho). apply (infinite_is_fresh ks). unfold ks at 2.
  apply elem_of_list_omap. exists (Key (fresh ks)). split; [|reflexivity]. apply elem_of_list_fmap. eexists (_, o). split; [done|]. by apply elem_of_map_to_list.
Qed.

Notation is_const k := (cell_nil <= k <= cell_symbol_test).
Section globals.
Context {GE : genv}.
Notation consts_ok := (consts_ok GE).
Notation store_ok := (store_ok GE).

Section ext.
  Context (σ σ' : oheap) (E : ext σ σ').
  Lemma imp_ext k o : σ !! Imp k = Some o -> σ' !! Imp k = Some o.
  Proof. by apply E. Qed.
  Lemma name_ok_ext x : name_ok σ x -> name_ok σ' x.
  Proof. intros [(n & d & H & Hn) Hr]. split; [|done]. exists n, d. split; [by apply E|done]. Qed.
  Lemma flist_ext i es : flist σ i es -> flist σ' i es.
  Proof. induction 1; econstructor; eauto. by apply E. Qed.
  Lemma consts_ok_ext : consts_ok σ -> consts_ok σ'.
  Proof.
    assert (forall gs x e, skips gs σ x e -> skips gs σ' x e) as Hsk.
    { intros gs x e [H'|(k & y & w & -> & He & Hy)]; [by left|right]. exists k, y, w. split; [done|]. split; [by apply E|done]. }
    intros [H HG HM]. split.
    - intros k Hk. destruct (H k Hk) as (t & n & d & Ho & Ht). exists t, n, d. split; [by apply E|done].
    - intros x l Hl. destruct (HG x l Hl) as (ms & ts & bs & t & b & nb & i & size & n & nm & pre & post & [(M1 & M2 & M3) (T1 & T2 & T3) (V1 & V2) (N1 & N2 & N3) Hs Hb (B1 & B2)]).
      exists ms, ts, bs, t, b, nb, i, size, n, nm, pre, post. split; try done.
      + split; [done|]. split; [by apply E|done].
      + split; [done|]. split; [by apply E|done].
      + split; [done|by apply E].
      + split; [by apply E|]. split; [done|by apply E].
      + split; [by apply flist_ext|]. eapply Forall_impl; [exact B2|]. apply Hsk.
    - intros x Hin. destruct (HM x Hin) as (ms & ts & bs & t & b & nb & i & size & n & nm & [(M1 & M2 & M3) (T1 & T2 & T3) (V1 & V2) (N1 & N2 & N3) Hs Hb HB]).
      exists ms, ts, bs, t, b, nb, i, size, n, nm. split; try done.
      + split; [done|]. split; [by apply E|done].
      + split; [done|]. split; [by apply E|done].
      + split; [done|by apply E].
      + split; [by apply E|]. split; [done|by apply E].
      + destruct HB as [(o & Hf & Ho & HT)|(es & Hne & Hl & Hall)]; [left; exists o; split; [done|]; split; [by apply E|done]|right].
        exists es. split; [done|]. split; [by apply flist_ext|]. eapply Forall_impl; [exact Hall|]. apply Hsk.
  Qed.
  Lemma val_at_ext v i : val_at σ v i -> val_at σ' v i.
  Proof.
    destruct v; cbn; [intros [[k ->] H]|intros [[k ->] H]|intros [-> (o & H & Ha)]|intros [-> (a & d & H)]|done].
    1,2: split; [by exists k|by apply E]. 1: split; [done|]; exists o; split; [by apply E|done]. split; [done|]. exists a, d. by apply E.
  Qed.
  Lemma slot_val_ext v e : slot_val σ v e -> slot_val σ' v e.
  Proof. destruct v; try done; intros (j & -> & H); exists j; (split; [done|]); by apply val_at_ext. Qed.
  Lemma names_at_ext xs r i : names_at σ xs r i -> names_at σ' xs r i.
  Proof. induction 1; econstructor; eauto using name_ok_ext, imp_ext. Qed.
  Lemma ilist_ext i es : ilist σ i es -> ilist σ' i es.
  Proof. induction 1; econstructor; eauto using imp_ext. Qed.
  Scheme code_at_mut := Minimality for code_at Sort Prop with codes_at_mut := Minimality for codes_at Sort Prop.
  Combined Scheme code_codes_ind from code_at_mut, codes_at_mut.
  Lemma code_codes_ext : (forall e i, code_at σ e i -> code_at σ' e i) /\ (forall es i, codes_at σ es i -> codes_at σ' es i).
  Proof. apply code_codes_ind; intros; econstructor; eauto using name_ok_ext, val_at_ext, ilist_ext, names_at_ext, imp_ext. Qed.
  Lemma code_at_ext e i : code_at σ e i -> code_at σ' e i.
  Proof. apply code_codes_ext. Qed.
  Lemma codes_at_ext es i : codes_at σ es i -> codes_at σ' es i.
  Proof. apply code_codes_ext. Qed.
  Lemma env_at_ext ρ i : env_at σ ρ i -> env_at σ' ρ i.
  Proof. induction 1; [constructor|eapply env_hide; eauto using imp_ext|eapply env_bind; eauto using imp_ext|constructor]. Qed.
  Lemma sobj_at_ext o i : σ' !! i = σ !! i -> sobj_at σ o i -> sobj_at σ' o i.
  Proof.
    intros Ei. destruct o as [x v|a d|xs r bd ρ|p n|ρ|vs]; cbn.
    - intros (j & H & Hv). exists j. split; [congruence|by apply val_at_ext].
    - intros (j & j' & H & Hv & Hv'). exists j, j'. split; [congruence|]. split; by apply val_at_ext.
    - intros (k & c & e & a & fm & b & H & H1 & H2 & H3 & H4 & H5 & H6). exists k, c, e, a, fm, b.
      split; [congruence|]. do 2 (split; [by apply E|]). split; [by apply env_at_ext|]. split; [by apply E|]. split; [by apply names_at_ext|by apply codes_at_ext].
    - intros (es & H & H'). exists es. split; [congruence|done].
    - intros (k & d & w & H & H1 & H2). destruct (ext_key _ _ E _ _ H1) as (w' & H1'). exists k, d, w'. split; [congruence|]. split; [done|by apply env_at_ext].
    - intros (es & H & H'). exists es. split; [congruence|]. eapply Forall2_impl; [exact H'|apply slot_val_ext].
  Qed.
End ext.
Lemma alist_at_sub σ σ' js vs i : σ ⊆ σ' -> alist_at σ js vs i -> alist_at σ' js vs i.
Proof.
  intros Hs. induction 1 as [|j js v vs i a d Hj Hi Hv _ IH]; econstructor; eauto.
  - by eapply lookup_weaken.
  - eapply val_at_ext; [by apply ext_sub|done].
Qed.

(** * Adding to the store *)
Lemma store_at_imp rs μ σ k o : store_at rs μ σ -> σ !! Imp k = None -> store_at rs μ (<[Imp k := o]> σ).
Proof.
  intros [H1 H2] Hk. split.
  - intros l o' Hl. eapply sobj_at_ext; [by apply ext_new|by rewrite lookup_insert_ne|auto].
  - intros l Hl Hr. rewrite lookup_insert_ne by done. auto.
Qed.
Lemma store_at_put rs μ σ l ob o : store_at rs μ σ -> sobj_at (<[Loc l := ob]> σ) o (Loc l) ->
  store_at rs (<[l := o]> μ) (<[Loc l := ob]> σ).
Proof.
  intros [H1 H2] Ho. split.
  - intros l' o' Hl. destruct (decide (l' = l)) as [->|Hne].
    + rewrite lookup_insert in Hl. injection Hl as <-. done.
    + rewrite lookup_insert_ne in Hl by done. eapply sobj_at_ext; [apply ext_loc| |by apply H1]. rewrite lookup_insert_ne; congruence.
  - intros l' Hl Hr. destruct (decide (l' = l)) as [->|Hne]; [by rewrite lookup_insert in Hl|].
    rewrite lookup_insert_ne in Hl by done. rewrite lookup_insert_ne by congruence. auto.
Qed.
Lemma store_at_loc rs μ σ l ob : store_at rs μ σ -> μ !! l = None -> store_at (l :: rs) μ (<[Loc l := ob]> σ).
Proof.
  intros [H1 H2] Hl. split.
  - intros l' o' Hl'. assert (l' <> l) by congruence. eapply sobj_at_ext; [apply ext_loc| |by apply H1]. rewrite lookup_insert_ne; congruence.
  - intros l' Hl' Hr. rewrite lookup_insert_ne; [|intros [= ->]; apply Hr; by left]. apply H2; [done|]. intros ?. apply Hr. by right.
Qed.
Lemma store_at_weaken rs rs' μ σ : store_at rs μ σ -> (forall l, l ∈ rs -> l ∈ rs') -> store_at rs' μ σ.
Proof. intros [H1 H2] Hs. split; [done|]. intros l Hl Hr. apply H2; [done|]. intros ?. by apply Hr, Hs. Qed.

(** a frame that gets one more variable: its key changes too *)
Lemma store_at_heap rs μ σ σ' : store_at rs μ σ -> ext σ σ' -> (forall l, σ' !! Loc l = σ !! Loc l) -> store_at rs μ σ'.
Proof.
  intros [H1 H2] E Hl. split.
  - intros l o Ho. eapply sobj_at_ext; [exact E|done|auto].
  - intros l Ho Hr. rewrite Hl. auto.
Qed.

Lemma extend_app bs bs' ρ : extend (bs ++ bs') ρ = extend bs (extend bs' ρ).
Proof. unfold extend. by rewrite foldr_app. Qed.
Lemma env_ok_extend μ bs ρ : vars_in μ bs -> env_ok μ ρ -> env_ok μ (extend bs ρ).
Proof.
  intros Hv H. induction bs as [|[x l] bs IH]; [done|]. cbn. destruct (Hv x l) as (v & Hl); [by left|].
  eapply eo_bind; [exact Hl|]. apply IH. intros y l' Hin. apply Hv. by right.
Qed.
Lemma vars_in_le μ μ' bs : store_le μ μ' -> vars_in μ bs -> vars_in μ' bs.
Proof. intros L H x l Hl. destruct (H x l Hl) as (v & Hv). by apply (sl_var _ _ L) in Hv. Qed.
Lemma env_ok_le μ μ' ρ : store_le μ μ' -> env_ok μ ρ -> env_ok μ' ρ.
Proof.
  intros L. induction 1 as [|x l v ρ Hl _ IH|ρ _ IH|f ρ Hf _ IH]; [constructor| |by constructor|].
  - destruct (sl_var _ _ L _ _ _ Hl) as (v' & Hv'). by eapply eo_bind.
  - destruct (sl_frame _ _ L _ _ Hf) as (bs & Hf' & Hv). eapply eo_frame; [exact Hf'|]. by apply env_ok_extend.
Qed.
Lemma store_le_refl μ : store_le μ μ.
Proof. split; eauto. intros l ρ H. exists []. split; [done|]. intros x l' Hl. by apply elem_of_nil in Hl. Qed.
Lemma store_le_trans μ μ' μ'' : store_le μ μ' -> store_le μ' μ'' -> store_le μ μ''.
Proof.
  intros L L'. split.
  - intros l x v H. destruct (sl_var _ _ L _ _ _ H) as (v' & H'). by eapply (sl_var _ _ L').
  - intros l xs r bd ρ H. by apply (sl_clo _ _ L'), (sl_clo _ _ L).
  - intros l p n H. by apply (sl_prim _ _ L'), (sl_prim _ _ L).
  - intros l a d H. destruct (sl_pair _ _ L _ _ _ H) as (a' & d' & H'). by eapply (sl_pair _ _ L').
  - intros l ρ H. destruct (sl_frame _ _ L _ _ H) as (bs & H1 & V1). destruct (sl_frame _ _ L' _ _ H1) as (bs' & H2 & V2).
    exists (bs' ++ bs). split; [by rewrite extend_app|]. intros x l'. rewrite elem_of_app. intros [Hin|Hin]; [by apply V2|].
    destruct (V1 _ _ Hin) as (v & Hv). by apply (sl_var _ _ L') in Hv.
Qed.
Lemma no_vars μ : vars_in μ [].
Proof. intros x l Hl. by apply elem_of_nil in Hl. Qed.
Lemma store_le_new μ l o : μ !! l = None -> store_le μ (<[l := o]> μ).
Proof. intros Hl. split; intros l' **; rewrite lookup_insert_ne by congruence; eauto. exists []. split; [done|apply no_vars]. Qed.
Lemma store_le_var μ l x v w : μ !! l = Some (SVar x v) -> store_le μ (<[l := SVar x w]> μ).
Proof.
  intros Hl. split; intros l' **; destruct (decide (l' = l)) as [->|Hne]; try congruence; rewrite ?lookup_insert, ?lookup_insert_ne by done; eauto.
  - exists w. congruence.
  - exists []. split; [done|apply no_vars].
Qed.
Lemma store_le_pair μ l a d a' d' : μ !! l = Some (SPair a d) -> store_le μ (<[l := SPair a' d']> μ).
Proof.
  intros Hl. split; intros l' **; destruct (decide (l' = l)) as [->|Hne]; try congruence; rewrite ?lookup_insert, ?lookup_insert_ne by done; eauto.
  exists []. split; [done|apply no_vars].
Qed.
Lemma store_le_frame μ f x l v ρ : μ !! f = Some (SFrame ρ) -> μ !! l = Some (SVar x v) -> store_le μ (<[f := SFrame (EBind x l ρ)]> μ).
Proof.
  intros Hf Hl. split; intros l' **; destruct (decide (l' = f)) as [->|Hne]; try congruence; rewrite ?lookup_insert, ?lookup_insert_ne by done; eauto.
  - exists [(x, l)]. split; [cbn; congruence|]. intros y l0 [= -> ->]%elem_of_list_singleton. exists v. rewrite lookup_insert_ne by congruence. done.
  - exists []. split; [done|apply no_vars].
Qed.
Lemma store_ok_put μ l o : store_ok μ -> store_le μ (<[l := o]> μ) -> (forall xs r bd ρ, o = SClo xs r bd ρ -> env_ok μ ρ) -> store_ok (<[l := o]> μ).
Proof.
  intros [H HG] L Ho. split; [|by eapply vars_in_le]. intros l' xs r bd ρ Hl'. eapply env_ok_le; [exact L|].
  destruct (decide (l' = l)) as [->|Hne]; [rewrite lookup_insert in Hl'; injection Hl' as ->; by eapply Ho|].
  rewrite lookup_insert_ne in Hl' by done. by eapply H.
Qed.
Lemma store_ok_new μ l o : store_ok μ -> μ !! l = None -> (forall xs r bd ρ, o = SClo xs r bd ρ -> env_ok μ ρ) -> store_ok (<[l := o]> μ).
Proof. intros H Hl Ho. apply store_ok_put; [done|by apply store_le_new|done]. Qed.

(** * Running code *)
Definition wp {A} (m : M A) (s : state) (Q : A -> state -> Prop) : Prop := exists a s', m s = ROk a s' /\ Q a s'.
Lemma wp_ret {A} (a : A) s (Q : A -> state -> Prop) : Q a s -> wp (ret a) s Q.
Proof. intros H. by exists a, s. Qed.
Lemma wp_bind {A B} (m : M A) (k : A -> M B) s Q : wp m s (fun a s' => wp (k a) s' Q) -> wp (bind m k) s Q.
Proof. intros (a & s1 & E1 & b & s2 & E2 & H). exists b, s2. split; [|done]. by rewrite (bind_ok _ _ _ _ _ E1). Qed.
Lemma wp_gets {A} (g : state -> A) s (Q : A -> state -> Prop) : Q (g s) s -> wp (gets g) s Q.
Proof. intros H. by exists (g s), s. Qed.
Lemma wp_modify g s (Q : unit -> state -> Prop) : Q tt (g s) -> wp (modify g) s Q.
Proof. intros H. by exists tt, (g s). Qed.
Lemma wp_eq {A} (m : M A) s a s' (Q : A -> state -> Prop) : m s = ROk a s' -> Q a s' -> wp m s Q.
Proof. intros E H. by exists a, s'. Qed.
Lemma wp_mono {A} (m : M A) s (Q Q' : A -> state -> Prop) : wp m s Q -> (forall a s', Q a s' -> Q' a s') -> wp m s Q'.
Proof. intros (a & s' & E & H) HQ. exists a, s'. auto. Qed.

Section rules.
  Context (f : idmap) (M : mst) (s : state) (R : rep f M s).
  Lemma rep_eqc i x k : f i x -> cell_nil <= k <= cell_symbol_test -> (x =? k) = bool_decide (i = Imp k).
  Proof. intros Hi Hk. eapply rh_eq; [apply R|done|]. by eapply rep_const. Qed.
  Lemma rep_eqc' i x k : f i x -> cell_nil <= k <= cell_symbol_test -> (k =? x) = bool_decide (i = Imp k).
  Proof. rewrite Z.eqb_sym. apply rep_eqc. Qed.
  Lemma wp_rd i p t a d (Q : cell -> state -> Prop) : f i p -> m_heap M !! i = Some (OCell t a d) ->
    (forall c, c_ty c = t -> word_rel f a (c_car c) -> word_rel f d (c_cdr c) -> Q c s) -> wp (rd p) s Q.
  Proof.
    intros Hi Ho HQ. destruct (rh_cell _ _ _ _ _ _ _ _ (rp_heap _ _ _ R) Hi Ho) as (c & Hc & Ht & _ & Ha & Hd).
    exists c, s. split; [by unfold rd; rewrite Hc|by apply HQ].
  Qed.
  Lemma wp_ty i p t a d (Q : Z -> state -> Prop) : f i p -> m_heap M !! i = Some (OCell t a d) -> Q t s -> wp (ty p) s Q.
  Proof.
    intros Hi Ho HQ. destruct (rh_cell _ _ _ _ _ _ _ _ (rp_heap _ _ _ R) Hi Ho) as (c & Hc & Ht & _ & Ha & Hd).
    exists (c_ty c), s. split; [by apply ty_s|by rewrite Ht].
  Qed.
  Lemma wp_car_of i p t a d (Q : Z -> state -> Prop) : f i p -> m_heap M !! i = Some (OCell t (WId a) d) ->
    (forall x, f a x -> Q x s) -> wp (car_of p) s Q.
  Proof.
    intros Hi Ho HQ. destruct (rh_cell _ _ _ _ _ _ _ _ (rp_heap _ _ _ R) Hi Ho) as (c & Hc & Ht & _ & Ha & Hd).
    exists (c_car c), s. split; [by apply car_of_s|by apply HQ].
  Qed.
  Lemma wp_cdr_of i p t a d (Q : Z -> state -> Prop) : f i p -> m_heap M !! i = Some (OCell t a (WId d)) ->
    (forall x, f d x -> Q x s) -> wp (cdr_of p) s Q.
  Proof.
    intros Hi Ho HQ. destruct (rh_cell _ _ _ _ _ _ _ _ (rp_heap _ _ _ R) Hi Ho) as (c & Hc & Ht & _ & Ha & Hd).
    exists (c_cdr c), s. split; [by apply cdr_of_s|by apply HQ].
  Qed.
  Lemma wp_car i p a d (Q : Z -> state -> Prop) : f i p -> m_heap M !! i = Some (opair a d) ->
    (forall x, f a x -> Q x s) -> wp (DataModel.car p) s Q.
  Proof.
    intros Hi Ho HQ. destruct (rh_pair _ _ _ _ _ _ _ (rp_heap _ _ _ R) Hi Ho) as (pa & pd & Hp & Ha & Hd).
    exists pa, s. split; [by eapply car_pair|by apply HQ].
  Qed.
  Lemma wp_cdr i p a d (Q : Z -> state -> Prop) : f i p -> m_heap M !! i = Some (opair a d) ->
    (forall x, f d x -> Q x s) -> wp (DataModel.cdr p) s Q.
  Proof.
    intros Hi Ho HQ. destruct (rh_pair _ _ _ _ _ _ _ (rp_heap _ _ _ R) Hi Ho) as (pa & pd & Hp & Ha & Hd).
    exists pd, s. split; [by eapply cdr_pair|by apply HQ].
  Qed.
  Definition grows (f' : idmap) (s s' : state) : Prop :=
    (forall j p, f j p -> f' j p) /\ (forall k, can_alloc (k + 1) s -> can_alloc k s') /\ g_free s' = g_free s + 1
    /\ g_stack s' = g_stack s.
  Lemma wp_make_cell i t a d x y (Q : Z -> state -> Prop) : can_alloc 1 s -> m_heap M !! i = None ->
    cell_ok t a d -> word_rel f a x -> word_rel f d y ->
    (forall f' q s', grows f' s s' -> f' i q -> rep f' (new_obj i (OCell t a d) M) s' -> Q q s') -> wp (make_cell t x y) s Q.
  Proof.
    intros Ha Hi Hok Hx Hy HQ. destruct (rep_make_cell f M s i t a d x y R Ha Hi Hok Hx Hy) as [E R'].
    eexists _, _. split; [exact E|]. apply (HQ (add_id f i (g_free s))); [|by right|exact R']. split; [by left|]. split; [|split; [done|done]].
    intros k (A1 & A2 & A3). unfold can_alloc. cbn. lia.
  Qed.
  Lemma wp_cons i a d x y (Q : Z -> state -> Prop) : can_alloc 1 s -> m_heap M !! i = None ->
    f a x -> f d y ->
    (forall f' q s', grows f' s s' -> f' i q -> rep f' (new_obj i (opair a d) M) s' -> Q q s') -> wp (cons x y) s Q.
  Proof. intros. unfold cons. by apply (wp_make_cell i TPAIR (WId a) (WId d)). Qed.
  Definition pushed_cc (p1 p2 a c : id) : mst :=
    Mst (m_heap M) a p1 p2 (m_r3 M) (c :: p2 :: m_r1 M :: m_r0 M :: Imp cell_f :: m_stk M) (m_size M) (m_glob M).
  Lemma wp_push_cc p1 p2 a c x1 x2 xa xc (Q : unit -> state -> Prop) :
    Z.of_nat (length (m_stk M)) + 5 <= m_size M ->
    f p1 x1 -> f p2 x2 -> f a xa -> f c xc ->
    (forall s', rep f (pushed_cc p1 p2 a c) s' -> Q tt s') -> wp (push_cc x1 x2 xa xc) s Q.
  Proof.
    intros Hroom H1 H2 Ha Hc HQ. unfold push_cc.
    apply wp_bind, wp_gets. apply wp_bind, wp_modify. apply wp_bind, wp_modify.
    pose proof (rep_set_R2 _ _ _ _ _ (rep_set_R3 _ _ _ _ _ R Hc) H2) as R2'.
    assert (5 <= g_stack (set_R2 x2 (set_R3 xc s))) as Hg.
    { cbn. destruct (rp_size _ _ _ R). pose proof (rp_stack_size _ _ _ R). lia. }
    destruct (rep_push _ _ _ R2' Hg) as (E & R3' & _).
    apply wp_bind. eapply wp_eq; [exact E|].
    apply wp_bind, wp_modify. apply wp_bind, wp_modify. apply wp_modify. apply HQ.
    pose proof (rep_set_R1 _ _ _ _ _ R3' H1) as R4. pose proof (rep_set_R0 _ _ _ _ _ R4 Ha) as R5.
    exact (rep_set_R3 _ _ _ _ _ R5 (rp_r3 _ _ _ R)).
  Qed.
End rules.

(** * Comparisons with constants *)
Section const.
  Context (f : idmap) (M : mst) (s : state) (R : rep f M s).
  Lemma const_val k x : f (Imp k) x -> is_const k -> x = k.
  Proof. intros H Hk. eapply (rh_fun _ _ _ (rp_heap _ _ _ R)); [exact H|]. by eapply rep_const. Qed.
  Lemma neqc i x k : f i x -> is_const k -> i <> Imp k -> (x =? k) = false.
  Proof. intros H Hk Hne. rewrite (rep_eqc f M s R i) by done. by apply bool_decide_false. Qed.
  Lemma eqc i x k : f i x -> is_const k -> i = Imp k -> (x =? k) = true.
  Proof. intros H Hk ->. apply Z.eqb_eq. by apply const_val. Qed.
End const.
Lemma not_const σ k t a d : consts_ok σ -> σ !! Imp k = Some (OCell t a d) -> t <> TSPECIAL -> t <> TSYMBOL -> ~ is_const k.
Proof. intros C Ho H1 H2 Hk. destruct (cst_const _ _ C k Hk) as (t' & n & d' & Ho' & [->| ->] & _); congruence. Qed.
Lemma reserved_const k : k ∈ reserved -> is_const k.
Proof.
  intros H. assert (Forall (fun k => is_const k) reserved) as F. { repeat constructor; cbn; unfold cell_nil; vm_compute; congruence. }
  rewrite Forall_forall in F. by apply F.
Qed.
Lemma operator_id σ e i k : consts_ok σ -> operator e -> code_at σ e i -> k ∈ reserved -> i <> Imp k.
Proof.
  intros C Ho Hc Hk. pose proof (reserved_const _ Hk) as Hkc. destruct e; try done; inversion Hc; subst; intros ?; simplify_eq;
    repeat match goal with H : ilist _ _ (_ :: _) |- _ => inversion H; clear H; subst end; simplify_eq;
    first [match goal with H : name_ok _ _ |- _ => by apply H end
          |match goal with H : _ !! Imp k = Some _ |- _ => by eapply (not_const _ _ _ _ _ C H) end].
Qed.

(** * Lists *)
Inductive ml (σ : oheap) : id -> list id -> Prop :=
| ml_nil : ml σ (Imp cell_nil) []
| ml_cons i a d es : σ !! i = Some (opair a d) -> ml σ d es -> ml σ i (a :: es).
Lemma ilist_ml σ i es : ilist σ i es -> ml σ i es.
Proof. induction 1; econstructor; eauto. Qed.
Lemma alist_ml σ js vs i : alist_at σ js vs i -> exists es, ml σ i es /\ Forall2 (val_at σ) vs es.
Proof. induction 1 as [|? ? ? ? ? ? ? ? ? ? ? (es & IH & IH')]; eexists; split; econstructor; eauto. Qed.
Lemma codes_ml σ es i : codes_at σ es i -> exists is, ml σ i is /\ Forall2 (code_at σ) es is.
Proof. induction 1 as [|? ? ? ? ? ? ? ? (is & IH & IH')]; eexists; split; econstructor; eauto. Qed.
Lemma NoDup_range lo hi (ps : list Z) : NoDup ps -> Forall (fun q => lo <= q < hi) ps -> Z.of_nat (length ps) <= Z.max 0 (hi - lo).
Proof.
  intros Hn Hf. assert (length ps <= length (seqZ lo (hi - lo)))%nat as Hl.
  { apply submseteq_length. apply NoDup_submseteq; [done|]. intros x Hx. rewrite Forall_forall in Hf. apply Hf in Hx. apply elem_of_seqZ. lia. }
  rewrite seqZ_length in Hl. lia.
Qed.
Lemma nil_not_pair σ a d : consts_ok σ -> σ !! Imp cell_nil = Some (opair a d) -> False.
Proof. intros C H. eapply not_const; [exact C|exact H|done|done|]. unfold cell_nil. vm_compute. split; congruence. Qed.
Lemma ml_seg f M s i p es : rep f M s -> consts_ok (m_heap M) -> f i p -> ml (m_heap M) i es ->
  exists ps vs, seg (heap s) p cell_nil ps vs /\ Forall2 f es vs /\ Forall (fun q => 1 <= q < g_free s) ps.
Proof.
  intros R C Hp H. revert p Hp. induction H as [|i a d es Ho _ IH]; intros p Hp.
  - assert (p = cell_nil) as ->. { eapply const_val; [exact R|exact Hp|]. vm_compute; split; congruence. }
    exists [], []. repeat constructor.
  - destruct (rh_pair _ _ _ _ _ _ _ (rp_heap _ _ _ R) Hp Ho) as (pa & pd & Hpa & Ha & Hd).
    destruct (IH pd Hd) as (ps & vs & Hs & Hf & Hr). exists (p :: ps), (pa :: vs). split; [|split].
    + econstructor; [|done|done]. intros ->. assert (i = Imp cell_nil) as ->.
      { eapply (rh_inj _ _ _ (rp_heap _ _ _ R)); [exact Hp|]. eapply rep_const; [exact R|]. vm_compute; split; congruence. }
      by eapply nil_not_pair.
    + by constructor.
    + constructor; [|done]. pose proof (rep_range _ _ _ _ _ R Hp). lia.
Qed.
Lemma ml_list f M s i p es : rep f M s -> consts_ok (m_heap M) -> f i p -> ml (m_heap M) i es ->
  exists vs, list_at (heap s) p vs /\ Forall2 f es vs /\ Z.of_nat (length es) < g_free s.
Proof.
  intros R C Hp H. destruct (ml_seg _ _ _ _ _ _ R C Hp H) as (ps & vs & Hs & Hf & Hr). exists vs. split; [apply seg_list; by exists ps|].
  split; [done|]. pose proof (seg_nodup _ _ _ _ Hs) as Hn. pose proof (NoDup_range 1 (g_free s) ps Hn Hr). apply Forall2_length in Hf.
  pose proof (seg_length _ _ _ _ _ Hs). pose proof (rp_free _ _ _ R) as Hfr. unfold cell_nil in Hfr. lia.
Qed.
Lemma wp_length__ fuel f M s i p es (Q : Z -> state -> Prop) : rep f M s -> consts_ok (m_heap M) -> f i p -> ml (m_heap M) i es ->
  g_free s <= Z.of_nat fuel -> Q (Z.of_nat (length es)) s -> wp (length__ fuel p) s Q.
Proof.
  intros R C Hp H Hfuel HQ. destruct (ml_list _ _ _ _ _ _ R C Hp H) as (vs & Hl & Hf & Hlen). apply Forall2_length in Hf.
  eapply wp_eq; [apply (length__ok fuel p vs); [done|lia]|]. by rewrite <- Hf.
Qed.
(** the number of formals, or -1 if there is a rest formal *)
Lemma wp_length_names n : forall f M s xs r i p acc (Q : Z -> state -> Prop), rep f M s -> consts_ok (m_heap M) -> f i p -> names_at (m_heap M) xs r i ->
  (length xs < n)%nat -> Q (match r with None => acc + Z.of_nat (length xs) | Some _ => -1 end) s -> wp (length_loop n p acc) s Q.
Proof.
  induction n as [|n IH]; intros f M s xs r i p acc Q R C Hp Hn Hl HQ; [lia|]. cbn [length_loop]. inversion Hn as [|r' [(m & d & Ho & _) Hres]|x xs' r' k d Hx Ho Hd]; subst.
  - rewrite (eqc f M s R _ _ _ Hp) by (done || (vm_compute; split; congruence)). apply wp_ret. cbn in HQ. by rewrite Z.add_0_r in HQ.
  - rewrite (neqc f M s R _ _ _ Hp); [|vm_compute; split; congruence|].
    2:{ intros [= ->]. apply Hres. unfold reserved, hidden. cbn. set_solver. }
    apply wp_bind. eapply (wp_rd _ _ _ R _ _ _ _ _ _ Hp Ho). intros c Hc _ _. rewrite Hc. apply wp_ret. done.
  - rewrite (neqc f M s R _ _ _ Hp); [|vm_compute; split; congruence|intros [= ->]; by eapply nil_not_pair].
    apply wp_bind. eapply (wp_rd _ _ _ R _ _ _ _ _ _ Hp Ho). intros c Hc _ Hcd. rewrite Hc. cbn in Hl, HQ.
    change (TPAIR =? TPAIR) with true. cbv iota. eapply IH; [exact R|exact C|exact Hcd|exact Hd|lia|].
    destruct r; [done|]. replace (acc + 1 + Z.of_nat (length xs')) with (acc + Z.of_nat (S (length xs'))) by lia. done.
Qed.

(** * Arrays *)
Section arrays.
  Context (f : idmap) (M : mst) (s : state) (R : rep f M s).
  Lemma wp_rd_any i p o (Q : cell -> state -> Prop) : f i p -> m_heap M !! i = Some o ->
    (forall c, c_ty c = otype o -> Q c s) -> wp (rd p) s Q.
  Proof.
    intros Hi Ho HQ. destruct (rh_obj _ _ _ (rp_heap _ _ _ R) _ _ Hi) as (o' & Ho' & H). rewrite Ho in Ho'. injection Ho' as <-.
    destruct o as [t a d|t es|bs]; cbn in H; destruct H as (c & Hc & Ht & _); (exists c, s; split; [by unfold rd; rewrite Hc|by apply HQ]).
  Qed.
  Lemma wp_ty_any i p o (Q : Z -> state -> Prop) : f i p -> m_heap M !! i = Some o -> Q (otype o) s -> wp (ty p) s Q.
  Proof. intros Hi Ho HQ. unfold ty. apply wp_bind. eapply (wp_rd_any _ _ _ _ Hi Ho). intros c ->. by apply wp_ret. Qed.
  Lemma wp_arr_rd i p t es (Q : cell -> state -> Prop) : f i p -> m_heap M !! i = Some (OArr t es) ->
    (forall c, c_ty c = t -> c_car c = Z.of_nat (length es) ->
       (forall k w, es !! k = Some w -> exists e, heap s !! (c_cdr c + Z.of_nat k) = Some e /\ slot_rel f w e) -> Q c s) -> wp (rd p) s Q.
  Proof.
    intros Hi Ho HQ. destruct (rh_obj _ _ _ (rp_heap _ _ _ R) _ _ Hi) as (o & Ho' & H). rewrite Ho in Ho'. injection Ho' as <-.
    cbn in H. destruct H as (c & Hc & Ht & _ & Hl & He). exists c, s. split; [by unfold rd; rewrite Hc|by apply HQ].
  Qed.
  Lemma wp_arr_ty i p t es (Q : Z -> state -> Prop) : f i p -> m_heap M !! i = Some (OArr t es) -> Q t s -> wp (ty p) s Q.
  Proof.
    intros Hi Ho HQ. unfold ty. apply wp_bind. eapply (wp_arr_rd _ _ _ _ _ Hi Ho). intros c -> _ _. by apply wp_ret.
  Qed.
  Lemma wp_cell_bytes i p bs (Q : list Z -> state -> Prop) : f i p -> m_heap M !! i = Some (OBytes bs) -> Q bs s -> wp (cell_bytes p) s Q.
  Proof.
    intros Hi Ho HQ. destruct (rh_obj _ _ _ (rp_heap _ _ _ R) _ _ Hi) as (o & Ho' & H). rewrite Ho in Ho'. injection Ho' as <-.
    cbn in H. destruct H as (c & Hc & Ht & Hb & _). unfold cell_bytes. apply wp_bind. exists c, s. split; [by unfold rd; rewrite Hc|].
    rewrite Ht. change (TBYTES =? TBYTES) with true. apply wp_ret. by rewrite Hb.
  Qed.
  (** an element that is a reference to an object that is not a number or a character *)
  Lemma wp_get_entry_ref v e n i o (Q : Z -> state -> Prop) : heap s !! (v + Z.of_nat n) = Some e -> slot_rel f (ARef i) e ->
    m_heap M !! i = Some o -> otype o <> TCHAR -> otype o <> TNUMBER -> (forall q, f i q -> Q q s) -> wp (get_entry v (Z.of_nat n)) s Q.
  Proof.
    intros Hee [Ht Hf] Ho T1 T2 HQ. unfold get_entry, deref, cell_ref.
    apply wp_bind, wp_bind. exists e, s. split; [by unfold rd; rewrite Hee|]. rewrite Ht. change (TREF =? TREF) with true. cbv iota. apply wp_ret.
    apply wp_bind. eapply (wp_rd_any _ _ _ _ Hf Ho). intros c1 ->. rewrite (proj2 (Z.eqb_neq _ _) T1).
    apply wp_bind, wp_ret, wp_bind. eapply (wp_rd_any _ _ _ _ Hf Ho). intros c2 ->. rewrite (proj2 (Z.eqb_neq _ _) T2).
    apply wp_ret. by apply HQ.
  Qed.
  Lemma wp_struct_ref_id i p es n j o (Q : Z -> state -> Prop) : f i p -> m_heap M !! i = Some (OArr TSTRUCT es) ->
    es !! n = Some (ARef j) -> m_heap M !! j = Some o -> otype o <> TCHAR -> otype o <> TNUMBER -> (forall q, f j q -> Q q s) ->
    wp (struct_ref_ p (Z.of_nat n)) s Q.
  Proof.
    intros Hi Ho Hn Hj T1 T2 HQ. unfold struct_ref_. apply wp_bind. eapply (wp_arr_rd _ _ _ _ _ Hi Ho). intros c -> -> He.
    change (TSTRUCT =? TSTRUCT) with true. apply wp_bind, wp_ret.
    rewrite (proj2 (Z.ltb_lt _ _)) by (apply lookup_lt_Some in Hn; lia). apply wp_bind, wp_ret.
    destruct (He n _ Hn) as (e & Hee & Hs). by eapply wp_get_entry_ref.
  Qed.
  Lemma wp_vector_ref_id i p es n j o (Q : Z -> state -> Prop) : f i p -> m_heap M !! i = Some (OArr TVECTOR es) ->
    es !! n = Some (ARef j) -> m_heap M !! j = Some o -> otype o <> TCHAR -> otype o <> TNUMBER -> (forall q, f j q -> Q q s) ->
    wp (vector_ref_ p (Z.of_nat n)) s Q.
  Proof.
    intros Hi Ho Hn Hj T1 T2 HQ. unfold vector_ref_. apply wp_bind. eapply (wp_arr_rd _ _ _ _ _ Hi Ho). intros c -> -> He.
    change (TVECTOR =? TVECTOR) with true. apply wp_bind, wp_ret.
    rewrite (proj2 (Z.ltb_lt _ _)) by (apply lookup_lt_Some in Hn; lia). apply wp_bind, wp_ret.
    destruct (He n _ Hn) as (e & Hee & Hs). by eapply wp_get_entry_ref.
  Qed.
  (** an element that is a number *)
  Lemma wp_struct_ref_num i p es n m (Q : Z -> state -> Prop) : f i p -> m_heap M !! i = Some (OArr TSTRUCT es) ->
    es !! n = Some (ANum m) -> can_alloc 1 s ->
    (forall f' q k s', grows f f' s s' -> m_heap M !! Imp k = None -> f' (Imp k) q -> rep f' (new_obj (Imp k) (OCell TNUMBER (WInt 0) (WInt m)) M) s' -> Q q s') ->
    wp (struct_ref_ p (Z.of_nat n)) s Q.
  Proof.
    intros Hi Ho Hn Ha HQ. unfold struct_ref_. apply wp_bind. eapply (wp_arr_rd _ _ _ _ _ Hi Ho). intros c -> -> He.
    change (TSTRUCT =? TSTRUCT) with true. apply wp_bind, wp_ret.
    rewrite (proj2 (Z.ltb_lt _ _)) by (apply lookup_lt_Some in Hn; lia). apply wp_bind, wp_ret.
    destruct (He n _ Hn) as (e & Hee & Ht & Hf). cbn in Hf. unfold get_entry, deref, cell_ref.
    apply wp_bind, wp_bind. exists e, s. split; [by unfold rd; rewrite Hee|]. rewrite Ht. change (TNUMBER =? TREF) with false. cbv iota.
    apply wp_ret, wp_bind. exists e, s. split; [by unfold rd; rewrite Hee|]. rewrite Ht. change (TNUMBER =? TCHAR) with false. cbv iota.
    apply wp_bind, wp_ret, wp_bind. exists e, s. split; [by unfold rd; rewrite Hee|]. rewrite Ht. change (TNUMBER =? TNUMBER) with true. cbv iota.
    unfold make_number. destruct (fresh_imp (m_heap M)) as (k & Hk).
    eapply (wp_make_cell _ _ _ R (Imp k) TNUMBER (WInt 0) (WInt m)); [done|done|done|done|done|].
    intros f' q s' Gr Hq R'. by eapply (HQ f' q k s').
  Qed.
End arrays.

(** * Looking up variables *)
Lemma flist_ml σ i es : flist σ i es -> ml σ i es.
Proof. induction 1; econstructor; eauto. Qed.
(** an entry with key [y]; one with another key than [x] *)
Definition keyed (σ : oheap) (y : Z) (e : id) : Prop := exists w, σ !! e = Some (opair (Imp y) w).
Definition other (σ : oheap) (x : Z) (e : id) : Prop := exists y, keyed σ y e /\ y <> x.
Lemma keyed_sub σ σ' y e : σ ⊆ σ' -> keyed σ y e -> keyed σ' y e.
Proof. intros Hs (w & H). exists w. by eapply lookup_weaken. Qed.
Lemma other_sub σ σ' y e : σ ⊆ σ' -> other σ y e -> other σ' y e.
Proof. intros Hs (z & H & Hn). exists z. split; [by eapply keyed_sub|done]. Qed.
Lemma ml_sub σ σ' i es : σ ⊆ σ' -> ml σ i es -> ml σ' i es.
Proof. intros Hs. induction 1; econstructor; eauto. by eapply lookup_weaken. Qed.
Lemma reserved_hidden x : x ∉ reserved -> x ∉ hidden.
Proof. intros H Hx. apply H. unfold reserved. rewrite elem_of_app. by left. Qed.
Notation find_key n xp p := (find_loop n (fun a => b <- car_of a ;; k <- car_of b ;; ret (xp =? k)) car_of p).
Lemma wp_find_here n : forall f M s i p x xp pre e post (Q : Z -> state -> Prop), rep f M s -> consts_ok (m_heap M) -> f i p ->
  ml (m_heap M) i (pre ++ e :: post) -> (length pre < n)%nat -> f (Imp x) xp -> Forall (other (m_heap M) x) pre -> keyed (m_heap M) x e ->
  (forall r, f e r -> Q r s) -> wp (find_key n xp p) s Q.
Proof.
  induction n as [|n IH]; intros f M s i p x xp pre e post Q R C Hp Hl Hn Hx Ho He HQ; [lia|]. cbn [find_loop].
  assert (exists a d, m_heap M !! i = Some (opair a d)) as (a0 & d0 & Hi). { destruct pre; inversion Hl; subst; eauto. }
  rewrite (neqc f M s R _ _ _ Hp); [|vm_compute; split; congruence|intros ->; by eapply nil_not_pair].
  destruct pre as [|e0 pre]; cbn [app] in Hl; inversion Hl as [|? a d es Hi' Hl']; subst; rewrite Hi in Hi'; injection Hi' as <- <-.
  - destruct He as (w & He). apply wp_bind, wp_bind. eapply (wp_car_of _ _ _ R _ _ _ _ _ _ Hp Hi). intros b Hb.
    apply wp_bind. eapply (wp_car_of _ _ _ R _ _ _ _ _ _ Hb He). intros kk Hkk. apply wp_ret.
    rewrite (rh_eq _ _ _ _ _ _ _ (rp_heap _ _ _ R) Hx Hkk), bool_decide_true by done.
    eapply (wp_car_of _ _ _ R _ _ _ _ _ _ Hp Hi). done.
  - apply Forall_cons in Ho as [(y & (w & Hy) & Hne) Ho]. cbn in Hn.
    apply wp_bind, wp_bind. eapply (wp_car_of _ _ _ R _ _ _ _ _ _ Hp Hi). intros b Hb.
    apply wp_bind. eapply (wp_car_of _ _ _ R _ _ _ _ _ _ Hb Hy). intros kk Hkk. apply wp_ret.
    rewrite (rh_eq _ _ _ _ _ _ _ (rp_heap _ _ _ R) Hx Hkk), bool_decide_false by congruence.
    apply wp_bind. eapply (wp_cdr_of _ _ _ R _ _ _ _ _ _ Hp Hi). intros a' Ha'. eapply IH; try done. lia.
Qed.
Lemma wp_find_none n : forall f M s i p x xp es (Q : Z -> state -> Prop), rep f M s -> consts_ok (m_heap M) -> f i p ->
  ml (m_heap M) i es -> (length es <= n)%nat -> f (Imp x) xp -> Forall (other (m_heap M) x) es -> Q cell_f s -> wp (find_key n xp p) s Q.
Proof.
  induction n as [|n IH]; intros f M s i p x xp es Q R C Hp Hl Hn Hx Ho HQ; (inversion Hl as [|? a d es' Hi Hl']; subst; [
    assert (p = cell_nil) as -> by (eapply const_val; [exact R|exact Hp|vm_compute; split; congruence]); cbn [find_loop]; rewrite Z.eqb_refl; by apply wp_ret|]); cbn in Hn; [lia|].
  cbn [find_loop]. rewrite (neqc f M s R _ _ _ Hp); [|vm_compute; split; congruence|intros ->; by eapply nil_not_pair].
  apply Forall_cons in Ho as [(y & (w & Hy) & Hne) Ho].
  apply wp_bind, wp_bind. eapply (wp_car_of _ _ _ R _ _ _ _ _ _ Hp Hi). intros b Hb.
  apply wp_bind. eapply (wp_car_of _ _ _ R _ _ _ _ _ _ Hb Hy). intros kk Hkk. apply wp_ret.
  rewrite (rh_eq _ _ _ _ _ _ _ (rp_heap _ _ _ R) Hx Hkk), bool_decide_false by congruence.
  apply wp_bind. eapply (wp_cdr_of _ _ _ R _ _ _ _ _ _ Hp Hi). intros a' Ha'. eapply IH; try done. lia.
Qed.
Section assq.
  Context (fuel : nat) (f : idmap) (M : mst) (s : state) (R : rep f M s) (C : consts_ok (m_heap M)) (Hfuel : g_free s <= Z.of_nat fuel).
  Context (i : id) (p x xp : Z) (Hp : f i p) (Hx : f (Imp x) xp).
  Context (t : Z) (xa xd : word) (Hxo : m_heap M !! Imp x = Some (OCell t xa xd)) (Ht : t = TSYMBOL \/ t = TSPECIAL).
  Lemma wp_assq_here pre e post (Q : Z -> state -> Prop) : ml (m_heap M) i (pre ++ e :: post) -> Forall (other (m_heap M) x) pre ->
    keyed (m_heap M) x e -> (forall r, f e r -> Q r s) -> wp (assq fuel xp p) s Q.
  Proof using All.
    intros Hl Ho He HQ. destruct (ml_list _ _ _ _ _ _ R C Hp Hl) as (_ & _ & _ & Hlen). rewrite app_length in Hlen. cbn in Hlen.
    assert (exists a d, m_heap M !! i = Some (opair a d)) as (a & d & Hi). { destruct pre; inversion Hl; subst; eauto. }
    unfold assq. apply wp_bind. eapply (wp_ty _ _ _ R _ _ _ _ _ _ Hp Hi). change (negb (TPAIR =? TPAIR)) with false. cbv iota.
    apply wp_bind. eapply (wp_rd _ _ _ R _ _ _ _ _ _ Hx Hxo). intros c Hc _ _. rewrite Hc.
    assert ((t =? TSYMBOL) || (t =? TSPECIAL) = true) as -> by (by destruct Ht as [->| ->]).
    eapply wp_find_here; try done. lia.
  Qed.
  Lemma wp_assq_none es (Q : Z -> state -> Prop) : ml (m_heap M) i es -> Forall (other (m_heap M) x) es -> Q cell_f s -> wp (assq fuel xp p) s Q.
  Proof using All.
    intros Hl Ho HQ. destruct (ml_list _ _ _ _ _ _ R C Hp Hl) as (_ & _ & _ & Hlen).
    unfold assq. apply wp_bind. inversion Hl as [|? a d es' Hi Hl']; subst.
    - destruct (cst_const _ _ C cell_nil) as (t' & n & d & Hno & Ht' & _); [vm_compute; split; congruence|].
      eapply (wp_ty _ _ _ R _ _ _ _ _ _ Hp Hno). destruct Ht' as [->| ->]; by apply wp_ret.
    - eapply (wp_ty _ _ _ R _ _ _ _ _ _ Hp Hi). change (negb (TPAIR =? TPAIR)) with false. cbv iota.
      apply wp_bind. eapply (wp_rd _ _ _ R _ _ _ _ _ _ Hx Hxo). intros c Hc _ _. rewrite Hc.
      assert ((t =? TSYMBOL) || (t =? TSPECIAL) = true) as -> by (by destruct Ht as [->| ->]).
      eapply wp_find_none; try done. lia.
  Qed.
End assq.

(** the entries of an environment *)
Lemma env_entries rs μ σ ρ : store_at rs μ σ -> env_ok μ ρ -> forall i, env_at σ ρ i ->
  exists es, ml σ i es /\ forall x, x ∉ hidden -> forall l, finds (ge_vars GE) μ x ρ l ->
    (exists pre post, es = pre ++ Loc l :: post /\ Forall (other σ x) pre /\ keyed σ x (Loc l)) \/
    (lookup_var x (ge_vars GE) = Some l /\ Forall (other σ x) es).
Proof.
  intros S. induction 1 as [|y l v ρ Hl _ IH|ρ _ IH|fr ρ Hf _ IH]; intros i He; inversion He as [|? k e d key w Ho Ho' Hkey He'|? ? ? k d Ho He'|]; subst.
  - exists []. split; [constructor|]. intros x Hx l Hfi. inversion Hfi; subst. right. by split.
  - destruct (IH _ He') as (es & Hml & IHf). destruct (sa_obj _ _ _ S _ _ Hl) as (j & Hj & _).
    exists (Loc l :: es). split; [by econstructor|]. intros x Hx l0 Hfi. inversion Hfi as [|? ? ? ? Hne Hfi'| | |]; subst.
    + left. exists [], es. split; [done|]. split; [constructor|by exists j].
    + assert (other σ x (Loc l)) as Hot by (exists y; split; [by exists j|done]).
      destruct (IHf x Hx _ Hfi') as [(pre & post & -> & Hpre & Hk)|[Hg Hall]].
      * left. exists (Loc l :: pre), post. split; [done|]. split; [by constructor|done].
      * right. split; [done|by constructor].
  - destruct (IH _ He') as (es & Hml & IHf). exists (Imp e :: es). split; [by econstructor|]. intros x Hx l0 Hfi. inversion Hfi as [| |? ? Hfi'| |]; subst.
    assert (other σ x (Imp e)) as Hot by (exists key; split; [by exists w|congruence]).
    destruct (IHf x Hx _ Hfi') as [(pre & post & -> & Hpre & Hk)|[Hg Hall]].
    + left. exists (Imp e :: pre), post. split; [done|]. split; [by constructor|done].
    + right. split; [done|by constructor].
  - destruct (sa_obj _ _ _ S _ _ Hf) as (k & d & w & Hfo & Hko & Hd). destruct (IH _ Hd) as (es & Hml & IHf).
    exists (Key k :: es). split; [by econstructor|]. intros x Hx l0 Hfi. inversion Hfi as [| | |? ? ρ' Hf' Hfi'|]; subst. rewrite Hf in Hf'. injection Hf' as <-.
    assert (other σ x (Key k)) as Hot. { exists cell_closure. split; [by exists w|]. intros <-. apply Hx. unfold hidden. cbn. by left. }
    destruct (IHf x Hx _ Hfi') as [(pre & post & -> & Hpre & Hk)|[Hg Hall]].
    + left. exists (Key k :: pre), post. split; [done|]. split; [by constructor|done].
    + right. split; [done|by constructor].
Qed.
(** at most [k] cells have been used *)
Definition shrinks (k : Z) (s s' : state) : Prop :=
  (forall n, can_alloc (n + k) s -> can_alloc n s') /\ g_free s' <= g_free s + k.
Lemma shrinks_refl s : shrinks 0 s s.
Proof. split; [|lia]. intros n H. eapply can_alloc_le; [exact H|lia]. Qed.
(** the heap has more objects, but none that a program can change *)
Definition grown (σ σ' : oheap) : Prop := σ ⊆ σ' /\ forall l, σ' !! Loc l = σ !! Loc l.
Lemma grown_refl σ : grown σ σ.
Proof. by split. Qed.
Lemma grown_imp σ k o : σ !! Imp k = None -> grown σ (<[Imp k := o]> σ).
Proof. intros H. split; [by apply insert_subseteq|]. intros l. by rewrite lookup_insert_ne. Qed.
Lemma grown_ext σ σ' : grown σ σ' -> ext σ σ'.
Proof. intros [H _]. by apply ext_sub. Qed.
Lemma store_at_grown rs μ σ σ' : store_at rs μ σ -> grown σ σ' -> store_at rs μ σ'.
Proof. intros S Hg. eapply store_at_heap; [exact S|by apply grown_ext|apply Hg]. Qed.

Lemma wp_module_variable fuel f M s rs μ ρ i p x xp l (Q : Z -> state -> Prop) : rep f M s -> consts_ok (m_heap M) -> m_glob M !! 3%nat = Some (ge_module GE) -> f i p ->
  env_at (m_heap M) ρ i -> g_free s + 1 <= Z.of_nat fuel -> can_alloc 1 s -> f (Imp x) xp -> name_ok (m_heap M) x -> store_at rs μ (m_heap M) -> store_ok μ -> env_ok μ ρ ->
  finds (ge_vars GE) μ x ρ l ->
  (forall f' s' σ' r, rep f' (with_heap σ' M) s' -> (forall j q, f j q -> f' j q) -> grown (m_heap M) σ' -> shrinks 1 s s' ->
     f' (Loc l) r -> (r =? cell_f) = false -> (r =? cell_undefined) = false -> Q r s') ->
  wp (module_variable fuel p xp) s Q.
Proof.
  intros R C Hm Hp He Hfuel Ha Hx [(m & dd & Hxo & _) Hres] S So Eo Hfi HQ. destruct (env_entries _ _ _ _ S Eo _ He) as (es & Hml & Hfind).
  unfold module_variable. apply wp_bind. destruct (Hfind x (reserved_hidden _ Hres) l Hfi) as [(pre & post & -> & Hpre & Hk)|[Hg Hall]].
  - eapply (wp_assq_here fuel f M s R C ltac:(lia) i p x xp Hp Hx _ _ _ Hxo); [by left|exact Hml|exact Hpre|exact Hk|]. intros r Hr.
    rewrite (neqc f M s R _ _ cell_f Hr) by (done || (vm_compute; split; congruence)). apply wp_ret.
    apply (HQ f s (m_heap M)); [by destruct M|done|apply grown_refl| |done|..].
    + split; [|lia]. intros n Hn. eapply can_alloc_le; [exact Hn|lia].
    + eapply (neqc f M s R _ _ _ Hr); done || (vm_compute; split; congruence).
    + eapply (neqc f M s R _ _ _ Hr); done || (vm_compute; split; congruence).
  - eapply (wp_assq_none fuel f M s R C ltac:(lia) i p x xp Hp Hx _ _ _ Hxo); [by left|exact Hml|exact Hall|]. rewrite Z.eqb_refl.
    destruct (cst_globals _ _ C x l Hg) as (ms & ts & bs & t & b & nb & bi & size & n & nm & pre & post & [(M1 & M2 & M3) (T1 & T2 & T3 & T4) (V1 & V2) (N1 & N2 & N3) [Hs1 Hs2] Hb (B1 & B2)]).
    apply wp_bind, wp_gets.
    assert (f (ge_module GE) (M0 s)) as Hm0. { destruct (Forall2_lookup_l _ _ _ _ _ (rp_glob _ _ _ R) Hm) as (q & Hq & Hf). cbn in Hq. by injection Hq as <-. }
    apply wp_bind. change 5 with (Z.of_nat 5). eapply (wp_struct_ref_id _ _ _ R _ _ _ _ _ _ _ Hm0 M2 M3 T2); [done|done|]. intros tp Htp.
    unfold hashq_get_handle. apply wp_bind. change 3 with (Z.of_nat 3). eapply (wp_struct_ref_num _ _ _ R _ _ _ _ _ _ Htp T2 T3 Ha).
    intros f1 q k s1 (G1 & A1 & F1 & _) Hk Hq R1. set (M1' := new_obj _ _ _) in R1.
    assert (m_heap M ⊆ m_heap M1') as Sub by (by apply insert_subseteq).
    assert (forall j o, m_heap M !! j = Some o -> m_heap M1' !! j = Some o) as Up by (intros j o Hj; by eapply lookup_weaken).
    apply wp_bind. unfold cdr_of. apply wp_bind. eapply (wp_rd _ _ _ R1 _ _ _ _ _ _ Hq); [cbn; by rewrite lookup_insert|]. intros c _ _ Hcd. cbn in Hcd. apply wp_ret. rewrite Hcd.
    apply wp_bind. unfold hashq_. apply wp_bind. eapply (wp_rd _ _ _ R1 _ _ _ _ _ _ (G1 _ _ Hx) (Up _ _ N1)). intros cx Hcx _ Hxb. rewrite Hcx.
    change ((TSYMBOL =? TSPECIAL) || (TSYMBOL =? TSYMBOL)) with true. cbv iota.
    apply wp_bind. eapply (wp_cell_bytes _ _ _ R1 _ _ _ _ Hxb (Up _ _ N3)). eapply wp_eq; [by apply hash_cstring_ok|].
    set (h := name_hash nm mod size) in *. assert (0 <= h < size) as Hh by (apply Z.mod_pos_bound; lia).
    apply wp_bind. change 4 with (Z.of_nat 4). eapply (wp_struct_ref_id _ _ _ R1 _ _ _ _ _ _ _ (G1 _ _ Htp) (Up _ _ T2) T4 (Up _ _ V2)); [done|done|]. intros bp Hbp.
    assert (ml (m_heap M1') bi (pre ++ Loc l :: post)) as Hbl by (eapply ml_sub; [exact Sub|by apply flist_ml]).
    assert (exists a d, m_heap M1' !! bi = Some (opair a d)) as (a & d & Hbi). { destruct pre; inversion Hbl; subst; eauto. }
    apply wp_bind. assert (to_u32 h = Z.of_nat (Z.to_nat h)) as -> by (unfold to_u32, two32; rewrite Z.mod_small; lia).
    eapply (wp_vector_ref_id _ _ _ R1 _ _ _ _ _ _ _ Hbp (Up _ _ V2) Hb Hbi); [done|done|]. intros bkp Hbkp.
    assert (f1 (Imp cell_f) cell_f) as Hcf by (eapply rep_const; [exact R1|vm_compute; split; congruence]).
    destruct (cst_const _ _ C cell_f) as (t' & n' & d' & Hno & Ht' & _); [vm_compute; split; congruence|].
    apply wp_bind. eapply (wp_rd _ _ _ R1 _ _ _ _ _ _ Hcf (Up _ _ Hno)). intros c0 _ _ _.
    apply wp_bind. eapply (wp_ty _ _ _ R1 _ _ _ _ _ _ Hbkp Hbi). change (TPAIR =? TPAIR) with true. cbv iota.
    assert (consts_ok (m_heap M1')) as C1 by (eapply consts_ok_ext; [by apply ext_sub|done]).
    assert (keyed (m_heap M) x (Loc l) /\ Forall (other (m_heap M) x) pre) as [Kl Kp].
    { assert (forall y l', (y, l') ∈ ge_vars GE -> keyed (m_heap M) y (Loc l')) as Kv.
      { intros y l' Hin. destruct (so_global _ _ So y l' Hin) as (v & Hv). destruct (sa_obj _ _ _ S _ _ Hv) as (j & Hj & _). by exists j. }
      split.
      - apply Kv. clear -Hg. induction (ge_vars GE) as [|[y l'] gs IH]; [done|]. cbn in Hg. destruct (decide (x = y)) as [->|]; [injection Hg as ->; by left|right; auto].
      - eapply Forall_impl; [exact B2|]. intros e [(y & l' & -> & Hin & Hne)|(k' & y & w & -> & Hek & Hne)]; exists y; split; [by apply Kv|done|by exists w|done]. }
    eapply (wp_assq_here fuel f1 M1' s1 R1 C1 ltac:(lia) bi bkp x xp Hbkp (G1 _ _ Hx) _ _ _ (Up _ _ Hxo)); [by left|exact Hbl| | |].
    + eapply Forall_impl; [exact Kp|]. intros e He'. by eapply other_sub.
    + by eapply keyed_sub.
    + intros r Hr. apply (HQ f1 s1 (m_heap M1')); [done|done|by apply grown_imp| |done|..].
      * split; [|lia]. intros n0 Hn0. by apply A1.
      * eapply (neqc f1 _ s1 R1 _ _ _ Hr); done || (vm_compute; split; congruence).
      * eapply (neqc f1 _ s1 R1 _ _ _ Hr); done || (vm_compute; split; congruence).
Qed.

(** ** A name that has no variable *)
Lemma env_unbound rs μ σ ρ x : store_at rs μ σ -> env_ok μ ρ -> x ∉ hidden -> unbound (ge_missing GE) μ x ρ -> forall i, env_at σ ρ i ->
  exists es, ml σ i es /\ Forall (other σ x) es /\ x ∈ ge_missing GE.
Proof.
  intros S Eo Hx. induction Eo as [|y l v ρ Hl _ IH|ρ _ IH|fr ρ Hf _ IH]; intros Hu i He; inversion He as [|? k e d key w Ho Ho' Hkey He'|? ? ? k d Ho He'|]; subst; inversion Hu as [Hm|? ? ? Hne Hu'|? Hu'|? ρ' Hf' Hu']; subst.
  - exists []. split; [constructor|]. by split.
  - destruct (IH Hu' _ He') as (es & Hml & Hall & Hm). destruct (sa_obj _ _ _ S _ _ Hl) as (j & Hj & _).
    exists (Loc l :: es). split; [by econstructor|]. split; [|done]. constructor; [|done]. exists y. split; [by exists j|done].
  - destruct (IH Hu' _ He') as (es & Hml & Hall & Hm). exists (Imp e :: es). split; [by econstructor|]. split; [|done]. constructor; [|done]. exists key. split; [by exists w|congruence].
  - rewrite Hf in Hf'. injection Hf' as <-. destruct (sa_obj _ _ _ S _ _ Hf) as (k & d & w & Hfo & Hko & Hd). destruct (IH Hu' _ Hd) as (es & Hml & Hall & Hm).
    exists (Key k :: es). split; [by econstructor|]. split; [|done]. constructor; [|done]. exists cell_closure. split; [by exists w|]. intros <-. apply Hx. unfold hidden. cbn. by left.
Qed.
Lemma wp_module_variable_none fuel f M s rs μ ρ i p x xp (Q : Z -> state -> Prop) : rep f M s -> consts_ok (m_heap M) -> m_glob M !! 3%nat = Some (ge_module GE) -> f i p ->
  env_at (m_heap M) ρ i -> g_free s + 1 <= Z.of_nat fuel -> can_alloc 1 s -> f (Imp x) xp -> name_ok (m_heap M) x -> store_at rs μ (m_heap M) -> store_ok μ -> env_ok μ ρ ->
  unbound (ge_missing GE) μ x ρ ->
  (forall f' s' σ', rep f' (with_heap σ' M) s' -> (forall j q, f j q -> f' j q) -> grown (m_heap M) σ' -> shrinks 1 s s' -> Q cell_f s') ->
  wp (module_variable fuel p xp) s Q.
Proof.
  intros R C Hm Hp He Hfuel Ha Hx [(m & dd & Hxo & _) Hres] S So Eo Hu HQ. destruct (env_unbound _ _ _ _ _ S Eo (reserved_hidden _ Hres) Hu _ He) as (es & Hml & Hall & Hmi).
  unfold module_variable. apply wp_bind.
  eapply (wp_assq_none fuel f M s R C ltac:(lia) i p x xp Hp Hx _ _ _ Hxo); [by left|exact Hml|exact Hall|]. rewrite Z.eqb_refl.
  destruct (cst_missing _ _ C x Hmi) as (ms & ts & bs & t & b & nb & bi & size & n & nm & [(M1 & M2 & M3) (T1 & T2 & T3 & T4) (V1 & V2) (N1 & N2 & N3) [Hs1 Hs2] Hb HB]).
  apply wp_bind, wp_gets.
  assert (f (ge_module GE) (M0 s)) as Hm0. { destruct (Forall2_lookup_l _ _ _ _ _ (rp_glob _ _ _ R) Hm) as (q & Hq & Hf). cbn in Hq. by injection Hq as <-. }
  apply wp_bind. change 5 with (Z.of_nat 5). eapply (wp_struct_ref_id _ _ _ R _ _ _ _ _ _ _ Hm0 M2 M3 T2); [done|done|]. intros tp Htp.
  unfold hashq_get_handle. apply wp_bind. change 3 with (Z.of_nat 3). eapply (wp_struct_ref_num _ _ _ R _ _ _ _ _ _ Htp T2 T3 Ha).
  intros f1 q k s1 (G1 & A1 & F1 & _) Hk Hq R1. set (M1' := new_obj _ _ _) in R1.
  assert (m_heap M ⊆ m_heap M1') as Sub by (by apply insert_subseteq).
  assert (forall j o, m_heap M !! j = Some o -> m_heap M1' !! j = Some o) as Up by (intros j o Hj; by eapply lookup_weaken).
  apply wp_bind. unfold cdr_of. apply wp_bind. eapply (wp_rd _ _ _ R1 _ _ _ _ _ _ Hq); [cbn; by rewrite lookup_insert|]. intros c _ _ Hcd. cbn in Hcd. apply wp_ret. rewrite Hcd.
  apply wp_bind. unfold hashq_. apply wp_bind. eapply (wp_rd _ _ _ R1 _ _ _ _ _ _ (G1 _ _ Hx) (Up _ _ N1)). intros cx Hcx _ Hxb. rewrite Hcx.
  change ((TSYMBOL =? TSPECIAL) || (TSYMBOL =? TSYMBOL)) with true. cbv iota.
  apply wp_bind. eapply (wp_cell_bytes _ _ _ R1 _ _ _ _ Hxb (Up _ _ N3)). eapply wp_eq; [by apply hash_cstring_ok|].
  set (h := name_hash nm mod size) in *. assert (0 <= h < size) as Hh by (apply Z.mod_pos_bound; lia).
  apply wp_bind. change 4 with (Z.of_nat 4). eapply (wp_struct_ref_id _ _ _ R1 _ _ _ _ _ _ _ (G1 _ _ Htp) (Up _ _ T2) T4 (Up _ _ V2)); [done|done|]. intros bp Hbp.
  assert (exists o, m_heap M !! bi = Some o /\ otype o <> TCHAR /\ otype o <> TNUMBER) as (o & Hio & O1 & O2).
  { destruct HB as [(o & _ & Ho & _ & O1 & O2)|(es' & Hne & Hfl & _)]; [by exists o|]. inversion Hfl; subst; [done|]. eexists; (split; [done|done]). }
  apply wp_bind. assert (to_u32 h = Z.of_nat (Z.to_nat h)) as -> by (unfold to_u32, two32; rewrite Z.mod_small; lia).
  eapply (wp_vector_ref_id _ _ _ R1 _ _ _ _ _ _ _ Hbp (Up _ _ V2) Hb (Up _ _ Hio)); [done|done|]. intros bkp Hbkp.
  assert (f1 (Imp cell_f) cell_f) as Hcf by (eapply rep_const; [exact R1|vm_compute; split; congruence]).
  destruct (cst_const _ _ C cell_f) as (t' & n' & d' & Hno & Ht' & _); [vm_compute; split; congruence|].
  apply wp_bind. eapply (wp_rd _ _ _ R1 _ _ _ _ _ _ Hcf (Up _ _ Hno)). intros c0 Hc0 _ _. rewrite Hc0.
  assert (t' =? TPAIR = false) as Et by (by destruct Ht' as [->| ->]).
  apply wp_bind. eapply (wp_ty_any _ _ _ R1 _ _ _ _ Hbkp (Up _ _ Hio)).
  assert (consts_ok (m_heap M1')) as C1 by (eapply consts_ok_ext; [by apply ext_sub|done]).
  assert (Q cell_f s1) as HQ1.
  { apply (HQ f1 s1 (m_heap M1')); [done|done|by apply grown_imp|]. split; [|lia]. intros n0 Hn0. by apply A1. }
  destruct HB as [(o' & _ & Ho & O3 & _)|(es' & Hne & Hfl & Hsk)].
  - rewrite Hio in Ho. injection Ho as <-. rewrite (proj2 (Z.eqb_neq _ _) O3), Et. by apply wp_ret.
  - assert (otype o = TPAIR) as ->. { inversion Hfl; subst; simplify_eq; done. }
    change (TPAIR =? TPAIR) with true. cbv iota.
    eapply (wp_assq_none fuel f1 M1' s1 R1 C1 ltac:(lia) bi bkp x xp Hbkp (G1 _ _ Hx) _ _ _ (Up _ _ Hxo)); [by left|eapply ml_sub; [exact Sub|by apply flist_ml]| |exact HQ1].
    eapply Forall_impl; [exact Hsk|]. intros e [(y & l' & -> & Hin & Hny)|(k' & y & w & -> & Hek & Hny)].
    + destruct (so_global _ _ So y l' Hin) as (v & Hv). destruct (sa_obj _ _ _ S _ _ Hv) as (j & Hj & _).
      eapply other_sub; [exact Sub|]. exists y. split; [by exists j|done].
    + eapply other_sub; [exact Sub|]. exists y. split; [by exists w|done].
Qed.
End globals.
