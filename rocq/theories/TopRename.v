(** Objects keep their meaning when the text around them is changed or gets new names. *)
From stdpp Require Import base gmap list fin_maps.
From Coq Require Import ZArith Lia.
From Coq Require Import ZifyBool ZifyNat.
From Verif Require Import CInt Symbols Heap HeapLemmas GcModel GcSpec DataModel DataSpec DataLemmas CoreProofs StackModel.
From Verif Require Import EvalModel Rep RepProofs EvalSpec EvalRep EvalLemmas TopSpec TopRep.
Open Scope Z_scope. Open Scope mes_scope.

Definition mw (π : id -> id) (w : word) : word := match w with WId i => WId (π i) | WInt n => WInt n end.
Definition msl (π : id -> id) (w : aslot) : aslot := match w with ARef i => ARef (π i) | _ => w end.
Definition mo (π : id -> id) (o : obj) : obj :=
  match o with OCell t a d => OCell t (mw π a) (mw π d) | OArr t es => OArr t (map (msl π) es) | OBytes bs => OBytes bs end.
Definition mentions (o : obj) (i : id) : Prop :=
  match o with OCell _ a d => a = WId i \/ d = WId i | OArr _ es => ARef i ∈ es | OBytes _ => False end.
Lemma mo_id o : mo (fun i => i) o = o.
Proof.
  destruct o as [t a d|t es|bs]; cbn; [by destruct a, d| |done]. f_equal. induction es as [|e es IH]; [done|]. cbn. rewrite IH. by destruct e.
Qed.

Record morph (π : id -> id) (σ σ' : oheap) : Prop := {
  mp_imp : forall k o, σ !! Imp k = Some o -> π (Imp k) = Imp k /\ σ' !! Imp k = Some (mo π o);
  mp_ref : forall i o k, σ !! i = Some o -> mentions o (Imp k) -> π (Imp k) = Imp k;
  mp_loc : forall l, π (Loc l) = Loc l;
  mp_key : forall k, π (Key k) = Key k;
  mp_keys : forall k w, σ !! Key k = Some (opair (Imp cell_closure) w) -> exists w', σ' !! Key k = Some (opair (Imp cell_closure) w');
  mp_const : forall k, is_const k -> π (Imp k) = Imp k }.

Ltac kc := (vm_compute; split; congruence).
Section morph.
  Context (π : id -> id) (σ σ' : oheap) (E : morph π σ σ').
  Lemma m_nil : π (Imp cell_nil) = Imp cell_nil.
  Proof. apply E. kc. Qed.
  Lemma m_obj k o : σ !! Imp k = Some o -> σ' !! Imp k = Some (mo π o).
  Proof. apply E. Qed.
  Lemma m_fix k o : σ !! Imp k = Some o -> π (Imp k) = Imp k.
  Proof. apply E. Qed.
  Lemma m_pair k a d : σ !! Imp k = Some (opair a d) -> σ' !! Imp k = Some (opair (π a) (π d)).
  Proof. apply E. Qed.
  Lemma m_car i k t d : σ !! i = Some (OCell t (WId (Imp k)) d) -> π (Imp k) = Imp k.
  Proof. intros H. eapply mp_ref; [exact E|exact H|by left]. Qed.
  Lemma m_cdr i k t a : σ !! i = Some (OCell t a (WId (Imp k))) -> π (Imp k) = Imp k.
  Proof. intros H. eapply mp_ref; [exact E|exact H|by right]. Qed.
  Lemma name_ok_m x : name_ok σ x -> name_ok σ' x /\ π (Imp x) = Imp x.
  Proof.
    intros [(n & d & H & Hn) Hr]. split; [|by eapply m_fix]. split; [|done]. exists n, (mw π d). split; [by apply m_obj in H|done].
  Qed.
  Lemma val_at_m v i : val_at σ v i -> val_at σ' v i /\ π i = i.
  Proof.
    destruct v; cbn; [intros [[k ->] H]|intros [[k ->] H]|intros [-> (o & H & Ha)]|intros [-> (a & d & H)]|intros ->].
    - split; [|by eapply m_fix]. split; [by exists k|by apply m_obj in H].
    - split; [|by eapply m_fix]. split; [by exists k|by apply m_obj in H].
    - split; [|by eapply m_fix]. split; [done|]. exists (mo π o). split; [by apply m_obj|by destruct o].
    - split; [|by eapply m_fix]. split; [done|]. exists (mw π a), (mw π d). by apply m_obj in H.
    - split; [done|apply E].
  Qed.
  Lemma names_at_m xs r i : names_at σ xs r i -> names_at σ' xs r i /\ π i = i.
  Proof.
    induction 1 as [|r Hr|x xs r k d Hx Hk _ [IH Ed]].
    - split; [constructor|apply m_nil].
    - destruct (name_ok_m _ Hr). split; [by constructor|done].
    - destruct (name_ok_m _ Hx) as [Hx' Ex]. split; [|by eapply m_fix]. apply m_pair in Hk. rewrite Ex, Ed in Hk. by econstructor.
  Qed.
  Lemma ilist_m i es : ilist σ i es -> ilist σ' i (map π es) /\ π i = i.
  Proof.
    induction 1 as [|k a d es Hk _ [IH Ed]].
    - split; [constructor|apply m_nil].
    - split; [|by eapply m_fix]. apply m_pair in Hk. rewrite Ed in Hk. cbn. by econstructor.
  Qed.
  Lemma self_m o : self_evaluating o -> self_evaluating (mo π o).
  Proof. destruct o as [t a d| |]; cbn; try done. intros [H Hn]. split; [done|]. by destruct a. Qed.
  Lemma variable_m k l : σ !! Imp k = Some (OCell TVARIABLE (WId (Loc l)) (WInt 0)) -> σ' !! Imp k = Some (OCell TVARIABLE (WId (Loc l)) (WInt 0)).
  Proof. intros H. apply m_obj in H. cbn in H. by rewrite (mp_loc _ _ _ E) in H. Qed.
  Ltac ils := repeat match goal with
    | H : ilist σ _ _ |- _ => let Ei := fresh "Ei" in apply ilist_m in H as [H Ei]; cbn [map] in H
    | H : name_ok σ _ |- _ => let Ei := fresh "En" in apply name_ok_m in H as [H Ei]
    | H : names_at σ _ _ _ |- _ => let Ei := fresh "En" in apply names_at_m in H as [H Ei]
    | H : val_at σ _ _ |- _ => let Ei := fresh "Ev" in apply val_at_m in H as [H Ei]
    | H : code_at σ' _ _ /\ _ |- _ => let Ei := fresh "Ec" in destruct H as [H Ei]
    | H : codes_at σ' _ _ /\ _ |- _ => let Ei := fresh "Ec" in destruct H as [H Ei]
    end.
  Lemma code_codes_m : (forall e i, code_at σ e i -> code_at σ' e i /\ π i = i) /\ (forall es i, codes_at σ es i -> codes_at σ' es i /\ π i = i).
  Proof.
    apply code_codes_ind.
    - intros v k o Hv Ho Hs. ils. split; [|done]. econstructor; [done|by apply m_obj|by apply self_m].
    - intros v i a Hi Hv. ils. rewrite Ev, (mp_const _ _ _ E) in Hi by kc. split; [by econstructor|done].
    - intros x Hx. ils. split; [by constructor|done].
    - intros l k Hk. split; [constructor; by apply variable_m|by eapply m_fix].
    - intros c t e i ic it ie Hi _ IHc _ IHt _ IHe. ils. rewrite Ec, Ec0, Ec1, (mp_const _ _ _ E) in Hi by kc. split; [by econstructor|done].
    - intros c t i ic it Hi _ IHc _ IHt. ils. rewrite Ec, Ec0, (mp_const _ _ _ E) in Hi by kc. split; [by econstructor|done].
    - intros xs r bd k k' fm b Hk Hk' Hn _ IH. ils. split; [|by eapply m_fix]. pose proof (m_fix _ _ Hk') as E'. apply m_pair in Hk, Hk'.
      rewrite (mp_const _ _ _ E), E' in Hk by kc. rewrite En, Ec in Hk'. by econstructor.
    - intros x e i ie Hi Hx _ IH. ils. rewrite En, Ec, (mp_const _ _ _ E) in Hi by kc. split; [by econstructor|done].
    - intros l e i k ie Hi Hk _ IH. ils. rewrite (m_fix _ _ Hk), Ec, (mp_const _ _ _ E) in Hi by kc. split; [|done]. econstructor; [exact Hi|by apply variable_m|done].
    - intros x e i ie Hi Hx _ IH. ils. rewrite En, Ec, (mp_const _ _ _ E) in Hi by kc. split; [by econstructor|done].
    - intros x xs r bd k k' k2 fm b Hk Hk' Hk2 Hx Hn _ IH. ils. split; [|by eapply m_fix].
      pose proof (m_fix _ _ Hk') as E'. pose proof (m_fix _ _ Hk2) as E2. apply m_pair in Hk, Hk', Hk2.
      rewrite (mp_const _ _ _ E), E' in Hk by kc. rewrite E2, Ec in Hk'. rewrite En, En0 in Hk2. by econstructor.
    - intros es k b Hk _ IH. ils. split; [|by eapply m_fix]. apply m_pair in Hk. rewrite (mp_const _ _ _ E), Ec in Hk by kc. by econstructor.
    - intros f es k i b Ho Hk _ IH _ IH'. ils. split; [|by eapply m_fix]. apply m_pair in Hk. rewrite Ec, Ec0 in Hk. by econstructor.
    - split; [constructor|apply m_nil].
    - intros e es k i d Hk _ IH _ IH'. ils. split; [|by eapply m_fix]. apply m_pair in Hk. rewrite Ec, Ec0 in Hk. by econstructor.
  Qed.
  Lemma code_at_m e i : code_at σ e i -> code_at σ' e i.
  Proof. apply code_codes_m. Qed.
  Lemma codes_at_m es i : codes_at σ es i -> codes_at σ' es i /\ π i = i.
  Proof. apply code_codes_m. Qed.
  Lemma hidden_const k : k ∈ hidden -> is_const k.
  Proof. intros H. apply reserved_const. unfold reserved. apply elem_of_app. by left. Qed.
  Lemma env_at_m ρ i : env_at σ ρ i -> env_at σ' ρ i /\ π i = i.
  Proof.
    induction 1 as [|ρ k e d key w Hk He Hh _ [IH Ed]|x l ρ k d Hk _ [IH Ed]|f].
    - split; [constructor|apply m_nil].
    - split; [|by eapply m_fix]. pose proof (m_fix _ _ He) as E'. apply m_pair in Hk, He. rewrite E', Ed in Hk.
      rewrite (mp_const _ _ _ E) in He by by apply hidden_const. by eapply env_hide.
    - split; [|by eapply m_fix]. apply m_pair in Hk. rewrite (mp_loc _ _ _ E), Ed in Hk. by eapply env_bind.
    - split; [constructor|apply E].
  Qed.
  Lemma sobj_at_m o l : σ' !! Loc l = mo π <$> σ !! Loc l -> sobj_at σ o (Loc l) -> sobj_at σ' o (Loc l).
  Proof.
    intros El. destruct o as [x v|a d|xs r bd ρ|p n|ρ|vs]; cbn.
    - intros (j & H & Hv). apply val_at_m in Hv as [Hv Ej]. exists j. split; [|done]. rewrite El, H. cbn. unfold opair. by rewrite (m_car _ _ _ _ H), Ej.
    - intros (j & j' & H & Hv & Hv'). apply val_at_m in Hv as [Hv Ej]. apply val_at_m in Hv' as [Hv' Ej']. exists j, j'. split; [|done].
      rewrite El, H. cbn. unfold opair. by rewrite Ej, Ej'.
    - intros (k & c & e & a & fm & b & H & H1 & H2 & H3 & H4 & H5 & H6). exists k, c, e, a, fm, b.
      rewrite El, H. cbn. rewrite (m_cdr _ _ _ _ H). split; [done|].
      pose proof (m_fix _ _ H2) as E2. pose proof (m_fix _ _ H4) as E4. apply m_pair in H1, H2, H4. rewrite E2, E4 in H1.
      apply env_at_m in H3 as [H3 E3]. apply names_at_m in H5 as [H5 E5]. apply codes_at_m in H6 as [H6 E6].
      rewrite (mp_const _ _ _ E), E3 in H2 by kc. rewrite E5, E6 in H4. done.
    - intros (es & H & H2 & H4 & H5). exists (map (msl π) es). rewrite El, H. split; [done|].
      rewrite !list_lookup_fmap, H2, H4, H5. cbn. rewrite (mp_const _ _ _ E) by kc. done.
    - intros (k & d & w & H & H1 & H2). destruct (mp_keys _ _ _ E _ _ H1) as (w' & H1'). apply env_at_m in H2 as [H2 E2]. exists k, d, w'.
      rewrite El, H. cbn. rewrite (mp_key _ _ _ E), E2. done.
    - intros (es & H & Hs). exists (map (msl π) es). rewrite El, H. split; [done|]. clear -E Hs. induction Hs as [|v e vs es Hv _ IH]; [constructor|]. cbn. constructor; [|exact IH].
      destruct v; try (cbn in Hv |- *; by subst); (destruct Hv as (j & -> & Hv); apply val_at_m in Hv as [Hv Ej]; exists j; cbn [msl]; rewrite Ej; split; [done|exact Hv]).
  Qed.
  Lemma store_at_m rs μ : (forall l, σ' !! Loc l = mo π <$> σ !! Loc l) -> store_at rs μ σ -> store_at rs μ σ'.
  Proof.
    intros El [H1 H2]. split; [intros l o Ho; by apply sobj_at_m; [|apply H1]|]. intros l Hl Hr. by rewrite El, H2.
  Qed.
  Lemma names_tree_m xs r t : names_tree σ xs r t -> names_tree σ' xs r t.
  Proof. induction 1; constructor; try done; by apply name_ok_m. Qed.
  Scheme parse_mut := Minimality for parse Sort Prop with parses_mut := Minimality for parses Sort Prop.
  Combined Scheme parse_parses_ind from parse_mut, parses_mut.
  Lemma parse_parses_m : (forall e t, parse σ e t -> parse σ' e t) /\ (forall es t, parses σ es t -> parses σ' es t).
  Proof.
    apply parse_parses_ind; intros; try by (econstructor; eauto using names_tree_m; try by apply name_ok_m).
    - econstructor; [by apply val_at_m|by apply m_obj|by apply self_m|done].
    - econstructor. by apply val_at_m.
    - econstructor. by apply variable_m.
  Qed.
  Lemma parse_m e t : parse σ e t -> parse σ' e t.
  Proof. apply parse_parses_m. Qed.
  Lemma parses_m es t : parses σ es t -> parses σ' es t.
  Proof. apply parse_parses_m. Qed.
  Lemma symbol_m k : is_const k \/ (exists o, σ !! Imp k = Some o) -> π (Imp k) = Imp k.
  Proof. intros [H|[o H]]; [by apply E|by eapply m_fix]. Qed.

  Lemma skips_m gs x e : skips gs σ x e -> skips gs σ' x e /\ π e = e.
  Proof.
    intros [(y & l & -> & H)|(k & y & w & -> & H & Hn)].
    - split; [|apply E]. left. by exists y, l.
    - split; [|by eapply m_fix]. right. exists k, y, (π w). split; [done|]. split; [|done]. pose proof (m_car _ _ _ _ H) as Ey. apply m_pair in H. by rewrite Ey in H.
  Qed.
  Lemma skips_all_m gs x es : Forall (skips gs σ x) es -> Forall (skips gs σ' x) es /\ map π es = es.
  Proof. induction 1 as [|e es He _ [IH IH']]; [done|]. apply skips_m in He as [He Ee]. split; [by constructor|]. cbn. by rewrite Ee, IH'. Qed.
  Lemma bucket_of_m size x h : bucket_of σ size x h -> bucket_of σ' size x h.
  Proof.
    intros (n & nb & nm & H1 & H2 & H3). exists n, nb, nm. pose proof (m_fix _ _ H2) as E2. apply m_obj in H1, H2. cbn in H1. by rewrite E2 in H1.
  Qed.
  Lemma bucket_without_m gs x i : bucket_without gs σ x i -> bucket_without gs σ' x i /\ π i = i.
  Proof.
    intros [(k & o & -> & H & Ht)|(es & H & Hn & Hs)].
    - split; [|by eapply m_fix]. left. exists k, (mo π o). split; [done|]. split; [by apply m_obj|by destruct o].
    - apply ilist_m in H as [H Ei]. split; [|done]. apply skips_all_m in Hs as [Hs Es]. rewrite Es in H. right. by exists es.
  Qed.
  Lemma bucket_with_m gs x l i : bucket_with gs σ x l i -> bucket_with gs σ' x l i /\ π i = i.
  Proof.
    intros (pre & post & H & Hs). apply ilist_m in H as [H Ei]. split; [|done]. apply skips_all_m in Hs as [Hs Es].
    rewrite map_app, Es in H. cbn in H. rewrite (mp_loc _ _ _ E) in H. by exists pre, (map π post).
  Qed.
  Lemma table_at_m t size v : table_at σ t size v -> table_at σ' t size (π v).
  Proof.
    intros (ts & H & H3 & H4 & Hs). exists (map (msl π) ts). split; [by apply m_obj in H|]. rewrite !list_lookup_fmap, H3, H4. done.
  Qed.
  Lemma no_macro_m m x : no_macro m σ x -> no_macro m σ' x.
  Proof.
    intros (size & v & bs & h & i & Ht & Hv & Hb & Hh & Hw). apply table_at_m in Ht. rewrite (m_fix _ _ Hv) in Ht. apply m_obj in Hv.
    apply bucket_without_m in Hw as [Hw Ei]. exists size, v, (map (msl π) bs), h, i. split; [done|]. split; [done|]. split; [by apply bucket_of_m|].
    split; [|done]. rewrite list_lookup_fmap, Hh. cbn. by rewrite Ei.
  Qed.
  Lemma symbol_back x : symbol σ x -> symbol σ' x.
  Proof. intros (a & d & H). apply m_obj in H. by eexists _, _. Qed.
  Lemma top_env_m ρ i : top_env σ ρ i -> top_env σ' ρ i.
  Proof.
    intros (He & Hh & k & e & d & key & w & -> & H1 & H2 & Hk). split; [by apply env_at_m|]. split; [done|].
    exists k, e, (π d), key, (π w). split; [done|]. pose proof (m_car _ _ _ _ H1) as E1. pose proof (m_car _ _ _ _ H2) as E2. apply m_pair in H1, H2.
    rewrite E1 in H1. rewrite E2 in H2. done.
  Qed.
  Lemma globals_at_m T xs gs bs : σ' !! Txt (tb_vector T) = Some (OArr TVECTOR (map (msl π) bs)) -> π (Txt (tb_vector T)) = Txt (tb_vector T) ->
    globals_at T xs gs σ bs -> globals_at T xs gs σ' (map (msl π) bs).
  Proof.
    intros Hv Ev [(ms & M1 & M2) Ht Hv0 Hb]. split.
    - exists (map (msl π) ms). split; [by apply m_obj in M1|]. rewrite list_lookup_fmap, M2. cbn. destruct Ht as (ts & Ht & _). by rewrite (m_fix _ _ Ht).
    - apply table_at_m in Ht. by rewrite Ev in Ht.
    - done.
    - intros x Hx. destruct (Hb x Hx) as (h & i & H1 & H2 & H3). exists h, i. split; [by apply bucket_of_m|]. rewrite list_lookup_fmap, H2. cbn.
      destruct (lookup_var x gs); [apply bucket_with_m in H3 as [H3 E3]|apply bucket_without_m in H3 as [H3 E3]]; by rewrite E3.
  Qed.
  Lemma consts_m m : consts_ok (Genv m []) σ -> consts_ok (Genv m []) σ'.
  Proof.
    intros C. split; [|done|intros x Hx; by apply elem_of_nil in Hx]. intros k Hk. destruct (cst_const _ _ C k Hk) as (t & n & d & H & Ht). exists t, n, (mw π d). split; [by apply m_obj in H|done].
  Qed.
End morph.

(** ** The heap gets more objects, and text changes *)
Record ext0 (σ σ' : oheap) : Prop := {
  e0_imp : forall k o, σ !! Imp k = Some o -> σ' !! Imp k = Some o;
  e0_key : forall k w, σ !! Key k = Some (opair (Imp cell_closure) w) -> exists w', σ' !! Key k = Some (opair (Imp cell_closure) w') }.
Lemma ext0_morph σ σ' : ext0 σ σ' -> morph (fun i => i) σ σ'.
Proof. intros [H1 H2]. split; try done. intros k o H. rewrite mo_id. auto. Qed.
Lemma ext_ext0 σ σ' : ext σ σ' -> ext0 σ σ'.
Proof. intros [H1 H2]. split; [|done]. intros k o. by apply (H1 (Imp k)). Qed.
Lemma ext0_refl σ : ext0 σ σ.
Proof. by apply ext_ext0. Qed.
Lemma ext0_trans σ σ' σ'' : ext0 σ σ' -> ext0 σ' σ'' -> ext0 σ σ''.
Proof. intros [H1 K1] [H2 K2]. split; [auto|]. intros k w H. destruct (K1 k w H) as (w' & H'). by apply (K2 k w'). Qed.
Lemma map_msl_id bs : map (msl (fun i => i)) bs = bs.
Proof. pose proof (mo_id (OArr 0 bs)) as H. cbn in H. congruence. Qed.
Lemma globals_at_ext0 T xs gs σ σ' bs : ext0 σ σ' -> σ' !! Txt (tb_vector T) = σ !! Txt (tb_vector T) -> globals_at T xs gs σ bs -> globals_at T xs gs σ' bs.
Proof.
  intros E Ev G. rewrite <- (map_msl_id bs). eapply globals_at_m; [by apply ext0_morph| |done|done]. rewrite Ev, map_msl_id. by apply G.
Qed.
Lemma store_at_ext0 rs μ σ σ' : ext0 σ σ' -> (forall l, σ' !! Loc l = σ !! Loc l) -> store_at rs μ σ -> store_at rs μ σ'.
Proof. intros E El. eapply store_at_m; [by apply ext0_morph|]. intros l. rewrite El. destruct (σ !! Loc l) as [o|]; [|done]. cbn. by rewrite mo_id. Qed.

(** ** New names for text *)
Section rename.
  Context (T : list Z) (m : Z).
  Definition ren (i : id) : id :=
    match i with
    | Txt k => if bool_decide (k ∈ T) then Imp (m + k) else i
    | Imp j => if bool_decide (j - m ∈ T) then Txt (j - m) else i
    | _ => i
    end.
  Lemma ren_ren i : ren (ren i) = i.
  Proof.
    destruct i as [l|j|k|k]; cbn; try done; case_bool_decide as H; cbn.
    - rewrite bool_decide_true by done. f_equal. lia.
    - by rewrite bool_decide_false.
    - replace (m + k - m) with k by lia. rewrite bool_decide_true by done. done.
    - by rewrite bool_decide_false.
  Qed.
  Global Instance ren_inj : Inj (=) (=) ren.
  Proof. intros i j H. rewrite <- (ren_ren i), H. apply ren_ren. Qed.
  Local Arguments ren _ : simpl never.
  Definition ren_heap (σ : oheap) : oheap := kmap ren (mo ren <$> σ).
  Lemma ren_lookup σ i : ren_heap σ !! ren i = mo ren <$> σ !! i.
  Proof. unfold ren_heap. by rewrite (lookup_kmap ren), lookup_fmap. Qed.
  Lemma ren_lookup' σ i : ren_heap σ !! i = mo ren <$> σ !! ren i.
  Proof. rewrite <- ren_lookup. by rewrite ren_ren. Qed.
  Definition ren_mst (M : mst) : mst :=
    Mst (ren_heap (m_heap M)) (ren (m_r0 M)) (ren (m_r1 M)) (ren (m_r2 M)) (ren (m_r3 M)) (map ren (m_stk M)) (m_size M) (map ren (m_glob M)).
  Definition ren_map (f : idmap) : idmap := fun i p => f (ren i) p.
  Lemma ren_map_at f i p : ren_map f (ren i) p <-> f i p.
  Proof. unfold ren_map. by rewrite ren_ren. Qed.
  Lemma ren_word f w x : word_rel f w x -> word_rel (ren_map f) (mw ren w) x.
  Proof. destruct w; cbn; [|done]. apply ren_map_at. Qed.
  Lemma ren_slot f w x : slot_rel f w x -> slot_rel (ren_map f) (msl ren w) x.
  Proof. destruct w; cbn; [done|done|]. by rewrite ren_map_at. Qed.
  Lemma ren_obj f h o p : obj_at f h o p -> obj_at (ren_map f) h (mo ren o) p.
  Proof.
    destruct o as [t a d|t es|bs]; cbn; [| |done].
    - intros (c & Hc & Ht & Hok & Ha & Hd). exists c. split; [done|]. split; [done|]. split.
      { destruct Hok as (O1 & O2 & O3 & O4 & O5 & O6). repeat split; try done; try lia; by destruct a, d. }
      split; by apply ren_word.
    - intros (c & Hc & Ht & Hty & Hl & He). exists c. split; [done|]. split; [done|]. split; [done|]. rewrite map_length. split; [done|].
      intros i w Hw. rewrite list_lookup_fmap in Hw. destruct (es !! i) as [w0|] eqn:Hw0; [|done]. cbn in Hw. injection Hw as <-.
      destruct (He i w0 Hw0) as (e & Hee & Hs). exists e. split; [done|by apply ren_slot].
  Qed.

  (** the new names are not in use *)
  Record unused (σ : oheap) : Prop := {
    un_key : forall k, k ∈ T -> σ !! Imp (m + k) = None;
    un_ref : forall k i o, k ∈ T -> σ !! i = Some o -> ~ mentions o (Imp (m + k));
    un_const : forall k, k ∈ T -> ~ is_const (m + k) }.
  Context (σ : oheap) (U : unused σ).
  Lemma ren_imp j : (forall k, k ∈ T -> j <> m + k) -> ren (Imp j) = Imp j.
  Proof. intros H. unfold ren. case_bool_decide as Hin; [|done]. exfalso. eapply H; [exact Hin|lia]. Qed.
  Lemma ren_fix k o : σ !! Imp k = Some o -> ren (Imp k) = Imp k.
  Proof using U. intros H. apply ren_imp. intros k' Hk ->. by rewrite (un_key _ U) in H. Qed.
  Lemma ren_morph : morph ren σ (ren_heap σ).
  Proof using U.
    split.
    - intros k o H. pose proof (ren_fix _ _ H) as Er. split; [done|]. by rewrite <- Er at 1; rewrite ren_lookup, H.
    - intros i o k H Hm. apply ren_imp. intros k' Hk ->. by eapply un_ref.
    - done.
    - done.
    - intros k w H. exists (ren w). change (Key k) with (ren (Key k)). rewrite ren_lookup, H. cbn. unfold opair. do 3 f_equal.
      rewrite (ren_imp cell_closure); [done|]. intros k' Hk E. eapply (un_const _ U k' Hk). rewrite <- E. vm_compute; split; congruence.
    - intros k Hk. apply ren_imp. intros k' Hk' ->. by eapply un_const.
  Qed.
  Lemma rep_rename f M s : m_heap M = σ -> rep f M s -> rep (ren_map f) (ren_mst M) s.
  Proof using U.
    intros EM R. assert (forall i p, ren_map f i p -> f (ren i) p) as Hf by done. split.
    - destruct (rp_heap _ _ _ R) as [H1 H2 H3 H4 H5 H6]. split.
      + intros i p q Hp Hq. by eapply H1.
      + intros i j p Hp Hq. apply (inj ren). by eapply H2.
      + intros k Hk. unfold ren_map. specialize (H3 k Hk). destruct (H4 _ _ H3) as (o & Ho & _). rewrite EM in Ho. by rewrite (ren_fix _ _ Ho).
      + intros i p Hp. destruct (H4 _ _ Hp) as (o & Ho & Hat). exists (mo ren o). split; [|by apply ren_obj].
        cbn. by rewrite ren_lookup', Ho.
      + intros i p Hp. by apply (H5 (ren i)).
      + intros i j p q c d a Hp Hq. by eapply (H6 (ren i) (ren j)).
    - cbn. apply ren_map_at, R.
    - cbn. apply ren_map_at, R.
    - cbn. apply ren_map_at, R.
    - cbn. apply ren_map_at, R.
    - cbn. rewrite map_length. apply R.
    - apply R.
    - intros k i Hi. cbn in Hi. rewrite list_lookup_fmap in Hi. destruct (m_stk M !! k) as [i0|] eqn:E0; [|done]. cbn in Hi. injection Hi as <-.
      destruct (rp_stk _ _ _ R _ _ E0) as (p & Hp & Hfp). exists p. split; [done|by apply ren_map_at].
    - cbn. apply Forall2_fmap_l. eapply Forall2_impl; [apply R|]. intros i p Hp. by apply ren_map_at.
    - apply R.
    - apply R.
    - apply R.
    - apply R.
    - apply R.
    - apply R.
  Qed.
  Lemma ren_loc l : ren_heap σ !! Loc l = mo ren <$> σ !! Loc l.
  Proof. apply (ren_lookup σ (Loc l)). Qed.
  Lemma ren_txt k : k ∈ T -> ren (Txt k) = Imp (m + k).
  Proof. intros H. unfold ren. by rewrite bool_decide_true. Qed.
  Lemma ren_other k : k ∉ T -> ren (Txt k) = Txt k.
  Proof. intros H. unfold ren. by rewrite bool_decide_false. Qed.

  (** text that gets new names is code *)
  Lemma ren_node k a d : k ∈ T -> σ !! Txt k = Some (opair (root a) (root d)) -> ren_heap σ !! Imp (m + k) = Some (opair (ren (root a)) (ren (root d))).
  Proof. intros Hk H. rewrite <- (ren_txt _ Hk), ren_lookup, H. done. Qed.
  Lemma ren_names xs r t : names_tree σ xs r t -> tree_at σ t -> (forall k, k ∈ nodes t -> k ∈ T) -> names_at (ren_heap σ) xs r (ren (root t)).
  Proof using U.
    induction 1 as [|r Hr|x xs r k d Hx _ IH]; intros Ht Hn.
    - cbn [root]. rewrite (m_nil _ _ _ ren_morph). constructor.
    - apply (name_ok_m _ _ _ ren_morph) in Hr as [Hr Er]. cbn [root]. rewrite Er. by constructor.
    - inversion Ht; subst. cbn [root]. assert (k ∈ T) as Hk by (apply Hn; by left). rewrite (ren_txt k) by done.
      apply (name_ok_m _ _ _ ren_morph) in Hx as [Hx Ex].
      econstructor; [done| |apply IH; [done|intros k' Hk'; apply Hn; cbn; set_solver]].
      erewrite ren_node by done. cbn [root]. by rewrite Ex.
  Qed.
  Lemma ren_const k : is_const k -> ren (Imp k) = Imp k.
  Proof using U. intros. by apply (mp_const _ _ _ ren_morph). Qed.
  Ltac sub := match goal with Hn : forall k, k ∈ nodes _ -> _ |- forall k, k ∈ nodes _ -> _ => intros ? ?; apply Hn; cbn; set_solver end.
  Lemma ren_codes : (forall e t, parse σ e t -> tree_at σ t -> (forall k, k ∈ nodes t -> k ∈ T) -> code_at (ren_heap σ) e (ren (root t))) /\
    (forall es t, parses σ es t -> tree_at σ t -> (forall k, k ∈ nodes t -> k ∈ T) -> codes_at (ren_heap σ) es (ren (root t))).
  Proof using U.
    pose proof ren_morph as E.
    assert (forall es t, codes_at (ren_heap σ) es (ren (root t)) -> exists is, ilist (ren_heap σ) (ren (root t)) is /\ Forall2 (code_at (ren_heap σ)) es is) as Hil.
    { intros es t. generalize (ren (root t)). induction 1 as [|e es k i d Hk Hc _ (is & IH & IH')]; [exists []; split; constructor|]. exists (i :: is). split; econstructor; eauto. }
    apply parse_parses_ind.
    - intros v k o Hv Ho Hs Hh Ht Hn. cbn [root]. rewrite (m_fix _ _ _ E _ _ Ho). econstructor; [by apply (val_at_m _ _ _ E)|by apply (m_obj _ _ _ E)|by apply self_m].
    - intros v k k' a Hv Ht Hn. cbn [root]. rewrite ren_txt by (apply Hn; cbn; set_solver). apply (val_at_m _ _ _ E) in Hv as [Hv Ev].
      inversion Ht as [|? ? ? H1 _ Ht']; subst. inversion Ht' as [|? ? ? H2 _ _]; subst.
      econstructor; [|exact Hv]. econstructor; [erewrite ren_node by (done || (apply Hn; cbn; set_solver)); cbn [root]; rewrite ren_const by kc; done|].
      rewrite ren_txt by (apply Hn; cbn; set_solver).
      econstructor; [erewrite ren_node by (done || (apply Hn; cbn; set_solver)); cbn [root]; rewrite Ev; done|].
      rewrite ren_const by kc. constructor.
    - intros x Hx Ht Hn. apply (name_ok_m _ _ _ E) in Hx as [Hx Ex]. cbn [root]. rewrite Ex. by constructor.
    - intros l k Hk Ht Hn. cbn [root]. rewrite (m_fix _ _ _ E _ _ Hk). constructor. by apply (variable_m _ _ _ E).
    - intros c t e k d _ IH Ht Hn. inversion Ht as [|? ? ? H1 _ Ht']; subst. cbn [root]. rewrite ren_txt by (apply Hn; cbn; set_solver).
      destruct (Hil _ _ (IH Ht' ltac:(sub))) as (is & Hi & H3). inversion H3 as [|? ic ? ? Hc H3']; subst. inversion H3' as [|? it ? ? Hct H3'']; subst.
      inversion H3'' as [|? ie ? ? Hce H0]; subst. inversion H0; subst. eapply co_if; [|exact Hc|exact Hct|exact Hce]. econstructor; [|exact Hi].
      erewrite ren_node by (done || (apply Hn; cbn; set_solver)). cbn [root]. by rewrite ren_const by kc.
    - intros c t k d _ IH Ht Hn. inversion Ht as [|? ? ? H1 _ Ht']; subst. cbn [root]. rewrite ren_txt by (apply Hn; cbn; set_solver).
      destruct (Hil _ _ (IH Ht' ltac:(sub))) as (is & Hi & H3). inversion H3 as [|? ic ? ? Hc H3']; subst. inversion H3' as [|? it ? ? Hct H0]; subst.
      inversion H0; subst. eapply co_when; [|exact Hc|exact Hct]. econstructor; [|exact Hi].
      erewrite ren_node by (done || (apply Hn; cbn; set_solver)). cbn [root]. by rewrite ren_const by kc.
    - intros xs r bd k k' fm b Hf _ IH Ht Hn. inversion Ht as [|? ? ? H1 _ Ht']; subst. inversion Ht' as [|? ? ? H2 Htf Htb]; subst.
      cbn [root]. rewrite ren_txt by (apply Hn; cbn; set_solver).
      eapply (co_lam _ _ _ _ _ (m + k')); [|erewrite ren_node by (done || (apply Hn; cbn; set_solver)); done|apply ren_names; [done|done|sub]|apply IH; [done|sub]].
      erewrite ren_node by (done || (apply Hn; cbn; set_solver)). cbn [root]. rewrite ren_const by kc. by rewrite (ren_txt k') by (apply Hn; cbn; set_solver).
    - intros x e k d _ IH Ht Hn. inversion Ht as [|? ? ? H1 _ Ht']; subst. cbn [root]. rewrite ren_txt by (apply Hn; cbn; set_solver).
      destruct (Hil _ _ (IH Ht' ltac:(sub))) as (is & Hi & H3). inversion H3 as [|? ic ? ? Hc H3']; subst. inversion H3' as [|? it ? ? Hct H0]; subst.
      inversion H0; subst. inversion Hc; subst. eapply co_set; [|done|exact Hct]. econstructor; [|exact Hi].
      erewrite ren_node by (done || (apply Hn; cbn; set_solver)). cbn [root]. by rewrite ren_const by kc.
    - intros l e k d _ IH Ht Hn. inversion Ht as [|? ? ? H1 _ Ht']; subst. cbn [root]. rewrite ren_txt by (apply Hn; cbn; set_solver).
      destruct (Hil _ _ (IH Ht' ltac:(sub))) as (is & Hi & H3). inversion H3 as [|? ic ? ? Hc H3']; subst. inversion H3' as [|? it ? ? Hct H0]; subst.
      inversion H0; subst. inversion Hc; subst. eapply co_set_global; [|done|exact Hct]. econstructor; [|exact Hi].
      erewrite ren_node by (done || (apply Hn; cbn; set_solver)). cbn [root]. by rewrite ren_const by kc.
    - intros x e k k' d Hx _ IH Ht Hn. inversion Ht as [|? ? ? H1 _ Ht']; subst. inversion Ht' as [|? ? ? H2 _ Htd]; subst.
      cbn [root]. rewrite ren_txt by (apply Hn; cbn; set_solver). apply (name_ok_m _ _ _ E) in Hx as [Hx Ex].
      destruct (Hil _ _ (IH Htd ltac:(sub))) as (is & Hi & H3). inversion H3 as [|? ie ? ? Hc H0]; subst. inversion H0; subst.
      eapply co_define; [|exact Hx|exact Hc]. econstructor; [erewrite ren_node by (done || (apply Hn; cbn; set_solver)); cbn [root]; rewrite ren_const by kc; done|].
      rewrite ren_txt by (apply Hn; cbn; set_solver). econstructor; [|exact Hi]. erewrite ren_node by (done || (apply Hn; cbn; set_solver)). cbn [root]. by rewrite Ex.
    - intros x xs r bd k k' k2 fm b Hx Hf _ IH Ht Hn. inversion Ht as [|? ? ? H1 _ Ht']; subst. inversion Ht' as [|? ? ? H2 Htg Htb]; subst. inversion Htg as [|? ? ? H3 _ Htf]; subst.
      cbn [root]. rewrite ren_txt by (apply Hn; cbn; set_solver). apply (name_ok_m _ _ _ E) in Hx as [Hx Ex].
      eapply (co_defun _ _ _ _ _ _ (m + k') (m + k2)); [| | |exact Hx|apply ren_names; [exact Hf|done|sub]|apply IH; [done|sub]].
      + erewrite ren_node by (done || (apply Hn; cbn; set_solver)). cbn [root]. rewrite ren_const by kc. by rewrite (ren_txt k') by (apply Hn; cbn; set_solver).
      + erewrite ren_node by (done || (apply Hn; cbn; set_solver)). cbn [root]. by rewrite (ren_txt k2) by (apply Hn; cbn; set_solver).
      + erewrite ren_node by (done || (apply Hn; cbn; set_solver)). cbn [root]. by rewrite Ex.
    - intros es k b _ IH Ht Hn. inversion Ht as [|? ? ? H1 _ Ht']; subst. cbn [root]. rewrite ren_txt by (apply Hn; cbn; set_solver).
      eapply co_begin; [|apply IH; [done|sub]]. erewrite ren_node by (done || (apply Hn; cbn; set_solver)). cbn [root]. by rewrite ren_const by kc.
    - intros f es k a b Ho _ IHf _ IH Ht Hn. inversion Ht as [|? ? ? H1 Hta Htb]; subst. cbn [root]. rewrite ren_txt by (apply Hn; cbn; set_solver).
      eapply co_app; [done| |apply IHf; [done|sub]|apply IH; [done|sub]]. by erewrite ren_node by (done || (apply Hn; cbn; set_solver)).
    - intros Ht Hn. cbn [root]. rewrite ren_const by kc. constructor.
    - intros e es k a d _ IHe _ IH Ht Hn. inversion Ht as [|? ? ? H1 Hta Htb]; subst. cbn [root]. rewrite ren_txt by (apply Hn; cbn; set_solver).
      econstructor; [|apply IHe; [done|sub]|apply IH; [done|sub]]. by erewrite ren_node by (done || (apply Hn; cbn; set_solver)).
  Qed.
  (** the other text stays as it is *)
  Lemma ren_root i t : σ !! i = Some (opair (root t) (root t)) \/ (exists d, σ !! i = Some (opair (root t) d)) \/ (exists a, σ !! i = Some (opair a (root t))) ->
    tree_at σ t -> (forall k, k ∈ nodes t -> k ∉ T) -> ren (root t) = root t.
  Proof using U.
    intros Hi Ht Hn. destruct t as [j|k a d]; cbn [root] in *.
    - inversion Ht; subst. destruct j as [l|j|k|k]; try done; [|by edestruct H0].
      assert (exists o, σ !! i = Some o /\ mentions o (Imp j)) as (o & Ho & Hm).
      { destruct Hi as [Hi|[[d Hi]|[a Hi]]]; (eexists; split; [exact Hi|cbn; auto]). }
      by eapply (mp_ref _ _ _ ren_morph).
    - apply ren_other. apply Hn. by left.
  Qed.
  Lemma ren_tree t : tree_at σ t -> (forall k, k ∈ nodes t -> k ∉ T) -> tree_at (ren_heap σ) t.
  Proof using U.
    induction 1 as [i Hi|k a d Hk Ha IHa Hd IHd]; intros Hn; [by constructor|].
    constructor; [|apply IHa; intros k' Hk'; apply Hn; cbn; set_solver|apply IHd; intros k' Hk'; apply Hn; cbn; set_solver].
    rewrite <- (ren_other k) by (apply Hn; by left). rewrite ren_lookup, Hk. cbn. unfold opair.
    rewrite (ren_root (Txt k) a), (ren_root (Txt k) d); [done| | | | | |]; eauto; intros k' Hk'; apply Hn; cbn; set_solver.
  Qed.
End rename.

(** there are names that are not in use *)
Definition obj_imps (o : obj) : list Z :=
  match o with
  | OCell _ a d => (match a with WId (Imp k) => [k] | _ => [] end) ++ (match d with WId (Imp k) => [k] | _ => [] end)
  | OArr _ es => omap (fun e => match e with ARef (Imp k) => Some k | _ => None end) es
  | OBytes _ => []
  end.
Lemma obj_imps_in o k : mentions o (Imp k) -> k ∈ obj_imps o.
Proof.
  destruct o as [t a d|t es|bs]; cbn; [intros [->| ->]; set_solver| |done].
  intros H. apply elem_of_list_omap. by exists (ARef (Imp k)).
Qed.
Lemma above (l : list Z) : exists b, 0 <= b /\ forall x, x ∈ l -> Z.abs x <= b.
Proof.
  induction l as [|x l (b & Hb & IH)]; [exists 0; split; [lia|]; set_solver|]. exists (Z.max (Z.abs x) b). split; [lia|].
  intros y [->|Hy]%elem_of_cons; [lia|]. specialize (IH y Hy). lia.
Qed.
Lemma unused_names T σ : exists m, unused T m σ.
Proof.
  set (L := mjoin (map (fun io : id * obj => (match io.1 with Imp k => [k] | _ => [] end) ++ obj_imps io.2) (map_to_list σ))).
  assert (forall i o x, σ !! i = Some o -> i = Imp x \/ mentions o (Imp x) -> x ∈ L) as HL.
  { intros i o x Ho Hx. apply elem_of_list_join. eexists. split; [|apply elem_of_list_fmap; exists (i, o); split; [reflexivity|by apply elem_of_map_to_list]].
    cbn. apply elem_of_app. destruct Hx as [->|Hx]; [left; by left|right; by apply obj_imps_in]. }
  destruct (above L) as (b & Hb & HbL). destruct (above T) as (c & Hc & HcT).
  exists (b + c + 1 + cell_symbol_test). assert (0 <= cell_symbol_test) as Hp by (vm_compute; congruence). split.
  - intros k Hk. apply eq_None_not_Some. intros (o & Ho). specialize (HbL _ (HL _ _ _ Ho (or_introl eq_refl))). specialize (HcT k Hk). lia.
  - intros k i o Hk Ho Hm. specialize (HbL _ (HL _ _ _ Ho (or_intror Hm))). specialize (HcT k Hk). lia.
  - intros k Hk [_ H]. specialize (HcT k Hk). lia.
Qed.
