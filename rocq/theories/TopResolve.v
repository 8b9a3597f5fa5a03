(** expand_variable computes [resolve]. *)
From stdpp Require Import base gmap list fin_maps.
From Coq Require Import ZArith Lia.
From Coq Require Import ZifyBool ZifyNat.
From Verif Require Import CInt Symbols Heap HeapLemmas GcModel GcSpec DataModel DataSpec DataLemmas CoreProofs StackModel.
From Verif Require Import EvalModel Rep RepProofs EvalSpec EvalRep EvalLemmas EvalSteps2 TopSpec TopRep TopRename TopExpand.
Open Scope Z_scope. Open Scope mes_scope.

Ltac w := first [apply wp_bind | apply wp_ret | apply wp_gets | apply wp_modify].
Ltac kc := (vm_compute; split; congruence).

(** the pairs [U] of text changed *)
Record expanded (U : list Z) (σ σ' : oheap) : Prop := {
  ex_keep : forall i o, σ !! i = Some o -> (forall k, k ∈ U -> i <> Txt k) -> σ' !! i = Some o;
  ex_loc : forall l, σ' !! Loc l = σ !! Loc l }.
Lemma expanded_refl U σ : expanded U σ σ.
Proof. by split. Qed.
Lemma expanded_trans U σ σ1 σ2 : expanded U σ σ1 -> expanded U σ1 σ2 -> expanded U σ σ2.
Proof. intros [H1 L1] [H2 L2]. split; [eauto|]. intros l. by rewrite L2. Qed.
Lemma expanded_mono U U' σ σ1 : expanded U σ σ1 -> (forall k, k ∈ U -> k ∈ U') -> expanded U' σ σ1.
Proof. intros [H1 L1] Hs. split; [|done]. intros i o Hi Hn. apply H1; [done|]. intros k Hk. apply Hn. auto. Qed.
Lemma grown_expanded U σ σ1 : grown σ σ1 -> expanded U σ σ1.
Proof. intros [H1 L1]. split; [|done]. intros i o Hi _. by eapply lookup_weaken. Qed.
Lemma expanded_imp U σ σ' k o : expanded U σ σ' -> σ !! Imp k = Some o -> σ' !! Imp k = Some o.
Proof. intros H Hk. eapply ex_keep; [done..|]. done. Qed.
Lemma expanded_txt U σ σ' k o : expanded U σ σ' -> σ !! Txt k = Some o -> k ∉ U -> σ' !! Txt k = Some o.
Proof. intros H Hk Hn. eapply ex_keep; [done..|]. intros k' Hk' [= ->]. done. Qed.
Lemma expanded_ext0 U σ σ' : expanded U σ σ' -> ext0 σ σ'.
Proof. intros E. split; [intros k o; by eapply expanded_imp|]. intros k o H. exists o. eapply ex_keep; [done..|]. done. Qed.
Lemma expanded_morph U σ σ' : expanded U σ σ' -> morph (fun i => i) σ σ'.
Proof. intros E. by eapply ext0_morph, expanded_ext0. Qed.
Lemma setting_expanded T xs gs ρ M U σ σ' : expanded U σ σ' -> tb_vector T ∉ U -> setting T xs gs ρ M σ -> setting T xs gs ρ M σ'.
Proof.
  intros E Hn [B (bs & G) V He Hr Hm]. pose proof (expanded_morph _ _ _ E) as Em. split; try done.
  - by eapply base_m.
  - exists bs. eapply globals_at_ext0; [by eapply expanded_ext0| |done]. rewrite (ga_vector _ _ _ _ _ G). eapply expanded_txt; [done|by apply G|done].
  - intros y l H. destruct (V y l H) as (j & Hj). exists j. by rewrite (ex_loc _ _ _ E).
  - by eapply top_env_m.
Qed.

Lemma tree_at_expanded U σ σ' t : expanded U σ σ' -> (forall k, k ∈ U -> k ∉ nodes t) -> tree_at σ t -> tree_at σ' t.
Proof.
  intros E Hd. induction 1 as [|k a d Hk _ IHa _ IHd]; [by constructor|]. cbn in Hd. constructor.
  - eapply expanded_txt; [done..|]. intros Hk'. apply (Hd k Hk'). by left.
  - apply IHa. intros k' Hk' Hn. apply (Hd k' Hk'). right. apply elem_of_app. by left.
  - apply IHd. intros k' Hk' Hn. apply (Hd k' Hk'). right. apply elem_of_app. by right.
Qed.
Lemma text_expanded T xs U σ σ' t : expanded U σ σ' -> (forall k, k ∈ U -> k ∉ nodes t) -> text T xs σ t -> text T xs σ' t.
Proof.
  intros E Hd [H1 H2 H3 H4]. split; [by eapply tree_at_expanded|done|done|]. intros x Hx. destruct (H4 x Hx) as (o & Ho & Hs). exists o. split; [by eapply expanded_imp|done].
Qed.
Lemma text_node T xs σ k a d : text T xs σ (Node k a d) ->
  σ !! Txt k = Some (opair (root a) (root d)) /\ text T xs σ a /\ text T xs σ d /\ k ∉ nodes a /\ k ∉ nodes d /\
  (forall j, j ∈ nodes a -> j ∉ nodes d) /\ k <> tb_vector T.
Proof.
  intros [H1 H2 H3 H4]. inversion H1; subst. cbn in H2, H3. apply NoDup_cons in H2 as [H2 H2']. apply NoDup_app in H2' as (Na & Nad & Nd).
  rewrite elem_of_app in H2. rewrite elem_of_cons, elem_of_app in H3.
  repeat split; try done; try tauto; try (intros x Hx; apply H4; by constructor). intros ->. tauto.
Qed.
Lemma node_text T xs σ k a d : σ !! Txt k = Some (opair (root a) (root d)) -> text T xs σ a -> text T xs σ d -> k ∉ nodes a -> k ∉ nodes d ->
  (forall j, j ∈ nodes a -> j ∉ nodes d) -> k <> tb_vector T -> text T xs σ (Node k a d).
Proof.
  intros Hk [A1 A2 A3 A4] [D1 D2 D3 D4] Ha Hd Hn Hv. split.
  - by constructor.
  - cbn. apply NoDup_cons. split; [by rewrite elem_of_app; intros [?|?]|]. apply NoDup_app. done.
  - cbn. rewrite elem_of_cons, elem_of_app. intros [?|[?|?]]; [congruence|done|done].
  - intros x Hx. inversion Hx; subst; auto.
Qed.
Definition formals_at (σ : oheap) (i : id) (fs : list Z) (n : Z) : Prop :=
  exists ys r, names_at σ ys r i /\ (forall x, x ∈ fs <-> x ∈ ys ++ opt_list r) /\ Z.of_nat (length ys) <= n.
Lemma formals_at_expanded U σ σ' i fs n n' : expanded U σ σ' -> n <= n' -> formals_at σ i fs n -> formals_at σ' i fs n'.
Proof.
  intros E Hn (ys & r & H1 & H2 & H3). exists ys, r. split; [|split; [done|lia]]. eapply (names_at_m _ _ _ (expanded_morph _ _ _ E)) in H1. apply H1.
Qed.
Lemma formals_at_add σ i fs n xs r b (ys : list Z) r' : (forall x, x ∈ fs <-> x ∈ ys ++ opt_list r') -> names_at σ (rev (xs ++ opt_list r) ++ ys) r' i ->
  (forall x, x ∈ b <-> x ∈ xs ++ opt_list r) -> Z.of_nat (length (xs ++ opt_list r)) + Z.of_nat (length ys) <= n -> formals_at σ i (b ++ fs) n.
Proof.
  intros H Hn Hb Hl. exists (rev (xs ++ opt_list r) ++ ys), r'. split; [done|]. split.
  - intros x. rewrite elem_of_app, Hb, H, <- app_assoc, (elem_of_app (rev _) _ x), (elem_of_list_In (rev _)), <- in_rev, <- elem_of_list_In. done.
  - rewrite app_length, rev_length. lia.
Qed.
Lemma names_tree_size σ xs r t : names_tree σ xs r t -> tsize t = length xs.
Proof. unfold tsize. induction 1; cbn; [done|done|]. by rewrite IHnames_tree. Qed.
Lemma opt_length (r : option Z) : (length (opt_list r) <= 1)%nat.
Proof. destruct r; cbn; lia. Qed.


Lemma size_node k a d : size (Node k a d) = 1 + size a + size d.
Proof. unfold size, tsize. cbn. rewrite app_length. lia. Qed.
Lemma size_pos t : 0 <= size t.
Proof. unfold size. lia. Qed.


Section expand.
Context (T : table) (xs : Z -> Prop) (gs : list (Z * Z)) (ρ : env) (fuel0 : nat).
Notation setting := (setting T xs gs ρ). Notation text := (text T xs).

Record ready (K : Z) (f : idmap) (M : mst) (s : state) (t : tree) (p : Z) (fi : id) (fp : Z) (fs : list Z) : Prop := {
  re_rep : rep f M s;
  re_setting : setting M (m_heap M);
  re_root : f (root t) p;
  re_text : text (m_heap M) t;
  re_formals : f fi fp;
  re_names : formals_at (m_heap M) fi fs (Z.of_nat fuel0 - K);
  re_alloc : can_alloc K s;
  re_fuel : g_free s + K <= Z.of_nat fuel0 }.
Definition post (K : Z) (t : tree) (P : oheap -> tree -> Prop) (f : idmap) (M : mst) (s s' : state) : Prop :=
  exists f' σ' t', went K f M s f' σ' s' /\ expanded (nodes t) (m_heap M) σ' /\ root t' = root t /\ nodes t' = nodes t /\ text σ' t' /\ P σ' t'.
(** going on with a part of the text after [K0] cells *)
Lemma ready_next K K0 K1 f M s t p fi fp fs f1 σ1 s1 U t1 p1 fi1 fp1 fs1 : ready K f M s t p fi fp fs -> went K0 f M s f1 σ1 s1 -> expanded U (m_heap M) σ1 ->
  tb_vector T ∉ U -> K0 + K1 <= K -> 0 <= K0 -> f1 (root t1) p1 -> text σ1 t1 -> f1 fi1 fp1 -> formals_at σ1 fi1 fs1 (Z.of_nat fuel0 - K1) ->
  ready K1 f1 (with_heap σ1 M) s1 t1 p1 fi1 fp1 fs1.
Proof.
  intros [R S Hr Ht Hf Hn Ha Hu] W E Hv Hk Hk0 Hp1 Ht1 Hf1 Hn1. split; try done.
  - by apply W.
  - eapply setting_expanded; [done|done|]. destruct S as [? ? ? ? ? ?]. by split.
  - eapply went_alloc; [done|]. eapply can_alloc_le; [done|lia].
  - apply went_free in W. lia.
Qed.
Definition is_leaf (t : tree) : Prop := match t with Leaf _ => True | _ => False end.
(** the first step at a pair *)
Lemma obj_known K f M s t p fi fp fs x : ready K f M s t p fi fp fs -> occurs x t -> exists o, m_heap M !! Imp x = Some o /\ (otype o = TSYMBOL -> xs x).
Proof. intros H. apply H. Qed.

Definition resolve_at (top : bool) (fs : list Z) (e : exp) : exp :=
  match top, e with
  | true, EDefun x ys r bd => EDefun x ys r (resolve_all gs (ys ++ opt_list r ++ fs) bd)
  | _, _ => resolve gs fs e
  end.

Definition P_list (n : nat) : Prop := forall fs es t f M s p fi fp top, ready (4 * size t) f M s t p fi fp fs -> parses (m_heap M) es t -> (tsize t <= n)%nat ->
  wp (expand_variable_ n fuel0 p fp top) s (fun _ s' => post (4 * size t) t (fun σ' t' => parses σ' (resolve_all gs fs es) t') f M s s').
Definition P_form (n : nat) : Prop := forall fs e t f M s p fi fp top, ready (4 * size t - Z.of_nat (length (binders e))) f M s t p fi fp fs -> parse (m_heap M) e t -> ~ is_leaf t -> (tsize t <= n)%nat ->
  wp (expand_variable_ n fuel0 p fp top) s (fun _ s' => post (4 * size t - Z.of_nat (length (binders e))) t (fun σ' t' => parse σ' (resolve_at top fs e) t') f M s s').

Lemma with_with σ σ' M : with_heap σ (with_heap σ' M) = with_heap σ M.
Proof. done. Qed.
(** from the rest of a list to the whole *)
Lemma post_cdr K0 K1 K k a d f M s f1 σ1 s1 s2 (P P' : oheap -> tree -> Prop) a' : text (m_heap M) (Node k a d) ->
  went K0 f M s f1 σ1 s1 -> expanded (k :: nodes a) (m_heap M) σ1 -> K0 + K1 <= K ->
  nodes a' = nodes a -> σ1 !! Txt k = Some (opair (root a') (root d)) -> text σ1 a' ->
  post K1 d P f1 (with_heap σ1 M) s1 s2 ->
  (forall σ' d', expanded (nodes d) σ1 σ' -> P σ' d' -> P' σ' (Node k a' d')) ->
  post K (Node k a d) P' f M s s2.
Proof.
  intros Ht W E Hk Ea Hko Hta (f2 & σ2 & d' & W2 & E2 & Er & En & Ht2 & HP) HP'. cbn in E2.
  apply text_node in Ht as (_ & _ & _ & Ka & Kd & Kad & Kv).
  exists f2, σ2, (Node k a' d'). split; [|split; [|split; [done|split; [|split]]]].
  - eapply went_le; [by eapply went_trans|done].
  - eapply expanded_trans; (eapply expanded_mono; [done|]); intros j Hj; cbn; set_solver.
  - cbn. by rewrite Ea, En.
  - apply node_text; rewrite ?Ea, ?En, ?Er; try done; [by eapply expanded_txt|]. eapply text_expanded; [done| |done]. rewrite Ea. intros j Hj Hj'. by eapply Kad.
  - by apply HP'.
Qed.
Lemma shrinks_put p c s : shrinks 0 s (put p c s).
Proof. split; [|cbn; lia]. intros n Hn. eapply can_alloc_le; [|]. replace (n + 0) with n in Hn by lia. exact Hn. lia. Qed.
Lemma wp_reference K f M s k x d p xp fi fp fs (Q : unit -> state -> Prop) : ready K f M s (Node k (Sym x) d) p fi fp fs -> symbol (m_heap M) x -> f (Imp x) xp -> x ∉ hidden -> 2 <= K ->
  (forall f' σ' y s', went 2 f M s f' σ' s' -> expanded [k] (m_heap M) σ' -> σ' !! Txt k = Some (opair (Imp y) (root d)) ->
     text σ' (Sym y) ->
     match (if decide (x ∈ fs) then None else lookup_var x gs) with
     | None => y = x
     | Some l => σ' !! Imp y = Some (OCell TVARIABLE (WId (Loc l)) (WInt 0))
     end -> Q tt s') ->
  wp (b <- (b <- formal_p fuel0 xp fp ;; ret (negb b)) ;;
      if b : bool then
           r0 <- gets R0 ;;
           v <- module_variable fuel0 r0 xp ;;
           if v =? cell_f then ret tt else w <- make_variable_ v ;; set_car p w
         else ret tt) s Q.
Proof.
  intros [R S Hr Ht Hf (ys & r & Hn & Hfs & Hl) Ha Hu] Hsy Hx Hh HK HQ. cbn in Hr. pose proof (text_node _ _ _ _ _ _ Ht) as (Hk & _ & _ & _ & _ & _ & Hkv).
  w. w. eapply (wp_formal_p _ _ _ _ _ _ _ _ _ _ _ R (st_base _ _ _ _ _ _ S) Hf Hn); [lia|exact Hx|]. w.
  destruct (tx_known _ _ _ _ Ht x) as (o & Ho & Hxs); [constructor; constructor|]. destruct Hsy as (ca & cd & Hxo). rewrite Hxo in Ho. injection Ho as <-.
  assert (text (m_heap M) (Sym x)) as Tx by apply (text_node _ _ _ _ _ _ Ht).
  destruct (decide (x ∈ fs)) as [Hin|Hin].
  - rewrite bool_decide_true by (by apply Hfs). cbn [negb]. w. eapply (HQ f _ x s); [|apply expanded_refl|done|done|done]. eapply went_le; [by apply went_refl|lia].
  - rewrite bool_decide_false by (by rewrite <- Hfs). cbn [negb]. w. w. w.
    eapply (wp_variable fuel0 T xs gs ρ f M s _ x xp _ R S (rp_r0 _ _ _ R) Hx); [by eexists _, _|done|by left; apply Hxs|by eapply can_alloc_le; [done|lia]|lia|].
    intros f1 σ1 v s1 W Hg Hfd. pose proof W as (R1 & G1 & S1). rewrite (found_f _ _ _ _ _ _ R1 Hfd). destruct (lookup_var x gs) as [l|]; cbn in Hfd.
    + rewrite bool_decide_false by done. w. destruct (fresh_imp σ1) as (y & Hy). unfold make_variable_.
      eapply (wp_make_cell _ _ _ R1 (Imp y) TVARIABLE (WId (Loc l)) (WInt 0)); [|done|done|done|done|].
      { eapply went_alloc; [done|]. eapply can_alloc_le; [done|lia]. }
      intros f2 q s2 Gr Hq R2. pose proof (grows_went _ _ _ _ _ _ _ Gr R2) as W2. cbn in R2, W2. destruct Gr as (G2 & _).
      assert (σ1 !! Txt k = Some (opair (Imp x) (root d))) as Hk1 by (eapply lookup_weaken; [exact Hk|apply Hg]).
      assert (<[Imp y := OCell TVARIABLE (WId (Loc l)) (WInt 0)]> σ1 !! Txt k = Some (opair (Imp x) (root d))) as Hk2 by by rewrite lookup_insert_ne.
      destruct (rep_set_car f2 _ s2 (Txt k) p _ _ (Imp y) q R2 (G2 _ _ (G1 _ _ Hr)) Hk2 Hq) as (c & Ec & R3). eapply wp_eq; [exact Ec|].
      eapply (HQ f2 _ y).
      * split; [exact R3|]. split; [auto|]. eapply shrinks_le; [eapply shrinks_trans; [apply S1|eapply shrinks_trans; [apply W2|apply shrinks_put]]|lia].
      * cbn. split.
        -- intros i o Hi Hne. rewrite lookup_insert_ne by (intros <-; by eapply Hne; [apply elem_of_list_here|]).
           rewrite lookup_insert_ne; [by eapply lookup_weaken; [|apply Hg]|]. intros <-. eapply lookup_weaken in Hi; [|apply Hg]. congruence.
        -- intros l'. rewrite !lookup_insert_ne by done. apply Hg.
      * cbn. by rewrite lookup_insert.
      * split; [by constructor|constructor|cbn; set_solver|]. intros z Hz. inversion Hz; subst. eexists. cbn. rewrite lookup_insert_ne, lookup_insert by done. split; [done|done].
      * cbn. by rewrite lookup_insert_ne, lookup_insert.
    + rewrite bool_decide_true by done. w. eapply (HQ f1 σ1 x s1); [by eapply went_le; [|]|by apply grown_expanded|by eapply lookup_weaken; [|apply Hg]| |done].
      eapply text_expanded; [by apply (grown_expanded [])| |done]. by intros ? ?%elem_of_nil.
Qed.
Lemma wp_assoc {A B C} (m : M A) (g : A -> M B) (h : M C) s (Q : C -> state -> Prop) :
  wp (x <- m ;; g x) s (fun _ s' => wp h s' Q) -> wp (x <- m ;; g x ;;; h) s Q.
Proof.
  unfold wp, bind. intros (b & s' & H & c & s2 & H2 & HQ). exists c, s2. split; [|done]. destruct (m s) as [a s1| | | |]; try done. by rewrite H.
Qed.
Lemma eqc f M s i p k : rep f M s -> f i p -> is_const k -> (p =? k) = bool_decide (i = Imp k).
Proof. intros R Hi Hk. eapply rh_eq; [apply R|done|]. by eapply rep_const. Qed.
Lemma nonneg f M s : rep f M s -> 0 <= g_free s.
Proof. intros R. pose proof (rp_free _ _ _ R). assert (0 <= cell_nil) by (vm_compute; congruence). lia. Qed.
Lemma wp_formals K f M s t p fi fp fs fm ys r b fmp (Q : Z -> state -> Prop) : ready K f M s t p fi fp fs -> f (root fm) fmp -> names_tree (m_heap M) ys r fm -> tree_at (m_heap M) fm ->
  (forall x, x ∈ b <-> x ∈ ys ++ opt_list r) -> Z.of_nat (length (ys ++ opt_list r)) <= K ->
  (forall f' σ' j q s', went (Z.of_nat (length (ys ++ opt_list r))) f M s f' σ' s' -> grown (m_heap M) σ' -> f' j q ->
     formals_at σ' j (b ++ fs) (Z.of_nat fuel0 - (K - Z.of_nat (length (ys ++ opt_list r)))) -> Q q s') ->
  wp (add_formals fuel0 fp fmp) s Q.
Proof.
  intros [R S Hr Ht Hf (zs & r' & Hn & Hfs & Hl) Ha Hu] Hfm Hnt Hta Hb HK HQ. pose proof (nonneg _ _ _ R).
  eapply (wp_add_formals _ f M s ys r fm fmp zs r' fi fp); try done; [by apply S|rewrite app_length in HK; lia|by eapply can_alloc_le|].
  intros f' σ' j q s' W Hg Hj Hnm. eapply HQ; try done. eapply formals_at_add; [done..|lia].
Qed.
Lemma wp_leaf n K f M s k x d p fi fp fs top o (Q : unit -> state -> Prop) : ready K f M s (Node k (Sym x) d) p fi fp fs -> m_heap M !! Imp x = Some o -> otype o <> TPAIR ->
  x ∉ [cell_symbol_lambda; cell_symbol_define; cell_symbol_define_macro; cell_symbol_quote] ->
  (otype o = TSYMBOL -> x ∉ hidden /\ x ∉ [cell_symbol_boot_module; cell_symbol_current_module; cell_symbol_primitive_load]) -> 2 <= K ->
  (forall f' σ' y s' dp, went 2 f M s f' σ' s' -> expanded [k] (m_heap M) σ' -> σ' !! Txt k = Some (opair (Imp y) (root d)) -> text σ' (Sym y) ->
     (otype o <> TSYMBOL -> y = x) ->
     (otype o = TSYMBOL -> match (if decide (x ∈ fs) then None else lookup_var x gs) with
       | None => y = x
       | Some l => σ' !! Imp y = Some (OCell TVARIABLE (WId (Loc l)) (WInt 0))
       end) -> f' (root d) dp -> wp (expand_variable_ n fuel0 dp fp false) s' Q) ->
  wp (expand_variable_ (S n) fuel0 p fp top) s Q.
Proof.
  intros Rd Ho Ht Hx Hs HK HQ. pose proof Rd as [R S Hr Htx Hf Hn Ha Hu]. cbn in Hr. pose proof (text_node _ _ _ _ _ _ Htx) as (Hk & _ & Htd & _ & _ & _ & Hkv). cbn [root] in Hk.
  cbn [expand_variable_]. w. eapply (wp_ty _ _ _ R _ _ _ _ _ _ Hr Hk). change (negb (TPAIR =? TPAIR)) with false. cbv iota.
  w. eapply (wp_car_of _ _ _ R _ _ _ _ _ _ Hr Hk). intros xp Hxp. w. eapply (wp_rd_any _ _ _ R _ _ _ _ Hxp Ho). intros c Hc. rewrite Hc.
  rewrite (proj2 (Z.eqb_neq _ _) Ht).
  assert (forall kk, is_const kk -> x <> kk -> (xp =? kk) = false) as Hne.
  { intros kk Hkk Hnk. rewrite (eqc _ _ _ _ _ _ R Hxp Hkk). apply bool_decide_false. congruence. }
  rewrite (Hne cell_symbol_lambda), (Hne cell_symbol_define), (Hne cell_symbol_define_macro), (Hne cell_symbol_quote) by (first [kc | set_solver]). cbn [orb].
  assert (forall f' σ' y s', went 2 f M s f' σ' s' -> expanded [k] (m_heap M) σ' -> σ' !! Txt k = Some (opair (Imp y) (root d)) -> text σ' (Sym y) ->
     (otype o <> TSYMBOL -> y = x) ->
     (otype o = TSYMBOL -> match (if decide (x ∈ fs) then None else lookup_var x gs) with
       | None => y = x
       | Some l => σ' !! Imp y = Some (OCell TVARIABLE (WId (Loc l)) (WInt 0))
       end) -> wp (x <- cdr_of p ;; expand_variable_ n fuel0 x fp false) s' Q) as Hgo.
  { intros f' σ' y s' W E Hk' Hy H1 H2. w. eapply (wp_cdr_of _ _ _ (proj1 W) _ _ _ _ _ _ (proj1 (proj2 W) _ _ Hr) Hk'). intros dp Hdp. by eapply HQ. }
  destruct (decide (otype o = TSYMBOL)) as [Eo|Eo].
  - destruct (Hs Eo) as [Hh Hb]. rewrite Eo, Z.eqb_refl, (Hne cell_symbol_boot_module), (Hne cell_symbol_current_module), (Hne cell_symbol_primitive_load) by (first [kc | set_solver]).
    cbn [negb andb]. apply wp_assoc. eapply (wp_reference K f M s k x d p xp fi fp fs); try done.
    + destruct o as [t a b|t es|bs]; cbn in Eo; subst; [by exists a, b| |done].
      exfalso. destruct (rh_obj _ _ _ (rp_heap _ _ _ R) _ _ Hxp) as (o' & Ho' & Hoa). rewrite Ho in Ho'. injection Ho' as <-. cbn in Hoa. destruct Hoa as (? & _ & _ & [|] & _); done.
    + intros f' σ' y s' W E Hk' Hy Hm. by eapply Hgo.
  - rewrite (proj2 (Z.eqb_neq _ _) Eo). cbn [andb]. w. w. w. w. eapply Hgo; [eapply went_le; [by apply went_refl|lia]|apply expanded_refl|done| |done|done].
    by apply (text_node _ _ _ _ _ _ Htx).
Qed.

Lemma head_cases σ e k a d : parse σ e (Node k a d) -> consts0 σ ->
  ((root a = Imp cell_symbol_lambda \/ root a = Imp cell_symbol_define) /\
   exists k' fm b ys r, d = Node k' fm b /\ names_tree σ ys r fm /\ (forall x, x ∈ binders e <-> x ∈ ys ++ opt_list r) /\ length (ys ++ opt_list r) = length (binders e)) \/
  (root a = Imp cell_symbol_quote /\ binders e = [] /\ forall fs, resolve gs fs e = e) \/
  (root a <> Imp cell_symbol_lambda /\ root a <> Imp cell_symbol_define /\ root a <> Imp cell_symbol_define_macro /\ root a <> Imp cell_symbol_quote /\ binders e = []).
Proof.
  intros Hp C. inversion Hp; subst; try (right; right; by repeat split).
  - right. left. done.
  - left. split; [by left|]. by eexists _, _, _, _, _.
  - left. split; [by right|]. eexists k', (Sym x), d0, [], (Some x). split; [done|]. split; [by constructor|]. done.
  - left. split; [by right|]. eexists k', _, b, (x :: xs0), r. split; [done|]. split; [by constructor|]. done.
  - right. right. assert (forall kk, is_const kk -> kk ∈ reserved -> root a <> Imp kk) as Hne.
    { intros kk Hk Hr Ea. match goal with H : parse σ f a |- _ => inversion H; subst end; cbn in Ea; try done; injection Ea as ->.
      - match goal with H : name_ok _ _ |- _ => by destruct H end.
      - destruct (cst_const _ _ C kk Hk) as (t & n & d' & Hno & Ht' & _). destruct Ht' as [-> | ->]; congruence. }
    repeat split; apply Hne; first [kc | (unfold reserved, hidden; set_solver)].
Qed.
Lemma parse_leaf σ e i : parse σ e (Leaf i) -> exists x, i = Imp x /\ ((exists v o, e = EConst v /\ σ !! Imp x = Some o /\ self_evaluating o /\ x ∉ heads) \/
   (e = EVar x /\ name_ok σ x) \/ (exists l, e = EGlobal l /\ σ !! Imp x = Some (OCell TVARIABLE (WId (Loc l)) (WInt 0)))).
Proof.
  inversion 1; subst; eexists; (split; [done|]); [left|right; left|right; right]; eauto 10.
Qed.
Lemma reference_parse σ fs x y : name_ok σ x -> match (if decide (x ∈ fs) then None else lookup_var x gs) with
       | None => y = x
       | Some l => σ !! Imp y = Some (OCell TVARIABLE (WId (Loc l)) (WInt 0))
       end -> parse σ (reference gs fs x) (Sym y).
Proof.
  intros Hn. unfold reference. destruct (decide (x ∈ fs)); [intros ->; by constructor|]. destruct (lookup_var x gs); [by constructor|intros ->; by constructor].
Qed.

Lemma list_step n : P_list n -> P_form n -> P_list (S n).
Proof.
  intros IHl IHf fs es t f M s p fi fp top Rd Hp Hn. inversion Hp as [|e es' k a d Ha Hd]; subst.
  { pose proof Rd as [R S Hr _ _ _ _ _]. destruct (ba_nil _ (st_base _ _ _ _ _ _ S)) as (na & nd & Hnil). cbn [expand_variable_]. w. eapply (wp_ty _ _ _ R _ _ _ _ _ _ Hr Hnil).
    w. exists f, (m_heap M), (Sym cell_nil). split; [by apply went_refl|]. split; [apply expanded_refl|]. split; [done|]. split; [done|]. split; [apply Rd|constructor]. }
  pose proof Rd as [R S Hr Htx Hf Hfm HA Hu]. pose proof (text_node _ _ _ _ _ _ Htx) as (Hk & Hta & Htd & Hka & Hkd & Had & Hkv).
  pose proof (ba_consts _ (st_base _ _ _ _ _ _ S)) as C. rewrite size_node in *. pose proof (size_pos a). pose proof (size_pos d).
  assert (tsize (Node k a d) = (1 + tsize a + tsize d)%nat) as Esz by (unfold tsize; cbn; by rewrite app_length). rewrite Esz in Hn.
  destruct a as [i|ka aa da].
  - apply parse_leaf in Ha as (x & -> & Hx).
    assert (exists o, m_heap M !! Imp x = Some o /\ otype o <> TPAIR /\ x ∉ [cell_symbol_lambda; cell_symbol_define; cell_symbol_define_macro; cell_symbol_quote] /\
      (otype o = TSYMBOL -> x ∉ hidden /\ x ∉ [cell_symbol_boot_module; cell_symbol_current_module; cell_symbol_primitive_load])) as (o & Ho & Ho1 & Ho2 & Ho3).
    { destruct Hx as [(v & o & -> & Ho & Hs & Hh)|[[-> [(m & dd & Ho & _) Hres]]|(l & -> & Ho)]]; (eexists; split; [exact Ho|]).
      - destruct o as [tt aa bb| |]; cbn in Hs; [|done..]. destruct Hs as [Hs _]. split; [by destruct Hs as [->|[->|[->|[->| ->]]]]|]. unfold heads in Hh. split; [set_solver|].
        intros Hty. exfalso. cbn in Hty. subst. by destruct Hs as [?|[?|[?|[?|?]]]].
      - split; [done|]. unfold reserved, hidden in *. split; [set_solver|]. intros _. split; set_solver.
      - split; [done|]. split; [|done]. intros Hin. assert (is_const x) as Hc by (rewrite !elem_of_cons, elem_of_nil in Hin; destruct Hin as [->|[->|[->|[->|[]]]]]; kc).
        destruct (cst_const _ _ C x Hc) as (t & n' & d' & Hno & Ht' & _). destruct Ht' as [-> | ->]; congruence. }
    eapply (wp_leaf n); [exact Rd|exact Ho|done|done|done|lia|]. intros f1 σ1 y s1 dp W E Hk1 Hty Hn1 Hs1 Hdp.
    eapply wp_mono; [eapply (IHl _ es' d f1 (with_heap σ1 M) s1 dp fi fp false)|].
    + eapply (ready_next _ 2 (4 * size d)); [exact Rd|exact W|exact E|set_solver|lia|lia|done| | |].
      * eapply text_expanded; [exact E| |done]. set_solver.
      * by apply W.
      * eapply formals_at_expanded; [exact E| |exact Hfm]. lia.
    + cbn. eapply (parses_m _ _ _ (expanded_morph _ _ _ E)); exact Hd.
    + lia.
    + cbn beta. intros _ s2 Hpost. eapply (post_cdr 2 (4 * size d) _ k (Sym x) d f M s f1 σ1 s1 s2 _ _ (Sym y) Htx W); [| |done|done|done|exact Hpost|].
      * eapply expanded_mono; [exact E|]. set_solver.
      * lia.
      * intros σ' d' E' Hd'. cbn [resolve_all elements]. pose proof (expanded_morph _ _ _ E) as Em. pose proof (expanded_morph _ _ _ E') as Em'.
        assert (binders e = []) as -> by (destruct Hx as [(v & o' & -> & _)|[[-> _]|(l & -> & _)]]; done). constructor; [|exact Hd'].
        eapply (parse_m _ _ _ Em'). 
        destruct Hx as [(v & o' & -> & Ho' & Hs & Hh)|[[-> Hnm]|(l & -> & Ho')]]; cbn [resolve app].
        -- rewrite Hn1; [eapply (parse_m _ _ _ Em); inversion Hp; subst; assumption|]. rewrite Ho in Ho'. injection Ho' as <-. destruct o as [tt aa bb| |]; cbn in Hs; [|done..]. destruct Hs as [Hs _]. cbn. intros ->. by destruct Hs as [?|[?|[?|[?|?]]]].
        -- eapply reference_parse; [by eapply (name_ok_m _ _ _ Em)|]. apply Hs1. destruct Hnm as [(? & ? & Ho' & _) _]. rewrite Ho in Ho'. by injection Ho' as ->.
        -- rewrite Ho in Ho'. injection Ho' as ->. rewrite Hn1 by done. constructor. by eapply expanded_imp.
  - pose proof (text_node _ _ _ _ _ _ Hta) as (Hka' & Htaa & Htda & _). cbn [root] in Hk, Hka'. cbn in Hr.
    cbn [expand_variable_]. w. eapply (wp_ty _ _ _ R _ _ _ _ _ _ Hr Hk). change (negb (TPAIR =? TPAIR)) with false. cbv iota.
    w. eapply (wp_car_of _ _ _ R _ _ _ _ _ _ Hr Hk). intros ap Hap. w. eapply (wp_rd _ _ _ R _ _ _ _ _ _ Hap Hka'). intros ca Hca Hcar Hcdr. rewrite Hca.
    change (TPAIR =? TPAIR) with true. cbv iota. cbn in Hcar.
    rewrite (eqc _ _ _ _ _ cell_symbol_lambda R Hcar), (eqc _ _ _ _ _ cell_symbol_define R Hcar), (eqc _ _ _ _ _ cell_symbol_define_macro R Hcar), (eqc _ _ _ _ _ cell_symbol_quote R Hcar) by kc.
    set (A := Node ka aa da) in *.
    (* from the element on *)
    assert (forall f1 σ1 s1 j q, went (Z.of_nat (length (binders e))) f M s f1 σ1 s1 -> grown (m_heap M) σ1 -> f1 j q -> root aa <> Imp cell_symbol_quote ->
      formals_at σ1 j (binders e ++ fs) (Z.of_nat fuel0 - (4 * (1 + size A + size d) - Z.of_nat (length (binders e)))) -> Z.of_nat (length (binders e)) <= 4 * size A ->
      wp ((expand_variable_ n fuel0 ap q false) ;;; x <- cdr_of p ;; expand_variable_ n fuel0 x q false) s1
        (fun _ s' => post (4 * (1 + size A + size d)) (Node k A d) (fun σ' t' => parses σ' (resolve_all gs fs (e :: es')) t') f M s s')) as Hgo.
    { intros f1 σ1 s1 j q W Hg Hj Hq Hfm1 HK. pose proof (grown_expanded [] _ _ Hg) as E. pose proof (expanded_morph _ _ _ E) as Em.
      w. eapply wp_mono; [eapply (IHf (binders e ++ fs) e A f1 (with_heap σ1 M) s1 ap j q false)|].
      - eapply (ready_next _ (Z.of_nat (length (binders e))) _ f M s); [exact Rd|exact W|exact E|set_solver|lia|lia|by apply W| |done|].
        + eapply text_expanded; [exact E| |done]. set_solver.
        + eapply formals_at_expanded; [apply (expanded_refl [])| |exact Hfm1]. lia.
      - cbn. eapply (parse_m _ _ _ Em); exact Ha.
      - intros [].
      - lia.
      - cbn beta. intros _ s2 (f2 & σ2 & a' & W2 & E2 & Er & En & Ht2 & Hpa). cbn in E2. pose proof (expanded_morph _ _ _ E2) as Em2.
        assert (went (4 * size A) f M s f2 σ2 s2) as W02 by (eapply went_le; [by eapply went_trans|lia]).
        assert (expanded (nodes A) (m_heap M) σ2) as E02 by (eapply expanded_trans; [by apply grown_expanded|done]).
        assert (σ2 !! Txt k = Some (opair (root a') (root d))) as Hk2 by (rewrite Er; by eapply expanded_txt).
        w. eapply (wp_cdr_of _ _ _ (proj1 W2) _ _ _ _ _ _ (proj1 (proj2 W02) _ _ Hr) Hk2). intros dp Hdp.
        eapply wp_mono; [eapply (IHl (binders e ++ fs) es' d f2 (with_heap σ2 M) s2 dp j q false)|].
        + eapply (ready_next _ (4 * size A) (4 * size d)); [exact Rd|exact W02|exact E02|by apply Hta|lia|lia|done| | |].
          * eapply text_expanded; [exact E02| |done]. done.
          * by apply W2.
          * eapply formals_at_expanded; [exact E2| |exact Hfm1]. lia.
        + cbn. eapply (parses_m _ _ _ (expanded_morph _ _ _ E02)); exact Hd.
        + lia.
        + cbn beta. intros _ s3 Hpost. eapply (post_cdr (4 * size A) (4 * size d) _ k A d f M s f2 σ2 s2 s3 _ _ a' Htx W02); [| |done|done|done|exact Hpost|].
          * eapply expanded_mono; [exact E02|]. set_solver.
          * lia.
          * intros σ' d' E' Hd'. cbn [resolve_all elements]. constructor; [|exact Hd']. eapply (parse_m _ _ _ (expanded_morph _ _ _ E')). exact Hpa. }
    destruct (head_cases _ _ _ _ _ Ha C) as [(Hh & k' & fm & b & ys & r & Eda & Hnt & Hb & Hlen)|[(Hh & Hb & Hres)|(H1 & H2 & H3 & H4 & Hb)]].
    + assert (bool_decide (root aa = Imp cell_symbol_lambda) || bool_decide (root aa = Imp cell_symbol_define) || bool_decide (root aa = Imp cell_symbol_define_macro) = true) as ->.
      { destruct Hh as [->| ->]; vm_compute; done. }
      rewrite bool_decide_false by (destruct Hh as [->| ->]; done). cbv iota. subst da.
      pose proof (text_node _ _ _ _ _ _ Htda) as (Hk' & Htfm & _). cbn in Hka'.
      w. w. eapply (wp_cdr_of _ _ _ R _ _ _ _ _ _ Hap Hka'). intros dp Hdp. w. eapply (wp_car_of _ _ _ R _ _ _ _ _ _ Hdp Hk'). intros fmp Hfmp.
      assert (Z.of_nat (length (binders e)) <= 4 * size A) as HK.
      { subst A. rewrite !size_node. pose proof (size_pos aa). pose proof (size_pos b). rewrite <- Hlen, app_length. unfold size. rewrite (names_tree_size _ _ _ _ Hnt). pose proof (opt_length r). lia. }
      eapply (wp_formals _ f M s _ p fi fp fs fm ys r (binders e) fmp); [exact Rd|done|done|by apply Htfm|done|lia|]. rewrite Hlen.
      intros f1 σ1 j q s1 W Hg Hj Hfm1. eapply Hgo; try done. by destruct Hh as [->| ->].
    + rewrite Hh. repeat rewrite (bool_decide_false) by (vm_compute; congruence). rewrite bool_decide_true by done. cbn [orb]. w. w. w. w.
      w. eapply (wp_cdr_of _ _ _ R _ _ _ _ _ _ Hr Hk). intros dp Hdp.
      eapply wp_mono; [eapply (IHl fs es' d f M s dp fi fp false)|].
      * assert (with_heap (m_heap M) M = M) as EM by by destruct M. rewrite <- EM at 1. eapply (ready_next _ 0 (4 * size d)); [exact Rd|by apply went_refl|apply (expanded_refl [])|set_solver|lia|lia|done|done|done|].
        eapply formals_at_expanded; [apply (expanded_refl [])| |exact Hfm]. lia.
      * done.
      * lia.
      * cbn beta. intros _ s3 Hpost. assert (with_heap (m_heap M) M = M) as EM by by destruct M.
        eapply (post_cdr 0 (4 * size d) _ k A d f M s f (m_heap M) s s3 _ _ A Htx); [by apply went_refl|apply expanded_refl|lia|done|done|done|rewrite EM; exact Hpost|].
        intros σ' d' E' Hd'. cbn [resolve_all elements]. rewrite Hb, Hres. constructor; [|exact Hd']. by eapply (parse_m _ _ _ (expanded_morph _ _ _ E')).
    + rewrite !bool_decide_false by done. cbn [orb]. w. w. eapply (Hgo f (m_heap M) s fi fp); rewrite ?Hb; cbn [length app]; [by apply went_refl|apply grown_refl|done|done| |lia].
      eapply formals_at_expanded; [apply (expanded_refl [])| |exact Hfm]. lia.
Qed.
End expand.
