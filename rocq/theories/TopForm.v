(** expand_variable on whole forms. *)
From stdpp Require Import base gmap list fin_maps.
From Coq Require Import ZArith Lia.
From Coq Require Import ZifyBool ZifyNat.
From Verif Require Import CInt Symbols Heap HeapLemmas GcModel GcSpec DataModel DataSpec DataLemmas CoreProofs StackModel.
From Verif Require Import EvalModel Rep RepProofs EvalSpec EvalRep EvalLemmas EvalSteps2 TopSpec TopRep TopRename TopExpand TopResolve.
Open Scope Z_scope. Open Scope mes_scope.

Ltac w := first [apply wp_bind | apply wp_ret | apply wp_gets | apply wp_modify].
Ltac kc := (vm_compute; split; congruence).

Section form.
Context (T : table) (xs : Z -> Prop) (gs : list (Z * Z)) (ρ : env) (fuel0 : nat).
Notation setting := (setting T xs gs ρ). Notation text := (text T xs). Notation ready := (ready T xs gs ρ fuel0). Notation post := (post T xs).
Notation P_list := (P_list T xs gs ρ fuel0). Notation P_form := (P_form T xs gs ρ fuel0). Notation resolve_at := (resolve_at gs).

Lemma with_same M : with_heap (m_heap M) M = M.
Proof. by destruct M. Qed.
Lemma post_binding K0 K1 K k kw k' fm b f M s f1 σ1 s1 s2 (P P' : oheap -> tree -> Prop) : text (m_heap M) (Node k (Sym kw) (Node k' fm b)) ->
  rep f M s -> went K0 f M s f1 σ1 s1 -> grown (m_heap M) σ1 -> K0 + K1 <= K -> post K1 b P f1 (with_heap σ1 M) s1 s2 ->
  (forall σ' b', expanded (nodes b) σ1 σ' -> P σ' b' -> P' σ' (Node k (Sym kw) (Node k' fm b'))) ->
  post K (Node k (Sym kw) (Node k' fm b)) P' f M s s2.
Proof.
  intros Ht R W Hg HK Hpost HP. pose proof (text_node _ _ _ _ _ _ Ht) as (Hk & Hs & Ht' & _). pose proof (text_node _ _ _ _ _ _ Ht') as (Hk' & Htf & _).
  pose proof (grown_expanded [] _ _ Hg) as E.
  eapply (post_cdr T xs 0 K K k (Sym kw) (Node k' fm b) f M s f (m_heap M) s s2 (fun σ' t' => P' σ' (Node k (Sym kw) t')) _ (Sym kw) Ht); [by apply went_refl|apply expanded_refl|lia|done|done|done| |done].
  rewrite with_same. eapply (post_cdr T xs K0 K1 K k' fm b f M s f1 σ1 s1 s2 P _ fm Ht' W); [by apply grown_expanded|done|done| | |exact Hpost|exact HP].
  - eapply lookup_weaken; [exact Hk'|apply Hg].
  - eapply text_expanded; [exact E| |done]. set_solver.
Qed.
(** a form that begins with a constant symbol *)
Lemma wp_head n K f M s k kw d p fi fp fs top (Q : unit -> state -> Prop) : ready K f M s (Node k (Sym kw) d) p fi fp fs -> is_const kw ->
  (forall xp dp, f (Imp kw) xp -> f (root d) dp -> wp (if xp =? cell_symbol_lambda then
        d <- cdr_of p ;; f <- car_of d ;; formals <- add_formals fuel0 fp f ;;
        x <- cdr_of d ;;
        expand_variable_ n fuel0 x formals false
      else if (xp =? cell_symbol_define) || (xp =? cell_symbol_define_macro) then
        d <- cdr_of p ;; f <- car_of d ;;
        tf <- ty f ;;
        f <- (if top && (tf =? TPAIR) then cdr_of f else ret f) ;;
        formals <- add_formals fuel0 fp f ;;
        x <- cdr_of d ;;
        expand_variable_ n fuel0 x formals false
      else ret tt) s Q) ->
  kw ∈ [cell_symbol_lambda; cell_symbol_define; cell_symbol_quote] -> wp (expand_variable_ (S n) fuel0 p fp top) s Q.
Proof.
  intros [R S Hr Htx Hf Hn Ha Hu] Hc HQ Hkw. cbn in Hr. pose proof (text_node _ _ _ _ _ _ Htx) as (Hk & _). cbn [root] in Hk.
  destruct (cst_const _ _ (ba_consts _ (st_base _ _ _ _ _ _ S)) kw Hc) as (t' & n' & d' & Ho & Ht' & _).
  cbn [expand_variable_]. w. eapply (wp_ty _ _ _ R _ _ _ _ _ _ Hr Hk). change (negb (TPAIR =? TPAIR)) with false. cbv iota.
  w. eapply (wp_car_of _ _ _ R _ _ _ _ _ _ Hr Hk). intros xp Hxp. w. eapply (wp_rd _ _ _ R _ _ _ _ _ _ Hxp Ho). intros c Hc' _ _. rewrite Hc'.
  assert (t' =? TPAIR = false) as -> by (by destruct Ht' as [->| ->]).
  assert (exists dp, f (root d) dp) as (dp & Hdp). { destruct (rh_pair _ _ _ _ _ _ _ (rp_heap _ _ _ R) Hr Hk) as (q & q' & _ & _ & ?). eauto. }
  specialize (HQ xp dp Hxp Hdp). rewrite (eqc _ _ _ _ _ cell_symbol_lambda R Hxp), (eqc _ _ _ _ _ cell_symbol_define R Hxp), (eqc _ _ _ _ _ cell_symbol_define_macro R Hxp) in * by kc.
  rewrite (eqc _ _ _ _ _ cell_symbol_quote R Hxp) by kc.
  rewrite !elem_of_cons, elem_of_nil in Hkw. destruct Hkw as [->|[->|[->|[]]]]; exact HQ.
Qed.

Lemma form_step n : P_list n -> P_list (S n) -> P_form (S n).
Proof.
  intros IHl IHl' fs e t f M s p fi fp top Rd Hp Hnl Hn. destruct t as [i|k a d]; [by exfalso; apply Hnl|]. clear Hnl.
  pose proof Rd as [R S Hr Htx Hf Hfm HA Hu]. pose proof (text_node _ _ _ _ _ _ Htx) as (Hk & Hta & Htd & Hka & Hkd & Had & Hkv).
  pose proof (ba_consts _ (st_base _ _ _ _ _ _ S)) as C. rewrite size_node in *. pose proof (size_pos a). pose proof (size_pos d).
  assert (tsize (Node k a d) = (1 + tsize a + tsize d)%nat) as Esz by (unfold tsize; cbn; by rewrite app_length). rewrite Esz in Hn.
  (* the rest of a form that begins with a keyword *)
  assert (forall kw es, a = Sym kw -> kw ∈ [cell_symbol_if; cell_symbol_begin; cell_symbol_set_x] -> parses (m_heap M) es d -> binders e = [] ->
    (forall σ' d', parses σ' (resolve_all gs fs es) d' -> parse σ' (resolve_at top fs e) (Node k a d')) ->
    wp (expand_variable_ (Datatypes.S n) fuel0 p fp top) s (fun _ s' => post (4 * (1 + size a + size d)) (Node k a d) (fun σ' t' => parse σ' (resolve_at top fs e) t') f M s s')) as Hkw.
  { intros kw es -> Hkw Hes Eb Hend. rewrite Eb in *. cbn [length] in *. rewrite Z.sub_0_r in *.
    assert (is_const kw) as Hc by (rewrite !elem_of_cons, elem_of_nil in Hkw; destruct Hkw as [->|[->|[->|[]]]]; kc).
    destruct (cst_const _ _ C kw Hc) as (t' & n' & d' & Ho & Ht' & _).
    assert (kw ∈ reserved) as Hres by (unfold reserved, hidden; set_solver).
    assert (kw ∉ fs) as Hfs. { intros Hin. destruct Hfm as (ys & r & Hnm & Hfs & _). apply Hfs in Hin.
      assert (forall z i ys r, names_at (m_heap M) ys r i -> z ∈ ys ++ opt_list r -> name_ok (m_heap M) z) as Hnn.
      { clear. induction 1; cbn; rewrite ?elem_of_cons, ?elem_of_nil; [tauto|by intros [->|[]]|by intros [->|]; auto]. }
      by destruct (Hnn _ _ _ _ Hnm Hin). }
    eapply (wp_leaf T xs gs ρ fuel0 n); [exact Rd|exact Ho|cbn; by destruct Ht' as [->| ->]| | |lia|].
    { rewrite !elem_of_cons, elem_of_nil in Hkw. destruct Hkw as [->|[->|[->|[]]]]; rewrite !elem_of_cons, elem_of_nil; vm_compute; intuition congruence. }
    { intros _. rewrite !elem_of_cons, elem_of_nil in Hkw. destruct Hkw as [->|[->|[->|[]]]]; unfold hidden; rewrite !elem_of_cons, elem_of_nil; vm_compute; intuition congruence. }
    intros f1 σ1 y s1 dp W E Hk1 Hty Hn1 Hs1 Hdp.
    assert (y = kw) as ->. { destruct (decide (otype (OCell t' (WInt n') d') = TSYMBOL)) as [Eo|Eo]; [|by apply Hn1]. specialize (Hs1 Eo).
      rewrite decide_False in Hs1 by done. by rewrite (st_names _ _ _ _ _ _ S kw Hres) in Hs1. }
    eapply wp_mono; [eapply (IHl fs es d f1 (with_heap σ1 M) s1 dp fi fp false)|].
    - eapply (ready_next T xs gs ρ fuel0 _ 2 (4 * size d)); [exact Rd|exact W|exact E|set_solver|lia|lia|done| | |].
      + eapply text_expanded; [exact E| |done]. set_solver.
      + by apply W.
      + eapply formals_at_expanded; [exact E| |exact Hfm]. lia.
    - cbn. eapply (parses_m _ _ _ (expanded_morph _ _ _ E)); exact Hes.
    - lia.
    - cbn beta. intros _ s2 Hpost. eapply (post_cdr T xs 2 (4 * size d) _ k (Sym kw) d f M s f1 σ1 s1 s2 _ _ (Sym kw) Htx W); [| |done|done|done|exact Hpost|].
      + eapply expanded_mono; [exact E|]. set_solver.
      + lia.
      + intros σ' d'' E' Hd'. by apply Hend. }
  (* the rest of a form that binds names *)
  assert (forall kw k' fm fm' b ys r bn es dp fmp, a = Sym kw -> d = Node k' fm b -> parses (m_heap M) es b -> f (root d) dp -> f (root fm') fmp -> tree_at (m_heap M) fm' -> names_tree (m_heap M) ys r fm' -> (forall x, x ∈ bn <-> x ∈ ys ++ opt_list r) ->
    Z.of_nat (length (ys ++ opt_list r)) <= Z.of_nat (length (binders e)) <= 2 + 2 * Z.of_nat (tsize fm) ->
    (forall σ' b', parses σ' (resolve_all gs (bn ++ fs) es) b' -> morph (fun i => i) (m_heap M) σ' -> parse σ' (resolve_at top fs e) (Node k (Sym kw) (Node k' fm b'))) ->
    wp (formals <- add_formals fuel0 fp fmp ;; x <- cdr_of dp ;; expand_variable_ n fuel0 x formals false) s
       (fun _ s' => post (4 * (1 + size a + size d) - Z.of_nat (length (binders e))) (Node k a d) (fun σ' t' => parse σ' (resolve_at top fs e) t') f M s s')) as Hbind.
  { intros kw k' fm fm' b ys r bn es dp fmp -> -> Hes Hdp Hfmp Htf Hnt Hbn Hlen Hend. rewrite size_node in *. pose proof (size_pos b). cbn [root] in Hdp.
    assert (size fm = Z.of_nat (tsize fm)) as Esf by done. assert (tsize (Node k' fm b) = (1 + tsize fm + tsize b)%nat) as Esz' by (unfold tsize; cbn; by rewrite app_length).
    pose proof (text_node _ _ _ _ _ _ Htd) as (Hk' & _ & Htb & _).
    w. eapply (wp_formals T xs gs ρ fuel0 _ f M s _ p fi fp fs fm' ys r bn fmp); [exact Rd|done|done|done|done|lia|].
    intros f1 σ1 j q s1 W Hg Hj Hfm1. pose proof (grown_expanded [] _ _ Hg) as E.
    w. eapply (wp_cdr_of _ _ _ (proj1 W) _ _ _ _ _ _ (proj1 (proj2 W) _ _ Hdp)); [eapply lookup_weaken; [exact Hk'|apply Hg]|]. intros bp Hbp.
    eapply wp_mono; [eapply (IHl (bn ++ fs) es b f1 (with_heap σ1 M) s1 bp j q false)|].
    - eapply (ready_next T xs gs ρ fuel0 _ _ (4 * size b) f M s); [exact Rd|exact W|exact E|set_solver|lia|lia|done| |done|].
      + eapply text_expanded; [exact E| |done]. set_solver.
      + eapply formals_at_expanded; [apply (expanded_refl [])| |exact Hfm1]. lia.
    - cbn. eapply (parses_m _ _ _ (expanded_morph _ _ _ E)); exact Hes.
    - lia.
    - cbn beta. intros _ s2 Hpost. eapply (post_binding _ (4 * size b) _ k kw k' fm b f M s f1 σ1 s1 s2 _ _ Htx R W Hg); [lia|exact Hpost|].
      intros σ' b' E' Hb'. eapply Hend; [done|]. eapply expanded_morph. eapply expanded_trans; [by eapply grown_expanded|exact E']. }
  inversion Hp; subst.
  - (* quote *)
    eapply (wp_head n); [exact Rd|kc| |set_solver]. intros xp dp Hxp _.
    rewrite (eqc _ _ _ _ _ cell_symbol_lambda R Hxp), (eqc _ _ _ _ _ cell_symbol_define R Hxp), (eqc _ _ _ _ _ cell_symbol_define_macro R Hxp) by kc.
    rewrite !bool_decide_false by (vm_compute; congruence). cbn [orb]. w.
    exists f, (m_heap M). eexists. split; [eapply went_le; [by apply went_refl|cbn [binders length]; lia]|]. split; [apply expanded_refl|]. split; [reflexivity|]. split; [reflexivity|]. split; [exact Htx|].
    destruct top; exact Hp.
  - cbn [binders length]. rewrite Z.sub_0_r. eapply Hkw; [done|set_solver|done|done|]. intros σ' d' Hd'. destruct top; by constructor.
  - cbn [binders length]. rewrite Z.sub_0_r. eapply Hkw; [done|set_solver|done|done|]. intros σ' d' Hd'. destruct top; by constructor.
  - (* lambda *)
    eapply (wp_head n); [exact Rd|kc| |set_solver]. intros xp dp Hxp Hdp. rewrite (eqc _ _ _ _ _ cell_symbol_lambda R Hxp), bool_decide_true by (done || kc). cbv iota.
    pose proof (text_node _ _ _ _ _ _ Htd) as (Hk' & Htf & _). cbn in Hr.
    w. eapply (wp_cdr_of _ _ _ R _ _ _ _ _ _ Hr Hk). intros dp' Hdp'. w. eapply (wp_car_of _ _ _ R _ _ _ _ _ _ Hdp' Hk'). intros fmp Hfmp.
    eapply (Hbind _ _ fm fm b xs0 r (xs0 ++ opt_list r)); try done; [by apply Htf| |].
    + cbn [binders]. rewrite app_length. match goal with H : names_tree _ _ _ fm |- _ => rewrite (names_tree_size _ _ _ _ H) end. pose proof (opt_length r). lia.
    + intros σ' b' Hb' Em. rewrite <- app_assoc in Hb'. destruct top; (constructor; [by eapply (names_tree_m _ _ _ Em)|done]).
  - (* set *)
    cbn [binders length]. rewrite Z.sub_0_r. eapply Hkw; [done|set_solver|done|done|]. intros σ' d' Hd'. cbn in Hd'. unfold reference in Hd'.
    assert (resolve_at top fs (ESet x e0) = resolve gs fs (ESet x e0)) as -> by by destruct top. cbn [resolve]. unfold reference.
    destruct (decide (x ∈ fs)); [by constructor|]. destruct (lookup_var x gs); by constructor.
  - cbn [binders length]. rewrite Z.sub_0_r. eapply Hkw; [done|set_solver|done|done|]. intros σ' d' Hd'. cbn in Hd'. destruct top; by constructor.
  - (* define *)
    eapply (wp_head n); [exact Rd|kc| |set_solver]. intros xp dp Hxp Hdp. rewrite (eqc _ _ _ _ _ cell_symbol_lambda R Hxp), (eqc _ _ _ _ _ cell_symbol_define R Hxp) by kc.
    rewrite bool_decide_false by (vm_compute; congruence). rewrite bool_decide_true by done. cbn [orb].
    pose proof (text_node _ _ _ _ _ _ Htd) as (Hk' & Htf & _). cbn in Hr. match goal with H : name_ok _ x |- _ => pose proof H as [(? & ? & Hxo & _) _] end.
    w. eapply (wp_cdr_of _ _ _ R _ _ _ _ _ _ Hr Hk). intros dp' Hdp'. w. eapply (wp_car_of _ _ _ R _ _ _ _ _ _ Hdp' Hk'). intros fmp Hfmp. cbn in Hfmp.
    w. eapply (wp_ty _ _ _ R _ _ _ _ _ _ Hfmp Hxo). change (TSYMBOL =? TPAIR) with false. rewrite andb_false_r. w. w.
    eapply (Hbind _ _ (Sym x) (Sym x) d0 [] (Some x) [x]); try done; [by apply Htf|by constructor|].
    intros σ' b' Hb' Em. destruct top; (constructor; [by eapply (name_ok_m _ _ _ Em)|done]).
  - (* define with formals *)
    eapply (wp_head n); [exact Rd|kc| |set_solver]. intros xp dp Hxp Hdp. rewrite (eqc _ _ _ _ _ cell_symbol_lambda R Hxp), (eqc _ _ _ _ _ cell_symbol_define R Hxp) by kc.
    rewrite bool_decide_false by (vm_compute; congruence). rewrite bool_decide_true by done. cbn [orb].
    pose proof (text_node _ _ _ _ _ _ Htd) as (Hk' & Htf & _). pose proof (text_node _ _ _ _ _ _ Htf) as (Hk2 & _ & Htfm & _). cbn in Hr.
    w. eapply (wp_cdr_of _ _ _ R _ _ _ _ _ _ Hr Hk). intros dp' Hdp'. w. eapply (wp_car_of _ _ _ R _ _ _ _ _ _ Hdp' Hk'). intros fmp Hfmp. cbn in Hfmp.
    w. eapply (wp_ty _ _ _ R _ _ _ _ _ _ Hfmp Hk2). rewrite Z.eqb_refl, andb_true_r.
    match goal with H : names_tree _ _ _ fm |- _ => pose proof H as Hnt; pose proof (names_tree_size _ _ _ _ H) as Hsz end. pose proof (opt_length r).
    assert (tsize (Node k2 (Sym x) fm) = (1 + tsize fm)%nat) as Esf by done.
    destruct top.
    + w. eapply (wp_cdr_of _ _ _ R _ _ _ _ _ _ Hfmp Hk2). intros fmp' Hfmp'.
      eapply (Hbind _ _ (Node k2 (Sym x) fm) fm b xs0 r (xs0 ++ opt_list r)); try done; [by apply Htfm| |].
      * cbn [binders length]. rewrite app_length. lia.
      * intros σ' b' Hb' Em. rewrite <- app_assoc in Hb'. constructor; [by eapply (name_ok_m _ _ _ Em)|by eapply (names_tree_m _ _ _ Em)|done].
    + w. w. eapply (Hbind _ _ (Node k2 (Sym x) fm) (Node k2 (Sym x) fm) b (x :: xs0) r (x :: xs0 ++ opt_list r)); try done; [by apply Htf|by constructor| |].
      * cbn [binders length app]. rewrite app_length. lia.
      * intros σ' b' Hb' Em. cbn [app] in Hb'. rewrite <- app_assoc in Hb'. constructor; [by eapply (name_ok_m _ _ _ Em)|by eapply (names_tree_m _ _ _ Em)|done].
  - (* begin *)
    cbn [binders length]. rewrite Z.sub_0_r. eapply Hkw; [done|set_solver|done|done|]. intros σ' d' Hd'. destruct top; by constructor.
  - (* application *)
    cbn [binders length]. rewrite Z.sub_0_r. cbn [binders length] in Rd. rewrite Z.sub_0_r in Rd.
    eapply wp_mono; [eapply (IHl' fs (f0 :: es) (Node k a d) f M s p fi fp top); [by rewrite size_node|by constructor|lia]|].
    cbn beta. rewrite size_node. intros _ s' (f' & σ' & t' & W & E & Er & En & Ht & Hps). exists f', σ', t'. split; [done|]. split; [done|]. split; [done|]. split; [done|]. split; [done|].
    cbn [resolve_all elements] in Hps. inversion Hps; subst. assert (resolve_at top fs (EApp f0 es) = resolve gs fs (EApp f0 es)) as -> by by destruct top. cbn [resolve]. constructor; [|done|done].
    destruct f0; cbn in *; try done; unfold reference; repeat case_match; done.
Qed.
Lemma expand_all n : P_list n /\ P_form n.
Proof.
  induction n as [|n [IH1 IH2]].
  - split.
    + intros fs es t f M s p fi fp top Rd Hp Hn. inversion Hp; subst; [|cbn in Hn; unfold tsize in Hn; cbn in Hn; lia].
      pose proof Rd as [R S Hr _ _ _ _ _]. destruct (ba_nil _ (st_base _ _ _ _ _ _ S)) as (na & nd & Hnil). cbn [expand_variable_]. w. eapply (wp_ty _ _ _ R _ _ _ _ _ _ Hr Hnil).
      w. exists f, (m_heap M), (Sym cell_nil). split; [by apply went_refl|]. split; [apply expanded_refl|]. split; [done|]. split; [done|]. split; [apply Rd|constructor].
    + intros fs e t f M s p fi fp top Rd Hp Hnl Hn. destruct t; [by exfalso; apply Hnl|]. unfold tsize in Hn; cbn in Hn; lia.
  - assert (P_list (S n)) by (by apply list_step). split; [done|]. by apply form_step.
Qed.

(** a top-level form: the name and the formals of a procedure definition are looked at once more
    when it is evaluated *)
Definition resolve_top (e : exp) : exp := match e with EVar _ => e | _ => resolve_at true [] e end.
Lemma resolve_top_form e : (forall x ys r bd, e <> EDefun x ys r bd) -> resolve_top e = resolve_form gs e.
Proof. destruct e; try done. intros H. by edestruct H. Qed.
Lemma wp_expand K e t f M s p : rep f M s -> setting M (m_heap M) -> f (root t) p -> text (m_heap M) t -> parse (m_heap M) e t ->
  4 * size t <= K -> can_alloc K s -> g_free s + K <= Z.of_nat fuel0 ->
  wp (expand_variable fuel0 p cell_nil) s (fun _ s' => post (4 * size t) t (fun σ' t' => parse σ' (resolve_top e) t') f M s s').
Proof.
  intros R S Hp Htx Hpa HK HA Hu. unfold expand_variable. destruct t as [i|k a d].
  - pose proof Hpa as Hpa'. apply parse_leaf in Hpa as (x & -> & Hx).
    assert (exists o, m_heap M !! Imp x = Some o /\ otype o <> TPAIR) as (o & Ho & Ht).
    { destruct Hx as [(v & o & -> & Ho & Hs & Hh)|[[-> [(m & dd & Ho & _) Hres]]|(l & -> & Ho)]]; (eexists; split; [exact Ho|]); [|done|done].
      destruct o as [tt aa bb| |]; cbn in Hs; [|done..]. destruct Hs as [Hs _]. by destruct Hs as [->|[->|[->|[->| ->]]]]. }
    assert (wp (expand_variable_ fuel0 fuel0 p cell_nil true) s (fun _ s' => s' = s)) as Hw.
    { destruct fuel0; cbn [expand_variable_]; w; (eapply (wp_ty_any _ _ _ R _ _ _ _ Hp Ho)); rewrite (proj2 (Z.eqb_neq _ _) Ht); cbn [negb]; by w. }
    eapply wp_mono; [exact Hw|]. cbn beta. intros _ s' ->. exists f, (m_heap M), (Sym x). split; [eapply went_le; [by apply went_refl|apply Z.mul_nonneg_nonneg; [lia|apply size_pos]]|].
    split; [apply expanded_refl|]. split; [done|]. split; [done|]. split; [done|]. destruct Hx as [(v & o' & -> & _)|[[-> _]|(l & -> & _)]]; exact Hpa'.
  - pose proof (nonneg _ _ _ R). assert (Z.of_nat (length (binders e)) <= 4 * size (Node k a d)) as Hb.
    { destruct (head_cases xs gs _ _ _ _ _ Hpa (ba_consts _ (st_base _ _ _ _ _ _ S))) as [(Hh & k' & fm & b & ys & r & -> & Hnt & Hb & Hlen)|[(_ & -> & _)|(_ & _ & _ & _ & ->)]]; [|cbn [length]; pose proof (size_pos (Node k a d)); lia..].
      rewrite !size_node, <- Hlen, app_length. pose proof (size_pos a). pose proof (size_pos b). unfold size. rewrite (names_tree_size _ _ _ _ Hnt). pose proof (opt_length r). lia. }
    eapply wp_mono; [eapply (proj2 (expand_all fuel0) [] e (Node k a d) f M s p (Imp cell_nil) cell_nil true); [|done|intros []|]|].
    + split; try done.
      * eapply rep_const; [done|kc].
      * exists [], None. split; [constructor|]. split; [done|]. cbn [length]. lia.
      * eapply can_alloc_le; [done|lia].
      * lia.
    + unfold size in *. lia.
    + cbn beta. intros _ s' (f' & σ' & t' & W & E & Er & En & Ht & Hps). exists f', σ', t'. split; [eapply went_le; [done|lia]|]. split; [done|]. split; [done|]. split; [done|]. split; [done|].
      destruct e; try exact Hps. inversion Hpa.
Qed.
(** the second look at the body of a procedure definition, with its formals *)
Lemma wp_expand_body K es t f M s p fs fi fp : rep f M s -> setting M (m_heap M) -> f (root t) p -> text (m_heap M) t -> parses (m_heap M) es t ->
  f fi fp -> formals_at (m_heap M) fi fs (Z.of_nat fuel0 - K) ->
  4 * size t <= K -> can_alloc K s -> g_free s + K <= Z.of_nat fuel0 ->
  wp (expand_variable fuel0 p fp) s (fun _ s' => post (4 * size t) t (fun σ' t' => parses σ' (resolve_all gs fs es) t') f M s s').
Proof.
  intros R S Hp Htx Hpa Hf Hfm HK HA Hu. pose proof (nonneg _ _ _ R). pose proof (size_pos t). unfold expand_variable. eapply (proj1 (expand_all fuel0) fs es t f M s p fi fp true); [|done|unfold size in *; lia].
  split; try done; [|by eapply can_alloc_le|lia]. eapply formals_at_expanded; [apply (expanded_refl [])| |exact Hfm]. lia.
Qed.
End form.
