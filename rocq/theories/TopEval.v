(** A top-level form, expanded already, runs as the semantics says. *)
From stdpp Require Import base gmap list fin_maps.
From Coq Require Import ZArith Lia.
From Coq Require Import ZifyBool ZifyNat.
From Verif Require Import CInt Symbols Heap HeapLemmas GcModel GcSpec DataModel DataSpec DataLemmas CoreProofs StackModel.
From Verif Require Import EvalModel Rep RepProofs EvalSpec EvalRep EvalLemmas EvalBind EvalSplice EvalRun EvalSteps EvalSteps2 EvalSteps3 EvalSteps4 EvalDefine EvalMain.
From Verif Require Import PrimModel EvalPrimSpec EvalPrims.
From Verif Require Import TopSpec TopRep TopRename TopExpand TopResolve TopForm TopMacro TopRun TopDefine.
Open Scope Z_scope. Open Scope mes_scope.

Ltac kc := (vm_compute; split; congruence).
Section form.
Context (T : table) (xs : Z -> Prop) (m : Z) (ρ : env) (width : nat) (d : nat).
Context (load_program : nat -> Z -> M Z) (fuel : nat) (sz : Z) (gl : list id).
Hypothesis Hgl : gl !! 3%nat = Some (Imp (tb_module T)).
Notation world := (world T xs m ρ).
Notation GE gs := (Genv (Imp (tb_module T)) gs).
Notation text := (text T xs).
Notation kept := (kept T xs m).
Notation MS σ r0 r1 r2 r3 st := (Mst σ r0 r1 r2 r3 st sz gl).
Notation frame c b x a e st := (c :: b :: x :: a :: e :: st).
Notation room st k := (Z.of_nat (length st) + 5 * k <= sz).
Notation goes := (goes (prim_call fuel) (load_program fuel) fuel).
Notation run_form := (run_form width (prims width) d ρ).

(** the form has been evaluated *)
Definition finished (U : list Z) (gs' : list (Z * Z)) (μ' : store) (v : val) (σ : oheap) (r0 a b c : id) (st : list id) (M : mst) : Prop :=
  exists σ' j, M = MS σ' a j b c st /\ world gs' μ' σ' r0 /\ val_at σ' v j /\ kept U σ σ'.

Lemma evaluates df gs μ e μ' v d' ρ' U σ r0 ir i r2 r3 c b x a p st : eval width (prims width) gs df d' ρ' μ e μ' v -> world gs μ σ r0 -> env_ok μ ρ' -> env_at σ ρ' ir -> code_at σ e i ->
  room (frame c b x a p st) (Z.of_nat d' + 1) ->
  runsP (defs := df) (prim_call fuel) (load_program fuel) fuel (2 * Z.of_nat width + 12) L_eval (MS σ ir i r2 r3 (frame c b x a p st)) L_eval_apply (fun M =>
     exists σ' j, M = MS σ' a j b c st /\ ext σ σ' /\ world gs μ' σ' r0 /\ val_at σ' v j /\ kept U σ σ').
Proof.
  intros H W Eo He Hc Hroom.
  destruct (eval_sound (GE := GE gs) (defs := df) prim_call load_program sz gl width Hgl (prims width) (prims_ok width) (prims_frame width) _ _ _ _ _ _ H Eo (wo_ok _ _ _ _ _ _ _ _ W)) as (_ & So & Hrun).
  eapply runsP_mono; [eapply Hrun; [by eapply world_consts|exact Hc|exact He|apply W|exact Hroom]|].
  intros M (σ' & j & -> & X & S' & V). exists σ', j. split; [done|]. split; [done|]. split; [by eapply world_ext|]. split; [done|by apply kept_ext].
Qed.
Lemma goes_define_tail U gs μ σ r0 j x k b0 c b x0 a p st l v N : world gs μ σ r0 -> lookup_var x gs = Some l -> val_at σ v j -> defining σ x k b0 -> xs x -> 1 <= N ->
  goes outer any N L_eval_apply (MS σ r0 j (Imp k) (Imp cell_vm_eval_define) (frame c b x0 a p st)) L_eval_apply
    (finished U gs (<[l := SVar x v]> μ) v_unspecified σ r0 a b c st).
Proof.
  intros W Hl V Hd Hx HN. eapply goes_bind_outer; [apply (runs_dispatch _ _ _ _ _ cell_vm_eval_define L_eval_define); [reflexivity|kc]|lia|].
  eapply goes_seq; [by eapply (goes_eval_define T xs m ρ (prim_call fuel) (load_program fuel) fuel sz gl gs μ σ r0 j x k b0 _ _ l v)|lia|]. intros M1 (σ1 & -> & X & W1).
  eapply goes_bind_outer; [apply runs_return|lia|].
  eapply goes_mono; [apply goes_here; [lia|]| |by intros v' _]; [|intros M HM; exact HM].
  exists σ1, (Imp cell_unspecified). split; [done|]. split; [done|]. split; [|by apply kept_ext].
  destruct (cst_const _ _ (ba_consts _ (wo_base _ _ _ _ _ _ _ _ W1)) cell_unspecified) as (t' & n' & d' & Hno & Ht' & _); [kc|]. cbn. split; [done|]. eexists. split; [exact Hno|]. cbn. destruct Ht' as [-> | ->]; auto.
Qed.
Lemma finished_kept U gs' μ' v σ0 σ r0 a b c st M : kept U σ0 σ -> finished U gs' μ' v σ r0 a b c st M -> finished U gs' μ' v σ0 r0 a b c st M.
Proof. intros K (σ' & j & -> & W & V & K'). exists σ', j. split; [done|]. split; [done|]. split; [done|]. by eapply kept_trans. Qed.

Lemma untouched_mono U U' is : (forall k, k ∈ U' -> k ∈ U) -> Forall (untouched U) is -> Forall (untouched U') is.
Proof. intros H Hf. eapply Forall_impl; [exact Hf|]. intros i Hi k Hk. by apply Hi, H. Qed.
Lemma env_untouched U σ ρ' i : env_at σ ρ' i -> untouched U i.
Proof. destruct 1; by intros ? _. Qed.
Lemma text_rename U mm σ t : unused U mm σ -> (forall k, k ∈ nodes t -> k ∉ U) -> text σ t -> text (ren_heap U mm σ) t.
Proof.
  intros Hm Hd [H1 H2 H3 H4]. pose proof (ren_morph _ _ _ Hm) as Em. split; [by apply ren_tree|done|done|].
  intros x Hx. destruct (H4 x Hx) as (o & Ho & Hs). exists (mo (ren U mm) o). split; [by eapply m_obj|]. by destruct o.
Qed.
Lemma defining_m π σ σ' x k b : morph π σ σ' -> defining σ x k b -> defining σ' x k (π b).
Proof.
  intros E (k1 & t & H1 & H2 & H3 & H4). exists k1, t.
  assert (π t = t) as Et. { destruct H3 as [->|(k2 & fm & -> & H3)]; [apply (name_ok_m _ _ _ E) in H4; tauto|by eapply m_fix]. }
  pose proof (m_car _ _ _ E _ _ _ _ H1) as E1. pose proof (m_cdr _ _ _ E _ _ _ _ H1) as E2.
  apply (m_pair _ _ _ E) in H1, H2. rewrite E1, E2 in H1. rewrite Et in H2. split; [done|]. split; [done|]. split; [|by apply (name_ok_m _ _ _ E) in H4 as [? _]].
  destruct H3 as [->|(k2 & fm & -> & H3)]; [by left|right]. exists k2, (π fm). split; [done|]. pose proof (m_car _ _ _ E _ _ _ _ H3) as E3. apply (m_pair _ _ _ E) in H3. by rewrite E3 in H3.
Qed.

Lemma eval_form gs μ e gs' μ' v : run_form gs μ e gs' μ' v ->
  forall N σ r0 t r2 r3 c b x a p st, world gs μ σ r0 -> text σ t -> parse σ (resolve_top gs e) t ->
    Forall (untouched (nodes t)) (r0 :: r2 :: r3 :: frame c b x a p st ++ gl) -> room (frame c b x a p st) (Z.of_nat d + 2) -> 2 * Z.of_nat width + 12 + 4 * size t <= N ->
    goes any any N L_eval (MS σ r0 (root t) r2 r3 (frame c b x a p st)) L_eval_apply (finished (nodes t) gs' μ' v σ r0 a b c st).
Proof.
  intros H N σ r0 t r2 r3 c b x a p st W Htx Hpa Hu Hroom HN. pose proof (size_pos t) as Hsz. destruct H as [e μ' v He H|x0 e l gs1 μ1 l0 μ2 v Hd Hl0 H|x0 ys r bd l gs1 μ1 bs μ2 lc Hd Hlen Hb Hlc body].
  - (* an expression *)
    rewrite resolve_top_form in Hpa by (by intros ? ? ? ? ->). apply (goes_rename _ _ _ _ _ _ _ (nodes t)); [exact Hu|]. intros mm Hm.
    pose proof (proj1 (ren_codes _ _ _ Hm) _ _ Hpa (tx_at _ _ _ _ Htx) (fun k H => H)) as Hc. pose proof (world_rename _ _ _ _ _ _ _ _ _ _ Hm (tx_apart _ _ _ _ Htx) W) as W1.
    eapply goes_mono; [eapply goes_any, runsP_le; [eapply (evaluates true gs μ _ μ' v d ρ (nodes t)); [exact H|exact W1|by eapply world_env|apply W1|exact Hc|lia]|lia]| |done].
    intros M (σ' & j & -> & X & W' & V & K). exists σ', j. split; [done|]. split; [done|]. split; [done|]. eapply kept_trans; [by apply kept_rename|done].
  - (* a variable *)
    change (resolve_top gs (EDefine x0 e)) with (EDefine x0 (resolve gs (binders e ++ [x0]) e)) in Hpa.
    pose proof (declares_ok T gs μ x0 l gs1 μ1 Hd (wo_ok _ _ _ _ _ _ _ _ W)) as (O1 & L1 & Hl).
    inversion Hpa as [| | | | | | | | |? ? k k1 dt Hx Hps| | |]; subst. inversion Hps as [|? ? k2 ae dn Hpe Hpn]; subst. inversion Hpn; subst.
    pose proof (tx_at _ _ _ _ Htx) as Ht. inversion Ht as [|? ? ? Hk _ Ht1]; subst. inversion Ht1 as [|? ? ? Hk1 _ Ht2]; subst. inversion Ht2 as [|? ? ? Hk2 Ht3 _]; subst. cbn [root] in Hk, Hk1, Hk2.
    assert (xs x0) as Hxs. { destruct (tx_known _ _ _ _ Htx x0) as (o & Ho & Hs); [apply oc_cdr, oc_car, oc_leaf|]. apply Hs. destruct Hx as [(? & ? & Hxo & _) _]. rewrite Hxo in Ho. by injection Ho as <-. }
    set (t := Node k _ _) in *. apply (goes_rename _ _ _ _ _ _ _ (nodes t)); [exact Hu|]. intros mm Hm. pose proof (ren_morph _ _ _ Hm) as Em.
    assert (k ∈ nodes t /\ k1 ∈ nodes t /\ k2 ∈ nodes t /\ forall z, z ∈ nodes ae -> z ∈ nodes t) as (I0 & I1 & I2 & I3). { unfold t. cbn. split; [set_solver|]. split; [set_solver|]. split; set_solver. }
    pose proof (proj1 (ren_codes _ _ _ Hm) _ _ Hpe Ht3 I3) as Hc. pose proof (world_rename _ _ _ _ _ _ _ _ _ _ Hm (tx_apart _ _ _ _ Htx) W) as W1.
    apply (name_ok_m _ _ _ Em) in Hx as [Hx Ex].
    apply (ren_node (nodes t) mm σ k (Sym cell_symbol_define) (Node k1 (Sym x0) (Node k2 ae (Sym cell_nil))) I0) in Hk. apply (ren_node (nodes t) mm σ k1 (Sym x0) (Node k2 ae (Sym cell_nil)) I1) in Hk1. apply (ren_node (nodes t) mm σ k2 ae (Sym cell_nil) I2) in Hk2.
    cbn [root] in Hk, Hk1, Hk2. rewrite (ren_const _ _ _ Hm) in Hk by kc. rewrite (ren_const _ _ _ Hm) in Hk2 by kc. rewrite Ex in Hk1. rewrite (ren_txt _ _ _ I1) in Hk. rewrite (ren_txt _ _ _ I2) in Hk1.
    replace (ren (nodes t) mm (root t)) with (Imp (mm + k)) by (symmetry; by apply ren_txt).
    set (σ0 := ren_heap _ _ _) in *.
    eapply (goes_seq _ _ _ any outer); [apply (goes_step _ _ _ _ _ 7); [lia|]; intros f0 v0 s0 _ R0 En0; eapply (wp_top_define_var T xs m ρ (prim_call fuel) (load_program fuel) fuel sz gl f0 v0 s0 gs μ σ0 r0 (mm + k) (mm + k1) (mm + k2) x0 _ r2 r3 _ l gs1 μ1 l0); try done; cbn [length] in *; lia|lia|].
    intros M1 (σ1 & σ2 & i0 & -> & D & X & W2 & Henv).
    assert (code_at σ2 (resolve gs (binders e ++ [x0]) e) (ren (nodes t) mm (root ae))) as Hc2 by (eapply code_at_ext; [exact X|]; eapply (code_at_m _ _ _ (ext0_morph _ _ (proj1 D))), Hc).
    pose proof (wo_ok _ _ _ _ _ _ _ _ W2) as O2.
    eapply goes_seq; [eapply goes_outer, (evaluates false gs1 _ _ μ2 v d (EBind x0 l0 ρ) (nodes t) σ2 r0); [exact H|exact W2| |exact Henv|exact Hc2|cbn [length] in *; lia]|lia|].
    { eapply eo_bind; [apply lookup_insert|]. by eapply world_env. }
    intros M2 (σ3 & j & -> & X3 & W3 & V & K3).
    eapply goes_mono; [eapply (goes_define_tail (nodes t) gs1 μ2 σ3 r0 j x0 (mm + k) (Imp (mm + k2))); [exact W3|exact Hl|exact V| |exact Hxs|lia]| |done].
    + eapply defining_ext; [exact X3|]. eapply defining_ext; [exact X|]. eapply defining_var; [apply D; exact Hk|apply D; exact Hk1|]. by apply (name_ok_m _ _ _ (ext0_morph _ _ (proj1 D))).
    + intros M HM. eapply finished_kept; [|exact HM]. eapply kept_trans; [by apply kept_rename|]. eapply kept_trans; [by apply kept_declared|]. eapply kept_trans; [by apply kept_ext|exact K3].
  - (* a procedure *)
    change (resolve_top gs (EDefun x0 ys r bd)) with (EDefun x0 ys r (resolve_all gs (ys ++ opt_list r ++ []) bd)) in Hpa. rewrite app_nil_r in Hpa.
    pose proof (declares_ok T gs μ x0 l gs1 μ1 Hd (wo_ok _ _ _ _ _ _ _ _ W)) as (O1 & L1 & Hl).
    inversion Hpa as [| | | | | | | | | |? ? ? ? k k1 k2 fm bt Hx Hnt Hps| |]; subst.
    pose proof (tx_at _ _ _ _ Htx) as Ht. inversion Ht as [|? ? ? Hk _ Ht1]; subst. inversion Ht1 as [|? ? ? Hk1 Ht2 Htb]; subst. inversion Ht2 as [|? ? ? Hk2 _ Htf]; subst. cbn [root] in Hk, Hk1, Hk2.
    assert (xs x0) as Hxs. { destruct (tx_known _ _ _ _ Htx x0) as (o & Ho & Hs); [apply oc_cdr, oc_car, oc_car, oc_leaf|]. apply Hs. destruct Hx as [(? & ? & Hxo & _) _]. rewrite Hxo in Ho. by injection Ho as <-. }
    set (t := Node k _ _) in *. set (U := k :: k1 :: k2 :: nodes fm).
    assert (nodes t = U ++ nodes bt) as Enodes. { unfold t, U. cbn. by rewrite <- app_assoc || done. }
    pose proof (tx_once _ _ _ _ Htx) as Hnd. rewrite Enodes in Hnd. apply NoDup_app in Hnd as (HnU & Hdis & Hnb).
    assert (forall z, z ∈ nodes bt -> z ∉ U) as Hdis' by (intros z Hz HzU; by eapply Hdis).
    assert (text σ bt) as Htxb. { destruct Htx as [_ _ Hap Hkn]. split; [done|done| |]. { intros Hin. apply Hap. rewrite Enodes. apply elem_of_app. by right. } intros z Hz. apply Hkn. by apply oc_cdr, oc_cdr. }
    apply (goes_rename _ _ _ _ _ _ _ U). { eapply untouched_mono; [|exact Hu]. intros z Hz. rewrite Enodes. apply elem_of_app. by left. }
    intros mm Hm. pose proof (ren_morph _ _ _ Hm) as Em.
    assert (k ∈ U /\ k1 ∈ U /\ k2 ∈ U /\ forall z, z ∈ nodes fm -> z ∈ U) as (I0 & I1 & I2 & I3). { unfold U. split; [set_solver|]. split; [set_solver|]. split; set_solver. }
    assert (tb_vector T ∉ U) as HvU. { intros Hin. apply (tx_apart _ _ _ _ Htx). rewrite Enodes. apply elem_of_app. by left. }
    pose proof (world_rename _ _ _ _ _ _ _ _ _ _ Hm HvU W) as W1. pose proof (ren_names _ _ _ Hm _ _ _ Hnt Htf I3) as Hnm.
    apply (name_ok_m _ _ _ Em) in Hx as [Hx Ex].
    assert (ren U mm (root bt) = root bt) as Eb. { eapply (ren_root _ _ _ Hm (Txt k1)); [|done|done]. right. right. by eexists. }
    apply (ren_node U mm σ k (Sym cell_symbol_define) (Node k1 (Node k2 (Sym x0) fm) bt) I0) in Hk. apply (ren_node U mm σ k1 (Node k2 (Sym x0) fm) bt I1) in Hk1. apply (ren_node U mm σ k2 (Sym x0) fm I2) in Hk2.
    cbn [root] in Hk, Hk1, Hk2. rewrite (ren_const _ _ _ Hm) in Hk by kc. rewrite Ex in Hk2. rewrite (ren_txt _ _ _ I1) in Hk. rewrite (ren_txt _ _ _ I2), Eb in Hk1.
    replace (ren U mm (root t)) with (Imp (mm + k)) by (symmetry; by apply ren_txt).
    pose proof (text_rename _ _ _ _ Hm Hdis' Htxb) as Htx1. apply (parses_m _ _ _ Em) in Hps.
    assert (kept (nodes t) σ (ren_heap U mm σ)) as K1. { eapply kept_mono; [by apply kept_rename|]. intros z Hz. rewrite Enodes. apply elem_of_app. by left. }
    set (σ0 := ren_heap _ _ _) in *.
    assert (size t = Z.of_nat (length U) + size bt) as Esz. { unfold size, tsize. rewrite Enodes, app_length. lia. }
    eapply (goes_seq _ _ _ any outer _ _ (2 * Z.of_nat (length ys) + 11 + 4 * size bt)); [apply goes_step; [pose proof (size_pos bt); lia|]; intros f0 v0 s0 _ R0 En0; eapply (wp_top_define_fun T xs m ρ (prim_call fuel) (load_program fuel) fuel sz gl f0 v0 s0 gs μ σ0 r0 (mm + k) (mm + k1) (mm + k2) x0 ys r _ _ bt r2 r3 _ l gs1 μ1 bs μ2); try done; cbn [length] in *; lia|lia|].
    intros M1 (σ1 & i0 & k3 & k4 & b' & -> & D & K2 & W2 & Henv & Hk4 & Hk3 & Hnm1 & Enb & Htx2 & Hps2).
    assert (defining σ0 x0 (mm + k) (root bt)) as Hdf by (by eapply defining_fun). apply (defining_m _ _ _ _ _ _ (ext0_morph _ _ D)) in Hdf.
    assert (env_ok μ2 (extend bs ρ)) as Eo. { destruct (bind_args_ok (GE := GE gs1) _ _ _ _ _ _ Hb O1) as (L2 & O2 & Hv). apply env_ok_extend; [done|]. by eapply world_env. }
    apply (goes_rename _ _ _ _ _ _ _ (nodes bt)).
    { assert (forall z, z ∈ nodes bt -> z ∈ nodes t) as Hsub by (intros z Hz; rewrite Enodes; apply elem_of_app; by right). pose proof (untouched_mono _ (nodes bt) _ Hsub Hu) as Hu'. rewrite !Forall_cons in Hu' |- *. cbn in Hu' |- *. rewrite !Forall_cons in Hu' |- *.
      destruct Hu' as (U0 & U2 & U3 & Hu'). split; [by eapply env_untouched|]. split; [by intros ? _|]. split; [exact U3|]. split; [by intros ? _|]. split; [by intros ? _|]. split; [by intros ? _|]. split; [exact U0|]. split; [by intros ? _|]. by rewrite !Forall_cons. }
    intros mm2 Hm2. pose proof (ren_morph _ _ _ Hm2) as Em2. rewrite (m_fix _ _ _ Em2 _ _ Hk4).
    assert (forall z, z ∈ nodes b' -> z ∈ nodes bt) as Inb by (by rewrite Enb).
    pose proof (proj2 (ren_codes _ _ _ Hm2) _ _ Hps2 (tx_at _ _ _ _ Htx2) Inb) as Hcb. pose proof (world_rename _ _ _ _ _ _ _ _ _ _ Hm2 (tx_apart _ _ _ _ Htxb) W2) as W3.
    apply (names_at_m _ _ _ Em2) in Hnm1 as [Hnm3 Enm]. pose proof (m_cdr _ _ _ Em2 _ _ _ _ Hk4) as E3. pose proof (m_car _ _ _ Em2 _ _ _ _ Hk4) as E4. apply (m_pair _ _ _ Em2) in Hk3, Hk4. rewrite Enm in Hk3. rewrite E3, E4 in Hk4.
    pose proof (env_at_m _ _ _ Em2 _ _ Henv) as [Henv2 _]. apply (defining_m _ _ _ _ _ _ Em2) in Hdf.
    assert (kept (nodes t) σ0 (ren_heap (nodes bt) mm2 σ1)) as K3. { eapply kept_mono with (U := nodes bt); [|intros z Hz; rewrite Enodes; apply elem_of_app; by right]. eapply kept_trans; [exact K2|by apply kept_rename]. }
    set (σ2 := ren_heap (nodes bt) _ _) in *.
    assert (code_at σ2 (ELam ys r body) (Imp k4)) as Hc by (by eapply co_lam).
    eapply goes_seq; [eapply goes_outer, (evaluates false gs1 μ2 (ELam ys r body) _ (VLoc lc) d (extend bs ρ) (nodes t) σ2 r0); [by apply ev_lam|exact W3|exact Eo|exact Henv2|exact Hc|cbn [length] in *; lia]|pose proof (size_pos bt); lia|].
    intros M2 (σ3 & j & -> & X3 & W4 & V & K4).
    eapply goes_mono; [eapply (goes_define_tail (nodes t) gs1 _ σ3 r0 j x0 (mm + k)); [exact W4|exact Hl|exact V|by eapply defining_ext|exact Hxs|lia]| |done].
    intros M HM. eapply finished_kept; [|exact HM]. eapply kept_trans; [exact K1|]. eapply kept_trans; [exact K3|exact K4].
Qed.
End form.
