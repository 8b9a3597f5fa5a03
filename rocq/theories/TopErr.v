(** A program that goes wrong signals the error that the semantics says. *)
From stdpp Require Import base gmap list fin_maps.
From Coq Require Import ZArith Lia.
From Coq Require Import ZifyBool ZifyNat.
From Verif Require Import CInt Symbols Heap HeapLemmas GcModel GcSpec DataModel DataSpec DataLemmas CoreProofs StackModel.
From Verif Require Import EvalModel Rep RepProofs EvalSpec EvalRep EvalLemmas EvalBind EvalSplice EvalRun EvalSteps EvalSteps2 EvalSteps3 EvalErrSpec EvalRaise EvalSteps4 EvalDefine EvalMain EvalErrMain.
From Verif Require Import PrimModel EvalPrimSpec EvalPrims EvalErrTop.
From Verif Require Import TopSpec TopErrSpec TopRep TopRename TopExpand TopResolve TopForm TopMacro TopRun TopDefine TopEval TopMain.
Open Scope Z_scope. Open Scope mes_scope.

Ltac kc := (vm_compute; split; congruence).

Section runs.
Context (prim : Z -> list Z -> M Z) (load_program : Z -> M Z) (fuel : nat).
Notation goes := (goes prim load_program fuel).
Notation runsX := (runsX prim load_program fuel).
Lemma goesX (W : locals -> Prop) N N1 l M l1 (P1 : mst -> Prop) μ key w : goes any W N1 l M l1 P1 -> N1 <= N -> (forall M1, P1 M1 -> runsX N l1 M1 μ key w) -> runsX N l M μ key w.
Proof.
  intros [H0 H] Hle H'. split; [lia|]. intros f v s R Hr Ht.
  destruct (H f v s I R) as (f1 & s1 & M1 & v1 & S1 & K1 & R1 & HP1). { eapply roomy_le; [done|lia]. }
  destruct (H' M1 HP1) as [_ H1]. destruct (H1 f1 v1 s1 R1) as (l2 & v2 & s2 & S2 & Th). { by eapply roomy_steps. } { by eapply texts_steps. }
  exists l2, v2, s2. split; [by eapply steps_trans|done].
Qed.
Context (sz : Z) (gl : list id).
Notation MS σ r0 r1 r2 r3 st := (Mst σ r0 r1 r2 r3 st sz gl).
Lemma runsX_rename U N l σ r0 r1 r2 r3 st μ key w : Forall (untouched U) (r0 :: r2 :: r3 :: st ++ gl) ->
  (forall m, unused U m σ -> runsX N l (MS (ren_heap U m σ) r0 (ren U m r1) r2 r3 st) μ key w) -> runsX N l (MS σ r0 r1 r2 r3 st) μ key w.
Proof.
  intros Hf H. destruct (unused_names U σ) as (m & Hm). destruct (H m Hm) as [H0 H']. split; [done|]. intros f v s R Hr Ht.
  rewrite !Forall_cons, Forall_app in Hf. destruct Hf as (F0 & F2 & F3 & Fs & Fg).
  pose proof (rep_rename U m σ Hm f (MS σ r0 r1 r2 r3 st) s eq_refl R) as R'. unfold ren_mst in R'. cbn [m_heap m_r0 m_r1 m_r2 m_r3 m_stk m_size m_glob] in R'.
  pose proof (rp_r0 _ _ _ R) as E0. pose proof (rp_r2 _ _ _ R) as E2. pose proof (rp_r3 _ _ _ R) as E3. pose proof (rp_stk _ _ _ R) as Es. pose proof (rp_glob _ _ _ R) as Eg. cbn [m_r0 m_r2 m_r3 m_stk m_glob] in E0, E2, E3, Es, Eg.
  rewrite (ren_live U m σ f (MS σ r0 r1 r2 r3 st) s _ _ Hm eq_refl R E0 F0), (ren_live U m σ f (MS σ r0 r1 r2 r3 st) s _ _ Hm eq_refl R E2 F2), (ren_live U m σ f (MS σ r0 r1 r2 r3 st) s _ _ Hm eq_refl R E3 F3) in R'.
  assert (map (ren U m) gl = gl) as Egl. { eapply (ren_live_all U m σ f (MS σ r0 r1 r2 r3 st) s _ Hm eq_refl R); [|exact Fg]. intros i (k & Hk)%elem_of_list_lookup. destruct (Forall2_lookup_l _ _ _ _ _ Eg Hk) as (p & _ & Hp). by exists p. }
  assert (map (ren U m) st = st) as Est. { eapply (ren_live_all U m σ f (MS σ r0 r1 r2 r3 st) s _ Hm eq_refl R); [|exact Fs]. intros i (k & Hk)%elem_of_list_lookup. destruct (Es _ _ Hk) as (p & _ & Hp). by exists p. }
  rewrite Egl, Est in R'. by eapply H'.
Qed.
End runs.

Section form.
Context (T : table) (xs : Z -> Prop) (m : Z) (ρ : env) (width : nat) (d : nat).
Context (load_program : nat -> Z -> M Z) (fuel : nat) (sz : Z) (gl : list id).
Hypothesis Hgl : gl !! 3%nat = Some (Imp (tb_module T)).
Hypothesis Hgm : gl !! 1%nat = Some (Imp m).
Notation world := (world T xs m ρ).
Notation GE gs ms := (GenvM (Imp (tb_module T)) gs ms).
Notation text := (text T xs).
Notation forms := (forms T xs m).
Notation MS σ r0 r1 r2 r3 st := (Mst σ r0 r1 r2 r3 st sz gl).
Notation frame c b x a e st := (c :: b :: x :: a :: e :: st).
Notation room st k := (Z.of_nat (length st) + 5 * k <= sz).
Notation goes := (goes (prim_call fuel) (load_program fuel) fuel).
Notation runsX := (runsX (prim_call fuel) (load_program fuel) fuel).
Notation run_form := (run_form width (prims width) d ρ).
Notation form_raises := (form_raises width (prims width) prim_errs d ρ xs).
Notation program_raises := (program_raises width (prims width) prim_errs d ρ xs).
Notation missing_in := (missing_in xs).

(** names of the program without a global variable are not in the table *)
Lemma world_missing gs ms μ σ r0 : world gs μ σ r0 -> missing_in gs ms -> consts_ok (GE gs ms) σ.
Proof.
  intros W Hms. destruct (world_consts T xs m ρ _ _ _ _ W) as [C1 C2 _]. split; [exact C1| |].
  - intros x l Hl. destruct (C2 x l Hl) as (? & ? & ? & ? & ? & ? & ? & ? & ? & ? & ? & ? & []). do 12 eexists. split; done.
  - intros x Hx. unfold TopErrSpec.missing_in in Hms. cbn in Hx. rewrite Forall_forall in Hms. destruct (Hms x Hx) as [Hxs Hno].
    destruct (wo_globals _ _ _ _ _ _ _ _ W) as (bs & [(ss & M1 & M2) (ts & T1 & T2 & T3 & T4) Hv Hb]).
    destruct (Hb x) as (h & i & (n & nb & nm & N1 & N2 & N3 & ->) & Hi & Hw); [by left|]. rewrite Hno in Hw.
    exists ss, ts, bs, (Imp (tb_table T)), (Txt (tb_vector T)), (Imp nb), i, (tb_size T), n, nm. split; cbn; try done.
    destruct Hw as [(k & o & -> & Ho & Hty)|(es & Hl & Hne & Hs)]; [left; by exists o|right]. exists es. split; [done|]. split; [by apply ilist_flist|done].
Qed.
Lemma raising df gs ms μ e μ' key w d' ρ' σ r0 ir i r2 r3 c b x a p st : raises width (prims width) prim_errs gs ms df d' ρ' μ e μ' key w ->
  world gs μ σ r0 -> missing_in gs ms -> env_ok μ ρ' -> env_at σ ρ' ir -> code_at σ e i -> room (frame c b x a p st) (Z.of_nat d' + 1) ->
  runsX (2 * Z.of_nat width + 12) L_eval (MS σ ir i r2 r3 (frame c b x a p st)) μ' key w.
Proof.
  intros H W Hms Eo He Hc Hroom.
  assert (store_ok (GE gs ms) μ) as So by (destruct (wo_ok _ _ _ _ _ _ _ _ W); by split).
  pose proof (raises_sound (GE := GE gs ms) (defs := df) prim_call load_program sz gl width Hgl (prims width) (prims_ok width) (prims_frame width) prim_errs prim_errs_fail _ _ _ _ _ _ _ H Eo So) as Hrun.
  cbn in Hrun. apply Hrun; try done; [by eapply world_missing|apply W].
Qed.

Lemma form_goes_wrong gs μ e μ' key w : form_raises gs μ e μ' key w ->
  forall N σ r0 t r2 r3 c b x a p st, world gs μ σ r0 -> text σ t -> parse σ (resolve_top gs e) t ->
    Forall (untouched (nodes t)) (r0 :: r2 :: r3 :: frame c b x a p st ++ gl) -> room (frame c b x a p st) (Z.of_nat d + 2) -> 2 * Z.of_nat width + 12 + 4 * size t <= N ->
    runsX N L_eval (MS σ r0 (root t) r2 r3 (frame c b x a p st)) μ' key w.
Proof.
  intros H N σ r0 t r2 r3 c b x a p st W Htx Hpa Hu Hroom HN. pose proof (size_pos t) as Hsz. destruct H as [e ms μ' key w He Hms H|x0 e l gs1 μ1 l0 ms μ' key w Hd Hl0 Hms H].
  - rewrite resolve_top_form in Hpa by (by intros ? ? ? ? ->). apply (runsX_rename _ _ _ _ _ (nodes t)); [exact Hu|]. intros mm Hm.
    pose proof (proj1 (ren_codes _ _ _ Hm) _ _ Hpa (tx_at _ _ _ _ Htx) (fun k H => H)) as Hc. pose proof (world_rename _ _ _ _ _ _ _ _ _ _ Hm (tx_apart _ _ _ _ Htx) W) as W1.
    eapply runsX_le; [eapply (raising true gs ms μ _ μ' key w d ρ); [exact H|exact W1|exact Hms|by eapply world_env|apply W1|exact Hc|lia]|lia].
  - change (resolve_top gs (EDefine x0 e)) with (EDefine x0 (resolve gs (binders e ++ [x0]) e)) in Hpa.
    inversion Hpa as [| | | | | | | | |? ? k k1 dt Hx Hps| | |]; subst. inversion Hps as [|? ? k2 ae dn Hpe Hpn]; subst. inversion Hpn; subst.
    pose proof (tx_at _ _ _ _ Htx) as Ht. inversion Ht as [|? ? ? Hk _ Ht1]; subst. inversion Ht1 as [|? ? ? Hk1 _ Ht2]; subst. inversion Ht2 as [|? ? ? Hk2 Ht3 _]; subst. cbn [root] in Hk, Hk1, Hk2.
    assert (xs x0) as Hxs. { destruct (tx_known _ _ _ _ Htx x0) as (o & Ho & Hs); [apply oc_cdr, oc_car, oc_leaf|]. apply Hs. destruct Hx as [(? & ? & Hxo & _) _]. rewrite Hxo in Ho. by injection Ho as <-. }
    set (t := Node k _ _) in *. apply (runsX_rename _ _ _ _ _ (nodes t)); [exact Hu|]. intros mm Hm. pose proof (ren_morph _ _ _ Hm) as Em.
    assert (k ∈ nodes t /\ k1 ∈ nodes t /\ k2 ∈ nodes t /\ forall z, z ∈ nodes ae -> z ∈ nodes t) as (I0 & I1 & I2 & I3). { unfold t. cbn. split; [set_solver|]. split; [set_solver|]. split; set_solver. }
    pose proof (proj1 (ren_codes _ _ _ Hm) _ _ Hpe Ht3 I3) as Hc. pose proof (world_rename _ _ _ _ _ _ _ _ _ _ Hm (tx_apart _ _ _ _ Htx) W) as W1.
    apply (name_ok_m _ _ _ Em) in Hx as [Hx Ex].
    apply (ren_node (nodes t) mm σ k (Sym cell_symbol_define) (Node k1 (Sym x0) (Node k2 ae (Sym cell_nil))) I0) in Hk. apply (ren_node (nodes t) mm σ k1 (Sym x0) (Node k2 ae (Sym cell_nil)) I1) in Hk1. apply (ren_node (nodes t) mm σ k2 ae (Sym cell_nil) I2) in Hk2.
    cbn [root] in Hk, Hk1, Hk2. rewrite (ren_const _ _ _ Hm) in Hk by kc. rewrite (ren_const _ _ _ Hm) in Hk2 by kc. rewrite Ex in Hk1. rewrite (ren_txt _ _ _ I1) in Hk. rewrite (ren_txt _ _ _ I2) in Hk1.
    replace (ren (nodes t) mm (root t)) with (Imp (mm + k)) by (symmetry; by apply ren_txt).
    set (σ0 := ren_heap _ _ _) in *.
    eapply (goesX _ _ _ outer); [apply (goes_step _ _ _ _ _ 7); [lia|]; intros f0 v0 s0 _ R0 En0; eapply (wp_top_define_var T xs m ρ (prim_call fuel) (load_program fuel) fuel sz gl f0 v0 s0 gs μ σ0 r0 (mm + k) (mm + k1) (mm + k2) x0 _ r2 r3 _ l gs1 μ1 l0); try done; cbn [length] in *; lia|lia|].
    intros M1 (σ1 & σ2 & i0 & -> & D & X & W2 & Henv).
    assert (code_at σ2 (resolve gs (binders e ++ [x0]) e) (ren (nodes t) mm (root ae))) as Hc2 by (eapply code_at_ext; [exact X|]; eapply (code_at_m _ _ _ (ext0_morph _ _ (proj1 D))), Hc).
    eapply runsX_le; [eapply (raising false gs1 ms _ _ μ' key w d (EBind x0 l0 ρ) σ2 r0); [exact H|exact W2|exact Hms| |exact Henv|exact Hc2|cbn [length] in *; lia]|lia].
    eapply eo_bind; [apply lookup_insert|]. by eapply world_env.
Qed.

(** macro expansion, expansion of variables, evaluation *)
Lemma form_wrong gs μ e μ' key w N D σ r0 kk t ts dd es r3 st M : form_raises gs μ e μ' key w -> world gs μ σ r0 -> forms σ (Imp kk) (t :: ts) (e :: es) -> σ !! Imp kk = Some (opair (root t) dd) ->
  Forall (untouched (all_nodes (t :: ts))) (st ++ gl) -> (depth t <= D)%nat -> room st (Z.of_nat D + 1) -> room st (Z.of_nat d + 3) -> 2 * Z.of_nat width + 12 + 4 * size t <= N ->
  round_done sz gl σ r0 kk t r3 st M -> runsX N L_macro_expand M μ' key w.
Proof.
  intros Hrun W F Ho Hu HD Hroom1 Hroom2 HN ->. pose proof (size_pos t) as Hsz.
  destruct F as [F1 F2 F3 F4]. pose proof F3 as F3'. pose proof F4 as F4'. apply Forall_cons in F3' as [Htx _]. apply Forall_cons in F4' as [Hun _]. pose proof F2 as Hp. apply Forall2_cons_1 in Hp as [Hp _].
  pose proof (ba_consts _ (wo_base _ _ _ _ _ _ _ _ W)) as C.
  eapply goesX; [eapply goes_any, (macro_expand_same (defs := true) (prim_call fuel) (load_program fuel) fuel sz gl m Hgm t σ r0); [by apply (parse_plain σ C) in Hp as [? _]|apply Htx|done|exact Hun|apply W|cbn [length]; lia]|lia|].
  intros M1 (σ1 & -> & G1). pose proof (forms_grown T xs m σ σ1 _ _ _ G1 (Build_forms _ _ _ _ _ _ _ F1 F2 F3 F4)) as F'. pose proof (world_grown T xs m ρ _ _ _ _ _ G1 W) as W1.
  assert (σ1 !! Imp kk = Some (opair (root t) dd)) as Ho1 by (eapply lookup_weaken; [exact Ho|apply G1]).
  clear C F1 F2 F3 F4 Htx Hun Hp. destruct F' as [F1 F2 F3 F4]. apply Forall_cons in F3 as [Htx F3]. apply Forall_cons in F4 as [Hun F4]. apply Forall2_cons_1 in F2 as [Hp F2].
  eapply (runsX_bind (defs := true)); [apply runs_dispatch; [reflexivity|kc]|lia|].
  eapply goesX; [by eapply (goes_expand T xs m ρ load_program fuel sz gl Hgl); [..|lia]|lia|]. intros M2 (σ2 & t2 & -> & E2 & Er & En & Htx2 & Hp2).
  pose proof (world_expanded _ _ _ _ _ _ _ _ _ _ E2 (tx_apart _ _ _ _ Htx) W1) as W2.
  rewrite <- Er. eapply (form_goes_wrong gs μ e μ' key w Hrun N); [exact W2|exact Htx2|exact Hp2| |cbn [length]; lia|].
  { rewrite En. assert (forall z, z ∈ nodes t -> z ∈ all_nodes (t :: ts)) as Hsub by (intros z Hz; eapply in_all_nodes; [by left|done]). pose proof (untouched_mono _ _ _ Hsub Hu) as Hu'.
    assert (untouched (nodes t) r0) as Hr0. { eapply env_untouched. apply (wo_env _ _ _ _ _ _ _ _ W2). }
    cbn. rewrite !Forall_cons. split; [exact Hr0|]. do 5 (split; [by intros ? _|]). split; [exact Hr0|]. split; [by intros ? _|]. done. }
  { unfold size, tsize. rewrite En. unfold size, tsize in HN. lia. }
Qed.

Lemma program_wrong gs μ es μ' key w : program_raises gs μ es μ' key w ->
  forall N K D l M σ r0 i r2 r3 j ts c b x a p st, arrives load_program fuel sz gl l M σ r0 i r2 r3 j (frame c b x a p st) -> world gs μ σ r0 -> forms σ i ts es ->
    NoDup (all_nodes ts) -> Forall (untouched (all_nodes ts)) (frame c b x a p st ++ gl) -> Forall (fun t => (depth t <= D)%nat /\ 4 * size t <= K) ts ->
    room (frame c b x a p st) (Z.of_nat D + 1) -> room (frame c b x a p st) (Z.of_nat d + 3) -> 0 <= K -> 2 * Z.of_nat width + 12 + K <= N ->
    runsX N l M μ' key w.
Proof.
  intros Hraise.
  (* the two ways a form comes first *)
  assert (forall gs μ e es N K D l M σ r0 i r2 r3 j ts c b x a p st, arrives load_program fuel sz gl l M σ r0 i r2 r3 j (frame c b x a p st) -> world gs μ σ r0 -> forms σ i ts (e :: es) ->
    NoDup (all_nodes ts) -> Forall (untouched (all_nodes ts)) (frame c b x a p st ++ gl) -> Forall (fun t => (depth t <= D)%nat /\ 4 * size t <= K) ts ->
    room (frame c b x a p st) (Z.of_nat D + 1) -> room (frame c b x a p st) (Z.of_nat d + 3) -> 0 <= K -> 2 * Z.of_nat width + 12 + K <= N -> (forall bs, e <> EBegin bs) ->
    goes any any N l M L_macro_expand (fun M' => exists kk t ts' dd, ts = t :: ts' /\ i = Imp kk /\ σ !! Imp kk = Some (opair (root t) dd) /\ round_done sz gl σ r0 kk t r3 (frame c b x a p st) M')) as Hplain.
  { clear - Hgl Hgm. intros gs μ e es N K D l M σ r0 i r2 r3 j ts c b x a p st [_ Hcons] W F Hnd Hu Hsz Hroom1 Hroom2 HK HN Hne.
    pose proof (fo_parse _ _ _ _ _ _ _ F) as Hp. inversion Hp as [|? t ? ts' Hp1 _]; subst. pose proof (fo_list _ _ _ _ _ _ _ F) as Hl. cbn in Hl. inversion Hl as [|kk ? dd ? Ho Hl']; subst.
    pose proof (fo_text _ _ _ _ _ _ _ F) as Hx. apply Forall_cons in Hx as [Hx _].
    pose proof (ba_consts _ (wo_base _ _ _ _ _ _ _ _ W)) as C.
    eapply goes_seq; [apply Hcons; intros [= ->]; by eapply nil_not_pair|lia|]. intros M1 ->.
    eapply goes_seq; [apply (goes_gc xs); clear - Hroom2; cbn [length] in Hroom2 |- *; lia|lia|]. intros M2 ->.
    eapply goes_seq; [eapply (goes_round xs); [exact C|exact Ho|exact Hp1|apply Hx|cbn [length] in *; lia|exact Hne]|lia|]. intros M3 HM3. apply goes_here; [lia|]. by exists kk, t, ts', dd. }
  assert (forall gs μ bs es e1 es1 N K D l M σ r0 i r2 r3 j ts c b x a p st, bs ++ es = e1 :: es1 -> arrives load_program fuel sz gl l M σ r0 i r2 r3 j (frame c b x a p st) -> world gs μ σ r0 -> forms σ i ts (EBegin bs :: es) ->
    NoDup (all_nodes ts) -> Forall (untouched (all_nodes ts)) (frame c b x a p st ++ gl) -> Forall (fun t => (depth t <= D)%nat /\ 4 * size t <= K) ts ->
    room (frame c b x a p st) (Z.of_nat D + 1) -> room (frame c b x a p st) (Z.of_nat d + 3) -> 0 <= K -> 2 * Z.of_nat width + 12 + K <= N ->
    goes any any N l M L_macro_expand (fun M' => exists σ' kk t ts' dd, world gs μ σ' r0 /\ forms σ' (Imp kk) (t :: ts') (e1 :: es1) /\ σ' !! Imp kk = Some (opair (root t) dd) /\ NoDup (all_nodes (t :: ts')) /\
      Forall (untouched (all_nodes (t :: ts'))) (frame c b x a p st ++ gl) /\ Forall (fun t => (depth t <= D)%nat /\ 4 * size t <= K) (t :: ts') /\ round_done sz gl σ' r0 kk t r3 (frame c b x a p st) M')) as Hbegin.
  { clear Hplain Hraise. intros gs0 μ0 bs es0 e1 es1 N K D l M σ r0 i r2 r3 j ts c b x a p st Ees [_ Hcons] W F Hnd Hu Hsz Hroom1 Hroom2 HK HN.
    pose proof (fo_parse _ _ _ _ _ _ _ F) as Hp. inversion Hp as [|? t ? ts0 Hp1 Hp0]; subst. pose proof (fo_list _ _ _ _ _ _ _ F) as Hl. cbn in Hl. inversion Hl as [|kk ? dd ? Ho Hl']; subst.
    pose proof (fo_text _ _ _ _ _ _ _ F) as Hx. apply Forall_cons in Hx as [Hx Hxs]. pose proof (fo_macro _ _ _ _ _ _ _ F) as Hm. apply Forall_cons in Hm as [Hm Hms]. apply Forall_cons in Hsz as [[HD HK1] Hsz].
    inversion Hp1 as [| | | | | | | | | | |? k bt Hps|]; subst.
    pose proof (ba_consts _ (wo_base _ _ _ _ _ _ _ _ W)) as C.
    assert (size (Node k (Sym cell_symbol_begin) bt) = 1 + size bt) as Esz. { unfold size, tsize. cbn. lia. }
    eapply goes_seq; [apply Hcons; intros [= ->]; by eapply nil_not_pair|lia|]. intros M1 ->.
    eapply goes_seq; [apply (goes_gc xs); cbn [length] in *; lia|lia|]. intros M2 ->.
    pose proof (size_pos bt) as Hsb.
    eapply goes_seq; [eapply (goes_splice T xs m load_program fuel sz gl gs0 _ _ _ k bt dd bs ts0 es0); [by eapply world_consts|exact C|exact Ho|exact Hps|by rewrite Ees|by split|exact Hx|exact Hm|cbn [length] in *; lia]|lia|].
    intros M3 (σ3 & kk' & ss & t' & ts' & dd' & G & Ess & F3 & Ho3 & HM3 & Hsub & Hss). rewrite Ees in F3.
    assert (all_nodes (t' :: ts') `sublist_of` all_nodes (Node k (Sym cell_symbol_begin) bt :: ts0)) as Hsl.
    { rewrite <- Ess. unfold all_nodes in *. rewrite map_app, concat_app. cbn. apply sublist_cons. by apply sublist_app. }
    apply goes_here; [lia|]. exists σ3, kk', t', ts', dd'. split; [by eapply world_grown|]. split; [exact F3|]. split; [exact Ho3|]. split; [by eapply sublist_NoDup|]. split; [|split; [|exact HM3]].
    - eapply untouched_mono; [|exact Hu]. intros z Hz. eapply elem_of_submseteq; [exact Hz|by apply sublist_submseteq].
    - rewrite <- Ess. apply Forall_app. split; [|done]. eapply Forall_impl; [exact Hss|]. cbn beta. intros t0 [B1 B2]. cbn in HD. split; lia. }
  induction Hraise as [gs μ e es μ' key w Hne H|gs μ e es gs1 μ1 v1 μ' key w Hne H1 _ IH|gs μ bs es e1 es1 μ' key w Ees H|gs μ bs es e1 es1 gs1 μ1 v1 μ' key w Ees H1 _ IH];
    intros N K D l M σ r0 i r2 r3 j ts c b x a p st Harr W F Hnd Hu Hsz Hroom1 Hroom2 HK HN.
  - eapply goesX; [by eapply Hplain|lia|]. intros M3 (kk & t & ts' & dd & -> & -> & Ho & HM3). pose proof Hsz as Hsz'. apply Forall_cons in Hsz' as [[HD HK1] _].
    eapply (form_wrong gs μ e μ' key w N D); try done; lia.
  - eapply goesX; [by eapply Hplain|lia|]. intros M3 (kk & t & ts' & dd & -> & -> & Ho & HM3). apply Forall_cons in Hsz as [[HD HK1] Hsz].
    eapply goesX; [eapply (goes_form T xs m ρ width d load_program fuel sz gl Hgl Hgm gs μ e gs1 μ1 v1 N D); try done; lia|lia|]. intros M4 (σ4 & j4 & -> & W4 & V4 & Hrest).
    apply rest_forms in Hrest as (a4 & d4 & Ho4 & F4).
    eapply (IH N K D); [by eapply (arrives_next xs)|exact W4|exact F4| | |exact Hsz|done..].
    + unfold all_nodes in *. cbn in Hnd. by apply NoDup_app in Hnd as (_ & _ & ?).
    + eapply untouched_mono; [|exact Hu]. intros z Hz. unfold all_nodes. cbn. apply elem_of_app. by right.
  - eapply goesX; [by eapply Hbegin|lia|]. intros M3 (σ3 & kk & t & ts' & dd & W3 & F3 & Ho & Hnd3 & Hu3 & Hsz3 & HM3). apply Forall_cons in Hsz3 as [[HD HK1] _].
    eapply (form_wrong gs μ e1 μ' key w N D); try done; lia.
  - eapply goesX; [by eapply Hbegin|lia|]. intros M3 (σ3 & kk & t & ts' & dd & W3 & F3 & Ho & Hnd3 & Hu3 & Hsz3 & HM3). apply Forall_cons in Hsz3 as [[HD HK1] Hsz3].
    eapply goesX; [eapply (goes_form T xs m ρ width d load_program fuel sz gl Hgl Hgm gs μ e1 gs1 μ1 v1 N D); try done; lia|lia|]. intros M4 (σ4 & j4 & -> & W4 & V4 & Hrest).
    apply rest_forms in Hrest as (a4 & d4 & Ho4 & F4).
    eapply (IH N K D); [by eapply (arrives_next xs)|exact W4|exact F4| | |exact Hsz3|done..].
    + unfold all_nodes in *. cbn in Hnd3. by apply NoDup_app in Hnd3 as (_ & _ & ?).
    + eapply untouched_mono; [|exact Hu3]. intros z Hz. unfold all_nodes. cbn. apply elem_of_app. by right.
Qed.
End form.
