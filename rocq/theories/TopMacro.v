(** Macro expansion leaves text without macros as it is. *)
From stdpp Require Import base gmap list fin_maps.
From Coq Require Import ZArith Lia.
From Coq Require Import ZifyBool ZifyNat.
From Verif Require Import CInt Symbols Heap HeapLemmas GcModel GcSpec DataModel DataSpec DataLemmas CoreProofs StackModel.
From Verif Require Import EvalModel Rep RepProofs EvalSpec EvalRep EvalLemmas EvalBind EvalSplice EvalRun EvalSteps EvalSteps2 EvalSteps3.
From Verif Require Import TopSpec TopRep TopRename TopExpand.
Open Scope Z_scope. Open Scope mes_scope.

(** ** Text without macros *)
Inductive plain (σ : oheap) : tree -> Prop :=
| pl_leaf x o : σ !! Imp x = Some o -> otype o <> TPAIR -> plain σ (Sym x)
| pl_quote k d : plain σ (Node k (Sym cell_symbol_quote) d)
| pl_bind kw k k' fm b : kw ∈ [cell_symbol_lambda; cell_symbol_define; cell_symbol_set_x] -> plain σ b ->
    plain σ (Node k (Sym kw) (Node k' fm b))
| pl_pair k a d : root a ∉ map Imp [cell_symbol_quote; cell_symbol_lambda; cell_symbol_define; cell_symbol_define_macro; cell_symbol_set_x] ->
    plain σ a -> plain σ d -> plain σ (Node k a d).
Lemma plain_sub σ σ' t : σ ⊆ σ' -> plain σ t -> plain σ' t.
Proof. intros Hs. induction 1; [eapply pl_leaf; [by eapply lookup_weaken|done]|by constructor..]. Qed.
Lemma const_leaf σ k : consts0 σ -> is_const k -> plain σ (Sym k).
Proof. intros C Hk. destruct (cst_const _ _ C k Hk) as (t & n & d & Ho & Ht & _). eapply pl_leaf; [exact Ho|]. cbn. by destruct Ht as [->| ->]. Qed.
Lemma not_forms σ x o : consts0 σ -> σ !! Imp x = Some o -> otype o <> TSYMBOL -> otype o <> TSPECIAL ->
  Imp x ∉ map Imp [cell_symbol_quote; cell_symbol_lambda; cell_symbol_define; cell_symbol_define_macro; cell_symbol_set_x].
Proof.
  intros C Ho Ht Ht' Hin. apply elem_of_list_fmap in Hin as (y & [= <-] & Hin).
  assert (is_const x) as Hc by (rewrite !elem_of_cons, elem_of_nil in Hin; destruct Hin as [->|[->|[->|[->|[->|[]]]]]]; kc).
  destruct (cst_const _ _ C x Hc) as (t & n & d & Ho' & Hty & _). rewrite Ho in Ho'. injection Ho' as ->. cbn in *. by destruct Hty.
Qed.
Lemma parse_plain σ : consts0 σ -> (forall e t, parse σ e t -> plain σ t /\ (forall i, t = Leaf i -> i ∉ map Imp [cell_symbol_quote; cell_symbol_lambda; cell_symbol_define; cell_symbol_define_macro; cell_symbol_set_x])) /\
  (forall es t, parses σ es t -> plain σ t /\ forall k a d, t = Node k a d -> plain σ d).
Proof.
  intros C. assert (forall t, plain σ t -> forall k kw, kw ∈ [cell_symbol_if; cell_symbol_begin] -> plain σ (Node k (Sym kw) t)) as Hkw.
  { intros t Ht k kw Hkw. rewrite !elem_of_cons, elem_of_nil in Hkw. apply pl_pair; [|apply const_leaf; [done|]|done].
    - destruct Hkw as [->|[->|[]]]; cbn; rewrite !elem_of_cons, elem_of_nil; vm_compute; intuition congruence.
    - destruct Hkw as [->|[->|[]]]; kc. }
  apply parse_parses_ind.
  - intros v k o Hv Ho Hs Hh. destruct o as [t a d| |]; cbn in Hs; [|done..]. destruct Hs as [Hs _]. split.
    + eapply pl_leaf; [exact Ho|]. cbn. by destruct Hs as [->|[->|[->|[->| ->]]]].
    + intros i [= <-] Hin. apply elem_of_list_fmap in Hin as (y & [= <-] & Hin). apply Hh. unfold heads. set_solver.
  - intros v k k' a Hv. split; [constructor|done].
  - intros x [(n & d & Ho & _) Hr]. split; [by eapply pl_leaf|]. intros i [= <-] Hin. apply elem_of_list_fmap in Hin as (y & [= <-] & Hin).
    apply Hr. unfold reserved, hidden. set_solver.
  - intros l k Ho. split; [by eapply pl_leaf|]. intros i [= <-]. by eapply not_forms.
  - intros c t e k d _ [IH _]. split; [|done]. apply Hkw; [done|set_solver].
  - intros c t k d _ [IH _]. split; [|done]. apply Hkw; [done|set_solver].
  - intros xs r bd k k' fm b _ _ [IH _]. split; [|done]. apply pl_bind; [set_solver|done].
  - intros x e k d Hd [_ IH]. split; [|done]. inversion Hd; subst. apply pl_bind; [set_solver|by eapply IH].
  - intros l e k d Hd [_ IH]. split; [|done]. inversion Hd; subst. apply pl_bind; [set_solver|by eapply IH].
  - intros x e k k' d Hx _ [IH _]. split; [|done]. apply pl_bind; [set_solver|done].
  - intros x xs r bd k k' k2 fm b Hx _ _ [IH _]. split; [|done]. apply pl_bind; [set_solver|done].
  - intros es k b _ [IH _]. split; [|done]. apply Hkw; [done|set_solver].
  - intros f es k a b Ho _ [IH IHl] _ [IH' _]. split; [|done]. apply pl_pair; [|done|done]. destruct a as [i|? ? ?]; [by apply IHl|]. cbn. set_solver.
  - split; [|done]. apply const_leaf; [done|kc].
  - intros e es k a d _ [IH IHl] _ [IH' _]. split; [|by intros ? ? ? [= <- <- <-]]. apply pl_pair; [|done|done]. destruct a as [i|? ? ?]; [by apply IHl|]. cbn. set_solver.
Qed.

(** ** Looking for macros *)
Lemma unmacro_grown m σ σ' t : grown σ σ' -> unmacro m σ t -> unmacro m σ' t.
Proof.
  intros G H x Hx. destruct (H x Hx) as (o & Ho & Hm). exists o. split; [eapply lookup_weaken; [exact Ho|apply G]|]. intros Hs. eapply (no_macro_m _ _ _ (grown_morph _ _ G)). by apply Hm.
Qed.
Lemma no_expander_m π m σ σ' : consts0 σ -> morph π σ σ' -> no_expander m σ -> no_expander m σ'.
Proof.
  intros C E H o Ho Hs. destruct (cst_const _ _ C cell_symbol_portable_macro_expand) as (t & n & d & Ho' & _); [kc|]. eapply (no_macro_m _ _ _ E), H; [exact Ho'|].
  apply (m_obj _ _ _ E) in Ho'. rewrite Ho in Ho'. injection Ho' as ->. exact Hs.
Qed.
Ltac w := first [apply wp_bind | apply wp_ret | apply wp_gets | apply wp_modify].
Lemma wp_macro_handle m fuel f M s i xp o (Q : Z -> state -> Prop) : rep f M s -> consts0 (m_heap M) -> m_glob M !! 1%nat = Some (Imp m) -> f i xp -> m_heap M !! i = Some o ->
  (otype o = TSYMBOL -> exists x, i = Imp x /\ no_macro m (m_heap M) x) -> can_alloc 1 s -> g_free s + 1 <= Z.of_nat fuel ->
  (forall f' σ' s', went 1 f M s f' σ' s' -> grown (m_heap M) σ' -> Q cell_f s') -> wp (macro_get_handle fuel xp) s Q.
Proof.
  intros R C Hm Hx Ho Hs Ha Hfu HQ. unfold macro_get_handle. w. eapply (wp_ty_any _ _ _ R _ _ _ _ Hx Ho).
  destruct (decide (otype o = TSYMBOL)) as [E|E].
  - rewrite E, Z.eqb_refl. destruct (Hs E) as (x & -> & size & v & bs & h & j & Ht & Hv & Hb & Hh & Hw). w. w.
    assert (f (Imp m) (g_macros s)) as Hg. { destruct (Forall2_lookup_l _ _ _ _ _ (rp_glob _ _ _ R) Hm) as (q & Hq & Hf). cbn in Hq. by injection Hq as <-. }
    eapply (wp_handle fuel f M s m _ size _ bs x xp h j None cell_nil Q R C Hg Ht Hv Hb Hh Hx Ha Hfu); [kc| |].
    + apply (entry_of [] _ x j); [|exact Hw]. by intros y l ?%elem_of_nil.
    + intros f' σ' r s' W G ->. by eapply HQ.
  - rewrite (proj2 (Z.eqb_neq _ _) E). w. eapply HQ; [eapply went_le; [by apply went_refl|lia]|apply grown_refl].
Qed.
Lemma wp_get_macro m fuel f M s i xp o (Q : Z -> state -> Prop) : rep f M s -> consts0 (m_heap M) -> m_glob M !! 1%nat = Some (Imp m) -> f i xp -> m_heap M !! i = Some o ->
  (otype o = TSYMBOL -> exists x, i = Imp x /\ no_macro m (m_heap M) x) -> can_alloc 1 s -> g_free s + 1 <= Z.of_nat fuel ->
  (forall f' σ' s', went 1 f M s f' σ' s' -> grown (m_heap M) σ' -> Q cell_f s') -> wp (get_macro fuel xp) s Q.
Proof.
  intros R C Hm Hx Ho Hs Ha Hfu HQ. unfold get_macro. w. eapply (wp_macro_handle m); try done. intros f' σ' s' W G. rewrite Z.eqb_refl. w. by eapply HQ.
Qed.

Section evaluator.
Context {defs : bool}.
Context (prim : Z -> list Z -> M Z) (load_program : Z -> M Z) (fuel : nat).
Notation step := (step GcModel.gc_check prim load_program fuel).
Notation runs := (runs (defs := defs) prim load_program fuel).
Notation runsP := (runsP (defs := defs) prim load_program fuel).
Ltac regs R := pose proof (rp_r0 _ _ _ R) as HR0; pose proof (rp_r1 _ _ _ R) as HR1;
  pose proof (rp_r2 _ _ _ R) as HR2; pose proof (rp_r3 _ _ _ R) as HR3; cbn in HR0, HR1, HR2, HR3.
Context (sz : Z) (gl : list id) (m : Z) (Hgl : gl !! 1%nat = Some (Imp m)).
Notation MS σ r0 r1 r2 r3 st := (Mst σ r0 r1 r2 r3 st sz gl).
Notation frame c b x a e st := (c :: b :: x :: a :: e :: st).
Notation room st k := (Z.of_nat (length st) + 5 * k <= sz).

Lemma root_const f M s a p k : rep f M s -> f (root a) p -> is_const k -> root a <> Imp k -> (p =? k) = false.
Proof. intros R Hp Hk Hn. eapply (neqc _ _ _ R _ _ _ Hp); done. Qed.
(** nothing to expand *)
Lemma runs_macro_none σ r0 t r2 r3 st : plain σ t -> tree_at σ t -> (match t with Leaf _ => True | Node _ a _ => root a = Imp cell_symbol_quote end) ->
  runs 0 L_macro_expand (MS σ r0 (root t) r2 r3 st) L_vm_return (MS σ r0 (root t) r2 r3 st).
Proof.
  intros Hp Ht Hq. apply runs_step; [lia|]. intros f v s R En. cbn [EvalModel.step]. unfold step_macro_expand. regs R. w. w. w. w. w.
  destruct t as [i|k a d].
  - inversion Hp as [x o Ho Hty| | |]; subst. eapply (wp_rd_any _ _ _ R _ _ _ _ HR1 Ho). intros c ->. rewrite (proj2 (Z.eqb_neq _ _) Hty). cbn [negb orb]. w. split; [done|]. by exists f.
  - inversion Ht; subst. eapply (wp_rd _ _ _ R _ _ _ _ _ _ HR1); [done|]. intros c -> Hca _. cbn in Hca. rewrite Hq in Hca. rewrite (eqc _ _ _ R _ _ _ Hca) by (done || kc).
    rewrite orb_true_r. w. split; [done|]. by exists f.
Qed.
Lemma const_obj_macro σ kw k d : consts0 σ -> unmacro m σ (Node k (Sym kw) d) -> is_const kw -> exists t a b, σ !! Imp kw = Some (OCell t a b) /\ (t = TSPECIAL \/ t = TSYMBOL) /\ (t = TSYMBOL -> exists x, Imp kw = Imp x /\ no_macro m σ x).
Proof.
  intros C U Hk. destruct (cst_const _ _ C kw Hk) as (t & n & b & Ho & Ht & _). exists t, (WInt n), b. split; [done|]. split; [tauto|]. intros ->. exists kw. split; [done|].
  destruct (U kw) as (o & Ho' & Hm); [repeat constructor|]. apply Hm. rewrite Ho in Ho'. by injection Ho' as <-.
Qed.
Definition resume (kw : Z) : Z :=
  if decide (kw = cell_symbol_lambda) then cell_vm_macro_expand_lambda else if decide (kw = cell_symbol_define) then cell_vm_macro_expand_define else cell_vm_macro_expand_set_x.
Lemma runs_macro_bind σ r0 kw k k' fm b r2 r3 st : kw ∈ [cell_symbol_lambda; cell_symbol_define; cell_symbol_set_x] -> consts0 σ ->
  tree_at σ (Node k (Sym kw) (Node k' fm b)) -> unmacro m σ (Node k (Sym kw) (Node k' fm b)) -> room st 1 ->
  runsP 1 L_macro_expand (MS σ r0 (Txt k) r2 r3 st) L_macro_expand
    (fun M => exists σ', M = MS σ' r0 (root b) (Txt k) r3 (frame (Imp (resume kw)) (Txt k) (Txt k) r0 (Imp cell_f) st) /\ grown σ σ').
Proof using Hgl.
  intros Hkw C Ht U Hroom. inversion Ht as [|? ? ? Ho _ Ht']; subst. inversion Ht' as [|? ? ? Ho' _ _]; subst. cbn [root] in Ho.
  apply runsP_step; [lia|]. intros f v s R En. cbn [EvalModel.step]. unfold step_macro_expand. regs R. w. w. w. w. w.
  eapply (wp_rd _ _ _ R _ _ _ _ _ _ HR1 Ho). intros c -> Hca Hcd. cbn in Hca, Hcd. change (negb (TPAIR =? TPAIR)) with false. cbn [orb].
  assert (is_const kw) as Hc by (rewrite !elem_of_cons, elem_of_nil in Hkw; destruct Hkw as [->|[->|[->|[]]]]; kc).
  rewrite (const_val _ _ _ R _ _ Hca Hc).
  assert (forall f1 σ1 s1 vm, went 1 f (MS σ r0 (Txt k) r2 r3 st) s f1 σ1 s1 -> grown σ σ1 -> is_const vm -> vm = resume kw ->
    wp (dd <- cdr_of (c_cdr c) ;; push_cc dd (R1 s) (R0 s) vm ;;; ret (Goto L_macro_expand v)) s1
     (fun n s' => n = Goto L_macro_expand v /\ exists f' M', rep f' M' s' /\ exists σ', M' = MS σ' r0 (root b) (Txt k) r3 (frame (Imp (resume kw)) (Txt k) (Txt k) r0 (Imp cell_f) st) /\ grown σ σ')) as Hgo.
  { intros f1 σ1 s1 vm (RA & G1 & _) Hg Hvm ->. w. eapply (wp_cdr_of _ _ _ RA _ _ _ _ _ _ (G1 _ _ Hcd)); [eapply lookup_weaken; [exact Ho'|apply Hg]|]. intros dd Hdd.
    w. eapply (wp_push_cc _ _ _ RA (root b) (Txt k) r0 (Imp (resume kw))); [cbn; lia|done|by apply G1|by apply G1|eapply rep_const; [exact RA|done]|].
    intros s2 R2. w. split; [done|]. exists f1. eexists. split; [exact R2|]. by exists σ1. }
  pose proof (went_refl _ _ _ R) as W0. apply (went_le _ 1) in W0; [|lia].
  destruct (const_obj_macro _ _ _ _ C U Hc) as (t & a & d & Hko & Hty & Hm).
  rewrite !elem_of_cons, elem_of_nil in Hkw. destruct Hkw as [->|[->|[->|[]]]].
  - change (cell_symbol_lambda =? cell_symbol_quote) with false. rewrite Z.eqb_refl. eapply Hgo; [exact W0|apply grown_refl|kc|done].
  - change (cell_symbol_define =? cell_symbol_quote) with false. change (cell_symbol_define =? cell_symbol_lambda) with false. cbv iota.
    w. eapply (wp_get_macro m _ _ _ _ (Imp cell_symbol_define) _ _ _ R C Hgl); [eapply rep_const; [exact R|kc]|exact Hko|exact Hm|apply (en_alloc _ _ _ _ En)|apply (en_fuel _ _ _ _ En)|].
    intros f1 σ1 s1 W G. rewrite !Z.eqb_refl. cbn [negb orb]. eapply Hgo; [exact W|exact G|kc|done].
  - change (cell_symbol_set_x =? cell_symbol_quote) with false. change (cell_symbol_set_x =? cell_symbol_lambda) with false. cbv iota.
    w. eapply (wp_get_macro m _ _ _ _ (Imp cell_symbol_set_x) _ _ _ R C Hgl); [eapply rep_const; [exact R|kc]|exact Hko|exact Hm|apply (en_alloc _ _ _ _ En)|apply (en_fuel _ _ _ _ En)|].
    intros f1 σ1 s1 W G. rewrite !Z.eqb_refl. cbn [negb orb]. change (cell_symbol_set_x =? cell_symbol_define) with false. change (cell_symbol_set_x =? cell_symbol_define_macro) with false. cbn [orb]. cbv iota.
    eapply Hgo; [exact W|exact G|kc|done].
Qed.
Lemma runs_macro_bound σ r0 kw k k' fm b st : kw ∈ [cell_symbol_lambda; cell_symbol_define; cell_symbol_set_x] -> tree_at σ (Node k (Sym kw) (Node k' fm b)) ->
  runs 0 L_eval_apply (MS σ r0 (root b) (Txt k) (Imp (resume kw)) st) L_vm_return (MS σ r0 (Txt k) (Txt k) (Imp (resume kw)) st).
Proof.
  intros Hkw Ht. inversion Ht as [|? ? ? Ho _ Ht']; subst. inversion Ht' as [|? ? ? Ho' _ _]; subst. cbn [root] in Ho.
  assert (forall (Q : unit -> state -> Prop) f s, rep f (MS σ r0 (root b) (Txt k) (Imp (resume kw)) st) s ->
    (forall s', rep f (MS σ r0 (Txt k) (Txt k) (Imp (resume kw)) st) s' -> Q tt s') -> wp put_cddr s Q) as Hput.
  { intros Q f s R HQ. regs R. unfold put_cddr. w. w. w. w. w. eapply (wp_cdr_of _ _ _ R _ _ _ _ _ _ HR2 Ho). intros dp Hdp.
    w. eapply (wp_set_cdr _ _ _ R _ _ _ _ _ _ _ Hdp Ho' HR1). intros s1 R1. unfold new_obj, with_heap in R1. cbn [m_heap m_r0 m_r1 m_r2 m_r3 m_stk m_size m_glob] in R1. rewrite insert_id in R1 by done.
    w. apply HQ. assert (f (Txt k) (R2 s)) as H2 by done. exact (rep_set_R1 _ _ _ _ _ R1 H2). }
  eapply (runs_le _ _ _ (Z.max 0 0)); [|done]. rewrite !elem_of_cons, elem_of_nil in Hkw. destruct Hkw as [->|[->|[->|[]]]].
  - eapply runs_trans; [eapply (runs_dispatch prim load_program fuel sz gl cell_vm_macro_expand_lambda L_macro_expand_lambda); [done|kc]|].
    apply runs_step; [lia|]. intros f v s R En. cbn [EvalModel.step]. w. eapply Hput; [exact R|]. intros s' R'. w. split; [done|]. by exists f.
  - eapply runs_trans; [eapply (runs_dispatch prim load_program fuel sz gl cell_vm_macro_expand_define L_macro_expand_define); [done|kc]|].
    apply runs_step; [lia|]. intros f v s R En. cbn [EvalModel.step]. w. eapply Hput; [exact R|]. intros s' R'. regs R'. w. w. w. w.
    w. eapply (wp_car_of _ _ _ R' _ _ _ _ _ _ HR1 Ho). intros ap Hap. rewrite (neqc _ _ _ R' _ _ cell_symbol_define_macro Hap) by (done || kc). w. split; [done|]. by exists f.
  - eapply runs_trans; [eapply (runs_dispatch prim load_program fuel sz gl cell_vm_macro_expand_set_x L_macro_expand_set_x); [done|kc]|].
    apply runs_step; [lia|]. intros f v s R En. cbn [EvalModel.step]. w. eapply Hput; [exact R|]. intros s' R'. w. split; [done|]. by exists f.
Qed.
Lemma runs_macro_car σ r0 k a d r2 r3 st : root a ∉ map Imp [cell_symbol_quote; cell_symbol_lambda; cell_symbol_define; cell_symbol_define_macro; cell_symbol_set_x] -> consts0 σ ->
  plain σ a -> tree_at σ (Node k a d) -> unmacro m σ (Node k a d) -> no_expander m σ -> room st 1 ->
  runsP 2 L_macro_expand (MS σ r0 (Txt k) r2 r3 st) L_macro_expand
    (fun M => exists σ', M = MS σ' r0 (root a) (Txt k) r3 (frame (Imp cell_vm_macro_expand_car) (Txt k) (Txt k) r0 (Imp cell_f) st) /\ grown σ σ').
Proof using Hgl.
  intros Hns C Hpl Ht U X Hroom. inversion Ht as [|? ? ? Ho Ha _]; subst.
  apply runsP_step; [lia|]. intros f v s R En. cbn [EvalModel.step]. unfold step_macro_expand. regs R. w. w. w. w. w.
  eapply (wp_rd _ _ _ R _ _ _ _ _ _ HR1 Ho). intros c -> Hca Hcd. cbn in Hca, Hcd. change (negb (TPAIR =? TPAIR)) with false. cbn [orb].
  assert (forall kk, kk ∈ [cell_symbol_quote; cell_symbol_lambda; cell_symbol_define; cell_symbol_define_macro; cell_symbol_set_x] -> (c_car c =? kk) = false) as Hne.
  { intros kk Hkk. eapply (root_const _ _ _ _ _ _ R Hca).
    - rewrite !elem_of_cons, elem_of_nil in Hkk. destruct Hkk as [->|[->|[->|[->|[->|[]]]]]]; kc.
    - intros E. apply Hns. rewrite E. by apply elem_of_list_fmap_1. }
  rewrite (Hne cell_symbol_quote), (Hne cell_symbol_lambda), (Hne cell_symbol_define), (Hne cell_symbol_define_macro), (Hne cell_symbol_set_x) by set_solver. cbv iota.
  assert (exists o, σ !! root a = Some o /\ (otype o = TSYMBOL -> exists x, root a = Imp x /\ no_macro m σ x)) as (o & Hao & Hm).
  { destruct a as [i|ka aa da]; [inversion Hpl as [x o Hx Hty| | |]; subst; exists o|inversion Ha; subst; eexists; split; [done|done]].
    split; [done|]. intros Hs. exists x. split; [done|]. destruct (U x) as (o' & Ho' & Hm); [repeat constructor|]. rewrite Hx in Ho'. injection Ho' as <-. auto. }
  pose proof (en_alloc _ _ _ _ En) as HA. pose proof (en_fuel _ _ _ _ En) as HF.
  w. eapply (wp_get_macro m _ _ _ _ (root a) _ _ _ R C Hgl Hca Hao Hm); [by eapply can_alloc_le; [exact HA|lia]|lia|].
  intros f1 σ1 s1 W G. pose proof W as (RA & G1 & S1). rewrite Z.eqb_refl. cbn [negb orb]. cbv iota.
  w. eapply (wp_ty_any _ _ _ RA _ _ _ _ (G1 _ _ Hca)); [cbn; eapply lookup_weaken; [exact Hao|apply G]|].
  assert (forall f2 σ2 s2, went 1 f1 (MS σ1 r0 (Txt k) r2 r3 st) s1 f2 σ2 s2 -> grown σ1 σ2 ->
    wp (push_cc (c_car c) (R1 s) (R0 s) cell_vm_macro_expand_car ;;; ret (Goto L_macro_expand v)) s2
     (fun n s' => n = Goto L_macro_expand v /\ exists f' M', rep f' M' s' /\ exists σ', M' = MS σ' r0 (root a) (Txt k) r3 (frame (Imp cell_vm_macro_expand_car) (Txt k) (Txt k) r0 (Imp cell_f) st) /\ grown σ σ')) as Hgo.
  { intros f2 σ2 s2 (R2 & G2 & _) Hg. w. eapply (wp_push_cc _ _ _ R2 (root a) (Txt k) r0 (Imp cell_vm_macro_expand_car)); [cbn; lia|by apply G2, G1|by apply G2, G1|by apply G2, G1|eapply rep_const; [exact R2|kc]|].
    intros s3 R3. w. split; [done|]. exists f2. eexists. split; [exact R3|]. exists σ2. split; [done|by eapply grown_trans]. }
  destruct ((otype o =? TSYMBOL) && negb (c_car c =? cell_symbol_begin)).
  - w. destruct (cst_const _ _ C cell_symbol_portable_macro_expand) as (t & n & dd & Hpo & _); [kc|]. pose proof (lookup_weaken _ _ _ _ Hpo (proj1 G)) as Hpo1.
    pose proof (grown_morph _ _ G) as Em.
    w. eapply (wp_macro_handle m _ _ _ _ (Imp cell_symbol_portable_macro_expand) _ _ _ RA); [by eapply consts_m|exact Hgl|eapply rep_const; [exact RA|kc]|exact Hpo1| | | |].
    + intros Hs. exists cell_symbol_portable_macro_expand. split; [done|]. eapply (no_expander_m _ _ _ _ C Em X); [exact Hpo1|done].
    + eapply went_alloc; [exact W|]. eapply can_alloc_le; [exact HA|lia].
    + apply went_free in W. lia.
    + intros f2 σ2 s2 W2 Hg. rewrite Z.eqb_refl. w. rewrite Z.eqb_refl. cbn [negb]. by eapply Hgo.
  - w. w. rewrite Z.eqb_refl. cbn [negb]. eapply Hgo; [eapply went_le; [by apply went_refl|lia]|apply grown_refl].
Qed.
(** after the head of a list: the rest, if there is one *)
Lemma runs_macro_cdr σ r0 k a d st : consts0 σ -> tree_at σ (Node k a d) -> room st 1 ->
  runs 0 L_eval_apply (MS σ r0 (root a) (Txt k) (Imp cell_vm_macro_expand_car) st) L_vm_return (MS σ r0 (Txt k) (Txt k) (Imp cell_vm_macro_expand_car) st) \/
  runs 0 L_eval_apply (MS σ r0 (root a) (Txt k) (Imp cell_vm_macro_expand_car) st) L_macro_expand
    (MS σ r0 (root d) (Txt k) (Imp cell_vm_macro_expand_car) (frame (Imp cell_vm_macro_expand_cdr) (Txt k) (Txt k) r0 (Imp cell_f) st)).
Proof.
  intros C Ht Hroom. inversion Ht as [|? ? ? Ho _ _]; subst.
  assert (forall (Q : unit -> state -> Prop) f s, rep f (MS σ r0 (root a) (Txt k) (Imp cell_vm_macro_expand_car) st) s ->
    (forall s', rep f (MS σ r0 (Txt k) (Txt k) (Imp cell_vm_macro_expand_car) st) s' -> Q tt s') -> wp put_car s Q) as Hput.
  { intros Q f s R HQ. regs R. unfold put_car. w. w. w. w.
    w. eapply (wp_set_car _ _ _ R _ _ _ _ _ _ _ HR2 Ho HR1). intros s1 R1. unfold new_obj, with_heap in R1. cbn [m_heap m_r0 m_r1 m_r2 m_r3 m_stk m_size m_glob] in R1. rewrite insert_id in R1 by done.
    w. apply HQ. assert (f (Txt k) (R2 s)) as H2 by done. exact (rep_set_R1 _ _ _ _ _ R1 H2). }
  destruct (decide (root d = Imp cell_nil)) as [Hd|Hd]; [left|right]; (eapply (runs_le _ _ _ (Z.max 0 0)); [|done]);
  (eapply runs_trans; [eapply (runs_dispatch prim load_program fuel sz gl cell_vm_macro_expand_car L_macro_expand_car); [done|kc]|]);
  (apply runs_step; [lia|]); intros f v s R En; cbn [EvalModel.step]; w; (eapply Hput; [exact R|]); intros s' R'; regs R'; w; w; w; w;
  w; (eapply (wp_cdr_of _ _ _ R' _ _ _ _ _ _ HR1 Ho)); intros dp Hdp.
  - rewrite (eqc _ _ _ R' _ _ cell_nil Hdp) by (done || kc). w. split; [done|]. by exists f.
  - rewrite (neqc _ _ _ R' _ _ cell_nil Hdp) by (done || kc).
    w. eapply (wp_push_cc _ _ _ R' (root d) (Txt k) r0 (Imp cell_vm_macro_expand_cdr)); [cbn; lia|done|done|done|eapply rep_const; [exact R'|kc]|].
    intros s2 R2. w. split; [done|]. exists f. exact R2.
Qed.
Lemma runs_macro_end σ r0 k a d st : tree_at σ (Node k a d) ->
  runs 0 L_eval_apply (MS σ r0 (root d) (Txt k) (Imp cell_vm_macro_expand_cdr) st) L_vm_return (MS σ r0 (Txt k) (Txt k) (Imp cell_vm_macro_expand_cdr) st).
Proof.
  intros Ht. inversion Ht as [|? ? ? Ho _ _]; subst. eapply (runs_le _ _ _ (Z.max 0 0)); [|done].
  eapply runs_trans; [eapply (runs_dispatch prim load_program fuel sz gl cell_vm_macro_expand_cdr L_macro_expand_cdr); [done|kc]|].
  apply runs_step; [lia|]. intros f v s R En. cbn [EvalModel.step]. regs R. w. w. w. w.
  w. eapply (wp_set_cdr _ _ _ R _ _ _ _ _ _ _ HR2 Ho HR1). intros s1 R1. unfold new_obj, with_heap in R1. cbn [m_heap m_r0 m_r1 m_r2 m_r3 m_stk m_size m_glob] in R1. rewrite insert_id in R1 by done.
  w. w. w. split; [done|]. exists f. exact (rep_set_R1 _ _ _ _ _ R1 HR2).
Qed.

(** ** Macro expansion *)
Lemma unmacro_car σ k a d : unmacro m σ (Node k a d) -> unmacro m σ a.
Proof. intros U x Hx. apply U. by constructor. Qed.
Lemma unmacro_cdr σ k a d : unmacro m σ (Node k a d) -> unmacro m σ d.
Proof. intros U x Hx. apply U. by apply oc_cdr. Qed.
Lemma macro_expand_deep n : forall t, (depth t < n)%nat -> forall σ r0 r2 r3 c b x a p st, plain σ t -> tree_at σ t -> consts0 σ -> unmacro m σ t -> no_expander m σ -> room (frame c b x a p st) (Z.of_nat (depth t)) ->
  runsP 2 L_macro_expand (MS σ r0 (root t) r2 r3 (frame c b x a p st)) L_eval_apply (fun M => exists σ', M = MS σ' a (root t) b c st /\ grown σ σ').
Proof using Hgl.
  induction n as [|n IH]; [lia|]. intros [i|k ta td] Hn σ r0 r2 r3 c b x a p st Hp Ht C U X Hroom.
  { eapply runsP_bind; [by apply runs_macro_none|lia|]. eapply runsP_bind; [apply runs_return|lia|]. apply runsP_here; [lia|]. exists σ. split; [done|apply grown_refl]. }
  inversion Hp as [|k0 d0|kw k0 k' fm bd Hkw Hb|k0 a0 d0 Hns Ha Hd]; subst.
  - eapply runsP_bind; [by apply (runs_macro_none σ r0 (Node k _ _))|lia|]. eapply runsP_bind; [apply runs_return|lia|]. apply runsP_here; [lia|]. exists σ. split; [done|apply grown_refl].
  - cbn [depth] in Hroom. eapply runsP_seq; [by apply (runs_macro_bind σ r0 kw k k' fm bd); [..|cbn [length] in *; lia]|lia|]. intros M1 (σ1 & -> & G1).
    pose proof (grown_morph _ _ G1) as E1. pose proof (proj1 G1) as Sub1.
    assert (tree_at σ1 (Node k (Sym kw) (Node k' fm bd))) as Ht1 by by eapply tree_at_sub.
    assert (tree_at σ1 bd) as Htb by (inversion Ht1 as [|? ? ? _ _ Hx]; subst; by inversion Hx).
    eapply runsP_seq; [apply IH; [cbn [depth] in Hn; lia|by eapply plain_sub|done|by eapply consts_m|eapply unmacro_grown; [done|by eapply unmacro_cdr, unmacro_cdr]|by eapply no_expander_m|cbn [length] in *; lia]|lia|]. intros M2 (σ2 & -> & G2).
    eapply runsP_bind; [apply (runs_macro_bound σ2 r0 kw k k' fm bd (frame c b x a p st) Hkw); eapply tree_at_sub; [apply G2|done]|lia|].
    eapply runsP_bind; [apply runs_return|lia|]. apply runsP_here; [lia|]. exists σ2. split; [done|by eapply grown_trans].
  - cbn [depth] in Hroom. eapply runsP_seq; [by apply (runs_macro_car σ r0 k ta td); [..|cbn [length] in *; lia]|lia|]. intros M1 (σ1 & -> & G1).
    pose proof (grown_morph _ _ G1) as E1. pose proof (proj1 G1) as Sub1. assert (tree_at σ1 (Node k ta td)) as Ht1 by by eapply tree_at_sub.
    eapply runsP_seq; [apply IH; [cbn [depth] in Hn; lia|by eapply plain_sub|by inversion Ht1|by eapply consts_m|eapply unmacro_grown; [done|by eapply unmacro_car]|by eapply no_expander_m|cbn [length] in *; lia]|lia|].
    intros M2 (σ2 & -> & G2). pose proof (grown_trans _ _ _ G1 G2) as G02. pose proof (grown_morph _ _ G02) as E2. assert (tree_at σ2 (Node k ta td)) as Ht2 by (eapply tree_at_sub; [apply G2|done]).
    assert (consts0 σ2) as C2 by by eapply consts_m.
    destruct (runs_macro_cdr σ2 r0 k ta td (frame c b x a p st) C2 Ht2) as [Hr|Hr]; [cbn [length] in *; lia| |].
    + eapply runsP_bind; [exact Hr|lia|]. eapply runsP_bind; [apply runs_return|lia|]. apply runsP_here; [lia|]. by exists σ2.
    + eapply runsP_bind; [exact Hr|lia|].
      eapply runsP_seq; [apply IH; [cbn [depth] in Hn; lia|eapply plain_sub; [apply G02|done]|by inversion Ht2|done|eapply unmacro_grown; [done|by eapply unmacro_cdr]|eapply no_expander_m; [exact C|exact E2|exact X]|cbn [length] in *; lia]|lia|].
      intros M3 (σ3 & -> & G3). eapply runsP_bind; [apply (runs_macro_end σ3 r0 k ta td); eapply tree_at_sub; [apply G3|done]|lia|].
      eapply runsP_bind; [apply runs_return|lia|]. apply runsP_here; [lia|]. exists σ3. split; [done|by eapply grown_trans].
Qed.
Lemma macro_expand_same t σ r0 r2 r3 c b x a p st : plain σ t -> tree_at σ t -> consts0 σ -> unmacro m σ t -> no_expander m σ -> room (frame c b x a p st) (Z.of_nat (depth t)) ->
  runsP 2 L_macro_expand (MS σ r0 (root t) r2 r3 (frame c b x a p st)) L_eval_apply (fun M => exists σ', M = MS σ' a (root t) b c st /\ grown σ σ').
Proof using Hgl. intros. apply (macro_expand_deep (S (depth t))); [lia|done..]. Qed.
End evaluator.
