(** A program at the top level runs as the semantics says: the loop of begin_expand. *)
From stdpp Require Import base gmap list fin_maps.
From Coq Require Import ZArith Lia.
From Coq Require Import ZifyBool ZifyNat.
From Verif Require Import CInt Symbols Heap HeapLemmas GcModel GcSpec DataModel DataSpec DataLemmas CoreProofs StackModel.
From Verif Require Import EvalModel Rep RepProofs EvalSpec EvalRep EvalLemmas EvalBind EvalSplice EvalRun EvalSteps EvalSteps2 EvalSteps3 EvalSteps4 EvalDefine EvalMain.
From Verif Require Import PrimModel EvalPrimSpec EvalPrims.
From Verif Require Import TopSpec TopRep TopRename TopExpand TopResolve TopForm TopMacro TopRun TopDefine TopEval.
Open Scope Z_scope. Open Scope mes_scope.

Ltac kc := (vm_compute; split; congruence).
Ltac w := first [apply wp_bind | apply wp_ret | apply wp_gets | apply wp_modify].
Ltac regs R := pose proof (rp_r0 _ _ _ R) as HR0; pose proof (rp_r1 _ _ _ R) as HR1;
  pose proof (rp_r2 _ _ _ R) as HR2; pose proof (rp_r3 _ _ _ R) as HR3; cbn in HR0, HR1, HR2, HR3.

(** * The head of a form *)
Lemma operator_root σ f a kk : operator f -> parse σ f a -> consts0 σ -> is_const kk -> kk ∈ reserved -> root a <> Imp kk.
Proof.
  intros Hop Hp C Hk Hr Ea. inversion Hp; subst; cbn in Ea; try done; injection Ea as ->.
  - match goal with H : name_ok _ _ |- _ => by destruct H end.
  - destruct (cst_const _ _ C kk Hk) as (t & n & d' & Hno & Ht' & _). destruct Ht' as [-> | ->]; congruence.
Qed.
Lemma form_object f M s e t p : rep f M s -> consts0 (m_heap M) -> f (root t) p -> parse (m_heap M) e t -> tree_at (m_heap M) t ->
  exists ty a d, m_heap M !! root t = Some (OCell ty a d) /\
    (match a with WId j => j <> Imp cell_symbol_primitive_load | WInt n => no_load (WInt n) end) /\
    ((forall bs, e <> EBegin bs) -> ty <> TPAIR \/ exists j, a = WId j /\ j <> Imp cell_symbol_begin).
Proof.
  intros R C Hi Hp Ht. destruct t as [i|k a d].
  - apply parse_leaf in Hp as (x & -> & [(v & o & -> & Ho & Hs & _)|[[-> [(n & d & Ho & Hn) _]]|(l & -> & Ho)]]).
    + destruct o as [ty a d| |]; try done. destruct Hs as [Hs1 Hs2]. exists ty, a, d. split; [done|]. split.
      * destruct (rh_cell _ _ _ _ _ _ _ _ (rp_heap _ _ _ R) Hi Ho) as (c & _ & _ & (_ & _ & _ & _ & K & _) & _ & _).
        destruct a; [|done]. cbn in K. destruct Hs1 as [->|[->|[->|[->| ->]]]]; done.
      * intros _. left. by destruct Hs1 as [->|[->|[->|[->| ->]]]].
    + eexists _, _, _. split; [exact Ho|]. split; [done|]. intros _. by left.
    + eexists _, _, _. split; [exact Ho|]. split; [done|]. intros _. by left.
  - inversion Ht; subst. eexists _, _, _. split; [done|].
    inversion Hp; subst; cbn [root]; try (split; [done|intros _; right; eexists; by split]).
    + split; [done|]. intros Hn. by destruct (Hn es).
    + split; [eapply operator_root; [done..|kc|unfold reserved, hidden; set_solver]|]. intros _. right. eexists. split; [done|]. eapply operator_root; [done..|kc|unfold reserved, hidden; set_solver].
Qed.

Lemma sublist_NoDup {A} (l k : list A) : l `sublist_of` k -> NoDup k -> NoDup l.
Proof.
  induction 1 as [|x l k Hs IH|x l k _ IH]; [done| |]; intros [Hx Hn]%NoDup_cons; [|by apply IH]. constructor; [|by apply IH].
  intros Hl. apply Hx. eapply elem_of_submseteq; [exact Hl|by apply sublist_submseteq].
Qed.
(** * The forms of a program *)
Section forms.
Context (T : table) (xs : Z -> Prop) (m : Z).
Notation forms := (forms T xs m).
Lemma forms_grown σ σ' i ts es : grown σ σ' -> forms σ i ts es -> forms σ' i ts es.
Proof.
  intros G [H1 H2 H3 H4]. pose proof (grown_morph _ _ G) as E. split.
  - apply (ilist_m _ _ _ E) in H1 as [H1 _]. by rewrite map_id in H1.
  - eapply Forall2_impl; [exact H2|]. intros e t. by eapply parse_m.
  - eapply Forall_impl; [exact H3|]. intros t. apply text_sub, G.
  - eapply Forall_impl; [exact H4|]. intros t. by eapply unmacro_grown.
Qed.
Lemma forms_rest σ kk a d ts es : σ !! Imp kk = Some (opair a d) -> forms σ d ts es -> rest T xs m σ kk ts es.
Proof. intros Hk [H1 H2 H3 H4]. split; [|done..]. by exists a, d. Qed.
Lemma rest_forms σ kk ts es : rest T xs m σ kk ts es -> exists a d, σ !! Imp kk = Some (opair a d) /\ forms σ d ts es.
Proof. intros [(a & d & H1 & H1') H2 H3 H4]. exists a, d. split; [done|]. by split. Qed.
(** the forms in (begin ...) *)
Lemma parses_forms σ es b : parses σ es b -> tree_at σ b -> exists ss, Forall2 (parse σ) es ss /\ ml σ (root b) (map root ss) /\ all_nodes ss `sublist_of` nodes b /\
  Forall (fun s => tree_at σ s /\ (depth s <= depth b)%nat /\ forall x, occurs x s -> occurs x b) ss /\ (length ss <= tsize b)%nat.
Proof.
  intros Hp. induction es as [|e es IH] in b, Hp |- *; intros Ht; inversion Hp as [|? ? k a d Ha Hd]; subst.
  - exists []. split; [constructor|]. split; [constructor|]. split; [cbn; constructor|]. split; [constructor|cbn; lia].
  - inversion Ht as [|? ? ? Hk Hta Htd]; subst. destruct (IH d Hd Htd) as (ss & F & L & S & B & Hlen). exists (a :: ss). split; [by constructor|].
    split; [cbn; by econstructor|]. split; [|split].
    + unfold all_nodes. cbn. apply sublist_cons. by apply sublist_app.
    + constructor; [split; [done|]; split; [cbn; lia|]; intros x; by apply oc_car|]. eapply Forall_impl; [exact B|]. intros s (B1 & B2 & B3). split; [done|]. split; [cbn; lia|]. intros x Hx. by apply oc_cdr, B3.
    + unfold tsize in *. cbn. rewrite app_length. lia.
Qed.
Lemma in_all_nodes t ts k : t ∈ ts -> k ∈ nodes t -> k ∈ all_nodes ts.
Proof. intros Ht Hk. unfold all_nodes. apply elem_of_list_In, in_concat. exists (nodes t). split; [apply in_map; by apply elem_of_list_In|by apply elem_of_list_In]. Qed.
Lemma sub_all_nodes t ts : t ∈ ts -> nodes t `sublist_of` all_nodes ts.
Proof.
  induction 1 as [t ts|t t' ts _ IH]; unfold all_nodes; cbn; [apply sublist_inserts_r; done|by apply sublist_inserts_l].
Qed.
Lemma splice_forms σ j k b es' ts es : parses σ es' b -> forms σ j ts es -> text T xs σ (Node k (Sym cell_symbol_begin) b) -> unmacro m σ (Node k (Sym cell_symbol_begin) b) ->
  exists ss, ml σ (root b) (map root ss) /\ (length ss <= tsize b)%nat /\ all_nodes ss `sublist_of` nodes b /\ Forall (fun s => (depth s <= depth b)%nat /\ size s <= size b) ss /\
    forall i σ', grown σ σ' -> mseg σ' i j (map root ss) -> forms σ' i (ss ++ ts) (es' ++ es).
Proof.
  intros Hp F Htx Hun. pose proof (tx_at _ _ _ _ Htx) as Ht. inversion Ht as [|? ? ? Hk _ Htb]; subst.
  destruct (parses_forms _ _ _ Hp Htb) as (ss & Fp & L & S & B & Hlen). exists ss. split; [done|]. split; [done|]. split; [done|].
  assert (forall s, s ∈ ss -> nodes s `sublist_of` nodes b) as Hsub. { intros s Hs. etrans; [by apply sub_all_nodes|done]. }
  split. { rewrite Forall_forall in B |- *. intros s Hs. split; [by apply (B s Hs)|]. unfold size, tsize. pose proof (sublist_length _ _ (Hsub s Hs)). lia. }
  intros i σ' G Hseg.
  assert (forms σ' j ts es) as F' by (by eapply forms_grown). destruct F' as [F1 F2 F3 F4]. split.
  - rewrite map_app. clear -Hseg F1. induction Hseg; [done|]. cbn. econstructor; [done|auto].
  - apply Forall2_app; [|done]. eapply Forall2_impl; [exact Fp|]. intros e t. eapply parse_m, grown_morph, G.
  - apply Forall_app. split; [|done]. rewrite Forall_forall in B |- *. intros s Hs. destruct (B s Hs) as (B1 & B2 & B3). apply (text_sub T xs σ); [apply G|]. destruct Htx as [_ X2 X3 X4]. split.
    + done.
    + cbn in X2. apply NoDup_cons in X2 as [_ X2]. eapply sublist_NoDup; [by apply Hsub|done].
    + intros Hv. apply X3. cbn. right. cbn. eapply elem_of_submseteq; [exact Hv|]. by apply sublist_submseteq, Hsub.
    + intros x Hx. apply X4. by apply oc_cdr, B3.
  - apply Forall_app. split; [|done]. rewrite Forall_forall in B |- *. intros s Hs. destruct (B s Hs) as (B1 & B2 & B3). eapply unmacro_grown; [exact G|]. intros x Hx. apply Hun. by apply oc_cdr, B3.
Qed.
End forms.

(** * The loop *)
Section loop.
Context (T : table) (xs : Z -> Prop) (m : Z) (ρ : env) (width : nat) (d : nat).
Context (load_program : nat -> Z -> M Z) (fuel : nat) (sz : Z) (gl : list id).
Hypothesis Hgl : gl !! 3%nat = Some (Imp (tb_module T)).
Hypothesis Hgm : gl !! 1%nat = Some (Imp m).
Notation world := (world T xs m ρ).
Notation GE gs := (Genv (Imp (tb_module T)) gs).
Notation text := (text T xs).
Notation kept := (kept T xs m).
Notation forms := (forms T xs m).
Notation MS σ r0 r1 r2 r3 st := (Mst σ r0 r1 r2 r3 st sz gl).
Notation frame c b x a e st := (c :: b :: x :: a :: e :: st).
Notation room st k := (Z.of_nat (length st) + 5 * k <= sz).
Notation step := (step GcModel.gc_check (prim_call fuel) (load_program fuel) fuel).
Notation goes := (goes (prim_call fuel) (load_program fuel) fuel).
Notation run_form := (run_form width (prims width) d ρ).
Notation run_program := (run_program width (prims width) d ρ).

Lemma goes_two N l M l' M' : 0 <= N -> (forall f v s, rep f M s -> wp (step l v) s (fun n s' => exists l1, n = Goto l1 v /\
    wp (step l1 v) s' (fun n' s'' => n' = Goto l' v /\ exists f', rep f' M' s''))) -> goes any any N l M l' (fun M2 => M2 = M').
Proof.
  intros HN H. split; [done|]. intros f v s _ R _. destruct (H f v s R) as (n & s' & E & l1 & -> & n' & s'' & E' & -> & f' & R').
  exists f', s'', M', v. split; [|done]. eapply steps_cons; [exact E|]. eapply steps_cons; [exact E'|constructor].
Qed.
(** the loop is entered with the forms in [i] and the value [j] *)
Definition arrives (l : label) (M : mst) (σ : oheap) (r0 i r2 r3 j : id) (st : list id) : Prop :=
  (i = Imp cell_nil -> goes any any 0 l M L_vm_return (fun M' => M' = MS σ r0 j r2 r3 st)) /\
  (i <> Imp cell_nil -> goes any any 0 l M L_begin_expand_while (fun M' => M' = MS σ r0 i r2 r3 st)).
Lemma arrives_start σ r0 i r2 r3 st : arrives L_begin_expand (MS σ r0 i r2 r3 st) σ r0 i r2 r3 (Imp cell_unspecified) st.
Proof.
  split; intros Hi; (apply goes_two; [lia|]); intros f v s R; regs R; cbn [EvalModel.step]; w; (eexists; split; [done|]); cbn [EvalModel.step]; w; w.
  - rewrite (EvalLemmas.eqc _ _ _ R _ _ _ HR1) by (done || kc). w. w. w. split; [done|]. exists f. refine (rep_set_R1 _ _ _ _ _ R _). eapply rep_const; [exact R|kc].
  - rewrite (neqc _ _ _ R _ _ _ HR1) by (done || kc). w. split; [done|]. by exists f.
Qed.
Lemma arrives_next σ r0 j kk a i r3 st : σ !! Imp kk = Some (opair a i) -> arrives L_begin_expand_eval (MS σ r0 j (Imp kk) r3 st) σ r0 i (Imp kk) r3 j st.
Proof.
  intros Ho. split; intros Hi; (apply goes_two; [lia|]); intros f v s R; regs R; cbn [EvalModel.step]; w; w; w; w; w; (eapply (wp_cdr_of _ _ _ R _ _ _ _ _ _ HR2 Ho)); intros p Hp; w; w; w; (eexists; split; [done|]); cbn [EvalModel.step];
    pose proof (rep_set_R1 _ _ _ _ _ R Hp) as R'; pose proof (rp_r1 _ _ _ R') as HR1'; cbn in HR1'; w; w.
  - rewrite (EvalLemmas.eqc _ _ _ R' _ _ _ HR1') by (done || kc). w. w. w. split; [done|]. exists f. exact (rep_set_R1 _ _ _ _ _ R' HR1).
  - rewrite (neqc _ _ _ R' _ _ _ HR1') by (done || kc). w. split; [done|]. by exists f.
Qed.

(** ** One form *)
Lemma goes_gc σ r0 r1 r2 r3 st : room st 1 -> goes any any 0 L_begin_expand_while (MS σ r0 r1 r2 r3 st) L_begin_expand_round (fun M => M = MS σ r0 r1 r2 r3 st).
Proof.
  intros Hroom. apply goes_step; [lia|]. intros f v s _ R En. cbn [EvalModel.step]. w.
  destruct (rep_gc_check _ _ _ R) as (f' & s' & E & R' & _).
  { destruct (rp_size _ _ _ R) as [_ Hs]. pose proof (rp_stack_size _ _ _ R) as Hsz. cbn in Hs, Hsz. lia. }
  { intros Hc. apply (en_room _ _ _ _ En). split; [by right; right|done]. }
  eapply wp_eq; [exact E|]. w. exists v. split; [done|]. split; [done|]. exists f'. by eexists.
Qed.
Definition round_done (σ : oheap) (r0 : id) (kk : Z) (t : tree) (r3 : id) (st : list id) (M : mst) : Prop :=
  M = MS σ r0 (root t) (Imp kk) r3 (frame (Imp cell_vm_begin_expand_macro) (Imp kk) (Imp kk) r0 (Imp cell_f) st).
Lemma wp_round_end f s σ r0 kk t dd e r2 r3 st (v : locals) : rep f (MS σ r0 (Imp kk) r2 r3 st) s -> consts0 σ -> σ !! Imp kk = Some (opair (root t) dd) -> parse σ e t -> tree_at σ t -> room st 1 ->
  wp (r1 <- gets R1 ;; a <- car_of r1 ;; k <- car_of a ;; ret (k =? cell_symbol_primitive_load)) s (fun b s' => wp (
      r0 <- gets R0 ;; r1 <- gets R1 ;; a <- car_of r1 ;;
      if b : bool then d <- cdr_of a ;; e <- car_of d ;; push_cc e r1 r0 cell_vm_begin_expand_primitive_load ;;; ret (Goto L_eval v)
      else push_cc a r1 r0 cell_vm_begin_expand_macro ;;; ret (Goto L_macro_expand v)) s'
     (fun n s' => exists v', n = Goto L_macro_expand v' /\ any v' /\ exists f' M', rep f' M' s' /\ round_done σ r0 kk t r3 st M')).
Proof.
  intros R C Ho Hp Ht Hroom. regs R. do 3 w. eapply (wp_car_of _ _ _ R _ _ _ _ _ _ HR1 Ho). intros p Hp1.
  destruct (form_object _ _ _ _ _ _ R C Hp1 Hp Ht) as (ty & a & b & Hob & Ha & _).
  unfold car_of at 1. do 2 w. eapply (wp_rd _ _ _ R _ _ _ _ _ _ Hp1 Hob). intros c _ Hca _. w. w.
  assert ((c_car c =? cell_symbol_primitive_load) = false) as ->.
  { destruct a as [j|n]; cbn in Hca; [eapply (neqc _ _ _ R _ _ _ Hca); [kc|done]|]. apply Z.eqb_neq. intros E. apply Ha. congruence. }
  w. w. w. w. w. eapply (wp_car_of _ _ _ R _ _ _ _ _ _ HR1 Ho). intros q Hq.
  w. eapply (wp_push_cc _ _ _ R (root t) (Imp kk) r0 (Imp cell_vm_begin_expand_macro)); [cbn; lia|done|done|done|eapply rep_const; [exact R|kc]|].
  intros s' R'. w. exists v. split; [done|]. split; [done|]. exists f. eexists. split; [exact R'|done].
Qed.
Lemma goes_round σ r0 kk t dd e r2 r3 st : consts0 σ -> σ !! Imp kk = Some (opair (root t) dd) -> parse σ e t -> tree_at σ t -> room st 1 -> (forall bs, e <> EBegin bs) ->
  goes any any 0 L_begin_expand_round (MS σ r0 (Imp kk) r2 r3 st) L_macro_expand (round_done σ r0 kk t r3 st).
Proof.
  intros C Ho Hp Ht Hroom Hne. apply goes_step; [lia|]. intros f v s _ R En. cbn [EvalModel.step]. unfold step_begin_expand_round. regs R. do 2 w.
  w. eapply (wp_rd _ _ _ R _ _ _ _ _ _ HR1 Ho). intros c Hty Hca Hcd. cbn in Hca, Hcd. rewrite Hty. change (TPAIR =? TPAIR) with true. cbv iota.
  destruct (form_object _ _ _ _ _ _ R C Hca Hp Ht) as (ty & a & b & Hob & _ & Hb). specialize (Hb Hne).
  do 2 w. eapply (wp_rd _ _ _ R _ _ _ _ _ _ Hca Hob). intros ca Hty' Hca' _.
  assert ((c_ty ca =? TPAIR) && (c_car ca =? cell_symbol_begin) = false) as ->.
  { apply andb_false_iff. rewrite Hty'. destruct Hb as [Hb|(j & -> & Hj)]; [left; by apply Z.eqb_neq|right]. cbn in Hca'. eapply (neqc _ _ _ R _ _ _ Hca'); [kc|done]. }
  w. w. by eapply wp_round_end.
Qed.
Lemma goes_splice gs σ r0 kk k b dd es' ts es r2 r3 st : consts_ok (GE gs) σ -> consts0 σ -> σ !! Imp kk = Some (opair (Txt k) dd) -> parses σ es' b -> es' ++ es <> [] ->
  forms σ dd ts es -> text σ (Node k (Sym cell_symbol_begin) b) -> unmacro m σ (Node k (Sym cell_symbol_begin) b) -> room st 1 ->
  goes any any (size b) L_begin_expand_round (MS σ r0 (Imp kk) r2 r3 st) L_macro_expand (fun M => exists σ' kk' ss t ts' dd', 
    grown σ σ' /\ ss ++ ts = t :: ts' /\ forms σ' (Imp kk') (t :: ts') (es' ++ es) /\ σ' !! Imp kk' = Some (opair (root t) dd') /\ round_done σ' r0 kk' t r3 st M /\
    all_nodes ss `sublist_of` nodes b /\ Forall (fun s => (depth s <= depth b)%nat /\ size s <= size b) ss).
Proof.
  intros C C0 Ho Hps Hne F Htx Hun Hroom. apply goes_step; [apply size_pos|]. intros f v s _ R En. cbn [EvalModel.step]. unfold step_begin_expand_round. regs R. do 2 w.
  w. eapply (wp_rd _ _ _ R _ _ _ _ _ _ HR1 Ho). intros c Hty Hca Hcd. cbn in Hca, Hcd. rewrite Hty. change (TPAIR =? TPAIR) with true. cbv iota.
  pose proof (tx_at _ _ _ _ Htx) as Ht. inversion Ht as [|? ? ? Hob _ Htb]; subst. cbn in Hob.
  do 2 w. eapply (wp_rd _ _ _ R _ _ _ _ _ _ Hca Hob). intros ca Hty' Hca' Hcd'. cbn in Hca', Hcd'. rewrite Hty', (const_val _ _ _ R _ _ Hca') by kc. change ((TPAIR =? TPAIR) && (cell_symbol_begin =? cell_symbol_begin)) with true. cbv iota.
  destruct (splice_forms T xs m σ dd k b es' ts es Hps F Htx Hun) as (ss & L & Hlen & Sub & B & Hf).
  w. w. eapply (wp_append2 (GE := GE gs) fuel f _ s (root b) (c_cdr ca) (map root ss) dd (c_cdr c)); [exact R|exact C|done|done|done| |destruct En; lia|].
  { eapply can_alloc_le; [apply (en_alloc _ _ _ _ En)|]. rewrite map_length. unfold size. lia. }
  intros f' r i' s' σ' R' G Hr Subh Hms Hloc. w.
  assert (grown σ σ') as Hg by (by split). specialize (Hf i' σ' Hg Hms).
  destruct (ss ++ ts) as [|t ts'] eqn:Ess. { pose proof (fo_parse _ _ _ _ _ _ _ Hf) as Hp. inversion Hp. congruence. }
  pose proof (fo_list _ _ _ _ _ _ _ Hf) as Hl. cbn in Hl. inversion Hl as [|kk' ? dd' ? Hkk' Hl']; subst.
  pose proof (fo_parse _ _ _ _ _ _ _ Hf) as Hp. inversion Hp as [|e1 ? es1 ? Hp1 _ Ees]; subst.
  pose proof (fo_text _ _ _ _ _ _ _ Hf) as Hx. apply Forall_cons in Hx as [Hx _].
  eapply wp_mono; [eapply (wp_round_end f' _ σ' r0 kk' t dd' e1 r2 r3 st v); [exact (rep_set_R1 _ _ _ _ _ R' Hr)| |exact Hkk'|exact Hp1|apply Hx|exact Hroom]|].
  { eapply consts_ok_ext; [by apply grown_ext|exact C0]. }
  intros b0 s0 Hb0. eapply wp_mono; [exact Hb0|]. cbn beta. intros n s1 (v' & -> & Hv & f1 & M1 & R1' & Hd). exists v'. split; [done|]. split; [done|]. exists f1, M1. split; [done|].
  exists σ', kk', ss, t, ts', dd'. rewrite Ees. done.
Qed.
(** the variables of the form are looked up in the table of global variables *)
Lemma goes_expand gs μ σ r0 kk t dd e r3 st : world gs μ σ r0 -> text σ t -> parse σ e t -> σ !! Imp kk = Some (opair (root t) dd) -> room st 1 ->
  goes any any (4 * size t) L_begin_expand_macro (MS σ r0 (root t) (Imp kk) r3 st) L_eval (fun M => exists σ' t', 
    M = MS σ' r0 (root t) (Imp kk) r3 (frame (Imp cell_vm_begin_expand_eval) (Imp kk) (Imp kk) r0 (Imp cell_f) st) /\
    expanded (nodes t) σ σ' /\ root t' = root t /\ nodes t' = nodes t /\ text σ' t' /\ parse σ' (resolve_top gs e) t').
Proof.
  intros W Htx Hp Ho Hroom. pose proof (size_pos t) as Hsz. apply goes_step; [lia|]. intros f v s _ R En. cbn [EvalModel.step]. regs R. do 5 w.
  eapply (wp_car_of _ _ _ R _ _ _ _ _ _ HR2 Ho). intros p Hp1. rewrite (rh_fun _ _ _ (rp_heap _ _ _ R) _ _ _ HR1 Hp1), Z.eqb_refl. cbn [negb]. cbv iota.
  w. w. pose proof (rep_set_R1 _ _ _ _ _ R HR2) as R'.
  w. eapply wp_mono; [eapply (wp_expand T xs gs ρ fuel (4 * size t) e t f _ _ p R'); [eapply world_setting; [exact W|done|exact Hgl]|exact Hp1|exact Htx|exact Hp|lia|apply (en_alloc _ _ _ _ En)|apply (en_fuel _ _ _ _ En)]|].
  cbn beta. intros _ s1 (f1 & σ1 & t1 & (R1' & G1 & _) & E1 & Er & Enn & Htx1 & Hp2). cbn [m_heap] in *. unfold with_heap in R1'. cbn [m_heap m_r0 m_r1 m_r2 m_r3 m_stk m_size m_glob] in R1'.
  assert (σ1 !! Imp kk = Some (opair (root t) dd)) as Ho1 by (by eapply (ex_keep _ _ _ E1)).
  pose proof (rp_r0 _ _ _ R1') as HR0'. cbn in HR0'.
  w. w. w. eapply (wp_car_of _ _ _ R1' _ _ _ _ _ _ (G1 _ _ HR2) Ho1). intros q Hq.
  w. eapply (wp_push_cc _ _ _ R1' (root t) (Imp kk) r0 (Imp cell_vm_begin_expand_eval)); [cbn; lia|done|by apply G1|done|eapply rep_const; [exact R1'|kc]|].
  intros s' R2'. w. exists v. split; [done|]. split; [done|]. exists f1. eexists. split; [exact R2'|]. exists σ1, t1. done.
Qed.
Lemma world_grown gs μ σ σ' r0 : grown σ σ' -> world gs μ σ r0 -> world gs μ σ' r0.
Proof. intros G W. eapply world_ext; [by apply grown_ext|eapply store_at_grown; [apply W|done]|apply W|exact W]. Qed.
(** macro expansion, expansion of variables, evaluation *)
Lemma goes_form gs μ e gs' μ' v N D σ r0 kk t ts dd es r3 st M : run_form gs μ e gs' μ' v -> world gs μ σ r0 -> forms σ (Imp kk) (t :: ts) (e :: es) -> σ !! Imp kk = Some (opair (root t) dd) ->
  NoDup (all_nodes (t :: ts)) -> Forall (untouched (all_nodes (t :: ts))) (st ++ gl) -> (depth t <= D)%nat -> room st (Z.of_nat D + 1) -> room st (Z.of_nat d + 3) -> 2 * Z.of_nat width + 12 + 4 * size t <= N ->
  round_done σ r0 kk t r3 st M ->
  goes any any N L_macro_expand M L_begin_expand_eval (fun M' => exists σ' j, M' = MS σ' r0 j (Imp kk) (Imp cell_vm_begin_expand_eval) st /\ world gs' μ' σ' r0 /\ val_at σ' v j /\ rest T xs m σ' kk ts es).
Proof.
  intros Hrun W F Ho Hnd Hu HD Hroom1 Hroom2 HN ->. pose proof (size_pos t) as Hsz.
  destruct F as [F1 F2 F3 F4]. pose proof F3 as F3'. pose proof F4 as F4'. apply Forall_cons in F3' as [Htx _]. apply Forall_cons in F4' as [Hun _]. pose proof F2 as Hp. apply Forall2_cons_1 in Hp as [Hp _].
  pose proof (ba_consts _ (wo_base _ _ _ _ _ _ _ _ W)) as C.
  eapply goes_seq; [eapply goes_any, (macro_expand_same (defs := true) (prim_call fuel) (load_program fuel) fuel sz gl m Hgm t σ r0); [by apply (parse_plain σ C) in Hp as [? _]|apply Htx|done|exact Hun|apply W|cbn [length]; lia]|lia|].
  intros M1 (σ1 & -> & G1). pose proof (forms_grown T xs m σ σ1 _ _ _ G1 (Build_forms _ _ _ _ _ _ _ F1 F2 F3 F4)) as F'. pose proof (world_grown _ _ _ _ _ G1 W) as W1.
  assert (σ1 !! Imp kk = Some (opair (root t) dd)) as Ho1 by (eapply lookup_weaken; [exact Ho|apply G1]).
  clear C F1 F2 F3 F4 Htx Hun Hp. destruct F' as [F1 F2 F3 F4]. apply Forall_cons in F3 as [Htx F3]. apply Forall_cons in F4 as [Hun F4]. apply Forall2_cons_1 in F2 as [Hp F2].
  eapply goes_bind with (d := true); [apply runs_dispatch; [reflexivity|kc]|lia|].
  eapply goes_seq; [by eapply goes_expand; [..|lia]|lia|]. intros M2 (σ2 & t2 & -> & E2 & Er & En & Htx2 & Hp2).
  assert (rest T xs m σ1 kk ts es) as Hrest1. { eapply forms_rest; [exact Ho1|]. split; [|done..]. cbn in F1. inversion F1 as [|? ? ? ? Hk Hl]; subst. rewrite Ho1 in Hk. by injection Hk as ->. }
  assert (forall t' k, t' ∈ ts -> k ∈ nodes t' -> k ∉ nodes t) as Hdis. { unfold all_nodes in Hnd. cbn in Hnd. apply NoDup_app in Hnd as (_ & Hd & _). intros t' k Ht' Hk Hk'. apply (Hd k Hk'). by eapply in_all_nodes. }
  pose proof (kept_expanded T xs m _ _ _ E2 _ _ _ Hdis Hrest1) as Hrest2.
  pose proof (world_expanded _ _ _ _ _ _ _ _ _ _ E2 (tx_apart _ _ _ _ Htx) W1) as W2.
  rewrite <- Er. eapply goes_seq; [eapply (eval_form T xs m ρ width d load_program fuel sz gl Hgl gs μ e gs' μ' v Hrun N); [exact W2|exact Htx2|exact Hp2| |cbn [length]; lia|]|lia|].
  { rewrite En. assert (forall z, z ∈ nodes t -> z ∈ all_nodes (t :: ts)) as Hsub by (intros z Hz; eapply in_all_nodes; [by left|done]). pose proof (untouched_mono _ _ _ Hsub Hu) as Hu'.
    assert (untouched (nodes t) r0) as Hr0. { eapply env_untouched. apply (wo_env _ _ _ _ _ _ _ _ W2). }
    cbn. rewrite !Forall_cons. split; [exact Hr0|]. do 5 (split; [by intros ? _|]). split; [exact Hr0|]. split; [by intros ? _|]. done. }
  { unfold size, tsize. rewrite En. unfold size, tsize in HN. lia. }
  intros M3 (σ3 & j & -> & W3 & V & K3). rewrite En in K3.
  eapply goes_bind with (d := true); [apply runs_dispatch; [reflexivity|kc]|lia|]. apply goes_here; [lia|]. exists σ3, j. split; [done|]. split; [done|]. split; [done|]. by apply K3.
Qed.

(** ** All the forms *)
Lemma eval_program gs μ v0 es gs' μ' v : run_program gs μ v0 es gs' μ' v ->
  forall N K D l M σ r0 i r2 r3 j ts c b x a p st, arrives l M σ r0 i r2 r3 j (frame c b x a p st) -> world gs μ σ r0 -> val_at σ v0 j -> forms σ i ts es ->
    NoDup (all_nodes ts) -> Forall (untouched (all_nodes ts)) (frame c b x a p st ++ gl) -> Forall (fun t => (depth t <= D)%nat /\ 4 * size t <= K) ts ->
    room (frame c b x a p st) (Z.of_nat D + 1) -> room (frame c b x a p st) (Z.of_nat d + 3) -> 0 <= K -> 2 * Z.of_nat width + 12 + K <= N ->
    goes any any N l M L_eval_apply (fun M' => exists σ' j', M' = MS σ' a j' b c st /\ world gs' μ' σ' r0 /\ val_at σ' v j').
Proof.
  induction 1 as [gs μ v|gs μ v0 e es gs1 μ1 v1 gs2 μ2 v Hne H1 _ IH|gs μ v0 bs es e1 es1 gs1 μ1 v1 gs2 μ2 v Ees H1 _ IH];
    intros N K D l M σ r0 i r2 r3 j ts c b x a p st [Hnil Hcons] W V F Hnd Hu Hsz Hroom1 Hroom2 HK HN.
  - pose proof (fo_parse _ _ _ _ _ _ _ F) as Hp. inversion Hp; subst. pose proof (fo_list _ _ _ _ _ _ _ F) as Hl. cbn in Hl. inversion Hl; subst.
    eapply goes_seq; [by apply Hnil|lia|]. intros M1 ->. eapply goes_bind with (d := true); [apply runs_return|lia|]. apply goes_here; [lia|]. by exists σ, j.
  - pose proof (fo_parse _ _ _ _ _ _ _ F) as Hp. inversion Hp as [|? t ? ts' Hp1 _]; subst. pose proof (fo_list _ _ _ _ _ _ _ F) as Hl. cbn in Hl. inversion Hl as [|kk ? dd ? Ho Hl']; subst.
    pose proof (fo_text _ _ _ _ _ _ _ F) as Hx. apply Forall_cons in Hx as [Hx _]. pose proof Hsz as Hsz'. apply Forall_cons in Hsz' as [[HD HK1] Hsz'].
    pose proof (ba_consts _ (wo_base _ _ _ _ _ _ _ _ W)) as C.
    eapply goes_seq; [apply Hcons; intros [= ->]; by eapply nil_not_pair|lia|]. intros M1 ->.
    eapply goes_seq; [apply goes_gc; cbn [length] in *; lia|lia|]. intros M2 ->.
    eapply goes_seq; [eapply goes_round; [exact C|exact Ho|exact Hp1|apply Hx|cbn [length] in *; lia|exact Hne]|lia|]. intros M3 HM3.
    eapply goes_seq; [eapply (goes_form gs μ e gs1 μ1 v1 N D); try done; lia|lia|]. intros M4 (σ4 & j4 & -> & W4 & V4 & Hrest).
    apply rest_forms in Hrest as (a4 & d4 & Ho4 & F4).
    eapply (IH N K D); [by eapply arrives_next|exact W4|exact V4|exact F4| | |exact Hsz'|done..].
    + unfold all_nodes in *. cbn in Hnd. by apply NoDup_app in Hnd as (_ & _ & ?).
    + eapply untouched_mono; [|exact Hu]. intros z Hz. unfold all_nodes. cbn. apply elem_of_app. by right.
  - pose proof (fo_parse _ _ _ _ _ _ _ F) as Hp. inversion Hp as [|? t ? ts0 Hp1 Hp0]; subst. pose proof (fo_list _ _ _ _ _ _ _ F) as Hl. cbn in Hl. inversion Hl as [|kk ? dd ? Ho Hl']; subst.
    pose proof (fo_text _ _ _ _ _ _ _ F) as Hx. apply Forall_cons in Hx as [Hx Hxs]. pose proof (fo_macro _ _ _ _ _ _ _ F) as Hm. apply Forall_cons in Hm as [Hm Hms]. apply Forall_cons in Hsz as [[HD HK1] Hsz].
    inversion Hp1 as [| | | | | | | | | | |? k bt Hps|]; subst.
    pose proof (ba_consts _ (wo_base _ _ _ _ _ _ _ _ W)) as C.
    assert (size (Node k (Sym cell_symbol_begin) bt) = 1 + size bt) as Esz. { unfold size, tsize. cbn. lia. }
    eapply goes_seq; [apply Hcons; intros [= ->]; by eapply nil_not_pair|lia|]. intros M1 ->.
    eapply goes_seq; [apply goes_gc; cbn [length] in *; lia|lia|]. intros M2 ->.
    pose proof (size_pos bt) as Hsb.
    eapply goes_seq; [eapply (goes_splice gs _ _ _ k bt dd bs ts0 es); [by eapply world_consts|exact C|exact Ho|exact Hps|by rewrite Ees|by split|exact Hx|exact Hm|cbn [length] in *; lia]|lia|].
    intros M3 (σ3 & kk' & ss & t' & ts' & dd' & G & Ess & F3 & Ho3 & HM3 & Hsub & Hss). rewrite Ees in F3.
    assert (all_nodes (t' :: ts') `sublist_of` all_nodes (Node k (Sym cell_symbol_begin) bt :: ts0)) as Hsl.
    { rewrite <- Ess. unfold all_nodes in *. rewrite map_app, concat_app. cbn. apply sublist_cons. by apply sublist_app. }
    assert (NoDup (all_nodes (t' :: ts'))) as Hnd3 by (by eapply sublist_NoDup).
    assert (Forall (untouched (all_nodes (t' :: ts'))) (frame c b x a p st ++ gl)) as Hu3. { eapply untouched_mono; [|exact Hu]. intros z Hz. eapply elem_of_submseteq; [exact Hz|by apply sublist_submseteq]. }
    assert (Forall (fun t => (depth t <= D)%nat /\ 4 * size t <= K) (t' :: ts')) as Hsz3.
    { rewrite <- Ess. apply Forall_app. split; [|done]. eapply Forall_impl; [exact Hss|]. cbn beta. intros t0 [B1 B2]. cbn in HD. split; lia. }
    pose proof Hsz3 as Hsz4. apply Forall_cons in Hsz4 as [[HD4 HK4] Hsz4].
    eapply goes_seq; [eapply (goes_form gs μ e1 gs1 μ1 v1 N D); [exact H1|by eapply world_grown|exact F3|exact Ho3|done|done|exact HD4|done|done|lia|exact HM3]|lia|]. intros M4 (σ4 & j4 & -> & W4 & V4 & Hrest).
    apply rest_forms in Hrest as (a4 & d4 & Ho4 & F4).
    eapply (IH N K D); [by eapply arrives_next|exact W4|exact V4|exact F4| | |exact Hsz4|done..].
    + unfold all_nodes in *. cbn in Hnd3. by apply NoDup_app in Hnd3 as (_ & _ & ?).
    + eapply untouched_mono; [|exact Hu3]. intros z Hz. unfold all_nodes. cbn. apply elem_of_app. by right.
Qed.
End loop.
