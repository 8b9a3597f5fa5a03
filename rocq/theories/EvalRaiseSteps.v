(** The steps of the evaluator that signal an error. *)
From stdpp Require Import base gmap list fin_maps.
From Coq Require Import ZArith Lia.
From Coq Require Import ZifyBool ZifyNat.
From Verif Require Import CInt Symbols Heap HeapLemmas GcModel GcSpec DataModel DataSpec DataLemmas CoreProofs StackModel.
From Verif Require Import EvalModel Rep RepProofs EvalSpec EvalErrSpec EvalRep EvalLemmas EvalBind EvalSplice EvalRun EvalSteps EvalSteps2 EvalSteps3 EvalRaise EvalSteps4.
From Verif Require StringProofs ClientProofs.
Open Scope Z_scope. Open Scope mes_scope.

Lemma wp_with {A} (m : M A) s (P Q : A -> state -> Prop) : (forall a s', m s = ROk a s' -> P a s') -> wp m s (fun a s' => P a s' -> Q a s') -> wp m s Q.
Proof. intros H (a & s' & E & HQ). exists a, s'. split; [done|]. apply HQ. by apply H. Qed.
Section globals.
Context {GE : genv}.
Notation consts_ok := (consts_ok GE).
Notation store_ok := (store_ok GE).
Notation const_at := (const_at (GE := GE)).
Ltac kc := (vm_compute; split; congruence).

Lemma throws_error {A} f M s μ key w kx x jk j : rep f M s -> store_at [] μ (m_heap M) -> f jk kx -> val_at (m_heap M) key jk ->
  f j x -> irritant_at (m_heap M) w j -> throws μ key w (error kx x s : res A).
Proof. intros. exists kx, x, s. split; [done|]. by exists f, M, jk, j. Qed.
Lemma throws_pair {A} f M s μ key a d ia jd pa pd : rep f M s -> consts_ok (m_heap M) -> store_at [] μ (m_heap M) -> is_const key ->
  f ia pa -> val_at (m_heap M) a ia -> f jd pd -> val_at (m_heap M) d jd -> can_alloc 1 s ->
  throws μ (VAtom key) (IPair a d) ((e <- cons pa pd ;; error key e) s : res A).
Proof.
  intros R C S Hk Ha Va Hd Vd Hal. destruct (fresh_imp (m_heap M)) as (k & Fk). apply wr_bind.
  eapply (wp_cons _ _ _ R (Imp k) ia jd); [done|done|done|done|]. intros f' q s' (G & _) Hq R'.
  assert (ext (m_heap M) (<[Imp k := opair ia jd]> (m_heap M))) as X by by apply ext_new.
  eapply throws_error; [exact R'|by apply store_at_imp|eapply rep_const; [exact R'|]; exact Hk|apply const_at; [by eapply consts_ok_ext|done]|exact Hq|].
  exists ia, jd. split; [apply lookup_insert|]. split; by eapply val_at_ext.
Qed.
Lemma throws_text {A} f M s μ key bs v j p : rep f M s -> consts_ok (m_heap M) -> store_at [] μ (m_heap M) -> is_const key ->
  f j p -> val_at (m_heap M) v j -> Forall (fun b => b <> 0) bs -> Z.of_nat (length bs) <= MAX_STRING s -> can_alloc (string_cells bs + 1) s ->
  throws μ (VAtom key) (IText bs v) ((e <- make_string0 bs ;; x <- cons e p ;; error key x) s : res A).
Proof.
  intros R C S Hk Hj V Hz Hm Hal. unfold make_string0. rewrite (StringProofs.until_nul_id _ Hz).
  destruct (fresh_imp (m_heap M)) as (k1 & F1). destruct (fresh_imp (<[Imp k1 := OBytes (bs ++ [0])]> (m_heap M))) as (k2 & F2).
  assert (k1 <> k2) as N12 by (intros ->; by rewrite lookup_insert in F2).
  assert (m_heap M !! Imp k2 = None) as F2' by (by rewrite lookup_insert_ne in F2 by congruence).
  destruct (ClientProofs.rep_make_string f M s (Imp k2) (Imp k1) bs R) as [E R1]; [eapply can_alloc_le; [exact Hal|lia]|done|done|done|congruence|].
  rewrite (bind_ok _ _ _ _ _ E). cbn [new_obj m_heap] in R1.
  set (σ1 := <[Imp k1 := OBytes (bs ++ [0])]> (m_heap M)) in *.
  set (σ2 := <[Imp k2 := OCell TSTRING (WInt (Z.of_nat (length bs))) (WId (Imp k1))]> σ1) in *.
  assert (ext (m_heap M) σ1) as X1 by by apply ext_new. assert (ext σ1 σ2) as X2 by by apply ext_new. assert (ext (m_heap M) σ2) as X by by eapply ext_trans.
  destruct (fresh_imp σ2) as (k3 & F3). apply wr_bind.
  assert (can_alloc 1 (with_string bs 0 s)) as Ha1.
  { destruct Hal as (A1 & A2 & A3). unfold can_alloc, string_cells in *. cbn. rewrite app_length. cbn. rewrite Nat2Z.inj_add. change (Z.of_nat 1) with 1.
    pose proof (bytes_cells_pos (Z.of_nat (length bs) + 1)). split; [lia|]. split; [|lia]. unfold limit in *. cbn. lia. }
  eapply (wp_cons _ _ _ R1 (Imp k3) (Imp k2) j); [exact Ha1|exact F3|by right|by left; left|]. intros f' q s' (G & _) Hq R'. cbn [new_obj m_heap] in R'. fold σ1 σ2 in R'.
  assert (ext σ2 (<[Imp k3 := opair (Imp k2) j]> σ2)) as X3 by by apply ext_new. assert (ext (m_heap M) (<[Imp k3 := opair (Imp k2) j]> σ2)) as X4 by by eapply ext_trans.
  eapply throws_error; [exact R'| |eapply rep_const; [exact R'|]; exact Hk|apply const_at; [by eapply consts_ok_ext|done]|exact Hq|].
  - cbn. apply store_at_imp; [|done]. apply store_at_imp; [|done]. by apply store_at_imp.
  - cbn. exists (Imp k2), j, (Imp k1), (Z.of_nat (length bs)). rewrite lookup_insert. split; [done|]. split; [by eapply val_at_ext|].
    assert (k2 <> k3) as N23 by (intros ->; unfold σ2 in F3; by rewrite lookup_insert in F3).
    assert (k1 <> k3) as N13. { intros ->. unfold σ2, σ1 in F3. rewrite lookup_insert_ne in F3 by congruence. by rewrite lookup_insert in F3. }
    split; [rewrite lookup_insert_ne by congruence; apply lookup_insert|]. rewrite lookup_insert_ne by congruence. unfold σ2. rewrite lookup_insert_ne by congruence. apply lookup_insert.
Qed.
Lemma names_ml σ xs i : names_at σ xs None i -> ml σ i (Imp <$> xs).
Proof. intros H. remember None as r eqn:E. induction H; try done; cbn; [constructor|]. econstructor; eauto. Qed.

(** how much the messages take *)
Definition text_need : Z := 10.
Lemma arity_text_fits : Forall (fun b => b <> 0) arity_text /\ Z.of_nat (length arity_text) <= text_room /\ string_cells arity_text + 1 <= text_need.
Proof. split; [vm_compute; repeat constructor; done|]. by vm_compute. Qed.
Lemma apply_text_fits : Forall (fun b => b <> 0) apply_text /\ Z.of_nat (length apply_text) <= text_room /\ string_cells apply_text + 1 <= text_need.
Proof. split; [vm_compute; repeat constructor; done|]. by vm_compute. Qed.

Section rules.
  Context (f : idmap) (M : mst) (s : state) (R : rep f M s) (C : consts_ok (m_heap M)) (μ : store) (S : store_at [] μ (m_heap M)).
  Context (Ht : text_room <= MAX_STRING s) (Ha : can_alloc text_need s).
  Lemma throws_names fuel fn j v xs fm fp js vs ai ap : f j fn -> val_at (m_heap M) v j -> f fm fp -> names_at (m_heap M) xs None fm ->
    f ai ap -> alist_at (m_heap M) js vs ai -> g_free s <= Z.of_nat fuel -> length vs <> length xs ->
    throws μ (VAtom cell_symbol_wrong_number_of_args) (IText arity_text v) (check_formals fuel fn fp ap s).
  Proof.
    intros Hj V Hf Hn Hap Hal Hfuel Hne. destruct (alist_ml _ _ _ _ Hal) as (es & Hml & Hfv). pose proof (Forall2_length _ _ _ Hfv) as Hlen.
    destruct (ml_list _ _ _ _ _ _ R C Hf (names_ml _ _ _ Hn)) as (_ & _ & _ & Hlt). rewrite fmap_length in Hlt.
    unfold check_formals. assert (exists t a d, m_heap M !! fm = Some (OCell t a d) /\ t <> TNUMBER) as (t & a & d & Hfo & Htt).
    { inversion Hn; subst; [|by eexists _, _, _].
      destruct (cst_const _ _ C cell_nil) as (t & n & d & Ho & Htt & _); [kc|]. exists t, (WInt n), d. split; [done|]. by destruct Htt as [->| ->]. }
    apply wr_bind. eapply (wp_ty _ _ _ R _ _ _ _ _ _ Hf Hfo). rewrite (proj2 (Z.eqb_neq _ _) Htt).
    apply wr_bind. unfold length__ at 1. eapply wp_length_names; [exact R|exact C|exact Hf|exact Hn|lia|].
    apply wr_bind. eapply wp_length__; [exact R|exact C|exact Hap|exact Hml|done|].
    match goal with |- throws _ _ _ ((if ?b then _ else _) _) => assert (b = true) as -> by lia end.
    destruct arity_text_fits as (Z1 & Z2 & Z3).
    eapply (throws_text _ _ _ μ _ arity_text v j fn R C S); [kc|done|done|done|lia|eapply can_alloc_le; [exact Ha|done]].
  Qed.
  Lemma throws_arity fuel fn j v i q n js vs ai ap : f j fn -> val_at (m_heap M) v j -> f i q ->
    m_heap M !! i = Some (OCell TNUMBER (WInt 0) (WInt n)) ->
    f ai ap -> alist_at (m_heap M) js vs ai -> g_free s <= Z.of_nat fuel -> n <> -1 -> n <> Z.of_nat (length vs) ->
    throws μ (VAtom cell_symbol_wrong_number_of_args) (IText arity_text v) (check_formals fuel fn q ap s).
  Proof.
    intros Hj V Hi Ho Hap Hal Hfuel Hn1 Hn2. destruct (alist_ml _ _ _ _ Hal) as (es & Hml & Hfv). pose proof (Forall2_length _ _ _ Hfv) as Hlen.
    unfold check_formals. apply wr_bind. eapply (wp_ty _ _ _ R _ _ _ _ _ _ Hi Ho). change (TNUMBER =? TNUMBER) with true. cbv iota.
    apply wr_bind. unfold cdr_of. apply wp_bind. eapply (wp_rd _ _ _ R _ _ _ _ _ _ Hi Ho). intros c _ _ Hcd. cbn in Hcd. rewrite Hcd. apply wp_ret.
    apply wr_bind. eapply wp_length__; [exact R|exact C|exact Hap|exact Hml|done|].
    match goal with |- throws _ _ _ ((if ?b then _ else _) _) => assert (b = true) as -> by lia end.
    destruct arity_text_fits as (Z1 & Z2 & Z3).
    eapply (throws_text _ _ _ μ _ arity_text v j fn R C S); [kc|done|done|done|lia|eapply can_alloc_le; [exact Ha|done]].
  Qed.
  Lemma throws_apply j v p : f j p -> val_at (m_heap M) v j -> not_procedure v ->
    throws μ (VAtom cell_symbol_wrong_type_arg) (IText apply_text v) (check_apply p s).
  Proof.
    intros Hj V Hn. unfold check_apply. destruct apply_text_fits as (Z1 & Z2 & Z3).
    assert (throws μ (VAtom cell_symbol_wrong_type_arg) (IText apply_text v) ((e <- make_string0 apply_text ;; x <- cons e p ;; error cell_symbol_wrong_type_arg x) s : res unit)) as HT.
    { eapply (throws_text _ _ _ μ _ apply_text v j p R C S); [kc|done|done|done|lia|eapply can_alloc_le; [exact Ha|done]]. }
    destruct v as [n|n|k| |]; try done.
    - destruct V as [_ V]. apply wr_bind. eapply (wp_ty _ _ _ R _ _ _ _ _ _ Hj V). apply wr_bind, wp_ret.
      change (TNUMBER =? TNUMBER) with true. rewrite !orb_true_r. exact HT.
    - destruct V as [_ V]. apply wr_bind. eapply (wp_ty _ _ _ R _ _ _ _ _ _ Hj V). apply wr_bind, wp_ret.
      change (TCHAR =? TCHAR) with true. rewrite !orb_true_r. exact HT.
    - destruct V as [-> _]. cbn in Hn.
      assert (is_const k) as Hk by (repeat (apply elem_of_cons in Hn as [->|Hn]; [kc|]); by apply elem_of_nil in Hn).
      destruct (cst_const _ _ C k Hk) as (t & n & d & Ho & Htt & _).
      assert ((t =? TSTRUCT) = false) as Ets by (by destruct Htt as [->| ->]).
      apply wr_bind. eapply (wp_ty _ _ _ R _ _ _ _ _ _ Hj Ho). rewrite Ets. apply wr_bind, wp_ret.
      match goal with |- throws _ _ _ ((if ?b then _ else _) _) => assert (b = true) as -> end; [|exact HT].
      assert ((p =? k) = true) as Ep by by apply (eqc _ _ _ R _ _ k Hj).
      repeat (apply elem_of_cons in Hn as [->|Hn]; [rewrite Ep, ?orb_true_r; done|]). by apply elem_of_nil in Hn.
  Qed.
End rules.

Section evaluator.
Context (prim : Z -> list Z -> M Z) (load_program : Z -> M Z) (fuel : nat).
Notation runsX := (runsX prim load_program fuel).
Notation enough := (enough fuel).
Ltac w := first [apply wp_bind | apply wp_ret | apply wp_gets | apply wp_modify | apply wr_bind].
Ltac regs R := pose proof (rp_r0 _ _ _ R) as HR0; pose proof (rp_r1 _ _ _ R) as HR1;
  pose proof (rp_r2 _ _ _ R) as HR2; pose proof (rp_r3 _ _ _ R) as HR3; cbn in HR0, HR1, HR2, HR3.
Context (sz : Z) (gl : list id).
Notation MS σ r0 r1 r2 r3 st := (Mst σ r0 r1 r2 r3 st sz gl).
Notation frame c b x a e st := (c :: b :: x :: a :: e :: st).

Context (Hgl : gl !! 3%nat = Some (ge_module GE)).
Lemma name_val σ x : name_ok σ x -> val_at σ (VAtom x) (Imp x).
Proof. intros [(n & d & Ho & _) _]. split; [done|]. eexists. split; [exact Ho|]. cbn. tauto. Qed.
Lemma runsX_var_unbound μ ρ σ r0 x r2 r3 st : consts_ok σ -> name_ok σ x -> env_at σ ρ r0 -> store_at [] μ σ -> store_ok μ -> env_ok μ ρ ->
  unbound (ge_missing GE) μ x ρ ->
  runsX 1 L_eval (MS σ r0 (Imp x) r2 r3 st) μ (VAtom cell_symbol_unbound_variable) (IVal (VAtom x)).
Proof using Hgl.
  intros C Hx He S So Eo Hu. apply runsX_step; [lia|]. intros f v s R En _. pose proof Hx as [(n & d & Ho & _) Hr].
  cbn [EvalModel.step]; unfold step_eval; regs R; do 4 w; w.
  eapply (wp_rd _ _ _ R _ _ _ _ _ _ HR1 Ho). intros c -> _ _.
  change (TSYMBOL =? TPAIR) with false. change (TSYMBOL =? TSYMBOL) with true. cbv iota zeta.
  assert (forall k, k ∈ reserved -> (R1 s =? k) = false) as Hne.
  { intros k Hk. eapply (neqc _ _ _ R _ _ _ HR1); [by apply reserved_const|]. intros [= ->]. done. }
  rewrite !Hne by (unfold reserved, hidden; cbn; set_solver). cbn [orb]. w.
  unfold module_ref. w. eapply (wp_module_variable_none fuel f _ s [] μ ρ r0 (R0 s) x (R1 s)); try done; [destruct En; lia|apply (en_alloc _ _ _ _ En)|].
  intros f' s' σ' R' Hf' Hg Sh. change (cell_f =? cell_f) with true. cbv iota. w.
  apply throws_bind. unfold assert_defined. change (cell_undefined =? cell_undefined) with true. cbv iota.
  pose proof (grown_ext _ _ Hg) as X.
  eapply throws_error; [exact R'|by eapply store_at_grown|eapply rep_const; [exact R'|kc]|apply const_at; [by eapply consts_ok_ext|kc]|by apply Hf'|].
  eapply val_at_ext; [exact X|by apply name_val].
Qed.
Lemma runsX_var_undefined μ ρ σ r0 x r2 r3 st l : consts_ok σ -> name_ok σ x -> env_at σ ρ r0 -> store_at [] μ σ -> store_ok μ -> env_ok μ ρ ->
  finds (ge_vars GE) μ x ρ l -> μ !! l = Some (SVar x v_undefined) ->
  runsX 1 L_eval (MS σ r0 (Imp x) r2 r3 st) μ (VAtom cell_symbol_unbound_variable) (IVal (VAtom x)).
Proof using Hgl.
  intros C Hx He S So Eo Hl Hm. destruct (sa_obj _ _ _ S _ _ Hm) as (j & Hlo & [-> _]). apply runsX_step; [lia|]. intros f v s R En _. pose proof Hx as [(n & d & Ho & _) Hr].
  cbn [EvalModel.step]; unfold step_eval; regs R; do 4 w; w.
  eapply (wp_rd _ _ _ R _ _ _ _ _ _ HR1 Ho). intros c -> _ _.
  change (TSYMBOL =? TPAIR) with false. change (TSYMBOL =? TSYMBOL) with true. cbv iota zeta.
  assert (forall k, k ∈ reserved -> (R1 s =? k) = false) as Hne.
  { intros k Hk. eapply (neqc _ _ _ R _ _ _ HR1); [by apply reserved_const|]. intros [= ->]. done. }
  rewrite !Hne by (unfold reserved, hidden; cbn; set_solver). cbn [orb]. w.
  unfold module_ref. w. eapply (wp_module_variable fuel f _ s [] μ ρ r0 (R0 s) x (R1 s) l); try done; [destruct En; lia|apply (en_alloc _ _ _ _ En)|].
  intros f' s' σ' r R' Hf' Hg Sh Hrl E1 E2. rewrite E1. eapply (wp_cdr_of _ _ _ R' _ _ _ _ _ _ Hrl); [cbn; rewrite (proj2 Hg); exact Hlo|]. intros y Hy.
  apply throws_bind. unfold assert_defined. rewrite (eqc _ _ _ R' _ _ cell_undefined Hy) by (done || kc).
  pose proof (grown_ext _ _ Hg) as X.
  eapply throws_error; [exact R'|by eapply store_at_grown|eapply rep_const; [exact R'|kc]|apply const_at; [by eapply consts_ok_ext|kc]|by apply Hf'|].
  eapply val_at_ext; [exact X|by apply name_val].
Qed.
Lemma runsX_set_unbound μ ρ σ r0 j i x ie r3 st : consts_ok σ -> ilist σ i [Imp cell_symbol_set_x; Imp x; ie] -> name_ok σ x ->
  env_at σ ρ r0 -> store_at [] μ σ -> store_ok μ -> env_ok μ ρ -> unbound (ge_missing GE) μ x ρ ->
  runsX 2 L_eval_set_x (MS σ r0 j i r3 st) μ (VAtom cell_symbol_not_a_pair) (IPair v_false (VAtom x)).
Proof using Hgl.
  intros C Hl Hx He S So Eo Hu. inversion Hl as [|k ? d ? Ho Hl']; subst. inversion Hl' as [|k' ? d' ? Ho' _]; subst.
  apply runsX_step; [lia|]. intros f v s R En _. cbn [EvalModel.step]. regs R. do 6 w.
  w. eapply (wp_cdr_of _ _ _ R _ _ _ _ _ _ HR2 Ho). intros y Hy. w. eapply (wp_car_of _ _ _ R _ _ _ _ _ _ Hy Ho'). intros z Hz.
  apply throws_bind. unfold set_env_x. pose proof Hx as [(m & dd & Hxo & _) _]. w. eapply (wp_rd _ _ _ R _ _ _ _ _ _ Hz Hxo). intros c Hc _ _. rewrite Hc.
  change (TSYMBOL =? TVARIABLE) with false. cbv iota. w. w.
  eapply (wp_module_variable_none fuel f _ s [] μ ρ r0 _ x _); try done; [destruct En; lia|eapply can_alloc_le; [apply (en_alloc _ _ _ _ En)|lia]|].
  intros f' s' σ' R' Hf' Hg Sh. unfold assert_defined. change (cell_f =? cell_undefined) with false. cbv iota. w. w.
  pose proof (grown_ext _ _ Hg) as X. pose proof (consts_ok_ext _ _ X C) as C'.
  destruct (cst_const _ _ C' cell_f) as (t & n & d0 & Hfo & Htt & _); [kc|].
  assert (f' (Imp cell_f) cell_f) as Hff by (eapply rep_const; [exact R'|kc]).
  eapply (wp_ty _ _ _ R' _ _ _ _ _ _ Hff Hfo).
  assert ((t =? TPAIR) = false) as -> by (by destruct Htt as [->| ->]). cbv iota. apply throws_bind.
  eapply throws_pair; [exact R'|exact C'|by eapply store_at_grown|kc|exact Hff|apply const_at; [done|kc]|by apply Hf'|eapply val_at_ext; [exact X|by apply name_val]|].
  apply (proj1 Sh). apply (en_alloc _ _ _ _ En).
Qed.
Lemma runsX_apply2 μ σ r0 v j i r3 st : consts_ok σ -> store_at [] μ σ -> val_at σ v j -> not_procedure v ->
  runsX text_need L_apply2 (MS σ r0 j i r3 st) μ (VAtom cell_symbol_wrong_type_arg) (IText apply_text v).
Proof.
  intros C S V Hn. apply runsX_step; [done|]. intros f vv s R En Ht. cbn [EvalModel.step]. regs R. do 4 w.
  apply throws_bind. eapply throws_apply; try done. apply (en_alloc _ _ _ _ En).
Qed.

Tactic Notation "apply_head" hyp(R) hyp(H) ident(HR1) ident(y) ident(Hy) ident(R') := cbn [EvalModel.step]; unfold step_apply; regs R; do 2 w;
  w; eapply (wp_car_of _ _ _ R _ _ _ _ _ _ HR1 H); intros y Hy; do 2 w;
  let Hs := fresh in let E := fresh in
  pose proof (rep_stack_set _ _ _ 4 _ _ R ltac:(cbn; lia) Hy) as Hs; change GC_FRAME_PROCEDURE with (Z.of_nat 4);
  destruct Hs as [E R']; w; eapply wp_eq; [exact E|]; cbn [m_stk list_insert insert with_stk] in R'.
Lemma runsX_clo_arity vs μ xs bd js l ρ ρ' σ r0 i ai r2 r3 c b x a p st : locs_of js = [] ->
    μ !! l = Some (SClo xs None bd ρ) -> closure_env μ ρ = Some ρ' -> consts_ok σ -> σ !! i = Some (opair (Loc l) ai) -> alist_at σ js vs ai -> store_at [] μ σ ->
    length vs <> length xs ->
    runsX text_need L_apply (MS σ r0 i r2 r3 (frame c b x a p st)) μ (VAtom cell_symbol_wrong_number_of_args) (IText arity_text (VLoc l)).
Proof.
  intros Hjs Hl Hcl_ C Ho Hal S Hne.
  destruct (sa_obj _ _ _ S _ _ Hl) as (k & kc_ & ke & ca & fm & bi & Hlo & Hk & Hkc & Hcur & Hke & Hfm & Hbd).
  apply runsX_step; [done|]. intros f v s R En Ht. apply_head R Ho HR1 y Hy R'.
  w. eapply (wp_ty _ _ _ R' _ _ _ _ _ _ Hy Hlo). change (TCLOSURE =? TSTRUCT) with false. cbv iota. w. w.
  change (cell_f =? cell_t) with false. change (TCLOSURE =? TCLOSURE) with true. cbv iota.
  w. eapply (wp_cdr_of _ _ _ R' _ _ _ _ _ _ Hy Hlo). intros cl Hcl.
  w. eapply (wp_cdr_of _ _ _ R' _ _ _ _ _ _ Hcl Hk). intros cd Hcd.
  w. eapply (wp_cdr_of _ _ _ R' _ _ _ _ _ _ Hcd Hke). intros bp Hbp.
  w. eapply (wp_car_of _ _ _ R' _ _ _ _ _ _ Hcd Hke). intros fp Hfp.
  w. eapply (wp_cdr_of _ _ _ R' _ _ _ _ _ _ HR1 Ho). intros ap Hap.
  w. eapply (wp_car_of _ _ _ R' _ _ _ _ _ _ Hcl Hk). intros cap Hcap.
  w. eapply (wp_cdr_of _ _ _ R' _ _ _ _ _ _ Hcap Hkc). intros aa Haa.
  destruct (env_tail _ _ _ _ _ _ S Hcur Hcl_) as (er & dr & Hkr & Henv).
  w. eapply (wp_cdr_of _ _ _ R' _ _ _ _ _ _ Haa Hkr). intros ep Hep.
  apply throws_bind. eapply (throws_names _ _ _ R' C μ S); try done; [exact (en_alloc _ _ _ _ En)|cbn; destruct En; unfold text_need in *; lia].
Qed.
(** the C function behind a builtin signals the error that its specification says *)
Definition prim_fails (p n : Z) (vs : list val) (μ : store) (key : val) (wh : irritant) (js : list (option Z)) (N : Z) : Prop :=
  forall f M s ai ap xs, rep f M s -> consts_ok (m_heap M) -> f ai ap -> alist_at (m_heap M) js vs ai ->
    store_at [] μ (m_heap M) -> can_alloc N s -> g_free s <= Z.of_nat fuel ->
    (if n =? -1 then xs = [ap] else Forall2 (fun v x => exists i, val_at (m_heap M) v i /\ f i x) vs xs) ->
    throws μ key wh (prim p xs s).
Lemma runsX_apply_prim p n vs μ key wh js N : prim_fails p n vs μ key wh js N -> 0 <= N -> -1 <= n <= 3 -> n = -1 \/ n = Z.of_nat (length vs) -> locs_of js = [] ->
  forall l σ r0 i ai r2 r3 c b x a pp st,
    μ !! l = Some (SPrim p n) -> consts_ok σ -> σ !! i = Some (opair (Loc l) ai) -> alist_at σ js vs ai -> store_at [] μ σ ->
    runsX (N + 3) L_apply (MS σ r0 i r2 r3 (frame c b x a pp st)) μ key wh.
Proof.
  intros Hprim HN Hn Hnv Hjs l σ r0 i ai r2 r3 c b x a pp st Hl C Ho Hal S. destruct (sa_obj _ _ _ S _ _ Hl) as (es & Hlo & H2 & H4 & H5).
  apply runsX_step; [lia|]. intros f vv s R En _. apply_head R Ho HR1 y Hy R'.
  w. eapply (wp_arr_ty _ _ _ R' _ _ _ _ _ Hy Hlo). change (TSTRUCT =? TSTRUCT) with true. cbv iota.
  w. unfold builtin_p. w. eapply (wp_arr_ty _ _ _ R' _ _ _ _ _ Hy Hlo). change (TSTRUCT =? TSTRUCT) with true. cbv iota.
  w. apply (wp_struct_ref_const (GE := GE) _ _ _ R' _ _ _ 2 cell_symbol_builtin _ C Hy Hlo H2); [kc|]. rewrite Z.eqb_refl. w. change (cell_t =? cell_t) with true. cbv iota.
  w. eapply (wp_cdr_of _ _ _ R' _ _ _ _ _ _ HR1 Ho). intros ap Hap.
  set (s1 := set_g_stack_array _ s) in *. assert (can_alloc (N + 3) s1) as Ha by exact (en_alloc _ _ _ _ En).
  assert (g_free s1 + (N + 3) <= Z.of_nat fuel) as Hfu by (cbn; destruct En; lia).
  w. unfold builtin_arity. change 4 with (Z.of_nat 4). eapply (wp_struct_ref_num _ _ _ R' _ _ _ _ _ _ Hy Hlo H4); [eapply can_alloc_le; [exact Ha|lia]|].
  intros f1 q1 k1 s2 (G1 & A1 & F1 & _) Hk1 Hq1 R1. cbn [m_heap new_obj] in *.
  assert (can_alloc (N + 2) s2) as HA1. { apply A1. by replace (N + 2 + 1) with (N + 3) by lia. }
  set (σ1 := <[Imp k1 := OCell TNUMBER (WInt 0) (WInt n)]> σ) in *.
  assert (σ ⊆ σ1) as Sub1 by by apply insert_subseteq.
  assert (consts_ok σ1) as C1 by (eapply consts_ok_ext; [by apply ext_sub|done]).
  assert (alist_at σ1 js vs ai) as Hal1 by by eapply alist_at_sub.
  assert (store_at [] μ σ1) as S1 by by apply store_at_imp.
  assert (σ1 !! Loc l = Some (OArr TSTRUCT es)) as Ho1 by by eapply lookup_weaken.
  w. eapply (wp_check_arity (GE := GE) _ _ _ R1 fuel _ (Imp k1) q1 n js vs ai ap); [exact C1|done|cbn; apply lookup_insert|by apply G1|exact Hal1|lia|done|].
  apply throws_bind.
  eapply (wr_apply_builtin (GE := GE) prim load_program fuel f1 _ s2 l p n vs μ es js N ai ap y (throws μ key wh)); [exact R1|exact C1|by apply G1|exact Ho1|done|done|done|done|by apply G1|exact Hal1|rewrite Hjs; exact S1|done|lia|done|].
  intros f' σ' s' ai' ap' xs R2 _ Sub C' Hap' Hal' S' HA' Hfu' Hxs. rewrite Hjs in S'. eapply (Hprim f' _ s' ai' ap' xs R2); try done.
Qed.
Definition keeps_max {A} (m : M A) : Prop := forall s y s', m s = ROk y s' -> MAX_STRING s' = MAX_STRING s.
Lemma keeps_bind {A B} (m : M A) (k : A -> M B) : keeps_max m -> (forall a, keeps_max (k a)) -> keeps_max (bind m k).
Proof. intros H1 H2 s y s' E. unfold bind in E. destruct (m s) eqn:E1; try done. rewrite (H2 _ _ _ _ E). by eapply H1. Qed.
Lemma keeps_make_cell t a d : keeps_max (make_cell t a d).
Proof. intros s y s' E. unfold make_cell, bind, gets, modify, get, wr, ret, abort in E. cbn in E. repeat (case_match; try done). by simplify_eq/=. Qed.
Lemma struct_ref_max x i : keeps_max (struct_ref_ x i).
Proof.
  assert (forall p, keeps_max (rd p)) as Hrd. { intros p s y s' E. unfold rd in E. case_match; by simplify_eq/=. }
  assert (forall b, keeps_max (assert_msg b)) as Has. { intros b s y s' E. unfold assert_msg in E. case_match; by simplify_eq/=. }
  assert (forall p : Z, keeps_max (ret p)) as Hret. { intros p s y s' E. unfold ret in E. by simplify_eq/=. }
  unfold struct_ref_, get_entry, deref. repeat (apply keeps_bind; [|intros]); try done; try case_match; try done; try apply keeps_make_cell.
Qed.
Lemma runsX_prim_arity p n vs μ js : n <> -1 -> n <> Z.of_nat (length vs) ->
  forall l σ r0 i ai r2 r3 c b x a pp st,
    μ !! l = Some (SPrim p n) -> consts_ok σ -> σ !! i = Some (opair (Loc l) ai) -> alist_at σ js vs ai -> store_at [] μ σ ->
    runsX (text_need + 1) L_apply (MS σ r0 i r2 r3 (frame c b x a pp st)) μ (VAtom cell_symbol_wrong_number_of_args) (IText arity_text (VLoc l)).
Proof.
  intros Hn1 Hn2 l σ r0 i ai r2 r3 c b x a pp st Hl C Ho Hal S. destruct (sa_obj _ _ _ S _ _ Hl) as (es & Hlo & H2 & H4 & H5).
  apply runsX_step; [done|]. intros f vv s R En Ht. apply_head R Ho HR1 y Hy R'.
  w. eapply (wp_arr_ty _ _ _ R' _ _ _ _ _ Hy Hlo). change (TSTRUCT =? TSTRUCT) with true. cbv iota.
  w. unfold builtin_p. w. eapply (wp_arr_ty _ _ _ R' _ _ _ _ _ Hy Hlo). change (TSTRUCT =? TSTRUCT) with true. cbv iota.
  w. apply (wp_struct_ref_const (GE := GE) _ _ _ R' _ _ _ 2 cell_symbol_builtin _ C Hy Hlo H2); [kc|]. rewrite Z.eqb_refl. w. change (cell_t =? cell_t) with true. cbv iota.
  w. eapply (wp_cdr_of _ _ _ R' _ _ _ _ _ _ HR1 Ho). intros ap Hap.
  set (s1 := set_g_stack_array _ s) in *. assert (can_alloc (text_need + 1) s1) as Ha by exact (en_alloc _ _ _ _ En).
  assert (g_free s1 + (text_need + 1) <= Z.of_nat fuel) as Hfu by (cbn; destruct En; lia). unfold text_need in Hfu.
  assert (forall y' s', builtin_arity y s1 = ROk y' s' -> MAX_STRING s' = MAX_STRING s1) as Hmax by (intros; by eapply struct_ref_max).
  w. eapply (wp_with _ _ (fun _ s' => MAX_STRING s' = MAX_STRING s1) _ Hmax). unfold builtin_arity. change 4 with (Z.of_nat 4). eapply (wp_struct_ref_num _ _ _ R' _ _ _ _ _ _ Hy Hlo H4); [eapply can_alloc_le; [exact Ha|unfold text_need; lia]|].
  intros f1 q1 k1 s2 (G1 & A1 & F1 & _) Hk1 Hq1 R1 Hm2. cbn [m_heap new_obj] in *.
  set (σ1 := <[Imp k1 := OCell TNUMBER (WInt 0) (WInt n)]> σ) in *.
  assert (σ ⊆ σ1) as Sub1 by by apply insert_subseteq.
  apply throws_bind. eapply (throws_arity _ _ _ R1); [eapply consts_ok_ext; [by apply ext_sub|done]|by apply store_at_imp|rewrite Hm2; exact Ht|by apply A1|by apply G1|done|exact Hq1|cbn; apply lookup_insert|by apply G1|by eapply alist_at_sub|lia|done|done].
Qed.
End evaluator.
End globals.
