(** The evaluator signals the errors that the semantics says: by induction over the derivation. *)
From stdpp Require Import base gmap list fin_maps.
From Coq Require Import ZArith Lia.
From Coq Require Import ZifyBool ZifyNat.
From Verif Require Import CInt Symbols Heap HeapLemmas GcModel GcSpec DataModel DataSpec DataLemmas CoreProofs StackModel.
From Verif Require Import EvalModel Rep RepProofs EvalSpec EvalRep EvalLemmas EvalBind EvalSplice EvalRun EvalSteps EvalSteps2 EvalSteps3 EvalSteps4 EvalDefine EvalErrSpec EvalRaise EvalRaiseSteps EvalMain.
Open Scope Z_scope. Open Scope mes_scope.

Section globals.
Context {GE : genv}.
Notation consts_ok := (consts_ok GE).
Notation store_ok := (store_ok GE).

Scheme raises_mut := Minimality for raises Sort Prop
  with args_raise_mut := Minimality for args_raise Sort Prop
  with body_raises_mut := Minimality for body_raises Sort Prop
  with apply_raises_mut := Minimality for apply_raises Sort Prop
  with call_raises_mut := Minimality for call_raises Sort Prop.
Combined Scheme raises_all_ind from raises_mut, args_raise_mut, body_raises_mut, apply_raises_mut, call_raises_mut.

Section evaluator.
Context {defs : bool}.
Notation var_value := (var_value (ge_vars GE)).
Notation const_at := (const_at (GE := GE)).
Notation runs_begin_form := (runs_begin_form (GE := GE)).
Notation runs_apply2 := (runs_apply2 (GE := GE)).
Notation runs_apply_exp := (runs_apply_exp (GE := GE)).
Context (prim : nat -> Z -> list Z -> M Z) (load_program : nat -> Z -> M Z) (sz : Z) (gl : list id) (width : nat) (Hgl : gl !! 3%nat = Some (ge_module GE)).
Notation need := (2 * Z.of_nat width + 12).
Notation runsO := (runsO (defs := defs) prim load_program sz gl).
Notation evalO := (evalO (GE := GE) (defs := defs) prim load_program sz gl width).
Notation evalM d ρ μ e μ' v := (evalO d ρ μ e (Ret μ' v)).
Notation argsM := (argsM (GE := GE) (defs := defs) prim load_program sz gl width).
Notation bodyW := (bodyW (GE := GE) (defs := defs) prim load_program sz gl width).
Notation body0 := (body0 (GE := GE) (defs := defs) prim load_program sz gl width).
Notation applyO := (applyO (GE := GE) (defs := defs) prim load_program sz gl width).
Notation callO := (callO (GE := GE) (defs := defs) prim load_program sz gl width).
Notation opO := (opO (GE := GE) (defs := defs) prim load_program sz gl width).
Notation P_eval := (P_eval (GE := GE) (defs := defs) prim load_program sz gl width).
Notation prim_ok := (prim_ok (GE := GE) prim width).
Notation MS σ r0 r1 r2 r3 st := (Mst σ r0 r1 r2 r3 st sz gl).
Notation frame c b x a e st := (c :: b :: x :: a :: e :: st).
Notation room st k := (Z.of_nat (length st) + 5 * k <= sz).
Ltac kc := (vm_compute; split; congruence).

(** a primitive signals the error of its specification *)
Definition prim_fail (p n : Z) (vs : list val) (μ : store) (key : val) (w : irritant) : Prop :=
  -1 <= n <= 3 /\ exists N, 0 <= N <= 9 /\ forall fuel, prim_fails (GE := GE) (prim fuel) fuel p n vs μ key w (replicate (length vs) None) N.
Definition argsX (d : nat) (ρ : env) (μ : store) (es : list exp) (μ' : store) (key : val) (w : irritant) : Prop :=
  env_ok μ ρ -> store_ok μ -> forall fuel σ r0 i r2 r3 c b x a p st,
    consts_ok σ -> codes_at σ es i -> env_at σ ρ r0 -> store_at [] μ σ -> room (frame c b x a p st) (Z.of_nat d + 1) ->
    runsX (prim fuel) (load_program fuel) fuel need L_evlis (MS σ r0 i r2 r3 (frame c b x a p st)) μ' key w.
Lemma nones_locs n : locs_of (replicate n (@None Z)) = [].
Proof. by induction n. Qed.
Lemma nones_good vs μ : good_js (replicate (length vs) None) vs μ.
Proof.
  split; [apply replicate_length|]. rewrite nones_locs. split; [constructor|]. split; [intros l Hl; by apply elem_of_nil in Hl|].
  exists (length vs), []. by rewrite app_nil_r.
Qed.

Notation seqX d ρ es μ o B := (forall d2 es2, (d <= d2)%nat -> es2 <> [] -> B (S d2) ρ μ (es ++ es2) o).
Definition P_raise d ρ μ e o := evalO d ρ μ e o /\ forall es, e = EBegin es -> body0 d ρ μ es o /\ seqX d ρ es μ o body0.
Definition P_bodyX d ρ μ es o := (body_len es <= width)%nat /\ es <> [] /\ body0 d ρ μ es o /\ bodyW d ρ μ es o /\ seqX d ρ es μ o body0 /\ seqX d ρ es μ o bodyW.
Lemma body_here d ρ μ e o : is_exc o -> (body_len [e] <= width)%nat -> P_raise d ρ μ e o -> P_bodyX d ρ μ [e] o.
Proof.
  intros Hx Hlen [He Hb]. split; [done|]. split; [done|]. split; [exact He|].
  assert (seqX d ρ [e] μ o body0) as Hs.
  { intros d2 es2 Hd Hne. destruct es2 as [|e2 es2]; [done|]. exists d2. split; [done|]. right. split; [done|]. by eapply evalO_mono. }
  destruct (is_begin e) as [(es & ->)|Hne].
  - destruct (Hb es eq_refl) as [H0 H1]. split; [apply bodyW_intro; [done|]; cbn; by rewrite app_nil_r|]. split; [exact Hs|].
    intros d2 es2 Hd Hn2. apply bodyW_intro; [done|]. cbn. by apply H1.
  - split; [apply bodyW_intro; [done|]; by rewrite Hne|]. split; [exact Hs|].
    intros d2 es2 Hd Hn2. apply bodyW_intro; [done|]. cbn [app]. rewrite Hne. by apply Hs.
Qed.
Lemma body_first d ρ μ e e' es o : is_exc o -> (body_len (e :: e' :: es) <= width)%nat -> P_raise d ρ μ e o -> P_bodyX (S d) ρ μ (e :: e' :: es) o.
Proof.
  intros Hx Hlen H. assert (body_len [e] <= width)%nat as Hl1. { rewrite body_len_cons in Hlen |- *. cbn in *. lia. }
  destruct (body_here d ρ μ e o Hx Hl1 H) as (_ & _ & _ & _ & B0 & BW). split; [done|]. split; [done|].
  split; [by apply (B0 d (e' :: es))|]. split; [by apply (BW d (e' :: es))|].
  split; intros d2 es2 Hd Hne; [apply (B0 d2 (e' :: es ++ es2))|apply (BW d2 (e' :: es ++ es2))]; (lia || done).
Qed.
Lemma body_later d ρ μ e e' es μ1 v1 o : (body_len (e :: e' :: es) <= width)%nat -> P_eval d ρ μ e μ1 v1 -> P_bodyX (S d) ρ μ1 (e' :: es) o -> P_bodyX (S d) ρ μ (e :: e' :: es) o.
Proof.
  intros Hlen [He Hb] (_ & _ & B0 & BW & BS & BSW). split; [done|]. split; [done|].
  assert (body0 (S d) ρ μ (e :: e' :: es) o) as H0' by (exists d; split; [done|]; left; by exists μ1, v1). split; [exact H0'|].
  assert (seqX (S d) ρ (e :: e' :: es) μ o body0) as Hs.
  { intros d2 es2 Hd Hne. exists d2. split; [done|]. left. exists μ1, v1. split; [eapply evalO_mono; [|done]; lia|]. by apply (BSW d2 es2). }
  destruct (is_begin e) as [(es1 & ->)|Hne].
  - destruct (Hb es1 eq_refl) as [H0 H1]. split; [apply bodyW_intro; [done|]; cbn; by apply H1|]. split; [exact Hs|].
    intros d2 es2 Hd Hn2. apply bodyW_intro; [done|]. cbn. apply (H1 d2 (e' :: es ++ es2)); [lia|done|]. by apply (BSW d2 es2).
  - split; [apply bodyW_intro; [done|]; rewrite Hne; exact H0'|]. split; [exact Hs|].
    intros d2 es2 Hd Hn2. apply bodyW_intro; [done|]. cbn [app]. rewrite Hne. by apply (Hs d2 es2).
Qed.

Section raise.
Context (μ' : store) (key : val) (w : irritant).
Notation evalX d ρ μ e := (evalO d ρ μ e (Exc μ' key w)).
Lemma test_raises d ρ μ e c0 :
  (forall σ i, code_at σ e i -> exists k d1 d2 ic, i = Imp k /\ σ !! Imp k = Some (opair (Imp cell_symbol_if) (Imp d1)) /\
     σ !! Imp d1 = Some (opair ic (Imp d2)) /\ code_at σ c0 ic) ->
  evalX d ρ μ c0 -> evalX (S d) ρ μ e.
Proof.
  intros Hcode H1 Eo So. cbn. pose proof (H1 Eo So) as HN1. cbn in HN1. intros fuel σ r0 i r2 r3 c b x a p st C Hc He S Hroom.
  destruct (Hcode σ i Hc) as (k & d1 & d2 & ic & -> & Ho & Hd1 & Hic).
  eapply (runsX_bind (defs := defs)); [apply (runs_eval_if _ _ _ _ _ _ _ _ _ _ _ _ _ _ Ho Hd1); cbn in *; lia|lia|].
  eapply (HN1 fuel σ); eauto; cbn in *; lia.
Qed.
Lemma if_test_raises d ρ μ c t e : evalX d ρ μ c -> evalX (S d) ρ μ (EIf c t e).
Proof.
  apply test_raises. intros σ i Hc. inversion Hc as [| | | |? ? ? ? ic it ie Hl H3 H4 H5| | | | | | | |]; subst. inversion Hl as [|k ? d1 ? Ho Hl1]; subst. inversion Hl1 as [|k1 ? d2 ? Ho1 Hl2]; subst.
  inversion Hl2 as [|k2 ? d3 ? Ho2 Hl3]; subst. by exists k, k1, k2, ic.
Qed.
Lemma when_test_raises d ρ μ c t : evalX d ρ μ c -> evalX (S d) ρ μ (EWhen c t).
Proof.
  apply test_raises. intros σ i Hc. inversion Hc as [| | | | |? ? ? ic it Hl H3 H4| | | | | | |]; subst. inversion Hl as [|k ? d1 ? Ho Hl1]; subst. inversion Hl1 as [|k1 ? d2 ? Ho1 Hl2]; subst.
  inversion Hl2 as [|k2 ? d3 ? Ho2 Hl3]; subst. by exists k, k1, k2, ic.
Qed.
Lemma set_value_raises d ρ μ e e0 :
  (forall σ i, code_at σ e i -> exists k d1 d2 x ie n, i = Imp k /\ σ !! Imp k = Some (opair (Imp cell_symbol_set_x) d1) /\ σ !! d1 = Some (opair x d2) /\ σ !! d2 = Some (opair ie n) /\ code_at σ e0 ie) ->
  evalX d ρ μ e0 -> evalX (S d) ρ μ e.
Proof.
  intros Hcode H1 Eo So. cbn. pose proof (H1 Eo So) as HN1. cbn in HN1. intros fuel σ r0 i r2 r3 c b x a p st C Hc He S Hroom.
  destruct (Hcode σ i Hc) as (k & d1 & d2 & y & ie & n & -> & Ho & Hd1 & Hd2 & Hie).
  eapply (runsX_bind (defs := defs)); [apply (runs_eval_set _ _ _ _ _ _ _ _ _ _ _ _ _ _ _ _ Ho Hd1 Hd2); cbn in *; lia|lia|].
  eapply (HN1 fuel σ); eauto; cbn in *; lia.
Qed.
Lemma set_raises d ρ μ x e : evalX d ρ μ e -> evalX (S d) ρ μ (ESet x e).
Proof.
  apply set_value_raises. intros σ i Hc.
  inversion Hc as [| | | | | | |? ? ? ie Hil Hx Hie| | | | |]; subst. inversion Hil as [|k ? d1 ? Ho Hl1]; subst. inversion Hl1 as [|k1 ? d2 ? Ho1 Hl2]; subst.
  inversion Hl2 as [|k2 ? d3 ? Ho2 Hl3]; subst. by exists k, (Imp k1), (Imp k2), (Imp x), ie, d3.
Qed.
Lemma set_global_raises d ρ μ l e : evalX d ρ μ e -> evalX (S d) ρ μ (ESetGlobal l e).
Proof.
  apply set_value_raises. intros σ i Hc.
  inversion Hc as [| | | | | | | |? ? ? kv ie Hil Hx Hie| | | |]; subst. inversion Hil as [|k ? d1 ? Ho Hl1]; subst. inversion Hl1 as [|k1 ? d2 ? Ho1 Hl2]; subst.
  inversion Hl2 as [|k2 ? d3 ? Ho2 Hl3]; subst. by exists k, (Imp k1), (Imp k2), (Imp kv), ie, d3.
Qed.
Lemma define_raises d fr μ x e l0 : defs = true -> μ !! l0 = None ->
  evalX d (EBind x l0 (EFrame fr)) (<[l0 := SVar x (VAtom x)]> μ) e -> evalX (S d) (EFrame fr) μ (EDefine x e).
Proof.
  intros _ Hl0 H Eo So. cbn. inversion Eo as [| | |? ρ0 Hfr Eo0]; subst. pose proof (store_le_new μ l0 (SVar x (VAtom x)) Hl0) as L0.
  assert (env_ok (<[l0 := SVar x (VAtom x)]> μ) (EBind x l0 (EFrame fr))) as Eo1. { eapply eo_bind; [apply lookup_insert|]. by eapply env_ok_le. }
  assert (store_ok (<[l0 := SVar x (VAtom x)]> μ)) as So1 by by apply store_ok_new.
  pose proof (H Eo1 So1) as HN. cbn in HN. intros fuel σ r0 i r2 r3 c b x0 a p st C Hc He S Hroom.
  inversion Hc as [| | | | | | | | |? ? ? ie Hil Hx Hie| | |]; subst. inversion He; subst.
  assert (exists k, i = Imp k) as (k & ->) by (inversion Hil; subst; by eexists).
  eapply (runsX_inner _ _ _ need 2); [lia| |].
  { intros f vv s R En. eapply (wp_define_var _ _ _ _ _ f vv s μ fr ρ0 σ k x ie r2 r3 _ l0 R En); try done. cbn in *; lia. }
  intros M (σ1 & i0 & -> & X1 & S1' & He1).
  eapply HN; [by eapply consts_ok_ext|by eapply code_at_ext|exact He1|exact S1'|cbn in *; lia].
Qed.
Lemma operator_raises d ρ μ f es : evalX d ρ μ f -> evalX (S d) ρ μ (EApp f es).
Proof.
  intros H Eo So. cbn. pose proof (H Eo So) as HN. cbn in HN. intros fuel σ r0 i r2 r3 c b x a p st C Hc He S Hroom.
  inversion Hc as [| | | | | | | | | | | |? ? k op d0 Hop Ho Hcf Hcs]; subst.
  eapply (runsX_bind (defs := defs)); [apply (runs_eval_app _ _ _ _ _ _ _ _ _ _ _ _ _ C Ho); [intros c' Hc'; by eapply operator_id|cbn in *; lia]|lia|].
  eapply (HN fuel σ); eauto; cbn in *; lia.
Qed.
Lemma arguments_raise d ρ μ f es μ0 v0 : evalM d ρ μ f μ0 v0 -> argsX d ρ μ0 es μ' key w -> evalX (S d) ρ μ (EApp f es).
Proof.
  intros H0 H1 Eo So. cbn. destruct (H0 Eo So) as (L0 & S0 & HN0). pose proof (H1 (env_ok_le _ _ _ L0 Eo) S0) as HN1.
  intros fuel σ r0 i r2 r3 c b x a p st C Hc He S Hroom.
  inversion Hc as [| | | | | | | | | | | |? ? k op d0 Hop Ho Hcf Hcs]; subst.
  eapply (runsX_bind (defs := defs)); [apply (runs_eval_app _ _ _ _ _ _ _ _ _ _ _ _ _ C Ho); [intros c' Hc'; by eapply operator_id|cbn in *; lia]|lia|].
  eapply (runsX_seq (defs := defs)); [eapply (HN0 fuel σ); eauto; cbn in *; lia|lia|].
  intros M (σ0 & j0 & -> & X0 & S0' & _). pose proof (consts_ok_ext _ _ X0 C) as C0.
  eapply (runsX_bind (defs := defs)); [apply (runs_dispatch _ _ _ _ _ cell_vm_eval_check_func L_eval_check_func); [reflexivity|kc]|lia|].
  eapply (runsX_bind (defs := defs)); [apply (runs_check_func _ _ _ _ _ _ _ _ _ op d0); [by apply X0|cbn in *; lia]|lia|].
  eapply (HN1 fuel σ0); eauto; [by eapply codes_at_ext|by eapply env_at_ext|cbn in *; lia].
Qed.
Lemma args_here d ρ μ e es : evalX d ρ μ e -> argsX (S d) ρ μ (e :: es) μ' key w.
Proof.
  intros H Eo So. pose proof (H Eo So) as HN. cbn in HN. intros fuel σ r0 i r2 r3 c b x a p st C Hc He S Hroom. inversion Hc as [|? ? k ie d0 Ho Hce Hcs]; subst.
  eapply (runsX_bind (defs := defs)); [apply (runs_evlis_cons _ _ _ _ _ _ _ _ _ _ _ _ _ C Ho); cbn in *; lia|lia|].
  eapply (HN fuel σ); eauto; cbn in *; lia.
Qed.
Lemma args_later d ρ μ e es μ1 v : evalM d ρ μ e μ1 v -> argsX d ρ μ1 es μ' key w -> argsX (S d) ρ μ (e :: es) μ' key w.
Proof.
  intros H1 H2 Eo So. destruct (H1 Eo So) as (L1 & S1 & HN1). pose proof (H2 (env_ok_le _ _ _ L1 Eo) S1) as HN2.
  intros fuel σ r0 i r2 r3 c b x a p st C Hc He S Hroom. inversion Hc as [|? ? k ie d0 Ho Hce Hcs]; subst.
  eapply (runsX_bind (defs := defs)); [apply (runs_evlis_cons _ _ _ _ _ _ _ _ _ _ _ _ _ C Ho); cbn in *; lia|lia|].
  eapply (runsX_seq (defs := defs)); [eapply (HN1 fuel σ); eauto; cbn in *; lia|lia|].
  intros M (σ1 & j & -> & X1 & S1' & V1). pose proof (consts_ok_ext _ _ X1 C) as C1.
  eapply (runsX_bind (defs := defs)); [apply (runs_dispatch _ _ _ _ _ cell_vm_evlis2 L_evlis2); [reflexivity|kc]|lia|].
  eapply (runsX_bind (defs := defs)); [apply (runs_evlis2 _ _ _ _ _ _ _ _ _ ie d0); [by apply X1|cbn in *; lia]|lia|].
  eapply (HN2 fuel σ1); eauto; [by eapply codes_at_ext|by eapply env_at_ext|cbn in *; lia].
Qed.
(** from the evaluated arguments on, the operator being evaluated again *)
Lemma again d ρ μ f es μ0 v0 μ1 vs : compound f -> evalM d ρ μ f μ0 v0 -> argsM d ρ μ0 es μ1 vs ->
  (env_ok μ1 ρ -> store_ok μ1 -> forall fuel σ r0 i k r2 r3 st,
    consts_ok σ -> code_at σ f (Imp k) -> env_at σ ρ r0 -> store_at [] μ1 σ -> room (frame (Imp cell_vm_apply2) i i r0 (Imp cell_f) st) (Z.of_nat d + 1) ->
    runsX (prim fuel) (load_program fuel) fuel need L_eval (MS σ r0 (Imp k) r2 r3 (frame (Imp cell_vm_apply2) i i r0 (Imp cell_f) st)) μ' key w) ->
  evalX (S d) ρ μ (EApp f es).
Proof.
  intros Hcf H0 Ha H2 Eo So. cbn. destruct (H0 Eo So) as (L0 & S0 & HN0). pose proof (env_ok_le _ _ _ L0 Eo) as Eo0.
  destruct (Ha Eo0 S0) as (L1 & S1 & HN1). pose proof (env_ok_le _ _ _ L1 Eo0) as Eo1. pose proof (H2 Eo1 S1) as HN2.
  intros fuel σ r0 i r2 r3 c b x a p st C Hc He S Hroom.
  inversion Hc as [| | | | | | | | | | | |? ? k op d0 Hop Ho Hcfo Hcs]; subst.
  eapply (runsX_bind (defs := defs)); [apply (runs_eval_app _ _ _ _ _ _ _ _ _ _ _ _ _ C Ho); [intros c' Hc'; by eapply operator_id|cbn in *; lia]|lia|].
  eapply (runsX_seq (defs := defs)); [eapply (HN0 fuel σ); eauto; cbn in *; lia|lia|].
  intros M (σ0 & j0 & -> & X0 & S0' & _). pose proof (consts_ok_ext _ _ X0 C) as C0.
  eapply (runsX_bind (defs := defs)); [apply (runs_dispatch _ _ _ _ _ cell_vm_eval_check_func L_eval_check_func); [reflexivity|kc]|lia|].
  eapply (runsX_bind (defs := defs)); [apply (runs_check_func _ _ _ _ _ _ _ _ _ op d0); [by apply X0|cbn in *; lia]|lia|].
  eapply (runsX_seq (defs := defs)); [eapply (HN1 fuel _ (nones_good vs μ1) σ0); eauto; [by eapply codes_at_ext|by eapply env_at_ext|cbn in *; lia]|lia|].
  intros M (σ1 & ai & -> & X1 & S1' & A1). rewrite nones_locs in S1'. pose proof (consts_ok_ext _ _ X1 C0) as C1.
  eapply (runsX_bind (defs := defs)); [apply (runs_dispatch _ _ _ _ _ cell_vm_eval2 L_eval2); [reflexivity|kc]|lia|].
  destruct (fresh_imp σ1) as (i & Fi).
  eapply (runsX_bind (defs := defs)); [apply (runs_eval2 _ _ _ _ _ _ _ ai k op d0 (Imp i)); [by apply X1, X0|done]|lia|].
  set (σ2 := <[Imp i := opair op ai]> σ1).
  assert (ext σ1 σ2) as X2 by by apply ext_new. pose proof (consts_ok_ext _ _ X2 C1) as C2.
  assert (ext σ σ2) as X02 by (eapply ext_trans; [exact X0|]; by eapply ext_trans).
  assert (code_at σ2 f op) as Hop2 by by eapply code_at_ext.
  destruct (compound_pair prim load_program gl width Hgl _ _ _ C2 Hcf Hop2) as (kk & hh & tl & -> & Hkk & Hh).
  eapply (runsX_bind (defs := defs)); [apply (runs_apply_exp _ _ _ _ _ σ2 r0 (Imp i) kk hh tl ai); [done|apply lookup_insert|done|done|cbn in *; lia]|lia|].
  eapply (HN2 fuel σ2); [done|done|eapply env_at_ext; [exact X02|exact He]|by apply store_at_imp|cbn in *; lia].
Qed.
Lemma operator_again_raises d ρ μ f es μ0 v0 μ1 vs : compound f -> evalM d ρ μ f μ0 v0 -> argsM d ρ μ0 es μ1 vs ->
  evalX d ρ μ1 f -> evalX (S d) ρ μ (EApp f es).
Proof.
  intros Hcf H0 Ha H. eapply again; [done|exact H0|exact Ha|]. intros Eo So. pose proof (H Eo So) as HN. cbn in HN. intros. by eapply HN.
Qed.
End raise.
Lemma set_unbound_raises d ρ μ x e μ1 v : evalM d ρ μ e μ1 v -> unbound (ge_missing GE) μ1 x ρ ->
  evalO (S d) ρ μ (ESet x e) (Exc μ1 (VAtom cell_symbol_not_a_pair) (IPair v_false (VAtom x))).
Proof using Hgl.
  intros H1 Hu Eo So. cbn. destruct (H1 Eo So) as (L1 & S1 & HN1). intros fuel σ r0 i r2 r3 c b y a p st C Hc He S Hroom.
  inversion Hc as [| | | | | | |? ? ? ie Hil Hx Hie| | | | |]; subst. inversion Hil as [|k ? d1 ? Ho Hl1]; subst. inversion Hl1 as [|k1 ? d2 ? Ho1 Hl2]; subst.
  inversion Hl2 as [|k2 ? d3 ? Ho2 Hl3]; subst.
  eapply (runsX_bind (defs := defs)); [apply (runs_eval_set _ _ _ _ _ _ _ _ _ _ _ _ _ _ _ _ Ho Ho1 Ho2); cbn in *; lia|lia|].
  eapply (runsX_seq (defs := defs)); [eapply (HN1 fuel σ); eauto; cbn in *; lia|lia|].
  intros M (σ1 & j & -> & X1 & S1' & V1). pose proof (consts_ok_ext _ _ X1 C) as C1.
  eapply (runsX_bind (defs := defs)); [apply (runs_dispatch _ _ _ _ _ cell_vm_eval_set_x L_eval_set_x); [reflexivity|kc]|lia|].
  eapply runsX_le; [eapply (runsX_set_unbound _ _ _ _ _ Hgl μ1 ρ σ1 r0 j (Imp k) x ie)|lia]; try done; [by eapply ext_ilist|by eapply name_ok_ext|by eapply env_at_ext|by eapply env_ok_le].
Qed.
Lemma unbound_raises d ρ μ x : unbound (ge_missing GE) μ x ρ -> evalO d ρ μ (EVar x) (Exc μ (VAtom cell_symbol_unbound_variable) (IVal (VAtom x))).
Proof using Hgl.
  intros Hu Eo So. cbn. intros fuel σ r0 i r2 r3 c b y a p st C Hc He S Hroom. inversion Hc; subst.
  eapply runsX_le; [by eapply (runsX_var_unbound _ _ _ _ _ Hgl μ ρ)|lia].
Qed.
Lemma undefined_raises d ρ μ x l : finds (ge_vars GE) μ x ρ l -> μ !! l = Some (SVar x v_undefined) ->
  evalO d ρ μ (EVar x) (Exc μ (VAtom cell_symbol_unbound_variable) (IVal (VAtom x))).
Proof using Hgl.
  intros Hf Hl Eo So. cbn. intros fuel σ r0 i r2 r3 c b y a p st C Hc He S Hroom. inversion Hc; subst.
  eapply runsX_le; [by eapply (runsX_var_undefined _ _ _ _ _ Hgl μ ρ)|lia].
Qed.
Lemma not_procedure_raises fuel μ σ r0 v j i st : consts_ok σ -> store_at [] μ σ -> val_at σ v j -> not_procedure v ->
  runsX (prim fuel) (load_program fuel) fuel need L_eval_apply (MS σ r0 j i (Imp cell_vm_apply2) st) μ (VAtom cell_symbol_wrong_type_arg) (IText apply_text v).
Proof.
  intros C S V Hn.
  eapply (runsX_bind (defs := defs)); [apply (runs_dispatch _ _ _ _ _ cell_vm_apply2 L_apply2); [reflexivity|kc]|lia|].
  eapply runsX_le; [by eapply (runsX_apply2 (GE := GE))|unfold text_need; lia].
Qed.
Lemma op_not_procedure d ρ μ f fv vs : var_value ρ μ f fv -> not_procedure fv ->
  opO (S d) ρ μ f vs (Exc μ (VAtom cell_symbol_wrong_type_arg) (IText apply_text fv)).
Proof using Hgl.
  intros Hf Hn Eo So. cbn. exists (replicate (length vs) None). split; [apply nones_good|]. rewrite nones_locs.
  intros fuel σ2 r0 i op ai r2 r3 c b x a p st C2 Hi2 A2 S2' Hop2 He2 Hroom.
  eapply (runsX_bind (defs := defs)); [apply (runs_apply_var _ _ _ _ _ Hgl σ2 r0 i op ai); [done|done| |cbn in *; lia]|lia|].
  { destruct f; try done; inversion Hop2; subst; [left; by eexists|right; by eexists _, _]. }
  eapply (runsX_seq (defs := defs)); [by eapply (var_runs prim load_program sz gl Hgl fuel [])|lia|].
  intros M (σ3 & j & -> & Hg & Vj). eapply (runsX_bind (defs := defs)); [apply runs_return|lia|].
  eapply not_procedure_raises; [eapply consts_ok_ext; [by apply grown_ext|done]|by eapply store_at_grown|done|done].
Qed.
Lemma exp_not_procedure d ρ μ f es μ0 v0 μ1 vs μ2 fv : compound f -> evalM d ρ μ f μ0 v0 -> argsM d ρ μ0 es μ1 vs -> evalM d ρ μ1 f μ2 fv -> not_procedure fv ->
  evalO (S d) ρ μ (EApp f es) (Exc μ2 (VAtom cell_symbol_wrong_type_arg) (IText apply_text fv)).
Proof.
  intros Hcf H0 Ha H Hn. eapply again; [done|exact H0|exact Ha|]. intros Eo So. destruct (H Eo So) as (L & S2 & HN).
  intros fuel σ r0 i k r2 r3 st C Hc He S Hroom. eapply (runsX_seq (defs := defs)); [eapply (HN fuel σ); eauto|lia|].
  intros M (σ1 & j & -> & X & S1 & V). eapply not_procedure_raises; [by eapply consts_ok_ext|done|done|done].
Qed.
Lemma clo_arity d μ l xs bd ρ ρ' vs : μ !! l = Some (SClo xs None bd ρ) -> closure_env μ ρ = Some ρ' -> length vs <> length xs ->
  applyO d μ (VLoc l) vs (Exc μ (VAtom cell_symbol_wrong_number_of_args) (IText arity_text (VLoc l))).
Proof.
  intros Hl Hcl Hne So. cbn. exists l, (SClo xs None bd ρ). split; [done|]. split; [done|]. split; [left; by eexists _, _, _, _|].
  exists (replicate (length vs) None). split; [apply nones_good|]. rewrite nones_locs. intros fuel σ r0 i ai r2 r3 c b x a p st C Ho Hal S Hroom.
  eapply runsX_le; [eapply (runsX_clo_arity (GE := GE) _ _ _ _ _ vs μ xs bd (replicate (length vs) None) l ρ ρ'); (done || apply nones_locs)|unfold text_need; lia].
Qed.
Lemma prim_arity d μ l p n vs : μ !! l = Some (SPrim p n) -> n <> -1 -> n <> Z.of_nat (length vs) ->
  applyO d μ (VLoc l) vs (Exc μ (VAtom cell_symbol_wrong_number_of_args) (IText arity_text (VLoc l))).
Proof.
  intros Hl Hn1 Hn2 So. cbn. exists l, (SPrim p n). split; [done|]. split; [done|]. split; [right; by eexists _, _|].
  exists (replicate (length vs) None). split; [apply nones_good|]. rewrite nones_locs. intros fuel σ r0 i ai r2 r3 c b x a pp st C Ho Hal S Hroom.
  eapply runsX_le; [by eapply (runsX_prim_arity (GE := GE) _ _ _ _ _ p n vs μ)|unfold text_need; lia].
Qed.
Lemma prim_raises d μ l p n vs key w : μ !! l = Some (SPrim p n) -> n = -1 \/ n = Z.of_nat (length vs) -> prim_fail p n vs μ key w ->
  applyO d μ (VLoc l) vs (Exc μ key w).
Proof.
  intros Hl Hn (Hn3 & N & HN & Hf) So. cbn. exists l, (SPrim p n). split; [done|]. split; [done|]. split; [right; by eexists _, _|].
  exists (replicate (length vs) None). split; [apply nones_good|]. rewrite nones_locs. intros fuel σ r0 i ai r2 r3 c b x a pp st C Ho Hal S Hroom.
  eapply runsX_le; [by eapply (runsX_apply_prim (GE := GE) _ _ fuel _ _ p n vs μ key w _ N (Hf fuel)); try lia; try apply nones_locs|lia].
Qed.

Context (prim_sem : Z -> Z -> list val -> store -> store -> val -> Prop).
Hypothesis prim_sound : forall p n vs μ μ1 v, prim_sem p n vs μ μ1 v -> prim_ok p n vs μ μ1 v.
Hypothesis prim_frame : forall p n vs μ μ1 v, prim_sem p n vs μ μ1 v ->
  dom_le μ μ1 /\ forall ν, μ1 ##ₘ ν -> prim_sem p n vs (μ ∪ ν) (μ1 ∪ ν) v.
Context (prim_err : Z -> Z -> list val -> store -> val -> irritant -> Prop).
Hypothesis prim_err_sound : forall p n vs μ key w, prim_err p n vs μ key w -> prim_fail p n vs μ key w.

Notation eval := (eval width prim_sem (ge_vars GE) defs).
Notation args := (args width prim_sem (ge_vars GE) defs).
Notation eval_all := (eval_all (GE := GE) (defs := defs) prim load_program sz gl width Hgl prim_sem prim_sound prim_frame).
Lemma sound_P d ρ μ e μ1 v : eval d ρ μ e μ1 v -> P_eval d ρ μ e μ1 v.
Proof using Hgl prim_sound prim_frame.
  intros H. destruct (proj1 eval_all _ _ _ _ _ _ H) as [_ H']. pose proof (H' ∅ (map_disjoint_empty_r _)) as He. by rewrite !(right_id_L ∅ (∪)) in He.
Qed.
Lemma sound_M d ρ μ e μ1 v : eval d ρ μ e μ1 v -> evalM d ρ μ e μ1 v.
Proof using Hgl prim_sound prim_frame. intros H. apply (sound_P _ _ _ _ _ _ H). Qed.
Lemma sound_args d ρ μ es μ1 vs : args d ρ μ es μ1 vs -> argsM d ρ μ es μ1 vs.
Proof using Hgl prim_sound prim_frame.
  intros H. destruct (proj1 (proj2 eval_all) _ _ _ _ _ _ H) as [_ H']. pose proof (H' ∅ (map_disjoint_empty_r _)) as He. by rewrite !(right_id_L ∅ (∪)) in He.
Qed.
Lemma sound_framed d ρ μ e μ1 v : eval d ρ μ e μ1 v -> dom_le μ μ1 /\ forall ν, μ1 ##ₘ ν -> evalM d ρ (μ ∪ ν) e (μ1 ∪ ν) v.
Proof using Hgl prim_sound prim_frame.
  intros H. destruct (proj1 eval_all _ _ _ _ _ _ H) as [D H']. split; [done|]. intros ν Dj. apply (H' ν Dj).
Qed.
Definition P_apply d μ fv vs μ' key w := applyO d μ fv vs (Exc μ' key w) \/
  (not_procedure fv /\ μ' = μ /\ key = VAtom cell_symbol_wrong_type_arg /\ w = IText apply_text fv).
Lemma raises_all :
  (forall d ρ μ e μ' key w, raises width prim_sem prim_err (ge_vars GE) (ge_missing GE) defs d ρ μ e μ' key w -> P_raise d ρ μ e (Exc μ' key w)) /\
  (forall d ρ μ es μ' key w, args_raise width prim_sem prim_err (ge_vars GE) (ge_missing GE) defs d ρ μ es μ' key w -> argsX d ρ μ es μ' key w) /\
  (forall d ρ μ es μ' key w, body_raises width prim_sem prim_err (ge_vars GE) (ge_missing GE) defs d ρ μ es μ' key w -> P_bodyX d ρ μ es (Exc μ' key w)) /\
  (forall d μ fv vs μ' key w, apply_raises width prim_sem prim_err (ge_vars GE) (ge_missing GE) defs d μ fv vs μ' key w -> P_apply d μ fv vs μ' key w) /\
  (forall d μ xs r bd ρ vs μ' key w, call_raises width prim_sem prim_err (ge_vars GE) (ge_missing GE) defs d μ xs r bd ρ vs μ' key w -> callO d μ xs r bd ρ vs (Exc μ' key w)).
Proof using Hgl prim_sound prim_frame prim_err_sound.
  apply raises_all_ind.
  - intros d ρ μ x Hu. split; [by apply unbound_raises|done].
  - intros d ρ μ x l Hf Hl. split; [by eapply undefined_raises|done].
  - intros d ρ μ c t e μ' k w _ [H _]. split; [by apply if_test_raises|done].
  - intros d ρ μ c t e μ1 v1 μ' k w Hc Hv _ [H _]. split; [eapply eval_if_true; [by apply sound_M|done|done]|done].
  - intros d ρ μ c t e μ1 μ' k w Hc _ [H _]. split; [eapply eval_if_false; [by apply sound_M|done]|done].
  - intros d ρ μ c t μ' k w _ [H _]. split; [by apply when_test_raises|done].
  - intros d ρ μ c t μ1 v1 μ' k w Hc Hv _ [H _]. split; [eapply eval_when_true; [by apply sound_M|done|done]|done].
  - intros d ρ μ x e μ' k w _ [H _]. split; [by apply set_raises|done].
  - intros d ρ μ x e μ1 v He Hu. split; [eapply set_unbound_raises; [by apply sound_M|done]|done].
  - intros d ρ μ l e μ' k w _ [H _]. split; [by apply set_global_raises|done].
  - intros d f μ x e l0 μ' k w Hdf Hl _ [H _]. split; [by eapply define_raises|done].
  - intros d ρ μ es μ' k w _ (Hlen & Hne & B0 & BW & BS & BSW). split; [by apply eval_begin|]. intros es' [= <-]. done.
  - intros d ρ μ f es μ' k w _ [H _]. split; [by apply operator_raises|done].
  - intros d ρ μ f es μ0 v0 μ' k w Hf _ H. split; [eapply arguments_raise; [by apply sound_M|done]|done].
  - intros d ρ μ f es μ0 v0 μ1 vs μ' k w Hcf H0 Ha _ [H _]. split; [|done]. eapply operator_again_raises; [done|by apply sound_M|by apply sound_args|done].
  - intros d ρ μ f es v0 μ1 vs fv μ' k w Hv0 Ha Hf _ HP. split; [|done]. eapply eval_app; [exact Hgl|done|by apply sound_args|].
    destruct HP as [H|(Hn & -> & -> & ->)]; [by eapply opO_var|by apply op_not_procedure].
  - intros d ρ μ xs r bd l es μ1 vs μ' k w Hl Ha _ HP. split; [|done]. eapply (eval_app_lam _ _ _ _ _ d ρ μ xs r bd l es μ1); [done|by apply sound_args|by apply opO_lam].
  - intros d ρ μ f es μ0 v0 μ1 vs μ2 fv μ' k w Hcf H0 Ha H2 _ HP. split; [|done]. destruct (sound_framed _ _ _ _ _ _ H2) as [D Hf].
    destruct HP as [H|(Hn & -> & -> & ->)]; [eapply eval_app_exp; [exact Hgl|done|by apply sound_M|by apply sound_args|done|done|done]|].
    eapply exp_not_procedure; [done|by apply sound_M|by apply sound_args|by apply sound_M|done].
  - intros d ρ μ e es μ' k w _ [H _]. by apply args_here.
  - intros d ρ μ e es μ1 v μ' k w He _ H. eapply args_later; [by apply sound_M|done].
  - intros d ρ μ e μ' k w Hlen _ H. by apply body_here.
  - intros d ρ μ e e' es μ' k w Hlen _ H. by apply body_first.
  - intros d ρ μ e e' es μ1 v1 μ' k w Hlen He _ H. eapply body_later; [done|by apply sound_P|done].
  - intros d μ l xs r bd ρ ρ' vs μ' k w Hl Hcl _ H. left. by eapply apply_clo_O.
  - intros d μ l xs bd ρ ρ' vs Hl Hcl Hne. left. by eapply clo_arity.
  - intros d μ l p n vs k w Hl Hn Hp. left. eapply prim_raises; [done|done|by apply prim_err_sound].
  - intros d μ l p n vs Hl Hn1 Hn2. left. by eapply prim_arity.
  - intros d μ fv vs Hn. by right.
  - intros d μ xs r bd ρ vs bs μ1 f μ' k w Hx Hb Hf _ (Hlen & Hne & _ & BW & _). by eapply call_O.
Qed.
Lemma raises_sound d ρ μ e μ' key w : raises width prim_sem prim_err (ge_vars GE) (ge_missing GE) defs d ρ μ e μ' key w -> evalO d ρ μ e (Exc μ' key w).
Proof using Hgl prim_sound prim_frame prim_err_sound. intros H. apply (proj1 raises_all _ _ _ _ _ _ _ H). Qed.
End evaluator.
End globals.
