(** The evaluator computes what the semantics says: by induction over the derivation. *)
From stdpp Require Import base gmap list fin_maps.
From Coq Require Import ZArith Lia.
From Coq Require Import ZifyBool ZifyNat.
From Verif Require Import CInt Symbols Heap HeapLemmas GcModel GcSpec DataModel DataSpec DataLemmas CoreProofs StackModel.
From Verif Require Import EvalModel Rep RepProofs EvalSpec EvalRep EvalLemmas EvalBind EvalSplice EvalRun EvalSteps EvalSteps2 EvalSteps3 EvalSteps4 EvalDefine EvalErrSpec EvalRaise.
Open Scope Z_scope. Open Scope mes_scope.

Section globals.
Context {GE : genv}.
Notation consts_ok := (consts_ok GE).
Notation store_ok := (store_ok GE).


Scheme eval_mut := Minimality for eval Sort Prop
  with args_mut := Minimality for args Sort Prop
  with body_mut := Minimality for body Sort Prop
  with apply_mut := Minimality for apply Sort Prop
  with call_mut := Minimality for call Sort Prop.
Combined Scheme eval_all_ind from eval_mut, args_mut, body_mut, apply_mut, call_mut.

Lemma store_list_le ls : forall vs μ μ1 v, store_list ls vs μ = Some (μ1, v) -> store_ok μ -> store_le μ μ1 /\ store_ok μ1.
Proof.
  induction ls as [|l ls IH]; intros [|v vs] μ μ1 u H Ho; cbn in H; try done.
  - injection H as <- <-. split; [apply store_le_refl|done].
  - destruct (store_list ls vs μ) as [[μ' d]|] eqn:E; [|done]. case_decide as Hl; [|done]. injection H as <- <-.
    destruct (IH _ _ _ _ E Ho) as [L' O']. split; [eapply store_le_trans; [exact L'|by apply store_le_new]|by apply store_ok_new].
Qed.
Lemma bind_args_ok xs r vs μ ρ1 μ1 : bind_args xs r vs μ ρ1 μ1 -> store_ok μ -> store_le μ μ1 /\ store_ok μ1 /\ vars_in μ1 ρ1.
Proof.
  induction 1 as [μ|r vs ls l μ μ1 v Hsl Hl|x xs r v vs l μ ρ1 μ1 Hl Hb IH]; intros Ho.
  - split; [apply store_le_refl|]. split; [done|]. intros x l Hin. by apply elem_of_nil in Hin.
  - destruct (store_list_le _ _ _ _ _ Hsl Ho) as [L O]. split; [eapply store_le_trans; [exact L|by apply store_le_new]|].
    split; [by apply store_ok_new|]. intros x l' Hin. apply elem_of_list_singleton in Hin as [= -> ->]. rewrite lookup_insert. by eexists.
  - destruct IH as (L & O & E); [by apply store_ok_new|]. split; [eapply store_le_trans; [by apply store_le_new|exact L]|]. split; [done|].
    intros y l' [[= -> ->]|Hin]%elem_of_cons; [|by apply E]. apply (sl_var _ _ L l x v). by rewrite lookup_insert.
Qed.
Lemma env_ok_tail μ ρ ρ' : env_ok μ ρ -> closure_env μ ρ = Some ρ' -> env_ok μ ρ'.
Proof. destruct 1 as [|? ? ? ? ? He|? He|? ? Hf He]; cbn; intros HH; [done|by injection HH as <-..|]. rewrite Hf in HH. by injection HH as <-. Qed.

Lemma body_len_app es es' : body_len (es ++ es') = (body_len es + body_len es')%nat.
Proof. unfold body_len. by rewrite map_app, list_sum_app. Qed.
Lemma exp_len_pos e : (1 <= exp_len e)%nat.
Proof. destruct e; cbn; lia. Qed.
Lemma length_body_len es : (length es <= body_len es)%nat.
Proof.
  induction es as [|e es IH]; [done|]. change (body_len (e :: es)) with (exp_len e + body_len es)%nat. pose proof (exp_len_pos e). cbn. lia.
Qed.
Lemma splice_len es : (body_len (splice es) <= body_len es)%nat.
Proof.
  destruct es as [|e es]; [done|]. destruct e as [| | | | | | | | | | |es1|]; try done. cbn [splice]. rewrite body_len_app. change (body_len (EBegin es1 :: es)) with (S (body_len es1) + body_len es)%nat. lia.
Qed.
Lemma body_len_cons e es : body_len (e :: es) = (exp_len e + body_len es)%nat.
Proof. done. Qed.

Section evaluator.
Context {defs : bool}.
Notation prim_does := (prim_does (GE := GE)).
Notation pairlis_ok := (pairlis_ok (GE := GE)).
Notation var_value := (var_value (ge_vars GE)).
Notation const_at := (const_at (GE := GE)).
Notation runs_begin_form := (runs_begin_form (GE := GE)).
Notation runs_apply2 := (runs_apply2 (GE := GE)).
Notation runs_apply_exp := (runs_apply_exp (GE := GE)).
Context (prim : nat -> Z -> list Z -> M Z) (load_program : nat -> Z -> M Z) (sz : Z) (gl : list id) (width : nat) (Hgl : gl !! 3%nat = Some (ge_module GE)).
(** the memory that one step needs *)
Notation need := (2 * Z.of_nat width + 12).
Notation runs_ u := (runs (defs := defs) (prim u%nat) (load_program u%nat) u%nat).
Notation runsP_ u := (runsP (defs := defs) (prim u%nat) (load_program u%nat) u%nat).
Notation runsX_ u := (runsX (prim u%nat) (load_program u%nat) u%nat).
(** a primitive meets its specification, with the same need of memory whatever the bound on loops *)
Definition prim_ok (p n : Z) (vs : list val) (μ μ1 : store) (v : val) : Prop :=
  store_ok μ -> store_le μ μ1 /\ store_ok μ1 /\ -1 <= n <= 3 /\
  exists js N, good_js js vs μ /\ 0 <= N <= 2 * Z.of_nat width + 8 /\ forall fuel, prim_does (prim fuel) fuel p n vs μ μ1 v js N.
Notation MS σ r0 r1 r2 r3 st := (Mst σ r0 r1 r2 r3 st sz gl).
Notation frame c b x a e st := (c :: b :: x :: a :: e :: st).
Notation room st k := (Z.of_nat (length st) + 5 * k <= sz).
Ltac kc := (vm_compute; split; congruence).

(** the frame on top of the stack is popped, and R1 is the value *)
Definition returned (μ' : store) (v : val) (σ : oheap) (a b c : id) (st : list id) (M : mst) : Prop :=
  exists σ' j, M = MS σ' a j b c st /\ ext σ σ' /\ store_at [] μ' σ' /\ val_at σ' v j.
Lemma returned_ext μ' v σ0 σ a b c st M : ext σ0 σ -> returned μ' v σ a b c st M -> returned μ' v σ0 a b c st M.
Proof. intros E (σ' & j & -> & E' & S & V). exists σ', j. split; [done|]. split; [by eapply ext_trans|done]. Qed.

(** the execution has the outcome [o]: the frame is popped, or an error is signalled *)
Definition runsO (u : nat) (N : Z) (l : label) (M : mst) (o : outcome) (σ : oheap) (a b c : id) (st : list id) : Prop :=
  match o with
  | Ret μ' v => runsP_ u N l M L_eval_apply (returned μ' v σ a b c st)
  | Exc μ' key w => runsX_ u N l M μ' key w
  end.
Lemma runsO_le u N N' l M o σ a b c st : runsO u N l M o σ a b c st -> N <= N' -> runsO u N' l M o σ a b c st.
Proof. destruct o; cbn; [apply runsP_le|apply runsX_le]. Qed.
Lemma runsO_seq u N N1 l M l1 (P1 : mst -> Prop) o σ a b c st : runsP_ u N1 l M l1 P1 -> N1 <= N -> (forall M1, P1 M1 -> runsO u N l1 M1 o σ a b c st) -> runsO u N l M o σ a b c st.
Proof. destruct o; cbn; [apply runsP_seq|apply runsX_seq]. Qed.
Lemma runsO_bind u N N1 l M l1 M1 o σ a b c st : runs_ u N1 l M l1 M1 -> N1 <= N -> runsO u N l1 M1 o σ a b c st -> runsO u N l M o σ a b c st.
Proof. destruct o; cbn; [apply runsP_bind|apply runsX_bind]. Qed.
Lemma runsO_ext u N l M o σ0 σ a b c st : ext σ0 σ -> runsO u N l M o σ a b c st -> runsO u N l M o σ0 a b c st.
Proof. destruct o; cbn; [|done]. intros X H. eapply runsP_mono; [exact H|]. intros M' HM. by eapply returned_ext. Qed.
Definition is_exc (o : outcome) : Prop := match o with Ret _ _ => False | Exc _ _ _ => True end.
Lemma runsO_exc u N l M o σ a b c st σ' a' b' c' st' : is_exc o -> runsO u N l M o σ a b c st -> runsO u N l M o σ' a' b' c' st'.
Proof. by destruct o. Qed.
(** a value leaves a store in which everything is still there *)
Definition after (μ : store) (o : outcome) (P : Prop) : Prop :=
  match o with Ret μ' _ => store_le μ μ' /\ store_ok μ' /\ P | Exc _ _ _ => P end.
Lemma after_map μ μ1 o (P P' : Prop) : store_le μ μ1 -> after μ1 o P -> (P -> P') -> after μ o P'.
Proof. destruct o; cbn; [|auto]. intros L (L1 & S & HP) H. split; [by eapply store_le_trans|]. split; [done|auto]. Qed.

Definition evalO (d : nat) (ρ : env) (μ : store) (e : exp) (o : outcome) : Prop :=
  env_ok μ ρ -> store_ok μ -> after μ o (forall fuel σ r0 i r2 r3 c b x a p st,
    consts_ok σ -> code_at σ e i -> env_at σ ρ r0 -> store_at [] μ σ -> room (frame c b x a p st) (Z.of_nat d + 1) ->
    runsO fuel need L_eval (MS σ r0 i r2 r3 (frame c b x a p st)) o σ a b c st).
Notation evalM d ρ μ e μ' v := (evalO d ρ μ e (Ret μ' v)).
Definition argsM (d : nat) (ρ : env) (μ : store) (es : list exp) (μ' : store) (vs : list val) : Prop :=
  env_ok μ ρ -> store_ok μ -> store_le μ μ' /\ store_ok μ' /\ forall fuel js, good_js js vs μ' ->
   forall σ r0 i r2 r3 c b x a p st,
    consts_ok σ -> codes_at σ es i -> env_at σ ρ r0 -> store_at [] μ σ -> room (frame c b x a p st) (Z.of_nat d + 1) ->
    runsP_ fuel need L_evlis (MS σ r0 i r2 r3 (frame c b x a p st)) L_eval_apply
      (fun M => exists σ' j, M = MS σ' a j b c st /\ ext σ σ' /\ store_at (locs_of js) μ' σ' /\ alist_at σ' js vs j).
Definition bodyW (d : nat) (ρ : env) (μ : store) (es : list exp) (o : outcome) : Prop :=
  (body_len es <= width)%nat -> env_ok μ ρ -> store_ok μ -> after μ o (forall fuel σ r0 i r2 r3 c b x a p st,
    consts_ok σ -> codes_at σ es i -> env_at σ ρ r0 -> store_at [] μ σ -> room (frame c b x a p st) (Z.of_nat d + 1) ->
    runsO fuel need L_begin_body (MS σ r0 i r2 r3 (frame c b x a p st)) o σ a b c st).
(** a sequence whose first expression is not spliced *)
Definition body0 (d : nat) (ρ : env) (μ : store) (es : list exp) (o : outcome) : Prop :=
  match es with
  | [] => False
  | [e] => evalO d ρ μ e o
  | e :: es' => exists d', d = S d' /\
      ((exists μ1 v1, evalM d' ρ μ e μ1 v1 /\ bodyW d ρ μ1 es' o) \/ (is_exc o /\ evalO d' ρ μ e o))
  end.
Definition procedure (o : sobj) : Prop :=
  (exists xs r bd ρ, o = SClo xs r bd ρ) \/ (exists q n, o = SPrim q n).
Definition applyO (d : nat) (μ : store) (fv : val) (vs : list val) (out : outcome) : Prop :=
  store_ok μ -> after μ out (exists l o, fv = VLoc l /\ μ !! l = Some o /\ procedure o /\
  exists js, good_js js vs μ /\ forall fuel σ r0 i ai r2 r3 c b x a p st,
    consts_ok σ -> σ !! i = Some (opair (Loc l) ai) -> alist_at σ js vs ai -> store_at (locs_of js) μ σ ->
    room (frame c b x a p st) (Z.of_nat d + 1) ->
    runsO fuel need L_apply (MS σ r0 i r2 r3 (frame c b x a p st)) out σ a b c st).
Definition callO (d : nat) (μ : store) (xs : list Z) (r : option Z) (bd : list exp) (ρ : env) (vs : list val) (o : outcome) : Prop :=
  env_ok μ ρ -> store_ok μ -> after μ o ((length xs <= width)%nat /\
  exists bs μ1 fr js, bind_args xs r vs μ bs μ1 /\ μ1 !! fr = None /\ good_js js vs μ /\ pairlis_ok xs r vs μ bs μ1 js /\
   forall fuel σ i r2 r3 c b x a p st,
    consts_ok σ -> codes_at σ bd i -> store_at [] (<[fr := SFrame (extend bs ρ)]> μ1) σ -> room (frame c b x a p st) (Z.of_nat d + 1) ->
    runsO fuel need L_begin (MS σ (Loc fr) i r2 r3 (frame c b x a p st)) o σ a b c st).
(** from the evaluated arguments on *)
Definition opO (d : nat) (ρ : env) (μ : store) (f : exp) (vs : list val) (o : outcome) : Prop :=
  env_ok μ ρ -> store_ok μ -> after μ o (exists js, good_js js vs μ /\ forall fuel σ r0 i fi ai r2 r3 c b x a p st,
    consts_ok σ -> σ !! i = Some (opair fi ai) -> alist_at σ js vs ai -> store_at (locs_of js) μ σ ->
    code_at σ f fi -> env_at σ ρ r0 -> room (frame c b x a p st) (Z.of_nat d + 1) ->
    runsO fuel need L_apply (MS σ r0 i r2 r3 (frame c b x a p st)) o σ a b c st).
Notation applyM d μ fv vs μ' v := (applyO d μ fv vs (Ret μ' v)).
Notation callM d μ xs r bd ρ vs μ' v := (callO d μ xs r bd ρ vs (Ret μ' v)).

Lemma evalO_mono d d' ρ μ e o : (d <= d')%nat -> evalO d ρ μ e o -> evalO d' ρ μ e o.
Proof.
  intros Hd H Eo So. eapply after_map; [apply store_le_refl|exact (H Eo So)|]. intros HN. intros. eapply HN; eauto. lia.
Qed.
Lemma bodyW_intro d ρ μ es o : es <> [] -> body0 d ρ μ (splice es) o -> bodyW d ρ μ es o.
Proof.
  intros Hne H Hw Eo So. pose proof (splice_len es) as Hsl. pose proof (length_body_len (splice es)) as Hll.
  destruct (splice es) as [|e [|e' es']] eqn:Esp; [done|..].
  - eapply after_map; [apply store_le_refl|exact (H Eo So)|]. intros HN.
    intros fuel σ r0 i r2 r3 c b x a p st C Hc He S Hroom.
    eapply runsO_seq; [apply (runs_round _ _ _ sz gl μ σ r0 i r2 r3 _ es C Hc Hne); [by rewrite Esp|done|lia]|rewrite Esp; cbn; lia|].
    intros M (σ' & k & i' & dd & e0 & es0 & E & X & S1 & Hk & Hc0 & Hcs & ->). rewrite Esp in E. injection E as <- <-.
    eapply runsO_ext; [exact X|]. eapply runsO_le; [eapply HN; eauto|lia].
    + by eapply consts_ok_ext.
    + by eapply env_at_ext.
  - destruct H as (d' & -> & [(μ1 & v1 & He & HW)|[Hx He]]).
    + destruct (He Eo So) as (L & S' & HN).
      eapply after_map; [exact L|exact (HW ltac:(rewrite body_len_cons in Hsl; lia) (env_ok_le _ _ _ L Eo) S')|]. intros HN2.
      intros fuel σ r0 i r2 r3 c b x a p st C Hc Hcur S Hroom.
      eapply runsO_seq; [apply (runs_round _ _ _ sz gl μ σ r0 i r2 r3 _ es C Hc Hne); [by rewrite Esp|done|lia]|rewrite Esp; cbn in *; lia|].
      intros M (σ' & k & i' & dd & e0 & es0 & E & X & S1 & Hk & Hc0 & Hcs & ->). rewrite Esp in E. injection E as <- <-. cbv iota.
      pose proof (consts_ok_ext _ _ X C) as C1. pose proof (env_at_ext _ _ X _ _ Hcur) as Hcur1.
      eapply runsO_seq; [eapply (HN fuel σ'); eauto; cbn in *; lia|lia|].
      intros M (σ2 & j & -> & X2 & S3 & V). eapply runsO_bind; [apply (runs_dispatch _ _ _ _ _ cell_vm_begin_eval L_begin_eval); [reflexivity|kc]|lia|].
      pose proof (consts_ok_ext _ _ X2 C1) as C2.
      eapply runsO_bind; [eapply (runs_begin_eval _ _ _ _ _ _ _ _ _ i' dd); [by apply X2|]|lia|].
      { eapply (codes_nil σ2); [done|by eapply codes_at_ext|done]. }
      eapply (runsO_ext _ _ _ _ _ σ σ2); [by eapply ext_trans|]. eapply runsO_le; [eapply HN2|lia]; eauto.
      * by eapply codes_at_ext.
      * by eapply env_at_ext.
    + eapply after_map; [apply store_le_refl|exact (He Eo So)|]. intros HN.
      intros fuel σ r0 i r2 r3 c b x a p st C Hc Hcur S Hroom.
      eapply runsO_seq; [apply (runs_round _ _ _ sz gl μ σ r0 i r2 r3 _ es C Hc Hne); [by rewrite Esp|done|lia]|rewrite Esp; cbn in *; lia|].
      intros M (σ' & k & i' & dd & e0 & es0 & E & X & S1 & Hk & Hc0 & Hcs & ->). rewrite Esp in E. injection E as <- <-. cbv iota.
      eapply runsO_exc; [done|]. eapply (HN fuel σ'); eauto; [by eapply consts_ok_ext|by eapply env_at_ext|cbn in *; lia].
Qed.

Notation seq_after d ρ es μ μ' := (forall d2 es2 o, (d <= d2)%nat -> es2 <> [] -> bodyW (S d2) ρ μ' es2 o -> body0 (S d2) ρ μ (es ++ es2) o).
Definition P_eval d ρ μ e μ' v := evalM d ρ μ e μ' v /\ forall es, e = EBegin es -> body0 d ρ μ es (Ret μ' v) /\ seq_after d ρ es μ μ'.
Definition P_body d ρ μ es μ' v := (body_len es <= width)%nat /\ es <> [] /\ body0 d ρ μ es (Ret μ' v) /\ bodyW d ρ μ es (Ret μ' v) /\ seq_after d ρ es μ μ' /\
  (forall d2 es2 o, (d <= d2)%nat -> es2 <> [] -> bodyW (S d2) ρ μ' es2 o -> bodyW (S d2) ρ μ (es ++ es2) o).
Lemma is_begin e : (exists es, e = EBegin es) \/ forall es, splice (e :: es) = e :: es.
Proof. destruct e; try (by right). left. by eexists. Qed.

Lemma P_body_last d ρ μ e μ' v : (body_len [e] <= width)%nat -> P_eval d ρ μ e μ' v -> P_body d ρ μ [e] μ' v.
Proof.
  intros Hlen [He Hb]. split; [done|]. split; [done|]. split; [exact He|].
  assert (forall d2 es2 o, (d <= d2)%nat -> es2 <> [] -> bodyW (S d2) ρ μ' es2 o -> body0 (S d2) ρ μ ([e] ++ es2) o) as Hs.
  { intros d2 es2 o Hd Hne H. destruct es2 as [|e2 es2]; [done|]. exists d2. split; [done|]. left. exists μ', v. split; [by eapply evalO_mono|done]. }
  destruct (is_begin e) as [(es & ->)|Hne].
  - destruct (Hb es eq_refl) as [H0 H1]. split; [apply bodyW_intro; [done|]; cbn; by rewrite app_nil_r|]. split; [exact Hs|].
    intros d2 es2 o Hd Hn2 H. apply bodyW_intro; [done|]. cbn. by apply H1.
  - split; [apply bodyW_intro; [done|]; by rewrite Hne|]. split; [exact Hs|].
    intros d2 es2 o Hd Hn2 H. apply bodyW_intro; [done|]. cbn [app]. rewrite Hne. by apply Hs.
Qed.
Lemma P_body_cons d ρ μ e e' es μ1 v1 μ2 v : (body_len (e :: e' :: es) <= width)%nat -> P_eval d ρ μ e μ1 v1 -> P_body (S d) ρ μ1 (e' :: es) μ2 v -> P_body (S d) ρ μ (e :: e' :: es) μ2 v.
Proof.
  intros Hlen [He Hb] (_ & _ & B0 & BW & BS & BSW). split; [done|]. split; [done|].
  assert (body0 (S d) ρ μ (e :: e' :: es) (Ret μ2 v)) as H0' by (exists d; split; [done|]; left; by exists μ1, v1). split; [exact H0'|].
  assert (forall d2 es2 o, (S d <= d2)%nat -> es2 <> [] -> bodyW (S d2) ρ μ2 es2 o -> body0 (S d2) ρ μ ((e :: e' :: es) ++ es2) o) as Hs.
  { intros d2 es2 o Hd Hne H. exists d2. split; [done|]. left. exists μ1, v1. split; [eapply evalO_mono; [|done]; lia|]. by apply (BSW d2 es2). }
  destruct (is_begin e) as [(es1 & ->)|Hne].
  - destruct (Hb es1 eq_refl) as [H0 H1]. split; [apply bodyW_intro; [done|]; cbn; by apply H1|]. split; [exact Hs|].
    intros d2 es2 o Hd Hn2 H. apply bodyW_intro; [done|]. cbn. apply (H1 d2 (e' :: es ++ es2)); [lia|done|]. by apply (BSW d2 es2).
  - split; [apply bodyW_intro; [done|]; rewrite Hne; exact H0'|]. split; [exact Hs|].
    intros d2 es2 o Hd Hn2 H. apply bodyW_intro; [done|]. cbn [app]. rewrite Hne. by apply (Hs d2 es2).
Qed.

(** * Leaves *)
Lemma ret_runs fuel μ' v σ σ' r0 j r2 r3 c b x a p st : ext σ σ' -> store_at [] μ' σ' -> val_at σ' v j ->
  runsP_ fuel need L_vm_return (MS σ' r0 j r2 r3 (frame c b x a p st)) L_eval_apply (returned μ' v σ a b c st).
Proof. intros X S V. eapply runsP_le; [eapply runsP_of; [apply runs_return|]|lia]. by exists σ', j. Qed.
Lemma var_runs fuel rs ρ μ f v σ r0 i r2 r3 st : var_value ρ μ f v -> env_ok μ ρ -> store_ok μ -> consts_ok σ -> code_at σ f i -> env_at σ ρ r0 -> store_at rs μ σ ->
  runsP_ fuel 1 L_eval (MS σ r0 i r2 r3 st) L_vm_return (fun M => exists σ' j, M = MS σ' r0 j r2 r3 st /\ grown σ σ' /\ val_at σ' v j).
Proof using Hgl.
  intros Hv Eo So C Hc He S. destruct f; try done; cbn in Hv; inversion Hc; subst.
  - destruct Hv as (l & Hl & Hm & Hu). destruct (sa_obj _ _ _ S _ _ Hm) as (j & Hj & Hvj).
    eapply runsP_mono; [eapply (runs_eval_var _ _ _ _ _ Hgl rs μ ρ); eauto|].
    + eapply val_not_const; [done|exact Hvj|kc|done].
    + intros M (σ' & -> & Hg). exists σ', j. split; [done|]. split; [done|]. eapply val_at_ext; [by apply grown_ext|done].
  - destruct Hv as (x & Hm). destruct (sa_obj _ _ _ S _ _ Hm) as (j & Hj & Hvj).
    eapply runsP_le; [eapply runsP_of; [by eapply runs_eval_global|]|lia]. exists σ, j. split; [done|]. split; [apply grown_refl|done].
Qed.
Lemma var_eval d ρ μ f v : var_value ρ μ f v -> evalM d ρ μ f μ v.
Proof using Hgl.
  intros Hv Eo So. split; [apply store_le_refl|]. split; [done|]. intros fuel σ r0 i r2 r3 c b x a p st C Hc He S Hroom.
  eapply runsP_seq; [by eapply (var_runs fuel [])|lia|]. intros M (σ' & j & -> & Hg & Vj). apply ret_runs; [by apply grown_ext|by eapply store_at_grown|done].
Qed.
Lemma lam_runs fuel ρ μ xs r bd l σ r0 i r2 r3 st : μ !! l = None -> consts_ok σ -> code_at σ (ELam xs r bd) i -> env_at σ ρ r0 -> store_at [] μ σ ->
  runsP_ fuel 4 L_eval (MS σ r0 i r2 r3 st) L_vm_return
    (fun M => exists σ', M = MS σ' r0 (Loc l) r2 r3 st /\ ext σ σ' /\ store_at [] (<[l := SClo xs r bd ρ]> μ) σ').
Proof.
  intros Hl C Hc He S. inversion Hc as [| | | | | |? ? ? k k' fm bi Hk Hk' Hfm Hbd| | | | | |]; subst.
  destruct (fresh_imp σ) as (k1 & F1). set (σ1 := <[Imp k1 := opair (Imp cell_circular) r0]> σ).
  destruct (fresh_imp σ1) as (k2 & F2). set (σ2 := <[Imp k2 := opair fm bi]> σ1).
  destruct (fresh_imp σ2) as (k3 & F3). set (σ3 := <[Imp k3 := opair (Imp k1) (Imp k2)]> σ2).
  assert (k1 <> k2) as N12 by (intros ->; unfold σ1 in F2; by rewrite lookup_insert in F2).
  assert (k2 <> k3) as N23 by (intros ->; unfold σ2 in F3; by rewrite lookup_insert in F3).
  assert (k1 <> k3) as N13. { intros ->. unfold σ2, σ1 in F3. rewrite lookup_insert_ne in F3 by congruence. by rewrite lookup_insert in F3. }
  assert (σ !! Imp k2 = None) as F2'. { unfold σ1 in F2. by rewrite lookup_insert_ne in F2 by congruence. }
  assert (σ !! Imp k3 = None) as F3'. { unfold σ2, σ1 in F3. by rewrite !lookup_insert_ne in F3 by congruence. }
  assert (σ !! Loc l = None) as Fl by (apply (sa_free _ _ _ S); [done|]; intros Hin; by apply elem_of_nil in Hin).
  assert (ext σ (<[Loc l := OCell TCLOSURE (WInt cell_f) (WId (Imp k3))]> σ3)) as X.
  { eapply ext_trans; [exact (ext_new _ _ (opair (Imp cell_circular) r0) F1)|]. eapply ext_trans; [exact (ext_new _ _ (opair fm bi) F2)|].
    eapply ext_trans; [exact (ext_new _ _ (opair (Imp k1) (Imp k2)) F3)|]. apply ext_loc. }
  eapply runsP_of; [eapply (runs_eval_lam _ _ _ _ _ σ r0 k k' fm bi r2 r3 st k1 k2 k3 l); try done|].
  exists (<[Loc l := OCell TCLOSURE (WInt cell_f) (WId (Imp k3))]> σ3). split; [done|]. split; [exact X|].
  apply store_at_put.
  - apply store_at_imp; [|done]. apply store_at_imp; [|done]. by apply store_at_imp.
  - exists k3, k1, k2, r0, fm, bi. split; [by rewrite lookup_insert|]. split; [|split; [|split; [by eapply env_at_ext|split; [|split]]]].
    + rewrite lookup_insert_ne by done. unfold σ3. by rewrite lookup_insert.
    + rewrite lookup_insert_ne by done. unfold σ3, σ2, σ1. rewrite !lookup_insert_ne by congruence. by rewrite lookup_insert.
    + rewrite lookup_insert_ne by done. unfold σ3, σ2. rewrite lookup_insert_ne by congruence. by rewrite lookup_insert.
    + by eapply names_at_ext.
    + by eapply codes_at_ext.
Qed.

(** * Conditionals and assignments *)
Lemma ext_ilist σ σ' i es : ext σ σ' -> ilist σ i es -> ilist σ' i es.
Proof. intros X. by apply ilist_ext. Qed.
Lemma if_case d ρ μ e c0 μ1 v1 o t0 :
  (forall σ i, code_at σ e i -> exists k d1 d2 ic it, i = Imp k /\ σ !! Imp k = Some (opair (Imp cell_symbol_if) (Imp d1)) /\
     σ !! Imp d1 = Some (opair ic (Imp d2)) /\ code_at σ c0 ic /\
     (forall fuel σ' j r0 r3 st, ext σ σ' -> consts_ok σ' -> val_at σ' v1 j ->
        runs_ fuel 0 L_if_expr (MS σ' r0 j (Imp d1) r3 st) L_eval (MS σ' r0 it (Imp d1) r3 st)) /\ code_at σ t0 it) ->
  evalM d ρ μ c0 μ1 v1 -> evalO (S d) ρ μ1 t0 o -> evalO (S d) ρ μ e o.
Proof.
  intros Hcode H1 H2 Eo So. destruct (H1 Eo So) as (L1 & S1 & HN1).
  eapply after_map; [exact L1|exact (H2 (env_ok_le _ _ _ L1 Eo) S1)|]. intros HN2.
  intros fuel σ r0 i r2 r3 c b x a p st C Hc He S Hroom.
  destruct (Hcode σ i Hc) as (k & d1 & d2 & ic & it & -> & Ho & Hd1 & Hic & Hif & Hit).
  eapply runsO_bind; [apply (runs_eval_if _ _ _ _ _ _ _ _ _ _ _ _ _ _ Ho Hd1); cbn in *; lia|lia|].
  eapply runsO_seq; [eapply (HN1 fuel σ); eauto; cbn in *; lia|lia|].
  intros M (σ1 & j & -> & X1 & S1' & V1). pose proof (consts_ok_ext _ _ X1 C) as C1.
  eapply runsO_bind; [apply (runs_dispatch _ _ _ _ _ cell_vm_if_expr L_if_expr); [reflexivity|kc]|lia|].
  eapply runsO_bind; [by apply Hif|lia|].
  eapply runsO_ext; [exact X1|]. eapply runsO_le; [eapply HN2|lia]; eauto.
  + by eapply code_at_ext.
  + by eapply env_at_ext.
Qed.
Lemma eval_if_true d ρ μ c t e μ1 v1 o : evalM d ρ μ c μ1 v1 -> v1 <> v_false -> evalO (S d) ρ μ1 t o -> evalO (S d) ρ μ (EIf c t e) o.
Proof.
  intros H1 Hv H2. eapply (if_case d ρ μ _ c μ1 v1 o t); [|done|done]. intros σ i Hc.
  inversion Hc as [| | | |? ? ? ? ic it ie Hl H3 H4 H5| | | | | | | |]; subst. inversion Hl as [|k ? d1 ? Ho Hl1]; subst. inversion Hl1 as [|k1 ? d2 ? Ho1 Hl2]; subst.
  inversion Hl2 as [|k2 ? d3 ? Ho2 Hl3]; subst. exists k, k1, k2, ic, it. do 4 (split; [done|]). split; [|done].
  intros fuel σ' j r0 r3 st X C V. eapply runs_if_true; [by apply X|by apply X|]. eapply val_not_const; [done|exact V|kc|done].
Qed.
Lemma eval_if_false d ρ μ c t e μ1 o : evalM d ρ μ c μ1 v_false -> evalO (S d) ρ μ1 e o -> evalO (S d) ρ μ (EIf c t e) o.
Proof.
  intros H1 H2. eapply (if_case d ρ μ _ c μ1 v_false o e); [|done|done]. intros σ i Hc.
  inversion Hc as [| | | |? ? ? ? ic it ie Hl H3 H4 H5| | | | | | | |]; subst. inversion Hl as [|k ? d1 ? Ho Hl1]; subst. inversion Hl1 as [|k1 ? d2 ? Ho1 Hl2]; subst.
  inversion Hl2 as [|k2 ? d3 ? Ho2 Hl3]; subst. inversion Hl3 as [|k3 ? d4 ? Ho3 Hl4]; subst. exists k, k1, k2, ic, ie. do 4 (split; [done|]). split; [|done].
  intros fuel σ' j r0 r3 st X C [-> _]. eapply runs_if_false; [done|by apply X|by apply X|by apply X].
Qed.
Lemma eval_when_true d ρ μ c t μ1 v1 o : evalM d ρ μ c μ1 v1 -> v1 <> v_false -> evalO (S d) ρ μ1 t o -> evalO (S d) ρ μ (EWhen c t) o.
Proof.
  intros H1 Hv H2. eapply (if_case d ρ μ _ c μ1 v1 o t); [|done|done]. intros σ i Hc.
  inversion Hc as [| | | | |? ? ? ic it Hl H3 H4| | | | | | |]; subst. inversion Hl as [|k ? d1 ? Ho Hl1]; subst. inversion Hl1 as [|k1 ? d2 ? Ho1 Hl2]; subst.
  inversion Hl2 as [|k2 ? d3 ? Ho2 Hl3]; subst. exists k, k1, k2, ic, it. do 4 (split; [done|]). split; [|done].
  intros fuel σ' j r0 r3 st X C V. eapply runs_if_true; [by apply X|by apply X|]. eapply val_not_const; [done|exact V|kc|done].
Qed.
Lemma eval_when_false d ρ μ c0 t μ1 : evalM d ρ μ c0 μ1 v_false -> evalM (S d) ρ μ (EWhen c0 t) μ1 v_unspecified.
Proof.
  intros H1 Eo So. destruct (H1 Eo So) as (L1 & S1 & HN1). split; [done|]. split; [done|].
  intros fuel σ r0 i r2 r3 c b x a p st C Hc He S Hroom.
  inversion Hc as [| | | | |? ? ? ic it Hl H3 H4| | | | | | |]; subst. inversion Hl as [|k ? d1 ? Ho Hl1]; subst. inversion Hl1 as [|k1 ? d2 ? Ho1 Hl2]; subst.
  inversion Hl2 as [|k2 ? d3 ? Ho2 Hl3]; subst. inversion Hl3; subst.
  eapply runsP_bind; [apply (runs_eval_if _ _ _ _ _ _ _ _ _ _ _ _ _ _ Ho Ho1); cbn in *; lia|lia|].
  eapply runsP_seq; [eapply (HN1 fuel σ); eauto; cbn in *; lia|lia|].
  intros M (σ1 & j & -> & X1 & S1' & V1). pose proof (consts_ok_ext _ _ X1 C) as C1. destruct V1 as [-> _].
  eapply runsP_bind; [apply (runs_dispatch _ _ _ _ _ cell_vm_if_expr L_if_expr); [reflexivity|kc]|lia|].
  eapply runsP_bind; [eapply runs_if_none; by apply X1|lia|].
  eapply runsP_le; [apply ret_runs; [done|done|]|lia]. apply const_at; [done|kc].
Qed.
Lemma set_case d ρ μ e0 e μ1 v l x0 w0 : μ1 !! l = Some (SVar x0 w0) ->
  (forall σ i, code_at σ e i -> exists k d1 d2 x ie n, i = Imp k /\ σ !! Imp k = Some (opair (Imp cell_symbol_set_x) d1) /\ σ !! d1 = Some (opair x d2) /\ σ !! d2 = Some (opair ie n) /\ code_at σ e0 ie /\
     (forall fuel σ' r0 j j0 r3 st, ext σ σ' -> consts_ok σ' -> env_at σ' ρ r0 -> store_at [] μ1 σ' -> store_ok μ1 -> env_ok μ1 ρ -> σ' !! Loc l = Some (opair (Imp x0) j0) ->
        runsP_ fuel 1 L_eval_set_x (MS σ' r0 j i r3 st) L_vm_return (fun M => exists σ2, M = MS (<[Loc l := opair (Imp x0) j]> σ2) r0 (Imp cell_unspecified) i r3 st /\ grown σ' σ2))) ->
  evalM d ρ μ e0 μ1 v -> evalM (S d) ρ μ e (<[l := SVar x0 v]> μ1) v_unspecified.
Proof.
  intros Hl Hcode H1 Eo So. destruct (H1 Eo So) as (L1 & S1 & HN1). pose proof (store_le_var μ1 l x0 w0 v Hl) as L2.
  split; [by eapply store_le_trans|]. split; [by apply store_ok_put|]. 
  intros fuel σ r0 i r2 r3 c b x a p st C Hc He S Hroom.
  destruct (Hcode σ i Hc) as (k & d1 & d2 & y & ie & n & -> & Ho & Hd1 & Hd2 & Hie & Hset).
  eapply runsP_bind; [apply (runs_eval_set _ _ _ _ _ _ _ _ _ _ _ _ _ _ _ _ Ho Hd1 Hd2); cbn in *; lia|lia|].
  eapply runsP_seq; [eapply (HN1 fuel σ); eauto; cbn in *; lia|lia|].
  intros M (σ1 & j & -> & X1 & S1' & V1). pose proof (consts_ok_ext _ _ X1 C) as C1.
  destruct (sa_obj _ _ _ S1' _ _ Hl) as (j0 & Hj0 & _).
  eapply runsP_bind; [apply (runs_dispatch _ _ _ _ _ cell_vm_eval_set_x L_eval_set_x); [reflexivity|kc]|lia|].
  eapply runsP_seq; [eapply Hset; eauto; [by eapply env_at_ext|by eapply env_ok_le]|lia|]. intros M (σ2 & -> & Hg).
  pose proof (grown_ext _ _ Hg) as X2. eapply runsP_le; [apply ret_runs|lia].
  - eapply ext_trans; [exact X1|]. eapply ext_trans; [exact X2|apply ext_loc].
  - apply store_at_put; [by eapply store_at_grown|]. exists j. rewrite lookup_insert. split; [done|]. eapply val_at_ext; [apply ext_loc|by eapply val_at_ext].
  - apply const_at; [|kc]. eapply consts_ok_ext; [apply ext_loc|by eapply consts_ok_ext].
Qed.
Lemma eval_set d ρ μ x e μ1 v l w0 : evalM d ρ μ e μ1 v -> finds (ge_vars GE) μ1 x ρ l -> μ1 !! l = Some (SVar x w0) ->
  evalM (S d) ρ μ (ESet x e) (<[l := SVar x v]> μ1) v_unspecified.
Proof using Hgl.
  intros H1 Hlook Hl. eapply (set_case d ρ μ e _ μ1 v l x w0); [done| |done]. intros σ i Hc.
  inversion Hc as [| | | | | | |? ? ? ie Hil Hx Hie| | | | |]; subst. inversion Hil as [|k ? d1 ? Ho Hl1]; subst. inversion Hl1 as [|k1 ? d2 ? Ho1 Hl2]; subst.
  inversion Hl2 as [|k2 ? d3 ? Ho2 Hl3]; subst. exists k, (Imp k1), (Imp k2), (Imp x), ie, d3. do 5 (split; [done|]).
  intros fuel σ' r0 j j0 r3 st X C He S So Eo Hlo. eapply (runs_set_local _ _ _ _ _ Hgl μ1 ρ); eauto; [by eapply ext_ilist|by eapply name_ok_ext].
Qed.
Lemma eval_set_global d ρ μ x e μ1 v l w0 : evalM d ρ μ e μ1 v -> μ1 !! l = Some (SVar x w0) ->
  evalM (S d) ρ μ (ESetGlobal l e) (<[l := SVar x v]> μ1) v_unspecified.
Proof.
  intros H1 Hl. eapply (set_case d ρ μ e _ μ1 v l x w0); [done| |done]. intros σ i Hc.
  inversion Hc as [| | | | | | | |? ? ? kv ie Hil Hx Hie| | | |]; subst. inversion Hil as [|k ? d1 ? Ho Hl1]; subst. inversion Hl1 as [|k1 ? d2 ? Ho1 Hl2]; subst.
  inversion Hl2 as [|k2 ? d3 ? Ho2 Hl3]; subst. exists k, (Imp k1), (Imp k2), (Imp kv), ie, d3. do 5 (split; [done|]).
  intros fuel σ' r0 j j0 r3 st X C He S So Eo Hlo. eapply runsP_le; [eapply runsP_of; [eapply (runs_set_global _ _ _ _ _ _ _ _ _ kv ie); eauto; first [by eapply ext_ilist|by apply X]|]|lia]. exists σ'. split; [done|apply grown_refl].
Qed.
Lemma eval_begin d ρ μ es o : (body_len es <= width)%nat -> es <> [] -> bodyW (S d) ρ μ es o -> evalO (S d) ρ μ (EBegin es) o.
Proof.
  intros Hlen Hne H Eo So. eapply after_map; [apply store_le_refl|exact (H Hlen Eo So)|]. intros HN1.
  intros fuel σ r0 i r2 r3 c b x a p st C Hc He S Hroom.
  inversion Hc as [| | | | | | | | | | |? k bi Ho Hb|]; subst.
  eapply runsO_bind; [by apply (runs_eval_begin _ _ _ _ _ _ _ _ _ _ _ _ Ho)|lia|].
  eapply runsO_bind; [apply (runs_begin_form _ _ _ _ _ _ _ _ bi); [done|done|by eapply codes_nil|cbn in *; lia]|lia|].
  eapply runsO_le; [eapply HN1; eauto|lia].
Qed.

(** * Calls *)
Lemma args_nil_M d ρ μ : argsM d ρ μ [] μ [].
Proof.
  intros Eo So. split; [apply store_le_refl|]. split; [done|]. intros fuel js (J1 & _) σ r0 i r2 r3 c b x a p st C Hc He S Hroom.
  destruct js; [|done]. inversion Hc; subst. eapply runsP_bind; [apply runs_evlis_nil|lia|]. eapply runsP_le; [eapply runsP_of; [apply runs_return|]|lia].
  exists σ, (Imp cell_nil). split; [done|]. split; [done|]. split; [done|constructor].
Qed.
Lemma args_cons_M d ρ μ e es μ1 v μ2 vs : evalM d ρ μ e μ1 v -> argsM d ρ μ1 es μ2 vs -> argsM (S d) ρ μ (e :: es) μ2 (v :: vs).
Proof.
  intros H1 H2 Eo So. destruct (H1 Eo So) as (L1 & S1 & HN1). destruct (H2 (env_ok_le _ _ _ L1 Eo) S1) as (L2 & S2 & HN2).
  split; [by eapply store_le_trans|]. split; [done|].
  intros fuel js J σ r0 i r2 r3 c b x a p st C Hc He S Hroom. inversion Hc as [|? ? k ie d0 Ho Hce Hcs]; subst.
  destruct js as [|j0 js]; [by destruct J|].
  eapply runsP_bind; [apply (runs_evlis_cons _ _ _ _ _ _ _ _ _ _ _ _ _ C Ho); cbn in *; lia|lia|].
  eapply runsP_seq; [eapply (HN1 fuel σ); eauto; cbn in *; lia|lia|].
  intros M (σ1 & j & -> & X1 & S1' & V1). pose proof (consts_ok_ext _ _ X1 C) as C1.
  eapply runsP_bind; [apply (runs_dispatch _ _ _ _ _ cell_vm_evlis2 L_evlis2); [reflexivity|kc]|lia|].
  eapply runsP_bind; [apply (runs_evlis2 _ _ _ _ _ _ _ _ _ ie d0); [by apply X1|cbn in *; lia]|lia|].
  assert (good_js js vs μ2 /\ (forall l, j0 = Some l -> μ2 !! l = None /\ l ∉ locs_of js)) as [J' Jl].
  { destruct J as (J1 & J2 & J3 & n0 & ls & Hsh). cbn in J1.
    assert (exists n ls, js = replicate n None ++ map Some ls) as Hsh'.
    { destruct n0; cbn in Hsh; [destruct ls; [done|]; cbn in Hsh|]; injection Hsh as _ ->; [by exists 0%nat, ls|by eexists _, _]. }
    destruct j0 as [l|]; cbn in J2, J3.
    - apply NoDup_cons in J2 as [J2 J2']. split; [split; [lia|]; split; [done|]; split; [intros l' Hl'; apply J3; by right|done]|].
      intros l' [= <-]. split; [apply J3; by left|done].
    - split; [split; [lia|done]|done]. }
  eapply runsP_seq; [eapply (HN2 fuel js J' σ1); eauto; [by eapply codes_at_ext|by eapply env_at_ext|cbn in *; lia]|lia|].
  intros M (σ2 & ai & -> & X2 & S2' & A2).
  eapply runsP_bind; [apply (runs_dispatch _ _ _ _ _ cell_vm_evlis3 L_evlis3); [reflexivity|kc]|lia|].
  assert (exists i, arg_id j0 i /\ σ2 !! i = None) as (i & Hi & Fi).
  { destruct j0 as [l|]; cbn.
    - exists (Loc l). split; [done|]. destruct (Jl l eq_refl). by apply (sa_free _ _ _ S2').
    - destruct (fresh_imp σ2) as (k' & Hk'). exists (Imp k'). split; [by exists k'|done]. }
  assert (σ2 ⊆ <[i := opair j ai]> σ2) as Sub by by apply insert_subseteq.
  eapply runsP_bind; [by apply (runs_evlis3 _ _ _ _ _ _ _ ai j i)|lia|].
  eapply runsP_le; [eapply runsP_of; [apply runs_return|]|lia].
  exists (<[i := opair j ai]> σ2), i. split; [done|]. split; [|split].
  - eapply ext_trans; [exact X1|]. eapply ext_trans; [exact X2|]. by apply ext_sub.
  - destruct j0 as [l|]; cbn in Hi.
    + subst i. cbn. apply store_at_loc; [done|]. by apply (Jl l).
    + destruct Hi as (k' & ->). cbn. by apply store_at_imp.
  - econstructor; [done|by rewrite lookup_insert| |by eapply alist_at_sub].
    eapply val_at_ext; [by apply ext_sub|]. by eapply val_at_ext.
Qed.

(** * The arguments as part of the store *)
Definition dom_le (μ μ' : store) : Prop := forall l, μ' !! l = None -> μ !! l = None.
Lemma dom_le_refl μ : dom_le μ μ.
Proof. by intros l. Qed.
Lemma dom_le_trans μ μ1 μ2 : dom_le μ μ1 -> dom_le μ1 μ2 -> dom_le μ μ2.
Proof. intros H1 H2 l Hl. by apply H1, H2. Qed.
Lemma dom_le_insert μ l o : dom_le μ (<[l := o]> μ).
Proof. intros l' H. by apply lookup_insert_None in H as [? _]. Qed.
Lemma dom_le_disjoint μ μ' (ν : store) : dom_le μ μ' -> μ' ##ₘ ν -> μ ##ₘ ν.
Proof.
  intros H D. apply map_disjoint_spec. intros l o o' Ho Ho'. destruct (μ' !! l) as [o1|] eqn:E.
  - by eapply (map_disjoint_spec μ' ν) in D.
  - rewrite (H l E) in Ho. done.
Qed.
Lemma store_list_union ls : forall vs μ, NoDup ls -> length ls = length vs -> (forall l, l ∈ ls -> μ !! l = None) ->
  exists ν v, store_list ls vs ∅ = Some (ν, v) /\ store_list ls vs μ = Some (μ ∪ ν, v) /\
    (forall l, is_Some (ν !! l) <-> l ∈ ls) /\ (forall l o, ν !! l = Some o -> exists a d, o = SPair a d).
Proof.
  induction ls as [|l ls IH]; intros [|v vs] μ Hnd Hlen Hf; try done.
  - exists ∅, v_nil. cbn. split; [done|]. split; [by rewrite (right_id_L ∅ (∪))|]. split.
    + intros l. rewrite lookup_empty. split; [by intros []|]. intros H. by apply elem_of_nil in H.
    + intros l o H. by rewrite lookup_empty in H.
  - apply NoDup_cons in Hnd as [Hl Hnd]. destruct (IH vs μ Hnd) as (ν & w & E1 & E2 & D & P).
    { cbn in Hlen. lia. } { intros l' Hl'. apply Hf. by right. }
    assert (ν !! l = None) as Hn. { destruct (ν !! l) eqn:E; [|done]. destruct Hl. apply D. by rewrite E. }
    assert (μ !! l = None) as Hm by (apply Hf; by left).
    exists (<[l := SPair v w]> ν), (VLoc l). cbn. rewrite E1, E2.
    rewrite decide_True by done. rewrite decide_True by (by rewrite lookup_union_None). split; [done|].
    split; [by rewrite insert_union_r|]. split.
    + intros l'. rewrite elem_of_cons, <- D. destruct (decide (l' = l)) as [->|Hne]; [rewrite lookup_insert; split; [by left|by eexists]|].
      rewrite lookup_insert_ne by done. split; [by right|by intros [?|?]].
    + intros l' o Ho. destruct (decide (l' = l)) as [->|Hne]; [rewrite lookup_insert in Ho; injection Ho as <-; by eexists _, _|].
      rewrite lookup_insert_ne in Ho by done. by eapply P.
Qed.
Lemma store_list_back ls : forall vs ν v σ i, store_list ls vs ∅ = Some (ν, v) ->
  (forall l o, ν !! l = Some o -> sobj_at σ o (Loc l)) -> val_at σ v i -> alist_at σ (map Some ls) vs i.
Proof.
  induction ls as [|l ls IH]; intros [|v vs] ν w σ i H Ho Hv; cbn in H; try done.
  - injection H as <- <-. destruct Hv as [-> _]. constructor.
  - destruct (store_list ls vs ∅) as [[ν' d]|] eqn:E; [|done]. case_decide as Hl; [|done]. injection H as <- <-. cbn in Hv. subst i.
    destruct (Ho l (SPair v d)) as (j & j' & Hj & Va & Vd); [apply lookup_insert|]. cbn. econstructor; [done|exact Hj|exact Va|].
    eapply (IH vs ν' d); [done| |exact Vd]. intros l' o' H'. apply Ho. rewrite lookup_insert_ne; [done|]. intros ->. congruence.
Qed.
Lemma alist_split n : forall ls vs σ ai, alist_at σ (replicate n None ++ map Some ls) vs ai ->
  exists vs2 i2, alist_at σ (map Some ls) vs2 i2 /\ forall σ', ext σ σ' -> alist_at σ' (map Some ls) vs2 i2 ->
    alist_at σ' (replicate n None ++ map Some ls) vs ai.
Proof.
  induction n as [|n IH]; intros ls vs σ ai H; [by exists vs, ai|]. cbn in H. inversion H as [|? ? v vs' i a d Hj Ho Hv Hd]; subst.
  destruct (IH _ _ _ _ Hd) as (vs2 & i2 & H2 & Hb). exists vs2, i2. split; [done|]. intros σ' X H'. cbn. destruct Hj as (k & ->).
  econstructor; [by exists k|by apply X|by eapply val_at_ext|by apply Hb].
Qed.
Lemma locs_of_shape n ls : locs_of (replicate n None ++ map Some ls) = ls.
Proof. induction n; [apply locs_of_some|exact IHn]. Qed.
Lemma alist_length σ js vs i : alist_at σ js vs i -> length js = length vs.
Proof. induction 1; cbn; lia. Qed.
Lemma args_as_pairs js vs μ σ ai : consts_ok σ -> good_js js vs μ -> alist_at σ js vs ai -> store_at (locs_of js) μ σ ->
  exists ν, (forall l, is_Some (ν !! l) <-> l ∈ locs_of js) /\ (forall l o, ν !! l = Some o -> exists a d, o = SPair a d) /\
    store_at [] (μ ∪ ν) σ /\
    forall μ' σ', ext σ σ' -> μ' ##ₘ ν -> store_at [] (μ' ∪ ν) σ' -> store_at (locs_of js) μ' σ' /\ alist_at σ' js vs ai.
Proof.
  intros C (J1 & J2 & J3 & n & ls & ->) Ha S. rewrite locs_of_shape in *. destruct (alist_split _ _ _ _ _ Ha) as (vs2 & i2 & H2 & Hb).
  pose proof (alist_length _ _ _ _ H2) as Hlen. rewrite map_length in Hlen.
  destruct (store_list_union ls vs2 μ J2 Hlen J3) as (ν & v & E1 & E2 & D & P).
  destruct (store_list_at ls vs2 μ _ v [] σ i2 C E2 H2) as [S1 V1]; [by rewrite app_nil_r|].
  exists ν. split; [done|]. split; [done|]. split; [done|]. intros μ' σ' X Dj S'. split.
  - split.
    + intros l o Hl. apply (sa_obj _ _ _ S'). by apply lookup_union_Some_l.
    + intros l Hl Hin. apply (sa_free _ _ _ S'); [|intros Hn; by apply elem_of_nil in Hn]. apply lookup_union_None. split; [done|].
      destruct (ν !! l) eqn:E; [|done]. destruct Hin. apply D. by rewrite E.
  - apply Hb; [done|]. eapply store_list_back; [exact E1| |by eapply val_at_ext].
    intros l o Ho. apply (sa_obj _ _ _ S'). by apply lookup_union_Some_r.
Qed.
Lemma compound_pair σ f i : consts_ok σ -> compound f -> code_at σ f i ->
  exists k h t, i = Imp k /\ σ !! Imp k = Some (opair h t) /\ h <> Imp cell_symbol_lambda.
Proof.
  intros C Hf Hc. destruct f; try done; inversion Hc; subst;
    repeat match goal with H : ilist _ _ (_ :: _) |- _ => inversion H; clear H; subst end;
    try (by eexists _, _, _).
  eexists _, _, _. split; [done|]. split; [done|]. eapply operator_id; [done|done|done|]. unfold reserved, hidden. cbn. set_solver.
Qed.
Lemma env_ok_union μ ν ρ : env_ok μ ρ -> env_ok (μ ∪ ν) ρ.
Proof.
  induction 1 as [|x l v ρ Hl _ IH|ρ _ IH|f ρ Hf _ IH]; [constructor| |by constructor|].
  - eapply eo_bind; [by apply lookup_union_Some_l|done].
  - eapply eo_frame; [by apply lookup_union_Some_l|done].
Qed.
Lemma store_ok_union μ (ν : store) : μ ##ₘ ν -> store_ok μ -> (forall l o, ν !! l = Some o -> exists a d, o = SPair a d) -> store_ok (μ ∪ ν).
Proof.
  intros D [H HG] P. split.
  - intros l xs r bd ρ Hl. apply lookup_union_Some in Hl as [Hl|Hl]; [|by destruct (P _ _ Hl) as (? & ? & ?)|done].
    apply env_ok_union. by eapply H.
  - intros x l Hin. destruct (HG x l Hin) as (v & Hv). exists v. by apply lookup_union_Some_l.
Qed.

(** from the evaluated operator on *)
Lemma opO_var d ρ μ f fv vs out : var_value ρ μ f fv -> applyO (S d) μ fv vs out -> opO (S d) ρ μ f vs out.
Proof using Hgl.
  intros Hf Hp Eo So. eapply after_map; [apply store_le_refl|exact (Hp So)|]. intros (l & o & -> & Hl & Hpr & js & J & HN2). exists js. split; [done|].
  intros fuel σ2 r0 i op ai r2 r3 c b x a p st C2 Hi2 A2 S2' Hop2 He2 Hroom.
  eapply runsO_bind; [apply (runs_apply_var _ _ _ _ _ Hgl σ2 r0 i op ai); [done|done| |cbn in *; lia]|lia|].
  { destruct f; try done; inversion Hop2; subst; [left; by eexists|right; by eexists _, _]. }
  eapply runsO_seq; [by eapply (var_runs fuel (locs_of js))|lia|].
  intros M (σ3 & j & -> & Hg & Vj). cbn in Vj. subst j. eapply runsO_bind; [apply runs_return|lia|].
  pose proof (grown_ext _ _ Hg) as X3. pose proof (proj1 Hg) as Sub3. pose proof (consts_ok_ext _ _ X3 C2) as C3. pose proof (store_at_grown _ _ _ _ S2' Hg) as S3'.
  eapply runsO_bind; [apply (runs_dispatch _ _ _ _ _ cell_vm_apply2 L_apply2); [reflexivity|kc]|lia|].
  destruct (fresh_imp σ3) as (k' & Fk').
  eapply runsO_bind; [apply (runs_apply2 _ _ _ _ _ σ3 r0 l o i op ai k'); [done|by eapply lookup_weaken|by apply (sa_obj _ _ _ S3')|done|done]|lia|].
  assert (σ3 ⊆ <[Imp k' := opair (Loc l) ai]> σ3) as Sub4 by by apply insert_subseteq. assert (ext σ3 (<[Imp k' := opair (Loc l) ai]> σ3)) as X4 by by apply ext_sub.
  eapply (runsO_ext _ _ _ _ _ σ2); [by eapply ext_trans|].
  eapply runsO_le; [eapply HN2|lia]; [by eapply consts_ok_ext|apply lookup_insert|eapply alist_at_sub; [exact Sub4|]; by eapply alist_at_sub|by apply store_at_imp|cbn in *; lia].
Qed.
Lemma opO_lam d ρ μ xs r bd vs o : callO (S d) μ xs r bd ρ vs o -> opO (S d) ρ μ (ELam xs r bd) vs o.
Proof.
  intros H Eo So. eapply after_map; [apply store_le_refl|exact (H Eo So)|]. intros (Hxs & bs & μ1 & fr & js & Hb & Hfr & J & Hp & HN). exists js. split; [done|].
  intros fuel σ r0 i fi ai r2 r3 c b x a p st C Ho Hal S Hlam He Hroom.
  eapply runsO_seq; [by eapply (runs_apply_lam _ _ _ _ _ xs r vs μ bs μ1 bd js Hb Hp ρ fr)|lia|]. intros M (bi & Hbd & σ' & -> & Sub & S').
  assert (ext σ σ') as X by by apply ext_sub. pose proof (consts_ok_ext _ _ X C) as C'.
  eapply runsO_ext; [exact X|]. eapply runsO_le; [eapply HN; eauto; by eapply codes_at_ext|lia].
Qed.
Lemma app_tail d ρ μ es μ1 vs o f : argsM d ρ μ es μ1 vs -> opO (S d) ρ μ1 f vs o ->
  env_ok μ ρ -> store_ok μ -> after μ o (
  forall fuel σ r0 k op d0 r1 r3 c b x a p st, consts_ok σ -> σ !! Imp k = Some (opair op d0) -> code_at σ f op -> codes_at σ es d0 ->
    env_at σ ρ r0 -> store_at [] μ σ -> room (frame c b x a p st) (Z.of_nat (S d) + 1) ->
    runsO fuel need L_eval_check_func (MS σ r0 r1 (Imp k) r3 (frame c b x a p st)) o σ a b c st).
Proof.
  intros Ha Hp Eo So. destruct (Ha Eo So) as (L1 & S1 & HN1).
  eapply after_map; [exact L1|exact (Hp (env_ok_le _ _ _ L1 Eo) S1)|]. intros (js & J & HN2).
  intros fuel σ r0 k op d0 r1 r3 c b x a p st C Ho Hop Hes He S Hroom.
  eapply runsO_bind; [apply (runs_check_func _ _ _ _ _ _ _ _ _ _ _ _ _ Ho); cbn in *; lia|lia|].
  eapply runsO_seq; [eapply (HN1 fuel js J σ); eauto; cbn in *; lia|lia|].
  intros M (σ1 & ai & -> & X1 & S1' & A1). pose proof (consts_ok_ext _ _ X1 C) as C1.
  eapply runsO_bind; [apply (runs_dispatch _ _ _ _ _ cell_vm_eval2 L_eval2); [reflexivity|kc]|lia|].
  destruct (fresh_imp σ1) as (i & Fi).
  eapply runsO_bind; [apply (runs_eval2 _ _ _ _ _ _ _ ai k op d0 (Imp i)); [by apply X1|done]|lia|].
  set (σ2 := <[Imp i := opair op ai]> σ1).
  assert (σ1 ⊆ σ2) as Sub2 by by apply insert_subseteq. assert (ext σ1 σ2) as X2 by by apply ext_sub.
  assert (ext σ σ2) as X02 by by eapply ext_trans.
  eapply runsO_ext; [exact X02|].
  eapply runsO_le; [eapply (HN2 fuel σ2 r0 (Imp i) op ai)|lia].
  - by eapply consts_ok_ext.
  - apply lookup_insert.
  - by eapply alist_at_sub.
  - by apply store_at_imp.
  - by eapply code_at_ext.
  - by eapply env_at_ext.
  - cbn in *; lia.
Qed.
Lemma eval_app d ρ μ f es v0 μ1 vs o : var_value ρ μ f v0 -> argsM d ρ μ es μ1 vs -> opO (S d) ρ μ1 f vs o ->
  evalO (S d) ρ μ (EApp f es) o.
Proof using Hgl.
  intros Hv0 Ha Hp Eo So. eapply after_map; [apply store_le_refl|exact (app_tail d ρ μ es μ1 vs o f Ha Hp Eo So)|]. intros HN. intros fuel σ r0 i r2 r3 c b x a p st C Hc He S Hroom.
  inversion Hc as [| | | | | | | | | | | |? ? k op d0 Hop Ho Hcf Hcs]; subst.
  eapply runsO_bind; [apply (runs_eval_app _ _ _ _ _ _ _ _ _ _ _ _ _ C Ho); [intros c' Hc'; by eapply operator_id|cbn in *; lia]|lia|].
  eapply runsO_seq; [by eapply (var_runs fuel [] ρ μ f v0)|lia|]. intros M (σ1 & j & -> & Hg & Vj). eapply runsO_bind; [apply runs_return|lia|].
  pose proof (grown_ext _ _ Hg) as X1.
  eapply runsO_bind; [apply (runs_dispatch _ _ _ _ _ cell_vm_eval_check_func L_eval_check_func); [reflexivity|kc]|lia|].
  eapply runsO_ext; [exact X1|].
  eapply runsO_le; [eapply HN; eauto; [by eapply consts_ok_ext|by apply X1|by eapply code_at_ext|by eapply codes_at_ext|by eapply env_at_ext|by eapply store_at_grown]|lia].
Qed.
Lemma eval_app_lam d ρ μ xs r bd l es μ1 vs o : μ !! l = None -> argsM d ρ (<[l := SClo xs r bd ρ]> μ) es μ1 vs -> opO (S d) ρ μ1 (ELam xs r bd) vs o ->
  evalO (S d) ρ μ (EApp (ELam xs r bd) es) o.
Proof.
  intros Hl Ha Hp Eo So. pose proof (store_le_new μ l (SClo xs r bd ρ) Hl) as L0.
  assert (store_ok (<[l := SClo xs r bd ρ]> μ)) as So1. { apply store_ok_new; [done|done|]. intros ? ? ? ? [= <- <- <- <-]. done. }
  pose proof (env_ok_le _ _ _ L0 Eo) as Eo1.
  eapply after_map; [exact L0|exact (app_tail d ρ _ es μ1 vs o (ELam xs r bd) Ha Hp Eo1 So1)|]. intros HN. intros fuel σ r0 i r2 r3 c b x a p st C Hc He S Hroom.
  inversion Hc as [| | | | | | | | | | | |? ? k op d0 Hop Ho Hcf Hcs]; subst.
  eapply runsO_bind; [apply (runs_eval_app _ _ _ _ _ _ _ _ _ _ _ _ _ C Ho); [intros c' Hc'; by eapply operator_id|cbn in *; lia]|lia|].
  eapply runsO_seq; [by eapply (lam_runs fuel ρ μ xs r bd l)|lia|]. intros M (σ1 & -> & X1 & S1). eapply runsO_bind; [apply runs_return|lia|].
  eapply runsO_bind; [apply (runs_dispatch _ _ _ _ _ cell_vm_eval_check_func L_eval_check_func); [reflexivity|kc]|lia|].
  eapply runsO_ext; [exact X1|].
  eapply runsO_le; [eapply HN; eauto; [by eapply consts_ok_ext|by apply X1|by eapply code_at_ext|by eapply codes_at_ext|by eapply env_at_ext]|lia].
Qed.
(** an operator that is evaluated again when the arguments are there *)
Lemma eval_app_exp d ρ μ f es μ0 v0 μ1 vs μ2 fv out : compound f -> evalM d ρ μ f μ0 v0 -> argsM d ρ μ0 es μ1 vs -> dom_le μ1 μ2 ->
  (forall ν, μ2 ##ₘ ν -> evalM d ρ (μ1 ∪ ν) f (μ2 ∪ ν) fv) -> applyO (S d) μ2 fv vs out -> evalO (S d) ρ μ (EApp f es) out.
Proof.
  intros Hcf H0 Ha D12 H2 Hp Eo So. destruct (H0 Eo So) as (L0 & S0 & HN0). pose proof (env_ok_le _ _ _ L0 Eo) as Eo0.
  destruct (Ha Eo0 S0) as (L1 & S1 & HN1). pose proof (env_ok_le _ _ _ L1 Eo0) as Eo1.
  destruct (H2 ∅ (map_disjoint_empty_r _)) as (L2 & S2 & _); [by rewrite (right_id_L ∅ (∪))|by rewrite (right_id_L ∅ (∪))|]. rewrite (right_id_L ∅ (∪) μ2) in S2, L2. rewrite (right_id_L ∅ (∪) μ1) in L2.
  eapply after_map; [eapply store_le_trans; [exact L0|]; by eapply store_le_trans|exact (Hp S2)|]. intros (l & o & -> & Hl & Hpr & js & J & HN3).
  assert (good_js js vs μ1) as J1. { destruct J as (J1 & J2 & J3 & J4). split; [done|]. split; [done|]. split; [|done]. intros l' Hl'. by apply D12, J3. }
  intros fuel σ r0 i r2 r3 c b x a p st C Hc He S Hroom.
  inversion Hc as [| | | | | | | | | | | |? ? k op d0 Hop Ho Hcfo Hcs]; subst.
  eapply runsO_bind; [apply (runs_eval_app _ _ _ _ _ _ _ _ _ _ _ _ _ C Ho); [intros c' Hc'; by eapply operator_id|cbn in *; lia]|lia|].
  eapply runsO_seq; [eapply (HN0 fuel σ); eauto; cbn in *; lia|lia|].
  intros M (σ0 & j0 & -> & X0 & S0' & _). pose proof (consts_ok_ext _ _ X0 C) as C0.
  eapply runsO_bind; [apply (runs_dispatch _ _ _ _ _ cell_vm_eval_check_func L_eval_check_func); [reflexivity|kc]|lia|].
  eapply runsO_bind; [apply (runs_check_func _ _ _ _ _ _ _ _ _ op d0); [by apply X0|cbn in *; lia]|lia|].
  eapply runsO_seq; [eapply (HN1 fuel js J1 σ0); eauto; [by eapply codes_at_ext|by eapply env_at_ext|cbn in *; lia]|lia|].
  intros M (σ1 & ai & -> & X1 & S1' & A1). pose proof (consts_ok_ext _ _ X1 C0) as C1.
  eapply runsO_bind; [apply (runs_dispatch _ _ _ _ _ cell_vm_eval2 L_eval2); [reflexivity|kc]|lia|].
  destruct (fresh_imp σ1) as (i & Fi).
  eapply runsO_bind; [apply (runs_eval2 _ _ _ _ _ _ _ ai k op d0 (Imp i)); [by apply X1, X0|done]|lia|].
  set (σ2 := <[Imp i := opair op ai]> σ1).
  assert (σ1 ⊆ σ2) as Sub2 by by apply insert_subseteq. assert (ext σ1 σ2) as X2 by by apply ext_sub.
  pose proof (consts_ok_ext _ _ X2 C1) as C2. assert (store_at (locs_of js) μ1 σ2) as S2' by by apply store_at_imp.
  assert (alist_at σ2 js vs ai) as A2 by by eapply alist_at_sub. assert (σ2 !! Imp i = Some (opair op ai)) as Hi2 by apply lookup_insert.
  assert (ext σ σ2) as X02 by (eapply ext_trans; [exact X0|]; by eapply ext_trans).
  assert (code_at σ2 f op) as Hop2 by by eapply code_at_ext. assert (env_at σ2 ρ r0) as He2 by by eapply env_at_ext.
  destruct (args_as_pairs js vs μ1 σ2 ai C2 J1 A2 S2') as (ν & Dν & Pν & Sν & Back).
  assert (μ2 ##ₘ ν) as Dj2. { apply map_disjoint_spec. intros l' o1 o2 Ho1 Ho2. destruct J as (_ & _ & J3 & _). rewrite (J3 l') in Ho1; [done|]. apply Dν. by rewrite Ho2. }
  pose proof (dom_le_disjoint _ _ _ D12 Dj2) as Dj1.
  destruct (H2 ν Dj2) as (_ & _ & HN2); [by apply env_ok_union|by apply store_ok_union|].
  destruct (compound_pair _ _ _ C2 Hcf Hop2) as (kk & hh & tl & -> & Hkk & Hh).
  eapply runsO_bind; [apply (runs_apply_exp _ _ _ _ _ σ2 r0 (Imp i) kk hh tl ai); [done|done|done|done|cbn in *; lia]|lia|].
  eapply runsO_seq; [eapply (HN2 fuel σ2); eauto; cbn in *; lia|lia|].
  intros M (σ3 & j & -> & X3 & S3' & Vj). cbn in Vj. subst j. pose proof (consts_ok_ext _ _ X3 C2) as C3.
  destruct (Back μ2 σ3 X3 Dj2 S3') as [S3'' A3].
  eapply runsO_bind; [apply (runs_dispatch _ _ _ _ _ cell_vm_apply2 L_apply2); [reflexivity|kc]|lia|].
  destruct (fresh_imp σ3) as (k' & Fk').
  eapply runsO_bind; [apply (runs_apply2 _ _ _ _ _ σ3 r0 l o (Imp i) (Imp kk) ai k'); [done|by apply X3|by apply (sa_obj _ _ _ S3'')|done|done]|lia|].
  assert (σ3 ⊆ <[Imp k' := opair (Loc l) ai]> σ3) as Sub3 by by apply insert_subseteq. assert (ext σ3 (<[Imp k' := opair (Loc l) ai]> σ3)) as X4 by by apply ext_sub.
  eapply (runsO_ext _ _ _ _ _ σ); [eapply ext_trans; [exact X02|]; by eapply ext_trans|].
  eapply runsO_le; [eapply HN3|lia]; [by eapply consts_ok_ext|apply lookup_insert|by eapply alist_at_sub|by apply store_at_imp|cbn in *; lia].
Qed.
Lemma call_O d μ xs r bd ρ vs bs μ1 fr o : bind_args xs r vs μ bs μ1 -> μ1 !! fr = None ->
  (body_len bd <= width)%nat -> (length xs <= width)%nat -> bd <> [] -> bodyW d (EFrame fr) (<[fr := SFrame (extend bs ρ)]> μ1) bd o -> callO d μ xs r bd ρ vs o.
Proof.
  intros Hb Hfr Hlen Hxs Hne Hw Eo So. destruct (bind_args_ok _ _ _ _ _ _ Hb So) as (L1 & So1 & V1).
  pose proof (store_le_new μ1 fr (SFrame (extend bs ρ)) Hfr) as L1'.
  assert (env_ok (<[fr := SFrame (extend bs ρ)]> μ1) (EFrame fr)) as Eo2.
  { eapply eo_frame; [apply lookup_insert|]. eapply env_ok_le; [exact L1'|]. apply env_ok_extend; [done|]. by eapply env_ok_le. }
  assert (store_ok (<[fr := SFrame (extend bs ρ)]> μ1)) as So2 by by apply store_ok_new.
  eapply after_map; [by eapply store_le_trans|exact (Hw Hlen Eo2 So2)|]. intros HN. split; [done|].
  destruct (wp_pairlis (GE := GE) _ _ _ _ _ _ Hb) as (js & J1 & J2 & J3 & J4 & Hp). exists bs, μ1, fr, js. split; [done|]. split; [done|]. split; [done|]. split; [done|].
  intros fuel σ i r2 r3 c b x a p st C Hbd S Hroom.
  eapply runsO_bind; [apply runs_begin; by eapply (codes_nil σ)|lia|].
  eapply runsO_le; [eapply HN; eauto; constructor|lia].
Qed.
Lemma apply_clo_O d μ l xs r bd ρ ρ' vs o : μ !! l = Some (SClo xs r bd ρ) -> closure_env μ ρ = Some ρ' ->
  callO d μ xs r bd ρ' vs o -> applyO d μ (VLoc l) vs o.
Proof.
  intros Hl Hcl Hw So. eapply after_map; [apply store_le_refl|exact (Hw (env_ok_tail _ _ _ (so_clo _ _ So _ _ _ _ _ Hl) Hcl) So)|].
  intros (Hxs & bs & μ1 & fr & js & Hb & Hfr & J & Hp & HN). exists l, (SClo xs r bd ρ). split; [done|]. split; [done|]. split; [left; by eexists _, _, _, _|].
  exists js. split; [done|]. intros fuel σ r0 i ai r2 r3 c b x a p st C Ho Hal S Hroom.
  eapply runsO_seq; [by eapply (runs_apply_clo _ _ _ _ _ xs r vs μ bs μ1 bd js Hb Hp l ρ ρ' fr)|lia|]. intros M (bi & Hbd & σ' & -> & Sub & S').
  assert (ext σ σ') as X by by apply ext_sub. pose proof (consts_ok_ext _ _ X C) as C'.
  eapply runsO_ext; [exact X|]. eapply runsO_le; [eapply HN; eauto; by eapply codes_at_ext|lia].
Qed.
(** * Definitions *)
Lemma define_tail μ fr ρ1 x k b l v σ j c b0 x0 a p st fuel : consts_ok σ -> store_at [] μ σ -> env_ok μ ρ1 -> μ !! fr = Some (SFrame ρ1) -> μ !! l = None -> val_at σ v j -> defining σ x k b ->
  runsF (prim fuel) (load_program fuel) fuel need L_eval_apply (MS σ (Loc fr) j (Imp k) (Imp cell_vm_eval_define) (frame c b0 x0 a p st)) L_eval_apply
    (returned (<[fr := SFrame (EBind x l ρ1)]> (<[l := SVar x v]> μ)) v_unspecified σ a b0 c st) .
Proof.
  intros C S Eo Hfr Hl V Hd.
  eapply (runsF_bind (defs := defs)); [apply (runs_dispatch _ _ _ _ _ cell_vm_eval_define L_eval_define); [reflexivity|kc]|lia|].
  eapply runsF_seq; [by eapply (runsF_eval_define (GE := GE) _ _ _ _ _ μ fr ρ1 σ j x k b _ _ l v)|lia|]. intros M (σ1 & -> & X1 & S1).
  eapply (runsF_of (defs := defs)). eapply runsP_le; [apply ret_runs; [done|done|]|lia]. apply const_at; [by eapply consts_ok_ext|kc].
Qed.
Lemma eval_define d fr μ x e l0 μ1 v ρ1 l : defs = true -> μ !! l0 = None ->
  evalM d (EBind x l0 (EFrame fr)) (<[l0 := SVar x (VAtom x)]> μ) e μ1 v -> μ1 !! fr = Some (SFrame ρ1) -> μ1 !! l = None ->
  evalM (S d) (EFrame fr) μ (EDefine x e) (<[fr := SFrame (EBind x l ρ1)]> (<[l := SVar x v]> μ1)) v_unspecified.
Proof.
  intros Hdf0 Hl0 H Hfr1 Hl Eo So. assert (negb defs = false) as Hdf by by rewrite Hdf0. clear Hdf0. inversion Eo as [| | |? ρ0 Hfr Eo0]; subst.
  pose proof (store_le_new μ l0 (SVar x (VAtom x)) Hl0) as L0.
  destruct H as (L1 & S1 & HN). { eapply eo_bind; [apply lookup_insert|]. by eapply env_ok_le. } { by apply store_ok_new. }
  assert (env_ok μ1 ρ1) as Eo1.
  { assert (env_ok μ1 (EFrame fr)) as E. { eapply env_ok_le; [exact L1|]. by eapply env_ok_le. } inversion E as [| | |? ρ2 Hf2 E2]; subst. congruence. }
  assert (store_le (<[l := SVar x v]> μ1) (<[fr := SFrame (EBind x l ρ1)]> (<[l := SVar x v]> μ1))) as L3.
  { eapply store_le_frame; [rewrite lookup_insert_ne by congruence; exact Hfr1|apply lookup_insert]. }
  pose proof (store_le_new μ1 l (SVar x v) Hl) as L2.
  split. { eapply store_le_trans; [exact L0|]. eapply store_le_trans; [exact L1|]. by eapply store_le_trans. }
  split. { apply store_ok_put; [by apply store_ok_new|done|done]. }
  intros fuel σ r0 i r2 r3 c b x0 a p st C Hc He S Hroom.
  inversion Hc as [| | | | | | | | |? ? ? ie Hil Hx Hie| | |]; subst. inversion He; subst.
  assert (exists k, i = Imp k) as (k & ->) by (inversion Hil; subst; by eexists).
  eapply (runsP_inner _ _ _ need 2 _ _ _ _ _ _ (proj1 (negb_false_iff _) Hdf)); [lia| |].
  { intros f vv s R En. eapply (wp_define_var _ _ _ _ _ f vv s μ fr ρ0 σ k x ie r2 r3 _ l0 R En); try done. cbn in *; lia. }
  intros M (σ1 & i0 & -> & X1 & S1' & He1).
  eapply runsF_seq; [apply (runsF_of (defs := defs)); eapply HN; [by eapply consts_ok_ext|by eapply code_at_ext|exact He1|exact S1'|cbn in *; lia]|lia|].
  intros M (σ2 & j & -> & X2 & S2' & V). assert (ext σ σ2) as X by by eapply ext_trans.
  assert (consts_ok σ2) as C2 by by eapply consts_ok_ext.
  inversion Hil as [|? ? d0 ? Ho0 Hl1]; subst. inversion Hl1 as [|k1 ? d1 ? Ho1 Hl2]; subst.
  eapply runsF_mono; [eapply (define_tail μ1 fr ρ1 x k _ l v σ2); eauto; eapply defining_ext; [exact X|]|intros M HM; eapply returned_ext; [exact X|exact HM]].
  by eapply defining_var.
Qed.
Lemma eval_defun d fr μ x xs r bd bs μ1 ρ1 lc l : defs = true -> (length xs <= width)%nat ->
  bind_args (x :: xs ++ opt_list r) None (map VAtom (x :: xs ++ opt_list r)) μ bs μ1 ->
  μ1 !! fr = Some (SFrame ρ1) -> μ1 !! lc = None -> μ1 !! l = None -> l <> lc ->
  evalM (S d) (EFrame fr) μ (EDefun x xs r bd) (<[fr := SFrame (EBind x l ρ1)]> (<[l := SVar x (VLoc lc)]> (<[lc := SClo xs r bd (extend bs (EFrame fr))]> μ1))) v_unspecified.
Proof.
  intros Hdf0 Hxs Hb Hfr1 Hlc Hl Hne Eo So. assert (negb defs = false) as Hdf by by rewrite Hdf0. clear Hdf0. inversion Eo as [| | |? ρ0 Hfr Eo0]; subst.
  destruct (bind_args_ok _ _ _ _ _ _ Hb So) as (L0 & S1 & V1).
  assert (env_ok μ1 (EFrame fr)) as Eo1 by by eapply env_ok_le.
  assert (env_ok μ1 ρ1) as Eo1'. { inversion Eo1 as [| | |? ρ2 Hf2 E2]; subst. congruence. }
  assert (env_ok μ1 (extend bs (EFrame fr))) as Eo2 by by apply env_ok_extend.
  set (μ2 := <[lc := SClo xs r bd (extend bs (EFrame fr))]> μ1).
  assert (store_le μ1 μ2) as L1 by by apply store_le_new.
  assert (store_ok μ2) as S2. { apply store_ok_new; [done|done|]. intros ? ? ? ? [= <- <- <- <-]. done. }
  assert (μ2 !! l = None) as Hl2. { unfold μ2. by rewrite lookup_insert_ne. }
  assert (μ2 !! fr = Some (SFrame ρ1)) as Hfr2. { unfold μ2. rewrite lookup_insert_ne; [done|]. congruence. }
  assert (store_le μ2 (<[l := SVar x (VLoc lc)]> μ2)) as L2 by by apply store_le_new.
  assert (store_le (<[l := SVar x (VLoc lc)]> μ2) (<[fr := SFrame (EBind x l ρ1)]> (<[l := SVar x (VLoc lc)]> μ2))) as L3.
  { eapply store_le_frame; [rewrite lookup_insert_ne by congruence; exact Hfr2|apply lookup_insert]. }
  split. { eapply store_le_trans; [exact L0|]. eapply store_le_trans; [exact L1|]. by eapply store_le_trans. }
  split. { apply store_ok_put; [by apply store_ok_new|done|done]. }
  intros fuel σ r0 i r2 r3 c b x0 a p st C Hc He S Hroom.
  inversion Hc as [| | | | | | | | | |? ? ? ? k k' k2 fm bi Ho Ho1 Ho2 Hx Hfm Hbd| |]; subst. inversion He; subst.
  eapply (runsP_inner _ _ _ need (2 * Z.of_nat (length xs) + 6) _ _ _ _ _ _ (proj1 (negb_false_iff _) Hdf)); [lia| |].
  { intros f vv s R En. eapply (wp_define_fun _ _ _ _ _ f vv s μ fr ρ0 σ k k' k2 x xs r fm bi r2 r3 _ bs μ1 bd R En); try done. cbn in *; lia. }
  intros M (σ1 & i0 & il & -> & X1 & S1' & He1 & Hlam). pose proof (consts_ok_ext _ _ X1 C) as C1.
  eapply runsF_seq; [apply (runsF_of (defs := defs)); by eapply (lam_runs fuel _ μ1 xs r bd lc)|lia|]. intros M (σ2 & -> & X2 & S2').
  eapply (runsF_bind (defs := defs)); [apply runs_return|lia|].
  assert (ext σ σ2) as X by by eapply ext_trans. assert (consts_ok σ2) as C2 by by eapply consts_ok_ext.
  eapply runsF_mono; [eapply (define_tail μ2 fr ρ1 x k _ l (VLoc lc) σ2); eauto|intros M HM; eapply returned_ext; [exact X|exact HM]].
  - by eapply env_ok_le.
  - done.
  - eapply defining_ext; [exact X|]. by eapply defining_fun.
Qed.
Lemma apply_prim_M d μ l p n vs μ1 v : μ !! l = Some (SPrim p n) -> n = -1 \/ n = Z.of_nat (length vs) -> prim_ok p n vs μ μ1 v ->
  applyM d μ (VLoc l) vs μ1 v.
Proof.
  intros Hl Hn Hok So. destruct (Hok So) as (L & So1 & Hn3 & js & N & J & [HN HN8] & Hrun). split; [done|]. split; [done|]. exists l, (SPrim p n). split; [done|]. split; [done|]. split; [right; by eexists _, _|].
  exists js. split; [done|].
  intros fuel σ r0 i ai r2 r3 c b x a pp st C Ho Hal S Hroom.
  eapply runsP_seq; [by eapply (runs_apply_prim _ _ fuel _ _ p n vs μ μ1 v js N (Hrun fuel))|lia|]. intros M (σ' & j & -> & X & V & S'). eapply runsP_le; [by apply ret_runs|lia].
Qed.

(** * The induction *)
Lemma store_list_frame ls : forall vs μ μ1 v (ν : store), store_list ls vs μ = Some (μ1, v) -> μ1 ##ₘ ν ->
  store_list ls vs (μ ∪ ν) = Some (μ1 ∪ ν, v).
Proof.
  induction ls as [|l ls IH]; intros [|v vs] μ μ1 u ν H D; cbn in H |- *; try done.
  - by injection H as <- <-.
  - destruct (store_list ls vs μ) as [[μ' d]|] eqn:E; [|done]. case_decide as Hl; [|done]. injection H as <- <-.
    apply map_disjoint_insert_l in D as [Hn D]. rewrite (IH vs μ μ' d ν E D). rewrite decide_True by (by rewrite lookup_union_None). by rewrite insert_union_l.
Qed.
Lemma store_list_dom ls : forall vs μ μ1 v, store_list ls vs μ = Some (μ1, v) -> dom_le μ μ1.
Proof.
  intros vs μ μ1 v H l Hl. destruct (μ !! l) as [o|] eqn:E; [|done]. destruct (store_list_fresh _ _ _ _ _ H) as (_ & _ & _ & H4). rewrite (H4 _ _ E) in Hl. done.
Qed.
Lemma bind_args_frame xs r vs μ ρ1 μ1 : bind_args xs r vs μ ρ1 μ1 -> dom_le μ μ1 /\ forall ν : store, μ1 ##ₘ ν -> bind_args xs r vs (μ ∪ ν) ρ1 (μ1 ∪ ν).
Proof.
  induction 1 as [μ|r vs ls l μ μ1 v Hsl Hl|x xs r v vs l μ ρ1 μ1 Hl Hb [D IH]].
  - split; [apply dom_le_refl|]. intros ν Dj. constructor.
  - split; [eapply dom_le_trans; [by eapply store_list_dom|apply dom_le_insert]|]. intros ν Dj. apply map_disjoint_insert_l in Dj as [Hn Dj].
    rewrite <- insert_union_l. econstructor; [by apply store_list_frame|]. by rewrite lookup_union_None.
  - split; [eapply dom_le_trans; [apply dom_le_insert|exact D]|]. intros ν Dj. pose proof (dom_le_disjoint _ _ _ D Dj) as Dj'.
    apply map_disjoint_insert_l in Dj' as [Hn _]. constructor; [by rewrite lookup_union_None|]. rewrite insert_union_l. by apply IH.
Qed.
Lemma finds_union gs μ (ν : store) x ρ l : finds gs μ x ρ l -> finds gs (μ ∪ ν) x ρ l.
Proof. induction 1; econstructor; eauto. by apply lookup_union_Some_l. Qed.
Lemma closure_env_union μ (ν : store) ρ ρ' : closure_env μ ρ = Some ρ' -> closure_env (μ ∪ ν) ρ = Some ρ'.
Proof.
  destruct ρ as [| | |f]; cbn; try done. destruct (μ !! f) as [o|] eqn:E; [|done]. by rewrite (lookup_union_Some_l μ ν f o E).
Qed.
Lemma var_value_union ρ μ (ν : store) f v : var_value ρ μ f v -> var_value ρ (μ ∪ ν) f v.
Proof.
  destruct f; cbn; try done.
  - intros (l & H1 & H2 & H3). exists l. split; [by apply finds_union|]. split; [by apply lookup_union_Some_l|done].
  - intros (x & H). exists x. by apply lookup_union_Some_l.
Qed.
Context (prim_sem : Z -> Z -> list val -> store -> store -> val -> Prop).
Hypothesis prim_sound : forall p n vs μ μ1 v, prim_sem p n vs μ μ1 v -> prim_ok p n vs μ μ1 v.
(** objects a primitive is not given do not matter to it *)
Hypothesis prim_frame : forall p n vs μ μ1 v, prim_sem p n vs μ μ1 v ->
  dom_le μ μ1 /\ forall ν, μ1 ##ₘ ν -> prim_sem p n vs (μ ∪ ν) (μ1 ∪ ν) v.

Notation framed μ μ' P := (dom_le μ μ' /\ forall ν, μ' ##ₘ ν -> P (μ ∪ ν) (μ' ∪ ν)).
Lemma eval_all :
  (forall d ρ μ e μ' v, eval width prim_sem (ge_vars GE) defs d ρ μ e μ' v -> framed μ μ' (fun μ μ' => P_eval d ρ μ e μ' v)) /\
  (forall d ρ μ es μ' vs, args width prim_sem (ge_vars GE) defs d ρ μ es μ' vs -> framed μ μ' (fun μ μ' => argsM d ρ μ es μ' vs)) /\
  (forall d ρ μ es μ' v, body width prim_sem (ge_vars GE) defs d ρ μ es μ' v -> framed μ μ' (fun μ μ' => P_body d ρ μ es μ' v)) /\
  (forall d μ fv vs μ' v, apply width prim_sem (ge_vars GE) defs d μ fv vs μ' v -> framed μ μ' (fun μ μ' => applyM d μ fv vs μ' v)) /\
  (forall d μ xs r bd ρ vs μ' v, call width prim_sem (ge_vars GE) defs d μ xs r bd ρ vs μ' v -> framed μ μ' (fun μ μ' => callM d μ xs r bd ρ vs μ' v)).
Proof.
  apply eval_all_ind.
  - intros d ρ μ v. split; [apply dom_le_refl|]. intros ν Dj. split; [|done]. intros Eo So. split; [apply store_le_refl|]. split; [done|]. intros fuel σ r0 i r2 r3 c b x a p st C Hc He S Hroom.
    eapply runsP_bind; [by apply (runs_eval_const _ _ _ _ _ _ _ _ _ _ _ v)|lia|]. apply ret_runs; [done|done|]. by inversion Hc.
  - intros d ρ μ v. split; [apply dom_le_refl|]. intros ν Dj. split; [|done]. intros Eo So. split; [apply store_le_refl|]. split; [done|]. intros fuel σ r0 i r2 r3 c b x a p st C Hc He S Hroom.
    inversion Hc as [|? ? q Hl Hv| | | | | | | | | | |]; subst. eapply runsP_le; [eapply runsP_of; [by apply runs_eval_quote|]|lia]. by exists σ, q.
  - intros d ρ μ f v Hv. split; [apply dom_le_refl|]. intros ν Dj. split; [apply var_eval; by apply var_value_union|]. intros es ->. done.
  - intros d ρ μ c t e μ1 v1 μ2 v _ [D1 H1] Hv _ [D2 H2]. split; [by eapply dom_le_trans|]. intros ν Dj. split; [|done].
    destruct (H2 ν Dj) as [H2' _]. destruct (H1 ν (dom_le_disjoint _ _ _ D2 Dj)) as [H1' _]. by eapply eval_if_true.
  - intros d ρ μ c t e μ1 μ2 v _ [D1 H1] _ [D2 H2]. split; [by eapply dom_le_trans|]. intros ν Dj. split; [|done].
    destruct (H2 ν Dj) as [H2' _]. destruct (H1 ν (dom_le_disjoint _ _ _ D2 Dj)) as [H1' _]. by eapply eval_if_false.
  - intros d ρ μ c t μ1 v1 μ2 v _ [D1 H1] Hv _ [D2 H2]. split; [by eapply dom_le_trans|]. intros ν Dj. split; [|done].
    destruct (H2 ν Dj) as [H2' _]. destruct (H1 ν (dom_le_disjoint _ _ _ D2 Dj)) as [H1' _]. by eapply eval_when_true.
  - intros d ρ μ c t μ1 _ [D1 H1]. split; [done|]. intros ν Dj. split; [|done]. destruct (H1 ν Dj) as [H1' _]. by eapply eval_when_false.
  - intros d ρ μ xs r bd l Hl. split; [apply dom_le_insert|]. intros ν Dj. apply map_disjoint_insert_l in Dj as [Hn Dj]. rewrite <- insert_union_l.
    assert ((μ ∪ ν) !! l = None) as Hl' by by rewrite lookup_union_None. clear Hl. revert Hl'. generalize (μ ∪ ν). clear Hn Dj μ ν. intros μ Hl.
    split; [|done]. intros Eo So. split; [by apply store_le_new|]. split; [apply store_ok_new; [done|done|]; by intros ? ? ? ? [= <- <- <- <-]|].
    intros fuel σ r0 i r2 r3 c b x a p st C Hc He S Hroom. eapply runsP_seq; [by eapply (lam_runs fuel ρ μ xs r bd l)|lia|].
    intros M (σ1 & -> & X1 & S1). eapply runsP_le; [by apply ret_runs|lia].
  - intros d ρ μ x e μ1 v l w0 _ [D1 H1] Hl Hm. split; [eapply dom_le_trans; [exact D1|apply dom_le_insert]|]. intros ν Dj.
    apply map_disjoint_insert_l in Dj as [Hn Dj]. rewrite <- insert_union_l. split; [|done]. destruct (H1 ν Dj) as [H1' _]. eapply eval_set; [done|by apply finds_union|by apply lookup_union_Some_l].
  - intros d ρ μ x e μ1 v l w0 _ [D1 H1] Hm. split; [eapply dom_le_trans; [exact D1|apply dom_le_insert]|]. intros ν Dj.
    apply map_disjoint_insert_l in Dj as [Hn Dj]. rewrite <- insert_union_l. split; [|done]. destruct (H1 ν Dj) as [H1' _]. eapply eval_set_global; [done|by apply lookup_union_Some_l].
  - intros d f μ x e l0 μ1 v ρ1 l Hdf Hl0 _ [D1 H1] Hf Hl. split. { eapply dom_le_trans; [apply dom_le_insert|]. eapply dom_le_trans; [exact D1|]. eapply dom_le_trans; apply dom_le_insert. }
    intros ν Dj. apply map_disjoint_insert_l in Dj as [Hnf Dj]. apply map_disjoint_insert_l in Dj as [Hnl Dj]. rewrite <- !insert_union_l. split; [|done].
    destruct (H1 ν Dj) as [H1' _]. pose proof (dom_le_disjoint _ _ _ D1 Dj) as Dj0. apply map_disjoint_insert_l in Dj0 as [Hn0 Dj0]. rewrite <- insert_union_l in H1'.
    eapply eval_define; [done|by rewrite lookup_union_None|exact H1'|by apply lookup_union_Some_l|by rewrite lookup_union_None].
  - intros d f μ x xs r bd bs μ1 lc ρ1 l Hdf Hx Hb Hf Hlc Hl Hne. destruct (bind_args_frame _ _ _ _ _ _ Hb) as [D1 Hb'].
    split. { eapply dom_le_trans; [exact D1|]. eapply dom_le_trans; [apply dom_le_insert|]. eapply dom_le_trans; apply dom_le_insert. }
    intros ν Dj. apply map_disjoint_insert_l in Dj as [Hnf Dj]. apply map_disjoint_insert_l in Dj as [Hnl Dj]. apply map_disjoint_insert_l in Dj as [Hnlc Dj]. rewrite <- !insert_union_l. split; [|done].
    eapply eval_defun; [done|done|by apply Hb'|by apply lookup_union_Some_l|by rewrite lookup_union_None|by rewrite lookup_union_None|done].
  - intros d ρ μ es μ1 v _ [D1 H1]. split; [done|]. intros ν Dj. destruct (H1 ν Dj) as (Hlen & Hne & B0 & BW & BS & BSW). split; [by apply eval_begin|]. intros es' [= <-]. done.
  - intros d ρ μ f es v0 μ1 vs fv μ2 v Hv0 _ [D1 Ha] Hf _ [D2 Hp]. split; [by eapply dom_le_trans|]. intros ν Dj. split; [|done].
    eapply eval_app; [by apply var_value_union|apply Ha; by eapply dom_le_disjoint|eapply opO_var; [by apply var_value_union|by apply Hp]].
  - intros d ρ μ xs r bd l es μ1 vs μ2 v Hl _ [D1 Ha] _ [D2 Hp]. split; [eapply dom_le_trans; [apply dom_le_insert|]; by eapply dom_le_trans|].
    intros ν Dj. split; [|done]. pose proof (dom_le_disjoint _ _ _ D2 Dj) as Dj1. pose proof (dom_le_disjoint _ _ _ D1 Dj1) as Dj0.
    apply map_disjoint_insert_l in Dj0 as [Hn Dj0]. eapply (eval_app_lam d ρ (μ ∪ ν) xs r bd l es (μ1 ∪ ν)); [by rewrite lookup_union_None| |by apply opO_lam, Hp].
    rewrite insert_union_l. by apply Ha.
  - intros d ρ μ f es μ0 v0 μ1 vs μ2 fv μ3 v Hcf _ [D0 H0] _ [D1 Ha] _ [D2 H2] _ [D3 Hp].
    split. { eapply dom_le_trans; [exact D0|]. eapply dom_le_trans; [exact D1|]. by eapply dom_le_trans. }
    intros ν Dj3. split; [|done]. pose proof (dom_le_disjoint _ _ _ D3 Dj3) as Dj2. pose proof (dom_le_disjoint _ _ _ D2 Dj2) as Dj1. pose proof (dom_le_disjoint _ _ _ D1 Dj1) as Dj0.
    eapply (eval_app_exp d ρ (μ ∪ ν) f es (μ0 ∪ ν) v0 (μ1 ∪ ν) vs (μ2 ∪ ν) fv); [done|by apply H0|by apply Ha| | |by apply Hp].
    + intros l Hl. apply lookup_union_None in Hl as [Hl Hn]. apply lookup_union_None. split; [by apply D2|done].
    + intros ν' Dj'. rewrite <- !(assoc_L (∪)). apply H2. apply map_disjoint_union_l in Dj' as [Dj' _]. by apply map_disjoint_union_r_2.
  - intros d ρ μ. split; [apply dom_le_refl|]. intros ν Dj. apply args_nil_M.
  - intros d ρ μ e es μ1 v μ2 vs _ [D1 H1] _ [D2 H2]. split; [by eapply dom_le_trans|]. intros ν Dj.
    destruct (H1 ν (dom_le_disjoint _ _ _ D2 Dj)) as [H1' _]. eapply args_cons_M; [exact H1'|by apply H2].
  - intros d ρ μ e μ1 v Hlen _ [D1 H1]. split; [done|]. intros ν Dj. apply P_body_last; [done|by apply H1].
  - intros d ρ μ e e' es μ1 v1 μ2 v Hlen _ [D1 H1] _ [D2 H2]. split; [by eapply dom_le_trans|]. intros ν Dj.
    eapply P_body_cons; [done|apply H1; by eapply dom_le_disjoint|by apply H2].
  - intros d μ l xs r bd ρ ρ' vs μ2 v Hl Hcl _ [D2 H2]. split; [done|]. intros ν Dj.
    eapply apply_clo_O; [by apply lookup_union_Some_l|by apply closure_env_union|by apply H2].
  - intros d μ l p n vs μ1 v Hl Hn Hs. destruct (prim_frame _ _ _ _ _ _ Hs) as [D Hs']. split; [done|]. intros ν Dj.
    eapply apply_prim_M; [by apply lookup_union_Some_l|done|]. apply prim_sound. by apply Hs'.
  - intros d μ xs r bd ρ vs bs μ1 f μ2 v Hx Hb Hf _ [D2 H2]. destruct (bind_args_frame _ _ _ _ _ _ Hb) as [D1 Hb'].
    split. { eapply dom_le_trans; [exact D1|]. eapply dom_le_trans; [apply dom_le_insert|exact D2]. }
    intros ν Dj. destruct (H2 ν Dj) as (Hlen & Hne & _ & BW & _). pose proof (dom_le_disjoint _ _ _ D2 Dj) as Dj1. apply map_disjoint_insert_l in Dj1 as [Hn Dj1].
    rewrite <- insert_union_l in BW. eapply call_O; [by apply Hb'|by rewrite lookup_union_None|done..].
Qed.
Lemma eval_sound d ρ μ e μ' v : eval width prim_sem (ge_vars GE) defs d ρ μ e μ' v -> evalM d ρ μ e μ' v.
Proof.
  intros H. destruct (proj1 eval_all _ _ _ _ _ _ H) as [_ H']. destruct (H' ∅ (map_disjoint_empty_r _)) as [He _]. by rewrite !(right_id_L ∅ (∪)) in He.
Qed.
End evaluator.
End globals.
