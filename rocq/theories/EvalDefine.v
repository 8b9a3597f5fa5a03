(** Definitions inside bodies: one more variable of the frame of the call. *)
From stdpp Require Import base gmap list fin_maps.
From Coq Require Import ZArith Lia.
From Coq Require Import ZifyBool ZifyNat.
From Verif Require Import CInt Symbols Heap HeapLemmas GcModel GcSpec DataModel DataSpec DataLemmas CoreProofs StackModel.
From Verif Require Import EvalModel Rep RepProofs EvalSpec EvalRep EvalLemmas EvalBind EvalSplice EvalRun EvalSteps EvalSteps2 EvalSteps3.
Open Scope Z_scope. Open Scope mes_scope.

Section globals.
Context {GE : genv}.
Notation consts_ok := (consts_ok GE).
Notation store_ok := (store_ok GE).

Section evaluator.
Context {defs : bool}.
Context (prim : Z -> list Z -> M Z) (load_program : Z -> M Z) (fuel : nat).
Notation step := (step GcModel.gc_check prim load_program fuel).
Notation steps := (steps prim load_program fuel).
Notation enough := (enough fuel).
Notation roomy := (roomy prim load_program fuel).
Notation runs := (runs (defs := defs) prim load_program fuel).
Notation runsP := (runsP (defs := defs) prim load_program fuel).
Notation inner := (Locals false false).

(** * Runs between the two steps of a definition *)
Definition runsF (N : Z) (l : label) (M : mst) (l' : label) (P : mst -> Prop) : Prop :=
  0 <= N /\ forall f s, rep f M s -> roomy N l inner s -> exists f' s' M', steps l inner s l' inner s' /\ rep f' M' s' /\ P M'.
Lemma keeps_inner v : keeps defs inner v -> v = inner.
Proof. by intros [->|[_ ->]]. Qed.
Lemma runsF_of N l M l' P : runsP N l M l' P -> runsF N l M l' P.
Proof.
  intros [H0 H]. split; [done|]. intros f s R Hr. destruct (H f inner s R Hr) as (f' & s' & M' & v' & S' & K' & R' & HP).
  apply keeps_inner in K' as ->. by exists f', s', M'.
Qed.
Lemma runsF_seq N N1 l M l1 (P1 : mst -> Prop) l2 P2 : runsF N1 l M l1 P1 -> N1 <= N -> (forall M1, P1 M1 -> runsF N l1 M1 l2 P2) -> runsF N l M l2 P2.
Proof.
  intros [H0 H] Hle H'. split; [lia|]. intros f s R Hr.
  destruct (H f s R) as (f1 & s1 & M1 & S1 & R1 & HP1). { eapply roomy_le; [done|lia]. }
  destruct (H' M1 HP1) as [_ H1]. destruct (H1 f1 s1 R1) as (f2 & s2 & M2 & S2 & R2 & HP2). { by eapply roomy_steps. }
  exists f2, s2, M2. split; [by eapply steps_trans|done].
Qed.
Lemma runsF_bind N N1 l M l1 M1 l2 P2 : runs N1 l M l1 M1 -> N1 <= N -> runsF N l1 M1 l2 P2 -> runsF N l M l2 P2.
Proof. intros H1 HN H2. eapply runsF_seq; [apply runsF_of; eapply runsP_of with (P := fun M => M = M1); [exact H1|done]|done|]. by intros M2 ->. Qed.
Lemma runsF_mono N l M l' (P P' : mst -> Prop) : runsF N l M l' P -> (forall M, P M -> P' M) -> runsF N l M l' P'.
Proof. intros [H0 H] HP. split; [done|]. intros f s R Hr. destruct (H f s R Hr) as (f' & s' & M' & S' & R' & HP'). exists f', s', M'. split; [done|]. split; [done|by apply HP]. Qed.
Lemma runsF_step N l M l' (P : mst -> Prop) : 0 <= N -> (forall f s, rep f M s -> enough N l s ->
    wp (step l inner) s (fun n s' => n = Goto l' inner /\ exists f' M', rep f' M' s' /\ P M')) -> runsF N l M l' P.
Proof.
  intros H0 H. split; [done|]. intros f s R Hr.
  destruct (H f s R) as (n & s' & E & -> & f' & M' & R' & HP). { apply (Hr l inner). constructor. }
  exists f', s', M'. split; [econstructor; [done|constructor]|done].
Qed.
Lemma runsP_inner N N1 l M l1 (P1 : mst -> Prop) l2 P2 : defs = true -> 0 <= N1 <= N ->
  (forall f v s, rep f M s -> enough N1 l s -> wp (step l v) s (fun n s' => n = Goto l1 inner /\ exists f' M', rep f' M' s' /\ P1 M')) ->
  (forall M1, P1 M1 -> runsF N l1 M1 l2 P2) -> runsP N l M l2 P2.
Proof.
  intros Hd HN H H'. split; [lia|]. intros f v s R Hr.
  destruct (H f v s R) as (n & s1 & E & -> & f1 & M1 & R1 & HP1). { destruct (Hr l v s) as [E1 E2 E3 E4]; [constructor|]. split; [lia| |lia|done]. eapply can_alloc_le; [exact E2|lia]. }
  assert (steps l v s l1 inner s1) as S1 by (econstructor; [done|constructor]).
  destruct (H' M1 HP1) as [_ H1]. destruct (H1 f1 s1 R1) as (f2 & s2 & M2 & S2 & R2 & HP2). { by eapply roomy_steps. }
  exists f2, s2, M2, inner. split; [by eapply steps_trans|]. split; [by right|done].
Qed.

Lemma wp_set_cdr_xf f M s (R : rep f M s) i p a d j q (Q : Z -> state -> Prop) : f i p -> m_heap M !! i = Some (opair a d) -> f j q ->
  (forall s', g_free s' = g_free s -> rep f (new_obj i (opair a j) M) s' -> Q cell_unspecified s') -> wp (set_cdr_x fuel p q) s Q.
Proof.
  intros Hp Ho Hq HQ. unfold set_cdr_x. apply wp_bind. eapply (wp_ty _ _ _ R _ _ _ _ _ _ Hp Ho). change (TPAIR =? TPAIR) with true.
  apply wp_bind, wp_ret, wp_bind. destruct (rep_set_cdr f M s i p a d j q R Hp Ho Hq) as (c & E & R'). eapply wp_eq; [exact E|]. apply wp_ret. by apply HQ.
Qed.
Ltac w := first [apply wp_bind | apply wp_ret | apply wp_gets | apply wp_modify].
Ltac regs R := pose proof (rp_r0 _ _ _ R) as HR0; pose proof (rp_r1 _ _ _ R) as HR1;
  pose proof (rp_r2 _ _ _ R) as HR2; pose proof (rp_r3 _ _ _ R) as HR3; cbn in HR0, HR1, HR2, HR3.
Ltac kc := (vm_compute; split; congruence).
Tactic Notation "eval_pair" hyp(R) hyp(H) ident(HR1) ident(c) ident(Hca) ident(Hcd) := cbn [EvalModel.step]; unfold step_eval; regs R; do 4 w; w;
  eapply (wp_rd _ _ _ R _ _ _ _ _ _ HR1 H); let Hc := fresh "Hc" in intros c Hc Hca Hcd; cbn [word_rel] in Hca, Hcd; rewrite Hc;
  change (TPAIR =? TPAIR) with true; cbv iota zeta.
Context (sz : Z) (gl : list id).
Notation MS σ r0 r1 r2 r3 st := (Mst σ r0 r1 r2 r3 st sz gl).
Notation frame c b x a e st := (c :: b :: x :: a :: e :: st).
Notation room st k := (Z.of_nat (length st) + 5 * k <= sz).

(** the name that a definition is for *)
Definition names (σ : oheap) (x : Z) (target : id) : Prop :=
  target = Imp x \/ exists k fm, target = Imp k /\ σ !! Imp k = Some (opair (Imp x) fm).
Lemma names_ext σ σ' x t : ext σ σ' -> names σ x t -> names σ' x t.
Proof. intros E [->|(k & fm & -> & H)]; [by left|]. right. exists k, fm. split; [done|]. by apply E. Qed.
Definition defining (σ : oheap) (x k : Z) (b : id) : Prop :=
  exists k' target, σ !! Imp k = Some (opair (Imp cell_symbol_define) (Imp k')) /\ σ !! Imp k' = Some (opair target b) /\ names σ x target /\ name_ok σ x.
Lemma defining_ext σ σ' x k b : ext σ σ' -> defining σ x k b -> defining σ' x k b.
Proof.
  intros E (k' & t & H1 & H2 & H3 & H4). exists k', t. split; [by apply E|]. split; [by apply E|]. split; [by eapply names_ext|by eapply name_ok_ext].
Qed.
Lemma defining_var σ x k k1 b : σ !! Imp k = Some (opair (Imp cell_symbol_define) (Imp k1)) -> σ !! Imp k1 = Some (opair (Imp x) b) -> name_ok σ x -> defining σ x k b.
Proof. intros H1 H2 H3. exists k1, (Imp x). split; [done|]. split; [done|]. split; [by left|done]. Qed.
Lemma defining_fun σ x k k1 k2 fm b : σ !! Imp k = Some (opair (Imp cell_symbol_define) (Imp k1)) -> σ !! Imp k1 = Some (opair (Imp k2) b) ->
  σ !! Imp k2 = Some (opair (Imp x) fm) -> name_ok σ x -> defining σ x k b.
Proof. intros H1 H2 H3 H4. exists k1, (Imp k2). split; [done|]. split; [done|]. split; [right; by exists k2, fm|done]. Qed.
Lemma name_val σ x : name_ok σ x -> val_at σ (VAtom x) (Imp x).
Proof. intros [(m & dd & Hxo & _) _]. split; [done|]. eexists. split; [exact Hxo|]. cbn. by left. Qed.

(** (define x e) up to the evaluation of e *)
Lemma wp_define_var f v s μ fr ρ1 σ k x ie r2 r3 st l0 : rep f (MS σ (Loc fr) (Imp k) r2 r3 st) s -> enough 2 L_eval s ->
  consts_ok σ -> store_at [] μ σ -> μ !! fr = Some (SFrame ρ1) -> μ !! l0 = None -> ilist σ (Imp k) [Imp cell_symbol_define; Imp x; ie] -> name_ok σ x -> room st 1 ->
  wp (step L_eval v) s (fun n s' => n = Goto L_eval inner /\ exists f' M', rep f' M' s' /\
    exists σ' i0, M' = MS σ' i0 ie (Imp k) r3 (frame (Imp cell_vm_eval_define) (Imp k) (Imp k) (Loc fr) (Imp cell_f) st) /\
      ext σ σ' /\ store_at [] (<[l0 := SVar x (VAtom x)]> μ) σ' /\ env_at σ' (EBind x l0 (EFrame fr)) i0).
Proof.
  intros R En C S Hfr Hl0 Hl Hx Hroom. inversion Hl as [|? ? d ? Ho Hl1]; subst. inversion Hl1 as [|k1 ? d1 ? Ho1 Hl2]; subst. inversion Hl2 as [|k2 ? d2 ? Ho2 Hl3]; subst.
  destruct (sa_obj _ _ _ S _ _ Hfr) as (kk & de & we & Hfo & Hko & Hde).
  eval_pair R Ho HR1 cl Hca Hcd. rewrite (const_val _ _ _ R _ _ Hca) by kc.
  match goal with |- wp ?m _ _ => change m with (step_define fuel) end. unfold step_define. w. w. w. w.
  w. eapply (wp_car_of _ _ _ R _ _ _ _ _ _ HR1 Ho). intros op Hop. assert (op = cell_symbol_define) as -> by (eapply const_val; [exact R|exact Hop|kc]).
  w. eapply (wp_car_of _ _ _ R _ _ _ _ _ _ HR0 Hfo). intros e0 He0. w. eapply (wp_car_of _ _ _ R _ _ _ _ _ _ He0 Hko). intros kc0 Hkc0.
  rewrite (eqc _ _ _ R _ _ _ Hkc0) by (done || kc). cbn [negb]. cbv zeta.
  w. eapply (wp_cdr_of _ _ _ R _ _ _ _ _ _ HR1 Ho). intros dp Hdp. w. eapply (wp_car_of _ _ _ R _ _ _ _ _ _ Hdp Ho1). intros tp Htp.
  pose proof Hx as [(m & dd & Hxo & _) _]. w. eapply (wp_ty _ _ _ R _ _ _ _ _ _ Htp Hxo). change (TSYMBOL =? TPAIR) with false. cbn [negb]. cbv iota.
  w. w. w. w.
  pose proof (rep_set_R2 _ _ _ _ _ R HR1) as R'. set (s0 := set_R2 _ _) in *.
  w. eapply (wp_cdr_of _ _ _ R' _ _ _ _ _ _ Hdp Ho1). intros ddp Hddp. w. eapply (wp_car_of _ _ _ R' _ _ _ _ _ _ Hddp Ho2). intros ep Hep.
  assert (σ !! Loc l0 = None) as Fl by (apply (sa_free _ _ _ S); [done|]; intros Hin; by apply elem_of_nil in Hin).
  pose proof (en_alloc _ _ _ _ En) as Ha. assert (can_alloc 2 s0) as Ha0 by exact Ha.
  w. eapply (wp_cons _ _ _ R' (Loc l0) (Imp x) (Imp x)); [by eapply can_alloc_le; [exact Ha0|lia]|done|done|done|].
  intros f1 q1 s1 (G1 & A1 & _) Hq1 R1. specialize (A1 1 Ha0). cbn [m_heap new_obj with_r2] in *.
  destruct (fresh_imp (<[Loc l0 := opair (Imp x) (Imp x)]> σ)) as (ke & Hke).
  w. eapply (wp_cons _ _ _ R1 (Imp ke) (Loc l0) (Loc fr)); [exact A1|exact Hke|done|by apply G1|].
  intros f2 q2 s2 (G2 & _) Hq2 R2.
  w. eapply (wp_push_cc _ _ _ R2 ie (Imp k) (Imp ke) (Imp cell_vm_eval_define)); [cbn; lia|by apply G2, G1|by apply G2, G1|done|eapply rep_const; [exact R2|kc]|].
  intros s3 R3. w. split; [done|]. exists f2. eexists. split; [exact R3|]. cbn.
  exists (<[Imp ke := opair (Loc l0) (Loc fr)]> (<[Loc l0 := opair (Imp x) (Imp x)]> σ)), (Imp ke). split; [done|].
  assert (ext σ (<[Imp ke := opair (Loc l0) (Loc fr)]> (<[Loc l0 := opair (Imp x) (Imp x)]> σ))) as X.
  { eapply ext_trans; [apply ext_loc|by apply ext_new]. }
  split; [exact X|]. split; [|eapply env_bind; [by rewrite lookup_insert|constructor]].
  apply store_at_imp; [|done]. apply store_at_put; [done|]. exists (Imp x). rewrite lookup_insert. split; [done|].
  eapply val_at_ext; [apply ext_loc|by apply name_val].
Qed.
(** (define (x . formals) . body) up to the evaluation of the lambda expression *)
Lemma wp_define_fun f v s μ fr ρ1 σ k k' k2 x xs r fm b r2 r3 st bs μ1 bd : rep f (MS σ (Loc fr) (Imp k) r2 r3 st) s -> enough (2 * Z.of_nat (length xs) + 6) L_eval s ->
  consts_ok σ -> store_at [] μ σ -> μ !! fr = Some (SFrame ρ1) ->
  bind_args (x :: xs ++ opt_list r) None (map VAtom (x :: xs ++ opt_list r)) μ bs μ1 ->
  σ !! Imp k = Some (opair (Imp cell_symbol_define) (Imp k')) -> σ !! Imp k' = Some (opair (Imp k2) b) -> σ !! Imp k2 = Some (opair (Imp x) fm) ->
  name_ok σ x -> names_at σ xs r fm -> codes_at σ bd b -> room st 1 ->
  wp (step L_eval v) s (fun n s' => n = Goto L_eval inner /\ exists f' M', rep f' M' s' /\
    exists σ' i0 il, M' = MS σ' i0 il (Imp k) r3 (frame (Imp cell_vm_eval_define) (Imp k) il (Loc fr) (Imp cell_f) st) /\
      ext σ σ' /\ store_at [] μ1 σ' /\ env_at σ' (extend bs (EFrame fr)) i0 /\ code_at σ' (ELam xs r bd) il).
Proof.
  intros R En C S Hfr Hb Ho Ho1 Ho2 Hx Hnames Hbd Hroom.
  destruct (sa_obj _ _ _ S _ _ Hfr) as (kk & de & we & Hfo & Hko & Hde).
  eval_pair R Ho HR1 cl Hca Hcd. rewrite (const_val _ _ _ R _ _ Hca) by kc.
  match goal with |- wp ?m _ _ => change m with (step_define fuel) end. unfold step_define. w. w. w. w.
  w. eapply (wp_car_of _ _ _ R _ _ _ _ _ _ HR1 Ho). intros op Hop. assert (op = cell_symbol_define) as -> by (eapply const_val; [exact R|exact Hop|kc]).
  w. eapply (wp_car_of _ _ _ R _ _ _ _ _ _ HR0 Hfo). intros e0 He0. w. eapply (wp_car_of _ _ _ R _ _ _ _ _ _ He0 Hko). intros kc0 Hkc0.
  rewrite (eqc _ _ _ R _ _ _ Hkc0) by (done || kc). cbn [negb]. cbv zeta.
  w. eapply (wp_cdr_of _ _ _ R _ _ _ _ _ _ HR1 Ho). intros dp Hdp. w. eapply (wp_car_of _ _ _ R _ _ _ _ _ _ Hdp Ho1). intros tp Htp.
  w. eapply (wp_ty _ _ _ R _ _ _ _ _ _ Htp Ho2). change (TPAIR =? TPAIR) with true. cbn [negb]. cbv iota.
  w. w. w. w.
  pose proof (rep_set_R2 _ _ _ _ _ R HR1) as R'. set (s0 := set_R2 _ _) in *.
  pose proof (en_alloc _ _ _ _ En) as Ha. assert (can_alloc (2 * Z.of_nat (length xs) + 6) s0) as Ha0 by exact Ha.
  w. eapply (wp_pairlis_self (x :: xs) r μ bs μ1 Hb fuel f _ s0 (Imp k2) tp (Loc fr) (R0 s) (EFrame fr)); [exact R'|exact C|exact Htp|by econstructor|exact HR0|constructor|exact S|..].
  { eapply can_alloc_le; [exact Ha0|cbn [length]; lia]. }
  { destruct En as [_ _ En _]. destruct Ha as (Ha1 & _). cbn [length]. lia. }
  intros f1 q i0 s1 σ1 R1 G1 Hq Sub1 S1 Henv [Sh1 Fr1]. cbn in Sub1.
  assert (can_alloc 2 s1) as Ha1. { apply Sh1. eapply can_alloc_le; [exact Ha0|cbn [length]; lia]. }
  w. eapply (wp_cdr_of _ _ _ R1 _ _ _ _ _ _ (G1 _ _ Htp)); [cbn; by eapply lookup_weaken|]. intros fmp Hfmp.
  w. eapply (wp_cdr_of _ _ _ R1 _ _ _ _ _ _ (G1 _ _ Hdp)); [cbn; by eapply lookup_weaken|]. intros bp Hbp. cbn [orb]. change (cell_symbol_define =? cell_symbol_define_macro) with false. cbn [orb]. cbv iota. w. w.
  destruct (fresh_imp σ1) as (k3 & F3). w. eapply (wp_cons _ _ _ R1 (Imp k3) fm b); [by eapply can_alloc_le; [exact Ha1|lia]|exact F3|done|done|].
  intros f3 q3 s3 (G3 & A3 & _) Hq3 R3. specialize (A3 1 Ha1). cbn [m_heap new_obj with_heap with_r2] in *.
  destruct (fresh_imp (<[Imp k3 := opair fm b]> σ1)) as (k4 & F4). w. eapply (wp_cons _ _ _ R3 (Imp k4) (Imp cell_symbol_lambda) (Imp k3)); [exact A3|exact F4|eapply rep_const; [exact R3|kc]|done|].
  intros f4 q4 s4 (G4 & _) Hq4 R4. w. w. pose proof (rep_set_R1 _ _ _ _ _ R4 Hq4) as R5.
  w. eapply (wp_push_cc _ _ _ R5 (Imp k4) (Imp k) i0 (Imp cell_vm_eval_define)); [cbn; lia|done|by apply G4, G3, G1|by apply G4, G3|eapply rep_const; [exact R5|kc]|].
  intros s6 R6. w. split; [done|]. exists f4. eexists. split; [exact R6|]. cbn.
  set (σ2 := <[Imp k4 := opair (Imp cell_symbol_lambda) (Imp k3)]> (<[Imp k3 := opair fm b]> σ1)).
  assert (σ1 ⊆ σ2) as Sub2 by (etrans; by apply insert_subseteq).
  assert (k3 <> k4) as N34 by (intros ->; by rewrite lookup_insert in F4).
  exists σ2, i0, (Imp k4). split; [done|]. split; [by apply ext_sub; etrans|]. split; [|split].
  - apply store_at_imp; [|done]. by apply store_at_imp.
  - eapply env_at_ext; [by apply ext_sub|done].
  - assert (ext σ σ2) as X by (apply ext_sub; by etrans). eapply co_lam; [unfold σ2; by rewrite lookup_insert|unfold σ2; rewrite lookup_insert_ne by congruence; by rewrite lookup_insert|by eapply names_at_ext|by eapply codes_at_ext].
Qed.
(** the new variable *)
Lemma runsF_eval_define μ fr ρ1 σ j x k b r3 st l v : consts_ok σ -> store_at [] μ σ -> env_ok μ ρ1 -> μ !! fr = Some (SFrame ρ1) -> μ !! l = None -> val_at σ v j ->
  defining σ x k b ->
  runsF 2 L_eval_define (MS σ (Loc fr) j (Imp k) r3 st) L_vm_return
    (fun M => exists σ', M = MS σ' (Loc fr) (Imp cell_unspecified) (Imp k) r3 st /\ ext σ σ' /\
       store_at [] (<[fr := SFrame (EBind x l ρ1)]> (<[l := SVar x v]> μ)) σ').
Proof.
  intros C S Eo Hfr Hl V (k' & t & Ho & Ho1 & Ht & Hx). apply runsF_step; [lia|]. intros f s R En.
  destruct (sa_obj _ _ _ S _ _ Hfr) as (kk & de & we & Hfo & Hko & Hde).
  cbn [EvalModel.step]. unfold step_eval_define. regs R. do 6 w.
  w. eapply (wp_cdr_of _ _ _ R _ _ _ _ _ _ HR2 Ho). intros dp Hdp. w. eapply (wp_car_of _ _ _ R _ _ _ _ _ _ Hdp Ho1). intros tp Htp.
  assert (forall Q : Z -> state -> Prop, (forall xp, f (Imp x) xp -> Q xp s) -> wp (t0 <- ty tp ;; if t0 =? TPAIR then car_of tp else ret tp) s Q) as Hname.
  { intros Q HQ. destruct Ht as [->|(k2 & fm & -> & Ho2)].
    - pose proof Hx as [(m & dd & Hxo & _) _]. w. eapply (wp_ty _ _ _ R _ _ _ _ _ _ Htp Hxo). change (TSYMBOL =? TPAIR) with false. cbv iota. w. by apply HQ.
    - w. eapply (wp_ty _ _ _ R _ _ _ _ _ _ Htp Ho2). change (TPAIR =? TPAIR) with true. cbv iota. eapply (wp_car_of _ _ _ R _ _ _ _ _ _ Htp Ho2). intros xp Hxp. by apply HQ. }
  match goal with |- wp (bind (ty tp) (fun t0 => bind _ ?rest)) _ ?Q =>
    destruct (Hname (fun xp s' => wp (rest xp) s' Q)) as (xp & s' & E & HW) end.
  2:{ unfold wp. destruct (ty tp s) as [t0 s0| | | |] eqn:Ety; unfold bind in E |- *; rewrite Ety in E |- *; try done.
      destruct HW as (a & s'' & E' & HQ). exists a, s''. split; [|done]. rewrite E. exact E'. }
  intros xp0 Hxp0. clear xp s' E HW || idtac. cbn [macro_p global_p]. cbv iota.
  assert (σ !! Loc l = None) as Fl by (apply (sa_free _ _ _ S); [done|]; intros Hin; by apply elem_of_nil in Hin).
  pose proof (en_alloc _ _ _ _ En) as Ha.
  w. w. eapply (wp_cons _ _ _ R (Loc l) (Imp x) j); [by eapply can_alloc_le; [exact Ha|lia]|done|done|done|].
  intros f1 q1 s1 (G1 & A1 & F1 & _) Hq1 R1. specialize (A1 1 Ha). cbn [m_heap new_obj] in *. set (σ1 := <[Loc l := opair (Imp x) j]> σ) in *.
  destruct (fresh_imp σ1) as (ke & Hke). w. eapply (wp_cons _ _ _ R1 (Imp ke) (Loc l) (Imp cell_nil)); [exact A1|exact Hke|done|eapply rep_const; [exact R1|kc]|].
  intros f2 q2 s2 (G2 & _ & F2 & _) Hq2 R2. cbn [m_heap new_obj] in *.
  assert (fr <> l) as Nfl by congruence.
  assert (<[Imp ke:=opair (Loc l) (Imp cell_nil)]> σ1 !! Loc fr = Some (opair (Key kk) de)) as Hfo2.
  { rewrite lookup_insert_ne by done. unfold σ1. by rewrite lookup_insert_ne by congruence. }
  w. eapply (wp_cdr _ _ _ R2 _ _ _ _ _ (G2 _ _ (G1 _ _ HR0)) Hfo2). intros rp Hrp.
  w. eapply (wp_set_cdr_xf _ _ _ R2 _ _ _ _ _ _ _ Hq2); [apply lookup_insert|exact Hrp|]. intros s3 Fr3 R3. unfold new_obj, with_heap in R3. cbn [m_heap m_r0 m_r1 m_r2 m_r3 m_stk m_size m_glob] in R3. rewrite insert_insert in R3.
  set (σ2 := <[Imp ke := opair (Loc l) de]> σ1) in *.
  w. eapply (wp_set_cdr_xf _ _ _ R3 (Loc fr) _ (Key kk) de (Imp ke) _ _ (G2 _ _ (G1 _ _ HR0))); [cbn; unfold σ2; rewrite lookup_insert_ne by done; unfold σ1; by rewrite lookup_insert_ne by congruence|exact Hq2|].
  intros s4 Fr4 R4. unfold new_obj, with_heap in R4. cbn [m_heap m_r0 m_r1 m_r2 m_r3 m_stk m_size m_glob] in R4. set (σ3 := <[Loc fr := opair (Key kk) (Imp ke)]> σ2) in *.
  assert (ext σ σ3) as X3. { eapply ext_trans; [apply ext_loc|]. eapply ext_trans; [by apply ext_new|apply ext_loc]. }
  assert (σ3 !! Key kk = Some (opair (Imp cell_closure) we)) as Hk3. { unfold σ3, σ2, σ1. by rewrite !lookup_insert_ne by done. }
  set (μ2 := <[fr := SFrame (EBind x l ρ1)]> (<[l := SVar x v]> μ)).
  assert (store_at [] μ2 σ3) as S3.
  { apply store_at_put; [apply store_at_imp; [|done]; apply store_at_put; [done|]|].
    - exists j. rewrite lookup_insert. split; [done|]. eapply val_at_ext; [apply ext_loc|done].
    - exists kk, (Imp ke), we. rewrite lookup_insert. split; [done|]. split; [exact Hk3|].
      eapply env_bind; [rewrite lookup_insert_ne by done; unfold σ2; by rewrite lookup_insert|]. by eapply env_at_ext. }
  assert (env_ok μ2 (EFrame fr)) as Eo2.
  { eapply eo_frame; [apply lookup_insert|]. assert (store_le μ μ2) as L.
    { eapply store_le_trans; [by apply (store_le_new μ l (SVar x v))|]. eapply store_le_frame; [rewrite lookup_insert_ne by congruence; exact Hfr|apply lookup_insert]. }
    eapply (eo_bind _ x l v); [unfold μ2; rewrite lookup_insert_ne by done; apply lookup_insert|]. by eapply env_ok_le. }
  pose proof (consts_ok_ext _ _ X3 C) as C3.
  destruct (env_entries (GE := GE) _ _ _ _ S3 Eo2 (Loc fr) ltac:(constructor)) as (es & Hml & _).
  inversion Hml as [|? a3 d3 es3 Hfo3 Hml3]; subst. unfold σ3 in Hfo3. rewrite lookup_insert in Hfo3. injection Hfo3 as <- <-.
  destruct (cst_const _ _ C3 cell_closure) as (tc & nc & dc & Hco & Htc & _); [kc|].
  assert (f2 (Imp cell_closure) cell_closure) as Hcc by (eapply rep_const; [exact R4|kc]).
  assert (g_free s4 <= Z.of_nat fuel) as Hfu.
  { destruct En as [_ _ En _]. lia. }
  w. unfold module_variable. w. eapply (wp_assq_here fuel f2 _ s4 R4 C3 Hfu (Loc fr) _ cell_closure _ (G2 _ _ (G1 _ _ HR0)) Hcc _ _ _ Hco); [tauto|exact (Hml : ml _ _ ([] ++ Key kk :: es3))|constructor|by exists we|].
  intros kp Hkp. rewrite (neqc _ _ _ R4 _ _ cell_f Hkp) by (done || kc). w.
  w. eapply (wp_set_cdr_xf _ _ _ R4 (Key kk) _ (Imp cell_closure) we (Imp ke) _ _ Hkp Hk3 Hq2). intros s5 _ R5. w. w. w. w.
  split; [done|]. exists f2. eexists. split; [refine (rep_set_R1 _ _ _ (Imp cell_unspecified) _ R5 _); eapply rep_const; [exact R5|kc]|].
  exists (<[Key kk := opair (Imp cell_closure) (Imp ke)]> σ3). split; [done|]. split; [eapply ext_trans; [exact X3|apply ext_set_key]|].
  eapply store_at_heap; [exact S3|apply ext_set_key|]. intros l'. by rewrite lookup_insert_ne.
Qed.
End evaluator.
End globals.
