(** C38: arity and argument binding. *)
From stdpp Require Import base gmap list fin_maps.
From Coq Require Import ZArith Lia.
From Coq Require Import ZifyBool ZifyNat.
From Verif Require Import CInt Symbols Heap HeapLemmas GcModel GcSpec DataModel BootModel Builtins DataSpec DataLemmas CoreProofs StringProofs HashProofs ArrayProofs StackModel EvalModel.
From Verif Require Import PrimModel Samples PropsEval.
Import Strings.String.StringSyntax.
Open Scope Z_scope. Open Scope mes_scope.

(** ** Specification *)
(** [p] is the formals list of the symbols [xs], with the rest formal [r] if there is one:
    [(x1 x2)], [(x1 x2 . r)] or just [r] *)
Inductive formals_at (h : gmap Z cell) : Z -> list Z -> option Z -> Prop :=
| fa_nil : formals_at h cell_nil [] None
| fa_rest r : r <> cell_nil -> type_at h r TSYMBOL -> formals_at h r [] (Some r)
| fa_cons p x d xs r : p <> cell_nil -> pair_at h p x d -> formals_at h d xs r -> formals_at h p (x :: xs) r.
(** [p] is an association list that starts with the bindings [b] and goes on with [a] *)
Inductive binds_at (h : gmap Z cell) (a : Z) : Z -> list (Z * Z) -> Prop :=
| ba_nil : binds_at h a a []
| ba_cons p e x v d b : pair_at h p e d -> pair_at h e x v -> binds_at h a d b -> binds_at h a p ((x, v) :: b).
(** the bindings of a call: each formal with its argument, the rest formal with the list of the others *)
Definition call_bindings (h : gmap Z cell) (xs : list Z) (r : option Z) (vs : list Z) (b : list (Z * Z)) : Prop :=
  match r with
  | None => b = zip xs vs
  | Some r => exists l, list_at h l (drop (length xs) vs) /\ b = zip xs (take (length xs) vs) ++ [(r, l)]
  end.
(** the number of arguments fits *)
Definition fits (xs : list Z) (r : option Z) (vs : list Z) : Prop :=
  match r with None => length vs = length xs | Some _ => (length xs <= length vs)%nat end.
(** [f] is a closure with these formals and body; [env] is the environment it continues with *)
Definition closure_at (h : gmap Z cell) (f formals body env : Z) : Prop :=
  exists cl ca cd k a e, (exists c, h !! f = Some c /\ c_ty c = TCLOSURE /\ c_cdr c = cl)
    /\ pair_at h cl ca cd /\ pair_at h cd formals body /\ pair_at h ca k a /\ pair_at h a e env.

(** ** Proofs *)
Lemma formals_at_mono h h' p xs r : h ⊆ h' -> formals_at h p xs r -> formals_at h' p xs r.
Proof.
  intros Hs H. induction H as [|r Hr Ht|p x d xs r Hp Hpa _ IH]; [constructor| |].
  - constructor; [done|]. by eapply type_at_mono.
  - econstructor; [done|by eapply pair_at_mono|done].
Qed.
Lemma binds_at_mono h h' a p b : h ⊆ h' -> binds_at h a p b -> binds_at h' a p b.
Proof. intros Hs. induction 1; [constructor|]. econstructor; [by eapply pair_at_mono|by eapply pair_at_mono|done]. Qed.
Lemma list_at_cells s p vs : list_at (cells s) p vs -> list_at (heap s) p vs.
Proof. apply list_at_mono, cells_sub. Qed.
Lemma pair_cells s p a d : pair_at (cells s) p a d -> pair_at (heap s) p a d.
Proof. apply pair_at_mono, cells_sub. Qed.

Lemma pairlis_binds xs : forall n s fp ap a r vs, formals_at (cells s) fp xs r -> list_at (cells s) ap vs -> (length xs <= length vs)%nat ->
  (length xs < n)%nat -> can_alloc (2 * (Z.of_nat (length xs) + 1)) s ->
  exists q s' k b, pairlis n fp ap a s = ROk q s' /\ modifies nothing k s s' /\ k <= 2 * (Z.of_nat (length xs) + 1)
    /\ binds_at (cells s') a q b /\ call_bindings (cells s') xs r vs b.
Proof.
  induction xs as [|x xs IH]; intros n s fp ap a r vs Hf Hl Hle Hn Hal; inversion Hf as [|r' Hr (c & Hc & Ht)|? ? d ? ? Hp Hpx Hd]; subst.
  - exists a, s, 0, []. destruct n; cbn; (split; [done|]); (split; [apply modifies_refl|]); (split; [lia|]); (split; [constructor|]); done.
  - destruct n as [|n]; [lia|]. apply cells_heap in Hc as [Hch _]. cbn [pairlis]. rewrite (proj2 (Z.eqb_neq _ _) Hr). run. rewrite Ht.
    change (negb (TSYMBOL =? TPAIR)) with true. cbv iota.
    erewrite bind_ok by (apply cons_s; eapply can_alloc_le; [exact Hal|lia]).
    rewrite cons_s by (apply can_alloc_with; [eapply can_alloc_le; [exact Hal|]|]; lia).
    eexists _, _, (1 + 1), _. split; [done|]. split; [eapply modifies_trans; [apply modifies_with_cell|apply modifies_with_cell|done]|].
    split; [lia|]. split.
    + econstructor; [apply pair_with_cell| |constructor]. eapply pair_at_mono; [|apply pair_with_cell].
      apply (modifies_cells _ _ _ (modifies_with_cell _ _)).
    + exists ap. rewrite drop_0. split; [|done]. eapply list_at_mono; [|exact Hl]. etrans; eapply modifies_cells, modifies_with_cell.
  - destruct n as [|n]; [lia|]. cbn [pairlis]. rewrite (proj2 (Z.eqb_neq _ _) Hp).
    destruct vs as [|v vs]; [cbn in Hle; lia|]. inversion Hl as [|? ? ad ? Hap Hapv Had]; subst. cbn [length] in *.
    erewrite bind_ok by (eapply ty_pair; by apply pair_cells). change (negb (TPAIR =? TPAIR)) with false. cbv iota.
    erewrite bind_ok by (eapply car_ok; by apply pair_cells). erewrite bind_ok by (eapply car_ok; by apply pair_cells).
    erewrite bind_ok by (apply cons_s; eapply can_alloc_le; [exact Hal|lia]). set (s1 := with_cell (Cell TPAIR x v []) s).
    pose proof (modifies_with_cell (Cell TPAIR x v []) s) as Hm1. fold s1 in Hm1. pose proof (modifies_cells _ _ _ Hm1) as Hs1.
    erewrite bind_ok by (eapply cdr_ok; apply pair_cells; by eapply pair_at_mono). erewrite bind_ok by (eapply cdr_ok; apply pair_cells; by eapply pair_at_mono).
    destruct (IH n s1 d ad a r vs) as (q & s2 & k & b & E & Hm2 & Hk & Hb & Hcb).
    { by eapply formals_at_mono. } { by eapply list_at_mono. } { lia. } { lia. } { apply can_alloc_with; [eapply can_alloc_le; [exact Hal|]|]; lia. }
    erewrite bind_ok by exact E. pose proof (modifies_cells _ _ _ Hm2) as Hs2.
    assert (modifies nothing (1 + k) s s2) as Hm12 by (eapply modifies_trans; done).
    rewrite cons_s by (eapply modifies_can_alloc; [exact Hm12|eapply can_alloc_le; [exact Hal|lia]|lia]).
    pose proof (modifies_with_cell (Cell TPAIR (g_free s) q []) s2) as Hm3. pose proof (modifies_cells _ _ _ Hm3) as Hs3.
    eexists _, _, (1 + k + 1), ((x, v) :: b). split; [done|]. split; [eapply modifies_trans; done|]. split; [lia|]. split.
    + econstructor; [apply pair_with_cell| |by eapply binds_at_mono]. eapply pair_at_mono; [|apply pair_with_cell]. by etrans.
    + destruct r as [r|]; cbn in Hcb |- *; [|by subst].
      destruct Hcb as (l & Hl' & ->). exists l. split; [|done].
      by eapply list_at_mono.
Qed.

(** what the number of arguments is compared with *)
Lemma formals_length n p xs r s : formals_at (cells s) p xs r -> (length xs < n)%nat ->
  length__ n p s = ROk (match r with None => Z.of_nat (length xs) | Some _ => -1 end) s.
Proof.
  intros Hf Hn. destruct r as [r|].
  - assert (exists ps, seg (heap s) p r ps xs /\ r <> cell_nil /\ exists c, heap s !! r = Some c /\ c_ty c = TSYMBOL) as (ps & Hs & Hr & c & Hc & Ht).
    { clear Hn. remember (Some r) as r' eqn:E. induction Hf as [|r' Hr (c & Hc & Ht)|p x d xs r' Hp Hpa _ IH]; [done| |].
      - injection E as ->. exists []. split; [constructor|]. split; [done|]. exists c. apply cells_heap in Hc as [? _]. done.
      - destruct (IH E) as (ps & Hs & Hr). exists (p :: ps). split; [|done]. econstructor; [done|by apply pair_cells|done]. }
    eapply length_loop_bad; [exact Hs|done|exact Hc|by rewrite Ht|lia].
  - apply length__ok; [|lia]. clear Hn. remember None as r' eqn:E. induction Hf as [|r' Hr|p x d xs r' Hp Hpa _ IH]; [constructor|done|].
    econstructor; [done|by apply pair_cells|by apply IH].
Qed.
Lemma formals_ty p xs r s : formals_at (cells s) p xs r -> other (cells s) cell_nil -> exists t, ty p s = ROk t s /\ (t =? TNUMBER) = false.
Proof.
  intros Hf (c0 & Hc0 & Ht0). inversion Hf as [|r' Hr (c & Hc & Ht)|? ? d ? ? Hp Hpx Hd]; subst.
  - apply cells_heap in Hc0 as [Hc0 _]. exists (c_ty c0). split; [by apply ty_s|]. apply Z.eqb_neq. intros E. apply Ht0. rewrite E. by left.
  - apply cells_heap in Hc as [Hc _]. exists (c_ty c). split; [by apply ty_s|]. by rewrite Ht.
  - exists TPAIR. split; [eapply ty_pair; by apply pair_cells|done].
Qed.
Lemma check_formals_fits n f p args xs r vs s : formals_at (cells s) p xs r -> list_at (cells s) args vs -> fits xs r vs ->
  other (cells s) cell_nil -> (length xs < n)%nat -> (length vs <= n)%nat -> check_formals n f p args s = ROk tt s.
Proof.
  intros Hf Hl Hfit Hnil Hn Hv. unfold check_formals. destruct (formals_ty _ _ _ _ Hf Hnil) as (t & Ht & Hne).
  erewrite bind_ok by exact Ht. rewrite Hne. erewrite bind_ok by (by eapply formals_length).
  erewrite bind_ok by (apply length__ok; [by apply list_at_cells|done]).
  destruct r as [r|]; cbn in Hfit.
  - change (-1 =? -1) with true. cbn. rewrite andb_false_r. done.
  - rewrite Hfit, Z.eqb_refl. done.
Qed.
(** the error: the pair of a message and the procedure *)
Definition arity_message : list Z := bytes_of "apply: wrong number of arguments; expected: ".
Definition arity_error (s s' : state) (f e : Z) : Prop :=
  exists m, pair_at (cells s') e m f /\ string_at (cells s') m arity_message /\ cells s ⊆ cells s'.
Lemma check_formals_bad n f p args xs vs s : formals_at (cells s) p xs None -> list_at (cells s) args vs -> length vs <> length xs ->
  other (cells s) cell_nil -> (length xs < n)%nat -> (length vs <= n)%nat -> 44 <= MAX_STRING s -> can_alloc 10 s ->
  exists e s', check_formals n f p args s = RThrow cell_symbol_wrong_number_of_args e s' /\ arity_error s s' f e.
Proof.
  intros Hf Hl Hfit Hnil Hn Hv Hms Hal. unfold check_formals. destruct (formals_ty _ _ _ _ Hf Hnil) as (t & Ht & Hne).
  erewrite bind_ok by exact Ht. rewrite Hne. erewrite bind_ok by (by eapply formals_length).
  erewrite bind_ok by (apply length__ok; [by apply list_at_cells|done]).
  assert (negb (Z.of_nat (length vs) =? Z.of_nat (length xs)) && negb (Z.of_nat (length vs) =? -1) && negb (Z.of_nat (length xs) =? -1) = true) as -> by lia.
  destruct (make_string_ok arity_message s) as (s1 & E1 & Hm1 & Ht1); [eapply can_alloc_le; [exact Hal|by vm_compute]|done|].
  unfold make_string0. rewrite until_nul_id by (vm_compute; repeat (constructor; [done|]); constructor). fold arity_message.
  erewrite bind_ok by exact E1. erewrite bind_ok.
  2:{ apply cons_s. eapply modifies_can_alloc; [exact Hm1|exact Hal|by vm_compute]. }
  eexists _, _. split; [done|]. exists (g_free s).
  pose proof (modifies_cells _ _ _ (modifies_with_cell (Cell TPAIR (g_free s) f []) s1)) as Hs2.
  split; [apply pair_with_cell|]. split; [by eapply text_at_mono|]. etrans; [by apply (modifies_cells _ _ _ Hm1)|done].
Qed.
Lemma pairlis_short xs : forall n s fp ap a r vs, formals_at (cells s) fp xs r -> list_at (cells s) ap vs -> (length vs < length xs)%nat ->
  (length xs < n)%nat -> can_alloc (2 * (Z.of_nat (length xs) + 1)) s -> other (cells s) cell_nil -> type_at (cells s) cell_nil TSPECIAL ->
  exists e s', pairlis n fp ap a s = RThrow cell_symbol_not_a_pair e s' /\ pair_at (cells s') e cell_nil cell_symbol_car /\ cells s ⊆ cells s'.
Proof.
  induction xs as [|x xs IH]; intros n s fp ap a r vs Hf Hl Hlt Hn Hal Hnil Hsp; [cbn in Hlt; lia|].
  inversion Hf as [|r' Hr (c & Hc & Ht)|? ? d ? ? Hp Hpx Hd]; subst.
  destruct n as [|n]; [lia|]. cbn [pairlis]. rewrite (proj2 (Z.eqb_neq _ _) Hp).
  erewrite bind_ok by (eapply ty_pair; by apply pair_cells). change (negb (TPAIR =? TPAIR)) with false. cbv iota.
  erewrite bind_ok by (eapply car_ok; by apply pair_cells). cbn [length] in *.
  destruct vs as [|v vs]; inversion Hl as [|? ? ad ? Hap Hapv Had]; subst.
  - destruct Hsp as (c & Hc & Ht). apply cells_heap in Hc as [Hc _].
    erewrite bind_throw by (eapply car_bad; [exact Hc|by rewrite Ht|eapply can_alloc_le; [exact Hal|lia]]).
    eexists _, _. split; [done|]. split; [apply pair_with_cell|]. apply (modifies_cells _ _ _ (modifies_with_cell _ _)).
  - cbn [length] in *. erewrite bind_ok by (eapply car_ok; by apply pair_cells).
    erewrite bind_ok by (apply cons_s; eapply can_alloc_le; [exact Hal|lia]). set (s1 := with_cell (Cell TPAIR x v []) s).
    pose proof (modifies_with_cell (Cell TPAIR x v []) s) as Hm1. fold s1 in Hm1. pose proof (modifies_cells _ _ _ Hm1) as Hs1.
    erewrite bind_ok by (eapply cdr_ok; apply pair_cells; by eapply pair_at_mono). erewrite bind_ok by (eapply cdr_ok; apply pair_cells; by eapply pair_at_mono).
    destruct (IH n s1 d ad a r vs) as (e & s2 & E & He & Hs2).
    { by eapply formals_at_mono. } { by eapply list_at_mono. } { lia. } { lia. } { apply can_alloc_with; [eapply can_alloc_le; [exact Hal|]|]; lia. }
    { destruct Hnil as (c & Hc & ?). exists c. split; [by eapply lookup_weaken|done]. } { by eapply type_at_mono. }
    erewrite bind_throw by exact E. eexists _, _. split; [done|]. split; [done|]. by etrans.
Qed.

Section evaluator.
Context (gc_check : M unit) (prim : Z -> list Z -> M Z) (load_program : Z -> M Z) (fuel : nat).
Notation step := (step gc_check prim load_program fuel).

(** the state in which a call is to be made: [R1] is (f . args), and there is memory *)
Record calling (s : state) (f args : Z) (vs : list Z) (m : Z) : Prop := {
  cl_call : pair_at (cells s) (R1 s) f args;
  cl_args : list_at (cells s) args vs;
  cl_nil : type_at (cells s) cell_nil TSPECIAL;
  cl_stack : 0 <= g_stack s /\ g_stack s + 5 <= STACK_SIZE s;
  cl_mem : can_alloc m s;
  cl_string : 44 <= MAX_STRING s;
  cl_fuel : (length vs < fuel)%nat }.
(** evaluation goes on with the body, in the environment [b ++ env] *)
Definition entered (s s' : state) (body env : Z) (b : list (Z * Z)) : Prop :=
  R1 s' = body /\ R2 s' = R2 s /\ R3 s' = R3 s /\ g_stack s' = g_stack s /\ cells s ⊆ cells s'
  /\ exists m p, pair_at (cells s') (R0 s') m p /\ pair_at (cells s') m cell_closure p /\ binds_at (cells s') env p b.

(** A closure called with a fitting number of arguments: each formal is bound to its argument, the
    rest formal to the list of the others, before the closure's own environment; then the body runs. *)
Theorem C38_call_closure s f args vs formals body env xs r v :
  calling s f args vs (2 * Z.of_nat (length xs) + 4) -> closure_at (cells s) f formals body env -> formals_at (cells s) formals xs r -> fits xs r vs -> (length xs < fuel)%nat ->
  exists s' b, step L_apply v s = ROk (Goto L_begin v) s' /\ call_bindings (cells s') xs r vs b /\ entered s s' body env b.
Proof.
  intros [Hc Ha Hnil [S1 S2] Hal Hms Hfl] (cl & ca & cd & k & a & e & (c & Hcf & Htf & <-) & P1 & P2 & P3 & P4) Hf Hfit Hxs.
  apply cells_heap in Hcf as [Hcfh _].
  assert (other (cells s) cell_nil) as Hnil'.
  { destruct Hnil as (c0 & Hc0 & Ht0). exists c0. split; [done|]. rewrite Ht0. vm_compute. intros Hin. repeat (apply elem_of_cons in Hin as [Hin|Hin]; [done|]). by apply elem_of_nil in Hin. }
  set (s1 := set_g_stack_array (<[g_stack s + GC_FRAME_PROCEDURE := f]> (g_stack_array s)) s).
  assert (cells s1 = cells s) as Hs1 by done. assert (heap s1 = heap s) as Hh1 by done.
  destruct (pairlis_binds xs fuel s1 formals args env r vs) as (q & s2 & n & b & E & Hm & Hn & Hb & Hcb); try done.
  { destruct r; cbn in Hfit; lia. } { eapply can_alloc_le; [exact Hal|lia]. }
  assert (can_alloc 2 s2) as Hal2 by (eapply modifies_can_alloc; [exact Hm|eapply can_alloc_le; [exact Hal|lia]|lia]).
  set (s3 := with_cell (Cell TPAIR cell_closure q []) s2). set (s4 := with_cell (Cell TPAIR (g_free s2) q []) s3).
  exists (set_R0 (g_free s3) (set_R1 body s4)), b.
  assert (cells s2 ⊆ cells s3) as H23 by apply (modifies_cells _ _ _ (modifies_with_cell _ _)).
  assert (cells s3 ⊆ cells s4) as H34 by apply (modifies_cells _ _ _ (modifies_with_cell _ _)).
  assert (cells s ⊆ cells s2) as H12. { rewrite <- Hs1. apply (modifies_cells _ _ _ Hm). }
  split.
  - cbn [EvalModel.step]. unfold step_apply. apply pair_cells in Hc, P1, P2, P3, P4.
    destruct Hc as (c0 & ? & ? & <- & <-). destruct P1 as (c1 & ? & ? & <- & <-). destruct P2 as (c2 & ? & ? & <- & <-).
    destruct P3 as (c3 & ? & ? & ? & <-). destruct P4 as (c4 & ? & ? & ? & <-). run.
    erewrite bind_ok by (apply stack_set_ok; unfold GC_FRAME_PROCEDURE; lia). fold s1. rewrite <- Hh1 in *. run.
    rewrite Htf. change (TCLOSURE =? TSTRUCT) with false. run. change (cell_f =? cell_t) with false. change (TCLOSURE =? TCLOSURE) with true. cbv iota. run.
    erewrite bind_ok by (eapply check_formals_fits; [exact Hf|exact Ha|exact Hfit|exact Hnil'|done|lia]).
    erewrite bind_ok by exact E. unfold call_lambda. erewrite bind_ok.
    2:{ erewrite bind_ok by (apply cons_s; eapply can_alloc_le; [exact Hal2|lia]). fold s3.
        erewrite bind_ok by (apply cons_s; apply can_alloc_with; [exact Hal2|lia]). fold s4. run. reflexivity. }
    reflexivity.
  - change (cells (set_R0 _ _)) with (cells s4). split.
    { destruct r as [r|]; cbn in Hcb |- *; [|done]. destruct Hcb as (l & Hl & ->). exists l. split; [|done]. eapply list_at_mono; [|exact Hl]. by etrans. }
    pose proof (mod_rest _ _ _ _ Hm) as (h & Hs2).
    split; [done|]. split; [cbn; by rewrite Hs2|]. split; [cbn; by rewrite Hs2|]. split; [cbn; by rewrite Hs2|].
    split; [change (cells (set_R0 _ _)) with (cells s4); by do 2 (etrans; [|done])|]. exists (g_free s2), q. change (cells (set_R0 _ _)) with (cells s4).
    split; [apply pair_with_cell|]. split; [eapply pair_at_mono; [exact H34|apply pair_with_cell]|].
    eapply binds_at_mono; [|exact Hb]. by etrans.
Qed.

Lemma nil_other s : type_at (cells s) cell_nil TSPECIAL -> other (cells s) cell_nil.
Proof.
  intros (c0 & Hc0 & Ht0). exists c0. split; [done|]. rewrite Ht0. vm_compute. intros Hin.
  repeat (apply elem_of_cons in Hin as [Hin|Hin]; [done|]). by apply elem_of_nil in Hin.
Qed.
Ltac closure_call Hc P1 P2 P3 P4 Htf s1 Hh1 :=
  cbn [EvalModel.step]; unfold step_apply; apply pair_cells in Hc, P1, P2, P3, P4;
  destruct Hc as (c0 & ? & ? & <- & <-); destruct P1 as (c1 & ? & ? & <- & <-); destruct P2 as (c2 & ? & ? & <- & <-);
  destruct P3 as (c3 & ? & ? & ? & <-); destruct P4 as (c4 & ? & ? & ? & <-); run;
  erewrite bind_ok by (apply stack_set_ok; unfold GC_FRAME_PROCEDURE; lia); fold s1; rewrite <- Hh1 in *; run;
  rewrite Htf; change (TCLOSURE =? TSTRUCT) with false; run; change (cell_f =? cell_t) with false; change (TCLOSURE =? TCLOSURE) with true; cbv iota; run.

(** Without a rest formal, any other number of arguments is an error: wrong-number-of-args, with a
    message and the procedure. *)
Theorem C38_closure_wrong_number s f args vs formals body env xs v :
  calling s f args vs 10 -> closure_at (cells s) f formals body env -> formals_at (cells s) formals xs None -> length vs <> length xs -> (length xs < fuel)%nat ->
  exists e s', step L_apply v s = RThrow cell_symbol_wrong_number_of_args e s' /\ arity_error s s' f e.
Proof.
  intros [Hc Ha Hnil [S1 S2] Hal Hms Hfl] (cl & ca & cd & k & a & e & (c & Hcf & Htf & <-) & P1 & P2 & P3 & P4) Hf Hne Hxs.
  apply cells_heap in Hcf as [Hcfh _]. apply nil_other in Hnil.
  set (s1 := set_g_stack_array (<[g_stack s + GC_FRAME_PROCEDURE := f]> (g_stack_array s)) s).
  assert (heap s1 = heap s) as Hh1 by done.
  destruct (check_formals_bad fuel f formals args xs vs s1) as (er & s2 & E & He); try done; [lia|].
  exists er, s2. split; [|exact He]. closure_call Hc P1 P2 P3 P4 Htf s1 Hh1.
  by erewrite bind_throw by exact E.
Qed.
(** With a rest formal, too few arguments are an error, but not wrong-number-of-args: the code
    does not check the number of arguments and fails when it takes the car of the empty list. *)
Theorem C38_rest_wrong_number_refuted s f args vs formals body env xs r v :
  calling s f args vs (2 * Z.of_nat (length xs) + 2) -> closure_at (cells s) f formals body env -> formals_at (cells s) formals xs (Some r) -> (length vs < length xs)%nat -> (length xs < fuel)%nat ->
  exists e s', step L_apply v s = RThrow cell_symbol_not_a_pair e s' /\ pair_at (cells s') e cell_nil cell_symbol_car /\ cells s ⊆ cells s'.
Proof.
  intros [Hc Ha Hnil [S1 S2] Hal Hms Hfl] (cl & ca & cd & k & a & e & (c & Hcf & Htf & <-) & P1 & P2 & P3 & P4) Hf Hne Hxs.
  apply cells_heap in Hcf as [Hcfh _]. pose proof (nil_other _ Hnil) as Hnil'.
  set (s1 := set_g_stack_array (<[g_stack s + GC_FRAME_PROCEDURE := f]> (g_stack_array s)) s).
  assert (heap s1 = heap s) as Hh1 by done.
  destruct (pairlis_short xs fuel s1 formals args env (Some r) vs) as (er & s2 & E & He & Hsub); try done; [eapply can_alloc_le; [exact Hal|lia]|].
  exists er, s2. split; [|split; [exact He|exact Hsub]].
  destruct (formals_ty _ _ _ s1 Hf Hnil') as (t & Ht & Htn).
  closure_call Hc P1 P2 P3 P4 Htf s1 Hh1.
  unfold check_formals. erewrite bind_ok.
  2:{ erewrite bind_ok by exact Ht. rewrite Htn. erewrite bind_ok by (by eapply (formals_length fuel _ _ (Some r) s1)).
      erewrite bind_ok by (apply length__ok; [by apply list_at_cells|lia]).
      change (-1 =? -1) with true. cbn [negb]. rewrite andb_false_r. reflexivity. }
  by erewrite bind_throw by exact E.
Qed.

(** A lambda expression in the operator's place: the same, in the environment of the call. *)
Definition lambda_at (h : gmap Z cell) (f formals body : Z) : Prop :=
  exists d, pair_at h f cell_symbol_lambda d /\ pair_at h d formals body.
Lemma lambda_call s f args formals body v vs m : calling s f args vs m -> lambda_at (cells s) f formals body ->
  step L_apply v s = (p <- pairlis fuel formals args (R0 s) ;; check_formals fuel (R1 s) formals args ;;; call_lambda body p ;;; ret (Goto L_begin v))
    (set_g_stack_array (<[g_stack s + GC_FRAME_PROCEDURE := f]> (g_stack_array s)) s).
Proof.
  intros [Hc Ha Hnil [S1 S2] Hal Hms Hfl] (d & P1 & P2).
  set (s1 := set_g_stack_array (<[g_stack s + GC_FRAME_PROCEDURE := f]> (g_stack_array s)) s).
  assert (heap s1 = heap s) as Hh1 by done. cbn [EvalModel.step]. unfold step_apply. apply pair_cells in Hc, P1, P2.
  destruct Hc as (c0 & ? & ? & <- & <-). destruct P1 as (c1 & ? & Ht1 & Hl & <-). destruct P2 as (c2 & ? & ? & <- & <-). run.
  erewrite bind_ok by (apply stack_set_ok; unfold GC_FRAME_PROCEDURE; lia). fold s1. rewrite <- Hh1 in *. run.
  rewrite Ht1. change (TPAIR =? TSTRUCT) with false. run. change (cell_f =? cell_t) with false. change (TPAIR =? TCLOSURE) with false.
  change (TPAIR =? TCONTINUATION) with false. change (TPAIR =? TSPECIAL) with false. change (TPAIR =? TSYMBOL) with false. change (TPAIR =? TPAIR) with true. cbn [andb]. cbv iota. run.
  rewrite Hl, Z.eqb_refl. run. reflexivity.
Qed.
Theorem C38_call_lambda s f args vs formals body xs r v :
  calling s f args vs (2 * Z.of_nat (length xs) + 4) -> lambda_at (cells s) f formals body -> formals_at (cells s) formals xs r -> fits xs r vs -> (length xs < fuel)%nat ->
  exists s' b, step L_apply v s = ROk (Goto L_begin v) s' /\ call_bindings (cells s') xs r vs b /\ entered s s' body (R0 s) b.
Proof.
  intros Hcall Hlam Hf Hfit Hxs. rewrite (lambda_call _ _ _ _ _ v _ _ Hcall Hlam). destruct Hcall as [Hc Ha Hnil [S1 S2] Hal Hms Hfl].
  apply nil_other in Hnil. set (s1 := set_g_stack_array (<[g_stack s + GC_FRAME_PROCEDURE := f]> (g_stack_array s)) s).
  destruct (pairlis_binds xs fuel s1 formals args (R0 s) r vs) as (q & s2 & n & b & E & Hm & Hn & Hb & Hcb); try done.
  { destruct r; cbn in Hfit; lia. } { eapply can_alloc_le; [exact Hal|lia]. }
  assert (can_alloc 2 s2) as Hal2 by (eapply modifies_can_alloc; [exact Hm|eapply can_alloc_le; [exact Hal|lia]|lia]).
  set (s3 := with_cell (Cell TPAIR cell_closure q []) s2). set (s4 := with_cell (Cell TPAIR (g_free s2) q []) s3).
  exists (set_R0 (g_free s3) (set_R1 body s4)), b.
  assert (cells s2 ⊆ cells s3) as H23 by apply (modifies_cells _ _ _ (modifies_with_cell _ _)).
  assert (cells s3 ⊆ cells s4) as H34 by apply (modifies_cells _ _ _ (modifies_with_cell _ _)).
  assert (cells s1 ⊆ cells s2) as H12 by apply (modifies_cells _ _ _ Hm).
  split.
  - erewrite bind_ok by exact E.
    erewrite bind_ok by (eapply check_formals_fits; [by eapply formals_at_mono|by eapply list_at_mono|exact Hfit| |done|lia];
      destruct Hnil as (c & Hcn & ?); exists c; split; [by eapply lookup_weaken|done]).
    unfold call_lambda. erewrite bind_ok.
    2:{ erewrite bind_ok by (apply cons_s; eapply can_alloc_le; [exact Hal2|lia]). fold s3.
        erewrite bind_ok by (apply cons_s; apply can_alloc_with; [exact Hal2|lia]). fold s4. run. reflexivity. }
    reflexivity.
  - change (cells (set_R0 _ _)) with (cells s4). split.
    { destruct r as [r|]; cbn in Hcb |- *; [|done]. destruct Hcb as (l & Hl & ->). exists l. split; [|done]. eapply list_at_mono; [|exact Hl]. by etrans. }
    pose proof (mod_rest _ _ _ _ Hm) as (h & Hs2).
    split; [done|]. split; [cbn; by rewrite Hs2|]. split; [cbn; by rewrite Hs2|]. split; [cbn; by rewrite Hs2|].
    split; [change (cells (set_R0 _ _)) with (cells s4); change (cells s) with (cells s1); by do 2 (etrans; [|done])|]. exists (g_free s2), q. change (cells (set_R0 _ _)) with (cells s4).
    split; [apply pair_with_cell|]. split; [eapply pair_at_mono; [exact H34|apply pair_with_cell]|].
    eapply binds_at_mono; [|exact Hb]. by etrans.
Qed.
(** too many arguments *)
Theorem C38_lambda_too_many s f args vs formals body xs v :
  calling s f args vs (2 * Z.of_nat (length xs) + 12) -> lambda_at (cells s) f formals body -> formals_at (cells s) formals xs None -> (length xs < length vs)%nat ->
  exists e s', step L_apply v s = RThrow cell_symbol_wrong_number_of_args e s' /\ arity_error s s' (R1 s) e.
Proof.
  intros Hcall Hlam Hf Hne. rewrite (lambda_call _ _ _ _ _ v _ _ Hcall Hlam). destruct Hcall as [Hc Ha Hnil [S1 S2] Hal Hms Hfl].
  apply nil_other in Hnil. set (s1 := set_g_stack_array (<[g_stack s + GC_FRAME_PROCEDURE := f]> (g_stack_array s)) s).
  destruct (pairlis_binds xs fuel s1 formals args (R0 s) None vs) as (q & s2 & n & b & E & Hm & Hn & Hb & Hcb); try done.
  { lia. } { lia. } { eapply can_alloc_le; [exact Hal|lia]. }
  assert (cells s1 ⊆ cells s2) as H12 by apply (modifies_cells _ _ _ Hm).
  destruct (check_formals_bad fuel (R1 s) formals args xs vs s2) as (er & s3 & E3 & m & He1 & He2 & He3).
  { by eapply formals_at_mono. } { by eapply list_at_mono. } { lia. }
  { destruct Hnil as (c & Hcn & ?); exists c; split; [by eapply lookup_weaken|done]. } { lia. } { lia. }
  { destruct (mod_rest _ _ _ _ Hm) as (h & Hs2). rewrite Hs2. done. }
  { eapply modifies_can_alloc; [exact Hm|eapply can_alloc_le; [exact Hal|lia]|lia]. }
  exists er, s3. split.
  - erewrite bind_ok by exact E. by erewrite bind_throw by exact E3.
  - exists m. split; [done|]. split; [done|]. change (cells s) with (cells s1). by etrans.
Qed.
(** too few arguments: an error, but again not-a-pair (the arguments are bound before they are
    counted) *)
Theorem C38_lambda_too_few_refuted s f args vs formals body xs r v :
  calling s f args vs (2 * Z.of_nat (length xs) + 2) -> lambda_at (cells s) f formals body -> formals_at (cells s) formals xs r -> (length vs < length xs)%nat -> (length xs < fuel)%nat ->
  exists e s', step L_apply v s = RThrow cell_symbol_not_a_pair e s' /\ pair_at (cells s') e cell_nil cell_symbol_car /\ cells s ⊆ cells s'.
Proof.
  intros Hcall Hlam Hf Hne Hxs. rewrite (lambda_call _ _ _ _ _ v _ _ Hcall Hlam). destruct Hcall as [Hc Ha Hnil [S1 S2] Hal Hms Hfl].
  set (s1 := set_g_stack_array (<[g_stack s + GC_FRAME_PROCEDURE := f]> (g_stack_array s)) s).
  destruct (pairlis_short xs fuel s1 formals args (R0 s) r vs) as (er & s2 & E & He & Hsub); try done.
  { eapply can_alloc_le; [exact Hal|lia]. } { by apply nil_other. }
  exists er, s2. split; [by erewrite bind_throw by exact E|]. split; [exact He|exact Hsub].
Qed.

(** Builtins have a fixed number of arguments [n], or any number (-1). *)
Definition builtin_at (h : gmap Z cell) (f n : Z) : Prop :=
  exists v s0 s1 s3 s5, array_at h TSTRUCT f v [s0; s1; SRef cell_symbol_builtin; s3; SNum n; s5].
Theorem C38_builtin_wrong_number s f args vs n v :
  calling s f args vs 11 -> builtin_at (cells s) f n -> 0 <= n -> Z.of_nat (length vs) <> n ->
  exists e s', step L_apply v s = RThrow cell_symbol_wrong_number_of_args e s' /\ arity_error s s' f e.
Proof.
  intros [Hc Ha Hnil [S1 S2] Hal Hms Hfl] (w & s0 & s1' & s3 & s5 & Hb) Hn Hne.
  set (s1 := set_g_stack_array (<[g_stack s + GC_FRAME_PROCEDURE := f]> (g_stack_array s)) s).
  assert (heap s1 = heap s) as Hh1 by done. assert (cells s1 = cells s) as Hc1 by done.
  assert (Hb1 : array_at (heap s1) TSTRUCT f w [s0; s1'; SRef cell_symbol_builtin; s3; SNum n; s5]) by (eapply array_at_mono; [apply cells_sub|exact Hb]).
  pose proof Hb1 as [(cf & Hcf & Htf & Hlf & Hvf) Hsl].
  assert (E2 : struct_ref_ f 2 s1 = ROk cell_symbol_builtin s1).
  { apply (struct_ref_ok f w [s0; s1'; SRef cell_symbol_builtin; s3; SNum n; s5] 2); [done|cbn; lia|]. apply get_ref. by apply (Hsl 2%nat). }
  assert (E4 : struct_ref_ f 4 s1 = ROk (g_free s1) (with_cell (Cell TNUMBER 0 n []) s1)).
  { apply (struct_ref_ok f w [s0; s1'; SRef cell_symbol_builtin; s3; SNum n; s5] 4); [done|cbn; lia|]. apply get_num; [by apply (Hsl 4%nat)|eapply can_alloc_le; [exact Hal|lia]]. }
  set (s2 := with_cell (Cell TNUMBER 0 n []) s1) in *.
  assert (cells s1 ⊆ cells s2) as H12 by apply (modifies_cells _ _ _ (modifies_with_cell _ _)).
  destruct (make_string_ok arity_message s2) as (s3' & E3 & Hm3 & Ht3); [apply can_alloc_with; [eapply can_alloc_le; [exact Hal|]|]; by vm_compute|done|].
  exists (g_free s3'), (with_cell (Cell TPAIR (g_free s2) f []) s3').
  pose proof (modifies_cells _ _ _ (modifies_with_cell (Cell TPAIR (g_free s2) f []) s3')) as H34.
  split.
  - cbn [EvalModel.step]. unfold step_apply. apply pair_cells in Hc. destruct Hc as (c0 & ? & ? & <- & <-). run.
    erewrite bind_ok by (apply stack_set_ok; unfold GC_FRAME_PROCEDURE; lia). fold s1. rewrite <- Hh1 in *. run.
    rewrite Htf. change (TSTRUCT =? TSTRUCT) with true. cbv iota.
    assert (builtin_p (c_car c0) s1 = ROk cell_t s1) as Eb. { unfold builtin_p. run. rewrite Htf. change (TSTRUCT =? TSTRUCT) with true. cbv iota. erewrite bind_ok by exact E2. done. }
    erewrite bind_ok by exact Eb. change (cell_t =? cell_t) with true. cbv iota. run.
    unfold builtin_arity.
    assert (check_formals fuel (c_car c0) (g_free s1) (c_cdr c0) s2 = RThrow cell_symbol_wrong_number_of_args (g_free s3') (with_cell (Cell TPAIR (g_free s2) (c_car c0) []) s3')) as Ef.
    { unfold check_formals. assert (heap s2 !! g_free s1 = Some (Cell TNUMBER 0 n [])) as Hn2 by apply lookup_insert. run. cbn [c_ty c_cdr].
      rewrite Z.eqb_refl. run. cbn [c_cdr]. erewrite bind_ok by (apply length__ok; [apply list_at_cells; by eapply list_at_mono|lia]).
      assert (negb (Z.of_nat (length vs) =? n) && negb (Z.of_nat (length vs) =? -1) && negb (n =? -1) = true) as -> by lia.
      unfold make_string0. rewrite until_nul_id by (vm_compute; repeat (constructor; [done|]); constructor). fold arity_message.
      erewrite bind_ok by exact E3. erewrite bind_ok; [reflexivity|]. apply cons_s. eapply modifies_can_alloc; [exact Hm3|apply (can_alloc_with 10); [exact Hal|lia]|]. by vm_compute. }
    by erewrite bind_throw by exact Ef.
  - exists (g_free s2). split; [apply pair_with_cell|]. split; [by eapply text_at_mono|].
    change (cells s) with (cells s1). etrans; [exact H12|]. etrans; [apply (modifies_cells _ _ _ Hm3)|done].
Qed.
End evaluator.

(** ** Concrete cases: programs run up to the call *)
Fixpoint to_call (chk : state -> bool) (n : nat) (l : label) (v : locals) (s : state) : res locals :=
  match n with
  | O => ROutOfFuel
  | S n' => if (match l with L_apply => true | _ => false end) && chk s then ROk v s else
      match step GcModel.gc_check (prim_call sample_fuel) (no_load sample_fuel) sample_fuel l v s with ROk (Goto l' v') s' => to_call chk n' l' v' s' | _ => RAbort end
  end.
Definition operator_is (t : Z) (s : state) : bool :=
  match heap s !! R1 s with Some c => match heap s !! c_car c with Some k => c_ty k =? t | None => false end | None => false end.
Definition call_of (code : list Z -> M Z) (t : Z) : res locals :=
  match sample_state code with ROk _ s => to_call (operator_is t) sample_fuel L_eval_apply (Locals false false) s | _ => RUB end.
(** reading the heap *)
Definition cell_b (s : state) (p : Z) : option cell := if p <? g_free s then heap s !! p else None.
Definition pair_b (s : state) (p : Z) : option (Z * Z) := match cell_b s p with Some c => if c_ty c =? TPAIR then Some (c_car c, c_cdr c) else None | None => None end.
Definition type_b (s : state) (p t : Z) : bool := match cell_b s p with Some c => c_ty c =? t | None => false end.
Fixpoint list_b (n : nat) (s : state) (p : Z) : option (list Z) :=
  if p =? cell_nil then Some [] else
  match n with O => None | S n => match pair_b s p with Some (a, d) => match list_b n s d with Some l => Some (a :: l) | None => None end | None => None end end.
Fixpoint formals_b (n : nat) (s : state) (p : Z) : option (list Z * option Z) :=
  if p =? cell_nil then Some ([], None) else
  match n with
  | O => None
  | S n => match pair_b s p with Some (x, d) => match formals_b n s d with Some (xs, r) => Some (x :: xs, r) | None => None end
           | None => if type_b s p TSYMBOL then Some ([], Some p) else None end
  end.
Lemma cell_b_ok s p c : cell_b s p = Some c -> cells s !! p = Some c.
Proof. unfold cell_b. destruct (Z.ltb_spec p (g_free s)); [|done]. intros Hp. by apply heap_cells. Qed.
Lemma pair_b_ok s p a d : pair_b s p = Some (a, d) -> pair_at (cells s) p a d.
Proof.
  unfold pair_b. destruct (cell_b s p) as [c|] eqn:E; [|done]. destruct (Z.eqb_spec (c_ty c) TPAIR); [|done]. intros [= <- <-]. exists c. by apply cell_b_ok in E.
Qed.
Lemma type_b_ok s p t : type_b s p t = true -> type_at (cells s) p t.
Proof. unfold type_b. destruct (cell_b s p) as [c|] eqn:E; [|done]. intros Ht. exists c. apply cell_b_ok in E. split; [done|lia]. Qed.
Lemma list_b_ok s n : forall p l, list_b n s p = Some l -> list_at (cells s) p l.
Proof.
  induction n as [|n IH]; intros p l H; cbn in H; destruct (Z.eqb_spec p cell_nil) as [->|Hp]; try (injection H as <-; constructor); [done|].
  destruct (pair_b s p) as [[a d]|] eqn:E; [|done]. destruct (list_b n s d) eqn:El; [|done]. injection H as <-.
  econstructor; [done|by apply pair_b_ok|by apply IH].
Qed.
Lemma formals_b_ok s n : forall p xs r, formals_b n s p = Some (xs, r) -> formals_at (cells s) p xs r.
Proof.
  induction n as [|n IH]; intros p xs r H; cbn in H; destruct (Z.eqb_spec p cell_nil) as [->|Hp]; try (injection H as <- <-; constructor); [done|].
  destruct (pair_b s p) as [[a d]|] eqn:E.
  - destruct (formals_b n s d) as [[ys r']|] eqn:El; [|done]. injection H as <- <-. econstructor; [done|by apply pair_b_ok|by apply IH].
  - destruct (type_b s p TSYMBOL) eqn:Et; [|done]. injection H as <- <-. constructor; [done|by apply type_b_ok].
Qed.
Definition calling_b (s : state) : option (Z * Z * list Z) :=
  match pair_b s (R1 s) with
  | Some (f, args) => match list_b 50 s args with
      | Some vs => if type_b s cell_nil TSPECIAL && (0 <=? g_stack s) && (g_stack s + 5 <=? STACK_SIZE s) && (1 <=? g_free s) && (g_free s + 30 <=? limit s)
                      && (g_free s + 30 - g_cells s <=? ARENA_SIZE s) && (44 <=? MAX_STRING s) && (Z.of_nat (length vs) <? 50) then Some (f, args, vs) else None
      | None => None end
  | None => None
  end.
Lemma calling_b_ok s f args vs m : calling_b s = Some (f, args, vs) -> m <= 30 -> calling sample_fuel s f args vs m.
Proof.
  unfold calling_b. intros H Hm. destruct (pair_b s (R1 s)) as [[f' args']|] eqn:E; [|done]. destruct (list_b 50 s args') as [vs'|] eqn:El; [|done].
  destruct (type_b s cell_nil TSPECIAL) eqn:Et; [|done]. destruct (_ && _) eqn:Eb in H; [|done]. injection H as -> -> ->.
  split; [by apply pair_b_ok|by eapply list_b_ok|by apply type_b_ok|lia|unfold can_alloc; lia|lia|unfold sample_fuel; lia].
Qed.
Definition closure_b (s : state) (f : Z) : option (Z * Z * Z) :=
  match cell_b s f with
  | Some c => if c_ty c =? TCLOSURE then
      match pair_b s (c_cdr c) with
      | Some (ca, cd) => match pair_b s cd, pair_b s ca with
          | Some (formals, body), Some (_, a) => match pair_b s a with Some (_, env) => Some (formals, body, env) | None => None end
          | _, _ => None end
      | None => None end else None
  | None => None
  end.
Lemma closure_b_ok s f formals body env : closure_b s f = Some (formals, body, env) -> closure_at (cells s) f formals body env.
Proof.
  unfold closure_b. intros H. destruct (cell_b s f) as [c|] eqn:E; [|done]. destruct (Z.eqb_spec (c_ty c) TCLOSURE); [|done].
  destruct (pair_b s (c_cdr c)) as [[ca cd]|] eqn:E1; [|done]. destruct (pair_b s cd) as [[fm bd]|] eqn:E2; [|done].
  destruct (pair_b s ca) as [[k a]|] eqn:E3; [|done]. destruct (pair_b s a) as [[e1 en]|] eqn:E4; [|done]. injection H as -> -> ->.
  exists (c_cdr c), ca, cd, k, a, e1. apply cell_b_ok in E. split; [by exists c|]. split; [by apply pair_b_ok|]. split; [by apply pair_b_ok|]. split; by apply pair_b_ok.
Qed.
Definition lambda_b (s : state) (f : Z) : option (Z * Z) :=
  match pair_b s f with Some (l, d) => if l =? cell_symbol_lambda then pair_b s d else None | None => None end.
Lemma lambda_b_ok s f formals body : lambda_b s f = Some (formals, body) -> lambda_at (cells s) f formals body.
Proof.
  unfold lambda_b. intros H. destruct (pair_b s f) as [[l d]|] eqn:E; [|done]. destruct (Z.eqb_spec l cell_symbol_lambda) as [->|]; [|done].
  exists d. split; by apply pair_b_ok.
Qed.
(** ((lambda (f) (f 10 20 30)) (lambda formals 1)) and ((lambda formals 1) 10 20 30) *)
Definition call3_code (closure : bool) (formals : M Z) (gs : list Z) : M Z :=
  let f := sym (bytes_of "f") in let lam := list_m [ret cell_symbol_lambda; formals; make_number 1] in
  if closure then list_m [list_m [ret cell_symbol_lambda; list_m [f]; list_m [f; make_number 10; make_number 20; make_number 30]]; lam]
  else list_m [lam; make_number 10; make_number 20; make_number 30].
Definition formals_x : M Z := list_m [sym (bytes_of "x")].
Definition formals_x_r : M Z := (a <- sym (bytes_of "x") ;; r <- sym (bytes_of "r") ;; cons a r).
Definition formals_4_r : M Z := (a <- sym (bytes_of "a") ;; b <- sym (bytes_of "b") ;; c <- sym (bytes_of "c") ;; d <- sym (bytes_of "d") ;; r <- sym (bytes_of "r") ;;
  x <- cons d r ;; x <- cons c x ;; x <- cons b x ;; cons a x).
Definition clo_b (nx : nat) (rest : bool) (s : state) : bool :=
  match calling_b s with
  | Some (f, args, vs) => match closure_b s f with Some (formals, body, env) => match formals_b 50 s formals with
      Some (xs, r) => (length vs =? 3)%nat && (length xs =? nx)%nat && Bool.eqb rest (match r with Some _ => true | None => false end) | None => false end | None => false end
  | None => false
  end.
Lemma clo_b_ok nx rest s : clo_b nx rest s = true -> exists f args vs formals body env xs r,
  (forall m, m <= 30 -> calling sample_fuel s f args vs m) /\ closure_at (cells s) f formals body env /\ formals_at (cells s) formals xs r
  /\ length vs = 3%nat /\ length xs = nx /\ (if rest then exists y, r = Some y else r = None).
Proof.
  unfold clo_b. intros H. destruct (calling_b s) as [[[f args] vs]|] eqn:E; [|done]. destruct (closure_b s f) as [[[fm bd] en]|] eqn:E2; [|done].
  destruct (formals_b 50 s fm) as [[xs r]|] eqn:E3; [|done]. apply andb_prop in H as [H H3]. apply andb_prop in H as [H1 H2].
  exists f, args, vs, fm, bd, en, xs, r. split; [intros m Hm; by eapply calling_b_ok|]. split; [by apply closure_b_ok|]. split; [by eapply formals_b_ok|].
  split; [by apply Nat.eqb_eq|]. split; [by apply Nat.eqb_eq|]. destruct rest, r; try done. by eexists.
Qed.
Definition lam_b (nx : nat) (rest : bool) (s : state) : bool :=
  match calling_b s with
  | Some (f, args, vs) => match lambda_b s f with Some (formals, body) => match formals_b 50 s formals with
      Some (xs, r) => (length vs =? 3)%nat && (length xs =? nx)%nat && Bool.eqb rest (match r with Some _ => true | None => false end) | None => false end | None => false end
  | None => false
  end.
Lemma lam_b_ok nx rest s : lam_b nx rest s = true -> exists f args vs formals body xs r,
  (forall m, m <= 30 -> calling sample_fuel s f args vs m) /\ lambda_at (cells s) f formals body /\ formals_at (cells s) formals xs r
  /\ length vs = 3%nat /\ length xs = nx /\ (if rest then exists y, r = Some y else r = None).
Proof.
  unfold lam_b. intros H. destruct (calling_b s) as [[[f args] vs]|] eqn:E; [|done]. destruct (lambda_b s f) as [[fm bd]|] eqn:E2; [|done].
  destruct (formals_b 50 s fm) as [[xs r]|] eqn:E3; [|done]. apply andb_prop in H as [H H3]. apply andb_prop in H as [H1 H2].
  exists f, args, vs, fm, bd, xs, r. split; [intros m Hm; by eapply calling_b_ok|]. split; [by apply lambda_b_ok|]. split; [by eapply formals_b_ok|].
  split; [by apply Nat.eqb_eq|]. split; [by apply Nat.eqb_eq|]. destruct rest, r; try done. by eexists.
Qed.
(** (lambda (x . r) 1) called with three arguments *)
Example C38_call_closure_ex : exists v s, call_of (call3_code true formals_x_r) TCLOSURE = ROk v s /\ exists f args vs formals body env xs r,
  calling sample_fuel s f args vs (2 * Z.of_nat (length xs) + 4) /\ closure_at (cells s) f formals body env /\ formals_at (cells s) formals xs r /\ fits xs r vs /\ (length xs < sample_fuel)%nat.
Proof.
  destruct (check_res (call_of (call3_code true formals_x_r) TCLOSURE) (fun _ s => clo_b 1 true s)) as (v & s & E & H). { vm_compute. reflexivity. }
  exists v, s. split; [exact E|]. clear E. apply clo_b_ok in H as (f & args & vs & fm & bd & en & xs & r & H1 & H2 & H3 & H4 & H5 & y & ->).
  exists f, args, vs, fm, bd, en, xs, (Some y). split; [apply H1; lia|]. split; [done|]. split; [done|]. split; [cbn; lia|unfold sample_fuel; lia].
Qed.
Example C38_closure_wrong_number_ex : exists v s, call_of (call3_code true formals_x) TCLOSURE = ROk v s /\ exists f args vs formals body env xs,
  calling sample_fuel s f args vs 10 /\ closure_at (cells s) f formals body env /\ formals_at (cells s) formals xs None /\ length vs <> length xs /\ (length xs < sample_fuel)%nat.
Proof.
  destruct (check_res (call_of (call3_code true formals_x) TCLOSURE) (fun _ s => clo_b 1 false s)) as (v & s & E & H). { vm_compute. reflexivity. }
  exists v, s. split; [exact E|]. clear E. apply clo_b_ok in H as (f & args & vs & fm & bd & en & xs & r & H1 & H2 & H3 & H4 & H5 & ->).
  exists f, args, vs, fm, bd, en, xs. split; [apply H1; lia|]. split; [done|]. split; [done|]. split; [lia|unfold sample_fuel; lia].
Qed.
Example C38_rest_wrong_number_ex : exists v s, call_of (call3_code true formals_4_r) TCLOSURE = ROk v s /\ exists f args vs formals body env xs r,
  calling sample_fuel s f args vs (2 * Z.of_nat (length xs) + 2) /\ closure_at (cells s) f formals body env /\ formals_at (cells s) formals xs (Some r) /\ (length vs < length xs)%nat /\ (length xs < sample_fuel)%nat.
Proof.
  destruct (check_res (call_of (call3_code true formals_4_r) TCLOSURE) (fun _ s => clo_b 4 true s)) as (v & s & E & H). { vm_compute. reflexivity. }
  exists v, s. split; [exact E|]. clear E. apply clo_b_ok in H as (f & args & vs & fm & bd & en & xs & r & H1 & H2 & H3 & H4 & H5 & y & ->).
  exists f, args, vs, fm, bd, en, xs, y. split; [apply H1; lia|]. split; [done|]. split; [done|]. split; [lia|unfold sample_fuel; lia].
Qed.
Example C38_call_lambda_ex : exists v s, call_of (call3_code false formals_x_r) TPAIR = ROk v s /\ exists f args vs formals body xs r,
  calling sample_fuel s f args vs (2 * Z.of_nat (length xs) + 4) /\ lambda_at (cells s) f formals body /\ formals_at (cells s) formals xs r /\ fits xs r vs /\ (length xs < sample_fuel)%nat.
Proof.
  destruct (check_res (call_of (call3_code false formals_x_r) TPAIR) (fun _ s => lam_b 1 true s)) as (v & s & E & H). { vm_compute. reflexivity. }
  exists v, s. split; [exact E|]. clear E. apply lam_b_ok in H as (f & args & vs & fm & bd & xs & r & H1 & H2 & H3 & H4 & H5 & y & ->).
  exists f, args, vs, fm, bd, xs, (Some y). split; [apply H1; lia|]. split; [done|]. split; [done|]. split; [cbn; lia|unfold sample_fuel; lia].
Qed.
Example C38_lambda_too_many_ex : exists v s, call_of (call3_code false formals_x) TPAIR = ROk v s /\ exists f args vs formals body xs,
  calling sample_fuel s f args vs (2 * Z.of_nat (length xs) + 12) /\ lambda_at (cells s) f formals body /\ formals_at (cells s) formals xs None /\ (length xs < length vs)%nat.
Proof.
  destruct (check_res (call_of (call3_code false formals_x) TPAIR) (fun _ s => lam_b 1 false s)) as (v & s & E & H). { vm_compute. reflexivity. }
  exists v, s. split; [exact E|]. clear E. apply lam_b_ok in H as (f & args & vs & fm & bd & xs & r & H1 & H2 & H3 & H4 & H5 & ->).
  exists f, args, vs, fm, bd, xs. split; [apply H1; lia|]. split; [done|]. split; [done|]. lia.
Qed.
Example C38_lambda_too_few_ex : exists v s, call_of (call3_code false formals_4_r) TPAIR = ROk v s /\ exists f args vs formals body xs r,
  calling sample_fuel s f args vs (2 * Z.of_nat (length xs) + 2) /\ lambda_at (cells s) f formals body /\ formals_at (cells s) formals xs r /\ (length vs < length xs)%nat /\ (length xs < sample_fuel)%nat.
Proof.
  destruct (check_res (call_of (call3_code false formals_4_r) TPAIR) (fun _ s => lam_b 4 true s)) as (v & s & E & H). { vm_compute. reflexivity. }
  exists v, s. split; [exact E|]. clear E. apply lam_b_ok in H as (f & args & vs & fm & bd & xs & r & H1 & H2 & H3 & H4 & H5 & y & ->).
  exists f, args, vs, fm, bd, xs, (Some y). split; [apply H1; lia|]. split; [done|]. split; [done|]. split; [lia|unfold sample_fuel; lia].
Qed.
(** (car 1 2 3) *)
Definition car3_code (gs : list Z) : M Z := list_m [make_variable_ (nth 3 gs 0); make_number 1; make_number 2; make_number 3].
Definition slot_b (s : state) (q : Z) : option slot :=
  match cell_b s q with
  | Some e => if c_ty e =? TREF then match cell_b s (c_car e) with Some t => if (c_ty t =? TNUMBER) || (c_ty t =? TCHAR) || (c_ty t =? TREF) then None else Some (SRef (c_car e)) | None => None end
              else if c_ty e =? TNUMBER then Some (SNum (c_cdr e)) else None
  | None => None
  end.
Lemma slot_b_ok s q sl : slot_b s q = Some sl -> slot_at (cells s) q sl.
Proof.
  unfold slot_b. destruct (cell_b s q) as [e|] eqn:E; [|done]. apply cell_b_ok in E. destruct (Z.eqb_spec (c_ty e) TREF).
  - destruct (cell_b s (c_car e)) as [t|] eqn:Et; [|done]. apply cell_b_ok in Et. destruct (Z.eqb_spec (c_ty t) TNUMBER); [done|]. destruct (Z.eqb_spec (c_ty t) TCHAR); [done|].
    destruct (Z.eqb_spec (c_ty t) TREF); [done|]. cbn [orb]. intros [= <-]. split; [by exists e|]. exists t. split; [done|].
    intros Hin. repeat (apply elem_of_cons in Hin as [Hin|Hin]; [done|]). by apply elem_of_nil in Hin.
  - destruct (Z.eqb_spec (c_ty e) TNUMBER); [|done]. intros [= <-]. by exists e.
Qed.
Definition builtin_b (s : state) (f : Z) : option Z :=
  match cell_b s f with
  | Some c => let v := c_cdr c in
      match slot_b s v, slot_b s (v + 1), slot_b s (v + 2), slot_b s (v + 3), slot_b s (v + 4), slot_b s (v + 5) with
      | Some _, Some _, Some (SRef b), Some _, Some (SNum n), Some _ => if (c_ty c =? TSTRUCT) && (c_car c =? 6) && (b =? cell_symbol_builtin) then Some n else None
      | _, _, _, _, _, _ => None
      end
  | None => None
  end.
Lemma builtin_b_ok s f n : builtin_b s f = Some n -> builtin_at (cells s) f n.
Proof.
  unfold builtin_b. destruct (cell_b s f) as [c|] eqn:E; [|done]. apply cell_b_ok in E. cbn zeta.
  destruct (slot_b s (c_cdr c)) as [s0|] eqn:E0; [|done]. destruct (slot_b s (c_cdr c + 1)) as [s1|] eqn:E1; [|done].
  destruct (slot_b s (c_cdr c + 2)) as [[| |b]|] eqn:E2; try done. destruct (slot_b s (c_cdr c + 3)) as [s3|] eqn:E3; [|done].
  destruct (slot_b s (c_cdr c + 4)) as [[n'| |]|] eqn:E4; try done. destruct (slot_b s (c_cdr c + 5)) as [s5|] eqn:E5; [|done].
  destruct (_ && _) eqn:Eb; [|done]. intros [= ->]. apply andb_prop in Eb as [Eb Hb]. apply Z.eqb_eq in Hb as ->. apply andb_prop in Eb as [Ht Hl].
  exists (c_cdr c), s0, s1, s3, s5. split; [exists c; split; [done|]; split; [lia|]; split; [cbn; lia|done]|].
  intros [|[|[|[|[|[|i]]]]]] sl Hi; [..|done]; injection Hi as <-; rewrite ?Z.add_0_r; by apply slot_b_ok.
Qed.
Example C38_builtin_wrong_number_ex : exists v s, call_of car3_code TSTRUCT = ROk v s /\ exists f args vs n,
  calling sample_fuel s f args vs 11 /\ builtin_at (cells s) f n /\ 0 <= n /\ Z.of_nat (length vs) <> n.
Proof.
  destruct (check_res (call_of car3_code TSTRUCT) (fun _ s => match calling_b s with Some (f, args, vs) => match builtin_b s f with Some n => (length vs =? 3)%nat && (n =? 1) | None => false end | None => false end))
    as (v & s & E & H). { vm_compute. reflexivity. }
  exists v, s. split; [exact E|]. clear E. destruct (calling_b s) as [[[f args] vs]|] eqn:E; [|done]. destruct (builtin_b s f) as [n|] eqn:E2; [|done].
  apply andb_prop in H as [H1 H2]. apply Nat.eqb_eq in H1. exists f, args, vs, n. split; [eapply calling_b_ok; [done|lia]|]. split; [by apply builtin_b_ok|]. lia.
Qed.

Print Assumptions C38_call_closure.
Print Assumptions C38_closure_wrong_number.
Print Assumptions C38_rest_wrong_number_refuted.
Print Assumptions C38_call_lambda.
Print Assumptions C38_lambda_too_many.
Print Assumptions C38_lambda_too_few_refuted.
Print Assumptions C38_builtin_wrong_number.
