(** C37: continuations. *)
From stdpp Require Import base gmap list fin_maps.
From Coq Require Import ZArith Lia.
From Coq Require Import ZifyBool ZifyNat.
From Verif Require Import CInt Symbols Heap HeapLemmas GcModel GcSpec GcCheck DataModel BootModel Builtins DataSpec DataLemmas CoreProofs ArrayProofs StackModel EvalModel ContProofs GcWhole.
From Verif Require Import Rep EvalSpec EvalPrimSpec EvalRep EvalLemmas EvalRun PrimModel EvalTop EvalCheck Samples PropsEval.
Import Strings.String.StringSyntax.
Open Scope Z_scope. Open Scope mes_scope.

(** The registers and the stack of [s] are what the continuation with the saved entries [sls] goes
    on with: the top frame is in R3, R2 and R0 and the others are on the stack.  An entry is the
    same object, or a number or character of the same value. *)
Definition resumed (s : state) (sls : list slot) : Prop :=
  exists r1 proc rest, Forall2 (value_at (cells s)) (R3 s :: R2 s :: r1 :: R0 s :: proc :: rest) sls /\ stack_holds s rest.

Section evaluator.
Context (gc_check : M unit) (prim : Z -> list Z -> M Z) (load_program : Z -> M Z) (fuel : nat).
Notation step := (step gc_check prim load_program fuel).

(** call/cc makes a new continuation [k] that has saved the stack with the current frame, and calls
    the receiver [f] with it. *)
Theorem C37_call_receiver s f rest es sls v :
  pair_at (cells s) (R1 s) f rest -> stack_holds s es -> 5 + 5 <= g_stack s ->
  Forall2 (value_at (cells s)) (R3 s :: R2 s :: R1 s :: R0 s :: cell_f :: es) sls ->
  DataSpec.other (cells s) cell_unspecified -> can_alloc (19 + 3 * Z.of_nat (length es)) s ->
  exists k l s', step L_call_with_current_continuation v s = ROk (Goto L_apply v) s'
    /\ pair_at (cells s') (R1 s') f l /\ pair_at (cells s') l k cell_nil
    /\ cells s !! k = None /\ saved (cells s') k sls
    /\ R0 s' = R0 s /\ stack_holds s' (cell_vm_call_with_current_continuation2 :: k :: R1 s :: R0 s :: cell_f :: es).
Proof.
  intros Hp (Hg & Hsz & Hst) Hg5 Hv Hu Hal. pose proof Hal as (A1 & A2 & A3).
  set (s1 := pushed s). set (k := g_free s). set (ck := Cell TCONTINUATION (g_continuations s) (g_stack s - 5) []).
  set (s2 := with_cell ck s1). set (s3 := set_g_continuations (g_continuations s2 + 1) s2).
  assert (can_alloc 1 s1) as Hal1 by (unfold can_alloc, s1 in *; cbn; lia).
  assert (Hc3 : cells s3 = <[k := ck]> (cells s)).
  { change (cells s3) with (cells (with_cell ck s1)). rewrite cells_with_cell by apply Hal1. done. }
  assert (Hsub : cells s ⊆ cells s3).
  { rewrite Hc3. apply insert_subseteq. rewrite cells_lookup. by rewrite Z.ltb_irrefl. }
  set (es' := R3 s :: R2 s :: R1 s :: R0 s :: cell_f :: es) in *.
  assert (Harr : forall j e, es' !! j = Some e -> g_stack_array s1 !! (g_stack s - 5 + Z.of_nat j) = Some e).
  { intros j e Hj. unfold s1, pushed. cbn.
    do 5 (destruct j as [|j]; [injection Hj as <-; repeat (rewrite lookup_insert_ne by lia);
      match goal with |- <[?a := _]> _ !! ?b = _ => replace b with a by lia end; apply lookup_insert|]).
    cbn in Hj. repeat (rewrite lookup_insert_ne by lia). rewrite <- (Hst j e Hj). f_equal. lia. }
  destruct (stack_to_vector_ok es' sls s3) as (s4 & n & w & E4 & Hn & Hm4 & Ha4).
  { split; [cbn; lia|]. split; [cbn in *; lia|]. exact Harr. }
  { eapply Forall2_impl; [exact Hv|]. intros. by eapply value_at_mono. }
  { destruct Hu as (c & Hc & Hty). exists c. split; [by eapply lookup_weaken|done]. }
  { unfold can_alloc, s3, s2, s1 in *. cbn in *. lia. }
  pose proof (mod_size _ _ _ _ Hm4). pose proof (mod_rest _ _ _ _ Hm4) as (h4 & Hs4).
  destruct (set_cdr_saved s4 k ck (g_free s3) w sls) as (s5 & E5 & Hm5 & Hsv).
  { eapply modifies_old; [exact Hm4| |intros []]. rewrite Hc3. apply lookup_insert. } { done. } { done. }
  { rewrite Hs4. unfold can_alloc in *. cbn in *. unfold k. lia. }
  pose proof (mod_rest _ _ _ _ Hm5) as (h5 & Hs5).
  set (s6 := set_g_stack (g_stack s - 5 + 5) (set_R0 (R0 s) (set_R1 (R1 s) (set_R2 (R2 s) (set_R3 (R3 s) s5))))).
  assert (Hsub6 : forall q c, cells s !! q = Some c -> cells s6 !! q = Some c).
  { intros q c Hq. change (cells s6) with (cells s5). pose proof (cells_heap _ _ _ Hq) as [_ Hlt].
    eapply modifies_old; [exact Hm5| |unfold k; lia]. eapply modifies_old; [exact Hm4| |intros []]. by eapply lookup_weaken. }
  assert (Hal6 : can_alloc 2 s6). { unfold can_alloc, s6. rewrite Hs5, Hs4. unfold can_alloc in *. cbn in *. lia. }
  destruct Hp as (cp & Hcp & Htp & Hpa & Hpd).
  assert (Hcp6 : heap s6 !! R1 s6 = Some cp). { pose proof (Hsub6 _ _ Hcp) as Hx. apply cells_heap in Hx as [Hx _]. exact Hx. }
  set (s7 := with_cell (Cell TPAIR k cell_nil []) s6). set (s8 := with_cell (Cell TPAIR f (g_free s6) []) s7).
  assert (Hal7 : can_alloc 1 s6) by (eapply can_alloc_le; [exact Hal6|lia]).
  assert (Hal8 : can_alloc 1 s7) by (unfold can_alloc; change (g_free s7) with (g_free s6 + 1); change (limit s7) with (limit s6); change (g_cells s7) with (g_cells s6); change (ARENA_SIZE s7) with (ARENA_SIZE s6); unfold can_alloc in Hal6; lia).
  set (s9 := set_R2 k (set_R3 cell_vm_call_with_current_continuation2 s8)).
  set (s' := set_R3 (R3 s) (set_R0 (R0 s) (set_R1 (g_free s7) (pushed s9)))).
  assert (Hc8 : cells s8 = <[g_free s7 := Cell TPAIR f (g_free s6) []]> (<[g_free s6 := Cell TPAIR k cell_nil []]> (cells s6))).
  { unfold s8. rewrite cells_with_cell by apply Hal8. unfold s7. rewrite cells_with_cell by apply Hal7. done. }
  assert (Hst9 : g_stack s9 = g_stack s /\ STACK_SIZE s9 = STACK_SIZE s /\ R0 s9 = R0 s /\ R1 s9 = R1 s).
  { unfold s9, s8, s7, s6. rewrite Hs5, Hs4. cbn. split; [lia|done]. }
  destruct Hst9 as (G1 & G2 & G3 & G4).
  exists k, (g_free s6), s'. split.
  { cbn [EvalModel.step]. erewrite bind_ok by (apply push_ok; [split; lia|lia]). fold s1. run.
    erewrite bind_ok by (apply make_cell_s; exact Hal1). change (with_cell _ s1) with s2. run. change (set_g_continuations _ s2) with s3.
    change (g_free s1) with k.
    assert (Hpop : gc_pop_frame s5 = ROk tt s6).
    { unfold s6. replace (g_stack s - 5) with (g_stack s5) by (rewrite Hs5, Hs4; done).
      assert (g_stack_array s5 = g_stack_array s1 /\ g_stack s5 = g_stack s - 5 /\ STACK_SIZE s5 = STACK_SIZE s) as (B1 & B2 & B3) by (rewrite Hs5, Hs4; done).
      eapply (pop_ok s5 cell_f); rewrite ?B1, ?B2, ?B3; [lia|cbn in *; lia|rewrite <- (Harr 0%nat _ eq_refl); f_equal; lia|by apply (Harr 1%nat)|by apply (Harr 2%nat)|by apply (Harr 3%nat)|by apply (Harr 4%nat)]. }
    erewrite bind_ok by exact Hpop. run. rewrite Hpa. 
    erewrite bind_ok by (apply make_cell_s; exact Hal7). fold s7.
    erewrite bind_ok by (apply make_cell_s; exact Hal8). fold s8.
    unfold push_cc. run. change (set_R2 k _) with s9.
    erewrite bind_ok by (apply push_ok; [split; lia|lia]). run. done. }
  assert (Hcs : cells s' = cells s8) by done.
  rewrite Hcs, Hc8.
  assert (g_free s7 = g_free s6 + 1) as Hf7 by done.
  assert (Hsv8 : saved (cells s8) k sls).
  { eapply (saved_mono (cells s5)); [|exact Hsv]. unfold s8. 
    transitivity (cells s7).
    - unfold s7. rewrite cells_with_cell by apply Hal7. apply insert_subseteq. rewrite cells_lookup. by rewrite Z.ltb_irrefl.
    - rewrite cells_with_cell by apply Hal8. apply insert_subseteq. rewrite cells_lookup. by rewrite Z.ltb_irrefl. }
  rewrite Hc8 in Hsv8.
  split. { eexists. split; [apply lookup_insert|done]. }
  split. { eexists. split; [rewrite lookup_insert_ne by lia; apply lookup_insert|done]. }
  split; [rewrite cells_lookup; by rewrite Z.ltb_irrefl|]. split; [done|]. split; [done|].
  split; [cbn -[s9]; lia|]. split; [cbn -[s9]; rewrite G1, G2; cbn in *; lia|].
  intros j e Hj. change (g_stack s') with (g_stack s9 - 5). change (g_stack_array s') with (g_stack_array (pushed s9)). unfold pushed.
  rewrite G3, G4, G1. change (R3 s9) with cell_vm_call_with_current_continuation2. change (R2 s9) with k. cbn -[s9].
  do 5 (destruct j as [|j]; [injection Hj as <-; repeat (rewrite lookup_insert_ne by lia);
      match goal with |- <[?a := _]> _ !! ?b = _ => replace b with a by lia end; apply lookup_insert|]).
  cbn in Hj. repeat (rewrite lookup_insert_ne by lia).
  assert (g_stack_array s9 = g_stack_array s1) as -> by (unfold s9, s8, s7, s6; rewrite Hs5, Hs4; done).
  pose proof (Harr (5 + j)%nat e Hj) as Hx. rewrite <- Hx. f_equal.
Qed.

(** The receiver of call/cc has returned: the continuation [k] (in R2) gets the stack as it is.
    Then the top frame is popped, and evaluation goes on with the receiver's value in R1. *)
Theorem C37_capture s k c es sls v :
  R2 s = k -> cells s !! k = Some c -> c_ty c = TCONTINUATION -> 1 <= k ->
  stack_holds s es -> Forall2 (value_at (cells s)) es sls -> (5 <= length es)%nat ->
  DataSpec.other (cells s) cell_unspecified -> can_alloc (1 + 3 * Z.of_nat (length es)) s ->
  exists s1 s2, step L_call_with_current_continuation2 v s = ROk (Goto L_vm_return v) s1
    /\ step L_vm_return v s1 = ROk (Goto L_eval_apply v) s2
    /\ saved (cells s2) k sls /\ resumed s2 sls /\ R1 s2 = R1 s.
Proof.
  intros HR Hc Ht Hk1 Hst Hv Hlen Hu Hal. pose proof (cells_heap _ _ _ Hc) as [_ Hklt].
  destruct (stack_to_vector_ok es sls s Hst Hv Hu Hal) as (sa & n & w & E1 & Hn & Hm & Ha).
  assert (Hlim : limit sa = limit s) by by eapply modifies_limit. destruct Hal as (A1 & A2 & A3).
  destruct (set_cdr_saved sa k c (g_free s) w sls) as (s1 & E2 & Hm2 & Hs).
  { eapply modifies_old; [exact Hm|exact Hc|intros []]. } { done. } { done. } { lia. }
  assert (Hm' : modifies (eq k) (n + 0) s s1).
  { eapply modifies_trans; [eapply modifies_weaken; [|exact Hm]|exact Hm2|done]. by intros ? ? []. }
  pose proof (mod_rest _ _ _ _ Hm') as (h & Hs1).
  assert (Hv1 : Forall2 (value_at (cells s1)) es sls).
  { eapply Forall2_impl; [exact Hv|]. intros e sl Hve. destruct (decide (e = k)) as [->|Hne].
    - assert (sl = SRef k) as ->.
      { destruct sl as [x|x|p]; cbn in Hve; [|destruct Hve as [Hve _]|by destruct Hve as [<- _]];
          destruct Hve as (c' & Hc' & Hty & _); rewrite Hc in Hc'; injection Hc' as <-; rewrite Ht in Hty; done. }
      destruct Hs as (c' & ? & Hc' & Ht' & _). split; [done|]. exists c'. split; [done|]. rewrite Ht'. vm_compute. intros Hin.
      repeat (apply elem_of_cons in Hin as [Hin|Hin]; [done|]). by apply elem_of_nil in Hin.
    - eapply value_at_keep; [exact Hm'|congruence|done]. }
  destruct es as [|a [|b [|r1 [|d [|p rest]]]]]; cbn in Hlen; try lia.
  destruct Hst as (Hg & Hsz & Hst).
  exists s1, (set_R1 (R1 s) (set_g_stack (g_stack s + 5) (set_R0 d (set_R1 r1 (set_R2 b (set_R3 a s1)))))).
  split. { cbn [EvalModel.step]. run. rewrite HR. by erewrite bind_ok by exact E2. }
  split.
  { cbn [EvalModel.step]. unfold return_with. run.
    erewrite bind_ok by (eapply (pop_ok s1 p d r1 b a); rewrite Hs1; cbn in *;
      [lia|lia|rewrite <- (Hst 0%nat a eq_refl); f_equal; lia|rewrite <- (Hst 1%nat b eq_refl); f_equal; lia
      |rewrite <- (Hst 2%nat r1 eq_refl); f_equal; lia|rewrite <- (Hst 3%nat d eq_refl); f_equal; lia|rewrite <- (Hst 4%nat p eq_refl); f_equal; lia]).
    run. rewrite Hs1. done. }
  split; [done|]. split; [|done]. exists r1, p, rest. split; [exact Hv1|]. split; [cbn; lia|]. split; [rewrite Hs1; cbn in *; lia|].
  intros j e Hj. rewrite Hs1. cbn. rewrite <- (Hst (5 + j)%nat e Hj). f_equal. lia.
Qed.

(** Calling a continuation with a value: from any state, at any depth, the saved stack is
    reinstated and evaluation goes on with that value in R1 — just as after the capture.  The
    continuation is not used up: it can be called again. *)
Theorem C37_invoke s k args x rest sls v :
  pair_at (cells s) (R1 s) k args -> pair_at (cells s) args x rest -> saved (cells s) k sls ->
  (5 <= length sls)%nat -> Z.of_nat (length sls) <= STACK_SIZE s ->
  0 <= g_stack s -> g_stack s + 5 <= STACK_SIZE s -> can_alloc (Z.of_nat (length sls)) s ->
  exists s', step L_apply v s = ROk (Goto L_eval_apply v) s'
    /\ resumed s' sls /\ R1 s' = x /\ saved (cells s') k sls
    /\ (forall p, p < g_free s -> heap s' !! p = heap s !! p).
Proof.
  intros Hp Ha (c & w & Hc & Ht & Hw) Hlen Hsz Hg1 Hg2 Hal.
  pose proof (cells_heap _ _ _ Hc) as [Hch _].
  destruct Hp as (cp & Hcp & Htp & Hpa & Hpd). pose proof (cells_heap _ _ _ Hcp) as [Hcph _].
  destruct Ha as (ca & Hca & Hta & Haa & Had). pose proof (cells_heap _ _ _ Hca) as [Hcah _].
  destruct Hw as [(cw & Hcw & Htw & Hlw & Hvw) Hsl]. pose proof (cells_heap _ _ _ Hcw) as [Hcwh _].
  set (s1 := set_g_stack_array (<[g_stack s + GC_FRAME_PROCEDURE := k]> (g_stack_array s)) s).
  destruct (load_stack_ok sls 0 sls (STACK_SIZE s - Z.of_nat (length sls)) (c_cdr c) w s1) as (es & s2 & n & arr & s0 & E & Hn & Hm & -> & Hv & Hnew & _).
  { split; [by exists cw|done]. } { done. } { lia. } { unfold s1. cbn. lia. } { done. }
  pose proof (Forall2_length _ _ _ Hv) as Hle.
  destruct es as [|a [|b [|r1 [|d [|p es']]]]]; cbn in Hle; try lia.
  pose proof (mod_rest _ _ _ _ Hm) as (h & Hs0).
  set (g := STACK_SIZE s - Z.of_nat (length sls)) in *.
  exists (set_R1 x (set_g_stack (g + 5) (set_R0 d (set_R1 r1 (set_R2 b (set_R3 a (set_g_stack g (set_g_stack_array arr s0)))))))).
  assert (Hsz0 : STACK_SIZE s0 = STACK_SIZE s) by by rewrite Hs0.
  assert (Hsub : cells s ⊆ cells s0) by (apply (modifies_cells _ _ _ Hm)).
  split.
  { cbn [EvalModel.step]. unfold step_apply. run. rewrite Hpa. run.
    erewrite bind_ok by (apply stack_set_ok; unfold GC_FRAME_PROCEDURE; lia). fold s1.
    assert (forall q e, heap s !! q = Some e -> heap s1 !! q = Some e) as Hheap by done.
    run. rewrite Ht. change (TCONTINUATION =? TSTRUCT) with false. run. change (cell_f =? cell_t) with false. cbv iota.
    change (TCONTINUATION =? TCLOSURE) with false. cbv iota. rewrite Z.eqb_refl. run.
    rewrite Hlw. destruct (Z.eqb_spec (Z.of_nat (length sls)) 0); [lia|]. run. rewrite Nat2Z.id.
    erewrite bind_ok by exact E. run.
    erewrite bind_ok by (eapply (pop_ok _ p d r1 b a); cbn; rewrite ?Hsz0;
      [lia|lia|rewrite <- (Hnew 0%nat a eq_refl); f_equal; lia|rewrite <- (Hnew 1%nat b eq_refl); f_equal; lia
      |rewrite <- (Hnew 2%nat r1 eq_refl); f_equal; lia|rewrite <- (Hnew 3%nat d eq_refl); f_equal; lia|rewrite <- (Hnew 4%nat p eq_refl); f_equal; lia]).
    cbn.
    assert (heap s0 !! R1 s = Some cp) as H1 by (pose proof (lookup_weaken _ _ _ _ Hcp Hsub) as Hx; by apply cells_heap in Hx as [? _]).
    assert (heap s0 !! args = Some ca) as H2 by (pose proof (lookup_weaken _ _ _ _ Hca Hsub) as Hx; by apply cells_heap in Hx as [? _]).
    erewrite bind_ok by (apply cdr_of_s; cbn; exact H1). rewrite Hpd.
    erewrite bind_ok by (apply car_of_s; cbn; exact H2). rewrite Haa. run. done. }
  split.
  { exists r1, p, es'. split; [exact Hv|]. split; [cbn; lia|]. split; [cbn; rewrite Hsz0; lia|].
    intros j e Hj. cbn. rewrite <- (Hnew (5 + j)%nat e Hj). f_equal. lia. }
  split; [done|]. split.
  { eapply saved_mono; [exact Hsub|]. exists c, w. split; [done|]. split; [done|]. split; [by exists cw|done]. }
  intros q Hq. cbn. apply (mod_keep _ _ _ _ Hm q); [exact Hq|intros []].
Qed.
End evaluator.

(** A collection between the capture and the call moves everything, but the continuation still
    has the same stack. *)
Definition move_slot (f : Z -> Z) (sl : slot) : slot := match sl with SRef p => SRef (f p) | _ => sl end.
Theorem C37_survives_collection s k sls :
  machine_ok s -> 5 <= g_stack s -> has_room s -> alive s k -> saved (heap s) k sls ->
  exists f s', gc s = ROk tt s' /\ moved f s s' /\ saved (cells s') (f k) (move_slot f <$> sls).
Proof.
  intros Hok Hst Hr Hk (c & v & Hc & Ht & Ha).
  destruct (gc_correct s Hok Hst Hr) as (f & s' & Hgc & Hm & Hok'). exists f, s'. split; [done|]. split; [done|].
  assert (Hin : forall p c', alive s p -> heap s' !! f p = Some c' -> cells s' !! f p = Some c' /\ wf_obj cell_nil (g_free s') (heap s') (f p) c').
  { intros p c' Hp Hc'. assert (alive s' (f p)) as Hp' by (apply (mv_alive _ _ _ Hm); eauto).
    destruct (ok_obj _ _ _ _ (mo_heap _ Hok') _ Hp') as (c2 & Hc2 & Hwf). rewrite Hc' in Hc2. injection Hc2 as <-.
    split; [|done]. apply heap_cells; [done|]. apply (wf_range _ _ _ _ _ Hwf). }
  assert (Hstep : forall p q, alive s p -> points_to (heap s) p q -> alive s q).
  { intros p q (r & Hr' & Hrt) Hpq. exists r. split; [done|]. eapply rtc_r; done. }
  destruct (mv_obj _ _ _ Hm _ Hk) as (c1 & c' & Hc1 & Hc' & (T1 & T2 & T3) & _ & _). rewrite Hc in Hc1. injection Hc1 as <-.
  assert (Hw : alive s (c_cdr c)). { eapply Hstep; [exact Hk|]. eapply pt_cell; [exact Hc|]. unfold cell_refs. rewrite Ht. vm_compute. by left. }
  assert (c_cdr c' = f (c_cdr c)) as Hcdr. { rewrite T3; [by rewrite Ht| |]; unfold is_array, GcSpec.is_bytes; by rewrite Ht. }
  destruct Ha as [(cw & Hcw & Htw & Hl & Hv) Hsl].
  destruct (mv_obj _ _ _ Hm _ Hw) as (cw1 & cw' & Hcw1 & Hcw' & (W1 & W2 & _) & _ & Hel). rewrite Hcw in Hcw1. injection Hcw1 as <-.
  assert (is_array cw = true) as Harr by (unfold is_array; by rewrite Htw).
  assert (Hcar' : c_car cw' = c_car cw). { rewrite W2, Htw. done. }
  destruct (Hin _ _ Hw Hcw') as [Hcw2 Hwf].
  destruct (wf_array _ _ _ _ _ Hwf) as (_ & _ & Htop & _); [unfold is_array; by rewrite W1, Htw|].
  exists c', (c_cdr cw'). destruct (Hin _ _ Hk Hc') as [-> _]. split; [done|]. split; [congruence|]. rewrite Hcdr. split.
  { exists cw'. split; [done|]. rewrite fmap_length. split; [congruence|]. split; [congruence|done]. }
  intros i sl' Hi. apply list_lookup_fmap_Some in Hi as (sl & Hi & ->). specialize (Hsl i sl Hi).
  pose proof (lookup_lt_Some _ _ _ Hi) as Hlt.
  destruct (Hel Harr (Z.of_nat i) ltac:(lia)) as (e & e' & He & He' & (X1 & X2 & X3)). rewrite Hv in He.
  assert (He2 : cells s' !! (c_cdr cw' + Z.of_nat i) = Some e') by (apply heap_cells; [done|lia]).
  destruct sl as [n|n|p]; cbn in Hsl |- *.
  - destruct Hsl as (e1 & He1 & Hte & Hn). rewrite He in He1. injection He1 as <-. exists e'. split; [done|]. split; [congruence|].
    rewrite X3; [by rewrite Hte| |]; unfold is_array, GcSpec.is_bytes; by rewrite Hte.
  - destruct Hsl as [(e1 & He1 & Hte & Hn) Hint]. rewrite He in He1. injection He1 as <-. split; [|done]. exists e'. split; [done|]. split; [congruence|].
    rewrite X3; [by rewrite Hte| |]; unfold is_array, GcSpec.is_bytes; by rewrite Hte.
  - destruct Hsl as [(e1 & He1 & Hte & Hn) (o & Ho & Hot)]. rewrite He in He1. injection He1 as <-. split.
    + exists e'. split; [done|]. split; [congruence|]. rewrite X2, Hte, Hn. done.
    + assert (Hp : alive s p). { eapply Hstep; [exact Hw|]. eapply (pt_elem _ _ _ (Z.of_nat i)); [exact Hcw|done|lia|by rewrite Hv|].
        unfold cell_refs. rewrite Hte, Hn. vm_compute. by left. }
      destruct (mv_obj _ _ _ Hm _ Hp) as (o1 & o' & Ho1 & Ho' & (O1 & _) & _). rewrite Ho in Ho1. injection Ho1 as <-.
      exists o'. destruct (Hin _ _ Hp Ho') as [-> _]. split; [done|]. by rewrite O1.
Qed.

(** ** Concrete cases *)
(** run until the [k]-th time [tgt] is about to run *)
(** Evaluation does not disturb it.  While an expression is evaluated, with all the calls,
    assignments, allocations and collections that takes, nothing writes to a saved stack: when the
    evaluation returns, the continuation has saved the same numbers, characters and objects.  [f]
    and [f'] tell where each object is before and after. *)
Definition same_slot (f f' : idmap) (sl sl' : slot) : Prop :=
  match sl, sl' with
  | SNum n, SNum n' | SChar n, SChar n' => n = n'
  | SRef p, SRef p' => exists i, f i p /\ f' i p'
  | _, _ => False
  end.
Lemma store_loc_type μ σ l o : store_at [] μ σ -> σ !! Loc l = Some o ->
  match o with OCell t _ _ => t = TPAIR \/ t = TCLOSURE | OArr t _ => t = TSTRUCT \/ t = TVECTOR | OBytes _ => False end.
Proof.
  intros S Ho. destruct (μ !! l) as [so|] eqn:E.
  - pose proof (sa_obj _ _ _ S _ _ E) as H. destruct so; cbn in H.
    + destruct H as (j & Hj & _). rewrite Hj in Ho. injection Ho as <-. by left.
    + destruct H as (j & j' & Hj & _). rewrite Hj in Ho. injection Ho as <-. by left.
    + destruct H as (? & ? & ? & ? & ? & ? & Hj & _). rewrite Hj in Ho. injection Ho as <-. by right.
    + destruct H as (es & Hj & _). rewrite Hj in Ho. injection Ho as <-. by left.
    + destruct H as (? & ? & ? & Hj & _). rewrite Hj in Ho. injection Ho as <-. by left.
    + destruct H as (es & Hj & _). rewrite Hj in Ho. injection Ho as <-. by right.
  - rewrite (sa_free _ _ _ S _ E) in Ho; [done|]. intros Hin. by apply elem_of_nil in Hin.
Qed.
Lemma rep_in_cells f M s i p : rep f M s -> f i p -> exists c o, m_heap M !! i = Some o /\ obj_at f (heap s) o p /\ cells s !! p = Some c /\ heap s !! p = Some c /\ wf_obj cell_nil (g_free s) (heap s) p c.
Proof.
  intros R Hi. destruct (rh_obj _ _ _ (rp_heap _ _ _ R) _ _ Hi) as (o & Ho & Hat). destruct (rh_wf _ _ _ (rp_heap _ _ _ R) _ _ Hi) as (c & Hc & Hwf).
  exists c, o. split; [done|]. split; [done|]. split; [|done]. apply heap_cells; [done|]. apply (wf_range _ _ _ _ _ Hwf).
Qed.
Lemma obj_type f h o p c : obj_at f h o p -> h !! p = Some c -> c_ty c = match o with OCell t _ _ | OArr t _ => t | OBytes _ => TBYTES end.
Proof. intros Ho Hc. destruct o; destruct Ho as (c' & Hc' & Ht & _); rewrite Hc in Hc'; by injection Hc' as ->. Qed.
(** the entries of the evaluator in the frames of calls are entries *)
Definition frames_ok (σ : oheap) : Prop := forall q o, σ !! Key q = Some o -> exists w, o = opair (Imp cell_closure) w.
(** a saved stack whose objects are still objects of the same kind *)
Lemma saved_again f f' M M' s s' μ μ' k w n es p p' sls : rep f M s -> rep f' M' s' -> ext (m_heap M) (m_heap M') ->
  store_at [] μ (m_heap M) -> store_at [] μ' (m_heap M') -> frames_ok (m_heap M) ->
  m_heap M !! Imp k = Some (OCell TCONTINUATION (WInt n) (WId (Imp w))) -> m_heap M !! Imp w = Some (OArr TVECTOR es) ->
  f (Imp k) p -> f' (Imp k) p' -> saved (cells s) p sls -> exists sls', saved (cells s') p' sls' /\ Forall2 (same_slot f f') sls sls'.
Proof.
  intros R R' X S S' HF Hk Hw Fk Fk' (c & v & Hc & Ht & (cw & Hcw & Htw & Hlen & Hv) & Hsl).
  pose proof (ext_frozen _ _ X (Imp _) _ I Hk) as Hk'. pose proof (ext_frozen _ _ X (Imp _) _ I Hw) as Hw'.
  destruct (rep_in_cells _ _ _ _ _ R Fk) as (c1 & o1 & Ho1 & Hat1 & Hc1 & Hh1 & _). rewrite Hk in Ho1. injection Ho1 as <-. rewrite Hc in Hc1. injection Hc1 as <-.
  destruct Hat1 as (c2 & Hc2 & _ & _ & _ & Fw). rewrite Hh1 in Hc2. injection Hc2 as <-. cbn in Fw.
  destruct (rep_in_cells _ _ _ _ _ R Fw) as (cw1 & o2 & Ho2 & Hat2 & Hcw1 & Hhw & Hwf). rewrite Hw in Ho2. injection Ho2 as <-. rewrite Hcw in Hcw1. injection Hcw1 as <-.
  destruct Hat2 as (cw2 & Hcw2 & _ & _ & Hl2 & Hes). rewrite Hhw in Hcw2. injection Hcw2 as <-.
  destruct (rep_in_cells _ _ _ _ _ R' Fk') as (c3 & o3 & Ho3 & Hat3 & Hc3 & Hh3 & _). rewrite Hk' in Ho3. injection Ho3 as <-.
  destruct Hat3 as (c4 & Hc4 & Ht4 & _ & _ & Fw'). rewrite Hh3 in Hc4. injection Hc4 as <-. cbn in Fw'.
  destruct (rep_in_cells _ _ _ _ _ R' Fw') as (cw3 & o4 & Ho4 & Hat4 & Hcw3 & Hhw3 & Hwf3). rewrite Hw' in Ho4. injection Ho4 as <-.
  destruct Hat4 as (cw4 & Hcw4 & Ht5 & _ & Hl4 & Hes'). rewrite Hhw3 in Hcw4. injection Hcw4 as <-.
  assert (length sls = length es) as Hll by lia.
  destruct (wf_array _ _ _ _ _ Hwf3) as (_ & _ & Htop & _); [unfold is_array; by rewrite Ht5|].
  assert (forall j, (j <= length es)%nat -> exists sls', length sls' = j /\ Forall2 (same_slot f f') (take j sls) sls' /\ forall i sl, sls' !! i = Some sl -> slot_at (cells s') (c_cdr cw3 + Z.of_nat i) sl) as Hind.
  { induction j as [|j IH]; intros Hj; [exists []; split; [done|]; split; [constructor|intros i sl Hi; by rewrite lookup_nil in Hi]|].
    destruct IH as (sls' & L1 & L2 & L3); [lia|]. destruct (lookup_lt_is_Some_2 sls j ltac:(lia)) as [sl Hslj]. destruct (lookup_lt_is_Some_2 es j ltac:(lia)) as [a Ha].
    destruct (Hes _ _ Ha) as (e & He & Hre). destruct (Hes' _ _ Ha) as (e' & He' & Hre'). pose proof (Hsl _ _ Hslj) as Hsat. rewrite <- Hv in Hsat.
    assert (cells s' !! (c_cdr cw3 + Z.of_nat j) = Some e') as Hce' by (apply heap_cells; [done|lia]).
    assert (exists sl', same_slot f f' sl sl' /\ slot_at (cells s') (c_cdr cw3 + Z.of_nat j) sl') as (sl' & Hsame & Hat').
    { destruct sl as [m|m|q]; cbn in Hsat.
      - destruct Hsat as (e1 & He1 & Te & Ve). apply cells_heap in He1 as [He1 _]. rewrite He in He1. injection He1 as <-.
        destruct a as [m'|m'|i]; cbn in Hre, Hre'; [|by destruct Hre as [Hx _]; rewrite Te in Hx..]. exists (SNum m). split; [done|]. exists e'. split; [done|]. destruct Hre, Hre'. split; [done|congruence].
      - destruct Hsat as [(e1 & He1 & Te & Ve) Hint]. apply cells_heap in He1 as [He1 _]. rewrite He in He1. injection He1 as <-.
        destruct a as [m'|m'|i]; cbn in Hre, Hre'; [by destruct Hre as [Hx _]; rewrite Te in Hx| |by destruct Hre as [Hx _]; rewrite Te in Hx]. exists (SChar m). split; [done|]. split; [|done]. exists e'. split; [done|]. destruct Hre, Hre'. split; [done|congruence].
      - destruct Hsat as [(e1 & He1 & Te & Ve) (co & Hco & Hot)]. apply cells_heap in He1 as [He1 _]. rewrite He in He1. injection He1 as <-.
        destruct a as [m'|m'|i]; cbn in Hre, Hre'; [by destruct Hre as [Hx _]; rewrite Te in Hx..|]. destruct Hre as [_ Fi], Hre' as [Te' Fi']. rewrite Ve in Fi.
        exists (SRef (c_car e')). split; [by exists i|]. split; [by exists e'|].
        destruct (rep_in_cells _ _ _ _ _ R Fi) as (ci & oi & Hoi & Hati & Hci & Hhi & _). rewrite Hco in Hci. injection Hci as <-.
        destruct (rep_in_cells _ _ _ _ _ R' Fi') as (ci' & oi' & Hoi' & Hati' & Hci' & Hhi' & _). exists ci'. split; [done|].
        rewrite (obj_type _ _ _ _ _ Hati' Hhi'). rewrite (obj_type _ _ _ _ _ Hati Hhi) in Hot. destruct i as [l|ki|ki|ki].
        + pose proof (store_loc_type _ _ _ _ S' Hoi') as Hty. destruct oi'; [destruct Hty as [->| ->]|destruct Hty as [->| ->]|done]; vm_compute; intros Hin; repeat (apply elem_of_cons in Hin as [Hin|Hin]; [done|]); by apply elem_of_nil in Hin.
        + rewrite (ext_frozen _ _ X (Imp _) _ I Hoi) in Hoi'. by injection Hoi' as <-.
        + destruct (HF _ _ Hoi) as [wk ->]. destruct (ext_key _ _ X _ _ Hoi) as [wk' Hk2]. rewrite Hk2 in Hoi'. injection Hoi' as <-. exact Hot.
        + rewrite (ext_frozen _ _ X (Txt _) _ I Hoi) in Hoi'. by injection Hoi' as <-. }
    exists (sls' ++ [sl']). split; [rewrite app_length; cbn; lia|]. split.
    - rewrite (take_S_r _ _ _ Hslj). apply Forall2_app; [done|]. by repeat constructor.
    - intros i sl0 Hi. destruct (decide (i < j)%nat) as [Hlt|Hge]; [rewrite lookup_app_l in Hi by lia; by apply L3|].
      rewrite lookup_app_r in Hi by lia. destruct (i - length sls')%nat as [|d] eqn:Ed; [|done]. injection Hi as <-. by replace i with j by lia. }
  destruct (Hind (length es) ltac:(lia)) as (sls' & L1 & L2 & L3). exists sls'. split.
  - exists c3, (c_cdr cw3). split; [done|]. split; [done|]. split; [|done]. exists cw3. split; [done|]. split; [done|]. split; [lia|done].
  - by rewrite take_ge in L2 by lia.
Qed.
Theorem C37_evaluation_keeps G defs load fuel width d ρ μ e μ' v :
  eval width (prims width) (ge_vars G) defs d ρ μ e μ' v -> env_ok μ ρ -> store_ok G μ ->
  forall f s σ r0 i r2 r2' x r0' p st sz gl,
    rep f (Mst σ r0 i r2 (Imp cell_vm_eval) (Imp cell_unspecified :: r2' :: x :: r0' :: p :: st) sz gl) s ->
    consts_ok G σ -> code_at σ e i -> env_at σ ρ r0 -> store_at [] μ σ -> frames_ok σ -> gl !! 3%nat = Some (ge_module G) ->
    Z.of_nat (length st) + 5 * (Z.of_nat d + 2) <= sz ->
    roomy_ load fuel (step_memory width) L_eval_apply (Locals false false) s ->
    forall k w n es, σ !! Imp k = Some (OCell TCONTINUATION (WInt n) (WId (Imp w))) -> σ !! Imp w = Some (OArr TVECTOR es) ->
    exists m q s' f' σ' j, (forall m', (m <= m')%nat -> eval_apply_ load fuel m' s = ROk q s')
      /\ rep f' (Mst σ' r0' j r2' (Imp cell_unspecified) st sz gl) s' /\ f' j q /\ val_at σ' v j /\ store_at [] μ' σ'
      /\ forall a a' sls, f (Imp k) a -> f' (Imp k) a' -> saved (cells s) a sls ->
           exists sls', saved (cells s') a' sls' /\ Forall2 (same_slot f f') sls sls'.
Proof.
  intros H Eo So f s σ r0 i r2 r2' x r0' p st sz gl R C Hc He S HF HM Hsz Hroom k w n es Hk Hw.
  destruct (eval_top G defs load fuel width d ρ μ e μ' v H Eo So f s σ r0 i r2 _ r2' x r0' p st sz gl R eq_refl C Hc He S HM Hsz Hroom)
    as (m & q & s' & f' & σ' & j & H1 & H2 & H3 & H4 & H5 & X).
  exists m, q, s', f', σ', j. split; [done|]. split; [done|]. split; [done|]. split; [done|]. split; [done|].
  intros a a' sls Fa Fa' Hsv. eapply (saved_again f f' _ _ s s' μ μ' k w n es a a' sls R H2); done.
Qed.

Definition label_eqb (a b : label) : bool := match a, b with L_call_with_current_continuation, L_call_with_current_continuation | L_call_with_current_continuation2, L_call_with_current_continuation2 | L_apply, L_apply => true | _, _ => false end.
Definition sample_step := step GcModel.gc_check (prim_call sample_fuel) (no_load sample_fuel) sample_fuel.
Fixpoint run_to (tgt : label) (chk : state -> bool) (n : nat) (l : label) (v : locals) (s : state) : res locals :=
  match n with
  | O => ROutOfFuel
  | S n' => if label_eqb l tgt && chk s then ROk v s else
      match sample_step l v s with ROk (Goto l' v') s' => run_to tgt chk n' l' v' s' | _ => RAbort end
  end.
Definition some_slot (s : state) (e : Z) : option slot :=
  if e <? g_free s then
    match heap s !! e with
    | Some c => if c_ty c =? TNUMBER then Some (SNum (c_cdr c)) else if c_ty c =? TCHAR then if in_int (c_cdr c) then Some (SChar (c_cdr c)) else None
                else if c_ty c =? TREF then None else Some (SRef e)
    | None => None
    end
  else None.
Fixpoint some_slots (s : state) (es : list Z) : option (list slot) :=
  match es with
  | [] => Some []
  | e :: es => match some_slot s e, some_slots s es with Some sl, Some sls => Some (sl :: sls) | _, _ => None end
  end.
Lemma some_slot_ok s e sl : some_slot s e = Some sl -> value_at (cells s) e sl.
Proof.
  unfold some_slot. destruct (Z.ltb_spec e (g_free s)) as [Hlt|]; [|done]. destruct (heap s !! e) as [c|] eqn:Hc; [|done].
  apply (heap_cells _ _ _ Hc) in Hlt. destruct (Z.eqb_spec (c_ty c) TNUMBER); [intros [= <-]; by exists c|].
  destruct (Z.eqb_spec (c_ty c) TCHAR); [destruct (in_int (c_cdr c)) eqn:Hi; [|done]; intros [= <-]; split; [by exists c|done]|]. destruct (Z.eqb_spec (c_ty c) TREF); [done|]. intros [= <-]. split; [done|]. exists c.
  split; [done|]. intros Hin. repeat (apply elem_of_cons in Hin as [Hin|Hin]; [done|]). by apply elem_of_nil in Hin.
Qed.
Lemma some_slots_ok s es : forall sls, some_slots s es = Some sls -> Forall2 (value_at (cells s)) es sls.
Proof.
  induction es as [|e es IH]; intros sls H; cbn in H; [injection H as <-; constructor|].
  destruct (some_slot s e) eqn:E; [|done]. destruct (some_slots s es); [|done]. injection H as <-.
  constructor; [by apply some_slot_ok|by apply IH].
Qed.
Definition stack_b (s : state) : bool :=
  (0 <=? g_stack s) && (g_stack s + Z.of_nat (length (stack_entries s)) =? STACK_SIZE s)
  && forallb (fun j => match g_stack_array s !! (g_stack s + Z.of_nat j), stack_entries s !! j with Some a, Some b => a =? b | _, _ => false end) (seq 0 (length (stack_entries s))).
Lemma stack_b_ok s : stack_b s = true -> stack_holds s (stack_entries s).
Proof.
  unfold stack_b. intros H. apply andb_prop in H as [H H3]. apply andb_prop in H as [H1 H2].
  split; [lia|]. split; [lia|]. intros j e Hj. rewrite forallb_forall in H3. specialize (H3 j). rewrite Hj in H3.
  pose proof (lookup_lt_Some _ _ _ Hj). destruct (g_stack_array s !! _); [|specialize (H3 ltac:(apply in_seq; lia)); done].
  f_equal. apply Z.eqb_eq, H3, in_seq. lia.
Qed.
Definition alloc_b (n : Z) (s : state) : bool := (1 <=? g_free s) && (g_free s + n <=? limit s) && (g_free s + n - g_cells s <=? ARENA_SIZE s).
Lemma alloc_b_ok n s : alloc_b n s = true -> can_alloc n s.
Proof. unfold alloc_b, can_alloc. lia. Qed.
Definition other_b (s : state) (p : Z) : bool := match some_slot s p with Some (SRef _) => true | _ => false end.
Lemma other_b_ok s p : other_b s p = true -> DataSpec.other (cells s) p.
Proof. unfold other_b. intros H. destruct (some_slot s p) as [[| |q]|] eqn:E; try done. apply some_slot_ok in E. by destruct E as [-> ?]. Qed.

(** ((lambda (kk n) (set! n (+ n (call/cc (lambda (k) (set! kk k) 1)))) (if (= n 42) n (kk 41))) #f 1) *)
Definition again_code (gs : list Z) : M Z :=
  let k := sym (bytes_of "k") in let kk := sym (bytes_of "kk") in let n := sym (bytes_of "n") in
  let g k := make_variable_ (nth k gs 0) in
  let rcv := list_m [ret cell_symbol_lambda; list_m [k]; list_m [ret cell_symbol_set_x; kk; k]; make_number 1] in
  list_m [list_m [ret cell_symbol_lambda; list_m [kk; n];
                  list_m [ret cell_symbol_set_x; n; list_m [g 2%nat; n; list_m [ret cell_symbol_call_with_current_continuation; rcv]]];
                  list_m [ret cell_symbol_if; list_m [g 0%nat; n; make_number 42]; n; list_m [kk; make_number 41]]];
          ret cell_f; make_number 1].
Definition again_at (tgt : label) (chk : state -> bool) : res locals :=
  match sample_state again_code with ROk _ s => run_to tgt chk sample_fuel L_eval_apply (Locals false false) s | _ => RUB end.
Definition call_cc_b (s : state) : bool :=
  match heap s !! R1 s with
  | Some c => (c_ty c =? TPAIR) && (R1 s <? g_free s)
  | None => false
  end && stack_b s && (10 <=? g_stack s) && other_b s cell_unspecified && alloc_b (19 + 3 * Z.of_nat (length (stack_entries s))) s
  && match some_slots s (R3 s :: R2 s :: R1 s :: R0 s :: cell_f :: stack_entries s) with Some _ => true | None => false end.

Example C37_call_receiver_ex : exists v s, again_at L_call_with_current_continuation (fun _ => true) = ROk v s /\
  exists f rest sls, pair_at (cells s) (R1 s) f rest /\ stack_holds s (stack_entries s) /\ 5 + 5 <= g_stack s
    /\ Forall2 (value_at (cells s)) (R3 s :: R2 s :: R1 s :: R0 s :: cell_f :: stack_entries s) sls
    /\ DataSpec.other (cells s) cell_unspecified /\ can_alloc (19 + 3 * Z.of_nat (length (stack_entries s))) s.
Proof.
  destruct (check_res (again_at L_call_with_current_continuation (fun _ => true)) (fun _ s => call_cc_b s)) as (v & s & E & H). { vm_compute. reflexivity. }
  exists v, s. split; [exact E|]. clear E. unfold call_cc_b in H.
  apply andb_prop in H as [H H6]. apply andb_prop in H as [H H5]. apply andb_prop in H as [H H4]. apply andb_prop in H as [H H3]. apply andb_prop in H as [H1 H2].
  destruct (heap s !! R1 s) as [c|] eqn:Hc; [|done]. apply andb_prop in H1 as [Ht Hlt].
  destruct (some_slots s _) as [sls|] eqn:Hs; [|done].
  exists (c_car c), (c_cdr c), sls. split; [exists c; split; [apply heap_cells; [done|lia]|split; [lia|done]]|].
  split; [by apply stack_b_ok|]. split; [lia|]. split; [by apply some_slots_ok|]. split; [by apply other_b_ok|by apply alloc_b_ok].
Qed.

Definition capture_b (s : state) : bool :=
  match heap s !! R2 s with
  | Some c => (c_ty c =? TCONTINUATION) && (R2 s <? g_free s) && (1 <=? R2 s)
  | None => false
  end && stack_b s && (5 <=? length (stack_entries s))%nat && other_b s cell_unspecified && alloc_b (1 + 3 * Z.of_nat (length (stack_entries s))) s
  && match some_slots s (stack_entries s) with Some _ => true | None => false end.
Example C37_capture_ex : exists v s, again_at L_call_with_current_continuation2 (fun _ => true) = ROk v s /\
  exists c sls, cells s !! R2 s = Some c /\ c_ty c = TCONTINUATION /\ 1 <= R2 s /\ stack_holds s (stack_entries s)
    /\ Forall2 (value_at (cells s)) (stack_entries s) sls /\ (5 <= length (stack_entries s))%nat
    /\ DataSpec.other (cells s) cell_unspecified /\ can_alloc (1 + 3 * Z.of_nat (length (stack_entries s))) s.
Proof.
  destruct (check_res (again_at L_call_with_current_continuation2 (fun _ => true)) (fun _ s => capture_b s)) as (v & s & E & H). { vm_compute. reflexivity. }
  exists v, s. split; [exact E|]. clear E. unfold capture_b in H.
  apply andb_prop in H as [H H6]. apply andb_prop in H as [H H5]. apply andb_prop in H as [H H4]. apply andb_prop in H as [H H3]. apply andb_prop in H as [H1 H2].
  destruct (heap s !! R2 s) as [c|] eqn:Hc; [|done]. apply andb_prop in H1 as [H1 Hk]. apply andb_prop in H1 as [Ht Hlt].
  destruct (some_slots s _) as [sls|] eqn:Hs; [|done].
  exists c, sls. split; [apply heap_cells; [done|lia]|]. split; [lia|]. split; [lia|].
  split; [by apply stack_b_ok|]. split; [by apply some_slots_ok|]. split; [apply Nat.leb_le, H3|]. split; [by apply other_b_ok|by apply alloc_b_ok].
Qed.

(** the slots of a saved stack *)
Definition vec_slots (s : state) (w : Z) : option (list slot) :=
  match heap s !! w with
  | Some c => if (c_ty c =? TVECTOR) && (0 <=? c_car c) && (w <? g_free s) then
      foldr (fun j l => let q := c_cdr c + Z.of_nat j in
        match l, heap s !! q with
        | Some l, Some e => if q <? g_free s then if c_ty e =? TREF then if other_b s (c_car e) then Some (SRef (c_car e) :: l) else None else if c_ty e =? TNUMBER then Some (SNum (c_cdr e) :: l) else if c_ty e =? TCHAR then if in_int (c_cdr e) then Some (SChar (c_cdr e) :: l) else None else None else None
        | _, _ => None
        end) (Some []) (seq 0 (Z.to_nat (c_car c)))
    else None
  | None => None
  end.
Lemma vec_slots_ok s w sls : vec_slots s w = Some sls -> exists v, array_at (cells s) TVECTOR w v sls.
Proof.
  unfold vec_slots. destruct (heap s !! w) as [c|] eqn:Hc; [|done].
  destruct (Z.eqb_spec (c_ty c) TVECTOR) as [Ht|]; [|done]. destruct (Z.leb_spec 0 (c_car c)) as [Hn|]; [|done]. destruct (Z.ltb_spec w (g_free s)); [|done]. cbn [andb].
  intros Hf. exists (c_cdr c).
  assert (forall n k l, foldr (fun j l => let q := c_cdr c + Z.of_nat j in
        match l, heap s !! q with
        | Some l, Some e => if q <? g_free s then if c_ty e =? TREF then if other_b s (c_car e) then Some (SRef (c_car e) :: l) else None else if c_ty e =? TNUMBER then Some (SNum (c_cdr e) :: l) else if c_ty e =? TCHAR then if in_int (c_cdr e) then Some (SChar (c_cdr e) :: l) else None else None else None
        | _, _ => None
        end) (Some []) (seq k n) = Some l -> length l = n /\ forall i sl, l !! i = Some sl -> slot_at (cells s) (c_cdr c + Z.of_nat (k + i)) sl) as Hgen.
  { induction n as [|n IH]; intros k l H'; [injection H' as <-; split; [done|intros i sl Hi; by rewrite lookup_nil in Hi]|].
    cbn [seq foldr] in H'. destruct (foldr _ _ (seq (S k) n)) as [l'|] eqn:E in H'; [|done]. destruct (IH _ _ E) as [Hl Hall].
    cbn zeta in H'. destruct (heap s !! (c_cdr c + Z.of_nat k)) as [e|] eqn:He; [|done]. destruct (Z.ltb_spec (c_cdr c + Z.of_nat k) (g_free s)) as [Hlt|]; [|done].
    pose proof (heap_cells _ _ _ He Hlt) as Hce.
    assert (exists sl, l = sl :: l' /\ slot_at (cells s) (c_cdr c + Z.of_nat k) sl) as (sl & -> & Hsl).
    { destruct (Z.eqb_spec (c_ty e) TREF); [destruct (other_b s (c_car e)) eqn:Ho; [|done]; injection H' as <-; eexists; split; [done|]; split; [by exists e|by apply other_b_ok]|].
      destruct (Z.eqb_spec (c_ty e) TNUMBER); [injection H' as <-; eexists; split; [done|]; by exists e|].
      destruct (Z.eqb_spec (c_ty e) TCHAR); [|done]. destruct (in_int (c_cdr e)) eqn:Hi; [|done]. injection H' as <-; eexists; split; [done|]. split; [by exists e|done]. }
    split; [cbn; lia|]. intros [|i] sl' Hi; [injection Hi as <-; by rewrite Nat.add_0_r|]. replace (k + S i)%nat with (S k + i)%nat by lia. by apply Hall. }
  destruct (Hgen _ _ _ Hf) as [Hl Hall]. split.
  - exists c. split; [by apply heap_cells|]. split; [done|]. split; [lia|done].
  - intros i sl Hi. by apply (Hall i).
Qed.
(** (kk 41) is about to be applied *)
Definition is_invoke (s : state) : bool :=
  match heap s !! R1 s with Some c => match heap s !! c_car c with Some k => c_ty k =? TCONTINUATION | None => false end | None => false end.
Definition invoke_b (s : state) : bool :=
  match heap s !! R1 s with
  | Some c => (c_ty c =? TPAIR) && (R1 s <? g_free s) &&
      match heap s !! c_cdr c, heap s !! c_car c with
      | Some d, Some k => (c_ty d =? TPAIR) && (c_cdr c <? g_free s) && (c_ty k =? TCONTINUATION) && (c_car c <? g_free s) &&
          match heap s !! c_car d with Some m => (c_ty m =? TNUMBER) && (c_cdr m =? 41) && (c_car d <? g_free s) | None => false end &&
          match vec_slots s (c_cdr k) with Some sls => (5 <=? Z.of_nat (length sls)) && (Z.of_nat (length sls) <=? STACK_SIZE s) && alloc_b (Z.of_nat (length sls)) s | None => false end
      | _, _ => false
      end
  | None => false
  end && (0 <=? g_stack s) && (g_stack s + 5 <=? STACK_SIZE s).
Example C37_invoke_ex : exists v s, again_at L_apply is_invoke = ROk v s /\
  exists k args x rest sls, pair_at (cells s) (R1 s) k args /\ pair_at (cells s) args x rest /\ number_at (cells s) x 41 /\ saved (cells s) k sls
    /\ (5 <= length sls)%nat /\ Z.of_nat (length sls) <= STACK_SIZE s /\ 0 <= g_stack s /\ g_stack s + 5 <= STACK_SIZE s /\ can_alloc (Z.of_nat (length sls)) s.
Proof.
  destruct (check_res (again_at L_apply is_invoke) (fun _ s => invoke_b s)) as (v & s & E & H). { vm_compute. reflexivity. }
  exists v, s. split; [exact E|]. clear E. unfold invoke_b in H.
  apply andb_prop in H as [H H3]. apply andb_prop in H as [H H2].
  destruct (heap s !! R1 s) as [c|] eqn:Hc; [|done]. apply andb_prop in H as [H1 H].
  destruct (heap s !! c_cdr c) as [d|] eqn:Hd; [|done]. destruct (heap s !! c_car c) as [k|] eqn:Hk; [|done].
  apply andb_prop in H as [H G2]. apply andb_prop in H as [G G1].
  destruct (heap s !! c_car d) as [m|] eqn:Hm; [|done]. destruct (vec_slots s (c_cdr k)) as [sls|] eqn:Hv; [|done].
  apply vec_slots_ok in Hv as [w Hv]. apply andb_prop in G2 as [G2 Ha]. apply alloc_b_ok in Ha.
  exists (c_car c), (c_cdr c), (c_car d), (c_cdr d), sls.
  split; [exists c; split; [apply heap_cells; [done|lia]|split; [lia|done]]|].
  split; [exists d; split; [apply heap_cells; [done|lia]|split; [lia|done]]|].
  split; [exists m; split; [apply heap_cells; [done|lia]|split; [lia|lia]]|].
  split; [exists k, w; split; [apply heap_cells; [done|lia]|split; [lia|done]]|].
  split; [lia|]. split; [lia|]. split; [lia|]. split; [lia|done].
Qed.
Example C37_survives_collection_ex : exists v s, again_at L_apply is_invoke = ROk v s /\
  exists k sls, machine_ok s /\ 5 <= g_stack s /\ has_room s /\ alive s k /\ saved (heap s) k sls /\ (5 <= length sls)%nat.
Proof.
  destruct (check_res (again_at L_apply is_invoke) (fun _ s => invoke_b s && machine_check s (live_objects s) && (5 <=? g_stack s) && (2 * g_free s <=? limit s)))
    as (v & s & E & H). { vm_compute. reflexivity. }
  exists v, s. split; [exact E|]. clear E.
  apply andb_prop in H as [H L3]. apply andb_prop in H as [H L2]. apply andb_prop in H as [H L1]. apply machine_check_ok in L1.
  unfold invoke_b in H. apply andb_prop in H as [H H3]. apply andb_prop in H as [H H2].
  destruct (heap s !! R1 s) as [c|] eqn:Hc; [|done]. apply andb_prop in H as [H1 H].
  destruct (heap s !! c_cdr c) as [d|] eqn:Hd; [|done]. destruct (heap s !! c_car c) as [k|] eqn:Hk; [|done].
  apply andb_prop in H as [H G2]. apply andb_prop in H as [G G1].
  destruct (vec_slots s (c_cdr k)) as [sls|] eqn:Hv; [|done]. apply vec_slots_ok in Hv as [w Hv].
  exists (c_car c), sls. split; [done|]. split; [lia|]. split; [apply room_half; [done|lia]|].
  split. { exists (R1 s). split. - unfold all_roots, regs. apply elem_of_app. right. by right; left.
    - apply rtc_once. eapply pt_cell; [exact Hc|]. unfold cell_refs. assert (c_ty c = TPAIR) as -> by lia. vm_compute. by left. }
  split; [|lia]. apply (saved_mono (cells s)). { apply map_subseteq_spec. intros p e Hp. by apply cells_heap in Hp as [? _]. }
  exists k, w. split; [apply heap_cells; [done|lia]|]. split; [lia|done].
Qed.
(** and the whole program, which goes through its continuation twice, has the value 42 *)
Example C37_again_ex : exists l s, sample_state again_code = ROk l s /\
  exists q s', eval_apply_ no_load sample_fuel sample_fuel s = ROk q s' /\ exists c, heap s' !! q = Some c /\ c_ty c = TNUMBER /\ c_cdr c = 42.
Proof.
  destruct (check_res (sample_state again_code) (fun l s => match eval_apply_ no_load sample_fuel sample_fuel s with
    ROk q s' => match heap s' !! q with Some c => (c_ty c =? TNUMBER) && (c_cdr c =? 42) | None => false end | _ => false end)) as (l & s & E & H). { vm_compute. reflexivity. }
  exists l, s. split; [exact E|]. clear E. destruct (check_res _ _ H) as (q & s' & E & Hq). exists q, s'. split; [exact E|]. clear E H.
  destruct (heap s' !! q) as [c|]; [|done]. exists c. split; [done|]. apply andb_prop in Hq as [H1 H2]. apply Z.eqb_eq in H1, H2. done.
Qed.

(** ** Where it does not hold
    C37 in full says that calling the continuation gives its value to the call/cc expression.
    While the receiver is still running this fails: the saved top frame is the one that is to
    apply call/cc, not the one that waits for its value.  [(+ 1 (call/cc (lambda (k) (k 42))))]
    should be 43; the evaluator goes on to apply a non-procedure list made from 42. *)
Definition escape_code (gs : list Z) : M Z :=
  let k := sym (bytes_of "k") in
  list_m [make_variable_ (nth 2 gs 0); make_number 1;
    list_m [ret cell_symbol_call_with_current_continuation; list_m [ret cell_symbol_lambda; list_m [k]; list_m [k; make_number 42]]]].
Lemma run_ub gcc prim load fuel n : forall m l v s, run_eval gcc prim load fuel n l v s = RUB ->
  run_eval gcc prim load fuel m l v s = RUB \/ run_eval gcc prim load fuel m l v s = ROutOfFuel.
Proof.
  induction n as [|n IH]; intros m l v s H; [done|]. destruct m as [|m]; [by right|]. cbn [run_eval] in *.
  unfold bind in *. destruct (step gcc prim load fuel l v s) as [[l' v'|x] s'| | | |]; try done; [by apply IH|by left].
Qed.
Theorem C37_escape_refuted : exists l s, sample_state escape_code = ROk l s /\
  forall n q s', eval_apply_ no_load sample_fuel n s <> ROk q s'.
Proof.
  destruct (check_res (sample_state escape_code) (fun l s => match eval_apply_ no_load sample_fuel sample_fuel s with RUB => true | _ => false end)) as (l & s & E & H). { vm_compute. reflexivity. }
  exists l, s. split; [exact E|]. clear E. intros n q s' Hrun.
  destruct (eval_apply_ no_load sample_fuel sample_fuel s) eqn:E; try done.
  unfold eval_apply_, eval_apply in *. destruct (run_ub _ _ _ _ _ n _ _ _ E) as [E'|E']; rewrite E' in Hrun; done.
Qed.

(** ((lambda (k) (+ 1 41) k) (quote K)), where K is a continuation that has saved four entries *)
Definition keep_code (gs : list Z) : M Z :=
  let k := sym (bytes_of "k") in
  es <- list_m [sym (bytes_of "a"); make_number 7; list_m [k; k]; make_char 65] ;; w <- list_to_vector 100 es ;; kk <- make_cell TCONTINUATION 3 w ;;
  list_m [list_m [ret cell_symbol_lambda; list_m [k]; list_m [make_variable_ (nth 2 gs 0); make_number 1; make_number 41]; k];
          list_m [ret cell_symbol_quote; ret kk]].
Definition follow (s : state) (car : bool) (p : Z) : Z := match heap s !! p with Some c => if car then c_car c else c_cdr c | None => 0 end.
Definition is_pair_b (s : state) (p : Z) : bool := match heap s !! p with Some c => c_ty c =? TPAIR | None => false end.
Lemma follow_alive s b p : alive s p -> is_pair_b s p = true -> alive s (follow s b p).
Proof.
  unfold is_pair_b, follow. intros Hp H. destruct (heap s !! p) as [c|] eqn:Hc; [|done]. apply Z.eqb_eq in H.
  eapply points_alive; [exact Hp|]. eapply pt_cell; [exact Hc|]. unfold cell_refs. rewrite H. destruct b; vm_compute; [left|right; left].
Qed.
Definition kont (s : state) : Z := follow s true (follow s false (follow s true (follow s false (R1 s)))).
Definition kont_b (l : list Z * list Z) (s : state) : bool :=
  is_pair_b s (R1 s) && is_pair_b s (follow s false (R1 s)) && is_pair_b s (follow s true (follow s false (R1 s)))
  && is_pair_b s (follow s false (follow s true (follow s false (R1 s))))
  && negb (inL (locs (fst l) (snd l) []) (kont s)) && (kont s <? g_free s) &&
  match heap s !! kont s with
  | Some c => (c_ty c =? TCONTINUATION) && negb (inL (locs (fst l) (snd l) []) (c_cdr c)) && match heap s !! c_cdr c with Some w => c_ty w =? TVECTOR | None => false end
      && match vec_slots s (c_cdr c) with Some sls => (length sls =? 4)%nat | None => false end
  | None => false
  end.
Definition keep_chk (k : Z) (gs : list (Z * Z)) (ρ : env) (e : exp) (μ : store) : bool := match ev gs 4 true 40 20 ρ μ e with Some (_, VAtom k') => k =? k' | _ => false end.
Lemma keep_chk_ok k gs ρ e μ : keep_chk k gs ρ e μ = true -> exists μ', eval 4 (prims 4) gs true 20 ρ μ e μ' (VAtom k).
Proof.
  unfold keep_chk. generalize 40%nat. intros m H. destruct (ev gs 4 true m 20 ρ μ e) as [[μ' [| |k'| |]]|] eqn:Hev; try discriminate H.
  apply Z.eqb_eq in H as ->. apply ev_ok in Hev. by exists μ'.
Qed.
Lemma view_frames L s : frames_ok (abs_heap L s).
Proof.
  intros q o H. unfold abs_heap in H. apply lookup_kmap_Some in H as (p & Hp & _); [|apply _]. unfold name in Hp. repeat case_decide; done.
Qed.
Example C37_evaluation_keeps_ex : exists l s, sample_state keep_code = ROk l s /\
  exists k sls, saved (cells s) k sls /\ length sls = 4%nat /\
  exists n q s', (forall m, (n <= m)%nat -> eval_apply_ no_load sample_fuel m s = ROk q s') /\
    exists f f' sls', saved (cells s') q sls' /\ Forall2 (same_slot f f') sls sls'.
Proof.
  destruct (check_res (sample_state keep_code) (fun l s => sample_ok 4 (keep_chk (kont s)) l s && kont_b l s)) as (l & s & E & H). { vm_compute. reflexivity. }
  exists l, s. split; [exact E|]. clear E. apply andb_prop in H as [H Hk].
  apply sample_ok_spec in H as (ρ & e & μ & r2' & x & r0' & p & Hchk & So & R & C & Hc & He & Eo & S & HM & Hroom).
  apply keep_chk_ok in Hchk as [μ' Hev]. unfold kont_b in Hk. set (L := locs (fst l) (snd l) []) in *.
  apply andb_prop in Hk as [Hk K]. apply andb_prop in Hk as [Hk K6]. apply andb_prop in Hk as [Hk K5]. apply andb_prop in Hk as [Hk K4]. apply andb_prop in Hk as [Hk K3]. apply andb_prop in Hk as [K1 K2].
  assert (alive s (kont s)) as Hal. { unfold kont. do 4 (apply follow_alive; [|done]). apply root_alive. unfold all_roots, regs. apply elem_of_app. right. by right; left. }
  destruct (heap s !! kont s) as [c|] eqn:Hck; [|done]. apply andb_prop in K as [K Ks]. apply andb_prop in K as [K Kw]. apply andb_prop in K as [Kt Kl].
  destruct (heap s !! c_cdr c) as [cw|] eqn:Hcw; [|done]. destruct (vec_slots s (c_cdr c)) as [sls|] eqn:Hvs; [|done]. apply vec_slots_ok in Hvs as [w Hw].
  apply Z.eqb_eq in Kt, Kw. apply negb_true_iff in K5, Kl.
  assert (saved (cells s) (kont s) sls) as Hsv. { exists c, w. split; [apply heap_cells; [done|lia]|]. done. }
  exists (kont s), sls. split; [done|]. split; [by apply Nat.eqb_eq|].
  pose proof (abs_lookup L s (kont s)) as A1. rewrite (inL_imp _ _ K5), Hck in A1. cbn in A1.
  pose proof (abs_lookup L s (c_cdr c)) as A2. rewrite (inL_imp _ _ Kl), Hcw in A2. cbn in A2.
  unfold abs_obj, is_array, GcSpec.is_bytes in A1, A2. rewrite Kt in A1. rewrite Kw in A2. cbn -[name] in A1, A2. change (abs_word L (cdr_is_ref TCONTINUATION) (c_cdr c)) with (WId (name L (c_cdr c))) in A1. change (abs_word L (car_is_ref TCONTINUATION) (c_car c)) with (WInt (c_car c)) in A1. rewrite (inL_imp _ _ Kl) in A1.
  destruct (C37_evaluation_keeps _ true no_load sample_fuel 4 20 ρ μ e μ' _ Hev Eo So
     _ s _ _ _ _ _ _ _ _ [] _ _ R C Hc He S (view_frames L s) HM ltac:(cbn; lia) Hroom _ _ _ _ A1 A2) as (m & q & s' & f' & σ' & j & Q1 & Q2 & Q3 & Q4 & Q5 & Q6).
  destruct Q4 as [-> _].
  destruct (Q6 (kont s) q sls) as (sls' & H1 & H2); [split; [done|by rewrite inL_imp]|done|done|].
  exists m, q, s'. split; [done|]. by exists (view_map L s), f', sls'.
Qed.

Print Assumptions C37_call_receiver.
Print Assumptions C37_capture.
Print Assumptions C37_invoke.
Print Assumptions C37_survives_collection.
Print Assumptions C37_evaluation_keeps.
Print Assumptions C37_escape_refuted.
