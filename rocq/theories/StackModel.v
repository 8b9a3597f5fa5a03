(** Programs that save and restore interpreter frames, for C08. *)
From stdpp Require Import base gmap list.
From Coq Require Import ZArith Lia.
From Coq Require Import ZifyBool ZifyNat.
From Verif Require Import CInt Symbols Heap HeapLemmas DataLemmas.
Open Scope Z_scope.
Open Scope mes_scope.

(** The balanced uses of the stack: registers are overwritten at will, and a frame is pushed
    (src/gc.c:694 gc_push_frame), something balanced happens, and the frame is popped
    (src/gc.c:717 gc_pop_frame), as in push_cc / gc_pop_frame of src/eval-apply.c. *)
Inductive frames : Type :=
| FSkip
| FRegs (r0 r1 r2 r3 : Z)
| FSeq (p q : frames)
| FFrame (p : frames).
Fixpoint run_frames (p : frames) : M unit :=
  match p with
  | FSkip => ret tt
  | FRegs r0 r1 r2 r3 => modify (fun s => set_R0 r0 (set_R1 r1 (set_R2 r2 (set_R3 r3 s))))
  | FSeq p q => run_frames p ;;; run_frames q
  | FFrame p => gc_push_frame ;;; (run_frames p ;;; gc_pop_frame)
  end.
(** how many frames are live at the same time *)
Fixpoint nesting (p : frames) : Z :=
  match p with
  | FSkip | FRegs _ _ _ _ => 0
  | FSeq p q => Z.max (nesting p) (nesting q)
  | FFrame p => 1 + nesting p
  end.

(** the stack seen by a caller: everything at and above the stack pointer, and the rest of the
    machine except the four registers *)
Record same_stack (s s' : state) : Prop := {
  ss_top : g_stack s' = g_stack s;
  ss_content : forall i, g_stack s <= i -> g_stack_array s' !! i = g_stack_array s !! i;
  ss_rest : exists a r0 r1 r2 r3,
    s' = set_g_stack_array a (set_R0 r0 (set_R1 r1 (set_R2 r2 (set_R3 r3 s)))) }.
Definition stack_ok (s : state) : Prop := 0 <= g_stack s <= STACK_SIZE s.

Lemma same_stack_refl s : same_stack s s.
Proof. split; [done|done|]. exists (g_stack_array s), (R0 s), (R1 s), (R2 s), (R3 s). by destruct s. Qed.
Lemma same_stack_trans s1 s2 s3 : same_stack s1 s2 -> same_stack s2 s3 -> same_stack s1 s3.
Proof.
  intros [H1 H2 (a & r0 & r1 & r2 & r3 & ->)] [K1 K2 (a' & q0 & q1 & q2 & q3 & ->)]. cbn in *. split; [done| |].
  - intros i Hi. cbn. rewrite K2 by done. by apply H2.
  - by exists a', q0, q1, q2, q3.
Qed.

Lemma stack_set_ok i v s : 0 <= i < STACK_SIZE s ->
  stack_set i v s = ROk tt (set_g_stack_array (<[i := v]> (g_stack_array s)) s).
Proof. intros H. unfold stack_set. by replace (_ && _) with true by lia. Qed.
Lemma stack_get_ok i v s : 0 <= i < STACK_SIZE s -> g_stack_array s !! i = Some v -> stack_get i s = ROk v s.
Proof. intros H E. unfold stack_get. replace (_ && _) with true by lia. by rewrite E. Qed.

Definition pushed (s : state) : state :=
  let g := g_stack s in
  set_g_stack (g - 5) (set_g_stack_array
    (<[g - 5 := R3 s]> (<[g - 4 := R2 s]> (<[g - 3 := R1 s]> (<[g - 2 := R0 s]> (<[g - 1 := cell_f]> (g_stack_array s)))))) s).
Lemma push_ok s : stack_ok s -> 5 <= g_stack s -> gc_push_frame s = ROk tt (pushed s).
Proof.
  intros [H1 H2] H. unfold gc_push_frame, GC_FRAME_SIZE. run. cbv zeta.
  destruct (Z.ltb_spec (g_stack s) 5); [lia|]. run.
  do 5 erewrite bind_ok by (apply stack_set_ok; cbn; lia). done.
Qed.
Lemma push_full s : g_stack s < 5 -> gc_push_frame s = RAbort.
Proof.
  intros H. unfold gc_push_frame, GC_FRAME_SIZE. run. cbv zeta. by destruct (Z.ltb_spec (g_stack s) 5); [|lia].
Qed.
Lemma pop_ok s f r0 r1 r2 r3 : 0 <= g_stack s -> g_stack s + 5 <= STACK_SIZE s ->
  g_stack_array s !! (g_stack s) = Some r3 -> g_stack_array s !! (g_stack s + 1) = Some r2 ->
  g_stack_array s !! (g_stack s + 2) = Some r1 -> g_stack_array s !! (g_stack s + 3) = Some r0 ->
  g_stack_array s !! (g_stack s + 4) = Some f ->
  gc_pop_frame s = ROk tt (set_g_stack (g_stack s + 5) (set_R0 r0 (set_R1 r1 (set_R2 r2 (set_R3 r3 s))))).
Proof.
  intros. unfold gc_pop_frame, gc_peek_frame, GC_FRAME_PROCEDURE, GC_FRAME_SIZE. run.
  erewrite bind_ok by (eapply stack_get_ok; [lia|done]). run.
  erewrite bind_ok by (eapply stack_get_ok; [cbn; lia|done]). run.
  erewrite bind_ok by (eapply stack_get_ok; [cbn; lia|done]). run.
  erewrite bind_ok by (eapply stack_get_ok; [cbn; lia|done]). run.
  erewrite bind_ok by (eapply stack_get_ok; [cbn; lia|done]). run. done.
Qed.

Lemma nesting_nonneg p : 0 <= nesting p.
Proof. induction p; cbn; lia. Qed.

Lemma run_frames_ok p : forall s, stack_ok s -> 5 * nesting p <= g_stack s ->
  exists s', run_frames p s = ROk tt s' /\ same_stack s s'.
Proof.
  induction p as [|r0 r1 r2 r3|p IHp q IHq|p IH]; intros s Hs Hn; cbn [run_frames nesting] in *.
  - exists s. split; [done|apply same_stack_refl].
  - eexists. split; [done|]. split; [done|done|]. by exists (g_stack_array s), r0, r1, r2, r3; destruct s.
  - destruct (IHp s Hs ltac:(lia)) as (s1 & E1 & S1).
    destruct (IHq s1) as (s2 & E2 & S2).
    { destruct S1 as [T _ (a & r0 & r1 & r2 & r3 & ->)]. done. }
    { rewrite (ss_top _ _ S1). lia. }
    exists s2. split; [|by eapply same_stack_trans]. by erewrite bind_ok by exact E1.
  - pose proof (nesting_nonneg p). destruct Hs as [Hs1 Hs2].
    erewrite bind_ok by (apply push_ok; [done|lia]).
    destruct (IH (pushed s)) as (s1 & E1 & [T C (a & q0 & q1 & q2 & q3 & ->)]).
    { unfold stack_ok. cbn. lia. }
    { cbn. lia. }
    erewrite bind_ok by exact E1. cbn in T, C.
    assert (forall k, 0 <= k -> a !! (g_stack s - 5 + k) = (<[g_stack s - 5 := R3 s]> (<[g_stack s - 4 := R2 s]> (<[g_stack s - 3 := R1 s]> (<[g_stack s - 2 := R0 s]> (<[g_stack s - 1 := cell_f]> (g_stack_array s)))))) !! (g_stack s - 5 + k)) as C'.
    { intros k Hk. apply C. lia. }
    eexists. split.
    + eapply pop_ok; cbn [g_stack g_stack_array set_g_stack_array set_R0 set_R1 set_R2 set_R3 set_g_stack pushed STACK_SIZE]; try lia.
      * rewrite <- (Z.add_0_r (g_stack s - 5)) at 1. rewrite C' by lia. rewrite Z.add_0_r. by rewrite lookup_insert.
      * rewrite C' by lia. rewrite lookup_insert_ne by lia. replace (g_stack s - 5 + 1) with (g_stack s - 4) by lia. by rewrite lookup_insert.
      * rewrite C' by lia. do 2 rewrite lookup_insert_ne by lia. replace (g_stack s - 5 + 2) with (g_stack s - 3) by lia. by rewrite lookup_insert.
      * rewrite C' by lia. do 3 rewrite lookup_insert_ne by lia. replace (g_stack s - 5 + 3) with (g_stack s - 2) by lia. by rewrite lookup_insert.
      * rewrite C' by lia. do 4 rewrite lookup_insert_ne by lia. replace (g_stack s - 5 + 4) with (g_stack s - 1) by lia. by rewrite lookup_insert.
    + split.
      * cbn. lia.
      * intros i Hi. cbn. rewrite C by lia. by do 5 rewrite lookup_insert_ne by lia.
      * exists a, (R0 s), (R1 s), (R2 s), (R3 s). unfold pushed. cbn. replace (g_stack s - 5 + 5) with (g_stack s) by lia. by destruct s.
Qed.
(** the registers come back too *)
Lemma run_frame_regs p s s' : stack_ok s -> 5 * nesting (FFrame p) <= g_stack s ->
  run_frames (FFrame p) s = ROk tt s' -> R0 s' = R0 s /\ R1 s' = R1 s /\ R2 s' = R2 s /\ R3 s' = R3 s.
Proof.
  intros [Hs1 Hs2] Hn E. cbn [run_frames nesting] in *. pose proof (nesting_nonneg p).
  erewrite bind_ok in E by (apply push_ok; [done|lia]).
  destruct (run_frames_ok p (pushed s)) as (s1 & E1 & [T C (a & q0 & q1 & q2 & q3 & ->)]).
  { unfold stack_ok. cbn. lia. }
  { cbn. lia. }
  erewrite bind_ok in E by exact E1. cbn in T, C.
  assert (forall k, 0 <= k -> a !! (g_stack s - 5 + k) = (<[g_stack s - 5 := R3 s]> (<[g_stack s - 4 := R2 s]> (<[g_stack s - 3 := R1 s]> (<[g_stack s - 2 := R0 s]> (<[g_stack s - 1 := cell_f]> (g_stack_array s)))))) !! (g_stack s - 5 + k)) as C'.
  { intros k Hk. apply C. lia. }
  erewrite pop_ok in E; cbn [g_stack g_stack_array set_g_stack_array set_R0 set_R1 set_R2 set_R3 set_g_stack pushed STACK_SIZE]; try lia.
  { injection E as <-. done. }
  * rewrite <- (Z.add_0_r (g_stack s - 5)) at 1. rewrite C' by lia. rewrite Z.add_0_r. by rewrite lookup_insert.
  * rewrite C' by lia. rewrite lookup_insert_ne by lia. replace (g_stack s - 5 + 1) with (g_stack s - 4) by lia. by rewrite lookup_insert.
  * rewrite C' by lia. do 2 rewrite lookup_insert_ne by lia. replace (g_stack s - 5 + 2) with (g_stack s - 3) by lia. by rewrite lookup_insert.
  * rewrite C' by lia. do 3 rewrite lookup_insert_ne by lia. replace (g_stack s - 5 + 3) with (g_stack s - 2) by lia. by rewrite lookup_insert.
  * rewrite C' by lia. do 4 rewrite lookup_insert_ne by lia. replace (g_stack s - 5 + 4) with (g_stack s - 1) by lia. by rewrite lookup_insert.
Qed.
Lemma run_frames_full p : forall s, stack_ok s -> g_stack s < 5 * nesting p -> run_frames p s = RAbort.
Proof.
  induction p as [|r0 r1 r2 r3|p IHp q IHq|p IH]; intros s Hs Hn; cbn [run_frames nesting] in *;
    pose proof Hs as [Hs1 Hs2]; [lia|lia|..].
  - destruct (decide (g_stack s < 5 * nesting p)) as [Hp|Hp].
    + unfold bind. by rewrite IHp.
    + destruct (run_frames_ok p s Hs ltac:(lia)) as (s1 & E1 & S1). erewrite bind_ok by exact E1. apply IHq.
      * destruct S1 as [T _ (a & r0 & r1 & r2 & r3 & ->)]. done.
      * rewrite (ss_top _ _ S1). lia.
  - destruct (decide (g_stack s < 5)) as [Hp|Hp].
    + unfold bind. by rewrite push_full.
    + erewrite bind_ok by (apply push_ok; [done|lia]). unfold bind. rewrite IH; [done| |cbn; lia].
      unfold stack_ok. cbn. lia.
Qed.
