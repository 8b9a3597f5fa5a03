(** Executions that end with an error. *)
From stdpp Require Import base gmap list fin_maps.
From Coq Require Import ZArith Lia.
From Coq Require Import ZifyBool ZifyNat.
From Verif Require Import CInt Symbols Heap HeapLemmas GcModel GcSpec DataModel DataSpec DataLemmas CoreProofs StackModel.
From Verif Require Import EvalModel Rep RepProofs EvalSpec EvalErrSpec EvalRep EvalLemmas EvalBind EvalSplice EvalRun EvalSteps EvalSteps2 EvalSteps3.
Open Scope Z_scope. Open Scope mes_scope.

(** the objects that stand for what goes with the key *)
Definition irritant_at (σ : oheap) (w : irritant) (j : id) : Prop :=
  match w with
  | IVal v => val_at σ v j
  | IPair a d => exists ja jd, σ !! j = Some (opair ja jd) /\ val_at σ a ja /\ val_at σ d jd
  | IText bs v => exists jt jv nb n, σ !! j = Some (opair jt jv) /\ val_at σ v jv /\
      σ !! jt = Some (OCell TSTRING (WInt n) (WId nb)) /\ σ !! nb = Some (OBytes (bs ++ [0]))
  end.
(** the state in which the error is signalled: the key, what goes with it, and the store *)
Definition raised_at (μ : store) (key : val) (w : irritant) (kx x : Z) (s : state) : Prop :=
  exists f M jk j, rep f M s /\ f jk kx /\ val_at (m_heap M) key jk /\ f j x /\ irritant_at (m_heap M) w j /\
    store_at [] μ (m_heap M).
Definition throws (μ : store) (key : val) (w : irritant) {A} (r : res A) : Prop :=
  exists kx x s, r = RThrow kx x s /\ raised_at μ key w kx x s.

(** a computation starts with one that succeeds *)
Lemma wr_bind {A B} (m : M A) (k : A -> M B) s (R : res B -> Prop) : wp m s (fun a s' => R (k a s')) -> R (bind m k s).
Proof. intros (a & s1 & E & H). by rewrite (bind_ok _ _ _ _ _ E). Qed.
Lemma throws_bind {A B} (m : M A) (k : A -> M B) s μ key w : throws μ key w (m s) -> throws μ key w (bind m k s).
Proof. intros (kx & x & s' & E & H). exists kx, x, s'. split; [|done]. unfold bind. by rewrite E. Qed.

Section evaluator.
Context {defs : bool}.
Context (prim : Z -> list Z -> M Z) (load_program : Z -> M Z) (fuel : nat).
Notation step := (step GcModel.gc_check prim load_program fuel).
Notation steps := (steps prim load_program fuel).
Notation enough := (enough fuel).
Notation roomy := (roomy prim load_program fuel).
Notation runs := (runs (defs := defs) prim load_program fuel).
Notation runsP := (runsP (defs := defs) prim load_program fuel).

(** strings of [text_room] bytes are allowed at every point of the execution: the messages are no
    longer *)
Definition text_room : Z := 64.
Definition texts (l : label) (v : locals) (s : state) : Prop := forall l1 v1 s1, steps l v s l1 v1 s1 -> text_room <= MAX_STRING s1.
Lemma texts_steps l v s l1 v1 s1 : texts l v s -> steps l v s l1 v1 s1 -> texts l1 v1 s1.
Proof. intros H S l2 v2 s2 S2. eapply H. by eapply steps_trans. Qed.
Definition runsX (N : Z) (l : label) (M : mst) (μ : store) (key : val) (w : irritant) : Prop :=
  0 <= N /\ forall f v s, rep f M s -> roomy N l v s -> texts l v s ->
    exists l1 v1 s1, steps l v s l1 v1 s1 /\ throws μ key w (step l1 v1 s1).
Lemma runsX_le N N' l M μ key w : runsX N l M μ key w -> N <= N' -> runsX N' l M μ key w.
Proof. intros [H0 H] Hle. split; [lia|]. intros f v s R Hr Ht. eapply H; [done| |done]. eapply roomy_le; [done|lia]. Qed.
Lemma runsX_seq N N1 l M l1 (P1 : mst -> Prop) μ key w : runsP N1 l M l1 P1 -> N1 <= N -> (forall M1, P1 M1 -> runsX N l1 M1 μ key w) -> runsX N l M μ key w.
Proof.
  intros [H0 H] Hle H'. split; [lia|]. intros f v s R Hr Ht.
  destruct (H f v s R) as (f1 & s1 & M1 & v1 & S1 & K1 & R1 & HP1). { eapply roomy_le; [done|lia]. }
  destruct (H' M1 HP1) as [_ H1]. destruct (H1 f1 v1 s1 R1) as (l2 & v2 & s2 & S2 & T). { by eapply roomy_steps. } { by eapply texts_steps. }
  exists l2, v2, s2. split; [by eapply steps_trans|done].
Qed.
Lemma runsX_bind N N1 l M l1 M1 μ key w : runs N1 l M l1 M1 -> N1 <= N -> runsX N l1 M1 μ key w -> runsX N l M μ key w.
Proof. intros H Hle H'. eapply (runsX_seq _ _ _ _ _ (fun M' => M' = M1)); [by eapply runsP_of|done|]. by intros ? ->. Qed.
Lemma runsX_step N l M μ key w : 0 <= N -> (forall f v s, rep f M s -> enough N l s -> text_room <= MAX_STRING s -> throws μ key w (step l v s)) -> runsX N l M μ key w.
Proof.
  intros H0 H. split; [done|]. intros f v s R Hr Ht. exists l, v, s. split; [constructor|]. eapply H; [done|apply (Hr l v); constructor|apply (Ht l v); constructor].
Qed.
(** a step that does not keep the local variables comes first *)
Lemma runsX_inner N N1 l M l1 v1 (P1 : mst -> Prop) μ key w : 0 <= N1 <= N ->
  (forall f v s, rep f M s -> enough N1 l s -> wp (step l v) s (fun n s' => n = Goto l1 v1 /\ exists f' M', rep f' M' s' /\ P1 M')) ->
  (forall M1, P1 M1 -> runsX N l1 M1 μ key w) -> runsX N l M μ key w.
Proof.
  intros HN H H'. split; [lia|]. intros f v s R Hr Ht.
  destruct (H f v s R) as (n & s1 & E & -> & f1 & M1 & R1 & HP1). { destruct (Hr l v s) as [E1 E2 E3 E4]; [constructor|]. split; [lia| |lia|done]. eapply can_alloc_le; [exact E2|lia]. }
  assert (steps l v s l1 v1 s1) as S1 by (econstructor; [done|constructor]).
  destruct (H' M1 HP1) as [_ H1]. destruct (H1 f1 v1 s1 R1) as (l2 & v2 & s2 & S2 & T). { by eapply roomy_steps. } { by eapply texts_steps. }
  exists l2, v2, s2. split; [by eapply steps_trans|done].
Qed.
End evaluator.
