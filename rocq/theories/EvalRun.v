(** Executions of the evaluator as sequences of steps, and executions in which memory lasts. *)
From stdpp Require Import base gmap list.
From Coq Require Import ZArith Lia.
From Verif Require Import CInt Symbols Heap GcModel GcSpec DataModel DataSpec DataLemmas EvalModel.
Open Scope Z_scope.

Section evaluator.
Context (prim : Z -> list Z -> M Z) (load_program : Z -> M Z) (fuel : nat).

Inductive steps : label -> locals -> state -> label -> locals -> state -> Prop :=
| steps_refl l v s : steps l v s l v s
| steps_cons l v s l1 v1 s1 l2 v2 s2 :
    step GcModel.gc_check prim load_program fuel l v s = ROk (Goto l1 v1) s1 -> steps l1 v1 s1 l2 v2 s2 ->
    steps l v s l2 v2 s2.

(** the next thing to happen is a collection *)
Definition collects (l : label) (s : state) : Prop :=
  (l = L_eval_operator \/ l = L_begin_body \/ l = L_begin_expand_while)
  /\ ARENA_SIZE s <= g_free s - g_cells s + GC_SAFETY s.
(** there is room for [N] more cells (and the bound on loops over lists is no less than the
    number of cells), and for a copy of what is alive if a collection is next *)
Record enough (N : Z) (l : label) (s : state) : Prop := {
  en_pos : 0 <= N;
  en_alloc : can_alloc N s;
  en_fuel : g_free s + N <= Z.of_nat fuel;
  en_room : collects l s -> has_room s }.
(** memory lasts: at every point of the execution there is room for [N] more cells *)
Definition roomy (N : Z) (l : label) (v : locals) (s : state) : Prop :=
  forall l1 v1 s1, steps l v s l1 v1 s1 -> enough N l1 s1.
End evaluator.
