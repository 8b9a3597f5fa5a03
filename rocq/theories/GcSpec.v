(** Specification of garbage collection: what a heap object is, what it refers to,
    what is reachable, what it means that a heap is well formed and that one heap
    holds a faithful copy of the live objects of another.
    Nothing here mentions the collector. *)
From stdpp Require Import base gmap relations list.
From Coq Require Import ZArith Lia.
From Verif Require Import CInt Symbols Heap.
Open Scope Z_scope.

(** The references held in one cell (include/mes/mes.h:25-53 read with the type tag). *)
Definition car_is_ref (t : Z) : bool :=
  bool_decide (t ∈ [TPAIR; TMACRO; TREF; TVARIABLE]).
Definition cdr_is_ref (t : Z) : bool :=
  bool_decide (t ∈ [TPAIR; TMACRO; TCLOSURE; TCONTINUATION; TKEYWORD; TPORT; TSPECIAL;
                    TSTRING; TSYMBOL; TVALUES]).
Definition cell_refs (c : cell) : list Z :=
  (if car_is_ref (c_ty c) then [c_car c] else []) ++ (if cdr_is_ref (c_ty c) then [c_cdr c] else []).

(** Vectors and structs: [c_car] elements, stored inline from address [c_cdr] on. *)
Definition is_array (c : cell) : bool := (c_ty c =? TVECTOR) || (c_ty c =? TSTRUCT).
Definition is_bytes (c : cell) : bool := c_ty c =? TBYTES.

Inductive points_to (h : gmap Z cell) : Z -> Z -> Prop :=
| pt_cell p c q : h !! p = Some c -> q ∈ cell_refs c -> points_to h p q
| pt_elem p c i e q :
    h !! p = Some c -> is_array c = true -> 0 <= i < c_car c ->
    h !! (c_cdr c + i) = Some e -> q ∈ cell_refs e -> points_to h p q.

Definition reach (h : gmap Z cell) (roots : list Z) (p : Z) : Prop :=
  exists r, r ∈ roots /\ rtc (points_to h) r p.

(** The addresses an object occupies, and how many cells it needs. *)
Definition occupies (p : Z) (c : cell) (a : Z) : Prop :=
  a = p \/ (is_array c = true /\ c_cdr c <= a < c_cdr c + c_car c)
        \/ (is_bytes c = true /\ p <= a < p + bytes_cells (c_car c)).
Definition obj_size (c : cell) : Z :=
  if is_array c then 1 + c_car c else if is_bytes c then bytes_cells (c_car c) else 1.

(** Elements of vectors are stored as references, characters or numbers (src/vector.c:88-94). *)
Definition is_element (c : cell) : Prop := c_ty c = TREF \/ c_ty c = TCHAR \/ c_ty c = TNUMBER.

Record wf_obj (lo hi : Z) (h : gmap Z cell) (p : Z) (c : cell) : Prop := {
  wf_range : lo <= p < hi;
  wf_type : 0 <= c_ty c < TBROKEN_HEART;
  wf_array : is_array c = true ->
     0 <= c_car c /\ lo <= c_cdr c /\ c_cdr c + c_car c <= hi
     /\ ~ (c_cdr c <= p < c_cdr c + c_car c)
     /\ forall i, 0 <= i < c_car c -> exists e, h !! (c_cdr c + i) = Some e /\ is_element e;
  wf_bytes : is_bytes c = true ->
     Z.of_nat (length (c_bytes c)) = c_car c /\ p + bytes_cells (c_car c) <= hi }.

(** Every reachable object is well formed and lies in [lo, hi); different reachable objects
    do not overlap. *)
Record heap_ok (lo hi : Z) (h : gmap Z cell) (roots : list Z) : Prop := {
  ok_obj : forall p, reach h roots p -> exists c, h !! p = Some c /\ wf_obj lo hi h p c;
  ok_disj : forall p q c d a, reach h roots p -> reach h roots q -> p <> q ->
     h !! p = Some c -> h !! q = Some d -> occupies p c a -> occupies q d a -> False }.

(** [c'] is [c] with its references replaced along [f]; everything else is the same. *)
Definition same_cell (f : Z -> Z) (c c' : cell) : Prop :=
  c_ty c' = c_ty c
  /\ c_car c' = (if car_is_ref (c_ty c) then f (c_car c) else c_car c)
  /\ (is_array c = false -> is_bytes c = false ->
        c_cdr c' = (if cdr_is_ref (c_ty c) then f (c_cdr c) else c_cdr c)).

(** The object at [f p] in [h'] is a faithful copy of the object at [p] in [h]. *)
Definition same_object (f : Z -> Z) (h h' : gmap Z cell) (p : Z) : Prop :=
  exists c c', h !! p = Some c /\ h' !! f p = Some c' /\ same_cell f c c'
  /\ (is_bytes c = true -> c_bytes c' = c_bytes c)
  /\ (is_array c = true -> forall i, 0 <= i < c_car c ->
        exists e e', h !! (c_cdr c + i) = Some e /\ h' !! (c_cdr c' + i) = Some e' /\ same_cell f e e').

(** The cells of the object in [h] add up to a total. *)
Definition size_at (h : gmap Z cell) (p : Z) : Z :=
  match h !! p with Some c => obj_size c | None => 0 end.
Definition total_size (h : gmap Z cell) (ps : list Z) : Z :=
  foldr (fun p n => size_at h p + n) 0 ps.

(** [ps] lists the live objects, each once. *)
Definition enumerates_live (h : gmap Z cell) (roots : list Z) (ps : list Z) : Prop :=
  NoDup ps /\ forall p, p ∈ ps <-> reach h roots p.

(** The built-in constants '(), #f, ... and the built-in symbols are single symbol cells. *)
Definition constants_ok (h : gmap Z cell) (symbol_max : Z) : Prop :=
  cell_nil < symbol_max /\
  forall p, cell_nil <= p < symbol_max ->
    exists c, h !! p = Some c /\ (c_ty c = TSPECIAL \/ c_ty c = TSYMBOL).

(** The interpreter's roots: the constants, the global tables and the live part of the stack. *)
Definition constants (s : state) : list Z := seqZ cell_nil (g_symbol_max s - cell_nil).
Definition globals (s : state) : list Z := [g_symbols s; g_macros s; g_ports s; M0 s].
Definition live_stack (s : state) : list (option Z) :=
  (fun i => g_stack_array s !! i) <$> seqZ (g_stack s) (STACK_SIZE s - g_stack s).
Definition stack_entries (s : state) : list Z :=
  omap (fun i => g_stack_array s !! i) (seqZ (g_stack s) (STACK_SIZE s - g_stack s)).
Definition gc_roots (s : state) : list Z := constants s ++ globals s ++ stack_entries s.

(** A state in which the interpreter may collect. *)
Record gc_ready (s : state) : Prop := {
  rdy_cells : g_cells s = cell_nil - 1;
  rdy_free : cell_nil <= g_free s;
  rdy_arena : exists c, heap s !! (g_cells s - 1) = Some c;
  rdy_stack : 0 <= g_stack s <= STACK_SIZE s
     /\ forall i, g_stack s <= i < STACK_SIZE s -> exists v, g_stack_array s !! i = Some v;
  rdy_constants : constants_ok (heap s) (g_symbol_max s);
  rdy_heap : heap_ok cell_nil (g_free s) (heap s) (gc_roots s) }.

(** The live objects of a state. *)
Definition live (s : state) (p : Z) : Prop := reach (heap s) (gc_roots s) p.

(** [s'] is [s] with its live objects moved along [f] and everything else forgotten. *)
Record collected (f : Z -> Z) (s s' : state) : Prop := {
  col_inj : forall p q, live s p -> live s q -> f p = f q -> p = q;
  col_obj : forall p, live s p -> same_object f (heap s) (heap s') p;
  col_const : forall p, p ∈ constants s -> f p = p;
  col_globals : globals s' = f <$> globals s;
  col_stack : forall i, g_stack s <= i < STACK_SIZE s ->
     g_stack_array s' !! i = f <$> (g_stack_array s !! i);
  col_live : forall p', live s' p' <-> exists p, live s p /\ p' = f p;
  col_compact : exists ps, enumerates_live (heap s) (gc_roots s) ps
     /\ g_free s' = cell_nil + total_size (heap s) ps;
  col_rest : g_stack s' = g_stack s /\ STACK_SIZE s' = STACK_SIZE s /\ g_cells s' = g_cells s
     /\ limit s' = limit s /\ ARENA_SIZE s' = ARENA_SIZE s /\ GC_SAFETY s' = GC_SAFETY s
     /\ MAX_STRING s' = MAX_STRING s /\ g_symbol_max s' = g_symbol_max s
     /\ g_continuations s' = g_continuations s
     /\ std_in s' = std_in s /\ in_fds s' = in_fds s /\ unget s' = unget s /\ out_fds s' = out_fds s
     /\ R0 s' = R0 s /\ R1 s' = R1 s /\ R2 s' = R2 s /\ R3 s' = R3 s }.

(** The same for the whole machine, whose registers R0-R3 are roots as well. *)
Definition regs (s : state) : list Z := [R0 s; R1 s; R2 s; R3 s].
Definition all_roots (s : state) : list Z := gc_roots s ++ regs s.
Definition alive (s : state) (p : Z) : Prop := reach (heap s) (all_roots s) p.

Record machine_ok (s : state) : Prop := {
  mo_cells : g_cells s = cell_nil - 1;
  mo_free : cell_nil <= g_free s;
  mo_arena : exists c, heap s !! (g_cells s - 1) = Some c;
  mo_stack : 0 <= g_stack s <= STACK_SIZE s
     /\ forall i, g_stack s <= i < STACK_SIZE s -> exists v, g_stack_array s !! i = Some v;
  mo_constants : constants_ok (heap s) (g_symbol_max s) /\ cell_f < g_symbol_max s;
  mo_heap : heap_ok cell_nil (g_free s) (heap s) (all_roots s) }.

(** [s'] is [s] with its live objects moved along [f] and everything else forgotten. *)
Record moved (f : Z -> Z) (s s' : state) : Prop := {
  mv_inj : forall p q, alive s p -> alive s q -> f p = f q -> p = q;
  mv_obj : forall p, alive s p -> same_object f (heap s) (heap s') p;
  mv_const : forall p, p ∈ constants s -> f p = p;
  mv_globals : globals s' = f <$> globals s;
  mv_regs : regs s' = f <$> regs s;
  mv_stack : forall i, g_stack s <= i < STACK_SIZE s ->
     g_stack_array s' !! i = f <$> (g_stack_array s !! i);
  mv_alive : forall p', alive s' p' <-> exists p, alive s p /\ p' = f p;
  mv_compact : exists ps, enumerates_live (heap s) (all_roots s) ps
     /\ g_free s' = cell_nil + total_size (heap s) ps;
  mv_rest : g_stack s' = g_stack s /\ STACK_SIZE s' = STACK_SIZE s /\ g_cells s' = g_cells s
     /\ limit s' = limit s /\ ARENA_SIZE s' = ARENA_SIZE s /\ GC_SAFETY s' = GC_SAFETY s
     /\ MAX_STRING s' = MAX_STRING s /\ g_symbol_max s' = g_symbol_max s
     /\ g_continuations s' = g_continuations s
     /\ std_in s' = std_in s /\ in_fds s' = in_fds s /\ unget s' = unget s /\ out_fds s' = out_fds s }.

(** Enough memory: every set of live objects fits behind the cells allocated now. *)
Definition has_room (s : state) : Prop :=
  forall ps, NoDup ps -> (forall p, p ∈ ps -> alive s p) ->
    g_free s + 2 + total_size (heap s) ps <= limit s.
