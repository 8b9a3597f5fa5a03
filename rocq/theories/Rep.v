(** Heap objects without addresses, and what it means that a state of the interpreter holds
    them.  An object is named by an identifier that never changes; the collector only changes
    the map from identifiers to addresses.  Nothing here mentions the collector's code. *)
From stdpp Require Import base gmap relations list countable.
From Coq Require Import ZArith Lia.
From Verif Require Import CInt Symbols Heap GcSpec.
Open Scope Z_scope.

(** [Loc l]: an object that a program may change.  [Imp k]: one that nothing changes once it is
    made; [Imp k] for the address [k] of a built-in constant is that constant.  [Key k]: an entry
    of an environment that the evaluator keeps for itself and may change.  [Txt k]: the text of a
    program that has not been expanded yet; only the expansion changes it. *)
Inductive id : Type := Loc (l : Z) | Imp (k : Z) | Key (k : Z) | Txt (k : Z).
Global Instance id_eq_dec : EqDecision id.
Proof. solve_decision. Defined.
Global Instance id_countable : Countable id.
Proof.
  refine (inj_countable' (fun i => match i with Loc l => inl (inl l) | Imp k => inr (inl k) | Key k => inl (inr k) | Txt k => inr (inr k) end)
                         (fun s => match s with inl (inl l) => Loc l | inr (inl k) => Imp k | inl (inr k) => Key k | inr (inr k) => Txt k end) _).
  by intros [].
Defined.

(** the words of a cell, the slots of an array, and objects *)
Inductive word : Type := WId (i : id) | WInt (n : Z).
Inductive aslot : Type := ANum (n : Z) | AChar (n : Z) | ARef (i : id).
Inductive obj : Type :=
| OCell (t : Z) (a d : word)
| OArr (t : Z) (es : list aslot)
| OBytes (bs : list Z).

Definition idmap : Type := id -> Z -> Prop.
Definition word_rel (f : idmap) (w : word) (x : Z) : Prop :=
  match w with WId i => f i x | WInt n => x = n end.
Definition slot_rel (f : idmap) (w : aslot) (e : cell) : Prop :=
  match w with
  | ANum n => c_ty e = TNUMBER /\ c_cdr e = n
  | AChar n => c_ty e = TCHAR /\ c_cdr e = n
  | ARef i => c_ty e = TREF /\ f i (c_car e)
  end.
Definition word_ok (b : bool) (w : word) : Prop :=
  match w with WId _ => b = true | WInt _ => b = false end.
(** a cell of type [t] with these words: references where the type says so *)
Definition cell_ok (t : Z) (a d : word) : Prop :=
  0 <= t < TBROKEN_HEART /\ t <> TBYTES /\ t <> TVECTOR /\ t <> TSTRUCT
  /\ word_ok (car_is_ref t) a /\ word_ok (cdr_is_ref t) d.
Definition obj_at (f : idmap) (h : gmap Z cell) (o : obj) (p : Z) : Prop :=
  match o with
  | OCell t a d => exists c, h !! p = Some c /\ c_ty c = t /\ cell_ok t a d
                     /\ word_rel f a (c_car c) /\ word_rel f d (c_cdr c)
  | OArr t es => exists c, h !! p = Some c /\ c_ty c = t /\ (t = TVECTOR \/ t = TSTRUCT)
                     /\ c_car c = Z.of_nat (length es)
                     /\ forall i w, es !! i = Some w ->
                          exists e, h !! (c_cdr c + Z.of_nat i) = Some e /\ slot_rel f w e
  | OBytes bs => exists c, h !! p = Some c /\ c_ty c = TBYTES /\ c_bytes c = bs
                     /\ c_car c = Z.of_nat (length bs)
  end.

(** the abstract machine state: objects, registers, stack (top first) and global tables *)
Record mst : Type := Mst {
  m_heap : gmap id obj;
  m_r0 : id; m_r1 : id; m_r2 : id; m_r3 : id;
  m_stk : list id;
  m_size : Z;      (* of the whole stack *)
  m_glob : list id }.

Record rep_heap (f : idmap) (σ : gmap id obj) (s : state) : Prop := {
  rh_fun : forall i p q, f i p -> f i q -> p = q;
  rh_inj : forall i j p, f i p -> f j p -> i = j;
  rh_const : forall k, cell_nil <= k < g_symbol_max s -> f (Imp k) k;
  rh_obj : forall i p, f i p -> exists o, σ !! i = Some o /\ obj_at f (heap s) o p;
  rh_wf : forall i p, f i p -> exists c, heap s !! p = Some c /\ wf_obj cell_nil (g_free s) (heap s) p c;
  rh_disj : forall i j p q c d a, f i p -> f j q -> p <> q ->
     heap s !! p = Some c -> heap s !! q = Some d -> occupies p c a -> occupies q d a -> False }.

(** [s] holds the abstract state [M], with the objects of [M] at the addresses given by [f] *)
Record rep (f : idmap) (M : mst) (s : state) : Prop := {
  rp_heap : rep_heap f (m_heap M) s;
  rp_r0 : f (m_r0 M) (R0 s);
  rp_r1 : f (m_r1 M) (R1 s);
  rp_r2 : f (m_r2 M) (R2 s);
  rp_r3 : f (m_r3 M) (R3 s);
  rp_size : 0 <= g_stack s /\ g_stack s + Z.of_nat (length (m_stk M)) = STACK_SIZE s;
  rp_stack_size : STACK_SIZE s = m_size M;
  rp_stk : forall k i, m_stk M !! k = Some i ->
     exists p, g_stack_array s !! (g_stack s + Z.of_nat k) = Some p /\ f i p;
  rp_glob : Forall2 f (m_glob M) (globals s);
  rp_cells : g_cells s = cell_nil - 1;
  rp_free : cell_nil <= g_free s;
  rp_limit : g_cells s + ARENA_SIZE s < limit s;
  rp_top : g_free s <= limit s;
  rp_arena : exists c, heap s !! (g_cells s - 1) = Some c;
  rp_constants : constants_ok (heap s) (g_symbol_max s) /\ cell_symbol_test < g_symbol_max s }.
