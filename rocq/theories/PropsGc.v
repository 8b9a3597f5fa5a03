(** Properties C01-C05: garbage collection. *)
From stdpp Require Import base gmap list relations.
From Coq Require Import ZArith Lia.
From Coq Require Import ZifyBool ZifyNat.
From Verif Require Import CInt Symbols Heap HeapLemmas GcModel GcSpec GcObserve GcWhole GcObserveProofs.
From Verif Require Import DataModel BootModel Builtins GcCheck.
Import Strings.String.StringSyntax.
Open Scope Z_scope.
Open Scope mes_scope.

(** C01.  After a collection every chain of field selections from every root variable leads to
    an object with the same contents as before (or to nothing, as before). *)
Theorem C01_gc_preserves_live_values s :
  machine_ok s -> 5 <= g_stack s -> has_room s ->
  exists s', gc s = ROk tt s' /\
    forall r path,
      (p ← access s' r path; observe (heap s') p) = (p ← access s r path; observe (heap s) p)
      /\ (access s' r path = None <-> access s r path = None).
Proof.
  intros Hok Hst Hr. destruct (gc_correct s Hok Hst Hr) as (f & s' & Hgc & Hm & _).
  exists s'; split; [done|]. intros r path. rewrite (moved_access f s s' Hm).
  destruct (access s r path) as [p|] eqn:E; cbn; [|done].
  split; [|done]. apply moved_observe; [done|]. by eapply alive_access.
Qed.

(** C02.  Two such chains led to the same object before the collection exactly if they do after. *)
Theorem C02_gc_preserves_identity s :
  machine_ok s -> 5 <= g_stack s -> has_room s ->
  exists s', gc s = ROk tt s' /\
    forall r1 path1 r2 path2,
      access s' r1 path1 = access s' r2 path2 <-> access s r1 path1 = access s r2 path2.
Proof.
  intros Hok Hst Hr. destruct (gc_correct s Hok Hst Hr) as (f & s' & Hgc & Hm & _).
  exists s'; split; [done|]. intros r1 p1 r2 p2. rewrite !(moved_access f s s' Hm).
  destruct (access s r1 p1) as [p|] eqn:E1, (access s r2 p2) as [q|] eqn:E2; cbn; try done.
  split; [|congruence]. intros [= H]. f_equal. apply (mv_inj _ _ _ Hm) in H; [done| |]; by eapply alive_access.
Qed.

(** C03.  The built-in constants and symbols keep their addresses and contents, and the same
    fields refer to them as before. *)
Theorem C03_gc_keeps_constants s :
  machine_ok s -> 5 <= g_stack s -> has_room s ->
  exists s', gc s = ROk tt s' /\ g_symbol_max s' = g_symbol_max s /\
    forall k, cell_nil <= k < g_symbol_max s ->
      observe (heap s') k = observe (heap s) k
      /\ (forall path, (p ← follow (heap s') k path; observe (heap s') p)
                       = (p ← follow (heap s) k path; observe (heap s) p))
      /\ forall r path, access s' r path = Some k <-> access s r path = Some k.
Proof.
  intros Hok Hst Hr. destruct (gc_correct s Hok Hst Hr) as (f & s' & Hgc & Hm & _).
  exists s'; split; [done|]. split; [apply (mv_rest _ _ _ Hm)|]. intros k Hk.
  assert (f k = k) as Hfk by (apply (mv_const _ _ _ Hm), elem_of_seqZ; lia).
  assert (root s (Constant k) = Some k) as Hrk.
  { cbn. destruct (Z.leb_spec cell_nil k), (Z.ltb_spec k (g_symbol_max s)); try lia. done. }
  assert (alive s k) as Hal by (by eapply alive_root).
  split; [|split].
  - rewrite <- Hfk at 1. by apply moved_observe.
  - intros path. rewrite <- Hfk at 1. rewrite (moved_follow f s s' Hm) by done.
    destruct (follow (heap s) k path) as [q|] eqn:E; cbn; [|done].
    apply moved_observe; [done|]. by eapply alive_follow.
  - intros r path. rewrite (moved_access f s s' Hm). destruct (access s r path) as [q|] eqn:E; cbn; [|done].
    split; intros [= H]; f_equal.
    + apply (mv_inj _ _ _ Hm); [by eapply alive_access|done|congruence].
    + congruence.
Qed.

(** C04.  Exactly the cells of the objects reachable before the collection are in use after it;
    a second collection therefore frees nothing more. *)
Theorem C04_gc_reclaims_exactly_garbage s :
  machine_ok s -> 5 <= g_stack s -> has_room s ->
  exists s', gc s = ROk tt s' /\
    (exists ps, enumerates_live (heap s) (all_roots s) ps
       /\ g_free s' - cell_nil = total_size (heap s) ps)
    /\ (exists ps', enumerates_live (heap s') (all_roots s') ps'
       /\ g_free s' - cell_nil = total_size (heap s') ps').
Proof.
  intros Hok Hst Hr. destruct (gc_correct s Hok Hst Hr) as (f & s' & Hgc & Hm & _).
  exists s'; split; [done|]. destruct (mv_compact _ _ _ Hm) as (ps & Hps & Hfree). split.
  - exists ps; split; [done|]. lia.
  - exists (f <$> ps). split; [by eapply moved_enum|]. rewrite (moved_total f s s' Hm); [lia|].
    intros p Hp. by apply Hps.
Qed.

(** C05.  A collection with enough memory terminates normally (it does not abort, does not
    touch anything outside the arena, does not run for ever) and leaves a state in which the
    interpreter can go on and collect again. *)
Theorem C05_gc_terminates_within_memory s :
  machine_ok s -> 5 <= g_stack s -> has_room s ->
  exists s', gc s = ROk tt s' /\ machine_ok s' /\ g_free s' <= g_free s
    /\ g_stack s' = g_stack s /\ STACK_SIZE s' = STACK_SIZE s /\ limit s' = limit s
    /\ ARENA_SIZE s' = ARENA_SIZE s.
Proof.
  intros Hok Hst Hr. destruct (gc_correct s Hok Hst Hr) as (f & s' & Hgc & Hm & Hok').
  destruct (mv_compact _ _ _ Hm) as (ps & [Hnd Hps] & Hfree).
  pose proof (mv_rest _ _ _ Hm) as (H1 & H2 & _ & H4 & H5 & _).
  exists s'; split; [done|]. split; [done|].
  split; [|done].
  pose proof (mo_cells s Hok). pose proof (mo_free s Hok). unfold cell_nil in *.
  pose proof (GcRoots.total_size_bound _ _ _ _ ps (mo_heap s Hok)) as Hb.
  assert (total_size (heap s) ps <= g_free s - 3); [|lia].
  apply Hb; [unfold cell_nil; lia|done|]. intros p Hp. by apply Hps.
Qed.

(** When there is enough memory: the arena has ARENA_SIZE + JAM_SIZE cells and allocation stops
    at ARENA_SIZE, so live data of up to JAM_SIZE - 3 cells can always be collected. *)
Theorem C05_live_data_below_jam_has_room s jam ps :
  machine_ok s -> limit s = 1 + ARENA_SIZE s + jam -> g_free s - g_cells s <= ARENA_SIZE s ->
  enumerates_live (heap s) (all_roots s) ps -> total_size (heap s) ps <= jam - 3 ->
  has_room s.
Proof.
  intros Hok Hl Hf Hps Ht. eapply room_live; [done|done|].
  pose proof (mo_cells s Hok). unfold cell_nil in *. lia.
Qed.

(** gc-check collects or does nothing; either way the interpreter can go on. *)
Theorem C05_gc_check s :
  machine_ok s -> 5 <= g_stack s -> has_room s ->
  exists s', gc_check s = ROk tt s' /\ machine_ok s'.
Proof.
  intros Hok Hst Hr. unfold gc_check. rewrite bind_get.
  destruct (Z.leb_spec (ARENA_SIZE s) (g_free s - g_cells s + GC_SAFETY s)).
  - destruct (gc_correct s Hok Hst Hr) as (f & s' & Hgc & Hm & Hok'). by exists s'.
  - by exists s.
Qed.

(** The hypotheses hold for the interpreter right after it has started (all 142 built-in
    procedures, the initial module, two command line arguments; arena of 100000 cells), and for
    a state in which a program has built data. *)
Definition booted (arena jam : Z) : res unit :=
  boot 1000 500 builtin_table (bytes_of "mes") [bytes_of "mes"; bytes_of "--help"]
    (init_state arena jam 100 (arena / 100) 1000).
Definition final {A} (r : res A) : option state := match r with ROk _ s => Some s | _ => None end.

(** shared structure, a cycle, a vector with a number and a string in it *)
Definition sample : M unit :=
  x <- make_string0 (bytes_of "hello") ;;
  n <- make_number 42 ;;
  v <- make_vector_ 3 x ;;
  vector_set_x_ v 1 n ;;;
  p <- cons v x ;;
  q <- cons p p ;;
  set_cdr q q ;;;
  modify (set_R1 q) ;;;
  make_number 1000 ;;;                      (* garbage *)
  gc_push_frame ;;;
  c <- make_char 97 ;; modify (set_R2 c).

Lemma check_final {A} (r : res A) (P : state -> bool) :
  match final r with Some s => P s | None => false end = true -> exists s, final r = Some s /\ P s = true.
Proof. destruct (final r) as [s|]; [by exists s|discriminate]. Qed.

Definition ready_b (s : state) : bool :=
  machine_check s (live_objects s) && (5 <=? g_stack s) && (2 * g_free s <=? limit s).
Lemma ready_check s : ready_b s = true -> machine_ok s /\ 5 <= g_stack s /\ has_room s.
Proof.
  intros H. apply andb_prop in H as [[H1 H2]%andb_prop H3]. apply machine_check_ok in H1.
  split; [done|]. split; [lia|]. apply room_half; [done|lia].
Qed.

Example gc_hypotheses_hold_after_boot :
  exists s, final (booted 100000 10000) = Some s /\ machine_ok s /\ 5 <= g_stack s /\ has_room s.
Proof.
  destruct (check_final (booted 100000 10000) ready_b) as (s & E & H).
  { vm_compute. reflexivity. }
  exists s. split; [exact E|]. apply ready_check, H.
Qed.

Example gc_hypotheses_hold_for_sample :
  exists s, final (match booted 100000 10000 with ROk _ s => sample s | r => r end) = Some s
    /\ (machine_ok s /\ 5 <= g_stack s /\ has_room s)
    /\ access s (Register 1) [FCdr; FCdr; FCar; FCar; FElem 2] = access s (Register 1) [FCar; FCdr]
    /\ access s (Register 1) [] <> None.
Proof.
  destruct (check_final (match booted 100000 10000 with ROk _ s => sample s | r => r end)
    (fun s => ready_b s
       && bool_decide (access s (Register 1) [FCdr; FCdr; FCar; FCar; FElem 2] = access s (Register 1) [FCar; FCdr])
       && bool_decide (access s (Register 1) [] <> None))) as (s & E & H).
  { vm_compute. reflexivity. }
  apply andb_prop in H as [[H H1]%andb_prop H2]. exists s. split; [exact E|].
  split; [apply ready_check, H|].
  split; [exact (proj1 (bool_decide_eq_true _) H1)|exact (proj1 (bool_decide_eq_true _) H2)].
Qed.

(** C05, what fails without enough memory: the collector does not check the end of the arena.
    With less free memory than live data the copy runs over the end of the malloc'ed arena. *)
Theorem C05_gc_overruns_arena_refuted :
  exists s, machine_ok s /\ 5 <= g_stack s /\ g_free s - g_cells s <= ARENA_SIZE s /\ gc s = RUB.
Proof.
  destruct (check_final (booted 9000 900)
    (fun s => machine_check s (live_objects s) && (5 <=? g_stack s)
       && (g_free s - g_cells s <=? ARENA_SIZE s)
       && (match gc s with RUB => true | _ => false end))) as (s & E & H).
  { vm_compute. reflexivity. }
  clear E. apply andb_prop in H as [[[H H1]%andb_prop H2]%andb_prop H3]. exists s.
  split; [by eapply machine_check_ok|]. split; [lia|]. split; [lia|]. by destruct (gc s).
Qed.

(** C01, what fails for states that are not [machine_ok]: vector->list makes a list that refers
    into the inside of the vector; the collector then aborts ("broken heart") although every
    step was an ordinary library call. *)
Definition vector_list_then_gc : M unit :=
  x <- make_number 7 ;;
  v <- make_vector_ 1 x ;;
  l <- vector_to_list v ;;
  w <- cons v cell_nil ;;
  a <- cons w cell_nil ;;
  a <- cons l a ;;
  modify (set_R1 a) ;;;
  gc.
Theorem C01_gc_after_vector_to_list_refuted :
  exists s, machine_ok s /\ has_room s /\ vector_list_then_gc s = RAbort.
Proof.
  destruct (check_final (booted 100000 10000)
    (fun s => ready_b s && (match vector_list_then_gc s with RAbort => true | _ => false end))) as (s & E & H).
  { vm_compute. reflexivity. }
  clear E. apply andb_prop in H as [H H3]. exists s. destruct (ready_check _ H) as (? & ? & ?).
  split; [done|]. split; [done|]. by destruct (vector_list_then_gc s).
Qed.

Print Assumptions C01_gc_preserves_live_values.
Print Assumptions C02_gc_preserves_identity.
Print Assumptions C03_gc_keeps_constants.
Print Assumptions C04_gc_reclaims_exactly_garbage.
Print Assumptions C05_gc_terminates_within_memory.
Print Assumptions C05_live_data_below_jam_has_room.
Print Assumptions C05_gc_check.
Print Assumptions C05_gc_overruns_arena_refuted.
Print Assumptions C01_gc_after_vector_to_list_refuted.
