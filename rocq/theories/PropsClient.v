(** C06: collections do not change what a client of the heap sees. *)
From stdpp Require Import base gmap list.
From Coq Require Import ZArith Lia.
From Coq Require Import ZifyBool ZifyNat.
From Verif Require Import CInt Symbols Heap GcSpec GcModel GcCheck DataModel DataSpec BootModel Builtins.
From Verif Require Import Rep RepProofs ClientModel ClientProofs PropsGc Samples.
Import Strings.String.StringSyntax.
Open Scope Z_scope.
Open Scope mes_scope.

(** A state in which a client may start: the collector's invariant, the arena allocated by the
    C library is larger than the part that is used, the built-in symbols are there. *)
Definition client_ok (s : state) : Prop :=
  machine_ok s /\ g_cells s + ARENA_SIZE s < limit s /\ g_free s <= limit s /\ cell_symbol_test < g_symbol_max s.
Definition stack_vars (s : state) : nat := Z.to_nat (STACK_SIZE s - g_stack s).

(** For every client, which may choose each call after seeing all answers to the earlier ones,
    and for any two schedules of collections: the answers and the way the run ends are the same,
    as long as neither run meets the end of the memory. *)
Theorem C06_collections_are_transparent s p sched sched' :
  client_ok s -> within (stack_vars s) p -> lasts sched p s -> lasts sched' p s ->
  run sched p s = run sched' p s.
Proof.
  intros (Hm & H1 & H2 & H3) Hw Hl Hl'. destruct (represented s Hm H1 H2 H3) as (f & M & n & R & I & Hlen & _).
  assert (within (length (m_stk M)) p) as Hw' by (unfold stack_vars in Hw; by rewrite <- Hlen, Nat2Z.id in Hw).
  rewrite (run_ideal p sched n f M s), (run_ideal p sched' n f M s); done.
Qed.

(** A bound on the client's calls is enough to rule out the end of the memory, for all schedules
    (any number of collections before any call): the run is the same as one without any
    collection. *)
Theorem C06_every_schedule s p N sched :
  client_ok s -> within (stack_vars s) p -> costs N (MAX_STRING s) p ->
  5 <= g_stack s -> 2 * (g_free s + N) <= limit s -> g_free s + N - g_cells s <= ARENA_SIZE s ->
  run sched p s = run [] p s.
Proof.
  intros Hok Hw Hc Hg Hl Ha. destruct Hok as (Hm & H1 & H2 & H3).
  destruct (represented s Hm H1 H2 H3) as (f & M & n & R & I & Hlen & _).
  assert (within (length (m_stk M)) p) as Hw' by (unfold stack_vars in Hw; by rewrite <- Hlen, Nat2Z.id in Hw).
  apply C06_collections_are_transparent; [done|done|..]; by eapply lasts_static.
Qed.

(** ... and the run does not end in undefined behaviour: no call reads or writes anything that is
    not an object of the heap, however the collections move the objects. *)
Theorem C06_no_undefined_behaviour s p N sched :
  client_ok s -> keywords_sane s -> within (stack_vars s) p -> costs N (MAX_STRING s) p ->
  5 <= g_stack s -> 2 * (g_free s + N) <= limit s -> g_free s + N - g_cells s <= ARENA_SIZE s ->
  (run sched p s).2 <> Undefined.
Proof.
  intros (Hm & H1 & H2 & H3) Hkw Hw Hc Hg Hl Ha. destruct (represented s Hm H1 H2 H3) as (f & M & n & R & I & Hlen & Hk).
  assert (within (length (m_stk M)) p) as Hw' by (unfold stack_vars in Hw; by rewrite <- Hlen, Nat2Z.id in Hw).
  assert (lasts sched p s) as HL by by eapply lasts_static.
  rewrite (run_ideal p sched n f M s) by done. eapply arun_defined; try done. by apply Hk.
Qed.

(** * The hypotheses hold *)
(** A client that builds shared and cyclic data, changes it, throws data away, and goes on
    according to what eq? said. *)
Definition then_ (c : cmd) (p : client) : client := Do c (fun _ => p).
Definition some_client : client :=
  then_ (Str VR1 (bytes_of "shared")) (
  then_ (MakeVector VR2 3) (
  then_ (VectorSet VR2 1 VR1) (
  then_ (Cons VR3 VR2 VR1) (
  then_ (SetCdr VR3 VR3) (
  then_ (Number VR1 42) (                   (* the string is now only in the vector *)
  then_ (VectorSet VR2 2 VR1) (
  then_ (Cdr VR0 VR3) (
  then_ (Car VR0 VR0) (
  then_ (VectorRef VR1 VR0 1) (
  then_ (VectorRef VR2 VR0 2) (
  then_ (Show VR2) (
  then_ (Car VR2 VR2) (                     (* an error: 42 is not a pair *)
  then_ (VectorRef VR2 VR2 0) Stop          (* not reached as written below *)
  ))))))))))))).
Definition deciding_client : client :=
  then_ (Str VR1 (bytes_of "shared")) (
  then_ (Cons VR2 VR1 VR1) (
  then_ (Car VR0 VR2) (
  then_ (Cdr VR3 VR2) (
  Do (IsEq VR0 VR3) (fun a => match a with
    | Truth true => then_ (Show VR3) some_client
    | _ => Stop
    end))))).

Definition keywords_b (h : gmap Z cell) : bool :=
  forallb (fun pc : Z * cell => if c_ty pc.2 =? TKEYWORD then
     match h !! c_cdr pc.2 with
     | Some b => (c_ty b =? TBYTES) && (0 <=? c_car pc.2) && (c_car pc.2 <=? Z.of_nat (length (c_bytes b)))
     | None => false
     end else true) (map_to_list h).
Lemma keywords_check s : keywords_b (heap s) = true -> keywords_sane s.
Proof.
  unfold keywords_b. rewrite forallb_forall. intros H p c Hc Ht. specialize (H (p, c)). cbn in H. rewrite Ht, Z.eqb_refl in H.
  destruct (heap s !! c_cdr c) as [b|]; [|discriminate H; by apply elem_of_list_In, elem_of_map_to_list].
  assert (((c_ty b =? TBYTES) && (0 <=? c_car c) && (c_car c <=? Z.of_nat (length (c_bytes b)))) = true) by by apply H, elem_of_list_In, elem_of_map_to_list.
  exists b. split; [done|]. lia.
Qed.

Definition expected : list answer * ending :=
        ([Fine; Fine; Fine; Fine; Truth true; SeesText TSTRING (bytes_of "shared");
          Fine; Fine; Fine; Fine; Fine; Fine; Fine; Fine; Fine; Fine; Fine; SeesNumber 42; Failed cell_symbol_not_a_pair], Exited).

Global Instance answer_eq : EqDecision answer.
Proof. solve_decision. Defined.
Global Instance ending_eq : EqDecision ending.
Proof. solve_decision. Defined.

Example client_hypotheses_hold :
  exists s, final (booted 100000 10000) = Some s
    /\ client_ok s /\ keywords_sane s /\ within (stack_vars s) deciding_client /\ costs 40 (MAX_STRING s) deciding_client
    /\ 5 <= g_stack s /\ 2 * (g_free s + 40) <= limit s /\ g_free s + 40 - g_cells s <= ARENA_SIZE s
    /\ run [] deciding_client s = expected
    /\ run [1; 0; 2; 0; 1; 1]%nat deciding_client s = run [] deciding_client s.
Proof.
  destruct (check_final (booted 100000 10000) (fun s => machine_check s (live_objects s) && (g_cells s + ARENA_SIZE s <? limit s)
    && (g_free s <=? limit s) && (cell_symbol_test <? g_symbol_max s) && keywords_b (heap s) && (100 <=? MAX_STRING s)
    && (5 <=? g_stack s) && (2 * (g_free s + 40) <=? limit s) && (g_free s + 40 - g_cells s <=? ARENA_SIZE s)
    && bool_decide (run [] deciding_client s = expected))) as (s & E & H).
  { vm_compute. reflexivity. }
  exists s. split; [exact E|]. clear E. repeat match goal with H : _ && _ = true |- _ => apply andb_prop in H as [? ?] end.
  assert (client_ok s) as Hok. { split; [by eapply machine_check_ok|]. lia. }
  assert (within (stack_vars s) deciding_client) as Hw.
  { repeat (cbn; match goal with
      | |- Forall _ [] => constructor | |- Forall _ (_ :: _) => constructor
      | |- _ /\ _ => split | |- forall _, _ => intros ?
      | |- context [match ?a with Fine => _ | _ => _ end] => is_var a; destruct a as [| | |[]| | | | |]
      end); done. }
  assert (costs 40 (MAX_STRING s) deciding_client) as Hc.
  { unfold deciding_client, some_client. repeat (match goal with
      | |- costs _ _ (then_ _ _) => unfold then_ | |- costs _ _ (Do _ _) => cbn -[Z.sub Z.le Z.of_nat need]
      | |- _ /\ _ => split | |- forall _, _ => intros ?
      | |- context [match ?a with Fine => _ | _ => _ end] => is_var a; destruct a as [| | |[]| | | | |]
      end); try exact I; try (vm_compute; discriminate).
    all: change (Z.of_nat (length (bytes_of "shared"))) with 6; lia. }
  split; [done|]. split; [by apply keywords_check|]. split; [done|]. split; [done|]. do 3 (split; [lia|]). split.
  - by eapply bool_decide_eq_true.
  - eapply (C06_every_schedule s _ 40); try done; lia.
Qed.

Print Assumptions C06_collections_are_transparent.
Print Assumptions C06_every_schedule.
Print Assumptions C06_no_undefined_behaviour.
