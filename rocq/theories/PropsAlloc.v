(** C39: memory allocation in the C library gives disjoint aligned blocks that keep
    their contents. *)
From stdpp Require Import base gmap list.
From Coq Require Import ZArith Lia.
From Coq Require Import ZifyBool ZifyNat.
From Verif Require Import CInt LibModel LibSpec LibProofs AllocModel AllocSpec AllocProofs.
Open Scope Z_scope. Open Scope proc_scope.
Ltac Zify.zify_post_hook ::= Z.div_mod_to_equations.

(** Whatever history of [malloc], [calloc], [realloc], [free] and stores into blocks a
    program goes through, as long as it stays inside its blocks and the kernel has the
    memory: every call works, the blocks hold what the history says (zeros from [calloc],
    the old contents after [realloc], the bytes stored), and the blocks in use are
    aligned, not null and disjoint.  Nothing outside the heap changes. *)
Theorem C39_history page kstart limit l p :
  0 < page -> 0 < kstart -> limit + page + 16 <= LONG_MAX ->
  heap_ok page kstart limit p ->
  safe [] l -> cur p + needs l <= limit ->
  exists ptrs p' B,
    do_aops page kstart limit l [] p = POk ptrs p' /\
    steps [] l B /\ laid_out (pmem p') ptrs B /\
    (forall q, (q < kstart \/ page_up page limit <= q) -> pmem p' !! q = pmem p !! q).
Proof.
  intros H1 H2 H3 Hh Hs Hn.
  destruct (do_aops_ok page kstart limit H1 H2 H3 l p [] []) as (ptrs & p' & B & E & S & T & M & _); [|done|done|].
  { split; [done|split; [done|by intros [|i]..]|by intros [|i]]. }
  exists ptrs, p', B. split; [done|]. split; [done|]. split; [by destruct T|done].
Qed.

(** In every history, at every step and not only at the end: the pointers a program has
    been given never change, and the prefix of the history already made is itself such a
    history. *)
Lemma do_aops_app page kstart limit l1 : forall l2 ptrs p,
  do_aops page kstart limit (l1 ++ l2) ptrs p =
  pbind (do_aops page kstart limit l1 ptrs) (fun q => do_aops page kstart limit l2 q) p.
Proof.
  induction l1 as [|o l1 IH]; intros l2 ptrs p; [done|]. cbn [app do_aops]. unfold pbind.
  destruct (do_aop page kstart limit o ptrs p) as [q p'| |]; [|done|done]. apply IH.
Qed.
Lemma do_aop_prefix page kstart limit o ptrs p q p' :
  do_aop page kstart limit o ptrs p = POk q p' -> exists t, q = ptrs ++ t.
Proof.
  assert (forall (c : PM Z) p q p', pbind c (fun a => pret (ptrs ++ [a])) p = POk q p' -> exists t, q = ptrs ++ t) as Hc.
  { intros c r q' r' E. unfold pbind, pret in E. destruct (c r) as [a ?| |]; [|done|done]. injection E as <- _. by eexists. }
  assert (forall A (c : PM A) p q p', pbind c (fun _ => pret ptrs) p = POk q p' -> exists t, q = ptrs ++ t) as Hk.
  { intros A c r q' r' E. unfold pbind, pret in E. destruct (c r) as [a ?| |]; [|done|done]. injection E as <- _. exists []. by rewrite app_nil_r. }
  destruct o as [n|a b|i n|i|i k v]; cbn; try (by apply Hc); (destruct (ptrs !! i); [|done]); first [apply Hc|apply Hk].
Qed.
Theorem C39_pointers_stay page kstart limit l : forall ptrs p q p',
  do_aops page kstart limit l ptrs p = POk q p' -> ptrs `prefix_of` q.
Proof.
  induction l as [|o l IH]; intros ptrs p q p' E; cbn [do_aops] in E.
  - injection E as <- _. done.
  - unfold pbind in E. destruct (do_aop page kstart limit o ptrs p) as [r p1| |] eqn:E1; [|done|done].
    apply do_aop_prefix in E1 as [t ->]. etrans; [|by eapply IH]. by exists t.
Qed.

(** ** where the code does less than C promises.

    A request the kernel refuses is not noticed: the system call answers with the break it
    has and not with -1.  [malloc] returns a pointer that is not null, and a store to the last
    byte of that block is undefined behaviour. *)
Theorem C39_out_of_memory_refuted page kstart limit p size :
  0 < page -> 0 < kstart -> limit + page + 16 <= LONG_MAX ->
  heap_ok page kstart limit p ->
  (forall q, page_up page (kbrk p) <= q -> pmem p !! q = None) ->
  page < size -> limit < (cur p + 7) / 8 * 8 + size -> (cur p + 7) / 8 * 8 + size <= LONG_MAX ->
  exists a p', malloc page kstart limit size p = POk a p' /\ 0 < a /\
    lib (st (a + size - 1) 1) p' = PUB.
Proof.
  intros Hpg Hst Hli [Hc Hb Hm] Hno Hsz Hbig Hmax. unfold LONG_MAX in *.
  set (a := (cur p + 7) / 8 * 8) in *. assert (cur p <= a < cur p + 8) as Ha by lia.
  set (p1 := Proc (pmem p) (cur p) (kbrk p) (slots p)).
  assert ((if pbrk p =? 0 then b <- brk page kstart limit 0 ;; set_brk b else pret tt) p = POk tt p1) as E1.
  { unfold cur in p1. destruct (Z.eqb_spec (pbrk p) 0).
    - unfold brk, pbind. assert ((0 <? kstart) || (limit <? 0) = true) as -> by lia. done.
    - unfold pret. subst p1. by destruct p. }
  exists a, (Proc (pmem p) (a + size) (kbrk p) (slots p)).
  split; [|split; [lia|]].
  - unfold malloc. rewrite (pbind_ok _ _ _ _ _ E1).
    assert (aligned (pbrk p1) = a) as -> by (cbn; apply aligned_ok; unfold LONG_MAX; lia).
    cbn zeta. rewrite to_u64_id by (unfold two64; lia).
    set (p2 := Proc (pmem p) a (kbrk p) (slots p)).
    rewrite (pbind_ok (set_brk a) _ p1 tt p2) by done.
    rewrite (pbind_ok (brk page kstart limit (a + size)) _ p2 (kbrk p) p2).
    2: { unfold brk. assert ((a + size <? kstart) || (limit <? a + size) = true) as -> by lia. done. }
    rewrite to_s64_id by (unfold in_long, LONG_MIN, LONG_MAX; lia).
    assert ((kbrk p =? -1) = false) as -> by lia. done.
  - unfold lib, st. cbn [pmem]. rewrite Hno; [done|].
    pose proof (page_up_lt page Hpg (kbrk p)). lia.
Qed.

(** a process that has a page of 32 bytes at 64, of a heap that may go up to 256 *)
Definition fresh : proc := Proc ∅ 0 64 [].
Lemma fresh_ok : heap_ok 32 64 256 fresh.
Proof.
  split; [done|cbn; lia|]. intros q Hq. change (page_up 32 (kbrk fresh)) with 64 in Hq. lia.
Qed.

(** A size so large that the addition wraps around is not noticed either: the block
    [malloc] then returns lies on top of one the program has already. *)
Theorem C39_huge_refuted :
  exists ptrs p', do_aops 32 64 256 [Malloc 16; Malloc (two64 - 16); Malloc 16; Store 0 0 7; Store 2 0 8] [] fresh = POk ptrs p' /\
    ptrs !! 0%nat = Some 64 /\ ptrs !! 2%nat = Some 64 /\ pmem p' !! 64 = Some 8.
Proof.
  destruct (run_check (do_aops 32 64 256 [Malloc 16; Malloc (two64 - 16); Malloc 16; Store 0 0 7; Store 2 0 8] [] fresh)
    (fun ptrs p => bool_decide (ptrs !! 0%nat = Some 64) && bool_decide (ptrs !! 2%nat = Some 64) && bool_decide (pmem p !! 64 = Some 8))) as (ptrs & p' & E & H); [vm_compute; reflexivity|].
  exists ptrs, p'. split; [exact E|]. clear E. apply andb_prop in H as [H H3]. apply andb_prop in H as [H1 H2].
  by apply bool_decide_eq_true in H1, H2, H3.
Qed.
(** and the product in [calloc] wraps as well: a request for 2^64 bytes gets a block of
    none *)
Theorem C39_calloc_refuted :
  exists ptrs p', do_aops 32 64 256 [Calloc (2 ^ 63) 2; Malloc 16] [] fresh = POk ptrs p' /\
    ptrs !! 0%nat = Some 64 /\ ptrs !! 1%nat = Some 64.
Proof.
  destruct (run_check (do_aops 32 64 256 [Calloc (2 ^ 63) 2; Malloc 16] [] fresh)
    (fun ptrs p => bool_decide (ptrs !! 0%nat = Some 64) && bool_decide (ptrs !! 1%nat = Some 64))) as (ptrs & p' & E & H); [vm_compute; reflexivity|].
  exists ptrs, p'. split; [exact E|]. clear E. apply andb_prop in H as [H1 H2].
  by apply bool_decide_eq_true in H1, H2.
Qed.
(** ** the hypotheses of [C39_history] hold of a program with every kind of call *)
Example program : list aop :=
  [Malloc 5; Calloc 3 4; Store 0 4 300; Store 1 11 9; Realloc 0 20; Store 2 19 1; Free 1; Realloc 2 2; Malloc 0; Malloc 8].
Ltac one := let S := fresh "S" in intros ? S; inversion S; subst; clear S.
Example history_hypotheses_hold : safe [] program /\ cur fresh + needs program <= 256 /\ heap_ok 32 64 256 fresh.
Proof.
  split; [|split; [vm_compute; discriminate|apply fresh_ok]].
  unfold program. cbn [safe permitted app].
  split; [lia|]. one. split; [lia|]. one. split; [eexists; split; [done|lia]|]. one.
  split; [eexists; split; [done|rewrite replicate_length; lia]|]. one.
  split; [split; [lia|by eexists]|]. one.
  split; [eexists; split; [done|lia]|]. one. split; [by eexists|]. one.
  split; [split; [lia|by eexists]|]. one. split; [lia|]. one. split; [lia|]. done.
Qed.
(** … and what it gets *)
Example history_case :
  exists ptrs p', do_aops 32 64 256 program [] fresh = POk ptrs p' /\ ptrs = [64; 72; 88; 112; 120; 120] /\
    (fun q => pmem p' !! q) <$> [68; 83; 92; 107; 112] = [Some 44; Some 9; Some 44; Some 1; Some 0].
Proof.
  destruct (run_check (do_aops 32 64 256 program [] fresh)
    (fun ptrs p => bool_decide (ptrs = [64; 72; 88; 112; 120; 120]) && bool_decide ((fun q => pmem p !! q) <$> [68; 83; 92; 107; 112] = [Some 44; Some 9; Some 44; Some 1; Some 0]))) as (ptrs & p' & E & H); [vm_compute; reflexivity|].
  exists ptrs, p'. split; [exact E|]. clear E. apply andb_prop in H as [H1 H2].
  by apply bool_decide_eq_true in H1, H2.
Qed.

(** the hypotheses of [C39_out_of_memory_refuted] hold as well *)
Example out_of_memory_case : exists a p', malloc 32 64 256 200 fresh = POk a p' /\ 0 < a /\ lib (st (a + 200 - 1) 1) p' = PUB.
Proof.
  apply (C39_out_of_memory_refuted 32 64 256 fresh 200); try (unfold LONG_MAX; cbn; lia); [apply fresh_ok|].
  intros q _. apply lookup_empty.
Qed.

Print Assumptions C39_history.
Print Assumptions C39_pointers_stay.
Print Assumptions C39_out_of_memory_refuted.
Print Assumptions C39_huge_refuted.
Print Assumptions C39_calloc_refuted.
