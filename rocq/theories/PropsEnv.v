(** C30: the process environment is a map.  The specification is EnvSpec.v. *)
From stdpp Require Import base gmap list.
From Coq Require Import ZArith Lia.
From Coq Require Import ZifyBool ZifyNat.
From Verif Require Import CInt LibModel LibSpec LibProofs AllocModel AllocSpec AllocProofs EnvSpec EnvProofs.
Open Scope Z_scope. Open Scope proc_scope.

(** Whatever the environment a process starts with and whatever history of [setenv] and
    [unsetenv] it goes through, [getenv] of any name then returns the value last set for
    exactly that name — the initial one if the name was not touched — or the null pointer
    if there is none.  The memory the program can name does not change.
    The conditions: names are not empty and have no '='; there is memory and there are
    slots in the array for the new entries; no name has two entries if [unsetenv] is used. *)
Theorem C30_history page kstart limit bound ops rs p E spare :
  0 < page -> 0 < kstart -> limit + page + 16 <= LONG_MAX -> Z.of_nat bound <= INT_MAX ->
  heap_ok page kstart limit p ->
  environment page limit p bound E spare ->
  Forall2 (asks page limit p bound) ops rs ->
  (sets rs <= spare)%nat -> fits page limit (cur p) rs ->
  (forall n, Unset n ∈ rs -> distinct E) ->
  exists p', do_eops page kstart limit bound ops p = POk tt p' /\
    (forall q, (q < cur p \/ page_up page limit <= q) -> pmem p' !! q = pmem p !! q) /\
    forall s n, text_at page limit p' bound s n -> good_name n ->
      exists r, getenv bound s p' = POk r p' /\
        match apply_all rs (env_of E) !! n with
        | Some v => r <> 0 /\ cstr (pmem p') r v
        | None => r = 0
        end.
Proof.
  intros H1 H2 H3 H4 Hh He Hr Hs Hf Hd.
  destruct (do_eops_ok page kstart limit H1 H2 H3 bound H4 ops rs p E spare Hh He Hr Hs Hf Hd)
    as (p' & E' & spare' & R & _ & He' & _ & M & K).
  exists p'. split; [done|]. split; [done|]. intros s n Ht Hn.
  rewrite <- M. by eapply getenv_ok.
Qed.

(** The map read off the entries is what one expects: the value of [n] is that of the
    first entry [n=...], and nothing else counts.  In particular a name that begins like
    another one is a different name. *)
Theorem C30_env_of E n v : 61 ∉ n ->
  env_of E !! n = Some v <->
  exists i, E !! i = Some (n ++ 61 :: v) /\
    forall j w, (j < i)%nat -> E !! j <> Some (n ++ 61 :: w).
Proof.
  intros Hn. split.
  - intros Hv. destruct (first_or_none n E) as [(i & t & Hf)|Hno]; [|by rewrite env_none in Hv].
    pose proof Hf as (Hi & Ht & Hb). apply sets_name_true in Ht as (w & Hw).
    rewrite (env_first n E i t w Hf Hw) in Hv. injection Hv as ->.
    apply split_Some in Hw as [-> _]. exists i. split; [done|]. intros j w Hj Hjw.
    specialize (Hb j _ Hj Hjw). apply not_true_iff_false in Hb. apply Hb, sets_name_true. exists w. by apply split_entry.
  - intros (i & Hi & Hb). eapply (env_first n E i); [|by apply split_entry].
    split; [done|]. split; [apply sets_name_true; exists v; by apply split_entry|].
    intros j u Hj Hu. apply not_true_iff_false. rewrite sets_name_true. intros (w & Hw).
    apply split_Some in Hw as [-> _]. by eapply Hb.
Qed.

(** ** a process with the environment A=1, AB=2.  Pages have 32 bytes, the heap may go from
    64 to 256; the strings are at 300 and after *)
Definition strings : gmap Z Z :=
  blit 300 [65; 61; 49; 0] (blit 310 [65; 66; 61; 50; 0] (blit 320 [65; 0] (blit 330 [65; 66; 0]
  (blit 340 [120; 121; 122; 0] (blit 350 [67; 0] (blit 360 (replicate 28 88 ++ [0]) (blit 390 [65; 61; 66; 0] ∅))))))).
Definition process (sl : list Z) : proc := Proc strings 0 64 sl.
Definition two : list (list Z) := [[65; 61; 49]; [65; 66; 61; 50]].

Lemma cstr_check m p bs :
  bool_decide (Forall byte (bs ++ [0])) && forallb (fun '(i, b) => bool_decide (m !! (p + Z.of_nat i) = Some b)) (imap pair (bs ++ [0]))
  && bool_decide (0 ∉ bs) = true -> cstr m p bs.
Proof.
  intros H. apply andb_prop in H as [H H3]. apply andb_prop in H as [H1 H2].
  apply bool_decide_eq_true in H1, H3. split; [|done]. split; [done|]. intros i b Hb.
  rewrite forallb_forall in H2. specialize (H2 (i, b)). cbn in H2. apply bool_decide_eq_true in H2; [done|].
  apply elem_of_list_In, elem_of_lookup_imap. by exists i, b.
Qed.
Definition cstr_b (m : gmap Z Z) (p : Z) (bs : list Z) : bool :=
  bool_decide (Forall byte (bs ++ [0])) && forallb (fun '(i, b) => bool_decide (m !! (p + Z.of_nat i) = Some b)) (imap pair (bs ++ [0]))
  && bool_decide (0 ∉ bs).
(** [getenv] of the name at [s] finds [v], or nothing *)
Definition finds (p : proc) (s : Z) (v : list Z) : Prop :=
  exists r p', getenv 100 s p = POk r p' /\ r <> 0 /\ cstr (pmem p') r v.
Definition finds_b (p : proc) (s : Z) (v : list Z) : bool :=
  match getenv 100 s p with POk r p' => negb (r =? 0) && cstr_b (pmem p') r v | _ => false end.
Lemma finds_check p s v : finds_b p s v = true -> finds p s v.
Proof.
  intros H. apply run_check in H as (r & p' & E & H). apply andb_prop in H as [H1 H2].
  exists r, p'. split; [done|]. split; [lia|by apply cstr_check].
Qed.
Definition finds_none (p : proc) (s : Z) : Prop := exists p', getenv 100 s p = POk 0 p'.
Definition finds_none_b (p : proc) (s : Z) : bool := match getenv 100 s p with POk r _ => r =? 0 | _ => false end.
Lemma finds_none_check p s : finds_none_b p s = true -> finds_none p s.
Proof. intros H. apply run_check in H as (r & p' & E & H). apply Z.eqb_eq in H as ->. by exists p'. Qed.

Lemma text_check bound s t sl :
  (256 <=? s) && (length t <? bound)%nat &&
  (bool_decide (Forall byte (t ++ [0])) && forallb (fun '(i, b) => bool_decide (strings !! (s + Z.of_nat i) = Some b)) (imap pair (t ++ [0]))
   && bool_decide (0 ∉ t)) = true -> text_at 32 256 (process sl) bound s t.
Proof.
  intros H. apply andb_prop in H as [H H3]. apply andb_prop in H as [H1 H2]. apply cstr_check in H3.
  apply Nat.ltb_lt in H2. split; [lia|]. split; [done|]. split; [done|]. right. change (page_up 32 256) with 256. lia.
Qed.
Ltac text := apply text_check; vm_compute; reflexivity.
Ltac name := split; [done|]; intros Hin; vm_compute in Hin; repeat (apply elem_of_cons in Hin as [Hin|Hin]; [discriminate|]); by apply elem_of_nil in Hin.

Ltac ask := lazymatch goal with
  | |- text_at _ _ _ _ _ _ => text
  | |- good_name _ => name
  | |- _ /\ _ => split; ask
  | |- _ => cbn; lia
  end.

Lemma process_ok sl : heap_ok 32 64 256 (process sl).
Proof. split; [done|cbn; lia|]. intros q Hq. change (page_up 32 (kbrk (process sl))) with 64 in Hq. lia. Qed.

(** the hypotheses of [C30_history] hold of this process and a history in which a name
    that is the beginning of another is set, set again, and removed *)
Example calls : list eop := [Setenv 320 340 1; Setenv 350 340 0; Unsetenv 330; Setenv 350 320 1; Unsetenv 320].
Example requests : list request :=
  [Set_ [65] [120; 121; 122]; Set_ [67] [120; 121; 122]; Unset [65; 66]; Set_ [67] [65]; Unset [65]].
Example history_hypotheses_hold :
  let p := process [300; 310; 0; 7; 7; 7] in
  heap_ok 32 64 256 p /\ environment 32 256 p 100 two 3 /\ Forall2 (asks 32 256 p 100) calls requests /\
  (sets requests <= 3)%nat /\ fits 32 256 (cur p) requests /\ distinct two.
Proof.
  cbn zeta. split; [apply process_ok|]. split.
  { exists [300; 310], [7; 7; 7]. split; [done|]. split; [done|]. repeat (constructor; [text|]). constructor. }
  split.
  { repeat (constructor; [cbn [asks]; ask|]). constructor. }
  split; [vm_compute; lia|]. split; [cbn; repeat split; (done || lia)|].
  intros [|[|i]] [|[|j]] t u n v w Hi Hj Ht Hu; cbn in *; simplify_eq/=; try done;
    cbn in *; simplify_eq/=.
Qed.
(** … after which C is A, and A and AB are gone *)
Example history_case : exists p',
  do_eops 32 64 256 100 calls (process [300; 310; 0; 7; 7; 7]) = POk tt p' /\
  finds_none p' 320 /\ finds_none p' 330 /\ finds p' 350 [65].
Proof.
  destruct (run_check (do_eops 32 64 256 100 calls (process [300; 310; 0; 7; 7; 7]))
    (fun _ p => finds_none_b p 320 && finds_none_b p 330 && finds_b p 350 [65])) as ([] & p' & E & H); [vm_compute; reflexivity|].
  exists p'. split; [exact E|]. clear E. apply andb_prop in H as [H H3]. apply andb_prop in H as [H1 H2].
  split; [by apply finds_none_check|]. split; [by apply finds_none_check|by apply finds_check].
Qed.

(** ** where the code is not a map *)

(** the overwrite flag is not looked at: [setenv ("A", "xyz", 0)] replaces the value of A *)
Theorem C30_overwrite_refuted : exists a p',
  setenv 32 64 256 100 320 340 0 (process [300; 310; 0; 7]) = POk a p' /\ finds p' 320 [120; 121; 122].
Proof.
  destruct (run_check (setenv 32 64 256 100 320 340 0 (process [300; 310; 0; 7])) (fun _ p => finds_b p 320 [120; 121; 122])) as (a & p' & E & H); [vm_compute; reflexivity|].
  exists a, p'. split; [exact E|]. clear E. by apply finds_check.
Qed.
(** [setenv] writes a zero one byte after the block it allocated: an entry that ends exactly
    with a page makes the store hit memory that is not mapped.  (The value has 28
    characters; a name of two, '=' and the terminator make it 32) *)
Theorem C30_overrun_refuted :
  cstr strings 360 (replicate 28 88) /\
  setenv 32 64 256 100 330 360 1 (process [300; 310; 0; 7]) = PUB.
Proof. split; [apply cstr_check|]; vm_compute; reflexivity. Qed.
(** the array is never made larger: the first new name in the environment a process is
    started with — whose array ends with its null pointer — writes past the array *)
Theorem C30_full_refuted : setenv 32 64 256 100 350 340 1 (process [300; 310; 0]) = PUB.
Proof. vm_compute. reflexivity. Qed.
(** a name with an '=' is taken: setting "A=B" sets A *)
Theorem C30_bad_name_refuted : exists a p',
  setenv 32 64 256 100 390 340 1 (process [310; 0; 7]) = POk a p' /\ finds p' 320 [66; 61; 120; 121; 122].
Proof.
  destruct (run_check (setenv 32 64 256 100 390 340 1 (process [310; 0; 7])) (fun _ p => finds_b p 320 [66; 61; 120; 121; 122])) as (a & p' & E & H); [vm_compute; reflexivity|].
  exists a, p'. split; [exact E|]. clear E. by apply finds_check.
Qed.
(** of two entries for a name that are neighbours [unsetenv] removes one *)
Theorem C30_duplicate_refuted : exists a p',
  unsetenv 100 320 (process [300; 300; 0]) = POk a p' /\ finds p' 320 [49].
Proof.
  destruct (run_check (unsetenv 100 320 (process [300; 300; 0])) (fun _ p => finds_b p 320 [49])) as (a & p' & E & H); [vm_compute; reflexivity|].
  exists a, p'. split; [exact E|]. clear E. by apply finds_check.
Qed.

Print Assumptions C30_history.
Print Assumptions C30_env_of.
Print Assumptions C30_overwrite_refuted.
Print Assumptions C30_overrun_refuted.
Print Assumptions C30_full_refuted.
Print Assumptions C30_bad_name_refuted.
Print Assumptions C30_duplicate_refuted.
