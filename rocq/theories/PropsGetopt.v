(** C41: getopt and getopt_long deliver the options of the command line. *)
From stdpp Require Import base list.
From Coq Require Import ZArith Lia.
From Coq Require Import ZifyBool ZifyNat.
From Coq Require Ascii String.
From Verif Require Import CInt GetoptModel GetoptSpec GetoptProofs.
Open Scope Z_scope.

(** C strings of the command line: no NUL inside *)
Definition is_text (s : list Z) : Prop := Forall (fun c => 0 < c < 256) s.

(** A program that calls getopt until it gives EOF receives exactly the options of the command
    line, in order, and [optind] is then the number of arguments before the rest.  No call is
    undefined.  Any meaning that the specification gives to the command line is this one. *)
Theorem C41_getopt prog args os :
  is_text prog -> Forall is_text args -> 255 ∉ os ->
  exists evs s', scan (getopt (prog :: args) os) (prog :: args) init_gstate evs s' /\
    exists rest, gives os None args evs rest /\ (optind s' + length rest = length (prog :: args))%nat /\
      drop (optind s') (prog :: args) = rest /\
      forall evs' rest', gives os None args evs' rest' -> evs' = evs /\ rest' = rest.
Proof.
  intros Hp Ha Ho.
  assert (Ht : Forall (Forall (fun c => 0 < c < 256)) (prog :: args)) by (constructor; done).
  assert (Hm : forall evs rest, gives os None args evs rest -> scans (prog :: args) os None init_gstate evs rest).
  { intros evs rest Hg. refine (proj1 (main _ os None Ht Ho _) args evs rest Hg 1%nat init_gstate eq_refl _ _); [done|cbn; lia|].
    right. done. }
  destruct (gives_total os None (length args) args ltac:(lia)) as (evs & rest & Hg).
  destruct (Hm _ _ Hg) as (s' & Hs & Hr & Hi). exists evs, s'. split; [exact Hs|]. exists rest. split; [done|].
  split; [rewrite <- Hr, drop_length; lia|]. split; [done|].
  intros evs' rest' Hg'. destruct (Hm _ _ Hg') as (s2 & Hs2 & Hr2 & _). destruct (scan_det _ _ _ _ _ Hs2 _ _ Hs) as [-> ->]. split; congruence.
Qed.

Theorem C41_getopt_long prog args os opts :
  is_text prog -> Forall is_text args -> 255 ∉ os -> Forall (fun p => lo_flag p = None -> lo_val p <> -1) opts ->
  exists evs s', scan (getopt_long (prog :: args) os opts) (prog :: args) init_gstate evs s' /\
    exists rest, gives os (Some opts) args evs rest /\ (optind s' + length rest = length (prog :: args))%nat /\
      drop (optind s') (prog :: args) = rest /\
      forall evs' rest', gives os (Some opts) args evs' rest' -> evs' = evs /\ rest' = rest.
Proof.
  intros Hp Ha Ho Hopts.
  assert (Ht : Forall (Forall (fun c => 0 < c < 256)) (prog :: args)) by (constructor; done).
  assert (Hm : forall evs rest, gives os (Some opts) args evs rest -> scans (prog :: args) os (Some opts) init_gstate evs rest).
  { intros evs rest Hg. refine (proj1 (main _ os (Some opts) Ht Ho _) args evs rest Hg 1%nat init_gstate eq_refl _ _); [|cbn; lia|right; done].
    intros opts' p [= <-] Hin. rewrite Forall_forall in Hopts. exact (Hopts p Hin). }
  destruct (gives_total os (Some opts) (length args) args ltac:(lia)) as (evs & rest & Hg).
  destruct (Hm _ _ Hg) as (s' & Hs & Hr & Hi). exists evs, s'. split; [exact Hs|]. exists rest. split; [done|].
  split; [rewrite <- Hr, drop_length; lia|]. split; [done|].
  intros evs' rest' Hg'. destruct (Hm _ _ Hg') as (s2 & Hs2 & Hr2 & _). destruct (scan_det _ _ _ _ _ Hs2 _ _ Hs) as [-> ->]. split; congruence.
Qed.

(** Nothing else can be observed: the program's calls have one outcome. *)
Theorem C41_calls_determined get argv s evs s1 evs' s1' :
  scan get argv s evs s1 -> scan get argv s evs' s1' -> evs = evs' /\ s1 = s1'.
Proof. intros H1 H2. by eapply scan_det. Qed.

(** ** A command line:  prog -vofile -l -x --out=f --verb --st - -v  *)
Definition tx (s : String.string) : list Z := map (fun a => Z.of_N (Ascii.N_of_ascii a)) (String.list_ascii_of_string s).
Import Strings.String.StringSyntax.
Open Scope string_scope.
Definition ex_args : list (list Z) := map tx ["-vofile"; "-l"; "-n"; "8"; "-x"; "--out=f"; "--verb"; "--st"; "--strict"; "-"; "-v"].
Definition ex_opts : list lopt := [Lopt (tx "out") 1 None 111; Lopt (tx "verbose") 0 (Some 7) 1; Lopt (tx "static") 0 None 115; Lopt (tx "strict") 0 None 116].
Definition ex_os : list Z := tx "vo:l::n:".
Definition ch (s : String.string) : Z := nth 0 (tx s) 0.

Definition run_scan (get : gstate -> gres) (argv : list (list Z)) : nat -> gstate -> option (list event * nat) :=
  fix go n s := match n with O => None | S n =>
    match get s with
    | GUB => None
    | GRet c l f s' => if decide (c = EOF) then Some ([], optind s')
        else match go n s' with
             | Some (evs, i) => Some (Ev c (match optarg s' with Some (i, o) => match argv !! i with Some a => Some (drop o a) | None => None end | None => None end) l f :: evs, i)
             | None => None end
    end end.
Lemma run_scan_sound get argv n s evs i : run_scan get argv n s = Some (evs, i) -> exists s', scan get argv s evs s' /\ optind s' = i.
Proof.
  revert s evs i. induction n as [|n IH]; intros s evs i; cbn; [done|].
  destruct (get s) as [c l f s'|] eqn:E; [|done]. case_decide as Ec.
  - intros [= <- <-]. exists s'. split; [|done]. eapply scan_end. by rewrite <- Ec.
  - destruct (run_scan get argv n s') as [[evs' i']|] eqn:Er; [|done]. intros [= <- <-].
    destruct (IH _ _ _ Er) as (s2 & Hs & Hi). exists s2. split; [|done]. eapply scan_event; eauto.
Qed.

Example C41_ex : exists s', scan (getopt_long (tx "prog" :: ex_args) ex_os ex_opts) (tx "prog" :: ex_args) init_gstate
    [Ev (ch "v") None None None; Ev (ch "o") (Some (tx "file")) None None; Ev (ch "l") None None None; Ev (ch "n") (Some (tx "8")) None None;
     bad; Ev 111 (Some (tx "f")) (Some 0%nat) None; Ev 0 None (Some 1%nat) (Some (7, 1)); bad; Ev 116 None (Some 3%nat) None] s' /\ optind s' = 10%nat.
Proof. eapply (run_scan_sound _ _ 20). vm_compute. reflexivity. Qed.
Example C41_ex_hyps : is_text (tx "prog") /\ Forall is_text ex_args /\ 255 ∉ ex_os /\ Forall (fun p => lo_flag p = None -> lo_val p <> -1) ex_opts.
Proof.
  split_and!.
  - unfold is_text. apply (bool_decide_unpack _). vm_compute. exact I.
  - unfold is_text. apply (bool_decide_unpack _). vm_compute. exact I.
  - apply (bool_decide_unpack _). vm_compute. exact I.
  - repeat constructor; done.
Qed.

(** ** What a user might expect and does not get *)
(** "--" does not end the options (the comment at getopt.c:75 says it is not an option): getopt
    reads it as the unknown option '-', and goes on *)
Theorem C41_dash_dash_refuted : ~ forall args evs s',
  scan (getopt (tx "prog" :: tx "--" :: args) (tx "v")) (tx "prog" :: tx "--" :: args) init_gstate evs s' ->
  evs = [] /\ drop (optind s') (tx "prog" :: tx "--" :: args) = args.
Proof.
  intros H. destruct (run_scan_sound (getopt (tx "prog" :: tx "--" :: [tx "-v"]) (tx "v")) (tx "prog" :: tx "--" :: [tx "-v"]) 9 init_gstate [bad; Ev (ch "v") None None None] 3) as (s' & Hs & _).
  { vm_compute. reflexivity. }
  destruct (H _ _ _ Hs) as [H1 _]. done.
Qed.
(** and getopt_long reads it as an abbreviation of every long option, which means the option if
    there is only one *)
Theorem C41_dash_dash_long_refuted : ~ forall opts args evs s',
  scan (getopt_long (tx "prog" :: tx "--" :: args) (tx "v") opts) (tx "prog" :: tx "--" :: args) init_gstate evs s' -> evs = [].
Proof.
  intros H. destruct (run_scan_sound (getopt_long (tx "prog" :: tx "--" :: []) (tx "v") [Lopt (tx "delete") 0 None 100]) (tx "prog" :: tx "--" :: []) 9 init_gstate
    [Ev 100 None (Some 0%nat) None] 2) as (s' & Hs & _).
  { vm_compute. reflexivity. }
  pose proof (H _ _ _ _ Hs). done.
Qed.
(** arguments are not permuted (the comments at getopt.c:86 and 113 say they are): an option after
    the first other argument is not seen *)
Theorem C41_permute_refuted : ~ forall evs s',
  scan (getopt (map tx ["prog"; "file"; "-v"]) (tx "v")) (map tx ["prog"; "file"; "-v"]) init_gstate evs s' -> Ev (ch "v") None None None ∈ evs.
Proof.
  intros H. destruct (run_scan_sound (getopt (map tx ["prog"; "file"; "-v"]) (tx "v")) (map tx ["prog"; "file"; "-v"]) 9 init_gstate [] 1) as (s' & Hs & _).
  { vm_compute. reflexivity. }
  pose proof (H _ _ Hs) as Hin. by apply not_elem_of_nil in Hin.
Qed.

Print Assumptions C41_getopt.
Print Assumptions C41_getopt_long.
Print Assumptions C41_calls_determined.
Print Assumptions C41_dash_dash_refuted.
Print Assumptions C41_dash_dash_long_refuted.
Print Assumptions C41_permute_refuted.
