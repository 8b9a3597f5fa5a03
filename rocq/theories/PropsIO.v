(** C29: buffered input is transparent.  The specification is IOSpec.v. *)
From stdpp Require Import base list.
From Coq Require Import ZArith Lia.
From Coq Require Import ZifyBool ZifyNat.
From Verif Require Import CInt IOModel IOSpec IOProofs.
Open Scope Z_scope. Open Scope io_scope.

(** a byte *)
Notation byte b := (0 <= b <= 255) (only parsing).

(** C29: for every file, every size of the read buffer, every way the kernel
    splits its answers and every sequence of reads, character reads, push-backs,
    line reads, seeks and writes, each call is answered as it would be without a
    buffer *)
Theorem C29_transparent (short : nat -> Z -> Z) (max : Z) (bs : list Z) (sk : bool) (l : list op) :
  0 <= max <= READ_BUFFER_MAX ->
  Forall (fun b => byte b) bs ->
  safe (View bs 0 sk None) l ->
  exists rs s v', do_ops short max l (opened bs sk) = IOk rs s /\ answers (View bs 0 sk None) l rs v'.
Proof.
  intros Hm Hb Hs.
  destruct (do_ops_ok short max Hm l _ _ (opened_presents short max Hm bs sk Hb) Hs) as (rs & s & v & E & Ha & _).
  by exists rs, s, v.
Qed.

Lemma reads_safe ns : forall v, Forall (fun n => 0 <= n) ns -> safe v (map Read ns).
Proof.
  induction ns as [|n ns IH]; intros v Hn; cbn; [done|].
  inversion Hn; subst. split; [done|]. intros. by apply IH.
Qed.

Lemma reads_answers ns : forall v rs v',
  answers v (map Read ns) rs v' -> 0 <= v_pos v ->
  Forall2 (fun n r => r.1 = Z.of_nat (length r.2) /\ r.1 <= n) ns rs /\
  v_content v' = v_content v /\ 0 <= v_pos v' /\
  concat (map snd rs) ++ from (v_content v) (v_pos v') = from (v_content v) (v_pos v) /\
  (Exists (fun nr => 0 < nr.1 /\ nr.2.1 = 0) (zip ns rs) -> from (v_content v) (v_pos v') = []) /\
  ((length (filter (fun n => (0 < n)%Z) ns) <= length (concat (map snd rs)))%nat \/ from (v_content v) (v_pos v') = []).
Proof.
  induction ns as [|n ns IH]; intros v rs v' Ha Hp; cbn [map] in Ha; inversion Ha; subst.
  - cbn. split; [constructor|]. split; [done|]. split; [done|]. split; [done|].
    split; [intros H; by inversion H|]. left. lia.
  - match goal with H : allowed _ _ _ _ |- _ => inversion H as [? k K1 K2 L7| | | | | | | | | |]; subst; clear H end.
    match goal with H : answers (View _ _ _ _) _ _ _ |- _ => destruct (IH _ _ _ H) as (J1 & J2 & J3 & L4 & L5 & L6); [cbn; lia|] end.
    cbn [v_content v_pos] in *.
    rewrite (from_from (v_content v) (v_pos v) k) in L4 by lia.
    assert (length (take (Z.to_nat k) (from (v_content v) (v_pos v))) = Z.to_nat k) as Hlk by (rewrite take_length; lia).
    split; [constructor; [|done]; cbn; rewrite Hlk; lia|].
    split; [done|]. split; [done|]. cbn [map concat snd].
    split; [rewrite <- app_assoc, L4; apply take_drop|].
    assert (from (v_content v) (v_pos v) = [] -> from (v_content v) (v_pos v') = []) as Hend.
    { intros Hn. rewrite Hn, drop_nil in L4. by apply app_eq_nil in L4 as [_ ?]. }
    split.
    + cbn [zip_with]. intros He. inversion He as [x l' [Hx1 Hx2]|x l' Hx]; subst; [|by apply L5].
      cbn in Hx1, Hx2. destruct (L7 Hx2) as [?|Hn]; [lia|]. by apply Hend.
    + destruct L6 as [L6|L6]; [|by right]. rewrite app_length, Hlk.
      rewrite filter_cons. case_decide as Hd; cbn [length]; [|left; lia].
      destruct (Z.eqb_spec k 0) as [->|Hk]; [|left; lia].
      destruct (L7 eq_refl) as [?|Hn]; [lia|]. right. by apply Hend.
Qed.

(** C29, plain reads: the bytes delivered are those of the file, in order, from the
    start; a read for at least one byte delivers nothing only when the whole file
    was delivered; and more such reads than the file has bytes deliver it all *)
Theorem C29_in_order (short : nat -> Z -> Z) (max : Z) (bs : list Z) (sk : bool) (ns : list Z) :
  0 <= max <= READ_BUFFER_MAX ->
  Forall (fun b => byte b) bs ->
  Forall (fun n => 0 <= n) ns ->
  exists rs s, do_ops short max (map Read ns) (opened bs sk) = IOk rs s /\
    Forall2 (fun n r => r.1 = Z.of_nat (length r.2) /\ r.1 <= n) ns rs /\
    concat (map snd rs) `prefix_of` bs /\
    (Exists (fun nr => 0 < nr.1 /\ nr.2.1 = 0) (zip ns rs) -> concat (map snd rs) = bs) /\
    ((length bs < length (filter (fun n => (0 < n)%Z) ns))%nat -> concat (map snd rs) = bs).
Proof.
  intros Hm Hb Hn.
  destruct (C29_transparent short max bs sk (map Read ns) Hm Hb (reads_safe _ _ Hn)) as (rs & s & v' & E & Ha).
  destruct (reads_answers _ _ _ _ Ha) as (H1 & H2 & H3 & H4 & H5 & H6); [cbn; lia|].
  cbn [v_content v_pos] in *. change (from bs 0) with bs in H4.
  exists rs, s. split; [done|]. split; [done|].
  split; [by exists (from bs (v_pos v'))|]. split.
  - intros He. specialize (H5 He). rewrite H5, app_nil_r in H4. done.
  - intros Hl. destruct H6 as [H6|H6].
    + assert (length (concat (map snd rs)) <= length bs)%nat by (rewrite <- H4, app_length; lia). lia.
    + rewrite H6, app_nil_r in H4. done.
Qed.

(** ** Where the library falls short of what a program might expect *)

(** the split of the kernel that gives everything asked for *)
Definition whole (i : nat) (n : Z) : Z := n.
(** the split that gives one byte at a time *)
Definition single (i : nat) (n : Z) : Z := 1.

(** a second push-back ends the program *)
Theorem C29_second_pushback_refuted short max bs sk c d :
  byte c -> byte d ->
  do_ops short max [Ungetc c; Ungetc d] (opened bs sk) = IAbort.
Proof.
  intros Hc Hd. cbn [do_ops do_op]. unfold fdungetc.
  destruct (Z.eqb_spec c (-1)); [lia|]. destruct (Z.eqb_spec d (-1)); [lia|].
  unfold ibind, ungetc_p, ungetc_set, iret, opened. cbn.
  assert (0 <=? c = true) as -> by lia. done.
Qed.

(** a seek that fails loses the bytes that were in the buffer: after reading the
    first byte of a file of three and failing to seek, the next read finds the end *)
Theorem C29_failed_seek_refuted :
  exists s, do_ops whole 128 [Read 1; Seek (-5) 0; Read 1] (opened [65; 66; 67] true)
  = IOk [(1, [65]); (-1, []); (0, [])] s.
Proof. eexists. vm_compute. reflexivity. Qed.

(** seeking does not discard a pushed-back character *)
Theorem C29_seek_pushback_refuted :
  exists s, do_ops whole 128 [Read 2; Ungetc 66; Seek 0 0; Getc] (opened [65; 66; 67] true)
  = IOk [(2, [65; 66]); (66, []); (0, []); (66, [])] s.
Proof. eexists. vm_compute. reflexivity. Qed.

(** writing to a terminal or socket loses the input that was in the buffer *)
Theorem C29_write_terminal_refuted :
  exists s, do_ops whole 128 [Getc; Write [63]; Getc] (opened [65; 66; 67] false)
  = IOk [(65, []); (1, []); (-1, [])] s.
Proof. eexists. vm_compute. reflexivity. Qed.

(** [fread] can deliver fewer items than asked for before the end of the file *)
Theorem C29_fread_short_refuted :
  exists s, do_ops single 1 [Fread 1 3; Fread 1 3] (opened [65; 66; 67] true)
  = IOk [(1, [65]); (1, [66])] s.
Proof. eexists. vm_compute. reflexivity. Qed.

(** the hypotheses of [C29_transparent] hold of a program that mixes the calls: *)
Example mixed : list op :=
  [Gets 80; Seek 5 0; Ungetc 122; Fread 1 1; Seek (-2) 1; Getc; Write [88]; Getc; Seek (-1) 2; Read 5; Read 5].
Example transparent_hypotheses_hold :
  safe (View [97; 98; 10; 99; 100; 101; 102; 103; 104; 105] 0 true None) mixed.
Proof.
  unfold mixed. cbn [safe permitted].
  split; [lia|]. intros r1 v1 A1. inversion A1; subst; clear A1; cbn in *; [|discriminate].
  split; [unfold target; cbn; lia|]; intros r2 v2 A2; inversion A2; subst; clear A2; cbn in *; [|discriminate].
  split; [right; split; [done|lia]|]; intros r3 v3 A3; inversion A3; subst; clear A3; cbn in *.
  split; [unfold INT_MAX; lia|]; intros r4 v4 A4; inversion A4 as [| | | | | | |? ? k K1 K2 K3 K4| | |]; subst; clear A4; cbn in *.
  assert (k = 1) as -> by (assert (k <> 0) by (intros ->; destruct (K3 eq_refl); [lia|done]); lia).
  split; [unfold target; cbn; lia|]; intros r5 v5 A5; inversion A5; subst; clear A5; cbn in *; [|discriminate].
  split; [done|]; intros r6 v6 A6; inversion A6; subst; clear A6; cbn in *; [|discriminate].
  split; [split; [done|]; split; [unfold INT_MAX; lia|repeat constructor; lia]|];
    intros r7 v7 A7; inversion A7; subst; clear A7; cbn in *.
  split; [done|]; intros r8 v8 A8. split; [|intros r9 v9 A9; split; [lia|]; intros r10 v10 A10; split; [lia|]; done].
  intros _. split; [lia|]. unfold target; cbn.
  assert (length (v_content v8) <> 0%nat); [|lia].
  inversion A8; subst; clear A8; cbn in *;
    unfold overwrite; (destruct (take (Z.to_nat k) [88]); [done|]); rewrite !app_length; cbn [length]; lia.
Qed.
(** … and its answers with a buffer of four bytes and a kernel that gives three at a time *)
Example transparent_case :
  exists s, do_ops (fun _ _ => 3) 4 mixed (opened [97; 98; 10; 99; 100; 101; 102; 103; 104; 105] true)
  = IOk [(1, [97; 98; 10]); (5, []); (122, []); (1, [122]); (3, []); (99, []); (1, []); (101, []); (9, []); (1, [105]); (0, [])] s.
Proof. eexists. vm_compute. reflexivity. Qed.
(** plain reads, one byte at a time from the kernel, the first larger than the buffer *)
Example in_order_case :
  exists s, do_ops (fun i _ => if Nat.even i then 1 else 2) 2 (map Read [3; 1; 0; 2; 2; 9]) (opened [1; 2; 3; 4; 5] false)
  = IOk [(1, [1]); (1, [2]); (0, []); (2, [3; 4]); (1, [5]); (0, [])] s.
Proof. eexists. vm_compute. reflexivity. Qed.

Print Assumptions C29_transparent.
Print Assumptions C29_in_order.
Print Assumptions C29_second_pushback_refuted.
Print Assumptions C29_failed_seek_refuted.
Print Assumptions C29_seek_pushback_refuted.
Print Assumptions C29_write_terminal_refuted.
Print Assumptions C29_fread_short_refuted.
