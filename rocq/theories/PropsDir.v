(** C42: a program that reads a directory sees every entry once, in order. *)
From stdpp Require Import base list.
From Coq Require Import ZArith Lia.
From Coq Require Import ZifyBool ZifyNat.
From Verif Require Import CInt DirModel DirSpec DirProofs.
Open Scope Z_scope.

(** However the kernel groups the entries of the directory into answers, the program that calls
    readdir until it gives null sees the inode numbers and names of the files that have not been
    deleted, in order, each once.  No read is outside of the block.  When it gives null at the end,
    the last call has left errno as it was; when the kernel reports an error, errno is the error.  At
    the end readdir gives null again. *)
Theorem C42_readdir allocation groups fin errno :
  Z.of_nat allocation < 2 ^ 31 -> Forall (group_ok allocation) groups ->
  exists fuel0, forall fuel, (fuel0 <= fuel)%nat ->
  exists before after s',
    listing fuel (new_stream allocation errno (answers groups fin))
      (map (fun e => (de_ino e, de_name e)) (filter (fun e => de_ino e <> 0) (concat groups))) before after s' /\
    after = match fin with AtEnd => before | Failed e => e end /\
    exists s'', readdir fuel s' = DNull s'' /\ d_errno s'' = d_errno s'.
Proof.
  intros Ha Hg. exists (S (length (concat groups))). intros fuel Hf.
  destruct (listing_ok allocation fin Ha fuel (length (concat groups)) (new_stream allocation errno (answers groups fin)) [] groups) as (e & e' & s' & H1 & H2 & H3 & H4); [|cbn; lia|lia|].
  { exists [], (repeat 0 allocation). cbn. rewrite repeat_length. split_and!; try done. }
  exists e, e', s'. split; [exact H1|]. split; [exact H2|].
  destruct fuel as [|fuel]; [lia|]. unfold readdir. cbn [readdir_loop].
  destruct (d_size s' <=? d_offset s') eqn:E; [|lia]. unfold getdents. rewrite H3. cbn. eauto.
Qed.

(** ** A directory of four entries, one deleted, in two answers *)
Definition ex_dir : list (list dentry) :=
  [[De 11 1 [46] [0; 8; 0; 4]; De 0 2 [120; 121] []]; [De 70000 3 [97; 46; 99] [1]; De 13 4 [98] []]].
Example C42_ex_hyps : Forall (group_ok 64) ex_dir.
Proof.
  repeat (constructor; [split; [done|split; [repeat constructor; cbn; lia|cbn; lia]]|]). constructor.
Qed.
Example C42_ex : exists before after s', listing 10 (new_stream 64 5 (answers ex_dir (Failed 9))) [(11, [46]); (70000, [97; 46; 99]); (13, [98])] before after s' /\ after = 9.
Proof.
  eexists _, _, _. split; [eapply li_entry; [vm_compute; reflexivity|vm_compute; reflexivity|];
    eapply li_entry; [vm_compute; reflexivity|vm_compute; reflexivity|]; eapply li_entry; [vm_compute; reflexivity|vm_compute; reflexivity|];
    apply li_end; vm_compute; reflexivity|done].
Qed.

Print Assumptions C42_readdir.
