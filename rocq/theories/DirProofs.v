(** Proofs about readdir. *)
From stdpp Require Import base list.
From Coq Require Import ZArith Lia.
From Coq Require Import ZifyBool ZifyNat.
From Verif Require Import CInt DirModel DirSpec.
Open Scope Z_scope.

Ltac Zify.zify_post_hook ::= Z.div_mod_to_equations.

Lemma le_length n z : length (le n z) = n.
Proof. revert z. induction n as [|n IH]; intros z; cbn; [done|]. by rewrite IH. Qed.
Lemma number_at_le n pre z post : 0 <= z < 2 ^ (8 * Z.of_nat n) ->
  number_at n (pre ++ le n z ++ post) (length pre) = Some z.
Proof.
  revert pre z. induction n as [|n IH]; intros pre z Hz.
  - cbn in *. f_equal. lia.
  - cbn [number_at le]. rewrite lookup_app_r, Nat.sub_diag by lia. cbn [app lookup list_lookup].
    specialize (IH (pre ++ [z mod 256]) (z / 256)).
    rewrite app_length in IH. cbn [length] in IH. rewrite Nat.add_1_r, <- app_assoc in IH. cbn [app] in IH. rewrite IH.
    + f_equal. lia.
    + replace (8 * Z.of_nat (S n)) with (8 + 8 * Z.of_nat n) in Hz by lia. rewrite Z.pow_add_r in Hz by lia.
      change (2 ^ 8) with 256 in Hz. assert (0 < 2 ^ (8 * Z.of_nat n)) by (apply Z.pow_pos_nonneg; lia). 
      split; [apply Z.div_pos; lia|]. apply Z.div_lt_upper_bound; lia.
Qed.
Lemma record_length e : length (record e) = reclen e.
Proof. unfold record, reclen. rewrite !app_length, !le_length. cbn. lia. Qed.
Lemma cstring_app name rest : Forall (fun c => 0 < c < 256) name -> cstring (name ++ 0 :: rest) = Some name.
Proof.
  induction 1 as [|c name Hc _ IH]; cbn; [done|]. case_decide; [lia|]. by rewrite IH.
Qed.
Lemma record_fields pre e post : entry_ok e ->
  number_at 8 (pre ++ record e ++ post) (length pre + o_ino) = Some (de_ino e) /\
  number_at 8 (pre ++ record e ++ post) (length pre + o_off) = Some (de_off e) /\
  number_at 2 (pre ++ record e ++ post) (length pre + o_reclen) = Some (Z.of_nat (reclen e)) /\
  cstring (drop (length pre + 18) (pre ++ record e ++ post)) = Some (de_name e).
Proof.
  intros (H1 & H2 & H3 & H4). unfold record. rewrite <- !app_assoc.
  assert (A : length (pre ++ le 8 (de_ino e)) = (length pre + 8)%nat) by (rewrite app_length, le_length; done).
  assert (B : length ((pre ++ le 8 (de_ino e)) ++ le 8 (de_off e)) = (length pre + 16)%nat) by (rewrite app_length, A, le_length; lia).
  assert (C : length (((pre ++ le 8 (de_ino e)) ++ le 8 (de_off e)) ++ le 2 (Z.of_nat (reclen e))) = (length pre + 18)%nat) by (rewrite app_length, B, le_length; lia).
  split_and!.
  - unfold o_ino. rewrite Nat.add_0_r. apply number_at_le. exact H1.
  - unfold o_off. rewrite <- A, app_assoc. apply number_at_le. exact H2.
  - unfold o_reclen. rewrite <- B.
    match goal with |- number_at _ ?L _ = _ => replace L with (((pre ++ le 8 (de_ino e)) ++ le 8 (de_off e)) ++ le 2 (Z.of_nat (reclen e)) ++ (de_name e ++ (0 :: de_pad e) ++ post)) by (rewrite <- !app_assoc; done) end.
    apply number_at_le. change (2 ^ (8 * Z.of_nat 2)) with (2 ^ 16). lia.
  - rewrite <- C.
    match goal with |- cstring (drop _ ?L) = _ => replace L with ((((pre ++ le 8 (de_ino e)) ++ le 8 (de_off e)) ++ le 2 (Z.of_nat (reclen e))) ++ (de_name e ++ 0 :: (de_pad e ++ post))) by (rewrite <- !app_assoc; done) end.
    rewrite drop_app. by apply cstring_app.
Qed.

Section reading.
Context (allocation : nat) (fin : ending).
Hypothesis Halloc : Z.of_nat allocation < 2 ^ 31.

(** [g] is still in the block, [groups] are to come *)
Definition reading (s : dstate) (g : list dentry) (groups : list (list dentry)) : Prop :=
  exists pre post, d_data s = pre ++ concat (map record g) ++ post /\ d_offset s = Z.of_nat (length pre) /\
    d_size s = Z.of_nat (length (pre ++ concat (map record g))) /\ length (d_data s) = allocation /\
    d_kernel s = answers groups fin /\ Forall entry_ok g /\ Forall (group_ok allocation) groups.

Lemma entry_step s e g groups again : reading s (e :: g) groups ->
  exists o s', dir_entry again s = (if de_ino e =? 0 then again s' else DEntry o s') /\
    reading s' g groups /\ seen_at o s' = Some (de_ino e, de_name e) /\ d_errno s' = d_errno s.
Proof.
  intros (pre & post & E1 & E2 & E3 & E4 & E5 & E6 & E7). inversion E6 as [|? ? He Hg]; subst.
  cbn [map concat] in *. rewrite <- app_assoc in E1.
  destruct (record_fields pre e (concat (map record g) ++ post) He) as (F1 & F2 & F3 & F4).
  unfold dir_entry. rewrite E2, Nat2Z.id. rewrite E1, F1, F2, F3. exists (length pre). eexists. split; [done|]. split; [|split].
  - exists (pre ++ record e), post. cbn [d_data d_offset d_size d_kernel]. rewrite E1 in E4. repeat rewrite app_length in *. rewrite (record_length e) in *.
    rewrite <- !app_assoc. split_and!; try done.
    + rewrite to_u64_id; [lia|]. unfold two64. lia.
    + rewrite E3. lia.
  - unfold seen_at. cbn [d_data]. unfold o_ino in F1. rewrite Nat.add_0_r in F1. rewrite F1, F4. done.
  - done.
Qed.

Lemma refill s g groups : reading s [] (g :: groups) -> exists bytes s',
  getdents s = (bytes, s') /\ (bytes <=? 0) = false /\
  reading (Ds (d_data s') (to_u64 bytes) 0 (d_filepos s') (d_errno s') (d_kernel s')) g groups /\ g <> [].
Proof.
  intros (pre & post & E1 & E2 & E3 & E4 & E5 & E6 & E7). inversion E7 as [|? ? (G1 & G2 & G3) Hgs]; subst.
  unfold getdents. rewrite E5. cbn [answers map app]. eexists _, _. split; [done|]. cbn [d_data d_filepos d_errno d_kernel].
  assert (HL : (0 < length (concat (map record g)))%nat).
  { destruct g as [|e g]; [done|]. cbn [map concat]. rewrite app_length, record_length. unfold reclen. lia. }
  rewrite to_s32_id; [|unfold in_int, INT_MIN, INT_MAX; lia]. rewrite to_u64_id; [|unfold two64; lia].
  split; [lia|]. split; [|done]. exists [], (drop (length (concat (map record g))) (d_data s)). cbn. split_and!; try done.
  rewrite app_length, drop_length. lia.
Qed.

Lemma loop_ok fuel : forall saved s g groups, reading s g groups -> (length (g ++ concat groups) < fuel)%nat ->
  match list_find (fun e => de_ino e <> 0) (g ++ concat groups) with
  | None => exists s', readdir_loop fuel saved s = DNull s' /\ d_errno s' = match fin with AtEnd => saved | Failed e => e end /\ d_kernel s' = [] /\ d_size s' <= d_offset s'
  | Some (i, e) => exists o s' g' groups', readdir_loop fuel saved s = DEntry o s' /\ seen_at o s' = Some (de_ino e, de_name e) /\
      reading s' g' groups' /\ g' ++ concat groups' = drop (S i) (g ++ concat groups)
  end.
Proof.
  induction fuel as [|fuel IH]; intros saved s g groups HR Hf; [lia|]. cbn [readdir_loop].
  assert (Hent : forall s e g groups, reading s (e :: g) groups -> (length (g ++ concat groups) < fuel)%nat ->
    match list_find (fun e => de_ino e <> 0) ((e :: g) ++ concat groups) with
    | None => exists s', dir_entry (readdir_loop fuel saved) s = DNull s' /\ d_errno s' = match fin with AtEnd => saved | Failed e => e end /\ d_kernel s' = [] /\ d_size s' <= d_offset s'
    | Some (i, e') => exists o s' g' groups', dir_entry (readdir_loop fuel saved) s = DEntry o s' /\ seen_at o s' = Some (de_ino e', de_name e') /\
        reading s' g' groups' /\ g' ++ concat groups' = drop (S i) ((e :: g) ++ concat groups)
    end).
  { clear s g groups HR Hf. intros s e g groups HR Hf. destruct (entry_step s e g groups (readdir_loop fuel saved) HR) as (o & s' & -> & HR' & Hs & _).
    cbn [app list_find]. case_decide as Hd.
    - destruct (de_ino e =? 0) eqn:E; [lia|]. exists o, s', g, groups. done.
    - destruct (de_ino e =? 0) eqn:E; [|lia]. specialize (IH saved s' g groups HR' Hf).
      destruct (list_find (fun e => de_ino e <> 0) (g ++ concat groups)) as [[i e']|] eqn:El; cbn; [|exact IH].
      destruct IH as (o' & s2 & g' & groups' & H1 & H2 & H3 & H4). exists o', s2, g', groups'. done. }
  destruct g as [|e g].
  - pose proof HR as (pre & post & E1 & E2 & E3 & E4 & E5 & E6 & E7). cbn in E3. rewrite app_nil_r in E3.
    destruct (d_size s <=? d_offset s) eqn:El; [|lia]. destruct groups as [|g groups].
    + cbn [concat app list_find]. unfold getdents. rewrite E5. destruct fin as [|er]; cbn; eexists; (split; [done|]); cbn; split_and!; (done || lia).
    + destruct (refill s g groups HR) as (bytes & s1 & -> & -> & HR1 & Hne). destruct g as [|e g]; [done|].
      cbn [concat app length] in Hf |- *. apply (Hent _ e g groups); [done|lia].
  - pose proof HR as (pre & post & E1 & E2 & E3 & E4 & E5 & E6 & E7). cbn [map concat] in E3. rewrite !app_length, record_length in E3. unfold reclen in E3.
    destruct (d_size s <=? d_offset s) eqn:El; [lia|]. apply Hent; [done|]. cbn in Hf. lia.
Qed.

Definition alive (es : list dentry) : list (Z * list Z) :=
  map (fun e => (de_ino e, de_name e)) (filter (fun e => de_ino e <> 0) es).
Lemma alive_find es : match list_find (fun e => de_ino e <> 0) es with
  | None => alive es = []
  | Some (i, e) => alive es = (de_ino e, de_name e) :: alive (drop (S i) es) /\ (i < length es)%nat
  end.
Proof.
  induction es as [|e es IH]; [done|]. cbn [list_find]. unfold alive in *. rewrite filter_cons.
  case_decide as Hd; [split; [done|cbn; lia]|].
  destruct (list_find (fun e => de_ino e <> 0) es) as [[i e']|]; cbn; [|done]. destruct IH as [IH1 IH2]. split; [done|lia].
Qed.
Lemma listing_ok fuel n : forall s g groups, reading s g groups -> (length (g ++ concat groups) <= n)%nat -> (n < fuel)%nat ->
  exists e e' s', listing fuel s (alive (g ++ concat groups)) e e' s' /\ e' = match fin with AtEnd => e | Failed c => c end /\ d_kernel s' = [] /\ d_size s' <= d_offset s'.
Proof.
  induction n as [n IHn] using (well_founded_induction lt_wf). intros s g groups HR Hl Hf.
  pose proof (loop_ok fuel (d_errno s) s g groups HR ltac:(lia)) as H. pose proof (alive_find (g ++ concat groups)) as HA.
  destruct (list_find (fun e => de_ino e <> 0) (g ++ concat groups)) as [[i e]|].
  - destruct H as (o & s' & g' & groups' & H1 & H2 & H3 & H4). destruct HA as [HA1 HA2].
    assert (HL : (length (g' ++ concat groups') < length (g ++ concat groups))%nat) by (rewrite H4, drop_length; lia).
    destruct (IHn (length (g' ++ concat groups')) ltac:(lia) s' g' groups' H3 ltac:(lia) ltac:(lia)) as (e1 & e2 & s2 & HLi & He).
    exists e1, e2, s2. split; [|done]. rewrite HA1, <- H4. eapply li_entry; eauto.
  - destruct H as (s' & H1 & H2 & H3 & H4). rewrite HA. eexists _, _, s'. split; [by apply li_end|]. done.
Qed.
End reading.
