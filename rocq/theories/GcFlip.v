(** gc_cellcpy and the stack shift (src/gc.c:383-484). *)
From stdpp Require Import base gmap list.
From Coq Require Import ZArith Lia.
From Coq Require Import ZifyBool ZifyNat.
From Verif Require Import CInt Symbols Heap HeapLemmas GcModel GcSpec GcCopy.
Open Scope Z_scope.
Open Scope mes_scope.

Definition shift (dist : Z) (c : cell) : cell :=
  Cell (c_ty c) (if car_pointer (c_ty c) then c_car c - dist else c_car c)
       (if cdr_shifted (c_ty c) then (if c_ty c =? TBYTES then c_cdr c else c_cdr c - dist) else c_cdr c)
       (c_bytes c).

Lemma width_shift dist c : width (shift dist c) = width c.
Proof. unfold width, shift; cbn. destruct (Z.eqb_spec (c_ty c) TBYTES) as [E|]; [|done]. by rewrite E. Qed.
Lemma widths_shift dist cs : widths (shift dist <$> cs) = widths cs.
Proof. induction cs as [|c cs IH]; [done|]. rewrite fmap_cons, !widths_cons, IH, width_shift. done. Qed.

(** what gc_cellcpy needs of the cells it copies *)
Definition copyable (dist : Z) (c : cell) : Prop :=
  c_ty c <> TBROKEN_HEART
  /\ (c_ty c <> TBYTES -> c_bytes c = [])
  /\ (c_ty c = TBYTES -> Z.of_nat (length (c_bytes c)) = c_car c /\ c_car c <= 24 * dist).

Lemma gc_cellcpy_ok fuel : forall dest src cs h fr s,
  tiled h src cs -> Forall pos_width cs -> Forall (copyable (src - dest)) cs ->
  1 <= dest -> dest < src -> src + widths cs <= limit s ->
  Z.of_nat (length cs) <= Z.of_nat fuel ->
  exists h', gc_cellcpy fuel dest src (widths cs) (upd h fr s) = ROk tt (upd h' fr s)
    /\ tiled h' dest (shift (src - dest) <$> cs)
    /\ forall q, q < dest \/ dest + widths cs <= q -> h' !! q = h !! q.
Proof.
  induction fuel as [|fuel IH]; intros dest src cs h fr s Ht Hp Hc Hd Hds Hlim Hf.
  - destruct cs as [|c cs]; [|cbn in Hf; lia]. exists h. rewrite widths_nil. cbn. done.
  - destruct cs as [|c cs].
    { exists h. rewrite widths_nil. cbn. done. }
    rewrite widths_cons in *. apply Forall_cons in Hp as [Hpc Hp]. apply Forall_cons in Hc as [Hcc Hc].
    cbn [tiled] in Ht. destruct Ht as [Hsrc Ht]. unfold pos_width in Hpc.
    pose proof (widths_nonneg _ Hp) as Hw0. cbn [length] in Hf.
    destruct Hcc as (Hnb & Hcb & Hcby).
    cbn [gc_cellcpy].
    destruct (Z.eqb_spec (width c + widths cs) 0); [lia|].
    destruct (Z.ltb_spec (width c + widths cs) 0); [lia|].
    erewrite bind_ok by by apply rd_ok.
    destruct (Z.eqb_spec (c_ty c) TBROKEN_HEART); [done|]. rewrite bind_ret.
    erewrite bind_ok by (apply wr_ok; lia).
    set (c0 := Cell _ _ _ []).
    destruct (Z.eqb_spec (c_ty c) TBYTES) as [E|E].
    + destruct (Hcby E) as [Hlen Hapart].
      assert (Hwc : width c = bytes_cells (c_car c)) by (unfold width; by rewrite E).
      rewrite Hlen, Z.eqb_refl.
      assert (memcpy_apart dest src (c_car c) = true) as -> by (unfold memcpy_apart; lia).
      cbn [andb]. rewrite bind_ret.
      assert (Hto : 1 <= touched_cells (c_car c) <= bytes_cells (c_car c)) by (apply touched_le_bytes; lia).
      erewrite bind_ok; [|apply set_bytes_ok; [apply lookup_insert|rewrite Hlen; lia]].
      rewrite Hlen, <- Hwc.
      match goal with |- context [upd ?H fr s] => set (h1 := H) end.
      assert (H1 : forall q, q < dest \/ dest + width c <= q -> h1 !! q = h !! q).
      { intros q Hq. unfold h1. rewrite lookup_insert_ne by lia. rewrite del_cells_lookup_out by lia.
        apply lookup_insert_ne; lia. }
      assert (H2 : h1 !! dest = Some (shift (src - dest) c)).
      { unfold h1. rewrite lookup_insert. unfold shift, c0. cbn [c_ty c_car c_cdr]. by destruct (Z.eqb_spec (c_ty c) TBYTES). }
      destruct (IH (dest + width c) (src + width c) cs h1 fr s) as (h' & Hrun & Hti & Hfr); try done; try lia.
      * eapply tiled_frame; [done| |done]. intros q Hq. apply H1. lia.
      * replace (src + width c - (dest + width c)) with (src - dest) by lia. done.
      * exists h'. split.
        { rewrite <- Hrun. f_equal. lia. }
        replace (src + width c - (dest + width c)) with (src - dest) in Hti by lia.
        split.
        { rewrite fmap_cons. cbn [tiled]. rewrite width_shift. split; [|done].
          rewrite Hfr by lia. done. }
        intros q Hq. rewrite Hfr by lia. apply H1. lia.
    + assert (Hwc : width c = 1) by (unfold width; destruct (Z.eqb_spec (c_ty c) TBYTES); done).
      destruct (IH (dest + 1) (src + 1) cs (<[dest:=c0]> h) fr s) as (h' & Hrun & Hti & Hfr); try done; try lia.
      * rewrite Hwc in Ht. eapply tiled_frame; [done| |done]. intros q Hq. apply lookup_insert_ne. lia.
      * replace (src + 1 - (dest + 1)) with (src - dest) by lia. done.
      * exists h'. split.
        { rewrite <- Hrun. f_equal. lia. }
        replace (src + 1 - (dest + 1)) with (src - dest) in Hti by lia.
        split.
        { rewrite fmap_cons. cbn [tiled]. rewrite width_shift, Hwc. split; [|done].
          rewrite Hfr by lia. rewrite lookup_insert. unfold c0, shift. rewrite (Hcb E).
          by destruct (Z.eqb_spec (c_ty c) TBYTES). }
        intros q Hq. rewrite Hfr by lia. apply lookup_insert_ne. lia.
Qed.

Lemma tiled_lookup h a cs ds c : tiled h a (cs ++ c :: ds) -> h !! (a + widths cs) = Some c.
Proof. rewrite tiled_app. cbn. tauto. Qed.

Lemma shift_stack_ok n : forall i dist s,
  0 <= i -> i + Z.of_nat n <= STACK_SIZE s ->
  (forall j, i <= j < i + Z.of_nat n -> is_Some (g_stack_array s !! j)) ->
  exists a', shift_stack n i dist s = ROk tt (set_g_stack_array a' s)
    /\ (forall j, i <= j < i + Z.of_nat n -> a' !! j = (fun v => v - dist) <$> (g_stack_array s !! j))
    /\ (forall j, j < i \/ i + Z.of_nat n <= j -> a' !! j = g_stack_array s !! j).
Proof.
  induction n as [|n IH]; intros i dist s Hi Hn Hs.
  - exists (g_stack_array s). cbn. split; [by destruct s|]. split; [lia|done].
  - cbn [shift_stack]. destruct (Hs i) as [v Hv]; [lia|].
    assert (stack_get i s = ROk v s) as Hg.
    { unfold stack_get. rewrite Hv. destruct (Z.leb_spec 0 i), (Z.ltb_spec i (STACK_SIZE s)); done || lia. }
    rewrite (bind_ok _ _ _ _ _ Hg).
    assert (stack_set i (v - dist) s = ROk tt (set_g_stack_array (<[i:=v-dist]> (g_stack_array s)) s)) as Hst.
    { unfold stack_set. destruct (Z.leb_spec 0 i), (Z.ltb_spec i (STACK_SIZE s)); done || lia. }
    rewrite (bind_ok _ _ _ _ _ Hst).
    destruct (IH (i + 1) dist (set_g_stack_array (<[i:=v-dist]> (g_stack_array s)) s)) as (a' & Hrun & H1 & H2).
    + lia.
    + cbn. lia.
    + cbn. intros j Hj. rewrite lookup_insert_ne by lia. apply Hs. lia.
    + exists a'. rewrite Hrun. cbn in *. split; [by destruct s|]. split.
      * intros j Hj. destruct (decide (j = i)) as [->|].
        -- rewrite H2 by lia. rewrite lookup_insert, Hv. done.
        -- rewrite H1 by lia. rewrite lookup_insert_ne by lia. done.
      * intros j Hj. rewrite H2 by lia. apply lookup_insert_ne. lia.
Qed.
