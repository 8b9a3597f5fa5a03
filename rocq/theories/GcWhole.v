(** gc (src/gc.c:656-692): gc_ between pushing and popping the register frame. *)
From stdpp Require Import base gmap list relations.
From Coq Require Import ZArith Lia.
From Coq Require Import ZifyBool ZifyNat.
From Verif Require Import CInt Symbols Heap HeapLemmas GcModel GcSpec GcCopy GcScan GcFlip GcRoots GcProofs GcMain.
Open Scope Z_scope.
Open Scope mes_scope.

Lemma reach_roots h (r1 r2 : list Z) :
  (forall p, p ∈ r1 -> reach h r2 p) -> forall p, reach h r1 p -> reach h r2 p.
Proof.
  intros H p (r & Hr & Hrp). destruct (H r Hr) as (r' & Hr' & H').
  exists r'. split; [done|]. by etrans.
Qed.

Lemma heap_ok_roots lo hi h (r1 r2 : list Z) :
  (forall p, reach h r2 p -> reach h r1 p) -> heap_ok lo hi h r1 -> heap_ok lo hi h r2.
Proof.
  intros H [H1 H2]. constructor.
  - intros p Hp. by apply H1, H.
  - intros p q c d a Hp Hq. apply (H2 p q); by apply H.
Qed.

Lemma stack_set_ok i v s : 0 <= i < STACK_SIZE s ->
  stack_set i v s = ROk tt (set_g_stack_array (<[i:=v]> (g_stack_array s)) s).
Proof.
  intros Hi. unfold stack_set.
  destruct (Z.leb_spec 0 i), (Z.ltb_spec i (STACK_SIZE s)); done || lia.
Qed.
Lemma stack_get_ok i v s : 0 <= i < STACK_SIZE s -> g_stack_array s !! i = Some v ->
  stack_get i s = ROk v s.
Proof.
  intros Hi Hv. unfold stack_get. rewrite Hv.
  destruct (Z.leb_spec 0 i), (Z.ltb_spec i (STACK_SIZE s)); done || lia.
Qed.

(** the stack after pushing a frame *)
Definition framed (s : state) : gmap Z Z :=
  let g := g_stack s in
  <[g - 5 := R3 s]> (<[g - 4 := R2 s]> (<[g - 3 := R1 s]> (<[g - 2 := R0 s]> (<[g - 1 := cell_f]> (g_stack_array s))))).

Lemma gc_push_frame_ok s : 5 <= g_stack s <= STACK_SIZE s ->
  gc_push_frame s = ROk tt (set_g_stack (g_stack s - 5) (set_g_stack_array (framed s) s)).
Proof.
  intros Hg. unfold gc_push_frame. rewrite bind_get. cbv zeta. unfold GC_FRAME_SIZE.
  destruct (Z.ltb_spec (g_stack s) 5); [lia|]. rewrite bind_ret.
  erewrite bind_ok by (apply stack_set_ok; lia).
  erewrite bind_ok by (apply stack_set_ok; cbn; lia).
  erewrite bind_ok by (apply stack_set_ok; cbn; lia).
  erewrite bind_ok by (apply stack_set_ok; cbn; lia).
  erewrite bind_ok by (apply stack_set_ok; cbn; lia).
  done.
Qed.

Lemma gc_pop_frame_ok s a b c d e : 0 <= g_stack s -> g_stack s + 5 <= STACK_SIZE s ->
  g_stack_array s !! g_stack s = Some a -> g_stack_array s !! (g_stack s + 1) = Some b ->
  g_stack_array s !! (g_stack s + 2) = Some c -> g_stack_array s !! (g_stack s + 3) = Some d ->
  g_stack_array s !! (g_stack s + 4) = Some e ->
  gc_pop_frame s = ROk tt (set_g_stack (g_stack s + 5) (set_R0 d (set_R1 c (set_R2 b (set_R3 a s))))).
Proof.
  intros H0 H1 Ha Hb Hc Hd He. unfold gc_pop_frame, gc_peek_frame. rewrite bind_assoc, bind_gets.
  rewrite bind_assoc. erewrite bind_ok by (apply stack_get_ok; [cbn; lia|done]).
  rewrite ?bind_assoc, bind_modify, ?bind_assoc.
  erewrite bind_ok by (apply stack_get_ok; [cbn; lia|done]). rewrite ?bind_assoc, bind_modify, ?bind_assoc.
  erewrite bind_ok by (apply stack_get_ok; [cbn; lia|done]). rewrite ?bind_assoc, bind_modify, ?bind_assoc.
  erewrite bind_ok by (apply stack_get_ok; [cbn; lia|done]). rewrite ?bind_assoc, bind_modify, ?bind_assoc.
  erewrite bind_ok by (apply stack_get_ok; [cbn; unfold GC_FRAME_PROCEDURE; lia|done]).
  rewrite bind_ret. unfold modify. done.
Qed.

Lemma framed_lookup s : 5 <= g_stack s ->
  framed s !! (g_stack s - 5) = Some (R3 s) /\ framed s !! (g_stack s - 5 + 1) = Some (R2 s)
  /\ framed s !! (g_stack s - 5 + 2) = Some (R1 s) /\ framed s !! (g_stack s - 5 + 3) = Some (R0 s)
  /\ framed s !! (g_stack s - 5 + 4) = Some cell_f
  /\ (forall i, g_stack s <= i -> framed s !! i = g_stack_array s !! i).
Proof.
  intros Hg. unfold framed. cbv zeta. set (g := g_stack s) in *.
  replace (g - 5 + 1) with (g - 4) by lia. replace (g - 5 + 2) with (g - 3) by lia.
  replace (g - 5 + 3) with (g - 2) by lia. replace (g - 5 + 4) with (g - 1) by lia.
  repeat split; intros; simplify_map_eq by lia; repeat (rewrite lookup_insert_ne by lia);
    rewrite ?lookup_insert; done.
Qed.

Lemma gc_correct s : machine_ok s -> 5 <= g_stack s -> has_room s ->
  exists f s', gc s = ROk tt s' /\ moved f s s' /\ machine_ok s'.
Proof.
  intros [Mc Mf Ma [Ms1 Ms2] [Mk1 Mk2] Mh] Hg Hroom.
  set (g := g_stack s) in *.
  set (s1 := set_g_stack (g - 5) (set_g_stack_array (framed s) s)).
  destruct (framed_lookup s Hg) as (F3 & F2 & F1 & F0 & Ff & Fs). fold g in F0, F1, F2, F3, Ff, Fs.
  assert (Hent : forall v, v ∈ stack_entries s1 <-> v ∈ regs s \/ v = cell_f \/ v ∈ stack_entries s).
  { intros v. rewrite !rstack_entry. change (g_stack s1) with (g - 5). change (STACK_SIZE s1) with (STACK_SIZE s).
    change (g_stack_array s1) with (framed s). fold g. unfold regs. rewrite !elem_of_cons, elem_of_nil. split.
    - intros (i & Hi & Hv). destruct (Z_lt_ge_dec i g) as [Hlt|Hge].
      + assert (i = g - 5 \/ i = g - 5 + 1 \/ i = g - 5 + 2 \/ i = g - 5 + 3 \/ i = g - 5 + 4)
          as [->|[->|[->|[->| ->]]]] by lia; simplify_eq; naive_solver.
      + rewrite Fs in Hv by lia. right. right. exists i. split; [lia|done].
    - intros [Hv|[->|(i & Hi & Hv)]].
      + destruct Hv as [->|[->|[->|[->|[]]]]]; [exists (g-5+3)|exists (g-5+2)|exists (g-5+1)|exists (g-5)]; (split; [lia|done]).
      + exists (g-5+4). split; [lia|done].
      + exists i. split; [lia|]. by rewrite Fs by lia. }
  assert (Hcf : cell_f ∈ constants s) by (apply constants_of; unfold cell_nil, cell_f in *; lia).
  assert (Hlive : forall p, live s1 p <-> alive s p).
  { intros p. unfold live, alive. change (heap s1) with (heap s).
    split; apply reach_roots; intros r Hr.
    - exists r. split; [|done]. unfold all_roots, gc_roots in *.
      change (constants s1) with (constants s) in Hr. change (globals s1) with (globals s) in Hr.
      rewrite !elem_of_app, Hent in *. naive_solver.
    - exists r. split; [|done]. unfold all_roots, gc_roots in *.
      change (constants s1) with (constants s). change (globals s1) with (globals s).
      rewrite !elem_of_app, Hent in *. tauto. }
  assert (Hready : gc_ready s1).
  { constructor; try done.
    - split; [cbn; lia|]. cbn. intros i Hi. destruct (Z_lt_ge_dec i g) as [Hlt|Hge].
      + assert (i = g - 5 \/ i = g - 5 + 1 \/ i = g - 5 + 2 \/ i = g - 5 + 3 \/ i = g - 5 + 4)
          as [->|[->|[->|[->| ->]]]] by lia; eauto.
      + rewrite Fs by lia. apply Ms2. lia.
    - eapply heap_ok_roots; [|exact Mh]. intros p Hp. by apply Hlive. }
  assert (Hroom1 : room s1).
  { intros ps Hnd Hps. change (g_free s1) with (g_free s). change (heap s1) with (heap s). change (limit s1) with (limit s).
    apply Hroom; [done|]. intros p Hp. by apply Hlive, Hps. }
  destruct (gc__correct s1 Hready Hroom1) as (f & s2 & Hrun & [C1 C2 C3 C4 C5 C6 C7 C8] & [D1 D2 D3 D4 D5 D6]).
  destruct C8 as (E1 & E2 & E3 & E4 & E5 & E6 & E7 & E8 & E9 & E10 & E11 & E12 & E13 & E14 & E15 & E16 & E17).
  change (g_stack s1) with (g - 5) in *. change (STACK_SIZE s1) with (STACK_SIZE s) in *.
  change (g_stack_array s1) with (framed s) in *. change (heap s1) with (heap s) in *.
  assert (Hfcf : f cell_f = cell_f) by by apply C3.
  pose proof (gc_pop_frame_ok s2 (f (R3 s)) (f (R2 s)) (f (R1 s)) (f (R0 s)) cell_f) as Hpop.
  rewrite E1, E2 in Hpop.
  specialize (Hpop ltac:(lia) ltac:(lia)).
  rewrite (C5 (g-5)), F3, (C5 (g-5+1)), F2, (C5 (g-5+2)), F1, (C5 (g-5+3)), F0, (C5 (g-5+4)), Ff in Hpop by lia.
  specialize (Hpop eq_refl eq_refl eq_refl eq_refl). cbn [fmap option_fmap option_map] in Hpop. rewrite Hfcf in Hpop.
  specialize (Hpop eq_refl).
  replace (g - 5 + 5) with g in Hpop by lia.
  set (s' := set_g_stack g (set_R0 (f (R0 s)) (set_R1 (f (R1 s)) (set_R2 (f (R2 s)) (set_R3 (f (R3 s)) s2))))) in *.
  assert (Hrun' : gc s = ROk tt s').
  { unfold gc. rewrite (bind_ok _ _ _ _ _ (gc_push_frame_ok s ltac:(lia))).
    fold g. fold s1. by rewrite (bind_ok _ _ _ _ _ Hrun). }
  assert (Hst' : forall i, g <= i < STACK_SIZE s -> g_stack_array s' !! i = f <$> (g_stack_array s !! i)).
  { intros i Hi. change (g_stack_array s') with (g_stack_array s2). rewrite C5 by lia. by rewrite Fs by lia. }
  assert (Hse : forall v, v ∈ stack_entries s' <-> exists u, u ∈ stack_entries s /\ v = f u).
  { intros v. rewrite rstack_entry. change (g_stack s') with g. change (STACK_SIZE s') with (STACK_SIZE s2). rewrite E2.
    split.
    - intros (i & Hi & Hv). rewrite Hst' in Hv by lia. destruct (g_stack_array s !! i) as [u|] eqn:Hu; [|done].
      cbn in Hv. injection Hv as <-. exists u. split; [|done]. apply rstack_entry. exists i. split; [lia|done].
    - intros (u & Hu & ->). apply rstack_entry in Hu as (i & Hi & Hu). exists i. split; [lia|].
      rewrite Hst' by lia. by rewrite Hu. }
  assert (Hconst' : constants s' = constants s). { unfold constants. change (g_symbol_max s') with (g_symbol_max s2). by rewrite E8. }
  assert (Hglob' : globals s' = f <$> globals s) by exact C4.
  assert (Hregs' : regs s' = f <$> regs s) by done.
  assert (Halive : forall p', alive s' p' <-> exists p, alive s p /\ p' = f p).
  { intros p'. unfold alive at 1. change (heap s') with (heap s2).
    assert (Him : reach (heap s2) (f <$> all_roots s) p' <-> exists p, alive s p /\ p' = f p).
    { apply reach_image. intros p Hp. by apply C2, Hlive. }
    rewrite <- Him. split; apply reach_roots; intros r Hr; exists r; (split; [|done]).
    - unfold all_roots, gc_roots in *. rewrite Hconst', Hglob', Hregs' in Hr. rewrite !fmap_app.
      rewrite !elem_of_app, Hse in *. destruct Hr as [[Hr|[Hr|(u & Hu & ->)]]|Hr]; [|tauto| |tauto].
      + left; left. apply elem_of_list_fmap. exists r. split; [|done]. symmetry. by apply C3.
      + left; right; right. by apply elem_of_list_fmap_1.
    - unfold all_roots, gc_roots in *. rewrite Hconst', Hglob', Hregs'. rewrite !fmap_app in Hr.
      rewrite !elem_of_app, Hse in *. destruct Hr as [[Hr|[Hr|Hr]]|Hr]; [|tauto| |tauto].
      + left; left. apply elem_of_list_fmap in Hr as (u & -> & Hu). by rewrite C3.
      + left; right; right. apply elem_of_list_fmap in Hr as (u & -> & Hu). eauto. }
  exists f, s'. split; [done|]. split.
  - constructor; try done.
    + intros p q Hp Hq. apply C1; by apply Hlive.
    + intros p Hp. by apply C2, Hlive.
    + destruct C7 as (ps & [Hnd Hps] & Htot). exists ps. split; [|exact Htot]. split; [done|].
      intros p. rewrite Hps. apply Hlive.
  - constructor.
    + exact D1.
    + exact D2.
    + exact D3.
    + split; [cbn; rewrite E2; lia|]. change (g_stack s') with g. change (STACK_SIZE s') with (STACK_SIZE s2). rewrite E2.
      intros i Hi. rewrite Hst' by lia. destruct (Ms2 i) as [v ->]; [lia|]. cbn. eauto.
    + split; [exact D5|]. change (g_symbol_max s') with (g_symbol_max s2). by rewrite E8.
    + change (g_cells s') with (g_cells s2). change (g_free s') with (g_free s2). change (heap s') with (heap s2).
      eapply heap_ok_roots; [|exact D6]. intros p Hp. change (live s2 p). apply C6.
      apply Halive in Hp as (q & Hq & ->). exists q. split; [by apply Hlive|done].
Qed.

(** live objects never need more than what is allocated now *)
Lemma room_half s : machine_ok s -> 2 * g_free s <= limit s -> has_room s.
Proof.
  intros M Hl ps Hnd Hps.
  pose proof (total_size_bound _ _ _ _ ps (mo_heap s M)) as H.
  pose proof (mo_cells s M). pose proof (mo_free s M). unfold cell_nil in *.
  assert (total_size (heap s) ps <= g_free s - 3) by (apply H; [lia|done|done]). lia.
Qed.

Lemma room_live s ps : enumerates_live (heap s) (all_roots s) ps -> machine_ok s ->
  g_free s + 2 + total_size (heap s) ps <= limit s -> has_room s.
Proof.
  intros [Hnd He] M Hl qs Hq1 Hq2.
  assert (total_size (heap s) qs <= total_size (heap s) ps); [|lia].
  pose proof (mo_cells s M). pose proof (mo_free s M). unfold cell_nil in *.
  apply (total_size_le (heap s) (all_roots s) cell_nil (g_free s) (g_free s) (mo_heap s M));
    [unfold cell_nil; lia|unfold cell_nil; lia|lia| |done|done]. intros p. symmetry. apply He.
Qed.
