(** Binding formals to arguments. *)
From stdpp Require Import base gmap list fin_maps.
From Coq Require Import ZArith Lia.
From Coq Require Import ZifyBool ZifyNat.
From Verif Require Import CInt Symbols Heap HeapLemmas GcModel GcSpec DataModel DataSpec DataLemmas CoreProofs StackModel.
From Verif Require Import EvalModel Rep RepProofs EvalSpec EvalRep EvalLemmas.
Open Scope Z_scope. Open Scope mes_scope.

Section globals.
Context {GE : genv}.
Notation consts_ok := (consts_ok GE).
Notation store_ok := (store_ok GE).


Lemma locs_of_some ls : locs_of (map Some ls) = ls.
Proof. induction ls as [|l ls IH]; [done|]. unfold locs_of in *. cbn. by rewrite IH. Qed.
Lemma store_list_fresh ls : forall vs μ μ1 v, store_list ls vs μ = Some (μ1, v) ->
  length ls = length vs /\ NoDup ls /\ (forall l, l ∈ ls -> μ !! l = None /\ exists a d, μ1 !! l = Some (SPair a d))
  /\ (forall l o, μ !! l = Some o -> μ1 !! l = Some o).
Proof.
  induction ls as [|l ls IH]; intros [|v vs] μ μ1 u H; cbn in H; try done.
  - injection H as <- <-. split; [done|]. split; [constructor|]. split; [intros l Hl; by apply elem_of_nil in Hl|done].
  - destruct (store_list ls vs μ) as [[μ' d]|] eqn:E; [|done]. case_decide as Hl; [|done]. injection H as <- <-.
    destruct (IH _ _ _ _ E) as (H1 & H2 & H3 & H4). split; [cbn; congruence|]. split; [|split].
    + constructor; [|done]. intros Hin. destruct (H3 l Hin) as (_ & a & d' & Hd). congruence.
    + intros l' [->|Hin]%elem_of_cons.
      * split; [|rewrite lookup_insert; eauto]. destruct (μ !! l) as [o|] eqn:Eo; [|done]. apply H4 in Eo. congruence.
      * destruct (H3 l' Hin) as (Hn & a & d' & Hd). split; [done|]. rewrite lookup_insert_ne by congruence. eauto.
    + intros l' o Ho. apply H4 in Ho. rewrite lookup_insert_ne by congruence. done.
Qed.
Lemma store_list_at ls : forall vs μ μ1 v rs σ i, consts_ok σ -> store_list ls vs μ = Some (μ1, v) ->
  alist_at σ (map Some ls) vs i -> store_at (ls ++ rs) μ σ -> store_at rs μ1 σ /\ val_at σ v i.
Proof.
  induction ls as [|l ls IH]; intros [|v vs] μ μ1 u rs σ i C H Ha S; cbn in H; try done.
  - injection H as <- <-. inversion Ha; subst. split; [done|]. split; [done|].
    destruct (cst_const _ _ C cell_nil) as (t & n & d & Ho & Ht & _); [vm_compute; split; congruence|]. eexists. split; [exact Ho|]. cbn. tauto.
  - destruct (store_list ls vs μ) as [[μ' d]|] eqn:E; [|done]. case_decide as Hl; [|done]. injection H as <- <-.
    inversion Ha as [|? ? ? ? ? a d' Hj Ho Hv Ha']; subst. cbn in Hj. subst i.
    destruct (IH vs μ μ' d (l :: rs) σ d' C E Ha') as [S' Hd'].
    { eapply store_at_weaken; [exact S|]. intros l' Hl'. cbn in Hl'. set_solver. }
    split; [|done]. split.
    + intros l' o' Hl'. destruct (decide (l' = l)) as [->|Hne].
      * rewrite lookup_insert in Hl'. injection Hl' as <-. cbn. exists a, d'. done.
      * rewrite lookup_insert_ne in Hl' by done. by apply (sa_obj _ _ _ S').
    + intros l' Hl' Hr. destruct (decide (l' = l)) as [->|Hne]; [by rewrite lookup_insert in Hl'|].
      rewrite lookup_insert_ne in Hl' by done. apply (sa_free _ _ _ S'); [done|]. set_solver.
Qed.

Lemma with_heap_new M σ i o : new_obj i o (with_heap σ M) = with_heap (<[i := o]> σ) M.
Proof. done. Qed.

(** what pairlis does with arguments whose list is made of the objects [js] *)
Definition pairlis_ok (xs : list Z) (r : option Z) (vs : list val) (μ : store) (ρ1 : list (Z * Z)) (μ1 : store) (js : list (option Z)) : Prop :=
  forall n f M s fm fp ai ap ei ep ρ (Q : Z -> state -> Prop),
    rep f M s -> consts_ok (m_heap M) -> f fm fp -> names_at (m_heap M) xs r fm -> f ai ap -> alist_at (m_heap M) js vs ai ->
    f ei ep -> env_at (m_heap M) ρ ei -> store_at (locs_of js) μ (m_heap M) ->
    can_alloc (2 * (Z.of_nat (length xs) + 1)) s -> (length xs < n)%nat ->
    (forall f' q i s' σ', rep f' (with_heap σ' M) s' -> (forall j p, f j p -> f' j p) -> f' i q -> m_heap M ⊆ σ' ->
       store_at [] μ1 σ' -> env_at σ' (extend ρ1 ρ) i -> shrinks (2 * (Z.of_nat (length xs) + 1)) s s' -> Q q s') ->
    wp (pairlis n fp ap ep) s Q.
Lemma wp_pairlis xs r vs μ ρ1 μ1 : bind_args xs r vs μ ρ1 μ1 ->
  exists js, length js = length vs /\ NoDup (locs_of js) /\ (forall l, l ∈ locs_of js -> μ !! l = None) /\
    (exists n ls, js = replicate n None ++ map Some ls) /\ pairlis_ok xs r vs μ ρ1 μ1 js.
Proof.
  induction 1 as [μ|r vs ls l μ μ1 v Hsl Hl|x xs r v vs l μ ρ1 μ1 Hl Hb (js & J1 & J2 & J3 & (n0 & ls & Hjs) & IH)].
  - exists []. split; [done|]. split; [constructor|]. split; [intros l Hl; by apply elem_of_nil in Hl|]. split; [by exists 0%nat, []|].
    intros n f M s fm fp ai ap ei ep ρ Q R C Hf Hn Ha Hal He Henv S HA Hln HQ. inversion Hn; subst.
    destruct n as [|n]; [lia|]. cbn [pairlis]. rewrite (eqc _ _ _ R _ _ _ Hf) by (done || (vm_compute; split; congruence)).
    apply wp_ret. apply (HQ f ep ei s (m_heap M)); try done; [by destruct M|].
    split; [|lia]. intros n' Hn'. eapply can_alloc_le; [exact Hn'|lia].
  - exists (map Some ls). destruct (store_list_fresh _ _ _ _ _ Hsl) as (L1 & L2 & L3 & L4). rewrite locs_of_some.
    split; [by rewrite map_length|]. split; [done|]. split; [intros l' Hl'; by destruct (L3 l' Hl')|]. split; [by exists 0%nat, ls|].
    intros n f M s fm fp ai ap ei ep ρ Q R C Hf Hn Ha Hal He Henv S HA Hln HQ. inversion Hn as [|r' Hr'|]; subst.
    destruct (store_list_at ls vs μ μ1 v [] (m_heap M) ai C Hsl Hal) as [S1 Hv1]; [rewrite locs_of_some in S; by rewrite app_nil_r|].
    destruct n as [|n]; [lia|]. cbn [pairlis].
    assert (Imp r <> Imp cell_nil) as Hrn. { destruct Hr' as [_ Hr']. intros [= ->]. apply Hr'. unfold reserved, hidden. cbn. set_solver. }
    rewrite (neqc _ _ _ R _ _ _ Hf) by (done || (vm_compute; split; congruence)).
    destruct Hr' as [(m & dd & Hro & _) _]. apply wp_bind. eapply (wp_ty _ _ _ R _ _ _ _ _ _ Hf Hro).
    change (negb (TSYMBOL =? TPAIR)) with true. cbv iota.
    assert (m_heap M !! Loc l = None) as Fl. { apply (sa_free _ _ _ S1); [done|]. intros Hin. by apply elem_of_nil in Hin. }
    destruct (fresh_imp (<[Loc l := opair (Imp r) ai]> (m_heap M))) as (k & Hk).
    apply wp_bind. eapply (wp_cons _ _ _ R (Loc l) (Imp r) ai); [eapply can_alloc_le; [exact HA|lia]|done|done|done|].
    intros f1 q1 s1 (G1 & A1 & F1 & _) Hq1 R1.
    eapply (wp_cons _ _ _ R1 (Imp k) (Loc l) ei); [|done|done|by apply G1|].
    { eapply (A1 1). eapply can_alloc_le; [exact HA|lia]. }
    intros f2 q2 s2 (G2 & A2 & F2 & _) Hq2 R2.
    assert (m_heap M ⊆ <[Loc l := opair (Imp r) ai]> (m_heap M)) as Sub1 by by apply insert_subseteq.
    assert (m_heap M ⊆ <[Imp k := opair (Loc l) ei]> (<[Loc l := opair (Imp r) ai]> (m_heap M))) as Sub2.
    { etrans; [exact Sub1|]. by apply insert_subseteq. }
    apply (HQ f2 q2 (Imp k) s2 _ R2); try done.
    + intros j p Hj. by apply G2, G1.
    + cbn. apply store_at_imp; [|done]. apply store_at_put; [done|]. exists ai. rewrite lookup_insert. split; [done|].
      eapply val_at_ext; [by apply ext_sub|done].
    + cbn. eapply env_bind; [by rewrite lookup_insert|]. eapply env_at_ext; [by apply ext_sub|done].
    + split; [|lia]. intros n' Hn'. cbn in Hn'. apply A2, A1. eapply can_alloc_le; [exact Hn'|lia].
  - exists (None :: js). cbn [length]. split; [lia|]. split; [done|].
    assert (l ∉ locs_of js) as Hlj. { intros Hin. apply J3 in Hin. by rewrite lookup_insert in Hin. }
    split. { intros l' Hl'. specialize (J3 l' Hl'). by apply lookup_insert_None in J3 as [? _]. }
    split; [exists (S n0), ls; by rewrite Hjs|].
    intros n f M s fm fp ai ap ei ep ρ Q R C Hf Hn Ha Hal He Henv S HA Hln HQ. cbn [length] in *.
    inversion Hn as [| |x' xs' r' k d Hx Ho Hd]; subst. inversion Hal as [|? ? ? ? ? a d' Hj Hoa Hv Hal']; subst. destruct Hj as (k' & ->).
    destruct n as [|n]; [lia|]. cbn [pairlis].
    rewrite (neqc _ _ _ R _ _ _ Hf); [|vm_compute; split; congruence|intros [= ->]; by eapply nil_not_pair].
    apply wp_bind. eapply (wp_ty _ _ _ R _ _ _ _ _ _ Hf Ho). change (negb (TPAIR =? TPAIR)) with false. cbv iota.
    apply wp_bind. eapply (wp_car _ _ _ R _ _ _ _ _ Hf Ho). intros xa Hxa.
    apply wp_bind. eapply (wp_car _ _ _ R _ _ _ _ _ Ha Hoa). intros ya Hya.
    assert (m_heap M !! Loc l = None) as Fl by by apply (sa_free _ _ _ S).
    apply wp_bind. eapply (wp_cons _ _ _ R (Loc l) (Imp x) a); [eapply can_alloc_le; [exact HA|lia]|done|done|done|].
    intros f1 q1 s1 (G1 & A1 & F1 & _) Hq1 R1.
    assert (m_heap M ⊆ <[Loc l := opair (Imp x) a]> (m_heap M)) as Sub1 by by apply insert_subseteq.
    apply wp_bind. eapply (wp_cdr _ _ _ R1 _ _ _ _ _ (G1 _ _ Hf)); [cbn; by rewrite lookup_insert_ne|]. intros xd Hxd.
    apply wp_bind. eapply (wp_cdr _ _ _ R1 _ _ _ _ _ (G1 _ _ Ha)); [cbn; by rewrite lookup_insert_ne|]. intros yd Hyd.
    apply wp_bind. eapply (IH n f1 _ s1 d xd d' yd ei ep ρ); try done.
    + cbn. eapply consts_ok_ext; [by apply ext_sub|done].
    + cbn. eapply names_at_ext; [by apply ext_sub|done].
    + cbn. by eapply alist_at_sub.
    + by apply G1.
    + cbn. eapply env_at_ext; [by apply ext_sub|done].
    + cbn. apply store_at_put; [done|]. exists a. rewrite lookup_insert. split; [done|]. eapply val_at_ext; [by apply ext_sub|done].
    + apply A1. eapply can_alloc_le; [exact HA|lia].
    + lia.
    + intros f2 q2 i2 s2 σ2 R2 G2 Hq2 Sub2 S2 Env2 Sh2. cbn in Sub2.
      destruct (fresh_imp σ2) as (k2 & Hk2).
      eapply (wp_cons _ _ _ R2 (Imp k2) (Loc l) i2); [|done|by apply G2|done|].
      { apply (proj1 Sh2). apply A1. eapply can_alloc_le; [exact HA|lia]. }
      intros f3 q3 s3 (G3 & A3 & F3 & _) Hq3 R3. destruct Sh2 as [Sh2 Fr2].
      apply (HQ f3 q3 (Imp k2) s3 (<[Imp k2 := opair (Loc l) i2]> σ2) R3); try done.
      * intros j p Hjp. by apply G3, G2, G1.
      * etrans; [exact Sub1|]. etrans; [exact Sub2|]. by apply insert_subseteq.
      * by apply store_at_imp.
      * cbn. eapply env_bind; [by rewrite lookup_insert|]. eapply env_at_ext; [|exact Env2]. by apply ext_new.
      * split; [|lia]. intros n' Hn'. apply A3, Sh2, A1. eapply can_alloc_le; [exact Hn'|lia].
Qed.

(** what pairlis does with a list of names and itself *)
Lemma wp_pairlis_self xs : forall r μ bs μ1, bind_args (xs ++ opt_list r) None (map VAtom (xs ++ opt_list r)) μ bs μ1 ->
  forall n f M s fm fp ei ep ρ (Q : Z -> state -> Prop),
    rep f M s -> consts_ok (m_heap M) -> f fm fp -> names_at (m_heap M) xs r fm ->
    f ei ep -> env_at (m_heap M) ρ ei -> store_at [] μ (m_heap M) ->
    can_alloc (2 * (Z.of_nat (length xs) + 1)) s -> (length xs < n)%nat ->
    (forall f' q i s' σ', rep f' (with_heap σ' M) s' -> (forall j p, f j p -> f' j p) -> f' i q -> m_heap M ⊆ σ' ->
       store_at [] μ1 σ' -> env_at σ' (extend bs ρ) i -> shrinks (2 * (Z.of_nat (length xs) + 1)) s s' -> Q q s') ->
    wp (pairlis n fp fp ep) s Q.
Proof.
  induction xs as [|x xs IH]; intros r μ bs μ1 Hb n f M s fm fp ei ep ρ Q R C Hf Hn He Henv S HA Hln HQ.
  - destruct n as [|n]; [lia|]. cbn [pairlis]. destruct r as [r|]; cbn in Hb; inversion Hn as [|r' Hr'|]; subst.
    + inversion Hb as [| |x' xs' r' v vs l μ' bs' μ1' Hl Hb']; subst. inversion Hb'; subst.
      assert (Imp r <> Imp cell_nil) as Hrn. { destruct Hr' as [_ Hr']. intros [= ->]. apply Hr'. unfold reserved, hidden. cbn. set_solver. }
      rewrite (neqc _ _ _ R _ _ _ Hf) by (done || (vm_compute; split; congruence)).
      destruct Hr' as [(m & dd & Hro & _) _]. apply wp_bind. eapply (wp_ty _ _ _ R _ _ _ _ _ _ Hf Hro).
      change (negb (TSYMBOL =? TPAIR)) with true. cbv iota.
      assert (m_heap M !! Loc l = None) as Fl. { apply (sa_free _ _ _ S); [done|]. intros Hin. by apply elem_of_nil in Hin. }
      destruct (fresh_imp (<[Loc l := opair (Imp r) (Imp r)]> (m_heap M))) as (k & Hk).
      apply wp_bind. eapply (wp_cons _ _ _ R (Loc l) (Imp r) (Imp r)); [eapply can_alloc_le; [exact HA|lia]|done|done|done|].
      intros f1 q1 s1 (G1 & A1 & F1 & _) Hq1 R1.
      eapply (wp_cons _ _ _ R1 (Imp k) (Loc l) ei); [|done|done|by apply G1|].
      { eapply (A1 1). eapply can_alloc_le; [exact HA|lia]. }
      intros f2 q2 s2 (G2 & A2 & F2 & _) Hq2 R2.
      assert (m_heap M ⊆ <[Loc l := opair (Imp r) (Imp r)]> (m_heap M)) as Sub1 by by apply insert_subseteq.
      assert (m_heap M ⊆ <[Imp k := opair (Loc l) ei]> (<[Loc l := opair (Imp r) (Imp r)]> (m_heap M))) as Sub2.
      { etrans; [exact Sub1|]. by apply insert_subseteq. }
      apply (HQ f2 q2 (Imp k) s2 _ R2); try done.
      * intros j p Hj. by apply G2, G1.
      * cbn. apply store_at_imp; [|done]. apply store_at_put; [done|]. exists (Imp r). rewrite lookup_insert. split; [done|].
        split; [done|]. eexists. split; [rewrite lookup_insert_ne by done; exact Hro|]. cbn. by left.
      * cbn. eapply env_bind; [by rewrite lookup_insert|]. eapply env_at_ext; [by apply ext_sub|done].
      * split; [|lia]. intros n' Hn'. cbn in Hn'. apply A2, A1. eapply can_alloc_le; [exact Hn'|lia].
    + inversion Hb; subst. rewrite (eqc _ _ _ R _ _ _ Hf) by (done || (vm_compute; split; congruence)).
      apply wp_ret. apply (HQ f ep ei s (m_heap M)); try done; [by destruct M|].
      split; [|lia]. intros n' Hn'. eapply can_alloc_le; [exact Hn'|lia].
  - cbn [length app map] in *. inversion Hb as [| |x' xs' r' v vs l μ' bs' μ1' Hl Hb']; subst.
    inversion Hn as [| |x' xs' r' k d Hx Ho Hd]; subst.
    destruct n as [|n]; [lia|]. cbn [pairlis].
    rewrite (neqc _ _ _ R _ _ _ Hf); [|vm_compute; split; congruence|intros [= ->]; by eapply nil_not_pair].
    apply wp_bind. eapply (wp_ty _ _ _ R _ _ _ _ _ _ Hf Ho). change (negb (TPAIR =? TPAIR)) with false. cbv iota.
    apply wp_bind. eapply (wp_car _ _ _ R _ _ _ _ _ Hf Ho). intros xa Hxa.
    apply wp_bind. eapply (wp_car _ _ _ R _ _ _ _ _ Hf Ho). intros ya Hya.
    assert (m_heap M !! Loc l = None) as Fl. { apply (sa_free _ _ _ S); [done|]. intros Hin. by apply elem_of_nil in Hin. }
    apply wp_bind. eapply (wp_cons _ _ _ R (Loc l) (Imp x) (Imp x)); [eapply can_alloc_le; [exact HA|lia]|done|done|done|].
    intros f1 q1 s1 (G1 & A1 & F1 & _) Hq1 R1.
    assert (m_heap M ⊆ <[Loc l := opair (Imp x) (Imp x)]> (m_heap M)) as Sub1 by by apply insert_subseteq.
    apply wp_bind. eapply (wp_cdr _ _ _ R1 _ _ _ _ _ (G1 _ _ Hf)); [cbn; by rewrite lookup_insert_ne|]. intros xd Hxd.
    apply wp_bind. eapply (wp_cdr _ _ _ R1 _ _ _ _ _ (G1 _ _ Hf)); [cbn; by rewrite lookup_insert_ne|]. intros yd Hyd.
    assert (yd = xd) as -> by (eapply (rh_fun _ _ _ (rp_heap _ _ _ R1)); [exact Hyd|exact Hxd]).
    apply wp_bind. eapply (IH r _ _ _ Hb' n f1 _ s1 d xd ei ep ρ); try done.
    + cbn. eapply consts_ok_ext; [by apply ext_sub|done].
    + cbn. eapply names_at_ext; [by apply ext_sub|done].
    + by apply G1.
    + cbn. eapply env_at_ext; [by apply ext_sub|done].
    + cbn. apply store_at_put; [done|]. exists (Imp x). rewrite lookup_insert. split; [done|].
      destruct Hx as [(m & dd & Hxo & _) _]. split; [done|]. eexists. split; [rewrite lookup_insert_ne by done; exact Hxo|]. cbn. by left.
    + apply A1. eapply can_alloc_le; [exact HA|lia].
    + lia.
    + intros f2 q2 i2 s2 σ2 R2 G2 Hq2 Sub2 S2 Env2 Sh2. cbn in Sub2.
      destruct (fresh_imp σ2) as (k2 & Hk2).
      eapply (wp_cons _ _ _ R2 (Imp k2) (Loc l) i2); [|done|by apply G2|done|].
      { apply (proj1 Sh2). apply A1. eapply can_alloc_le; [exact HA|lia]. }
      intros f3 q3 s3 (G3 & A3 & F3 & _) Hq3 R3. destruct Sh2 as [Sh2 Fr2].
      apply (HQ f3 q3 (Imp k2) s3 (<[Imp k2 := opair (Loc l) i2]> σ2) R3); try done.
      * intros j p Hjp. by apply G3, G2, G1.
      * etrans; [exact Sub1|]. etrans; [exact Sub2|]. by apply insert_subseteq.
      * by apply store_at_imp.
      * cbn. eapply env_bind; [by rewrite lookup_insert|]. eapply env_at_ext; [|exact Env2]. by apply ext_new.
      * split; [|lia]. intros n' Hn'. apply A3, Sh2, A1. eapply can_alloc_le; [exact Hn'|lia].
Qed.
End globals.
