(** The primitive procedures do what EvalPrimSpec.v says. *)
From stdpp Require Import base gmap list fin_maps.
From Coq Require Import ZArith Lia.
From Coq Require Import ZifyBool ZifyNat.
From Verif Require Import CInt Symbols Heap HeapLemmas GcModel GcSpec DataModel DataSpec DataLemmas CoreProofs StackModel MathModel MathProofs Builtins.
From Verif Require Import EvalModel PrimModel Rep RepProofs EvalSpec EvalPrimSpec EvalRep EvalLemmas EvalBind EvalSplice EvalRun EvalSteps EvalSteps2 EvalSteps3 EvalSteps4 EvalMain EvalPrimLemmas.
From Verif Require RepArrays ArrayProofs.
Open Scope Z_scope. Open Scope mes_scope.

Section globals.
Context {GE : genv}.
Notation consts_ok := (consts_ok GE).
Notation store_ok := (store_ok GE).
Context (w : nat).
Notation prim_ok prim := (prim_ok (GE := GE) prim w).
Notation prims := (prims w).
Notation const_at := (const_at (GE := GE)).

Ltac stp := first [apply wp_bind | apply wp_ret | apply wp_gets | apply wp_modify].
Ltac kc := (vm_compute; split; congruence).

Ltac args1 Hxs i x Hv Hi := inversion Hxs as [|? x ? ? (i & Hv & Hi) Hxs1]; subst; inversion Hxs1; subst; clear Hxs Hxs1.
Ltac args2 Hxs i x Hv Hi j y Hw Hj := inversion Hxs as [|? x ? ? (i & Hv & Hi) Hxs1]; subst; inversion Hxs1 as [|? y ? ? (j & Hw & Hj) Hxs2]; subst; inversion Hxs2; subst; clear Hxs Hxs1 Hxs2.

Ltac args3 Hxs i x Hv Hi j y Hw Hj k z Hu Hk := inversion Hxs as [|? x ? ? (i & Hv & Hi) Hxs1]; subst; inversion Hxs1 as [|? y ? ? (j & Hw & Hj) Hxs2]; subst;
  inversion Hxs2 as [|? z ? ? (k & Hu & Hk) Hxs3]; subst; inversion Hxs3; subst; clear Hxs Hxs1 Hxs2 Hxs3.
Lemma prims_ok p n vs μ μ1 v : prims p n vs μ μ1 v -> prim_ok prim_call p n vs μ μ1 v.
Proof.
  intros H. destruct H.
  - (* cons *) apply prim_plain with (N := 1); [|lia|lia|].
    { intros So. split; [by apply store_le_new|by apply store_ok_new]. }
    intros fuel f M s ai ap xs R C S HA Hfu Hxs. args2 Hxs i x Hv Hi j y Hw Hj.
    assert (m_heap M !! Loc l = None) as Fl by (apply (sa_free _ _ _ S); [done|]; intros Hin; by apply elem_of_nil in Hin).
    eapply (wp_cons _ _ _ R (Loc l)); [done|done|exact Hi|exact Hj|]. intros f' q s' G Hq R'.
    exists f', (<[Loc l := opair i j]> (m_heap M)), (Loc l). split; [exact R'|]. split; [done|]. split; [done|]. split; [apply ext_loc|].
    apply store_at_put; [done|]. exists i, j. rewrite lookup_insert. split; [done|]. split; (eapply val_at_ext; [apply ext_loc|done]).
  - (* car *) apply prim_plain with (N := 0); [apply store_same|lia|lia|].
    intros fuel f M s ai ap xs R C S HA Hfu Hxs. args1 Hxs i x Hv Hi. cbn in Hv. subst i. destruct (sa_obj _ _ _ S _ _ H) as (j & j' & Hj & Ha & Hd).
    eapply (wp_car _ _ _ R _ _ _ _ _ Hi Hj). intros y Hy. by eapply give_same.
  - (* cdr *) apply prim_plain with (N := 0); [apply store_same|lia|lia|].
    intros fuel f M s ai ap xs R C S HA Hfu Hxs. args1 Hxs i x Hv Hi. cbn in Hv. subst i. destruct (sa_obj _ _ _ S _ _ H) as (j & j' & Hj & Ha & Hd).
    eapply (wp_cdr _ _ _ R _ _ _ _ _ Hi Hj). intros y Hy. by eapply give_same.
  - (* set-car! *) pose proof (store_le_pair μ l a d v d H) as L. apply prim_plain with (N := 0); [|lia|lia|].
    { intros So. split; [done|by apply store_ok_put]. }
    intros fuel f M s ai ap xs R C S HA Hfu Hxs. args2 Hxs i x Hv Hi j y Hw Hj. cbn in Hv. subst i. destruct (sa_obj _ _ _ S _ _ H) as (j1 & j' & Hj1 & Ha & Hd).
    eapply (wp_set_car_x _ _ _ R fuel (Loc l) _ _ _ j y _ Hi Hj1 Hj). intros s' R'.
    exists f, (<[Loc l := opair j j']> (m_heap M)), (Imp cell_unspecified). split; [exact R'|]. split; [eapply rep_const; [exact R'|kc]|].
    split; [apply const_at; [|kc]; eapply consts_ok_ext; [apply ext_loc|done]|]. split; [apply ext_loc|].
    apply store_at_put; [done|]. exists j, j'. rewrite lookup_insert. split; [done|]. split; (eapply val_at_ext; [apply ext_loc|done]).
  - (* set-cdr! *) pose proof (store_le_pair μ l a d a v H) as L. apply prim_plain with (N := 0); [|lia|lia|].
    { intros So. split; [done|by apply store_ok_put]. }
    intros fuel f M s ai ap xs R C S HA Hfu Hxs. args2 Hxs i x Hv Hi j y Hw Hj. cbn in Hv. subst i. destruct (sa_obj _ _ _ S _ _ H) as (j1 & j' & Hj1 & Ha & Hd).
    eapply (wp_set_cdr_x _ _ _ R fuel (Loc l) _ _ _ j y _ Hi Hj1 Hj). intros s' R'.
    exists f, (<[Loc l := opair j1 j]> (m_heap M)), (Imp cell_unspecified). split; [exact R'|]. split; [eapply rep_const; [exact R'|kc]|].
    split; [apply const_at; [|kc]; eapply consts_ok_ext; [apply ext_loc|done]|]. split; [apply ext_loc|].
    apply store_at_put; [done|]. exists j1, j. rewrite lookup_insert. split; [done|]. split; (eapply val_at_ext; [apply ext_loc|done]).
  - (* list *) intros So. destruct (store_list_le _ _ _ _ _ H So) as [L So1]. split; [done|]. split; [done|]. split; [lia|].
    exists (map Some ls), 0. destruct (store_list_fresh _ _ _ _ _ H) as (H1 & H2 & H3 & H4).
    split. { split; [by rewrite map_length|]. rewrite locs_of_some. split; [done|]. split; [intros l Hl; by apply H3|]. by exists 0%nat, ls. }
    split; [lia|]. intros fuel f M s ai ap xs R C Hap Hal S HA Hfu ->. rewrite locs_of_some in S.
    destruct (store_list_at _ _ _ _ _ [] _ _ C H Hal) as [S1 Hv]; [by rewrite app_nil_r|]. apply wp_ret. by eapply give_same.
  - (* length *) apply prim_plain with (N := 1); [apply store_same|lia|lia|].
    intros fuel f M s ai ap xs R C S HA Hfu Hxs. args1 Hxs i x Hv Hi. destruct (list_val_ml _ _ _ _ _ C S H Hv) as (es & Hml & E).
    change (wp (length_ fuel x) s (gives μ (VNum (Z.of_nat (length vs))) M)). unfold length_. stp. eapply wp_length__; [exact R|exact C|exact Hi|exact Hml|done|]. rewrite E. by eapply give_number.
  - (* null? *) apply prim_plain with (N := 0); [apply store_same|lia|lia|].
    intros fuel f M s ai ap xs R C S HA Hfu Hxs. args1 Hxs i x Hv Hi.
    change (wp (null_p x) s (gives μ (v_bool (match v with VAtom k => k =? cell_nil | _ => false end)) M)). unfold null_p. stp.
    assert ((x =? cell_nil) = match v with VAtom k => k =? cell_nil | _ => false end) as ->; [|by eapply give_bool].
    destruct (decide (v = VAtom cell_nil)) as [->|Hne].
    + destruct Hv as [-> _]. by apply (eqc _ _ _ R _ _ cell_nil Hi); [kc|].
    + rewrite (neqc _ _ _ R _ _ cell_nil Hi); [|kc|eapply val_not_const; [exact C|exact Hv|kc|done]].
      destruct v; try done. symmetry. apply Z.eqb_neq. congruence.
  - (* pair? *) apply prim_plain with (N := 0); [apply store_same|lia|lia|].
    intros fuel f M s ai ap xs R C S HA Hfu Hxs. args1 Hxs i x Hv Hi.
    assert (known μ v) as K. { destruct v as [| | | |l]; try done. cbn in *. destruct (μ !! l); [by eexists|done]. }
    destruct (val_obj _ _ _ _ _ _ _ R S Hi Hv K) as (c & Hc & Ht).
    change (wp (pair_p x) s (gives μ (v_bool b) M)). unfold pair_p. stp. eapply wp_eq; [by apply ty_s|]. stp.
    assert ((c_ty c =? TPAIR) = b) as ->; [|by eapply give_bool].
    destruct v as [n|n|k|k|l]; cbn in H.
    + destruct Ht as [-> _]. by subst.
    + destruct Ht as [-> _]. by subst.
    + subst b. cbn in Ht. apply Z.eqb_neq. repeat (destruct Ht as [Ht|Ht]; [by rewrite Ht|]). by rewrite Ht.
    + subst b. cbn in Ht. by rewrite Ht.
    + cbn in Ht. destruct (μ !! l) as [[]|]; try done; by rewrite Ht, H.
  - (* eq? *) apply prim_plain with (N := 0); [apply store_same|lia|lia|].
    intros fuel f M s ai ap xs R C S HA Hfu Hxs. args2 Hxs i x Hv Hi j y Hw Hj.
    eapply wp_eq; [by eapply (eq_ok f M s μ a b r)|]. by eapply give_bool.
  - (* + *) apply prim_plain with (N := 1); [apply store_same|lia|lia|].
    intros fuel f M s ai ap xs R C S HA Hfu (-> & Hap & Hal). destruct (alist_numbers _ _ _ _ _ _ _ R C Hap Hal) as [Hns Hl].
    eapply give_number; [exact R|done|done|]. change (prim_call fuel fn_plus [ap]) with (plus fuel ap).
    rewrite (plus_ok fuel ap ns s) by (done || lia). symmetry. by apply make_number_s.
  - (* * *) apply prim_plain with (N := 1); [apply store_same|lia|lia|].
    intros fuel f M s ai ap xs R C S HA Hfu (-> & Hap & Hal). destruct (alist_numbers _ _ _ _ _ _ _ R C Hap Hal) as [Hns Hl].
    eapply give_number; [exact R|done|done|]. change (prim_call fuel fn_multiply [ap]) with (multiply fuel ap).
    rewrite (multiply_ok fuel ap ns s) by (done || lia). symmetry. by apply make_number_s.
  - (* - *) apply prim_plain with (N := 1); [apply store_same|lia|lia|].
    intros fuel f M s ai ap xs R C S HA Hfu (-> & Hap & Hal). destruct (alist_numbers _ _ _ _ _ _ _ R C Hap Hal) as [Hns Hl].
    eapply give_number; [exact R|done|done|]. change (prim_call fuel fn_minus [ap]) with (minus fuel ap).
    rewrite (minus_ok fuel ap n (m :: ns) s) by (done || cbn in *; lia). symmetry. by apply make_number_s.
  - (* negate *) apply prim_plain with (N := 1); [apply store_same|lia|lia|].
    intros fuel f M s ai ap xs R C S HA Hfu (-> & Hap & Hal). destruct (alist_numbers _ _ _ _ [n] _ _ R C Hap Hal) as [Hns Hl].
    eapply give_number; [exact R|done|done|]. change (prim_call fuel fn_minus [ap]) with (minus fuel ap).
    rewrite (negate_ok fuel ap n s) by (done || (unfold in_long, LONG_MIN, LONG_MAX in *; lia)). symmetry. by apply make_number_s.
  - (* > *) apply prim_plain with (N := 0); [apply store_same|lia|lia|].
    intros fuel f M s ai ap xs R C S HA Hfu (-> & Hap & Hal). destruct (alist_numbers _ _ _ _ _ _ _ R C Hap Hal) as [Hns Hl].
    destruct (greater_p_ok fuel ap ns s Hns) as (b & E & Hb); [lia|]. eapply wp_eq; [exact E|]. rewrite (v_bool_eq r b) by (rewrite H, Hb; done). by eapply give_bool.
  - (* < *) apply prim_plain with (N := 0); [apply store_same|lia|lia|].
    intros fuel f M s ai ap xs R C S HA Hfu (-> & Hap & Hal). destruct (alist_numbers _ _ _ _ _ _ _ R C Hap Hal) as [Hns Hl].
    destruct (less_p_ok fuel ap ns s Hns) as (b & E & Hb); [lia|]. eapply wp_eq; [exact E|]. rewrite (v_bool_eq r b) by (rewrite H, Hb; done). by eapply give_bool.
  - (* = *) apply prim_plain with (N := 0); [apply store_same|lia|lia|].
    intros fuel f M s ai ap xs R C S HA Hfu (-> & Hap & Hal). destruct (alist_numbers _ _ _ _ _ _ _ R C Hap Hal) as [Hns Hl].
    destruct (is_p_ok fuel ap ns s Hns) as (b & E & Hb); [lia|]. eapply wp_eq; [exact E|]. rewrite (v_bool_eq r b) by (rewrite H, Hb; done). by eapply give_bool.
  - (* char->integer *) apply prim_plain with (N := 1); [apply store_same|lia|lia|].
    intros fuel f M s ai ap xs R C S HA Hfu Hxs. args1 Hxs i x Hv Hi. destruct (val_obj _ _ _ _ _ _ _ R S Hi Hv I) as (c & Hc & _ & Hd).
    change (wp (char_to_integer x) s (gives μ (VNum n) M)). unfold char_to_integer. stp. eapply wp_eq; [by apply cdr_of_s|]. rewrite Hd. by eapply give_number.
  - (* integer->char *) apply prim_plain with (N := 1); [apply store_same|lia|lia|].
    intros fuel f M s ai ap xs R C S HA Hfu Hxs. args1 Hxs i x Hv Hi. destruct (val_obj _ _ _ _ _ _ _ R S Hi Hv I) as (c & Hc & _ & Hd).
    change (wp (integer_to_char x) s (gives μ (VChar (to_s32 n)) M)). unfold integer_to_char. stp. eapply wp_eq; [by apply cdr_of_s|]. rewrite Hd.
    apply (give_cell f M s μ TCHAR); [done|done|done|by right].
  - (* acons *) destruct H as [Hn HF]. apply NoDup_cons in Hn as [Hn _]. apply Forall_cons in HF as [Hl HF]. apply Forall_cons in HF as [Hl' _].
    assert (l' <> l) as Hne by (intros ->; apply Hn; constructor). assert (<[l := SPair k v]> μ !! l' = None) as Hl2 by by rewrite lookup_insert_ne.
    apply prim_plain with (N := 2); [|lia|lia|].
    { intros So. split; [eapply store_le_trans; by apply store_le_new|]. apply store_ok_new; [by apply store_ok_new|done|done]. }
    intros fuel f M s ai ap xs R C S HA Hfu Hxs. args3 Hxs i x Hv Hi j y Hw Hj m z Hu Hk.
    assert (m_heap M !! Loc l = None /\ m_heap M !! Loc l' = None) as [Fl Fl'] by (split; apply (sa_free _ _ _ S); try done; intros Hin; by apply elem_of_nil in Hin).
    change (wp (acons x y z) s (gives (<[l' := SPair (VLoc l) a]> (<[l := SPair k v]> μ)) (VLoc l') M)). unfold acons. stp.
    eapply (wp_cons _ _ _ R (Loc l)); [eapply can_alloc_le; [exact HA|lia]|done|exact Hi|exact Hj|]. intros f' q s' (G1 & G2 & _) Hq R'.
    eapply (wp_cons _ _ _ R' (Loc l')); [apply G2; eapply can_alloc_le; [exact HA|lia]|cbn; rewrite lookup_insert_ne; [done|congruence]|exact Hq|by apply G1|].
    intros f2 q2 s2 _ Hq2 R2. rewrite <- (with_heap_id M) in R2 at 1. rewrite !with_heap_new in R2. eexists f2, _, (Loc l'). split; [exact R2|]. split; [done|]. split; [done|].
    split; [eapply ext_trans; apply ext_loc|]. apply store_at_put.
    { apply store_at_put; [done|]. exists i, j. rewrite lookup_insert. split; [done|]. split; (eapply val_at_ext; [apply ext_loc|done]). }
    exists (Loc l), m. rewrite lookup_insert. split; [done|]. split; [done|]. eapply val_at_ext; [eapply ext_trans; apply ext_loc|done].
  - (* / *) apply prim_plain with (N := 1); [apply store_same|lia|lia|].
    intros fuel f M s ai ap xs R C S HA Hfu (-> & Hap & Hal). destruct (alist_numbers _ _ _ _ (n :: ns) _ _ R C Hap Hal) as [Hns Hl].
    eapply give_number; [exact R|done|done|]. change (prim_call fuel fn_divide [ap]) with (divide fuel ap).
    rewrite (divide_pos fuel ap n ns s) by (done || cbn in *; lia). symmetry. by apply make_number_s.
  - (* modulo *) apply prim_plain with (N := 1); [apply store_same|lia|lia|].
    intros fuel f M s ai ap xs R C S HA Hfu Hxs. args2 Hxs i x Hv Hi j y Hw Hj.
    eapply give_number; [exact R|done|done|]. change (prim_call fuel fn_modulo [x; y]) with (modulo fuel x y).
    pose proof (rep_range _ _ _ _ _ R Hi) as Hr. unfold in_long, LONG_MIN, LONG_MAX in *.
    rewrite (modulo_ok fuel x y n m s); [| by eapply val_number|by eapply val_number|unfold LONG_MIN, LONG_MAX; lia|lia|unfold LONG_MIN, LONG_MAX; lia|nia|done].
    rewrite (proj2 (Z.ltb_ge m 0)) by lia. symmetry. by apply make_number_s.
  - (* logand *) apply prim_plain with (N := 1); [apply store_same|lia|lia|].
    intros fuel f M s ai ap xs R C S HA Hfu (-> & Hap & Hal). destruct (alist_numbers _ _ _ _ ns _ _ R C Hap Hal) as [Hns Hl].
    eapply give_number; [exact R|done|done|]. change (prim_call fuel fn_logand [ap]) with (logand fuel ap). unfold logand.
    erewrite bind_ok by (apply bits_loop_ok; [exact Hns|lia]). done.
  - (* logior *) apply prim_plain with (N := 1); [apply store_same|lia|lia|].
    intros fuel f M s ai ap xs R C S HA Hfu (-> & Hap & Hal). destruct (alist_numbers _ _ _ _ ns _ _ R C Hap Hal) as [Hns Hl].
    eapply give_number; [exact R|done|done|]. change (prim_call fuel fn_logior [ap]) with (logior fuel ap). unfold logior.
    erewrite bind_ok by (apply bits_loop_ok; [exact Hns|lia]). done.
  - (* logxor *) apply prim_plain with (N := 1); [apply store_same|lia|lia|].
    intros fuel f M s ai ap xs R C S HA Hfu (-> & Hap & Hal). destruct (alist_numbers _ _ _ _ ns _ _ R C Hap Hal) as [Hns Hl].
    eapply give_number; [exact R|done|done|]. change (prim_call fuel fn_logxor [ap]) with (logxor fuel ap). unfold logxor.
    erewrite bind_ok by (apply bits_loop_ok; [exact Hns|lia]). done.
  - (* lognot *) apply prim_plain with (N := 1); [apply store_same|lia|lia|].
    intros fuel f M s ai ap xs R C S HA Hfu Hxs. args1 Hxs i x Hv Hi. destruct (val_number _ _ _ _ _ _ R Hi Hv) as (c & Hc & Ht & Hd).
    eapply give_number; [exact R|done|done|]. change (prim_call fuel fn_lognot [x]) with (lognot x). unfold lognot.
    assert (assert_number x s = ROk tt s) as Ea. { unfold assert_number. rewrite (bind_ok _ _ _ _ _ (ty_s _ _ _ Hc)), Ht. done. }
    rewrite (bind_ok _ _ _ _ _ Ea). erewrite bind_ok by by apply cdr_of_s. rewrite Hd. f_equal.
  - (* ash *) apply prim_plain with (N := 1); [apply store_same|lia|lia|].
    intros fuel f M s ai ap xs R C S HA Hfu Hxs. args2 Hxs i x Hv Hi j y Hw Hj.
    eapply give_number; [exact R|done|done|]. change (prim_call fuel fn_ash [x; y]) with (ash x y).
    rewrite (ash_ok n c x y s); [|by eapply val_number|by eapply val_number|unfold in_long, LONG_MIN, LONG_MAX in *; lia|done|done].
    rewrite to_s64_id by done. symmetry. by apply make_number_s.
  - (* memq *) apply prim_plain with (N := 0); [apply store_same|lia|lia|].
    intros fuel f M s ai ap xs R C S HA Hfu Hxs. args2 Hxs i xp Hv Hi j y Hw Hj. by eapply (memq_ok f M s μ x v vs).
  - (* assq *) apply prim_plain with (N := 0); [apply store_same|lia|lia|].
    intros fuel f M s ai ap xs R C S HA Hfu Hxs. args2 Hxs i xp Hv Hi j y Hw Hj. by eapply (assq_ok f M s μ x v ks).
  - (* last-pair *) apply prim_plain with (N := 0); [apply store_same|lia|lia|].
    intros fuel f M s ai ap xs R C S HA Hfu Hxs. args1 Hxs i x Hv Hi.
    pose proof (list_val_length _ _ _ _ _ _ _ _ R C S (pairs_list _ _ _ _ H) Hv Hi) as Hlen.
    change (wp (last_pair fuel x) s (gives μ (VLoc l) M)). assert (length vs <= fuel)%nat as Hf by lia. clear Hlen Hfu HA.
    revert v vs i x H Hv Hi fuel Hf. induction ls as [|l0 ls IH]; intros v vs i x H Hv Hi fuel Hf; cbn in H;
      inversion H as [|l1 a d ls1 vs1 Hl1 Hd]; subst; cbn in Hf; (destruct fuel as [|fuel]; [lia|]); cbn [last_pair]; cbn in Hv; subst i;
      rewrite (loc_not_nil _ _ _ _ _ R Hi); destruct (pair_val _ _ _ _ _ S Hl1) as (j1 & j2 & Hj & _ & Hvd);
      destruct (cdr_word _ _ _ _ _ _ _ R Hi Hj) as (y & Ey & Hy); stp; (eapply wp_eq; [exact Ey|]).
    + inversion Hd; subst. rewrite (nil_addr _ _ _ _ _ R Hvd Hy). stp. by eapply give_same.
    + destruct ls as [|l2 ls]; cbn in Hd; inversion Hd as [|l3 a' d' ls' vs' Hl3 Hd']; subst; cbn in Hvd; subst j2; rewrite (loc_not_nil _ _ _ _ _ R Hy);
        eapply (IH (VLoc _)); try done; lia.
  - (* append2 *) pose proof (link_le (GE := GE) ls vs y μ ltac:(done) ltac:(done)) as HL. apply prim_plain with (N := Z.of_nat (length vs)); [done|lia|lia|].
    intros fuel f M s ai ap xs R C S HA Hfu Hxs. args2 Hxs i xp Hv Hi j yp Hw Hj.
    pose proof (list_val_length _ _ _ _ _ _ _ _ R C S H Hv Hi) as Hlen. change (wp (append2 fuel xp yp) s (gives (link ls vs y μ) (first_of ls y) M)). unfold append2.
    destruct H as [|l a d vs Hl Hd].
    { rewrite (nil_addr _ _ _ _ _ R Hv Hi). destruct ls; [|done]. cbn. stp. by eapply give_same. }
    cbn in Hv. subst i. rewrite (loc_not_nil _ _ _ _ _ R Hi). destruct (pair_val _ _ _ _ _ S Hl) as (j1 & j2 & Hj1 & _ & _).
    stp. eapply (wp_ty _ _ _ R _ _ _ _ _ _ Hi Hj1). change (TPAIR =? TPAIR) with true. cbv iota. stp. stp. stp.
    pose proof (const_at (m_heap M) cell_nil C ltac:(kc)) as Hnv.
    eapply wp_mono; [eapply (wp_append_reverse fuel (a :: vs) ls (VLoc l) v_nil μ f M s (Loc l) xp (Imp cell_nil) cell_nil); try done|].
    { by econstructor. } { lia. } { eapply rep_const; [exact R|kc]. }
    intros q s' (f' & σ' & i & F' & R' & Hq & Hvq & X & S').
    assert (pairs_of (link (reverse ls) (reverse (a :: vs)) v_nil μ) (first_of (reverse ls) v_nil) (reverse ls) (reverse (a :: vs))) as Hpo.
    { apply pairs_link; [by rewrite !reverse_length|]. apply nodup_rev, H2. }
    eapply wp_mono; [eapply (wp_reverse_x fuel _ _ _ y _ f' (with_heap σ' M) s' i q j yp R'); [|exact S'|exact Hpo|rewrite reverse_length; lia|exact Hvq|done|by eapply val_at_ext|by apply F']|].
    { by eapply consts_ok_ext. }
    rewrite !reverse_involutive. rewrite (link_over ls (a :: vs) y μ); [|done|intros l2 Hl2; apply link_other; by rewrite elem_of_reverse].
    intros q2 s2 (f2 & σ2 & i2 & F2 & R2 & Hq2 & Hv2 & X2 & S2). exists f2, σ2, i2. split; [exact R2|]. split; [done|]. split; [done|]. split; [by eapply ext_trans|done].
  - (* append-reverse *) pose proof (link_le (GE := GE) ls (reverse vs) y μ ltac:(by rewrite reverse_length) ltac:(done)) as HL.
    apply prim_plain with (N := Z.of_nat (length vs)); [done|lia|lia|].
    intros fuel f M s ai ap xs R C S HA Hfu Hxs. args2 Hxs i xp Hv Hi j yp Hw Hj.
    pose proof (list_val_length _ _ _ _ _ _ _ _ R C S H Hv Hi) as Hlen. change (wp (append_reverse fuel xp yp) s (gives (link ls (reverse vs) y μ) (first_of ls y) M)). unfold append_reverse.
    destruct H as [|l a d vs Hl Hd].
    { rewrite (nil_addr _ _ _ _ _ R Hv Hi). destruct ls; [|done]. cbn. stp. by eapply give_same. }
    cbn in Hv. subst i. rewrite (loc_not_nil _ _ _ _ _ R Hi). destruct (pair_val _ _ _ _ _ S Hl) as (j1 & j2 & Hj1 & _ & _).
    stp. eapply (wp_ty _ _ _ R _ _ _ _ _ _ Hi Hj1). change (TPAIR =? TPAIR) with true. cbv iota. stp. stp.
    pose proof (fresh_rev _ _ H2) as Hfr.
    eapply wp_mono; [eapply (wp_append_reverse fuel (a :: vs) (reverse ls) (VLoc l) y μ f M s (Loc l) xp j yp); try done|].
    { by econstructor. } { by rewrite reverse_length. } { lia. }
    cbv beta. rewrite reverse_involutive. intros q s' Hg. by eapply gives_less.
  - (* reverse! *) pose proof (pairs_length _ _ _ _ H) as El. pose proof (pairs_nodup _ _ _ _ H) as Hnd.
    apply prim_plain with (N := 0); [|lia|lia|].
    { intros So. apply relink_le; [by rewrite !reverse_length|by apply nodup_rev| |done]. apply Forall_reverse. clear -H. induction H; constructor; eauto. }
    intros fuel f M s ai ap xs R C S HA Hfu Hxs. args2 Hxs i xp Hv Hi j yp Hw Hj.
    pose proof (list_val_length _ _ _ _ _ _ _ _ R C S (pairs_list _ _ _ _ H) Hv Hi) as Hlen.
    change (wp (reverse_x_ fuel xp yp) s (gives (link (reverse ls) (reverse vs) y μ) (first_of (reverse ls) y) M)).
    eapply wp_mono; [eapply (wp_reverse_x fuel vs ls x y μ f M s i xp j yp); try done; lia|]. intros q s' Hg. by eapply gives_less.
  - (* make-vector *) apply prim_plain with (N := 1 + 2 * Z.of_nat k); [|lia|lia|].
    { intros So. split; [by apply store_le_new|by apply store_ok_new]. }
    intros fuel f M s ai ap xs R C S HA Hfu (-> & Hap & Hal). change (wp (make_vector ap) s (gives (<[l := SVec (replicate k v_unspecified)]> μ) (VLoc l) M)).
    inversion Hal as [|? ? ? ? ? a d _ Ho Hk Hd]; subst. inversion Hd; subst. unfold make_vector.
    destruct (car_word _ _ _ _ _ _ _ R Hap Ho) as (kp & E1 & Hkp). destruct (cdr_word _ _ _ _ _ _ _ R Hap Ho) as (dp & E2 & Hdp).
    destruct (val_number _ _ _ _ _ _ R Hkp Hk) as (c & Hc & Ht & Hcd). unfold assert_number.
    stp. eapply wp_eq; [exact E1|]. stp. stp. eapply wp_eq; [by apply ty_s|]. rewrite Ht. change (TNUMBER =? TNUMBER) with true. cbv iota. stp.
    stp. eapply wp_eq; [by apply cdr_of_s|]. rewrite Hcd. stp. eapply wp_eq; [exact E2|]. rewrite (nil_addr _ _ _ _ _ R (const_at (m_heap M) cell_nil C ltac:(kc)) Hdp).
    change (cell_nil =? cell_nil) with true. cbv iota. stp. stp.
    eapply wp_make_vector_; try done; [eapply rep_const; [exact R|kc]|apply const_at; [done|kc]].
  - (* make-vector with a filler *) apply prim_plain with (N := 1 + 2 * Z.of_nat k); [|lia|lia|].
    { intros So. split; [by apply store_le_new|by apply store_ok_new]. }
    intros fuel f M s ai ap xs R C S HA Hfu (-> & Hap & Hal). change (wp (make_vector ap) s (gives (<[l := SVec (replicate k v)]> μ) (VLoc l) M)).
    inversion Hal as [|? ? ? ? ? a d _ Ho Hk Hd]; subst. inversion Hd as [|? ? ? ? ? a2 d2 _ Ho2 Hv2 Hd2]; subst. unfold make_vector.
    destruct (car_word _ _ _ _ _ _ _ R Hap Ho) as (kp & E1 & Hkp). destruct (cdr_word _ _ _ _ _ _ _ R Hap Ho) as (dp & E2 & Hdp).
    destruct (car_word _ _ _ _ _ _ _ R Hdp Ho2) as (vp & E3 & Hvp).
    destruct (val_number _ _ _ _ _ _ R Hkp Hk) as (c & Hc & Ht & Hcd). unfold assert_number.
    stp. eapply wp_eq; [exact E1|]. stp. stp. eapply wp_eq; [by apply ty_s|]. rewrite Ht. change (TNUMBER =? TNUMBER) with true. cbv iota. stp.
    stp. eapply wp_eq; [by apply cdr_of_s|]. rewrite Hcd. stp. eapply wp_eq; [exact E2|].
    assert ((dp =? cell_nil) = false) as ->. { apply (neqc _ _ _ R _ _ cell_nil Hdp); [kc|]. intros ->. destruct (cst_const _ _ C cell_nil ltac:(kc)) as (t & n' & d' & Hx & _). rewrite Hx in Ho2. done. }
    stp. eapply wp_eq; [exact E3|]. by eapply wp_make_vector_.
  - (* vector-length *) apply prim_plain with (N := 1); [apply store_same|lia|lia|].
    intros fuel f M s ai ap xs R C S HA Hfu Hxs. args1 Hxs i x Hv Hi. cbn in Hv. subst i. destruct (sa_obj _ _ _ S _ _ H) as (es & Ho & HF).
    change (wp (vector_length x) s (gives μ (VNum (Z.of_nat (length vs))) M)). unfold vector_length. stp. eapply (wp_arr_rd _ _ _ R _ _ _ _ _ Hi Ho). intros c -> -> _.
    change (TVECTOR =? TVECTOR) with true. stp. eapply wp_eq; [reflexivity|]. rewrite (Forall2_length _ _ _ HF). by eapply give_number.
  - (* vector-ref *) apply prim_plain with (N := 1); [apply store_same|lia|lia|].
    intros fuel f M s ai ap xs R C S HA Hfu Hxs. args2 Hxs i x Hv Hi j y Hw Hj. cbn in Hv. subst i. destruct (sa_obj _ _ _ S _ _ H) as (es & Ho & HF).
    destruct (val_number _ _ _ _ _ _ R Hj Hw) as (c & Hc & Ht & Hcd).
    change (wp (vector_ref x y) s (gives μ v M)). unfold vector_ref, vector_ref_. stp. eapply wp_eq; [by apply cdr_of_s|]. rewrite Hcd.
    stp. eapply (wp_arr_rd _ _ _ R _ _ _ _ _ Hi Ho). intros c1 -> -> He. change (TVECTOR =? TVECTOR) with true. stp. eapply wp_eq; [reflexivity|].
    destruct (Forall2_lookup_l _ _ _ _ _ HF H0) as (e & Hek & Hse). pose proof (lookup_lt_Some _ _ _ Hek). rewrite (proj2 (Z.ltb_lt _ _)) by lia. stp. eapply wp_eq; [reflexivity|].
    destruct (He _ _ Hek) as (ce & Hce & Hrel). by eapply wp_get_entry.
  - (* vector-set! *) pose proof (store_le_vec μ l vs (<[k := v]> vs) H) as L. apply prim_plain with (N := 1); [|lia|lia|].
    { intros So. split; [done|by apply store_ok_put]. }
    intros fuel f M s ai ap xs R C S HA Hfu Hxs. args3 Hxs i x Hv Hi j y Hw Hj m z Hu Hk. cbn in Hv. subst i. destruct (sa_obj _ _ _ S _ _ H) as (es & Ho & HF).
    destruct (val_number _ _ _ _ _ _ R Hj Hw) as (c & Hc & Ht & Hcd). pose proof (Forall2_length _ _ _ HF) as El.
    destruct (rh_obj _ _ _ (rp_heap _ _ _ R) _ _ Hi) as (o & Ho' & Hat). rewrite Ho in Ho'. injection Ho' as <-. destruct Hat as (cv & Hcv & Htv & _ & Hlv & _).
    destruct (RepArrays.set_entry_any f M s _ x TVECTOR es cv k m z R Hi Ho Hcv) as (s' & E & _ & R'); [done|lia|done|done|].
    change (wp (vector_set_x x y z) s (gives (<[l := SVec (<[k := v]> vs)]> μ) v_unspecified M)). unfold vector_set_x, vector_set_x_. stp. eapply wp_eq; [by apply cdr_of_s|]. rewrite Hcd.
    stp. eapply wp_eq; [by apply rd_ok'|]. rewrite Htv, Hlv. stp. eapply wp_eq; [reflexivity|]. rewrite (proj2 (Z.ltb_lt _ _)) by lia. stp. eapply wp_eq; [reflexivity|].
    stp. eapply wp_eq; [exact E|]. stp.
    eexists f, _, (Imp cell_unspecified). split; [exact R'|]. split; [eapply rep_const; [exact R'|kc]|].
    split; [apply const_at; [|kc]; eapply consts_ok_ext; [apply ext_loc|done]|]. split; [apply ext_loc|].
    apply store_at_put; [done|]. eexists. rewrite lookup_insert. split; [done|]. eapply Forall2_impl; [apply Forall2_insert; [exact HF|by eapply aentry_val]|].
    intros a e Ha. eapply slot_val_ext; [apply ext_loc|done].
  - (* list->vector *) apply prim_plain with (N := 1 + 3 * Z.of_nat (length vs)); [|lia|lia|].
    { intros So. split; [by apply store_le_new|by apply store_ok_new]. }
    intros fuel f M s ai ap xs R C S HA Hfu Hxs. args1 Hxs i x Hv Hi. by eapply (wp_list_to_vector fuel f M s μ l v vs).
Qed.

(** objects a primitive is not given do not matter to it *)
Lemma known_union μ (ν : store) v : known μ v -> known (μ ∪ ν) v.
Proof. destruct v as [| | | |l]; try done. intros [o Ho]. exists o. by apply lookup_union_Some_l. Qed.
Lemma list_val_union μ (ν : store) v vs : list_val μ v vs -> list_val (μ ∪ ν) v vs.
Proof. induction 1; econstructor; [by apply lookup_union_Some_l|done]. Qed.
Lemma memq_union μ (ν : store) x v r : memq_val μ x v r -> memq_val (μ ∪ ν) x v r.
Proof. induction 1; [constructor|eapply mq_here; by apply lookup_union_Some_l|eapply mq_next; [by apply lookup_union_Some_l|done..]]. Qed.
Lemma assq_union μ (ν : store) x v r : assq_val μ x v r -> assq_val (μ ∪ ν) x v r.
Proof. induction 1; [constructor|eapply aq_here; by apply lookup_union_Some_l|eapply aq_next; [by apply lookup_union_Some_l|by apply lookup_union_Some_l|done..]]. Qed.
Lemma keys_union μ (ν : store) v ks : keys_val μ v ks -> keys_val (μ ∪ ν) v ks.
Proof. induction 1; econstructor; [by apply lookup_union_Some_l|by apply lookup_union_Some_l|done]. Qed.
Lemma pairs_union μ (ν : store) v ls vs : pairs_of μ v ls vs -> pairs_of (μ ∪ ν) v ls vs.
Proof. induction 1; econstructor; [by apply lookup_union_Some_l|done]. Qed.
Lemma link_union ls : forall vs y μ (ν : store), link ls vs y (μ ∪ ν) = link ls vs y μ ∪ ν.
Proof. induction ls as [|l ls IH]; intros [|v vs] y μ ν; cbn; try done. by rewrite IH, insert_union_l. Qed.
Lemma link_dom ls : forall vs y μ, dom_le μ (link ls vs y μ).
Proof. induction ls as [|l ls IH]; intros [|v vs] y μ; cbn; try apply dom_le_refl. eapply dom_le_trans; [apply (IH vs y μ)|apply dom_le_insert]. Qed.
Lemma link_in ls : forall vs y μ l, length ls = length vs -> l ∈ ls -> is_Some (link ls vs y μ !! l).
Proof.
  induction ls as [|l' ls IH]; intros [|v vs] y μ l E Hl; cbn in *; try lia; [by apply elem_of_nil in Hl|].
  destruct (decide (l = l')) as [->|Hne]; [rewrite lookup_insert; by eexists|]. rewrite lookup_insert_ne by done. apply IH; [lia|]. by apply elem_of_cons in Hl as [?|?].
Qed.
Lemma fresh_union ls vs y μ (ν : store) : length ls = length vs -> unused μ ls -> link ls vs y μ ##ₘ ν -> unused (μ ∪ ν) ls.
Proof.
  intros E [Hn HF] D. split; [done|]. rewrite Forall_forall in HF |- *. intros l Hl. apply lookup_union_None. split; [by apply HF|].
  destruct (link_in ls vs y μ l E Hl) as [o Ho]. by eapply map_disjoint_Some_l.
Qed.
Lemma known_all μ (ν : store) vs : Forall (known μ) vs -> Forall (known (μ ∪ ν)) vs.
Proof. intros H. eapply Forall_impl; [exact H|]. intros. by apply known_union. Qed.
Lemma prims_frame p n vs μ μ1 v : prims p n vs μ μ1 v -> dom_le μ μ1 /\ forall ν, μ1 ##ₘ ν -> prims p n vs (μ ∪ ν) (μ1 ∪ ν) v.
Proof.
  intros H. destruct H; (split; [first [apply dom_le_refl|apply dom_le_insert|apply link_dom|by eapply store_list_dom|eapply dom_le_trans; apply dom_le_insert]|]; intros ν D);
    try (apply map_disjoint_insert_l in D as [Hn D]; rewrite <- insert_union_l); try rewrite <- link_union;
    try (econstructor; first [done|by rewrite lookup_union_None|by apply lookup_union_Some_l|by apply list_val_union|by apply store_list_frame|by apply known_union|by apply known_all
      |by apply memq_union|by apply assq_union|by apply keys_union|by apply pairs_union]).
  - constructor. destruct v as [| | | |l]; try done. cbn in *. destruct (μ !! l) as [o|] eqn:E; [|done]. by rewrite (lookup_union_Some_l _ _ _ _ E).
  - constructor; [|done]. destruct H as (K1 & K2 & K3). split; [by apply known_union|]. split; [by apply known_union|done].
  - apply map_disjoint_insert_l in D as [Hn2 D]. rewrite <- insert_union_l. destruct H as [H1 H2]. constructor. split; [done|].
    apply Forall_cons in H2 as [Hl H2]. apply Forall_cons in H2 as [Hl' _]. repeat constructor; by apply lookup_union_None.
  - econstructor; [by apply list_val_union|done|done|by eapply fresh_union].
  - econstructor; [by apply list_val_union|done|done|]. eapply (fresh_union ls (reverse vs)); [by rewrite reverse_length|done|done].
Qed.
End globals.
