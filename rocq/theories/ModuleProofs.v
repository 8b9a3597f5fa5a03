(** Proofs about variables: assigning to the pair that holds a binding of a hash table, and the module. *)
From stdpp Require Import base gmap list.
From Coq Require Import ZArith Lia.
From Coq Require Import ZifyBool ZifyNat.
From Verif Require Import CInt Symbols Heap HeapLemmas DataModel DataSpec DataLemmas CoreProofs ListProofs ArrayProofs StringProofs HashProofs.
Import Strings.String.StringSyntax.
Open Scope Z_scope.
Open Scope mes_scope.

Definition symbol_types : list Z := [TSPECIAL; TSYMBOL].

(** addresses of the pairs that hold the associations, by distributing the buckets' pairs over the history *)
Lemma annotate (H : entry -> Z) (al : list entry) : forall f : Z -> list Z,
  (forall i, length (f i) = length (filter (fun e => H e = i) al)) ->
  exists aal : list (Z * entry), map snd aal = al /\ forall i, map fst (filter (fun ae => H (snd ae) = i) aal) = f i.
Proof.
  induction al as [|e al IH]; intros f Hf.
  - exists []. split; [done|]. intros i. specialize (Hf i). cbn in *. by destruct (f i).
  - pose proof (Hf (H e)) as He. rewrite filter_cons, decide_True in He by done. cbn in He.
    destruct (f (H e)) as [|a r] eqn:Efe; [done|]. 
    destruct (IH (fun i => if decide (i = H e) then r else f i)) as (aal & Hs & Hi).
    { intros i. destruct (decide (i = H e)) as [->|Hne]; [cbn in He; lia|]. rewrite Hf, filter_cons, decide_False by congruence. done. }
    exists ((a, e) :: aal). split; [cbn; by rewrite Hs|]. intros i. rewrite filter_cons. cbn [snd].
    specialize (Hi i). cbn in Hi. destruct (decide (H e = i)) as [<-|Hne].
    + cbn. rewrite decide_True in Hi by done. by rewrite Hi.
    + rewrite decide_False in Hi by congruence. done.
Qed.

Definition assign (r v : Z) (ae : Z * entry) : Z * entry :=
  if fst ae =? r then (fst ae, Entry (e_key (snd ae)) (e_name (snd ae)) v) else ae.
Lemma assign_key r v ae : e_key (snd (assign r v ae)) = e_key (snd ae).
Proof. unfold assign. by destruct (fst ae =? r). Qed.
Lemma assign_name r v ae : e_name (snd (assign r v ae)) = e_name (snd ae).
Proof. unfold assign. by destruct (fst ae =? r). Qed.
Lemma assign_fst r v ae : fst (assign r v ae) = fst ae.
Proof. unfold assign. by destruct (fst ae =? r). Qed.

Definition put_cdr (bb : list Z) (r k v : Z) (h : gmap Z cell) : gmap Z cell := <[r := Cell TPAIR k v bb]> h.

Lemma latest_assign_other r v k (aal : list (Z * entry)) :
  (forall ae, ae ∈ aal -> fst ae = r -> e_key (snd ae) <> k) ->
  latest (same_key k) (map snd (map (assign r v) aal)) = latest (same_key k) (map snd aal).
Proof.
  induction aal as [|ae aal IH]; intros H; [done|]. cbn [map latest]. rewrite IH by (intros; apply H; set_solver).
  unfold same_key. rewrite assign_key. destruct (Z.eqb_spec (e_key (snd ae)) k) as [E|]; [|done].
  unfold assign. destruct (Z.eqb_spec (fst ae) r) as [E'|]; [|done]. exfalso. eapply H; [|exact E'|exact E]. set_solver.
Qed.
Lemma latest_assign_this r v k (aal : list (Z * entry)) :
  (exists i ae, aal !! i = Some ae /\ fst ae = r /\ e_key (snd ae) = k /\ forall j ae', (j < i)%nat -> aal !! j = Some ae' -> e_key (snd ae') <> k) ->
  latest (same_key k) (map snd (map (assign r v) aal)) = Some v.
Proof.
  induction aal as [|ae aal IH]; intros (i & ae0 & Hi & Hr & Hk & Hb); [by destruct i|]. cbn [map latest].
  unfold same_key. rewrite assign_key. destruct i as [|i].
  - injection Hi as ->. rewrite Hk, Z.eqb_refl. unfold assign. rewrite Hr, Z.eqb_refl. done.
  - destruct (Z.eqb_spec (e_key (snd ae)) k) as [E|]; [by destruct (Hb O ae); [lia|done|]|].
    apply IH. exists i, ae0. do 3 (split; [done|]). intros j ae' Hj. apply (Hb (S j)). lia.
Qed.

Lemma assign_bucket_handle k (aal : list (Z * entry)) (P : Z * entry -> Prop) `{!forall x, Decision (P x)} i ae :
  (forall ae, ae ∈ aal -> e_key (snd ae) = k -> P ae) ->
  filter P aal !! i = Some ae -> e_key (snd ae) = k -> (forall j ae', (j < i)%nat -> filter P aal !! j = Some ae' -> e_key (snd ae') <> k) ->
  exists i', aal !! i' = Some ae /\ forall j ae', (j < i')%nat -> aal !! j = Some ae' -> e_key (snd ae') <> k.
Proof.
  revert i. induction aal as [|a aal IH]; intros i HP Hi Hk Hb; [done|]. rewrite filter_cons in *. destruct (decide (P a)) as [Ha|Ha].
  - destruct i as [|i].
    + exists O. injection Hi as ->. split; [done|]. intros j ae' Hj. lia.
    + destruct (IH i) as (i' & Hi' & Hb'); [intros; apply HP; set_solver|done|done|intros j ae' Hj; apply (Hb (S j)); lia|].
      exists (S i'). split; [done|]. intros [|j] ae' Hj Hae.
      * injection Hae as ->. apply (Hb O); [lia|done].
      * apply (Hb' j); [lia|done].
  - destruct (IH i) as (i' & Hi' & Hb'); [intros; apply HP; set_solver|done|done|done|].
    exists (S i'). split; [done|]. intros [|j] ae' Hj Hae.
    + injection Hae as ->. intros E. apply Ha, HP; [set_solver|done].
    + apply (Hb' j); [lia|done].
Qed.

Lemma list_at_fun h p vs vs' : list_at h p vs -> list_at h p vs' -> vs = vs'.
Proof.
  intros H. revert vs'. induction H as [|p a d vs Hp Hpr Hl IH]; intros vs' H'; inversion H'; subst; try done.
  match goal with H : pair_at h p ?a' ?d' |- _ => destruct (pair_at_fun _ _ _ _ _ _ Hpr H) as [-> ->] end. f_equal. by apply IH.
Qed.

Section Assign.
  Context (h : gmap Z cell) (x w size : Z) (al : list entry) (k : Z) (bs bb : list Z) (r v : Z).
  Context (Ht : table_at h symbol_types x w size al) (Hk : key_at h symbol_types k bs).
  Context (Hh : is_handle h w size k bs r).

  Lemma Hr : exists v0, pair_at h r k v0.
  Proof. by destruct Hh as (q & es & j & _ & _ & _ & ? & _). Qed.

  Lemma sym_not_pair k' bs' a d : key_at h symbol_types k' bs' -> pair_at h k' a d -> False.
  Proof.
    intros (t & Ht' & (c & ? & Hc & Hct & _) & _) (c' & Hc' & Hct' & _). rewrite Hc in Hc'. injection Hc' as <-.
    assert (t = TSPECIAL \/ t = TSYMBOL) as [-> | ->] by set_solver; rewrite Hct in Hct'; discriminate.
  Qed.
  Lemma put_pair p a d : pair_at h p a d -> p <> r -> pair_at (put_cdr bb r k v h) p a d.
  Proof. intros (c & Hc & H) Hp. exists c. split; [|done]. unfold put_cdr. by rewrite lookup_insert_ne by done. Qed.
  Lemma put_not_pair p c : h !! p = Some c -> c_ty c <> TPAIR -> put_cdr bb r k v h !! p = Some c.
  Proof.
    intros Hc Hct. unfold put_cdr. rewrite lookup_insert_ne; [done|]. intros <-. destruct Hr as (v0 & c' & Hc' & Hct' & _).
    rewrite Hc in Hc'. by injection Hc' as <-.
  Qed.
  Lemma put_text t p b : t <> TPAIR -> text_at h t p b -> text_at (put_cdr bb r k v h) t p b.
  Proof.
    intros Hn (c & cb & Hc & Hct & Hl & Hcb & Hbt & H). exists c, cb. split; [apply put_not_pair; congruence|].
    do 2 (split; [done|]). split; [|done]. apply put_not_pair; [done|]. rewrite Hbt. discriminate.
  Qed.
  Lemma put_other p : other h p -> other (put_cdr bb r k v h) p.
  Proof.
    intros (c & Hc & Hct). destruct (decide (p = r)) as [->|Hne].
    - exists (Cell TPAIR k v bb). unfold put_cdr. rewrite lookup_insert. split; [done|]. by apply not_ref_list.
    - exists c. unfold put_cdr. by rewrite lookup_insert_ne by done.
  Qed.
  Lemma put_slot q sl : slot_at h q sl -> slot_at (put_cdr bb r k v h) q sl.
  Proof.
    destruct sl; cbn.
    - intros (c & Hc & Hct & ?). exists c. split; [apply put_not_pair; [done|rewrite Hct; discriminate]|done].
    - intros [(c & Hc & Hct & ?) ?]. split; [|done]. exists c. split; [apply put_not_pair; [done|rewrite Hct; discriminate]|done].
    - intros [(c & Hc & Hct & ?) ?]. split; [|by apply put_other]. exists c. split; [apply put_not_pair; [done|rewrite Hct; discriminate]|done].
  Qed.
  Lemma put_array t y u sls : t <> TPAIR -> array_at h t y u sls -> array_at (put_cdr bb r k v h) t y u sls.
  Proof.
    intros Hn [(c & Hc & Hct & H) Hsl]. split.
    - exists c. split; [apply put_not_pair; congruence|done].
    - intros i sl Hi. by apply put_slot, Hsl.
  Qed.

  Lemma handle_assign : exists al', table_at (put_cdr bb r k v h) symbol_types x w size al' /\ length al' = length al /\
    latest (same_key k) al' = Some v /\ forall k', k' <> k -> latest (same_key k') al' = latest (same_key k') al.
  Proof.
    destruct Ht as (u & b & st & sp & sn & qs & H1 & H2 & H3 & H4 & H5 & H6 & H7 & H8).
    pose proof Hk as (tk & Htk & Hkt & Hkh).
    (* the pairs of bucket i *)
    assert (exists f : Z -> list Z, forall i, match qs !! Z.to_nat i with
      | Some q => 0 <= i -> Forall2 (fun a e => pair_at h a (e_key e) (e_value e)) (f i) (filter (fun e => name_hash (e_name e) mod size = i) al) /\
          (filter (fun e => name_hash (e_name e) mod size = i) al = [] /\ (exists c, h !! q = Some c /\ c_ty c <> TPAIR)
           \/ list_at h q (f i))
      | None => True end) as (f & Hf).
    { assert (forall n, exists l, match qs !! n with
        | Some q => Forall2 (fun a e => pair_at h a (e_key e) (e_value e)) l (filter (fun e => name_hash (e_name e) mod size = Z.of_nat n) al) /\
            (filter (fun e => name_hash (e_name e) mod size = Z.of_nat n) al = [] /\ (exists c, h !! q = Some c /\ c_ty c <> TPAIR)
             \/ list_at h q l)
        | None => True end) as Hex.
      { intros n. destruct (qs !! n) as [q|] eqn:Eq; [|by exists []]. specialize (H4 _ _ Eq).
        destruct (bucket size (Z.of_nat n) al) as [|kv kvs] eqn:Eb; cbn [alist_at] in H4.
        - unfold bucket in Eb. apply map_eq_nil in Eb. exists []. rewrite Eb. split; [constructor|]. left. done.
        - destruct H4 as (es & Hl & Hes). exists es. split; [|by right]. rewrite <- Eb in Hes. unfold bucket in Hes. by rewrite Forall2_fmap_r in Hes. }
      clear -Hex.
      assert (exists f : nat -> list Z, forall n, match qs !! n with
        | Some q => Forall2 (fun a e => pair_at h a (e_key e) (e_value e)) (f n) (filter (fun e => name_hash (e_name e) mod size = Z.of_nat n) al) /\
            (filter (fun e => name_hash (e_name e) mod size = Z.of_nat n) al = [] /\ (exists c, h !! q = Some c /\ c_ty c <> TPAIR)
             \/ list_at h q (f n))
        | None => True end) as (f & Hf).
      { assert (forall N, exists f : nat -> list Z, forall n, (n < N)%nat -> match qs !! n with
          | Some q => Forall2 (fun a e => pair_at h a (e_key e) (e_value e)) (f n) (filter (fun e => name_hash (e_name e) mod size = Z.of_nat n) al) /\
              (filter (fun e => name_hash (e_name e) mod size = Z.of_nat n) al = [] /\ (exists c, h !! q = Some c /\ c_ty c <> TPAIR)
               \/ list_at h q (f n))
          | None => True end) as HN.
        { induction N as [|N (f & Hf)]; [exists (fun _ => []); lia|]. destruct (Hex N) as (l & Hl).
          exists (fun n => if decide (n = N) then l else f n). intros n Hn. destruct (decide (n = N)) as [->|]; [done|]. apply Hf. lia. }
        destruct (HN (length qs)) as (f & Hf). exists f. intros n. destruct (decide (n < length qs)%nat) as [Hlt|Hge]; [by apply Hf|].
        by rewrite lookup_ge_None_2 by lia. }
      exists (fun i => f (Z.to_nat i)). intros i. specialize (Hf (Z.to_nat i)). destruct (qs !! Z.to_nat i) as [q|]; [|done].
      intros Hi. by rewrite Z2Nat.id in Hf by lia. }
    assert (forall e, 0 <= name_hash (e_name e) mod size < size) as Hrange by (intros; apply Z.mod_pos_bound; lia).
    destruct (annotate (fun e => name_hash (e_name e) mod size) al
      (fun i => if decide (0 <= i < size) then f i else [])) as (aal & Hsnd & Hfst).
    { intros i. destruct (decide (0 <= i < size)) as [Hi|Hi].
      - specialize (Hf i). destruct (lookup_lt_is_Some_2 qs (Z.to_nat i) ltac:(lia)) as (q & Hq). rewrite Hq in Hf.
        destruct (Hf ltac:(lia)) as [Hf' _]. by eapply Forall2_length.
      - destruct (filter _ al) as [|e l] eqn:E; [done|]. exfalso. apply Hi.
        assert (e ∈ filter (fun e => name_hash (e_name e) mod size = i) al) as Hin by (rewrite E; set_solver).
        apply elem_of_list_filter in Hin as [<- _]. apply Hrange. }
    assert (forall e, e ∈ al -> key_at h symbol_types (e_key e) (e_name e)) as Hkeys by (by apply Forall_forall).
    set (i := name_hash bs mod size) in *. assert (0 <= i < size) as Hi by (apply Z.mod_pos_bound; lia).
    (* an annotated association is a pair *)
    assert (forall a e, (a, e) ∈ aal -> pair_at h a (e_key e) (e_value e)) as Hpair.
    { intros a e Hin. set (ie := name_hash (e_name e) mod size). specialize (Hf ie).
      destruct (lookup_lt_is_Some_2 qs (Z.to_nat ie) ltac:(pose proof (Hrange e); unfold ie; lia)) as (q & Hq). rewrite Hq in Hf.
      destruct (Hf ltac:(apply Hrange)) as [Hf' _]. specialize (Hfst ie). cbn in Hfst. rewrite decide_True in Hfst by apply Hrange.
      rewrite <- Hfst, <- Hsnd in Hf'.
      assert (filter (fun e => name_hash (e_name e) mod size = ie) (map snd aal) = map snd (filter (fun ae => name_hash (e_name (snd ae)) mod size = ie) aal)) as Efm.
      { clear. induction aal as [|[a' e'] aal IH]; [done|]. cbn [map]. rewrite !filter_cons. cbn [snd]. destruct (decide _); cbn [map]; by rewrite IH. }
      rewrite Efm, Forall2_fmap_l, Forall2_fmap_r in Hf'.
      assert ((a, e) ∈ filter (fun ae => name_hash (e_name (snd ae)) mod size = ie) aal) as Hin' by (by apply elem_of_list_filter).
      apply elem_of_list_lookup in Hin' as (j & Hj). exact (Forall2_lookup_lr _ _ _ _ _ _ Hf' Hj Hj). }
    destruct Hr as (v0 & Hr0).
    assert (forall p a d b' d', pair_at h p a d -> pair_at h a b' d' -> p <> r) as Hspine.
    { intros p a d b' d' Hp Ha ->. destruct (pair_at_fun _ _ _ _ _ _ Hp Hr0) as [-> _]. by eapply sym_not_pair. }
    exists (map snd (map (assign r v) aal)). split; [|split; [|split]].
    - exists u, b, st, sp, sn, qs. split; [by apply put_array|]. split; [by apply put_array|]. split; [done|]. split; [|split].
      + intros n q Hq. set (ii := Z.of_nat n). assert (0 <= ii < size) as Hii by (apply lookup_lt_Some in Hq; lia).
        assert (bucket size ii (map snd (map (assign r v) aal)) =
          map (fun ae => (e_key (snd ae), e_value (snd (assign r v ae)))) (filter (fun ae => name_hash (e_name (snd ae)) mod size = ii) aal)) as ->.
        { unfold bucket. clear. induction aal as [|ae aal IH]; [done|]. cbn [map]. rewrite !filter_cons. rewrite assign_name.
          destruct (decide _); cbn [map]; rewrite IH; [by rewrite assign_key|done]. }
        specialize (Hf ii). unfold ii in Hf at 1. rewrite Nat2Z.id, Hq in Hf. destruct (Hf ltac:(lia)) as [Hf' Hl].
        specialize (Hfst ii). cbn in Hfst. rewrite decide_True in Hfst by done. rewrite <- Hfst in Hl.
        set (fa := filter (fun ae => name_hash (e_name (snd ae)) mod size = ii) aal) in *.
        assert (forall ae, ae ∈ fa -> ae ∈ aal) as Hsub by (intros ae Hin; by apply elem_of_list_filter in Hin as [_ Hin]).
        assert (filter (fun e => name_hash (e_name e) mod size = ii) al = map snd fa) as Efm.
        { rewrite <- Hsnd. unfold fa. clear. induction aal as [|[a' e'] aal IH]; [done|]. cbn [map]. rewrite !filter_cons. cbn [snd]. destruct (decide _); cbn [map]; by rewrite IH. }
        rewrite Efm in Hl. clearbody fa. destruct Hl as [[Hnil (c & Hc & Hct)]|Hl].
        { apply map_eq_nil in Hnil as ->. exists c. split; [by apply put_not_pair|done]. }
        destruct fa as [|ae0 fa0] eqn:Efa.
        { cbn. specialize (H4 _ _ Hq). unfold bucket in H4. fold ii in H4. rewrite Efm in H4. cbn in H4.
          destruct H4 as (c & Hc & Hct). exists c. split; [by apply put_not_pair|done]. }
        change (alist_at (put_cdr bb r k v h) q (map (fun ae => (e_key (snd ae), e_value (snd (assign r v ae)))) (ae0 :: fa0)))
          with (exists es, list_at (put_cdr bb r k v h) q es /\ Forall2 (fun e kv => pair_at (put_cdr bb r k v h) e (fst kv) (snd kv)) es
            (map (fun ae => (e_key (snd ae), e_value (snd (assign r v ae)))) (ae0 :: fa0))).
        rewrite <- Efa in *. clear Efa. exists (map fst fa). split.
        * clear -Hl Hspine Hpair Hsub Hh Hk Ht. revert q Hl. induction fa as [|[a e] fa IH]; intros q Hl; inversion Hl; subst; [constructor|].
          econstructor; [done| |apply IH; [|done]; intros; apply Hsub; set_solver].
          apply put_pair; [done|]. eapply Hspine; [done|]. apply (Hpair a e), Hsub. set_solver.
        * rewrite Forall2_fmap_l, Forall2_fmap_r. apply Forall_Forall2_diag. apply Forall_forall. intros [a e] Hin.
          cbn [fst snd]. pose proof (Hpair _ _ (Hsub _ Hin)) as Hp. unfold compose, assign. cbn [fst snd].
          destruct (Z.eqb_spec a r) as [->|Hne]; cbn [fst snd e_value e_key].
          { destruct (pair_at_fun _ _ _ _ _ _ Hp Hr0) as [-> _]. eexists. unfold put_cdr. rewrite lookup_insert. done. }
          by apply put_pair.
      + rewrite map_map. rewrite Forall_fmap. apply Forall_forall. intros ae Hin. cbn. rewrite assign_key, assign_name.
        assert (snd ae ∈ al) as Hin' by (rewrite <- Hsnd; by apply elem_of_list_fmap_1).
        destruct (Hkeys _ Hin') as (t & Ht' & Htx & ?). exists t. split; [done|]. split; [|done].
        apply put_text; [|done]. assert (t = TSPECIAL \/ t = TSYMBOL) as [-> | ->] by set_solver; discriminate.
      + done.
    - by rewrite <- Hsnd, !map_length.
    - apply latest_assign_this. destruct Hh as (q & es & j & Hslot & Hes & Hj & _ & Hfirst). fold i in Hslot.
      destruct (lookup_lt_is_Some_2 qs (Z.to_nat i) ltac:(lia)) as (q' & Hq').
      assert (q' = q) as ->.
      { destruct H2 as [_ H2]. specialize (H2 (Z.to_nat i) (SRef q')). rewrite list_lookup_fmap, Hq' in H2. specialize (H2 eq_refl).
        rewrite Z2Nat.id in H2 by lia. destruct H2 as [(c & Hc & _ & <-) _], Hslot as [(c' & Hc' & _ & <-) _]. rewrite Hc in Hc'. by injection Hc' as <-. }
      specialize (Hf i). rewrite Hq' in Hf. destruct (Hf ltac:(lia)) as [Hf' Hl].
      specialize (Hfst i). cbn in Hfst. rewrite decide_True in Hfst by done.
      set (fa := filter (fun ae => name_hash (e_name (snd ae)) mod size = i) aal) in *.
      assert (f i = es) as Efi.
      { destruct Hl as [[Hnil (c & Hc & Hct)]|Hl]; [|by eapply list_at_fun].
        exfalso. inversion Hes; subst; [by destruct j|]. match goal with H : pair_at h q _ _ |- _ => destruct H as (c' & Hc' & Hct' & _) end. congruence. }
      rewrite Efi in *. assert (fa !! j = Some (r, match fa !! j with Some ae => snd ae | None => Entry 0 [] 0 end)) as Hfa.
      { rewrite <- Hfst in Hj. rewrite list_lookup_fmap in Hj. destruct (fa !! j) as [[a e]|] eqn:E; [|done]. cbn in *. congruence. }
      revert Hfa. generalize (match fa !! j with Some ae => snd ae | None => Entry 0 [] 0 end). intros e Hfa.
      assert (e_key e = k) as Eke.
      { assert ((r, e) ∈ aal) as Hin by (apply elem_of_list_lookup_2 in Hfa; by apply elem_of_list_filter in Hfa as [_ ?]).
        by destruct (pair_at_fun _ _ _ _ _ _ (Hpair _ _ Hin) Hr0). }
      destruct (assign_bucket_handle k aal (fun ae => name_hash (e_name (snd ae)) mod size = i) j (r, e)) with (2 := Hfa) as (i' & Hi' & Hb').
      + intros [a e'] Hin Hk'. cbn [snd] in *.
        assert (e' ∈ al) as Hin' by (rewrite <- Hsnd; by apply (elem_of_list_fmap_1 snd) in Hin).
        destruct (Hkeys _ Hin') as (t' & ? & Htx & _). rewrite Hk' in Htx.
        assert (e_name e' = bs) as ->; [|done]. by eapply text_at_fun.
      + done.
      + intros j' ae' Hlt Hae Hk'. destruct (Hfirst j' (fst ae')) as (k2 & v2 & Hp2 & Hne2); [done| |].
        * rewrite <- Hfst, list_lookup_fmap. assert (fa !! j' = Some ae') as -> by exact Hae. done.
        * apply Hne2. rewrite <- Hk'. refine (proj1 (pair_at_fun _ _ _ _ _ _ Hp2 (Hpair _ (snd ae') _))). destruct ae' as [a' e']. cbn. apply elem_of_list_lookup_2 in Hae. by apply elem_of_list_filter in Hae as [_ ?].
      + exists i', (r, e). done.
    - intros k' Hne. rewrite latest_assign_other; [by rewrite Hsnd|]. intros [a e] Hin Ha Hk'. cbn in *. subst a.
      destruct (pair_at_fun _ _ _ _ _ _ (Hpair _ _ Hin) Hr0). congruence.
  Qed.
End Assign.
