(** Proofs about hash tables. *)
From stdpp Require Import base gmap list.
From Coq Require Import ZArith Lia.
From Coq Require Import ZifyBool ZifyNat.
From Verif Require Import CInt Symbols Heap HeapLemmas DataModel DataSpec DataLemmas CoreProofs ListProofs ArrayProofs StringProofs.
Import Strings.String.StringSyntax.
Open Scope Z_scope.
Open Scope mes_scope.

Lemma array_mono h h' t x v sls : h ⊆ h' -> array_at h t x v sls -> array_at h' t x v sls.
Proof.
  intros Hs [(c & Hc & H) Hsl]. split.
  - exists c. split; [by eapply lookup_weaken|done].
  - intros i sl Hi. eapply slot_at_mono; [done|by apply Hsl].
Qed.
Lemma alist_mono h h' q kvs : h ⊆ h' -> alist_at h q kvs -> alist_at h' q kvs.
Proof.
  intros Hs. destruct kvs as [|kv kvs]; cbn [alist_at].
  - intros (c & Hc & Ht). exists c. split; [by eapply lookup_weaken|done].
  - intros (es & Hl & Hf). exists es. split; [by eapply list_at_mono|]. eapply Forall2_impl; [done|].
    intros. by eapply pair_at_mono.
Qed.
Lemma table_mono h h' ts x w size al : h ⊆ h' -> table_at h ts x w size al -> table_at h' ts x w size al.
Proof.
  intros Hs (v & b & st & sp & sn & qs & H1 & H2 & H3 & H4 & H5 & H6). exists v, b, st, sp, sn, qs.
  split; [by eapply array_mono|]. split; [by eapply array_mono|]. split; [done|]. split.
  { intros i q Hi. eapply alist_mono; [done|by apply H4]. }
  split; [|done]. eapply Forall_impl; [exact H5|]. intros e (t & Ht & He & ?). exists t. split; [done|].
  split; [|done]. by eapply text_at_mono.
Qed.

(** what survives a change of element cells only *)
Definition keeps (h h' : gmap Z cell) : Prop := forall p c, h !! p = Some c -> c_ty c <> TREF -> h' !! p = Some c.
Lemma pair_keeps h h' p a d : keeps h h' -> pair_at h p a d -> pair_at h' p a d.
Proof. intros Hk (c & Hc & Ht & H). exists c. split; [|done]. apply Hk; [done|]. rewrite Ht. discriminate. Qed.
Lemma list_keeps h h' p vs : keeps h h' -> list_at h p vs -> list_at h' p vs.
Proof. intros Hk. induction 1; econstructor; try done. by eapply pair_keeps. Qed.
Lemma text_keeps h h' t p bs : keeps h h' -> t <> TREF -> text_at h t p bs -> text_at h' t p bs.
Proof.
  intros Hk Hn (c & b & Hc & Ht & Hl & Hb & Htb & H). exists c, b. split; [apply Hk; congruence|].
  do 2 (split; [done|]). split; [|done]. apply Hk; [done|]. rewrite Htb. discriminate.
Qed.
Lemma alist_keeps h h' q kvs : keeps h h' -> (exists c, h !! q = Some c /\ c_ty c <> TREF) -> alist_at h q kvs -> alist_at h' q kvs.
Proof.
  intros Hk (cq & Hcq & Htq). destruct kvs as [|kv kvs]; cbn [alist_at].
  - intros (c & Hc & Ht). exists c. rewrite Hcq in Hc. injection Hc as <-. split; [by apply Hk|done].
  - intros (es & Hl & Hf). exists es. split; [by eapply list_keeps|]. eapply Forall2_impl; [done|].
    intros. by eapply pair_keeps.
Qed.
Lemma other_keeps h h' p : keeps h h' -> other h p -> other h' p.
Proof.
  intros Hk (c & Hc & Ht). exists c. split; [|done]. apply Hk; [done|]. apply not_num_char in Ht as (_ & _ & N). lia.
Qed.
Lemma other_ref h p : other h p -> exists c, h !! p = Some c /\ c_ty c <> TREF.
Proof. intros (c & Hc & Ht). exists c. split; [done|]. apply not_num_char in Ht as (_ & _ & N). lia. Qed.
Lemma slot_keeps h h' q sl : keeps h h' -> h' !! q = h !! q -> slot_at h q sl -> slot_at h' q sl.
Proof.
  intros Hk Hq. destruct sl; cbn; unfold number_at, char_at; rewrite Hq; try done.
  intros [H Ho]. split; [done|by eapply other_keeps].
Qed.
Lemma array_keeps h h' t x v sls : keeps h h' -> t <> TREF -> array_at h t x v sls ->
  (forall i, (i < length sls)%nat -> h' !! (v + Z.of_nat i) = h !! (v + Z.of_nat i)) -> array_at h' t x v sls.
Proof.
  intros Hk Hn [(c & Hc & Ht & H) Hsl] Hv. split.
  - exists c. split; [apply Hk; congruence|done].
  - intros i sl Hi. eapply slot_keeps; [done|apply Hv; by eapply lookup_lt_Some|by apply Hsl].
Qed.

Lemma get_ref v i p s : slot_at (heap s) (v + i) (SRef p) -> get_entry v i s = ROk p s.
Proof.
  intros [(c & Hc & Ht & <-) (cp & Hcp & Htp)]. apply not_num_char in Htp as (N1 & N2 & N3).
  unfold get_entry, deref, cell_ref. run. rewrite Ht, Z.eqb_refl. run. rewrite N1. run. by rewrite N2.
Qed.
Lemma get_num v i n s : slot_at (heap s) (v + i) (SNum n) -> can_alloc 1 s ->
  get_entry v i s = ROk (g_free s) (with_cell (Cell TNUMBER 0 n []) s).
Proof.
  intros (c & Hc & Ht & <-) Ha. unfold get_entry, deref, cell_ref. run. rewrite Ht. change (TNUMBER =? TREF) with false. run.
  rewrite Ht. change (TNUMBER =? TCHAR) with false. run. rewrite Ht, Z.eqb_refl. by apply make_cell_s.
Qed.
Lemma array_heap s t x v sls : array_at (cells s) t x v sls -> array_at (heap s) t x v sls.
Proof. apply array_mono, cells_sub. Qed.
Lemma struct_ref_ok x v sls i m s : array_at (heap s) TSTRUCT x v sls -> (Z.of_nat i < Z.of_nat (length sls)) ->
  get_entry v (Z.of_nat i) s = m -> struct_ref_ x (Z.of_nat i) s = m.
Proof.
  intros [(c & Hc & Ht & Hl & Hv) _] Hi <-. unfold struct_ref_. run.
  erewrite bind_ok by (apply assert_msg_true; lia). erewrite bind_ok by (apply assert_msg_true; lia). by rewrite Hv.
Qed.
Lemma vector_ref_ok x v sls i m s : array_at (heap s) TVECTOR x v sls -> (Z.of_nat i < Z.of_nat (length sls)) ->
  get_entry v (Z.of_nat i) s = m -> vector_ref_ x (Z.of_nat i) s = m.
Proof.
  intros [(c & Hc & Ht & Hl & Hv) _] Hi <-. unfold vector_ref_. run.
  erewrite bind_ok by (apply assert_msg_true; lia). erewrite bind_ok by (apply assert_msg_true; lia). by rewrite Hv.
Qed.

(** the hash function *)
Lemma name_hash_bound bs : -10240 <= name_hash bs <= 10240.
Proof.
  assert (forall b, -128 <= to_schar b <= 127) as Hs by (intros; unfold to_schar; lia).
  destruct bs as [|b0 [|b1 r]]; cbn [name_hash]; [lia| |]; pose proof (Hs b0); try pose proof (Hs b1);
    destruct (to_schar b0 =? 0); lia.
Qed.
Lemma hash_cstring_raw bs size s : 0 < size ->
  hash_cstring (bs ++ [0]) size s = ROk (to_s32 (Z.rem (name_hash bs) size)) s.
Proof.
  intros Hs. unfold hash_cstring, byte_at. destruct bs as [|b0 rest]; cbn [app].
  { cbn [name_hash] in *. erewrite bind_ok by reflexivity. change (to_schar 0) with 0. erewrite bind_ok by reflexivity.
    by erewrite bind_ok by (apply assert_msg_true; lia). }
  cbn [Z.to_nat lookup list_lookup name_hash] in *. run. destruct (to_schar b0 =? 0) eqn:E0.
  { run. erewrite bind_ok by (apply assert_msg_true; lia). by replace (to_schar b0 * 37) with 0 by lia. }
  destruct rest as [|b1 rest]; cbn [app Z.to_nat Pos.to_nat Pos.iter_op lookup list_lookup] in *; run.
  { change (to_schar 0 =? 0) with true. cbn iota. erewrite bind_ok by (apply assert_msg_true; lia). by rewrite Z.add_0_r. }
  destruct (to_schar b1 =? 0) eqn:E1; erewrite bind_ok by (apply assert_msg_true; lia); [|done].
  by replace (to_schar b0 * 37 + to_schar b1 * 43) with (to_schar b0 * 37) by lia.
Qed.
Lemma hash_cstring_rem bs size s : 0 < size < 2147483648 ->
  hash_cstring (bs ++ [0]) size s = ROk (Z.rem (name_hash bs) size) s.
Proof.
  intros Hs. rewrite hash_cstring_raw by lia. f_equal.
  assert (Z.abs (Z.rem (name_hash bs) size) < size).
  { pose proof (Z.rem_bound_abs (name_hash bs) size ltac:(lia)). lia. }
  unfold to_s32, two32. lia.
Qed.
Lemma hash_cstring_ok bs size s : 0 < size < 2147483648 -> 0 <= name_hash bs ->
  hash_cstring (bs ++ [0]) size s = ROk (name_hash bs mod size) s.
Proof. intros Hs Hh. rewrite hash_cstring_rem by done. by rewrite Z.rem_mod_nonneg by lia. Qed.
Lemma to_u32_id n : 0 <= n < 4294967296 -> to_u32 n = n.
Proof. intros H. unfold to_u32, two32. lia. Qed.

(** the key: its type and its name *)
Definition key_at (h : gmap Z cell) (ts : list Z) (k : Z) (bs : list Z) : Prop :=
  exists t, t ∈ ts /\ text_at h t k bs /\ 0 <= name_hash bs.
Lemma key_mono h h' ts k bs : h ⊆ h' -> key_at h ts k bs -> key_at h' ts k bs.
Proof. intros Hs (t & Ht & Hk & H). exists t. split; [done|]. split; [by eapply text_at_mono|done]. Qed.

Definition hasher (ts : list Z) (f : Z -> Z -> M Z) : Prop :=
  forall k bs size s, key_at (heap s) ts k bs -> 0 < size < 2147483648 -> f k size s = ROk (name_hash bs mod size) s.
Lemma hash_hasher : hasher [TSTRING] hash_.
Proof.
  intros k bs size s (t & Ht%elem_of_list_singleton & Hk & Hh) Hs. subst t. destruct (text_bytes _ _ _ _ Hk) as (c & Hc & Hct & Hl & Hb).
  unfold hash_. run. rewrite Hct, Z.eqb_refl. run. by apply hash_cstring_ok.
Qed.
Lemma hashq_hasher : hasher [TSPECIAL; TSYMBOL] hashq_.
Proof.
  intros k bs size s (t & Ht & Hk & Hh) Hs. destruct (text_bytes _ _ _ _ Hk) as (c & Hc & Hct & Hl & Hb).
  assert (t = TSPECIAL \/ t = TSYMBOL) by set_solver.
  unfold hashq_. run. destruct ((c_ty c =? TSPECIAL) || (c_ty c =? TSYMBOL)) eqn:E; [|lia]. run. by apply hash_cstring_ok.
Qed.

(** finding the bucket of a key *)
Lemma table_bucket h ts x w size al bs : table_at h ts x w size al -> 0 <= name_hash bs ->
  exists v b st sp sn qs q i, array_at h TSTRUCT x v [st; sp; sn; SNum size; SRef b] /\ array_at h TVECTOR b w (map SRef qs) /\
    Z.of_nat i = name_hash bs mod size /\ qs !! i = Some q /\ alist_at h q (bucket size (name_hash bs mod size) al).
Proof.
  intros (v & b & st & sp & sn & qs & H1 & H2 & H3 & H4 & H5 & H6 & H7 & H8) Hh.
  pose proof (Z.mod_pos_bound (name_hash bs) size) as Hm.
  destruct (lookup_lt_is_Some_2 qs (Z.to_nat (name_hash bs mod size))) as (q & Hq); [lia|].
  exists v, b, st, sp, sn, qs, q, (Z.to_nat (name_hash bs mod size)). do 2 (split; [done|]). split; [lia|]. split; [done|].
  specialize (H4 _ _ Hq). by rewrite Z2Nat.id in H4 by lia.
Qed.

(** the part common to the two look-up functions *)
Definition fetch (f : Z -> Z -> M Z) (table key : Z) : M Z :=
  s <- struct_ref_ table 3 ;;
  size <- cdr_of s ;;
  hash <- f key size ;;
  buckets <- struct_ref_ table 4 ;;
  vector_ref_ buckets (to_u32 hash).
Lemma fetch_ok ts f x w size al k bs s : hasher ts f -> table_at (cells s) ts x w size al -> key_at (cells s) ts k bs -> can_alloc 1 s ->
  exists q, fetch f x k s = ROk q (with_cell (Cell TNUMBER 0 size []) s) /\
    alist_at (cells s) q (bucket size (name_hash bs mod size) al) /\ slot_at (cells s) (w + name_hash bs mod size) (SRef q).
Proof.
  intros Hf Ht Hk Ha. pose proof Hk as (t & _ & _ & Hh).
  destruct (table_bucket _ _ _ _ _ _ _ Ht Hh) as (v & b & st & sp & sn & qs & q & i & H1 & H2 & Hi & Hq & Hal).
  assert (0 < size < 2147483648) as Hsz by (destruct Ht as (? & ? & ? & ? & ? & ? & Ht); apply Ht).
  set (s1 := with_cell (Cell TNUMBER 0 size []) s).
  assert (cells s ⊆ cells s1) as Hsub by (eapply modifies_cells, modifies_with_cell).
  pose proof (array_heap _ _ _ _ _ (array_mono _ _ _ _ _ _ Hsub H1)) as H1'.
  pose proof (array_heap _ _ _ _ _ (array_mono _ _ _ _ _ _ Hsub H2)) as H2'.
  apply array_heap in H1.
  exists q. split.
  - unfold fetch. erewrite bind_ok.
    2:{ apply (struct_ref_ok x v [st; sp; sn; SNum size; SRef b] 3); [done|cbn; lia|]. apply get_num; [|done].
        by apply (proj2 H1 3%nat). }
    erewrite bind_ok. 2:{ apply cdr_of_s. cbn. apply lookup_insert. } cbn [c_cdr].
    fold s1. erewrite bind_ok. 2:{ apply Hf; [|done]. eapply key_mono; [apply cells_sub|]. by eapply key_mono. }
    erewrite bind_ok. 2:{ apply (struct_ref_ok x v [st; sp; sn; SNum size; SRef b] 4); [done|cbn; lia|]. apply get_ref.
        by apply (proj2 H1' 4%nat). }
    rewrite <- Hi. pose proof (Z.mod_pos_bound (name_hash bs) size). rewrite to_u32_id by lia.
    pose proof (lookup_lt_Some _ _ _ Hq).
    eapply vector_ref_ok; [done|rewrite map_length; lia|]. apply get_ref. apply (proj2 H2' i). by rewrite list_lookup_fmap, Hq.
  - split; [done|]. destruct H2 as [_ H2]. specialize (H2 i (SRef q)). rewrite list_lookup_fmap, Hq, Hi in H2. by apply H2.
Qed.

(** [r] is the pair (k . value) that the table's bucket for [k] has first *)
Definition is_handle (h : gmap Z cell) (w size k : Z) (bs : list Z) (r : Z) : Prop :=
  exists q es j, slot_at h (w + name_hash bs mod size) (SRef q) /\ list_at h q es /\ es !! j = Some r /\
    (exists v0, pair_at h r k v0) /\
    forall j' e, (j' < j)%nat -> es !! j' = Some e -> exists k' v', pair_at h e k' v' /\ k' <> k.

(** the latest value stored under a key that satisfies [m] *)
Fixpoint latest (m : entry -> bool) (al : list entry) : option Z :=
  match al with
  | [] => None
  | e :: al' => if m e then Some (e_value e) else latest m al'
  end.

Lemma latest_filter m (P : entry -> Prop) `{forall e, Decision (P e)} al : (forall e, e ∈ al -> m e = true -> P e) -> latest m (filter P al) = latest m al.
Proof.
  induction al as [|e al IH]; intros HP; [done|]. rewrite filter_cons. cbn [latest].
  specialize (IH ltac:(intros; apply HP; set_solver)). destruct (m e) eqn:E.
  - rewrite decide_True by (apply HP; set_solver). cbn [latest]. by rewrite E.
  - destruct (decide (P e)); [cbn [latest]; by rewrite E|done].
Qed.
Lemma finds_latest h m (P : Z -> Prop) es : forall bl r,
  Forall2 (fun e E => pair_at h e (e_key E) (e_value E) /\ (P e <-> m E = true)) es bl ->
  finds P es r -> match latest m bl with Some v => exists k, pair_at h r k v | None => r = cell_f end.
Proof.
  induction es as [|e es IH]; intros bl r Hf H; inversion Hf as [|? E ? bl' [He HP] Hf']; subst; cbn [latest].
  - destruct H as [(i & Hi & _)|[H _]]; [|done]. by destruct i.
  - destruct (m E) eqn:Em.
    + assert (P e) as HPe by by apply HP. destruct H as [([|i] & Hi & Hm & Hall)|[_ H]].
      * injection Hi as <-. by exists (e_key E).
      * exfalso. eapply (Hall O e); [lia|done|done].
      * exfalso. apply (H e); [|done]. by apply elem_of_list_here.
    + assert (~ P e) as HPe by (intros F; apply HP in F; congruence). apply (IH bl'); [done|].
      destruct H as [([|i] & Hi & Hm & Hall)|[Hr H]].
      * exfalso. injection Hi as <-. done.
      * left. exists i. split; [done|]. split; [done|]. intros j y Hj Hy. apply (Hall (S j) y); [lia|done].
      * right. split; [done|]. intros y Hy. apply H. by apply elem_of_list_further.
Qed.

Definition same_name (bs : list Z) (e : entry) : bool := bool_decide (e_name e = bs).
Definition same_key (k : Z) (e : entry) : bool := e_key e =? k.

Lemma table_keys h ts x w size al : table_at h ts x w size al -> Forall (fun e => key_at h ts (e_key e) (e_name e)) al.
Proof. intros (v & b & st & sp & sn & qs & _ & _ & _ & _ & H5 & _). exact H5. Qed.

Lemma bucket_length size i al : (length (bucket size i al) <= length al)%nat.
Proof. unfold bucket. rewrite map_length. apply filter_length. Qed.

Lemma hash_ref_ok fuel x w size al k bs d cd s : table_at (cells s) [TSTRING] x w size al -> key_at (cells s) [TSTRING] k bs ->
  heap s !! d = Some cd -> d < g_free s -> type_at (heap s) cell_f TSPECIAL -> cell_f < g_free s ->
  (length al < fuel)%nat -> can_alloc 1 s ->
  exists r, hash_ref fuel x k d s = ROk r (with_cell (Cell TNUMBER 0 size []) s) /\
    match latest (same_name bs) al with
    | Some v => r = v
    | None => r = (if bool_decide (bucket size (name_hash bs mod size) al = []) && (c_ty cd =? TPAIR) then c_car cd else cell_f)
    end.
Proof.
  intros Ht Hk Hd Hdf Hff Hfl Hfuel Ha.
  destruct (fetch_ok _ _ _ _ _ _ _ _ _ hash_hasher Ht Hk Ha) as (q & E & Hq & Ho).
  set (s1 := with_cell (Cell TNUMBER 0 size []) s) in *.
  assert (cells s ⊆ cells s1) as Hsub by (eapply modifies_cells, modifies_with_cell).
  assert (forall p, p < g_free s -> heap s1 !! p = heap s !! p) as Hold by (intros; cbn; apply lookup_insert_ne; lia).
  assert (hash_ref fuel x k d s = (bucket <- fetch hash_ x k ;;
     d <- rd d ;;
     let x := if c_ty d =? TPAIR then c_car d else cell_f in
     t <- ty bucket ;;
     if t =? TPAIR then
       x <- assoc fuel k bucket ;;
       if x =? cell_f then ret x else cdr_of x
     else ret x) s) as ->.
  { unfold hash_ref, fetch. rewrite !bind_assoc. unfold bind. repeat (case_match; try done). }
  rewrite (bind_ok _ _ _ _ _ E). erewrite bind_ok by (apply rd_ok'; rewrite Hold; done). cbv zeta.
  pose proof (table_keys _ _ _ _ _ _ Ht) as Hkeys.
  assert (latest (same_name bs) (filter (fun e => name_hash (e_name e) mod size = name_hash bs mod size) al) = latest (same_name bs) al) as Hlat.
  { apply latest_filter. intros e _ He%bool_decide_eq_true. by rewrite He. }
  destruct (bucket size (name_hash bs mod size) al) as [|kv kvs] eqn:Hb; cbn [alist_at] in Hq.
  - destruct Hq as (cq & Hcq & Htq). apply cells_heap in Hcq as [Hcq Hql].
    erewrite bind_ok by (apply ty_s; rewrite Hold; done). rewrite (proj2 (Z.eqb_neq _ _) Htq). eexists. split; [reflexivity|].
    unfold bucket in Hb. apply map_eq_nil in Hb. rewrite Hb in Hlat. cbn in Hlat. rewrite <- Hlat. done.
  - destruct Hq as (es & Hl & Hf).
    assert (Forall2 (fun e E => pair_at (cells s) e (e_key E) (e_value E)) es
      (filter (fun e => name_hash (e_name e) mod size = name_hash bs mod size) al)) as Hf'.
    { rewrite <- Hb in Hf. unfold bucket in Hf. by rewrite Forall2_fmap_r in Hf. }
    assert (exists c, heap s1 !! q = Some c /\ c_ty c = TPAIR) as (cq & Hcq & Htq).
    { inversion Hl; subst; [by inversion Hf|]. destruct H0 as (c & Hc & Hct & _). exists c. split; [|done].
      eapply lookup_weaken; [|apply cells_sub]. by eapply lookup_weaken. }
    erewrite bind_ok by (apply ty_s; done). rewrite Htq, Z.eqb_refl.
    pose proof Hk as (t & Htt%elem_of_list_singleton & Hkt & Hkh). subst t.
    destruct (assoc_ok fuel k (DStr bs) q es s1) as (r & Er & Hr).
    { constructor. eapply text_at_mono; [apply cells_sub|]. by eapply text_at_mono. }
    { apply list_at_heap. by eapply list_at_mono. }
    { apply Forall2_length in Hf. pose proof (bucket_length size (name_hash bs mod size) al). rewrite Hb in *. lia. }
    { cbn. lia. }
    { intros e He. apply elem_of_list_lookup in He as (j & Hj). destruct (Forall2_lookup_l _ _ _ _ _ Hf' Hj) as (en & Hen & Hp).
      exists (e_key en), (e_value en), (DStr (e_name en)). split.
      { eapply pair_at_mono; [apply cells_sub|]. by eapply pair_at_mono. }
      apply elem_of_list_lookup_2, elem_of_list_filter in Hen as [_ Hen]. rewrite Forall_forall in Hkeys.
      destruct (Hkeys _ Hen) as (t & Htt%elem_of_list_singleton & Hkk & _). subst t. constructor.
      eapply text_at_mono; [apply cells_sub|]. by eapply text_at_mono. }
    erewrite bind_ok by exact Er.
    eapply (finds_latest (heap s1) (same_name bs)) in Hr. 2:{
      eapply Forall2_same_length_lookup_2; [by eapply Forall2_length|]. intros j e en He Hen. pose proof (Forall2_lookup_lr _ _ _ _ _ _ Hf' He Hen) as Hp.
      assert (pair_at (heap s1) e (e_key en) (e_value en)) as Hp' by (eapply pair_at_mono; [apply cells_sub|by eapply pair_at_mono]).
      split; [done|].
      apply elem_of_list_lookup_2, elem_of_list_filter in Hen as [_ Hen]. rewrite Forall_forall in Hkeys.
      destruct (Hkeys _ Hen) as (t & Htt%elem_of_list_singleton & Hkk & _). subst t.
      assert (text_at (heap s1) TSTRING (e_key en) (e_name en)) as Hkk' by (eapply text_at_mono; [apply cells_sub|by eapply text_at_mono]).
      unfold same_name. rewrite bool_decide_eq_true. split.
      - intros (k' & v' & Hp'' & Hrr). destruct (pair_at_fun _ _ _ _ _ _ Hp' Hp'') as [<- _].
        inversion Hrr; subst; try done. by eapply text_at_fun.
      - intros <-. exists (e_key en), (e_value en). split; [done|]. by constructor. }
    rewrite Hlat in Hr. destruct (latest (same_name bs) al) as [v|].
    + destruct Hr as (k' & Hp). exists v. split; [|done].
      assert (r <> cell_f) as Hne.
      { intros ->. destruct Hp as (c & Hc & Hct & _). destruct Hff as (c' & Hc' & Hct'). rewrite Hold, Hc' in Hc by done.
        injection Hc as <-. rewrite Hct' in Hct. discriminate. }
      rewrite (proj2 (Z.eqb_neq _ _) Hne). by eapply cdr_of_pair.
    + subst r. eexists. split; [reflexivity|]. done.
Qed.

Lemma hashq_handle_ok fuel x w size al k bs d cd s : table_at (cells s) [TSPECIAL; TSYMBOL] x w size al -> key_at (cells s) [TSPECIAL; TSYMBOL] k bs ->
  heap s !! d = Some cd -> d < g_free s -> type_at (cells s) cell_f TSPECIAL -> type_at (cells s) cell_nil TSPECIAL ->
  (length al < fuel)%nat -> can_alloc 1 s ->
  exists r, hashq_get_handle fuel x k d s = ROk r (with_cell (Cell TNUMBER 0 size []) s) /\
    match latest (same_key k) al with
    | Some v => pair_at (cells s) r k v /\ r <> cell_f /\ is_handle (cells s) w size k bs r
    | None => r = (if bool_decide (bucket size (name_hash bs mod size) al = []) && (c_ty cd =? TPAIR) then c_car cd else cell_f)
    end.
Proof.
  intros Ht Hk Hd Hdf Hff Hnil Hfuel Ha.
  destruct (fetch_ok _ _ _ _ _ _ _ _ _ hashq_hasher Ht Hk Ha) as (q & E & Hq & Ho).
  set (s1 := with_cell (Cell TNUMBER 0 size []) s) in *.
  assert (cells s ⊆ cells s1) as Hsub by (eapply modifies_cells, modifies_with_cell).
  assert (cells s ⊆ heap s1) as Hsubh by (etrans; [exact Hsub|apply cells_sub]).
  assert (forall p, p < g_free s -> heap s1 !! p = heap s !! p) as Hold by (intros; cbn; apply lookup_insert_ne; lia).
  assert (hashq_get_handle fuel x k d s = (bucket <- fetch hashq_ x k ;;
     d <- rd d ;;
     let x := if c_ty d =? TPAIR then c_car d else cell_f in
     t <- ty bucket ;;
     if t =? TPAIR then assq fuel k bucket else ret x) s) as ->.
  { unfold hashq_get_handle, fetch. rewrite !bind_assoc. unfold bind. repeat (case_match; try done). }
  rewrite (bind_ok _ _ _ _ _ E). erewrite bind_ok by (apply rd_ok'; rewrite Hold; done). cbv zeta.
  pose proof (table_keys _ _ _ _ _ _ Ht) as Hkeys. rewrite Forall_forall in Hkeys.
  pose proof Hk as (t & Htt & Hkt & Hkh).
  assert (t = TSPECIAL \/ t = TSYMBOL) as Htt' by set_solver.
  assert (latest (same_key k) (filter (fun e => name_hash (e_name e) mod size = name_hash bs mod size) al) = latest (same_key k) al) as Hlat.
  { apply latest_filter. intros e Hin He.
    destruct (Hkeys _ Hin) as (t' & _ & Hkk & _). unfold same_key in He. apply Z.eqb_eq in He. rewrite He in Hkk.
    by rewrite (text_at_fun _ _ _ _ _ _ Hkt Hkk). }
  destruct (bucket size (name_hash bs mod size) al) as [|kv kvs] eqn:Hb; cbn [alist_at] in Hq.
  - destruct Hq as (cq & Hcq & Htq). apply cells_heap in Hcq as [Hcq Hql].
    erewrite bind_ok by (apply ty_s; rewrite Hold; done). rewrite (proj2 (Z.eqb_neq _ _) Htq). eexists. split; [reflexivity|].
    unfold bucket in Hb. apply map_eq_nil in Hb. rewrite Hb in Hlat. cbn in Hlat. rewrite <- Hlat. done.
  - destruct Hq as (es & Hl & Hf).
    assert (Forall2 (fun e E => pair_at (cells s) e (e_key E) (e_value E)) es
      (filter (fun e => name_hash (e_name e) mod size = name_hash bs mod size) al)) as Hf'.
    { rewrite <- Hb in Hf. unfold bucket in Hf. by rewrite Forall2_fmap_r in Hf. }
    assert (exists c, heap s1 !! q = Some c /\ c_ty c = TPAIR) as (cq & Hcq & Htq).
    { inversion Hl; subst; [by inversion Hf|]. destruct H0 as (c & Hc & Hct & _). exists c. split; [|done].
      by eapply lookup_weaken. }
    erewrite bind_ok by (apply ty_s; done). rewrite Htq, Z.eqb_refl.
    pose proof Hkt as (ck & ckb & Hck & Hckt & _).
    destruct (assq_ok fuel k q es s1) as (r & Er & Hr).
    { by eapply list_at_mono. }
    { apply Forall2_length in Hf. pose proof (bucket_length size (name_hash bs mod size) al). rewrite Hb in *. lia. }
    { destruct Hnil as (c & Hc & ?). exists c. split; [by eapply lookup_weaken|done]. }
    { exists ck. by eapply lookup_weaken. }
    { intros e He. apply elem_of_list_lookup in He as (j & Hj). destruct (Forall2_lookup_l _ _ _ _ _ Hf' Hj) as (en & Hen & Hp).
      exists (e_key en), (e_value en). split.
      { by eapply pair_at_mono. }
      apply elem_of_list_lookup_2, elem_of_list_filter in Hen as [_ Hen].
      destruct (Hkeys _ Hen) as (t' & _ & (ck' & ? & Hck' & _) & _). exists ck, ck'.
      do 2 (split; [by eapply lookup_weaken|]). split.
      - intros [F|F]; rewrite F in Hckt; destruct Htt' as [-> | ->]; discriminate.
      - intros F; rewrite F in Hckt; destruct Htt' as [-> | ->]; discriminate. }
    exists r. split; [exact Er|]. pose proof Hr as Hfound.
    eapply (finds_latest (cells s) (same_key k)) in Hr. 2:{
      eapply Forall2_same_length_lookup_2; [by eapply Forall2_length|]. intros j e en He Hen.
      pose proof (Forall2_lookup_lr _ _ _ _ _ _ Hf' He Hen) as Hp.
      assert (pair_at (heap s1) e (e_key en) (e_value en)) as Hp' by (by eapply pair_at_mono).
      split; [done|]. unfold same_key. rewrite Z.eqb_eq. split.
      - intros (k' & v' & Hp'' & Hrr). destruct (pair_at_fun _ _ _ _ _ _ Hp' Hp'') as [<- _].
        destruct Hrr as [->|Hrr]; [done|]. exfalso. 
        assert (heap s1 !! k = Some ck) as Hck1 by by eapply lookup_weaken.
        destruct Hrr as [(n & (c & Hc & Hct & _) & _)|[(n & (c & Hc & Hct & _) & _)|(b & (c & ? & Hc & Hct & _) & _)]];
          rewrite Hck1 in Hc; injection Hc as <-; rewrite Hct in Hckt; destruct Htt' as [-> | ->]; discriminate.
      - intros <-. exists (e_key en), (e_value en). split; [done|]. by left. }
    rewrite Hlat in Hr. destruct (latest (same_key k) al) as [v|].
    + destruct Hr as (k' & Hp). assert (r <> cell_f) as Hrf.
      { intros ->. destruct Hp as (c & Hc & Hct & _). destruct Hff as (c' & Hc' & Hct'). rewrite Hc' in Hc.
        injection Hc as <-. rewrite Hct' in Hct. discriminate. }
      destruct Hfound as [(j & Hj & (k2 & v2 & Hp2 & Hrr) & Hfirst)|[Hfound _]]; [|done].
      assert (k2 = k' /\ v2 = v) as [-> ->] by (eapply pair_at_fun; [exact Hp2|by eapply pair_at_mono]).
      assert (k' = k) as ->.
      { destruct Hrr as [->|Hrr]; [done|]. exfalso. assert (heap s1 !! k = Some ck) as Hck1 by by eapply lookup_weaken.
        destruct Hrr as [(n & (c & Hc & Hct & _) & _)|[(n & (c & Hc & Hct & _) & _)|(b & (c & ? & Hc & Hct & _) & _)]];
          rewrite Hck1 in Hc; injection Hc as <-; rewrite Hct in Hckt; destruct Htt' as [-> | ->]; discriminate. }
      split; [done|]. split; [done|]. exists q, es, j. split; [done|]. split; [done|]. split; [done|]. split; [by exists v|].
      intros j' e Hlt He. destruct (Forall2_lookup_l _ _ _ _ _ Hf' He) as (en & _ & Hpe). exists (e_key en), (e_value en). split; [done|].
      intros Ek. apply (Hfirst _ _ Hlt He). exists (e_key en), (e_value en). split; [by eapply pair_at_mono|]. by left.
    + done.
Qed.

Lemma modifies_keeps P k s s' : modifies P k s s' -> (forall p c, P p -> cells s !! p = Some c -> c_ty c = TREF) -> keeps (cells s) (cells s').
Proof.
  intros Hm HP p c Hc Ht. eapply modifies_old; [done|done|]. intros F. by apply Ht, (HP _ _ F Hc).
Qed.
Lemma bucket_cons size i e al : bucket size i (e :: al) =
  if decide (name_hash (e_name e) mod size = i) then (e_key e, e_value e) :: bucket size i al else bucket size i al.
Proof. unfold bucket. rewrite filter_cons. by destruct (decide _). Qed.
Lemma not_ref_list t : t = TPAIR -> t ∉ [TNUMBER; TCHAR; TREF].
Proof. intros -> H. repeat (apply elem_of_cons in H as [H|H]; [discriminate H|]). by apply elem_of_nil in H. Qed.

Lemma hash_set_ok_ ts x w size al k bs v s : table_at (cells s) ts x w size al -> key_at (cells s) ts k bs -> Forall (fun t => t <> TREF) ts ->
  type_at (cells s) cell_nil TSPECIAL -> can_alloc 3 s ->
  exists s' n, hash_set_x_ x (name_hash bs mod size) k v s = ROk v s' /\ n <= 3 /\
    modifies (eq (w + name_hash bs mod size)) n s s' /\ table_at (cells s') ts x w size (Entry k bs v :: al).
Proof.
  intros Ht Hk Hts Hnil Ha. pose proof Hk as (tk & Htk & Hkt & Hh).
  destruct Ht as (vv & b & st & sp & sn & qs & H1 & H2 & H3 & H4 & H5 & H6 & H7 & H8).
  pose proof (Z.mod_pos_bound (name_hash bs) size ltac:(lia)) as Hmb.
  set (i := Z.to_nat (name_hash bs mod size)). assert (name_hash bs mod size = Z.of_nat i) as Hi by lia. rewrite Hi in *.
  destruct (lookup_lt_is_Some_2 qs i ltac:(lia)) as (q & Hq).
  pose proof (H4 _ _ Hq) as Hal.
  assert (slot_at (cells s) (w + Z.of_nat i) (SRef q)) as Hslot by (apply (proj2 H2); by rewrite list_lookup_fmap, Hq).
  pose proof Hslot as [(cw & Hcw & Htw & _) (cq & Hcq & Htq)]. pose proof (cells_heap _ _ _ Hcq) as [Hcqh Hqlt].
  pose proof (cells_heap _ _ _ Hcw) as [Hcwh Hwlt].
  set (q' := if c_ty cq =? TPAIR then q else cell_nil).
  assert (exists es, list_at (cells s) q' es /\ Forall2 (fun e kv => pair_at (cells s) e (fst kv) (snd kv)) es (bucket size (Z.of_nat i) al)) as (es & Hl & Hf).
  { unfold q'. destruct (bucket size (Z.of_nat i) al) as [|kv kvs] eqn:Eb; cbn [alist_at] in Hal.
    - destruct Hal as (c & Hc & Hct). rewrite Hcq in Hc. injection Hc as <-. rewrite (proj2 (Z.eqb_neq _ _) Hct).
      exists []. split; constructor.
    - destruct Hal as (es & Hl & Hf). exists es. split; [|done]. inversion Hl; subst; [by inversion Hf|].
      destruct H0 as (c & Hc & Hct & _). rewrite Hcq in Hc. injection Hc as <-. by rewrite Hct, Z.eqb_refl. }
  set (s2 := with_cell (Cell TPAIR k v []) s). set (s3 := with_cell (Cell TPAIR (g_free s) q' []) s2).
  assert (modifies nothing 2 s s3) as Hm3 by (eapply (modifies_trans _ _ 1 1); [apply modifies_with_cell|apply modifies_with_cell|done]).
  assert (cells s ⊆ cells s3) as Hsub by by eapply modifies_cells.
  assert (pair_at (cells s3) (g_free s2) (g_free s) q') as Hp3 by apply pair_with_cell.
  assert (pair_at (cells s3) (g_free s) k v) as Hp2.
  { eapply pair_at_mono; [eapply modifies_cells, modifies_with_cell|apply pair_with_cell]. }
  destruct (set_entry_ok w (Z.of_nat i) (g_free s2) (SRef (g_free s2)) s3) as (s4 & n & E4 & Hn & Hm4 & Hs4).
  { split; [done|]. destruct Hp3 as (c & Hc & Hct & _). exists c. split; [done|]. by apply not_ref_list. }
  { eapply modifies_can_alloc; [exact Hm3|eapply can_alloc_le; [done|lia]|lia]. }
  { cbn. lia. } { cbn. lia. }
  assert (cells s3 !! (w + Z.of_nat i) = Some cw) as Hcw3 by (eapply lookup_weaken; [exact Hcw|done]).
  assert (keeps (cells s3) (cells s4)) as Hkeep.
  { eapply modifies_keeps; [exact Hm4|]. intros p c <- Hc. rewrite Hcw3 in Hc. by injection Hc as <-. }
  exists s4, (2 + n). split.
  { unfold hash_set_x_, acons.
    erewrite bind_ok. 2:{ apply (struct_ref_ok x vv [st; sp; sn; SNum size; SRef b] 4); [by apply array_heap|cbn; lia|]. apply get_ref.
      apply array_heap in H1. by apply (proj2 H1 4%nat). }
    erewrite bind_ok. 2:{ eapply vector_ref_ok; [by apply array_heap|rewrite map_length; lia|]. apply get_ref.
      eapply slot_at_mono; [apply cells_sub|done]. }
    erewrite bind_ok by (by apply ty_s). cbv zeta. fold q'.
    rewrite bind_assoc. erewrite bind_ok by (apply cons_s; eapply can_alloc_le; [done|lia]).
    erewrite bind_ok. 2:{ apply cons_s. eapply can_alloc_with; [eapply can_alloc_le; [done|lia]|lia]. }
    fold s2. fold s3.
    erewrite bind_ok; [done|]. unfold vector_set_x_.
    destruct (array_mono _ _ _ _ _ _ Hsub H2) as [(cb & Hcb & Hcbt & Hcbl & Hcbv) _]. apply cells_heap in Hcb as [Hcb _].
    rewrite map_length in Hcbl.
    erewrite bind_ok by (by apply rd_ok'). erewrite bind_ok by (apply assert_msg_true; lia).
    erewrite bind_ok by (apply assert_msg_true; lia). rewrite Hcbv. by erewrite bind_ok by exact E4. }
  split; [lia|]. split.
  { eapply modifies_trans; [eapply modifies_weaken; [|exact Hm3]; intros p _ []|exact Hm4|done]. }
  exists vv, b, st, sp, sn, (<[i := g_free s2]> qs).
  assert (forall p, p <> w + Z.of_nat i -> p < g_free s3 -> cells s4 !! p = cells s3 !! p) as Hsame.
  { intros p Hp Hpl. eapply modifies_cells_eq; [exact Hm4|done|congruence]. }
  split. { eapply array_keeps; [done|done|by eapply array_mono|]. intros j Hj. cbn in Hj. apply Hsame; [lia|].
    assert (exists c, cells s !! (vv + Z.of_nat j) = Some c) as (c & Hc).
    { destruct H1 as [_ H1]. destruct (lookup_lt_is_Some_2 [st; sp; sn; SNum size; SRef b] j) as (sl & Hsl); [done|].
      specialize (H1 _ _ Hsl). destruct sl; [destruct H1 as (c & Hc & _)|destruct H1 as ((c & Hc & _) & _)|destruct H1 as ((c & Hc & _) & _)]; by exists c. }
    apply (lookup_weaken _ (cells s3)) in Hc; [|done]. by apply cells_heap in Hc as [_ ?]. }
  split.
  { destruct (array_mono _ _ _ _ _ _ Hsub H2) as [(cb & Hcb & Hcbt & Hcbl & Hcbv) Hsl]. split.
    - exists cb. split; [apply Hkeep; [done|rewrite Hcbt; discriminate]|]. split; [done|]. split; [|done].
      rewrite map_length in Hcbl. by rewrite map_length, insert_length.
    - intros j sl Hj. destruct (decide (i = j)) as [<-|Hne].
      + rewrite list_lookup_fmap, list_lookup_insert in Hj by (by eapply lookup_lt_Some). by injection Hj as <-.
      + rewrite list_lookup_fmap, list_lookup_insert_ne in Hj by done. rewrite <- list_lookup_fmap in Hj.
        specialize (Hsl _ _ Hj). eapply slot_keeps; [done| |done]. apply Hsame; [lia|].
        rewrite list_lookup_fmap in Hj. destruct (qs !! j) as [qj|]; [|done]. injection Hj as <-.
        destruct Hsl as [(c & Hc & _) _]. by apply cells_heap in Hc as [_ ?]. }
  split. { by rewrite insert_length. }
  split.
  { intros j qj Hj. rewrite bucket_cons. cbn [e_name e_key e_value]. rewrite Hi.
    destruct (decide (i = j)) as [<-|Hne].
    - rewrite list_lookup_insert in Hj by (by eapply lookup_lt_Some). injection Hj as <-.
      rewrite decide_True by done. cbn [alist_at]. exists (g_free s :: es). split.
      + econstructor; [|by eapply pair_keeps|].
        * destruct Hnil as (c & Hc & _). apply cells_heap in Hc as [_ ?]. cbn. lia.
        * eapply list_keeps; [done|]. by eapply list_at_mono.
      + constructor; [by eapply pair_keeps|]. eapply Forall2_impl; [exact Hf|]. intros. eapply pair_keeps; [done|]. by eapply pair_at_mono.
    - rewrite list_lookup_insert_ne in Hj by done. rewrite decide_False by lia.
      eapply alist_keeps; [done| |eapply alist_mono; [done|by apply H4]].
      destruct H2 as [_ H2]. specialize (H2 j (SRef qj)). rewrite list_lookup_fmap, Hj in H2. destruct (H2 eq_refl) as [_ Ho].
      eapply other_ref, other_mono; done. }
  split; [|done].
  assert (forall k' bs', key_at (cells s) ts k' bs' -> key_at (cells s4) ts k' bs') as Hkk.
  { intros k' bs' (t & Hin & Ht & Hge). exists t. split; [done|]. split; [|done]. eapply text_keeps; [done| |by eapply text_at_mono].
    rewrite Forall_forall in Hts. by apply Hts. }
  constructor; [by apply Hkk|]. eapply Forall_impl; [exact H5|]. intros e He. by apply Hkk.
Qed.

Lemma with_key ts x w size al k bs f v s : hasher ts f -> table_at (cells s) ts x w size al -> key_at (cells s) ts k bs -> Forall (fun t => t <> TREF) ts ->
  type_at (cells s) cell_nil TSPECIAL -> can_alloc 4 s ->
  exists s' n, (sz <- struct_ref_ x 3 ;; size <- cdr_of sz ;; hash <- f k size ;; hash_set_x_ x (to_u32 hash) k v) s = ROk v s' /\ n <= 4 /\
    modifies (eq (w + name_hash bs mod size)) n s s' /\ table_at (cells s') ts x w size (Entry k bs v :: al).
Proof.
  intros Hf Ht Hk Hts Hnil Ha.
  set (s1 := with_cell (Cell TNUMBER 0 size []) s).
  assert (cells s ⊆ cells s1) as Hsub by (eapply modifies_cells, modifies_with_cell).
  assert (0 < size < 2147483648) as Hsz by (destruct Ht as (? & ? & ? & ? & ? & ? & Ht); apply Ht).
  pose proof (Z.mod_pos_bound (name_hash bs) size ltac:(lia)) as Hmb.
  destruct (hash_set_ok_ ts x w size al k bs v s1) as (s' & n & E & Hn & Hm & Ht'); try done.
  { by eapply table_mono. } { by eapply key_mono. }
  { destruct Hnil as (c & Hc & ?). exists c. split; [by eapply lookup_weaken|done]. }
  { eapply can_alloc_with; [done|lia]. }
  exists s', (1 + n). split.
  { destruct Ht as (vv & b & st & sp & sn & qs & H1 & _). apply array_heap in H1.
    erewrite bind_ok. 2:{ apply (struct_ref_ok x vv [st; sp; sn; SNum size; SRef b] 3); [done|cbn; lia|]. apply get_num; [|eapply can_alloc_le; [done|lia]].
        by apply (proj2 H1 3%nat). }
    fold s1. erewrite bind_ok. 2:{ apply cdr_of_s. cbn. apply lookup_insert. } cbn [c_cdr].
    erewrite bind_ok. 2:{ apply Hf; [|done]. eapply key_mono; [apply cells_sub|]. by eapply key_mono. }
    rewrite to_u32_id by lia. exact E. }
  split; [lia|]. split; [|done]. eapply modifies_trans; [eapply modifies_weaken; [|apply modifies_with_cell]; intros p _ []|exact Hm|done].
Qed.
Lemma hash_set_ok x w size al k bs v s : table_at (cells s) [TSTRING] x w size al -> key_at (cells s) [TSTRING] k bs ->
  type_at (cells s) cell_nil TSPECIAL -> can_alloc 4 s ->
  exists s' n, hash_set_x x k v s = ROk v s' /\ n <= 4 /\
    modifies (eq (w + name_hash bs mod size)) n s s' /\ table_at (cells s') [TSTRING] x w size (Entry k bs v :: al).
Proof. intros. apply with_key; try done; [apply hash_hasher|]. repeat constructor. discriminate. Qed.
Lemma hashq_set_ok x w size al k bs v s : table_at (cells s) [TSPECIAL; TSYMBOL] x w size al -> key_at (cells s) [TSPECIAL; TSYMBOL] k bs ->
  type_at (cells s) cell_nil TSPECIAL -> can_alloc 4 s ->
  exists s' n, hashq_set_x x k v s = ROk v s' /\ n <= 4 /\
    modifies (eq (w + name_hash bs mod size)) n s s' /\ table_at (cells s') [TSPECIAL; TSYMBOL] x w size (Entry k bs v :: al).
Proof. intros. apply with_key; try done; [apply hashq_hasher|]. repeat constructor; discriminate. Qed.

(** the predefined objects *)
Fixpoint find_constant (x : Z) (l : list (Z * bool * Strings.String.string)) : option bool :=
  match l with [] => None | c :: l => if x =? fst (fst c) then Some (snd (fst c)) else find_constant x l end.
Lemma constant_type h x b : constants_at h -> find_constant x builtin_symbols = Some b -> type_at h x (if b then TSPECIAL else TSYMBOL).
Proof.
  unfold constants_at. induction builtin_symbols as [|c l IH]; [done|]. intros H. inversion H; subst. cbn [find_constant].
  destruct (Z.eqb_spec x (fst (fst c))) as [->|]; [by intros [= <-]|]. by apply IH.
Qed.
Lemma constant_other h x b : constants_at h -> find_constant x builtin_symbols = Some b -> other h x.
Proof.
  intros H Hx. destruct (constant_type _ _ _ H Hx) as (c & Hc & Ht). exists c. split; [done|]. rewrite Ht. intros F.
  destruct b; repeat (apply elem_of_cons in F as [F|F]; [discriminate F|]); by apply elem_of_nil in F.
Qed.
Lemma constants_mono h h' : h ⊆ h' -> constants_at h -> constants_at h'.
Proof.
  intros Hs H. eapply Forall_impl; [exact H|]. intros c (x & Hx & Ht). exists x. split; [by eapply lookup_weaken|done].
Qed.
Lemma constants_keeps h h' : keeps h h' -> constants_at h -> constants_at h'.
Proof.
  intros Hk H. eapply Forall_impl; [exact H|]. intros c (x & Hx & Ht). exists x. split; [|done]. apply Hk; [done|].
  rewrite Ht. by destruct (snd (fst c)).
Qed.
Ltac constant := match goal with H : constants_at ?h |- _ =>
  first [apply (constant_type _ _ true H); reflexivity | apply (constant_type _ _ false H); reflexivity
        |eapply constant_other; [exact H|reflexivity]] end.

(** allocation steps, keeping account of the state *)
Lemma cons_step a d k s0 s : modifies nothing k s0 s -> can_alloc (k + 1) s0 ->
  exists x s', cons a d s = ROk x s' /\ modifies nothing (k + 1) s0 s' /\ pair_at (cells s') x a d /\ cells s ⊆ cells s' /\ x = g_free s.
Proof.
  intros Hm Ha. eexists _, _. split.
  { apply cons_s. eapply modifies_can_alloc; [exact Hm|eapply can_alloc_le; [exact Ha|lia]|lia]. }
  split; [eapply modifies_trans; [exact Hm|apply modifies_with_cell|done]|].
  split; [apply pair_with_cell|]. split; [eapply modifies_cells, modifies_with_cell|done].
Qed.
Lemma number_step n k s0 s : modifies nothing k s0 s -> can_alloc (k + 1) s0 ->
  exists x s', make_number n s = ROk x s' /\ modifies nothing (k + 1) s0 s' /\ number_at (cells s') x n /\ cells s ⊆ cells s' /\ x = g_free s.
Proof.
  intros Hm Ha. eexists _, _. split.
  { apply make_cell_s. eapply modifies_can_alloc; [exact Hm|eapply can_alloc_le; [exact Ha|lia]|lia]. }
  split; [eapply modifies_trans; [exact Hm|apply modifies_with_cell|done]|].
  split; [eexists; rewrite cells_with_cell, lookup_insert; done|]. split; [eapply modifies_cells, modifies_with_cell|done].
Qed.
Lemma pair_other h p a d : pair_at h p a d -> other h p.
Proof. intros (c & Hc & Ht & _). exists c. split; [done|]. by apply not_ref_list. Qed.
Lemma array_other h t x v sls : array_at h t x v sls -> t = TVECTOR \/ t = TSTRUCT -> other h x.
Proof.
  intros [(c & Hc & Ht & _) _] Hor. exists c. split; [done|]. rewrite Ht. intros F.
  destruct Hor as [-> | ->]; repeat (apply elem_of_cons in F as [F|F]; [discriminate F|]); by apply elem_of_nil in F.
Qed.
Lemma constants_nil s : constants_at (cells s) -> cell_nil < g_free s.
Proof. intros Hc. destruct (constant_type _ cell_nil true Hc eq_refl) as (c & Hcc & _). by apply cells_heap in Hcc as [_ ?]. Qed.

Lemma list_cons h p a d vs : cell_nil < p -> pair_at h p a d -> list_at h d vs -> list_at h p (a :: vs).
Proof. intros. econstructor; [lia|done|done]. Qed.

Lemma make_hashq_type_ok s : constants_at (cells s) -> can_alloc 13 s ->
  exists x s' k v sls, make_hashq_type s = ROk x s' /\ k <= 13 /\ modifies nothing k s s' /\ array_at (cells s') TSTRUCT x v sls.
Proof.
  intros Hc Ha. unfold make_hashq_type. pose proof (constants_nil _ Hc) as Hnil.
  destruct (cons_step cell_symbol_buckets cell_nil 0 s s (modifies_refl _ _)) as (x1 & s1 & E1 & Hm1 & Hp1 & Hs1 & Hx1); [eapply can_alloc_le; [done|lia]|].
  rewrite (bind_ok _ _ _ _ _ E1).
  destruct (cons_step cell_symbol_size x1 _ _ _ Hm1) as (x2 & s2 & E2 & Hm2 & Hp2 & Hs2 & Hx2); [eapply can_alloc_le; [done|lia]|].
  rewrite (bind_ok _ _ _ _ _ E2).
  destruct (cons_step x2 cell_nil _ _ _ Hm2) as (x3 & s3 & E3 & Hm3 & Hp3 & Hs3 & Hx3); [eapply can_alloc_le; [done|lia]|].
  rewrite (bind_ok _ _ _ _ _ E3).
  destruct (cons_step cell_symbol_hashq_table x3 _ _ _ Hm3) as (x4 & s4 & E4 & Hm4 & Hp4 & Hs4 & Hx4); [eapply can_alloc_le; [done|lia]|].
  rewrite (bind_ok _ _ _ _ _ E4).
  assert (constants_at (cells s4)) as Hc4 by (eapply constants_mono; [by eapply modifies_cells|done]).
  pose proof (mod_free _ _ _ _ Hm1). pose proof (mod_free _ _ _ _ Hm2). pose proof (mod_free _ _ _ _ Hm3).
  destruct (make_struct_ok 2 cell_symbol_record_type cell_unspecified x4 [cell_symbol_hashq_table; x2] (SRef cell_symbol_record_type) (SRef cell_unspecified)
    [SRef cell_symbol_hashq_table; SRef x2] s4) as (s5 & k & E5 & Hk & Hm5 & Har).
  { split; [done|constant]. } { split; [done|constant]. }
  { eapply list_cons; [lia|done|]. eapply list_cons; [lia|by eapply pair_at_mono|constructor]. }
  { repeat constructor; [constant|]. eapply pair_other. eapply pair_at_mono; [|exact Hp2]. by etrans. }
  { done. }
  { eapply modifies_can_alloc; [exact Hm4|eapply can_alloc_le; [exact Ha|cbn; lia]|lia]. }
  eexists _, s5, _, _, _. split; [exact E5|]. split; [|split; [by eapply modifies_trans|exact Har]]. cbn [length] in Hk. lia.
Qed.

Lemma make_hash_table_ok ts n s : 0 <= n < 2147483648 -> constants_at (cells s) ->
  let size := if n =? 0 then 100 else n in can_alloc (29 + 2 * size) s ->
  exists x w s' k, make_hash_table_ n s = ROk x s' /\ k <= 29 + 2 * size /\ modifies nothing k s s' /\
    cells s !! x = None /\ g_free s <= w /\ table_at (cells s') ts x w size [].
Proof.
  intros Hn Hc size Ha. unfold make_hash_table_. fold size. assert (0 < size < 2147483648) as Hsz by (unfold size; destruct (Z.eqb_spec n 0); lia).
  pose proof (constants_nil _ Hc) as Hnil.
  destruct (make_hashq_type_ok s Hc) as (ht & s0 & k0 & v0 & sls0 & E0 & Hk0 & Hm0 & Ha0); [eapply can_alloc_le; [done|lia]|].
  rewrite (bind_ok _ _ _ _ _ E0). pose proof (mod_size _ _ _ _ Hm0). pose proof (mod_free _ _ _ _ Hm0).
  assert (constants_at (cells s0)) as Hc0 by (eapply constants_mono; [by eapply modifies_cells|done]).
  destruct (make_vector_ok size cell_unspecified (SRef cell_unspecified) s0) as (s1 & k1 & E1 & Hk1 & Hm1' & Ha1); [lia|split; [done|constant]| |].
  { eapply modifies_can_alloc; [done|eapply can_alloc_le; [exact Ha|lia]|lia]. }
  rewrite (bind_ok _ _ _ _ _ E1). pose proof (mod_size _ _ _ _ Hm1'). pose proof (mod_free _ _ _ _ Hm1').
  assert (modifies nothing (k0 + k1) s s1) as Hm1 by by eapply modifies_trans.
  assert (constants_at (cells s1)) as Hc1 by (eapply constants_mono; [by eapply modifies_cells|done]).
  destruct (cons_step (g_free s0) cell_nil _ _ _ Hm1) as (x2 & s2 & E2 & Hm2 & Hp2 & Hs2 & Hx2); [eapply can_alloc_le; [done|lia]|].
  rewrite (bind_ok _ _ _ _ _ E2).
  destruct (number_step size _ _ _ Hm2) as (x3 & s3 & E3 & Hm3 & Hp3 & Hs3 & Hx3); [eapply can_alloc_le; [done|lia]|].
  rewrite (bind_ok _ _ _ _ _ E3).
  destruct (cons_step x3 x2 _ _ _ Hm3) as (x4 & s4 & E4 & Hm4 & Hp4 & Hs4 & Hx4); [eapply can_alloc_le; [done|lia]|].
  rewrite (bind_ok _ _ _ _ _ E4).
  destruct (cons_step cell_symbol_hashq_table x4 _ _ _ Hm4) as (x5 & s5 & E5 & Hm5 & Hp5 & Hs5 & Hx5); [eapply can_alloc_le; [done|lia]|].
  rewrite (bind_ok _ _ _ _ _ E5).
  assert (constants_at (cells s5)) as Hc5 by (eapply constants_mono; [by eapply modifies_cells|done]).
  pose proof (mod_free _ _ _ _ Hm1). pose proof (mod_free _ _ _ _ Hm2). pose proof (mod_free _ _ _ _ Hm3). pose proof (mod_free _ _ _ _ Hm4).
  pose proof (mod_free _ _ _ _ Hm5).
  assert (cells s1 ⊆ cells s5) as Hs15 by (do 3 (etrans; [eassumption|]); done).
  assert (cells s0 ⊆ cells s5) as Hs05 by (etrans; [eapply modifies_cells, Hm1'|done]).
  destruct (make_struct_ok 3 ht cell_unspecified x5 [cell_symbol_hashq_table; x3; g_free s0] (SRef ht) (SRef cell_unspecified)
    [SRef cell_symbol_hashq_table; SNum size; SRef (g_free s0)] s5) as (s6 & k & E6 & Hk & Hm6 & Har).
  { split; [done|]. eapply array_other; [by eapply array_mono|by right]. } { split; [done|constant]. }
  { eapply list_cons; [lia|done|]. eapply list_cons; [lia|eapply pair_at_mono; [|exact Hp4]; done|].
    eapply list_cons; [lia|eapply pair_at_mono; [|exact Hp2]; do 2 (etrans; [eassumption|]); done|constructor]. }
  { apply Forall2_cons_2; [split; [done|constant]|]. apply Forall2_cons_2; [eapply number_at_mono; [|exact Hp3]; by etrans|].
    apply Forall2_cons_2; [split; [done|]|by apply Forall2_nil_2]. eapply array_other; [eapply array_mono; [exact Hs15|exact Ha1]|by left]. }
  { done. }
  { eapply modifies_can_alloc; [exact Hm5|eapply can_alloc_le; [exact Ha|cbn [length]; lia]|lia]. }
  pose proof (modifies_cells _ _ _ Hm6) as Hs56. cbn [length] in Hk.
  eexists _, (g_free s0 + 1), s6, _. split; [exact E6|]. split; [|split; [by eapply modifies_trans|]]; [lia|].
  split; [apply cells_fresh; lia|]. split; [lia|].
  exists (g_free s5 + 1), (g_free s0), (SRef ht), (SRef cell_unspecified), (SRef cell_symbol_hashq_table), (replicate (Z.to_nat size) cell_unspecified).
  split; [exact Har|]. split.
  { eapply array_mono; [exact Hs56|]. eapply array_mono; [exact Hs15|]. assert (map SRef (replicate (Z.to_nat size) cell_unspecified) = replicate (Z.to_nat size) (SRef cell_unspecified)) as -> by apply fmap_replicate. exact Ha1. }
  split; [rewrite replicate_length; lia|]. split.
  { intros i q Hi. apply lookup_replicate in Hi as [-> _]. cbn.
    assert (type_at (cells s5) cell_unspecified TSPECIAL) as (c & Hcc & Ht) by constant. exists c.
    split; [by eapply lookup_weaken|]. rewrite Ht. discriminate. }
  split; [constructor|]. pose proof Ha as (? & ? & ?). split; [lia|]. split; [|done]. right.
  assert (slot_at (cells s1) (g_free s0 + 1 + Z.of_nat (Z.to_nat (size - 1))) (SRef cell_unspecified)) as [(c & Hcc & _) _].
  { apply (proj2 Ha1). apply lookup_replicate. split; [done|lia]. }
  apply cells_heap in Hcc as [_ ?]. lia.
Qed.

(** a store leaves the other tables alone *)
Lemma table_keep p k s s' ts y w size al : modifies (eq p) k s s' -> (forall c, cells s !! p = Some c -> c_ty c = TREF) ->
  Forall (fun t => t <> TREF) ts ->
  table_at (cells s) ts y w size al -> ~ (w <= p < w + size) ->
  (forall v sls, array_at (cells s) TSTRUCT y v sls -> ~ (v <= p < v + Z.of_nat (length sls))) ->
  table_at (cells s') ts y w size al.
Proof.
  intros Hm Hp Hts (v & b & st & sp & sn & qs & H1 & H2 & H3 & H4 & H5 & H6) Hw Hv.
  assert (keeps (cells s) (cells s')) as Hk.
  { eapply modifies_keeps; [done|]. intros q c <-. apply Hp. }
  assert (forall q c, cells s !! q = Some c -> q <> p -> cells s' !! q = cells s !! q) as Hsame.
  { intros q c Hc Hq. rewrite Hc. eapply modifies_old; [done|done|congruence]. }
  exists v, b, st, sp, sn, qs. specialize (Hv _ _ H1). cbn in Hv.
  split. { eapply array_keeps; [done|done|done|]. intros j Hj. cbn in Hj.
    destruct (lookup_lt_is_Some_2 [st; sp; sn; SNum size; SRef b] j) as (sl & Hsl); [done|].
    destruct H1 as [_ H1]. specialize (H1 _ _ Hsl).
    destruct sl; [destruct H1 as (c & Hc & _)|destruct H1 as ((c & Hc & _) & _)|destruct H1 as ((c & Hc & _) & _)]; eapply Hsame; try done; lia. }
  split. { eapply array_keeps; [done|done|done|]. intros j Hj. rewrite map_length in Hj.
    destruct (lookup_lt_is_Some_2 qs j Hj) as (q & Hq). destruct H2 as [_ H2]. specialize (H2 j (SRef q)).
    rewrite list_lookup_fmap, Hq in H2. destruct (H2 eq_refl) as [(c & Hc & _) _]. eapply Hsame; [done|lia]. }
  split; [done|]. split.
  { intros i q Hi. eapply alist_keeps; [done| |by apply H4]. destruct H2 as [_ H2]. specialize (H2 i (SRef q)).
    rewrite list_lookup_fmap, Hi in H2. destruct (H2 eq_refl) as [_ Ho]. by apply other_ref. }
  split; [|done]. rewrite Forall_forall in Hts. eapply Forall_impl; [exact H5|]. intros e (t & Ht & He & ?). exists t. split; [done|].
  split; [|done]. eapply text_keeps; [done|by apply Hts|done].
Qed.
Lemma table_slot h ts x w size al i : table_at h ts x w size al -> 0 <= i < size -> exists c, h !! (w + i) = Some c /\ c_ty c = TREF.
Proof.
  intros (v & b & st & sp & sn & qs & H1 & H2 & H3 & _) Hi.
  destruct (lookup_lt_is_Some_2 qs (Z.to_nat i) ltac:(lia)) as (q & Hq). destruct H2 as [_ H2]. specialize (H2 (Z.to_nat i) (SRef q)).
  rewrite list_lookup_fmap, Hq in H2. destruct (H2 eq_refl) as [(c & Hc & Ht & _) _]. exists c. rewrite Z2Nat.id in Hc by lia. done.
Qed.
Lemma table_keeps ts x w size al bs k s s' : table_at (cells s) ts x w size al -> modifies (eq (w + name_hash bs mod size)) k s s' -> keeps (cells s) (cells s').
Proof.
  intros Ht Hm. assert (0 < size < 2147483648) as Hsz by (destruct Ht as (? & ? & ? & ? & ? & ? & Ht); apply Ht).
  eapply modifies_keeps; [done|]. intros p c <- Hc.
  destruct (table_slot _ _ _ _ _ _ (name_hash bs mod size) Ht) as (c' & Hc' & Htc); [apply Z.mod_pos_bound; lia|]. congruence.
Qed.
