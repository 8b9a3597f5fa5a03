(** C18, C19, C20: interned symbols, hash tables, modules. *)
From stdpp Require Import base gmap list.
From Coq Require Import ZArith Lia.
From Coq Require Import ZifyBool ZifyNat.
From Verif Require Import CInt Symbols Heap HeapLemmas DataModel DataSpec DataLemmas CoreProofs ListProofs ArrayProofs StringProofs HashProofs Samples SamplesHash.
Import Strings.String.StringSyntax.
Open Scope Z_scope.
Open Scope mes_scope.

(** * C19: hash tables *)

(** ** Specification *)
(** A history of operations on one table.  A key is an object (a string or a symbol) with its name. *)
Inductive table_op : Type :=
| Store (k : Z) (name : list Z) (v : Z)        (* (hash-set! table k v) *)
| Fetch (k : Z) (name : list Z).               (* (hash-ref table k #f) *)
(** What the fetches must answer, [al] being what was stored before, latest first, and [eq] the
    notion of equal keys.  *)
Fixpoint answers (eq : Z -> list Z -> entry -> bool) (al : list entry) (ops : list table_op) : list Z :=
  match ops with
  | [] => []
  | Store k n v :: ops => answers eq (Entry k n v :: al) ops
  | Fetch k n :: ops =>
      match List.find (eq k n) al with Some e => e_value e | None => cell_f end :: answers eq al ops
  end.
(** string tables compare keys by their bytes, symbol tables by identity *)
Definition by_name (k : Z) (n : list Z) (e : entry) : bool := bool_decide (e_name e = n).
Definition by_identity (k : Z) (n : list Z) (e : entry) : bool := e_key e =? k.
Definition op_key (o : table_op) : Z * list Z := match o with Store k n _ => (k, n) | Fetch k n => (k, n) end.
(** the key object has that name, is of one of the types [ts], and hashes to a non-negative number
    (as every name that starts with two ASCII characters does) *)
Definition valid_key (h : gmap Z cell) (ts : list Z) (o : table_op) : Prop :=
  exists t, t ∈ ts /\ text_at h t (fst (op_key o)) (snd (op_key o)) /\ 0 <= name_hash (snd (op_key o)).

(** ** The program: perform the history, collect the answers *)
Fixpoint perform_hash (fuel : nat) (x : Z) (ops : list table_op) : M (list Z) :=
  match ops with
  | [] => ret []
  | Store k _ v :: ops => hash_set_x x k v ;;; perform_hash fuel x ops
  | Fetch k _ :: ops => r <- hash_ref fuel x k cell_f ;; rs <- perform_hash fuel x ops ;; ret (r :: rs)
  end.
Fixpoint perform_hashq (fuel : nat) (x : Z) (ops : list table_op) : M (list Z) :=
  match ops with
  | [] => ret []
  | Store k _ v :: ops => hashq_set_x x k v ;;; perform_hashq fuel x ops
  | Fetch k _ :: ops => r <- hashq_ref fuel x k cell_f ;; rs <- perform_hashq fuel x ops ;; ret (r :: rs)
  end.

Lemma latest_find m al : latest m al = option_map e_value (List.find m al).
Proof. induction al as [|e al IH]; [done|]. cbn. by destruct (m e). Qed.

(** ** A new table is empty *)
Theorem C19_new_table ts n s : 0 <= n < 2147483648 -> constants_at (cells s) ->
  let size := if n =? 0 then 100 else n in can_alloc (29 + 2 * size) s ->
  exists x w s', make_hash_table_ n s = ROk x s' /\ extends s s' /\ cells s !! x = None /\ table_at (cells s') ts x w size [].
Proof.
  intros Hn Hc size Ha. destruct (make_hash_table_ok ts n s Hn Hc Ha) as (x & w & s' & k & E & Hk & Hm & Hx & Hw & Ht).
  exists x, w, s'. split; [done|]. split; [by exists k|]. done.
Qed.

Lemma cell_f_type h : constants_at h -> type_at h cell_f TSPECIAL.
Proof. intros. constant. Qed.
Lemma cell_nil_type h : constants_at h -> type_at h cell_nil TSPECIAL.
Proof. intros. constant. Qed.

(** one store: the answer is the value, and besides new cells only one slot of the table's buckets changes *)
Theorem C19_store x w size al k bs v s : table_at (cells s) [TSTRING] x w size al -> text_at (cells s) TSTRING k bs -> 0 <= name_hash bs ->
  constants_at (cells s) -> can_alloc 4 s ->
  exists s' n, hash_set_x x k v s = ROk v s' /\ modifies (eq (w + name_hash bs mod size)) n s s' /\
    table_at (cells s') [TSTRING] x w size (Entry k bs v :: al).
Proof.
  intros Ht Hk Hh Hc Ha. destruct (hash_set_ok x w size al k bs v s) as (s' & n & E & Hn & Hm & Ht'); try done.
  { exists TSTRING. split; [set_solver|done]. } { by apply cell_nil_type. }
  by exists s', n.
Qed.

(** ** Every history of stores and fetches on a table with string keys *)
Theorem C19_history_strings fuel x w size ops : forall al s,
  table_at (cells s) [TSTRING] x w size al -> Forall (valid_key (cells s) [TSTRING]) ops -> constants_at (cells s) ->
  (length al + length ops < fuel)%nat -> can_alloc (4 * Z.of_nat (length ops)) s ->
  exists s', perform_hash fuel x ops s = ROk (answers by_name al ops) s'.
Proof.
  induction ops as [|o ops IH]; intros al s Ht Hv Hc Hf Ha; [by exists s|].
  inversion Hv as [|? ? Ho Hos]; subst. cbn [length] in *. destruct o as [k n v|k n]; cbn [op_key fst snd] in Ho.
  - cbn [perform_hash answers].
    destruct (hash_set_ok x w size al k n v s) as (s' & m & E & Hn & Hm & Ht'); try done.
    { by apply cell_nil_type. } { eapply can_alloc_le; [done|lia]. }
    rewrite (bind_ok _ _ _ _ _ E). pose proof (table_keeps _ _ _ _ _ _ _ _ _ Ht Hm) as Hkp.
    apply IH; [done| |by eapply constants_keeps|cbn; lia|].
    + eapply Forall_impl; [exact Hos|]. intros o' (t & Hin & Hto & Hh). exists t. split; [done|]. split; [|done].
      eapply text_keeps; [done| |done]. apply elem_of_list_singleton in Hin as ->. discriminate.
    + eapply modifies_can_alloc; [done|eapply can_alloc_le; [done|lia]|lia].
  - cbn [perform_hash answers]. pose proof (cell_f_type _ Hc) as (cf & Hcf & Htf). apply cells_heap in Hcf as [Hcf Hfl].
    destruct (hash_ref_ok fuel x w size al k n cell_f cf s) as (r & E & Hr); try done.
    { by exists cf. } { lia. } { eapply can_alloc_le; [done|lia]. }
    rewrite (bind_ok _ _ _ _ _ E).
    assert (cells s ⊆ cells (with_cell (Cell TNUMBER 0 size []) s)) as Hsub by (eapply modifies_cells, modifies_with_cell).
    destruct (IH al (with_cell (Cell TNUMBER 0 size []) s)) as (s' & E').
    { by eapply table_mono. }
    { eapply Forall_impl; [exact Hos|]. intros o' (t & Hin & Hto & Hh). exists t. split; [done|]. split; [|done]. by eapply text_at_mono. }
    { by eapply constants_mono. } { lia. }
    { eapply can_alloc_with; [eapply can_alloc_le; [done|lia]|lia]. }
    exists s'. rewrite (bind_ok _ _ _ _ _ E'). rewrite latest_find in Hr. unfold same_name in Hr. change (by_name k n) with (fun e : entry => bool_decide (e_name e = n)).
    unfold by_name at 1. destruct (List.find _ al) as [e|]; cbn in Hr; [by rewrite Hr|]. rewrite Hr, Htf, andb_comm. done.
Qed.

(** ** ... and with symbols as keys *)
Theorem C19_history_symbols fuel x w size ops : forall al s,
  table_at (cells s) [TSPECIAL; TSYMBOL] x w size al -> Forall (valid_key (cells s) [TSPECIAL; TSYMBOL]) ops -> constants_at (cells s) ->
  (length al + length ops < fuel)%nat -> can_alloc (4 * Z.of_nat (length ops)) s ->
  exists s', perform_hashq fuel x ops s = ROk (answers by_identity al ops) s'.
Proof.
  induction ops as [|o ops IH]; intros al s Ht Hv Hc Hf Ha; [by exists s|].
  inversion Hv as [|? ? Ho Hos]; subst. cbn [length] in *. destruct o as [k n v|k n]; cbn [op_key fst snd] in Ho.
  - cbn [perform_hashq answers].
    destruct (hashq_set_ok x w size al k n v s) as (s' & m & E & Hn & Hm & Ht'); try done.
    { by apply cell_nil_type. } { eapply can_alloc_le; [done|lia]. }
    rewrite (bind_ok _ _ _ _ _ E). pose proof (table_keeps _ _ _ _ _ _ _ _ _ Ht Hm) as Hkp.
    apply IH; [done| |by eapply constants_keeps|cbn; lia|].
    + eapply Forall_impl; [exact Hos|]. intros o' (t & Hin & Hto & Hh). exists t. split; [done|]. split; [|done].
      eapply text_keeps; [done| |done]. assert (t = TSPECIAL \/ t = TSYMBOL) as [-> | ->] by set_solver; discriminate.
    + eapply modifies_can_alloc; [done|eapply can_alloc_le; [done|lia]|lia].
  - cbn [perform_hashq answers]. pose proof (cell_f_type _ Hc) as Hff. pose proof Hff as (cf & Hcf & Htf). apply cells_heap in Hcf as [Hcf Hfl].
    destruct (hashq_handle_ok fuel x w size al k n cell_f cf s) as (r & E & Hr); try done.
    { by apply cell_nil_type. } { lia. } { eapply can_alloc_le; [done|lia]. }
    set (s1 := with_cell (Cell TNUMBER 0 size []) s) in *.
    assert (cells s ⊆ cells s1) as Hsub by (eapply modifies_cells, modifies_with_cell).
    unfold hashq_ref. rewrite bind_assoc, (bind_ok _ _ _ _ _ E).
    destruct (IH al s1) as (s' & E').
    { by eapply table_mono. }
    { eapply Forall_impl; [exact Hos|]. intros o' (t & Hin & Hto & Hh). exists t. split; [done|]. split; [|done]. by eapply text_at_mono. }
    { by eapply constants_mono. } { lia. }
    { eapply can_alloc_with; [eapply can_alloc_le; [done|lia]|lia]. }
    exists s'. rewrite latest_find in Hr. unfold same_key in Hr. unfold by_identity at 1.
    destruct (List.find _ al) as [e|]; cbn in Hr.
    + destruct Hr as (Hp & Hne & _). rewrite (proj2 (Z.eqb_neq _ _) Hne). 
      erewrite bind_ok. 2:{ eapply cdr_of_pair. eapply pair_at_mono; [apply cells_sub|]. by eapply pair_at_mono. }
      by rewrite (bind_ok _ _ _ _ _ E').
    + rewrite Htf, andb_comm in Hr. cbn in Hr. subst r. rewrite Z.eqb_refl. rewrite bind_ret. by rewrite (bind_ok _ _ _ _ _ E').
Qed.

(** Two tables with different bucket slots do not disturb each other. *)
Theorem C19_other_table x w size al k bs v y w' size' al' ts s :
  table_at (cells s) [TSTRING] x w size al -> text_at (cells s) TSTRING k bs -> 0 <= name_hash bs -> constants_at (cells s) -> can_alloc 4 s ->
  Forall (fun t => t <> TREF) ts -> table_at (cells s) ts y w' size' al' -> w + size <= w' \/ w' + size' <= w ->
  (forall u sls, array_at (cells s) TSTRUCT y u sls -> w + size <= u \/ u + Z.of_nat (length sls) <= w) ->
  exists s', hash_set_x x k v s = ROk v s' /\ table_at (cells s') [TSTRING] x w size (Entry k bs v :: al) /\ table_at (cells s') ts y w' size' al'.
Proof.
  intros Ht Hk Hh Hc Ha Hts Hy Hd Hd'. destruct (C19_store x w size al k bs v s) as (s' & n & E & Hm & Ht'); try done.
  exists s'. split; [done|]. split; [done|].
  assert (0 < size < 2147483648) as Hsz by (destruct Ht as (? & ? & ? & ? & ? & ? & Ht); apply Ht).
  pose proof (Z.mod_pos_bound (name_hash bs) size ltac:(lia)).
  eapply table_keep; [exact Hm| |done|exact Hy|lia|].
  - intros c Hc'. destruct (table_slot _ _ _ _ _ _ (name_hash bs mod size) Ht) as (c' & Hc'' & ?); [lia|]. congruence.
  - intros u sls Hu. specialize (Hd' _ _ Hu). lia.
Qed.

(** ** What does not hold *)
(** The default value is not returned when the key is missing but shares its bucket with another key. *)
Theorem C19_default_refuted fuel x w size al k bs d a dd e s : table_at (cells s) [TSTRING] x w size al -> text_at (cells s) TSTRING k bs ->
  0 <= name_hash bs -> constants_at (cells s) -> can_alloc 1 s -> (length al < fuel)%nat ->
  pair_at (cells s) d a dd ->                                            (* (hash-ref table k default): the arguments (default) *)
  (forall e, e ∈ al -> e_name e <> bs) ->                                (* no such key *)
  e ∈ al -> name_hash (e_name e) mod size = name_hash bs mod size ->     (* but another one in the same bucket *)
  exists s', hash_ref fuel x k d s = ROk cell_f s'.
Proof.
  intros Ht Hk Hh Hc Ha Hf Hd Hno He Hsame. pose proof (cell_f_type _ Hc) as (cf & Hcf & Htf). apply cells_heap in Hcf as [Hcf Hfl].
  destruct Hd as (cd & Hcd & Htd & Had & _). apply cells_heap in Hcd as [Hcd Hdl].
  destruct (hash_ref_ok fuel x w size al k bs d cd s) as (r & E & Hr); try done.
  { exists TSTRING. split; [set_solver|done]. } { by exists cf. }
  assert (latest (same_name bs) al = None) as Hl.
  { rewrite latest_find. destruct (List.find _ al) as [e'|] eqn:Ef; [|done]. apply List.find_some in Ef as [Hin Hb].
    apply bool_decide_eq_true in Hb. exfalso. apply (Hno e'); [by apply elem_of_list_In|done]. }
  rewrite Hl in Hr. rewrite bool_decide_eq_false_2 in Hr; [cbn in Hr; subst r; by eexists|].
  intros F. unfold bucket in F. apply map_eq_nil in F. assert (e ∈ filter (fun e => name_hash (e_name e) mod size = name_hash bs mod size) al) as Hin by (by apply elem_of_list_filter).
  rewrite F in Hin. by apply elem_of_nil in Hin.
Qed.
(** A key whose first byte is negative as a [char] stops the program, unless its hash happens to be a
    multiple of the number of buckets. *)
Theorem C19_high_byte_refuted x w size al k bs v s : table_at (cells s) [TSTRING] x w size al -> text_at (cells s) TSTRING k bs ->
  name_hash bs < 0 -> ~ (size | name_hash bs) -> can_alloc 1 s ->
  hash_set_x x k v s = RAbort.
Proof.
  intros Ht Hk Hh Hdiv Ha. destruct Ht as (vv & b & st & sp & sn & qs & H1 & H2 & H3 & _ & _ & _ & _ & H8).
  set (s1 := with_cell (Cell TNUMBER 0 size []) s).
  assert (cells s ⊆ cells s1) as Hsub by (eapply modifies_cells, modifies_with_cell).
  pose proof (array_heap _ _ _ _ _ (array_mono _ _ _ _ _ _ Hsub H1)) as H1'.
  pose proof (array_heap _ _ _ _ _ (array_mono _ _ _ _ _ _ Hsub H2)) as H2'.
  apply array_heap in H1. unfold hash_set_x.
  erewrite bind_ok. 2:{ apply (struct_ref_ok x vv [st; sp; sn; SNum size; SRef b] 3); [done|cbn; lia|]. apply get_num; [|done]. by apply (proj2 H1 3%nat). }
  fold s1. erewrite bind_ok. 2:{ apply cdr_of_s. cbn. apply lookup_insert. } cbn [c_cdr].
  assert (text_at (heap s1) TSTRING k bs) as Hk1 by (eapply text_at_mono; [apply cells_sub|by eapply text_at_mono]).
  destruct (text_bytes _ _ _ _ Hk1) as (c & Hc & Hct & Hl & Hb).
  erewrite bind_ok. 2:{ unfold hash_. erewrite bind_ok by (by apply rd_ok'). rewrite Hct, Z.eqb_refl. rewrite (bind_ok _ _ _ _ _ Hb). by apply hash_cstring_rem. }
  unfold hash_set_x_. erewrite bind_ok. 2:{ apply (struct_ref_ok x vv [st; sp; sn; SNum size; SRef b] 4); [done|cbn; lia|]. apply get_ref. by apply (proj2 H1' 4%nat). }
  assert (Z.rem (name_hash bs) size <> 0) as Hnz.
  { intros F. apply Hdiv. apply Z.rem_divide; [lia|done]. }
  assert (- size < Z.rem (name_hash bs) size < 0) as Hr.
  { pose proof (Z.rem_bound_pos_neg (name_hash bs) size ltac:(lia) ltac:(lia)). lia. }
  assert (size <= to_u32 (Z.rem (name_hash bs) size)) as Hbig by (unfold to_u32, two32; lia).
  destruct H2' as [(cb & Hcb & Hcbt & Hcbl & Hcbv) _]. rewrite map_length in Hcbl.
  unfold bind at 1. unfold vector_ref_. erewrite bind_ok by (by apply rd_ok'). erewrite bind_ok by (apply assert_msg_true; lia).
  unfold bind at 1. unfold assert_msg. by destruct (Z.ltb_spec (to_u32 (Z.rem (name_hash bs) size)) (c_car cb)); [lia|].
Qed.

(** * C18: symbols *)
(** ** Specification *)
(** The interpreter's table of symbols is in order: it is a hash table from strings to symbols (or
    specials) of that name, and #f is called "#f". *)
Definition symbols_ok (s : state) (al : list entry) : Prop :=
  (exists w size, table_at (cells s) [TSTRING] (g_symbols s) w size al) /\ constants_at (cells s) /\
  Forall (fun e => exists t, t ∈ [TSPECIAL; TSYMBOL] /\ text_at (cells s) t (e_value e) (e_name e)) al /\
  text_at (cells s) TSPECIAL cell_f (bytes_of "#f").
(** names that can be interned: anything but "#f" that hashes to a non-negative number *)
Definition good_name (bs : list Z) : Prop := bs <> bytes_of "#f" /\ 0 <= name_hash bs.
Definition is_symbol (h : gmap Z cell) (x : Z) (bs : list Z) : Prop := exists t, t ∈ [TSPECIAL; TSYMBOL] /\ text_at h t x bs.

(** all symbols and strings survive *)
Definition survives (s s' : state) : Prop := keeps (cells s) (cells s').
Lemma survives_symbol s s' x bs : survives s s' -> is_symbol (cells s) x bs -> is_symbol (cells s') x bs.
Proof.
  intros Hk (t & Ht & Hx). exists t. split; [done|]. eapply text_keeps; [done| |done].
  assert (t = TSPECIAL \/ t = TSYMBOL) as [-> | ->] by set_solver; discriminate.
Qed.

Lemma extends_keeps k s s' : modifies nothing k s s' -> keeps (cells s) (cells s').
Proof. intros Hm. eapply modifies_keeps; [done|]. by intros ? ? []. Qed.
Lemma keeps_trans h1 h2 h3 : keeps h1 h2 -> keeps h2 h3 -> keeps h1 h3.
Proof. intros H1 H2 p c Hp Ht. apply H2; [by apply H1|done]. Qed.
Lemma modifies_symbols P k s s' : modifies P k s s' -> g_symbols s' = g_symbols s.
Proof. intros [_ _ _ (h & ->)]. done. Qed.

(** the same with the place of the buckets: [size] cells from address [w] on *)
Definition symbols_at (s : state) (w size : Z) (al : list entry) : Prop :=
  table_at (cells s) [TSTRING] (g_symbols s) w size al /\ constants_at (cells s) /\
  Forall (fun e => exists t, t ∈ [TSPECIAL; TSYMBOL] /\ text_at (cells s) t (e_value e) (e_name e)) al /\
  text_at (cells s) TSPECIAL cell_f (bytes_of "#f").
(** interning changes at most one bucket *)
Lemma intern_at fuel x bs w size al s : symbols_at s w size al -> text_at (cells s) TSTRING x bs -> good_name bs ->
  (length al < fuel)%nat -> can_alloc 6 s ->
  exists r s' n al', string_to_symbol fuel x s = ROk r s' /\ symbols_at s' w size al' /\ survives s s' /\ is_symbol (cells s') r bs /\
    n <= 6 /\ (exists p, w <= p < w + size /\ modifies (eq p) n s s') /\ (length al' <= S (length al))%nat /\
    latest (same_name bs) al' = Some r /\
    (forall bs' r', latest (same_name bs') al = Some r' -> latest (same_name bs') al' = Some r') /\
    (latest (same_name bs) al = None -> cells s !! r = None).
Proof.
  intros (Ht & Hc & Hv & Hf) Hx [Hname Hh] Hfuel Ha.
  assert (0 < size) as Hsize by (destruct Ht as (? & ? & ? & ? & ? & ? & ? & ? & ? & ? & ? & ? & ? & ?); lia).
  pose proof (cell_f_type _ Hc) as (cf & Hcf & Htf). apply cells_heap in Hcf as [Hcf Hfl].
  assert (key_at (cells s) [TSTRING] x bs) as Hk by (exists TSTRING; split; [set_solver|done]).
  destruct (hash_ref_ok fuel (g_symbols s) w size al x bs cell_f cf s) as (r & E & Hr); try done.
  { by exists cf. } { eapply can_alloc_le; [done|lia]. }
  unfold string_to_symbol. rewrite bind_gets, (bind_ok _ _ _ _ _ E).
  set (s1 := with_cell (Cell TNUMBER 0 size []) s) in *.
  assert (modifies nothing 1 s s1) as Hm1 by apply modifies_with_cell.
  assert (cells s ⊆ cells s1) as Hsub by by eapply modifies_cells.
  assert (Forall (fun e => exists t, t ∈ [TSPECIAL; TSYMBOL] /\ text_at (cells s1) t (e_value e) (e_name e)) al) as Hv1.
  { eapply Forall_impl; [exact Hv|]. intros e (t & Hin & Hte). exists t. split; [done|]. by eapply text_at_mono. }
  destruct (latest (same_name bs) al) as [v|] eqn:El.
  - subst v. assert (is_symbol (cells s) r bs) as Hsym.
    { rewrite latest_find in El. destruct (List.find _ al) as [e|] eqn:Ef; [|done]. injection El as <-.
      apply List.find_some in Ef as [Hin Hb]. apply bool_decide_eq_true in Hb. rewrite <- Hb.
      rewrite Forall_forall in Hv. apply Hv. by apply elem_of_list_In. }
    assert (r <> cell_f) as Hne. { intros ->. destruct Hsym as (t & _ & Htx). apply Hname. by eapply text_at_fun. }
    rewrite (proj2 (Z.eqb_neq _ _) Hne). exists r, s1, 1, al. split; [done|]. split.
    { split; [by eapply table_mono|]. split; [by eapply constants_mono|]. split; [done|]. by eapply text_at_mono. }
    split; [by eapply extends_keeps|]. split; [destruct Hsym as (t & ? & ?); exists t; split; [done|by eapply text_at_mono]|].
    split; [lia|]. split; [exists w; split; [lia|]; eapply modifies_weaken; [|exact Hm1]; by intros ? ? []|]. split; [lia|]. split; [done|]. done.
  - rewrite Htf, andb_comm in Hr. cbn in Hr. subst r. rewrite Z.eqb_refl. unfold make_symbol.
    assert (text_at (heap s1) TSTRING x bs) as Hx1 by (eapply text_at_mono; [apply cells_sub|by eapply text_at_mono]).
    pose proof Hx as (cx & cb & Hcx & Hct & Hcl & Hcb & Hcbt & Hcbb).
    erewrite bind_ok. 2:{ apply rd_ok'. eapply lookup_weaken; [|apply cells_sub]. eapply lookup_weaken; [exact Hcx|done]. }
    erewrite bind_ok. 2:{ apply make_cell_s. eapply modifies_can_alloc; [exact Hm1|eapply can_alloc_le; [done|lia]|lia]. }
    set (s2 := with_cell _ s1). rewrite bind_gets. change (g_symbols s2) with (g_symbols s).
    assert (modifies nothing 2 s s2) as Hm2 by (eapply (modifies_trans _ _ 1 1); [done|apply modifies_with_cell|done]).
    assert (cells s ⊆ cells s2) as Hsub2 by by eapply modifies_cells.
    assert (text_at (cells s2) TSYMBOL (g_free s1) bs) as Hr2.
    { eexists _, cb. split; [unfold s2; rewrite cells_with_cell; apply lookup_insert|]. cbn. split; [done|]. split; [done|].
      split; [|done]. eapply lookup_weaken; [exact Hcb|]. done. }
    destruct (hash_set_ok (g_symbols s) w size al x bs (g_free s1) s2) as (s3 & n & E3 & Hn & Hm3 & Ht3).
    { by eapply table_mono. } { by eapply key_mono. } { apply cell_nil_type. by eapply constants_mono. }
    { eapply modifies_can_alloc; [exact Hm2|eapply can_alloc_le; [done|lia]|lia]. }
    rewrite (bind_ok _ _ _ _ _ E3).
    assert (keeps (cells s2) (cells s3)) as Hkp by (eapply table_keeps; [|exact Hm3]; by eapply table_mono).
    assert (text_at (cells s3) TSYMBOL (g_free s1) bs) as Hr3 by (eapply text_keeps; [done|discriminate|done]).
    assert (keeps (cells s) (cells s3)) as Hk3 by (eapply keeps_trans; [by eapply extends_keeps|done]).
    exists (g_free s1), s3, (2 + n), (Entry x bs (g_free s1) :: al). split; [done|]. split.
    { split; [rewrite (modifies_symbols _ _ _ _ Hm3); done|]. split; [by eapply constants_keeps|]. split.
      - constructor; [exists TSYMBOL; split; [set_solver|done]|]. eapply Forall_impl; [exact Hv|]. intros e (t & Hin & Hte). exists t. split; [done|].
        eapply text_keeps; [done| |done]. assert (t = TSPECIAL \/ t = TSYMBOL) as [-> | ->] by set_solver; discriminate.
      - eapply text_keeps; [done|discriminate|done]. }
    split; [done|]. split; [exists TSYMBOL; split; [set_solver|done]|]. split; [lia|].
    split; [eexists; split; [|eapply modifies_trans; [eapply modifies_weaken; [|exact Hm2]; by intros ? ? []|exact Hm3|done]];
      pose proof (Z.mod_pos_bound (name_hash bs) size Hsize); lia|].
    split; [cbn; lia|]. split; [cbn [latest]; unfold same_name at 1; cbn; by rewrite bool_decide_eq_true_2|]. split.
    + intros bs' r' Hl'. cbn [latest]. unfold same_name at 1. cbn [e_name]. rewrite bool_decide_eq_false_2; [done|]. intros <-. congruence.
    + intros _. apply cells_fresh. cbn. lia.
Qed.

(** a single call *)
Theorem C18_intern fuel x bs al s : symbols_ok s al -> text_at (cells s) TSTRING x bs -> good_name bs ->
  (length al < fuel)%nat -> can_alloc 6 s ->
  exists r s' n al', string_to_symbol fuel x s = ROk r s' /\ symbols_ok s' al' /\ survives s s' /\ is_symbol (cells s') r bs /\
    n <= 6 /\ (exists p, modifies (eq p) n s s') /\ (length al' <= S (length al))%nat /\
    latest (same_name bs) al' = Some r /\
    (forall bs' r', latest (same_name bs') al = Some r' -> bs' <> bytes_of "#f" -> latest (same_name bs') al' = Some r') /\
    (latest (same_name bs) al = None -> cells s !! r = None).
Proof.
  intros ((w & size & Ht) & Hr) Hx Hn Hf Ha.
  destruct (intern_at fuel x bs w size al s (conj Ht Hr) Hx Hn Hf Ha) as (r & s' & n & al' & E & (Ht' & Hr') & Hk & Hs & Hle & (p & _ & Hm) & H).
  exists r, s', n, al'. split; [done|]. split; [split; [by exists w, size|done]|]. split; [done|]. split; [done|]. split; [done|].
  split; [by exists p|]. destruct H as (H1 & H2 & H3 & H4). split; [done|]. split; [done|]. split; [|done]. intros. by apply H3.
Qed.

(** ** Histories: intern the strings [xs] one after the other *)
Fixpoint intern_all (fuel : nat) (xs : list Z) : M (list Z) :=
  match xs with
  | [] => ret []
  | x :: xs => r <- string_to_symbol fuel x ;; rs <- intern_all fuel xs ;; ret (r :: rs)
  end.
Lemma intern_all_ok fuel xs : forall bss al s, symbols_ok s al -> Forall2 (text_at (cells s) TSTRING) xs bss -> Forall good_name bss ->
  (length al + length xs < fuel)%nat -> can_alloc (6 * Z.of_nat (length xs)) s ->
  exists rs s' al', intern_all fuel xs s = ROk rs s' /\ symbols_ok s' al' /\ survives s s' /\
    Forall2 (fun r bs => is_symbol (cells s') r bs /\ latest (same_name bs) al' = Some r) rs bss /\
    (forall bs' r', latest (same_name bs') al = Some r' -> bs' <> bytes_of "#f" -> latest (same_name bs') al' = Some r').
Proof.
  induction xs as [|x xs IH]; intros bss al s Hs Hx Hg Hf Ha; inversion Hx as [|? bs ? bss' Hx0 Hxr]; subst.
  { exists [], s, al. split; [done|]. split; [done|]. split; [by intros ? ? ? ?|]. split; [constructor|done]. }
  inversion Hg as [|? ? Hg0 Hgr]; subst. cbn [length] in *. cbn [intern_all].
  destruct (C18_intern fuel x bs al s) as (r & s1 & n & al1 & E & Hs1 & Hk & Hr & Hn & (p & Hm) & Hlen & Hl & Hold & _); try done; [lia|eapply can_alloc_le; [done|lia]|].
  rewrite (bind_ok _ _ _ _ _ E).
  destruct (IH bss' al1 s1) as (rs & s2 & al2 & E2 & Hs2 & Hk2 & Hrs & Hold2); try done.
  { eapply Forall2_impl; [done|]. intros. eapply text_keeps; [done|discriminate|done]. } { lia. }
  { eapply modifies_can_alloc; [exact Hm|eapply can_alloc_le; [done|lia]|lia]. }
  exists (r :: rs), s2, al2. split; [by rewrite (bind_ok _ _ _ _ _ E2)|]. split; [done|]. split; [by eapply keeps_trans|]. split.
  { constructor; [|done]. split; [by eapply survives_symbol|]. apply Hold2; [done|]. apply Hg0. }
  intros bs' r' Hl' Hn'. by apply Hold2; [apply Hold|].
Qed.
(** The answers are the same object exactly when the strings are equal, and at the end of the history
    every one of them is a symbol with the name it was asked for. *)
Theorem C18_history fuel xs bss al s : symbols_ok s al -> Forall2 (text_at (cells s) TSTRING) xs bss -> Forall good_name bss ->
  (length al + length xs < fuel)%nat -> can_alloc (6 * Z.of_nat (length xs)) s ->
  exists rs s', intern_all fuel xs s = ROk rs s' /\ Forall2 (is_symbol (cells s')) rs bss /\
    (forall i j ri rj bi bj, rs !! i = Some ri -> rs !! j = Some rj -> bss !! i = Some bi -> bss !! j = Some bj -> (ri = rj <-> bi = bj)) /\
    (exists al', symbols_ok s' al') /\ survives s s'.
Proof.
  intros Hs Hx Hg Hf Ha. destruct (intern_all_ok fuel xs bss al s) as (rs & s' & al' & E & Hs' & Hk & Hrs & _); try done.
  exists rs, s'. split; [done|]. split; [eapply Forall2_impl; [done|]; by intros ? ? [? _]|]. split; [|split; [by exists al'|done]].
  intros i j ri rj bi bj Hi Hj Hbi Hbj.
  destruct (Forall2_lookup_lr _ _ _ _ _ _ Hrs Hi Hbi) as [(t & _ & H1) L1]. destruct (Forall2_lookup_lr _ _ _ _ _ _ Hrs Hj Hbj) as [(t' & _ & H2) L2].
  split; [intros <-; by eapply text_at_fun|]. intros <-. congruence.
Qed.
(** symbol->string gives the name back *)
Theorem C18_symbol_to_string x bs s : is_symbol (cells s) x bs -> can_alloc 1 s ->
  exists r s', symbol_to_string x s = ROk r s' /\ extends s s' /\ text_at (cells s') TSTRING r bs.
Proof.
  intros (t & _ & (c & b & Hc & Ht & Hl & Hb & Htb & Hbb)) Ha. unfold symbol_to_string. pose proof (cells_heap _ _ _ Hc) as [Hch _].
  eexists _, _. split; [erewrite bind_ok by (by apply rd_ok'); by apply make_cell_s|].
  split; [apply extends_with_cell|]. eexists _, b. split; [rewrite cells_with_cell; apply lookup_insert|]. cbn.
  split; [done|]. split; [done|]. split; [|done]. eapply lookup_weaken; [exact Hb|]. eapply modifies_cells, modifies_with_cell.
Qed.
(** The restriction on "#f" is needed: (string->symbol "#f") is a new symbol, not #f, when called for the
    first time. *)
Theorem C18_false_refuted fuel x al s : symbols_ok s al -> text_at (cells s) TSTRING x (bytes_of "#f") ->
  latest (same_name (bytes_of "#f")) al = Some cell_f ->
  (length al < fuel)%nat -> can_alloc 6 s ->
  exists r s', string_to_symbol fuel x s = ROk r s' /\ r <> cell_f.
Proof.
  intros ((w & size & Ht) & Hc & Hv & Hf) Hx El Hfuel Ha.
  pose proof (cell_f_type _ Hc) as (cf & Hcf & Htf). apply cells_heap in Hcf as [Hcf Hfl].
  assert (key_at (cells s) [TSTRING] x (bytes_of "#f")) as Hk by (exists TSTRING; split; [set_solver|done]).
  destruct (hash_ref_ok fuel (g_symbols s) w size al x (bytes_of "#f") cell_f cf s) as (r & E & Hr); try done.
  { by exists cf. } { eapply can_alloc_le; [done|lia]. }
  rewrite El in Hr. subst r.
  unfold string_to_symbol. rewrite bind_gets, (bind_ok _ _ _ _ _ E).
  set (s1 := with_cell (Cell TNUMBER 0 size []) s) in *. rewrite Z.eqb_refl. unfold make_symbol.
  assert (modifies nothing 1 s s1) as Hm1 by apply modifies_with_cell.
  assert (cells s ⊆ cells s1) as Hsub by by eapply modifies_cells.
  pose proof Hx as (cx & cb & Hcx & Hct & Hcl & Hcb & Hcbt & Hcbb).
  erewrite bind_ok. 2:{ apply rd_ok'. eapply lookup_weaken; [|apply cells_sub]. eapply lookup_weaken; [exact Hcx|done]. }
  erewrite bind_ok. 2:{ apply make_cell_s. eapply modifies_can_alloc; [exact Hm1|eapply can_alloc_le; [done|lia]|lia]. }
  set (s2 := with_cell _ s1). rewrite bind_gets. change (g_symbols s2) with (g_symbols s).
  assert (modifies nothing 2 s s2) as Hm2 by (eapply (modifies_trans _ _ 1 1); [done|apply modifies_with_cell|done]).
  assert (cells s ⊆ cells s2) as Hsub2 by by eapply modifies_cells.
  destruct (hash_set_ok (g_symbols s) w size al x (bytes_of "#f") (g_free s1) s2) as (s3 & n & E3 & _).
  { by eapply table_mono. } { by eapply key_mono. } { apply cell_nil_type. by eapply constants_mono. }
  { eapply modifies_can_alloc; [exact Hm2|eapply can_alloc_le; [done|lia]|lia]. }
  rewrite (bind_ok _ _ _ _ _ E3). eexists _, _. split; [reflexivity|]. cbn. lia.
Qed.

(** The hypotheses are met in a running interpreter: its own table of symbols, and a string table and
    a symbol table that hold something. *)
Definition sample_tables : list (M Z) :=
  [t <- make_hash_table_ 3 ;; k <- make_string (bytes_of "foo") ;; hash_set_x t k cell_t ;;; k <- make_string (bytes_of "bar") ;; hash_set_x t k cell_f ;;; ret t;
   t <- make_hash_table_ 3 ;; hashq_set_x t cell_symbol_car cell_t ;;; hashq_set_x t cell_symbol_lambda cell_nil ;;; ret t;
   make_string (bytes_of "foo"); make_string (bytes_of "car")].
Example hash_hypotheses_hold : exists x y k k' s w1 w2 al1 al2 al,
  on_sample2 sample_tables = ROk [x; y; k; k'] s /\
  table_at (cells s) [TSTRING] x w1 3 al1 /\ length al1 = 2%nat /\
  table_at (cells s) [TSPECIAL; TSYMBOL] y w2 3 al2 /\ length al2 = 2%nat /\
  text_at (cells s) TSTRING k (bytes_of "foo") /\ text_at (cells s) TSTRING k' (bytes_of "car") /\
  symbols_ok s al /\ (100 < length al)%nat /\ constants_at (cells s) /\ can_alloc 50 s /\
  good_name (bytes_of "foo") /\ good_name (bytes_of "car").
Proof.
  destruct (check_res (on_sample2 sample_tables)
    (fun r s => match r with
       | [x; y; k; k'] =>
           match table_b (cells s) [TSTRING] x, table_b (cells s) [TSPECIAL; TSYMBOL] y, table_b (cells s) [TSTRING] (g_symbols s) with
           | Some (_, size1, al1), Some (_, size2, al2), Some (_, _, al) =>
               (size1 =? 3) && (length al1 =? 2)%nat && (size2 =? 3) && (length al2 =? 2)%nat && (100 <? length al)%nat && values_b (cells s) al
           | _, _, _ => false
           end && bool_decide (text_b (cells s) TSTRING k = Some (bytes_of "foo")) && bool_decide (text_b (cells s) TSTRING k' = Some (bytes_of "car")) &&
           bool_decide (text_b (cells s) TSPECIAL cell_f = Some (bytes_of "#f")) &&
           constants_b (cells s) && can_alloc_b 50 s
       | _ => false end)) as (r & s & E & H).
  { vm_compute. reflexivity. }
  revert E. generalize (on_sample2 sample_tables). intros R E.
  destruct r as [|x [|y [|k [|k' [|]]]]]; try discriminate H.
  apply andb_prop in H as [H B1]. apply andb_prop in H as [H B2]. apply andb_prop in H as [H B3]. apply andb_prop in H as [H B4]. apply andb_prop in H as [H B5].
  destruct (table_b (cells s) [TSTRING] x) as [[[w1 size1] al1]|] eqn:E1; [|discriminate H].
  destruct (table_b (cells s) [TSPECIAL; TSYMBOL] y) as [[[w2 size2] al2]|] eqn:E2; [|discriminate H].
  destruct (table_b (cells s) [TSTRING] (g_symbols s)) as [[[w size] al]|] eqn:E3; [|discriminate H].
  apply table_check in E1, E2, E3.
  apply andb_prop in H as [H C1]. apply andb_prop in H as [H C2]. apply andb_prop in H as [H C3]. apply andb_prop in H as [H C4]. apply andb_prop in H as [C6 C5].
  apply Z.eqb_eq in C6, C4. apply Nat.eqb_eq in C3, C5. apply Nat.ltb_lt in C2. subst size1 size2.
  apply bool_decide_eq_true in B3, B4, B5. apply text_check in B3, B4, B5. apply constants_check in B2.
  exists x, y, k, k', s, w1, w2, al1, al2, al. subst R. split; [done|]. split; [done|]. split; [done|]. split; [done|]. split; [done|].
  split; [done|]. split; [done|]. split. { split; [by exists w, size|]. split; [done|]. split; [by apply values_check|done]. }
  split; [done|]. split; [done|]. split; [by apply can_alloc_check|]. split; split; vm_compute; discriminate.
Qed.

Print Assumptions C18_intern.
Print Assumptions C18_history.
Print Assumptions C18_symbol_to_string.
Print Assumptions C18_false_refuted.
Print Assumptions C19_new_table.
Print Assumptions C19_store.
Print Assumptions C19_history_strings.
Print Assumptions C19_history_symbols.
Print Assumptions C19_other_table.
Print Assumptions C19_default_refuted.
Print Assumptions C19_high_byte_refuted.
