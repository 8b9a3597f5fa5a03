(** C20: the module: definition, reference, assignment. *)
From stdpp Require Import base gmap list.
From Coq Require Import ZArith Lia.
From Coq Require Import ZifyBool ZifyNat.
From Verif Require Import CInt Symbols Heap HeapLemmas DataModel DataSpec DataLemmas CoreProofs ListProofs ArrayProofs StringProofs HashProofs ModuleProofs Samples SamplesHash PropsHash.
Import Strings.String.StringSyntax.
Open Scope Z_scope.
Open Scope mes_scope.

(** ** Specification *)
(** A history of operations, all with the local environment [env] (key, value).  A name is a
    symbol [k] with its bytes [n]. *)
Inductive module_op : Type :=
| Define (k : Z) (n : list Z) (v : Z)       (* (module-define! module k v) *)
| Assign (k : Z) (n : list Z) (v : Z)       (* (set-cdr! (module-variable module k) v), if bound *)
| Refer (k : Z) (n : list Z).               (* (module-ref module k) *)
Definition op_name (o : module_op) : Z * list Z :=
  match o with Define k n _ => (k, n) | Assign k n _ => (k, n) | Refer k n => (k, n) end.
(** the first binding of [k] *)
Fixpoint binding (k : Z) (kvs : list (Z * Z)) : option Z :=
  match kvs with
  | [] => None
  | (k', v) :: kvs' => if k' =? k then Some v else binding k kvs'
  end.
Fixpoint rebind (k v : Z) (kvs : list (Z * Z)) : list (Z * Z) :=
  match kvs with
  | [] => []
  | (k', v') :: kvs' => if k' =? k then (k, v) :: kvs' else (k', v') :: rebind k v kvs'
  end.
(** What the references must answer: a local binding shadows the global one, the latest
    definition or assignment counts, an unbound name is *undefined*. *)
Fixpoint module_answers (env globals : list (Z * Z)) (ops : list module_op) : list Z :=
  match ops with
  | [] => []
  | Define k _ v :: ops => module_answers env ((k, v) :: globals) ops
  | Assign k _ v :: ops => module_answers env (rebind k v globals) ops
  | Refer k _ :: ops =>
      match binding k env with
      | Some v => v
      | None => match binding k globals with Some v => v | None => cell_undefined end
      end :: module_answers env globals ops
  end.
Definition valid_name (h : gmap Z cell) (n : Z * list Z) : Prop :=
  exists t, t ∈ [TSPECIAL; TSYMBOL] /\ text_at h t (fst n) (snd n) /\ 0 <= name_hash (snd n).
(** assignments are to names without a local binding *)
Definition global_assign (env : list (Z * Z)) (o : module_op) : Prop :=
  match o with Assign k _ _ => binding k env = None | _ => True end.

(** ** The program: perform the history, collect the answers *)
Fixpoint perform_module (fuel : nat) (e : Z) (ops : list module_op) : M (list Z) :=
  match ops with
  | [] => ret []
  | Define k _ v :: ops => module_define_x e k v ;;; perform_module fuel e ops
  | Assign k _ v :: ops =>
      x <- module_variable fuel e k ;;
      (if x =? cell_f then ret cell_unspecified else set_cdr_x fuel x v) ;;;
      perform_module fuel e ops
  | Refer k _ :: ops => v <- module_ref fuel e k ;; vs <- perform_module fuel e ops ;; ret (v :: vs)
  end.

(** ** Proofs *)
Definition bindings (al : list entry) : list (Z * Z) := map (fun e => (e_key e, e_value e)) al.
Lemma latest_binding k al : latest (same_key k) al = binding k (bindings al).
Proof. induction al as [|e al IH]; [done|]. cbn. rewrite IH. done. Qed.
Lemma binding_rebind k v k' kvs : binding k' (rebind k v kvs) =
  if k' =? k then match binding k kvs with Some _ => Some v | None => None end else binding k' kvs.
Proof.
  induction kvs as [|[k2 v2] kvs IH]; cbn; [by destruct (k' =? k)|].
  destruct (Z.eqb_spec k2 k) as [->|Hne]; cbn.
  - destruct (Z.eqb_spec k k') as [<-|Hne']; [by rewrite Z.eqb_refl|]. rewrite (proj2 (Z.eqb_neq k' k)) by congruence. done.
  - rewrite IH. destruct (Z.eqb_spec k' k) as [->|Hne']; [by rewrite (proj2 (Z.eqb_neq _ _) Hne)|]. done.
Qed.
Lemma module_answers_ext env ops : forall g g', (forall k, binding k g = binding k g') -> module_answers env g ops = module_answers env g' ops.
Proof.
  induction ops as [|o ops IH]; intros g g' H; [done|]. destruct o; cbn.
  - apply IH. intros k'. cbn. by destruct (k =? k').
  - apply IH. intros k'. rewrite !binding_rebind, H. by destruct (k' =? k); rewrite ?H.
  - rewrite H. f_equal. by apply IH.
Qed.

(** cells have positive addresses *)
Definition positive (h : gmap Z cell) : Prop := forall p c, h !! p = Some c -> 1 <= p.
Lemma positive_modifies P k s s' : modifies P k s s' -> 1 <= g_free s -> (forall p, P p -> 1 <= p) -> positive (cells s) -> positive (cells s').
Proof.
  intros Hm Hg HP Hpos p c Hc. apply cells_heap in Hc as [Hc Hlt]. destruct (decide (p < g_free s)) as [Hp|]; [|lia].
  destruct (decide (1 <= p)); [done|]. assert (~ P p) as HnP by (intros H; specialize (HP _ H); lia).
  rewrite (mod_keep _ _ _ _ Hm _ Hp HnP) in Hc. apply (Hpos p c). by apply heap_cells.
Qed.

Section Lookup.
  Context (fuel : nat) (s : state) (e : Z) (env : list (Z * Z)) (k : Z) (bs : list Z).
  Context (Hk : valid_name (cells s) (k, bs)) (He : env_at (cells s) e env) (Hc : constants_at (cells s)) (Hf : (length env <= fuel)%nat).

  Lemma assq_env : exists r, assq fuel k e s = ROk r s /\
    match binding k env with
    | Some v => pair_at (cells s) r k v /\ r <> cell_f
    | None => r = cell_f
    end.
  Proof.
    destruct He as (es & Hl & Hes). destruct Hk as (t & Ht & Htx & _). cbn [fst snd] in Htx.
    pose proof Htx as (ck & ckb & Hck & Hckt & _).
    assert (t = TSPECIAL \/ t = TSYMBOL) as Htt by set_solver.
    assert (cells s ⊆ heap s) as Hsub by apply cells_sub.
    destruct (assq_ok fuel k e es s) as (r & Er & Hr).
    { by eapply list_at_mono. }
    { apply Forall2_length in Hes. lia. }
    { destruct (cell_nil_type _ Hc) as (c & ? & ?). exists c. split; [by eapply lookup_weaken|done]. }
    { exists ck. by eapply lookup_weaken. }
    { intros p Hp. apply elem_of_list_lookup in Hp as (j & Hj). destruct (Forall2_lookup_l _ _ _ _ _ Hes Hj) as ([k' v'] & Hen & Hpr & (ck' & Hck')).
      exists k', v'. split; [by eapply pair_at_mono|]. exists ck, ck'. do 2 (split; [by eapply lookup_weaken|]). split.
      - intros [F|F]; rewrite F in Hckt; destruct Htt as [-> | ->]; discriminate.
      - intros F; rewrite F in Hckt; destruct Htt as [-> | ->]; discriminate. }
    exists r. split; [done|].
    assert (forall p a d, pair_at (cells s) p a d -> p <> cell_f) as Hpf.
    { intros p a d (c & Hcc & Hct & _) ->. destruct (cell_f_type _ Hc) as (c' & Hc' & Hct'). rewrite Hcc in Hc'. injection Hc' as <-. rewrite Hct in Hct'. discriminate. }
    assert (forall p k' v', pair_at (cells s) p k' v' -> (exists k2 v2, pair_at (heap s) p k2 v2 /\ eqv (heap s) k k2) <-> k' = k) as Hm.
    { intros p k' v' Hp. assert (pair_at (heap s) p k' v') as Hp' by by eapply pair_at_mono. split.
      - intros (k2 & v2 & Hp2 & Hrr). destruct (pair_at_fun _ _ _ _ _ _ Hp' Hp2) as [<- _].
        destruct Hrr as [->|Hrr]; [done|]. exfalso. assert (heap s !! k = Some ck) as Hck1 by by eapply lookup_weaken.
        destruct Hrr as [(n & (c & Hcc & Hct & _) & _)|[(n & (c & Hcc & Hct & _) & _)|(b & (c & ? & Hcc & Hct & _) & _)]];
          rewrite Hck1 in Hcc; injection Hcc as <-; rewrite Hct in Hckt; destruct Htt as [-> | ->]; discriminate.
      - intros ->. exists k, v'. split; [done|]. by left. }
    clear -Hr Hes Hm Hpf. revert env Hes.
    revert Hr. induction es as [|p es IH]; intros Hr env0 Hes; inversion Hes as [|? [k' v'] ? env' [Hp _] Hes']; subst.
    - cbn. destruct Hr as [(i & Hi & _)|[-> _]]; [by destruct i|done].
    - cbn [binding fst snd] in *. destruct (Z.eqb_spec k' k) as [->|Hne].
      + assert (r = p) as ->; [|split; [done|by eapply Hpf]].
        destruct Hr as [([|i] & Hi & _ & Hfirst)|[-> Hn]]; [by injection Hi| |].
        * exfalso. apply (Hfirst O p); [lia|done|]. by apply (Hm _ _ _ Hp).
        * exfalso. apply (Hn p); [set_solver|]. by apply (Hm _ _ _ Hp).
      + apply IH; [|done]. destruct Hr as [([|i] & Hi & Hmr & Hfirst)|[-> Hn]].
        * injection Hi as <-. exfalso. apply Hne. by apply (Hm _ _ _ Hp).
        * left. exists i. split; [done|]. split; [done|]. intros j x Hj. apply (Hfirst (S j)). lia.
        * right. split; [done|]. intros x Hx. apply Hn. set_solver.
  Qed.

  Context (w size : Z) (al : list entry).
  Context (Hm : module_at s w size al) (Hfl : (length al < fuel)%nat) (Ha : can_alloc 1 s).

  Lemma module_variable_ok : exists r s1 n, module_variable fuel e k s = ROk r s1 /\ n <= 1 /\ modifies nothing n s s1 /\ M0 s1 = M0 s /\
    match binding k env with
    | Some v => pair_at (cells s) r k v /\ r <> cell_f
    | None => match binding k (bindings al) with
              | Some v => pair_at (cells s) r k v /\ r <> cell_f /\ is_handle (cells s) w size k bs r
              | None => r = cell_f
              end
    end.
  Proof.
    unfold module_variable. destruct assq_env as (r & Er & Hr). rewrite (bind_ok _ _ _ _ _ Er).
    destruct (binding k env) as [v|].
    - destruct Hr as [Hp Hne]. rewrite (proj2 (Z.eqb_neq _ _) Hne). exists r, s, 0. split; [done|]. split; [lia|]. split; [|done]. apply modifies_refl.
    - subst r. rewrite Z.eqb_refl. destruct Hm as (v & sls & g & Harr & Hg & Hdis & Ht). rewrite bind_gets.
      apply array_heap in Harr. erewrite bind_ok.
      2:{ apply (struct_ref_ok (M0 s) v sls 5%nat); [done| |]. { apply lookup_lt_Some in Hg. lia. } apply get_ref. by apply (proj2 Harr 5%nat). }
      pose proof (cell_f_type _ Hc) as Hff. pose proof Hff as (cf & Hcf & Htf). apply cells_heap in Hcf as [Hcf Hcfl].
      destruct (hashq_handle_ok fuel g w size al k bs cell_f cf s) as (r & E & Hr); try done.
      { by apply cell_nil_type. }
      exists r, (with_cell (Cell TNUMBER 0 size []) s), 1. split; [done|]. split; [lia|]. split; [apply modifies_with_cell|]. split; [done|].
      rewrite latest_binding in Hr. destruct (binding k (bindings al)) as [v'|]; [done|]. rewrite Htf, andb_false_r in Hr. done.
  Qed.
End Lookup.

Lemma module_mono P k s s' w size al : modifies P k s s' -> cells s ⊆ cells s' -> module_at s w size al -> module_at s' w size al.
Proof.
  intros [_ _ _ (h & ->)] Hs (v & sls & g & Harr & Hg & Hd & Ht). exists v, sls, g. split; [by eapply array_mono|].
  split; [done|]. split; [done|]. by eapply table_mono.
Qed.
Lemma env_mono h h' e env : h ⊆ h' -> env_at h e env -> env_at h' e env.
Proof.
  intros Hs (es & Hl & Hf). exists es. split; [by eapply list_at_mono|]. eapply Forall2_impl; [exact Hf|].
  intros p kv [Hp (c & Hc)]. split; [by eapply pair_at_mono|]. exists c. by eapply lookup_weaken.
Qed.
Lemma name_mono h h' n : h ⊆ h' -> valid_name h n -> valid_name h' n.
Proof. intros Hs (t & Ht & Htx & Hh). exists t. split; [done|]. split; [by eapply text_at_mono|done]. Qed.
Lemma name_keeps h h' n : keeps h h' -> valid_name h n -> valid_name h' n.
Proof.
  intros Hs (t & Ht & Htx & Hh). exists t. split; [done|]. split; [|done]. eapply text_keeps; [done| |done].
  assert (t = TSPECIAL \/ t = TSYMBOL) as [-> | ->] by set_solver; discriminate.
Qed.
(** an environment refers to no slot of a vector *)
Definition env_ok (h : gmap Z cell) (e : Z) (env : list (Z * Z)) : Prop :=
  env_at h e env /\ Forall (fun kv => exists t, t ∈ [TSPECIAL; TSYMBOL] /\ exists bs, text_at h t (fst kv) bs) env.
Lemma env_keeps h h' e env : keeps h h' -> env_ok h e env -> env_ok h' e env.
Proof.
  intros Hk [(es & Hl & Hf) Hn].
  assert (Forall (fun kv => exists t, t ∈ [TSPECIAL; TSYMBOL] /\ exists bs, text_at h' t (fst kv) bs) env) as Hn'.
  { eapply Forall_impl; [exact Hn|]. intros kv (t & Ht & bs & Htx). exists t. split; [done|]. exists bs. eapply text_keeps; [done| |done].
    assert (t = TSPECIAL \/ t = TSYMBOL) as [-> | ->] by set_solver; discriminate. }
  split; [|done]. exists es. split; [by eapply list_keeps|].
  eapply Forall2_same_length_lookup_2; [by eapply Forall2_length|]. intros i p kv Hi Hkv.
  destruct (Forall2_lookup_lr _ _ _ _ _ _ Hf Hi Hkv) as [Hp _]. split; [by eapply pair_keeps|].
  rewrite Forall_lookup in Hn'. destruct (Hn' _ _ Hkv) as (t & _ & bs & c & cb & Hc & _). by exists c.
Qed.

(** What a history starts from and leaves: the module with global bindings [al], the
    environment [env], the predefined objects. *)
Definition ready (s : state) (w size e : Z) (env : list (Z * Z)) (al : list entry) : Prop :=
  module_at s w size al /\ env_ok (cells s) e env /\ constants_at (cells s) /\ positive (cells s).

Lemma define_ok w size e env al k bs v s : ready s w size e env al -> valid_name (cells s) (k, bs) -> can_alloc 4 s ->
  exists s' n, module_define_x e k v s = ROk v s' /\ 0 <= n <= 4 /\ g_free s' = g_free s + n /\ keeps (cells s) (cells s') /\
    (forall m, 0 <= m -> can_alloc (4 + m) s -> can_alloc m s') /\
    ready s' w size e env (Entry k bs v :: al).
Proof.
  intros (Hm & He & Hc & Hpos) Hk Ha. pose proof Hm as (vv & sls & g & Harr & Hg & Hd & Ht).
  unfold module_define_x. rewrite bind_gets. pose proof (array_heap _ _ _ _ _ Harr) as Harr'. erewrite bind_ok.
  2:{ apply (struct_ref_ok (M0 s) vv sls 5%nat); [done| |]. { apply lookup_lt_Some in Hg. lia. } apply get_ref. by apply (proj2 Harr' 5%nat). }
  destruct (hashq_set_ok g w size al k bs v s) as (s' & n & E & Hn & Hmod & Ht'); try done.
  { by apply cell_nil_type. }
  pose proof (table_keeps _ _ _ _ _ _ _ _ _ Ht Hmod) as Hkp.
  exists s', n. split; [done|]. pose proof (mod_size _ _ _ _ Hmod). split; [lia|]. split; [by apply mod_free in Hmod|]. split; [done|]. split.
  { intros m Hm0 Hcan. eapply modifies_can_alloc; [done|eapply can_alloc_le; [exact Hcan|lia]|lia]. }
  assert (0 < size /\ 1 <= w) as [Hsz Hw] by (destruct Ht as (? & ? & ? & ? & ? & ? & Ht); split; apply Ht).
  pose proof (Z.mod_pos_bound (name_hash bs) size Hsz).
  split; [|split; [|split]].
  - assert (M0 s' = M0 s) as HM by (destruct (mod_rest _ _ _ _ Hmod) as (h & ->); done).
    exists vv, sls, g. rewrite HM. split; [|done]. eapply array_keeps; [done|discriminate|done|]. intros j Hj.
    assert (exists c, cells s !! (vv + Z.of_nat j) = Some c) as (c & Hcc).
    { destruct (lookup_lt_is_Some_2 sls j Hj) as (sl & Hsl). destruct Harr as [_ Harr]. specialize (Harr _ _ Hsl).
      destruct sl; [destruct Harr as (c & Hcc & _)|destruct Harr as ((c & Hcc & _) & _)|destruct Harr as ((c & Hcc & _) & _)]; by exists c. }
    rewrite Hcc. eapply modifies_old; [exact Hmod|done|]. lia.
  - by eapply env_keeps.
  - by eapply constants_keeps.
  - eapply positive_modifies; [exact Hmod| | |done]. { destruct Ha; lia. } intros p <-. lia.
Qed.

Lemma ready_mono n s s' w size e env al : modifies nothing n s s' -> 1 <= g_free s -> ready s w size e env al -> ready s' w size e env al.
Proof.
  intros Hm Hg (H1 & [H2 H2'] & H3 & H4). pose proof (modifies_cells _ _ _ Hm) as Hs. split; [by eapply module_mono|]. split; [split|split].
  - by eapply env_mono.
  - eapply Forall_impl; [exact H2'|]. intros kv (t & Ht & bs & Htx). exists t. split; [done|]. exists bs. by eapply text_at_mono.
  - by eapply constants_mono.
  - eapply positive_modifies; [done|done| |done]. by intros p [].
Qed.
Lemma handle_mono h h' w size k bs r : h ⊆ h' -> is_handle h w size k bs r -> is_handle h' w size k bs r.
Proof.
  intros Hs (q & es & j & H1 & H2 & H3 & (v0 & H4) & H5). exists q, es, j. split; [by eapply slot_at_mono|]. split; [by eapply list_at_mono|].
  split; [done|]. split; [exists v0; by eapply pair_at_mono|]. intros j' e Hj He. destruct (H5 _ _ Hj He) as (k' & v' & Hp & Hne).
  exists k', v'. split; [by eapply pair_at_mono|done].
Qed.

Lemma not_bound k env i kv : binding k env = None -> env !! i = Some kv -> fst kv <> k.
Proof.
  revert i. induction env as [|[k' v'] env IH]; intros i H Hi; [done|]. cbn in H. destruct (Z.eqb_spec k' k) as [->|Hne]; [done|].
  destruct i as [|i]; [injection Hi as <-; done|by eapply IH].
Qed.

Lemma assign_ok fuel w size e env al k bs v s r v0 : ready s w size e env al -> valid_name (cells s) (k, bs) -> binding k env = None ->
  pair_at (cells s) r k v0 -> is_handle (cells s) w size k bs r -> can_alloc 0 s ->
  exists s' al', set_cdr_x fuel r v s = ROk cell_unspecified s' /\ (forall m, can_alloc m s -> can_alloc m s') /\
    ready s' w size e env al' /\ (forall n, valid_name (cells s) n -> valid_name (cells s') n) /\ length al' = length al /\
    binding k (bindings al') = Some v /\ forall k', k' <> k -> binding k' (bindings al') = binding k' (bindings al).
Proof.
  intros (Hm & [He Hen] & Hc & Hpos) Hk Hnb Hr Hh Ha. pose proof Hm as (vv & sls & g & Harr & Hg & Hd & Ht).
  pose proof Hr as (cr & Hcr & Htr & Hcar & Hcdr).
  pose proof (Hpos _ _ Hcr) as Hr1. pose proof Hcr as Hcr'. apply cells_heap in Hcr' as [Hcrh Hrlt].
  set (s' := put r (Cell (c_ty cr) (c_car cr) v (c_bytes cr)) s).
  assert (cells s' = put_cdr (c_bytes cr) r k v (cells s)) as Ecells.
  { unfold s'. rewrite cells_put by done. unfold put_cdr. by rewrite Htr, Hcar. }
  destruct (handle_assign _ _ _ _ _ _ _ (c_bytes cr) _ v Ht Hk Hh) as (al' & Ht' & Hlen & Hthis & Hoth).
  exists s', al'. split.
  { unfold set_cdr_x. erewrite bind_ok by by apply ty_s. rewrite Htr, Z.eqb_refl, bind_ret.
    erewrite bind_ok. 2:{ apply set_cdr_s; [done|]. destruct Ha; lia. } done. }
  split; [done|].
  assert (forall n, valid_name (cells s) n -> valid_name (cells s') n) as Hvn.
  { intros n (t & Htt & Htx & Hn). exists t. split; [done|]. split; [|done]. rewrite Ecells. eapply put_text; [done| |done].
    assert (t = TSPECIAL \/ t = TSYMBOL) as [-> | ->] by set_solver; discriminate. }
  split; [|split; [done|split; [done|split; [by rewrite <- latest_binding|]]]].
  2:{ intros k' Hne. rewrite <- !latest_binding. by apply Hoth. }
  split; [|split; [split|split]].
  - exists vv, sls, g. rewrite Ecells. split; [|done]. eapply put_array; [done|discriminate|done].
  - destruct He as (es & Hl & Hf). exists es.
    assert (forall i p, es !! i = Some p -> exists a d, pair_at (cells s) p a d /\ p <> r) as Hpairs.
    { intros i p Hi. destruct (Forall2_lookup_l _ _ _ _ _ Hf Hi) as ([k' v'] & Hkv & Hp & _). exists k', v'. split; [done|].
      cbn in Hp. intros ->. destruct (pair_at_fun _ _ _ _ _ _ Hp Hr) as [-> _]. by apply (not_bound _ _ _ _ Hnb Hkv). }
    split.
    + clear Hf. revert Hpairs. induction Hl as [|p a d vs Hp Hpr Hl IH]; intros Hpairs; [constructor|]. econstructor; [done| |apply IH].
      * rewrite Ecells. apply put_pair; [done|]. intros ->. destruct (pair_at_fun _ _ _ _ _ _ Hpr Hr) as [-> _].
        destruct (Hpairs O k eq_refl) as (a' & d' & Hp' & _). eapply sym_not_pair; first [exact Ht|exact Hh|exact Hp'|exact Hk].
      * intros i p' Hi. apply (Hpairs (S i)). done.
    + eapply Forall2_same_length_lookup_2; [by eapply Forall2_length|]. intros i p kv Hi Hkv.
      destruct (Forall2_lookup_lr _ _ _ _ _ _ Hf Hi Hkv) as [Hp (c & Hcc)]. destruct (Hpairs _ _ Hi) as (_ & _ & _ & Hne).
      rewrite Ecells. split; [by apply put_pair|]. unfold put_cdr. destruct (decide (fst kv = r)) as [->|]; [rewrite lookup_insert|rewrite lookup_insert_ne by done]; eauto.
  - eapply Forall_impl; [exact Hen|]. intros kv (t & Htt & bs' & Htx). exists t. split; [done|]. exists bs'. rewrite Ecells. eapply put_text; [done| |done].
    assert (t = TSPECIAL \/ t = TSYMBOL) as [-> | ->] by set_solver; discriminate.
  - eapply Forall_impl; [exact Hc|]. intros x (c & Hcc & Htc). exists c. split; [|done]. rewrite Ecells. eapply put_not_pair; [done|done|].
    rewrite Htc. destruct (snd (fst x)); discriminate.
  - intros p c. rewrite Ecells. unfold put_cdr. destruct (decide (p = r)) as [->|]; [lia|]. rewrite lookup_insert_ne by done. apply Hpos.
Qed.

Lemma free_pos s n : can_alloc n s -> 1 <= g_free s.
Proof. intros (? & ?). lia. Qed.

(** ** C20, full history: module-ref sees the local binding, else the latest definition or
    assignment, else *undefined*. *)
Theorem C20_history fuel w size e env ops : forall al s, ready s w size e env al ->
  Forall (fun o => valid_name (cells s) (op_name o)) ops -> Forall (global_assign env) ops ->
  (length env <= fuel)%nat -> (length al + length ops < fuel)%nat -> can_alloc (4 * Z.of_nat (length ops)) s ->
  exists s', perform_module fuel e ops s = ROk (module_answers env (bindings al) ops) s'.
Proof.
  induction ops as [|o ops IH]; intros al s Hr Hv Hg Hfe Hf Ha; [by exists s|].
  inversion Hv as [|? ? Ho Hos]; subst. inversion Hg as [|? ? Hgo Hgos]; subst. cbn [length] in *.
  pose proof (free_pos _ _ Ha) as Hfree.
  destruct o as [k n v|k n v|k n]; cbn [op_name] in Ho; cbn [perform_module module_answers].
  - destruct (define_ok w size e env al k n v s) as (s' & m & E & Hm & Hfr & Hkp & Hcan & Hr'); [done|done|eapply can_alloc_le; [done|lia]|].
    rewrite (bind_ok _ _ _ _ _ E). destruct (IH (Entry k n v :: al) s') as (s2 & E2); [done| |done|done|cbn; lia| |].
    + eapply Forall_impl; [exact Hos|]. intros o'. by apply name_keeps.
    + apply Hcan; [lia|]. eapply can_alloc_le; [done|lia].
    + exists s2. rewrite E2. done.
  - destruct Hr as (Hm & He & Hc & Hpos).
    destruct (module_variable_ok fuel s e env k n) with (w := w) (size := size) (al := al) as (r & s1 & m & E & Hn & Hmod & HM & Hr1); [done|apply He|done|done|done|lia|eapply can_alloc_le; [done|lia]|].
    rewrite (bind_ok _ _ _ _ _ E). pose proof (modifies_cells _ _ _ Hmod) as Hsub. cbn [global_assign] in Hgo. rewrite Hgo in Hr1.
    assert (ready s1 w size e env al) as Hr' by (eapply ready_mono; [done|done|]; done).
    assert (can_alloc (4 * Z.of_nat (length ops)) s1) as Ha1 by (eapply modifies_can_alloc; [done|eapply can_alloc_le; [done|lia]|lia]).
    assert (Forall (fun o => valid_name (cells s1) (op_name o)) ops) as Hv1 by (eapply Forall_impl; [exact Hos|]; intros o'; by apply name_mono).
    destruct (binding k (bindings al)) as [v0|] eqn:Eb.
    + destruct Hr1 as (Hp & Hne & Hh). rewrite (proj2 (Z.eqb_neq _ _) Hne).
      destruct (assign_ok fuel w size e env al k n v s1 r v0) as (s2 & al' & E2 & Hcan & Hr2 & Hv2 & Hlen & Hthis & Hoth); [done|by eapply name_mono|done|by eapply pair_at_mono|by eapply handle_mono|eapply can_alloc_le; [done|lia]|].
      rewrite (bind_ok _ _ _ _ _ E2). destruct (IH al' s2) as (s3 & E3); [done| |done|done|lia|by apply Hcan|].
      * eapply Forall_impl; [exact Hv1|]. intros o'. apply Hv2.
      * exists s3. rewrite E3. f_equal. apply module_answers_ext. intros k'. rewrite binding_rebind, Eb.
        destruct (Z.eqb_spec k' k) as [->|]; [done|by apply Hoth].
    + subst r. rewrite Z.eqb_refl, bind_ret. destruct (IH al s1) as (s3 & E3); [done|done|done|done|lia|done|].
      exists s3. rewrite E3. f_equal. apply module_answers_ext. intros k'. rewrite binding_rebind, Eb.
      destruct (Z.eqb_spec k' k) as [->|]; done.
  - pose proof Hr as (Hm & He & Hc & Hpos).
    destruct (module_variable_ok fuel s e env k n) with (w := w) (size := size) (al := al) as (r & s1 & m & E & Hn & Hmod & HM & Hr1); [done|apply He|done|done|done|lia|eapply can_alloc_le; [done|lia]|].
    pose proof (modifies_cells _ _ _ Hmod) as Hsub.
    destruct (IH al s1) as (s3 & E3); [eapply ready_mono; done| |done|done|lia| |].
    { eapply Forall_impl; [exact Hos|]; intros o'; by apply name_mono. }
    { eapply modifies_can_alloc; [done|eapply can_alloc_le; [done|lia]|lia]. }
    exists s3. unfold module_ref. rewrite bind_assoc, (bind_ok _ _ _ _ _ E).
    assert (forall v, pair_at (cells s) r k v -> cdr_of r s1 = ROk v s1) as Hcdr.
    { intros v Hp. eapply cdr_of_pair. eapply pair_at_mono; [apply cells_sub|]. by eapply pair_at_mono. }
    destruct (binding k env) as [v|]; [|destruct (binding k (bindings al)) as [v|]].
    + destruct Hr1 as [Hp Hne]. rewrite (proj2 (Z.eqb_neq _ _) Hne), (bind_ok _ _ _ _ _ (Hcdr _ Hp)), (bind_ok _ _ _ _ _ E3). done.
    + destruct Hr1 as (Hp & Hne & _). rewrite (proj2 (Z.eqb_neq _ _) Hne), (bind_ok _ _ _ _ _ (Hcdr _ Hp)), (bind_ok _ _ _ _ _ E3). done.
    + subst r. rewrite Z.eqb_refl, bind_ret, (bind_ok _ _ _ _ _ E3). done.
Qed.

(** An assignment through a variable obtained earlier is seen by later references (the history
    above), but a *re-definition* is not seen through a variable obtained earlier: the variable keeps
    the old value, whatever the module, name and values. *)
Theorem C20_redefinition_refuted fuel w size e env al k bs v0 v s : ready s w size e env al -> valid_name (cells s) (k, bs) ->
  binding k env = None -> binding k (bindings al) = Some v0 -> v <> v0 -> (length env <= fuel)%nat -> (length al + 2 < fuel)%nat -> can_alloc 8 s ->
  exists x old new s', (x <- module_variable fuel e k ;; module_define_x e k v ;;; a <- cdr_of x ;; b <- module_ref fuel e k ;; ret (x, a, b)) s
      = ROk (x, old, new) s' /\ old = v0 /\ new = v /\ old <> new.
Proof.
  intros Hr Hk Hnb Hb Hne Hfe Hf Ha. pose proof (free_pos _ _ Ha) as Hfree. pose proof Hr as (Hm & He & Hc & Hpos).
  destruct (module_variable_ok fuel s e env k bs) with (w := w) (size := size) (al := al) as (r & s1 & m & E & Hn & Hmod & HM & Hr1); [done|apply He|done|done|done|lia|eapply can_alloc_le; [done|lia]|].
  rewrite Hnb, Hb in Hr1. destruct Hr1 as (Hp & Hrf & _). pose proof (modifies_cells _ _ _ Hmod) as Hsub.
  assert (can_alloc 5 s1) as Ha1 by (eapply modifies_can_alloc; [done|eapply can_alloc_le; [done|lia]|lia]).
  destruct (define_ok w size e env al k bs v s1) as (s2 & m2 & E2 & Hm2 & Hfr2 & Hkp & Hcan & Hr2); [by eapply ready_mono|by eapply name_mono|eapply can_alloc_le; [done|lia]|].
  pose proof Hr2 as (Hmm & He2 & Hc2 & Hpos2).
  destruct (module_variable_ok fuel s2 e env k bs) with (w := w) (size := size) (al := Entry k bs v :: al) as (r2 & s3 & m3 & E3 & Hn3 & Hmod3 & HM3 & Hr3); [|apply He2|done|done|done|cbn; lia|apply Hcan; [lia|done]|].
  { eapply name_keeps; [done|]. by eapply name_mono. }
  rewrite Hnb in Hr3. cbn in Hr3. rewrite Z.eqb_refl in Hr3. destruct Hr3 as (Hp3 & Hrf3 & _).
  exists r, v0, v, s3. split; [|done]. rewrite (bind_ok _ _ _ _ _ E), (bind_ok _ _ _ _ _ E2).
  erewrite bind_ok. 2:{ eapply cdr_of_pair. eapply pair_at_mono; [apply cells_sub|]. eapply pair_keeps; [done|]. by eapply pair_at_mono. }
  unfold module_ref. rewrite bind_assoc, (bind_ok _ _ _ _ _ E3), (proj2 (Z.eqb_neq _ _) Hrf3).
  erewrite bind_ok. 2:{ eapply cdr_of_pair. eapply pair_at_mono; [apply cells_sub|]. eapply pair_at_mono; [|exact Hp3]. by eapply modifies_cells. }
  done.
Qed.

(** The hypotheses are met in a running interpreter: its initial module, a local environment. *)
Definition sample_env : list (M Z) := [list_m [cons cell_symbol_car cell_t; cons cell_symbol_lambda cell_nil]].
Example module_hypotheses_hold : exists e s w size al,
  on_sample2 sample_env = ROk [e] s /\
  ready s w size e [(cell_symbol_car, cell_t); (cell_symbol_lambda, cell_nil)] al /\
  valid_name (cells s) (cell_symbol_lambda, bytes_of "lambda") /\ valid_name (cells s) (cell_symbol_mes_version, bytes_of "%version") /\
  binding cell_symbol_mes_version [(cell_symbol_car, cell_t); (cell_symbol_lambda, cell_nil)] = None /\
  binding cell_symbol_mes_version (bindings al) <> None /\ can_alloc 50 s.
Proof.
  destruct (check_res (on_sample2 sample_env)
    (fun r s => match r with
       | [e] =>
           match module_b s with
           | Some (_, _, al) => match binding cell_symbol_mes_version (bindings al) with Some _ => true | None => false end
           | None => false end &&
           match list_b 10 (cells s) e with
           | Some [a; b] =>
              match cells s !! a, cells s !! b with
              | Some ca, Some cb => (c_ty ca =? TPAIR) && (c_car ca =? cell_symbol_car) && (c_cdr ca =? cell_t) &&
                 (c_ty cb =? TPAIR) && (c_car cb =? cell_symbol_lambda) && (c_cdr cb =? cell_nil)
              | _, _ => false end
           | _ => false end &&
           bool_decide (key_b (cells s) [TSPECIAL; TSYMBOL] cell_symbol_lambda = Some (bytes_of "lambda")) &&
           bool_decide (key_b (cells s) [TSPECIAL; TSYMBOL] cell_symbol_car = Some (bytes_of "car")) &&
           bool_decide (key_b (cells s) [TSPECIAL; TSYMBOL] cell_symbol_mes_version = Some (bytes_of "%version")) &&
           constants_b (cells s) && positive_b (cells s) && can_alloc_b 50 s
       | _ => false end)) as (r & s & E & H).
  { vm_compute. reflexivity. }
  revert E. generalize (on_sample2 sample_env). intros R E.
  destruct r as [|e [|]]; try discriminate H.
  apply andb_prop in H as [H B1]. apply andb_prop in H as [H B2]. apply andb_prop in H as [H B3]. apply andb_prop in H as [H B4]. apply andb_prop in H as [H B5].
  apply andb_prop in H as [H B6]. apply andb_prop in H as [H B7].
  destruct (module_b s) as [[[w size] al]|] eqn:E1; [|discriminate H]. apply module_check in E1.
  destruct (list_b 10 (cells s) e) as [[|a [|b [|]]]|] eqn:E2; try discriminate B7. apply list_check in E2.
  destruct (cells s !! a) as [ca|] eqn:Ea; [|discriminate B7]. destruct (cells s !! b) as [cb|] eqn:Eb; [|discriminate B7].
  apply bool_decide_eq_true in B4, B5, B6. apply key_check in B4, B5, B6. apply constants_check in B3.
  exists e, s, w, size, al. subst R. split; [done|]. split; [|split; [exact B6|split; [exact B4|split; [done|split; [|by apply can_alloc_check]]]]].
  2:{ intros F. rewrite F in H. discriminate H. }
  split; [done|]. split; [|split; [done|exact (positive_check _ B2)]].
  destruct B5 as (t1 & Ht1 & Htx1 & _), B6 as (t2 & Ht2 & Htx2 & _). split.
  - exists [a; b]. split; [done|]. apply Forall2_cons_2; [|apply Forall2_cons_2; [|by apply Forall2_nil_2]]; cbn [fst snd].
    + split; [exists ca; split; [done|]; lia|]. destruct Htx1 as (c & ? & ? & _). by exists c.
    + split; [exists cb; split; [done|]; lia|]. destruct Htx2 as (c & ? & ? & _). by exists c.
  - repeat constructor; cbn [fst].
    + exists t1. split; [done|]. eauto.
    + exists t2. split; [done|]. eauto.
Qed.

Print Assumptions C20_history.
Print Assumptions C20_redefinition_refuted.
