(** Decision procedures that show that concrete states of the interpreter meet the hypotheses of
    the theorem about programs.  No theorem depends on them. *)
From stdpp Require Import base gmap list fin_maps.
From Coq Require Import ZArith Lia.
From Coq Require Import ZifyBool ZifyNat.
From Verif Require Import CInt Symbols Heap HeapLemmas GcModel GcSpec GcCheck DataModel DataSpec DataLemmas.
From Verif Require Import EvalModel Rep EvalSpec EvalRep EvalRun PrimModel EvalPrimSpec EvalCheck TopSpec TopRep.
Open Scope Z_scope.

Local Instance aslot_dec : EqDecision aslot.
Proof. solve_decision. Defined.

Section check.
Context (L : naming) (s : state).
Notation h := (heap s).
Notation σ := (abs_heap L s).
Notation name := (name L).
Notation inL := (inL L).

(** * Text *)
Definition txt_pair (p : Z) : option (Z * Z) :=
  if negb (isloc L p) && bool_decide (p ∈ nm_txt L) then
    match h !! p with Some c => if c_ty c =? TPAIR then Some (c_car c, c_cdr c) else None | None => None end
  else None.
Lemma txt_pair_ok p a d : txt_pair p = Some (a, d) -> name p = Txt p /\ σ !! Txt p = Some (opair (name a) (name d)).
Proof.
  unfold txt_pair, isloc. destruct (negb _ && _) eqn:E; [|done]. apply andb_prop in E as [E1%negb_true_iff%bool_decide_eq_false E2%bool_decide_eq_true]. intros H.
  assert (name p = Txt p) as Np. { unfold EvalCheck.name. by rewrite decide_False, decide_True. } split; [done|]. rewrite <- Np, abs_lookup.
  destruct (h !! p) as [c|]; [|done]. destruct (Z.eqb_spec (c_ty c) TPAIR) as [T|]; [|done]. injection H as <- <-.
  cbn. unfold abs_obj, is_array, GcSpec.is_bytes. rewrite T. done.
Qed.
Fixpoint dec_tree (n : nat) (p : Z) : option tree :=
  match n with
  | O => None
  | S n' => match txt_pair p with
            | Some (a, d) => match dec_tree n' a, dec_tree n' d with Some ta, Some td => Some (Node p ta td) | _, _ => None end
            | None => match name p with Txt _ => None | i => Some (Leaf i) end
            end
  end.
Lemma dec_tree_ok n : forall p t, dec_tree n p = Some t -> tree_at σ t /\ root t = name p.
Proof.
  induction n as [|n IH]; intros p t H; [done|]. cbn [dec_tree] in H. destruct (txt_pair p) as [[a d]|] eqn:E.
  - destruct (dec_tree n a) as [ta|] eqn:Ea; [|done]. destruct (dec_tree n d) as [td|] eqn:Ed; [|done]. injection H as <-. apply txt_pair_ok in E as [Np E].
    apply IH in Ea as [A1 A2]. apply IH in Ed as [D1 D2]. split; [|done]. constructor; [by rewrite A2, D2|done..].
  - destruct (name p) eqn:Np; try done; injection H as <-; (split; [by constructor|done]).
Qed.

(** * Expressions *)
Fixpoint dp_names (t : tree) : option (list Z * option Z) :=
  match t with
  | Leaf (Imp p) => if p =? cell_nil then Some ([], None) else if name_b L s p then Some ([], Some p) else None
  | Node _ (Leaf (Imp x)) d => if name_b L s x then match dp_names d with Some (xs, r) => Some (x :: xs, r) | None => None end else None
  | _ => None
  end.
Lemma dp_names_ok t : forall xs r, dp_names t = Some (xs, r) -> names_tree σ xs r t.
Proof.
  induction t as [i|k a _ d IH]; intros xs r H; cbn in H.
  - destruct i as [|p| |]; try done. destruct (Z.eqb_spec p cell_nil) as [->|]; [injection H as <- <-; constructor|]. destruct (name_b L s p) eqn:E; [|done]. injection H as <- <-.
    constructor. by apply name_b_ok in E as [_ ?].
  - destruct a as [[|x| |]|]; try done. destruct (name_b L s x) eqn:E; [|done]. destruct (dp_names d) as [[xs' r']|]; [|done]. injection H as <- <-. constructor; [by apply name_b_ok in E as [_ ?]|by apply IH].
Qed.
Definition dp_leaf (p : Z) : option exp :=
  if self_b L s p then if bool_decide (p ∈ heads) then None else match dec_val L s p with Some v => Some (EConst v) | None => None end
  else if name_b L s p then Some (EVar p)
  else match var_b L s p with Some l => Some (EGlobal l) | None => None end.
Lemma dp_leaf_ok p e : dp_leaf p = Some e -> parse σ e (Sym p).
Proof.
  unfold dp_leaf. destruct (self_b L s p) eqn:E1.
  - case_bool_decide as Hh; [done|]. destruct (dec_val L s p) as [v|] eqn:Ev; [|done]. intros [= <-]. destruct (self_b_ok _ _ _ E1) as [Np (o & Ho & Hs)]. apply dec_val_ok in Ev. rewrite Np in Ev. by econstructor.
  - destruct (name_b L s p) eqn:E2. { intros [= <-]. apply name_b_ok in E2 as [_ ?]. by constructor. }
    destruct (var_b L s p) as [l|] eqn:E3; [|done]. intros [= <-]. apply var_b_ok in E3 as [_ ?]. by constructor.
Qed.
Definition operator_b (e : exp) : bool := match e with EConst _ => false | _ => true end.
Fixpoint dps (f : tree -> option exp) (t : tree) : option (list exp) :=
  match t with
  | Leaf (Imp p) => if p =? cell_nil then Some [] else None
  | Node _ a d => match f a, dps f d with Some e, Some es => Some (e :: es) | _, _ => None end
  | _ => None
  end.
Lemma dps_ok f t : (forall t e, f t = Some e -> parse σ e t) -> forall es, dps f t = Some es -> parses σ es t.
Proof.
  intros Hf. induction t as [i|k a _ d IH]; intros es H; cbn in H.
  - destruct i as [|p| |]; try done. destruct (Z.eqb_spec p cell_nil) as [->|]; [|done]. injection H as <-. constructor.
  - destruct (f a) as [e|] eqn:Ea; [|done]. destruct (dps f d) as [es'|]; [|done]. injection H as <-. constructor; [by apply Hf|by apply IH].
Qed.
Fixpoint dp (n : nat) (t : tree) : option exp :=
  match n with
  | O => None
  | S n' =>
      match t with
      | Leaf (Imp p) => dp_leaf p
      | Leaf _ => None
      | Node _ (Leaf (Imp q)) d =>
          if q =? cell_symbol_if then
            match dps (dp n') d with Some [c; t; e] => Some (EIf c t e) | Some [c; t] => Some (EWhen c t) | _ => None end
          else if q =? cell_symbol_lambda then
            match d with Node _ fm b => match dp_names fm, dps (dp n') b with Some (xs, r), Some bd => Some (ELam xs r bd) | _, _ => None end | _ => None end
          else if q =? cell_symbol_set_x then
            match dps (dp n') d with Some [EVar x; e] => Some (ESet x e) | Some [EGlobal l; e] => Some (ESetGlobal l e) | _ => None end
          else if q =? cell_symbol_define then
            match d with
            | Node _ (Leaf (Imp x)) b => if name_b L s x then match dps (dp n') b with Some [e] => Some (EDefine x e) | _ => None end else None
            | Node _ (Node _ (Leaf (Imp x)) fm) b => if name_b L s x then match dp_names fm, dps (dp n') b with Some (xs, r), Some bd => Some (EDefun x xs r bd) | _, _ => None end else None
            | _ => None
            end
          else if q =? cell_symbol_begin then match dps (dp n') d with Some es => Some (EBegin es) | None => None end
          else match dp n' (Leaf (Imp q)), dps (dp n') d with Some f, Some es => if operator_b f then Some (EApp f es) else None | _, _ => None end
      | Node _ a d => match dp n' a, dps (dp n') d with Some f, Some es => if operator_b f then Some (EApp f es) else None | _, _ => None end
      end
  end.
Lemma operator_b_ok e : operator_b e = true -> operator e.
Proof. by destruct e. Qed.
Lemma dp_ok n : forall t e, dp n t = Some e -> parse σ e t.
Proof.
  induction n as [|n IH]; intros t e H; [done|]. pose proof (fun t => dps_ok (dp n) t IH) as IHs.
  assert (forall k a d, (match dp n a, dps (dp n) d with Some f, Some es => if operator_b f then Some (EApp f es) else None | _, _ => None end = Some e) -> parse σ e (Node k a d)) as Happ.
  { intros k a d Hd. destruct (dp n a) as [f|] eqn:Ea; [|done]. destruct (dps (dp n) d) as [es|] eqn:Es; [|done]. destruct (operator_b f) eqn:Ef; [|done]. injection Hd as <-.
    constructor; [by apply operator_b_ok|by apply IH|by apply IHs]. }
  cbn [dp] in H. destruct t as [[|p| |]|k a d]; try done; [by apply dp_leaf_ok|].
  destruct a as [[l|q|l|l]|k' a1 a2]; [by apply Happ| |by apply Happ..].
  destruct (Z.eqb_spec q cell_symbol_if) as [->|_].
  { destruct (dps (dp n) d) as [[|e1 [|e2 [|e3 [|]]]]|] eqn:Ed; try done; apply IHs in Ed; injection H as <-; by constructor. }
  destruct (Z.eqb_spec q cell_symbol_lambda) as [->|_].
  { destruct d as [|k1 fm b]; [done|]. destruct (dp_names fm) as [[xs r]|] eqn:En; [|done]. destruct (dps (dp n) b) as [bd|] eqn:Eb; [|done]. injection H as <-. constructor; [by apply dp_names_ok|by apply IHs]. }
  destruct (Z.eqb_spec q cell_symbol_set_x) as [->|_].
  { destruct (dps (dp n) d) as [[|e1 [|e2 [|]]]|] eqn:Ed; try done; try (by destruct e1). apply IHs in Ed. destruct e1; try done; injection H as <-; by constructor. }
  destruct (Z.eqb_spec q cell_symbol_define) as [->|_].
  { destruct d as [|k1 a b]; [done|]. destruct a as [[|x| |]|k2 [[|x| |]|] fm]; try done; (destruct (name_b L s x) eqn:Ex; [|done]); apply name_b_ok in Ex as [_ Ex].
    - destruct (dps (dp n) b) as [[|e1 [|]]|] eqn:Eb; try done. injection H as <-. constructor; [done|by apply IHs].
    - destruct (dp_names fm) as [[xs r]|] eqn:En; [|done]. destruct (dps (dp n) b) as [bd|] eqn:Eb; [|done]. injection H as <-. constructor; [done|by apply dp_names_ok|by apply IHs]. }
  destruct (Z.eqb_spec q cell_symbol_begin) as [->|_].
  { destruct (dps (dp n) d) as [es|] eqn:Ed; [|done]. injection H as <-. constructor. by apply IHs. }
  by apply Happ.
Qed.

(** * Symbols *)
Fixpoint leaves (t : tree) : list Z := match t with Leaf (Imp p) => [p] | Leaf _ => [] | Node _ a d => leaves a ++ leaves d end.
Lemma occurs_leaves x t : occurs x t -> x ∈ leaves t.
Proof. induction 1; cbn; [by left|apply elem_of_app; by left|apply elem_of_app; by right]. Qed.
Definition sym_b (P : Z -> bool) (x : Z) : bool :=
  match iget L s (Imp x) with Some o => negb (object_type o =? TSYMBOL) || P x | None => false end.
Lemma sym_b_ok P x : sym_b P x = true -> exists o, σ !! Imp x = Some o /\ (object_type o = TSYMBOL -> P x = true).
Proof. unfold sym_b. destruct (iget L s (Imp x)) as [o|] eqn:E; [|done]. apply iget_ok in E as [_ E]. intros H. exists o. split; [done|]. intros Ht. rewrite Ht in H. done. Qed.

(** * Tables *)
Definition hash_of (size x : Z) : option Z :=
  match iget L s (Imp x) with
  | Some (OCell t (WInt n) (WId (Imp nb))) =>
      match iget L s (Imp nb) with
      | Some (OBytes bytes) => let nm := take (length bytes - 1) bytes in
          if (t =? TSYMBOL) && bool_decide (bytes = nm ++ [0]) && (0 <=? name_hash nm) then Some (name_hash nm mod size) else None
      | _ => None
      end
  | _ => None
  end.
Lemma hash_of_ok size x z : hash_of size x = Some z -> bucket_of σ size x z.
Proof.
  unfold hash_of. destruct (iget L s (Imp x)) as [o|] eqn:E; [|done]. apply iget_ok in E as [_ E]. destruct o as [t [|n] [[|nb| |]|]| |]; try done.
  destruct (iget L s (Imp nb)) as [o|] eqn:E'; [|done]. apply iget_ok in E' as [_ E']. destruct o as [| |bytes]; try done. cbv zeta.
  destruct (_ && _ && _) eqn:H; [|done]. intros [= <-]. apply andb_prop in H as [H H3]. apply andb_prop in H as [->%Z.eqb_eq H2%bool_decide_eq_true].
  eexists n, nb, _. split; [done|]. split; [by rewrite <- H2|]. split; [lia|done].
Qed.
Section gs.
Context (gs : list (Z * Z)).
Definition without_b (x : Z) (i : id) : bool :=
  match i with
  | Imp p =>
      match iget L s i with
      | Some o => negb (object_type o =? TPAIR) && negb (object_type o =? TCHAR) && negb (object_type o =? TNUMBER)
      | None => false
      end ||
      match dec_list L s (Z.to_nat 1000) p with Some es => negb (bool_decide (es = [])) && forallb (fun e => skips_b L s gs x (name e)) es | None => false end
  | _ => false
  end.
Fixpoint with_b (x l : Z) (es : list Z) : bool :=
  match es with
  | [] => false
  | e :: es' => if bool_decide (name e = Loc l) then true else skips_b L s gs x (name e) && with_b x l es'
  end.
Context (Hnil : inL cell_nil = false).
Lemma without_b_ok x i : without_b x i = true -> bucket_without gs σ x i.
Proof using Hnil.
  destruct i as [|p| |]; try done. unfold without_b. intros [H|H]%orb_prop.
  - left. destruct (iget L s (Imp p)) as [o|] eqn:E; [|done]. apply iget_ok in E as [_ E]. exists p, o. split; [done|]. split; [done|]. lia.
  - destruct (dec_list L s _ p) as [es|] eqn:E; [|done]. apply dec_list_ok in E; [|done]. apply andb_prop in H as [H1%negb_true_iff%bool_decide_eq_false H2].
    destruct es as [|e es]; [done|]. right. cbn in E. inversion E as [|k a d es' Ho Hl Ek]; subst. exists (name e :: (name <$> es)). split; [|split; [done|]].
    + assert (Imp p = name p) as ->; [|done]. unfold EvalCheck.name in Ek |- *. repeat case_decide; congruence.
    + rewrite forallb_forall in H2. change (Forall (skips gs σ x) (name <$> (e :: es))). apply Forall_fmap. rewrite Forall_forall. intros y Hy. apply skips_b_ok, H2. by apply elem_of_list_In.
Qed.
Lemma with_b_ok x l es : with_b x l es = true -> exists pre post, name <$> es = pre ++ Loc l :: post /\ Forall (skips gs σ x) pre.
Proof using.
  induction es as [|e es IH]; [done|]. cbn. case_bool_decide as E.
  - intros _. exists [], (name <$> es). rewrite E. split; [done|constructor].
  - intros [H1 H2]%andb_prop. destruct (IH H2) as (pre & post & E' & F). exists (name e :: pre), post. split; [by rewrite E'|]. constructor; [by apply skips_b_ok|done].
Qed.
Definition bound_b (T : table) (bs : list aslot) (x : Z) : bool :=
  match hash_of (tb_size T) x with
  | Some z => match bs !! Z.to_nat z with
      | Some (ARef i) => match lookup_var x gs with
          | Some l => match i with Imp p => negb (inL p) && match dec_list L s (Z.to_nat 1000) p with Some es => with_b x l es | None => false end | _ => false end
          | None => without_b x i
          end
      | _ => false
      end
  | None => false
  end.
Lemma bound_b_ok T bs x : bound_b T bs x = true -> bound_in T gs σ bs x.
Proof using Hnil.
  unfold bound_b. destruct (hash_of _ _) as [z|] eqn:E; [|done]. apply hash_of_ok in E. destruct (bs !! Z.to_nat z) as [[| |i]|] eqn:Eb; try done. intros H.
  exists z, i. split; [done|]. split; [done|]. destruct (lookup_var x gs) as [l|]; [|by apply without_b_ok].
  destruct i as [|p| |]; try done. apply andb_prop in H as [Hp%negb_true_iff H]. destruct (dec_list L s _ p) as [es|] eqn:Ed; [|done]. apply dec_list_ok in Ed; [|done].
  apply with_b_ok in H as (pre & post & E1 & E2). exists pre, post. rewrite <- E1, <- (inL_imp _ _ Hp). done.
Qed.
End gs.
Definition table_b (t size : Z) (v : id) : bool :=
  match iget L s (Imp t) with
  | Some (OArr ty ts) => (ty =? TSTRUCT) && bool_decide (ts !! 3%nat = Some (ANum size)) && bool_decide (ts !! 4%nat = Some (ARef v)) && (0 <? size) && (size <? 2147483648)
  | _ => false
  end.
Lemma table_b_ok t size v : table_b t size v = true -> table_at σ t size v.
Proof.
  unfold table_b. destruct (iget L s (Imp t)) as [o|] eqn:E; [|done]. apply iget_ok in E as [_ E]. destruct o as [|ty ts|]; try done. intros H.
  apply andb_prop in H as [H H5]. apply andb_prop in H as [H H4]. apply andb_prop in H as [H H3%bool_decide_eq_true]. apply andb_prop in H as [->%Z.eqb_eq H2%bool_decide_eq_true].
  exists ts. split; [done|]. split; [done|]. split; [done|]. lia.
Qed.
Definition vector_of (i : id) : option (list aslot) :=
  match i with
  | Txt p => if bool_decide (name p = Txt p) then match h !! p with Some c => match abs_obj L s c with OArr ty bs => if ty =? TVECTOR then Some bs else None | _ => None end | None => None end else None
  | Imp p => match iget L s i with Some (OArr ty bs) => if ty =? TVECTOR then Some bs else None | _ => None end
  | _ => None
  end.
Lemma vector_of_ok i bs : vector_of i = Some bs -> σ !! i = Some (OArr TVECTOR bs).
Proof.
  destruct i as [|p| |p]; try done; unfold vector_of.
  - destruct (iget L s (Imp p)) as [o|] eqn:E; [|done]. apply iget_ok in E as [_ E]. destruct o as [|ty bs'|]; try done. destruct (Z.eqb_spec ty TVECTOR) as [->|]; [|done]. by intros [= <-].
  - case_bool_decide as Np; [|done]. pose proof (abs_lookup L s p) as Hp. rewrite Np in Hp. destruct (h !! p) as [c|]; [|done]. cbn in Hp. destruct (abs_obj L s c) as [|ty bs'|] eqn:Eo; try done.
    destruct (Z.eqb_spec ty TVECTOR) as [->|]; [|done]. intros [= <-]. by rewrite Hp.
Qed.
Definition globals_b (T : table) (xs : list Z) (gs : list (Z * Z)) : bool :=
  match iget L s (Imp (tb_module T)) with
  | Some (OArr ty ms) => (ty =? TSTRUCT) && bool_decide (ms !! 5%nat = Some (ARef (Imp (tb_table T))))
  | _ => false
  end && table_b (tb_table T) (tb_size T) (Txt (tb_vector T)) &&
  match vector_of (Txt (tb_vector T)) with
  | Some bs => forallb (bound_b gs T bs) (xs ++ map fst gs)
  | None => false
  end.
Lemma lookup_var_dom x gs : lookup_var x gs <> None -> x ∈ map fst gs.
Proof. induction gs as [|[y l] gs IH]; [done|]. cbn. case_decide; [subst; by left|]. intros H'. right. by apply IH. Qed.
Lemma globals_b_ok T xs gs : inL cell_nil = false -> globals_b T xs gs = true -> exists bs, globals_at T (fun x => x ∈ xs) gs σ bs.
Proof.
  intros Hnil. unfold globals_b. intros H. apply andb_prop in H as [H H3]. apply andb_prop in H as [H1 H2]. destruct (vector_of _) as [bs|] eqn:Ev; [|done]. apply vector_of_ok in Ev. exists bs. split; [|by apply table_b_ok|done|].
  - destruct (iget L s (Imp (tb_module T))) as [o|] eqn:E; [|done]. apply iget_ok in E as [_ E]. destruct o as [|ty ms|]; try done. apply andb_prop in H1 as [->%Z.eqb_eq H1%bool_decide_eq_true]. by exists ms.
  - intros x Hx. apply bound_b_ok; [done|]. rewrite forallb_forall in H3. apply H3, elem_of_list_In, elem_of_app. destruct Hx as [Hx|Hx]; [by left|right]. by apply lookup_var_dom.
Qed.
(** the macro table *)
Definition no_macro_b (m x : Z) : bool :=
  match iget L s (Imp m) with
  | Some (OArr _ ts) => match ts !! 3%nat, ts !! 4%nat with
      | Some (ANum size), Some (ARef (Imp v)) => table_b m size (Imp v) &&
          match vector_of (Imp v), hash_of size x with
          | Some bs, Some z => match bs !! Z.to_nat z with Some (ARef i) => without_b [] x i | _ => false end
          | _, _ => false
          end
      | _, _ => false end
  | _ => false
  end.
Lemma no_macro_b_ok m x : inL cell_nil = false -> no_macro_b m x = true -> no_macro m σ x.
Proof.
  intros Hnil. unfold no_macro_b. destruct (iget L s (Imp m)) as [[|ty ts|]|]; try done. destruct (ts !! 3%nat) as [[size| |]|]; try done. destruct (ts !! 4%nat) as [[| |[|v| |]]|]; try done.
  intros [H1%table_b_ok H2]%andb_prop. destruct (vector_of (Imp v)) as [bs|] eqn:Ev; [|done]. apply vector_of_ok in Ev. destruct (hash_of size x) as [z|] eqn:Eh; [|done]. apply hash_of_ok in Eh.
  destruct (bs !! Z.to_nat z) as [[| |i]|] eqn:Eb; try done. apply without_b_ok in H2; [|done]. by exists size, v, bs, z, i.
Qed.

(** * The environment *)
Fixpoint hides_b (ρ : env) : bool := match ρ with ENil => true | EHide ρ' => hides_b ρ' | _ => false end.
Lemma hides_b_ok ρ : hides_b ρ = true -> hides ρ.
Proof. induction ρ; try done; constructor. auto. Qed.
Definition top_b (p : Z) : bool :=
  match dec_pair L s p with
  | Some (e, _) => match dec_pair L s e with Some (k, _) => negb (inL k) && negb (k =? cell_closure) | None => false end
  | None => false
  end.
Lemma top_b_ok p ρ : env_at σ ρ (name p) -> hides_b ρ = true -> top_b p = true -> top_env σ ρ (name p).
Proof.
  intros H1 H2 H3. split; [done|]. split; [by apply hides_b_ok|]. unfold top_b in H3. destruct (dec_pair L s p) as [[e d]|] eqn:Ep; [|done]. destruct (dec_pair L s e) as [[k w]|] eqn:Ee; [|done].
  apply andb_prop in H3 as [H3%negb_true_iff H4%negb_true_iff%Z.eqb_neq]. destruct (dec_pair_ok _ _ _ _ _ Ep) as [Np Hp]. destruct (dec_pair_ok _ _ _ _ _ Ee) as [Ne He].
  rewrite (inL_imp _ _ H3) in He. rewrite Ne in Hp. exists p, e, (name d), k, (name w). rewrite Np. done.
Qed.

(** * Forms *)
Fixpoint dec_trees (ps : list Z) : option (list tree) :=
  match ps with
  | [] => Some []
  | p :: ps' => match dec_tree (Z.to_nat 100) p, dec_trees ps' with Some t, Some ts => Some (t :: ts) | _, _ => None end
  end.
Fixpoint dp_all (ts : list tree) : option (list exp) :=
  match ts with
  | [] => Some []
  | t :: ts' => match dp (Z.to_nat 100) t, dp_all ts' with Some e, Some es => Some (e :: es) | _, _ => None end
  end.
Definition text_b (T : table) (xs : list Z) (m : Z) (t : tree) : bool :=
  bool_decide (NoDup (nodes t)) && bool_decide (tb_vector T ∉ nodes t) && forallb (sym_b (fun x => bool_decide (x ∈ xs))) (leaves t) && forallb (sym_b (no_macro_b m)) (leaves t).
Lemma dec_trees_ok ps : forall ts, dec_trees ps = Some ts -> Forall (tree_at σ) ts /\ map root ts = name <$> ps.
Proof.
  induction ps as [|p ps IH]; intros ts H; cbn in H; [by injection H as <-|]. destruct (dec_tree _ p) as [t|] eqn:E; [|done]. destruct (dec_trees ps) as [ts'|]; [|done]. injection H as <-.
  apply dec_tree_ok in E as [E1 E2]. destruct (IH _ eq_refl) as [I1 I2]. split; [by constructor|]. cbn. by rewrite E2, I2.
Qed.
Lemma dp_all_ok ts : forall es, dp_all ts = Some es -> Forall2 (parse σ) es ts.
Proof.
  induction ts as [|t ts IH]; intros es H; cbn in H; [injection H as <-; constructor|]. destruct (dp _ t) as [e|] eqn:E; [|done]. destruct (dp_all ts) as [es'|]; [|done]. injection H as <-.
  constructor; [by eapply dp_ok|by apply IH].
Qed.
Definition forms_b (T : table) (xs : list Z) (m p : Z) : option (list tree * list exp) :=
  match dec_list L s (Z.to_nat 100) p with
  | Some ps => match dec_trees ps with
      | Some ts => match dp_all ts with
          | Some es => if forallb (text_b T xs m) ts then Some (ts, es) else None
          | None => None
          end
      | None => None
      end
  | None => None
  end.
Lemma forms_b_ok T xs m p ts es : inL cell_nil = false -> forms_b T xs m p = Some (ts, es) -> forms T (fun x => x ∈ xs) m σ (name p) ts es.
Proof.
  intros Hnil. unfold forms_b. destruct (dec_list L s _ p) as [ps|] eqn:Ep; [|done]. destruct (dec_trees ps) as [ts0|] eqn:Et; [|done]. destruct (dp_all ts0) as [es0|] eqn:Ee; [|done].
  destruct (forallb (text_b T xs m) ts0) eqn:Hx; [|done]. intros [= <- <-]. apply dec_list_ok in Ep; [|done]. apply dec_trees_ok in Et as [Et1 Et2]. apply dp_all_ok in Ee.
  assert (forall t, t ∈ ts0 -> text_b T xs m t = true) as Htb. { intros t Ht. rewrite forallb_forall in Hx. apply Hx. by apply elem_of_list_In. } rewrite Forall_forall in Et1.
  split; [by rewrite Et2|done| |]; rewrite Forall_forall; intros t Ht; pose proof (Htb t Ht) as H; unfold text_b in H; apply andb_prop in H as [H H4]; apply andb_prop in H as [H H3]; apply andb_prop in H as [H1%bool_decide_eq_true H2%bool_decide_eq_true].
  - split; [by apply Et1|done|done|]. intros x Hx'. apply occurs_leaves, elem_of_list_In in Hx'. rewrite forallb_forall in H3. apply H3, sym_b_ok in Hx' as (o & Ho & Hs). exists o. split; [done|]. intros Ht'. by eapply bool_decide_eq_true_1, Hs.
  - intros x Hx'. apply occurs_leaves, elem_of_list_In in Hx'. rewrite forallb_forall in H4. apply H4, sym_b_ok in Hx' as (o & Ho & Hs). exists o. split; [done|]. intros Ht'. by apply no_macro_b_ok, Hs.
Qed.
End check.
