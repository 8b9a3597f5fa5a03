(** Decision procedures that show that concrete states of the interpreter meet the hypotheses of
    the theorems about evaluation: every well formed state has an address-free view; a list
    structure can be read as an expression; the semantics can be executed; an execution can be
    checked to stay within memory.  No theorem depends on them. *)
From stdpp Require Import base gmap list fin_maps fin_map_dom.
From Coq Require Import ZArith Lia.
From Coq Require Import ZifyBool ZifyNat.
From Verif Require Import CInt Symbols Heap HeapLemmas GcModel GcSpec GcWhole GcCheck DataSpec DataLemmas Builtins.
From Verif Require Import EvalModel Rep EvalSpec EvalPrimSpec EvalRep EvalRun.
Open Scope Z_scope.

(** * The address-free view of a state
    with the objects of the store and those of the text; the others do not change *)
Record naming : Type := Naming { nm_loc : gset Z; nm_txt : gset Z }.
Section view.
Context (L : naming) (s : state).
Notation h := (heap s).
Definition name (p : Z) : id := if decide (p ∈ nm_loc L) then Loc p else if decide (p ∈ nm_txt L) then Txt p else Imp p.
Lemma name_inj p q : name p = name q -> p = q.
Proof. unfold name. repeat case_decide; congruence. Qed.
Definition inL (p : Z) : bool := bool_decide (p ∈ nm_loc L) || bool_decide (p ∈ nm_txt L).
Definition isloc (p : Z) : bool := bool_decide (p ∈ nm_loc L).
Lemma inL_imp p : inL p = false -> name p = Imp p.
Proof. unfold inL, name. intros [H1%bool_decide_eq_false H2%bool_decide_eq_false]%orb_false_iff. by rewrite !decide_False. Qed.
Lemma isloc_loc p : isloc p = true -> name p = Loc p.
Proof. unfold isloc, name. intros H%bool_decide_eq_true. by rewrite decide_True. Qed.
Global Instance name_Inj : Inj (=) (=) name.
Proof. intros p q. apply name_inj. Qed.
Definition abs_word (b : bool) (x : Z) : word := if b then WId (name x) else WInt x.
Definition abs_slot (a : Z) : aslot :=
  match h !! a with
  | Some e => if c_ty e =? TNUMBER then ANum (c_cdr e) else if c_ty e =? TCHAR then AChar (c_cdr e) else ARef (name (c_car e))
  | None => ANum 0
  end.
Definition abs_obj (c : cell) : obj :=
  if is_array c then OArr (c_ty c) (abs_slot <$> seqZ (c_cdr c) (c_car c))
  else if GcSpec.is_bytes c then OBytes (c_bytes c)
  else OCell (c_ty c) (abs_word (car_is_ref (c_ty c)) (c_car c)) (abs_word (cdr_is_ref (c_ty c)) (c_cdr c)).
Definition abs_heap : gmap id obj := kmap name (abs_obj <$> h).
Lemma abs_lookup p : abs_heap !! name p = abs_obj <$> h !! p.
Proof. unfold abs_heap. rewrite (lookup_kmap name). apply lookup_fmap. Qed.
Lemma abs_lookup_loc l : l ∉ nm_loc L -> abs_heap !! Loc l = None.
Proof.
  intros Hl. destruct (abs_heap !! Loc l) eqn:E; [|done]. unfold abs_heap in E. apply lookup_kmap_Some in E as (p & Hp & _); [|apply _].
  unfold name in Hp. repeat case_decide; congruence.
Qed.
Definition view : mst :=
  Mst abs_heap (name (R0 s)) (name (R1 s)) (name (R2 s)) (name (R3 s)) (name <$> stack_entries s) (STACK_SIZE s) (name <$> globals s).
Definition view_map : idmap := fun i p => alive s p /\ i = name p.

Lemma entries_spec n g : (forall i, g <= i < g + Z.of_nat n -> exists v, g_stack_array s !! i = Some v) ->
  length (omap (fun i => g_stack_array s !! i) (seqZ g (Z.of_nat n))) = n /\
  forall k v, omap (fun i => g_stack_array s !! i) (seqZ g (Z.of_nat n)) !! k = Some v -> g_stack_array s !! (g + Z.of_nat k) = Some v.
Proof.
  revert g. induction n as [|n IH]; intros g H; [done|]. rewrite seqZ_cons by lia. replace (Z.pred (Z.of_nat (S n))) with (Z.of_nat n) by lia.
  destruct (H g) as (v & Hv); [lia|]. cbn. rewrite Hv. destruct (IH (Z.succ g)) as [H1 H2]; [intros; apply H; lia|]. split; [cbn; by rewrite H1|].
  intros [|k] w Hw; cbn in Hw; [injection Hw as <-; by rewrite Z.add_0_r|]. apply H2 in Hw. rewrite <- Hw. f_equal. lia.
Qed.
Lemma root_alive r : r ∈ all_roots s -> alive s r.
Proof. intros H. exists r. split; [done|constructor]. Qed.
Lemma points_alive p q : alive s p -> points_to h p q -> alive s q.
Proof. intros (r & Hr & Hp) H. exists r. split; [done|]. by eapply rtc_r. Qed.

Lemma view_ok : machine_ok s -> g_cells s + ARENA_SIZE s < limit s -> g_free s <= limit s -> cell_symbol_test < g_symbol_max s ->
  (forall k, cell_nil <= k < g_symbol_max s -> inL k = false) -> rep view_map view s.
Proof.
  intros Hm Hl Ht Hs HL. destruct Hm as [H1 H2 H3 [H4 H4'] [H5 H5'] [H6 H7]].
  assert (forall p, alive s p -> exists o, abs_heap !! name p = Some o /\ obj_at view_map h o p) as Hobj.
  { intros p Hp. destruct (H6 p Hp) as (c & Hc & Hw). rewrite abs_lookup, Hc. eexists. split; [done|]. unfold abs_obj.
    destruct (is_array c) eqn:Ea.
    - destruct (wf_array _ _ _ _ _ Hw Ea) as (A1 & A2 & A3 & A4 & A5). exists c. split; [done|]. split; [done|].
      split. { unfold is_array in Ea. lia. } rewrite fmap_length, seqZ_length. split; [lia|]. intros i w Hi.
      apply list_lookup_fmap_Some in Hi as (x & [-> Hi]%lookup_seqZ & ->). destruct (A5 (Z.of_nat i)) as (e & He & Ht'); [lia|]. exists e. split; [done|].
      unfold abs_slot. rewrite He. destruct (Z.eqb_spec (c_ty e) TNUMBER); [done|]. destruct (Z.eqb_spec (c_ty e) TCHAR); [done|].
      assert (c_ty e = TREF) as Hty by (destruct Ht' as [?|[?|?]]; done). split; [done|]. split; [|done].
      eapply points_alive; [exact Hp|]. eapply (pt_elem _ p c (Z.of_nat i) e); [done|done|lia|done|]. unfold cell_refs. rewrite Hty. vm_compute. constructor.
    - destruct (GcSpec.is_bytes c) eqn:Eb.
      + destruct (wf_bytes _ _ _ _ _ Hw Eb) as [B1 _]. exists c. split; [done|]. unfold GcSpec.is_bytes in Eb. split; [lia|]. done.
      + exists c. split; [done|]. split; [done|]. unfold is_array, GcSpec.is_bytes in *. pose proof (wf_type _ _ _ _ _ Hw).
        split. { split; [lia|]. do 3 (split; [lia|]). split; unfold abs_word; [by destruct (car_is_ref _)|by destruct (cdr_is_ref _)]. }
        split; unfold abs_word.
        * destruct (car_is_ref (c_ty c)) eqn:E; [|done]. split; [|done]. eapply points_alive; [exact Hp|]. eapply pt_cell; [done|]. unfold cell_refs. rewrite E. apply elem_of_app. left. constructor.
        * destruct (cdr_is_ref (c_ty c)) eqn:E; [|done]. split; [|done]. eapply points_alive; [exact Hp|]. eapply pt_cell; [done|]. unfold cell_refs. rewrite E. apply elem_of_app. right. constructor. }
  pose proof (entries_spec (Z.to_nat (STACK_SIZE s - g_stack s)) (g_stack s)) as He. rewrite Z2Nat.id in He by lia. destruct He as [He1 He2]; [intros; apply H4'; lia|].
  assert (forall r, r ∈ all_roots s -> view_map (name r) r) as Hroot. { intros r Hr. split; [by apply root_alive|done]. }
  split; cbn; try done.
  - split.
    + intros i p q [_ E1] [_ E2]. apply name_inj. congruence.
    + intros i j p [_ ->] [_ ->]. done.
    + intros k Hk. split; [apply root_alive; unfold all_roots, gc_roots, constants; apply elem_of_app; left; apply elem_of_app; left; apply elem_of_seqZ; lia|].
      by rewrite inL_imp by (by apply HL).
    + intros i p [Hp ->]. by apply Hobj.
    + intros i p [Hp ->]. by apply H6.
    + intros i j p q c d a [Hp _] [Hq _]. by apply H7.
  - apply Hroot. unfold all_roots, regs. set_solver.
  - apply Hroot. unfold all_roots, regs. set_solver.
  - apply Hroot. unfold all_roots, regs. set_solver.
  - apply Hroot. unfold all_roots, regs. set_solver.
  - rewrite fmap_length. unfold stack_entries. rewrite He1. lia.
  - intros k i Hi. apply list_lookup_fmap_Some in Hi as (x & Hx & ->). pose proof (He2 _ _ Hx) as Hp. exists x. split; [done|]. apply Hroot.
    unfold all_roots, gc_roots. apply elem_of_app; left. do 2 (apply elem_of_app; right). by apply elem_of_list_lookup_2 in Hx.
  - assert (forall l, (forall r, r ∈ l -> r ∈ all_roots s) -> Forall2 view_map (name <$> l) l) as Hf.
    { induction l as [|r l IH]; intros Hl'; constructor; [apply Hroot, Hl'; constructor|]. apply IH. intros r' Hr'. apply Hl'. by constructor. }
    apply (Hf (globals s)). intros r Hr. unfold all_roots, gc_roots. set_solver.
Qed.

(** * Reading list structure as expressions *)
Notation σ := abs_heap.

Definition atom_b (t : Z) : bool := (t =? TSYMBOL) || (t =? TSPECIAL) || (t =? TSTRING) || (t =? TVECTOR) || (t =? TBYTES) || (t =? TCONTINUATION).
Definition dec_val (p : Z) : option val :=
  if isloc p then Some (VLoc p) else if inL p then None else
  match h !! p with
  | Some c => if (c_ty c =? TNUMBER) && (c_car c =? 0) then Some (VNum (c_cdr c))
              else if (c_ty c =? TCHAR) && (c_car c =? 0) then Some (VChar (c_cdr c))
              else if atom_b (c_ty c) then Some (VAtom p)
              else if c_ty c =? TKEYWORD then Some (VKey p) else None
  | None => None
  end.
Lemma dec_val_ok p v : dec_val p = Some v -> val_at σ v (name p).
Proof.
  unfold dec_val. destruct (isloc p) eqn:EL; [intros [= <-]; by rewrite isloc_loc|]. destruct (inL p) eqn:EL'; [done|]. rewrite inL_imp by done. intros H.
  pose proof (abs_lookup p) as Hp. rewrite inL_imp in Hp by done. destruct (h !! p) as [c|]; [|done]. cbn in Hp.
  destruct ((c_ty c =? TNUMBER) && (c_car c =? 0)) eqn:E1.
  { apply andb_prop in E1 as [T1%Z.eqb_eq T2%Z.eqb_eq]. injection H as <-. split; [by exists p|]. rewrite Hp. unfold abs_obj, is_array, GcSpec.is_bytes, abs_word. rewrite T1, T2. done. }
  destruct ((c_ty c =? TCHAR) && (c_car c =? 0)) eqn:E2.
  { apply andb_prop in E2 as [T1%Z.eqb_eq T2%Z.eqb_eq]. injection H as <-. split; [by exists p|]. rewrite Hp. unfold abs_obj, is_array, GcSpec.is_bytes, abs_word. rewrite T1, T2. done. }
  destruct (atom_b (c_ty c)) eqn:E3.
  2: { destruct (c_ty c =? TKEYWORD) eqn:E4; [|done]. injection H as <-. apply Z.eqb_eq in E4. split; [done|]. rewrite Hp. unfold abs_obj, is_array, GcSpec.is_bytes. rewrite E4. by eexists _, _. }
  injection H as <-. split; [done|]. eexists. split; [exact Hp|]. unfold abs_obj, is_array, GcSpec.is_bytes.
  unfold atom_b in E3. destruct ((c_ty c =? TVECTOR) || (c_ty c =? TSTRUCT)) eqn:EA.
  - cbn. unfold TVECTOR, TSTRUCT, TSYMBOL, TSPECIAL, TSTRING, TKEYWORD, TBYTES, TCONTINUATION in *. lia.
  - destruct (c_ty c =? TBYTES) eqn:EB; cbn; [done|]. lia.
Qed.
(** an unchanging pair *)
Definition dec_pair (p : Z) : option (Z * Z) :=
  if inL p then None else
  match h !! p with Some c => if c_ty c =? TPAIR then Some (c_car c, c_cdr c) else None | None => None end.
Lemma dec_pair_ok p a d : dec_pair p = Some (a, d) -> name p = Imp p /\ σ !! Imp p = Some (opair (name a) (name d)).
Proof.
  unfold dec_pair. destruct (inL p) eqn:EL; [done|]. intros H. pose proof (abs_lookup p) as Hp. rewrite inL_imp in * by done. split; [done|]. rewrite Hp.
  destruct (h !! p) as [c|]; [|done]. destruct (Z.eqb_spec (c_ty c) TPAIR) as [T|]; [|done]. injection H as <- <-.
  cbn. unfold abs_obj, is_array, GcSpec.is_bytes. rewrite T. done.
Qed.
Definition name_b (x : Z) : bool :=
  negb (inL x) && (match h !! x with Some c => (c_ty c =? TSYMBOL) && negb (c_car c =? cell_symbol_primitive_load) | None => false end)
  && negb (bool_decide (x ∈ reserved)).
Lemma name_b_ok x : name_b x = true -> name x = Imp x /\ name_ok σ x.
Proof.
  unfold name_b. intros [[H1 H2]%andb_prop H3]%andb_prop. apply negb_true_iff in H1. apply negb_true_iff, bool_decide_eq_false in H3.
  pose proof (abs_lookup x) as Hp. rewrite inL_imp in * by done. split; [done|]. split; [|done]. destruct (h !! x) as [c|]; [|done].
  apply andb_prop in H2 as [T%Z.eqb_eq N]. cbn in Hp. unfold abs_obj, is_array, GcSpec.is_bytes in Hp. rewrite T in Hp. cbn in Hp. eexists _, _. split; [exact Hp|].
  intros [= E]. apply negb_true_iff, Z.eqb_neq in N. done.
Qed.
Fixpoint dec_names (n : nat) (p : Z) : option (list Z * option Z) :=
  if p =? cell_nil then Some ([], None) else if name_b p then Some ([], Some p) else
  match n with
  | O => None
  | S n' => match dec_pair p with
            | Some (x, d) => if name_b x then match dec_names n' d with Some (xs, r) => Some (x :: xs, r) | None => None end else None
            | None => None
            end
  end.
Lemma dec_names_ok n : inL cell_nil = false -> forall p xs r, dec_names n p = Some (xs, r) -> names_at σ xs r (name p).
Proof.
  intros Hnil. induction n as [|n IH]; intros p xs r H; cbn in H; destruct (Z.eqb_spec p cell_nil) as [->|];
    try (injection H as <- <-; rewrite inL_imp by done; constructor); destruct (name_b p) eqn:En;
    try (injection H as <- <-; destruct (name_b_ok _ En) as [-> ?]; by constructor); try done.
  destruct (dec_pair p) as [[x d]|] eqn:Ep; [|done]. destruct (name_b x) eqn:Ex; [|done].
  destruct (dec_names n d) as [[xs' r']|] eqn:Ed; [|done]. injection H as <- <-. destruct (dec_pair_ok _ _ _ Ep) as [-> Hp].
  destruct (name_b_ok _ Ex) as [Nx Ox]. rewrite Nx in Hp. econstructor; [done|exact Hp|]. by apply IH.
Qed.
Fixpoint dec_list (n : nat) (p : Z) : option (list Z) :=
  if p =? cell_nil then Some [] else
  match n with
  | O => None
  | S n' => match dec_pair p with
            | Some (x, d) => match dec_list n' d with Some es => Some (x :: es) | None => None end
            | None => None
            end
  end.
Lemma dec_list_ok n : inL cell_nil = false -> forall p es, dec_list n p = Some es -> ilist σ (name p) (name <$> es).
Proof.
  intros Hnil. induction n as [|n IH]; intros p es H; cbn in H; destruct (Z.eqb_spec p cell_nil) as [->|];
    try (injection H as <-; rewrite inL_imp by done; constructor); try done.
  destruct (dec_pair p) as [[x d]|] eqn:Ep; [|done]. destruct (dec_list n d) as [es'|] eqn:Ed; [|done]. injection H as <-.
  destruct (dec_pair_ok _ _ _ Ep) as [-> Hp]. econstructor; [exact Hp|]. by apply IH.
Qed.
Definition var_b (p : Z) : option Z :=
  if inL p then None else
  match h !! p with Some c => if (c_ty c =? TVARIABLE) && (c_cdr c =? 0) && isloc (c_car c) then Some (c_car c) else None | None => None end.
Lemma var_b_ok p l : var_b p = Some l -> name p = Imp p /\ σ !! Imp p = Some (OCell TVARIABLE (WId (Loc l)) (WInt 0)).
Proof.
  unfold var_b. destruct (inL p) eqn:EL; [done|]. intros H. pose proof (abs_lookup p) as Hp. rewrite inL_imp in * by done. split; [done|]. rewrite Hp.
  destruct (h !! p) as [c|]; [|done]. destruct ((c_ty c =? TVARIABLE) && (c_cdr c =? 0) && isloc (c_car c)) eqn:E; [|done]. injection H as <-.
  apply andb_prop in E as [[T1%Z.eqb_eq T2%Z.eqb_eq]%andb_prop T3]. cbn. unfold abs_obj, is_array, GcSpec.is_bytes, abs_word. rewrite T1. cbn. rewrite isloc_loc, T2 by done. done.
Qed.
Definition self_b (p : Z) : bool :=
  negb (inL p) && match h !! p with
  | Some c => ((c_ty c =? TNUMBER) || (c_ty c =? TCHAR) || (c_ty c =? TSPECIAL) || (c_ty c =? TSTRING) || (c_ty c =? TKEYWORD))
              && negb (c_car c =? cell_symbol_primitive_load)
  | None => false
  end.
Lemma self_b_ok p : self_b p = true -> name p = Imp p /\ exists o, σ !! Imp p = Some o /\ self_evaluating o.
Proof.
  unfold self_b. intros [H1%negb_true_iff H]%andb_prop. pose proof (abs_lookup p) as Hp. rewrite inL_imp in * by done. split; [done|].
  destruct (h !! p) as [c|]; [|done]. eexists. split; [exact Hp|]. apply andb_prop in H as [Ht H2%negb_true_iff%Z.eqb_neq]. unfold abs_obj, is_array, GcSpec.is_bytes.
  assert (((c_ty c =? TVECTOR) || (c_ty c =? TSTRUCT)) = false) as -> by (unfold TVECTOR, TSTRUCT, TNUMBER, TCHAR, TSPECIAL, TSTRING, TKEYWORD in *; lia).
  assert ((c_ty c =? TBYTES) = false) as -> by (unfold TBYTES, TNUMBER, TCHAR, TSPECIAL, TSTRING, TKEYWORD in *; lia).
  split; [lia|]. unfold abs_word, no_load. destruct (car_is_ref (c_ty c)); congruence.
Qed.

Section decs.
Context (f : Z -> option exp).
Fixpoint decs (m : nat) (q : Z) : option (list exp) :=
  if q =? cell_nil then Some [] else
  match m with
  | O => None
  | S m' => match dec_pair q with
            | Some (x, d) => match f x, decs m' d with Some e, Some es => Some (e :: es) | _, _ => None end
            | None => None
            end
  end.
End decs.
Fixpoint dec (n : nat) (p : Z) : option exp :=
  match n with
  | O => None
  | S n' =>
      if self_b p then match dec_val p with Some v => Some (EConst v) | None => None end
      else if name_b p then Some (EVar p)
      else match var_b p with
      | Some l => Some (EGlobal l)
      | None =>
      match dec_pair p with
      | None => None
      | Some (f, d) =>
          if f =? cell_symbol_quote then
            match dec_list 1 d with Some [a] => match dec_val a with Some v => Some (EQuote v) | None => None end | _ => None end
          else if f =? cell_symbol_if then
            match dec_list 3 d with
            | Some [c; t; e] => match dec n' c, dec n' t, dec n' e with Some c, Some t, Some e => Some (EIf c t e) | _, _, _ => None end
            | Some [c; t] => match dec n' c, dec n' t with Some c, Some t => Some (EWhen c t) | _, _ => None end
            | _ => None
            end
          else if f =? cell_symbol_lambda then
            match dec_pair d with
            | Some (fm, b) => match dec_names n' fm, decs (dec n') n' b with Some (xs, r), Some bd => Some (ELam xs r bd) | _, _ => None end
            | None => None
            end
          else if f =? cell_symbol_set_x then
            match dec_list 2 d with
            | Some [x; e] => match dec n' e with
                             | Some e => if name_b x then Some (ESet x e) else match var_b x with Some l => Some (ESetGlobal l e) | None => None end
                             | None => None
                             end
            | _ => None
            end
          else if f =? cell_symbol_define then
            match dec_pair d with
            | Some (t, b) =>
                if name_b t then
                  match dec_list 1 b with Some [e] => match dec n' e with Some e => Some (EDefine t e) | None => None end | _ => None end
                else match dec_pair t with
                     | Some (x, fm) => if name_b x then
                         match dec_names n' fm, decs (dec n') n' b with Some (xs, r), Some bd => Some (EDefun x xs r bd) | _, _ => None end
                         else None
                     | None => None
                     end
            | None => None
            end
          else if f =? cell_symbol_begin then
            match decs (dec n') n' d with Some es => Some (EBegin es) | None => None end
          else
            match dec n' f, decs (dec n') n' d with
            | Some (EConst _), _ => None
            | Some f', Some es => Some (EApp f' es)
            | _, _ => None
            end
      end end
  end.
Lemma dec_ok n : inL cell_nil = false -> (forall k, cell_nil <= k <= cell_symbol_test -> inL k = false) ->
  forall p e, dec n p = Some e -> code_at σ e (name p).
Proof.
  intros Hnil HK. assert (forall k, cell_nil <= k <= cell_symbol_test -> name k = Imp k) as NK by (intros; by apply inL_imp, HK).
  induction n as [|n IH]; intros p e H; [done|].
  assert (forall m q es, decs (dec n) m q = Some es -> codes_at σ es (name q)) as IHs.
  { induction m as [|m IHm]; intros q es Hq; cbn [decs] in Hq; destruct (Z.eqb_spec q cell_nil) as [->|];
      try (injection Hq as <-; rewrite inL_imp by done; constructor); try done.
    destruct (dec_pair q) as [[x d]|] eqn:Ep; [|done]. destruct (dec n x) as [e1|] eqn:Ee; [|done]. destruct (decs (dec n) m d) as [es1|] eqn:Es; [|done]. injection Hq as <-.
    destruct (dec_pair_ok _ _ _ Ep) as [-> Hp]. econstructor; [exact Hp|by apply IH|by apply IHm]. }
  cbn [dec] in H.
  destruct (self_b p) eqn:E1.
  { destruct (dec_val p) as [v|] eqn:Ev; [|done]. injection H as <-. destruct (self_b_ok _ E1) as [Np (o & Ho & Hs)]. apply dec_val_ok in Ev. rewrite Np in *. by econstructor. }
  destruct (name_b p) eqn:E2.
  { injection H as <-. destruct (name_b_ok _ E2) as [-> ?]. by constructor. }
  destruct (var_b p) as [l|] eqn:E3.
  { injection H as <-. destruct (var_b_ok _ _ E3) as [-> ?]. by constructor. }
  destruct (dec_pair p) as [[f d]|] eqn:Ep; [|done]. destruct (dec_pair_ok _ _ _ Ep) as [-> Hp].
  destruct (Z.eqb_spec f cell_symbol_quote) as [->|]; [|destruct (Z.eqb_spec f cell_symbol_if) as [->|]; [|destruct (Z.eqb_spec f cell_symbol_lambda) as [->|]; [|destruct (Z.eqb_spec f cell_symbol_set_x) as [->|]; [|destruct (Z.eqb_spec f cell_symbol_define) as [->|]; [|destruct (Z.eqb_spec f cell_symbol_begin) as [->|]]]]]];
    try (match type of Hp with context [name ?k] => rewrite (NK k) in Hp by (vm_compute; split; congruence) end).
  - destruct (dec_list 1 d) as [[|a [|]]|] eqn:Ed; try done. destruct (dec_val a) as [v|] eqn:Ev; [|done]. injection H as <-.
    apply (co_quote _ v _ (name a)); [|by apply dec_val_ok]. econstructor; [exact Hp|]. by apply dec_list_ok in Ed.
  - destruct (dec_list 3 d) as [[|c [|t [|e' [|]]]]|] eqn:Ed; try done; apply dec_list_ok in Ed; try done; cbn in Ed.
    + destruct (dec n c) eqn:?; [|done]. destruct (dec n t) eqn:?; [|done]. injection H as <-.
      eapply co_when; [econstructor; [exact Hp|exact Ed]|by apply IH|by apply IH].
    + destruct (dec n c) eqn:?; [|done]. destruct (dec n t) eqn:?; [|done]. destruct (dec n e') eqn:?; [|done]. injection H as <-.
      eapply co_if; [econstructor; [exact Hp|exact Ed]|by apply IH|by apply IH|by apply IH].
  - destruct (dec_pair d) as [[fm b]|] eqn:Ed; [|done]. destruct (dec_names n fm) as [[xs r]|] eqn:En; [|done]. destruct (decs (dec n) n b) as [bd|] eqn:Eb; [|done]. injection H as <-.
    destruct (dec_pair_ok _ _ _ Ed) as [Nd Hd]. rewrite Nd in Hp. eapply co_lam; [exact Hp|exact Hd|by eapply dec_names_ok|by eapply IHs].
  - destruct (dec_list 2 d) as [[|x [|e' [|]]]|] eqn:Ed; try done. apply dec_list_ok in Ed; [|done]. cbn in Ed. destruct (dec n e') as [e1|] eqn:Ee; [|done].
    destruct (name_b x) eqn:Ex.
    + injection H as <-. destruct (name_b_ok _ Ex) as [Nx ?]. rewrite Nx in Ed. eapply co_set; [econstructor; [exact Hp|exact Ed]|done|by apply IH].
    + destruct (var_b x) as [l|] eqn:Ev; [|done]. injection H as <-. destruct (var_b_ok _ _ Ev) as [Nx ?]. rewrite Nx in Ed. eapply co_set_global; [econstructor; [exact Hp|exact Ed]|done|by apply IH].
  - destruct (dec_pair d) as [[t b]|] eqn:Ed; [|done]. destruct (dec_pair_ok _ _ _ Ed) as [Nd Hd]. rewrite Nd in Hp. destruct (name_b t) eqn:Et.
    + destruct (dec_list 1 b) as [[|e' [|]]|] eqn:Eb; try done. apply dec_list_ok in Eb; [|done]. cbn in Eb. destruct (dec n e') as [e1|] eqn:Ee; [|done]. injection H as <-.
      destruct (name_b_ok _ Et) as [Nt ?]. rewrite Nt in Hd. eapply co_define; [econstructor; [exact Hp|]; econstructor; [exact Hd|exact Eb]|done|by apply IH].
    + destruct (dec_pair t) as [[x fm]|] eqn:Ex; [|done]. destruct (name_b x) eqn:Exn; [|done]. destruct (dec_names n fm) as [[xs r]|] eqn:En; [|done].
      destruct (decs (dec n) n b) as [bd|] eqn:Eb; [|done]. injection H as <-. destruct (dec_pair_ok _ _ _ Ex) as [Nt Ht]. rewrite Nt in Hd. destruct (name_b_ok _ Exn) as [Nx ?]. rewrite Nx in Ht.
      eapply co_defun; [exact Hp|exact Hd|exact Ht|done|by eapply dec_names_ok|by eapply IHs].
  - destruct (decs (dec n) n d) as [es|] eqn:Es; [|done]. injection H as <-. apply (co_begin _ _ _ (name d)); [done|]. by eapply IHs.
  - destruct (dec n f) as [ef|] eqn:Ef; [|done]. destruct (decs (dec n) n d) as [es|] eqn:Es; [|by destruct ef]. apply IHs in Es. apply IH in Ef.
    destruct ef; try done; injection H as <-; (eapply co_app; [done|exact Hp|done|done]).
Qed.
End view.

(** * The store and the environment *)
Section store.
Context (vars prims_ texts : list Z) (s : state).
Notation h := (heap s).
Definition locs : naming := Naming (list_to_set (vars ++ prims_)) (list_to_set texts).
Notation σ := (abs_heap locs s).
Definition dec_var (l : Z) : option sobj :=
  match h !! l with
  | Some c => if (c_ty c =? TPAIR) && negb (inL locs (c_car c)) then
      match dec_val locs s (c_cdr c) with Some v => Some (SVar (c_car c) v) | None => None end else None
  | None => None
  end.
Definition dec_prim (l : Z) : option sobj :=
  match h !! l with
  | Some c =>
      if (c_ty c =? TSTRUCT) && (5 <? c_car c) then
        match h !! (c_cdr c + 2), h !! (c_cdr c + 4), h !! (c_cdr c + 5) with
        | Some t, Some n, Some p =>
            if (c_ty t =? TREF) && (c_car t =? cell_symbol_builtin) && (c_ty n =? TNUMBER) && (c_ty p =? TNUMBER)
            then Some (SPrim (c_cdr p) (c_cdr n)) else None
        | _, _, _ => None
        end else None
  | None => None
  end.
Fixpoint dec_all (f : Z -> option sobj) (ls : list Z) (μ : store) : option store :=
  match ls with
  | [] => Some μ
  | l :: ls' => match f l with Some o => dec_all f ls' (<[l := o]> μ) | None => None end
  end.
Definition dec_store : option store :=
  match dec_all dec_var vars ∅ with Some μ => dec_all dec_prim prims_ μ | None => None end.
Lemma dec_all_ok (f : Z -> option sobj) : (forall l o, l ∈ nm_loc locs -> f l = Some o -> sobj_at σ o (Loc l)) ->
  forall ls μ μ', (forall l, l ∈ ls -> l ∈ nm_loc locs) -> dec_all f ls μ = Some μ' ->
  (forall l o, μ !! l = Some o -> sobj_at σ o (Loc l)) ->
  (forall l o, μ' !! l = Some o -> sobj_at σ o (Loc l)) /\ (forall l, l ∈ ls \/ is_Some (μ !! l) -> is_Some (μ' !! l)).
Proof.
  intros Hf. induction ls as [|l ls IH]; intros μ μ' Hin H Hμ; cbn in H.
  - injection H as <-. split; [done|]. intros l [Hl|Hl]; [by apply elem_of_nil in Hl|done].
  - destruct (f l) as [o|] eqn:E; [|done]. apply IH in H as [H1 H2].
    + split; [done|]. intros l' [[->|Hl]%elem_of_cons|Hl]; apply H2.
      * right. rewrite lookup_insert. by eexists.
      * by left.
      * right. destruct (decide (l' = l)) as [->|]; [rewrite lookup_insert; by eexists|by rewrite lookup_insert_ne].
    + intros l' Hl'. apply Hin. by constructor.
    + intros l' o' Hl'. destruct (decide (l' = l)) as [->|].
      * rewrite lookup_insert in Hl'. injection Hl' as <-. apply Hf; [apply Hin; constructor|done].
      * rewrite lookup_insert_ne in Hl' by done. by apply Hμ.
Qed.
Lemma loc_lookup l : l ∈ nm_loc locs -> σ !! Loc l = abs_obj locs s <$> h !! l.
Proof. intros H. rewrite <- abs_lookup. unfold name. by rewrite decide_True. Qed.
Lemma dec_store_ok μ : inL locs cell_symbol_builtin = false -> dec_store = Some μ -> store_at [] μ σ.
Proof.
  intros Hb. unfold dec_store. destruct (dec_all dec_var vars ∅) as [μ1|] eqn:E1; [|done]. intros E2.
  apply dec_all_ok in E1 as [E1 D1].
  - apply dec_all_ok in E2 as [E2 D2].
    + split; [done|]. intros l Hl _. apply abs_lookup_loc. intros Hin. unfold locs in Hin. apply elem_of_list_to_set, elem_of_app in Hin.
      destruct (D2 l) as (o & Ho); [|congruence]. destruct Hin as [Hin|Hin]; [right; apply D1; by left|by left].
    + clear - Hb. intros l o Hl. unfold dec_prim. destruct (h !! l) as [c|] eqn:Ec; [|done]. destruct ((c_ty c =? TSTRUCT) && (5 <? c_car c)) eqn:Et; [|done].
      destruct (h !! (c_cdr c + 2)) as [t|] eqn:H2; [|done]. destruct (h !! (c_cdr c + 4)) as [n|] eqn:H4; [|done]. destruct (h !! (c_cdr c + 5)) as [p|] eqn:H5; [|done].
      destruct ((c_ty t =? TREF) && (c_car t =? cell_symbol_builtin) && (c_ty n =? TNUMBER) && (c_ty p =? TNUMBER)) eqn:Ex; [|done]. intros [= <-].
      repeat (apply andb_prop in Ex as [Ex ?]). apply andb_prop in Et as [Et E5].
      cbn. rewrite loc_lookup by done. rewrite Ec. cbn. unfold abs_obj. assert (is_array c = true) as -> by (unfold is_array; lia).
      assert (c_ty c = TSTRUCT) as -> by lia. eexists. split; [done|].
      assert (forall k, 0 <= k < c_car c -> (abs_slot locs s <$> seqZ (c_cdr c) (c_car c)) !! Z.to_nat k = Some (abs_slot locs s (c_cdr c + k))) as Hk.
      { intros k Hk. rewrite list_lookup_fmap, (lookup_seqZ_lt (c_cdr c) (c_car c) (Z.to_nat k)) by lia. cbn. do 2 f_equal. lia. }
      split; [|split].
      * etransitivity; [apply (Hk 2); lia|]. unfold abs_slot. rewrite H2. assert (c_ty t = TREF) as -> by lia. cbn. assert (c_car t = cell_symbol_builtin) as -> by lia.
        by rewrite (inL_imp _ _ Hb).
      * etransitivity; [apply (Hk 4); lia|]. unfold abs_slot. rewrite H4. assert (c_ty n = TNUMBER) as -> by lia. done.
      * etransitivity; [apply (Hk 5); lia|]. unfold abs_slot. rewrite H5. assert (c_ty p = TNUMBER) as -> by lia. done.
    + intros l Hl. unfold locs. apply elem_of_list_to_set, elem_of_app. by right.
    + done.
  - clear. intros l o Hl. unfold dec_var. destruct (h !! l) as [c|] eqn:Ec; [|done]. destruct ((c_ty c =? TPAIR) && negb (inL locs (c_car c))) eqn:E; [|done].
    destruct (dec_val locs s (c_cdr c)) as [v|] eqn:Ev; [|done]. intros [= <-]. apply andb_prop in E as [T%Z.eqb_eq N%negb_true_iff].
    exists (name locs (c_cdr c)). split; [|by apply dec_val_ok]. rewrite loc_lookup, Ec by done. cbn. unfold abs_obj, is_array, GcSpec.is_bytes. rewrite T.
    by rewrite <- (inL_imp _ _ N).
  - intros l Hl. unfold locs. apply elem_of_list_to_set, elem_of_app. by left.
  - intros l o Hl. by rewrite lookup_empty in Hl.
Qed.
End store.

Lemma lookup_var_in x gs l : lookup_var x gs = Some l -> (x, l) ∈ gs.
Proof.
  induction gs as [|[y l'] gs IH]; cbn; [done|]. case_decide; [intros [= ->]; subst; by constructor|]. intros H'. constructor. by apply IH.
Qed.
(** environments made of entries of the evaluator only *)
Section env.
Context (L : naming) (s : state).
Fixpoint dec_env (n : nat) (p : Z) : option env :=
  if p =? cell_nil then Some ENil else
  match n with
  | O => None
  | S n' => match dec_pair L s p with
            | Some (e, d) => match dec_pair L s e with
                             | Some (k, _) => if negb (inL L k) && bool_decide (k ∈ hidden) then match dec_env n' d with Some ρ => Some (EHide ρ) | None => None end else None
                             | None => None
                             end
            | None => None
            end
  end.
Lemma dec_env_ok n : inL L cell_nil = false -> forall p ρ, dec_env n p = Some ρ -> env_at (abs_heap L s) ρ (name L p) /\ forall μ, env_ok μ ρ.
Proof.
  intros Hnil. induction n as [|n IH]; intros p ρ H; cbn [dec_env] in H; destruct (Z.eqb_spec p cell_nil) as [Hp|Hp];
    try (injection H as <-; split; [rewrite Hp, inL_imp by done; constructor|intros; constructor]); try done. clear Hp.
  destruct (dec_pair L s p) as [[e d]|] eqn:Ep; [|done]. destruct (dec_pair L s e) as [[k w]|] eqn:Ee; [|done].
  destruct (negb (inL L k) && bool_decide (k ∈ hidden)) eqn:Ek; [|done]. destruct (dec_env n d) as [ρ'|] eqn:Ed; [|done]. injection H as <-.
  apply andb_prop in Ek as [H1%negb_true_iff H2%bool_decide_eq_true]. destruct (dec_pair_ok _ _ _ _ _ Ep) as [-> Hp]. destruct (dec_pair_ok _ _ _ _ _ Ee) as [Ne He].
  rewrite Ne in Hp. rewrite (inL_imp _ _ H1) in He. destruct (IH _ _ Ed) as [I1 I2]. split; [by eapply env_hide|]. intros μ. constructor. apply I2.
Qed.
(** global variables *)
Definition iget (i : id) : option obj :=
  match i with Imp p => if inL L p then None else abs_obj L s <$> heap s !! p | _ => None end.
Lemma iget_ok i o : iget i = Some o -> frozen i /\ abs_heap L s !! i = Some o.
Proof.
  destruct i as [|p| |]; try done. cbn. destruct (inL L p) eqn:E; [done|]. intros H. split; [done|]. by rewrite <- (inL_imp _ _ E), abs_lookup.
Qed.
Context (gs : list (Z * Z)) (M0 : Z).
Definition skips_b (x : Z) (e : id) : bool :=
  match e with
  | Loc l => existsb (fun g => (snd g =? l) && negb (fst g =? x)) gs
  | Imp k => match iget e with Some (OCell t (WId (Imp y)) (WId _)) => (t =? TPAIR) && negb (y =? x) | _ => false end
  | _ => false
  end.
Lemma skips_b_ok x e : skips_b x e = true -> skips gs (abs_heap L s) x e.
Proof.
  destruct e as [l|k| |]; try done.
  - cbn. rewrite existsb_exists. intros ([y l'] & Hin & H). left. exists y, l'. apply andb_prop in H as [H1%Z.eqb_eq H2%negb_true_iff%Z.eqb_neq]. cbn in *.
    split; [congruence|]. split; [by apply elem_of_list_In|done].
  - intros H. unfold skips_b in H. right. destruct (iget (Imp k)) as [o|] eqn:E; [|done]. apply iget_ok in E as [_ E].
    destruct o as [t [[|y| |]|] [w|]| |]; try done. apply andb_prop in H as [->%Z.eqb_eq H2%negb_true_iff%Z.eqb_neq]. by exists k, y, w.
Qed.
Fixpoint bucket_b (n : nat) (seen : bool) (x l : Z) (i : id) : bool :=
  match n with
  | O => false
  | S n' =>
      if bool_decide (i = Imp cell_nil) then seen else
      match iget i with
      | Some (OCell t (WId a) (WId d)) =>
          (t =? TPAIR) && (if seen then bucket_b n' true x l d
                           else if bool_decide (a = Loc l) then bucket_b n' true x l d else skips_b x a && bucket_b n' false x l d)
      | _ => false
      end
  end.
Lemma bucket_b_ok n : forall seen x l i, bucket_b n seen x l i = true ->
  if seen then exists post, flist (abs_heap L s) i post
  else exists pre post, flist (abs_heap L s) i (pre ++ Loc l :: post) /\ Forall (skips gs (abs_heap L s) x) pre.
Proof.
  induction n as [|n IH]; intros seen x l i H; [done|]. cbn [bucket_b] in H. case_bool_decide as Hi.
  - destruct seen; [|done]. rewrite Hi. exists []. constructor.
  - destruct (iget i) as [o|] eqn:E; [|done]. apply iget_ok in E as [Fi E]. destruct o as [t [a|] [d|]| |]; try done.
    apply andb_prop in H as [->%Z.eqb_eq H]. destruct seen.
    + apply IH in H as (post & H). exists (a :: post). by econstructor.
    + case_bool_decide as Ha.
      * subst a. apply IH in H as (post & H). exists [], post. split; [by econstructor|constructor].
      * apply andb_prop in H as [Hs H]. apply IH in H as (pre & post & H1 & H2). exists (a :: pre), post. split; [by econstructor|]. constructor; [by apply skips_b_ok|done].
Qed.
Definition global_b (x l : Z) : bool :=
  match iget (name L M0) with
  | Some (OArr t1 ms) => (t1 =? TSTRUCT) && match ms !! 5%nat with
    | Some (ARef t) => match iget t with
      | Some (OArr t2 ts) => (t2 =? TSTRUCT) && match ts !! 3%nat, ts !! 4%nat with
        | Some (ANum size), Some (ARef b) => match iget b with
          | Some (OArr t3 bs) => (t3 =? TVECTOR) && match iget (Imp x) with
            | Some (OCell t4 (WInt n) (WId nb)) => (t4 =? TSYMBOL) && match iget nb with
              | Some (OBytes bytes) => let nm := take (length bytes - 1) bytes in
                  bool_decide (bytes = nm ++ [0]) && (0 <? size) && (size <? 2147483648) && (0 <=? name_hash nm) &&
                  match bs !! Z.to_nat (name_hash nm mod size) with
                  | Some (ARef i) => bucket_b (Z.to_nat 1000) false x l i
                  | _ => false
                  end
              | _ => false end
            | _ => false end
          | _ => false end
        | _, _ => false end
      | _ => false end
    | _ => false end
  | _ => false end.
Lemma global_b_ok x l : global_b x l = true -> exists ms ts bs t b nb i size n nm pre post,
  global_at (Genv (name L M0) gs) (abs_heap L s) x l ms ts bs t b nb i size n nm pre post.
Proof.
  unfold global_b. intros H.
  destruct (iget (name L M0)) as [o|] eqn:E; [|done]. apply iget_ok in E as [F1 E1]. destruct o as [|t1 ms|]; try done. apply andb_prop in H as [->%Z.eqb_eq H].
  destruct (ms !! 5%nat) as [[| |t]|] eqn:E5; try done. destruct (iget t) as [o|] eqn:E; [|done]. apply iget_ok in E as [F2 E2]. destruct o as [|t2 ts|]; try done. apply andb_prop in H as [->%Z.eqb_eq H].
  destruct (ts !! 3%nat) as [[size | |]|] eqn:E3; try done. destruct (ts !! 4%nat) as [[| |b]|] eqn:E4; try done.
  destruct (iget b) as [o|] eqn:E; [|done]. apply iget_ok in E as [F6 E6]. destruct o as [|t3 bs|]; try done. apply andb_prop in H as [->%Z.eqb_eq H].
  destruct (iget (Imp x)) as [o|] eqn:E; [|done]. apply iget_ok in E as [F7 E7]. destruct o as [t4 [|n] [nb|]| |]; try done. apply andb_prop in H as [->%Z.eqb_eq H].
  destruct (iget nb) as [o|] eqn:E; [|done]. apply iget_ok in E as [F8 E8]. destruct o as [| |bytes]; try done. cbv zeta in H.
  apply andb_prop in H as [H Hb]. apply andb_prop in H as [H H4]. apply andb_prop in H as [H H3]. apply andb_prop in H as [H1%bool_decide_eq_true H2].
  destruct (bs !! _) as [[| |i]|] eqn:E9; try done. apply bucket_b_ok in Hb as (pre & post & B1 & B2).
  set (nm := take (length bytes - 1) bytes) in *. eexists ms, ts, bs, t, b, nb, i, size, n, nm, pre, post.
  split; cbn [ge_module ge_vars]; try done; [by rewrite <- H1|lia].
Qed.
Definition consts_b : bool :=
  forallb (fun k => negb (inL L k) && match heap s !! k with
     | Some c => ((c_ty c =? TSPECIAL) || (c_ty c =? TSYMBOL)) && negb (c_car c =? cell_symbol_primitive_load)
     | None => false end) (seqZ cell_nil (cell_symbol_test - cell_nil + 1)).
Lemma consts_b_ok : consts_b = true -> forallb (fun g => global_b (fst g) (snd g)) gs = true -> consts_ok (Genv (name L M0) gs) (abs_heap L s) /\ forall k, cell_nil <= k <= cell_symbol_test -> inL L k = false.
Proof.
  unfold consts_b. rewrite forallb_forall. intros H HG.
  assert (forall k, cell_nil <= k <= cell_symbol_test -> inL L k = false /\ exists c, heap s !! k = Some c /\ (c_ty c = TSPECIAL \/ c_ty c = TSYMBOL) /\ c_car c <> cell_symbol_primitive_load) as Hk.
  { intros k Hk. specialize (H k). destruct (heap s !! k) as [c|].
    - assert (negb (inL L k) && (((c_ty c =? TSPECIAL) || (c_ty c =? TSYMBOL)) && negb (c_car c =? cell_symbol_primitive_load)) = true) as Hc.
      { apply H. apply elem_of_list_In, elem_of_seqZ. lia. }
      apply andb_prop in Hc as [H1%negb_true_iff [H2 H3]%andb_prop]. split; [done|]. exists c. split; [done|]. lia.
    - assert (negb (inL L k) && false = true) as Hc; [apply H; apply elem_of_list_In, elem_of_seqZ; lia|]. by rewrite andb_false_r in Hc. }
  split; [|intros k Hk'; by apply Hk]. split; [|intros x l Hxl; apply global_b_ok; rewrite forallb_forall in HG; apply (HG (x, l)); by apply elem_of_list_In, lookup_var_in|intros x Hx; by apply elem_of_nil in Hx]. intros k Hk'. destruct (Hk k Hk') as (HL & c & Hc & Ht & Hn).
  pose proof (abs_lookup L s k) as Hp. rewrite inL_imp, Hc in Hp by done. cbn in Hp. unfold abs_obj, is_array, GcSpec.is_bytes, abs_word in Hp.
  destruct Ht as [Ht|Ht]; rewrite Ht in Hp; cbn in Hp; eexists _, _, _; (split; [exact Hp|]; split; [tauto|]; unfold no_load; congruence).
Qed.
End env.

(** * Executing the semantics *)
Fixpoint fits_b (f : Z -> Z -> Z) (n : Z) (ns : list Z) : bool :=
  in_long n && match ns with [] => true | m :: ns' => fits_b f (f n m) ns' end.
Lemma fits_b_ok f ns : forall n, fits_b f n ns = true -> fits f n ns.
Proof.
  induction ns as [|m ns IH]; intros n H; cbn in H; apply andb_prop in H as [H1 H2]; intros k Hk; destruct k as [|k]; cbn; try done.
  apply (IH _ H2 k). cbn in Hk. lia.
Qed.
Fixpoint ordered_b (R : Z -> Z -> bool) (ns : list Z) : bool :=
  match ns with
  | a :: (b :: _) as ns' => R a b && ordered_b R ns'
  | _ => true
  end.
Lemma ordered_b_ok (R : Z -> Z -> Prop) (Rb : Z -> Z -> bool) : (forall a b, Rb a b = true <-> R a b) -> forall ns, ordered_b Rb ns = true <-> ordered R ns.
Proof.
  intros HR. induction ns as [|a ns IH]; [split; [by intros _ i a b Hi|done]|]. destruct ns as [|b ns].
  - split; [|done]. intros _ [|i] x y H1 H2; cbn in *; done.
  - change (ordered_b Rb (a :: b :: ns)) with (Rb a b && ordered_b Rb (b :: ns)). rewrite andb_true_iff, HR, IH. split.
    + intros [H1 H2] [|i] x y Hx Hy; [injection Hx as <-; injection Hy as <-; done|]. by apply (H2 i).
    + intros H. split; [by apply (H 0%nat)|]. intros i x y Hx Hy. by apply (H (S i)).
Qed.
Definition numbers (vs : list val) : option (list Z) := mapM (fun v => match v with VNum n => Some n | _ => None end) vs.
Lemma numbers_ok vs : forall ns, numbers vs = Some ns -> vs = VNum <$> ns.
Proof.
  induction vs as [|v vs IH]; intros ns H; [by injection H as <-|]. unfold numbers in H. cbn in H. destruct v; try done. cbn in H.
  fold (numbers vs) in H. destruct (numbers vs) as [ns'|] eqn:E; [|done]. injection H as <-. cbn. by rewrite (IH _ eq_refl).
Qed.
Definition fresh_loc (μ : store) : Z := 1 + map_fold (fun k _ m => Z.max k m) 0 μ.
Fixpoint list_fn (n : nat) (μ : store) (v : val) : option (list val) :=
  match v with
  | VAtom k => if k =? cell_nil then Some [] else None
  | VLoc l => match n, μ !! l with
              | S n', Some (SPair a d) => match list_fn n' μ d with Some vs => Some (a :: vs) | None => None end
              | _, _ => None
              end
  | _ => None
  end.
Lemma list_fn_ok n : forall μ v vs, list_fn n μ v = Some vs -> list_val μ v vs.
Proof.
  induction n as [|n IH]; intros μ [k|k|k|k|l] vs H; cbn in H; try done.
  - destruct (Z.eqb_spec k cell_nil) as [->|]; [|done]. injection H as <-. constructor.
  - destruct (Z.eqb_spec k cell_nil) as [->|]; [|done]. injection H as <-. constructor.
  - destruct (μ !! l) as [[]|] eqn:E; try done. destruct (list_fn n μ d) as [vs'|] eqn:E'; [|done]. injection H as <-. econstructor; [done|by apply IH].
Qed.
Definition fresh_b (μ : store) (ls : list Z) : bool := bool_decide (NoDup ls) && forallb (fun l => bool_decide (μ !! l = None)) ls.
Lemma fresh_b_ok μ ls : fresh_b μ ls = true -> unused μ ls.
Proof. intros [H1%bool_decide_eq_true H2]%andb_prop. split; [done|]. apply Forall_forall. intros l Hl. rewrite forallb_forall in H2. apply elem_of_list_In, H2, bool_decide_eq_true in Hl. done. Qed.
Definition known_b (μ : store) (v : val) : bool := match v with VLoc l => bool_decide (is_Some (μ !! l)) | _ => true end.
Lemma known_b_ok μ v : known_b μ v = true -> known μ v.
Proof. destruct v; try done. cbn. by intros H%bool_decide_eq_true. Qed.
Definition char_fits_b (v : val) : bool := match v with VChar n => in_int n | _ => true end.
Lemma char_fits_b_ok v : char_fits_b v = true -> char_fits v.
Proof. by destruct v. Qed.
Definition new_locs (μ : store) (n : nat) : list Z := seqZ (fresh_loc μ) (Z.of_nat n).
Definition more_fn (w : nat) (p n : Z) (vs : list val) (μ : store) : option (store * val) :=
  if (p =? fn_list) && (n =? -1) then store_list (new_locs μ (length vs)) vs μ
  else if (p =? fn_append2) && (n =? 2) then
    match vs with
    | [x; y] => match list_fn w μ x with
                | Some xs => let ls := new_locs μ (length xs) in
                    if (length xs <=? w)%nat && (length ls =? length xs)%nat && fresh_b μ ls then Some (link ls xs y μ, first_of ls y) else None
                | None => None end
    | _ => None end
  else if (p =? fn_list_to_vector) && (n =? 1) then
    match vs with
    | [x] => match list_fn w μ x with
             | Some xs => let l := fresh_loc μ in
                 if bool_decide (μ !! l = None) && (2 * length xs <=? w)%nat && forallb (known_b μ) xs && forallb char_fits_b xs then Some (<[l := SVec xs]> μ, VLoc l) else None
             | None => None end
    | _ => None end
  else if (p =? fn_vector_ref) && (n =? 2) then
    match vs with
    | [VLoc l; VNum k] => match μ !! l with
        | Some (SVec xs) => match xs !! Z.to_nat k with
            | Some v => if (0 <=? k) && known_b μ v && char_fits_b v then Some (μ, v) else None
            | None => None end
        | _ => None end
    | _ => None end
  else if (p =? fn_vector_set_x) && (n =? 3) then
    match vs with
    | [VLoc l; VNum k; v] => match μ !! l with
        | Some (SVec xs) => if (0 <=? k) && (k <? Z.of_nat (length xs)) && known_b μ v then Some (<[l := SVec (<[Z.to_nat k := v]> xs)]> μ, v_unspecified) else None
        | _ => None end
    | _ => None end
  else None.
Lemma more_fn_ok w p n vs μ μ' v : more_fn w p n vs μ = Some (μ', v) -> prims w p n vs μ μ' v.
Proof.
  unfold more_fn.
  destruct ((p =? fn_list) && (n =? -1)) eqn:E; [|clear E; destruct ((p =? fn_append2) && (n =? 2)) eqn:E; [|clear E; destruct ((p =? fn_list_to_vector) && (n =? 1)) eqn:E;
   [|clear E; destruct ((p =? fn_vector_ref) && (n =? 2)) eqn:E; [|clear E; destruct ((p =? fn_vector_set_x) && (n =? 3)) eqn:E; [|done]]]]];
   apply andb_prop in E as [->%Z.eqb_eq ->%Z.eqb_eq].
  - apply pr_list.
  - destruct vs as [|x [|y [|]]]; try done. destruct (list_fn w μ x) as [xs|] eqn:E; [|done]. cbv zeta. destruct (_ && _ && _) eqn:F; [|done]. intros [= <- <-].
    apply andb_prop in F as [[F1%Nat.leb_le F2%Nat.eqb_eq]%andb_prop F3%fresh_b_ok]. apply list_fn_ok in E. by econstructor.
  - destruct vs as [|x [|]]; try done. destruct (list_fn w μ x) as [xs|] eqn:E; [|done]. cbv zeta. destruct (_ && _ && _ && _) eqn:F; [|done]. intros [= <- <-].
    apply andb_prop in F as [[[F1%bool_decide_eq_true F2%Nat.leb_le]%andb_prop F3]%andb_prop F4]. rewrite forallb_forall in F3, F4. apply list_fn_ok in E. constructor; try done.
    + apply Forall_forall. intros a Ha. apply known_b_ok, F3, elem_of_list_In, Ha.
    + apply Forall_forall. intros a Ha. apply char_fits_b_ok, F4, elem_of_list_In, Ha.
  - destruct vs as [|[] [|[] [|]]]; try done. destruct (μ !! l) as [[]|] eqn:E; try done. destruct (vs !! Z.to_nat n) as [a|] eqn:E2; [|done].
    destruct (_ && _ && _) eqn:F; [|done]. intros [= <- <-]. apply andb_prop in F as [[F1 F2%known_b_ok]%andb_prop F3%char_fits_b_ok].
    rewrite <- (Z2Nat.id n) by lia. by econstructor.
  - destruct vs as [|[] [|[] [|u [|]]]]; try done. destruct (μ !! l) as [[]|] eqn:E; try done.
    destruct (_ && _ && _) eqn:F; [|done]. intros [= <- <-]. apply andb_prop in F as [[F1 F2]%andb_prop F3%known_b_ok].
    rewrite <- (Z2Nat.id n) at 1 by lia. econstructor; [done|lia|done].
Qed.
Definition prim_fn (w : nat) (p n : Z) (vs : list val) (μ : store) : option (store * val) :=
  if (p =? fn_cons) && (n =? 2) then
    match vs with [a; d] => let l := fresh_loc μ in if decide (μ !! l = None) then Some (<[l := SPair a d]> μ, VLoc l) else None | _ => None end
  else if (p =? fn_car) && (n =? 1) then
    match vs with [VLoc l] => match μ !! l with Some (SPair a d) => Some (μ, a) | _ => None end | _ => None end
  else if (p =? fn_cdr) && (n =? 1) then
    match vs with [VLoc l] => match μ !! l with Some (SPair a d) => Some (μ, d) | _ => None end | _ => None end
  else if (p =? fn_plus) && (n =? -1) then
    match numbers vs with Some ns => if fits_b Z.add 0 ns then Some (μ, VNum (foldl Z.add 0 ns)) else None | None => None end
  else if (p =? fn_minus) && (n =? -1) then
    match numbers vs with Some (m :: k :: ns) => if fits_b Z.sub m (k :: ns) then Some (μ, VNum (foldl Z.sub m (k :: ns))) else None | _ => None end
  else if (p =? fn_is_p) && (n =? -1) then
    match numbers vs with Some ns => Some (μ, v_bool (ordered_b Z.eqb ns)) | None => None end
  else if (p =? fn_less_p) && (n =? -1) then
    match numbers vs with Some ns => Some (μ, v_bool (ordered_b Z.ltb ns)) | None => None end
  else more_fn w p n vs μ.
Lemma prim_fn_ok w p n vs μ μ' v : prim_fn w p n vs μ = Some (μ', v) -> prims w p n vs μ μ' v.
Proof.
  unfold prim_fn.
  destruct ((p =? fn_cons) && (n =? 2)) eqn:E; [|clear E; destruct ((p =? fn_car) && (n =? 1)) eqn:E; [|clear E; destruct ((p =? fn_cdr) && (n =? 1)) eqn:E;
   [|clear E; destruct ((p =? fn_plus) && (n =? -1)) eqn:E; [|clear E; destruct ((p =? fn_minus) && (n =? -1)) eqn:E; [|clear E; destruct ((p =? fn_is_p) && (n =? -1)) eqn:E;
   [|clear E; destruct ((p =? fn_less_p) && (n =? -1)) eqn:E; [|apply more_fn_ok]]]]]]]; apply andb_prop in E as [->%Z.eqb_eq ->%Z.eqb_eq].
  - destruct vs as [|a [|d [|]]]; try done. cbn zeta. case_decide; [|done]. intros [= <- <-]. by constructor.
  - destruct vs as [|[] [|]]; try done. destruct (μ !! l) as [[]|] eqn:El; try done. intros [= <- <-]. by econstructor.
  - destruct vs as [|[] [|]]; try done. destruct (μ !! l) as [[]|] eqn:El; try done. intros [= <- <-]. by econstructor.
  - destruct (numbers vs) as [ns|] eqn:E; [|done]. apply numbers_ok in E as ->. destruct (fits_b _ _ _) eqn:F; [|done]. intros [= <- <-]. constructor. by apply fits_b_ok.
  - destruct (numbers vs) as [[|m [|k ns]]|] eqn:E; try done. apply numbers_ok in E as ->. destruct (fits_b _ _ _) eqn:F; [|done]. intros [= <- <-]. constructor. by apply fits_b_ok.
  - destruct (numbers vs) as [ns|] eqn:E; [|done]. apply numbers_ok in E as ->. intros [= <- <-]. constructor. apply ordered_b_ok. apply Z.eqb_eq.
  - destruct (numbers vs) as [ns|] eqn:E; [|done]. apply numbers_ok in E as ->. intros [= <- <-]. constructor. apply ordered_b_ok. apply Z.ltb_lt.
Qed.

Fixpoint bind_fn (xs : list Z) (r : option Z) (vs : list val) (μ : store) : option (list (Z * Z) * store) :=
  match xs, vs with
  | [], _ =>
      match r with
      | None => match vs with [] => Some ([], μ) | _ => None end
      | Some r =>
          match store_list (seqZ (fresh_loc μ) (Z.of_nat (length vs))) vs μ with
          | Some (μ1, v) => let l := fresh_loc μ1 in if decide (μ1 !! l = None) then Some ([(r, l)], <[l := SVar r v]> μ1) else None
          | None => None
          end
      end
  | x :: xs', v :: vs' =>
      let l := fresh_loc μ in
      if decide (μ !! l = None) then
        match bind_fn xs' r vs' (<[l := SVar x v]> μ) with Some (ρ, μ1) => Some ((x, l) :: ρ, μ1) | None => None end
      else None
  | _ :: _, [] => None
  end.
Lemma bind_fn_ok xs : forall r vs μ ρ μ1, bind_fn xs r vs μ = Some (ρ, μ1) -> bind_args xs r vs μ ρ μ1.
Proof.
  induction xs as [|x xs IH]; intros r vs μ ρ μ1; cbn.
  - destruct r as [r|].
    + destruct (store_list _ vs μ) as [[μ2 v]|] eqn:E; [|done]. case_decide; [|done]. intros [= <- <-]. by econstructor.
    + destruct vs; [|done]. intros [= <- <-]. constructor.
  - destruct vs as [|v vs]; [done|]. case_decide; [|done]. destruct (bind_fn xs r vs _) as [[ρ' μ2]|] eqn:E; [|done]. intros [= <- <-]. constructor; [done|by apply IH].
Qed.

Global Instance val_dec : EqDecision val.
Proof. solve_decision. Defined.
Section globals.
Context (gs : list (Z * Z)).
Fixpoint finds_fn (n : nat) (μ : store) (x : Z) (ρ : env) : option Z :=
  match n with
  | O => None
  | S n' => match ρ with
            | ENil => lookup_var x gs
            | EBind y l ρ' => if x =? y then Some l else finds_fn n' μ x ρ'
            | EHide ρ' => finds_fn n' μ x ρ'
            | EFrame f => match μ !! f with Some (SFrame ρ') => finds_fn n' μ x ρ' | _ => None end
            end
  end.
Lemma finds_fn_ok n : forall μ x ρ l, finds_fn n μ x ρ = Some l -> finds gs μ x ρ l.
Proof.
  induction n as [|n IH]; intros μ x ρ l H; [done|]. destruct ρ as [|y l' ρ|ρ|f]; cbn in H.
  - by constructor.
  - destruct (Z.eqb_spec x y) as [->|]; [injection H as ->; constructor|]. apply finds_next; [done|by apply IH].
  - constructor. by apply IH.
  - destruct (μ !! f) as [[]|] eqn:E; try done. econstructor; [done|by apply IH].
Qed.
Definition find_var := finds_fn (Z.to_nat 1000).
Definition var_fn (ρ : env) (μ : store) (e : exp) : option val :=
  match e with
  | EVar x => match find_var μ x ρ with
              | Some l => match μ !! l with Some (SVar y v) => if decide (y = x /\ v <> v_undefined) then Some v else None | _ => None end
              | None => None
              end
  | EGlobal l => match μ !! l with Some (SVar _ v) => Some v | _ => None end
  | _ => None
  end.
Lemma var_fn_ok ρ μ e v : var_fn ρ μ e = Some v -> var_value gs ρ μ e v.
Proof.
  destruct e; try done; cbn.
  - destruct (find_var μ x ρ) as [l|] eqn:E; [|done]. apply finds_fn_ok in E. destruct (μ !! l) as [[y w| | | | |]|] eqn:El; try done. case_decide as H; [|done]. destruct H as [-> H]. intros [= ->]. by exists l.
  - destruct (μ !! l) as [[y w| | | | |]|] eqn:El; try done. intros [= ->]. by exists y.
Qed.

Section ev.
Context (w : nat) (defs : bool).
Section rec.
Context (ev : nat -> env -> store -> exp -> option (store * val)).
Fixpoint args_fn (d : nat) (ρ : env) (μ : store) (es : list exp) {struct es} : option (store * list val) :=
  match es with
  | [] => Some (μ, [])
  | e :: es' =>
      match d with
      | O => None
      | S d' => match ev d' ρ μ e with
                | Some (μ1, v) => match args_fn d' ρ μ1 es' with Some (μ2, vs) => Some (μ2, v :: vs) | None => None end
                | None => None
                end
      end
  end.
Fixpoint body_fn (d : nat) (ρ : env) (μ : store) (es : list exp) {struct es} : option (store * val) :=
  match es with
  | [] => None
  | e :: es' =>
      if decide (body_len es <= w)%nat then
        match es' with
        | [] => ev d ρ μ e
        | _ => match d with
               | O => None
               | S d' => match ev d' ρ μ e with Some (μ1, _) => body_fn d ρ μ1 es' | None => None end
               end
        end
      else None
  end.
Definition call_fn (d : nat) (μ : store) (xs : list Z) (r : option Z) (bd : list exp) (ρ : env) (vs : list val) : option (store * val) :=
  if decide (length xs <= w)%nat then
    match bind_fn xs r vs μ with
    | Some (bs, μ1) => let f := fresh_loc μ1 in
        if decide (μ1 !! f = None) then body_fn d (EFrame f) (<[f := SFrame (extend bs ρ)]> μ1) bd else None
    | None => None
    end
  else None.
Definition apply_fn (d : nat) (μ : store) (fv : val) (vs : list val) : option (store * val) :=
  match fv with
  | VLoc l =>
      match μ !! l with
      | Some (SClo xs r bd ρ) =>
          match closure_env μ ρ with Some ρ' => call_fn d μ xs r bd ρ' vs | None => None end
      | Some (SPrim p n) => if (n =? -1) || (n =? Z.of_nat (length vs)) then prim_fn w p n vs μ else None
      | _ => None
      end
  | _ => None
  end.
End rec.
Definition is_compound (f : exp) : bool := match f with EConst _ | EVar _ | EGlobal _ | ELam _ _ _ => false | _ => true end.
Fixpoint ev (n : nat) (d : nat) (ρ : env) (μ : store) (e : exp) : option (store * val) :=
  match n with
  | O => None
  | S n' =>
      match e with
      | EConst v | EQuote v => Some (μ, v)
      | EVar _ | EGlobal _ => match var_fn ρ μ e with Some v => Some (μ, v) | None => None end
      | EIf c t e' =>
          match d with
          | O => None
          | S d' => match ev n' d' ρ μ c with
                    | Some (μ1, v) => if decide (v = v_false) then ev n' d ρ μ1 e' else ev n' d ρ μ1 t
                    | None => None
                    end
          end
      | EWhen c t =>
          match d with
          | O => None
          | S d' => match ev n' d' ρ μ c with
                    | Some (μ1, v) => if decide (v = v_false) then Some (μ1, v_unspecified) else ev n' d ρ μ1 t
                    | None => None
                    end
          end
      | ELam xs r bd =>
          let l := fresh_loc μ in if decide (μ !! l = None) then Some (<[l := SClo xs r bd ρ]> μ, VLoc l) else None
      | ESet x e' =>
          match d with
          | O => None
          | S d' => match ev n' d' ρ μ e' with
                    | Some (μ1, v) =>
                        match find_var μ1 x ρ with
                        | Some l =>
                            match μ1 !! l with
                            | Some (SVar y _) => if decide (y = x) then Some (<[l := SVar x v]> μ1, v_unspecified) else None
                            | _ => None
                            end
                        | None => None
                        end
                    | _ => None
                    end
          end
      | ESetGlobal l e' =>
          match d with
          | O => None
          | S d' => match ev n' d' ρ μ e' with
                    | Some (μ1, v) =>
                        match μ1 !! l with
                        | Some (SVar y _) => Some (<[l := SVar y v]> μ1, v_unspecified)
                        | _ => None
                        end
                    | _ => None
                    end
          end
      | EDefine x e' =>
          match d, ρ with
          | S d', EFrame f =>
              let l0 := fresh_loc μ in
              if decide (defs = true /\ μ !! l0 = None) then
                match ev n' d' (EBind x l0 (EFrame f)) (<[l0 := SVar x (VAtom x)]> μ) e' with
                | Some (μ1, v) =>
                    let l := fresh_loc μ1 in
                    match μ1 !! f with
                    | Some (SFrame ρ1) => if decide (μ1 !! l = None) then Some (<[f := SFrame (EBind x l ρ1)]> (<[l := SVar x v]> μ1), v_unspecified) else None
                    | _ => None
                    end
                | None => None
                end
              else None
          | _, _ => None
          end
      | EDefun x xs r bd =>
          match d, ρ with
          | S d', EFrame f =>
              if decide (defs = true /\ (length xs <= w)%nat) then
                match bind_fn (x :: xs ++ opt_list r) None (map VAtom (x :: xs ++ opt_list r)) μ with
                | Some (bs, μ1) =>
                    let lc := fresh_loc μ1 in let l := 1 + lc in
                    match μ1 !! f with
                    | Some (SFrame ρ1) => if decide (μ1 !! lc = None /\ μ1 !! l = None) then
                        Some (<[f := SFrame (EBind x l ρ1)]> (<[l := SVar x (VLoc lc)]> (<[lc := SClo xs r bd (extend bs (EFrame f))]> μ1)), v_unspecified) else None
                    | _ => None
                    end
                | None => None
                end
              else None
          | _, _ => None
          end
      | EBegin es => match d with O => None | S _ => body_fn (ev n') d ρ μ es end
      | EApp (ELam xs r bd) es =>
          match d with
          | O => None
          | S d' =>
              let l := fresh_loc μ in
              if decide (μ !! l = None) then
                match args_fn (ev n') d' ρ (<[l := SClo xs r bd ρ]> μ) es with
                | Some (μ1, vs) => call_fn (ev n') d μ1 xs r bd ρ vs
                | None => None
                end
              else None
          end
      | EApp f es =>
          match d with
          | O => None
          | S d' =>
              if is_compound f then
                match ev n' d' ρ μ f with
                | None => None
                | Some (μ0, _) =>
                    match args_fn (ev n') d' ρ μ0 es with
                    | None => None
                    | Some (μ1, vs) => match ev n' d' ρ μ1 f with Some (μ2, fv) => apply_fn (ev n') d μ2 fv vs | None => None end
                    end
                end
              else
              match var_fn ρ μ f with
              | None => None
              | Some _ =>
                  match args_fn (ev n') d' ρ μ es with
                  | Some (μ1, vs) => match var_fn ρ μ1 f with Some fv => apply_fn (ev n') d μ1 fv vs | None => None end
                  | None => None
                  end
              end
          end
      end
  end.
Lemma ev_ok n : forall d ρ μ e μ' v, ev n d ρ μ e = Some (μ', v) -> eval w (prims w) gs defs d ρ μ e μ' v.
Proof.
  induction n as [|n IH]; intros d ρ μ e μ' v H; [done|].
  assert (forall es d ρ μ μ' vs, args_fn (ev n) d ρ μ es = Some (μ', vs) -> args w (prims w) gs defs d ρ μ es μ' vs) as IHa.
  { clear H. induction es as [|e1 es IHe]; intros d1 ρ1 μ1 μ2 vs H; cbn in H; [injection H as <- <-; constructor|]. destruct d1 as [|d1]; [done|].
    destruct (ev n d1 ρ1 μ1 e1) as [[μ3 v1]|] eqn:E; [|done]. destruct (args_fn (ev n) d1 ρ1 μ3 es) as [[μ4 vs1]|] eqn:E2; [|done]. injection H as <- <-.
    econstructor; [by apply IH|by apply IHe]. }
  assert (forall es d ρ μ μ' v, body_fn (ev n) d ρ μ es = Some (μ', v) -> body w (prims w) gs defs d ρ μ es μ' v) as IHb.
  { clear H. induction es as [|e1 es IHe]; intros d1 ρ1 μ1 μ2 v1 H; [done|]. cbn [body_fn] in H. case_decide as Hw; [|done]. destruct es as [|e2 es].
    - constructor; [done|]. by apply IH.
    - destruct d1 as [|d1]; [done|]. destruct (ev n d1 ρ1 μ1 e1) as [[μ3 v3]|] eqn:E; [|done]. econstructor; [done|by apply IH|by apply IHe]. }
  assert (forall d μ xs r bd ρ vs μ' v, call_fn (ev n) d μ xs r bd ρ vs = Some (μ', v) -> call w (prims w) gs defs d μ xs r bd ρ vs μ' v) as IHc.
  { clear H. intros d1 μ1 xs r bd ρ1 vs μ2 v1 H. unfold call_fn in H. case_decide; [|done]. destruct (bind_fn xs r vs μ1) as [[bs μ3]|] eqn:Eb; [|done]. cbv zeta in H. case_decide; [|done].
    eapply call_body; [done|by apply bind_fn_ok|done|by apply IHb]. }
  assert (forall d μ fv vs μ' v, apply_fn (ev n) d μ fv vs = Some (μ', v) -> apply w (prims w) gs defs d μ fv vs μ' v) as IHp.
  { clear H. intros d1 μ1 fv vs μ2 v1 H. unfold apply_fn in H. destruct fv as [| | | |l]; try done. destruct (μ1 !! l) as [[| |xs r bd ρ1|p k| |]|] eqn:El; try done.
    - destruct (closure_env μ1 ρ1) as [ρ2|] eqn:Eb; [|done]. eapply apply_clo; [done|done|by apply IHc].
    - destruct ((k =? -1) || (k =? Z.of_nat (length vs))) eqn:Ek; [|done]. eapply apply_prim; [done|lia|by apply prim_fn_ok]. }
  destruct e as [v1|v1|x|l|c t e|c t|xs r bd|x e|l e|x e|x xs r bd|es|f es]; cbn [ev] in H.
  - injection H as <- <-. constructor.
  - injection H as <- <-. constructor.
  - destruct (var_fn ρ μ (EVar x)) as [u|] eqn:E; [|done]. injection H as <- <-. apply ev_var. by apply var_fn_ok.
  - destruct (var_fn ρ μ (EGlobal l)) as [u|] eqn:E; [|done]. injection H as <- <-. apply ev_var. by apply var_fn_ok.
  - destruct d as [|d]; [done|]. destruct (ev n d ρ μ c) as [[μ1 v1]|] eqn:E; [|done]. apply IH in E. case_decide; [subst; eapply ev_if_false; [done|by apply IH]|eapply ev_if_true; [done|done|by apply IH]].
  - destruct d as [|d]; [done|]. destruct (ev n d ρ μ c) as [[μ1 v1]|] eqn:E; [|done]. apply IH in E. case_decide; [subst; injection H as <- <-; by eapply ev_when_false|eapply ev_when_true; [done|done|by apply IH]].
  - cbn zeta in H. case_decide; [|done]. injection H as <- <-. by constructor.
  - destruct d as [|d]; [done|]. destruct (ev n d ρ μ e) as [[μ1 v1]|] eqn:E; [|done]. destruct (find_var μ1 x ρ) as [l|] eqn:El; [|done]. apply finds_fn_ok in El.
    destruct (μ1 !! l) as [[y u| | | | |]|] eqn:Em; try done. case_decide as Hy; [|done]. injection H as <- <-. subst y. econstructor; [by apply IH|done|done].
  - destruct d as [|d]; [done|]. destruct (ev n d ρ μ e) as [[μ1 v1]|] eqn:E; [|done].
    destruct (μ1 !! l) as [[y u| | | | |]|] eqn:Em; try done. injection H as <- <-. econstructor; [by apply IH|done].
  - destruct d as [|d]; [done|]. destruct ρ as [| | |f]; try done. cbv zeta in H. case_decide as Hd; [|done]. destruct Hd as [Hd Hl0].
    destruct (ev n d _ _ e) as [[μ1 v1]|] eqn:E; [|done]. destruct (μ1 !! f) as [[| | | |ρ1|]|] eqn:Ef; try done. case_decide as Hl; [|done]. injection H as <- <-.
    eapply ev_define; [done|exact Hl0|by apply IH|done|done].
  - destruct d as [|d]; [done|]. destruct ρ as [| | |f]; try done. case_decide as Hd; [|done]. destruct Hd as [Hd Hx].
    destruct (bind_fn _ None _ μ) as [[bs μ1]|] eqn:Eb; [|done]. cbv zeta in H. destruct (μ1 !! f) as [[| | | |ρ1|]|] eqn:Ef; try done. case_decide as Hl; [|done]. destruct Hl as [Hl1 Hl2]. injection H as <- <-.
    eapply ev_defun; [done|done|by apply bind_fn_ok|done|done|done|lia].
  - destruct d as [|d]; [done|]. constructor. by apply IHb.
  - assert ((exists xs r bd, f = ELam xs r bd) \/ forall xs r bd, f <> ELam xs r bd) as [(xs & r & bd & ->)|Hf] by (destruct f; eauto).
    + destruct d as [|d]; [done|]. cbn zeta in H. case_decide; [|done]. destruct (args_fn (ev n) d ρ _ es) as [[μ1 vs]|] eqn:Ea; [|done].
      eapply ev_app_lam; [done|by apply IHa|by apply IHc].
    + destruct (is_compound f) eqn:Ecf.
      { assert (compound f) as Hcf by (by destruct f). assert (exists d', d = S d') as [d' ->] by (destruct d; [by destruct f|eauto]).
        assert (match ev n d' ρ μ f with
                | None => None
                | Some (μ0, _) =>
                    match args_fn (ev n) d' ρ μ0 es with
                    | None => None
                    | Some (μ1, vs) => match ev n d' ρ μ1 f with Some (μ2, fv) => apply_fn (ev n) (S d') μ2 fv vs | None => None end
                    end
                end = Some (μ', v)) as H' by (by destruct f). clear H. rename H' into H.
        destruct (ev n d' ρ μ f) as [[μ0 v0]|] eqn:E1; [|done]. destruct (args_fn (ev n) d' ρ μ0 es) as [[μ1 vs]|] eqn:E2; [|done].
        destruct (ev n d' ρ μ1 f) as [[μ2 fv]|] eqn:E3; [|done]. eapply ev_app_exp; [done|by apply IH|by apply IHa|by apply IH|by apply IHp]. }
      assert (exists d' v0 μ1 vs fv, d = S d' /\ var_fn ρ μ f = Some v0 /\ args_fn (ev n) d' ρ μ es = Some (μ1, vs) /\ var_fn ρ μ1 f = Some fv /\ apply_fn (ev n) d μ1 fv vs = Some (μ', v))
        as (d' & v0 & μ1 & vs & fv & -> & H1 & H2 & H3 & H4).
      { destruct f; try (by destruct (Hf xs rest body)); destruct d as [|d]; try done;
          (destruct (var_fn ρ μ _) as [v0|] eqn:E1; [|done]; destruct (args_fn (ev n) d ρ μ es) as [[μ1 vs]|] eqn:E2; [|done];
           destruct (var_fn ρ μ1 _) as [fv|] eqn:E3; [|done]; eexists _, _, _, _, _; done). }
      eapply ev_app; [by apply var_fn_ok|by apply IHa|by apply var_fn_ok|by apply IHp].
Qed.
End ev.
End globals.

(** * Executions that stay within memory *)
Section roomy.
Context (prim : Z -> list Z -> M Z) (load_program : Z -> M Z) (fuel : nat).
Definition enough_b (N : Z) (l : label) (s : state) : bool :=
  (0 <=? N) && (1 <=? g_free s) && (g_free s + N <=? limit s) && (g_free s + N - g_cells s <=? ARENA_SIZE s) && (g_free s + N <=? Z.of_nat fuel)
  && (match l with
      | L_eval_operator | L_begin_body | L_begin_expand_while =>
          if ARENA_SIZE s <=? g_free s - g_cells s + GC_SAFETY s then machine_check s (live_objects s) && (2 * g_free s <=? limit s) else true
      | _ => true
      end).
Lemma enough_b_ok N l s : enough_b N l s = true -> enough fuel N l s.
Proof.
  unfold enough_b. intros H. apply andb_prop in H as [H H1]. repeat (apply andb_prop in H as [H ?]).
  split; [lia|unfold DataSpec.can_alloc; lia|lia|]. intros [Hl Hc].
  assert ((if ARENA_SIZE s <=? g_free s - g_cells s + GC_SAFETY s then machine_check s (live_objects s) && (2 * g_free s <=? limit s) else true) = true) as Hb.
  { destruct Hl as [->|[->| ->]]; exact H1. }
  rewrite (proj2 (Z.leb_le _ _) Hc) in Hb. apply andb_prop in Hb as [Hm Hr]. apply room_half; [by eapply machine_check_ok|lia].
Qed.
Fixpoint roomy_b (n : nat) (N : Z) (l : label) (v : locals) (s : state) : bool :=
  enough_b N l s &&
  match n with
  | O => false
  | S n' =>
      match step GcModel.gc_check prim load_program fuel l v s with
      | ROk (Goto l1 v1) s1 => roomy_b n' N l1 v1 s1
      | _ => true
      end
  end.
Lemma roomy_b_ok n : forall N l v s, roomy_b n N l v s = true -> roomy prim load_program fuel N l v s.
Proof.
  induction n as [|n IH]; intros N l v s H; cbn [roomy_b] in H; apply andb_prop in H as [H1 H2]; [done|].
  intros l1 v1 s1 Hs. inversion Hs as [|? ? ? l2 v2 s2 ? ? ? E Hs']; subst; [by apply enough_b_ok|].
  rewrite E in H2. by apply (IH _ _ _ _ H2 _ _ _ Hs').
Qed.
End roomy.
