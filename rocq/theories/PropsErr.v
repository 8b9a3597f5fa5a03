(** C46: which errors are signalled, and with what. *)
From stdpp Require Import base gmap list fin_maps.
From Coq Require Import ZArith Lia.
From Coq Require Import ZifyBool ZifyNat.
From Verif Require Import CInt Symbols Heap HeapLemmas GcModel GcSpec GcCheck DataModel BootModel Builtins DataSpec.
From Verif Require Import EvalModel Rep EvalSpec EvalRep EvalRun PrimModel EvalPrimSpec EvalErrSpec EvalRaise EvalTop EvalErrTop EvalCheck Samples PropsEval.
Import Strings.String.StringSyntax.
Open Scope Z_scope. Open Scope mes_scope.

Notation texts_ load fuel := (texts (prim_call fuel%nat) (load fuel%nat) fuel%nat).

(** C46.  [s] is a state of the interpreter in which an expression [e] is to be evaluated, as in
    C35.  If the semantics of errors (EvalErrSpec.v) says that [e] signals the error with key [key]
    and irritant [w], having changed the store to [μ'], then the evaluator calls error() with
    exactly that key and that irritant, the store is [μ'] by then - what was assigned before the
    error stays assigned, and nothing after it is done -, and the heap is in order. *)
Theorem C46_errors_are_signalled G defs load fuel width d ρ μ e μ' key w :
  raises width (prims width) prim_errs (ge_vars G) (ge_missing G) defs d ρ μ e μ' key w -> env_ok μ ρ -> store_ok G μ ->
  forall f s σ r0 i r2 c r2' x r0' p st sz gl,
    rep f (Mst σ r0 i r2 (Imp cell_vm_eval) (Imp c :: r2' :: x :: r0' :: p :: st) sz gl) s ->
    consts_ok G σ -> code_at σ e i -> env_at σ ρ r0 -> store_at [] μ σ -> gl !! 3%nat = Some (ge_module G) ->
    Z.of_nat (length st) + 5 * (Z.of_nat d + 2) <= sz ->
    roomy_ load fuel (step_memory width) L_eval_apply (Locals false false) s ->
    texts_ load fuel L_eval_apply (Locals false false) s ->
    exists n kx x s', (forall m, (n <= m)%nat -> eval_apply_ load fuel m s = RThrow kx x s')
      /\ exists f' M jk j, rep f' M s' /\ f' jk kx /\ val_at (m_heap M) key jk
           /\ f' j x /\ irritant_at (m_heap M) w j /\ store_at [] μ' (m_heap M).
Proof. intros H Eo So f s σ r0 i r2 c r2' x r0' p st sz gl. by apply (raise_top G defs load fuel width d ρ μ e μ' key w H Eo So). Qed.

(** What the handler sees: the key is the symbol itself. *)
Lemma constant_address f M s k j q : rep f M s -> cell_nil <= k <= cell_symbol_test -> val_at (m_heap M) (VAtom k) j -> f j q -> q = k.
Proof.
  intros R Hk [-> _] Hq. eapply (rh_fun _ _ _ (rp_heap _ _ _ R)); [exact Hq|]. apply (rh_const _ _ _ (rp_heap _ _ _ R)).
  pose proof (rp_constants _ _ _ R) as [_ Hs]. lia.
Qed.
Lemma number_cell f M s n j q : rep f M s -> val_at (m_heap M) (VNum n) j -> f j q -> exists c, heap s !! q = Some c /\ c_ty c = TNUMBER /\ c_cdr c = n.
Proof.
  intros R [_ Hv] Hq. destruct (rh_obj _ _ _ (rp_heap _ _ _ R) _ _ Hq) as (o & Ho & Hobj). rewrite Hv in Ho. injection Ho as <-.
  destruct Hobj as (c & Hc' & Ht & _ & _ & Hd). by exists c.
Qed.
(** what an address stands for, if it is one of the simple values *)
Definition is_simple (s : state) (v : val) (q : Z) : Prop :=
  match v with
  | VNum n => exists c, heap s !! q = Some c /\ c_ty c = TNUMBER /\ c_cdr c = n
  | VAtom k => cell_nil <= k <= cell_symbol_test -> q = k
  | _ => True
  end.
Lemma simple_cell f M s v j q : rep f M s -> val_at (m_heap M) v j -> f j q -> is_simple s v q.
Proof. intros R Hv Hq. destruct v; try done; [by eapply number_cell|]. intros Hk. by eapply constant_address. Qed.
(** the same for what goes with the key: the message is a string with that text *)
Definition is_irritant (s : state) (w : irritant) (q : Z) : Prop :=
  match w with
  | IVal v => is_simple s v q
  | IPair a d => exists c, heap s !! q = Some c /\ c_ty c = TPAIR /\ is_simple s a (c_car c) /\ is_simple s d (c_cdr c)
  | IText bs v => exists c t n, heap s !! q = Some c /\ c_ty c = TPAIR /\ is_simple s v (c_cdr c)
      /\ heap s !! c_car c = Some t /\ c_ty t = TSTRING
      /\ heap s !! c_cdr t = Some n /\ c_ty n = TBYTES /\ c_bytes n = bs ++ [0]
  end.

Lemma pair_cell f M s a d j q : rep f M s -> m_heap M !! j = Some (opair a d) -> f j q ->
  exists c, heap s !! q = Some c /\ c_ty c = TPAIR /\ f a (c_car c) /\ f d (c_cdr c).
Proof.
  intros R Hv Hq. destruct (rh_obj _ _ _ (rp_heap _ _ _ R) _ _ Hq) as (o & Ho & Hobj). rewrite Hv in Ho. injection Ho as <-.
  destruct Hobj as (c & Hc' & Ht & _ & Ha & Hd). by exists c.
Qed.
Lemma irritant_cell f M s w j q : rep f M s -> irritant_at (m_heap M) w j -> f j q -> is_irritant s w q.
Proof.
  intros R Hw Hq. destruct w as [v|a d|bs v]; cbn in Hw |- *.
  - by eapply simple_cell.
  - destruct Hw as (ja & jd & Hj & Ha & Hd). destruct (pair_cell _ _ _ _ _ _ _ R Hj Hq) as (c & Hc & Ht & Fa & Fd).
    exists c. split; [done|]. split; [done|]. split; by eapply simple_cell.
  - destruct Hw as (jt & jv & nb & n & Hj & Hv & Hjt & Hnb). destruct (pair_cell _ _ _ _ _ _ _ R Hj Hq) as (c & Hc & Ht & Fa & Fd).
    destruct (rh_obj _ _ _ (rp_heap _ _ _ R) _ _ Fa) as (o & Ho & Hobj). rewrite Hjt in Ho. injection Ho as <-. destruct Hobj as (t & Ht1 & Ht2 & _ & _ & Fn).
    destruct (rh_obj _ _ _ (rp_heap _ _ _ R) _ _ Fn) as (o & Ho & Hobj). rewrite Hnb in Ho. injection Ho as <-. destruct Hobj as (b & Hb1 & Hb2 & Hb3 & _).
    exists c, t, b. split; [done|]. split; [done|]. split; [by eapply simple_cell|done].
Qed.
Corollary C46_what_the_handler_sees G defs load fuel width d ρ μ e μ' key w :
  raises width (prims width) prim_errs (ge_vars G) (ge_missing G) defs d ρ μ e μ' key w -> env_ok μ ρ -> store_ok G μ ->
  forall f s σ r0 i r2 c r2' x r0' p st sz gl,
    rep f (Mst σ r0 i r2 (Imp cell_vm_eval) (Imp c :: r2' :: x :: r0' :: p :: st) sz gl) s ->
    consts_ok G σ -> code_at σ e i -> env_at σ ρ r0 -> store_at [] μ σ -> gl !! 3%nat = Some (ge_module G) ->
    Z.of_nat (length st) + 5 * (Z.of_nat d + 2) <= sz ->
    roomy_ load fuel (step_memory width) L_eval_apply (Locals false false) s ->
    texts_ load fuel L_eval_apply (Locals false false) s ->
    exists n kx x s', (forall m, (n <= m)%nat -> eval_apply_ load fuel m s = RThrow kx x s')
      /\ is_simple s' key kx /\ is_irritant s' w x.
Proof.
  intros H Eo So f s σ r0 i r2 c r2' x r0' p st sz gl R C Hc He S HM Hsz Hroom Ht.
  destruct (C46_errors_are_signalled G defs load fuel width d ρ μ e μ' key w H Eo So f s σ r0 i r2 c r2' x r0' p st sz gl R C Hc He S HM Hsz Hroom Ht)
    as (n & kx & x1 & s' & H1 & f' & M & jk & j & R' & Fk & Hk & Fx & Hx & _).
  exists n, kx, x1, s'. split; [done|]. split; [by eapply simple_cell|by eapply irritant_cell].
Qed.

(** An expression does not both have a value and signal an error. *)
Theorem C46_value_or_error G defs load fuel width d ρ μ e μ1 v d' μ' key w :
  eval width (prims width) (ge_vars G) defs d ρ μ e μ1 v ->
  raises width (prims width) prim_errs (ge_vars G) (ge_missing G) defs d' ρ μ e μ' key w -> env_ok μ ρ -> store_ok G μ ->
  forall f s σ r0 i r2 r2' x r0' p st sz gl,
    rep f (Mst σ r0 i r2 (Imp cell_vm_eval) (Imp cell_unspecified :: r2' :: x :: r0' :: p :: st) sz gl) s ->
    consts_ok G σ -> code_at σ e i -> env_at σ ρ r0 -> store_at [] μ σ -> gl !! 3%nat = Some (ge_module G) ->
    Z.of_nat (length st) + 5 * (Z.of_nat (d `max` d') + 2) <= sz ->
    roomy_ load fuel (step_memory width) L_eval_apply (Locals false false) s ->
    texts_ load fuel L_eval_apply (Locals false false) s -> False.
Proof.
  intros H H' Eo So f s σ r0 i r2 r2' x r0' p st sz gl R C Hc He S HM Hsz Hroom Ht.
  destruct (C35_evaluation G defs load fuel width d ρ μ e μ1 v H Eo So f s σ r0 i r2 r2' x r0' p st sz gl R C Hc He S HM ltac:(lia) Hroom)
    as (n & q & s1 & _ & _ & _ & H1 & _).
  destruct (C46_errors_are_signalled G defs load fuel width d' ρ μ e μ' key w H' Eo So f s σ r0 i r2 _ r2' x r0' p st sz gl R C Hc He S HM ltac:(lia) Hroom Ht)
    as (n' & kx & x1 & s' & H2 & _).
  specialize (H1 (n `max` n')%nat ltac:(lia)). specialize (H2 (n `max` n')%nat ltac:(lia)). congruence.
Qed.

(** * Concrete runs *)
(** checking that a name has no global variable *)
Section absent.
Context (L : naming) (s : state) (gs : list (Z * Z)) (M0 : Z).
Fixpoint skip_list (n : nat) (x : Z) (i : id) : bool :=
  match n with
  | O => false
  | S n' =>
      if bool_decide (i = Imp cell_nil) then true else
      match iget L s i with
      | Some (OCell t (WId a) (WId d)) => (t =? TPAIR) && skips_b L s gs x a && skip_list n' x d
      | _ => false
      end
  end.
Lemma skip_list_ok n : forall x i, skip_list n x i = true -> exists es, flist (abs_heap L s) i es /\ Forall (skips gs (abs_heap L s) x) es.
Proof.
  induction n as [|n IH]; intros x i H; [done|]. cbn [skip_list] in H. case_bool_decide as Hi.
  - rewrite Hi. exists []. split; constructor.
  - destruct (iget L s i) as [o|] eqn:E; [|done]. apply iget_ok in E as [Fi E]. destruct o as [t [a|] [d|]| |]; try done.
    apply andb_prop in H as [[->%Z.eqb_eq H1]%andb_prop H]. apply IH in H as (es & H2 & H3). exists (a :: es). split; [by econstructor|].
    constructor; [by apply skips_b_ok|done].
Qed.
Definition absent_b (x : Z) : bool :=
  match iget L s (name L M0) with
  | Some (OArr t1 ms) => (t1 =? TSTRUCT) && match ms !! 5%nat with
    | Some (ARef t) => match iget L s t with
      | Some (OArr t2 ts) => (t2 =? TSTRUCT) && match ts !! 3%nat, ts !! 4%nat with
        | Some (ANum size), Some (ARef b) => match iget L s b with
          | Some (OArr t3 bs) => (t3 =? TVECTOR) && match iget L s (Imp x) with
            | Some (OCell t4 (WInt n) (WId nb)) => (t4 =? TSYMBOL) && match iget L s nb with
              | Some (OBytes bytes) => let nm := take (length bytes - 1) bytes in
                  bool_decide (bytes = nm ++ [0]) && (0 <? size) && (size <? 2147483648) && (0 <=? name_hash nm) &&
                  match bs !! Z.to_nat (name_hash nm mod size) with
                  | Some (ARef i) => match iget L s i with
                    | Some o => if otype o =? TPAIR then skip_list (Z.to_nat 1000) x i else negb (otype o =? TCHAR) && negb (otype o =? TNUMBER)
                    | None => false end
                  | _ => false
                  end
              | _ => false end
            | _ => false end
          | _ => false end
        | _, _ => false end
      | _ => false end
    | _ => false end
  | _ => false end.
Lemma absent_b_ok ms0 x : consts_ok (Genv (name L M0) gs) (abs_heap L s) -> absent_b x = true -> exists ms ts bs t b nb i size n nm,
  absent_at (GenvM (name L M0) gs ms0) (abs_heap L s) x ms ts bs t b nb i size n nm.
Proof.
  unfold absent_b. intros C H.
  destruct (iget L s (name L M0)) as [o|] eqn:E; [|done]. apply iget_ok in E as [F1 E1]. destruct o as [|t1 ms|]; try done. apply andb_prop in H as [->%Z.eqb_eq H].
  destruct (ms !! 5%nat) as [[| |t]|] eqn:E5; try done. destruct (iget L s t) as [o|] eqn:E; [|done]. apply iget_ok in E as [F2 E2]. destruct o as [|t2 ts|]; try done. apply andb_prop in H as [->%Z.eqb_eq H].
  destruct (ts !! 3%nat) as [[size | |]|] eqn:E3; try done. destruct (ts !! 4%nat) as [[| |b]|] eqn:E4; try done.
  destruct (iget L s b) as [o|] eqn:E; [|done]. apply iget_ok in E as [F6 E6]. destruct o as [|t3 bs|]; try done. apply andb_prop in H as [->%Z.eqb_eq H].
  destruct (iget L s (Imp x)) as [o|] eqn:E; [|done]. apply iget_ok in E as [F7 E7]. destruct o as [t4 [|n] [nb|]| |]; try done. apply andb_prop in H as [->%Z.eqb_eq H].
  destruct (iget L s nb) as [o|] eqn:E; [|done]. apply iget_ok in E as [F8 E8]. destruct o as [| |bytes]; try done. cbv zeta in H.
  apply andb_prop in H as [H Hb]. apply andb_prop in H as [H H4]. apply andb_prop in H as [H H3]. apply andb_prop in H as [H1%bool_decide_eq_true H2].
  destruct (bs !! _) as [[| |i]|] eqn:E9; try done. destruct (iget L s i) as [o|] eqn:E; [|done]. apply iget_ok in E as [F9 E10].
  set (nm := take (length bytes - 1) bytes) in *. eexists ms, ts, bs, t, b, nb, i, size, n, nm.
  split; cbn [ge_module ge_vars]; try done; [by rewrite <- H1|lia|].
  destruct (otype o =? TPAIR) eqn:Eo.
  - apply skip_list_ok in Hb as (es & Hb1 & Hb2). right. exists es. split; [|done]. intros ->. inversion Hb1 as [Hi|]. rewrite <- Hi in E10.
    destruct (cst_const _ _ C cell_nil ltac:(vm_compute; split; congruence)) as (t0 & n0 & d0 & Hn & Ht & _). rewrite E10 in Hn. injection Hn as ->. cbn in Eo. by destruct Ht as [->| ->].
  - left. exists o. split; [done|]. split; [done|]. lia.
Qed.
Lemma consts_missing ms0 : consts_ok (Genv (name L M0) gs) (abs_heap L s) -> forallb absent_b ms0 = true -> consts_ok (GenvM (name L M0) gs ms0) (abs_heap L s).
Proof.
  intros C H. split; [apply C| |].
  - intros x l Hx. destruct (cst_globals _ _ C x l Hx) as (ms & ts & bs & t & b & nb & i & size & n & nm & pre & post & []).
    exists ms, ts, bs, t, b, nb, i, size, n, nm, pre, post. by split.
  - intros x Hx. apply absent_b_ok; [done|]. rewrite forallb_forall in H. apply H. by apply elem_of_list_In.
Qed.
End absent.
Lemma store_missing m gs ms0 μ : store_ok (Genv m gs) μ -> store_ok (GenvM m gs ms0) μ.
Proof. intros []. by split. Qed.
Section texts.
Context (prim : Z -> list Z -> M Z) (load_program : Z -> M Z) (fuel : nat).
Fixpoint texts_b (n : nat) (l : label) (v : locals) (s : state) : bool :=
  (text_room <=? MAX_STRING s) &&
  match n with
  | O => false
  | S n' =>
      match step GcModel.gc_check prim load_program fuel l v s with
      | ROk (Goto l1 v1) s1 => texts_b n' l1 v1 s1
      | _ => true
      end
  end.
Lemma texts_b_ok n : forall l v s, texts_b n l v s = true -> texts prim load_program fuel l v s.
Proof.
  induction n as [|n IH]; intros l v s H; cbn [texts_b] in H; apply andb_prop in H as [H1 H2]; [done|].
  intros l1 v1 s1 Hs. inversion Hs as [|? ? ? l2 v2 s2 ? ? ? E Hs']; subst; [lia|].
  rewrite E in H2. by apply (IH _ _ _ H2 _ _ _ Hs').
Qed.
End texts.
Definition sample_texts (s : state) : bool :=
  texts_b (prim_call sample_fuel) (no_load sample_fuel) sample_fuel (Z.to_nat 20000) L_eval_apply (Locals false false) s.

(** ((lambda (x) (set! x 6) (car x)) 5): not a pair, with (6 . car) *)
Definition car_code (gs : list Z) : M Z :=
  let x := sym (bytes_of "x") in
  list_m [list_m [ret cell_symbol_lambda; list_m [x]; list_m [ret cell_symbol_set_x; x; make_number 6]; list_m [make_variable_ (nth 3 gs 0); x]]; make_number 5].
Definition car_exp (x g : Z) : exp := EApp (ELam [x] None [ESet x (EConst (VNum 6)); EApp (EGlobal g) [EVar x]]) [EConst (VNum 5)].
Definition car_chk (l : list Z * list Z) (s : state) (gs : list (Z * Z)) (ρ : env) (e : exp) (μ : store) : bool :=
  global_is μ l 3 fn_car 1 && sample_texts s &&
  match e with EApp (ELam [x] _ _) _ => same_exp 40 e (car_exp x (nth 3 (fst l) 0)) | _ => false end.
Lemma car_raises gs missing defs ρ μ x g pg : (exists y, μ !! g = Some (SVar y (VLoc pg))) -> μ !! pg = Some (SPrim fn_car 1) ->
  exists μ' l, μ' !! l = Some (SVar x (VNum 6)) /\
    raises 4 (prims 4) prim_errs gs missing defs 10 ρ μ (car_exp x g) μ' (VAtom cell_symbol_not_a_pair) (IPair (VNum 6) (VAtom cell_symbol_car)).
Proof.
  intros [y Hg] Hp. set (bd := [ESet x (EConst (VNum 6)); EApp (EGlobal g) [EVar x]]).
  set (l0 := fresh (dom μ)). assert (H0 : μ !! l0 = None) by (apply not_elem_of_dom, is_fresh).
  set (μ0 := <[l0 := SClo [x] None bd ρ]> μ).
  set (l1 := fresh (dom μ0)). assert (H1 : μ0 !! l1 = None) by (apply not_elem_of_dom, is_fresh).
  set (μ1 := <[l1 := SVar x (VNum 5)]> μ0).
  set (f := fresh (dom μ1)). assert (Hf : μ1 !! f = None) by (apply not_elem_of_dom, is_fresh).
  set (μ2 := <[f := SFrame (EBind x l1 ρ)]> μ1).
  assert (f <> l1) as Hne by (intros E; rewrite E in Hf; unfold μ1 in Hf; by rewrite lookup_insert in Hf).
  set (μ3 := <[l1 := SVar x (VNum 6)]> μ2).
  assert (forall k o, μ !! k = Some o -> μ3 !! k = Some o) as Hold.
  { intros k o Hk. assert (k <> l0) by congruence. assert (μ0 !! k = Some o) as Hk0 by (unfold μ0; by rewrite lookup_insert_ne).
    assert (k <> l1) by congruence. assert (μ1 !! k = Some o) as Hk1 by (unfold μ1; by rewrite lookup_insert_ne).
    assert (k <> f) by congruence. unfold μ3, μ2. by rewrite !lookup_insert_ne by done. }
  assert (Hf3 : μ3 !! f = Some (SFrame (EBind x l1 ρ))) by (unfold μ3, μ2; rewrite lookup_insert_ne by done; apply lookup_insert).
  assert (Hx3 : μ3 !! l1 = Some (SVar x (VNum 6))) by apply lookup_insert.
  exists μ3, l1. split; [done|]. eapply ra_apply_lam; [exact H0|repeat econstructor|].
  eapply (cr_body _ _ _ _ _ _ _ _ _ _ _ _ _ [(x, l1)] μ1); [cbn; lia|repeat constructor; exact H1|exact Hf|].
  change (extend [(x, l1)] ρ) with (EBind x l1 ρ). fold μ2. unfold bd.
  eapply (br_later _ _ _ _ _ _ _ _ _ _ _ _ μ3); [cbn; lia| |].
  - eapply ev_set; [constructor|eapply finds_frame; [apply lookup_insert|constructor]|]. unfold μ2. rewrite lookup_insert_ne by done. apply lookup_insert.
  - apply br_last; [cbn; lia|].
    assert (var_value gs (EFrame f) μ3 (EGlobal g) (VLoc pg)) as Hv by (exists y; by apply Hold).
    eapply ra_apply; [exact Hv| |exact Hv|].
    { econstructor; [|constructor]. apply ev_var. exists l1. split; [eapply finds_frame; [exact Hf3|constructor]|]. split; [exact Hx3|done]. }
    eapply ar_prim; [by apply Hold|by right|]. by apply pe_car.
Qed.
Example C46_car_ex : exists l s, sample_state car_code = ROk l s /\
  exists n x s', (forall m, (n <= m)%nat -> eval_apply_ no_load sample_fuel m s = RThrow cell_symbol_not_a_pair x s')
    /\ exists c, heap s' !! x = Some c /\ c_ty c = TPAIR /\ c_cdr c = cell_symbol_car
         /\ exists a, heap s' !! c_car c = Some a /\ c_ty a = TNUMBER /\ c_cdr a = 6.
Proof.
  destruct (check_res (sample_state car_code) (fun l s => sample_ok 4 (car_chk l s) l s)) as (l & s & E & H). { vm_compute. reflexivity. }
  exists l, s. split; [exact E|]. clear E.
  apply sample_ok_spec in H as (ρ & e & μ & r2' & x & r0' & p & Hchk & So & R & C & Hc & He & Eo & S & HM & Hroom).
  unfold car_chk in Hchk. apply andb_prop in Hchk as [[Hg Ht]%andb_prop Hchk]. apply global_is_ok in Hg as [Ha Hb].
  destruct e as [| | | | | | | | | | | |[] es]; try done. destruct xs as [|y [|]]; try done. apply same_exp_ok in Hchk. rewrite Hchk in Hc.
  destruct (car_raises (ge_vars (sample_env l s)) [] true ρ μ y _ _ Ha Hb) as (μ' & l1 & _ & Hr). apply texts_b_ok in Ht.
  destruct (C46_what_the_handler_sees (sample_env l s) true no_load sample_fuel 4 10 ρ μ _ μ' _ _ Hr Eo So
     _ s _ _ _ _ _ _ _ _ _ [] _ _ R C Hc He S HM ltac:(cbn; lia) Hroom Ht) as (m & kx & q & s' & Q1 & Q2 & c & Q3 & Q4 & Q5 & Q6).
  cbn in Q2, Q5, Q6. rewrite Q2 in Q1 by (vm_compute; split; congruence). exists m, q, s'. split; [done|]. exists c. split; [done|]. split; [done|].
  split; [|done]. apply Q6. vm_compute; split; congruence.
Qed.

(** (if (= 1 1) (+ 1 nosuch) 0): unbound variable, with the name *)
Definition unbound_code (gs : list Z) : M Z :=
  let g k := make_variable_ (nth k gs 0) in
  list_m [ret cell_symbol_if; list_m [g 0%nat; make_number 1; make_number 1]; list_m [g 2%nat; make_number 1; sym (bytes_of "nosuch")]; make_number 0].
Definition unbound_exp (ge gp x : Z) : exp :=
  EIf (EApp (EGlobal ge) [EConst (VNum 1); EConst (VNum 1)]) (EApp (EGlobal gp) [EConst (VNum 1); EVar x]) (EConst (VNum 0)).
Definition unbound_chk (l : list Z * list Z) (s : state) (gs : list (Z * Z)) (ρ : env) (e : exp) (μ : store) : bool :=
  global_is μ l 0 fn_is_p (-1) && global_is μ l 2 fn_plus (-1) && sample_texts s &&
  match e, ρ with
  | EIf _ (EApp _ [_; EVar x]) _, EHide ENil => same_exp 40 e (unbound_exp (nth 0 (fst l) 0) (nth 2 (fst l) 0) x) && absent_b (locs (fst l) (snd l) []) s gs (the_module s) x
  | _, _ => false
  end.
Example C46_unbound_ex : exists l s, sample_state unbound_code = ROk l s /\
  exists n x s', (forall m, (n <= m)%nat -> eval_apply_ no_load sample_fuel m s = RThrow cell_symbol_unbound_variable x s').
Proof.
  destruct (check_res (sample_state unbound_code) (fun l s => sample_ok 4 (unbound_chk l s) l s)) as (l & s & E & H). { vm_compute. reflexivity. }
  exists l, s. split; [exact E|]. clear E.
  apply sample_ok_spec in H as (ρ & e & μ & r2' & x & r0' & p & Hchk & So & R & C & Hc & He & Eo & S & HM & Hroom).
  unfold unbound_chk in Hchk. apply andb_prop in Hchk as [[[Hg1 Hg2]%andb_prop Ht]%andb_prop Hchk]. apply global_is_ok in Hg1 as [[z1 Ha1] Hb1]. apply global_is_ok in Hg2 as [[z2 Ha2] Hb2].
  destruct e as [| | | |? e1 ?| | | | | | | |]; try done. destruct e1 as [| | | | | | | | | | | |? [|? [|[] [|]]]]; try done. destruct ρ as [| | ρ|]; try done. destruct ρ; try done.
  apply andb_prop in Hchk as [Hchk Habs]. apply same_exp_ok in Hchk. rewrite Hchk in Hc. apply texts_b_ok in Ht.
  set (G := GenvM (ge_module (sample_env l s)) (ge_vars (sample_env l s)) [x0]).
  assert (consts_ok G (abs_heap (locs (fst l) (snd l) []) s)) as C' by (apply consts_missing; [exact C|]; unfold forallb; by apply andb_true_intro).
  apply (store_missing _ _ [x0]) in So. fold G in So.
  assert (raises 4 (prims 4) prim_errs (ge_vars G) (ge_missing G) true 10 (EHide ENil) μ (unbound_exp (nth 0 (fst l) 0) (nth 2 (fst l) 0) x0) μ
    (VAtom cell_symbol_unbound_variable) (IVal (VAtom x0))) as Hr.
  { eapply (ra_if_true _ _ _ _ _ _ _ _ _ _ _ _ μ v_true); [|done|].
    - eapply ev_app; [cbn; eauto|repeat econstructor|cbn; eauto|]. eapply apply_prim; [done|by left|].
      apply (pr_equal _ [1; 1] true). rewrite ordered_two. done.
    - eapply ra_args; [apply ev_var; cbn; eauto|]. eapply xr_later; [constructor|]. apply xr_here, ra_unbound. repeat constructor. }
  destruct (C46_what_the_handler_sees G true no_load sample_fuel 4 10 _ μ _ μ _ _ Hr Eo So
     _ s _ _ _ _ _ _ _ _ _ [] _ _ R C' Hc He S HM ltac:(cbn; lia) Hroom Ht) as (m & kx & q & s' & Q1 & Q2 & _).
  cbn in Q2. rewrite Q2 in Q1 by (vm_compute; split; congruence). by exists m, q, s'.
Qed.

(** (car 1 2): wrong number of arguments, with the message and the procedure *)
Definition arity_code (gs : list Z) : M Z := list_m [make_variable_ (nth 3 gs 0); make_number 1; make_number 2].
Definition arity_exp (g : Z) : exp := EApp (EGlobal g) [EConst (VNum 1); EConst (VNum 2)].
Definition arity_chk (l : list Z * list Z) (s : state) (gs : list (Z * Z)) (ρ : env) (e : exp) (μ : store) : bool :=
  global_is μ l 3 fn_car 1 && sample_texts s && same_exp 40 e (arity_exp (nth 3 (fst l) 0)).
Example C46_arity_ex : exists l s, sample_state arity_code = ROk l s /\
  exists n x s', (forall m, (n <= m)%nat -> eval_apply_ no_load sample_fuel m s = RThrow cell_symbol_wrong_number_of_args x s')
    /\ exists c t b, heap s' !! x = Some c /\ heap s' !! c_car c = Some t /\ c_ty t = TSTRING /\ heap s' !! c_cdr t = Some b
         /\ c_bytes b = bytes_of "apply: wrong number of arguments; expected: " ++ [0].
Proof.
  destruct (check_res (sample_state arity_code) (fun l s => sample_ok 4 (arity_chk l s) l s)) as (l & s & E & H). { vm_compute. reflexivity. }
  exists l, s. split; [exact E|]. clear E.
  apply sample_ok_spec in H as (ρ & e & μ & r2' & x & r0' & p & Hchk & So & R & C & Hc & He & Eo & S & HM & Hroom).
  unfold arity_chk in Hchk. apply andb_prop in Hchk as [[Hg Ht]%andb_prop Hchk]. apply global_is_ok in Hg as [[y Ha] Hb]. apply same_exp_ok in Hchk. subst e. apply texts_b_ok in Ht.
  assert (raises 4 (prims 4) prim_errs (ge_vars (sample_env l s)) [] true 10 ρ μ (arity_exp (nth 3 (fst l) 0)) μ
    (VAtom cell_symbol_wrong_number_of_args) (IText arity_text (VLoc (nth 3 (snd l) 0)))) as Hr.
  { eapply ra_apply; [cbn; eauto|repeat econstructor|cbn; eauto|]. eapply ar_prim_arity; [done|lia|cbn; lia]. }
  destruct (C46_what_the_handler_sees (sample_env l s) true no_load sample_fuel 4 10 _ μ _ μ _ _ Hr Eo So
     _ s _ _ _ _ _ _ _ _ _ [] _ _ R C Hc He S HM ltac:(cbn; lia) Hroom Ht) as (m & kx & q & s' & Q1 & Q2 & c & t & b & Q3 & Q4 & Q5 & Q6 & Q7 & Q8 & Q9 & Q10).
  cbn in Q2. rewrite Q2 in Q1 by (vm_compute; split; congruence). exists m, q, s'. split; [done|]. by exists c, t, b.
Qed.

Print Assumptions C46_errors_are_signalled.
Print Assumptions C46_what_the_handler_sees.
Print Assumptions C46_value_or_error.
