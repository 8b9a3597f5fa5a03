(** The remaining labels of the evaluator; results that depend on where new objects go. *)
From stdpp Require Import base gmap list fin_maps.
From Coq Require Import ZArith Lia.
From Coq Require Import ZifyBool ZifyNat.
From Verif Require Import CInt Symbols Heap HeapLemmas GcModel GcSpec DataModel DataSpec DataLemmas CoreProofs StackModel.
From Verif Require Import EvalModel Rep RepProofs EvalSpec EvalRep EvalLemmas EvalBind EvalSplice EvalRun EvalSteps.
Open Scope Z_scope. Open Scope mes_scope.

Section globals.
Context {GE : genv}.
Notation consts_ok := (consts_ok GE).
Notation store_ok := (store_ok GE).


Lemma val_not_const σ v i k : consts_ok σ -> val_at σ v i -> is_const k -> v <> VAtom k -> i <> Imp k.
Proof.
  intros C Hv Hk Hne ->. destruct (cst_const _ _ C k Hk) as (t & n & d & Ho & Ht & _).
  destruct v as [m|m|a|a|l]; cbn in Hv; [destruct Hv as [_ Hv]|destruct Hv as [_ Hv]|destruct Hv as [[= ->] _]; done|destruct Hv as [_ (a1 & d1 & Hv)]|done];
    rewrite Ho in Hv; injection Hv as ->; destruct Ht; done.
Qed.
Lemma const_at σ k : consts_ok σ -> is_const k -> val_at σ (VAtom k) (Imp k).
Proof. intros C Hk. destruct (cst_const _ _ C k Hk) as (t & n & d & Ho & Ht & _). split; [done|]. eexists. split; [exact Ho|]. cbn. tauto. Qed.
Lemma codes_nil σ es i : consts_ok σ -> codes_at σ es i -> es <> [] -> i <> Imp cell_nil.
Proof. intros C H Hne ->. inversion H; subst; [done|]. by eapply nil_not_pair. Qed.
Lemma alist_length σ js vs i : alist_at σ js vs i -> length js = length vs.
Proof. induction 1; cbn; congruence. Qed.
Lemma bind_args_length xs r vs μ ρ1 μ1 : bind_args xs r vs μ ρ1 μ1 ->
  (length xs <= length vs)%nat /\ (r = None -> length vs = length xs).
Proof. induction 1 as [| |? ? ? ? ? ? ? ? ? ? ? [IH1 IH2]]; cbn; (split; [lia|]); [done|done|]. intros E. by rewrite IH2. Qed.
Lemma alist_locs σ js vs i l : alist_at σ js vs i -> l ∈ locs_of js -> exists a d, σ !! Loc l = Some (opair a d).
Proof.
  induction 1 as [|j js v vs i a d Hj Ho _ _ IH]; [intros Hl; by apply elem_of_nil in Hl|].
  destruct j as [l'|]; cbn; [|done]. rewrite elem_of_cons. intros [->|Hl]; [cbn in Hj; subst; eauto|by apply IH].
Qed.

(** * Rules for the code of this file *)
Section rules.
  Context (f : idmap) (M : mst) (s : state) (R : rep f M s).
  (** an element that is a reference to a constant *)
  Lemma wp_struct_ref_const i p es n k (Q : Z -> state -> Prop) : consts_ok (m_heap M) -> f i p -> m_heap M !! i = Some (OArr TSTRUCT es) ->
    es !! n = Some (ARef (Imp k)) -> is_const k -> Q k s -> wp (struct_ref_ p (Z.of_nat n)) s Q.
  Proof.
    intros C Hi Ho Hn Hk HQ. unfold struct_ref_. apply wp_bind. eapply (wp_arr_rd _ _ _ R _ _ _ _ _ Hi Ho). intros c -> -> He.
    change (TSTRUCT =? TSTRUCT) with true. apply wp_bind, wp_ret.
    rewrite (proj2 (Z.ltb_lt _ _)) by (apply lookup_lt_Some in Hn; lia). apply wp_bind, wp_ret.
    destruct (He n _ Hn) as (e & Hee & Ht & Hf). cbn in Hf. unfold get_entry, deref, cell_ref.
    apply wp_bind, wp_bind. exists e, s. split; [by unfold rd; rewrite Hee|]. rewrite Ht. change (TREF =? TREF) with true. cbv iota.
    apply wp_ret. pose proof (const_val _ _ _ R _ _ Hf Hk) as Ek. rewrite Ek in Hf |- *. destruct (cst_const _ _ C k Hk) as (t & m & d & Hko & Ht' & _).
    assert (t <> TCHAR /\ t <> TNUMBER) as [T1 T2] by (destruct Ht' as [->| ->]; done).
    apply wp_bind. eapply (wp_rd _ _ _ R _ _ _ _ _ _ Hf Hko). intros c1 Hc1 _ _. rewrite Hc1, (proj2 (Z.eqb_neq _ _) T1).
    apply wp_bind, wp_ret, wp_bind. eapply (wp_rd _ _ _ R _ _ _ _ _ _ Hf Hko). intros c2 Hc2 _ _. rewrite Hc2, (proj2 (Z.eqb_neq _ _) T2).
    by apply wp_ret.
  Qed.
  Lemma wp_set_cdr i p a d j q (Q : unit -> state -> Prop) : f i p -> m_heap M !! i = Some (opair a d) -> f j q ->
    (forall s', rep f (new_obj i (opair a j) M) s' -> Q tt s') -> wp (set_cdr p q) s Q.
  Proof.
    intros Hp Ho Hq HQ. destruct (rep_set_cdr f M s i p a d j q R Hp Ho Hq) as (c & E & R'). eapply wp_eq; [exact E|]. by apply HQ.
  Qed.
  Lemma wp_set_car i p a d j q (Q : unit -> state -> Prop) : f i p -> m_heap M !! i = Some (opair a d) -> f j q ->
    (forall s', rep f (new_obj i (opair j d) M) s' -> Q tt s') -> wp (set_car p q) s Q.
  Proof.
    intros Hp Ho Hq HQ. destruct (rep_set_car f M s i p a d j q R Hp Ho Hq) as (c & E & R'). eapply wp_eq; [exact E|]. by apply HQ.
  Qed.
  Lemma wp_set_cdr_x fuel i p a d j q (Q : Z -> state -> Prop) : f i p -> m_heap M !! i = Some (opair a d) -> f j q ->
    (forall s', rep f (new_obj i (opair a j) M) s' -> Q cell_unspecified s') -> wp (set_cdr_x fuel p q) s Q.
  Proof.
    intros Hp Ho Hq HQ. unfold set_cdr_x. apply wp_bind. eapply (wp_ty _ _ _ R _ _ _ _ _ _ Hp Ho). change (TPAIR =? TPAIR) with true.
    apply wp_bind, wp_ret, wp_bind. eapply wp_set_cdr; [done..|]. intros s' R'. apply wp_ret. by apply HQ.
  Qed.
  Lemma wp_set_car_x fuel i p a d j q (Q : Z -> state -> Prop) : f i p -> m_heap M !! i = Some (opair a d) -> f j q ->
    (forall s', rep f (new_obj i (opair j d) M) s' -> Q cell_unspecified s') -> wp (set_car_x fuel p q) s Q.
  Proof.
    intros Hp Ho Hq HQ. unfold set_car_x. apply wp_bind. eapply (wp_ty _ _ _ R _ _ _ _ _ _ Hp Ho). change (TPAIR =? TPAIR) with true.
    apply wp_bind, wp_ret, wp_bind. eapply wp_set_car; [done..|]. intros s' R'. apply wp_ret. by apply HQ.
  Qed.
  Lemma wp_check_names fuel fn xs r fm fp js vs ai ap (Q : unit -> state -> Prop) : consts_ok (m_heap M) -> f fm fp -> names_at (m_heap M) xs r fm ->
    f ai ap -> alist_at (m_heap M) js vs ai -> g_free s <= Z.of_nat fuel -> (length xs <= length vs)%nat -> (r = None -> length vs = length xs) ->
    Q tt s -> wp (check_formals fuel fn fp ap) s Q.
  Proof.
    intros C Hf Hn Ha Hal Hfuel Hle Hr HQ. destruct (alist_ml _ _ _ _ Hal) as (es & Hml & Hfv). pose proof (Forall2_length _ _ _ Hfv) as Hlen.
    destruct (ml_list _ _ _ _ _ _ R C Ha Hml) as (_ & _ & _ & Hlt).
    unfold check_formals. assert (exists t a d, m_heap M !! fm = Some (OCell t a d) /\ t <> TNUMBER) as (t & a & d & Hfo & Ht).
    { inversion Hn as [|r' [(n & d & Ho & _) _]|]; subst; [|by eexists _, _, _|by eexists _, _, _].
      destruct (cst_const _ _ C cell_nil) as (t & n & d & Ho & Ht & _); [vm_compute; split; congruence|]. exists t, (WInt n), d. split; [done|]. by destruct Ht as [->| ->]. }
    apply wp_bind. eapply (wp_ty _ _ _ R _ _ _ _ _ _ Hf Hfo). rewrite (proj2 (Z.eqb_neq _ _) Ht).
    apply wp_bind. unfold length__ at 1. eapply wp_length_names; [exact R|exact C|exact Hf|exact Hn|lia|].
    apply wp_bind. eapply wp_length__; [exact R|exact C|exact Ha|exact Hml|done|].
    match goal with |- wp (if ?b then _ else _) _ _ => assert (b = false) as -> end; [|by apply wp_ret].
    destruct r; [rewrite !andb_false_iff; by right|]. rewrite !andb_false_iff. left. left. apply negb_false_iff, Z.eqb_eq. rewrite <- Hlen, Hr by done. lia.
  Qed.
  Lemma wp_check_arity fuel fn i q n js vs ai ap (Q : unit -> state -> Prop) : consts_ok (m_heap M) -> f i q ->
    m_heap M !! i = Some (OCell TNUMBER (WInt 0) (WInt n)) ->
    f ai ap -> alist_at (m_heap M) js vs ai -> g_free s <= Z.of_nat fuel -> n = -1 \/ n = Z.of_nat (length vs) ->
    Q tt s -> wp (check_formals fuel fn q ap) s Q.
  Proof.
    intros C Hi Ho Ha Hal Hfuel Hn HQ. destruct (alist_ml _ _ _ _ Hal) as (es & Hml & Hfv). pose proof (Forall2_length _ _ _ Hfv) as Hlen.
    unfold check_formals. apply wp_bind. eapply (wp_ty _ _ _ R _ _ _ _ _ _ Hi Ho). change (TNUMBER =? TNUMBER) with true. cbv iota.
    apply wp_bind. unfold cdr_of. apply wp_bind. eapply (wp_rd _ _ _ R _ _ _ _ _ _ Hi Ho). intros c _ _ Hcd. cbn in Hcd. rewrite Hcd. apply wp_ret.
    apply wp_bind. eapply wp_length__; [exact R|exact C|exact Ha|exact Hml|done|].
    match goal with |- wp (if ?b then _ else _) _ _ => assert (b = false) as -> end; [|by apply wp_ret].
    rewrite !andb_false_iff, !negb_false_iff, !Z.eqb_eq. lia.
  Qed.
  (** a procedure can be called *)
  Lemma wp_check_apply l o p (Q : unit -> state -> Prop) : consts_ok (m_heap M) -> f (Loc l) p -> sobj_at (m_heap M) o (Loc l) ->
    (exists xs r bd ρ, o = SClo xs r bd ρ) \/ (exists q n, o = SPrim q n) -> Q tt s -> wp (check_apply p) s Q.
  Proof.
    intros C Hp Ho Hpr HQ. unfold check_apply.
    assert (forall k, is_const k -> (p =? k) = false) as Hne by (intros k Hk; by eapply (neqc _ _ _ R)).
    destruct Hpr as [(xs & r & bd & ρ & ->)|(q & n & ->)].
    - destruct Ho as (k & c & e & a & fm & b & Ho & _). apply wp_bind. eapply (wp_ty _ _ _ R _ _ _ _ _ _ Hp Ho).
      change (TCLOSURE =? TSTRUCT) with false. apply wp_bind, wp_ret. rewrite !Hne by (vm_compute; split; congruence). by apply wp_ret.
    - destruct Ho as (es & Ho & H2 & _). apply wp_bind. eapply (wp_arr_ty _ _ _ R _ _ _ _ _ Hp Ho). change (TSTRUCT =? TSTRUCT) with true. cbv iota.
      apply wp_bind, wp_bind. unfold builtin_p. apply wp_bind. eapply (wp_arr_ty _ _ _ R _ _ _ _ _ Hp Ho). change (TSTRUCT =? TSTRUCT) with true. cbv iota.
      apply wp_bind. apply (wp_struct_ref_const _ _ _ 2 cell_symbol_builtin _ C Hp Ho H2); [vm_compute; split; congruence|].
      rewrite Z.eqb_refl. apply wp_ret, wp_ret. rewrite !Hne by (vm_compute; split; congruence). by apply wp_ret.
  Qed.
  (** the first word of an expression is not the symbol primitive-load *)
  Lemma wp_code_head e i p (Q : Z -> state -> Prop) : consts_ok (m_heap M) -> code_at (m_heap M) e i -> f i p ->
    (forall x, (x =? cell_symbol_primitive_load) = false -> Q x s) -> wp (car_of p) s Q.
  Proof.
    intros C Hc Hi HQ.
    assert (exists t a d, m_heap M !! i = Some (OCell t a d) /\ (match a with WId j => j <> Imp cell_symbol_primitive_load | WInt n => no_load (WInt n) end)) as (t & a & d & Ho & Ha).
    { destruct Hc as [v k o Hv Ho Hs|v j a Hl Hv|x [(n & d & Ho & Hn) _]|l k Ho|c t e j ic it ie Hl|c t j ic it Hl|xs r bd k k' fm b Ho|x e j ie Hl|l e j k ie Hl|x e j ie Hl|x xs r bd k k' k2 fm b Ho|es k b Ho|fe es k j b Hop Ho Hf Hb].
      - destruct o as [t a d| |]; try done. destruct Hs as [Hs1 Hs2]. exists t, a, d. split; [done|].
        destruct (rh_cell _ _ _ _ _ _ _ _ (rp_heap _ _ _ R) Hi Ho) as (c & _ & _ & (_ & _ & _ & _ & K & _) & _ & _).
        destruct a; [|done]. cbn in K. destruct Hs1 as [->|[->|[->|[->| ->]]]]; done.
      - inversion Hl; subst. eexists _, _, _. split; [done|]. cbn. done.
      - eexists _, _, _. split; [done|]. done.
      - eexists _, _, _. split; [done|]. cbn. done.
      - inversion Hl; subst. eexists _, _, _. split; [done|]. cbn. done.
      - inversion Hl; subst. eexists _, _, _. split; [done|]. cbn. done.
      - eexists _, _, _. split; [done|]. cbn. done.
      - inversion Hl; subst. eexists _, _, _. split; [done|]. cbn. done.
      - inversion Hl; subst. eexists _, _, _. split; [done|]. cbn. done.
      - inversion Hl; subst. eexists _, _, _. split; [done|]. cbn. done.
      - eexists _, _, _. split; [done|]. cbn. done.
      - eexists _, _, _. split; [done|]. cbn. done.
      - eexists _, _, _. split; [done|]. cbn. eapply operator_id; [done|exact Hop|exact Hf|]. unfold reserved, hidden. cbn. set_solver. }
    unfold car_of. apply wp_bind. eapply (wp_rd _ _ _ R _ _ _ _ _ _ Hi Ho). intros c _ Hca _. apply wp_ret. apply HQ.
    destruct a as [j|n]; cbn in Hca.
    - eapply (neqc _ _ _ R _ _ _ Hca); [vm_compute; split; congruence|done].
    - apply Z.eqb_neq. intros E. apply Ha. congruence.
  Qed.
  (** an expression is spliced into the sequence if it is a (begin ...) *)
  Lemma wp_code_begin e i p (k : cell -> Heap.M unit) (Q' : unit -> state -> Prop) :
    consts_ok (m_heap M) -> code_at (m_heap M) e i -> f i p ->
    (forall c, (forall es, e <> EBegin es) -> (c_ty c =? TPAIR) && (c_car c =? cell_symbol_begin) = false -> wp (k c) s Q') ->
    (forall c es j d, e = EBegin es -> i = Imp j -> m_heap M !! i = Some (opair (Imp cell_symbol_begin) d) -> codes_at (m_heap M) es d ->
       f d (c_cdr c) -> (c_ty c =? TPAIR) && (c_car c =? cell_symbol_begin) = true -> wp (k c) s Q') ->
    wp (c <- rd p ;; k c) s Q'.
  Proof.
    intros C Hc Hi HQ HB.
    assert ((exists es k d, e = EBegin es /\ i = Imp k /\ m_heap M !! i = Some (opair (Imp cell_symbol_begin) d) /\ codes_at (m_heap M) es d) \/
      ((forall es, e <> EBegin es) /\ exists t a d, m_heap M !! i = Some (OCell t a d) /\ (t <> TPAIR \/ exists j, a = WId j /\ j <> Imp cell_symbol_begin)))
      as [(es & j & d & -> & -> & Ho & Hb)|(Hne & t & a & d & Ho & Ha)].
    { destruct Hc as [v k' o Hv Ho Hs|v j a Hl Hv|x [(n & d & Ho & Hn) _]|l k' Ho|c t e j ic it ie Hl|c t j ic it Hl|xs r bd k' k'' fm b Ho|x e j ie Hl|l e j k' ie Hl|x e j ie Hl|x xs r bd k' k'' k2 fm b Ho|es k' b Ho|fe es k' j b Hop Ho Hf Hb].
      all: try (right; split; [done|]).
      - destruct o as [t a d| |]; try done. destruct Hs as [Hs1 Hs2]. exists t, a, d. split; [done|]. left.
        destruct Hs1 as [->|[->|[->|[->| ->]]]]; done.
      - inversion Hl; subst. eexists _, _, _. split; [done|]. right. by eexists.
      - eexists _, _, _. split; [done|]. by left.
      - eexists _, _, _. split; [done|]. by left.
      - inversion Hl; subst. eexists _, _, _. split; [done|]. right. by eexists.
      - inversion Hl; subst. eexists _, _, _. split; [done|]. right. by eexists.
      - eexists _, _, _. split; [done|]. right. by eexists.
      - inversion Hl; subst. eexists _, _, _. split; [done|]. right. by eexists.
      - inversion Hl; subst. eexists _, _, _. split; [done|]. right. by eexists.
      - inversion Hl; subst. eexists _, _, _. split; [done|]. right. by eexists.
      - eexists _, _, _. split; [done|]. right. by eexists.
      - left. by eexists _, _, _.
      - eexists _, _, _. split; [done|]. right. eexists. split; [done|]. eapply operator_id; [done|exact Hop|exact Hf|]. unfold reserved, hidden. cbn. set_solver. }
    - apply wp_bind. eapply (wp_rd _ _ _ R _ _ _ _ _ _ Hi Ho). intros c Ht Hca Hcd. cbn in Hca, Hcd. eapply (HB c); try done.
      rewrite Ht, (const_val _ _ _ R _ _ Hca) by (vm_compute; split; congruence). done.
    - apply wp_bind. eapply (wp_rd _ _ _ R _ _ _ _ _ _ Hi Ho). intros c Ht Hca Hcd. apply HQ; [done|].
      apply andb_false_iff. rewrite Ht. destruct Ha as [Ha|(j & -> & Hj)]; [left; by apply Z.eqb_neq|right].
      cbn in Hca. eapply (neqc _ _ _ R _ _ _ Hca); [vm_compute; split; congruence|done].
  Qed.
End rules.
End globals.
