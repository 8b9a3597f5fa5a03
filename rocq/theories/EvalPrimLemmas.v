(** Lemmas about the values and lists that primitive procedures get. *)
From stdpp Require Import base gmap list fin_maps.
From Coq Require Import ZArith Lia.
From Coq Require Import ZifyBool ZifyNat.
From Verif Require Import CInt Symbols Heap HeapLemmas GcModel GcSpec DataModel DataSpec DataLemmas CoreProofs StackModel MathModel MathProofs Builtins.
From Verif Require Import EvalModel PrimModel Rep RepProofs EvalSpec EvalPrimSpec EvalRep EvalLemmas EvalBind EvalSplice EvalRun EvalSteps EvalSteps2 EvalSteps3 EvalSteps4 EvalMain.
From Verif Require RepArrays ArrayProofs HashProofs.
Open Scope Z_scope. Open Scope mes_scope.

Section globals.
Context {GE : genv}.
Notation consts_ok := (consts_ok GE).
Notation store_ok := (store_ok GE).
Context (w : nat).
Notation prim_ok prim := (prim_ok (GE := GE) prim w).
Notation prims := (prims w).
Notation const_at := (const_at (GE := GE)).

Ltac stp := first [apply wp_bind | apply wp_ret | apply wp_gets | apply wp_modify].
Ltac kc := (vm_compute; split; congruence).

Definition plain_js (vs : list val) : list (option Z) := replicate (length vs) None.
Lemma plain_locs n : locs_of (replicate n None) = [].
Proof. induction n; [done|exact IHn]. Qed.
Lemma plain_good vs μ : good_js (plain_js vs) vs μ.
Proof.
  unfold plain_js. split; [by rewrite replicate_length|]. rewrite plain_locs. split; [constructor|].
  split; [intros l Hl; by apply elem_of_nil in Hl|]. exists (length vs), []. by rewrite app_nil_r.
Qed.

(** what a primitive gets, and what it has to give back *)
Definition gives (μ1 : store) (v : val) (M : mst) (q : Z) (s' : state) : Prop :=
  exists f' σ' i, rep f' (with_heap σ' M) s' /\ f' i q /\ val_at σ' v i /\ ext (m_heap M) σ' /\ store_at [] μ1 σ'.
Lemma prim_plain p n vs μ μ1 v N : (store_ok μ -> store_le μ μ1 /\ store_ok μ1) -> -1 <= n <= 3 -> 0 <= N <= 2 * Z.of_nat w + 8 ->
  (forall fuel f M s ai ap xs, rep f M s -> consts_ok (m_heap M) -> store_at [] μ (m_heap M) -> can_alloc N s -> g_free s <= Z.of_nat fuel ->
    (if n =? -1 then xs = [ap] /\ f ai ap /\ alist_at (m_heap M) (plain_js vs) vs ai
     else Forall2 (fun v x => exists i, val_at (m_heap M) v i /\ f i x) vs xs) ->
    wp (prim_call fuel p xs) s (gives μ1 v M)) -> prim_ok prim_call p n vs μ μ1 v.
Proof.
  intros Hle Hn HN H So. destruct (Hle So) as [L So1]. split; [done|]. split; [done|]. split; [done|]. exists (plain_js vs), N.
  split; [apply plain_good|]. split; [done|]. intros fuel f M s ai ap xs R C Hap Hal S HA Hfu Hxs.
  unfold plain_js in S. rewrite plain_locs in S. apply (H fuel f M s ai ap xs); try done.
  destruct (n =? -1); [|done]. done.
Qed.
Lemma give_same f M s μ v i q : rep f M s -> f i q -> val_at (m_heap M) v i -> store_at [] μ (m_heap M) -> gives μ v M q s.
Proof. intros R Hi Hv S. exists f, (m_heap M), i. rewrite with_heap_id. done. Qed.
Lemma give_const f M s μ k : rep f M s -> consts_ok (m_heap M) -> store_at [] μ (m_heap M) -> cell_nil <= k <= cell_symbol_test -> gives μ (VAtom k) M k s.
Proof. intros R C S Hk. eapply give_same; [exact R|by eapply rep_const|by apply const_at|done]. Qed.
Lemma give_bool f M s μ b : rep f M s -> consts_ok (m_heap M) -> store_at [] μ (m_heap M) -> gives μ (v_bool b) M (scm_bool b) s.
Proof. intros R C S. destruct b; apply (give_const f M s μ); try done; kc. Qed.
Lemma give_cell f M s μ t n : rep f M s -> store_at [] μ (m_heap M) -> can_alloc 1 s -> t = TNUMBER \/ t = TCHAR ->
  wp (make_value_cell t 0 n) s (gives μ (if t =? TNUMBER then VNum n else VChar n) M).
Proof.
  intros R S HA Ht. destruct (fresh_imp (m_heap M)) as (k & Hk).
  eapply (wp_make_cell _ _ _ R (Imp k) t (WInt 0) (WInt n)); [done|done| |done|done|].
  { destruct Ht as [->| ->]; done. }
  intros f' q s' _ Hq R'. exists f', (<[Imp k := OCell t (WInt 0) (WInt n)]> (m_heap M)), (Imp k). split; [exact R'|]. split; [done|].
  split; [|split; [by apply ext_new|by apply store_at_imp]].
  destruct Ht as [->| ->]; cbn; (split; [by eexists|by rewrite lookup_insert]).
Qed.
Lemma give_number f M s μ n m : rep f M s -> store_at [] μ (m_heap M) -> can_alloc 1 s -> m s = make_number n s -> wp m s (gives μ (VNum n) M).
Proof. intros R S HA E. unfold wp. rewrite E. by apply (give_cell f M s μ TNUMBER n R S HA (or_introl eq_refl)). Qed.

(** numbers *)
Lemma val_number f M s n i p : rep f M s -> f i p -> val_at (m_heap M) (VNum n) i -> number_at (heap s) p n.
Proof.
  intros R Hp [_ Hv]. destruct (rh_cell _ _ _ _ _ _ _ _ (rp_heap _ _ _ R) Hp Hv) as (c & Hc & Ht & _ & _ & Hd). by exists c.
Qed.
Lemma alist_numbers f M s js ns ai ap : rep f M s -> consts_ok (m_heap M) -> f ai ap -> alist_at (m_heap M) js (VNum <$> ns) ai ->
  numbers_at (heap s) ap ns /\ (Z.of_nat (length ns) < g_free s).
Proof.
  intros R C Hp Ha. destruct (alist_ml _ _ _ _ Ha) as (es & Hml & Hvs). destruct (ml_list _ _ _ _ _ _ R C Hp Hml) as (vs & Hl & Hf & Hlen).
  pose proof (Forall2_length _ _ _ Hvs) as E. rewrite fmap_length in E. split; [|lia].
  exists vs. split; [done|]. clear -R Hvs Hf. revert es vs Hvs Hf. induction ns as [|n ns IH]; intros es vs Hvs Hf.
  - inversion Hvs; subst. inversion Hf; subst. constructor.
  - inversion Hvs as [|? i ? es1 Hv Hvs1]; subst. inversion Hf as [|? x ? vs1 Hx Hf1]; subst. constructor; [by eapply val_number|by eapply IH].
Qed.
(** the cell that holds a value *)
Definition val_cell (μ : store) (v : val) (c : cell) : Prop :=
  match v with
  | VNum n => c_ty c = TNUMBER /\ c_cdr c = n
  | VChar n => c_ty c = TCHAR /\ c_cdr c = n
  | VAtom k => c_ty c = TSYMBOL \/ c_ty c = TSPECIAL \/ c_ty c = TSTRING \/ c_ty c = TVECTOR \/ c_ty c = TBYTES \/ c_ty c = TCONTINUATION
  | VKey k => c_ty c = TKEYWORD
  | VLoc l => match μ !! l with
              | Some (SPair _ _) | Some (SVar _ _) | Some (SFrame _) => c_ty c = TPAIR
              | Some (SClo _ _ _ _) => c_ty c = TCLOSURE
              | Some (SPrim _ _) => c_ty c = TSTRUCT
              | Some (SVec _) => c_ty c = TVECTOR
              | None => False
              end
  end.
Lemma val_cell_char μ v c : val_cell μ v c -> c_ty c = TCHAR -> v = VChar (c_cdr c).
Proof.
  intros H T. destruct v as [n|n|k|k|l]; cbn in H; rewrite T in H; [by destruct H|destruct H; congruence|..].
  2: done.
  - by repeat match goal with H : _ \/ _ |- _ => destruct H as [H|H] end.
  - by destruct (μ !! l) as [[]|].
Qed.
Lemma val_cell_number μ v c : val_cell μ v c -> c_ty c = TNUMBER -> v = VNum (c_cdr c).
Proof.
  intros H T. destruct v as [n|n|k|k|l]; cbn in H; rewrite T in H; [destruct H; congruence|by destruct H|..].
  2: done.
  - by repeat match goal with H : _ \/ _ |- _ => destruct H as [H|H] end.
  - by destruct (μ !! l) as [[]|].
Qed.
Lemma store_same μ : store_ok μ -> store_le μ μ /\ store_ok μ.
Proof. intros H. split; [apply store_le_refl|done]. Qed.
Lemma val_cell_keyword μ v c : val_cell μ v c -> c_ty c = TKEYWORD -> exists k, v = VKey k.
Proof.
  intros H T. destruct v as [n|n|k|k|l]; cbn in H; rewrite T in H; [by destruct H|by destruct H|by repeat match goal with H : _ \/ _ |- _ => destruct H as [H|H] end|by eexists|].
  by destruct (μ !! l) as [[]|].
Qed.
(** the value of an argument *)
Lemma val_obj f M s μ v i p : rep f M s -> store_at [] μ (m_heap M) -> f i p -> val_at (m_heap M) v i -> known μ v ->
  exists c, heap s !! p = Some c /\ val_cell μ v c.
Proof.
  intros R S Hp Hv Hk. destruct v as [n|n|k|k|l]; cbn in Hv.
  - destruct Hv as [_ Hv]. destruct (rh_cell _ _ _ _ _ _ _ _ (rp_heap _ _ _ R) Hp Hv) as (c & Hc & Ht & _ & _ & Hd). by exists c.
  - destruct Hv as [_ Hv]. destruct (rh_cell _ _ _ _ _ _ _ _ (rp_heap _ _ _ R) Hp Hv) as (c & Hc & Ht & _ & _ & Hd). by exists c.
  - destruct Hv as [-> (o & Ho & Ha)]. destruct (rh_obj _ _ _ (rp_heap _ _ _ R) _ _ Hp) as (o' & Ho' & Hat). rewrite Ho in Ho'. injection Ho' as <-.
    destruct o as [t a d|t es|bs]; cbn in Hat, Ha; destruct Hat as (c & Hc & Ht & _); exists c; (split; [done|]); unfold val_cell; rewrite Ht; try subst t; tauto.
  - destruct Hv as [_ (a & d & Hv)]. destruct (rh_cell _ _ _ _ _ _ _ _ (rp_heap _ _ _ R) Hp Hv) as (c & Hc & Ht & _). by exists c.
  - subst i. destruct Hk as [o Ho]. unfold val_cell. rewrite Ho. pose proof (sa_obj _ _ _ S _ _ Ho) as Hso. destruct (rh_obj _ _ _ (rp_heap _ _ _ R) _ _ Hp) as (o' & Ho' & Hat).
    destruct o; cbn in Hso.
    + destruct Hso as (j & Hj & _). rewrite Hj in Ho'. injection Ho' as <-. destruct Hat as (c & Hc & Ht & _). by exists c.
    + destruct Hso as (j & j' & Hj & _). rewrite Hj in Ho'. injection Ho' as <-. destruct Hat as (c & Hc & Ht & _). by exists c.
    + destruct Hso as (k & c0 & e & a & fm & b & Hj & _). rewrite Hj in Ho'. injection Ho' as <-. destruct Hat as (c & Hc & Ht & _). by exists c.
    + destruct Hso as (es & Hj & _). rewrite Hj in Ho'. injection Ho' as <-. destruct Hat as (c & Hc & Ht & _). by exists c.
    + destruct Hso as (j & j' & w0 & Hj & _). rewrite Hj in Ho'. injection Ho' as <-. destruct Hat as (c & Hc & Ht & _). by exists c.
    + destruct Hso as (es & Hj & _). rewrite Hj in Ho'. injection Ho' as <-. destruct Hat as (c & Hc & Ht & _). by exists c.
Qed.

Lemma v_bool_eq r b : (r = true <-> b = true) -> v_bool r = v_bool b.
Proof. destruct r, b; intuition congruence. Qed.

Ltac args1 Hxs i x Hv Hi := inversion Hxs as [|? x ? ? (i & Hv & Hi) Hxs1]; subst; inversion Hxs1; subst; clear Hxs Hxs1.
Ltac args2 Hxs i x Hv Hi j y Hw Hj := inversion Hxs as [|? x ? ? (i & Hv & Hi) Hxs1]; subst; inversion Hxs1 as [|? y ? ? (j & Hw & Hj) Hxs2]; subst; inversion Hxs2; subst; clear Hxs Hxs1 Hxs2.

Global Instance val_eq_dec : EqDecision val.
Proof. solve_decision. Defined.
Lemma val_at_fun σ a b i : val_at σ a i -> val_at σ b i -> a = b.
Proof.
  destruct a as [n|n|k|k|l], b as [m|m|k'|k'|l']; cbn; intros Ha Hb;
    repeat match goal with H : _ /\ _ |- _ => destruct H | H : exists _, _ |- _ => destruct H end; simplify_eq; try done;
    match goal with H : _ !! _ = Some ?o, H' : atom ?o |- _ => exfalso end; simplify_eq; cbn in *; by repeat match goal with H : _ \/ _ |- _ => destruct H as [H|H] end.
Qed.
Lemma eq_ok f M s μ a b r i x j y : comparable μ a b -> (r = true <-> a = b) -> rep f M s -> consts_ok (m_heap M) -> store_at [] μ (m_heap M) ->
  val_at (m_heap M) a i -> f i x -> val_at (m_heap M) b j -> f j y -> eq_p x y s = ROk (scm_bool r) s.
Proof.
  intros (Ka & Kb & Hab) Hr R C S Ha Hx Hb Hy.
  destruct (val_obj _ _ _ _ _ _ _ R S Hx Ha Ka) as (cx & Hcx & Tx). destruct (val_obj _ _ _ _ _ _ _ R S Hy Hb Kb) as (cy & Hcy & Ty).
  unfold eq_p. rewrite (rh_eq _ _ _ _ _ _ _ (rp_heap _ _ _ R) Hx Hy). destruct (bool_decide_reflect (i = j)) as [->|Hij].
  - assert (x = y) as -> by (eapply (rh_fun _ _ _ (rp_heap _ _ _ R)); done). rewrite Hcx in Hcy. injection Hcy as <-.
    pose proof (val_at_fun _ _ _ _ Ha Hb) as E.
    rewrite (proj2 Hr E). done.
  - erewrite bind_ok by by apply rd_ok'.
    destruct (decide (a = b)) as [->|Hne].
    + rewrite (proj2 Hr eq_refl). destruct b as [n|n|k|k|l]; cbn in Ha, Hb.
      * destruct Tx as [-> Ex], Ty as [Ety Ey]. cbn -[Z.eqb]. change (TNUMBER =? TKEYWORD) with false. change (TNUMBER =? TCHAR) with false. cbv iota.
        change (TNUMBER =? TNUMBER) with true. cbv iota. erewrite bind_ok by by apply rd_ok'. rewrite Ety, Ex, Ey, !Z.eqb_refl. done.
      * destruct Tx as [-> Ex], Ty as [Ety Ey]. change (TCHAR =? TKEYWORD) with false. change (TCHAR =? TCHAR) with true. cbv iota zeta.
        erewrite bind_ok by by apply rd_ok'. rewrite Ety, Ex, Ey, !Z.eqb_refl. done.
      * destruct Ha as [-> _], Hb as [-> _]. done.
      * destruct Ha as [-> _], Hb as [-> _]. done.
      * congruence.
    + assert (r = false) as -> by (destruct r; intuition congruence). cbn [scm_bool].
      assert (c_ty cx = TKEYWORD -> c_ty cy <> TKEYWORD) as HK.
      { intros T1 T2. destruct (val_cell_keyword _ _ _ Tx T1) as (k & ->). destruct (val_cell_keyword _ _ _ Ty T2) as (k' & ->).
        cbn in Hab. subst. done. }
      destruct (Z.eqb_spec (c_ty cx) TKEYWORD) as [T1|T1].
      { erewrite bind_ok by by apply rd_ok'. destruct (Z.eqb_spec (c_ty cy) TKEYWORD); [|done]. by apply HK in T1. }
      destruct (Z.eqb_spec (c_ty cx) TCHAR) as [T2|T2].
      { erewrite bind_ok by by apply rd_ok'. destruct (Z.eqb_spec (c_ty cy) TCHAR) as [T3|]; [|done].
        assert (c_cdr cx <> c_cdr cy) as HD; [|by rewrite (proj2 (Z.eqb_neq _ _) HD)]. intros E. apply Hne.
        pose proof (val_cell_char _ _ _ Tx T2). pose proof (val_cell_char _ _ _ Ty T3). congruence. }
      destruct (Z.eqb_spec (c_ty cx) TNUMBER) as [T3|T3]; [|done].
      erewrite bind_ok by by apply rd_ok'. destruct (Z.eqb_spec (c_ty cy) TNUMBER) as [T4|]; [|done].
      assert (c_cdr cx <> c_cdr cy) as HD; [|by rewrite (proj2 (Z.eqb_neq _ _) HD)]. intros E. apply Hne.
      pose proof (val_cell_number _ _ _ Tx T3). pose proof (val_cell_number _ _ _ Ty T4). congruence.
Qed.
Lemma list_val_ml σ μ v vs i : consts_ok σ -> store_at [] μ σ -> list_val μ v vs -> val_at σ v i -> exists es, ml σ i es /\ length es = length vs.
Proof.
  intros C S H. revert i. induction H as [|l a d vs Hl _ IH]; intros i Hv; cbn in Hv.
  - destruct Hv as [-> _]. exists []. split; [constructor|done].
  - subst i. destruct (sa_obj _ _ _ S _ _ Hl) as (j & j' & Hj & Ha & Hd). destruct (IH _ Hd) as (es & H1 & H2). exists (j :: es). split; [by econstructor|cbn; lia].
Qed.


(** ** Searching a list *)
Lemma list_val_length f M s μ v vs i p : rep f M s -> consts_ok (m_heap M) -> store_at [] μ (m_heap M) -> list_val μ v vs -> val_at (m_heap M) v i -> f i p ->
  Z.of_nat (length vs) < g_free s.
Proof.
  intros R C S H Hv Hp. destruct (list_val_ml _ _ _ _ _ C S H Hv) as (es & Hml & E). destruct (ml_list _ _ _ _ _ _ R C Hp Hml) as (_ & _ & _ & ?). lia.
Qed.
Lemma pair_val μ σ l a d : store_at [] μ σ -> μ !! l = Some (SPair a d) -> exists j j', σ !! Loc l = Some (opair j j') /\ val_at σ a j /\ val_at σ d j'.
Proof. intros S H. exact (sa_obj _ _ _ S _ _ H). Qed.
Lemma nil_addr f M s i p : rep f M s -> val_at (m_heap M) v_nil i -> f i p -> p = cell_nil.
Proof. intros R [-> _] Hp. eapply const_val; [exact R|exact Hp|kc]. Qed.
Lemma loc_not_nil f M s l p : rep f M s -> f (Loc l) p -> (p =? cell_nil) = false.
Proof. intros R Hp. apply (neqc _ _ _ R _ _ cell_nil Hp); [kc|done]. Qed.
Lemma car_word f M s i p a d : rep f M s -> f i p -> m_heap M !! i = Some (opair a d) -> exists x, car_of p s = ROk x s /\ f a x.
Proof. intros R Hp Ho. destruct (rh_cell _ _ _ _ _ _ _ _ (rp_heap _ _ _ R) Hp Ho) as (c & Hc & _ & _ & Ha & _). exists (c_car c). split; [by apply car_of_s|done]. Qed.
Lemma cdr_word f M s i p a d : rep f M s -> f i p -> m_heap M !! i = Some (opair a d) -> exists x, cdr_of p s = ROk x s /\ f d x.
Proof. intros R Hp Ho. destruct (rh_cell _ _ _ _ _ _ _ _ (rp_heap _ _ _ R) Hp Ho) as (c & Hc & _ & _ & _ & Hd). exists (c_cdr c). split; [by apply cdr_of_s|done]. Qed.

Lemma find_memq f M s μ x test fuel : rep f M s -> consts_ok (m_heap M) -> store_at [] μ (m_heap M) ->
  (forall l a d p, μ !! l = Some (SPair a d) -> alike x a -> f (Loc l) p -> exists b : bool, test p s = ROk b s /\ (b = true <-> a = x)) ->
  forall v vs r, list_val μ v vs -> memq_val μ x v r -> Forall (alike x) vs -> forall i p n, val_at (m_heap M) v i -> f i p -> (length vs <= n)%nat -> (n <= fuel)%nat ->
  exists q j, find_loop n test ret p s = ROk q s /\ f j q /\ val_at (m_heap M) r j.
Proof.
  intros R C S Ht v vs r Hl. revert r. induction Hl as [|l a d vs Hl Hd IH]; intros r Hm HF i p n Hv Hp Hn Hfu.
  - rewrite (nil_addr _ _ _ _ _ R Hv Hp). inversion Hm; subst. exists cell_f, (Imp cell_f). split; [by destruct n|]. split; [eapply rep_const; [exact R|kc]|apply const_at; [done|kc]].
  - cbn in Hv. subst i. cbn in Hn. destruct n as [|n]; [lia|]. apply Forall_cons in HF as [Ha HF]. destruct (Ht _ _ _ _ Hl Ha Hp) as (b & Eb & Hb).
    cbn [find_loop]. rewrite (loc_not_nil _ _ _ _ _ R Hp). rewrite (bind_ok _ _ _ _ _ Eb).
    inversion Hm as [|l' d' Hl'|l' a' d' r' Hl' Hne Hm']; subst; rewrite Hl in Hl'; injection Hl' as ??; subst.
    + rewrite (proj2 Hb eq_refl). exists p, (Loc l). done.
    + destruct b; [by destruct Hne; apply Hb|]. destruct (pair_val _ _ _ _ _ S Hl) as (j & j' & Hj & _ & Hvd).
      destruct (cdr_word _ _ _ _ _ _ _ R Hp Hj) as (y & Ey & Hy). rewrite (bind_ok _ _ _ _ _ Ey). eapply IH; try done; lia.
Qed.
Lemma find_assq f M s μ x test fuel : rep f M s -> consts_ok (m_heap M) -> store_at [] μ (m_heap M) ->
  (forall l e d k v p, μ !! l = Some (SPair (VLoc e) d) -> μ !! e = Some (SPair k v) -> alike x k -> f (Loc l) p -> exists b : bool, test p s = ROk b s /\ (b = true <-> k = x)) ->
  forall v ks r, keys_val μ v ks -> assq_val μ x v r -> Forall (alike x) ks -> forall i p n, val_at (m_heap M) v i -> f i p -> (length ks <= n)%nat -> (n <= fuel)%nat ->
  exists q j, find_loop n test car_of p s = ROk q s /\ f j q /\ val_at (m_heap M) r j.
Proof.
  intros R C S Ht v ks r Hl. revert r. induction Hl as [|l e d k v ks Hl He Hd IH]; intros r Hm HF i p n Hv Hp Hn Hfu.
  - rewrite (nil_addr _ _ _ _ _ R Hv Hp). inversion Hm; subst. exists cell_f, (Imp cell_f). split; [by destruct n|]. split; [eapply rep_const; [exact R|kc]|apply const_at; [done|kc]].
  - cbn in Hv. subst i. cbn in Hn. destruct n as [|n]; [lia|]. apply Forall_cons in HF as [Ha HF]. destruct (Ht _ _ _ _ _ _ Hl He Ha Hp) as (b & Eb & Hb).
    cbn [find_loop]. rewrite (loc_not_nil _ _ _ _ _ R Hp). rewrite (bind_ok _ _ _ _ _ Eb).
    destruct (pair_val _ _ _ _ _ S Hl) as (j & j' & Hj & Hve & Hvd).
    inversion Hm as [|l' e' d' v' Hl' He'|l' e' d' k' v' r' Hl' He' Hne Hm']; subst; rewrite Hl in Hl'; injection Hl' as ??; subst; rewrite He in He'; injection He' as ??; subst.
    + rewrite (proj2 Hb eq_refl). destruct (car_word _ _ _ _ _ _ _ R Hp Hj) as (y & Ey & Hy). exists y, j. done.
    + destruct b; [by destruct Hne; apply Hb|].
      destruct (cdr_word _ _ _ _ _ _ _ R Hp Hj) as (y & Ey & Hy). rewrite (bind_ok _ _ _ _ _ Ey). eapply IH; try done; lia.
Qed.
(** comparing by address *)
Definition by_identity (x : val) : Prop := match x with VAtom _ | VLoc _ => True | _ => False end.
Lemma same_addr f M s x a i xp j y : rep f M s -> by_identity x -> val_at (m_heap M) x i -> f i xp -> val_at (m_heap M) a j -> f j y ->
  (xp =? y) = true <-> a = x.
Proof.
  intros R Hx Hi Hxp Hj Hy. rewrite (rh_eq _ _ _ _ _ _ _ (rp_heap _ _ _ R) Hxp Hy), bool_decide_eq_true. split.
  - intros ->. by eapply val_at_fun.
  - intros ->. destruct x; try done; cbn in Hi, Hj; [by destruct Hi as [-> _], Hj as [-> _]|congruence].
Qed.
Lemma identity_type μ x c : by_identity x -> val_cell μ x c -> ((c_ty c =? TCHAR) || (c_ty c =? TNUMBER)) = false /\ (c_ty c =? TKEYWORD) = false.
Proof.
  intros Hx H. destruct x as [| |k| |l]; try done; cbn in H.
  - by repeat match goal with H : _ \/ _ |- _ => destruct H as [H|H] end; rewrite H.
  - destruct (μ !! l) as [[]|]; try done; by rewrite H.
Qed.
Lemma memq_ok f M s μ x v vs r i xp j p fuel : rep f M s -> consts_ok (m_heap M) -> store_at [] μ (m_heap M) -> list_val μ v vs -> Forall (alike x) vs -> known μ x ->
  memq_val μ x v r -> val_at (m_heap M) x i -> f i xp -> val_at (m_heap M) v j -> f j p -> g_free s <= Z.of_nat fuel -> wp (memq fuel xp p) s (gives μ r M).
Proof.
  intros R C S Hl HF K Hm Hx Hxp Hv Hp Hfu. pose proof (list_val_length _ _ _ _ _ _ _ _ R C S Hl Hv Hp) as Hlen.
  destruct (val_obj _ _ _ _ _ _ _ R S Hxp Hx K) as (c & Hc & Ht). unfold memq.
  assert (forall test, (forall l a d p, μ !! l = Some (SPair a d) -> alike x a -> f (Loc l) p -> exists b : bool, test p s = ROk b s /\ (b = true <-> a = x)) ->
    wp (find_loop fuel test ret p) s (gives μ r M)) as Hfind.
  { intros test HT. destruct (find_memq f M s μ x test fuel R C S HT v vs r Hl Hm HF j p fuel) as (q & j' & E & Hq & Hr); [done|done|lia|done|].
    eapply wp_eq; [exact E|]. by eapply give_same. }
  stp. eapply wp_eq; [by apply rd_ok'|]. cbv zeta.
  assert (forall l a d q, μ !! l = Some (SPair a d) -> f (Loc l) q -> exists k ka, car_of q s = ROk k s /\ val_at (m_heap M) a ka /\ f ka k) as Hcar.
  { intros l a d q Hla Hq. destruct (pair_val _ _ _ _ _ S Hla) as (j1 & j2 & Hj & Ha & _). destruct (car_word _ _ _ _ _ _ _ R Hq Hj) as (k & Ek & Hk). by exists k, j1. }
  assert (by_identity x \/ (exists n, x = VNum n) \/ (exists n, x = VChar n) \/ vs = []) as [Hid|Hx'].
  { destruct x; [eauto|eauto| |destruct vs as [|a vs]; [eauto|apply Forall_cons in HF as [Ha _]; done]|]; by left. }
  - destruct (identity_type _ _ _ Hid Ht) as [-> ->]. apply Hfind. intros l a d q Hla _ Hq. destruct (Hcar _ _ _ _ Hla Hq) as (k & ka & Ek & Ha & Hk).
    exists (xp =? k). split; [by rewrite (bind_ok _ _ _ _ _ Ek)|]. by eapply same_addr.
  - destruct (decide (vs = [])) as [->|Hne].
    { inversion Hl; subst. rewrite (nil_addr _ _ _ _ _ R Hv Hp) in *. inversion Hm; subst.
      assert (forall test res, find_loop fuel test res cell_nil s = ROk cell_f s) as Hnil by (intros; by destruct fuel).
      destruct ((c_ty c =? TCHAR) || (c_ty c =? TNUMBER)); [|destruct (c_ty c =? TKEYWORD)]; (eapply wp_eq; [apply Hnil|]); (eapply give_const; [done|done|done|kc]). }
    assert (((c_ty c =? TCHAR) || (c_ty c =? TNUMBER)) = true) as ->. { destruct Hx' as [(n & ->)|[(n & ->)|?]]; [..|done]; destruct Ht as [-> _]; done. }
    apply Hfind. intros l a d q Hla Hal Hq. destruct (Hcar _ _ _ _ Hla Hq) as (k & ka & Ek & Ha & Hk).
    assert (known μ a) as Ka. { destruct Hx' as [(n & ->)|[(n & ->)|?]]; [..|done]; by destruct a. }
    destruct (val_obj _ _ _ _ _ _ _ R S Hk Ha Ka) as (ck & Hck & Htk).
    exists (c_cdr c =? c_cdr ck). split; [rewrite (bind_ok _ _ _ _ _ Ek); by erewrite bind_ok by by apply cdr_of_s|].
    destruct Hx' as [(n & ->)|[(n & ->)|?]]; [..|done]; destruct a; try done; destruct Ht as [_ ->], Htk as [_ ->]; rewrite Z.eqb_eq; intuition congruence.
Qed.
Lemma keys_list μ v ks : keys_val μ v ks -> exists vs, list_val μ v vs /\ length vs = length ks.
Proof. induction 1 as [|l e d k v ks Hl He _ (vs & IH & E)]; [exists []; by split; [constructor|]|]. exists (VLoc e :: vs). split; [by econstructor|cbn; lia]. Qed.
Lemma assq_ok f M s μ x v ks r i xp j p fuel : rep f M s -> consts_ok (m_heap M) -> store_at [] μ (m_heap M) -> keys_val μ v ks -> Forall (alike x) ks -> known μ x ->
  assq_val μ x v r -> val_at (m_heap M) x i -> f i xp -> val_at (m_heap M) v j -> f j p -> g_free s <= Z.of_nat fuel -> wp (assq fuel xp p) s (gives μ r M).
Proof.
  intros R C S Hl HF K Hm Hx Hxp Hv Hp Hfu. destruct (keys_list _ _ _ Hl) as (vs & Hlv & El). pose proof (list_val_length _ _ _ _ _ _ _ _ R C S Hlv Hv Hp) as Hlen. unfold assq.
  destruct Hl as [|l e d k0 v0 ks Hl He Hks].
  { destruct Hv as [-> (o & Ho & Hao)]. assert (otype o <> TPAIR) as Hto.
    { destruct o as [t a d|t es|bs]; cbn in Hao |- *; [|by subst|done]. repeat destruct Hao as [->|Hao]; try done; by subst. }
    stp. eapply (wp_ty_any _ _ _ R _ _ _ _ Hp Ho). rewrite (proj2 (Z.eqb_neq _ _) Hto). cbn [negb]. stp. inversion Hm; subst. eapply give_const; [done|done|done|kc]. }
  destruct (val_obj _ _ _ _ _ _ _ R S Hxp Hx K) as (c & Hc & Ht).
  assert (forall test, (forall l e d k v p, μ !! l = Some (SPair (VLoc e) d) -> μ !! e = Some (SPair k v) -> alike x k -> f (Loc l) p -> exists b : bool, test p s = ROk b s /\ (b = true <-> k = x)) ->
    wp (find_loop fuel test car_of p) s (gives μ r M)) as Hfind.
  { intros test HT. destruct (find_assq f M s μ x test fuel R C S HT (VLoc l) (k0 :: ks) r ltac:(by econstructor) Hm HF j p fuel) as (q & j' & E & Hq & Hr); [done|done|cbn in *; lia|done|].
    eapply wp_eq; [exact E|]. by eapply give_same. }
  cbn in Hv. subst j. destruct (pair_val _ _ _ _ _ S Hl) as (j1 & j2 & Hj & _ & _). stp. eapply (wp_ty _ _ _ R _ _ _ _ _ _ Hp Hj). change (negb (TPAIR =? TPAIR)) with false. cbv iota.
  stp. eapply wp_eq; [by apply rd_ok'|]. cbv zeta.
  assert (forall l e d k v q, μ !! l = Some (SPair (VLoc e) d) -> μ !! e = Some (SPair k v) -> f (Loc l) q ->
    exists b y ka, car_of q s = ROk b s /\ car_of b s = ROk y s /\ val_at (m_heap M) k ka /\ f ka y) as Hcar.
  { intros l' e' d' k' v' q Hla Hea Hq. destruct (pair_val _ _ _ _ _ S Hla) as (i1 & i2 & Hi & Ha & _). destruct (pair_val _ _ _ _ _ S Hea) as (i3 & i4 & Hi' & Hk & _).
    cbn in Ha. subst i1. destruct (car_word _ _ _ _ _ _ _ R Hq Hi) as (b & Eb & Hb). destruct (car_word _ _ _ _ _ _ _ R Hb Hi') as (y & Ey & Hy). by exists b, y, i3. }
  assert (by_identity x \/ (exists n, x = VNum n) \/ (exists n, x = VChar n)) as [Hid|Hx'].
  { destruct x; [eauto|eauto| |apply Forall_cons in HF as [Ha _]; done|]; by left. }
  - assert (forall l e d k v p, μ !! l = Some (SPair (VLoc e) d) -> μ !! e = Some (SPair k v) -> alike x k -> f (Loc l) p ->
      exists b : bool, (b <- car_of p ;; k <- car_of b ;; ret (xp =? k)) s = ROk b s /\ (b = true <-> k = x)) as HT.
    { intros l' e' d' k' v' q Hla Hea _ Hq. destruct (Hcar _ _ _ _ _ _ Hla Hea Hq) as (b & y & ka & Eb & Ey & Hk & Hy).
      exists (xp =? y). split; [by rewrite (bind_ok _ _ _ _ _ Eb), (bind_ok _ _ _ _ _ Ey)|]. by eapply same_addr. }
    destruct (identity_type _ _ _ Hid Ht) as [-> ->]. destruct ((c_ty c =? TSYMBOL) || (c_ty c =? TSPECIAL)); by apply Hfind.
  - assert (((c_ty c =? TSYMBOL) || (c_ty c =? TSPECIAL)) = false /\ ((c_ty c =? TCHAR) || (c_ty c =? TNUMBER)) = true) as [-> ->].
    { destruct Hx' as [(n & ->)|(n & ->)]; destruct Ht as [-> _]; done. }
    apply Hfind. intros l' e' d' k' v' q Hla Hea Hal Hq. destruct (Hcar _ _ _ _ _ _ Hla Hea Hq) as (b & y & ka & Eb & Ey & Hk & Hy).
    assert (known μ k') as Ka. { destruct Hx' as [(n & ->)|(n & ->)]; by destruct k'. }
    destruct (val_obj _ _ _ _ _ _ _ R S Hy Hk Ka) as (ck & Hck & Htk).
    exists (c_cdr c =? c_cdr ck). split; [rewrite (bind_ok _ _ _ _ _ Eb), (bind_ok _ _ _ _ _ Ey); by erewrite bind_ok by by apply cdr_of_s|].
    destruct Hx' as [(n & ->)|(n & ->)]; destruct k'; try done; destruct Ht as [_ ->], Htk as [_ ->]; rewrite Z.eqb_eq; intuition congruence.
Qed.

(** ** Making and turning lists *)
Lemma pairs_list μ v ls vs : pairs_of μ v ls vs -> list_val μ v vs.
Proof. induction 1; econstructor; eauto. Qed.
Lemma list_pairs μ v vs : list_val μ v vs -> exists ls, pairs_of μ v ls vs /\ length ls = length vs.
Proof. induction 1 as [|l a d vs Hl _ (ls & IH & E)]; [exists []; by split; [constructor|]|]. exists (l :: ls). split; [by econstructor|cbn; lia]. Qed.
Lemma pairs_length μ v ls vs : pairs_of μ v ls vs -> length ls = length vs.
Proof. induction 1; cbn; congruence. Qed.
Lemma pairs_fun μ v ls vs : pairs_of μ v ls vs -> forall ls' vs', pairs_of μ v ls' vs' -> ls' = ls /\ vs' = vs.
Proof.
  induction 1 as [|l a d ls vs Hl _ IH]; intros ls' vs' H'; inversion H' as [|l' a' d' ls1 vs1 Hl' Hd']; subst; [done|].
  rewrite Hl in Hl'. injection Hl' as ??; subst. by destruct (IH _ _ Hd') as [-> ->].
Qed.
Lemma pairs_suffix μ v ls vs l : pairs_of μ v ls vs -> l ∈ ls -> exists ls' vs', pairs_of μ (VLoc l) (l :: ls') vs' /\ (length ls' < length ls)%nat.
Proof.
  induction 1 as [|l' a d ls vs Hl Hd IH]; [intros Hin; by apply elem_of_nil in Hin|]. intros [->|Hin]%elem_of_cons.
  - exists ls, (a :: vs). split; [by eapply po_cons|cbn; lia].
  - destruct (IH Hin) as (ls' & vs' & H1 & H2). exists ls', vs'. split; [done|cbn; lia].
Qed.
Lemma pairs_nodup μ v ls vs : pairs_of μ v ls vs -> NoDup ls.
Proof.
  induction 1 as [|l a d ls vs Hl Hd IH]; [constructor|]. constructor; [|done]. intros Hin. destruct (pairs_suffix _ _ _ _ _ Hd Hin) as (ls' & vs' & H1 & H2).
  assert (pairs_of μ (VLoc l) (l :: ls) (a :: vs)) as H3 by by eapply po_cons. destruct (pairs_fun _ _ _ _ H1 _ _ H3) as [[= ->] _]. lia.
Qed.
Lemma pairs_keep (μ μ' : store) v ls vs : pairs_of μ v ls vs -> (forall l, l ∈ ls -> μ' !! l = μ !! l) -> pairs_of μ' v ls vs.
Proof. induction 1 as [|l a d ls vs Hl _ IH]; intros HE; econstructor; [rewrite HE; [done|constructor]|apply IH; intros l' Hl'; apply HE; by constructor]. Qed.
Lemma link_app ls : forall vs ls2 vs2 y μ, length ls = length vs -> link (ls ++ ls2) (vs ++ vs2) y μ = link ls vs (first_of ls2 y) (link ls2 vs2 y μ).
Proof.
  induction ls as [|l ls IH]; intros [|v vs] ls2 vs2 y μ E; cbn in *; try lia; [done|]. rewrite IH by lia. f_equal. f_equal. by destruct ls.
Qed.
Lemma link_snoc ls vs l v y μ : length ls = length vs -> link (reverse (l :: ls)) (reverse (v :: vs)) y μ = link (reverse ls) (reverse vs) (VLoc l) (<[l := SPair v y]> μ).
Proof. intros E. rewrite !reverse_cons, link_app by (by rewrite !reverse_length). done. Qed.
Lemma first_snoc ls l y : first_of (reverse (l :: ls)) y = first_of (reverse ls) (VLoc l).
Proof. rewrite reverse_cons. by destruct (reverse ls). Qed.
Lemma link_other ls : forall vs y μ l, l ∉ ls -> link ls vs y μ !! l = μ !! l.
Proof. induction ls as [|l' ls IH]; intros [|v vs] y μ l Hl; cbn; try done. rewrite not_elem_of_cons in Hl. rewrite lookup_insert_ne by naive_solver. apply IH. tauto. Qed.
Lemma link_over ls : forall vs y (μ μ' : store), length ls = length vs -> (forall l, l ∉ ls -> μ' !! l = μ !! l) -> link ls vs y μ' = link ls vs y μ.
Proof.
  induction ls as [|l ls IH]; intros [|v vs] y μ μ' E HE; cbn in *; try lia.
  - apply map_eq. intros l. apply HE. by apply not_elem_of_nil.
  - apply map_eq. intros l'. destruct (decide (l' = l)) as [->|Hne]; [by rewrite !lookup_insert|]. rewrite !lookup_insert_ne by done.
    assert (link ls vs y (<[l := SPair v y]> μ') = link ls vs y (<[l := SPair v y]> μ)) as El.
    { apply IH; [lia|]. intros l2 Hl2. destruct (decide (l2 = l)) as [->|]; [by rewrite !lookup_insert|]. rewrite !lookup_insert_ne by done. apply HE. rewrite not_elem_of_cons. naive_solver. }
    destruct (decide (l' ∈ ls)) as [Hin|Hin]; [|rewrite !link_other by done; apply HE; rewrite not_elem_of_cons; naive_solver].
    assert (forall μ0, link ls vs y (<[l := SPair v y]> μ0) !! l' = link ls vs y μ0 !! l') as Hi.
    { intros μ0. clear -Hin E Hne. revert vs E Hin. induction ls as [|a ls IH]; intros [|b vs] E Hin; cbn in *; try lia; [by apply elem_of_nil in Hin|].
      destruct (decide (l' = a)) as [->|Ha]; [by rewrite !lookup_insert|]. rewrite !lookup_insert_ne by done. destruct (decide (l' ∈ ls)); [apply IH; [lia|done]|set_solver]. }
    etransitivity; [symmetry; apply Hi|]. rewrite El. apply Hi.
Qed.
Lemma pairs_link ls : forall vs μ, length ls = length vs -> NoDup ls -> pairs_of (link ls vs v_nil μ) (first_of ls v_nil) ls vs.
Proof.
  induction ls as [|l ls IH]; intros [|v vs] μ E Hn; cbn in *; try lia; [constructor|]. apply NoDup_cons in Hn as [Hl Hn].
  econstructor; [by rewrite lookup_insert|]. eapply pairs_keep; [apply IH; [lia|done]|]. intros l' Hl'. rewrite lookup_insert_ne; [done|]. congruence.
Qed.
Lemma link_le ls : forall vs y μ, length ls = length vs -> unused μ ls -> store_ok μ -> store_le μ (link ls vs y μ) /\ store_ok (link ls vs y μ).
Proof.
  induction ls as [|l ls IH]; intros [|v vs] y μ E [Hn HF] So; cbn in *; try lia; [by apply store_same|].
  apply NoDup_cons in Hn as [Hl Hn]. apply Forall_cons in HF as [Hfl HF]. destruct (IH vs y μ ltac:(lia) (conj Hn HF) So) as [L So1].
  assert (link ls vs y μ !! l = None) as Hfl' by by rewrite link_other.
  split; [eapply store_le_trans; [exact L|by apply store_le_new]|]. by apply store_ok_new.
Qed.
Lemma relink_le ls : forall vs y μ, length ls = length vs -> NoDup ls -> Forall (fun l => exists a d, μ !! l = Some (SPair a d)) ls -> store_ok μ ->
  store_le μ (link ls vs y μ) /\ store_ok (link ls vs y μ).
Proof.
  induction ls as [|l ls IH]; intros [|v vs] y μ E Hn HF So; cbn in *; try lia; [by apply store_same|].
  apply NoDup_cons in Hn as [Hl Hn]. apply Forall_cons in HF as [(a & d & Hfl) HF]. destruct (IH vs y μ ltac:(lia) Hn HF So) as [L So1].
  assert (link ls vs y μ !! l = Some (SPair a d)) as Hfl' by by rewrite link_other.
  assert (store_le (link ls vs y μ) (<[l := SPair v (first_of ls y)]> (link ls vs y μ))) as L' by by eapply store_le_pair.
  split; [by eapply store_le_trans|]. by apply store_ok_put.
Qed.

(** like [gives], without losing sight of anything *)
Definition gives_more (f : idmap) (μ1 : store) (v : val) (M : mst) (q : Z) (s' : state) : Prop :=
  exists (f' : idmap) σ' i, (forall j p, f j p -> f' j p) /\ rep f' (with_heap σ' M) s' /\ f' i q /\ val_at σ' v i /\ ext (m_heap M) σ' /\ store_at [] μ1 σ'.
Lemma gives_less f μ1 v M q s' : gives_more f μ1 v M q s' -> gives μ1 v M q s'.
Proof. intros (f' & σ' & i & _ & H). by exists f', σ', i. Qed.
Lemma wp_append_reverse fuel : forall vs ls x r μ f M s i p j q, rep f M s -> consts_ok (m_heap M) -> store_at [] μ (m_heap M) -> list_val μ x vs ->
  length ls = length vs -> unused μ ls -> can_alloc (Z.of_nat (length vs)) s -> (length vs <= fuel)%nat ->
  val_at (m_heap M) x i -> f i p -> val_at (m_heap M) r j -> f j q ->
  wp (append_reverse_loop fuel p q) s (gives_more f (link (reverse ls) (reverse vs) r μ) (first_of (reverse ls) r) M).
Proof.
  induction fuel as [|fuel IH]; intros vs ls x r μ f M s i p j q R C S Hl El Hfr Ha Hfu Hx Hp Hr Hq;
    (inversion Hl as [|l a d vs' Hla Hd]; subst; cbn in Hfu; [|try lia]).
  1,2: destruct ls; [|done]; rewrite (nil_addr _ _ _ _ _ R Hx Hp); (exists q, s; split; [done|]); (exists f, (m_heap M), j; rewrite with_heap_id; done).
  destruct ls as [|l0 ls]; [done|]. cbn in El. destruct Hfr as [Hn HF]. apply NoDup_cons in Hn as [Hl0 Hn]. apply Forall_cons in HF as [Hfl HF].
  cbn in Hx. subst i. cbn [append_reverse_loop]. rewrite (loc_not_nil _ _ _ _ _ R Hp). destruct (pair_val _ _ _ _ _ S Hla) as (j1 & j2 & Hj & Hva & Hvd).
  stp. eapply (wp_rd _ _ _ R _ _ _ _ _ _ Hp Hj). intros c _ Hca _. cbn in Hca.
  assert (m_heap M !! Loc l0 = None) as Fl by (apply (sa_free _ _ _ S); [done|]; intros Hin; by apply elem_of_nil in Hin).
  stp. eapply (wp_cons _ _ _ R (Loc l0) j1 j); [eapply can_alloc_le; [done|cbn; lia]|done|done|done|]. intros f' q' s' (G1 & G2 & G3 & G4) Hq' R'.
  assert (l0 <> l) as Hne by congruence.
  stp. eapply (wp_cdr_of _ _ _ R' (Loc l) p TPAIR (WId j1) j2); [by apply G1|cbn; by rewrite lookup_insert_ne by congruence|]. intros y Hy.
  assert (ext (m_heap M) (<[Loc l0 := opair j1 j]> (m_heap M))) as X by apply ext_loc.
  eapply wp_mono; [eapply (IH vs' ls d (VLoc l0) (<[l0 := SPair a r]> μ) f' _ s' j2 y (Loc l0) q' R')|].
  - cbn. by eapply consts_ok_ext.
  - cbn. apply store_at_put; [done|]. exists j1, j. rewrite lookup_insert. split; [done|]. split; (eapply val_at_ext; [exact X|done]).
  - clear -Hd Hfl. induction Hd; econstructor; [|done]. rewrite lookup_insert_ne; [done|congruence].
  - lia.
  - split; [done|]. rewrite Forall_forall in HF |- *. intros l1 Hl1. rewrite lookup_insert_ne; [by apply HF|congruence].
  - apply G2. eapply can_alloc_le; [done|cbn; lia].
  - lia.
  - cbn. by eapply val_at_ext.
  - done.
  - done.
  - done.
  - intros q2 s2 (f2 & σ2 & i2 & F2 & R2 & Hi2 & Hv2 & X2 & S2). cbn in X2. exists f2, σ2, i2. split; [auto|]. split; [done|]. split; [done|].
    rewrite first_snoc, link_snoc by lia. split; [done|]. split; [by eapply ext_trans|done].
Qed.
Lemma wp_reverse fuel : forall vs ls x r μ f M s i p j q, rep f M s -> consts_ok (m_heap M) -> store_at [] μ (m_heap M) -> pairs_of μ x ls vs -> (length vs <= fuel)%nat ->
  val_at (m_heap M) x i -> f i p -> val_at (m_heap M) r j -> f j q ->
  wp (reverse_loop fuel p q) s (gives_more f (link (reverse ls) (reverse vs) r μ) (first_of (reverse ls) r) M).
Proof.
  induction fuel as [|fuel IH]; intros vs ls x r μ f M s i p j q R C S Hl Hfu Hx Hp Hr Hq;
    (inversion Hl as [|l a d ls' vs' Hla Hd]; subst; cbn in Hfu; [|try lia]).
  1,2: rewrite (nil_addr _ _ _ _ _ R Hx Hp); (exists q, s; split; [done|]); (exists f, (m_heap M), j; rewrite with_heap_id; done).
  cbn in Hx. subst i. cbn [reverse_loop]. rewrite (loc_not_nil _ _ _ _ _ R Hp). destruct (pair_val _ _ _ _ _ S Hla) as (j1 & j2 & Hj & Hva & Hvd).
  stp. eapply (wp_cdr_of _ _ _ R _ _ _ _ _ _ Hp Hj). intros y Hy. stp. eapply (wp_set_cdr _ _ _ R _ _ _ _ _ _ _ Hp Hj Hq). intros s' R'.
  assert (ext (m_heap M) (<[Loc l := opair j1 j]> (m_heap M))) as X by apply ext_loc. pose proof (pairs_nodup _ _ _ _ Hl) as Hnd. apply NoDup_cons in Hnd as [Hnl _].
  eapply wp_mono; [eapply (IH vs' ls' d (VLoc l) (<[l := SPair a r]> μ) f _ s' j2 y (Loc l) p R')|].
  - cbn. by eapply consts_ok_ext.
  - cbn. apply store_at_put; [done|]. exists j1, j. rewrite lookup_insert. split; [done|]. split; (eapply val_at_ext; [exact X|done]).
  - eapply pairs_keep; [exact Hd|]. intros l1 Hl1. rewrite lookup_insert_ne; [done|congruence].
  - lia.
  - cbn. by eapply val_at_ext.
  - done.
  - done.
  - done.
  - intros q2 s2 (f2 & σ2 & i2 & F2 & R2 & Hi2 & Hv2 & X2 & S2). cbn in X2. exists f2, σ2, i2. split; [auto|]. split; [done|]. split; [done|].
    rewrite first_snoc, link_snoc by by eapply pairs_length. split; [done|]. split; [by eapply ext_trans|done].
Qed.

(** ** Vectors *)
Lemma val_slot f M s μ v i p : rep f M s -> store_at [] μ (m_heap M) -> f i p -> val_at (m_heap M) v i -> known μ v -> char_fits v ->
  exists e sl, slot_val (m_heap M) v e /\ RepArrays.slot_as f e sl /\ value_at (cells s) p sl.
Proof.
  intros R S Hp Hv K Hc. destruct (val_obj _ _ _ _ _ _ _ R S Hp Hv K) as (c & Hh & Ht). destruct (rep_range _ _ _ _ _ R Hp) as [_ Hlt].
  pose proof (heap_cells _ _ _ Hh Hlt) as Hcell.
  assert (c_ty c ∉ [TNUMBER; TCHAR; TREF] -> exists e sl, (exists j, e = ARef j /\ val_at (m_heap M) v j) /\ RepArrays.slot_as f e sl /\ value_at (cells s) p sl) as Ho.
  { intros Hn. exists (ARef i), (SRef p). split; [by exists i|]. split; [done|]. split; [done|]. by exists c. }
  assert (forall t, c_ty c = t -> t <> TNUMBER -> t <> TCHAR -> t <> TREF -> c_ty c ∉ [TNUMBER; TCHAR; TREF]) as Hnot.
  { intros t -> T1 T2 T3 Hin. repeat (apply elem_of_cons in Hin as [Hin|Hin]; [done|]). by apply elem_of_nil in Hin. }
  destruct v as [n|n|k|k|l].
  - destruct Ht as [Ht Hd]. exists (ANum n), (SNum n). split; [done|]. split; [done|]. by exists c.
  - destruct Ht as [Ht Hd]. exists (AChar n), (SChar n). split; [done|]. split; [done|]. split; [by exists c|done].
  - apply Ho. cbn in Ht. repeat (destruct Ht as [Ht|Ht]; [by eapply Hnot|]). by eapply Hnot.
  - apply Ho. by eapply Hnot.
  - apply Ho. cbn in Ht. destruct (μ !! l) as [[]|]; try done; by eapply Hnot.
Qed.
Lemma give_vector f M s s' μ l vs es sls kk : rep f M s -> consts_ok (m_heap M) -> store_at [] μ (m_heap M) -> can_alloc kk s -> μ !! l = None ->
  modifies nothing kk s s' -> array_at (cells s') TVECTOR (g_free s) (g_free s + 1) sls -> Forall2 (RepArrays.slot_as f) es sls ->
  Forall2 (slot_val (m_heap M)) vs es -> gives (<[l := SVec vs]> μ) (VLoc l) M (g_free s) s'.
Proof.
  intros R C S HA Hl Hm Harr He Hv.
  assert (m_heap M !! Loc l = None) as Fl by (apply (sa_free _ _ _ S); [done|]; intros Hin; by apply elem_of_nil in Hin).
  pose proof (RepArrays.rep_new_array f M s s' kk (Loc l) es sls R Hm HA Fl Harr He) as R'.
  eexists _, _, (Loc l). split; [exact R'|]. split; [by right|]. split; [done|]. split; [apply ext_loc|].
  apply store_at_put; [done|]. exists es. rewrite lookup_insert. split; [done|]. eapply Forall2_impl; [exact Hv|]. intros a e Ha. eapply slot_val_ext; [apply ext_loc|done].
Qed.
Lemma wp_make_vector_ f M s μ l v i p k : rep f M s -> consts_ok (m_heap M) -> store_at [] μ (m_heap M) -> can_alloc (1 + 2 * Z.of_nat k) s -> μ !! l = None ->
  f i p -> val_at (m_heap M) v i -> known μ v -> char_fits v -> wp (make_vector_ (Z.of_nat k) p) s (gives (<[l := SVec (replicate k v)]> μ) (VLoc l) M).
Proof.
  intros R C S HA Hl Hp Hv K Hcf. destruct (val_slot _ _ _ _ _ _ _ R S Hp Hv K Hcf) as (e & sl & H1 & H2 & H3).
  destruct (ArrayProofs.make_vector_ok (Z.of_nat k) p sl s ltac:(lia) H3 HA) as (s' & kk & E & Hkk & Hm & Harr). rewrite Nat2Z.id in Harr.
  eapply wp_eq; [exact E|]. eapply (give_vector f M s s' μ l _ (replicate k e) (replicate k sl) kk); try done; [by eapply can_alloc_le|by apply Forall2_replicate..].
Qed.
Lemma list_val_cells f M s μ v vs : rep f M s -> consts_ok (m_heap M) -> store_at [] μ (m_heap M) -> list_val μ v vs -> forall i p, val_at (m_heap M) v i -> f i p ->
  exists ps, list_at (cells s) p ps /\ Forall2 (fun v q => exists j, val_at (m_heap M) v j /\ f j q) vs ps.
Proof.
  intros R C S Hl. induction Hl as [|l a d vs Hl Hd IH]; intros i p Hv Hp.
  - rewrite (nil_addr _ _ _ _ _ R Hv Hp). exists []. split; constructor.
  - cbn in Hv. subst i. destruct (pair_val _ _ _ _ _ S Hl) as (j & j' & Hj & Ha & Hd').
    destruct (rh_cell _ _ _ _ _ _ _ _ (rp_heap _ _ _ R) Hp Hj) as (c & Hc & Ht & _ & Hca & Hcd). cbn in Hca, Hcd.
    destruct (IH _ _ Hd' Hcd) as (ps & H1 & H2). exists (c_car c :: ps). split; [|constructor; [by exists j|done]].
    econstructor; [by apply Z.eqb_neq; eapply loc_not_nil| |exact H1]. exists c. split; [|done]. apply heap_cells; [done|by apply (rep_range _ _ _ _ _ R Hp)].
Qed.
Lemma wp_list_to_vector fuel f M s μ l v vs i p : rep f M s -> consts_ok (m_heap M) -> store_at [] μ (m_heap M) -> can_alloc (1 + 3 * Z.of_nat (length vs)) s -> μ !! l = None ->
  list_val μ v vs -> Forall (known μ) vs -> Forall char_fits vs -> f i p -> val_at (m_heap M) v i -> g_free s <= Z.of_nat fuel ->
  wp (list_to_vector fuel p) s (gives (<[l := SVec vs]> μ) (VLoc l) M).
Proof.
  intros R C S HA Hl Hlv HK HC Hp Hv Hfu. pose proof (list_val_length _ _ _ _ _ _ _ _ R C S Hlv Hv Hp) as Hlen.
  destruct (list_val_cells _ _ _ _ _ _ R C S Hlv _ _ Hv Hp) as (ps & Hps & HF). pose proof (Forall2_length _ _ _ HF) as El.
  assert (exists es sls, Forall2 (slot_val (m_heap M)) vs es /\ Forall2 (RepArrays.slot_as f) es sls /\ Forall2 (value_at (cells s)) ps sls) as (es & sls & H1 & H2 & H3).
  { clear Hlv Hlen HA El Hps. revert HK HC. induction HF as [|a q vs ps (j & Hj & Hq) _ IH]; intros HK HC; [exists [], []; repeat constructor|].
    apply Forall_cons in HK as [K HK]. apply Forall_cons in HC as [Cf HC]. destruct (IH HK HC) as (es & sls & ? & ? & ?).
    destruct (val_slot _ _ _ _ _ _ _ R S Hq Hj K Cf) as (e & sl & ? & ? & ?). exists (e :: es), (sl :: sls). repeat constructor; done. }
  assert (value_at (cells s) cell_unspecified (SRef cell_unspecified)) as HU.
  { pose proof (rep_const _ _ _ cell_unspecified R ltac:(kc)) as Hu. destruct (cst_const _ _ C cell_unspecified ltac:(kc)) as (t & n & d & Ho & Ht & _).
    destruct (rh_cell _ _ _ _ _ _ _ _ (rp_heap _ _ _ R) Hu Ho) as (c & Hc & Hct & _). split; [done|]. exists c.
    split; [apply heap_cells; [done|by apply (rep_range _ _ _ _ _ R Hu)]|]. rewrite Hct. destruct Ht as [-> | ->]; intros Hin;
      (repeat (apply elem_of_cons in Hin as [Hin|Hin]; [done|]); by apply elem_of_nil in Hin). }
  destruct (ArrayProofs.list_to_vector_any fuel p ps sls s Hps H3) as (s' & kk & E & Hkk & Hm & Harr); [lia|by rewrite <- El|done|].
  eapply wp_eq; [exact E|]. eapply (give_vector f M s s' μ l vs es sls kk); try done. eapply can_alloc_le; [exact HA|lia].
Qed.
Lemma nodup_rev {A} (xs : list A) : NoDup xs -> NoDup (reverse xs).
Proof. intros H. by rewrite reverse_Permutation. Qed.
Lemma fresh_rev μ ls : unused μ ls -> unused μ (reverse ls).
Proof. intros [Hn HF]. split; [by apply nodup_rev|by apply Forall_reverse]. Qed.
Lemma wp_reverse_x fuel vs ls x r μ f M s i p j q : rep f M s -> consts_ok (m_heap M) -> store_at [] μ (m_heap M) -> pairs_of μ x ls vs -> (length vs <= fuel)%nat ->
  val_at (m_heap M) x i -> f i p -> val_at (m_heap M) r j -> f j q ->
  wp (reverse_x_ fuel p q) s (gives_more f (link (reverse ls) (reverse vs) r μ) (first_of (reverse ls) r) M).
Proof.
  intros R C S Hl Hfu Hx Hp Hr Hq. pose proof (wp_reverse fuel vs ls x r μ f M s i p j q R C S Hl Hfu Hx Hp Hr Hq) as HW.
  unfold reverse_x_. stp. destruct Hl as [|l a d ls vs Hl Hd].
  { rewrite (nil_addr _ _ _ _ _ R Hx Hp) in *. change (cell_nil =? cell_nil) with true. cbv iota. by stp. }
  cbn in Hx. subst i. rewrite (loc_not_nil _ _ _ _ _ R Hp). destruct (pair_val _ _ _ _ _ S Hl) as (j1 & j2 & Hj1 & _ & _).
  stp. eapply (wp_ty _ _ _ R _ _ _ _ _ _ Hp Hj1). change (TPAIR =? TPAIR) with true. cbv iota. by stp.
Qed.
Lemma aentry_val σ μ v j : store_at [] μ σ -> val_at σ v j -> known μ v -> slot_val σ v (RepArrays.aentry σ j).
Proof.
  intros S Hv K. destruct v as [n|n|k|k|l].
  - destruct Hv as [_ Hv]. cbn. unfold RepArrays.aentry. by rewrite Hv.
  - destruct Hv as [_ Hv]. cbn. unfold RepArrays.aentry. by rewrite Hv.
  - exists j. split; [|done]. destruct Hv as [-> (o & Ho & Ha)]. unfold RepArrays.aentry. rewrite Ho. destruct o as [t a d|t es|bs]; [|done..].
    destruct d as [|n]; [done|]. cbn in Ha. repeat destruct Ha as [->|Ha]; try done; by subst.
  - exists j. split; [|done]. destruct Hv as [_ (a & d & Ho)]. unfold RepArrays.aentry. rewrite Ho. by destruct d.
  - exists j. split; [|done]. cbn in Hv. subst j. destruct K as [o Ho]. pose proof (sa_obj _ _ _ S _ _ Ho) as Hso. unfold RepArrays.aentry.
    destruct o; cbn in Hso; repeat match goal with H : exists _, _ |- _ => destruct H | H : _ /\ _ |- _ => destruct H end;
      match goal with H : σ !! Loc l = Some _ |- _ => rewrite H end; done.
Qed.
Lemma store_le_vec μ l vs ws : μ !! l = Some (SVec vs) -> store_le μ (<[l := SVec ws]> μ).
Proof.
  intros Hl. split; intros l' **; destruct (decide (l' = l)) as [->|Hne]; try congruence; rewrite ?lookup_insert, ?lookup_insert_ne by done; eauto.
  exists []. split; [done|apply no_vars].
Qed.
Lemma wp_get_entry f M s μ v b k e ce : rep f M s -> consts_ok (m_heap M) -> store_at [] μ (m_heap M) -> can_alloc 1 s -> known μ v -> char_fits v -> slot_val (m_heap M) v e ->
  heap s !! (b + Z.of_nat k) = Some ce -> slot_rel f e ce -> wp (get_entry b (Z.of_nat k)) s (gives μ v M).
Proof.
  intros R C S HA K Hcf Hse Hce Hr.
  assert (forall j, e = ARef j -> val_at (m_heap M) v j -> (forall n, v <> VNum n) -> (forall n, v <> VChar n) -> wp (get_entry b (Z.of_nat k)) s (gives μ v M)) as Href.
  { intros j -> Hj N1 N2. destruct Hr as [Ht Hf]. destruct (val_slot _ _ _ _ _ _ _ R S Hf Hj K Hcf) as (e2 & sl & H1 & H2 & H3).
    assert (exists q, sl = SRef q) as (q & ->).
    { destruct v; try (by destruct (N1 n)); try (by destruct (N2 n)); destruct H1 as (j2 & -> & _); cbn in H2; destruct sl; try done; by eexists. }
    cbn in H3. destruct H3 as [<- (c & Hc & Hct)]. apply cells_heap in Hc as [Hc _].
    eapply wp_eq; [apply (HashProofs.get_ref _ _ (c_car ce)); split; [by exists ce|by exists c]|]. by eapply give_same. }
  destruct v as [n|n|a|a|l]; cbn in Hse; [| |by destruct Hse as (j & -> & Hj); eapply Href..].
  - subst e. destruct Hr as [Ht Hd]. eapply give_number; [exact R|done|done|]. rewrite make_number_s by done. apply HashProofs.get_num; [by exists ce|done].
  - subst e. destruct Hr as [Ht Hd]. unfold get_entry, deref, cell_ref. stp. stp. eapply wp_eq; [by apply rd_ok'|]. rewrite Ht. change (TCHAR =? TREF) with false. cbv iota. stp.
    stp. eapply wp_eq; [by apply rd_ok'|]. rewrite Ht. change (TCHAR =? TCHAR) with true. cbv iota. rewrite Hd, to_s32_id by done.
    stp. eapply wp_mono; [apply (give_cell f M s μ TCHAR n R S HA); by right|]. change (TCHAR =? TNUMBER) with false. cbv iota. intros q s' (f' & σ' & i & R' & Hq & Hv & X & S').
    destruct (val_obj f' (with_heap σ' M) s' μ (VChar n) i q R' S' Hq Hv I) as (c & Hc & Hct & Hcd).
    stp. eapply wp_eq; [by apply rd_ok'|]. rewrite Hct. change (TCHAR =? TNUMBER) with false. cbv iota. stp. exists f', σ', i. done.
Qed.
End globals.
