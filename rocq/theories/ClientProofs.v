(** A client's calls and the collections between them, seen through [rep]: an ideal machine
    whose objects never move answers the same. *)
From stdpp Require Import base gmap relations list fin_maps fin_map_dom.
From Coq Require Import ZArith Lia.
From Coq Require Import ZifyBool ZifyNat.
From Verif Require Import CInt Symbols Heap HeapLemmas GcSpec GcModel GcWhole DataModel DataSpec DataLemmas CoreProofs StringProofs ArrayProofs StackModel Rep RepProofs RepArrays EvalCheck.
From Verif Require Import ClientModel.
Open Scope Z_scope.
Open Scope mes_scope.

(** * The ideal machine *)
Definition avar (v : var) (M : mst) : id :=
  match v with
  | VR0 => m_r0 M | VR1 => m_r1 M | VR2 => m_r2 M | VR3 => m_r3 M
  | VStack k => default (Imp cell_f) (m_stk M !! k)
  end.
Definition aput (v : var) (i : id) (M : mst) : mst :=
  match v with
  | VR0 => with_r0 i M | VR1 => with_r1 i M | VR2 => with_r2 i M | VR3 => with_r3 i M
  | VStack k => with_stk (<[k := i]> (m_stk M)) M
  end.
Inductive ares : Type := AOk (a : answer) (n : Z) (M : mst) | AExit | AUndef.

Definition alook (σ : gmap id obj) (i : id) : answer :=
  match σ !! i with
  | Some (OCell t a d) =>
    match d with
    | WInt n => if t =? TNUMBER then SeesNumber n else if t =? TCHAR then SeesChar n else SeesType t
    | WId b => if (t =? TSTRING) || (t =? TSYMBOL) || (t =? TKEYWORD) then
        match a, σ !! b with
        | WInt l, Some (OBytes bs) => SeesText t (take (Z.to_nat l) bs)
        | _, _ => SeesType t
        end else SeesType t
    end
  | Some (OArr t es) => SeesArray t (Z.of_nat (length es))
  | Some (OBytes _) => SeesType TBYTES
  | None => SeesType TBROKEN_HEART
  end.
Definition akeyword (σ : gmap id obj) (a d a' d' : word) : option bool :=
  match a, d, a', d' with
  | WInt l, WId b, WInt l', WId b' =>
    if decide (b = b') then Some true else
    if (l =? 0) && (l' =? 0) then Some true else
    if l =? l' then
      match σ !! b, σ !! b' with
      | Some (OBytes x), Some (OBytes y) =>
        if (0 <=? l) && (l <=? Z.of_nat (length x)) && (l <=? Z.of_nat (length y))
        then Some (bool_decide (take (Z.to_nat l) x = take (Z.to_nat l) y)) else None
      | _, _ => None
      end
    else Some false
  | _, _, _, _ => Some false
  end.
Definition aeq (σ : gmap id obj) (i j : id) : option bool :=
  if decide (i = j) then Some true else
  match σ !! i with
  | Some (OCell t a d) =>
    match σ !! j with
    | Some (OCell t' a' d') =>
      if t =? TKEYWORD then (if t' =? TKEYWORD then akeyword σ a d a' d' else Some false)
      else if (t =? TCHAR) || (t =? TNUMBER) then
        match d, d' with WInt n, WInt n' => Some ((t' =? t) && (n =? n')) | _, _ => Some false end
      else Some false
    | _ => Some false
    end
  | _ => Some false
  end.
Definition anew (d : var) (o : obj) (n : Z) (M : mst) : ares := AOk Fine (n + 1) (aput d (Loc n) (new_obj (Loc n) o M)).
Definition astep (c : cmd) (n : Z) (M : mst) : ares :=
  let σ := m_heap M in
  match c with
  | Cons d a b => anew d (OCell TPAIR (WId (avar a M)) (WId (avar b M))) n M
  | Car d a => match σ !! avar a M with
               | Some (OCell t (WId x) _) => if t =? TPAIR then AOk Fine n (aput d x M) else AOk (Failed cell_symbol_not_a_pair) n M
               | _ => AOk (Failed cell_symbol_not_a_pair) n M
               end
  | Cdr d a => match σ !! avar a M with
               | Some (OCell t _ (WId x)) => if t =? TPAIR then AOk Fine n (aput d x M) else AOk (Failed cell_symbol_not_a_pair) n M
               | _ => AOk (Failed cell_symbol_not_a_pair) n M
               end
  | SetCar a b => match σ !! avar a M with
                  | Some (OCell t _ y) => if t =? TPAIR then AOk Fine n (new_obj (avar a M) (OCell t (WId (avar b M)) y) M) else AOk NotPair n M
                  | _ => AOk NotPair n M
                  end
  | SetCdr a b => match σ !! avar a M with
                  | Some (OCell t x _) => if t =? TPAIR then AOk Fine n (new_obj (avar a M) (OCell t x (WId (avar b M))) M) else AOk NotPair n M
                  | _ => AOk NotPair n M
                  end
  | Number d v => anew d (OCell TNUMBER (WInt 0) (WInt v)) n M
  | Char d v => anew d (OCell TCHAR (WInt 0) (WInt v)) n M
  | Str d bs => AOk Fine (n + 2) (aput d (Loc n) (new_obj (Loc n) (OCell TSTRING (WInt (Z.of_nat (length bs))) (WId (Loc (n + 1))))
                                    (new_obj (Loc (n + 1)) (OBytes (bs ++ [0])) M)))
  | MakeVector d k => anew d (OArr TVECTOR (replicate k (ARef (Imp cell_unspecified)))) n M
  | VectorSet a k b => match σ !! avar a M with
                       | Some (OArr t es) => if (t =? TVECTOR) && (Z.of_nat k <? Z.of_nat (length es))
                           then AOk Fine n (new_obj (avar a M) (OArr t (<[k := aentry σ (avar b M)]> es)) M) else AExit
                       | _ => AExit
                       end
  | VectorRef d a k => match σ !! avar a M with
                       | Some (OArr t es) => if t =? TVECTOR then
                           match es !! k with
                           | Some (ANum v) => anew d (OCell TNUMBER (WInt 0) (WInt v)) n M
                           | Some (AChar v) => anew d (OCell TCHAR (WInt 0) (WInt (to_s32 v))) n M
                           | Some (ARef i) =>
                             match σ !! i with
                             | Some (OCell t _ (WInt v)) =>
                               if t =? TNUMBER then anew d (OCell TNUMBER (WInt 0) (WInt v)) n M
                               else if t =? TCHAR then anew d (OCell TCHAR (WInt 0) (WInt (to_s32 v))) n M
                               else AOk Fine n (aput d i M)
                             | _ => AOk Fine n (aput d i M)
                             end
                           | None => AExit
                           end else AExit
                       | _ => AExit
                       end
  | Move d a => AOk Fine n (aput d (avar a M) M)
  | IsEq a b => match aeq σ (avar a M) (avar b M) with Some r => AOk (Truth r) n M | None => AUndef end
  | Show a => AOk (alook σ (avar a M)) n M
  end.
Fixpoint arun (p : client) (n : Z) (M : mst) : list answer * ending :=
  match p with
  | Stop => ([], Stopped)
  | Do c k =>
    match astep c n M with
    | AOk a n' M' => let r := arun (k a) n' M' in (a :: r.1, r.2)
    | AExit => ([], Exited)
    | AUndef => ([], Undefined)
    end
  end.

(** identifiers from [n] on are unused; what never changes is a constant *)
Record inv (n : Z) (M : mst) : Prop := {
  inv_next : forall l, n <= l -> m_heap M !! Loc l = None;
  inv_imp : forall i o, m_heap M !! i = Some o -> (forall l, i <> Loc l) -> exists t a d, o = OCell t a d /\ (t = TSPECIAL \/ t = TSYMBOL) }.

(** * Representation lemmas that [RepProofs] does not have *)
Lemma rep_gc f M s : rep f M s -> 5 <= g_stack s -> has_room s ->
  exists f' s', gc s = ROk tt s' /\ rep f' M s' /\ grows 0 s s'.
Proof.
  intros R Hg Hr. destruct (gc_correct s) as (φ & s' & E & Mv & Ok); [by eapply rep_machine_ok|done|done|].
  eexists _, s'. split; [exact E|]. split; [by eapply rep_moved|].
  destruct (mv_compact _ _ _ Mv) as (ps & [Hnd Hps] & Hfree).
  destruct (mv_rest _ _ _ Mv) as (H1 & H2 & H3 & H4 & H5 & H6 & H7 & _). split; [|done].
  pose proof (rep_machine_ok _ _ _ R) as Hok. pose proof (mo_free s Hok).
  pose proof (GcRoots.total_size_bound _ _ _ _ ps (mo_heap s Hok)) as Hb.
  assert (total_size (heap s) ps <= g_free s - cell_nil); [|lia]. apply Hb; [lia|done|]. intros p Hp. by apply Hps.
Qed.

(** giving an identifier to a cell that is there but belongs to nothing yet *)
Lemma rep_add_cell f M s i p t a d c : rep f M s -> m_heap M !! i = None -> heap s !! p = Some c -> c_ty c = t ->
  cell_ok t a d -> word_rel f a (c_car c) -> word_rel f d (c_cdr c) -> cell_nil <= p < g_free s ->
  (forall j q c, f j q -> heap s !! q = Some c -> ~ occupies q c p) ->
  rep (add_id f i p) (new_obj i (OCell t a d) M) s.
Proof.
  intros R Hi Hc Ht K W1 W2 Hp Hocc. pose proof (rp_heap _ _ _ R) as RH.
  assert (forall j p', f j p' -> add_id f i p j p') as Hle by (intros; by left).
  assert (forall j q, f j q -> j <> i) as Hni.
  { intros j q Hj ->. destruct (rh_obj _ _ _ RH _ _ Hj) as (o' & Ho' & _). congruence. }
  assert (forall j, ~ f j p) as Hnp.
  { intros j Hj. eapply (Hocc j p c); try done. by left. }
  assert (is_array c = false /\ GcSpec.is_bytes c = false) as [N1 N2].
  { destruct K as (_ & ? & ? & ? & _). unfold is_array, GcSpec.is_bytes. lia. }
  assert (forall a, occupies p c a -> a = p) as Hop.
  { intros a' [->|[[E _]|[E _]]]; [done|..]; congruence. }
  split; cbn; try apply R; try (apply Hle; apply R).
  - split; cbn.
    + intros j q r [Hj|[-> ->]] [Hj'|[E ->]]; [by eapply (rh_fun _ _ _ RH)| |by destruct (Hni _ _ Hj')|done]. subst. by destruct (Hni _ _ Hj).
    + intros j k q [Hj|[-> ->]] [Hk|[-> E]]; [by eapply (rh_inj _ _ _ RH)| | |done]; subst; by edestruct Hnp.
    + intros k Hk. left. by apply (rh_const _ _ _ RH).
    + intros j q [Hj|[-> ->]].
      * destruct (rh_obj _ _ _ RH _ _ Hj) as (o' & Ho' & Hat). exists o'. rewrite lookup_insert_ne by (apply not_eq_sym; by eapply Hni). split; [done|].
        apply (obj_at_mono f); [by left|done].
      * eexists. rewrite lookup_insert. split; [done|]. cbn. exists c. do 3 (split; [done|]). split; by eapply word_rel_mono.
    + intros j q [Hj|[-> ->]]; [by apply (rh_wf _ _ _ RH _ _ Hj)|]. exists c. split; [done|].
      split; [done|destruct K; lia| |]; intros E; congruence.
    + intros j k q r c1 c2 ad [Hj|[-> ->]] [Hk|[-> ->]] Hne Hc1 Hc2 O1 O2.
      * by eapply (rh_disj _ _ _ RH j k q r c1 c2 ad).
      * assert (c2 = c) as -> by congruence. apply Hop in O2 as ->. by eapply Hocc.
      * assert (c1 = c) as -> by congruence. apply Hop in O1 as ->. by eapply Hocc.
      * done.
  - intros k j Hk. destruct (rp_stk _ _ _ R _ _ Hk) as (q & Hq & Hj). exists q. split; [done|by apply Hle].
  - eapply Forall2_impl; [apply R|done].
Qed.

Lemma rep_make_string f M s i j bs : rep f M s -> can_alloc (string_cells bs) s -> Z.of_nat (length bs) <= MAX_STRING s ->
  m_heap M !! i = None -> m_heap M !! j = None -> i <> j ->
  make_string bs s = ROk (g_free s) (with_string bs 0 s)
  /\ rep (add_id (add_id f j (g_free s + 1)) i (g_free s))
       (new_obj i (OCell TSTRING (WInt (Z.of_nat (length bs))) (WId j)) (new_obj j (OBytes (bs ++ [0])) M)) (with_string bs 0 s).
Proof.
  intros R Ha Hm Hi Hj Hij. split; [by apply make_string_s|].
  pose proof Ha as (A1 & A2 & A3). set (s' := with_string bs 0 s).
  pose proof (rp_cells _ _ _ R) as Hcl. pose proof (rp_free _ _ _ R) as Hfr.
  assert (modifies nothing (string_cells bs) s s') as Hmod by (apply modifies_with_string; lia).
  assert (heap s' !! g_free s = Some (Cell TSTRING (Z.of_nat (length bs)) (g_free s + 1) [])) as Hs by (cbn; by rewrite lookup_insert).
  assert (heap s' !! (g_free s + 1) = Some (Cell TBYTES (Z.of_nat (length (bs ++ [0]))) 0 (bs ++ [0]))) as Hb.
  { cbn. rewrite lookup_insert_ne by lia. by rewrite lookup_insert. }
  assert (g_free s' = g_free s + 1 + bytes_cells (Z.of_nat (length (bs ++ [0])))) as Hf by done.
  assert (g_cells s' = g_cells s) as Hc' by done.
  pose proof (bytes_cells_pos (Z.of_nat (length (bs ++ [0])))) as Hpos.
  assert (rep (add_id f j (g_free s + 1)) (new_obj j (OBytes (bs ++ [0])) M) s') as R1.
  { eapply rep_new; [exact R|exact Hmod|exact Ha|done|exact Hb| | |].
    - eexists. split; [exact Hb|]. done.
    - rewrite Hf. split; cbn; try done; lia.
    - intros a [->|[[E _]|[_ Hr]]]; [lia|done|]. cbn in Hr. lia. }
  eapply rep_add_cell; [exact R1| |exact Hs|done|done|done| | |].
  - cbn. by rewrite lookup_insert_ne.
  - cbn. by right.
  - rewrite Hf. lia.
  - intros j' q c [Hj'|[-> ->]] Hc Hoc.
    + destruct (rh_wf _ _ _ (rp_heap _ _ _ R) _ _ Hj') as (c0 & Hc0 & W). pose proof (wf_range _ _ _ _ _ W) as Wr.
      assert (heap s' !! q = heap s !! q) as E by (apply (mod_keep _ _ _ _ Hmod); [lia|intros []]).
      assert (c0 = c) as -> by congruence. pose proof (wf_occupies _ _ _ _ _ _ W Hoc). lia.
    + rewrite Hb in Hc. injection Hc as <-. destruct Hoc as [E|[[E _]|[_ Hr]]]; [lia|done|cbn in Hr; lia].
Qed.


(** * Variables *)
Lemma avar_aput_stk v i M : length (m_stk (aput v i M)) = length (m_stk M).
Proof. destruct v; cbn; try done. apply insert_length. Qed.
Lemma heap_aput v i M : m_heap (aput v i M) = m_heap M.
Proof. by destruct v. Qed.
Lemma get_var_ok f M s v : rep f M s -> var_ok (length (m_stk M)) v -> exists p, get_var v s = ROk p s /\ f (avar v M) p.
Proof.
  intros R Hv. destruct v as [| | | |k]; cbn in *; [eexists; split; [done|apply R]..|].
  destruct (lookup_lt_is_Some_2 (m_stk M) k Hv) as [i Hi]. destruct (rp_stk _ _ _ R _ _ Hi) as (p & Hp & Hf).
  destruct (rp_size _ _ _ R). exists p. split; [apply stack_get_ok; [lia|done]|]. by rewrite Hi.
Qed.
Lemma put_var_ok f M s v i p : rep f M s -> var_ok (length (m_stk M)) v -> f i p ->
  exists s', put_var v p s = ROk tt s' /\ rep f (aput v i M) s' /\ grows 0 s s'.
Proof.
  intros R Hv Hp. destruct v as [| | | |k]; cbn in *; [eexists; split; [done|]..|].
  - split; [by apply rep_set_R0|]. grows_same.
  - split; [by apply rep_set_R1|]. grows_same.
  - split; [by apply rep_set_R2|]. grows_same.
  - split; [by apply rep_set_R3|]. grows_same.
  - destruct (rep_stack_set f M s k i p R Hv Hp) as [E R']. eexists. split; [exact E|]. split; [done|]. grows_same.
Qed.
Lemma inv_aput n M v i : inv n M -> inv n (aput v i M).
Proof. intros [H1 H2]. split; rewrite heap_aput; done. Qed.
Lemma inv_new n M l m o : inv n M -> n <= m -> l < m -> inv m (new_obj (Loc l) o M).
Proof.
  intros [H1 H2] Hm Hl. split; cbn.
  - intros l' Hl'. rewrite lookup_insert_ne by (intros E; injection E as ->; lia). apply H1. lia.
  - intros k o' Hk Hn. rewrite lookup_insert_ne in Hk by (intros E; by eapply Hn). by eapply H2.
Qed.

(** * One call *)
Definition matches (c : cmd) (n : Z) (M : mst) (s : state) : Prop :=
  match astep c n M with
  | AOk a n' M' => exists f' s', exec c s = ROk a s' /\ rep f' M' s' /\ inv n' M' /\ length (m_stk M') = length (m_stk M) /\ grows (need c) s s'
  | AExit => exec c s = RAbort
  | AUndef => exec c s = RUB
  end.

Ltac dest_var R Hv p E H :=
  match type of Hv with Forall _ (?v :: ?l) =>
    let Hv1 := fresh in let Hv2 := fresh in
    apply Forall_cons in Hv as [Hv1 Hv]; destruct (get_var_ok _ _ _ v R Hv1) as (p & E & H) end.

Lemma fresh n M : inv n M -> m_heap M !! Loc n = None.
Proof. intros [H _]. apply H. lia. Qed.

(** allocate one cell and keep it in a variable *)
Lemma new_cell_ok f M s n d t a b x y : rep f M s -> inv n M -> var_ok (length (m_stk M)) d -> can_alloc 1 s ->
  cell_ok t a b -> word_rel f a x -> word_rel f b y ->
  exists f' s', (r <- make_cell t x y ;; put_var d r ;;; ret Fine) s = ROk Fine s'
    /\ rep f' (aput d (Loc n) (new_obj (Loc n) (OCell t a b) M)) s'
    /\ inv (n + 1) (aput d (Loc n) (new_obj (Loc n) (OCell t a b) M))
    /\ length (m_stk (aput d (Loc n) (new_obj (Loc n) (OCell t a b) M))) = length (m_stk M) /\ grows 1 s s'.
Proof.
  intros R I Hd Ha K W1 W2. destruct (rep_make_cell f M s (Loc n) t a b x y) as [E R1]; try done; [by apply fresh|].
  destruct (put_var_ok _ _ _ d (Loc n) (g_free s) R1) as (s' & E' & R2 & G2); [done|by right|].
  eexists _, s'. split; [|split; [exact R2|]].
  - erewrite bind_ok by exact E. by erewrite bind_ok by exact E'.
  - split; [apply inv_aput, (inv_new n); [done|lia|lia]|]. split; [by rewrite avar_aput_stk|].
    eapply (grows_trans 1 0); [|exact G2]. eapply grows_modifies, modifies_with_cell.
Qed.

Lemma car_fail x s c : heap s !! x = Some c -> c_ty c <> TPAIR -> can_alloc 1 s ->
  exists e s', DataModel.car x s = RThrow cell_symbol_not_a_pair e s' /\ modifies nothing 1 s s'.
Proof.
  intros Hc Ht Ha. unfold DataModel.car. erewrite bind_ok by (by apply rd_ok'). rewrite (proj2 (Z.eqb_neq _ _) Ht).
  unfold Heap.cons. erewrite bind_ok by (by apply make_cell_s). eexists _, _. split; [done|]. apply modifies_with_cell.
Qed.
Lemma cdr_fail x s c : heap s !! x = Some c -> c_ty c <> TPAIR -> can_alloc 1 s ->
  exists e s', DataModel.cdr x s = RThrow cell_symbol_not_a_pair e s' /\ modifies nothing 1 s s'.
Proof.
  intros Hc Ht Ha. unfold DataModel.cdr. erewrite bind_ok by (by apply rd_ok'). rewrite (proj2 (Z.eqb_neq _ _) Ht).
  unfold Heap.cons. erewrite bind_ok by (by apply make_cell_s). eexists _, _. split; [done|]. apply modifies_with_cell.
Qed.
Lemma attempt_throw (m : Heap.M answer) s key x s' : m s = RThrow key x s' -> attempt m s = ROk (Failed key) s'.
Proof. intros E. unfold attempt. by rewrite E. Qed.
Lemma attempt_ok (m : Heap.M answer) s a s' : m s = ROk a s' -> attempt m s = ROk a s'.
Proof. intros E. unfold attempt. by rewrite E. Qed.

(** the object behind an identifier *)
Lemma rep_obj f M s i p : rep f M s -> f i p -> exists o c, m_heap M !! i = Some o /\ obj_at f (heap s) o p /\ heap s !! p = Some c
  /\ (c_ty c =? TPAIR = match o with OCell t _ _ => t =? TPAIR | _ => false end).
Proof.
  intros R Hf. destruct (rh_obj _ _ _ (rp_heap _ _ _ R) _ _ Hf) as (o & Ho & Hat). destruct o as [t a d|t es|bs]; pose proof Hat as (c & Hc & Ht & K);
  eexists _, c; (split; [exact Ho|]); (split; [exact Hat|]); (split; [exact Hc|]); rewrite Ht; [done| |done].
  destruct K as [[-> | ->] _]; done.
Qed.

Lemma match_car f M s n d a : rep f M s -> inv n M -> Forall (var_ok (length (m_stk M))) [d; a] -> can_alloc 1 s -> matches (Car d a) n M s.
Proof.
  intros R I Hv Ha. apply Forall_cons in Hv as [Hd Hv]. dest_var R Hv x Ex Hx. unfold matches, astep, exec.
  destruct (rep_obj _ _ _ _ _ R Hx) as (o & c & Ho & Hat & Hc & Hp). rewrite Ho.
  assert (c_ty c <> TPAIR -> exists f' s', attempt (x0 <- get_var a ;; r <- DataModel.car x0 ;; put_var d r ;;; ret Fine) s = ROk (Failed cell_symbol_not_a_pair) s' /\ rep f' M s' /\ inv n M /\ length (m_stk M) = length (m_stk M) /\ grows 1 s s') as Hfail.
  { intros Hne. destruct (car_fail x s c) as (e & s' & E & Hm); try done. exists f, s'. split; [|split; [by eapply rep_extends|split; [done|split; [done|by eapply grows_modifies]]]].
    eapply attempt_throw. rewrite (bind_ok _ _ _ _ _ Ex). by apply bind_throw. }
  destruct o as [t [y|v] w|t es|bs]; [|apply Hfail..].
  - destruct (Z.eqb_spec t TPAIR) as [->|Hne]; [|apply Hfail; lia].
    destruct Hat as (c' & Hc' & Ht & K & W1 & W2). rewrite Hc in Hc'. injection Hc' as <-. cbn in W1.
    destruct (put_var_ok _ _ _ d y (c_car c) R Hd W1) as (s' & E & R' & G'). exists f, s'. split.
    { apply attempt_ok. rewrite (bind_ok _ _ _ _ _ Ex). unfold DataModel.car. rewrite bind_assoc. erewrite bind_ok by (by apply rd_ok').
      rewrite Ht, Z.eqb_refl, bind_ret. by erewrite bind_ok by exact E. }
    split; [done|]. split; [by apply inv_aput|]. split; [apply avar_aput_stk|]. by eapply grows_le.
  - destruct Hat as (c' & Hc' & Ht & K & W1 & W2). destruct (Z.eqb_spec t TPAIR) as [->|]; [|lia]. by destruct K as (_ & _ & _ & _ & K & _).
  - lia.
  - lia.
Qed.
Lemma match_cdr f M s n d a : rep f M s -> inv n M -> Forall (var_ok (length (m_stk M))) [d; a] -> can_alloc 1 s -> matches (Cdr d a) n M s.
Proof.
  intros R I Hv Ha. apply Forall_cons in Hv as [Hd Hv]. dest_var R Hv x Ex Hx. unfold matches, astep, exec.
  destruct (rep_obj _ _ _ _ _ R Hx) as (o & c & Ho & Hat & Hc & Hp). rewrite Ho.
  assert (c_ty c <> TPAIR -> exists f' s', attempt (x0 <- get_var a ;; r <- DataModel.cdr x0 ;; put_var d r ;;; ret Fine) s = ROk (Failed cell_symbol_not_a_pair) s' /\ rep f' M s' /\ inv n M /\ length (m_stk M) = length (m_stk M) /\ grows 1 s s') as Hfail.
  { intros Hne. destruct (cdr_fail x s c) as (e & s' & E & Hm); try done. exists f, s'. split; [|split; [by eapply rep_extends|split; [done|split; [done|by eapply grows_modifies]]]].
    eapply attempt_throw. rewrite (bind_ok _ _ _ _ _ Ex). by apply bind_throw. }
  destruct o as [t w [y|v]|t es|bs]; [|apply Hfail..].
  - destruct (Z.eqb_spec t TPAIR) as [->|Hne]; [|apply Hfail; lia].
    destruct Hat as (c' & Hc' & Ht & K & W1 & W2). rewrite Hc in Hc'. injection Hc' as <-. cbn in W2.
    destruct (put_var_ok _ _ _ d y (c_cdr c) R Hd W2) as (s' & E & R' & G'). exists f, s'. split.
    { apply attempt_ok. rewrite (bind_ok _ _ _ _ _ Ex). unfold DataModel.cdr. rewrite bind_assoc. erewrite bind_ok by (by apply rd_ok').
      rewrite Ht, Z.eqb_refl, bind_ret. by erewrite bind_ok by exact E. }
    split; [done|]. split; [by apply inv_aput|]. split; [apply avar_aput_stk|]. by eapply grows_le.
  - destruct Hat as (c' & Hc' & Ht & K & W1 & W2). destruct (Z.eqb_spec t TPAIR) as [->|]; [|lia]. by destruct K as (_ & _ & _ & _ & _ & K).
  - lia.
  - lia.
Qed.

Lemma not_imp n M i t a d : inv n M -> m_heap M !! i = Some (OCell t a d) -> t <> TSPECIAL -> t <> TSYMBOL -> exists l, i = Loc l.
Proof.
  intros [_ H2] Hi N1 N2. destruct i as [l|k|k|k]; [by exists l|..]; destruct (H2 _ _ Hi) as (t' & a' & d' & E & [-> | ->]); congruence.
Qed.
Lemma not_imp_arr n M i t es : inv n M -> m_heap M !! i = Some (OArr t es) -> exists l, i = Loc l.
Proof.
  intros [_ H2] Hi. destruct i as [l|k|k|k]; [by exists l|..]; by destruct (H2 _ _ Hi) as (t' & a' & d' & E & _).
Qed.
Lemma inv_update n M i o : inv n M -> (exists l, i = Loc l) -> m_heap M !! i <> None -> inv n (new_obj i o M).
Proof.
  intros [H1 H2] (l & ->) Hi. split; cbn.
  - intros l' Hl'. rewrite lookup_insert_ne; [by apply H1|]. intros E. injection E as ->. by rewrite H1 in Hi.
  - intros k o' Hk Hn. rewrite lookup_insert_ne in Hk by (intros E; by eapply Hn). by eapply H2.
Qed.

Lemma match_setcar f M s n a b : rep f M s -> inv n M -> Forall (var_ok (length (m_stk M))) [a; b] -> matches (SetCar a b) n M s.
Proof.
  intros R I Hv. dest_var R Hv x Ex Hx. dest_var R Hv y Ey Hy. unfold matches, astep, exec.
  destruct (rep_obj _ _ _ _ _ R Hx) as (o & c & Ho & Hat & Hc & Hp). rewrite Ho.
  assert ((c_ty c =? TPAIR) = false -> exists f' s', (x0 <- get_var a ;; y0 <- get_var b ;; p <- pair_p x0 ;; (if p =? cell_f then ret NotPair else set_car_x 0 x0 y0 ;;; ret Fine)) s = ROk NotPair s' /\ rep f' M s' /\ inv n M /\ length (m_stk M) = length (m_stk M) /\ grows 0 s s') as Hfail.
  { intros Hne. exists f, s. split; [|do 3 (split; [done|]); grows_same]. rewrite (bind_ok _ _ _ _ _ Ex), (bind_ok _ _ _ _ _ Ey). unfold pair_p, ty. rewrite !bind_assoc.
    erewrite bind_ok by (by apply rd_ok'). rewrite !bind_ret. by rewrite Hne. }
  destruct o as [t w z|t es|bs]; [|by apply Hfail..]. destruct (Z.eqb_spec t TPAIR) as [->|Hne]; [|by apply Hfail].
  destruct (not_imp _ _ _ _ _ _ I Ho) as [l El]; [done|done|]. rewrite El in *. pose proof Hat as (c' & Hc' & Ht & K & W1 & W2). rewrite Hc in Hc'. injection Hc' as <-.
  destruct w as [w|]; [|by destruct K as (_ & _ & _ & _ & K & _)]. destruct z as [z|]; [|by destruct K as (_ & _ & _ & _ & _ & K)].
  destruct (rep_set_car _ _ _ _ _ _ _ _ _ R Hx Ho Hy) as (c' & E & R').
  eexists f, _. split; [|split; [exact R'|]].
  - rewrite (bind_ok _ _ _ _ _ Ex), (bind_ok _ _ _ _ _ Ey). unfold pair_p, set_car_x, ty. rewrite !bind_assoc.
    erewrite bind_ok by (by apply rd_ok'). rewrite !bind_ret. rewrite Ht. change (scm_bool (TPAIR =? TPAIR) =? cell_f) with false. cbv iota. rewrite !bind_assoc.
    erewrite bind_ok by (by apply rd_ok'). rewrite !bind_ret, Ht. change (TPAIR =? TPAIR) with true. cbv iota. rewrite !bind_assoc, bind_ret, bind_assoc.
    by erewrite bind_ok by exact E.
  - split; [|split; [done|grows_same]]. apply inv_update; [done|by exists l|]. by rewrite Ho.
Qed.
Lemma match_setcdr f M s n a b : rep f M s -> inv n M -> Forall (var_ok (length (m_stk M))) [a; b] -> matches (SetCdr a b) n M s.
Proof.
  intros R I Hv. dest_var R Hv x Ex Hx. dest_var R Hv y Ey Hy. unfold matches, astep, exec.
  destruct (rep_obj _ _ _ _ _ R Hx) as (o & c & Ho & Hat & Hc & Hp). rewrite Ho.
  assert ((c_ty c =? TPAIR) = false -> exists f' s', (x0 <- get_var a ;; y0 <- get_var b ;; p <- pair_p x0 ;; (if p =? cell_f then ret NotPair else set_cdr_x 0 x0 y0 ;;; ret Fine)) s = ROk NotPair s' /\ rep f' M s' /\ inv n M /\ length (m_stk M) = length (m_stk M) /\ grows 0 s s') as Hfail.
  { intros Hne. exists f, s. split; [|do 3 (split; [done|]); grows_same]. rewrite (bind_ok _ _ _ _ _ Ex), (bind_ok _ _ _ _ _ Ey). unfold pair_p, ty. rewrite !bind_assoc.
    erewrite bind_ok by (by apply rd_ok'). rewrite !bind_ret. by rewrite Hne. }
  destruct o as [t w z|t es|bs]; [|by apply Hfail..]. destruct (Z.eqb_spec t TPAIR) as [->|Hne]; [|by apply Hfail].
  destruct (not_imp _ _ _ _ _ _ I Ho) as [l El]; [done|done|]. rewrite El in *. pose proof Hat as (c' & Hc' & Ht & K & W1 & W2). rewrite Hc in Hc'. injection Hc' as <-.
  destruct w as [w|]; [|by destruct K as (_ & _ & _ & _ & K & _)]. destruct z as [z|]; [|by destruct K as (_ & _ & _ & _ & _ & K)].
  destruct (rep_set_cdr _ _ _ _ _ _ _ _ _ R Hx Ho Hy) as (c' & E & R').
  eexists f, _. split; [|split; [exact R'|]].
  - rewrite (bind_ok _ _ _ _ _ Ex), (bind_ok _ _ _ _ _ Ey). unfold pair_p, set_cdr_x, ty. rewrite !bind_assoc.
    erewrite bind_ok by (by apply rd_ok'). rewrite !bind_ret. rewrite Ht. change (scm_bool (TPAIR =? TPAIR) =? cell_f) with false. cbv iota. rewrite !bind_assoc.
    erewrite bind_ok by (by apply rd_ok'). rewrite !bind_ret, Ht. change (TPAIR =? TPAIR) with true. cbv iota. rewrite !bind_assoc, bind_ret, bind_assoc.
    by erewrite bind_ok by exact E.
  - split; [|split; [done|grows_same]]. apply inv_update; [done|by exists l|]. by rewrite Ho.
Qed.


Lemma set_entry_rep f M s i p t es c k j q : rep f M s -> f i p -> m_heap M !! i = Some (OArr t es) -> heap s !! p = Some c ->
  (exists l, i = Loc l) -> (k < length es)%nat -> f j q -> can_alloc 1 s ->
  exists s', set_entry (c_cdr c) (Z.of_nat k) q s = ROk tt s' /\ grows 1 s s'
    /\ rep f (new_obj i (OArr t (<[k := aentry (m_heap M) j]> es)) M) s'.
Proof. intros R Hi Ho Hc (l & ->) Hk Hq Ha. by eapply set_entry_any. Qed.

Lemma match_vset f M s n a k b : rep f M s -> inv n M -> Forall (var_ok (length (m_stk M))) [a; b] -> can_alloc 1 s -> matches (VectorSet a k b) n M s.
Proof.
  intros R I Hv Ha. dest_var R Hv x Ex Hx. dest_var R Hv y Ey Hy. unfold matches, astep, exec, vector_set_x_.
  destruct (rh_obj _ _ _ (rp_heap _ _ _ R) _ _ Hx) as (o & Ho & Hat). rewrite Ho.
  destruct o as [t w z|t es|bs].
  - destruct Hat as (c & Hc & Ht & (_ & _ & K & _) & _). rewrite (bind_ok _ _ _ _ _ Ex), (bind_ok _ _ _ _ _ Ey), bind_assoc.
    erewrite bind_ok by (by apply rd_ok'). rewrite bind_assoc. rewrite Ht, (proj2 (Z.eqb_neq _ _) K). done.
  - pose proof Hat as (c & Hc & Ht & Htt & Hl & _). destruct ((t =? TVECTOR) && (Z.of_nat k <? Z.of_nat (length es))) eqn:Eb.
    + destruct (set_entry_rep f M s _ x t es c k (avar b M) y R Hx Ho Hc) as (s' & E & G' & R'); try done; [by eapply not_imp_arr|lia|].
      exists f, s'. split; [|split; [exact R'|]].
      * rewrite (bind_ok _ _ _ _ _ Ex), (bind_ok _ _ _ _ _ Ey), bind_assoc.
        erewrite bind_ok by (by apply rd_ok'). rewrite bind_assoc. erewrite bind_ok by (unfold assert_msg; by replace (c_ty c =? TVECTOR) with true by lia).
        rewrite bind_assoc. erewrite bind_ok by (unfold assert_msg; by replace (Z.of_nat k <? c_car c) with true by lia).
        rewrite bind_assoc. erewrite bind_ok by exact E. done.
      * split; [|done]. apply inv_update; [done|by eapply not_imp_arr|by rewrite Ho].
    + rewrite (bind_ok _ _ _ _ _ Ex), (bind_ok _ _ _ _ _ Ey), bind_assoc.
      erewrite bind_ok by (by apply rd_ok'). rewrite Ht, Hl. rewrite bind_assoc. destruct (t =? TVECTOR); [|done].
      erewrite bind_ok by done. rewrite bind_assoc. cbn in Eb. by rewrite Eb.
  - destruct Hat as (c & Hc & Ht & _). rewrite (bind_ok _ _ _ _ _ Ex), (bind_ok _ _ _ _ _ Ey), bind_assoc.
    erewrite bind_ok by (by apply rd_ok'). rewrite bind_assoc. rewrite Ht. done.
Qed.

(** an element of a vector *)
Lemma get_entry_rep f M s n d a es x c k : rep f M s -> inv n M -> var_ok (length (m_stk M)) d -> can_alloc 1 s ->
  get_var a s = ROk x s -> f (avar a M) x -> m_heap M !! avar a M = Some (OArr TVECTOR es) -> heap s !! x = Some c -> (k < length es)%nat ->
  match astep (VectorRef d a k) n M with
  | AOk r n' M' => exists f' s', (v <- get_entry (c_cdr c) (Z.of_nat k) ;; put_var d v ;;; ret Fine) s = ROk r s'
      /\ rep f' M' s' /\ inv n' M' /\ length (m_stk M') = length (m_stk M) /\ grows 1 s s'
  | _ => False
  end.
Proof.
  intros R I Hd Ha Ex Hx Ho Hc Hk. unfold astep. rewrite Ho. change (TVECTOR =? TVECTOR) with true. cbv iota.
  destruct (rh_obj _ _ _ (rp_heap _ _ _ R) _ _ Hx) as (o & Ho' & Hat). rewrite Ho in Ho'. injection Ho' as <-.
  destruct Hat as (c0 & Hc0 & Ht & _ & Hl & Hes). rewrite Hc in Hc0. injection Hc0 as <-.
  destruct (lookup_lt_is_Some_2 es k Hk) as [w Hw]. rewrite Hw. destruct (Hes _ _ Hw) as (e & He & Hs).
  unfold get_entry, deref, cell_ref.
  assert (forall p y, heap s !! p = Some y -> (if c_ty e =? TREF then c_car e else c_cdr c + Z.of_nat k) = p ->
    ((v <- (e0 <- (c0 <- rd (c_cdr c + Z.of_nat k) ;; ret (if c_ty c0 =? TREF then c_car c0 else c_cdr c + Z.of_nat k)) ;;
       c0 <- rd e0 ;; e1 <- (if c_ty c0 =? TCHAR then make_char (to_s32 (c_cdr c0)) else ret e0) ;;
       c1 <- rd e1 ;; if c_ty c1 =? TNUMBER then make_number (c_cdr c1) else ret e1) ;; put_var d v ;;; ret Fine) s)
    = (if c_ty y =? TCHAR then (r <- make_cell TCHAR 0 (to_s32 (c_cdr y)) ;; put_var d r ;;; ret Fine) s
       else if c_ty y =? TNUMBER then (r <- make_cell TNUMBER 0 (c_cdr y) ;; put_var d r ;;; ret Fine) s
       else (put_var d p ;;; ret Fine) s)) as Hrun.
  { intros p y Hy Hp. rewrite !bind_assoc. erewrite bind_ok by (by apply rd_ok'). rewrite bind_ret, Hp. rewrite ?bind_assoc.
    erewrite bind_ok by (by apply rd_ok'). rewrite ?bind_assoc. destruct (c_ty y =? TCHAR) eqn:E1.
    - unfold make_char, make_value_cell. erewrite bind_ok by (by apply make_cell_s). rewrite bind_assoc. erewrite bind_ok by (apply rd_ok'; cbn; apply lookup_insert).
      cbn [c_ty]. change (TCHAR =? TNUMBER) with false. cbv iota. rewrite bind_ret. symmetry. by erewrite bind_ok by (by apply make_cell_s).
    - rewrite bind_ret, ?bind_assoc. erewrite bind_ok by (by apply rd_ok'). destruct (c_ty y =? TNUMBER); [done|]. by rewrite bind_ret. }
  assert (forall t v, t = TNUMBER \/ t = TCHAR -> exists f' s', (r <- make_cell t 0 v ;; put_var d r ;;; ret Fine) s = ROk Fine s'
    /\ rep f' (aput d (Loc n) (new_obj (Loc n) (OCell t (WInt 0) (WInt v)) M)) s'
    /\ inv (n + 1) (aput d (Loc n) (new_obj (Loc n) (OCell t (WInt 0) (WInt v)) M))
    /\ length (m_stk (aput d (Loc n) (new_obj (Loc n) (OCell t (WInt 0) (WInt v)) M))) = length (m_stk M) /\ grows 1 s s') as Hnew.
  { intros t v Htt. apply (new_cell_ok f); try done. by destruct Htt as [-> | ->]. }
  destruct w as [v|v|i]; cbn in Hs.
  - destruct Hs as [T1 T2]. rewrite (Hrun (c_cdr c + Z.of_nat k) e He) by by rewrite T1. rewrite T1, T2. apply Hnew. by left.
  - destruct Hs as [T1 T2]. rewrite (Hrun (c_cdr c + Z.of_nat k) e He) by by rewrite T1. rewrite T1, T2. apply Hnew. by right.
  - destruct Hs as [T1 T2]. destruct (rh_obj _ _ _ (rp_heap _ _ _ R) _ _ T2) as (o & Ho' & Hat). rewrite Ho'.
    assert (forall y, heap s !! c_car e = Some y -> c_ty y <> TCHAR -> c_ty y <> TNUMBER ->
      exists f' s', (if c_ty y =? TCHAR then (r <- make_cell TCHAR 0 (to_s32 (c_cdr y)) ;; put_var d r ;;; ret Fine) s
       else if c_ty y =? TNUMBER then (r <- make_cell TNUMBER 0 (c_cdr y) ;; put_var d r ;;; ret Fine) s
       else (put_var d (c_car e) ;;; ret Fine) s) = ROk Fine s' /\ rep f' (aput d i M) s' /\ inv n (aput d i M) /\ length (m_stk (aput d i M)) = length (m_stk M) /\ grows 1 s s') as Hsame.
    { intros y Hy N1 N2. rewrite (proj2 (Z.eqb_neq _ _) N1), (proj2 (Z.eqb_neq _ _) N2).
      destruct (put_var_ok _ _ _ d i (c_car e) R Hd T2) as (s' & E & R' & G'). exists f, s'. split; [by erewrite bind_ok by exact E|].
      split; [done|]. split; [by apply inv_aput|]. split; [apply avar_aput_stk|]. by eapply grows_le. }
    destruct o as [t w z|t es'|bs]; destruct Hat as (y & Hy & Hty & K); (rewrite (Hrun (c_car e) y Hy); [|by rewrite T1]).
    + destruct K as ((_ & _ & _ & _ & _ & K) & _ & W2). destruct z as [z|v].
      * apply Hsame; try done; rewrite Hty; intros ->; done.
      * destruct (Z.eqb_spec t TNUMBER) as [->|N1]; [rewrite Hty, W2; apply Hnew; by left|].
        destruct (Z.eqb_spec t TCHAR) as [->|N2]; [rewrite Hty, W2; apply Hnew; by right|]. apply Hsame; congruence.
    + apply Hsame; try done; rewrite Hty; destruct K as [[-> | ->] _]; done.
    + apply Hsame; try done; rewrite Hty; done.
Qed.

Lemma match_vref f M s n d a k : rep f M s -> inv n M -> Forall (var_ok (length (m_stk M))) [d; a] -> can_alloc 1 s -> matches (VectorRef d a k) n M s.
Proof.
  intros R I Hv Ha. apply Forall_cons in Hv as [Hd Hv]. dest_var R Hv x Ex Hx.
  destruct (rh_obj _ _ _ (rp_heap _ _ _ R) _ _ Hx) as (o & Ho & Hat). unfold matches, exec, vector_ref_.
  destruct o as [t w z|t es|bs].
  - destruct Hat as (c & Hc & Ht & (_ & _ & K & _) & _). unfold astep. rewrite Ho, (bind_ok _ _ _ _ _ Ex), bind_assoc.
    erewrite bind_ok by (by apply rd_ok'). rewrite bind_assoc. rewrite Ht, (proj2 (Z.eqb_neq _ _) K). done.
  - pose proof Hat as (c & Hc & Ht & Htt & Hl & _). destruct (Z.eqb_spec t TVECTOR) as [->|Hne].
    + destruct (decide (k < length es)%nat) as [Hk|Hk].
      * pose proof (get_entry_rep f M s n d a es x c k R I Hd Ha Ex Hx Ho Hc Hk) as HG. destruct (astep (VectorRef d a k) n M) as [r n' M'| |]; try done.
        destruct HG as (f' & s' & E & HG). exists f', s'. split; [|exact HG].
        rewrite (bind_ok _ _ _ _ _ Ex), bind_assoc. erewrite bind_ok by (by apply rd_ok').
        rewrite bind_assoc. erewrite bind_ok by (unfold assert_msg; by rewrite Ht).
        rewrite bind_assoc. erewrite bind_ok by (unfold assert_msg; by replace (Z.of_nat k <? c_car c) with true by lia). exact E.
      * unfold astep. rewrite Ho. change (TVECTOR =? TVECTOR) with true. cbv iota. rewrite (lookup_ge_None_2 es k) by lia.
        rewrite (bind_ok _ _ _ _ _ Ex), bind_assoc. erewrite bind_ok by (by apply rd_ok').
        rewrite bind_assoc. erewrite bind_ok by (unfold assert_msg; by rewrite Ht).
        rewrite bind_assoc. unfold bind at 1, assert_msg. by replace (Z.of_nat k <? c_car c) with false by lia.
    + unfold astep. rewrite Ho, (proj2 (Z.eqb_neq _ _) Hne), (bind_ok _ _ _ _ _ Ex), bind_assoc.
      erewrite bind_ok by (by apply rd_ok'). rewrite bind_assoc. rewrite Ht, (proj2 (Z.eqb_neq _ _) Hne). done.
  - destruct Hat as (c & Hc & Ht & _). unfold astep. rewrite Ho, (bind_ok _ _ _ _ _ Ex), bind_assoc.
    erewrite bind_ok by (by apply rd_ok'). rewrite bind_assoc. rewrite Ht. done.
Qed.

(** * eq? and looking *)
Lemma look_rep f M s i p : rep f M s -> f i p -> look (heap s) p = alook (m_heap M) i.
Proof.
  intros R Hi. destruct (rh_obj _ _ _ (rp_heap _ _ _ R) _ _ Hi) as (o & Ho & Hat). unfold look, alook. rewrite Ho.
  destruct o as [t a d|t es|bs]; destruct Hat as (c & Hc & Ht & K); rewrite Hc; unfold is_array; rewrite Ht.
  - destruct K as ((K0 & K1 & K2 & K3 & K4 & K5) & W1 & W2).
    rewrite (proj2 (Z.eqb_neq _ _) K2), (proj2 (Z.eqb_neq _ _) K3). cbn [orb].
    destruct d as [b|v]; cbn in W2, K5.
    + destruct (Z.eqb_spec t TNUMBER) as [->|]; [done|]. destruct (Z.eqb_spec t TCHAR) as [->|]; [done|].
      destruct ((t =? TSTRING) || (t =? TSYMBOL) || (t =? TKEYWORD)) eqn:E; [|done].
      destruct a as [a|l]; cbn in W1, K4. { exfalso. assert (t = TSTRING \/ t = TSYMBOL \/ t = TKEYWORD) as [-> |[-> | ->]] by lia; done. }
      destruct (rh_obj _ _ _ (rp_heap _ _ _ R) _ _ W2) as (o & Ho' & Hat). rewrite Ho', W1.
      destruct o as [t' a' d'|t' es'|bs]; destruct Hat as (c' & Hc' & Ht' & K'); rewrite Hc', Ht'.
      * destruct K' as ((_ & K' & _) & _). by rewrite (proj2 (Z.eqb_neq _ _) K').
      * destruct K' as [[-> | ->] _]; done.
      * destruct K' as [-> _]. done.
    + rewrite W2. destruct (t =? TNUMBER); [done|]. destruct (t =? TCHAR); [done|].
      destruct ((t =? TSTRING) || (t =? TSYMBOL) || (t =? TKEYWORD)) eqn:E; [|done].
      exfalso. assert (t = TSTRING \/ t = TSYMBOL \/ t = TKEYWORD) as [-> |[-> | ->]] by lia; done.
  - destruct K as ([-> | ->] & -> & _); done.
  - done.
Qed.

Lemma eq_rep f M s i j p q : rep f M s -> f i p -> f j q ->
  eq_p p q s = match aeq (m_heap M) i j with Some b => ROk (scm_bool b) s | None => RUB end.
Proof.
  intros R Hi Hj. pose proof (rp_heap _ _ _ R) as RH. unfold eq_p, aeq. rewrite (rh_eq _ _ _ _ _ _ _ RH Hi Hj).
  destruct (decide (i = j)) as [->|Hne]; [by rewrite bool_decide_true|]. rewrite bool_decide_false by done.
  destruct (rh_obj _ _ _ RH _ _ Hi) as (o & Ho & Hat). destruct (rh_obj _ _ _ RH _ _ Hj) as (o' & Ho' & Hat'). rewrite Ho, Ho'.
  assert (exists c', heap s !! q = Some c' /\ (forall t, (t = TKEYWORD \/ t = TCHAR \/ t = TNUMBER) ->
     (c_ty c' =? t) = match o' with OCell t' _ _ => t' =? t | _ => false end)) as (c' & Hc' & Ht').
  { destruct o' as [t' a' d'|t' es'|bs]; pose proof Hat' as (c' & Hc' & Ht' & K'); exists c'; (split; [done|]); intros t0 Ht0; rewrite Ht'; [done| |].
    - destruct K' as [K' _]. unfold TVECTOR, TSTRUCT, TKEYWORD, TCHAR, TNUMBER in *; lia.
    - unfold TBYTES, TKEYWORD, TCHAR, TNUMBER in *. lia. }
  destruct o as [t a d|t es|bs]; pose proof Hat as (c & Hc & Ht & K); erewrite bind_ok by (by apply rd_ok'); rewrite Ht; cbv zeta.
  - destruct K as ((K0 & K1 & K2 & K3 & K4 & K5) & W1 & W2).
    destruct (Z.eqb_spec t TKEYWORD) as [->|N1].
    + erewrite bind_ok by (by apply rd_ok'). rewrite Ht' by auto. destruct o' as [t' a' d'|t' es'|bs]; [|done..].
      destruct (Z.eqb_spec t' TKEYWORD) as [->|]; [|done]. destruct Hat' as (c1 & Hc1 & Ht1 & (_ & _ & _ & _ & K4' & K5') & W1' & W2'). rewrite Hc' in Hc1. injection Hc1 as <-.
      destruct a as [|l]; [done|]. destruct d as [b|]; [|done]. destruct a' as [|l']; [done|]. destruct d' as [b'|]; [|done]. cbn in W1, W2, W1', W2'.
      unfold string_equal_p, akeyword. erewrite bind_ok by (by apply rd_ok'). erewrite bind_ok by (by apply rd_ok'). rewrite Ht, Ht1.
      erewrite bind_ok by done. rewrite (rh_eq _ _ _ _ _ _ _ RH Hi Hj), bool_decide_false by done.
      rewrite (rh_eq _ _ _ _ _ _ _ RH W2 W2'). destruct (decide (b = b')) as [->|Hb]; [by rewrite bool_decide_true|]. rewrite bool_decide_false by done.
      rewrite W1, W1'. destruct ((l =? 0) && (l' =? 0)); [done|]. destruct (l =? l'); [|done].
      destruct (rh_obj _ _ _ RH _ _ W2) as (ob & Hob & Hatb). destruct (rh_obj _ _ _ RH _ _ W2') as (ob' & Hob' & Hatb'). rewrite Hob, Hob'.
      unfold cell_bytes.
      destruct ob as [tb ab db|tb eb|bs]; destruct Hatb as (cb & Hcb & Htb & Kb); rewrite bind_assoc; (erewrite bind_ok by (by apply rd_ok')); rewrite Htb.
      { destruct Kb as ((_ & Kb & _) & _). by rewrite (proj2 (Z.eqb_neq _ _) Kb). }
      { destruct Kb as [[-> | ->] _]; done. }
      rewrite Z.eqb_refl, bind_ret.
      destruct ob' as [tb' ab' db'|tb' eb'|bs']; destruct Hatb' as (cb' & Hcb' & Htb' & Kb'); rewrite bind_assoc; (erewrite bind_ok by (by apply rd_ok')); rewrite Htb'.
      { destruct Kb' as ((_ & Kb' & _) & _). by rewrite (proj2 (Z.eqb_neq _ _) Kb'). }
      { destruct Kb' as [[-> | ->] _]; done. }
      rewrite Z.eqb_refl, bind_ret. destruct Kb as [-> _], Kb' as [-> _]. unfold bytes_equal.
      destruct ((0 <=? l) && (l <=? Z.of_nat (length bs)) && (l <=? Z.of_nat (length bs'))); [by rewrite bind_ret|done].
    + destruct (Z.eqb_spec t TCHAR) as [->|N2]; [|destruct (Z.eqb_spec t TNUMBER) as [->|N3]].
      * erewrite bind_ok by (by apply rd_ok'). rewrite Ht' by auto. destruct o' as [t' a' d'|t' es'|bs]; [|done..].
        destruct Hat' as (c1 & Hc1 & Ht1 & (_ & _ & _ & _ & K4' & K5') & W1' & W2'). rewrite Hc' in Hc1. injection Hc1 as <-.
        destruct d as [|v]; [done|]. cbn in W2. cbn [orb]. change (TCHAR =? TCHAR) with true. cbn [orb].
        destruct (Z.eqb_spec t' TCHAR) as [->|]; [|by destruct d']. destruct d' as [|v']; [done|]. cbn in W2'. by rewrite W2, W2'.
      * erewrite bind_ok by (by apply rd_ok'). rewrite Ht' by auto. destruct o' as [t' a' d'|t' es'|bs]; [|done..].
        destruct Hat' as (c1 & Hc1 & Ht1 & (_ & _ & _ & _ & K4' & K5') & W1' & W2'). rewrite Hc' in Hc1. injection Hc1 as <-.
        destruct d as [|v]; [done|]. cbn in W2. change ((TNUMBER =? TCHAR) || (TNUMBER =? TNUMBER)) with true. cbv iota.
        destruct (Z.eqb_spec t' TNUMBER) as [->|]; [|by destruct d']. destruct d' as [|v']; [done|]. cbn in W2'. by rewrite W2, W2'.
      * cbn [orb]. by destruct o'.
  - destruct K as ([-> | ->] & _); done.
  - done.
Qed.

Lemma scm_bool_truth b : negb (scm_bool b =? cell_f) = b.
Proof. by destruct b. Qed.

Theorem exec_ok f M s n c : rep f M s -> inv n M -> Forall (var_ok (length (m_stk M))) (vars c) -> fits c s -> matches c n M s.
Proof.
  intros R I Hv [Ha Hm]. destruct c as [d a b|d a|d a|a b|a b|d v|d v|d bs|d k|a k b|d a k|d a|a b|a]; cbn [vars need] in *.
  - apply Forall_cons in Hv as [Hd Hv]. dest_var R Hv x Ex Hx. dest_var R Hv y Ey Hy. unfold matches, astep, anew, exec.
    destruct (new_cell_ok f M s n d TPAIR (WId (avar a M)) (WId (avar b M)) x y) as (f' & s' & E & HR); try done.
    exists f', s'. split; [|exact HR]. by rewrite (bind_ok _ _ _ _ _ Ex), (bind_ok _ _ _ _ _ Ey).
  - by eapply match_car.
  - by eapply match_cdr.
  - by eapply match_setcar.
  - by eapply match_setcdr.
  - apply Forall_cons in Hv as [Hd Hv]. unfold matches, astep, anew, exec. by apply (new_cell_ok f).
  - apply Forall_cons in Hv as [Hd Hv]. unfold matches, astep, anew, exec. by apply (new_cell_ok f).
  - apply Forall_cons in Hv as [Hd Hv]. unfold matches, astep, exec.
    destruct (rep_make_string f M s (Loc n) (Loc (n + 1)) bs) as [E R1]; try done.
    { apply I. lia. } { apply I. lia. } { intros E. injection E. lia. }
    destruct (put_var_ok _ _ _ d (Loc n) (g_free s) R1) as (s' & E' & R2 & G2); [done|by right|].
    eexists _, s'. split; [|split; [exact R2|split; [|split; [by rewrite avar_aput_stk|]]]].
    + erewrite bind_ok by exact E. by erewrite bind_ok by exact E'.
    + apply inv_aput, (inv_new (n + 2)); [|lia|lia]. apply (inv_new n); [done|lia|lia].
    + replace (need (Str d bs)) with (string_cells bs + 0) by (unfold need, string_cells; lia). eapply grows_trans, G2.
      apply (grows_modifies nothing). apply modifies_with_string.
  - apply Forall_cons in Hv as [Hd Hv]. unfold matches, astep, anew, exec.
    destruct (rep_make_vector f M s (Loc n) k) as (s1 & E & G1 & R1); try done; [by apply fresh|].
    destruct (put_var_ok _ _ _ d (Loc n) (g_free s) R1) as (s' & E' & R2 & G2); [done|by right|].
    eexists _, s'. split; [|split; [exact R2|]].
    + erewrite bind_ok by exact E. by erewrite bind_ok by exact E'.
    + split; [|split; [by rewrite avar_aput_stk|]]. { apply inv_aput, (inv_new n); [done|lia|lia]. }
      replace (need (MakeVector d k)) with (need (MakeVector d k) + 0) by lia. by eapply grows_trans.
  - by eapply match_vset.
  - by eapply match_vref.
  - apply Forall_cons in Hv as [Hd Hv]. dest_var R Hv x Ex Hx. unfold matches, astep, exec.
    destruct (put_var_ok _ _ _ d _ x R Hd Hx) as (s' & E & R' & G'). exists f, s'.
    split; [rewrite (bind_ok _ _ _ _ _ Ex); by erewrite bind_ok by exact E|]. split; [done|]. split; [by apply inv_aput|]. by split; [apply avar_aput_stk|].
  - dest_var R Hv x Ex Hx. dest_var R Hv y Ey Hy. unfold matches, astep, exec. rewrite (bind_ok _ _ _ _ _ Ex), (bind_ok _ _ _ _ _ Ey).
    pose proof (eq_rep _ _ _ _ _ _ _ R Hx Hy) as E. destruct (aeq (m_heap M) (avar a M) (avar b M)) as [r|].
    + exists f, s. split; [|do 3 (split; [done|]); grows_same]. erewrite bind_ok by exact E. by rewrite scm_bool_truth.
    + by apply bind_ub.
  - dest_var R Hv x Ex Hx. unfold matches, astep, exec. exists f, s. split; [|do 3 (split; [done|]); grows_same].
    rewrite (bind_ok _ _ _ _ _ Ex), bind_get. by rewrite (look_rep _ _ _ _ _ R Hx).
Qed.

Lemma collect_ok n : forall f M s, rep f M s -> room_to_collect n s -> exists f' s', collect n s = ROk tt s' /\ rep f' M s' /\ grows 0 s s'.
Proof.
  induction n as [|n IH]; intros f M s R Hr; cbn in *; [exists f, s; split; [done|]; split; [done|]; grows_same|]. destruct Hr as (Hg & Hroom & Hr).
  destruct (rep_gc _ _ _ R Hg Hroom) as (f1 & s1 & E & R1 & G1). destruct (IH f1 M s1 R1) as (f' & s' & E' & R' & G'); [by apply Hr|].
  exists f', s'. split; [by erewrite bind_ok by exact E|]. split; [done|]. by eapply (grows_trans 0 0).
Qed.

(** the machine answers as the ideal one, whatever the schedule *)
Theorem run_ideal p : forall sched n f M s, rep f M s -> inv n M -> within (length (m_stk M)) p -> lasts sched p s ->
  run sched p s = arun p n M.
Proof.
  induction p as [|c k IH]; intros sched n f M s R I Hw Hl; [done|]. cbn [run arun lasts within] in *. destruct Hl as [Hr Hl], Hw as [Hw Hk].
  destruct (collect_ok _ _ _ _ R Hr) as (f1 & s1 & E1 & R1 & _). rewrite E1. destruct (Hl _ E1) as [Hf Hl'].
  pose proof (exec_ok _ _ _ n c R1 I Hw Hf) as Hm. unfold matches in Hm. destruct (astep c n M) as [a n' M'| |].
  - destruct Hm as (f2 & s2 & E2 & R2 & I2 & Hlen & _). rewrite E2.
    rewrite (IH a (tl sched) n' f2 M' s2 R2 I2); [done| |by apply Hl']. rewrite Hlen. apply Hk.
  - by rewrite Hm.
  - by rewrite Hm.
Qed.

(** * Enough memory for every schedule *)
Lemma need_nonneg c : 0 <= need c.
Proof. destruct c; cbn; try lia. pose proof (bytes_cells_pos (Z.of_nat (length bs) + 1)). lia. Qed.
Lemma room_collect n : forall f M s, rep f M s -> 5 <= g_stack s -> 2 * g_free s <= limit s -> room_to_collect n s.
Proof.
  induction n as [|n IH]; intros f M s R Hg Hf; cbn; [done|]. assert (has_room s) as Hr by (apply room_half; [by eapply rep_machine_ok|done]).
  split; [done|]. split; [done|]. intros s' E. destruct (rep_gc _ _ _ R Hg Hr) as (f1 & s1 & E1 & R1 & (G1 & G2 & _ & _ & _ & G6)).
  rewrite E in E1. injection E1 as <-. eapply (IH f1); [done|lia|lia].
Qed.
Lemma lasts_static p : forall sched N n f M s, rep f M s -> inv n M -> within (length (m_stk M)) p -> costs N (MAX_STRING s) p ->
  5 <= g_stack s -> 2 * (g_free s + N) <= limit s -> g_free s + N - g_cells s <= ARENA_SIZE s -> lasts sched p s.
Proof.
  induction p as [|c k IH]; intros sched N n f M s R I Hw Hc Hg Hl Ha; cbn [lasts within costs] in *; [done|].
  destruct Hw as [Hw Hk], Hc as (Hn & Hm & Hc). pose proof (need_nonneg c) as Hn0.
  assert (room_to_collect (hd 0%nat sched) s) as Hr by (eapply room_collect; [done|done|lia]). split; [done|].
  intros s1 E1. destruct (collect_ok _ _ _ _ R Hr) as (f1 & s1' & E1' & R1 & (G1 & G2 & G3 & G4 & G5 & G6)). rewrite E1 in E1'. injection E1' as <-.
  pose proof (rp_free _ _ _ R1) as Hf1. unfold cell_nil in Hf1. pose proof (rp_free _ _ _ R) as Hf0. unfold cell_nil in Hf0.
  assert (fits c s1) as Hfit.
  { split; [unfold can_alloc; lia|]. rewrite G5. done. }
  split; [done|]. intros a s2 E2. pose proof (exec_ok _ _ _ n c R1 I Hw Hfit) as Hx. unfold matches in Hx.
  destruct (astep c n M) as [a' n' M'| |]; [|congruence..]. destruct Hx as (f2 & s2' & E2' & R2 & I2 & Hlen & (K1 & K2 & K3 & K4 & K5 & K6)).
  rewrite E2 in E2'. injection E2' as <- <-. eapply (IH a (tl sched) (N - need c) n' f2 M' s2); try done.
  - rewrite Hlen. apply Hk. - rewrite K5, G5. apply Hc. - lia. - lia. - lia.
Qed.

(** * Defined behaviour *)
Definition kw (σ : gmap id obj) : Prop :=
  forall i l b, σ !! i = Some (OCell TKEYWORD (WInt l) (WId b)) -> exists bs, σ !! b = Some (OBytes bs) /\ 0 <= l <= Z.of_nat (length bs).
Lemma kw_new σ i o : kw σ -> (forall bs, σ !! i <> Some (OBytes bs)) -> (forall a d, o <> OCell TKEYWORD a d) -> kw (<[i := o]> σ).
Proof.
  intros K H1 H2 j l b. destruct (decide (j = i)) as [->|Hj].
  - rewrite lookup_insert. intros E. injection E as ->. by destruct (H2 (WInt l) (WId b)).
  - rewrite lookup_insert_ne by done. intros E. destruct (K _ _ _ E) as (bs & Hb & Hl). exists bs. split; [|done].
    rewrite lookup_insert_ne; [done|]. intros ->. by eapply H1.
Qed.
Lemma aeq_defined σ i j : kw σ -> aeq σ i j <> None.
Proof.
  intros K. unfold aeq. destruct (decide (i = j)); [done|]. destruct (σ !! i) as [[t a d|t es|bs]|] eqn:Ei; try done.
  destruct (σ !! j) as [[t' a' d'|t' es'|bs']|] eqn:Ej; try done. destruct (Z.eqb_spec t TKEYWORD) as [->|].
  - destruct (Z.eqb_spec t' TKEYWORD) as [->|]; [|done]. unfold akeyword. destruct a as [|l]; [done|]. destruct d as [b|]; [|done].
    destruct a' as [|l']; [done|]. destruct d' as [b'|]; [|done]. destruct (decide (b = b')); [done|]. destruct ((l =? 0) && (l' =? 0)); [done|].
    destruct (Z.eqb_spec l l') as [->|]; [|done]. destruct (K _ _ _ Ei) as (x & -> & Hx), (K _ _ _ Ej) as (y & -> & Hy).
    by replace ((0 <=? l') && (l' <=? Z.of_nat (length x)) && (l' <=? Z.of_nat (length y))) with true by lia.
  - destruct ((t =? TCHAR) || (t =? TNUMBER)); [|done]. by destruct d, d'.
Qed.
Lemma kw_step c n M a n' M' : inv n M -> kw (m_heap M) -> astep c n M = AOk a n' M' -> kw (m_heap M').
Proof.
  intros I K. pose proof (fresh _ _ I) as Hf.
  assert (forall d o, (forall x y, o <> OCell TKEYWORD x y) -> kw (m_heap (aput d (Loc n) (new_obj (Loc n) o M)))) as Hnew.
  { intros d o Ho. rewrite heap_aput. cbn. apply kw_new; [done| |done]. by rewrite Hf. }
  destruct c as [d x y|d x|d x|x y|x y|d v|d v|d bs|d k|x k y|d x k|d x|x y|x]; cbn [astep]; unfold anew;
    repeat case_match; intros E; try discriminate; injection E as <- <- <-; try done; try (by apply Hnew); rewrite ?heap_aput; try done; cbn.
  1,2: apply kw_new; [done| |]; [by intros bs; congruence|]; intros ? ? [=]; subst; discriminate.
  - apply kw_new; [|rewrite lookup_insert_ne by (intros [=]; lia); by rewrite Hf|done]. apply kw_new; [done| |done].
    rewrite (inv_next _ _ I) by lia. done.
  - apply kw_new; [done| |done]. intros bs. congruence.
Qed.
Theorem arun_defined p : forall n M sched f s, rep f M s -> inv n M -> kw (m_heap M) -> within (length (m_stk M)) p -> lasts sched p s ->
  (arun p n M).2 <> Undefined.
Proof.
  induction p as [|c k IH]; intros n M sched f s R I K Hw Hl; [done|]. cbn [arun lasts within] in *. destruct Hl as [Hr Hl], Hw as [Hw Hk].
  destruct (collect_ok _ _ _ _ R Hr) as (f1 & s1 & E1 & R1 & _). destruct (Hl _ E1) as [Hf Hl'].
  pose proof (exec_ok _ _ _ n c R1 I Hw Hf) as Hm. unfold matches in Hm. destruct (astep c n M) as [a n' M'| |] eqn:Ea; [|done|].
  - destruct Hm as (f2 & s2 & E2 & R2 & I2 & Hlen & _). apply (IH a n' M' (tl sched) f2 s2); [done|done|exact (kw_step _ _ _ _ _ _ I K Ea)| |by apply Hl']. rewrite Hlen. apply Hk.
  - exfalso. clear -K Ea. destruct c; cbn [astep] in Ea; unfold anew in Ea; repeat case_match; try discriminate. by eapply aeq_defined.
Qed.

(** every state in which the interpreter may collect is represented *)
Lemma list_bound (l : list Z) : exists n, forall x, x ∈ l -> x < n.
Proof.
  induction l as [|y l (n & IH)]; [exists 0; intros x Hx; by apply elem_of_nil in Hx|]. exists (Z.max n (y + 1)). intros x Hx.
  apply elem_of_cons in Hx as [->|Hx]; [lia|]. specialize (IH x Hx). lia.
Qed.
Lemma represented s : machine_ok s -> g_cells s + ARENA_SIZE s < limit s -> g_free s <= limit s -> cell_symbol_test < g_symbol_max s ->
  exists f M n, rep f M s /\ inv n M /\ Z.of_nat (length (m_stk M)) = STACK_SIZE s - g_stack s
    /\ (keywords_sane s -> kw (m_heap M)).
Proof.
  intros Hm Hl Ht Hs. set (L0 := dom (heap s) ∖ list_to_set (constants s) : gset Z). set (L := Naming L0 ∅).
  assert (rep (view_map L s) (view L s) s) as R.
  { apply view_ok; try done. intros k Hk. unfold inL. apply orb_false_iff. split; apply bool_decide_eq_false; [|cbn; set_solver]. cbn. unfold L0. intros [_ Hin]%elem_of_difference. apply Hin, elem_of_list_to_set, elem_of_seqZ. lia. }
  destruct (list_bound (elements L0)) as (n & Hn). exists (view_map L s), (view L s), n. split; [done|]. split.
  - split.
    + intros l Hl'. apply abs_lookup_loc. intros Hin. assert (l < n); [|lia]. by apply Hn, elem_of_elements.
    + intros i o Hk Hni. cbn in Hk. unfold abs_heap in Hk. apply lookup_kmap_Some in Hk as (k & Hp & Hk); [|apply _].
      unfold name in Hp. cbn in Hp. destruct (decide (k ∈ L0)) as [|Hp']; [by destruct (Hni k)|]. clear Hni. rewrite decide_False in Hp by set_solver. subst i. rewrite lookup_fmap_Some in Hk. destruct Hk as (c & <- & Hc).
      assert (k ∈ constants s) as Hk.
      { destruct (decide (k ∈ constants s)) as [|Hnk]; [done|]. exfalso. apply Hp'. unfold L0. apply elem_of_difference. split; [apply elem_of_dom; eauto|].
        by rewrite elem_of_list_to_set. }
      apply elem_of_seqZ in Hk. destruct (proj2 (proj1 (mo_constants _ Hm)) k) as (c' & Hc' & Hty); [lia|]. rewrite Hc in Hc'. injection Hc' as <-.
      unfold abs_obj. replace (is_array c) with false by (unfold is_array, TVECTOR, TSTRUCT, TSPECIAL, TSYMBOL in *; lia).
      replace (GcSpec.is_bytes c) with false by (unfold GcSpec.is_bytes, TBYTES, TSPECIAL, TSYMBOL in *; lia). by eexists _, _, _.
  - split; [destruct (rp_size _ _ _ R); lia|]. intros Hk i l b Hi. cbn in Hi. unfold abs_heap in Hi.
    apply lookup_kmap_Some in Hi as (p & -> & Hi); [|apply _]. rewrite lookup_fmap_Some in Hi. destruct Hi as (c & Ho & Hc).
    unfold abs_obj in Ho. destruct (is_array c); [done|]. destruct (GcSpec.is_bytes c); [done|]. injection Ho as Hty Hca Hcd.
    destruct (Hk p c Hc Hty) as (b' & Hb & Hbt & Hbl). rewrite Hty in Hca, Hcd. cbn in Hca, Hcd. injection Hca as <-. injection Hcd as <-.
    exists (c_bytes b'). split; [|done]. cbn. rewrite abs_lookup, Hb. cbn. unfold abs_obj, is_array, GcSpec.is_bytes. rewrite Hbt. done.
Qed.

