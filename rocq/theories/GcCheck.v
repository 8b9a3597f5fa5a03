(** A decision procedure for [machine_ok] on concrete states, used only to show that the
    hypotheses of the theorems are met by real states. *)
From stdpp Require Import base gmap list relations.
From Coq Require Import ZArith Lia.
From Coq Require Import ZifyBool ZifyNat.
From Verif Require Import CInt Symbols Heap HeapLemmas GcSpec.
Open Scope Z_scope.

Definition elem_refs (h : gmap Z cell) (a : Z) : list Z :=
  match h !! a with Some e => cell_refs e | None => [] end.
Definition obj_refs (h : gmap Z cell) (c : cell) : list Z :=
  cell_refs c ++ (if is_array c then mjoin (elem_refs h <$> seqZ (c_cdr c) (c_car c)) else []).
Definition addresses (h : gmap Z cell) (p : Z) : list Z :=
  match h !! p with
  | Some c => if is_array c then p :: seqZ (c_cdr c) (c_car c)
              else if is_bytes c then seqZ p (bytes_cells (c_car c)) else [p]
  | None => []
  end.
Definition element_b (h : gmap Z cell) (a : Z) : bool :=
  match h !! a with
  | Some e => (c_ty e =? TREF) || (c_ty e =? TCHAR) || (c_ty e =? TNUMBER)
  | None => false
  end.

Fixpoint nodup_fast (l : list Z) (S : gmap Z unit) : bool :=
  match l with
  | [] => true
  | x :: l' => match S !! x with Some _ => false | None => nodup_fast l' (<[x := tt]> S) end
  end.
Definition set_of (l : list Z) : gmap Z unit := foldr (fun x S => <[x := tt]> S) ∅ l.
Definition inb (S : gmap Z unit) (x : Z) : bool := match S !! x with Some _ => true | None => false end.

Definition check_obj (lo hi : Z) (h : gmap Z cell) (S : gmap Z unit) (p : Z) : bool :=
  match h !! p with
  | Some c =>
      (lo <=? p) && (p <? hi) && (0 <=? c_ty c) && (c_ty c <? TBROKEN_HEART)
      && (if is_array c then
            (0 <=? c_car c) && (lo <=? c_cdr c) && (c_cdr c + c_car c <=? hi)
            && negb ((c_cdr c <=? p) && (p <? c_cdr c + c_car c))
            && forallb (element_b h) (seqZ (c_cdr c) (c_car c))
          else true)
      && (if is_bytes c then
            (Z.of_nat (length (c_bytes c)) =? c_car c) && (p + bytes_cells (c_car c) <=? hi)
          else true)
      && forallb (inb S) (obj_refs h c)
  | None => false
  end.

Definition heap_check (lo hi : Z) (h : gmap Z cell) (roots ps : list Z) : bool :=
  let S := set_of ps in
  forallb (inb S) roots && forallb (check_obj lo hi h S) ps
  && nodup_fast (mjoin (addresses h <$> ps)) ∅.

Lemma nodup_fast_ok l S : nodup_fast l S = true -> NoDup l /\ forall x, x ∈ l -> S !! x = None.
Proof.
  revert S; induction l as [|x l IH]; intros S H; cbn in H.
  { split; [constructor|]. intros x Hx; inversion Hx. }
  destruct (S !! x) eqn:E; [done|]. apply IH in H as [Hn Hd]. split.
  - constructor; [|done]. intros Hx. apply Hd in Hx. by rewrite lookup_insert in Hx.
  - intros y Hy. inversion Hy; subst; [done|]. pose proof (Hd y ltac:(done)) as Hl.
    by apply lookup_insert_None in Hl as [? _].
Qed.
Lemma set_of_ok l x : inb (set_of l) x = true -> x ∈ l.
Proof.
  unfold inb. induction l as [|y l IH]; cbn; [by rewrite lookup_empty|].
  intros H. destruct (decide (x = y)) as [->|Hne]; [constructor|]. constructor. apply IH.
  by rewrite lookup_insert_ne in H.
Qed.

Section check.
Context (lo hi : Z) (h : gmap Z cell) (roots ps : list Z).
Hypothesis Hc : heap_check lo hi h roots ps = true.

Lemma check_roots r : r ∈ roots -> r ∈ ps.
Proof.
  intros Hr. unfold heap_check in Hc. apply andb_prop in Hc as [[H1 _]%andb_prop _].
  rewrite forallb_forall in H1. apply set_of_ok, H1. by apply elem_of_list_In.
Qed.
Lemma check_obj_in p : p ∈ ps -> check_obj lo hi h (set_of ps) p = true.
Proof.
  intros Hr. unfold heap_check in Hc. apply andb_prop in Hc as [[_ H1]%andb_prop _].
  rewrite forallb_forall in H1. apply H1. by apply elem_of_list_In.
Qed.
Lemma check_points p q : p ∈ ps -> points_to h p q -> q ∈ ps.
Proof.
  intros Hp Hq. pose proof (check_obj_in p Hp) as H. unfold check_obj in H.
  assert (exists c, h !! p = Some c /\ q ∈ obj_refs h c) as (c & Hl & Hin).
  { unfold obj_refs.
    inversion Hq as [? c ? Hl Hin|? c i e ? Hl Ha Hi He Hin]; subst; exists c; split; [done| |done|].
    - apply elem_of_app; by left.
    - apply elem_of_app; right. rewrite Ha. apply elem_of_list_join.
      exists (elem_refs h (c_cdr c + i)). split; [unfold elem_refs; by rewrite He|].
      apply elem_of_list_fmap. eexists; split; [done|]. apply elem_of_seqZ. lia. }
  rewrite Hl in H. apply andb_prop in H as [_ H]. rewrite forallb_forall in H.
  apply set_of_ok, H. by apply elem_of_list_In.
Qed.
Lemma check_reach p : reach h roots p -> p ∈ ps.
Proof.
  intros (r & Hr & Hrt). pose proof (check_roots r Hr) as Hin. clear Hr.
  induction Hrt as [|x y z Hxy _ IH]; [done|]. apply IH. by eapply check_points.
Qed.

Lemma join_disjoint (g : Z -> list Z) l p q a :
  NoDup (mjoin (g <$> l)) -> p ∈ l -> q ∈ l -> p <> q -> a ∈ g p -> a ∈ g q -> False.
Proof.
  induction l as [|x l IH]; cbn; intros Hn Hp Hq Hne Ha Hb; [inversion Hp|].
  apply NoDup_app in Hn as (_ & Hd & Hn).
  assert (forall y, y ∈ l -> a ∈ g y -> a ∈ mjoin (g <$> l)) as Hj.
  { intros y Hy Hay. apply elem_of_list_join. exists (g y). split; [done|]. apply elem_of_list_fmap; eauto. }
  apply elem_of_cons in Hp as [->|Hp]; apply elem_of_cons in Hq as [->|Hq]; try done.
  - by eapply Hd, Hj.
  - by eapply Hd, Hj.
  - by apply IH.
Qed.

Lemma heap_check_ok : heap_ok lo hi h roots.
Proof.
  split.
  - intros p Hp%check_reach%check_obj_in. unfold check_obj in Hp. destruct (h !! p) as [c|] eqn:E; [|done].
    exists c; split; [done|].
    repeat match goal with H : _ && _ = true |- _ => apply andb_prop in H as [? ?] end.
    split.
    + lia.
    + lia.
    + intros Ha. rewrite Ha in *.
      repeat match goal with H : _ && _ = true |- _ => apply andb_prop in H as [? ?] end.
      repeat split; try lia. intros i Hi.
      match goal with H : forallb (element_b h) _ = true |- _ => rename H into He end.
      rewrite forallb_forall in He. specialize (He (c_cdr c + i)).
      unfold element_b in He. destruct (h !! (c_cdr c + i)) as [e|] eqn:Ee.
      * exists e; split; [done|]. unfold is_element.
        assert ((c_ty e =? TREF) || (c_ty e =? TCHAR) || (c_ty e =? TNUMBER) = true) by
          (apply He; apply elem_of_list_In, elem_of_seqZ; lia). lia.
      * discriminate He. apply elem_of_list_In, elem_of_seqZ; lia.
    + intros Hb. rewrite Hb in *.
      repeat match goal with H : _ && _ = true |- _ => apply andb_prop in H as [? ?] end. lia.
  - intros p q c d a Hp Hq Hne Hlp Hlq Ha Hb.
    pose proof Hc as Hn. unfold heap_check in Hn. apply andb_prop in Hn as [_ Hn].
    apply nodup_fast_ok in Hn as [Hn _].
    assert (forall p c, reach h roots p -> h !! p = Some c -> occupies p c a -> a ∈ addresses h p) as Hocc.
    { clear - Hc. intros p c Hp Hl Ho. unfold addresses. rewrite Hl.
      apply check_reach, check_obj_in in Hp. unfold check_obj in Hp. rewrite Hl in Hp.
      repeat match goal with H : _ && _ = true |- _ => apply andb_prop in H as [? ?] end.
      destruct Ho as [->|[[Har Ho]|[Hby Ho]]].
      - destruct (is_array c); [constructor|]. destruct (is_bytes c) eqn:Eb; [|constructor].
        apply elem_of_seqZ.
        repeat match goal with H : _ && _ = true |- _ => apply andb_prop in H as [? ?] end.
        assert (Z.of_nat (length (c_bytes c)) = c_car c) by lia.
        pose proof (bytes_cells_pos (c_car c)). lia.
      - rewrite Har. constructor. apply elem_of_seqZ; lia.
      - assert (is_array c = false) as -> by (unfold is_array, is_bytes, TBYTES, TVECTOR, TSTRUCT in *; lia).
        rewrite Hby. apply elem_of_seqZ; lia. }
    apply (join_disjoint (addresses h) ps p q a Hn); eauto using check_reach.
Qed.
End check.

Definition symbol_b (h : gmap Z cell) (a : Z) : bool :=
  match h !! a with Some e => (c_ty e =? TSPECIAL) || (c_ty e =? TSYMBOL) | None => false end.
Definition machine_check (s : state) (ps : list Z) : bool :=
  (g_cells s =? cell_nil - 1) && (cell_nil <=? g_free s)
  && (match heap s !! (g_cells s - 1) with Some _ => true | None => false end)
  && (0 <=? g_stack s) && (g_stack s <=? STACK_SIZE s)
  && forallb (fun i => match g_stack_array s !! i with Some _ => true | None => false end)
       (seqZ (g_stack s) (STACK_SIZE s - g_stack s))
  && (cell_f <? g_symbol_max s) && forallb (symbol_b (heap s)) (constants s)
  && heap_check cell_nil (g_free s) (heap s) (all_roots s) ps.

Lemma machine_check_ok s ps : machine_check s ps = true -> machine_ok s.
Proof.
  unfold machine_check. intros H.
  repeat match goal with H : _ && _ = true |- _ => apply andb_prop in H as [? ?] end.
  split.
  - lia.
  - lia.
  - destruct (heap s !! (g_cells s - 1)) as [c|]; [by exists c|done].
  - split; [lia|]. intros i Hi.
    match goal with H : forallb (fun _ => _) _ = true |- _ => rename H into He end.
    rewrite forallb_forall in He. specialize (He i). destruct (g_stack_array s !! i) as [v|]; [by exists v|].
    discriminate He. apply elem_of_list_In, elem_of_seqZ; lia.
  - split; [|lia]. split; [unfold cell_f, cell_nil in *; lia|]. intros p Hp.
    match goal with H : forallb (symbol_b _) _ = true |- _ => rename H into He end.
    rewrite forallb_forall in He. specialize (He p). unfold symbol_b in He.
    destruct (heap s !! p) as [e|].
    + exists e; split; [done|].
      assert ((c_ty e =? TSPECIAL) || (c_ty e =? TSYMBOL) = true); [|lia].
      apply He. unfold constants. apply elem_of_list_In, elem_of_seqZ; lia.
    + discriminate He. unfold constants. apply elem_of_list_In, elem_of_seqZ; lia.
  - by eapply heap_check_ok.
Qed.

(** the reachable objects, by depth first search (needs no correctness proof: it is checked) *)
Fixpoint collect (fuel : nat) (h : gmap Z cell) (todo : list Z) (seen : gmap Z unit) (acc : list Z) : list Z :=
  match fuel with
  | O => acc
  | S fuel' =>
      match todo with
      | [] => acc
      | p :: todo' =>
          match seen !! p with
          | Some _ => collect fuel' h todo' seen acc
          | None => collect fuel' h
               (match h !! p with Some c => obj_refs h c | None => [] end ++ todo') (<[p := tt]> seen) (p :: acc)
          end
      end
  end.
Definition live_objects (s : state) : list Z :=
  collect (Z.to_nat 1000000) (heap s) (all_roots s) ∅ [].
