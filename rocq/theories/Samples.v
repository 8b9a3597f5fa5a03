(** A small booted interpreter, used by the examples that show that the hypotheses of the
    theorems are met by states that really occur.  No theorem depends on it. *)
From stdpp Require Import base gmap list.
From Coq Require Import ZArith Lia.
From Coq Require Import ZifyBool ZifyNat.
From Verif Require Import CInt Symbols Heap DataModel BootModel DataSpec.
Import Strings.String.StringSyntax.
Open Scope Z_scope.
Open Scope mes_scope.

(** the boot sequence with few buckets and no table of builtin procedures, to keep it small *)
Definition on_sample {A} (m : M A) : res A :=
  (boot 200 7 [] (bytes_of "/usr/share/mes") [bytes_of "mes"] ;;; m)
    (init_state 20000 1000 1000 500 1000).

Lemma check_res {A} (r : res A) (P : A -> state -> bool) :
  match r with ROk a s => P a s | _ => false end = true -> exists a s, r = ROk a s /\ P a s = true.
Proof. destruct r as [a s| | | |]; try discriminate. by exists a, s. Qed.

(** (list n1 n2 ...) *)
Fixpoint list_m (ms : list (M Z)) : M Z :=
  match ms with
  | [] => ret cell_nil
  | m :: ms' => a <- m ;; d <- list_m ms' ;; cons a d
  end.
Definition number_list (ns : list Z) : M Z := list_m (map make_number ns).

Definition can_alloc_b (n : Z) (s : state) : bool :=
  (1 <=? g_free s) && (g_free s + n <=? limit s) && (g_free s + n - g_cells s <=? ARENA_SIZE s).
Lemma can_alloc_check n s : can_alloc_b n s = true -> can_alloc n s.
Proof. unfold can_alloc_b, can_alloc. lia. Qed.

Fixpoint list_b (fuel : nat) (h : gmap Z cell) (p : Z) : option (list Z) :=
  if p =? cell_nil then Some [] else
  match fuel with
  | O => None
  | S fuel' =>
      match h !! p with
      | Some c => if c_ty c =? TPAIR then
          match list_b fuel' h (c_cdr c) with Some vs => Some (c_car c :: vs) | None => None end else None
      | None => None
      end
  end.
Lemma list_check fuel h : forall p vs, list_b fuel h p = Some vs -> list_at h p vs.
Proof.
  induction fuel as [|fuel IH]; intros p vs; cbn [list_b]; destruct (Z.eqb_spec p cell_nil) as [->|Hp];
    intros H; try discriminate; try (injection H as <-; constructor).
  destruct (h !! p) as [c|] eqn:E; [|discriminate].
  destruct (Z.eqb_spec (c_ty c) TPAIR); [|discriminate].
  destruct (list_b fuel h (c_cdr c)) as [vs'|] eqn:E'; [|discriminate]. injection H as <-.
  econstructor; [done| |by apply IH]. by exists c.
Qed.
Fixpoint numbers_b (h : gmap Z cell) (vs ns : list Z) : bool :=
  match vs, ns with
  | [], [] => true
  | v :: vs, n :: ns =>
      match h !! v with
      | Some c => (c_ty c =? TNUMBER) && (c_cdr c =? n) && numbers_b h vs ns
      | None => false
      end
  | _, _ => false
  end.
Definition numbers_at_b (h : gmap Z cell) (p : Z) (ns : list Z) : bool :=
  match list_b (S (length ns)) h p with Some vs => numbers_b h vs ns | None => false end.
Lemma numbers_check h p ns : numbers_at_b h p ns = true -> numbers_at h p ns.
Proof.
  unfold numbers_at_b. destruct (list_b _ h p) as [vs|] eqn:E; [|discriminate]. intros H.
  exists vs. split; [by eapply list_check|]. clear E. revert ns H.
  induction vs as [|v vs IH]; intros [|n ns] H; cbn in H; try discriminate; [constructor|].
  destruct (h !! v) as [c|] eqn:Ec; [|discriminate]. apply andb_prop in H as [H1 H2]. constructor.
  - exists c. split; [done|]. lia.
  - by apply IH.
Qed.
Definition number_at_b (h : gmap Z cell) (p n : Z) : bool :=
  match h !! p with Some c => (c_ty c =? TNUMBER) && (c_cdr c =? n) | None => false end.
Lemma number_check h p n : number_at_b h p n = true -> number_at h p n.
Proof.
  unfold number_at_b. destruct (h !! p) as [c|] eqn:E; [|discriminate]. intros H. exists c.
  split; [done|]. lia.
Qed.
Definition char_at_b (h : gmap Z cell) (p n : Z) : bool :=
  match h !! p with Some c => (c_ty c =? TCHAR) && (c_cdr c =? n) | None => false end.
Lemma char_check h p n : char_at_b h p n = true -> char_at h p n.
Proof.
  unfold char_at_b. destruct (h !! p) as [c|] eqn:E; [|discriminate]. intros H. exists c.
  split; [done|]. lia.
Qed.

Definition in_arena_b (s : state) : bool :=
  forallb (fun kv : Z * cell => (1 <=? kv.1) && (kv.1 <? limit s)) (map_to_list (heap s)).
Lemma in_arena_check s : in_arena_b s = true -> in_arena s.
Proof.
  unfold in_arena_b. intros H p c Hc. apply elem_of_map_to_list in Hc. rewrite forallb_forall in H.
  apply elem_of_list_In in Hc. apply H in Hc. cbn in Hc. lia.
Qed.
Fixpoint seg_b (fuel : nat) (h : gmap Z cell) (p : Z) : option (list Z * list Z) :=
  if p =? cell_nil then Some ([], []) else
  match fuel with
  | O => None
  | S fuel' =>
      match h !! p with
      | Some c => if c_ty c =? TPAIR then
          match seg_b fuel' h (c_cdr c) with Some (ps, vs) => Some (p :: ps, c_car c :: vs) | None => None end else None
      | None => None
      end
  end.
Lemma seg_check fuel h : forall p ps vs, seg_b fuel h p = Some (ps, vs) -> seg h p cell_nil ps vs.
Proof.
  induction fuel as [|fuel IH]; intros p ps vs; cbn [seg_b]; destruct (Z.eqb_spec p cell_nil) as [->|Hp];
    intros H; try discriminate; try (injection H as <- <-; constructor).
  destruct (h !! p) as [c|] eqn:E; [|discriminate].
  destruct (Z.eqb_spec (c_ty c) TPAIR); [|discriminate].
  destruct (seg_b fuel h (c_cdr c)) as [[ps' vs']|] eqn:E'; [|discriminate]. injection H as <- <-.
  econstructor; [done| |by apply IH]. by exists c.
Qed.

Definition text_b (h : gmap Z cell) (t p : Z) : option (list Z) :=
  match h !! p with
  | Some c =>
      match h !! c_cdr c with
      | Some b =>
          let n := Z.to_nat (c_car c) in
          if (c_ty c =? t) && (c_ty b =? TBYTES) && (0 <=? c_car c)
             && bool_decide (c_bytes b = take n (c_bytes b) ++ [0]) && (length (take n (c_bytes b)) =? n)%nat
          then Some (take n (c_bytes b)) else None
      | None => None
      end
  | None => None
  end.
Lemma text_check h t p bs : text_b h t p = Some bs -> text_at h t p bs.
Proof.
  unfold text_b. destruct (h !! p) as [c|] eqn:E; [|discriminate].
  destruct (h !! c_cdr c) as [b|] eqn:E'; [|discriminate]. cbv zeta.
  destruct (_ && _) eqn:B; [|discriminate]. intros [= <-].
  apply andb_prop in B as [B B1]. apply andb_prop in B as [B B2]. apply bool_decide_eq_true in B2.
  apply andb_prop in B as [B B3]. apply andb_prop in B as [B4 B5].
  exists c, b. split; [done|]. split; [lia|]. split; [lia|]. split; [done|]. split; [lia|]. done.
Qed.

(** reading a datum back from the heap *)
Fixpoint entries_b (h : gmap Z cell) (q : Z) (n : nat) : option (list Z) :=
  match n with
  | O => Some []
  | S n' =>
      match h !! q, entries_b h (q + 1) n' with
      | Some c, Some es => Some ((if c_ty c =? TREF then c_car c else q) :: es)
      | _, _ => None
      end
  end.
Lemma entries_check h n : forall q es, entries_b h q n = Some es ->
  length es = n /\ forall i e, es !! i = Some e -> entry_at h (q + Z.of_nat i) e.
Proof.
  induction n as [|n IH]; intros q es; cbn [entries_b].
  { intros [= <-]. split; [done|]. intros i e Hi. by rewrite lookup_nil in Hi. }
  destruct (h !! q) as [c|] eqn:E; [|discriminate]. destruct (entries_b h (q + 1) n) as [es'|] eqn:E'; [|discriminate].
  intros [= <-]. apply IH in E' as [<- He]. split; [done|]. intros [|i] e Hi; cbn in Hi.
  - injection Hi as <-. rewrite Z.add_0_r. by exists c.
  - replace (q + Z.of_nat (S i)) with (q + 1 + Z.of_nat i) by lia. by apply He.
Qed.
Fixpoint datum_b (fuel : nat) (h : gmap Z cell) (p : Z) : option datum :=
  match fuel with
  | O => None
  | S fuel' =>
      match h !! p with
      | None => None
      | Some c =>
          if c_ty c =? TNUMBER then Some (DNum (c_cdr c))
          else if c_ty c =? TCHAR then Some (DChar (c_cdr c))
          else if c_ty c =? TSTRING then option_map DStr (text_b h TSTRING p)
          else if c_ty c =? TKEYWORD then option_map DKey (text_b h TKEYWORD p)
          else if c_ty c =? TPAIR then
            match datum_b fuel' h (c_car c), datum_b fuel' h (c_cdr c) with
            | Some a, Some d => Some (DPair a d) | _, _ => None end
          else if c_ty c =? TVECTOR then
            if c_car c <? 0 then None else
            match entries_b h (c_cdr c) (Z.to_nat (c_car c)) with
            | Some es => option_map DVec (mapM (datum_b fuel' h) es)
            | None => None end
          else Some (DAtom p)
      end
  end.
Lemma datum_check fuel h : forall p d, datum_b fuel h p = Some d -> repr h p d.
Proof.
  induction fuel as [|fuel IH]; intros p d; cbn [datum_b]; [discriminate|].
  destruct (h !! p) as [c|] eqn:E; [|discriminate].
  destruct (Z.eqb_spec (c_ty c) TNUMBER); [intros [= <-]; constructor; by exists c|].
  destruct (Z.eqb_spec (c_ty c) TCHAR); [intros [= <-]; constructor; by exists c|].
  destruct (Z.eqb_spec (c_ty c) TSTRING).
  { destruct (text_b h TSTRING p) as [bs|] eqn:T; intros [= <-]. constructor. by apply text_check. }
  destruct (Z.eqb_spec (c_ty c) TKEYWORD).
  { destruct (text_b h TKEYWORD p) as [bs|] eqn:T; intros [= <-]. constructor. by apply text_check. }
  destruct (Z.eqb_spec (c_ty c) TPAIR).
  { destruct (datum_b fuel h (c_car c)) as [a|] eqn:E1; [|discriminate].
    destruct (datum_b fuel h (c_cdr c)) as [b|] eqn:E2; intros [= <-].
    econstructor; [by exists c|by apply IH|by apply IH]. }
  destruct (Z.eqb_spec (c_ty c) TVECTOR).
  { destruct (Z.ltb_spec (c_car c) 0); [discriminate|].
    destruct (entries_b _ _ _) as [es|] eqn:E1; [|discriminate]. apply entries_check in E1 as [Hl He].
    destruct (mapM (datum_b fuel h) es) as [ds|] eqn:E2; intros [= <-].
    apply (repr_vec _ _ c es); [done|done|lia|done|]. apply mapM_Some in E2. eapply Forall2_impl; [exact E2|]. cbn. by apply IH. }
  intros [= <-]. econstructor; [done|]. set_solver.
Qed.
Definition on_sample2 (ms : list (M Z)) : res (list Z) :=
  on_sample ((fix go ms := match ms with [] => ret [] | m :: ms' => x <- m ;; xs <- go ms' ;; ret (x :: xs) end) ms).

Definition slot_b (h : gmap Z cell) (q : Z) : option slot :=
  match h !! q with
  | Some c =>
      if c_ty c =? TNUMBER then Some (SNum (c_cdr c))
      else if c_ty c =? TCHAR then if in_int (c_cdr c) then Some (SChar (c_cdr c)) else None
      else if c_ty c =? TREF then
        match h !! c_car c with
        | Some c' => if bool_decide (c_ty c' ∈ [TNUMBER; TCHAR; TREF]) then None else Some (SRef (c_car c))
        | None => None end
      else None
  | None => None
  end.
Lemma slot_check h q sl : slot_b h q = Some sl -> slot_at h q sl.
Proof.
  unfold slot_b. destruct (h !! q) as [c|] eqn:E; [|discriminate].
  destruct (Z.eqb_spec (c_ty c) TNUMBER); [intros [= <-]; by exists c|].
  destruct (Z.eqb_spec (c_ty c) TCHAR).
  { destruct (in_int (c_cdr c)) eqn:I; intros [= <-]. split; [by exists c|done]. }
  destruct (Z.eqb_spec (c_ty c) TREF); [|discriminate].
  destruct (h !! c_car c) as [c'|] eqn:E'; [|discriminate].
  destruct (bool_decide _) eqn:B; [discriminate|]. intros [= <-]. apply bool_decide_eq_false in B.
  split; [by exists c|by exists c'].
Qed.
Definition array_b (h : gmap Z cell) (t x : Z) : option (Z * list slot) :=
  match h !! x with
  | Some c =>
      if (c_ty c =? t) && (0 <=? c_car c) then
        match mapM (fun i => slot_b h (c_cdr c + Z.of_nat i)) (seq 0 (Z.to_nat (c_car c))) with
        | Some sls => Some (c_cdr c, sls) | None => None end
      else None
  | None => None
  end.
Lemma array_check h t x v sls : array_b h t x = Some (v, sls) -> array_at h t x v sls.
Proof.
  unfold array_b. destruct (h !! x) as [c|] eqn:E; [|discriminate]. destruct (_ && _) eqn:B; [|discriminate].
  destruct (mapM _ _) as [l|] eqn:M; intros [= <- <-]. apply mapM_Some in M. pose proof (Forall2_length _ _ _ M) as Hl.
  rewrite seq_length in Hl. split; [exists c; split; [done|lia]|]. intros i sl Hi.
  destruct (Forall2_lookup_r _ _ _ _ _ M Hi) as (j & Hj & Hs). apply lookup_seq in Hj as [-> _]. by apply slot_check.
Qed.
