(** Executable checks of the hash table and module predicates, used by the examples only. *)
From stdpp Require Import base gmap list.
From Coq Require Import ZArith Lia.
From Coq Require Import ZifyBool ZifyNat.
From Verif Require Import CInt Symbols Heap DataModel BootModel DataSpec DataLemmas ArrayProofs HashProofs Samples.
Open Scope Z_scope.

Definition slot_b (h : gmap Z cell) (q : Z) : option slot :=
  match h !! q with
  | Some c =>
      if c_ty c =? TNUMBER then Some (SNum (c_cdr c))
      else if c_ty c =? TCHAR then (if in_int (c_cdr c) then Some (SChar (c_cdr c)) else None)
      else if c_ty c =? TREF then
        match h !! c_car c with
        | Some d => if (c_ty d =? TNUMBER) || (c_ty d =? TCHAR) || (c_ty d =? TREF) then None else Some (SRef (c_car c))
        | None => None
        end
      else None
  | None => None
  end.
Lemma slot_check h q sl : slot_b h q = Some sl -> slot_at h q sl.
Proof.
  unfold slot_b. destruct (h !! q) as [c|] eqn:E; [|discriminate].
  destruct (Z.eqb_spec (c_ty c) TNUMBER); [intros [= <-]; by exists c|].
  destruct (Z.eqb_spec (c_ty c) TCHAR).
  { destruct (in_int (c_cdr c)) eqn:Hi; intros [= <-]. split; [by exists c|done]. }
  destruct (Z.eqb_spec (c_ty c) TREF); [|discriminate]. destruct (h !! c_car c) as [d|] eqn:E'; [|discriminate].
  destruct (_ || _) eqn:B; [discriminate|]. intros [= <-]. split; [by exists c|]. exists d. split; [done|].
  apply orb_false_elim in B as [B B3]. apply orb_false_elim in B as [B1 B2].
  apply Z.eqb_neq in B1, B2, B3. set_solver.
Qed.
Fixpoint slots_b (h : gmap Z cell) (q : Z) (n : nat) : option (list slot) :=
  match n with
  | O => Some []
  | S n' => match slot_b h q, slots_b h (q + 1) n' with Some sl, Some sls => Some (sl :: sls) | _, _ => None end
  end.
Lemma slots_check h n : forall q sls, slots_b h q n = Some sls ->
  length sls = n /\ forall i sl, sls !! i = Some sl -> slot_at h (q + Z.of_nat i) sl.
Proof.
  induction n as [|n IH]; intros q sls; cbn [slots_b].
  { intros [= <-]. split; [done|]. intros i e Hi. by rewrite lookup_nil in Hi. }
  destruct (slot_b h q) as [c|] eqn:E; [|discriminate]. destruct (slots_b h (q + 1) n) as [es'|] eqn:E'; [|discriminate].
  intros [= <-]. apply IH in E' as [<- He]. split; [done|]. intros [|i] e Hi; cbn in Hi.
  - injection Hi as <-. rewrite Z.add_0_r. by apply slot_check.
  - replace (q + Z.of_nat (S i)) with (q + 1 + Z.of_nat i) by lia. by apply He.
Qed.
Definition array_b (h : gmap Z cell) (t x : Z) : option (Z * list slot) :=
  match h !! x with
  | Some c => if (c_ty c =? t) && (0 <=? c_car c) then
      match slots_b h (c_cdr c) (Z.to_nat (c_car c)) with Some sls => Some (c_cdr c, sls) | None => None end else None
  | None => None
  end.
Lemma array_check h t x v sls : array_b h t x = Some (v, sls) -> array_at h t x v sls.
Proof.
  unfold array_b. destruct (h !! x) as [c|] eqn:E; [|discriminate]. destruct (_ && _) eqn:B; [|discriminate].
  destruct (slots_b _ _ _) as [sls'|] eqn:Es; [|discriminate]. intros [= <- <-]. apply slots_check in Es as [Hl Hs].
  split; [|done]. exists c. split; [done|]. lia.
Qed.

Fixpoint refs (sls : list slot) : option (list Z) :=
  match sls with
  | [] => Some []
  | SRef q :: sls' => match refs sls' with Some qs => Some (q :: qs) | None => None end
  | _ :: _ => None
  end.
Lemma refs_check sls qs : refs sls = Some qs -> sls = map SRef qs.
Proof.
  revert qs. induction sls as [|[n|n|q] sls IH]; intros qs; cbn; try discriminate; [intros [= <-]; done|].
  destruct (refs sls) as [qs'|]; [|discriminate]. intros [= <-]. cbn. f_equal. by apply IH.
Qed.
Definition key_b (h : gmap Z cell) (ts : list Z) (k : Z) : option (list Z) :=
  match h !! k with
  | Some c => if existsb (Z.eqb (c_ty c)) ts then
      match text_b h (c_ty c) k with Some bs => if 0 <=? name_hash bs then Some bs else None | None => None end else None
  | None => None
  end.
Lemma key_check h ts k bs : key_b h ts k = Some bs -> key_at h ts k bs.
Proof.
  unfold key_b. destruct (h !! k) as [c|] eqn:E; [|discriminate]. destruct (existsb _ _) eqn:B; [|discriminate].
  destruct (text_b _ _ _) as [bs'|] eqn:T; [|discriminate]. destruct (Z.leb_spec 0 (name_hash bs')); [|discriminate].
  intros [= <-]. apply existsb_exists in B as (t & Hin & Ht%Z.eqb_eq). apply elem_of_list_In in Hin. exists t. subst t.
  split; [done|]. split; [by apply text_check|done].
Qed.
(** the associations found in one bucket *)
Fixpoint assocs_b (h : gmap Z cell) (ts : list Z) (es : list Z) : option (list entry) :=
  match es with
  | [] => Some []
  | e :: es' =>
      match h !! e, assocs_b h ts es' with
      | Some c, Some al =>
          if c_ty c =? TPAIR then
            match key_b h ts (c_car c) with Some bs => Some (Entry (c_car c) bs (c_cdr c) :: al) | None => None end
          else None
      | _, _ => None
      end
  end.
Fixpoint gather_b (h : gmap Z cell) (ts : list Z) (qs : list Z) : option (list entry) :=
  match qs with
  | [] => Some []
  | q :: qs' =>
      match match h !! q with
            | Some c => if c_ty c =? TPAIR then
                match list_b 1000 h q with Some es => assocs_b h ts es | None => None end else Some []
            | None => None end, gather_b h ts qs' with
      | Some a, Some b => Some (a ++ b)
      | _, _ => None
      end
  end.
Definition alist_b (h : gmap Z cell) (q : Z) (kvs : list (Z * Z)) : bool :=
  match h !! q with
  | None => false
  | Some c =>
      match kvs with
      | [] => negb (c_ty c =? TPAIR)
      | _ => match list_b 1000 h q with
             | Some es => (length es =? length kvs)%nat &&
                 forallb (fun ekv : Z * (Z * Z) => match h !! ekv.1 with
                   | Some c => (c_ty c =? TPAIR) && (c_car c =? ekv.2.1) && (c_cdr c =? ekv.2.2) | None => false end) (combine es kvs)
             | None => false end
      end
  end.
Lemma alist_check h q kvs : alist_b h q kvs = true -> alist_at h q kvs.
Proof.
  unfold alist_b, alist_at. destruct (h !! q) as [c|] eqn:E; [|discriminate]. destruct kvs as [|kv kvs]; cbn zeta.
  { intros H. exists c. split; [done|]. lia. }
  destruct (list_b 1000 h q) as [es|] eqn:L; [|discriminate]. intros H. apply andb_prop in H as [Hl Hf].
  exists es. split; [by eapply list_check|]. apply Nat.eqb_eq in Hl. revert Hl Hf. generalize (kv :: kvs). clear.
  induction es as [|e es IH]; intros [|kv kvs] Hl Hf; cbn in *; try done. apply andb_prop in Hf as [Hf1 Hf2].
  constructor; [|apply IH; [lia|done]]. destruct (h !! e) as [c|] eqn:E; [|discriminate]. exists c. split; [done|]. lia.
Qed.
Definition table_b (h : gmap Z cell) (ts : list Z) (x : Z) : option (Z * Z * list entry) :=
  match array_b h TSTRUCT x with
  | Some (v, [st; sp; sn; SNum size; SRef b]) =>
      match array_b h TVECTOR b with
      | Some (w, sls) =>
          match refs sls with
          | Some qs =>
              match gather_b h ts qs with
              | Some al =>
                  if (Z.of_nat (length qs) =? size) &&
                     forallb (fun iq : nat * Z => alist_b h iq.2 (bucket size (Z.of_nat iq.1) al)) (combine (seq 0 (length qs)) qs) &&
                     forallb (fun e => bool_decide (key_b h ts (e_key e) = Some (e_name e))) al &&
                     (1 <=? w) && ((v + 5 <=? w) || (w + size <=? v)) && (0 <? size) && (size <? 2147483648)
                  then Some (w, size, al) else None
              | None => None end
          | None => None end
      | None => None end
  | _ => None
  end.
Lemma combine_seq (qs : list Z) n i q : qs !! i = Some q -> In ((n + i)%nat, q) (combine (seq n (length qs)) qs).
Proof.
  revert n i. induction qs as [|q' qs IH]; intros n i Hi; [done|]. cbn. destruct i as [|i]; cbn in Hi.
  - injection Hi as ->. left. f_equal. lia.
  - right. replace (n + S i)%nat with (S n + i)%nat by lia. by apply IH.
Qed.
Lemma table_check h ts x w size al : table_b h ts x = Some (w, size, al) -> table_at h ts x w size al.
Proof.
  unfold table_b. destruct (array_b h TSTRUCT x) as [[v sls0]|] eqn:E1; [|discriminate].
  destruct sls0 as [|st [|sp [|sn [|[size'| |] [|[| |b] [|]]]]]]; try discriminate.
  destruct (array_b h TVECTOR b) as [[w' sls]|] eqn:E2; [|discriminate]. destruct (refs sls) as [qs|] eqn:E3; [|discriminate].
  destruct (gather_b h ts qs) as [al'|] eqn:E4; [|discriminate]. destruct (_ && _) eqn:B; [|discriminate]. intros [= -> -> ->].
  apply andb_prop in B as [B B7]. apply andb_prop in B as [B B6]. apply andb_prop in B as [B B5]. apply andb_prop in B as [B B4].
  apply andb_prop in B as [B B3]. apply andb_prop in B as [B1 B2].
  apply refs_check in E3 as ->. apply array_check in E1, E2. exists v, b, st, sp, sn, qs. split; [done|]. split; [done|].
  split; [lia|]. split.
  { intros i q Hi. rewrite forallb_forall in B2. specialize (B2 (i, q) (combine_seq _ O _ _ Hi)). by apply alist_check. }
  split.
  { apply Forall_forall. intros e He%elem_of_list_In. rewrite forallb_forall in B3. specialize (B3 _ He). apply bool_decide_eq_true in B3.
    by apply key_check. }
  split; [lia|]. split; [|lia]. lia.
Qed.

Definition constants_b (h : gmap Z cell) : bool :=
  forallb (fun c : Z * bool * String.string => match h !! (c.1.1) with
    | Some x => c_ty x =? (if c.1.2 then TSPECIAL else TSYMBOL) | None => false end) builtin_symbols.
Lemma constants_check h : constants_b h = true -> constants_at h.
Proof.
  unfold constants_b, constants_at. intros H. apply Forall_forall. intros c Hc%elem_of_list_In. rewrite forallb_forall in H.
  specialize (H _ Hc). destruct (h !! c.1.1) as [x|] eqn:E; [|done]. exists x. split; [done|]. by apply Z.eqb_eq in H.
Qed.
Definition values_b (h : gmap Z cell) (al : list entry) : bool :=
  forallb (fun e => match key_b h [TSPECIAL; TSYMBOL] (e_value e) with Some bs => bool_decide (bs = e_name e) | None => false end) al.
Lemma values_check h al : values_b h al = true -> Forall (fun e => exists t, t ∈ [TSPECIAL; TSYMBOL] /\ text_at h t (e_value e) (e_name e)) al.
Proof.
  unfold values_b. intros H. apply Forall_forall. intros e He%elem_of_list_In. rewrite forallb_forall in H. specialize (H _ He).
  destruct (key_b _ _ _) as [bs|] eqn:E; [|done]. apply bool_decide_eq_true in H as ->. apply key_check in E as (t & ? & ? & _). by exists t.
Qed.
Definition module_b (s : state) : option (Z * Z * list entry) :=
  match array_b (cells s) TSTRUCT (M0 s) with
  | Some (v, sls) =>
      match sls !! 5%nat with
      | Some (SRef g) =>
          match table_b (cells s) [TSPECIAL; TSYMBOL] g with
          | Some (w, size, al) => if (v + Z.of_nat (length sls) <=? w) || (w + size <=? v) then Some (w, size, al) else None
          | None => None end
      | _ => None end
  | None => None
  end.
Lemma module_check s w size al : module_b s = Some (w, size, al) -> module_at s w size al.
Proof.
  unfold module_b. destruct (array_b _ _ _) as [[v sls]|] eqn:E; [|discriminate]. destruct (sls !! 5%nat) as [[| |g]|] eqn:E5; try discriminate.
  destruct (table_b _ _ g) as [[[w' size'] al']|] eqn:Et; [|discriminate]. destruct (_ || _) eqn:B; [|discriminate]. intros [= -> -> ->].
  exists v, sls, g. split; [by apply array_check|]. split; [done|]. split; [lia|by apply table_check].
Qed.
Definition positive_b (h : gmap Z cell) : bool := forallb (fun kv : Z * cell => 1 <=? kv.1) (map_to_list h).
Lemma positive_check h : positive_b h = true -> forall p c, h !! p = Some c -> 1 <= p.
Proof.
  unfold positive_b. intros H p c Hc. apply elem_of_map_to_list in Hc. rewrite forallb_forall in H.
  apply elem_of_list_In in Hc. apply H in Hc. cbn in Hc. lia.
Qed.
