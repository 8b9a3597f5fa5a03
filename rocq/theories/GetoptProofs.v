(** Proofs about getopt and getopt_long. *)
From stdpp Require Import base list.
From Coq Require Import ZArith Lia.
From Coq Require Import ZifyBool ZifyNat.
From Verif Require Import CInt GetoptModel GetoptSpec.
Open Scope Z_scope.

Scheme gives_mut := Induction for gives Sort Prop with cluster_mut := Induction for cluster Sort Prop.
Combined Scheme gives_cluster_ind from gives_mut, cluster_mut.

(** ** Texts *)
Lemma char_at_cons a o x l : drop o a = x :: l -> char_at a o = Some x.
Proof.
  intros H. pose proof (f_equal length H) as HL. rewrite drop_length in HL. cbn in HL.
  unfold char_at. destruct (o <? length a)%nat eqn:E; [|lia].
  rewrite <- (Nat.add_0_r o), <- lookup_drop, H. done.
Qed.
Lemma char_at_nil a o : drop o a = [] -> (o <= length a)%nat -> char_at a o = Some 0.
Proof.
  intros H Ho. pose proof (f_equal length H) as HL. rewrite drop_length in HL. cbn in HL.
  unfold char_at. destruct (o <? length a)%nat eqn:E; [lia|]. destruct (o =? length a)%nat eqn:E2; [done|lia].
Qed.
Lemma drop_next {A} (a : list A) o x l : drop o a = x :: l -> drop (S o) a = l.
Proof. intros H. replace (S o) with (o + 1)%nat by lia. rewrite <- drop_drop, H. done. Qed.
Lemma drop_some {A} (a : list A) o x l : drop o a = x :: l -> a !! o = Some x /\ (o < length a)%nat.
Proof.
  intros H. pose proof (f_equal length H) as HL. rewrite drop_length in HL. cbn in HL.
  split; [|lia]. rewrite <- (Nat.add_0_r o), <- lookup_drop, H. done.
Qed.
Lemma drop_none {A} (a : list A) o : drop o a = [] -> (o <= length a)%nat -> o = length a.
Proof. intros H Ho. pose proof (f_equal length H) as HL. rewrite drop_length in HL. cbn in HL. lia. Qed.

Lemma find_char_after c os : find_char c os = match after c os with Some r => Some (length os - length r - 1)%nat | None => None end.
Proof.
  induction os as [|x os IH]; [done|]. cbn. case_decide as E; subst.
  - rewrite Z.eqb_refl. f_equal. lia.
  - destruct (x =? c) eqn:Ex; [lia|]. rewrite IH. destruct (after c os) as [r|] eqn:Ea; [|done].
    f_equal. assert (length r < length os)%nat; [|lia].
    clear -Ea. revert Ea. induction os as [|y os IH]; cbn; [done|]. case_decide; [intros [= <-]; lia|intros H1; specialize (IH H1); lia].
Qed.
Lemma after_split c os r : after c os = Some r -> exists l, os = l ++ c :: r.
Proof.
  induction os as [|x os IH]; [done|]. cbn. case_decide as E.
  - intros [= <-]. subst. by exists [].
  - intros H. destruct (IH H) as [l ->]. by exists (x :: l).
Qed.
Lemma after_drop c os r : after c os = Some r -> r = drop (S (length os - length r - 1)) os /\ (length r < length os)%nat.
Proof.
  intros H. destruct (after_split _ _ _ H) as [l ->]. rewrite app_length. cbn [length]. split; [|lia].
  replace (S (length l + S (length r) - length r - 1)) with (length l + 1)%nat by lia.
  rewrite <- drop_drop, drop_app. done.
Qed.
Lemma after_lookup c os r k : after c os = Some r -> os !! (S (length os - length r - 1 + k)) = r !! k.
Proof. intros H. destruct (after_drop _ _ _ H) as [E _]. rewrite E at 2. rewrite lookup_drop. f_equal. Qed.
Lemma after_in c os r : after c os = Some r -> c ∈ os.
Proof. induction os as [|x os IH]; [done|]. cbn. case_decide; intros Ha; subst; [left|right; auto]. Qed.

(** the option string *)
Lemma kind_cases os c :
  match kind_of os c with
  | Unknown => c = COLON \/ find_char c os = None
  | k => c <> COLON /\ c ∈ os /\ exists t, find_char c os = Some t /\
      match k with
      | Plain => os !! S t <> Some COLON
      | Needs => os !! S t = Some COLON /\ os !! S (S t) <> Some COLON
      | _ => os !! S t = Some COLON /\ os !! S (S t) = Some COLON
      end
  end.
Proof.
  unfold kind_of. case_decide as Hc; [by left|].
  destruct (after c os) as [r|] eqn:Ea; [|right; rewrite find_char_after, Ea; done].
  pose proof (after_lookup c os r 0 Ea) as L0. pose proof (after_lookup c os r 1 Ea) as L1.
  rewrite Nat.add_0_r in L0. replace (length os - length r - 1 + 1)%nat with (S (length os - length r - 1)) in L1 by lia.
  assert (F : find_char c os = Some (length os - length r - 1)%nat) by (rewrite find_char_after, Ea; done).
  pose proof (after_in _ _ _ Ea) as Hin.
  destruct r as [|x [|y r]].
  - split_and!; [done..|]. eexists; split; [exact F|]. rewrite L0. done.
  - case_decide; (split_and!; [done..|]); eexists; (split; [exact F|]); rewrite L0, ?L1; cbn; [subst; split; done|congruence].
  - case_decide; [case_decide|]; (split_and!; [done..|]); eexists; (split; [exact F|]); rewrite L0, ?L1; cbn; subst; try split; try done; congruence.
Qed.

(** ** Long options *)
Lemma name_len_spec b : exists value, long_text b (take (name_len b) b) value /\
  (name_len b <= length b)%nat /\
  match value with Some v => (name_len b < length b)%nat /\ drop (name_len b + 1) b = v | None => name_len b = length b end.
Proof.
  induction b as [|x b (value & [H1 H2] & H3 & H4)].
  - exists None. split; [split; [apply not_elem_of_nil|done]|]. cbn. lia.
  - cbn. destruct (x =? EQUALS) eqn:E.
    + exists (Some b). assert (x = EQUALS) as -> by lia. split; [split; [apply not_elem_of_nil|done]|]. cbn. split; [lia|]. split; [lia|done].
    + exists value. cbn. split; [split|].
      * apply not_elem_of_cons. split; [lia|exact H1].
      * cbn. f_equal. exact H2.
      * split; [lia|]. destruct value as [v|]; [|lia]. destruct H4 as [H4 H5]. split; [lia|exact H5].
Qed.
Lemma long_text_len b name value : long_text b name value -> name = take (name_len b) b /\
  match value with Some v => (name_len b < length b)%nat /\ drop (name_len b + 1) b = v | None => name_len b = length b end.
Proof.
  intros [H1 ->]. assert (E : name_len (name ++ match value with Some v => EQUALS :: v | None => [] end) = length name).
  { clear -H1. induction name as [|x n IH]; [destruct value; done|]. apply not_elem_of_cons in H1 as [Hx Hn]. cbn.
    destruct (x =? EQUALS) eqn:Ex; [lia|]. by rewrite IH. }
  rewrite E. rewrite take_app. split; [done|]. rewrite app_length. destruct value as [v|]; cbn; [|lia].
  split; [lia|]. rewrite <- drop_drop, drop_app. done.
Qed.

(** what has been seen so far *)
Definition seen (pre : list lopt) (name : list Z) (pf : option (nat * lopt)) (amb : bool) : Prop :=
  (forall j q, ~ is_exact pre name j q) /\
  match pf with
  | None => amb = false /\ forall j q, ~ is_abbrev pre name j q
  | Some (i, p) => is_abbrev pre name i p /\
      if amb then exists j q, is_abbrev pre name j q /\ j <> i else forall j q, is_abbrev pre name j q -> j = i
  end.
Lemma no_exact pre name : (forall j q, ~ is_exact pre name j q) <-> forall j q, pre !! j = Some q -> lo_name q <> name.
Proof.
  split.
  - intros H j. induction j as [j IH] using (well_founded_induction lt_wf). intros q Hq Hn.
    apply (H j q). split; [done|]. split; [done|]. intros k r Hk Hr. eauto.
  - intros H j q (H1 & H2 & _). eapply H; eauto.
Qed.
Lemma prefix_take (name s : list Z) n l : name = take n s -> (n <= length s)%nat ->
  (take n l = take n s <-> name `prefix_of` l).
Proof.
  intros -> Hn. split.
  - intros <-. exists (drop n l). by rewrite take_drop.
  - intros [k ->]. rewrite take_app_alt; [done|]. rewrite take_length. lia.
Qed.
Lemma long_loop_spec suf pre s n name pf amb : name = take n s -> (n <= length s)%nat -> seen pre name pf amb ->
  match long_loop suf (length pre) s n pf amb with
  | (Some (i, p), true, _) => is_exact (pre ++ suf) name i p
  | (None, true, _) => False
  | (pf', false, amb') => seen (pre ++ suf) name pf' amb'
  end.
Proof.
  intros Hname Hn. revert pre pf amb. induction suf as [|p suf IH]; intros pre pf amb [Hex Hpf]; cbn [long_loop].
  - rewrite app_nil_r. destruct pf as [[i q]|]; split; done.
  - rewrite no_exact in Hex.
    assert (Hlen : length name = n) by (rewrite Hname, take_length; lia).
    assert (Hsnoc : forall j q, (pre ++ [p]) !! j = Some q <-> pre !! j = Some q \/ j = length pre /\ q = p).
    { intros j q. rewrite lookup_app_Some. split.
      - intros [?|[H1 H2]]; [by left|right]. apply list_lookup_singleton_Some in H2 as [H2 H3]. split; [lia|done].
      - intros [?|[-> ->]]; [by left|right]. split; [done|]. by rewrite Nat.sub_diag. }
    assert (Habb : forall j q, is_abbrev (pre ++ [p]) name j q <-> is_abbrev pre name j q \/ j = length pre /\ q = p /\ name `prefix_of` lo_name p).
    { intros j q. unfold is_abbrev. rewrite Hsnoc. split.
      - intros [[?|[-> ->]] ?]; [left|right]; done.
      - intros [[? ?]|(-> & -> & ?)]; (split; [|done]); [by left|by right]. }
    assert (Hlt : forall j q, is_abbrev pre name j q -> (j < length pre)%nat).
    { intros j q [H _]. eapply lookup_lt_Some; eauto. }
    assert (Happ : pre ++ p :: suf = (pre ++ [p]) ++ suf) by (rewrite <- app_assoc; done).
    assert (Hl : S (length pre) = length (pre ++ [p])) by (rewrite app_length; cbn; lia).
    case_decide as Ht.
    + pose proof (proj1 (prefix_take name s n (lo_name p) Hname Hn) Ht) as Hp.
      destruct (n =? length (lo_name p))%nat eqn:El.
      * split; [|split].
        -- rewrite lookup_app_r, Nat.sub_diag by lia. done.
        -- destruct Hp as [k Hk]. assert (k = []) as ->; [|rewrite app_nil_r in Hk; done].
           apply length_zero_iff_nil. rewrite Hk, app_length in El. lia.
        -- intros j q Hj Hq. rewrite lookup_app_l in Hq by lia. eauto.
      * assert (Hne : lo_name p <> name) by (intros E; rewrite E in El; lia).
        assert (Hex' : forall j q, ~ is_exact (pre ++ [p]) name j q).
        { apply no_exact. intros j q Hq. apply Hsnoc in Hq as [Hq|[-> ->]]; [by eapply Hex|done]. }
        destruct pf as [[i q]|].
        -- rewrite Happ, Hl. apply IH. split; [done|]. destruct Hpf as [Ha _]. split; [apply Habb; by left|].
           exists (length pre), p. split; [apply Habb; right; done|]. apply Hlt in Ha. lia.
        -- destruct Hpf as [-> Hnone]. rewrite Happ, Hl. apply IH. split; [done|]. split; [apply Habb; right; done|].
           intros j q Hq. apply Habb in Hq as [Hq|[-> _]]; [exfalso; by eapply Hnone|done].
    + assert (Hnp : ~ name `prefix_of` lo_name p) by (intros H; apply Ht; by eapply prefix_take).
      assert (Habb' : forall j q, is_abbrev (pre ++ [p]) name j q <-> is_abbrev pre name j q).
      { intros j q. rewrite Habb. split; [intros [?|(_ & _ & ?)]; done|by left]. }
      rewrite Happ, Hl. apply IH. split.
      * apply no_exact. intros j q Hq. apply Hsnoc in Hq as [Hq|[-> ->]]; [by eapply Hex|].
        intros E. apply Hnp. rewrite E. done.
      * destruct pf as [[i q]|].
        -- destruct Hpf as [Ha Hr]. split; [by apply Habb'|]. destruct amb.
           ++ destruct Hr as (j & r & Hr & Hj). exists j, r. split; [by apply Habb'|done].
           ++ intros j r Hj. apply Habb' in Hj. eauto.
        -- destruct Hpf as [-> Hnone]. split; [done|]. intros j q Hj. apply Habb' in Hj. by eapply Hnone.
Qed.

(** the loop finds the option meant, or nothing *)
Lemma long_loop_means opts s n : (n <= length s)%nat ->
  exists pf ex amb, long_loop opts 0 s n None false = (pf, ex, amb) /\
  ((exists i p, pf = Some (i, p) /\ amb && negb ex = false /\ means opts (take n s) i p) \/
   (amb && negb ex = true \/ pf = None) /\ no_meaning opts (take n s)).
Proof.
  intros Hn. pose proof (long_loop_spec opts [] s n (take n s) None false eq_refl Hn) as H.
  destruct (long_loop opts 0 s n None false) as [[pf ex] amb] eqn:E. cbn [length app] in H. rewrite E in H.
  exists pf, ex, amb. split; [done|].
  assert (S0 : seen [] (take n s) None false). { split; [intros j q [H0 _]; done|]. split; [done|]. intros j q [H0 _]. done. }
  specialize (H S0). destruct ex.
  - destruct pf as [[i p]|]; [|done]. left. exists i, p. split; [done|]. split; [by rewrite andb_false_r|]. by left.
  - assert (H' : seen opts (take n s) pf amb) by (destruct pf as [[??]|]; exact H). clear H. destruct H' as [Hex Hpf].
    destruct pf as [[i p]|].
    + destruct Hpf as [Ha Hr]. destruct amb.
      * right. split; [by left|]. destruct Hr as (j & q & Hq & Hj). intros k r [Hk|(_ & Hk & Hu)]; [by eapply Hex|].
        apply Hj. rewrite (Hu _ _ Hq), (Hu _ _ Ha). done.
      * left. exists i, p. split_and!; [done..|]. right. done.
    + destruct Hpf as [-> Hnone]. right. split; [by right|]. intros k r [Hk|(_ & Hk & _)]; [by eapply Hex|by eapply Hnone].
Qed.
Lemma exact_unique opts name i p j q : is_exact opts name i p -> is_exact opts name j q -> i = j /\ p = q.
Proof.
  intros (A1 & A2 & A3) (B1 & B2 & B3). destruct (lt_eq_lt_dec i j) as [[H | -> ] | H].
  - exfalso. eapply B3; eauto.
  - split; congruence.
  - exfalso. eapply A3; eauto.
Qed.
Lemma means_unique opts name i p j q : means opts name i p -> means opts name j q -> i = j /\ p = q.
Proof.
  intros [A|(A1 & A2 & A3)] [B|(B1 & B2 & B3)].
  - by eapply exact_unique.
  - exfalso. by eapply B1.
  - exfalso. by eapply A1.
  - assert (i = j) as -> by eauto. destruct A2 as [A2 _], B2 as [B2 _]. split; congruence.
Qed.
Lemma loop_found opts s n i p : (n <= length s)%nat -> means opts (take n s) i p ->
  exists ex amb, long_loop opts 0 s n None false = (Some (i, p), ex, amb) /\ amb && negb ex = false.
Proof.
  intros Hn Hm. destruct (long_loop_means opts s n Hn) as (pf & ex & amb & E & [(i' & p' & -> & Ha & Hm')|[_ Hno]]).
  - destruct (means_unique _ _ _ _ _ _ Hm Hm') as [<- <-]. eauto.
  - exfalso. by eapply Hno.
Qed.
Lemma loop_lost opts s n : (n <= length s)%nat -> no_meaning opts (take n s) ->
  exists pf ex amb, long_loop opts 0 s n None false = (pf, ex, amb) /\ (amb && negb ex = true \/ pf = None).
Proof.
  intros Hn Hm. destruct (long_loop_means opts s n Hn) as (pf & ex & amb & E & [(i' & p' & -> & Ha & Hm')|[H _]]).
  - exfalso. by eapply Hm.
  - eauto.
Qed.

Lemma schar_byte c : 0 < c < 256 -> c <> 255 -> to_schar c <> EOF.
Proof. unfold to_schar, EOF. intros H H'. Local Ltac Zify.zify_post_hook ::= Z.div_mod_to_equations. lia. Qed.

(** ** The calls *)
Section calls.
Context (argv : list (list Z)) (os : list Z) (lo : option (list lopt)).
Hypothesis Htexts : Forall (Forall (fun c => 0 < c < 256)) argv.
Hypothesis Hos : 255 ∉ os.
Hypothesis Hlo : forall opts p, lo = Some opts -> p ∈ opts -> lo_flag p = None -> lo_val p <> EOF.
Notation get := (getopt_internal argv os lo false).

(** between two arguments *)
Definition between (s : gstate) (k : nat) : Prop :=
  (optind s = k /\ first_nonopt s = last_nonopt s /\
   match nextchar s with None => True | Some (i, o) => exists a, argv !! i = Some a /\ o = length a end) /\ (0 < k)%nat
  \/ k = 1%nat /\ optind s = 0%nat.
(** inside a group of options *)
Definition inside (s : gstate) (k o : nat) : Prop :=
  optind s = k /\ (0 < k)%nat /\ first_nonopt s = last_nonopt s /\ nextchar s = Some (k, o).

Lemma byte_ok k a o c cs : argv !! k = Some a -> drop o a = c :: cs -> 0 < c < 256.
Proof.
  intros Ha Hd. rewrite Forall_forall in Htexts. specialize (Htexts a (elem_of_list_lookup_2 _ _ _ Ha)).
  rewrite Forall_forall in Htexts. apply Htexts. apply drop_some in Hd as [Hd _]. by eapply elem_of_list_lookup_2.
Qed.

Definition enter (s : gstate) (k o : nat) : gstate :=
  Gs k (Some (k, o)) (if (optind s =? 0)%nat then 1%nat else first_nonopt s) (if (optind s =? 0)%nat then 1%nat else last_nonopt s) None.

Lemma get_end s k : between s k -> drop k argv = [] -> (k <= length argv)%nat ->
  exists s', get s = GRet EOF None None s' /\ optind s' = k.
Proof.
  intros Hb Hd Hk. pose proof (drop_none _ _ Hd Hk) as ->.
  destruct Hb as [[(H1 & H2 & H3) H4]|[H1 H2]].
  - unfold getopt_internal. rewrite H1. cbn [optind nextchar].
    destruct (length argv =? 0)%nat eqn:E0; [lia|]. cbn [optind nextchar first_nonopt last_nonopt].
    assert (Ef : match nextchar s with
                 | None => Some true
                 | Some (i, o) => match argv !! i with Some a => match char_at a o with Some c => Some (c =? 0) | None => None end | None => None end
                 end = Some true).
    { destruct (nextchar s) as [[i o]|]; [|done]. destruct H3 as (a & Ha & ->). rewrite Ha, char_at_nil; [done|apply drop_all|done]. }
    rewrite Ef, Nat.eqb_refl, H2, Nat.eqb_refl. eauto.
  - unfold getopt_internal. rewrite H2. cbn [optind]. rewrite (Nat.eqb_refl 0). cbn [optind nextchar first_nonopt last_nonopt].
    rewrite !H1. cbn. eauto.
Qed.

Lemma get_stop s k a args : between s k -> drop k argv = a :: args -> (forall c cs, a <> MINUS :: c :: cs) ->
  exists s', get s = GRet EOF None None s' /\ optind s' = k.
Proof.
  intros Hb Hd Ha. destruct (drop_some _ _ _ _ Hd) as [Hk Hlt].
  assert (Hstop : negb (bool_decide (char_at a 0 = Some MINUS)) = true \/ char_at a 0 = Some MINUS /\ char_at a 1 = Some 0).
  { destruct a as [|x a]; [by left|]. rewrite (char_at_cons (x :: a) 0 x a eq_refl).
    destruct (decide (x = MINUS)) as [->|Hx]; [|left; rewrite bool_decide_eq_false_2; [done|congruence]].
    right. split; [done|]. destruct a as [|y a]; [done|]. exfalso. by eapply Ha. }
  destruct Hb as [[(H1 & H2 & H3) H4]|[H1 H2]].
  - unfold getopt_internal. rewrite H1. cbn [optind nextchar].
    destruct (k =? 0)%nat eqn:E0; [lia|]. cbn [optind nextchar first_nonopt last_nonopt].
    assert (Ef : match nextchar s with
                 | None => Some true
                 | Some (i, o) => match argv !! i with Some a => match char_at a o with Some c => Some (c =? 0) | None => None end | None => None end
                 end = Some true).
    { destruct (nextchar s) as [[i o]|]; [|done]. destruct H3 as (b & Hbb & ->). rewrite Hbb, char_at_nil; [done|apply drop_all|done]. }
    rewrite Ef. destruct (k =? length argv)%nat eqn:El; [lia|]. rewrite Hk.
    destruct Hstop as [E|[E1 E2]]; [rewrite E; eexists; split; reflexivity|]. rewrite E1, E2, bool_decide_eq_true_2 by done. cbn. eexists; split; reflexivity.
  - unfold getopt_internal. rewrite H2. cbn [optind]. rewrite (Nat.eqb_refl 0). cbn [optind nextchar first_nonopt last_nonopt].
    subst k. destruct (1 =? length argv)%nat eqn:El; [lia|]. rewrite Hk.
    destruct Hstop as [E|[E1 E2]]; [rewrite E; eexists; split; reflexivity|]. rewrite E1, E2, bool_decide_eq_true_2 by done. cbn. eexists; split; reflexivity.
Qed.

(** what happens at the start of an argument that is an option *)
Lemma get_enter s k a x cs args : between s k -> drop k argv = a :: args -> a = MINUS :: x :: cs ->
  get s =
  let o := if bool_decide (is_Some lo) && (x =? MINUS) then 2%nat else 1%nat in
  let s1 := enter s k o in
  match lo with
  | Some opts => if x =? MINUS then match long_option argv os false opts s1 k o with Some r => r | None => short_option argv os s1 k o end
                 else short_option argv os s1 k o
  | None => short_option argv os s1 k o
  end.
Proof.
  intros Hb Hd Ha. destruct (drop_some _ _ _ _ Hd) as [Hk Hlt].
  assert (C0 : char_at a 0 = Some MINUS) by (subst a; done).
  assert (C1 : char_at a 1 = Some x) by (subst a; by eapply (char_at_cons (MINUS :: x :: cs) 1 x cs)).
  assert (Hx : x =? 0 = false). { assert (0 < x < 256); [|lia]. eapply (byte_ok k a 1); [done|]. subst a. done. }
  assert (Hbd : bool_decide (Some x = Some MINUS) = (x =? MINUS)).
  { destruct (x =? MINUS) eqn:E; [apply bool_decide_eq_true_2; f_equal; lia|apply bool_decide_eq_false_2; intros [= ->]; lia]. }
  destruct Hb as [[(H1 & H2 & H3) H4]|[H1 H2]].
  - unfold getopt_internal. rewrite H1. cbn [optind nextchar].
    destruct (k =? 0)%nat eqn:E0; [lia|]. cbn [optind nextchar first_nonopt last_nonopt].
    assert (Ef : match nextchar s with
                 | None => Some true
                 | Some (i, o) => match argv !! i with Some a => match char_at a o with Some c => Some (c =? 0) | None => None end | None => None end
                 end = Some true).
    { destruct (nextchar s) as [[i o]|]; [|done]. destruct H3 as (b & Hbb & ->). rewrite Hbb, char_at_nil; [done|apply drop_all|done]. }
    rewrite Ef. destruct (k =? length argv)%nat eqn:El; [lia|]. rewrite Hk, C0, C1, Hx, bool_decide_eq_true_2 by done. cbn [negb].
    cbn zeta. rewrite ?Hk, ?C0, ?C1, Hbd. unfold enter. rewrite H1, E0. rewrite ?orb_false_r. cbn [andb]. done.
  - unfold getopt_internal. rewrite H2. cbn [optind]. rewrite (Nat.eqb_refl 0). cbn [optind nextchar first_nonopt last_nonopt].
    subst k. destruct (1 =? length argv)%nat eqn:El; [lia|]. rewrite Hk, C0, C1, Hx, bool_decide_eq_true_2 by done. cbn [negb].
    cbn zeta. rewrite ?Hk, ?C0, ?C1, Hbd. unfold enter. rewrite H2, (Nat.eqb_refl 0). rewrite ?orb_false_r. cbn [andb]. done.
Qed.

(** a later option of a group *)
Lemma get_inside s k o a c cs : inside s k o -> argv !! k = Some a -> drop o a = c :: cs -> ~ is_long lo a ->
  (exists x l, a = MINUS :: x :: l) ->
  get s = short_option argv os (Gs k (Some (k, o)) (first_nonopt s) (last_nonopt s) None) k o.
Proof.
  intros (H1 & H2 & H3 & H4) Ha Hd Hl (x & l & ->).
  unfold getopt_internal. rewrite H1. cbn [optind nextchar].
  destruct (k =? 0)%nat eqn:E0; [lia|]. cbn [optind nextchar first_nonopt last_nonopt]. rewrite H4, Ha.
  rewrite (char_at_cons _ _ _ _ Hd). pose proof (byte_ok _ _ _ _ _ Ha Hd). destruct (c =? 0) eqn:Ec; [lia|].
  rewrite ?Ha. destruct lo as [opts|] eqn:Elo; [|done].
  rewrite (char_at_cons (MINUS :: x :: l) 1 x l eq_refl).
  rewrite (bool_decide_eq_false_2 (Some x = Some MINUS)), andb_false_r; [done|].
  intros [= ->]. apply Hl. exists opts, l. done.
Qed.

Definition arg_text (p : option (nat * nat)) : option (list Z) :=
  match p with Some (i, o) => match argv !! i with Some a => Some (drop o a) | None => None end | None => None end.

(** one option character *)
Lemma short_step s k o a c cs args : optind s = k -> (0 < k)%nat -> first_nonopt s = last_nonopt s -> optarg s = None ->
  drop k argv = a :: args -> drop o a = c :: cs ->
  exists e s', short_option argv os s k o = GRet (e_code e) (e_long e) (e_flag e) s' /\ e_code e <> EOF /\ e_arg e = arg_text (optarg s') /\
  match kind_of os c with
  | Unknown => e = bad /\ (if decide (cs = []) then between s' (S k) else inside s' k (S o))
  | Plain => e = short c None /\ (if decide (cs = []) then between s' (S k) else inside s' k (S o))
  | May => if decide (cs = []) then e = short c None /\ between s' (S k) else e = short c (Some cs) /\ between s' (S k)
  | Needs => if decide (cs = []) then match args with [] => e = bad /\ between s' (S k) | b :: _ => e = short c (Some b) /\ between s' (S (S k)) end
             else e = short c (Some cs) /\ between s' (S k)
  end.
Proof.
  intros Hk H0 Hf Harg Hd Ho. destruct (drop_some _ _ _ _ Hd) as [Ha Hlt]. destruct (drop_some _ _ _ _ Ho) as [_ Hlo'].
  pose proof (drop_next _ _ _ _ Ho) as Hn. pose proof (byte_ok _ _ _ _ _ Ha Ho) as Hc.
  unfold short_option. rewrite Ha, (char_at_cons _ _ _ _ Ho).
  assert (Hnext : exists nx, char_at a (S o) = Some nx /\ (nx =? 0) = bool_decide (cs = [])).
  { destruct cs as [|y cs'].
    - exists 0. split; [apply char_at_nil; [done|lia]|done].
    - exists y. split; [by eapply char_at_cons|]. pose proof (byte_ok _ _ _ _ _ Ha Hn). rewrite bool_decide_eq_false_2 by done. lia. }
  destruct Hnext as (nx & -> & Enx). rewrite Enx, Hk, Harg.
  assert (Hend : cs = [] -> S o = length a). { intros ->. apply drop_none; [done|lia]. }
  assert (Bnone : forall k' arg, (0 < k')%nat -> between (Gs k' None (first_nonopt s) (last_nonopt s) arg) k').
  { intros k' arg Hk'. left. split; [split; [done|split; [done|exact I]]|done]. }
  assert (Bsome : forall arg, if decide (cs = []) then between (Gs (if bool_decide (cs = []) then S k else k) (Some (k, S o)) (first_nonopt s) (last_nonopt s) arg) (S k)
                              else inside (Gs (if bool_decide (cs = []) then S k else k) (Some (k, S o)) (first_nonopt s) (last_nonopt s) arg) k (S o)).
  { intros arg. case_decide as Ecs.
    - rewrite bool_decide_eq_true_2 by done. left. split; [split; [done|split; [done|]]|lia]. cbn. exists a. split; [done|]. auto.
    - rewrite bool_decide_eq_false_2 by done. done. }
  assert (HQ : QUESTION <> EOF) by done.
  pose proof (kind_cases os c) as HK. destruct (kind_of os c).
  - exists bad. eexists. split; [|split; [exact HQ|split; [|split; [done|apply (Bsome None)]]]]; [|done].
    destruct HK as [->|HK]; [|rewrite HK; done]. destruct (find_char COLON os); [|done]. done.
  - destruct HK as (Hcc & Hin & t & -> & Ht). exists (short c None). eexists.
    destruct (c =? COLON) eqn:Ecc; [lia|]. rewrite decide_False by done.
    split; [done|]. split; [|split; [|split; [done|apply (Bsome None)]]]; [|done].
    apply schar_byte; [done|]. intros ->. done.
  - destruct HK as (Hcc & Hin & t & -> & Ht1 & Ht2).
    assert (Hne : to_schar c <> EOF). { apply schar_byte; [done|]. intros ->. done. }
    destruct (c =? COLON) eqn:Ecc; [lia|]. rewrite decide_True, decide_False by done.
    case_decide as Ecs.
    + rewrite bool_decide_eq_true_2 by done. cbn [negb]. destruct args as [|b args].
      * pose proof (drop_next _ _ _ _ Hd) as Hd'. pose proof (drop_none _ _ Hd' ltac:(lia)) as E. rewrite <- E, Nat.eqb_refl.
        exists bad. eexists. split; [done|]. split; [done|]. split; [done|]. split; [done|]. apply Bnone. lia.
      * pose proof (drop_next _ _ _ _ Hd) as Hd'. destruct (drop_some _ _ _ _ Hd') as [Hb' Hlt'].
        destruct (S k =? length argv)%nat eqn:E; [lia|].
        exists (short c (Some b)). eexists. split; [done|]. split; [done|]. split; [cbn; rewrite Hb'; done|]. split; [done|]. apply Bnone. lia.
    + rewrite bool_decide_eq_false_2 by done. cbn [negb].
      exists (short c (Some cs)). eexists. split; [done|]. split; [done|]. split; [cbn [optarg arg_text e_arg short]; rewrite Ha, Hn; done|]. split; [done|]. apply Bnone. lia.
  - destruct HK as (Hcc & Hin & t & -> & Ht1 & Ht2).
    assert (Hne : to_schar c <> EOF). { apply schar_byte; [done|]. intros ->. done. }
    destruct (c =? COLON) eqn:Ecc; [lia|]. rewrite !decide_True by done.
    case_decide as Ecs.
    + rewrite bool_decide_eq_true_2 by done. cbn [negb].
      exists (short c None). eexists. split; [done|]. split; [done|]. split; [done|]. split; [done|]. apply Bnone. lia.
    + rewrite bool_decide_eq_false_2 by done. cbn [negb].
      exists (short c (Some cs)). eexists. split; [done|]. split; [done|]. split; [cbn [optarg arg_text e_arg short]; rewrite Ha, Hn; done|]. split; [done|]. apply Bnone. lia.
Qed.

(** a long option *)
Lemma long_step s k a b args opts name value : optind s = k -> (0 < k)%nat -> first_nonopt s = last_nonopt s -> optarg s = None ->
  drop k argv = a :: args -> a = MINUS :: MINUS :: b -> long_text b name value -> lo = Some opts ->
  (no_meaning opts name -> exists s', long_option argv os false opts s k 2 = Some (GRet QUESTION None None s') /\ optarg s' = None /\ between s' (S k)) /\
  (forall i p, means opts name i p ->
    exists e s', long_option argv os false opts s k 2 = Some (GRet (e_code e) (e_long e) (e_flag e) s') /\ e_code e <> EOF /\ e_arg e = arg_text (optarg s') /\
    match value with
    | Some v => if decide (lo_has_arg p = 0) then e = bad /\ between s' (S k) else e = long i p (Some v) /\ between s' (S k)
    | None => if decide (lo_has_arg p = 1) then match args with [] => e = bad /\ between s' (S k) | v :: _ => e = long i p (Some v) /\ between s' (S (S k)) end
              else e = long i p None /\ between s' (S k)
    end).
Proof.
  intros Hk H0 Hf Harg Hd Ea Hb El. destruct (drop_some _ _ _ _ Hd) as [Ha Hlt].
  destruct (long_text_len _ _ _ Hb) as [En Hv].
  assert (Hn : (name_len b <= length b)%nat) by (destruct value; lia).
  assert (Edrop : drop 2 a = b) by (subst a; done).
  assert (Bn : forall k' arg, (0 < k')%nat -> between (Gs k' (Some (k, length a)) (first_nonopt s) (last_nonopt s) arg) k').
  { intros k' arg Hk'. left. split; [split; [done|split; [done|]]|done]. cbn. eauto. }
  unfold long_option. rewrite Ha, Edrop. split.
  - intros Hno. rewrite En in Hno. destruct (loop_lost opts b _ Hn Hno) as (pf & ex & amb & -> & Hc).
    rewrite Hk, Harg. destruct (amb && negb ex) eqn:Eamb.
    + eexists. split; [done|]. split; [done|]. apply Bn. lia.
    + destruct Hc as [Hc| ->]; [done|]. rewrite Ha. cbn [negb orb]. eexists. split; [done|]. split; [done|]. apply Bn. lia.
  - intros i p Hm. pose proof Hm as Hm0. rewrite En in Hm. destruct (loop_found opts b _ i p Hn Hm) as (ex & amb & -> & ->).
    assert (Hp : p ∈ opts).
    { destruct Hm as [(Hm & _)|(_ & (Hm & _) & _)]; by eapply elem_of_list_lookup_2. }
    assert (Hcode : forall arg, e_code (long i p arg) <> EOF).
    { intros arg. unfold long. destruct (lo_flag p) eqn:Ef; cbn; [done|]. eapply Hlo; eauto. }
    rewrite Hk, Harg.
    assert (Hfin : forall ind arg,
      match lo_flag p with
      | Some q => GRet 0 (Some i) (Some (q, lo_val p)) (Gs ind (Some (k, length a)) (first_nonopt s) (last_nonopt s) arg)
      | None => GRet (lo_val p) (Some i) None (Gs ind (Some (k, length a)) (first_nonopt s) (last_nonopt s) arg)
      end = GRet (e_code (long i p (arg_text arg))) (e_long (long i p (arg_text arg))) (e_flag (long i p (arg_text arg)))
              (Gs ind (Some (k, length a)) (first_nonopt s) (last_nonopt s) arg)).
    { intros ind arg. unfold long. destruct (lo_flag p); done. }
    assert (Harg_long : forall x, e_arg (long i p x) = x) by (intros x; unfold long; destruct (lo_flag p); done).
    destruct value as [v|].
    + destruct Hv as [Hv1 Hv2]. destruct (name_len b <? length b)%nat eqn:E; [|lia].
      case_decide as Eh.
      * rewrite Eh. cbn. exists bad. eexists. split; [done|]. split; [done|]. split; [done|]. split; [done|]. apply Bn. lia.
      * destruct (lo_has_arg p =? 0) eqn:E2; [lia|]. cbn [negb]. rewrite Hfin.
        assert (Et : arg_text (Some (k, (2 + name_len b + 1)%nat)) = Some v).
        { unfold arg_text. rewrite Ha. f_equal. rewrite <- Hv2, <- Edrop, drop_drop. done. }
        exists (long i p (Some v)). eexists. rewrite Et. split; [done|]. split; [apply Hcode|]. rewrite Harg_long. split; [symmetry; exact Et|]. split; [done|]. apply Bn. lia.
    + destruct (name_len b <? length b)%nat eqn:E; [lia|]. case_decide as Eh.
      * rewrite Eh. cbn [Z.eqb Pos.eqb]. destruct args as [|v args].
        -- pose proof (drop_next _ _ _ _ Hd) as Hd'. pose proof (drop_none _ _ Hd' ltac:(lia)) as E1.
           destruct (S k <? length argv)%nat eqn:E2; [lia|].
           exists bad. eexists. split; [done|]. split; [done|]. split; [done|]. split; [done|]. apply Bn. lia.
        -- pose proof (drop_next _ _ _ _ Hd) as Hd'. destruct (drop_some _ _ _ _ Hd') as [Hb' Hlt'].
           destruct (S k <? length argv)%nat eqn:E2; [|lia]. rewrite Hfin.
           assert (Et : arg_text (Some (S k, 0%nat)) = Some v) by (unfold arg_text; rewrite Hb'; done).
           exists (long i p (Some v)). eexists. rewrite Et. split; [done|]. split; [apply Hcode|]. rewrite Harg_long. split; [symmetry; exact Et|]. split; [done|]. apply Bn. lia.
      * destruct (lo_has_arg p =? 1) eqn:E2; [lia|]. rewrite Hfin.
        exists (long i p None). eexists. split; [done|]. split; [apply Hcode|]. rewrite Harg_long. split; [done|]. split; [done|]. apply Bn. lia.
Qed.

Definition scans (s : gstate) (evs : list event) (rest : list (list Z)) : Prop :=
  exists s', scan get argv s evs s' /\ drop (optind s') argv = rest /\ (optind s' <= length argv)%nat.

Lemma scan_one s e s' evs rest : get s = GRet (e_code e) (e_long e) (e_flag e) s' -> e_code e <> EOF -> e_arg e = arg_text (optarg s') ->
  scans s' evs rest -> scans s (e :: evs) rest.
Proof.
  intros H1 H2 H3 (s'' & H4 & H5). exists s''. split; [|done]. destruct e as [c a l f]. cbn in *. eapply scan_event; eauto.
Qed.

Lemma enter_ok s k o : between s k -> optind (enter s k o) = k /\ (0 < k)%nat /\ first_nonopt (enter s k o) = last_nonopt (enter s k o) /\ optarg (enter s k o) = None.
Proof.
  intros [[(H1 & H2 & _) H4]|[H1 H2]]; unfold enter; cbn.
  - rewrite H1. destruct (k =? 0)%nat eqn:E; [lia|]. done.
  - rewrite H2. cbn. split_and!; [done|lia|done..].
Qed.

Lemma get_long s k b args opts r : between s k -> drop k argv = (MINUS :: MINUS :: b) :: args -> lo = Some opts ->
  long_option argv os false opts (enter s k 2) k 2 = Some r -> get s = r.
Proof.
  intros Hb Hd El Hr. rewrite (get_enter s k _ MINUS b args Hb Hd eq_refl). rewrite El in *.
  cbn zeta. rewrite (bool_decide_eq_true_2 (is_Some (Some opts))) by eauto. rewrite Z.eqb_refl. cbn [andb]. rewrite Hr. done.
Qed.

(** in an argument whose option characters [cs] are left *)
Definition P_gives (args : list (list Z)) (evs : list event) (rest : list (list Z)) : Prop :=
  forall k s, drop k argv = args -> (k <= length argv)%nat -> between s k -> scans s evs rest.
Definition P_cluster (cs : list Z) (args : list (list Z)) (evs : list event) (rest : list (list Z)) : Prop :=
  forall k s a o, drop k argv = a :: args -> drop o a = cs -> ~ is_long lo a -> (exists x l, a = MINUS :: x :: l) ->
  (if decide (cs = []) then between s (S k) else inside s k o \/ between s k /\ o = 1%nat) -> scans s evs rest.

Lemma get_cluster s k a o c cs args : drop k argv = a :: args -> drop o a = c :: cs -> ~ is_long lo a -> (exists x l, a = MINUS :: x :: l) ->
  inside s k o \/ between s k /\ o = 1%nat ->
  exists s1, get s = short_option argv os s1 k o /\ optind s1 = k /\ (0 < k)%nat /\ first_nonopt s1 = last_nonopt s1 /\ optarg s1 = None.
Proof.
  intros Hd Ho Hl Hx [Hi|[Hb ->]].
  - destruct (drop_some _ _ _ _ Hd) as [Ha _]. eexists. split; [eapply get_inside; eauto|]. destruct Hi as (H1 & H2 & H3 & H4). done.
  - destruct Hx as (x & l & Ea). exists (enter s k 1). split; [|by apply enter_ok].
    rewrite (get_enter s k a x l args Hb Hd Ea). cbn zeta.
    destruct lo as [opts|] eqn:Elo; [|done].
    destruct (x =? MINUS) eqn:Ex; [exfalso; apply Hl; exists opts, l; split; [done|]; rewrite Ea; repeat f_equal; lia|].
    rewrite andb_false_r. done.
Qed.

Lemma main : (forall args evs rest, gives os lo args evs rest -> P_gives args evs rest) /\
             (forall cs args evs rest, cluster os lo cs args evs rest -> P_cluster cs args evs rest).
Proof.
  apply (gives_cluster_ind os lo (fun args evs rest _ => P_gives args evs rest) (fun cs args evs rest _ => P_cluster cs args evs rest)).
  - intros k s Hd Hk Hb. destruct (get_end s k Hb Hd Hk) as (s' & E1 & E2). exists s'. split; [by eapply scan_end|]. rewrite E2. split; [done|lia].
  - intros a args Ha k s Hd Hk Hb. destruct (get_stop s k a args Hb Hd Ha) as (s' & E1 & E2). exists s'. split; [by eapply scan_end|]. rewrite E2. split; [done|lia].
  - intros c cs args evs rest Hl _ IH k s Hd Hk Hb. eapply (IH k s (MINUS :: c :: cs) 1%nat Hd); [done|done|eauto|].
    rewrite decide_False by done. right. done.
  - intros opts b name value args evs rest El Hb Hno _ IH k s Hd Hk Hbt.
    destruct (enter_ok s k 2 Hbt) as (E1 & E2 & E3 & E4). destruct (drop_some _ _ _ _ Hd) as [_ Hlt].
    destruct (proj1 (long_step _ k _ b args opts name value E1 E2 E3 E4 Hd eq_refl Hb El) Hno) as (s' & Hr & Ho & Hbt').
    eapply (scan_one s bad s'); [eapply get_long; eauto|done|by rewrite Ho|].
    eapply IH; [by eapply drop_next|lia|done].
  - intros opts b name v i p args evs rest El Hb Hm Hh _ IH k s Hd Hk Hbt.
    destruct (enter_ok s k 2 Hbt) as (E1 & E2 & E3 & E4). destruct (drop_some _ _ _ _ Hd) as [_ Hlt].
    destruct (proj2 (long_step _ k _ b args opts name _ E1 E2 E3 E4 Hd eq_refl Hb El) i p Hm) as (e & s' & Hr & He & Ha & Hc).
    cbn beta iota in Hc. rewrite decide_False in Hc by done. destruct Hc as [-> Hbt'].
    eapply scan_one; [eapply get_long; eauto|done|done|]. eapply IH; [by eapply drop_next|lia|done].
  - intros opts b name v i p args evs rest El Hb Hm Hh _ IH k s Hd Hk Hbt.
    destruct (enter_ok s k 2 Hbt) as (E1 & E2 & E3 & E4). destruct (drop_some _ _ _ _ Hd) as [_ Hlt].
    destruct (proj2 (long_step _ k _ b args opts name _ E1 E2 E3 E4 Hd eq_refl Hb El) i p Hm) as (e & s' & Hr & He & Ha & Hc).
    cbn beta iota in Hc. rewrite decide_True in Hc by done. destruct Hc as [-> Hbt'].
    eapply scan_one; [eapply get_long; eauto|done|done|]. eapply IH; [by eapply drop_next|lia|done].
  - intros opts b name i p v args evs rest El Hb Hm Hh _ IH k s Hd Hk Hbt.
    destruct (enter_ok s k 2 Hbt) as (E1 & E2 & E3 & E4). destruct (drop_some _ _ _ _ Hd) as [_ Hlt].
    destruct (proj2 (long_step _ k _ b _ opts name _ E1 E2 E3 E4 Hd eq_refl Hb El) i p Hm) as (e & s' & Hr & He & Ha & Hc).
    cbn beta iota in Hc. rewrite decide_True in Hc by done. destruct Hc as [-> Hbt'].
    pose proof (drop_next _ _ _ _ Hd) as Hd'. destruct (drop_some _ _ _ _ Hd') as [_ Hlt'].
    eapply scan_one; [eapply get_long; eauto|done|done|]. eapply IH; [by eapply drop_next|lia|done].
  - intros opts b name i p El Hb Hm Hh k s Hd Hk Hbt.
    destruct (enter_ok s k 2 Hbt) as (E1 & E2 & E3 & E4). destruct (drop_some _ _ _ _ Hd) as [_ Hlt].
    destruct (proj2 (long_step _ k _ b _ opts name _ E1 E2 E3 E4 Hd eq_refl Hb El) i p Hm) as (e & s' & Hr & He & Ha & Hc).
    cbn beta iota in Hc. rewrite decide_True in Hc by done. destruct Hc as [-> Hbt'].
    eapply scan_one; [eapply get_long; eauto|done|done|].
    pose proof (drop_next _ _ _ _ Hd) as Hd'. destruct (get_end s' (S k) Hbt' Hd' ltac:(lia)) as (s2 & F1 & F2).
    exists s2. split; [by eapply scan_end|]. rewrite F2. split; [done|lia].
  - intros opts b name i p args evs rest El Hb Hm Hh _ IH k s Hd Hk Hbt.
    destruct (enter_ok s k 2 Hbt) as (E1 & E2 & E3 & E4). destruct (drop_some _ _ _ _ Hd) as [_ Hlt].
    destruct (proj2 (long_step _ k _ b args opts name _ E1 E2 E3 E4 Hd eq_refl Hb El) i p Hm) as (e & s' & Hr & He & Ha & Hc).
    cbn beta iota in Hc. rewrite decide_False in Hc by done. destruct Hc as [-> Hbt'].
    eapply scan_one; [eapply get_long; eauto|done|done|]. eapply IH; [by eapply drop_next|lia|done].
  - intros args evs rest _ IH k s a o Hd Ho Hl Hx Hs. rewrite decide_True in Hs by done.
    destruct (drop_some _ _ _ _ Hd) as [_ Hlt]. eapply IH; [by eapply drop_next|lia|done].
  - intros c cs args evs rest HK _ IH k s a o Hd Ho Hl Hx Hs. rewrite decide_False in Hs by done.
    destruct (get_cluster _ _ _ _ _ _ _ Hd Ho Hl Hx Hs) as (s1 & Eg & E1 & E2 & E3 & E4).
    destruct (short_step s1 k o a c cs args E1 E2 E3 E4 Hd Ho) as (e & s' & Hr & He & Ha & Hc). rewrite HK in Hc. destruct Hc as [-> Hc].
    eapply scan_one; [by rewrite Eg|done|done|]. eapply (IH k s' a (S o)); [done|by eapply drop_next|done|done|].
    case_decide; [done|by left].
  - intros c cs args evs rest HK _ IH k s a o Hd Ho Hl Hx Hs. rewrite decide_False in Hs by done.
    destruct (get_cluster _ _ _ _ _ _ _ Hd Ho Hl Hx Hs) as (s1 & Eg & E1 & E2 & E3 & E4).
    destruct (short_step s1 k o a c cs args E1 E2 E3 E4 Hd Ho) as (e & s' & Hr & He & Ha & Hc). rewrite HK in Hc. destruct Hc as [-> Hc].
    eapply scan_one; [by rewrite Eg|done|done|]. eapply (IH k s' a (S o)); [done|by eapply drop_next|done|done|].
    case_decide; [done|by left].
  - intros c cs args evs rest HK Hcs _ IH k s a o Hd Ho Hl Hx Hs. rewrite decide_False in Hs by done.
    destruct (get_cluster _ _ _ _ _ _ _ Hd Ho Hl Hx Hs) as (s1 & Eg & E1 & E2 & E3 & E4).
    destruct (short_step s1 k o a c cs args E1 E2 E3 E4 Hd Ho) as (e & s' & Hr & He & Ha & Hc).
    assert (Hc' : e = short c (Some cs) /\ between s' (S k)) by (destruct HK as [HK|HK]; rewrite HK, decide_False in Hc by done; done).
    destruct Hc' as [-> Hc']. destruct (drop_some _ _ _ _ Hd) as [_ Hlt].
    eapply scan_one; [by rewrite Eg|done|done|]. eapply IH; [by eapply drop_next|lia|done].
  - intros c args evs rest HK _ IH k s a o Hd Ho Hl Hx Hs. rewrite decide_False in Hs by done.
    destruct (get_cluster _ _ _ _ _ _ _ Hd Ho Hl Hx Hs) as (s1 & Eg & E1 & E2 & E3 & E4).
    destruct (short_step s1 k o a c [] args E1 E2 E3 E4 Hd Ho) as (e & s' & Hr & He & Ha & Hc). rewrite HK, decide_True in Hc by done. destruct Hc as [-> Hc].
    destruct (drop_some _ _ _ _ Hd) as [_ Hlt].
    eapply scan_one; [by rewrite Eg|done|done|]. eapply IH; [by eapply drop_next|lia|done].
  - intros c b args evs rest HK _ IH k s a o Hd Ho Hl Hx Hs. rewrite decide_False in Hs by done.
    destruct (get_cluster _ _ _ _ _ _ _ Hd Ho Hl Hx Hs) as (s1 & Eg & E1 & E2 & E3 & E4).
    destruct (short_step s1 k o a c [] _ E1 E2 E3 E4 Hd Ho) as (e & s' & Hr & He & Ha & Hc). rewrite HK, decide_True in Hc by done. destruct Hc as [-> Hc].
    pose proof (drop_next _ _ _ _ Hd) as Hd'. destruct (drop_some _ _ _ _ Hd') as [_ Hlt'].
    eapply scan_one; [by rewrite Eg|done|done|]. eapply IH; [by eapply drop_next|lia|done].
  - intros c HK k s a o Hd Ho Hl Hx Hs. rewrite decide_False in Hs by done.
    destruct (get_cluster _ _ _ _ _ _ _ Hd Ho Hl Hx Hs) as (s1 & Eg & E1 & E2 & E3 & E4).
    destruct (short_step s1 k o a c [] _ E1 E2 E3 E4 Hd Ho) as (e & s' & Hr & He & Ha & Hc). rewrite HK, decide_True in Hc by done. destruct Hc as [-> Hc].
    destruct (drop_some _ _ _ _ Hd) as [_ Hlt].
    eapply scan_one; [by rewrite Eg|done|done|].
    pose proof (drop_next _ _ _ _ Hd) as Hd'. destruct (get_end s' (S k) Hc Hd' ltac:(lia)) as (s2 & F1 & F2).
    exists s2. split; [by eapply scan_end|]. rewrite F2. split; [done|lia].
Qed.
End calls.

(** ** Every command line has a meaning *)
Lemma gives_total os lo : forall n args, (length args <= n)%nat -> exists evs rest, gives os lo args evs rest.
Proof.
  induction n as [|n IHn]; intros args Hn.
  - destruct args as [|]; [|cbn in Hn; lia]. exists [], []. constructor.
  - destruct args as [|a args]; [exists [], []; constructor|]. cbn in Hn.
    assert (IH : forall args', (length args' <= length args)%nat -> exists evs rest, gives os lo args' evs rest) by (intros; apply IHn; lia).
    destruct a as [|m [|c cs]].
    + exists [], ([] :: args). by constructor.
    + exists [], ([m] :: args). constructor. intros; congruence.
    + destruct (decide (m = MINUS)) as [->|Hm]; [|exists [], ((m :: c :: cs) :: args); constructor; congruence].
      assert (Hcases : is_long lo (MINUS :: c :: cs) \/ ~ is_long lo (MINUS :: c :: cs)).
      { destruct lo as [opts|]; [|right; intros (? & ? & ? & ?); done].
        destruct (decide (c = MINUS)) as [->|Hc]; [left; by exists opts, cs|right; intros (? & ? & ? & [= ? ?]); done]. }
      destruct Hcases as [(opts & b & El & [= -> ->])|Hl].
      * destruct (name_len_spec b) as (value & Hb & Hn1 & Hn2).
        destruct (long_loop_means opts b _ Hn1) as (pf & ex & amb & _ & [(i & p & _ & _ & Hm)|[_ Hno]]).
        -- destruct value as [v|].
           ++ destruct (IH args ltac:(lia)) as (evs & rest & Hg).
              destruct (decide (lo_has_arg p = 0)); eexists _, _; [by eapply g_long_no_value|by eapply g_long_value].
           ++ destruct (decide (lo_has_arg p = 1)).
              ** destruct args as [|v args]; [eexists _, _; by eapply g_long_missing|].
                 destruct (IH args ltac:(cbn; lia)) as (evs & rest & Hg). eexists _, _. by eapply g_long_next.
              ** destruct (IH args ltac:(lia)) as (evs & rest & Hg). eexists _, _. by eapply g_long_plain.
        -- destruct (IH args ltac:(lia)) as (evs & rest & Hg). eexists _, _. by eapply g_long_bad.
      * assert (HC : forall l, exists evs rest, cluster os lo l args evs rest).
        { induction l as [|x l IHl].
          - destruct (IH args ltac:(lia)) as (evs & rest & Hg). eexists _, _. by constructor.
          - destruct IHl as (evs1 & rest1 & Hc). destruct (IH args ltac:(lia)) as (evs & rest & Hg).
            destruct (kind_of os x) eqn:Ek.
            + eexists _, _. by eapply c_bad.
            + eexists _, _. by eapply c_plain.
            + destruct l as [|y l].
              * destruct args as [|v args]; [eexists _, _; by eapply c_missing|].
                destruct (IH args ltac:(cbn; lia)) as (evs2 & rest2 & Hg2). eexists _, _. by eapply c_next.
              * eexists _, _. eapply c_text; [by left|done|done].
            + destruct l as [|y l]; eexists _, _; [by eapply c_none|]. eapply c_text; [by right|done|done]. }
        destruct (HC (c :: cs)) as (evs & rest & H). eexists _, _. by eapply g_short.
Qed.

Lemma scan_det get argv s evs s1 : scan get argv s evs s1 -> forall evs' s1', scan get argv s evs' s1' -> evs = evs' /\ s1 = s1'.
Proof.
  induction 1 as [s l f s' H|s c l f s' evs s'' arg H1 H2 H3 H4 IH]; intros evs' s1' H'.
  - inversion H' as [? ? ? ? H0|? ? ? ? ? ? ? ? H0 Hne]; subst; rewrite H in H0; injection H0; intros; subst; done.
  - inversion H' as [? ? ? ? H0|? ? ? ? ? ? ? ? H0 Hne Harg Hs]; subst; rewrite H1 in H0; injection H0; intros; subst; [done|].
    destruct (IH _ _ Hs) as [-> ->]. done.
Qed.
