(** The writer produces a text that denotes the datum. *)
From stdpp Require Import base gmap list fin_maps.
From Coq Require Import ZArith Lia.
From Coq Require Import ZifyBool ZifyNat.
From Verif Require Import CInt Symbols Heap HeapLemmas DataModel DataSpec DataLemmas CoreProofs StringProofs HashProofs ArrayProofs LibModel PropsHash ReadModel ReadSpec ReadProofs DisplayModel.
Import Strings.String.StringSyntax.
Open Scope Z_scope.
Open Scope mes_scope.

(** ** A written datum can be read *)
Lemma delimiter_cases c : delimiter c -> c ∈ [32; 9; 10; 12; 11; 13; 34; 40; 41; 59].
Proof. unfold delimiter, white. lits. set_solver. Qed.
Lemma ends_lone c rest : ends rest -> lone c rest.
Proof.
  destruct rest as [|p rest]; [done|]. intros H. apply delimiter_cases in H. rewrite !elem_of_cons, elem_of_nil in H. unfold lone, octal, decimal_digit, letter. lia.
Qed.
Lemma ends_not_letter rest : ends rest -> not_letter rest.
Proof. destruct rest as [|p rest]; [done|]. intros H. apply delimiter_cases in H. rewrite !elem_of_cons, elem_of_nil in H. unfold not_letter, letter. lia. Qed.

Lemma byte_text_string bs : is_bytes bs -> string_text (bs ≫= byte_text) bs.
Proof.
  induction 1 as [|b bs Hb Hbs IH]; [constructor|]. cbn [mbind list_bind]. unfold byte_text.
  destruct (List.find (fun e => snd e =? b) (escapes ++ [(92, 92); (34, 34)])) as [[c b']|] eqn:E.
  - apply List.find_some in E as [Hin Hb']. cbn [snd fst] in *. apply Z.eqb_eq in Hb' as ->. apply List.in_app_or in Hin as [Hin|Hin].
    + cbn [app]. apply st_escape; [|done]. by apply elem_of_list_In.
    + cbn in Hin. destruct Hin as [[= <- <-]|[[= <- <-]|[]]]; cbn [app].
      * apply st_quoted; [lia| |done]. intros b'. unfold escapes. rewrite !elem_of_cons, elem_of_nil. intros F. repeat (destruct F as [F|F]; [discriminate F|]). done.
      * apply st_quoted; [lia| |done]. intros b'. unfold escapes. rewrite !elem_of_cons, elem_of_nil. intros F. repeat (destruct F as [F|F]; [discriminate F|]). done.
  - cbn [app]. apply st_char; [|done]. lits. intros F. rewrite !elem_of_cons, elem_of_nil in F.
    pose proof (List.find_none _ _ E) as Hn. destruct F as [->|[->|[]]].
    + specialize (Hn (34, 34)). cbn in Hn. discriminate Hn. tauto.
    + specialize (Hn (92, 92)). cbn in Hn. discriminate Hn. tauto.
Qed.

Lemma number_text_max n t : number_text n t -> in_int n = true -> (length t <= 11)%nat.
Proof.
  intros (ds & -> & Hne & Hd & Hv & Hh) Hn.
  assert (length ds <= 10)%nat as Hl.
  { destruct (Nat.le_gt_cases (length ds) 10) as [?|Hgt]; [done|]. exfalso. destruct ds as [|d ds]; [done|]. cbn [length] in Hgt. inversion Hd as [|? ? Hd0 Hds]; subst.
    assert (d <> 48). { intros ->. specialize (Hh eq_refl). injection Hh as ->. cbn in Hgt. lia. }
    change (digits_value 10 (d :: ds)) with (dvalue_from 10 0 (d :: ds)) in Hv. rewrite (dvalue_cons _ _ _ _ _ (digit_value_10 _ Hd0)) in Hv. unfold decimal_digit in Hd0.
    assert (forall l v, Forall decimal_digit l -> v * 10 ^ Z.of_nat (length l) <= dvalue_from 10 v l) as Hlow.
    { clear. induction l as [|c l IH]; intros v Hl; [cbn; lia|]. inversion Hl as [|? ? Hc Hl']; subst. rewrite (dvalue_cons _ _ _ _ _ (digit_value_10 _ Hc)).
      specialize (IH (v * 10 + (c - 48)) Hl'). unfold decimal_digit in Hc. cbn [length]. rewrite Nat2Z.inj_succ, Z.pow_succ_r by lia.
      assert (0 < 10 ^ Z.of_nat (length l)) by (apply Z.pow_pos_nonneg; lia). nia. }
    specialize (Hlow ds (0 * 10 + (d - 48)) Hds).
    assert (10 ^ 10 <= 10 ^ Z.of_nat (length ds)) by (apply Z.pow_le_mono_r; lia). unfold in_int, INT_MIN, INT_MAX in Hn. nia. }
  rewrite app_length. destruct (n <? 0); cbn; lia.
Qed.

Lemma list_follows_ends d t rest : follows d t -> ends (t ++ rest).
Proof. destruct 1; cbn; unfold delimiter; lits; [right; set_solver|left; unfold white; set_solver|left; unfold white; set_solver]. Qed.

Lemma written_readable max : 64 <= max ->
  (forall x t, writes x t -> representable max x -> forall rest, ends rest -> text max rest t x) /\
  (forall x t, follows x t -> representable max x -> forall rest, items max true rest t x).
Proof.
  intros Hmax. apply writes_follows_ind.
  - intros n t Hn Hre rest He. inversion Hre as [? Hint| | | | | | | |]; subst. pose proof (number_text_max _ _ Hn Hint) as Hlen. destruct Hn as (ds & -> & Hne & Hd & Hv & _).
    rewrite app_length in Hlen.
    replace (XNum n) with (XNum (if bool_decide ((if n <? 0 then bytes_of "-" else []) = bytes_of "-") then - digits_value 10 ds else digits_value 10 ds)).
    2:{ destruct (Z.ltb_spec n 0); [rewrite bool_decide_eq_true_2 by done|rewrite bool_decide_eq_false_2 by done]; f_equal; lia. }
    apply t_number; try done.
    + destruct (n <? 0); set_solver.
    + unfold short. lia.
    + rewrite Hv. unfold in_int, INT_MIN, INT_MAX in Hint. unfold LONG_MAX. lia.
  - intros name c Hin _ rest He. apply t_named_char; [|by apply ends_not_letter]. unfold written_names in Hin. unfold named_chars. rewrite !elem_of_cons, elem_of_nil in *. tauto.
  - intros c Hc _ rest He. apply t_char. by apply ends_lone.
  - intros bs Hre rest He. inversion Hre; subst. apply t_string; [by apply byte_text_string|done].
  - intros name Hre rest He. inversion Hre; subst. by apply t_symbol.
  - intros name Hre rest He. inversion Hre; subst. by apply t_keyword.
  - intros _ rest He. apply (t_list max [41]). apply (i_close max false []). constructor.
  - intros b _ rest He. destruct b; constructor.
  - intros a d ta td Ha IHa Hd IHd Hre rest He. inversion Hre; subst. apply t_list. apply (i_item max false []); [constructor| |by apply IHd].
    apply IHa; [done|]. by eapply list_follows_ends.
  - intros _ rest He. apply (t_vector max [41] []). apply (i_close max false []). constructor.
  - intros a l ta tl Ha IHa Hl IHl Hre rest He. inversion Hre as [| | | | | | | |? HF]; subst. inversion HF as [|? ? Hra Hrl]; subst. apply (t_vector max (ta ++ tl) (a :: l)).
    apply (i_item max false []); [constructor| |].
    + apply IHa; [done|]. by eapply list_follows_ends.
    + apply IHl. clear -Hrl. induction Hrl; cbn [XList foldr]; by constructor.
  - intros _ rest. apply (i_close max true []). constructor.
  - intros a d ta td Ha IHa Hd IHd Hre rest. inversion Hre; subst. apply (i_item max true [32]); [|apply IHa; [done|by eapply list_follows_ends]|by apply IHd].
    apply lay_white; [unfold white; set_solver|constructor].
  - intros x t _ Hw IHw Hre rest. lits. cbn [app]. apply (i_dot max [32] [32] t x []).
    + apply lay_white; [unfold white; set_solver|constructor].
    + apply lay_white; [unfold white; set_solver|constructor].
    + cbn [app]. apply IHw; [done|]. cbn. unfold delimiter. right. lits. set_solver.
    + constructor.
    + cbn. left. unfold white. set_solver.
Qed.

(** ** Output *)
(** [t] was written to [fd] *)
Definition outs (fd : Z) (t : list Z) (s : state) : state := set_out_fds (<[fd := default [] (out_fds s !! fd) ++ t]> (out_fds s)) s.
Lemma outs_outs fd a b s : outs fd b (outs fd a s) = outs fd (a ++ b) s.
Proof. unfold outs. cbn. rewrite lookup_insert. cbn. rewrite insert_insert, <- app_assoc. done. Qed.
Lemma write_fd_ok fd t a s : write_fd fd t (outs fd a s) = ROk tt (outs fd (a ++ t) s).
Proof. rewrite <- outs_outs. done. Qed.
Lemma fdputs_ok fd t a s : Forall (fun b => b <> 0) t -> fdputs t fd (outs fd a s) = ROk tt (outs fd (a ++ t) s).
Proof. intros H. unfold fdputs. rewrite until_nul_id by done. apply write_fd_ok. Qed.
Lemma fdputc_ok fd c a s : fdputc c fd (outs fd a s) = ROk tt (outs fd (a ++ [to_byte c]) s).
Proof. apply write_fd_ok. Qed.
Lemma rd_outs fd a s p c : cells s !! p = Some c -> rd p (outs fd a s) = ROk c (outs fd a s).
Proof. intros H. apply cells_heap in H as [H _]. by apply rd_ok'. Qed.
Lemma ty_outs fd a s p c : cells s !! p = Some c -> ty p (outs fd a s) = ROk (c_ty c) (outs fd a s).
Proof. intros H. apply cells_heap in H as [H _]. by apply ty_s. Qed.
Lemma car_of_outs fd a s p c : cells s !! p = Some c -> car_of p (outs fd a s) = ROk (c_car c) (outs fd a s).
Proof. intros H. apply cells_heap in H as [H _]. by apply car_of_s. Qed.
Lemma cell_bytes_outs fd a s p c : cells s !! p = Some c -> c_ty c = TBYTES -> cell_bytes p (outs fd a s) = ROk (c_bytes c) (outs fd a s).
Proof. intros H Ht. unfold cell_bytes. rewrite (bind_ok _ _ _ _ _ (rd_outs fd a s _ _ H)). by rewrite Ht. Qed.

(** ** Numbers *)
Lemma decimal_ok n : forall u, 0 <= u < 10 ^ Z.of_nat n -> (0 < n)%nat ->
  decimal n u <> [] /\ Forall decimal_digit (decimal n u) /\ digits_value 10 (decimal n u) = u /\ (head (decimal n u) = Some 48 -> decimal n u = [48]).
Proof.
  induction n as [|n IH]; intros u Hu Hn; [lia|]. cbn [decimal]. pose proof (Z.mod_pos_bound u 10 ltac:(lia)) as Hm.
  assert (decimal_digit (48 + u mod 10)) as Hd by (unfold decimal_digit; lia).
  pose proof (Z.div_mod u 10 ltac:(lia)) as Hdm. destruct (Z.eqb_spec (u / 10) 0) as [E|E].
  - split; [done|]. split; [by constructor|]. split; [|by intros [= ->]].
    change (dvalue_from 10 0 [48 + u mod 10] = u). rewrite (dvalue_cons _ _ _ _ _ (digit_value_10 _ Hd)). cbn. lia.
  - assert (0 < u / 10) as Hpos by (pose proof (Z.div_pos u 10); lia).
    assert (u / 10 < 10 ^ Z.of_nat n) as Hlt. { rewrite Nat2Z.inj_succ, Z.pow_succ_r in Hu by lia. apply Z.div_lt_upper_bound; lia. }
    destruct n as [|n]; [cbn in Hlt; lia|]. destruct (IH (u / 10)) as (Hne & HF & Hv & Hh); [lia|lia|].
    split; [by destruct (decimal (S n) (u / 10))|]. split; [apply Forall_app; split; [done|by constructor]|]. split.
    + unfold digits_value in *. rewrite fold_left_app, Hv. cbn [fold_left]. rewrite (digit_value_10 _ Hd). cbn. lia.
    + destruct (decimal (S n) (u / 10)) as [|d r] eqn:Ed; [done|]. cbn [app head]. intros [= ->]. specialize (Hh eq_refl). injection Hh as ->.
      change (0 = u / 10) in Hv. lia.
Qed.
Lemma itoa_ok n : in_int n = true -> number_text n (itoa n) /\ Forall (fun b => b <> 0) (itoa n).
Proof.
  intros Hn. unfold in_int, INT_MIN, INT_MAX in Hn. unfold itoa.
  assert (10 ^ 10 <= 10 ^ Z.of_nat 64) as Hp by (apply Z.pow_le_mono_r; lia).
  destruct (decimal_ok 64 (Z.abs n)) as (Hne & HF & Hv & Hh); [lia|lia|].
  assert (Forall (fun b => b <> 0) (decimal 64 (Z.abs n))) as H0. { eapply Forall_impl; [exact HF|]. unfold decimal_digit. intros; lia. }
  destruct (Z.ltb_spec n 0).
  - replace (- n) with (Z.abs n) by lia. split; [|by constructor]. exists (decimal 64 (Z.abs n)). rewrite (proj2 (Z.ltb_lt _ _)) by done. done.
  - replace (decimal 64 n) with (decimal 64 (Z.abs n)) by (f_equal; lia). split; [|done]. exists (decimal 64 (Z.abs n)). rewrite (proj2 (Z.ltb_ge _ _)) by done. done.
Qed.

(** ** Characters and strings *)
Lemma char_written c fd a s : c = 0 \/ 7 <= c <= 13 \/ 32 <= c <= 127 ->
  exists t, (fdputs (bytes_of "#") fd ;;; fdwrite_char c fd) (outs fd a s) = ROk tt (outs fd (a ++ t) s) /\ writes (XChar c) t.
Proof.
  intros Hc. rewrite (bind_ok _ _ _ _ _ (fdputs_ok fd (bytes_of "#") a s ltac:(lits; repeat constructor; lia))). unfold fdwrite_char.
  assert (to_schar c = c) as -> by (unfold to_schar; lia). cbv zeta.
  assert (forall n x, (n, c) ∈ written_names -> x = 92 :: n -> Forall (fun b => b <> 0) x -> exists t, fdputs x fd (outs fd (a ++ bytes_of "#") s) = ROk tt (outs fd (a ++ t) s) /\ writes (XChar c) t) as Hnamed.
  { intros n x Hin -> H0. exists (bytes_of "#\" ++ n). split; [|by apply w_named_char]. rewrite fdputs_ok by done. by rewrite <- app_assoc. }
  repeat match goal with |- exists t, (if c =? ?k then fdputs (bytes_of ?x) fd else _) _ = _ /\ _ =>
    destruct (Z.eqb_spec c k) as [->|?]; [eapply (Hnamed (tail (bytes_of x))); [vm_compute; set_solver|reflexivity|lits; repeat constructor; lia]|] end.
  assert ((32 <=? c) && (c <=? 127) = true) as -> by lia.
  rewrite (bind_ok _ _ _ _ _ (fdputc_ok _ _ _ _)), fdputc_ok. exists (bytes_of "#\" ++ [c]). split; [|apply w_char; lia].
  rewrite <- !app_assoc. cbn [app]. rewrite !to_byte_id by lia. done.
Qed.
Lemma string_char_written b fd a s : is_byte b -> fdwrite_string_char b fd (outs fd a s) = ROk tt (outs fd (a ++ byte_text b) s).
Proof.
  intros Hb. unfold is_byte in Hb. unfold fdwrite_string_char. cbv zeta.
  destruct (decide (b ∈ [0; 7; 8; 9; 11; 10; 12; 13; 27; 92; 34])) as [Hin|Hin].
  - rewrite !elem_of_cons, elem_of_nil in Hin. 
    repeat (destruct Hin as [->|Hin]; [match goal with |- _ = ROk tt (outs fd (a ++ byte_text ?k) s) =>
      assert (Forall (fun b => b <> 0) (byte_text k)) as H0 by (unfold byte_text; cbn; repeat constructor; lia); exact (fdputs_ok fd (byte_text k) a s H0) end|]). done.
  - rewrite !elem_of_cons, elem_of_nil in Hin.
    assert (forall k, 0 <= k < 128 -> b <> k -> to_schar b =? k = false) as Hk by (intros k Hk Hbk; unfold to_schar; lia).
    rewrite !Hk by lia. rewrite fdputc_ok. do 3 f_equal.
    assert (byte_text b = [b]) as ->. { unfold byte_text. cbn [escapes app List.find snd]. rewrite !(proj2 (Z.eqb_neq _ b)) by lia. done. }
    f_equal. unfold to_byte, to_schar. lia.
Qed.
Lemma bytes_written fd bs : is_bytes bs -> forall a s, fdwrite_bytes bs fd (outs fd a s) = ROk tt (outs fd (a ++ (bs ≫= byte_text)) s).
Proof.
  induction 1 as [|b bs Hb Hbs IH]; intros a s; cbn [fdwrite_bytes mbind list_bind]; [by rewrite app_nil_r|].
  rewrite (bind_ok _ _ _ _ _ (string_char_written b fd a s Hb)). rewrite IH. by rewrite <- app_assoc.
Qed.
Lemma string_written bs fd a s : is_bytes bs -> fdwrite_string (bs ++ [0]) (Z.of_nat (length bs)) fd (outs fd a s) = ROk tt (outs fd (a ++ (bs ≫= byte_text)) s).
Proof.
  intros Hb. unfold fdwrite_string. rewrite app_length. cbn [length]. rewrite (proj2 (Z.leb_le _ _)) by lia.
  rewrite Nat2Z.id, take_app. by apply bytes_written.
Qed.
Lemma plain_text name : Forall word_char name -> plain name -> (name ≫= byte_text) = name.
Proof.
  induction 1 as [|c name Hc Hn IH]; intros Hp; [done|]. inversion Hp as [|? ? Hp0 Hp']; subst. cbn [mbind list_bind]. rewrite IH by done.
  assert (byte_text c = [c]) as ->; [|done]. apply word_char_not in Hc as (Hc1 & Hc2 & Hc3). rewrite !elem_of_cons, elem_of_nil in *.
  unfold byte_text. cbn [escapes app List.find snd]. rewrite !(proj2 (Z.eqb_neq _ c)) by lia. done.
Qed.
Lemma word_bytes name : Forall word_char name -> is_bytes name.
Proof. intros H. eapply Forall_impl; [exact H|]. intros c [? _]. unfold is_byte. lia. Qed.

(** ** write *)
(** how deep the calls nest; an element of a vector may take one more *)
Fixpoint wdepth (x : sexp) : nat :=
  match x with
  | XPair a d => S (Nat.max (wdepth a) (wdepth d))
  | XVec l => S (S (foldr (fun x n => Nat.max (wdepth x) n) O l))
  | _ => 1%nat
  end.

Lemma ready_special max w size s al name p : ready max w size s al -> (name, p) ∈ special_names -> text_at (cells s) TSPECIAL p name.
Proof. intros Hr H. pose proof (ready_names _ _ _ _ _ Hr) as Hn. rewrite Forall_forall in Hn. by apply (Hn (name, p)). Qed.
Lemma nil_special : (bytes_of "()", cell_nil) ∈ special_names.
Proof. unfold special_names. set_solver. Qed.
Lemma circular_special : (bytes_of "*circular*", cell_circular) ∈ special_names.
Proof. unfold special_names. set_solver. Qed.
Lemma bool_special (b : bool) : (if b then bytes_of "#t" else bytes_of "#f", if b then cell_t else cell_f) ∈ special_names.
Proof. unfold special_names. destruct b; set_solver. Qed.
Lemma text_at_unique h t t' p bs bs' : text_at h t p bs -> text_at h t' p bs' -> bs = bs' /\ t = t'.
Proof.
  intros (c & b & Hc & Ht & Hl & Hb & Htb & Hbs) (c' & b' & Hc' & Ht' & Hl' & Hb' & Htb' & Hbs'). rewrite Hc in Hc'. injection Hc' as <-.
  rewrite Hb in Hb'. injection Hb' as <-. rewrite Hbs in Hbs'. apply app_inj_tail in Hbs' as [-> _]. split; [done|congruence].
Qed.

Section Writer.
Context (call_printer : Z -> Z -> M Z) (procedure_p : Z -> M bool) (max w size fd : Z) (s : state) (al : list entry).
Context (Hready : ready max w size s al) (Hnull : cells s !! 0 = None).
Notation display := (display_helper call_printer procedure_p).

Lemma special_at name p : (name, p) ∈ special_names -> text_at (cells s) TSPECIAL p name.
Proof. by apply (ready_special max w size s al). Qed.
(** what a constant can stand for *)
Lemma sexp_special name p x : (name, p) ∈ special_names -> sexp_at al (cells s) p x ->
  x = XSym name \/ (p = cell_nil /\ x = XNil) \/ (exists b : bool, p = (if b then cell_t else cell_f) /\ x = XBool b).
Proof.
  intros Hin Hx. destruct (special_at _ _ Hin) as (c & b & Hc & Ht & Hrest).
  assert (forall q t, cells s !! p = Some q -> c_ty q = t -> t = TSPECIAL) as Hty by (intros q t Hq <-; congruence).
  inversion Hx; subst.
  - destruct H as (q & Hq & Hqt & _). by specialize (Hty _ _ Hq Hqt).
  - destruct H as (q & Hq & Hqt & _). by specialize (Hty _ _ Hq Hqt).
  - destruct H as (q & ? & Hq & Hqt & _). by specialize (Hty _ _ Hq Hqt).
  - destruct H as (q & ? & Hq & Hqt & _). by specialize (Hty _ _ Hq Hqt).
  - left. destruct (interned_symbol _ _ _ _ _ _ (ready_symbols _ _ _ _ _ Hready) H) as (t & _ & Hsym).
    destruct (text_at_unique _ _ _ _ _ _ (special_at _ _ Hin) Hsym) as [-> _]. done.
  - auto.
  - eauto.
  - destruct H as (q & Hq & Hqt & _). by specialize (Hty _ _ Hq Hqt).
  - match goal with Hq : cells s !! p = Some ?q, Hqt : c_ty ?q = TVECTOR |- _ => by specialize (Hty _ _ Hq Hqt) end.
Qed.
Lemma sexp_cell_nil x : sexp_at al (cells s) cell_nil x -> representable max x -> x = XNil.
Proof.
  intros Hx Hr. destruct (sexp_special _ _ _ nil_special Hx) as [->|[[_ ->]|([] & [=] & ->)]]; [|done].
  inversion Hr as [| | |? [(_ & Hw & _) _] _ _| | | | |]; subst. exfalso. revert Hw. lits. intros Hw. inversion Hw as [|? ? Hw0 _]; subst. apply word_char_not in Hw0 as (_ & H & _). set_solver.
Qed.
(** a datum is a cell, and a pair exactly if it is one *)
Definition is_pair (x : sexp) : bool := match x with XPair _ _ => true | _ => false end.
Lemma sexp_cell p x : sexp_at al (cells s) p x -> exists c, cells s !! p = Some c /\ (c_ty c =? TPAIR) = is_pair x.
Proof.
  intros Hx. inversion Hx; subst.
  - destruct H as (q & Hq & Hqt & _). exists q. by rewrite Hqt.
  - destruct H as (q & Hq & Hqt & _). exists q. by rewrite Hqt.
  - destruct H as (q & ? & Hq & Hqt & _). exists q. by rewrite Hqt.
  - destruct H as (q & ? & Hq & Hqt & _). exists q. by rewrite Hqt.
  - destruct (interned_symbol _ _ _ _ _ _ (ready_symbols _ _ _ _ _ Hready) H) as (t & Hin & q & ? & Hq & Hqt & _). exists q. rewrite Hqt. split; [done|].
    rewrite !elem_of_cons, elem_of_nil in Hin. destruct Hin as [->|[->|[]]]; done.
  - destruct (special_at _ _ nil_special) as (q & ? & Hq & Hqt & _). exists q. by rewrite Hqt.
  - destruct (special_at _ _ (bool_special b)) as (q & ? & Hq & Hqt & _). exists q. by rewrite Hqt.
  - destruct H as (q & Hq & Hqt & _). exists q. by rewrite Hqt.
  - exists c. by rewrite H0.
Qed.
Lemma sexp_not_null p x : sexp_at al (cells s) p x -> p <> 0.
Proof. intros Hx ->. destruct (sexp_cell _ _ Hx) as (c & Hc & _). congruence. Qed.

Lemma text_written (t p : Z) (bs : list Z) : text_at (cells s) t p bs -> is_bytes bs -> exists c, cells s !! p = Some c /\ c_ty c = t /\
  exists b, forall a, cell_bytes (c_cdr c) (outs fd a s) = ROk b (outs fd a s) /\
    fdwrite_string b (c_car c) fd (outs fd a s) = ROk tt (outs fd (a ++ (bs ≫= byte_text)) s).
Proof.
  intros (c & b & Hc & Ht & Hl & Hb & Htb & Hbs) Hbytes. exists c. split; [done|]. split; [done|]. exists (bs ++ [0]). intros a'. split.
  - rewrite <- Hbs. by apply cell_bytes_outs.
  - rewrite Hl. by apply string_written.
Qed.

Definition good_write (f : nat) (x : sexp) : Prop := forall p sep pre, sexp_at al (cells s) p x -> representable max x -> no_circular x -> Forall (fun b => b <> 0) sep ->
  exists t, display f 5 p 0 sep fd true (outs fd pre s) = ROk 4 (outs fd (pre ++ sep ++ t) s) /\ writes x t.
Definition good_follow (f : nat) (x : sexp) : Prop := forall p pre, sexp_at al (cells s) p x -> representable max x -> no_circular x -> is_pair x = true ->
  exists t, display f 4 p 1 (bytes_of " ") fd true (outs fd pre s) = ROk 4 (outs fd (pre ++ t) s) /\ follows x (t ++ [41]).

(** an element of a vector *)
Lemma entry_written f x q e pre : (forall f', (wdepth x <= f' <= f)%nat -> good_write f' x) -> (S (wdepth x) <= f)%nat ->
  entry_at (cells s) q e -> sexp_at al (cells s) e x -> representable max x -> no_circular x ->
  exists t, display f 5 q 0 [] fd true (outs fd pre s) = ROk 4 (outs fd (pre ++ t) s) /\ writes x t.
Proof.
  intros IH Hf (c & Hc & He) Hx Hr Hn. destruct (c_ty c =? TREF) eqn:Et.
  - destruct f as [|f]; [lia|]. cbn [display_helper]. rewrite (bind_ok _ _ _ _ _ (fdputs_ok fd [] pre s ltac:(constructor))). rewrite app_nil_r.
    change (5 =? 0) with false. cbv iota zeta. rewrite (bind_ok _ _ _ _ _ (rd_outs fd pre s _ _ Hc)). apply Z.eqb_eq in Et. rewrite Et.
    subst e. apply (IH f ltac:(lia) _ [] pre); done.
  - subst e. apply (IH f ltac:(lia) _ [] pre); done.
Qed.
Lemma elements_written f v es l : (forall x f', x ∈ l -> (wdepth x <= f' <= f)%nat -> good_write f' x) ->
  Forall2 (sexp_at al (cells s)) es l -> Forall (representable max) l -> Forall no_circular l -> Forall (fun x => S (wdepth x) <= f)%nat l ->
  forall i pre, 0 < i -> (forall j e, es !! j = Some e -> entry_at (cells s) (v + (i + Z.of_nat j)) e) ->
  exists t, display_elements (fun x => display f 5 x 0 [] fd true) (length es) v i 0 fd 4 (outs fd pre s) = ROk 4 (outs fd (pre ++ t) s) /\ follows (XList l) (t ++ [41]).
Proof.
  intros IH HF. induction HF as [|e x es l Hx HF IHF]; intros Hr Hn Hf i pre Hi He.
  - exists []. rewrite app_nil_r. split; [done|constructor].
  - inversion Hr; subst. inversion Hn; subst. inversion Hf; subst. cbn [length display_elements].
    rewrite (proj2 (Z.eqb_neq _ _)) by lia. rewrite (bind_ok _ _ _ _ _ (fdputc_ok _ _ _ _)).
    destruct (entry_written f x (v + i) e (pre ++ [32])) as (tx & Ex & Hwx); [intros; apply IH; [set_solver|done]|done| |done|done|done|].
    { specialize (He O e eq_refl). by replace (v + i) with (v + (i + Z.of_nat 0)) by lia. }
    change (to_byte 32) with 32. rewrite (bind_ok _ _ _ _ _ Ex).
    destruct (IHF) with (i := i + 1) (pre := (pre ++ [32]) ++ tx) as (t & Et & Hwt); [set_solver|done|done|done|lia| |].
    { intros j e' Hj. specialize (He (S j) e' Hj). by replace (i + 1 + Z.of_nat j) with (i + Z.of_nat (S j)) by lia. }
    exists ([32] ++ tx ++ t). split; [rewrite Et; by rewrite <- !app_assoc|]. cbn [app]. rewrite <- app_assoc. by constructor.
Qed.

Lemma wdepth_elem x l : x ∈ l -> (wdepth x <= foldr (fun x n => Nat.max (wdepth x) n) O l)%nat.
Proof. induction l as [|y l IH]; [set_solver|]. rewrite elem_of_cons. cbn [foldr]. intros [->|H]; [lia|]. specialize (IH H). lia. Qed.

(** a pair, as a datum or as the rest of a list *)
Lemma display_pair f x a d pre xa xd cont depth sep : (forall y, (wdepth y <= f)%nat -> good_write f y) -> (forall y, (wdepth y <= f)%nat -> good_follow f y) ->
  pair_at (cells s) x a d -> sexp_at al (cells s) a xa -> sexp_at al (cells s) d xd -> representable max (XPair xa xd) -> no_circular (XPair xa xd) ->
  (wdepth xa <= f)%nat -> (wdepth xd <= f)%nat -> depth <> 0 -> Forall (fun b => b <> 0) sep ->
  exists ta td, writes xa ta /\ follows xd (td ++ [41]) /\
    display (S f) depth x cont sep fd true (outs fd pre s) =
    ROk 4 (outs fd (pre ++ sep ++ (if cont =? 0 then [40] else []) ++ ta ++ td ++ (if cont =? 0 then [41] else [])) s).
Proof.
  intros IHw IHf (c & Hc & Ht & Hca & Hcd) Ha Hd Hr Hn Hfa Hfd Hdep Hsep. inversion Hr; subst. inversion Hn as [? F| ? ? Hncirc Hna Hnd|]; [done|]. subst.
  set (pre1 := (pre ++ sep) ++ (if cont =? 0 then [40] else [])).
  destruct (IHw xa Hfa (c_car c) [] pre1) as (ta & Ea & Hta); [done|done|done|constructor|]. cbn [app] in Ea.
  assert (x <> 0) as Hx0 by (intros ->; congruence).
  assert (x <> cell_nil) as Hxn. { intros ->. destruct (special_at _ _ nil_special) as (q & ? & Hq & Hqt & _). rewrite Hc in Hq. injection Hq as <-. by rewrite Ht in Hqt. }
  assert (c_car c =? cell_circular = false) as Hcirc.
  { apply Z.eqb_neq. intros E. rewrite E in Ha.
    destruct (sexp_special _ _ _ circular_special Ha) as [->|[[[=] _]|([] & [=] & _)]]; done. }
  assert (exists td, follows xd (td ++ [41]) /\
    (if c_cdr c =? 0 then ret 4 else
     td <- ty (c_cdr c) ;;
     if td =? TPAIR then display f 4 (c_cdr c) 1 (bytes_of " ") fd true
     else if negb (c_cdr c =? cell_nil) then fdputs (bytes_of " . ") fd ;;; display f 5 (c_cdr c) 0 [] fd true
     else ret 4) (outs fd (pre1 ++ ta) s) = ROk 4 (outs fd ((pre1 ++ ta) ++ td) s)) as (td & Hfol & Etd).
  { rewrite (proj2 (Z.eqb_neq _ _)) by (by eapply sexp_not_null). destruct (sexp_cell _ _ Hd) as (cd & Hcd & Hp).
    rewrite (bind_ok _ _ _ _ _ (ty_outs fd (pre1 ++ ta) s _ _ Hcd)). rewrite Hp. destruct (is_pair xd) eqn:Exd.
    - destruct (IHf xd Hfd (c_cdr c) (pre1 ++ ta)) as (td & Etd & Hfol); [done|done|done|done|]. by exists td.
    - destruct (Z.eqb_spec (c_cdr c) cell_nil) as [E|E]; cbn [negb].
      + rewrite E in Hd. apply sexp_cell_nil in Hd as ->; [|done]. exists []. rewrite app_nil_r. split; [constructor|done].
      + rewrite (bind_ok _ _ _ _ _ (fdputs_ok fd (bytes_of " . ") (pre1 ++ ta) s ltac:(lits; repeat constructor; lia))).
        destruct (IHw xd Hfd (c_cdr c) [] ((pre1 ++ ta) ++ bytes_of " . ")) as (td & Etd & Hw); [done|done|done|constructor|].
        exists (bytes_of " . " ++ td). split; [|rewrite Etd; cbn [app]; by rewrite <- !app_assoc].
        rewrite <- app_assoc. apply f_dot; [|done]. destruct xd; try done. inversion Hd; subst. done. }
  exists ta, td. split; [done|]. split; [done|]. cbn [display_helper].
  rewrite (bind_ok _ _ _ _ _ (fdputs_ok fd sep pre s Hsep)). rewrite (proj2 (Z.eqb_neq depth 0)) by done. cbv zeta.
  rewrite (bind_ok _ _ _ _ _ (rd_outs fd (pre ++ sep) s _ _ Hc)). rewrite Ht.
  change (TPAIR =? TCHAR) with false. change (TPAIR =? TCLOSURE) with false. change (TPAIR =? TMACRO) with false. change (TPAIR =? TVARIABLE) with false.
  change (TPAIR =? TNUMBER) with false. change (TPAIR =? TPAIR) with true. cbv iota.
  assert ((if cont =? 0 then fdputs (bytes_of "(") fd else ret tt) (outs fd (pre ++ sep) s) = ROk tt (outs fd pre1 s)) as E1.
  { unfold pre1. destruct (cont =? 0); [by apply fdputs_ok; lits; repeat constructor; lia|by rewrite app_nil_r]. }
  rewrite (bind_ok _ _ _ _ _ E1). rewrite Hcirc. rewrite bind_ret.
  rewrite (proj2 (Z.eqb_neq x 0)), (proj2 (Z.eqb_neq x cell_nil)) by done. cbn [negb andb].
  erewrite bind_ok. 2:{ rewrite (bind_ok _ _ _ _ _ Ea). exact Etd. }
  assert ((if cont =? 0 then fdputs (bytes_of ")") fd else ret tt) (outs fd ((pre1 ++ ta) ++ td) s) = ROk tt (outs fd (((pre1 ++ ta) ++ td) ++ (if cont =? 0 then [41] else [])) s)) as E2.
  { destruct (cont =? 0); [by apply fdputs_ok; lits; repeat constructor; lia|by rewrite app_nil_r]. }
  rewrite (bind_ok _ _ _ _ _ E2). unfold pre1. by rewrite <- !app_assoc.
Qed.

Lemma write_ok f : (forall x, (wdepth x <= f)%nat -> good_write f x) /\ (forall x, (wdepth x <= f)%nat -> good_follow f x).
Proof.
  induction f as [f IH] using lt_wf_ind. destruct f as [|f]; [split; intros x Hx; exfalso; destruct x; cbn in Hx; lia|].
  assert (forall f', (f' <= f)%nat -> forall x, (wdepth x <= f')%nat -> good_write f' x) as IHw by (intros f' Hf'; apply IH; lia).
  assert (forall x, (wdepth x <= f)%nat -> good_follow f x) as IHf by (apply IH; lia).
  split; intros x Hf.
  - intros p sep pre Hx Hr Hn Hsep. destruct (is_pair x) eqn:Ep.
    { inversion Hx; subst; try done. cbn [wdepth] in Hf.
      destruct (display_pair f p a d pre xa xd 0 5 sep) as (ta & td & Hwa & Hfd & E); [by apply IHw|done|done|done|done|done|done|lia|lia|lia|done|].
      exists ([40] ++ ta ++ td ++ [41]). split; [exact E|]. cbn [app]. by constructor. }
    cbn [display_helper]. rewrite (bind_ok _ _ _ _ _ (fdputs_ok fd sep pre s Hsep)). change (5 =? 0) with false. cbv iota zeta.
    setoid_rewrite (app_assoc pre sep). generalize (pre ++ sep). clear sep pre Hsep. intros pre.
    inversion Hx; subst; try done; inversion Hr; subst.
    + destruct H as (c & Hc & Ht & Hv). rewrite (bind_ok _ _ _ _ _ (rd_outs fd pre s _ _ Hc)). rewrite Ht. cbv [TCHAR TCLOSURE TMACRO TVARIABLE TNUMBER Z.eqb Pos.eqb].
      match goal with Hi : in_int _ = true |- _ => destruct (itoa_ok _ Hi) as [Hnt H0]; assert (to_s32 (c_cdr c) = n) as -> by (rewrite Hv; by apply to_s32_id) end.
      rewrite (bind_ok _ _ _ _ _ (fdputs_ok fd _ pre s H0)). exists (itoa n). split; [done|by constructor].
    + destruct H as (c' & Hc & Ht & Hv). rewrite (bind_ok _ _ _ _ _ (rd_outs fd pre s _ _ Hc)). rewrite Ht. cbv [TCHAR Z.eqb Pos.eqb]. rewrite Hv.
      match goal with Hi : _ \/ _ |- _ => destruct (char_written _ fd pre s Hi) as (t & E & Hw) end. rewrite (bind_ok _ _ _ _ _ E). by exists t.
    + match goal with Hb : is_bytes _ |- _ => destruct (text_written _ _ _ H Hb) as (c & Hc & Ht & b & Hb') end.
      rewrite (bind_ok _ _ _ _ _ (rd_outs fd pre s _ _ Hc)). rewrite Ht. cbv [TCHAR TCLOSURE TMACRO TVARIABLE TNUMBER TPAIR TPORT TKEYWORD TSTRING Z.eqb Pos.eqb].
      rewrite (bind_ok _ _ _ _ _ (proj1 (Hb' pre))). erewrite bind_ok.
      2:{ rewrite (bind_ok _ _ _ _ _ (fdputc_ok fd _ pre s)). rewrite (bind_ok _ _ _ _ _ (proj2 (Hb' _))). apply fdputc_ok. }
      exists (34 :: (bs ≫= byte_text) ++ [34]). split; [|constructor]. by rewrite <- !app_assoc.
    + match goal with Hb : key_name _, Hp : plain _ |- _ => destruct Hb as (_ & Hword & _); destruct (text_written _ _ _ H (word_bytes _ Hword)) as (c & Hc & Ht & b & Hb'); rewrite (plain_text _ Hword Hp) in Hb' end.
      rewrite (bind_ok _ _ _ _ _ (rd_outs fd pre s _ _ Hc)). rewrite Ht. cbv [TCHAR TCLOSURE TMACRO TVARIABLE TNUMBER TPAIR TPORT TKEYWORD TSTRING Z.eqb Pos.eqb].
      rewrite (bind_ok _ _ _ _ _ (fdputs_ok fd (bytes_of "#:") pre s ltac:(lits; repeat constructor; lia))).
      rewrite (bind_ok _ _ _ _ _ (proj1 (Hb' _))). rewrite (bind_ok _ _ _ _ _ (proj2 (Hb' _))). eexists. split; [by rewrite <- app_assoc|constructor].
    + destruct (interned_symbol _ _ _ _ _ _ (ready_symbols _ _ _ _ _ Hready) H) as (ts & Hin & Htext).
      match goal with Hb : symbol_name _, Hp : plain _ |- _ => destruct Hb as [(_ & Hword & _) _]; destruct (text_written _ _ _ Htext (word_bytes _ Hword)) as (c & Hc & Ht & b & Hb'); rewrite (plain_text _ Hword Hp) in Hb' end.
      rewrite (bind_ok _ _ _ _ _ (rd_outs fd pre s _ _ Hc)). rewrite Ht. exists name. split; [|constructor].
      rewrite !elem_of_cons, elem_of_nil in Hin. destruct Hin as [->|[->|[]]]; cbv [TCHAR TCLOSURE TMACRO TVARIABLE TNUMBER TPAIR TPORT TKEYWORD TSTRING TSPECIAL TSYMBOL Z.eqb Pos.eqb orb];
      rewrite (bind_ok _ _ _ _ _ (proj1 (Hb' _))); rewrite (bind_ok _ _ _ _ _ (proj2 (Hb' _))); done.
    + destruct (text_written _ _ _ (special_at _ _ nil_special)) as (c & Hc & Ht & b & Hb'); [lits; repeat constructor; unfold is_byte; lia|].
      rewrite (bind_ok _ _ _ _ _ (rd_outs fd pre s _ _ Hc)). rewrite Ht. cbv [TCHAR TCLOSURE TMACRO TVARIABLE TNUMBER TPAIR TPORT TKEYWORD TSTRING TSPECIAL TSYMBOL Z.eqb Pos.eqb orb].
      rewrite (bind_ok _ _ _ _ _ (proj1 (Hb' _))). rewrite (bind_ok _ _ _ _ _ (proj2 (Hb' _))). exists (bytes_of "()"). split; [done|constructor].
    + destruct (text_written _ _ _ (special_at _ _ (bool_special b))) as (c & Hc & Ht & bb & Hb'); [destruct b; lits; repeat constructor; unfold is_byte; lia|].
      rewrite (bind_ok _ _ _ _ _ (rd_outs fd pre s _ _ Hc)). rewrite Ht. cbv [TCHAR TCLOSURE TMACRO TVARIABLE TNUMBER TPAIR TPORT TKEYWORD TSTRING TSPECIAL TSYMBOL Z.eqb Pos.eqb orb].
      rewrite (bind_ok _ _ _ _ _ (proj1 (Hb' _))). rewrite (bind_ok _ _ _ _ _ (proj2 (Hb' _))). eexists. split; [|constructor]. by destruct b.
    + match goal with Hc : cells s !! p = Some ?c0, Ht : c_ty ?c0 = TVECTOR, Hl : c_car ?c0 = _ |- _ => rewrite (bind_ok _ _ _ _ _ (rd_outs fd pre s _ _ Hc)); rewrite Ht, Hl end.
      cbv [TCHAR TCLOSURE TMACRO TVARIABLE TNUMBER TPAIR TPORT TKEYWORD TSTRING TSPECIAL TSYMBOL TREF TSTRUCT TVECTOR Z.eqb Pos.eqb orb].
      rewrite Nat2Z.id. rewrite (bind_ok _ _ _ _ _ (fdputs_ok fd (bytes_of "#(") pre s ltac:(lits; repeat constructor; lia))).
      inversion Hn as [? F| |? Hnl]; [done|]. subst. cbn [wdepth] in Hf.
      match goal with HF : Forall2 _ es l, Hrl : Forall (representable max) l, He0 : forall i e, es !! i = Some e -> _ |- _ => rename HF into HF2; rename Hrl into Hrl0; rename He0 into He end.
      destruct l as [|xa l]; inversion HF2 as [|e ? es' ? Hxa HF']; subst.
      * cbn [length display_elements]. rewrite bind_ret. change (5 - 1) with 4. rewrite (bind_ok _ _ _ _ _ (fdputc_ok _ _ _ _)). eexists. split; [by rewrite <- app_assoc|]. exact w_empty_vector.
      * cbn [length display_elements]. cbn [Z.eqb]. rewrite bind_assoc, bind_ret, bind_assoc. cbn [foldr] in Hf.
        inversion Hrl0; subst. inversion Hnl; subst.
        destruct (entry_written f xa (c_cdr c + 0) e (pre ++ bytes_of "#(")) as (tx & Ex & Hwx); [intros; apply IHw; lia|lia| |done|done|done|].
        { exact (He O e eq_refl). }
        change (cell_ref (c_cdr c) 0) with (c_cdr c + 0). rewrite (bind_ok _ _ _ _ _ Ex).
        destruct (elements_written f (c_cdr c) es' l) with (i := 0 + 1) (pre := (pre ++ bytes_of "#(") ++ tx) as (t & Et & Hwt); [intros; apply IHw; lia|done|done|done| |lia| |].
        { apply Forall_forall. intros y Hy. pose proof (wdepth_elem _ _ Hy). lia. }
        { intros j e' Hj. specialize (He (S j) e' Hj). by replace (0 + 1 + Z.of_nat j) with (Z.of_nat (S j)) by lia. }
        rewrite (bind_ok _ _ _ _ _ Et). rewrite (bind_ok _ _ _ _ _ (fdputc_ok _ _ _ _)). exists (bytes_of "#(" ++ tx ++ t ++ [41]). split; [by rewrite <- !app_assoc|].
        by constructor.
  - intros p pre Hx Hr Hn Hp. inversion Hx; subst; try done. cbn [wdepth] in Hf.
    destruct (display_pair f p a d pre xa xd 1 4 (bytes_of " ")) as (ta & td & Hwa & Hfd & E); [by apply IHw|done|done|done|done|done|done|lia|lia|lia|lits; repeat constructor; lia|].
    exists ([32] ++ ta ++ td). split; [rewrite E; cbn [Z.eqb app]; by rewrite app_nil_r|]. cbn [app]. rewrite <- app_assoc. by constructor.
Qed.
End Writer.
