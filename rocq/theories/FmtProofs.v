(** Formatted output: lemmas. *)
From stdpp Require Import base gmap list.
From Coq Require Import ZArith Lia.
From Coq Require Import ZifyBool ZifyNat.
From Verif Require Import CInt LibModel LibSpec LibProofs PropsLib LibNumModel PropsNum FmtModel FmtSpec.
Open Scope Z_scope. Open Scope clib_scope.

(** ** where a run may write *)
Section Keeps.
Context (fuel : nat) (buf size str0 : Z).
Hypothesis Hsize : 0 <= size.
Hypothesis Hfuel : (64 <= fuel)%nat.
Context (R : Z -> Prop).
Hypothesis Hout : forall q, str0 <= q < str0 + size -> R q.
Hypothesis Hbuf : forall q, buf <= q <= buf + 11 -> R q.

Definition keeps {A} (Q : A -> Prop) (c : CM A) : Prop :=
  forall m a m', buffer m buf -> c m = COk a m' ->
    Q a /\ buffer m' buf /\ forall q, ~ R q -> m' !! q = m !! q.

Lemma keeps_ret {A} (Q : A -> Prop) a : Q a -> keeps Q (cret a).
Proof. intros HQ m a' m' Hb E. by injection E as <- <-. Qed.
Lemma keeps_bind {A B} (P : A -> Prop) (Q : B -> Prop) (c : CM A) (k : A -> CM B) :
  keeps P c -> (forall a, P a -> keeps Q (k a)) -> keeps Q (cbind c k).
Proof.
  intros Hc Hk m b m' Hb E. unfold cbind in E. destruct (c m) as [a m1| | |] eqn:E1; try done.
  destruct (Hc m a m1 Hb E1) as (Ha & Hb1 & H1). destruct (Hk a Ha m1 b m' Hb1 E) as (HQ & Hb2 & H2).
  split; [done|]. split; [done|]. intros q Hq. rewrite H2 by done. by apply H1.
Qed.
Lemma keeps_weaken {A} (P Q : A -> Prop) (c : CM A) : keeps P c -> (forall a, P a -> Q a) -> keeps Q c.
Proof. intros H HP m a m' Hb E. destruct (H m a m' Hb E) as (? & ? & ?). auto. Qed.

(** calls that do not write *)
Definition reads {A} (c : CM A) : Prop := forall m a m', c m = COk a m' -> m' = m.
Lemma keeps_reads {A} (c : CM A) : reads c -> keeps (fun _ => True) c.
Proof. intros H m a m' Hb E. by rewrite (H m a m' E). Qed.
Lemma reads_ret {A} (a : A) : reads (cret a).
Proof. intros m a' m' E. by injection E. Qed.
Lemma reads_bind {A B} (c : CM A) (k : A -> CM B) : reads c -> (forall a, reads (k a)) -> reads (cbind c k).
Proof.
  intros Hc Hk m b m' E. unfold cbind in E. destruct (c m) as [a m1| | |] eqn:E1; try done.
  rewrite (Hc m a m1 E1) in *. by eapply Hk.
Qed.
Lemma reads_ld p : reads (ld p).
Proof. intros m a m' E. unfold ld in E. destruct (m !! p); by inversion E. Qed.
Lemma reads_int z : reads (c_int z).
Proof. unfold c_int. destruct (in_int z); [apply reads_ret|intros m a m' E; by inversion E]. Qed.
Lemma reads_fuel {A} : reads (cfuel : CM A).
Proof. intros m a m' E; by inversion E. Qed.
Lemma reads_ub {A} : reads (cub : CM A).
Proof. intros m a m' E; by inversion E. Qed.
Lemma reads_abort {A} : reads (cabort : CM A).
Proof. intros m a m' E; by inversion E. Qed.

Ltac rd := first [ apply reads_ret | apply reads_ld | apply reads_int | apply reads_fuel | apply reads_ub | apply reads_abort
  | match goal with |- reads (if ?b then _ else _) => destruct b end
  | apply reads_bind; [|intros ?] | done ].

Lemma reads_strlen_loop n : forall s i, reads (strlen_loop n s i).
Proof. induction n; intros; cbn [strlen_loop]; repeat (rd || apply IHn). Qed.
Lemma reads_skip n : forall s, reads (skip_space n s).
Proof. induction n; intros; cbn [skip_space]; repeat (rd || apply IHn). Qed.
Lemma reads_isnumber c b : reads (isnumber c b).
Proof. unfold isnumber. repeat rd. Qed.
Lemma reads_abtol_loop n : forall s i m b, reads (abtol_loop n s i m b).
Proof. induction n; intros; cbn [abtol_loop]; repeat (apply reads_isnumber || apply IHn || rd). Qed.
Lemma reads_abtol p b : reads (abtol fuel p b).
Proof. unfold abtol. repeat (apply reads_skip || apply reads_abtol_loop || rd). Qed.
Lemma reads_va args : reads (va_arg args).
Proof. destruct args; cbn; repeat rd. Qed.
Lemma reads_amount p c args d : reads (amount fuel p c args d).
Proof. unfold amount. repeat (apply reads_abtol || apply reads_va || rd). Qed.
Lemma reads_skip_l p c : reads (skip_l p c).
Proof. unfold skip_l. repeat rd. Qed.
Lemma reads_parse p args : reads (parse fuel p args).
Proof. unfold parse, parse_amounts. repeat (apply reads_amount || apply reads_skip_l || rd). Qed.

Lemma keeps_fuel {A} (Q : A -> Prop) : keeps Q cfuel.
Proof. intros m a m' Hb E; by inversion E. Qed.
Lemma keeps_ub {A} (Q : A -> Prop) : keeps Q cub.
Proof. intros m a m' Hb E; by inversion E. Qed.
Lemma keeps_abort {A} (Q : A -> Prop) : keeps Q cabort.
Proof. intros m a m' Hb E; by inversion E. Qed.
Lemma keeps_int z : keeps (fun a => a = z /\ INT_MIN <= z <= INT_MAX) (c_int z).
Proof.
  unfold c_int. destruct (in_int z) eqn:Ez; [|apply keeps_ub]. apply keeps_ret. split; [done|].
  unfold in_int in Ez. lia.
Qed.

Lemma st_inv p v m a m' : st p v m = COk a m' -> is_Some (m !! p) /\ m' = <[p := to_byte v]> m.
Proof. unfold st. destruct (m !! p) eqn:E; [|done]. intros H. injection H as <- <-. by split. Qed.
Lemma buffer_insert m p v : buffer m buf -> is_Some (m !! p) -> buffer (<[p := v]> m) buf.
Proof.
  intros [H1 H2] H. split; [by apply room_insert|]. destruct (decide (p = buf - 1)) as [->|]; [|by rewrite lookup_insert_ne].
  rewrite H2 in H. by destruct H.
Qed.
Lemma keeps_st p v : R p -> keeps (fun _ => True) (st p v).
Proof.
  intros Hp m a m' Hb E. apply st_inv in E as [Hs ->]. split; [done|]. split; [by apply buffer_insert|].
  intros q Hq. apply lookup_insert_ne. by intros <-.
Qed.

(** the place of the next character *)
Definition in_out (o : out) : Prop :=
  0 <= o_count o <= INT_MAX /\ o_str o = str0 + Z.min (o_count o) size.

Lemma keeps_put c o : in_out o -> keeps in_out (put size c o).
Proof.
  intros [Hc Hs]. unfold put, INT_MAX in *. rewrite to_u64_id by (unfold two64; lia).
  destruct (Z.ltb_spec (o_count o) size).
  - apply (keeps_bind (fun _ => True)); [apply keeps_st, Hout; lia|]. intros _ _.
    eapply keeps_bind; [apply keeps_int|]. intros n [-> Hn]. apply keeps_ret. split; cbn; unfold INT_MAX in *; lia.
  - eapply keeps_bind; [apply keeps_int|]. intros n [-> Hn]. apply keeps_ret. split; cbn; unfold INT_MAX in *; lia.
Qed.

Lemma keeps_pad_left n : forall pad w p o, in_out o -> keeps (fun r => in_out (snd r)) (pad_left size n pad w p o).
Proof.
  induction n as [|n IH]; intros pad w p o Ho; cbn [pad_left]; [apply keeps_fuel|].
  eapply keeps_bind; [apply keeps_int|]. intros w' [-> _]. destruct (p <? w).
  - eapply keeps_bind; [by apply keeps_put|]. intros o' Ho'. by apply IH.
  - by apply keeps_ret.
Qed.
Lemma keeps_fill_zeros n : forall w p l o, in_out o -> keeps (fun r => in_out (snd r)) (fill_zeros size n w p l o).
Proof.
  induction n as [|n IH]; intros w p l o Ho; cbn [fill_zeros]; [apply keeps_fuel|]. destruct (l <? p).
  - eapply keeps_bind; [by apply keeps_put|]. intros o' Ho'. eapply keeps_bind; [apply keeps_int|]. intros ? _. by apply IH.
  - by apply keeps_ret.
Qed.
Lemma keeps_fill_blanks n : forall w p l o, in_out o -> keeps (fun r => in_out (snd r)) (fill_blanks size n w p l o).
Proof.
  induction n as [|n IH]; intros w p l o Ho; cbn [fill_blanks]; [apply keeps_fuel|]. destruct (l <? w).
  - eapply keeps_bind; [by apply keeps_put|]. intros o' Ho'. eapply keeps_bind; [apply keeps_int|]. intros ? _. by apply IH.
  - by apply keeps_ret.
Qed.
Lemma keeps_copy n : forall s w p o, in_out o -> keeps (fun r => in_out (snd r)) (copy size n s w p o).
Proof.
  induction n as [|n IH]; intros s w p o Ho; cbn [copy]; [apply keeps_fuel|].
  eapply keeps_bind; [apply keeps_reads, reads_ld|]. intros c _. destruct (c =? 0); [by apply keeps_ret|].
  eapply keeps_bind; [apply keeps_int|]. intros p' _. destruct (p <=? 0); [by apply keeps_ret|].
  eapply keeps_bind; [apply keeps_int|]. intros w' _. eapply keeps_bind; [by apply keeps_put|]. intros o' Ho'. by apply IH.
Qed.
Lemma keeps_pad_right n : forall pad w o, in_out o -> keeps in_out (pad_right size n pad w o).
Proof.
  induction n as [|n IH]; intros pad w o Ho; cbn [pad_right]; [apply keeps_fuel|]. destruct (0 <? w).
  - eapply keeps_bind; [by apply keeps_put|]. intros o' Ho'. by apply IH.
  - by apply keeps_ret.
Qed.

(** the digits *)
Definition base_of (c : Z) : Z := if c =? 111 then 8 else if (c =? 120) || (c =? 88) then 16 else 10.
Definition signed_of (c : Z) : bool := negb (c =? 117) && negb (c =? 120) && negb (c =? 88).
Lemma base_of_ok c : 2 <= base_of c <= 36.
Proof. unfold base_of. destruct (c =? 111); [lia|]. destruct (_ || _); lia. Qed.

Lemma keeps_ntoab {A} (Q : A -> Prop) c d (k : Z -> CM A) :
  in_long d = true -> (forall t, keeps Q (k t)) ->
  keeps Q (t <- ntoab fuel buf d (base_of c) (signed_of c) ;; (if c =? 88 then strupr fuel t ;;; cret tt else cret tt) ;;; k t).
Proof.
  intros Hd Hk m a m' Hb E. unfold cbind at 1 in E.
  destruct (Z.lt_ge_cases (magnitude d (signed_of c)) (base_of c ^ (11 - Z.of_nat (minus d (signed_of c))))) as [Hl|Hl].
  - destruct (C26_format m buf d (base_of c) (signed_of c) fuel Hb (base_of_ok c) Hd Hfuel Hl)
      as (p & bs & m1 & E1 & Hs & _ & Hf & Hb1 & Hp1 & Hp2).
    rewrite E1 in E.
    assert (forall q, ~ R q -> m1 !! q = m !! q) as Hm1.
    { intros q Hq. destruct (decide (m1 !! q = m !! q)) as [|Hne]; [done|]. exfalso. by apply Hq, Hbuf, Hf. }
    destruct (c =? 88).
    + destruct (C27_strlwr_strupr m1 p bs fuel Hs) as [_ (m2 & E2 & Hp)]; [lia|].
      assert (m2 = blit p (map upper bs) m1) as -> by (eapply patched_fun; [exact Hp|apply blit_lookup]).
      unfold cbind at 1 2 in E. rewrite E2 in E. unfold cret at 1 in E.
      assert (length (map upper bs) = length bs) as Hlen by apply map_length.
      destruct (Hk p _ _ _ (ltac:(split; [apply room_blit, Hb1|rewrite blit_outside by lia; apply Hb1]) : buffer (blit p (map upper bs) m1) buf) E) as (HQ & Hb3 & H3).
      split; [done|]. split; [done|]. intros q Hq. rewrite H3 by done. rewrite blit_outside; [by apply Hm1|].
      assert (~ (buf <= q <= buf + 11)) by (intros ?; by apply Hq, Hbuf). lia.
    + unfold cbind at 1, cret at 1 in E. destruct (Hk p _ _ _ Hb1 E) as (HQ & Hb3 & H3).
      split; [done|]. split; [done|]. intros q Hq. rewrite H3 by done. by apply Hm1.
  - by rewrite (C26_format_overruns m buf d (base_of c) (signed_of c) fuel Hb (base_of_ok c) Hd Hfuel Hl) in E.
Qed.

Lemma keeps_put_number c s d o : in_long d = true -> in_out o -> keeps in_out (put_number fuel buf size c s d o).
Proof.
  intros Hd Ho. unfold put_number. fold (base_of c). fold (signed_of c).
  apply keeps_ntoab; [done|]. intros t.
  eapply keeps_bind; [apply keeps_reads, reads_strlen_loop|]. intros len _.
  apply (keeps_bind (fun r => in_out (snd r))).
  - destruct (sp_left s); [by apply keeps_ret|].
    eapply keeps_bind; [by apply keeps_pad_left|]. intros wo Hwo. by apply keeps_fill_zeros.
  - intros wpo Hwpo. eapply keeps_bind; [by apply keeps_copy|]. intros wo Hwo. by apply keeps_pad_right.
Qed.
Lemma keeps_put_string s t o : in_out o -> keeps in_out (put_string fuel size s t o).
Proof.
  intros Ho. unfold put_string.
  apply (keeps_bind (fun _ => True)); [destruct (t =? 0); [by apply keeps_ret|apply keeps_reads, reads_strlen_loop]|]. intros len _.
  apply (keeps_bind (fun r => in_out (snd r))).
  - destruct (sp_left s); [by apply keeps_ret|].
    eapply keeps_bind; [by apply keeps_pad_left|]. intros wo Hwo. by apply keeps_fill_blanks.
  - intros wpo Hwpo. apply (keeps_bind (fun r => in_out (snd r))).
    + destruct (t =? 0); [by apply keeps_ret|]. by apply keeps_copy.
    + intros wo Hwo. by apply keeps_pad_right.
Qed.

(** all the arguments there are *)
Context (args0 : list Z).
Hypothesis Hargs : forall a q, a ∈ args0 -> a <= q < a + 4 -> R q.
Hypothesis Hlong : Forall (fun a => in_long a = true) args0.

Definition some_args (args : list Z) : Prop := forall a, a ∈ args -> a ∈ args0.
Lemma keeps_va args : some_args args -> keeps (fun r => fst r ∈ args0 /\ some_args (snd r)) (va_arg args).
Proof.
  intros H. destruct args as [|a args]; cbn; [apply keeps_ub|]. apply keeps_ret. cbn.
  split; [apply H; constructor|]. intros b Hb. apply H. by constructor.
Qed.

Definition spec_args (s : spec) : Prop := some_args (sp_args s).
Lemma keeps_amount p c args d : some_args args -> keeps (fun r => some_args (snd r)) (amount fuel p c args d).
Proof.
  intros H. unfold amount. destruct (_ && _).
  - eapply keeps_bind; [apply keeps_reads, reads_abtol|]. intros r _.
    eapply keeps_bind; [apply keeps_reads, reads_ld|]. intros c' _. by apply keeps_ret.
  - destruct (c =? 42); [|by apply keeps_ret].
    eapply keeps_bind; [by apply keeps_va|]. intros a [_ Ha].
    eapply keeps_bind; [apply keeps_reads, reads_ld|]. intros c' _. by apply keeps_ret.
Qed.
Lemma keeps_amounts p args : some_args args -> keeps spec_args (parse_amounts fuel p args).
Proof.
  intros H. unfold parse_amounts.
  eapply keeps_bind; [apply keeps_reads, reads_ld|]. intros c _. cbn zeta.
  eapply keeps_bind; [apply keeps_reads; repeat rd|]. intros pc _. cbn zeta.
  eapply keeps_bind; [apply keeps_reads; repeat rd|]. intros pc2 _. cbn zeta.
  eapply keeps_bind; [apply keeps_reads; repeat rd|]. intros pcp _. cbn zeta.
  eapply keeps_bind; [by apply keeps_amount|]. intros w Hw. cbn zeta.
  apply (keeps_bind (fun r => some_args (snd r))).
  { destruct (_ =? 46); [|by apply keeps_ret].
    eapply keeps_bind; [apply keeps_reads, reads_ld|]. intros c' _. by apply keeps_amount. }
  intros pr Hpr. cbn zeta.
  by apply keeps_ret.
Qed.
Lemma keeps_parse p args : some_args args -> keeps spec_args (parse fuel p args).
Proof.
  intros H. unfold parse. eapply keeps_bind; [by apply keeps_amounts|]. intros s Hs.
  do 3 (eapply keeps_bind; [apply keeps_reads, reads_skip_l|]; intros ? _).
  by apply keeps_ret.
Qed.

Lemma keeps_store_int p v : p ∈ args0 -> keeps (fun _ => True) (store_int p v).
Proof.
  intros Hp. unfold store_int.
  eapply keeps_bind; [apply keeps_st, (Hargs p); [done|lia]|]. intros _ _.
  eapply keeps_bind; [apply keeps_st, (Hargs p); [done|lia]|]. intros _ _.
  eapply keeps_bind; [apply keeps_st, (Hargs p); [done|lia]|]. intros _ _.
  apply keeps_st, (Hargs p); [done|lia].
Qed.

Lemma keeps_directive p args o : some_args args -> in_out o ->
  keeps (fun r => some_args (snd (fst r)) /\ in_out (snd r)) (directive fuel buf size p args o).
Proof.
  intros Ha Ho. unfold directive. eapply keeps_bind; [by apply keeps_parse|]. intros s Hs. cbn zeta.
  unfold spec_args in Hs. rewrite Forall_forall in Hlong.
  destruct (sp_c s =? 37).
  { eapply keeps_bind; [apply keeps_reads, reads_ld|]. intros v _.
    eapply keeps_bind; [by apply keeps_put|]. intros o' Ho'. by apply keeps_ret. }
  destruct (sp_c s =? 99).
  { eapply keeps_bind; [by apply keeps_va|]. intros a [Ha1 Ha2].
    eapply keeps_bind; [by apply keeps_put|]. intros o' Ho'. by apply keeps_ret. }
  destruct (existsb _ _).
  { eapply keeps_bind; [by apply keeps_va|]. intros a [Ha1 Ha2].
    eapply keeps_bind; [apply keeps_put_number; [by apply Hlong|done]|]. intros o' Ho'. by apply keeps_ret. }
  destruct (sp_c s =? 115).
  { eapply keeps_bind; [by apply keeps_va|]. intros a [Ha1 Ha2].
    eapply keeps_bind; [by apply keeps_put_string|]. intros o' Ho'. by apply keeps_ret. }
  destruct (existsb _ _); [apply keeps_abort|].
  destruct (sp_c s =? 110).
  { eapply keeps_bind; [by apply keeps_va|]. intros a [Ha1 Ha2].
    eapply keeps_bind; [by apply keeps_store_int|]. intros _ _. by apply keeps_ret. }
  by apply keeps_ret.
Qed.

Lemma keeps_loop n : forall p args o, some_args args -> in_out o -> keeps in_out (vsnprintf_loop fuel buf size n p args o).
Proof.
  induction n as [|n IH]; intros p args o Ha Ho; cbn [vsnprintf_loop]; [apply keeps_fuel|].
  eapply keeps_bind; [apply keeps_reads, reads_ld|]. intros c _.
  destruct (c =? 0); [by apply keeps_ret|]. destruct (negb _).
  - eapply keeps_bind; [by apply keeps_put|]. intros o' Ho'. by apply IH.
  - eapply keeps_bind; [by apply keeps_directive|]. intros r [Hr1 Hr2]. by apply IH.
Qed.

Lemma keeps_vsnprintf format : keeps (fun r => 0 <= r <= INT_MAX) (vsnprintf fuel buf size str0 format args0).
Proof.
  unfold vsnprintf. eapply keeps_bind; [apply keeps_loop; [by intros a|]|].
  { split; cbn; unfold INT_MAX; lia. }
  intros o [Ho1 Ho2]. unfold INT_MAX in *. rewrite to_u64_id by (unfold two64; lia).
  apply (keeps_bind (fun _ => True)); [|intros _ _; by apply keeps_ret].
  destruct (Z.ltb_spec (o_count o) size); [|by apply keeps_ret].
  apply keeps_st, Hout. lia.
Qed.
End Keeps.

(** ** what a run prints *)

(** numerals are unique *)
Lemma value_from_inj b : 2 <= b -> forall xs ys v w,
  digits_of_base b xs -> digits_of_base b ys -> length xs = length ys ->
  value_from b v xs = value_from b w ys -> 0 <= v -> 0 <= w -> v = w /\ xs = ys.
Proof.
  intros Hb xs. induction xs as [|x xs IH]; intros [|y ys] v w Hx Hy Hl He Hv Hw; try done.
  inversion Hx as [|? ? (d & Hd & Hdb) Hx']; subst. inversion Hy as [|? ? (e & He' & Heb) Hy']; subst.
  pose proof (digit_nonneg _ _ Hd). pose proof (digit_nonneg _ _ He').
  change (value_from b v (x :: xs)) with (value_from b (v * b + default 0 (digit x)) xs) in He.
  change (value_from b w (y :: ys)) with (value_from b (w * b + default 0 (digit y)) ys) in He.
  rewrite Hd, He' in He. cbn in He. injection Hl as Hl.
  destruct (IH ys _ _ Hx' Hy' Hl He) as [Heq ->]; [nia|nia|].
  assert (v = w) as -> by nia. assert (d = e) as -> by lia. split; [done|]. f_equal.
  revert Hd He'. unfold digit.
  destruct ((48 <=? x) && (x <=? 57)) eqn:E1, ((48 <=? y) && (y <=? 57)) eqn:E2, ((97 <=? x) && (x <=? 122)) eqn:E3, ((97 <=? y) && (y <=? 122)) eqn:E4;
    intros [=] [=]; lia.
Qed.
Lemma numeral_unique b ds es v : 2 <= b -> numeral b ds v -> numeral b es v -> ds = es.
Proof.
  intros Hb Hd He. assert (length ds = length es) as Hl.
  { pose proof (proj2 (numeral_length b ds v (length es) Hb Hd ltac:(destruct He as (_ & _ & Hne & _); destruct es; [done|cbn; lia]))) as H1.
    pose proof (proj2 (numeral_length b es v (length ds) Hb He ltac:(destruct Hd as (_ & _ & Hne & _); destruct ds; [done|cbn; lia]))) as H2.
    pose proof (proj1 (numeral_length b es v (length es) Hb He ltac:(destruct He as (_ & _ & Hne & _); destruct es; [done|cbn; lia])) ltac:(lia)) as H3.
    pose proof (proj1 (numeral_length b ds v (length ds) Hb Hd ltac:(destruct Hd as (_ & _ & Hne & _); destruct ds; [done|cbn; lia])) ltac:(lia)) as H4.
    specialize (H1 H3). specialize (H2 H4). lia. }
  destruct Hd as (Hd & Hv & _), He as (He & Hw & _).
  by destruct (value_from_inj b Hb ds es 0 0 Hd He Hl ltac:(unfold value in *; congruence)).
Qed.
Lemma text_unique b ds es x : 2 <= b -> text b ds x -> text b es x -> ds = es.
Proof.
  intros Hb. unfold text. destruct (x <? 0); [|by apply numeral_unique].
  intros (ds' & -> & Hd) (es' & -> & He). f_equal. by eapply numeral_unique.
Qed.

(** ** reading a directive *)
Definition hd0 (l : list Z) : Z := default 0 (head l).
Definition stop (c : Z) : Prop := c = 46 \/ 88 <= c <= 120.

Lemma cstr_tail m p c t : cstr m p (c :: t) -> cstr m (p + 1) t.
Proof.
  intros [Hb Hz]. cbn [app] in Hb. apply bytes_at_cons in Hb as (_ & _ & Hb). apply not_elem_of_cons in Hz as [_ Hz]. by split.
Qed.
Lemma cstr_drop m p s t : cstr m p (s ++ t) -> cstr m (p + Z.of_nat (length s)) t.
Proof.
  intros [Hb Hz]. rewrite <- app_assoc in Hb. apply bytes_at_app in Hb as [_ Hb]. split; [done|]. set_solver.
Qed.
Lemma ld_hd m p c t : cstr m p (c :: t) -> 0 <= c < 128 -> ld p m = COk c m.
Proof.
  intros [Hb _] Hc. cbn [app] in Hb. apply bytes_at_cons in Hb as (_ & Hb & _). rewrite (ld_ok _ _ _ Hb).
  f_equal. unfold to_schar. rewrite Z.mod_small; lia.
Qed.
Lemma decimal_head t n : numeral 10 t n -> exists d t', t = d :: t' /\ 48 <= d <= 57.
Proof.
  intros (Hd & _ & Hne & _). destruct t as [|d t']; [done|]. exists d, t'. split; [done|].
  apply Forall_cons in Hd as [(x & Hx & Hx10) _]. revert Hx. unfold digit.
  destruct (_ && _) eqn:E1; [intros; lia|]. destruct ((97 <=? d) && _) eqn:E2; [|done]. intros [= <-]. lia.
Qed.
Lemma positive_head t n d t' : numeral 10 t n -> 0 < n -> t = d :: t' -> d <> 48.
Proof.
  intros (Hd & Hv & Hne & Hh) Hn -> ->. destruct Hh as [Hh|Hl]; [done|].
  destruct t'; [|done]. cbn in Hv. lia.
Qed.
Lemma stop_ends c u : stop c -> ends 10 (c :: u).
Proof.
  intros Hc d. unfold digit. destruct (_ && _) eqn:E1; [unfold stop in Hc; lia|].
  destruct ((97 <=? c) && _) eqn:E2; [|done]. intros [= <-]. lia.
Qed.

Lemma fixed_ok fuel p n t u c m :
  cstr m p (t ++ c :: u) -> numeral 10 t n -> n <= 2147483560 -> stop c -> (length t < fuel)%nat ->
  (r <- abtol fuel p 10 ;; c <- ld (snd r) ;; cret (snd r, c, to_s32 (fst r))) m =
    COk (p + Z.of_nat (length t), c, n) m.
Proof.
  intros Hs Hn Hle Hc Hf. pose proof Hn as (Hd & Hv & Hne & _).
  assert (0 <= n). { rewrite <- Hv. apply (digits_value_mono 10 0); [lia|done|lia]. }
  pose proof (C26_parse m p [] [] t (c :: u) 10 fuel Hs ltac:(unfold parse_base; auto) ltac:(constructor) ltac:(by left) Hd Hne
    (stop_ends c u Hc) (decimal_letters_last 10 t ltac:(lia) Hd) ltac:(lia) ltac:(cbn; lia)) as E.
  rewrite (bool_decide_eq_false_2 ([] = [45])) in E by done. cbn [length Nat.add] in E.
  rewrite (cbind_ok _ _ _ _ _ E). cbn [fst snd].
  rewrite (cbind_ok _ _ _ _ _ (ld_hd m _ c u (cstr_drop _ _ _ _ Hs) ltac:(unfold stop in Hc; lia))).
  unfold cret. rewrite Hv, to_s32_id; [done|]. unfold in_int, INT_MIN, INT_MAX. lia.
Qed.
Lemma none_ok fuel p u c m : cstr m p (c :: u) -> stop c -> (0 < fuel)%nat -> abtol fuel p 10 m = COk (0, p) m.
Proof.
  intros Hs Hc Hf. unfold abtol. change (10 =? 0) with false. cbn iota. destruct fuel as [|f]; [lia|]. cbn [skip_space abtol_loop].
  pose proof (ld_hd m p c u Hs ltac:(unfold stop in Hc; lia)) as E.
  assert ((c <- ld p ;; if c_isspace c then skip_space f (p + 1) else cret p) m = COk p m) as E1.
  { rewrite (cbind_ok _ _ _ _ _ E). assert (c_isspace c = false) as -> by (unfold c_isspace, stop in *; lia). done. }
  rewrite (cbind_ok _ _ _ _ _ E1). clear E1.
  rewrite (cbind_ok _ _ _ _ _ E).
  assert ((c =? 43) = false) as -> by (unfold stop in Hc; lia). rewrite andb_false_r.
  rewrite (cbind_ok _ _ _ _ _ E).
  assert ((c =? 45) = false) as -> by (unfold stop in Hc; lia). rewrite andb_false_r. cbn iota.
  assert ((c <- ld p ;; n <- isnumber c 10 ;;
           (if n then i1 <- c_int (0 * 10) ;; i2 <- c_int (i1 + c) ;; i3 <- c_int (i2 - (if 57 <? c then 97 - 10 else 48)) ;;
                      abtol_loop f (p + 1) i3 (if 57 <? c then 97 - 10 else 48) 10 else cret (0, p))) m = COk (0, p) m) as E1.
  { rewrite (cbind_ok _ _ _ _ _ E). unfold isnumber. cbn [Z.eqb Pos.eqb]. rewrite (cbind_ok (cret _) _ m _ m eq_refl).
    assert (c_isdigit c = false) as -> by (unfold c_isdigit, stop in *; lia). done. }
  rewrite (cbind_ok _ _ _ _ _ E1). done.
Qed.

Lemma amount_ok fuel p n t u c args w args1 m :
  cstr m p (t ++ c :: u) -> number_text n t -> stop c -> resolves n args w args1 -> (length t < fuel)%nat ->
  amount fuel p (hd0 (t ++ c :: u)) args (-1) m = COk (p + Z.of_nat (length t), c, default (-1) w, args1) m.
Proof.
  intros Hs Ht Hc Hr Hf. unfold amount. destruct n as [|n|]; cbn [number_text] in Ht; inversion Hr; subst; clear Hr.
  - cbn. assert (((48 <=? c) && (c <=? 57)) = false) as -> by (unfold stop in Hc; lia).
    assert ((c =? 42) = false) as -> by (unfold stop in Hc; lia). unfold cret. by rewrite Z.add_0_r.
  - destruct Ht as [Hn Hle]. destruct (decimal_head t n Hn) as (d & t' & Et & Hd).
    assert (hd0 (t ++ c :: u) = d) as -> by (by rewrite Et).
    assert (((48 <=? d) && (d <=? 57)) = true) as -> by lia.
    pose proof (fixed_ok fuel p n t u c m Hs Hn Hle Hc Hf) as E. unfold cbind in *.
    destruct (abtol fuel p 10 m) as [r m1| | |]; try done. destruct (ld (snd r) m1) as [c' m2| | |]; try done.
    unfold cret in *. injection E as E1 E2 E3 ->. cbn. congruence.
  - cbn [app] in Hs. change (hd0 ([42] ++ c :: u)) with 42. change ((48 <=? 42) && (42 <=? 57)) with false. change (42 =? 42) with true. cbn iota.
    unfold va_arg. rewrite (cbind_ok (cret _) _ m _ m eq_refl). cbn [fst snd].
    rewrite (cbind_ok _ _ _ _ _ (ld_hd m _ c u (cstr_tail _ _ _ _ Hs) ltac:(unfold stop in Hc; lia))).
    unfold cret. rewrite to_s32_id; [done|]. unfold in_int, INT_MIN, INT_MAX in *. lia.
Qed.
Lemma amount_zero_ok fuel p n t u c args w args1 m :
  cstr m p (t ++ c :: u) -> number_text n t -> n <> Star -> stop c -> resolves n args w args1 -> (length t < fuel)%nat ->
  amount fuel p 48 args (-1) m = COk (p + Z.of_nat (length t), c, default 0 w, args1) m.
Proof.
  intros Hs Ht Hns Hc Hr Hf. unfold amount. cbn [Z.leb Z.compare Pos.compare Pos.compare_cont andb].
  destruct n as [|n|]; [| |done]; cbn [number_text] in Ht; inversion Hr; subst; clear Hr.
  - cbn [app length] in *. rewrite (cbind_ok _ _ _ _ _ (none_ok fuel p u c m Hs Hc ltac:(lia))). cbn [fst snd].
    rewrite (cbind_ok _ _ _ _ _ (ld_hd m _ c u Hs ltac:(unfold stop in Hc; lia))). unfold cret. by rewrite Z.add_0_r.
  - destruct Ht as [Hn Hle].
    pose proof (fixed_ok fuel p n t u c m Hs Hn Hle Hc Hf) as E. unfold cbind in *.
    destruct (abtol fuel p 10 m) as [r m1| | |]; try done. destruct (ld (snd r) m1) as [c' m2| | |]; try done.
    unfold cret in *. injection E as E1 E2 E3 ->. cbn. congruence.
Qed.
Lemma ells_ok p k c u m :
  cstr m p (replicate k 108 ++ c :: u) -> (k <= 3)%nat -> 88 <= c <= 120 -> c <> 108 ->
  (pc <- skip_l p (hd0 (replicate k 108 ++ c :: u)) ;; pc <- skip_l (fst pc) (snd pc) ;; skip_l (fst pc) (snd pc)) m =
    COk (p + Z.of_nat k, c) m.
Proof.
  intros Hs Hk Hc Hc8. assert ((c =? 108) = false) as E8 by lia.
  assert (forall q, skip_l q c m = COk (q, c) m) as Hstop by (intros q; unfold skip_l; by rewrite E8).
  assert (forall q d t, cstr m q (108 :: d :: t) -> 0 <= d < 128 -> skip_l q 108 m = COk (q + 1, d) m) as Hgo.
  { intros q d t Hq Hd. unfold skip_l. cbn [Z.eqb Pos.eqb]. by rewrite (cbind_ok _ _ _ _ _ (ld_hd m _ d t (cstr_tail _ _ _ _ Hq) Hd)). }
  destruct k as [|[|[|[|]]]]; cbn [replicate app hd0 head default] in *; [| | | |lia]; unfold hd0; cbn [head default].
  - rewrite (cbind_ok _ _ _ _ _ (Hstop p)). cbn [fst snd]. rewrite (cbind_ok _ _ _ _ _ (Hstop p)). cbn [fst snd]. rewrite Hstop. by rewrite Z.add_0_r.
  - rewrite (cbind_ok _ _ _ _ _ (Hgo p c u Hs ltac:(lia))). cbn [fst snd]. rewrite (cbind_ok _ _ _ _ _ (Hstop _)). cbn [fst snd]. apply Hstop.
  - rewrite (cbind_ok _ _ _ _ _ (Hgo p 108 _ Hs ltac:(lia))). cbn [fst snd].
    rewrite (cbind_ok _ _ _ _ _ (Hgo (p + 1) c u (cstr_tail _ _ _ _ Hs) ltac:(lia))). cbn [fst snd]. rewrite Hstop. f_equal. f_equal. lia.
  - rewrite (cbind_ok _ _ _ _ _ (Hgo p 108 _ Hs ltac:(lia))). cbn [fst snd].
    rewrite (cbind_ok _ _ _ _ _ (Hgo (p + 1) 108 _ (cstr_tail _ _ _ _ Hs) ltac:(lia))). cbn [fst snd].
    rewrite (Hgo (p + 1 + 1) c u (cstr_tail _ _ _ _ (cstr_tail _ _ _ _ Hs)) ltac:(lia)). f_equal. f_equal. lia.
Qed.

Lemma letter_range c : c ∈ [99; 100; 105; 111; 117; 120; 88; 115] -> 88 <= c <= 120 /\ c <> 108.
Proof. rewrite !elem_of_cons, elem_of_nil. lia. Qed.

Lemma amounts_ok fuel p v wt pt args w args1 pr args2 rest m :
  cstr m p ((if left v then [45] else []) ++ (if zero v then [48] else []) ++ wt ++ pt ++ replicate (ells v) 108 ++ [letter v] ++ rest) ->
  width_text v wt -> precision_text v pt -> (ells v <= 3)%nat -> letter v ∈ [99; 100; 105; 111; 117; 120; 88; 115] ->
  resolves (width v) args w args1 -> resolves (precision v) args1 pr args2 ->
  (length wt + length pt < fuel)%nat ->
  exists q c, q = p + Z.of_nat ((if left v then 1 else 0) + (if zero v then 1 else 0) + length wt + length pt) /\
    cstr m q (replicate (ells v) 108 ++ [letter v] ++ rest) /\ c = hd0 (replicate (ells v) 108 ++ [letter v] ++ rest) /\
    parse_amounts fuel p args m = COk (Spec q c (left v) (if zero v then 48 else 32) (default (if zero v then 0 else -1) w) (default (-1) pr) args2) m.
Proof.
  intros Hs (Hwt & Hpos & Hstar) Hpt Hk Hl Hw Hp Hf. destruct (letter_range _ Hl) as [Hc Hc8].
  set (T4 := replicate (ells v) 108 ++ [letter v] ++ rest) in *.
  assert (exists c4 u4, T4 = c4 :: u4 /\ 88 <= c4 <= 120) as (c4 & u4 & E4 & Hc4).
  { subst T4. destruct (ells v); cbn; eexists _, _; (split; [done|lia]). }
  assert (exists c3 u3, pt ++ T4 = c3 :: u3 /\ stop c3) as (c3 & u3 & E3 & Hc3).
  { unfold precision_text in Hpt. rewrite E4. unfold stop.
    destruct (precision v); [subst pt; eexists _, _; cbn; split; [done|lia]| |];
      destruct Hpt as (t' & -> & _); eexists _, _; cbn; (split; [done|lia]). }
  set (T3 := pt ++ T4) in *.
  assert (exists c2 u2, wt ++ T3 = c2 :: u2 /\ (c2 = 42 \/ 46 <= c2 <= 57 \/ 88 <= c2 <= 120) /\ c2 <> 48) as (c2 & u2 & E2 & Hc2 & Hc20).
  { rewrite E3. unfold stop in *. destruct (width v) as [|n|] eqn:Ew; cbn in Hwt.
    - subst wt. eexists _, _. split; [done|]. lia.
    - destruct Hwt as [Hn _]. destruct (decimal_head wt n Hn) as (d & t' & -> & Hd). eexists _, _. split; [done|].
      pose proof (positive_head (d :: t') n d t' Hn (Hpos n eq_refl) eq_refl). lia.
    - subst wt. eexists _, _. split; [done|]. lia. }
  set (T2 := wt ++ T3) in *.
  assert (exists c1 u1, (if zero v then [48] else []) ++ T2 = c1 :: u1 /\ (c1 = 42 \/ 46 <= c1 <= 57 \/ 88 <= c1 <= 120)) as (c1 & u1 & E1 & Hc1).
  { rewrite E2. destruct (zero v); eexists _, _; (split; [done|]); lia. }
  set (T1 := (if zero v then [48] else []) ++ T2) in *.
  unfold parse_amounts.
  assert (exists p1 c0, p1 = p + Z.of_nat (if left v then 1 else 0) /\ cstr m p1 T1 /\
    ld p m = COk c0 m /\ (c0 =? 45) = left v /\
    (if left v then c <- ld (p + 1) ;; cret (p + 1, c) else cret (p, c0)) m = COk (p1, c1) m) as (p1 & c0 & Ep1 & Hs1 & H1a & H1b & H1c).
  { destruct (left v); cbn [app] in Hs.
    - exists (p + 1), 45. split; [done|]. pose proof (cstr_tail _ _ _ _ Hs) as Hs1. split; [done|].
      split; [exact (ld_hd m p 45 T1 Hs ltac:(lia))|]. split; [done|]. rewrite E1 in Hs1.
      by rewrite (cbind_ok _ _ _ _ _ (ld_hd m (p + 1) c1 u1 Hs1 ltac:(lia))).
    - exists p, c1. split; [lia|]. split; [done|]. rewrite E1 in Hs.
      split; [exact (ld_hd m p c1 u1 Hs ltac:(lia))|]. split; [lia|done]. }
  rewrite (cbind_ok _ _ _ _ _ H1a). cbv zeta. rewrite H1b. rewrite (cbind_ok _ _ _ _ _ H1c). clear H1a H1b H1c. cbn [fst snd].
  assert ((c1 =? 32) = false) as -> by lia. rewrite (cbind_ok (cret _) _ m _ m eq_refl). cbn [fst snd].
  assert (exists p2, p2 = p1 + Z.of_nat (if zero v then 1 else 0) /\ cstr m p2 T2 /\
    (if c1 =? 48 then c <- ld p1 ;; cret (p1 + 1, c, 48) else cret (p1, c1, 32)) m =
      COk (p2, if zero v then 48 else c2, if zero v then 48 else 32) m) as (p2 & Ep2 & Hs2 & H2).
  { subst T1. destruct (zero v); cbn [app] in *.
    - injection E1 as <- <-. exists (p1 + 1). split; [done|]. split; [by eapply cstr_tail|]. cbn [Z.eqb Pos.eqb].
      by rewrite (cbind_ok _ _ _ _ _ (ld_hd m p1 48 T2 Hs1 ltac:(lia))).
    - exists p1. split; [lia|]. split; [done|]. rewrite E2 in E1. injection E1 as <- <-.
      destruct (Z.eqb_spec c2 48); [done|]. done. }
  rewrite (cbind_ok _ _ _ _ _ H2). clear H2. cbn [fst snd].
  assert (amount fuel p2 (if zero v then 48 else c2) args (-1) m =
    COk (p2 + Z.of_nat (length wt), c3, default (if zero v then 0 else -1) w, args1) m) as H3.
  { subst T2. rewrite E3 in Hs2, E2. destruct (zero v) eqn:Ez.
    - eapply amount_zero_ok; try done; [by apply Hstar|lia].
    - replace c2 with (hd0 (wt ++ c3 :: u3)) by (by rewrite E2). eapply amount_ok; try done. lia. }
  rewrite (cbind_ok _ _ _ _ _ H3). clear H3. cbn [fst snd].
  assert (cstr m (p2 + Z.of_nat (length wt)) T3) as Hs3 by (by apply cstr_drop).
  set (p3 := p2 + Z.of_nat (length wt)) in *.
  assert ((if c3 =? 46 then c <- ld (p3 + 1) ;; amount fuel (p3 + 1) c args1 (-1) else cret (p3, c3, -1, args1)) m =
    COk (p3 + Z.of_nat (length pt), c4, default (-1) pr, args2) m) as H4.
  { subst T3. unfold precision_text in Hpt.
    assert (forall n t', precision v = n -> pt = 46 :: t' -> number_text n t' ->
      (if c3 =? 46 then c <- ld (p3 + 1) ;; amount fuel (p3 + 1) c args1 (-1) else cret (p3, c3, -1, args1)) m =
        COk (p3 + Z.of_nat (length pt), c4, default (-1) pr, args2) m) as Hgo.
    { intros n t' En -> Ht'. cbn [app] in *. injection E3 as <- <-. cbn [Z.eqb Pos.eqb]. apply cstr_tail in Hs3. rewrite E4 in Hs3.
      assert (exists c u, t' ++ c4 :: u4 = c :: u /\ 0 <= c < 128) as (c & u & Ec & Hcr).
      { destruct n as [|n|]; cbn in Ht'; [subst t'; eexists _, _; split; [done|lia]| |subst t'; eexists _, _; split; [done|lia]].
        destruct Ht' as [Hn _]. destruct (decimal_head t' n Hn) as (d & t'' & -> & Hd). eexists _, _. split; [done|lia]. }
      rewrite (cbind_ok _ _ _ _ _ (ld_hd m (p3 + 1) c u ltac:(by rewrite <- Ec) Hcr)).
      replace c with (hd0 (t' ++ c4 :: u4)) by (by rewrite Ec).
      rewrite (amount_ok fuel (p3 + 1) n t' u4 c4 args1 pr args2 m Hs3 Ht'); [|unfold stop; lia|by rewrite <- En|cbn in Hf; lia].
      f_equal. f_equal. f_equal. f_equal. cbn [length]. lia. }
    destruct (precision v) as [|n|] eqn:Ep.
    - subst pt. cbn [app length] in *. rewrite E4 in E3. injection E3 as <- <-. assert ((c4 =? 46) = false) as -> by lia.
      inversion Hp; subst. unfold cret. by rewrite Z.add_0_r.
    - destruct Hpt as (t' & Et & Ht'). exact (Hgo _ t' eq_refl Et Ht').
    - destruct Hpt as (t' & Et & Ht'). exact (Hgo _ t' eq_refl Et Ht'). }
  rewrite (cbind_ok _ _ _ _ _ H4). clear H4. cbn [fst snd].
  assert (cstr m (p3 + Z.of_nat (length pt)) T4) as Hs4 by (by apply cstr_drop).
  set (p4 := p3 + Z.of_nat (length pt)) in *.
  exists p4, c4. split; [subst p4 p3; lia|]. split; [exact Hs4|]. split; [by rewrite E4|done].
Qed.
Lemma parse_ok fuel p v wt pt args w args1 pr args2 rest m :
  cstr m p ((if left v then [45] else []) ++ (if zero v then [48] else []) ++ wt ++ pt ++ replicate (ells v) 108 ++ [letter v] ++ rest) ->
  width_text v wt -> precision_text v pt -> (ells v <= 3)%nat -> letter v ∈ [99; 100; 105; 111; 117; 120; 88; 115] ->
  resolves (width v) args w args1 -> resolves (precision v) args1 pr args2 ->
  (length wt + length pt < fuel)%nat ->
  parse fuel p args m =
    COk (Spec (p + Z.of_nat ((if left v then 1 else 0) + (if zero v then 1 else 0) + length wt + length pt + ells v))
              (letter v) (left v) (if zero v then 48 else 32) (default (if zero v then 0 else -1) w) (default (-1) pr) args2) m.
Proof.
  intros Hs Hwt Hpt Hk Hl Hw Hp Hf. destruct (letter_range _ Hl) as [Hc Hc8].
  destruct (amounts_ok fuel p v wt pt args w args1 pr args2 rest m) as (q & c & Eq & Hs4 & Ec & E); try done.
  unfold parse. rewrite (cbind_ok _ _ _ _ _ E). cbn [sp_p sp_c sp_left sp_pad sp_width sp_precision sp_args].
  pose proof (ells_ok q (ells v) (letter v) rest m Hs4 Hk Hc Hc8) as H5.
  change (letter v :: rest) with ([letter v] ++ rest) in H5. rewrite <- Ec in H5.
  unfold cbind in *. destruct (skip_l q c m) as [r1 m1| | |]; try done. destruct (skip_l (fst r1) (snd r1) m1) as [r2 m2| | |]; try done.
  rewrite H5. unfold cret. cbn [fst snd]. f_equal. f_equal. lia.
Qed.

Lemma int_ok z m : INT_MIN <= z <= INT_MAX -> c_int z m = COk z m.
Proof. intros H. unfold c_int. assert (in_int z = true) as ->; [|done]. unfold in_int. lia. Qed.
Lemma base_range c : 2 <= base_of c <= 36.
Proof. unfold base_of. destruct (c =? 111); [lia|]. destruct (_ || _); lia. Qed.
Lemma unsigned_signed c : signed_of c = negb (unsigned c).
Proof. unfold signed_of, unsigned. destruct (c =? 117), (c =? 120), (c =? 88); done. Qed.
Lemma text_fits b ds x c :
  2 <= b -> in_long x = true -> text b ds (if unsigned c then x mod 2 ^ 64 else x) -> (length ds <= 11)%nat ->
  magnitude x (signed_of c) < b ^ (11 - Z.of_nat (minus x (signed_of c))).
Proof.
  intros Hb Hx Ht Hl. rewrite unsigned_signed. unfold magnitude, minus, text in *. destruct (unsigned c); cbn [negb andb].
  - assert ((x mod 2 ^ 64 <? 0) = false) as E by (pose proof (Z.mod_pos_bound x (2 ^ 64)); lia). rewrite E in Ht.
    change (11 - Z.of_nat 0) with (Z.of_nat 11). by apply (numeral_length b ds); [lia|done|lia|].
  - destruct (Z.ltb_spec x 0).
    + destruct Ht as (es & -> & Hn). cbn [length] in Hl. change (11 - Z.of_nat 1) with (Z.of_nat 10).
      replace (Z.abs x) with (- x) by lia. apply (numeral_length b es); [lia|done|lia|lia].
    + change (11 - Z.of_nat 0) with (Z.of_nat 11). replace (Z.abs x) with x by lia. by apply (numeral_length b ds); [lia|done|lia|].
Qed.
Lemma resolves_range n args k args1 t : resolves n args (Some k) args1 -> number_text n t -> 0 <= k <= INT_MAX.
Proof.
  intros Hr Ht. inversion Hr; subst; [|done].
  destruct Ht as [(Hd & Hv & _) Hle]. unfold INT_MAX. split; [|lia].
  rewrite <- Hv. apply (digits_value_mono 10 0); [lia|done|lia].
Qed.
Lemma byte_char a : to_byte (to_schar a) = a mod 256.
Proof. unfold to_byte, to_schar. rewrite Zminus_mod_idemp_l. f_equal. lia. Qed.
Lemma piece_shape x t : piece_text x t -> (exists c, x = Plain c /\ t = [c] /\ 0 < c < 256 /\ c <> 37) \/ exists t', t = 37 :: t'.
Proof. intros H. inversion H; subst; [left|right|right]; eauto. Qed.

Section Prints.
(** [top]: how many characters will be printed in all; [cap]: how many bytes will be written *)
Context (fuel top : nat) (buf size cap str0 : Z) (m0 : gmap Z Z).
Hypothesis Hsize : 0 <= size.
Hypothesis Hfuel : (64 <= fuel)%nat.
Hypothesis Hfuel2 : Z.of_nat fuel <= INT_MAX.
Hypothesis Htop : (top < fuel)%nat.
Hypothesis Hcap : cap = Z.min size (Z.of_nat top + 1).
Hypothesis Happart : str0 + cap <= buf \/ buf + 12 <= str0.

(** addresses a run does not write to *)
Definition outside (q : Z) : Prop := ~ (str0 <= q < str0 + cap) /\ ~ (buf <= q <= buf + 11).
(** [done] was printed *)
Record printed (done : list Z) (o : out) (m : gmap Z Z) : Prop := {
  pr_count : o_count o = Z.of_nat (length done);
  pr_str : o_str o = str0 + Z.min (o_count o) size;
  pr_bytes : bytes_at m str0 (take (Z.to_nat cap) done);
  pr_room : room m str0 (Z.to_nat cap);
  pr_buf : buffer m buf;
  pr_same : forall q, outside q -> m !! q = m0 !! q;
}.
Definition same (m m' : gmap Z Z) : Prop := forall q, ~ (str0 <= q < str0 + cap) -> m' !! q = m !! q.
Lemma same_trans m1 m2 m3 : same m1 m2 -> same m2 m3 -> same m1 m3.
Proof. intros H1 H2 q Hq. rewrite H2 by done. by apply H1. Qed.
Lemma same_cstr m m' p bs : same m m' -> (p + Z.of_nat (length bs) < str0 \/ str0 + cap <= p) -> cstr m p bs -> cstr m' p bs.
Proof.
  intros Hs Hp [Hb Hz]. split; [|done]. eapply bytes_at_agree; [exact Hb|]. intros i Hi. apply Hs.
  rewrite app_length in Hi. cbn in Hi. lia.
Qed.

Lemma put_ok c done o m :
  printed done o m -> Z.of_nat (length done) < Z.of_nat top ->
  exists o' m', put size c o m = COk o' m' /\ printed (done ++ [to_byte c]) o' m' /\ same m m'.
Proof.
  intros [Hc Hs Hb Hr Hbf Hm] Hl. unfold put. unfold INT_MAX in *.
  rewrite to_u64_id by (unfold two64; lia).
  assert (c_int (o_count o + 1) = cret (o_count o + 1)) as Hint.
  { unfold c_int. assert (in_int (o_count o + 1) = true) as ->; [|done]. unfold in_int, INT_MIN, INT_MAX. lia. }
  assert (byte (to_byte c)) as Hbc by (unfold byte, to_byte; apply Z.mod_pos_bound; lia).
  destruct (Z.ltb_spec (o_count o) size) as [Hlt|Hge].
  - assert (is_Some (m !! o_str o)) as Hsome.
    { rewrite Hs. replace (Z.min (o_count o) size) with (Z.of_nat (length done)) by lia. apply Hr. lia. }
    rewrite (cbind_ok _ _ _ _ _ (st_ok _ _ c Hsome)). rewrite Hint. eexists _, _. split; [reflexivity|]. split.
    + split; cbn.
      * rewrite app_length. cbn. lia.
      * lia.
      * rewrite take_ge in Hb by lia. rewrite take_ge by (rewrite app_length; cbn; lia).
        apply bytes_at_app. split; [apply bytes_at_insert; [done|lia]|].
        apply bytes_at_cons. split; [done|]. split; [|apply bytes_at_nil].
        replace (str0 + Z.of_nat (length done)) with (o_str o) by lia. by rewrite lookup_insert.
      * by apply room_insert.
      * by apply buffer_insert.
      * intros q [Hq1 Hq2]. rewrite lookup_insert_ne by lia. by apply Hm.
    + intros q Hq. rewrite lookup_insert_ne by lia. done.
  - rewrite Hint. eexists _, _. split; [reflexivity|]. split; [|done]. split; cbn.
    + rewrite app_length. cbn. lia.
    + lia.
    + by rewrite take_app_le by lia.
    + done.
    + done.
    + done.
Qed.


Lemma pad_left_ok pad p n : forall w done o m,
  printed done o m -> byte pad -> w - p < Z.of_nat n -> INT_MIN < w <= INT_MAX ->
  INT_MIN < p <= INT_MAX -> (0 < n)%nat ->
  Z.of_nat (length done) + Z.max 0 (w - p) <= Z.of_nat top ->
  exists o' m', pad_left size n pad w p o m = COk (Z.min w p - 1, o') m' /\
    printed (done ++ replicate (Z.to_nat (w - p)) pad) o' m' /\ same m m'.
Proof.
  induction n as [|n IH]; intros w done o m Hp Hpad Hn Hw Hpp Hn0 Hl; [lia|]. cbn [pad_left].
  rewrite (cbind_ok _ _ _ _ _ (int_ok (w - 1) m ltac:(lia))).
  destruct (Z.ltb_spec p w).
  - destruct (put_ok pad done o m Hp ltac:(lia)) as (o1 & m1 & E1 & P1 & S1). rewrite (cbind_ok _ _ _ _ _ E1).
    rewrite to_byte_id in P1 by (unfold byte in Hpad; lia).
    destruct (IH (w - 1) (done ++ [pad]) o1 m1 P1 Hpad ltac:(lia) ltac:(lia) Hpp ltac:(lia)) as (o2 & m2 & E2 & P2 & S2).
    { rewrite app_length. cbn. lia. }
    exists o2, m2. rewrite E2. split; [f_equal; f_equal; lia|]. split; [|by eapply same_trans].
    replace (Z.to_nat (w - p)) with (S (Z.to_nat (w - 1 - p))) by lia. cbn [replicate]. by rewrite <- app_assoc in P2.
  - exists o, m. split; [unfold cret; f_equal; f_equal; lia|]. replace (Z.to_nat (w - p)) with 0%nat by lia. cbn.
    rewrite app_nil_r. split; [done|]. by intros q.
Qed.
Lemma fill_zeros_ok l n : forall w p done o m,
  printed done o m -> p - l < Z.of_nat n -> INT_MIN <= w - Z.max 0 (p - l) -> w <= INT_MAX ->
  (0 < n)%nat -> Z.of_nat (length done) + Z.max 0 (p - l) <= Z.of_nat top ->
  exists o' m', fill_zeros size n w p l o m = COk (w - Z.max 0 (p - l), p - Z.max 0 (p - l), o') m' /\
    printed (done ++ replicate (Z.to_nat (p - l)) 48) o' m' /\ same m m'.
Proof.
  induction n as [|n IH]; intros w p done o m Hp Hn Hw Hw2 Hn0 Hl; [lia|]. cbn [fill_zeros].
  destruct (Z.ltb_spec l p).
  - destruct (put_ok 48 done o m Hp ltac:(lia)) as (o1 & m1 & E1 & P1 & S1). rewrite (cbind_ok _ _ _ _ _ E1).
    change (to_byte 48) with 48 in P1. rewrite (cbind_ok _ _ _ _ _ (int_ok (w - 1) m1 ltac:(lia))).
    destruct (IH (w - 1) (p - 1) (done ++ [48]) o1 m1 P1 ltac:(lia) ltac:(lia) ltac:(lia) ltac:(lia)) as (o2 & m2 & E2 & P2 & S2).
    { rewrite app_length. cbn. lia. }
    exists o2, m2. rewrite E2.
    replace (w - 1 - Z.max 0 (p - 1 - l)) with (w - Z.max 0 (p - l)) by lia.
    replace (p - 1 - Z.max 0 (p - 1 - l)) with (p - Z.max 0 (p - l)) by lia.
    split; [done|]. split; [|by eapply same_trans].
    replace (Z.to_nat (p - l)) with (S (Z.to_nat (p - 1 - l))) by lia. cbn [replicate]. by rewrite <- app_assoc in P2.
  - exists o, m. replace (w - Z.max 0 (p - l)) with w by lia. replace (p - Z.max 0 (p - l)) with p by lia.
    split; [done|]. replace (Z.to_nat (p - l)) with 0%nat by lia. cbn.
    rewrite app_nil_r. split; [done|]. by intros q.
Qed.
Lemma pad_right_ok pad n : forall w done o m,
  printed done o m -> byte pad -> w < Z.of_nat n -> (0 < n)%nat ->
  Z.of_nat (length done) + Z.max 0 w <= Z.of_nat top ->
  exists o' m', pad_right size n pad w o m = COk o' m' /\
    printed (done ++ replicate (Z.to_nat w) pad) o' m' /\ same m m'.
Proof.
  induction n as [|n IH]; intros w done o m Hp Hpad Hn Hn0 Hl; [lia|]. cbn [pad_right].
  destruct (Z.ltb_spec 0 w).
  - destruct (put_ok pad done o m Hp ltac:(lia)) as (o1 & m1 & E1 & P1 & S1). rewrite (cbind_ok _ _ _ _ _ E1).
    rewrite to_byte_id in P1 by (unfold byte in Hpad; lia).
    destruct (IH (w - 1) (done ++ [pad]) o1 m1 P1 Hpad ltac:(lia) ltac:(lia)) as (o2 & m2 & E2 & P2 & S2).
    { rewrite app_length. cbn. lia. }
    exists o2, m2. split; [done|]. split; [|by eapply same_trans].
    replace (Z.to_nat w) with (S (Z.to_nat (w - 1))) by lia. cbn [replicate]. by rewrite <- app_assoc in P2.
  - exists o, m. split; [done|]. replace (Z.to_nat w) with 0%nat by lia. cbn.
    rewrite app_nil_r. split; [done|]. by intros q.
Qed.
Lemma copy_part n : forall bs s w p done o m,
  printed done o m -> cstr m s bs -> (s + Z.of_nat (length bs) < str0 \/ str0 + cap <= s) ->
  (length bs < n)%nat -> 0 <= p <= INT_MAX -> INT_MIN <= w - Z.min p (Z.of_nat (length bs)) -> w <= INT_MAX ->
  Z.of_nat (length done) + Z.min p (Z.of_nat (length bs)) <= Z.of_nat top ->
  exists o' m', copy size n s w p o m = COk (w - Z.min p (Z.of_nat (length bs)), o') m' /\
    printed (done ++ take (Z.to_nat p) bs) o' m' /\ same m m'.
Proof.
  induction n as [|n IH]; intros bs s w p done o m Hp [Hb Hz] Hs Hn Hpp Hw Hw2 Hl; [lia|]. cbn [copy].
  destruct bs as [|b bs]; cbn [app] in Hb; apply bytes_at_cons in Hb as (Hbb & Hb & Hbs).
  - rewrite (cbind_ok _ _ _ _ _ (ld_ok _ _ _ Hb)). change (to_schar 0 =? 0) with true. cbn iota.
    exists o, m. split; [unfold cret; f_equal; f_equal; cbn; lia|]. rewrite take_nil, app_nil_r. split; [done|]. by intros q.
  - apply not_elem_of_cons in Hz as [Hb0 Hz]. cbn [length] in *.
    rewrite (cbind_ok _ _ _ _ _ (ld_ok _ _ _ Hb)). rewrite to_schar_zero by done. destruct (Z.eqb_spec b 0); [lia|].
    rewrite (cbind_ok _ _ _ _ _ (int_ok (p - 1) m ltac:(unfold INT_MIN, INT_MAX in *; lia))).
    destruct (Z.leb_spec p 0).
    + exists o, m. split; [unfold cret; f_equal; f_equal; lia|]. replace (Z.to_nat p) with 0%nat by lia.
      rewrite app_nil_r. split; [done|]. by intros q.
    + rewrite (cbind_ok _ _ _ _ _ (int_ok (w - 1) m ltac:(lia))).
      destruct (put_ok (to_schar b) done o m Hp ltac:(lia)) as (o1 & m1 & E1 & P1 & S1). rewrite (cbind_ok _ _ _ _ _ E1).
      rewrite to_byte_schar in P1 by done.
      destruct (IH bs (s + 1) (w - 1) (p - 1) (done ++ [b]) o1 m1 P1) as (o2 & m2 & E2 & P2 & S2).
      { eapply same_cstr; [exact S1|lia|by split]. }
      all: try (rewrite ?app_length; cbn; lia).
      exists o2, m2. rewrite E2. split; [f_equal; f_equal; lia|]. split; [|by eapply same_trans].
      replace (Z.to_nat p) with (S (Z.to_nat (p - 1))) by lia. cbn [take]. by rewrite <- app_assoc in P2.
Qed.
Lemma copy_ok n bs s w p done o m :
  printed done o m -> cstr m s bs -> (s + Z.of_nat (length bs) < str0 \/ str0 + cap <= s) ->
  (length bs < n)%nat -> 0 <= p <= INT_MAX -> INT_MIN <= w - Z.of_nat (length bs) -> w <= INT_MAX ->
  Z.of_nat (length done + length bs) <= Z.of_nat top ->
  exists o' m', copy size n s w p o m = COk (w - Z.min p (Z.of_nat (length bs)), o') m' /\
    printed (done ++ take (Z.to_nat p) bs) o' m' /\ same m m'.
Proof. intros. apply copy_part; try done; lia. Qed.

Lemma printed_buf done o m m' :
  printed done o m -> buffer m' buf -> (forall q, m' !! q <> m !! q -> buf <= q <= buf + 11) -> printed done o m'.
Proof.
  intros [Hc Hs Hb Hr Hbf Hm] Hb' Hd.
  assert (forall q, ~ (buf <= q <= buf + 11) -> m' !! q = m !! q) as Hs'.
  { intros q Hq. destruct (decide (m' !! q = m !! q)) as [|Hne]; [done|]. exfalso. by apply Hq, Hd. }
  split; try done.
  - eapply bytes_at_agree; [exact Hb|]. intros i Hi. apply Hs'. rewrite take_length in Hi. lia.
  - intros i Hi. rewrite Hs' by lia. by apply Hr.
  - intros q [Hq1 Hq2]. rewrite Hs' by done. apply Hm. by split.
Qed.

(** the digits are there; what comes around them *)
Lemma number_field s t ds w (pr : option Z) done o m :
  printed done o m -> cstr m t ds -> buf <= t -> t + Z.of_nat (length ds) = buf + 11 ->
  -1 <= sp_width s <= INT_MAX -> Z.max 0 (sp_width s) = default 0 w ->
  sp_precision s = default (-1) pr ->
  (forall n, pr = Some n -> Z.of_nat (length ds) <= n <= INT_MAX /\ sp_left s = false) ->
  sp_pad s = 32 \/ sp_pad s = 48 -> (sp_left s = true -> sp_pad s = 32) -> (sp_pad s = 48 -> pr = None) ->
  let body := replicate (Z.to_nat (default 0 pr) - length ds) 48 ++ ds in
  let bytes := field (sp_left s) (sp_pad s =? 48) w body in
  (length (done ++ bytes) <= top)%nat ->
  exists o' m',
    (let precision := if sp_precision s =? -1 then Z.of_nat (length ds) else sp_precision s in
     wpo <- (if sp_left s then cret (sp_width s, precision, o)
             else wo <- pad_left size fuel (sp_pad s) (sp_width s) precision o ;;
                  fill_zeros size fuel (fst wo) precision (Z.of_nat (length ds)) (snd wo)) ;;
     wo <- copy size fuel t (fst (fst wpo)) (snd (fst wpo)) (snd wpo) ;;
     pad_right size fuel (sp_pad s) (fst wo) (snd wo)) m = COk o' m' /\
    printed (done ++ bytes) o' m'.
Proof.
  intros HP Ht Hbt Htl Hw Hww Hpr Hn Hpad Hlp Hzp body bytes Hlen.
  set (P := if sp_precision s =? -1 then Z.of_nat (length ds) else sp_precision s). cbn zeta.
  assert (byte (sp_pad s)) as Hpb by (unfold byte; lia).
  rewrite app_length in Hlen.
  assert (length ds <= length body)%nat as Hdb by (subst body; rewrite app_length; lia).
  assert (length bytes = Nat.max (Z.to_nat (default 0%Z w)) (length body)) as Hbl.
  { subst bytes. unfold field. destruct (sp_left s), (sp_pad s =? 48); rewrite app_length, replicate_length; lia. }
  unfold INT_MAX, INT_MIN in *.
  destruct (sp_left s) eqn:El.
  - assert (pr = None) as -> by (destruct pr as [n|]; [by destruct (Hn n eq_refl)|done]). cbn in Hpr, body.
    assert (P = Z.of_nat (length ds)) as EP by (subst P; by rewrite Hpr). rewrite (Hlp eq_refl) in *.
    rewrite (cbind_ok (cret _) _ m _ m eq_refl). cbn [fst snd].
    destruct (copy_ok fuel ds t (sp_width s) P done o m HP Ht) as (o1 & m1 & E1 & P1 & S1); try (unfold INT_MAX, INT_MIN in *; lia).
    rewrite (cbind_ok _ _ _ _ _ E1). cbn [fst snd].
    replace (Z.to_nat P) with (length ds) in P1 by lia. rewrite firstn_all in P1.
    destruct (pad_right_ok 32 fuel (sp_width s - Z.min P (Z.of_nat (length ds))) (done ++ ds) o1 m1 P1 Hpb) as (o2 & m2 & E2 & P2 & S2);
      try (rewrite ?app_length; unfold INT_MAX; lia).
    exists o2, m2. split; [exact E2|].
    assert (body = ds) as Ebd by done. subst bytes. unfold field. rewrite Ebd, app_assoc.
    replace (Z.to_nat (default 0%Z w) - length ds)%nat with (Z.to_nat (sp_width s - Z.min P (Z.of_nat (length ds)))) by lia. exact P2.
  - assert (Z.of_nat (length ds) <= P <= 2147483647) as HPd.
    { subst P. rewrite Hpr. destruct pr as [n|]; cbn; [|lia]. destruct (Hn n eq_refl).
      destruct (Z.eqb_spec n (-1)); lia. }
    assert (length body = Z.to_nat P) as Hbody.
    { subst body P. rewrite app_length, replicate_length, Hpr. destruct pr as [n|]; cbn; [|lia]. destruct (Hn n eq_refl).
      destruct (Z.eqb_spec n (-1)); lia. }
    destruct (pad_left_ok (sp_pad s) P fuel (sp_width s) done o m HP Hpb) as (o1 & m1 & E1 & P1 & S1); try (unfold INT_MAX, INT_MIN; lia).
    destruct (fill_zeros_ok (Z.of_nat (length ds)) fuel (Z.min (sp_width s) P - 1) P _ o1 m1 P1) as (o2 & m2 & E2 & P2 & S2);
      try (rewrite ?app_length, ?replicate_length; unfold INT_MAX, INT_MIN; lia).
    assert ((wo <- pad_left size fuel (sp_pad s) (sp_width s) P o ;;
             fill_zeros size fuel (fst wo) P (Z.of_nat (length ds)) (snd wo)) m =
            COk (Z.min (sp_width s) P - 1 - Z.max 0 (P - Z.of_nat (length ds)), P - Z.max 0 (P - Z.of_nat (length ds)), o2) m2) as Eh
      by (rewrite (cbind_ok _ _ _ _ _ E1); exact E2).
    rewrite (cbind_ok _ _ _ _ _ Eh).
    cbn [fst snd].
    replace (P - Z.max 0 (P - Z.of_nat (length ds))) with (Z.of_nat (length ds)) in * by lia.
    destruct (copy_ok fuel ds t (Z.min (sp_width s) P - 1 - Z.max 0 (P - Z.of_nat (length ds))) (Z.of_nat (length ds)) _ o2 m2 P2) as (o3 & m3 & E3 & P3 & S3);
      try (rewrite ?app_length, ?replicate_length; unfold INT_MAX, INT_MIN; lia).
    { eapply same_cstr; [exact S2|lia|]. eapply same_cstr; [exact S1|lia|done]. }
    rewrite (cbind_ok _ _ _ _ _ E3). cbn [fst snd].
    rewrite Nat2Z.id, firstn_all in P3.
    match type of E3 with _ = COk (?W, _) _ => destruct (pad_right_ok (sp_pad s) fuel W _ o3 m3 P3 Hpb) as (o4 & m4 & E4 & P4 & S4) end;
      try (rewrite ?app_length, ?replicate_length; unfold INT_MAX; lia).
    exists o4, m4. split; [exact E4|].
    match type of P4 with printed (_ ++ replicate (Z.to_nat ?W) _) _ _ => replace (Z.to_nat W) with 0%nat in P4 by lia end.
    cbn [replicate] in P4. rewrite app_nil_r in P4.
    assert (done ++ bytes = ((done ++ replicate (Z.to_nat (sp_width s - P)) (sp_pad s)) ++ replicate (Z.to_nat (P - Z.of_nat (length ds))) 48) ++ ds) as ->; [|exact P4].
    rewrite <- !app_assoc. f_equal. subst bytes. unfold field.
    assert (body = replicate (Z.to_nat (P - Z.of_nat (length ds))) 48 ++ ds) as Eb.
    { subst body. f_equal. f_equal. rewrite app_length, replicate_length in Hbody. lia. }
    rewrite Hbody, <- Eb.
    replace (Z.to_nat (default 0%Z w) - Z.to_nat P)%nat with (Z.to_nat (sp_width s - P)) by lia.
    destruct Hpad as [-> | ->]; done.
Qed.



Lemma put_number_ok c s x ds w (pr : option Z) done o m :
  printed done o m -> in_long x = true ->
  text (radix c) ds (if unsigned c then x mod 2 ^ 64 else x) -> (length ds <= 11)%nat ->
  -1 <= sp_width s <= INT_MAX -> Z.max 0 (sp_width s) = default 0 w ->
  sp_precision s = default (-1) pr ->
  (forall n, pr = Some n -> Z.of_nat (length ds) <= n <= INT_MAX /\ sp_left s = false) ->
  sp_pad s = 32 \/ sp_pad s = 48 -> (sp_left s = true -> sp_pad s = 32) -> (sp_pad s = 48 -> pr = None) ->
  let ds' := if c =? 88 then map capital ds else ds in
  let body := replicate (Z.to_nat (default 0 pr) - length ds') 48 ++ ds' in
  let bytes := field (sp_left s) (sp_pad s =? 48) w body in
  (length (done ++ bytes) <= top)%nat ->
  exists o' m', put_number fuel buf size c s x o m = COk o' m' /\ printed (done ++ bytes) o' m'.
Proof.
  intros HP Hx Ht Hl Hw Hww Hpr Hn Hpad Hlp Hzp ds' body bytes Hlen.
  unfold put_number. fold (base_of c). fold (signed_of c).
  destruct (C26_format m buf x (base_of c) (signed_of c) fuel (pr_buf _ _ _ HP) (base_range c) Hx Hfuel)
    as (p & bs & m1 & E1 & Hs & Ht' & Hf & Hb1 & Hp1 & Hp2).
  { eapply text_fits; [pose proof (base_range c); lia|done|exact Ht|done]. }
  assert (bs = ds) as ->.
  { eapply (text_unique (base_of c)); [pose proof (base_range c); lia|exact Ht'|].
    rewrite unsigned_signed. by destruct (unsigned c). }
  rewrite (cbind_ok _ _ _ _ _ E1).
  assert (exists m2, (if c =? 88 then strupr fuel p ;;; cret tt else cret tt) m1 = COk tt m2 /\ cstr m2 p ds' /\ length ds' = length ds /\
           buffer m2 buf /\ forall q, m2 !! q <> m !! q -> buf <= q <= buf + 11) as (m2 & E2 & Hs2 & Hl2 & Hb2 & Hf2).
  { subst ds'. destruct (c =? 88).
    - destruct (C27_strlwr_strupr m1 p ds fuel Hs) as [_ (m2 & E2 & Hp)]; [lia|].
      assert (m2 = blit p (map upper ds) m1) as -> by (eapply patched_fun; [exact Hp|apply blit_lookup]).
      assert (length (map upper ds) = length ds) as Hlen' by apply map_length.
      eexists. split; [unfold cbind; by rewrite E2|]. change (map capital ds) with (map upper ds). split.
      { destruct Hs as [[Hsb Hs] Hz]. split.
        - apply bytes_at_app. split.
          + apply blit_bytes_at. apply Forall_app in Hsb as [Hsb _]. clear -Hsb. induction Hsb as [|b l Hb Hl IH]; cbn; constructor; [|done].
            unfold upper, byte in *. destruct (_ && _) eqn:E; lia.
          + apply bytes_at_cons. split; [unfold byte; lia|]. split; [|apply bytes_at_nil].
            rewrite blit_outside by lia. rewrite Hlen'. apply (Hs (length ds)). by rewrite lookup_app_r, Nat.sub_diag by lia.
        - intros Hin. apply elem_of_list_fmap in Hin as (b & Hb & Hin). unfold upper in Hb.
          destruct ((97 <=? b) && (b <=? 122)) eqn:E; [lia|]. subst b. done. }
      split; [done|]. split; [split; [apply room_blit, Hb1|rewrite blit_outside by lia; apply Hb1]|].
      intros q Hq. destruct (decide (p <= q < p + Z.of_nat (length ds))); [lia|]. apply Hf. rewrite blit_outside in Hq by lia. done.
    - by exists m1. }
  rewrite (cbind_ok _ _ _ _ _ E2).
  rewrite (cbind_ok _ _ _ _ _ (strlen_ok m2 p ds' fuel Hs2 ltac:(unfold INT_MAX; lia) ltac:(lia))).
  apply (number_field s p ds' w pr done o m2); try done; try lia; [by eapply printed_buf|].
  intros n En. destruct (Hn n En). split; [lia|done].
Qed.

Lemma put_string_ok s a t w (pr : option Z) done o m :
  printed done o m -> a <> 0 -> cstr m a t -> (a + Z.of_nat (length t) < str0 \/ str0 + cap <= a) ->
  (length t < fuel)%nat ->
  -1 <= sp_width s <= INT_MAX -> Z.max 0 (sp_width s) = default 0 w ->
  sp_precision s = default (-1) pr -> (forall n, pr = Some n -> 0 <= n <= INT_MAX) -> sp_pad s = 32 ->
  (sp_left s = false -> forall n, pr = Some n -> n <= Z.of_nat (length t) \/ default 0 w <= Z.of_nat (length t)) ->
  let bytes := field (sp_left s) false w (match pr with Some n => take (Z.to_nat n) t | None => t end) in
  (length (done ++ bytes) <= top)%nat ->
  exists o' m', put_string fuel size s a o m = COk o' m' /\ printed (done ++ bytes) o' m'.
Proof.
  intros HP Ha Ht Hap Htl Hw Hww Hpr Hn Hpad Hagree bytes Hlen. unfold put_string. rewrite Hpad.
  destruct (Z.eqb_spec a 0); [done|].
  rewrite (cbind_ok _ _ _ _ _ (strlen_ok m a t fuel Ht ltac:(lia) Htl)).
  set (P := if sp_precision s =? -1 then Z.of_nat (length t) else sp_precision s). cbn zeta.
  assert (0 <= P <= INT_MAX) as HPr.
  { subst P. rewrite Hpr. destruct pr as [n'|]; cbn; [|lia]. specialize (Hn n' eq_refl). destruct (Z.eqb_spec n' (-1)); lia. }
  set (body := match pr with Some n => take (Z.to_nat n) t | None => t end) in *.
  assert (body = take (Z.to_nat P) t) as Eb.
  { subst body P. rewrite Hpr. destruct pr as [n'|]; cbn; [|by rewrite Nat2Z.id, firstn_all].
    specialize (Hn n' eq_refl). by destruct (Z.eqb_spec n' (-1)); [lia|]. }
  assert (length body = Z.to_nat (Z.min P (Z.of_nat (length t)))) as Hbody by (rewrite Eb, take_length; lia).
  assert (byte 32) as Hpb by (unfold byte; lia).
  rewrite app_length in Hlen.
  assert (length bytes = Nat.max (Z.to_nat (default 0%Z w)) (length body)) as Hbl.
  { subst bytes. unfold field. destruct (sp_left s); rewrite app_length, replicate_length; lia. }
  unfold INT_MAX, INT_MIN in *.
  destruct (sp_left s) eqn:El.
  - rewrite (cbind_ok (cret _) _ m _ m eq_refl). cbn [fst snd].
    (* the string may be longer than what is printed of it *)
    assert (exists o1 m1, copy size fuel a (sp_width s) P o m = COk (sp_width s - Z.min P (Z.of_nat (length t)), o1) m1 /\
             printed (done ++ body) o1 m1) as (o1 & m1 & E1 & P1).
    { rewrite Eb. destruct (copy_part fuel t a (sp_width s) P done o m HP Ht Hap Htl) as (o1 & m1 & E1 & P1 & _);
        try (unfold INT_MAX, INT_MIN; lia). by exists o1, m1. }
    rewrite (cbind_ok _ _ _ _ _ E1). cbn [fst snd].
    destruct (pad_right_ok 32 fuel (sp_width s - Z.min P (Z.of_nat (length t))) (done ++ body) o1 m1 P1 Hpb) as (o2 & m2 & E2 & P2 & _);
      try (rewrite ?app_length; unfold INT_MAX; lia).
    exists o2, m2. split; [exact E2|]. subst bytes. unfold field. rewrite app_assoc.
    by replace (Z.to_nat (default 0%Z w) - length body)%nat with (Z.to_nat (sp_width s - Z.min P (Z.of_nat (length t)))) by lia.
  - assert (P <= Z.of_nat (length t) \/ default 0 w <= Z.of_nat (length t)) as Hag.
    { subst P. rewrite Hpr. destruct pr as [n'|]; cbn; [|lia]. specialize (Hn n' eq_refl). destruct (Z.eqb_spec n' (-1)); [lia|].
      by apply Hagree. }
    destruct (pad_left_ok 32 P fuel (sp_width s) done o m HP Hpb) as (o1 & m1 & E1 & P1 & S1); try (unfold INT_MAX, INT_MIN; lia).
    rewrite (cbind_ok (wo <- pad_left size fuel 32 (sp_width s) P o ;; _) _ m (Z.min (sp_width s) P - 1, P, o1) m1).
    2: { rewrite (cbind_ok _ _ _ _ _ E1). cbn [fst snd]. destruct fuel as [|f] eqn:Ef; [lia|]. cbn [fill_blanks].
         destruct (Z.ltb_spec (Z.of_nat (length t)) (Z.min (sp_width s) P - 1)); [lia|done]. }
    cbn [fst snd].
    destruct (copy_part fuel t a (Z.min (sp_width s) P - 1) P _ o1 m1 P1) as (o2 & m2 & E2 & P2 & S2);
      try (rewrite ?app_length, ?replicate_length; unfold INT_MAX, INT_MIN; lia).
    { eapply same_cstr; [exact S1|lia|done]. }
    rewrite (cbind_ok _ _ _ _ _ E2). cbn [fst snd].
    match type of E2 with _ = COk (?W, _) _ => destruct (pad_right_ok 32 fuel W _ o2 m2 P2 Hpb) as (o4 & m4 & E4 & P4 & S4) end;
      try (rewrite ?app_length, ?replicate_length, ?take_length; unfold INT_MAX; lia).
    exists o4, m4. split; [exact E4|].
    match type of P4 with printed (_ ++ replicate (Z.to_nat ?W) _) _ _ => replace (Z.to_nat W) with 0%nat in P4 by lia end.
    cbn [replicate] in P4. rewrite app_nil_r, <- Eb, <- app_assoc in P4. subst bytes. unfold field.
    replace (Z.to_nat (default 0%Z w) - length body)%nat with (Z.to_nat (sp_width s - P)); [exact P4|].
    lia.
Qed.

(** strings the output does not disturb *)
Definition undisturbed (a : Z) (n : nat) : Prop :=
  (a + Z.of_nat n < str0 \/ str0 + cap <= a) /\ (a + Z.of_nat n < buf \/ buf + 12 <= a).
Definition printable (a : Z) (n : nat) : Prop := undisturbed a n /\ (n < fuel)%nat.

Lemma cstr_kept done o m a s : printed done o m -> cstr m0 a s -> undisturbed a (length s) -> cstr m a s.
Proof.
  intros [_ _ _ _ _ Hm] [Hb Hz] [H1 H2]. split; [|done]. eapply bytes_at_agree; [exact Hb|].
  intros i Hi. apply Hm. rewrite app_length in Hi. cbn in Hi. unfold outside. lia.
Qed.



Lemma directive_ok x t rest p args bs args' done o m :
  printed done o m -> piece_text x (37 :: t) -> cstr m p (t ++ rest) ->
  renders m0 printable x args bs args' -> (length t < fuel)%nat -> (length (done ++ bs) <= top)%nat ->
  exists o' m', directive fuel buf size p args o m = COk (p + Z.of_nat (length t), args', o') m' /\
    printed (done ++ bs) o' m'.
Proof.
  intros HP Hx Hs Hr Hft Hlen. pose proof Hlen as Hlen'. rewrite app_length in Hlen'. unfold directive.
  inversion Hx; subst; [done| |].
  - inversion Hr; subst. cbn [app] in Hs. pose proof (ld_hd m p 37 rest Hs ltac:(lia)) as E.
    assert (parse fuel p args' m = COk (Spec p 37 false 32 (-1) (-1) args') m) as Ep.
    { unfold parse, parse_amounts, cbind. rewrite E. done. }
    rewrite (cbind_ok _ _ _ _ _ Ep). cbn [sp_c sp_p sp_args]. change (37 =? 37) with true. cbn iota.
    rewrite (cbind_ok _ _ _ _ _ E). unfold INT_MAX in *. cbn [length] in Hlen'.
    destruct (put_ok 37 done o m HP) as (o1 & m1 & E1 & P1 & _); [unfold INT_MAX; lia|].
    rewrite (cbind_ok _ _ _ _ _ E1). exists o1, m1. by split.
  - assert (length (((if left v then [45] else []) ++ (if zero v then [48] else []) ++ w ++ p0 ++ replicate (ells v) 108 ++ [letter v])%Z : list Z) =
      ((if left v then 1 else 0) + (if zero v then 1 else 0) + length w + length p0 + ells v + 1)%nat) as El.
    { rewrite !app_length, replicate_length. cbn [length]. destruct (left v), (zero v); cbn [length]; lia. }
    rewrite El in Hft |- *.
    assert (forall wd args1 pr args2, resolves (width v) args wd args1 -> resolves (precision v) args1 pr args2 ->
      parse fuel p args m = COk (Spec (p + Z.of_nat ((if left v then 1 else 0) + (if zero v then 1 else 0) + length w + length p0 + ells v))
              (letter v) (left v) (if zero v then 48 else 32) (default (if zero v then 0 else -1) wd) (default (-1) pr) args2) m) as Hparse.
    { intros wd args1 pr args2 Hwd Hpr. apply (parse_ok fuel p v w p0 args wd args1 pr args2 rest m); try done; [|lia].
      by rewrite <- !app_assoc in Hs. }
    set (k := ((if left v then 1 else 0) + (if zero v then 1 else 0) + length w + length p0 + ells v)%nat) in *.
    assert (forall B (f : Z -> B), f (p + Z.of_nat k + 1) = f (p + Z.of_nat (k + 1))) as Hk by (intros; f_equal; lia).
    assert (forall args1 n, resolves (width v) args (Some n) args1 -> 0 <= n <= INT_MAX) as Hwr.
    { intros args1 n Hwd. eapply resolves_range; [exact Hwd|]. match goal with H : width_text v w |- _ => apply H end. }
    assert (forall args1 args2 n, resolves (precision v) args1 (Some n) args2 -> 0 <= n <= INT_MAX) as Hpr.
    { intros args1 args2 n Hp. match goal with H : precision_text v p0 |- _ => rename H into Hpt end. unfold precision_text in Hpt.
      destruct (precision v) as [|f|] eqn:Ep; [inversion Hp| |]; destruct Hpt as (t' & _ & Ht');
        by eapply resolves_range. }
    clear Hx. revert Hparse Hwr Hpr. generalize dependent k. intros k Hft El Hk Hparse Hwr Hpr.
    inversion Hr as [| |v' a args0 Hc Hcl Hcz Hcw Hcp|v' args0 wd args1 pr x' args2 body Hc Hwd Hprd Hbody Hlong Hag1 Hag2 Hag3
                    |v' args0 wd args1 pr a args2 s Hc Hcz Hwd Hprd Ha Hstr Hfree Hag]; subst; clear Hr.
    + (* %c *)
      rewrite (cbind_ok _ _ _ _ _ (Hparse None (a :: args') None (a :: args') ltac:(rewrite Hcw; constructor) ltac:(rewrite Hcp; constructor))).
      cbn [sp_c sp_p sp_args]. rewrite Hc. change (99 =? 37) with false. change (99 =? 99) with true. cbn iota.
      unfold va_arg. rewrite (cbind_ok (cret _) _ m _ m eq_refl). cbn [fst snd]. cbn [length] in Hlen'.
      destruct (put_ok (to_schar a) done o m HP) as (o1 & m1 & E1 & P1 & _); [unfold INT_MAX in *; lia|].
      rewrite (cbind_ok _ _ _ _ _ E1). rewrite byte_char in P1. exists o1, m1. split; [|done]. unfold cret. by rewrite <- (Hk _ (fun z => z)).
    + rewrite (cbind_ok _ _ _ _ _ (Hparse wd args1 pr (x' :: args') Hwd Hprd)). cbn [sp_c sp_p sp_args].
      assert (letter v =? 37 = false /\ letter v =? 99 = false /\ existsb (Z.eqb (letter v)) [100; 105; 111; 117; 120; 88] = true) as (-> & -> & ->).
      { revert Hc. rewrite !elem_of_cons, elem_of_nil. intros [->|[->|[->|[->|[->|[->|[]]]]]]]; done. }
      unfold va_arg. rewrite (cbind_ok (cret _) _ m _ m eq_refl). cbn [fst snd].
      destruct Hbody as (ds & Hds & Hdl & ->). cbn zeta in *.
      assert (length (if letter v =? 88 then map capital ds else ds) = length ds) as Hdl' by (destruct (letter v =? 88); by rewrite ?map_length).
      assert ((if zero v then 48 else 32) =? 48 = zero v) as Ez by (by destruct (zero v)).
      match goal with |- context [put_number fuel buf size (letter v) ?S x' o] => set (s := S) end.
      destruct (put_number_ok (letter v) s x' ds wd pr done o m HP Hlong Hds Hdl) as (o1 & m1 & E1 & P1); subst s; cbn [sp_width sp_precision sp_left sp_pad].
      * destruct wd as [n|]; cbn; [pose proof (Hwr _ n Hwd); lia|destruct (zero v); unfold INT_MAX; lia].
      * destruct wd as [n|]; cbn; [pose proof (Hwr _ n Hwd); lia|destruct (zero v); lia].
      * done.
      * intros n ->. destruct (Hag1 n eq_refl) as (Hleft & _ & _ & Hbl). pose proof (Hpr _ _ n Hprd) as Hn. split; [|done].
        rewrite app_length, replicate_length, Hdl' in Hbl. cbn [default] in Hbl. lia.
      * destruct (zero v); auto.
      * intros Hleft. destruct (zero v) eqn:Hz; [|done]. destruct (Hag2 eq_refl). congruence.
      * intros Hpad. destruct pr as [n|]; [|done]. destruct (Hag1 n eq_refl) as (_ & Hz & _). by rewrite Hz in Hpad.
      * by rewrite Ez.
      * cbn [sp_left sp_pad] in P1. rewrite Ez in P1. rewrite (cbind_ok _ _ _ _ _ E1). exists o1, m1. split; [|exact P1]. unfold cret. by rewrite <- (Hk _ (fun z => z)).
    + rewrite (cbind_ok _ _ _ _ _ (Hparse wd args1 pr (a :: args') Hwd Hprd)). cbn [sp_c sp_p sp_args]. rewrite Hc, Hcz.
      change (115 =? 37) with false. change (115 =? 99) with false. change (existsb (Z.eqb 115) _) with false. change (115 =? 115) with true. cbn iota.
      unfold va_arg. rewrite (cbind_ok (cret _) _ m _ m eq_refl). cbn [fst snd].
      destruct Hfree as [Hund Hsf].
      match goal with |- context [put_string fuel size ?S a o] => set (sp := S) end.
      destruct (put_string_ok sp a s wd pr done o m HP Ha) as (o1 & m1 & E1 & P1); subst sp; cbn [sp_width sp_precision sp_left sp_pad]; try done.
      * by eapply cstr_kept.
      * apply Hund.
      * destruct wd as [n|]; cbn; [pose proof (Hwr _ n Hwd); lia|unfold INT_MAX; lia].
      * destruct wd as [n|]; cbn; [pose proof (Hwr _ n Hwd); lia|lia].
      * intros n ->. by eapply Hpr.
      * rewrite (cbind_ok _ _ _ _ _ E1). exists o1, m1. split; [|exact P1]. unfold cret. by rewrite <- (Hk _ (fun z => z)).
Qed.


Lemma loop_ok pieces : forall n texts p args bs done o m,
  printed done o m -> Forall2 piece_text pieces texts -> cstr m0 p (concat texts) -> undisturbed p (length (concat texts)) ->
  renders_all m0 printable pieces args bs ->
  (length pieces < n)%nat -> (length (concat texts) < fuel)%nat -> (length (done ++ bs) <= top)%nat ->
  exists o' m', vsnprintf_loop fuel buf size n p args o m = COk o' m' /\ printed (done ++ bs) o' m'.
Proof.
  induction pieces as [|x pieces IH]; intros n texts p args bs done o m HP Ht Hs Hu Hr Hn Hft Hlen;
    (destruct n as [|n]; [lia|]); cbn [vsnprintf_loop]; inversion Ht as [|? t ? texts' Hxt Hts]; subst; clear Ht.
  - inversion Hr; subst. pose proof (cstr_kept _ _ _ _ _ HP Hs Hu) as [Hb _]. cbn in Hb. apply bytes_at_cons in Hb as (_ & Hb & _).
    rewrite (cbind_ok _ _ _ _ _ (ld_ok _ _ _ Hb)). change (to_schar 0 =? 0) with true. cbn iota. exists o, m. by rewrite app_nil_r.
  - inversion Hr as [|? ? ? b args' b' Hxr Hrs]; subst; clear Hr. cbn [concat] in *.
    pose proof (cstr_kept _ _ _ _ _ HP Hs Hu) as Hsm. rewrite app_length in Hft, Hu.
    assert (forall q, q = p + Z.of_nat (length t) -> cstr m0 q (concat texts') /\ undisturbed q (length (concat texts'))) as Hnext.
    { intros q ->. split; [by apply cstr_drop|]. unfold undisturbed in *. lia. }
    rewrite (app_assoc done b b') in Hlen |- *. pose proof Hlen as Hlen'. rewrite !app_length in Hlen'. cbn [length] in Hn.
    destruct (piece_shape x t Hxt) as [(c & -> & -> & Hc & Hc37)|(t' & ->)].
    + inversion Hxr; subst. cbn [app length] in *. pose proof Hsm as [Hb _]. cbn [app] in Hb. apply bytes_at_cons in Hb as (Hcb & Hb & _).
      rewrite (cbind_ok _ _ _ _ _ (ld_ok _ _ _ Hb)). rewrite to_schar_zero by done.
      destruct (Z.eqb_spec c 0); [lia|].
      assert (to_schar c =? 37 = false) as ->.
      { change 37 with (to_schar 37). rewrite to_schar_eq; [lia|done|unfold byte; lia]. }
      cbn [negb].
      destruct (put_ok (to_schar c) done o m HP) as (o1 & m1 & E1 & P1 & _); [unfold INT_MAX in *; lia|].
      rewrite (cbind_ok _ _ _ _ _ E1). rewrite to_byte_schar in P1 by done.
      destruct (Hnext (p + 1) ltac:(lia)) as [Hs1 Hu1].
      apply (IH n texts' (p + 1) args' b' (done ++ [c]) o1 m1); try done; lia.
    + cbn [app] in Hsm. rewrite (cbind_ok _ _ _ _ _ (ld_hd _ _ _ _ Hsm ltac:(lia))).
      change (37 =? 0) with false. change (negb (37 =? 37)) with false. cbn iota. cbn [length] in *.
      destruct (directive_ok x t' (concat texts') (p + 1) args b args' done o m HP Hxt (cstr_tail _ _ _ _ Hsm) Hxr) as (o1 & m1 & E1 & P1);
        try (rewrite ?app_length; lia).
      rewrite (cbind_ok _ _ _ _ _ E1). cbn [fst snd].
      destruct (Hnext (p + 1 + Z.of_nat (length t')) ltac:(lia)) as [Hs1 Hu1].
      apply (IH n texts' _ args' b' (done ++ b) o1 m1); try done; lia.
Qed.
End Prints.
