(** * C47: formatted input *)
From Verif Require Import DataModel.
From stdpp Require Import base gmap list.
From Coq Require Import ZArith Lia.
From Coq Require Import ZifyBool ZifyNat.
From Verif Require Import CInt LibModel LibSpec LibProofs LibNumModel PropsNum FmtModel FmtSpec FmtProofs PropsFmt ScanModel ScanSpec.
Import Strings.String.StringSyntax.
Open Scope Z_scope. Open Scope clib_scope.

Lemma conversion_ok m t c rest : cstr m t (c :: rest) -> c ∈ [37; 99; 100; 105; 117] -> conversion_char t m = COk (t, c) m.
Proof.
  intros H Hc. unfold conversion_char. rewrite !elem_of_cons, elem_of_nil in Hc. erewrite cbind_ok by (eapply ld_hd; [done|lia]).
  destruct (Z.eqb_spec c 108); [lia|done].
Qed.
Lemma cstr_patched m m' a bs p s : patched m a bs m' -> apart a (length bs) p (S (length s)) -> cstr m p s -> cstr m' p s.
Proof.
  intros Hp Ha [[Hf Hb] Hz]. split; [|done]. split; [done|]. intros i b Hi. rewrite Hp. pose proof (lookup_lt_Some _ _ _ Hi) as Hl. rewrite app_length in Hl. cbn in Hl.
  destruct (_ && _) eqn:E; [|by apply Hb]. unfold apart in Ha. lia.
Qed.
Lemma room_patched m m' a bs p n : patched m a bs m' -> room m p n -> room m' p n.
Proof.
  intros Hp Hr i Hi. rewrite Hp. destruct (_ && _) eqn:E; [|by apply Hr]. apply lookup_lt_is_Some. lia.
Qed.
Lemma places_patched m m' a bs s ns t nt args r : patched m a bs m' -> places m s ns t nt args r -> places m' s ns t nt args r.
Proof. intros Hp. induction 1; constructor; try done. by eapply room_patched. Qed.
Lemma places_shrink m s ns t nt s' ns' t' nt' args r : places m s ns t nt args r ->
  s <= s' -> s' + Z.of_nat ns' <= s + Z.of_nat ns -> t <= t' -> t' + Z.of_nat nt' <= t + Z.of_nat nt -> places m s' ns' t' nt' args r.
Proof. intros H ? ? ? ?. induction H; constructor; try done; unfold apart in *; lia. Qed.

Lemma store_int_ok m p v : room m p 4 -> exists m', store_int p v m = COk tt m' /\ patched m p (item_bytes (GotInt v)) m'.
Proof.
  intros Hr. assert (forall k, 0 <= k < 4 -> is_Some (m !! (p + k))) as Hk. { intros k Hk. specialize (Hr (Z.to_nat k) ltac:(lia)). by rewrite Z2Nat.id in Hr by lia. }
  unfold store_int. erewrite cbind_ok by (apply st_ok; rewrite <- (Z.add_0_r p); apply Hk; lia).
  erewrite cbind_ok by (apply st_ok; rewrite lookup_insert_ne by lia; apply Hk; lia).
  erewrite cbind_ok by (apply st_ok; rewrite !lookup_insert_ne by lia; apply Hk; lia).
  rewrite st_ok by (rewrite !lookup_insert_ne by lia; apply Hk; lia). eexists. split; [done|].
  unfold to_byte. rewrite !Z.mod_mod by lia. intros q. cbn [item_bytes length]. destruct (_ && _) eqn:E.
  - assert (q = p \/ q = p + 1 \/ q = p + 2 \/ q = p + 3) as [->|[->|[->| ->]]] by lia.
    + rewrite !lookup_insert_ne by lia. rewrite lookup_insert. by rewrite Z.sub_diag.
    + rewrite !lookup_insert_ne by lia. rewrite lookup_insert. by replace (p + 1 - p) with 1 by lia.
    + rewrite !lookup_insert_ne by lia. rewrite lookup_insert. by replace (p + 2 - p) with 2 by lia.
    + rewrite lookup_insert. by replace (p + 3 - p) with 3 by lia.
  - by rewrite !lookup_insert_ne by lia.
Qed.
Lemma store_char_ok m p b : byte b -> room m p 1 -> exists m', st p (to_schar b) m = COk tt m' /\ patched m p [b] m'.
Proof.
  intros Hb Hr. exists (<[p := b]> m). split.
  - rewrite st_ok; [|specialize (Hr 0%nat ltac:(lia)); cbn in Hr; by rewrite Z.add_0_r in Hr]. do 2 f_equal. unfold to_byte, to_schar, byte in *.
    rewrite Zminus_mod, Z.mod_mod, <- Zminus_mod by lia. replace (b + 128 - 128) with b by lia. by rewrite Z.mod_small by lia.
  - intros q. cbn [length]. destruct (_ && _) eqn:E.
    + assert (q = p) as -> by lia. rewrite lookup_insert. by rewrite Z.sub_diag.
    + by rewrite lookup_insert_ne by lia.
Qed.
Lemma schar_zero b : byte b -> (to_schar b =? 0) = (b =? 0).
Proof. unfold byte, to_schar. intros H. destruct (Z.ltb_spec b 128); [rewrite Z.mod_small by lia; lia|]. replace (b + 128) with (b - 128 + 1 * 256) by lia. rewrite Z.mod_add, Z.mod_small by lia. lia. Qed.
Lemma schar_37 b : byte b -> (to_schar b =? 37) = (b =? 37).
Proof. unfold byte, to_schar. intros H. destruct (Z.ltb_spec b 128); [rewrite Z.mod_small by lia; lia|]. replace (b + 128) with (b - 128 + 1 * 256) by lia. rewrite Z.mod_add, Z.mod_small by lia. lia. Qed.
Lemma cstr_hd m p c t : cstr m p (c :: t) -> m !! p = Some c /\ byte c /\ c <> 0.
Proof. intros [H Hz]. cbn in H. apply bytes_at_cons in H as (Hb & H & _). split; [done|]. split; [done|]. intros ->. apply Hz. left. Qed.
Lemma cstr_end m p : cstr m p [] -> m !! p = Some 0.
Proof. intros [H _]. cbn in H. by apply bytes_at_cons in H as (_ & H & _). Qed.

(** one turn of the loop *)
Lemma turn_end n fuel t p args count m : cstr m t [] -> vsscanf_loop (S n) fuel t p args count m = COk count m.
Proof. intros H. cbn [vsscanf_loop]. erewrite cbind_ok by (by apply ld_ok, cstr_end). done. Qed.
Lemma turn_ended n fuel t p args count m tm : cstr m t tm -> cstr m p [] -> vsscanf_loop (S n) fuel t p args count m = COk count m.
Proof.
  intros H Hp. cbn [vsscanf_loop]. destruct tm as [|c tm].
  - erewrite cbind_ok by (by apply ld_ok, cstr_end). done.
  - apply cstr_hd in H as (H & Hb & H0). erewrite cbind_ok by (by apply ld_ok). rewrite schar_zero by done. destruct (Z.eqb_spec c 0); [done|].
    erewrite cbind_ok by (by apply ld_ok, cstr_end). done.
Qed.
Lemma turn_plain n fuel t p args count m c tm b x : cstr m t (c :: tm) -> cstr m p (b :: x) -> c <> 37 ->
  vsscanf_loop (S n) fuel t p args count m = vsscanf_loop n fuel (t + 1) (p + 1) args count m.
Proof.
  intros H Hp Hc. apply cstr_hd in H as (H & Hb & H0). apply cstr_hd in Hp as (Hp & Hpb & Hp0). cbn [vsscanf_loop].
  erewrite cbind_ok by (by apply ld_ok). rewrite schar_zero by done. destruct (Z.eqb_spec c 0); [done|].
  erewrite cbind_ok by (by apply ld_ok). rewrite schar_zero by done. destruct (Z.eqb_spec b 0); [done|].
  rewrite schar_37 by done. by destruct (Z.eqb_spec c 37).
Qed.
Lemma turn_directive n fuel t p args count m tm b x : cstr m t (37 :: tm) -> cstr m p (b :: x) ->
  vsscanf_loop (S n) fuel t p args count m =
  (r <- sdirective fuel (t + 1) p args count ;; vsscanf_loop n fuel (fst (fst (fst r))) (snd (fst (fst r))) (snd (fst r)) (snd r)) m.
Proof.
  intros H Hp. apply cstr_hd in H as (H & Hb & H0). apply cstr_hd in Hp as (Hp & Hpb & Hp0). cbn [vsscanf_loop].
  erewrite cbind_ok by (by apply ld_ok). change (to_schar 37 =? 0) with false. cbn iota.
  erewrite cbind_ok by (by apply ld_ok). rewrite schar_zero by done. by destruct (Z.eqb_spec b 0).
Qed.

Lemma scan_loop_ok fuel tm x r e : scans tm x r e -> forall n m t p args count,
  cstr m t tm -> cstr m p x -> places m p (S (length x)) t (S (length tm)) args r ->
  0 <= count -> count + Z.of_nat (length r) <= INT_MAX -> (length tm < n)%nat -> (length x < fuel)%nat ->
  exists m', vsscanf_loop n fuel t p args count m = COk (count + Z.of_nat (length r)) m' /\ stored m args r m'.
Proof.
  induction 1 as [x|tm Hs|tm c Hc Hs|c tm x r e Hc Hs H IH|c b tm x r e Hc Hs Hn H IH|tm x r e H IH|b tm x r e H IH|c ws sign ds tm x r e Hc Hws Hsign Hd Hne Hend Hi Hv H IH];
    intros n m t p args count Ht Hp Hpl Hc0 Hc1 Hn0 Hf; (destruct n as [|n]; [lia|]).
  - exists m. split; [|constructor]. rewrite turn_end by done. cbn. by rewrite Z.add_0_r.
  - exists m. split; [|constructor]. erewrite turn_ended by done. cbn. by rewrite Z.add_0_r.
  - exists m. split; [|constructor]. erewrite turn_ended by done. cbn. by rewrite Z.add_0_r.
  - erewrite turn_plain by done. cbn in Hn0, Hf. apply IH; try (by eapply cstr_tail); try lia. eapply places_shrink; [done|cbn; lia..].
  - assert (c <> 37) by (unfold space in Hc; lia). erewrite turn_plain by done. cbn in Hn0, Hf.
    apply IH; try (by eapply cstr_tail); try lia. eapply places_shrink; [done|cbn; lia..].
  - erewrite turn_directive by done. cbn in Hn0, Hf. pose proof (cstr_tail _ _ _ _ Ht) as Ht'.
    erewrite cbind_ok. 2:{ unfold sdirective. erewrite cbind_ok by (eapply conversion_ok; [done|listed]). reflexivity. }
    cbn [fst snd]. apply IH; try lia; [by eapply cstr_tail|by eapply cstr_tail|]. eapply places_shrink; [done|cbn; lia..].
  - erewrite turn_directive by done. cbn in Hn0, Hf, Hc1. pose proof (cstr_tail _ _ _ _ Ht) as Ht'. inversion Hpl as [|a args' ? ? Hr Ha1 Ha2 Hpl']; subst.
    destruct (cstr_hd _ _ _ _ Hp) as (Hpb & Hb & _). cbn [item_bytes length] in Hr, Ha1, Ha2.
    destruct (store_char_ok m a b Hb Hr) as (m1 & E1 & P1).
    erewrite cbind_ok. 2:{ unfold sdirective. erewrite cbind_ok by (eapply conversion_ok; [done|listed]). cbn [fst snd]. change (99 =? 37) with false. change (99 =? 99) with true. cbn iota.
      cbn [va_arg]. rewrite cbind_ret. erewrite cbind_ok by (by apply ld_ok). cbn [fst snd]. erewrite cbind_ok by exact E1.
      erewrite cbind_ok by (apply c_int_ok; unfold in_int, INT_MIN, INT_MAX in *; lia). reflexivity. }
    cbn [fst snd]. destruct (IH n m1 (t + 1 + 1) (p + 1) args' (count + 1)) as (m' & E' & S'); try lia.
    + eapply cstr_patched; [exact P1| |eapply cstr_tail; done]. unfold apart in *. cbn in *. lia.
    + eapply cstr_patched; [exact P1| |eapply cstr_tail; done]. unfold apart in *. cbn in *. lia.
    + eapply places_patched; [exact P1|]. eapply places_shrink; [done|cbn; lia..].
    + exists m'. split; [|by econstructor]. rewrite E'. f_equal. cbn. lia.
  - assert (exists b x', ws ++ sign ++ ds ++ x = b :: x') as (b & x' & Ex).
    { destruct ws; [|by eexists _, _]. destruct sign; [|by eexists _, _]. destruct ds; [done|by eexists _, _]. }
    erewrite turn_directive by (done || (rewrite Ex in Hp; exact Hp)). clear b x' Ex. cbn in Hn0, Hc1. pose proof (cstr_tail _ _ _ _ Ht) as Ht'. inversion Hpl as [|a args' ? ? Hr Ha1 Ha2 Hpl']; subst.
    rewrite !app_length in *. set (v := if bool_decide (sign = [45]) then - value 10 ds else value 10 ds) in *. change (length (item_bytes (GotInt v))) with 4%nat in *.
    destruct (store_int_ok m a (to_s32 v) Hr) as (m1 & E1 & P1).
    assert (0 <= value 10 ds) as Hv0 by (apply digits_value_mono; [lia|done|lia]).
    assert (to_s32 v = v) as Ev. { unfold to_s32, two32. rewrite Z.mod_small; unfold v; destruct (bool_decide _); lia. }
    rewrite Ev in E1, P1.
    assert (sdirective fuel (t + 1) p (a :: args') count m = COk (t + 2, p + Z.of_nat (length ws + length sign + length ds), args', count + 1) m1) as E.
    { unfold sdirective. erewrite cbind_ok by (eapply conversion_ok; [done|rewrite !elem_of_cons in *; tauto]). cbn [fst snd].
      rewrite !elem_of_cons, elem_of_nil in Hc. destruct (Z.eqb_spec c 37); [lia|]. destruct (Z.eqb_spec c 99); [lia|].
      assert (existsb (Z.eqb c) [100; 105; 117] = true) as ->. { apply existsb_exists. exists c. split; [cbn; lia|lia]. }
      cbn [va_arg]. rewrite cbind_ret. cbn [fst snd].
      erewrite cbind_ok. 2:{ apply (C26_parse m p ws sign ds x 10 fuel); try done; [unfold parse_base; lia|by eapply decimal_letters_last|lia]. }
      fold v. cbn [fst snd]. rewrite Ev. erewrite cbind_ok by exact E1. erewrite cbind_ok by (apply c_int_ok; unfold in_int, INT_MIN, INT_MAX in *; lia).
      unfold cret. do 4 f_equal. lia. }
    erewrite cbind_ok by exact E. cbn [fst snd].
    assert (cstr m (p + Z.of_nat (length ws + length sign + length ds)) x) as Hx.
    { rewrite !app_assoc in Hp. apply cstr_drop in Hp. by rewrite !app_length in Hp. }
    destruct (IH n m1 (t + 2) (p + Z.of_nat (length ws + length sign + length ds)) args' (count + 1)) as (m' & E' & S'); try lia.
    + eapply cstr_patched; [exact P1| |replace (t + 2) with (t + 1 + 1) by lia; eapply cstr_tail; done]. unfold apart in *. cbn in *. lia.
    + eapply cstr_patched; [exact P1| |done]. unfold apart in *. cbn in *. lia.
    + eapply places_patched; [exact P1|]. eapply places_shrink; [done|cbn; lia..].
    + exists m'. split; [|by econstructor]. rewrite E'. f_equal. cbn. lia.
Qed.

(** C47.  For every template and every string that [scans] relates: sscanf returns the number of
    conversions - or EOF, see [C47_eof_refuted] - and stores what was read, and nothing else. *)
Theorem C47_sscanf m s template fuel text tmpl args items ended :
  cstr m s text -> cstr m template tmpl -> scans tmpl text items ended ->
  places m s (S (length text)) template (S (length tmpl)) args items ->
  ended = false \/ items <> [] ->
  Z.of_nat (length items) <= INT_MAX -> (length text + length tmpl < fuel)%nat ->
  exists m', vsscanf fuel s template args m = COk (scan_result items ended) m' /\ stored m args items m'.
Proof.
  intros Hs Ht Hsc Hpl He Hi Hf. destruct (scan_loop_ok fuel _ _ _ _ Hsc fuel m template s args 0) as (m' & E & S'); try done; try lia.
  exists m'. split; [|done]. unfold vsscanf. rewrite E. f_equal. unfold scan_result. destruct ended; [|done]. destruct items; [by destruct He|done].
Qed.

(** ** there and back
    A format made of "%d" and one character after each: what sprintf prints, sscanf with the same
    format reads back. *)
Definition numbers_format (cs : list Z) : list Z := concat (map (fun c => [37; 100; c]) cs).
Definition numbers_text (ds : list (list Z)) (cs : list Z) : list Z := concat (zip_with (fun d c => d ++ [c]) ds cs).
Definition separator (c : Z) : Prop := 0 < c < 256 /\ c <> 37 /\ (c < 48 \/ 57 < c).
Lemma numbers_scan ns : forall ds cs, Forall2 (text 10) ds ns -> length cs = length ns -> Forall separator cs ->
  Forall (fun n => Z.abs n <= 2147483647 - 87) ns -> scans (numbers_format cs) (numbers_text ds cs) (GotInt <$> ns) false.
Proof.
  induction ns as [|n ns IH]; intros ds cs Hd Hl Hc Hn; inversion Hd as [|d ? ds' ? Htx Hd']; subst; destruct cs as [|c cs]; try done; [constructor|].
  inversion Hc as [|? ? (Hc1 & Hc2 & Hc3) Hc']; subst. inversion Hn as [|? ? Hn1 Hn']; subst. cbn in Hl. specialize (IH ds' cs Hd' ltac:(lia) Hc' Hn').
  assert (exists sign ds0, d = sign ++ ds0 /\ (sign = [] \/ sign = [43] \/ sign = [45]) /\ numeral 10 ds0 (Z.abs n) /\ n = (if bool_decide (sign = [45]) then - value 10 ds0 else value 10 ds0)) as (sign & ds0 & -> & Hs & Hnum & Ev).
  { unfold text in Htx. destruct (Z.ltb_spec n 0).
    - destruct Htx as (ds0 & -> & Hm). exists [45], ds0. split; [done|]. split; [tauto|]. split; [by replace (Z.abs n) with (- n) by lia|]. destruct Hm as (_ & -> & _). rewrite bool_decide_eq_true_2 by done. lia.
    - exists [], d. split; [done|]. split; [tauto|]. split; [by replace (Z.abs n) with n by lia|]. destruct Htx as (_ & -> & _). done. }
  destruct Hnum as (Hdig & Hval & Hne & _).
  change (numbers_format (c :: cs)) with (37 :: 100 :: c :: numbers_format cs).
  replace (numbers_text ((sign ++ ds0) :: ds') (c :: cs)) with ([] ++ sign ++ ds0 ++ c :: numbers_text ds' cs) by (unfold numbers_text; cbn; by rewrite <- !app_assoc).
  cbn [fmap list_fmap]. rewrite Ev. apply scan_number; try done; try listed; try lia; try (by constructor).
  - cbn. intros d. unfold digit. destruct ((48 <=? c) && (c <=? 57)) eqn:E; [lia|]. destruct ((97 <=? c) && (c <=? 122)) eqn:E2; [|done]. intros [= <-]. lia.
  - assert (Decision (space c)) as Dec by (unfold space; apply _). destruct Dec as [Hsp|Hsp]; [|by constructor].
    apply scan_space; try done. destruct cs as [|c' cs]; [|right; exists 100, (c' :: numbers_format cs); split; [done|listed]].
    left. destruct ds'; done.
Qed.
Lemma numbers_render m free ns : forall ds cs, Forall2 (text 10) ds ns -> length cs = length ns -> Forall separator cs ->
  Forall (fun n => Z.abs n <= 2147483647 - 87) ns ->
  renders_all m free (concat (map (fun c => [Convert (Conversion false false Absent Absent 0 100); Plain c]) cs)) ns (numbers_text ds cs).
Proof.
  induction ns as [|n ns IH]; intros ds cs Hd Hl Hc Hn; inversion Hd as [|d ? ds' ? Htx Hd']; subst; destruct cs as [|c cs]; try done; [constructor|].
  inversion Hc as [|? ? (Hc1 & Hc2 & Hc3) Hc']; subst. inversion Hn as [|? ? Hn1 Hn']; subst. cbn in Hl.
  change (numbers_text (d :: ds') (c :: cs)) with ((d ++ [c]) ++ numbers_text ds' cs). rewrite <- app_assoc. cbn [map concat app].
  econstructor.
  { set (v := Conversion false false Absent Absent 0 100).
    change d with (field (left v) (zero v) None d). apply (render_number m free v (n :: ns) None (n :: ns) None n ns d); try done; try constructor; cbn; try listed.
    - exists d. split; [done|]. split; [|done]. unfold text in Htx. destruct (Z.ltb_spec n 0).
      + destruct Htx as (ds0 & -> & Hm). cbn. apply le_n_S. apply (proj2 (numeral_length 10 ds0 (- n) 10 ltac:(lia) Hm ltac:(lia))). cbn. lia.
      + apply Nat.le_trans with 10%nat; [|lia]. apply (proj2 (numeral_length 10 d n 10 ltac:(lia) Htx ltac:(lia))). cbn. lia.
    - unfold in_long, LONG_MIN, LONG_MAX. lia. }
  change (c :: numbers_text ds' cs) with ([c] ++ numbers_text ds' cs). econstructor; [constructor|]. apply IH; try done. lia.
Qed.
Lemma numbers_pieces cs : Forall separator cs ->
  exists texts, Forall2 piece_text (concat (map (fun c => [Convert (Conversion false false Absent Absent 0 100); Plain c]) cs)) texts /\ concat texts = numbers_format cs.
Proof.
  induction 1 as [|c cs (Hc1 & Hc2 & _) Hcs (texts & IH1 & IH2)]; [exists []; by split; [constructor|]|].
  exists ([37; 100] :: [c] :: texts). split; [|unfold numbers_format in *; cbn; by rewrite IH2]. cbn. constructor; [|by constructor; [constructor|]].
  set (v := Conversion false false Absent Absent 0 100). apply (text_convert v [] []); try done; cbn; try listed; try lia.
Qed.
Lemma numbers_text_zero ns : forall ds cs, Forall2 (text 10) ds ns -> Forall separator cs -> 0 ∉ numbers_text ds cs.
Proof.
  induction ns as [|n ns IH]; intros ds cs Hd Hc; inversion Hd as [|d ? ds' ? Htx Hd']; subst; [cbn; by apply not_elem_of_nil|].
  destruct cs as [|c cs]; [cbn; by apply not_elem_of_nil|]. inversion Hc as [|? ? (Hc1 & _) Hc']; subst.
  change (numbers_text (d :: ds') (c :: cs)) with ((d ++ [c]) ++ numbers_text ds' cs). rewrite !elem_of_app, elem_of_list_singleton. intros [[H|H]|H]; [|lia|by apply (IH ds' cs)].
  assert (forall l, digits_of_base 10 l -> 0 ∉ l) as Hno. { intros l Hl H0. unfold digits_of_base in Hl. rewrite Forall_forall in Hl. destruct (Hl 0 H0) as (k & Hk & _). done. }
  unfold text in Htx. destruct (n <? 0).
  - destruct Htx as (ds0 & -> & Hm). apply elem_of_cons in H as [|H]; [done|]. by apply (Hno ds0); [apply Hm|].
  - by apply (Hno d); [apply Htx|].
Qed.
Lemma places_changed m m' s n1 t n2 args r : places m s n1 t n2 args r ->
  (forall q, m' !! q <> m !! q -> Forall (fun a => q < a \/ a + 4 <= q) (take (length r) args)) -> places m' s n1 t n2 args r.
Proof.
  induction 1 as [|a args i r Hr H1 H2 H IH]; intros Hq; [constructor|]. constructor; try done.
  - intros k Hk. destruct (decide (m' !! (a + Z.of_nat k) = m !! (a + Z.of_nat k))) as [->|Hne]; [by apply Hr|].
    specialize (Hq _ Hne). cbn in Hq. inversion Hq as [|? ? Hx]; subst. destruct i; cbn in Hk; lia.
  - apply IH. intros q Hne. specialize (Hq q Hne). cbn in Hq. by inversion Hq.
Qed.

(** C47.  What sprintf prints with such a format, sscanf reads back: the numbers are stored. *)
Theorem C47_round_trip m fuel buf str format outs ns ds cs :
  let out := numbers_text ds cs in
  Forall2 (text 10) ds ns -> length cs = length ns -> Forall separator cs -> Forall (fun n => Z.abs n <= 2147483647 - 87) ns ->
  buffer m buf -> room m str (S (length out)) -> apart str (S (length out)) buf 12 ->
  cstr m format (numbers_format cs) ->
  apart format (S (length (numbers_format cs))) str (S (length out)) -> apart format (S (length (numbers_format cs))) buf 12 ->
  places m str (S (length out)) format (S (length (numbers_format cs))) outs (GotInt <$> ns) ->
  Forall (fun a => apart a 4 buf 12) (take (length ns) outs) ->
  (64 + length (numbers_format cs) + length out < fuel)%nat -> Z.of_nat fuel <= INT_MAX ->
  exists m1 m2, vsprintf fuel buf str format ns m = COk (Z.of_nat (length out)) m1 /\
    vsscanf fuel str format outs m1 = COk (Z.of_nat (length ns)) m2 /\ stored m1 outs (GotInt <$> ns) m2.
Proof.
  intros out Hd Hl Hc Hn Hb Hr Ha Hfm Ha1 Ha2 Hpl Hpb Hf1 Hf2. destruct (numbers_pieces cs Hc) as (texts & Ht & Et).
  unfold apart in Ha, Ha1, Ha2.
  destruct (C31_sprintf m fuel buf str format (concat (map (fun c => [Convert (Conversion false false Absent Absent 0 100); Plain c]) cs)) texts ns out) as (m1 & E1 & Hs1 & Hk1); rewrite ?Et; try done.
  - by rewrite Nat.add_1_r.
  - lia.
  - unfold undisturbed. lia.
  - by apply numbers_render.
  - by eapply numbers_text_zero.
  - assert (cstr m1 format (numbers_format cs)) as Hfm1.
    { destruct Hfm as [[Hby Hat] Hz]. split; [|done]. split; [done|]. intros i b Hi. destruct (decide (m1 !! (format + Z.of_nat i) = m !! (format + Z.of_nat i))) as [->|Hne]; [by apply Hat|].
      apply Hk1 in Hne. apply lookup_lt_Some in Hi. rewrite app_length in Hi. cbn in Hi. lia. }
    destruct (C47_sscanf m1 str format fuel out (numbers_format cs) outs (GotInt <$> ns) false) as (m2 & E2 & S2); try done.
    + by apply numbers_scan.
    + eapply places_changed; [exact Hpl|]. intros q Hq. apply Hk1 in Hq. rewrite fmap_length.
      assert (Forall (fun a => apart a 4 str (S (length out))) (take (length ns) outs)) as Hstr.
      { clear -Hpl. remember (GotInt <$> ns) as r eqn:Er. revert ns Er. induction Hpl; intros ns Er; destruct ns; try done; [by rewrite take_0|]. cbn in Er. injection Er as -> ->. cbn [length take]. constructor; [done|by apply IHHpl]. }
      clear -Hq Hstr Hpb. rewrite !Forall_forall in *. intros a Hin. specialize (Hstr a Hin). specialize (Hpb a Hin). unfold apart in *. cbn in *. lia.
    + by left.
    + rewrite fmap_length. unfold INT_MAX in *. rewrite <- Hl. assert (length cs <= length (numbers_format cs))%nat; [|lia].
      clear. induction cs; [done|]. unfold numbers_format in *. cbn in *. lia.
    + lia.
    + exists m1, m2. split; [done|]. split; [|done]. rewrite E2. unfold scan_result. cbn. by rewrite fmap_length.
Qed.

(** ** files *)
Lemma fget_cons b f : byte b -> fget (b :: f) = (to_schar b, f).
Proof. done. Qed.
Lemma schar_small b : 0 <= b < 128 -> to_schar b = b.
Proof. intros H. unfold to_schar. rewrite Z.mod_small; lia. Qed.
Lemma schar_top b : byte b -> b <> 255 -> to_schar b <> -1.
Proof. unfold byte, to_schar. intros H ?. destruct (Z.ltb_spec b 128); [rewrite Z.mod_small by lia; lia|]. replace (b + 128) with (b - 128 + 1 * 256) by lia. rewrite Z.mod_add, Z.mod_small by lia. lia. Qed.
Lemma decimal_range c : (exists d, digit c = Some d /\ d < 10) -> 48 <= c <= 57.
Proof.
  intros (d & H & Hd). unfold digit in H. destruct ((48 <=? c) && (c <=? 57)) eqn:E; [lia|]. destruct ((97 <=? c) && (c <=? 122)) eqn:E2; [|done]. injection H as <-. lia.
Qed.
Lemma after_number x : Forall byte x -> ends 10 x -> c_digit (fst (fget x)) = false.
Proof.
  intros Hb He. destruct x as [|c x]; [done|]. inversion Hb as [|? ? Hc]; subst. cbn in *. unfold c_digit, byte, digit in *.
  destruct (Z.leb_spec 128 c).
  - unfold to_schar. replace (c + 128) with (c - 128 + 1 * 256) by lia. rewrite Z.mod_add, Z.mod_small by lia. lia.
  - rewrite schar_small by lia. destruct ((48 <=? c) && (c <=? 57)) eqn:E; [|done]. specialize (He _ eq_refl). lia.
Qed.
Lemma back x : head x <> Some 255 -> Forall byte x -> funget (fst (fget x)) (snd (fget x)) = x.
Proof.
  intros Hx Hb. destruct x as [|c x]; [done|]. inversion Hb as [|? ? Hc]; subst. cbn. unfold funget.
  destruct (Z.eqb_spec (to_schar c) (-1)) as [E|_]; [|by rewrite to_byte_schar]. apply schar_top in E; [done|done|]. intros ->. by apply Hx.
Qed.
Lemma fdigits_ok x buf : Forall byte x -> ends 10 x -> forall ds n m q, digits_of_base 10 ds -> (length ds < n)%nat ->
  room m q (length ds) -> q + Z.of_nat (length ds) <= buf + 20 ->
  fdigits n (fst (fget (ds ++ x))) (snd (fget (ds ++ x))) q buf m = COk (fst (fget x), snd (fget x), q + Z.of_nat (length ds)) (blit q ds m).
Proof.
  intros Hb He. induction ds as [|c ds IH]; intros n m q Hd Hn Hr Hq; (destruct n as [|n]; [cbn in Hn; lia|]); cbn [fdigits].
  - cbn [app]. rewrite after_number by done. cbn. by rewrite Z.add_0_r.
  - inversion Hd as [|? ? Hc Hd']; subst. apply decimal_range in Hc. cbn [app fget fst snd length] in *. rewrite schar_small by lia.
    assert (c_digit c = true) as -> by (unfold c_digit; lia). destruct (Z.ltb_spec q (buf + 20)); [|lia].
    assert (is_Some (m !! q)) as Hq0. { specialize (Hr 0%nat ltac:(lia)). by rewrite Z.add_0_r in Hr. }
    erewrite cbind_ok by (by apply st_ok).
    assert (to_byte c = c) as -> by (unfold to_byte; apply Z.mod_small; lia).
    rewrite IH; try done; try lia.
    + cbn [blit]. do 2 f_equal. lia.
    + apply room_insert. intros i Hi. specialize (Hr (S i) ltac:(lia)). by replace (q + 1 + Z.of_nat i) with (q + Z.of_nat (S i)) by lia.
Qed.
Lemma fnumber_ok fuel buf a m sign ds x : sign = [] \/ sign = [43] \/ sign = [45] -> digits_of_base 10 ds -> ds <> [] ->
  (length sign + length ds < 20)%nat -> (length ds < fuel)%nat -> value 10 ds <= 2147483647 - 87 ->
  Forall byte x -> ends 10 x -> head x <> Some 255 -> room m buf 20 -> room m a 4 ->
  let v := if bool_decide (sign = [45]) then - value 10 ds else value 10 ds in
  exists m', fnumber fuel buf a (fst (fget (sign ++ ds ++ x))) (snd (fget (sign ++ ds ++ x))) m = COk (fst (fget x), x) m' /\
    patched (blit buf (sign ++ ds ++ [0]) m) a (item_bytes (GotInt v)) m'.
Proof.
  intros Hs Hd Hne Hl Hf Hv Hb He Hx Hr Ha v.
  assert (0 <= value 10 ds) as Hv0 by (apply digits_value_mono; [lia|done|lia]).
  assert (Forall byte ds) as Hdb. { eapply Forall_impl; [exact Hd|]. intros c Hc. apply decimal_range in Hc. unfold byte. lia. }
  assert (Forall byte sign) as Hsb by (unfold byte; destruct Hs as [->|[->| ->]]; repeat constructor; lia).
  unfold fnumber.
  erewrite cbind_ok with (a := (fst (fget (ds ++ x)), snd (fget (ds ++ x)), buf + Z.of_nat (length sign))) (m' := blit buf sign m).
  2:{ assert (is_Some (m !! buf)) as Hq0. { specialize (Hr 0%nat ltac:(lia)). by rewrite Z.add_0_r in Hr. }
      destruct Hs as [->|[->| ->]]; cbn [app].
      - assert (exists c ds', ds = c :: ds' /\ 48 <= c <= 57) as (c & ds' & -> & Hc). { destruct ds as [|c ds']; [done|]. exists c, ds'. split; [done|]. inversion Hd; subst. by apply decimal_range. }
        cbn [app fget fst snd]. rewrite schar_small by lia. destruct ((c =? 43) || (c =? 45)) eqn:E; [lia|]. cbn. by rewrite Z.add_0_r.
      - cbn [fget fst snd]. change (to_schar 43) with 43. cbn [Z.eqb Pos.eqb orb]. erewrite cbind_ok by (by apply st_ok). reflexivity.
      - cbn [fget fst snd]. change (to_schar 45) with 45. cbn [Z.eqb Pos.eqb orb]. erewrite cbind_ok by (by apply st_ok). reflexivity. }
  cbn [fst snd]. erewrite cbind_ok.
  2:{ apply fdigits_ok; try done; [|lia]. apply room_blit. intros i Hi. specialize (Hr (length sign + i)%nat ltac:(lia)). by replace (buf + Z.of_nat (length sign) + Z.of_nat i) with (buf + Z.of_nat (length sign + i)) by lia. }
  cbn [fst snd]. rewrite back by done. destruct (Z.ltb_spec (buf + Z.of_nat (length sign) + Z.of_nat (length ds)) (buf + 20)); [|lia].
  rewrite <- blit_app. assert (room (blit buf (sign ++ ds) m) buf 20) as Hr' by by apply room_blit.
  erewrite cbind_ok. 2:{ apply st_ok. specialize (Hr' (length sign + length ds)%nat ltac:(lia)). by replace (buf + Z.of_nat (length sign) + Z.of_nat (length ds)) with (buf + Z.of_nat (length sign + length ds)) by lia. }
  change (to_byte 0) with 0. set (m1 := <[_ := _]> _).
  assert (m1 = blit buf ((sign ++ ds) ++ [0]) m) as Em. { unfold m1. rewrite (blit_app buf (sign ++ ds) [0]). cbn [blit]. by rewrite app_length, Nat2Z.inj_add, Z.add_assoc. }
  rewrite <- app_assoc in Em.
  assert (cstr m1 buf ([] ++ sign ++ ds ++ [])) as Hcs.
  { rewrite Em, app_nil_r. split; [cbn [app]; rewrite <- app_assoc; apply blit_bytes_at|].
    - rewrite !Forall_app. split; [done|]. split; [done|]. constructor; [|constructor]. unfold byte. lia.
    - cbn [app]. rewrite elem_of_app. intros [H0|H0]; [destruct Hs as [->|[->| ->]]; rewrite ?elem_of_cons, ?elem_of_nil in H0; lia|].
      unfold digits_of_base in Hd. rewrite Forall_forall in Hd. specialize (Hd 0 H0). apply decimal_range in Hd. lia. }
  erewrite cbind_ok.
  2:{ apply (C26_parse m1 buf [] sign ds [] 10 fuel); try done; [unfold parse_base; lia|by eapply decimal_letters_last]. }
  fold v. cbn [fst snd].
  destruct (store_int_ok m1 a (to_s32 v)) as (m2 & E2 & P2). { rewrite Em. by apply room_blit. }
  assert (to_s32 v = v) as Ev. { unfold to_s32, two32. rewrite Z.mod_small; unfold v; destruct (bool_decide _); lia. }
  exists m2. erewrite cbind_ok by exact E2. split; [done|]. by rewrite Ev, Em in P2.
Qed.

(** C47, files: characters, then one number: it is stored, and the file is left after it. *)
Theorem C47_fscanf m buf template fuel pre c sign ds x a args :
  c ∈ [100; 105; 117] -> Forall (fun b => 0 < b < 255 /\ b <> 37 /\ ~ space b) pre ->
  sign = [] \/ sign = [43] \/ sign = [45] -> digits_of_base 10 ds -> ds <> [] ->
  (c = 105 -> head ds <> Some 48) -> value 10 ds <= 2147483647 - 87 -> (length sign + length ds < 20)%nat ->
  Forall byte x -> ends 10 x -> head x <> Some 255 ->
  cstr m template (pre ++ [37; c]) -> room m buf 20 -> room m a 4 ->
  apart buf 20 template (length pre + 3) -> apart a 4 template (length pre + 3) ->
  (length pre + 22 < fuel)%nat ->
  let v := if bool_decide (sign = [45]) then - value 10 ds else value 10 ds in
  exists m', vfscanf fuel buf (pre ++ sign ++ ds ++ x) template (a :: args) m = COk (1, x) m' /\
    bytes_at m' a (item_bytes (GotInt v)) /\
    forall q, m' !! q <> m !! q -> a <= q < a + 4 \/ buf <= q < buf + 20.
Proof.
  intros Hc Hpre Hs Hd Hne _ Hv Hl Hb He Hx Ht Hr Ha Ha1 Ha2 Hf v. unfold vfscanf.
  set (k := fuel) at 1. assert (exists n, k = (n + length pre)%nat /\ (2 < n)%nat) as (n & En & Hn) by (exists (fuel - length pre)%nat; lia).
  assert (length ds < fuel)%nat as Hf' by lia. clearbody k. subst k. clear Hf. revert template Ht Ha1 Ha2.
  induction Hpre as [|b pre (Hb1 & Hb2 & Hb3) Hpre IH]; intros template Ht Ha1 Ha2.
  - cbn [app length] in *. rewrite Nat.add_0_r. destruct n as [|[|n]]; [lia..|]. cbn [vfscanf_loop].
    destruct (cstr_hd _ _ _ _ Ht) as (H1 & _). pose proof (cstr_tail _ _ _ _ Ht) as Ht2. pose proof (cstr_end _ _ (cstr_tail _ _ _ _ Ht2)) as H3.
    erewrite cbind_ok by (by apply ld_ok). change (to_schar 37 =? 0) with false. change (to_schar 37 =? 37) with true. cbn [negb]. cbn iota.
    assert (fst (fget (sign ++ ds ++ x)) <> -1) as Hp0.
    { destruct Hs as [->|[->| ->]]; cbn [app]; [|done..]. destruct ds as [|d ds']; [done|]. inversion Hd as [|? ? Hd0]; subst. apply decimal_range in Hd0. cbn. rewrite schar_small; lia. }
    destruct (Z.eqb_spec (fst (fget (sign ++ ds ++ x))) (-1)); [done|].
    erewrite cbind_ok by (eapply conversion_ok; [exact Ht2|rewrite !elem_of_cons in *; tauto]). cbn [fst snd].
    rewrite !elem_of_cons, elem_of_nil in Hc. destruct (Z.eqb_spec c 37); [lia|]. destruct (Z.eqb_spec c 99); [lia|].
    assert (existsb (Z.eqb c) [100; 105; 117] = true) as ->. { apply existsb_exists. exists c. split; [cbn; lia|lia]. }
    cbn [va_arg]. rewrite cbind_ret. cbn [fst snd].
    destruct (fnumber_ok fuel buf a m sign ds x) as (m' & E & P); try done. fold v in P.
    erewrite cbind_ok by exact E. erewrite cbind_ok by (by apply c_int_ok). cbn [fst snd].
    assert (forall q, q < a \/ a + 4 <= q -> q < buf \/ buf + 20 <= q -> m' !! q = m !! q) as Hk.
    { intros q Hq1 Hq2. rewrite P. change (length (item_bytes (GotInt v))) with 4%nat. destruct ((a <=? q) && (q <? a + Z.of_nat 4)) eqn:Eq; [lia|]. apply blit_outside. rewrite !app_length. cbn. lia. }
    erewrite cbind_ok. 2:{ apply ld_ok. rewrite Hk; [exact H3|unfold apart in *; cbn in *; lia..]. }
    change (to_schar 0 =? 0) with true. cbn iota. exists m'. split; [done|]. split.
    + split. { cbn [item_bytes]. repeat constructor; unfold byte; pose proof (Z.mod_pos_bound v 256 ltac:(lia)); pose proof (Z.mod_pos_bound (v / 256) 256 ltac:(lia)); pose proof (Z.mod_pos_bound (v / 65536) 256 ltac:(lia)); pose proof (Z.mod_pos_bound (v / 16777216) 256 ltac:(lia)); lia. }
      intros i b Hi. rewrite P. pose proof (lookup_lt_Some _ _ _ Hi). destruct ((a <=? a + Z.of_nat i) && (a + Z.of_nat i <? a + Z.of_nat (length (item_bytes (GotInt v))))) eqn:Eq; [|lia].
      by replace (Z.to_nat (a + Z.of_nat i - a)) with i by lia.
    + intros q Hq. destruct (decide (a <= q < a + 4)); [by left|]. right. destruct (decide (buf <= q < buf + 20)); [done|]. exfalso. apply Hq, Hk; lia.
  - cbn [app length] in *. rewrite Nat.add_succ_r. cbn [vfscanf_loop]. destruct (cstr_hd _ _ _ _ Ht) as (H1 & Hbb & H0).
    erewrite cbind_ok by (by apply ld_ok). rewrite schar_zero by done. destruct (Z.eqb_spec b 0); [done|]. cbn [fget fst snd].
    destruct (Z.eqb_spec (to_schar b) (-1)) as [E|_]; [apply schar_top in E; [done|done|lia]|]. rewrite schar_37 by done. destruct (Z.eqb_spec b 37); [done|]. cbn [negb]. cbn iota.
    apply IH; [by eapply cstr_tail|unfold apart in *; lia..].
Qed.

(** ** the hypotheses hold *)
(** 40 bytes at 100, a block at 1000, the template at 2000, the string to read at 3000, room at 4000 *)
Definition scan_mem (t x : list Z) : gmap Z Z :=
  blit 4000 (replicate 20 0) (blit 3000 (x ++ [0]) (blit 2000 (t ++ [0]) (blit 1000 (replicate 20 0) (blit 100 (replicate 40 7) ∅)))).
Lemma cstr_check m p s : bytes_b m p (s ++ [0]) = true -> forallb (fun b => negb (b =? 0)) s = true -> cstr m p s.
Proof.
  intros H1 H2. split; [by apply bytes_check|]. intros H0. rewrite forallb_forall in H2. apply elem_of_list_In in H0. by specialize (H2 _ H0).
Qed.
Ltac at_once := first [apply cstr_check; vm_compute; reflexivity | apply room_check; vm_compute; reflexivity | unfold apart; vm_compute; first [left; discriminate | right; discriminate]].
Lemma decimals_check ds : forallb c_digit ds = true -> digits_of_base 10 ds.
Proof.
  intros H. apply Forall_forall. intros c Hc. rewrite forallb_forall in H. apply elem_of_list_In in Hc. specialize (H c Hc). unfold c_digit in H.
  exists (c - 48). unfold digit. rewrite H. split; [done|lia].
Qed.

(** sscanf ("x= -42,Q% 7!", "x=%d,%c%% %u") with places at 100, 110 and 120 *)
Example sscanf_hypotheses_hold :
  let x := bytes_of "x= -42,Q% 7!" in
  let t := bytes_of "x=%d,%c%% %u" in
  let m := scan_mem t x in
  let items := [GotInt (-42); GotChar 81; GotInt 7] in
  cstr m 3000 x /\ cstr m 2000 t /\ scans t x items false /\ places m 3000 (S (length x)) 2000 (S (length t)) [100; 110; 120] items /\
  item_bytes (GotInt (-42)) = [214; 255; 255; 255].
Proof.
  intros x t m items. split; [at_once|]. split; [at_once|]. split; [|split; [|done]].
  - subst items. change x with [120; 61; 32; 45; 52; 50; 44; 81; 37; 32; 55; 33]. change t with [120; 61; 37; 100; 44; 37; 99; 37; 37; 32; 37; 117]. apply scan_plain; [lia|unfold space; lia|]. apply scan_plain; [lia|unfold space; lia|].
    apply (scan_number 100 [32] [45] [52; 50] _ [44; 81; 37; 32; 55; 33]); try done; [listed|apply Forall_cons; split; [unfold space; lia|constructor]|tauto|by apply decimals_check|].
    apply scan_plain; [lia|unfold space; lia|]. apply scan_char. apply scan_percent. apply scan_space; [unfold space; lia..|right; exists 117, []; split; [done|listed]|].
    apply (scan_number 117 [] [] [55] _ [33]); try done; try listed; try tauto; try (by constructor); by apply decimals_check.
  - repeat apply places_cons; try apply places_nil; at_once.
Qed.
(** there and back with "%d,%d;" and -42, 2147483560: the text goes to 100, the numbers to 4000 and 4004 *)
Example round_trip_hypotheses_hold :
  let ns := [-42; 2147483560] in
  let cs := [44; 59] in
  let ds := [bytes_of "-42"; bytes_of "2147483560"] in
  let t := numbers_format cs in
  let out := numbers_text ds cs in
  let m := scan_mem t [] in
  t = bytes_of "%d,%d;" /\ out = bytes_of "-42,2147483560;" /\
  Forall2 (text 10) ds ns /\ length cs = length ns /\ Forall separator cs /\ Forall (fun n => Z.abs n <= 2147483647 - 87) ns /\
  buffer m 1000 /\ room m 100 (S (length out)) /\ apart 100 (S (length out)) 1000 12 /\
  cstr m 2000 t /\ apart 2000 (S (length t)) 100 (S (length out)) /\ apart 2000 (S (length t)) 1000 12 /\
  places m 100 (S (length out)) 2000 (S (length t)) [4000; 4004] (GotInt <$> ns) /\
  Forall (fun a => apart a 4 1000 12) (take (length ns) [4000; 4004]) /\
  (64 + length t + length out < 200)%nat.
Proof.
  intros ns cs ds t out m. split; [vm_compute; reflexivity|]. split; [vm_compute; reflexivity|]. split.
  { constructor; [|constructor; [|constructor]].
    - exists [52; 50]. split; [done|]. split; [by apply decimals_check|]. split; [done|]. split; [done|first [by left|by right]].
    - split; [by apply decimals_check|]. split; [done|]. split; [done|first [by left|by right]]. }
  split; [done|]. split. { subst cs. do 2 (apply Forall_cons; split; [unfold separator; lia|]). by apply Forall_nil. }
  split. { subst ns. do 2 (apply Forall_cons; split; [lia|]). by apply Forall_nil. }
  split. { split; [at_once|vm_compute; reflexivity]. }
  split; [at_once|]. split; [at_once|]. split; [at_once|]. split; [at_once|]. split; [at_once|].
  split. { apply places_cons; [at_once..|]. apply places_cons; [at_once..|]. apply places_nil. }
  split; [|vm_compute; lia]. cbn [take length ns]. do 2 (apply Forall_cons; split; [at_once|]). by apply Forall_nil.
Qed.
(** fscanf (f, "v%d", &n) where f has "v-42 7" *)
Example fscanf_hypotheses_hold :
  let m := scan_mem (bytes_of "v%d") [] in
  cstr m 2000 (bytes_of "v" ++ [37; 100]) /\ room m 1000 20 /\ room m 100 4 /\ apart 1000 20 2000 4 /\ apart 100 4 2000 4 /\
  digits_of_base 10 (bytes_of "42") /\ ends 10 (bytes_of " 7").
Proof.
  intros m. split; [at_once|]. split; [at_once|]. split; [at_once|]. split; [at_once|]. split; [at_once|]. split; [by apply decimals_check|done].
Qed.

(** ** where the code is not what C says *)
Definition scans_to (t x : list Z) (args : list Z) (r : Z) (bs : list Z) : Prop :=
  exists m', vsscanf 60 3000 2000 args (scan_mem t x) = COk r m' /\ bytes_at m' 100 bs.
Lemma scans_check t x args r bs :
  match vsscanf 60 3000 2000 args (scan_mem t x) with COk r' m' => (r' =? r) && bytes_b m' 100 bs | _ => false end = true -> scans_to t x args r bs.
Proof.
  unfold scans_to. destruct (vsscanf 60 3000 2000 args (scan_mem t x)) as [r' m'| | |]; try done.
  rewrite andb_true_iff. intros [H1 H2]. exists m'. split; [|by apply bytes_check]. f_equal. lia.
Qed.
Ltac scanned := apply scans_check; vm_compute; reflexivity.
(** the end of the input before the first conversion: EOF, not 0 *)
Theorem C47_eof_refuted : scans (bytes_of "%d") [] [] true /\ scan_result [] true = -1 /\ scans_to (bytes_of "%d") [] [100] 0 [7; 7; 7; 7].
Proof. split; [apply (scan_ended _ 37); [by left|unfold space; lia]|]. split; [done|scanned]. Qed.
(** a character that does not match ends the call in C; here it is taken *)
Theorem C47_mismatch_refuted : scans_to (bytes_of "y%d") (bytes_of "x5") [100] 1 [5; 0; 0; 0; 7].
Proof. scanned. Qed.
(** so does a letter where a number should be: here 0 is stored, and counted *)
Theorem C47_no_digits_refuted : scans_to (bytes_of "%d") (bytes_of "x") [100] 1 [0; 0; 0; 0; 7].
Proof. scanned. Qed.
(** white space matches nothing, too: "Q" should be stored *)
Theorem C47_no_space_refuted : scans_to (bytes_of " %c") (bytes_of "Q") [100] 0 [7].
Proof. scanned. Qed.
(** the [long] of "%ld": four of its eight bytes are not stored; the rest of the template is read *)
Theorem C47_long_refuted : scans_to (bytes_of "%ld,%c") (bytes_of "5,Q") [100; 110] 2 [5; 0; 0; 0; 7; 7; 7; 7; 7; 7; 81; 7].
Proof. scanned. Qed.
(** a directive that is not supported makes the call read past the end of the template *)
Theorem C47_string_refuted : vsscanf 60 3000 2000 [100] (scan_mem (bytes_of "%s") (bytes_of "abc")) = CUB.
Proof. vm_compute. reflexivity. Qed.

Definition fscans_to (t f : list Z) (args : list Z) (r : Z) (left : list Z) (bs : list Z) : Prop :=
  exists m', vfscanf 60 1000 f 2000 args (scan_mem t []) = COk (r, left) m' /\ bytes_at m' 100 bs.
Lemma fscans_check t f args r l bs :
  match vfscanf 60 1000 f 2000 args (scan_mem t []) with COk (r', l') m' => (r' =? r) && bool_decide (l' = l) && bytes_b m' 100 bs | _ => false end = true -> fscans_to t f args r l bs.
Proof.
  unfold fscans_to. destruct (vfscanf 60 1000 f 2000 args (scan_mem t [])) as [[r' l'] m'| | |]; try done.
  rewrite !andb_true_iff, bool_decide_eq_true. intros [[H1 ->] H2]. exists m'. split; [|by apply bytes_check]. do 2 f_equal. lia.
Qed.
Ltac fscanned := apply fscans_check; vm_compute; reflexivity.
(** "%d %d" on "1 2": the second number is stored as 0, and 2 is still to be read *)
Theorem C47_fscanf_two_refuted : fscans_to (bytes_of "%d %d") (bytes_of "1 2") [100; 104] 2 (bytes_of " 2") [1; 0; 0; 0; 0; 0; 0; 0].
Proof. fscanned. Qed.
(** "%c" takes two bytes of the file *)
Theorem C47_fscanf_char_refuted : fscans_to (bytes_of "%c") (bytes_of "xyz") [100] 1 (bytes_of "z") [120; 7].
Proof. fscanned. Qed.
(** byte 255 is taken for the end of the file *)
Theorem C47_fscanf_255_refuted : fscans_to (bytes_of "%c%c") [255; 120] [100; 101] 0 [120] [7; 7].
Proof. fscanned. Qed.
(** white space in front of a number is not skipped *)
Theorem C47_fscanf_space_refuted : fscans_to (bytes_of "%d") (bytes_of " 5") [100] 1 (bytes_of " 5") [0; 0; 0; 0].
Proof. fscanned. Qed.
(** twenty digits overrun the local buffer *)
Theorem C47_fscanf_overruns : vfscanf 60 1000 (bytes_of "00000000000000000001") 2000 [100] (scan_mem (bytes_of "%d") []) = CUB.
Proof. vm_compute. reflexivity. Qed.

Print Assumptions C47_sscanf.
Print Assumptions C47_round_trip.
Print Assumptions C47_fscanf.
