(** Proofs about strings. *)
From stdpp Require Import base gmap list.
From Coq Require Import ZArith Lia.
From Coq Require Import ZifyBool ZifyNat.
From Verif Require Import CInt Symbols Heap HeapLemmas DataModel DataSpec DataLemmas CoreProofs ListProofs ArrayProofs.
Import Strings.String.StringSyntax.
Open Scope Z_scope.
Open Scope mes_scope.

Lemma schar_rem b : is_byte b -> Z.rem (256 + to_schar b) 256 = b.
Proof.
  unfold is_byte, to_schar. intros H. rewrite Z.rem_mod_nonneg by lia. lia.
Qed.

Lemma text_bytes t p bs s : text_at (heap s) t p bs -> exists c, heap s !! p = Some c /\ c_ty c = t /\
  c_car c = Z.of_nat (length bs) /\ cell_bytes (c_cdr c) s = ROk (bs ++ [0]) s.
Proof.
  intros (c & b & H1 & H2 & H3 & H4 & H5 & H6). exists c. do 3 (split; [done|]).
  unfold cell_bytes. run. rewrite H5, Z.eqb_refl. by rewrite H6.
Qed.
Lemma text_at_heap s t p bs : text_at (cells s) t p bs -> text_at (heap s) t p bs.
Proof. apply text_at_mono, cells_sub. Qed.
Lemma char_at_heap s p n : char_at (cells s) p n -> char_at (heap s) p n.
Proof. apply char_at_mono, cells_sub. Qed.

Lemma b2l_loop_ok rbs : forall p cs s, chars_at (cells s) p cs -> is_bytes rbs -> can_alloc (2 * Z.of_nat (length rbs)) s ->
  cell_nil < g_free s ->
  exists r s', b2l_loop rbs p s = ROk r s' /\ modifies nothing (2 * Z.of_nat (length rbs)) s s' /\ chars_at (cells s') r (rev rbs ++ cs).
Proof.
  induction rbs as [|b rbs IH]; intros p cs s Hp Hb Ha Hnil; cbn [b2l_loop].
  { exists p, s. split; [done|]. split; [apply modifies_refl|done]. }
  inversion Hb as [|? ? Hb0 Hbr]; subst. cbn [length] in *.
  erewrite bind_ok by (apply make_cell_s; eapply can_alloc_le; [done|lia]).
  erewrite bind_ok by (apply cons_s; eapply can_alloc_with; [eapply can_alloc_le; [done|lia]|lia]).
  set (s1 := with_cell _ s). set (s2 := with_cell _ s1).
  assert (modifies nothing 1 s s1) as Hm1 by apply modifies_with_cell.
  assert (modifies nothing 1 s1 s2) as Hm2 by apply modifies_with_cell.
  assert (modifies nothing 2 s s2) as Hm by (by eapply (modifies_trans _ _ 1 1)).
  assert (char_at (cells s1) (g_free s) b) as Hc.
  { eexists. unfold s1. rewrite cells_with_cell, lookup_insert. split; [done|]. split; [done|]. cbn. by apply schar_rem. }
  destruct (IH (g_free s1) (b :: cs) s2) as (r & s3 & E & Hm3 & Hr).
  { destruct Hp as (vs & Hl & Hf). exists (g_free s :: vs). split.
    - econstructor; [cbn; lia|apply pair_with_cell|]. eapply list_at_mono; [by eapply modifies_cells|done].
    - constructor.
      + eapply char_at_mono; [by apply (modifies_cells _ _ _ Hm2)|done].
      + eapply Forall2_impl; [done|]. intros. eapply char_at_mono; [|done]. by apply (modifies_cells _ _ _ Hm). }
  { done. } { eapply modifies_can_alloc; [done|eapply can_alloc_le; [done|lia]|lia]. } { cbn. lia. }
  exists r, s3. split; [exact E|]. split.
  { replace (2 * Z.of_nat (S (length rbs))) with (2 + 2 * Z.of_nat (length rbs)) by lia. by eapply modifies_trans. }
  cbn [rev]. by rewrite <- app_assoc.
Qed.
Lemma bytes_to_list_ok bs i s : 0 <= i <= Z.of_nat (length bs) -> is_bytes (take (Z.to_nat i) bs) -> can_alloc (2 * i) s -> cell_nil < g_free s ->
  exists r s', bytes_to_list bs i s = ROk r s' /\ modifies nothing (2 * i) s s' /\ chars_at (cells s') r (take (Z.to_nat i) bs).
Proof.
  intros Hi Hb Ha Hnil. unfold bytes_to_list. destruct (Z.leb_spec i (Z.of_nat (length bs))); [|lia].
  destruct (b2l_loop_ok (rev (take (Z.to_nat i) bs)) cell_nil [] s) as (r & s' & E & Hm & Hr).
  { exists []. split; constructor. }
  { apply Forall_rev. done. }
  { rewrite rev_length, take_length_le by lia. by replace (Z.of_nat (Z.to_nat i)) with i by lia. }
  { done. }
  rewrite rev_length, take_length_le in Hm by lia. replace (Z.of_nat (Z.to_nat i)) with i in Hm by lia.
  exists r, s'. split; [done|]. split; [done|]. by rewrite rev_involutive, app_nil_r in Hr.
Qed.
Lemma string_to_list_ok t x bs s : text_at (cells s) t x bs -> is_bytes bs -> can_alloc (2 * Z.of_nat (length bs)) s -> cell_nil < g_free s ->
  exists r s', string_to_list x s = ROk r s' /\ modifies nothing (2 * Z.of_nat (length bs)) s s' /\ chars_at (cells s') r bs.
Proof.
  intros Hx Hb Ha Hnil. apply text_at_heap in Hx. destruct (text_bytes _ _ _ _ Hx) as (c & Hc & _ & Hl & Hcb).
  unfold string_to_list. run. rewrite Hl.
  destruct (bytes_to_list_ok (bs ++ [0]) (Z.of_nat (length bs)) s) as (r & s' & E & Hm & Hr); try done.
  { rewrite app_length. cbn. lia. }
  { by rewrite Nat2Z.id, take_app. }
  rewrite Nat2Z.id, take_app in Hr. by exists r, s'.
Qed.

Lemma l2c_loop_ok vs : forall fuel p cs i acc s, list_at (heap s) p vs -> Forall2 (char_at (heap s)) vs cs ->
  (length vs <= fuel)%nat -> i + Z.of_nat (length vs) < MAX_STRING s ->
  l2c_loop fuel p i acc s = ROk (acc ++ map to_byte cs) s.
Proof.
  induction vs as [|v vs IH]; intros fuel p cs i acc s Hl Hc Hf Hm;
    inversion Hl as [|? ? d ? Hp Hpa Hr]; subst; inversion Hc as [|? c0 ? cs' Hc0 Hcr]; subst; cbn [length] in *.
  - destruct fuel; cbn [l2c_loop]; run; rewrite Z.eqb_refl; (destruct (Z.ltb_spec i (MAX_STRING s)); [|lia]); cbn [map]; by rewrite app_nil_r.
  - destruct fuel as [|fuel]; [lia|]. cbn [l2c_loop]. run. rewrite (proj2 (Z.eqb_neq _ _) Hp).
    erewrite bind_ok by (eapply car_ok; done). destruct Hc0 as (cc & Hcc & _ & <-). run.
    destruct (Z.ltb_spec i (MAX_STRING s)); [|lia]. erewrite bind_ok by (eapply cdr_ok; done).
    rewrite (IH fuel d cs'); try done; [|lia|lia]. cbn [map]. by rewrite <- app_assoc.
Qed.

Lemma until_nul_id bs : Forall (fun b => b <> 0) bs -> until_nul bs = bs.
Proof. induction 1 as [|b bs Hb _ IH]; [done|]. cbn. by rewrite (proj2 (Z.eqb_neq _ _) Hb), IH. Qed.

Lemma make_string_ok bs s : can_alloc (string_cells bs) s -> Z.of_nat (length bs) <= MAX_STRING s ->
  exists s', make_string bs s = ROk (g_free s) s' /\ modifies nothing (string_cells bs) s s' /\ text_at (cells s') TSTRING (g_free s) bs.
Proof.
  intros Ha Hm. exists (with_string bs 0 s). split; [by apply make_string_s|]. split; [apply modifies_with_string|].
  apply string_with_string. unfold can_alloc in Ha. lia.
Qed.

Lemma list_to_string_ok fuel p cs s : chars_at (heap s) p cs -> (length cs <= fuel)%nat -> Z.of_nat (length cs) < MAX_STRING s ->
  can_alloc (string_cells (map to_byte cs)) s ->
  exists s', list_to_string fuel p s = ROk (g_free s) s' /\ modifies nothing (string_cells (map to_byte cs)) s s' /\
    text_at (cells s') TSTRING (g_free s) (map to_byte cs).
Proof.
  intros (vs & Hl & Hc) Hf Hm Ha. unfold list_to_string. pose proof (Forall2_length _ _ _ Hc) as Hlen.
  erewrite bind_ok by (eapply (l2c_loop_ok vs); [done|done|lia|lia]). cbn [app].
  apply make_string_ok; [done|]. rewrite map_length. lia.
Qed.
Lemma map_to_byte bs : is_bytes bs -> map to_byte bs = bs.
Proof. induction 1 as [|b bs Hb _ IH]; [done|]. cbn. rewrite IH. f_equal. unfold to_byte, is_byte in *. lia. Qed.

Lemma append_loop_ok xs : forall fuel p bss acc term s, list_at (heap s) p xs -> Forall2 (text_at (heap s) TSTRING) xs bss ->
  (length xs <= fuel)%nat -> Z.of_nat (length acc + length (concat bss)) < MAX_STRING s -> (xs = [] -> term = 0) ->
  append_loop fuel p acc term s = ROk (acc ++ concat bss, 0) s.
Proof.
  induction xs as [|x xs IH]; intros fuel p bss acc term s Hl Ht Hf Hm Hterm;
    inversion Hl as [|? ? d ? Hp Hpa Hr]; subst; inversion Ht as [|? bs ? bss' Ht0 Htr]; subst; cbn [length concat] in *.
  - destruct fuel; cbn [append_loop]; rewrite Z.eqb_refl, app_nil_r, Hterm; done.
  - destruct fuel as [|fuel]; [lia|]. cbn [append_loop]. rewrite (proj2 (Z.eqb_neq _ _) Hp).
    destruct Hpa as (cx & Hcx & _ & <- & <-). destruct (text_bytes _ _ _ _ Ht0) as (c & Hc & Hct & Hlen & Hcb). run.
    erewrite bind_ok by (apply assert_msg_true; lia). run. rewrite app_length in Hm.
    rewrite app_length, Hlen. cbn [length].
    destruct (_ && _) eqn:B; [|lia]. rewrite Nat2Z.id, list_lookup_middle by done. rewrite take_app.
    rewrite (IH fuel (c_cdr cx) bss'); try done; [by rewrite <- app_assoc|lia|].
    rewrite app_length. lia.
Qed.
Lemma string_append_ok fuel p xs bss s : list_at (heap s) p xs -> Forall2 (text_at (heap s) TSTRING) xs bss ->
  (length xs <= fuel)%nat -> Z.of_nat (length (concat bss)) < MAX_STRING s -> can_alloc (string_cells (concat bss)) s ->
  exists s', string_append fuel p s = ROk (g_free s) s' /\ modifies nothing (string_cells (concat bss)) s s' /\
    text_at (cells s') TSTRING (g_free s) (concat bss).
Proof.
  intros Hl Ht Hf Hm Ha. unfold string_append. erewrite bind_ok by (eapply append_loop_ok; done). cbn [fst snd app].
  apply make_string_ok; [done|lia].
Qed.

Lemma string_length_ok x bs s : text_at (heap s) TSTRING x bs -> can_alloc 1 s ->
  exists r s', string_length x s = ROk r s' /\ extends s s' /\ number_at (heap s') r (Z.of_nat (length bs)).
Proof.
  intros Hx Ha. destruct (text_bytes _ _ _ _ Hx) as (c & Hc & Hct & Hlen & _). unfold string_length.
  eexists _, _. split. { run. erewrite bind_ok by (apply assert_msg_true; lia). by apply make_cell_s. }
  split; [apply extends_with_cell|]. eexists. cbn. rewrite lookup_insert. done.
Qed.
Lemma string_ref_raw x k bs i b s : text_at (heap s) TSTRING x bs -> number_at (heap s) k (Z.of_nat i) -> (bs ++ [0]) !! i = Some b ->
  Z.of_nat (length bs) < two64 -> can_alloc 1 s ->
  exists r s', string_ref x k s = ROk r s' /\ extends s s' /\ char_at (heap s') r (to_schar b).
Proof.
  intros Hx (ck & Hk & Hkt & Hkv) Hi Hl Ha. destruct (text_bytes _ _ _ _ Hx) as (c & Hc & Hct & Hlen & Hcb).
  pose proof (lookup_lt_Some _ _ _ Hi) as Hlt. rewrite app_length in Hlt. cbn in Hlt.
  unfold string_ref. eexists _, _. split.
  { run. erewrite bind_ok by (apply assert_msg_true; lia). run. erewrite bind_ok by (apply assert_msg_true; lia).
    rewrite Hlen, Hkv, !to_u64_id by lia. destruct (Z.ltb_spec (Z.of_nat (length bs)) (Z.of_nat i)); [lia|]. run.
    rewrite Nat2Z.id, Hi. by apply make_cell_s. }
  split; [apply extends_with_cell|]. eexists. cbn. rewrite lookup_insert. done.
Qed.
Lemma string_cells_pos bs : 0 < string_cells bs.
Proof. unfold string_cells. pose proof (bytes_cells_pos (Z.of_nat (length bs) + 1)). lia. Qed.
Lemma modifies_extends k s s' : modifies nothing k s s' -> extends s s'.
Proof. by exists k. Qed.
Lemma modifies_max_string P k s s' : modifies P k s s' -> MAX_STRING s' = MAX_STRING s.
Proof. intros [_ _ _ (h & ->)]. done. Qed.
Lemma bind_throw {A B} (m : M A) (k : A -> M B) s key x s' : m s = RThrow key x s' -> bind m k s = RThrow key x s'.
Proof. intros H; unfold bind; by rewrite H. Qed.
Lemma bind_ub {A B} (m : M A) (k : A -> M B) s : m s = RUB -> bind m k s = RUB.
Proof. intros H; unfold bind; by rewrite H. Qed.
Lemma l2c_loop_ub vs : forall fuel p cs i acc s, list_at (heap s) p vs -> Forall2 (char_at (heap s)) vs cs ->
  (length vs <= fuel)%nat -> MAX_STRING s <= i + Z.of_nat (length vs) ->
  l2c_loop fuel p i acc s = RUB.
Proof.
  induction vs as [|v vs IH]; intros fuel p cs i acc s Hl Hc Hf Hm;
    inversion Hl as [|? ? d ? Hp Hpa Hr]; subst; inversion Hc as [|? c0 ? cs' Hc0 Hcr]; subst; cbn [length] in *.
  - destruct fuel; cbn [l2c_loop]; run; rewrite Z.eqb_refl; (destruct (Z.ltb_spec i (MAX_STRING s)); [lia|done]).
  - destruct fuel as [|fuel]; [lia|]. cbn [l2c_loop]. run. rewrite (proj2 (Z.eqb_neq _ _) Hp).
    erewrite bind_ok by (eapply car_ok; done). destruct Hc0 as (cc & Hcc & _ & <-). run.
    destruct (Z.ltb_spec i (MAX_STRING s)); [|done]. erewrite bind_ok by (eapply cdr_ok; done).
    rewrite (IH fuel d cs'); try done; lia.
Qed.
