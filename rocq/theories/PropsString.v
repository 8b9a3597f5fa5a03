(** C17: strings are byte sequences. *)
From stdpp Require Import base gmap list.
From Coq Require Import ZArith Lia.
From Coq Require Import ZifyBool ZifyNat.
From Verif Require Import CInt Symbols Heap HeapLemmas DataModel DataSpec DataLemmas CoreProofs ListProofs ArrayProofs StringProofs Samples.
Import Strings.String.StringSyntax.
Open Scope Z_scope.
Open Scope mes_scope.

(** string->list: the bytes of the string, in order, as characters 0-255 *)
Theorem C17_string_to_list x bs s : text_at (cells s) TSTRING x bs -> is_bytes bs ->
  can_alloc (2 * Z.of_nat (length bs)) s -> cell_nil < g_free s ->
  exists r s', string_to_list x s = ROk r s' /\ extends s s' /\ chars_at (cells s') r bs.
Proof.
  intros Hx Hb Ha Hn. destruct (string_to_list_ok _ _ _ _ Hx Hb Ha Hn) as (r & s' & E & Hm & Hr).
  exists r, s'. split; [done|]. split; [by eapply modifies_extends|done].
Qed.
(** list->string: the string of the characters' bytes; a new object *)
Theorem C17_list_to_string fuel p bs s : chars_at (cells s) p bs -> is_bytes bs -> (length bs <= fuel)%nat ->
  Z.of_nat (length bs) < MAX_STRING s -> can_alloc (string_cells bs) s ->
  exists x s', list_to_string fuel p s = ROk x s' /\ extends s s' /\ cells s !! x = None /\ text_at (cells s') TSTRING x bs.
Proof.
  intros Hp Hb Hf Hm Ha. destruct (list_to_string_ok fuel p bs s) as (s' & E & Hmod & Hx); try done.
  { destruct Hp as (vs & Hl & Hc). exists vs. split; [by apply list_at_heap|]. eapply Forall2_impl; [done|]. intros. by apply char_at_heap. }
  { by rewrite map_to_byte. }
  rewrite map_to_byte in * by done. eexists _, s'. split; [done|]. split; [by eapply modifies_extends|]. split; [|done]. apply cells_fresh; lia.
Qed.
(** they are inverse to each other *)
Theorem C17_round_trip_string fuel x bs s : text_at (cells s) TSTRING x bs -> is_bytes bs -> (length bs <= fuel)%nat ->
  Z.of_nat (length bs) < MAX_STRING s -> can_alloc (2 * Z.of_nat (length bs) + string_cells bs) s -> cell_nil < g_free s ->
  exists y s', (l <- string_to_list x ;; list_to_string fuel l) s = ROk y s' /\ extends s s' /\ text_at (cells s') TSTRING y bs
    /\ text_at (cells s') TSTRING x bs.
Proof.
  intros Hx Hb Hf Hm Ha Hn. pose proof (string_cells_pos bs).
  destruct (string_to_list_ok _ _ _ _ Hx Hb) as (r & s1 & E & Hm1 & Hr); [eapply can_alloc_le; [done|lia]|done|].
  rewrite (bind_ok _ _ _ _ _ E).
  destruct (C17_list_to_string fuel r bs s1) as (y & s2 & E2 & Hm2 & _ & Hy); try done.
  { by rewrite (modifies_max_string _ _ _ _ Hm1). }
  { eapply modifies_can_alloc; [done|eapply can_alloc_le; [done|lia]|lia]. }
  assert (extends s s2) as Hx2 by (eapply extends_trans; [by eapply modifies_extends|done]).
  exists y, s2. split; [done|]. split; [done|]. split; [done|]. eapply text_at_mono; [|done]. by apply extends_cells.
Qed.
Theorem C17_round_trip_list fuel p bs s : chars_at (cells s) p bs -> is_bytes bs -> (length bs <= fuel)%nat ->
  Z.of_nat (length bs) < MAX_STRING s -> can_alloc (2 * Z.of_nat (length bs) + string_cells bs) s -> cell_nil < g_free s ->
  exists q s', (x <- list_to_string fuel p ;; string_to_list x) s = ROk q s' /\ extends s s' /\ chars_at (cells s') q bs.
Proof.
  intros Hx Hb Hf Hm Ha Hn. pose proof (string_cells_pos bs).
  destruct (list_to_string_ok fuel p bs s) as (s1 & E & Hm1 & Hr); try done.
  { destruct Hx as (vs & Hl & Hc). exists vs. split; [by apply list_at_heap|]. eapply Forall2_impl; [done|]. intros. by apply char_at_heap. }
  { rewrite map_to_byte by done. eapply can_alloc_le; [done|lia]. }
  rewrite map_to_byte in * by done. rewrite (bind_ok _ _ _ _ _ E).
  destruct (C17_string_to_list (g_free s) bs s1) as (y & s2 & E2 & Hm2 & Hy); try done.
  { eapply modifies_can_alloc; [done|eapply can_alloc_le; [done|lia]|lia]. }
  { destruct Hm1 as [_ H1 _ _]. lia. }
  exists y, s2. split; [done|]. split; [|done]. eapply extends_trans; [by eapply modifies_extends|done].
Qed.

(** string-append: concatenation, a new string; the arguments are unchanged (extends) *)
Theorem C17_string_append fuel p xs bss s : list_at (cells s) p xs -> Forall2 (text_at (cells s) TSTRING) xs bss ->
  (length xs <= fuel)%nat -> Z.of_nat (length (concat bss)) < MAX_STRING s -> can_alloc (string_cells (concat bss)) s ->
  exists x s', string_append fuel p s = ROk x s' /\ extends s s' /\ cells s !! x = None /\
    text_at (cells s') TSTRING x (concat bss).
Proof.
  intros Hp Hx Hf Hm Ha. destruct (string_append_ok fuel p xs bss s) as (s' & E & Hmod & Hr); try done.
  { by apply list_at_heap. } { eapply Forall2_impl; [done|]. intros. by apply text_at_heap. }
  exists (g_free s), s'. split; [exact E|]. split; [by eapply modifies_extends|]. split; [|done]. apply cells_fresh; lia.
Qed.

(** string-length: the number of bytes *)
Theorem C17_string_length x bs s : text_at (cells s) TSTRING x bs -> can_alloc 1 s ->
  exists r s', string_length x s = ROk r s' /\ extends s s' /\ number_at (heap s') r (Z.of_nat (length bs)).
Proof. intros Hx. by apply string_length_ok, text_at_heap. Qed.

(** string=?: #t exactly for the same bytes *)
Theorem C17_string_equal x y bs bs' s : text_at (cells s) TSTRING x bs -> text_at (cells s) TSTRING y bs' ->
  (bs = bs' -> string_equal_p x y s = ROk cell_t s) /\ (bs <> bs' -> string_equal_p x y s = ROk cell_f s).
Proof.
  intros Hx%text_at_heap Hy%text_at_heap. rewrite (string_equal_ok _ _ _ _ _ _ _ Hx Hy) by by left.
  split; intros H; [by rewrite bool_decide_eq_true_2|by rewrite bool_decide_eq_false_2].
Qed.

(** string-ref: the character at the index, for the seven-bit ones *)
Theorem C17_string_ref x k bs i b s : text_at (cells s) TSTRING x bs -> number_at (cells s) k (Z.of_nat i) -> bs !! i = Some b ->
  0 <= b < 128 -> Z.of_nat (length bs) < two64 -> can_alloc 1 s ->
  exists r s', string_ref x k s = ROk r s' /\ extends s s' /\ char_at (heap s') r b.
Proof.
  intros Hx Hk Hi Hb Hl Ha. destruct (string_ref_raw x k bs i b s) as (r & s' & E & Hm & Hr); try done.
  { by apply text_at_heap. } { by apply number_at_heap. } { by apply lookup_app_l_Some. }
  exists r, s'. split; [done|]. split; [done|]. by replace (to_schar b) with b in Hr by (unfold to_schar; lia).
Qed.
(** The bytes from 128 on become negative characters: (string-ref s i) is not the character
    string->list gives.  (The unrestricted claim fails at every such index of every string.) *)
Theorem C17_string_ref_high_refuted x k bs i b s : text_at (cells s) TSTRING x bs -> number_at (cells s) k (Z.of_nat i) -> bs !! i = Some b ->
  128 <= b < 256 -> Z.of_nat (length bs) < two64 -> can_alloc 1 s ->
  exists r s', string_ref x k s = ROk r s' /\ char_at (heap s') r (b - 256).
Proof.
  intros Hx Hk Hi Hb Hl Ha. destruct (string_ref_raw x k bs i b s) as (r & s' & E & Hm & Hr); try done.
  { by apply text_at_heap. } { by apply number_at_heap. } { by apply lookup_app_l_Some. }
  exists r, s'. split; [done|]. by replace (to_schar b) with (b - 256) in Hr by (unfold to_schar; lia).
Qed.
(** And the index just past the end is accepted, for every string: it gives a NUL character *)
Theorem C17_string_ref_end_refuted x k bs s : text_at (cells s) TSTRING x bs -> number_at (cells s) k (Z.of_nat (length bs)) ->
  Z.of_nat (length bs) < two64 -> can_alloc 1 s ->
  exists r s', string_ref x k s = ROk r s' /\ char_at (heap s') r 0.
Proof.
  intros Hx Hk Hl Ha. destruct (string_ref_raw x k bs (length bs) 0 s) as (r & s' & E & Hm & Hr); try done.
  { by apply text_at_heap. } { by apply number_at_heap. } { by rewrite list_lookup_middle. }
  by exists r, s'.
Qed.
(** Any other index, negative ones included, signals system-error *)
Theorem C17_string_ref_range x k bs n s : text_at (cells s) TSTRING x bs -> number_at (cells s) k n -> in_long n = true ->
  n < 0 \/ Z.of_nat (length bs) < n -> Z.of_nat (length bs) <= LONG_MAX -> can_alloc 10 s -> 18 <= MAX_STRING s ->
  exists e s', string_ref x k s = RThrow cell_symbol_system_error e s'.
Proof.
  intros Hx%text_at_heap Hk%number_at_heap Hin Hn Hl Ha Hms. destruct (text_bytes _ _ _ _ Hx) as (c & Hc & Hct & Hlen & Hcb).
  destruct Hk as (ck & Hk & Hkt & Hkv). unfold string_ref. run.
  erewrite bind_ok by (apply assert_msg_true; lia). run. erewrite bind_ok by (apply assert_msg_true; lia).
  rewrite Hlen, Hkv. destruct (Z.ltb_spec (to_u64 (Z.of_nat (length bs))) (to_u64 n)) as [_|H].
  2:{ exfalso. unfold to_u64, in_long, two64, LONG_MAX, LONG_MIN in *. lia. }
  unfold make_string0.
  assert (string_cells (until_nul (bytes_of "value out of range")) = 6) as Hsc by reflexivity.
  assert (Z.of_nat (length (until_nul (bytes_of "value out of range"))) = 18) as Hsl by reflexivity.
  destruct (make_string_ok (until_nul (bytes_of "value out of range")) s) as (s1 & E & Hm1 & _).
  { rewrite Hsc. eapply can_alloc_le; [done|lia]. } { lia. }
  rewrite Hsc in Hm1.
  erewrite bind_throw; [by eexists _, _|]. erewrite bind_ok by exact E.
  erewrite bind_ok by (apply cons_s; eapply modifies_can_alloc; [done|eapply can_alloc_le; [done|]|]; lia). done.
Qed.
(** Too long: past MAX_STRING bytes list->string writes outside its buffer (undefined behaviour), whatever the
    contents, instead of signalling the error *)
Theorem C17_too_long_refuted fuel p cs s : chars_at (heap s) p cs -> (length cs <= fuel)%nat -> MAX_STRING s <= Z.of_nat (length cs) ->
  0 <= MAX_STRING s -> list_to_string fuel p s = RUB.
Proof.
  intros (vs & Hl & Hc) Hf Hm H0. unfold list_to_string. pose proof (Forall2_length _ _ _ Hc).
  by apply bind_ub, (l2c_loop_ub vs _ _ cs); try lia.
Qed.

(** The hypotheses are met in a running interpreter: strings with a NUL and a high byte, a list of strings,
    a list of characters. *)
Definition text_is (h : gmap Z cell) (p : Z) (bs : list Z) : bool := bool_decide (text_b h TSTRING p = Some bs).
Lemma text_is_check h p bs : text_is h p bs = true -> text_at h TSTRING p bs.
Proof. intros H%bool_decide_eq_true. by apply text_check. Qed.
Definition sample_strings : list (M Z) :=
  [make_string [97; 0; 200; 98]; make_string []; make_number 1; make_number 4; make_number 2; make_number 5;
   list_m [make_string [97; 98]; make_string []; make_string [0]]; list_m [make_char 97; make_char 255; make_char 0]].
Example string_hypotheses_hold : exists x y k1 k4 k2 k5 xs cs vs s,
  on_sample2 sample_strings = ROk [x; y; k1; k4; k2; k5; xs; cs] s /\
  text_at (cells s) TSTRING x [97; 0; 200; 98] /\ text_at (cells s) TSTRING y [] /\
  number_at (cells s) k1 1 /\ number_at (cells s) k4 4 /\ number_at (cells s) k2 2 /\ number_at (cells s) k5 5 /\
  list_at (cells s) xs vs /\ Forall2 (text_at (cells s) TSTRING) vs [[97; 98]; []; [0]] /\
  chars_at (cells s) cs [97; 255; 0] /\
  can_alloc 20 s /\ 20 < MAX_STRING s /\ cell_nil < g_free s.
Proof.
  destruct (check_res (on_sample2 sample_strings)
    (fun r s => match r with
       | [x; y; k1; k4; k2; k5; xs; cs] =>
           text_is (cells s) x [97; 0; 200; 98] && text_is (cells s) y [] &&
           number_at_b (cells s) k1 1 && number_at_b (cells s) k4 4 && number_at_b (cells s) k2 2 && number_at_b (cells s) k5 5 &&
           match list_b 10 (cells s) xs with
           | Some [a; b; c] => text_is (cells s) a [97; 98] && text_is (cells s) b [] && text_is (cells s) c [0]
           | _ => false end &&
           match list_b 10 (cells s) cs with
           | Some [a; b; c] => char_at_b (cells s) a 97 && char_at_b (cells s) b 255 && char_at_b (cells s) c 0
           | _ => false end &&
           can_alloc_b 20 s && (20 <? MAX_STRING s) && (cell_nil <? g_free s)
       | _ => false end)) as (r & s & E & H).
  { vm_compute. reflexivity. }
  revert E. generalize (on_sample2 sample_strings). intros R E.
  destruct r as [|x [|y [|k1 [|k4 [|k2 [|k5 [|xs [|cs [|]]]]]]]]]; try discriminate H.
  apply andb_prop in H as [H B1]. apply andb_prop in H as [H B2]. apply andb_prop in H as [H B3]. apply andb_prop in H as [H B4].
  apply andb_prop in H as [H B5]. apply andb_prop in H as [H B6]. apply andb_prop in H as [H B7]. apply andb_prop in H as [H B8].
  apply andb_prop in H as [H B9]. apply andb_prop in H as [H B10].
  destruct (list_b 10 (cells s) xs) as [[|a [|b [|c [|]]]]|] eqn:E1; try discriminate B5.
  destruct (list_b 10 (cells s) cs) as [[|a' [|b' [|c' [|]]]]|] eqn:E2; try discriminate B4.
  apply list_check in E1, E2.
  apply andb_prop in B5 as [B5 B5c]. apply andb_prop in B5 as [B5a B5b].
  apply andb_prop in B4 as [B4 B4c]. apply andb_prop in B4 as [B4a B4b].
  exists x, y, k1, k4, k2, k5, xs, cs, [a; b; c], s. subst R.
  split; [done|]. split; [by apply text_is_check|]. split; [by apply text_is_check|].
  do 4 (split; [by apply number_check|]).
  split; [done|]. split; [repeat constructor; by apply text_is_check|].
  split. { exists [a'; b'; c']. split; [done|]. repeat constructor; by apply char_check. }
  split; [by apply can_alloc_check|]. lia.
Qed.

Print Assumptions C17_string_to_list.
Print Assumptions C17_list_to_string.
Print Assumptions C17_round_trip_string.
Print Assumptions C17_round_trip_list.
Print Assumptions C17_string_append.
Print Assumptions C17_string_length.
Print Assumptions C17_string_equal.
Print Assumptions C17_string_ref.
Print Assumptions C17_string_ref_high_refuted.
Print Assumptions C17_string_ref_end_refuted.
Print Assumptions C17_string_ref_range.
Print Assumptions C17_too_long_refuted.
