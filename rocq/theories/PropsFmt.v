(** * C31: formatted output *)
From Verif Require Import DataModel.
From stdpp Require Import base gmap list.
From Coq Require Import ZArith Lia.
From Coq Require Import ZifyBool ZifyNat.
From Verif Require Import CInt LibModel LibSpec LibProofs LibNumModel PropsNum FmtModel FmtSpec FmtProofs.
Import Strings.String.StringSyntax.
Open Scope Z_scope. Open Scope clib_scope.

(** ** no overrun: every format, every argument list, every size

    [buffer m buf]: the block ntoab formats in (C26).  If the call returns at all — it may
    run into undefined behaviour, as when an argument is missing or a %s argument is no
    string — it changed nothing but the [size] bytes at [str], ntoab's block, and the [int]s
    %n was given pointers to *)
Theorem C31_no_overrun m fuel buf size str format args r m' :
  buffer m buf -> (64 <= fuel)%nat -> 0 <= size -> Forall (fun a => in_long a = true) args ->
  vsnprintf fuel buf size str format args m = COk r m' ->
  0 <= r <= INT_MAX /\
  forall q, m' !! q <> m !! q ->
    str <= q < str + size \/ buf <= q <= buf + 11 \/ exists a, a ∈ args /\ a <= q < a + 4.
Proof.
  intros Hb Hf Hs Ha E.
  set (R q := str <= q < str + size \/ buf <= q <= buf + 11 \/ exists a, a ∈ args /\ a <= q < a + 4).
  destruct (keeps_vsnprintf fuel buf size str Hs Hf R ltac:(unfold R; auto) ltac:(unfold R; auto) args
    ltac:(unfold R; eauto) Ha format m r m' Hb E) as (Hr & _ & Hk).
  split; [done|]. intros q Hq.
  destruct (decide (str <= q < str + size)); [by left|]. destruct (decide (buf <= q <= buf + 11)); [right; by left|].
  destruct (decide (Exists (fun a => a <= q < a + 4) args)) as [He|He].
  - right; right. apply Exists_exists in He as (a & Ha' & Hq'). by exists a.
  - exfalso. apply Hq, Hk. intros [H|[H|(a & Ha' & Hq')]]; [done|done|]. apply He, Exists_exists. by exists a.
Qed.

(** ** what is printed

    For a format made of pieces — plain characters, "%%", and conversions c d i o u x X s
    with the flags '-' and '0', width, precision and 'l's — that [renders_all] relates with
    the arguments to [out] (FmtSpec.v: what ISO C prescribes, on the domain where the code
    follows it): the call returns the length of [out], the buffer holds [out] and its
    terminator, cut to [size] bytes, and nothing else changed but ntoab's block.  Only the
    bytes that are written need exist, so [size] may be huge, as it is in sprintf.  The
    format and the strings printed must not overlap what is written *)
Theorem C31_format m fuel buf size str format pieces texts args out :
  let written := Z.min size (Z.of_nat (length out) + 1) in
  buffer m buf -> 0 <= size -> room m str (Z.to_nat written) ->
  str + written <= buf \/ buf + 12 <= str ->
  Forall2 piece_text pieces texts -> cstr m format (concat texts) ->
  undisturbed buf written str format (length (concat texts)) ->
  renders_all m (printable fuel buf written str) pieces args out ->
  (64 + length (concat texts) + length out < fuel)%nat -> Z.of_nat fuel <= INT_MAX ->
  exists m',
    vsnprintf fuel buf size str format args m = COk (Z.of_nat (length out)) m' /\
    bytes_at m' str (take (Z.to_nat size) (out ++ [0])) /\
    forall q, m' !! q <> m !! q -> str <= q < str + written \/ buf <= q <= buf + 11.
Proof.
  intros written Hb Hs Hr Hap Ht Hc Hu Hren Hf Hf2. unfold INT_MAX in *.
  assert (length pieces <= length (concat texts))%nat as Hlp.
  { clear -Ht. induction Ht as [|x t xs ts Hx Ht IH]; cbn; [lia|]. rewrite app_length. inversion Hx; subst; cbn; lia. }
  destruct (loop_ok fuel (length out) buf size written str m Hs ltac:(lia) ltac:(unfold INT_MAX; lia) ltac:(lia) eq_refl Hap
    pieces fuel texts format args out [] (Out str 0) m) as (o & m1 & E & [Pc Ps Pb Pr Pbf Pm]); try done; try lia.
  { split; cbn; try done; [lia|]. rewrite take_nil. apply bytes_at_nil. }
  cbn [app length] in *. unfold vsnprintf. rewrite (cbind_ok _ _ _ _ _ E).
  rewrite to_u64_id by (unfold two64; lia).
  assert (forall q, m1 !! q <> m !! q -> str <= q < str + written \/ buf <= q <= buf + 11) as Hframe.
  { intros q Hq. destruct (decide (str <= q < str + written)); [by left|]. destruct (decide (buf <= q <= buf + 11)); [by right|].
    exfalso. apply Hq, Pm. by split. }
  destruct (Z.ltb_spec (o_count o) size) as [Hlt|Hge].
  - assert (is_Some (m1 !! o_str o)) as Hsome.
    { rewrite Ps. replace (Z.min (o_count o) size) with (Z.of_nat (length out)) by lia. apply Pr. lia. }
    rewrite (cbind_ok _ _ _ _ _ (st_ok _ _ 0 Hsome)). eexists. unfold cret. rewrite Pc. split; [reflexivity|].
    replace (o_str o) with (str + Z.of_nat (length out)) in * by lia. split.
    + rewrite take_ge by (rewrite app_length; cbn; lia). rewrite take_ge in Pb by lia.
      apply bytes_at_app. split; [apply bytes_at_insert; [done|lia]|].
      apply bytes_at_cons. split; [unfold byte; lia|]. split; [|apply bytes_at_nil]. by rewrite lookup_insert.
    + intros q Hq. destruct (decide (q = str + Z.of_nat (length out))) as [->|Hne]; [left; lia|].
      rewrite lookup_insert_ne in Hq by done. by apply Hframe.
  - rewrite (cbind_ok (cret tt) _ m1 _ m1 eq_refl). eexists. unfold cret. rewrite Pc. split; [reflexivity|]. split; [|done].
    rewrite take_app_le by lia. by replace (Z.to_nat written) with (Z.to_nat size) in Pb by lia.
Qed.

(** sprintf: all of the output and its terminator *)
Theorem C31_sprintf m fuel buf str format pieces texts args out :
  let written := Z.of_nat (length out) + 1 in
  buffer m buf -> room m str (length out + 1) ->
  str + written <= buf \/ buf + 12 <= str ->
  Forall2 piece_text pieces texts -> cstr m format (concat texts) ->
  undisturbed buf written str format (length (concat texts)) ->
  renders_all m (printable fuel buf written str) pieces args out ->
  (64 + length (concat texts) + length out < fuel)%nat -> Z.of_nat fuel <= INT_MAX ->
  0 ∉ out ->
  exists m', vsprintf fuel buf str format args m = COk (Z.of_nat (length out)) m' /\ cstr m' str out /\
    forall q, m' !! q <> m !! q -> str <= q < str + written \/ buf <= q <= buf + 11.
Proof.
  intros written Hb Hr Hap Ht Hc Hu Hren Hf Hf2 Hz. unfold INT_MAX in *.
  assert (Z.min LONG_MAX (Z.of_nat (length out) + 1) = written) as E by (unfold LONG_MAX, written in *; lia).
  destruct (C31_format m fuel buf LONG_MAX str format pieces texts args out) as (m' & Hv & Hbs & Hk); rewrite ?E; try done.
  { by replace (Z.to_nat written) with (length out + 1)%nat by lia. }
  exists m'. split; [exact Hv|]. rewrite E in Hk. split; [|exact Hk].
  split; [|done]. rewrite take_ge in Hbs; [done|]. rewrite app_length. unfold LONG_MAX in *. cbn [length]. lia.
Qed.

(** ** the hypotheses hold of a memory, and of formats *)
Definition bytes_b (m : gmap Z Z) (p : Z) (bs : list Z) : bool :=
  forallb (fun b => (0 <=? b) && (b <? 256)) bs &&
  forallb (fun i => match m !! (p + Z.of_nat i), bs !! i with Some a, Some b => a =? b | _, _ => false end) (seq 0 (length bs)).
Lemma bytes_check m p bs : bytes_b m p bs = true -> bytes_at m p bs.
Proof.
  unfold bytes_b. rewrite andb_true_iff, !forallb_forall. intros [H1 H2]. split.
  - apply Forall_forall. intros b Hb. apply elem_of_list_In in Hb. specialize (H1 b Hb). unfold byte. lia.
  - intros i b Hi. assert (i < length bs)%nat as Hl by (by apply lookup_lt_Some in Hi).
    specialize (H2 i ltac:(apply in_seq; lia)). rewrite Hi in H2. destruct (m !! _); [|done]. f_equal. lia.
Qed.
Definition room_b (m : gmap Z Z) (p : Z) (n : nat) : bool := forallb (fun i => bool_decide (is_Some (m !! (p + Z.of_nat i)))) (seq 0 n).
Lemma room_check m p n : room_b m p n = true -> room m p n.
Proof.
  unfold room_b. rewrite forallb_forall. intros H i Hi. specialize (H i ltac:(apply in_seq; lia)). by apply bool_decide_eq_true in H.
Qed.
Lemma run_check {A} (c : CM A) m (f : A -> gmap Z Z -> bool) :
  match c m with COk a m' => f a m' | _ => false end = true -> exists a m', c m = COk a m' /\ f a m' = true.
Proof. destruct (c m) as [a m'| | |]; try done. intros H. by exists a, m'. Qed.

(** 40 bytes at 100, ntoab's block at 1000, the format at 2000, the string "ab" at 3000 *)
Definition fmt_mem (fmt : list Z) : gmap Z Z :=
  blit 2000 (fmt ++ [0]) (blit 3000 [97; 98; 0] (blit 1000 (replicate 20 0) (blit 100 (replicate 40 7) ∅))).
(** what a call with a size printed: what it returned, and the bytes at 100 *)
Definition prints (size : Z) (fmt : list Z) (args : list Z) (r : Z) (bs : list Z) : Prop :=
  exists m', vsnprintf 200 1000 size 100 2000 args (fmt_mem fmt) = COk r m' /\ bytes_at m' 100 bs.
Lemma prints_check size fmt args r bs :
  match vsnprintf 200 1000 size 100 2000 args (fmt_mem fmt) with COk r' m' => (r' =? r) && bytes_b m' 100 bs | _ => false end = true ->
  prints size fmt args r bs.
Proof.
  unfold prints. destruct (vsnprintf 200 1000 size 100 2000 args (fmt_mem fmt)) as [r' m'| | |]; try done.
  rewrite andb_true_iff. intros [H1 H2]. exists m'. split; [|by apply bytes_check]. f_equal. lia.
Qed.

Definition example_pieces : list piece :=
  [Plain 110; Plain 61; Convert (Conversion false false (Fixed 5) Absent 1 100); Plain 32;
   Convert (Conversion true false Star Absent 0 115); Plain 124; Convert (Conversion false true (Fixed 4) Absent 0 120); Percent].
Definition example_texts : list (list Z) :=
  [[110]; [61]; [37; 53; 108; 100]; [32]; [37; 45; 42; 115]; [124]; [37; 48; 52; 120]; [37; 37]].

Ltac listed := rewrite !elem_of_cons; lia.
Ltac runs := apply prints_check; vm_compute; reflexivity.

(** "n=%5ld %-*s|%04x%%" with -42, 4, "ab" and 255 is "n=  -42 ab  |00ff%" *)
Example format_hypotheses_hold size :
  12 <= size ->
  let m := fmt_mem (bytes_of "n=%5ld %-*s|%04x%%") in
  let out := bytes_of "n=  -42 ab  |00ff%" in
  let written := Z.min size (Z.of_nat (length out) + 1) in
  buffer m 1000 /\ 0 <= size /\ room m 100 (Z.to_nat written) /\ (100 + written <= 1000 \/ 1000 + 12 <= 100) /\
  Forall2 piece_text example_pieces example_texts /\ cstr m 2000 (concat example_texts) /\
  undisturbed 1000 written 100 2000 (length (concat example_texts)) /\
  renders_all m (printable 200 1000 written 100) example_pieces [-42; 4; 3000; 255] out /\
  (64 + length (concat example_texts) + length out < 200)%nat /\ Z.of_nat 200 <= INT_MAX.
Proof.
  intros Hsize m out written.
  assert (Z.of_nat (length out) = 18) as El by (vm_compute; reflexivity).
  assert (written <= 19) as Hw by lia.
  split; [split; [apply room_check; vm_compute; reflexivity|vm_compute; reflexivity]|]. split; [lia|].
  split. { apply (room_le m 100 40); [apply room_check; vm_compute; reflexivity|lia]. }
  split; [lia|].
  assert (forall n t, numeral 10 t n -> n <= 2147483560 -> number_text (Fixed n) t) as Hnum by (intros n t H1 H2; by split).
  assert (forall d, 49 <= d <= 57 -> numeral 10 [d] (d - 48)) as Hdig.
  { intros d Hd. assert (digit d = Some (d - 48)) as Ed.
    { unfold digit. assert ((48 <=? d) && (d <=? 57) = true) as ->; [lia|done]. }
    split; [|split; [|split]]; [constructor; [|constructor]; exists (d - 48); split; [done|lia]| |done|by right].
    unfold value, value_from. cbn. rewrite Ed. cbn. lia. }
  split.
  { unfold example_pieces, example_texts.
    constructor; [constructor; lia|]. constructor; [constructor; lia|]. constructor.
    { apply (text_convert (Conversion false false (Fixed 5) Absent 1 100) [53] []); [|done|cbn; lia|cbn; listed].
      split; [apply Hnum; [apply (Hdig 53); lia|lia]|]. split; [by intros n [= <-]|done]. }
    constructor; [constructor; lia|]. constructor.
    { apply (text_convert (Conversion true false Star Absent 0 115) [42] []); [|done|cbn; lia|cbn; listed].
      split; [done|]. split; [done|done]. }
    constructor; [constructor; lia|]. constructor.
    { apply (text_convert (Conversion false true (Fixed 4) Absent 0 120) [52] []); [|done|cbn; lia|cbn; listed].
      split; [apply Hnum; [apply (Hdig 52); lia|lia]|]. split; [by intros n [= <-]|done]. }
    constructor; [constructor|]. constructor. }
  split. { split; [apply bytes_check; vm_compute; reflexivity|]. rewrite elem_of_list_In. vm_compute. intuition discriminate. }
  split. { unfold undisturbed. cbn. lia. }
  split; [|split; [vm_compute; lia|vm_compute; discriminate]].
  change out with ([110] ++ [61] ++ bytes_of "  -42" ++ [32] ++ bytes_of "ab  " ++ [124] ++ bytes_of "00ff" ++ [37] ++ [] : list Z).
  econstructor; [constructor|]. econstructor; [constructor|]. econstructor.
  { change (bytes_of "  -42") with (field false false (Some 5) [45; 52; 50]).
    apply (render_number _ _ (Conversion false false (Fixed 5) Absent 1 100) [-42; 4; 3000; 255] (Some 5) [-42; 4; 3000; 255] None (-42) [4; 3000; 255]); cbn; try listed; try done; try constructor.
    exists [45; 52; 50]. split; [|split; [cbn; lia|done]]. exists [52; 50]. split; [done|].
    split; [|split; [done|split; [done|by left]]]. constructor; [by exists 4|constructor; [by exists 2|constructor]]. }
  econstructor; [constructor|]. econstructor.
  { change (bytes_of "ab  ") with (field true false (Some 4) [97; 98]).
    apply (render_string _ _ (Conversion true false Star Absent 0 115) [4; 3000; 255] (Some 4) [3000; 255] None 3000 [255] [97; 98]); cbn; try done; try (constructor; unfold INT_MAX; lia).
    - split; [apply bytes_check; vm_compute; reflexivity|]. rewrite elem_of_list_In. vm_compute. intuition discriminate.
    - split; [|cbn; lia]. unfold undisturbed. cbn. lia. }
  econstructor; [constructor|]. econstructor.
  { change (bytes_of "00ff") with (field false true (Some 4) [102; 102]).
    apply (render_number _ _ (Conversion false true (Fixed 4) Absent 0 120) [255] (Some 4) [255] None 255 []); cbn; try listed; try done; try constructor.
    - exists [102; 102]. split; [|split; [cbn; lia|done]]. cbn.
      split; [|split; [done|split; [done|by left]]]. constructor; [by exists 15|constructor; [by exists 15|constructor]].
    - done.
    - left; lia. }
  econstructor; [constructor|]. constructor.
Qed.

(** ** where the code does not do what ISO C says *)

(** an output of [size] bytes or more is not terminated: the last byte is a character of the
    output, not NUL *)
Theorem C31_terminator_refuted : prints 3 (bytes_of "abcd") [] 4 (bytes_of "abc" ++ [7]).
Proof. runs. Qed.
(** "%0*d" with 5, 42 prints nothing (ISO C: "00042") *)
Theorem C31_zero_star_refuted : prints 40 (bytes_of "%0*d") [5; 42] 0 [0].
Proof. runs. Qed.
(** zeros come before the minus sign: "%05d" with -3 (ISO C: "-0003") *)
Theorem C31_zero_sign_refuted : prints 40 (bytes_of "%05d") [-3] 5 (bytes_of "000-3" ++ [0]).
Proof. runs. Qed.
(** a precision cuts digits off: "%.1d" with 42 (ISO C: "42") *)
Theorem C31_precision_refuted : prints 40 (bytes_of "%.1d") [42] 1 (bytes_of "4" ++ [0]).
Proof. runs. Qed.
(** '-' and '0': zeros after the number: "%-05d" with 42 (ISO C: "42   ") *)
Theorem C31_left_zero_refuted : prints 40 (bytes_of "%-05d") [42] 5 (bytes_of "42000" ++ [0]).
Proof. runs. Qed.
(** '-' and a precision: no zeros: "%-.4d" with 42 (ISO C: "0042") *)
Theorem C31_left_precision_refuted : prints 40 (bytes_of "%-.4d") [42] 2 (bytes_of "42" ++ [0]).
Proof. runs. Qed.
(** a precision larger than the string: the field is one short: "%10.8s" with "ab" *)
Theorem C31_string_precision_refuted : prints 40 (bytes_of "%10.8s") [3000] 9 (bytes_of "       ab" ++ [0]).
Proof. runs. Qed.
(** %o prints a sign: "%o" with -1 *)
Theorem C31_octal_refuted : prints 40 (bytes_of "%o") [-1] 2 (bytes_of "-1" ++ [0]).
Proof. runs. Qed.
(** the width of %c is ignored: "%3c" with 'x' (ISO C: "  x") *)
Theorem C31_char_width_refuted : prints 40 (bytes_of "%3c") [120] 1 (bytes_of "x" ++ [0]).
Proof. runs. Qed.
(** an unsupported conversion swallows the character after it, and prints nothing: "%pz!" *)
Theorem C31_unsupported_refuted : prints 40 (bytes_of "%pz!") [42] 1 (bytes_of "!" ++ [0]).
Proof. runs. Qed.
(** so a lone '%' at the end makes it run past the terminator of the format *)
Theorem C31_lone_percent_refuted : vsnprintf 200 1000 40 100 2000 [] (fmt_mem (bytes_of "a%")) = CUB.
Proof.
  assert (match vsnprintf 200 1000 40 100 2000 [] (fmt_mem (bytes_of "a%")) with CUB => true | _ => false end = true) as H by (vm_compute; reflexivity).
  revert H. by destruct (vsnprintf 200 1000 40 100 2000 [] (fmt_mem (bytes_of "a%"))).
Qed.

Print Assumptions C31_no_overrun.
Print Assumptions C31_format.
Print Assumptions C31_sprintf.
