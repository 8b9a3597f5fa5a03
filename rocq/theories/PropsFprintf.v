(** * C45: formatted output to files *)
From Verif Require Import DataModel.
From stdpp Require Import base gmap list.
From Coq Require Import ZArith Lia.
From Coq Require Import ZifyBool ZifyNat.
From Verif Require Import CInt LibModel LibSpec LibProofs LibNumModel PropsLib PropsNum FmtModel FmtSpec FmtProofs PropsFmt FprintfModel FprintfSpec.
Import Strings.String.StringSyntax.
Open Scope Z_scope. Open Scope clib_scope.

Section Prints.
(** [top]: how many characters will be printed in all *)
Context (fuel top : nat) (buf fd err : Z) (m0 : gmap Z Z).
Hypothesis Hfuel : (64 <= fuel)%nat.
Hypothesis Hfuel2 : Z.of_nat fuel <= INT_MAX.
Hypothesis Htop : (top < fuel)%nat.

(** [done] was printed *)
Record fprinted (done : list Z) (o : fout) (m : gmap Z Z) : Prop := {
  fp_out : fo_out o = map (pair fd) done;
  fp_count : 0 <= fo_count o <= Z.of_nat (length done);
  fp_buf : buffer m buf;
  fp_same : forall q, ~ (buf <= q <= buf + 11) -> m !! q = m0 !! q;
}.
Lemma fputc_ok c done o m : fprinted done o m -> fprinted (done ++ [to_byte c]) (fputc fd c o) m.
Proof.
  intros [Ho Hc Hb Hm]. split; cbn; [by rewrite Ho, map_app|rewrite app_length; cbn; lia|done|done].
Qed.
Lemma fput_ok c done o m : fprinted done o m -> (length done < top)%nat ->
  exists o', fput fd c o m = COk o' m /\ fprinted (done ++ [to_byte c]) o' m.
Proof.
  intros HP Hl. pose proof (fputc_ok c _ _ _ HP) as [Ho Hc Hb Hm]. pose proof (fp_count _ _ _ HP). unfold fput.
  rewrite (cbind_ok _ _ _ _ _ (int_ok (fo_count o + 1) m ltac:(unfold INT_MIN, INT_MAX in *; lia))).
  eexists. split; [reflexivity|]. split; cbn; [exact Ho|rewrite app_length; cbn; lia|done|done].
Qed.

Lemma fpad_left_ok pad p n : forall w done o m,
  fprinted done o m -> byte pad -> w - p < Z.of_nat n -> INT_MIN < w <= INT_MAX -> INT_MIN < p <= INT_MAX -> (0 < n)%nat ->
  Z.of_nat (length done) + Z.max 0 (w - p) <= Z.of_nat top ->
  exists o', fpad_left fd n pad w p o m = COk (Z.min w p - 1, o') m /\ fprinted (done ++ replicate (Z.to_nat (w - p)) pad) o' m.
Proof.
  induction n as [|n IH]; intros w done o m Hp Hpad Hn Hw Hpp Hn0 Hl; [lia|]. cbn [fpad_left].
  rewrite (cbind_ok _ _ _ _ _ (int_ok (w - 1) m ltac:(lia))). destruct (Z.ltb_spec p w).
  - destruct (fput_ok pad done o m Hp ltac:(lia)) as (o1 & E1 & P1). rewrite (cbind_ok _ _ _ _ _ E1).
    rewrite to_byte_id in P1 by (unfold byte in Hpad; lia).
    destruct (IH (w - 1) (done ++ [pad]) o1 m P1 Hpad ltac:(lia) ltac:(lia) Hpp ltac:(lia)) as (o2 & E2 & P2).
    { rewrite app_length. cbn. lia. }
    exists o2. rewrite E2. split; [f_equal; f_equal; lia|].
    replace (Z.to_nat (w - p)) with (S (Z.to_nat (w - 1 - p))) by lia. cbn [replicate]. by rewrite <- app_assoc in P2.
  - exists o. split; [unfold cret; f_equal; f_equal; lia|]. replace (Z.to_nat (w - p)) with 0%nat by lia. cbn. by rewrite app_nil_r.
Qed.
Lemma ffill_ok c l n : forall w p done o m,
  fprinted done o m -> byte c -> p - l < Z.of_nat n -> INT_MIN <= w - Z.max 0 (p - l) -> w <= INT_MAX ->
  (0 < n)%nat -> Z.of_nat (length done) + Z.max 0 (p - l) <= Z.of_nat top ->
  exists o', ffill fd n c w p l o m = COk (w - Z.max 0 (p - l), p - Z.max 0 (p - l), o') m /\
    fprinted (done ++ replicate (Z.to_nat (p - l)) c) o' m.
Proof.
  induction n as [|n IH]; intros w p done o m Hp Hcb Hn Hw Hw2 Hn0 Hl; [lia|]. cbn [ffill].
  destruct (Z.ltb_spec l p).
  - destruct (fput_ok c done o m Hp ltac:(lia)) as (o1 & E1 & P1). rewrite (cbind_ok _ _ _ _ _ E1).
    rewrite to_byte_id in P1 by (unfold byte in Hcb; lia). rewrite (cbind_ok _ _ _ _ _ (int_ok (w - 1) m ltac:(lia))).
    destruct (IH (w - 1) (p - 1) (done ++ [c]) o1 m P1 Hcb ltac:(lia) ltac:(lia) ltac:(lia) ltac:(lia)) as (o2 & E2 & P2).
    { rewrite app_length. cbn. lia. }
    exists o2. rewrite E2.
    replace (w - 1 - Z.max 0 (p - 1 - l)) with (w - Z.max 0 (p - l)) by lia.
    replace (p - 1 - Z.max 0 (p - 1 - l)) with (p - Z.max 0 (p - l)) by lia.
    split; [done|]. replace (Z.to_nat (p - l)) with (S (Z.to_nat (p - 1 - l))) by lia. cbn [replicate]. by rewrite <- app_assoc in P2.
  - exists o. replace (w - Z.max 0 (p - l)) with w by lia. replace (p - Z.max 0 (p - l)) with p by lia.
    split; [done|]. replace (Z.to_nat (p - l)) with 0%nat by lia. cbn. by rewrite app_nil_r.
Qed.
Lemma fpad_right_ok pad n : forall w done o m,
  fprinted done o m -> byte pad -> w < Z.of_nat n -> (0 < n)%nat -> Z.of_nat (length done) + Z.max 0 w <= Z.of_nat top ->
  exists o', fpad_right fd n pad w o m = COk o' m /\ fprinted (done ++ replicate (Z.to_nat w) pad) o' m.
Proof.
  induction n as [|n IH]; intros w done o m Hp Hpad Hn Hn0 Hl; [lia|]. cbn [fpad_right]. destruct (Z.ltb_spec 0 w).
  - destruct (fput_ok pad done o m Hp ltac:(lia)) as (o1 & E1 & P1). rewrite (cbind_ok _ _ _ _ _ E1).
    rewrite to_byte_id in P1 by (unfold byte in Hpad; lia).
    destruct (IH (w - 1) (done ++ [pad]) o1 m P1 Hpad ltac:(lia) ltac:(lia)) as (o2 & E2 & P2). { rewrite app_length. cbn. lia. }
    exists o2. split; [done|]. replace (Z.to_nat w) with (S (Z.to_nat (w - 1))) by lia. cbn [replicate]. by rewrite <- app_assoc in P2.
  - exists o. split; [done|]. replace (Z.to_nat w) with 0%nat by lia. cbn. by rewrite app_nil_r.
Qed.
Lemma fcopy_ok n : forall bs s w p done o m,
  fprinted done o m -> cstr m s bs -> (length bs < n)%nat -> 0 <= p <= INT_MAX -> INT_MIN <= w - Z.min p (Z.of_nat (length bs)) -> w <= INT_MAX ->
  Z.of_nat (length done) + Z.min p (Z.of_nat (length bs)) <= Z.of_nat top ->
  exists o', fcopy fd n s w p o m = COk (w - Z.min p (Z.of_nat (length bs)), o') m /\ fprinted (done ++ take (Z.to_nat p) bs) o' m.
Proof.
  induction n as [|n IH]; intros bs s w p done o m Hp [Hb Hz] Hn Hpp Hw Hw2 Hl; [lia|]. cbn [fcopy].
  destruct bs as [|b bs]; cbn [app] in Hb; apply bytes_at_cons in Hb as (Hbb & Hb & Hbs).
  - rewrite (cbind_ok _ _ _ _ _ (ld_ok _ _ _ Hb)). change (to_schar 0 =? 0) with true. cbn iota.
    exists o. split; [unfold cret; f_equal; f_equal; cbn; lia|]. by rewrite take_nil, app_nil_r.
  - apply not_elem_of_cons in Hz as [Hb0 Hz]. cbn [length] in *.
    rewrite (cbind_ok _ _ _ _ _ (ld_ok _ _ _ Hb)). rewrite to_schar_zero by done. destruct (Z.eqb_spec b 0); [lia|].
    rewrite (cbind_ok _ _ _ _ _ (int_ok (p - 1) m ltac:(unfold INT_MIN, INT_MAX in *; lia))). destruct (Z.leb_spec p 0).
    + exists o. split; [unfold cret; f_equal; f_equal; lia|]. replace (Z.to_nat p) with 0%nat by lia. by rewrite app_nil_r.
    + rewrite (cbind_ok _ _ _ _ _ (int_ok (w - 1) m ltac:(lia))).
      destruct (fput_ok (to_schar b) done o m Hp ltac:(lia)) as (o1 & E1 & P1). rewrite (cbind_ok _ _ _ _ _ E1).
      rewrite to_byte_schar in P1 by done.
      destruct (IH bs (s + 1) (w - 1) (p - 1) (done ++ [b]) o1 m P1) as (o2 & E2 & P2); [by split|..]; try (rewrite ?app_length; cbn; lia).
      exists o2. rewrite E2. split; [f_equal; f_equal; lia|].
      replace (Z.to_nat p) with (S (Z.to_nat (p - 1))) by lia. cbn [take]. by rewrite <- app_assoc in P2.
Qed.

(** what comes around a text *)
Definition around (s : spec) (c : Z) (bs : list Z) : list Z :=
  let l := Z.of_nat (length bs) in
  let p := if sp_precision s =? -1 then l else sp_precision s in
  if sp_left s then take (Z.to_nat p) bs ++ replicate (Z.to_nat (sp_width s - Z.min p l)) (sp_pad s)
  else replicate (Z.to_nat (sp_width s - p)) (sp_pad s) ++ replicate (Z.to_nat (p - l)) c ++ take (Z.to_nat p) bs.
Lemma put_field_ok c s t bs done o m : fprinted done o m -> cstr m t bs -> (length bs < fuel)%nat -> byte c -> byte (sp_pad s) ->
  -1 <= sp_width s <= INT_MAX -> -1 <= sp_precision s <= INT_MAX -> (length (done ++ around s c bs) <= top)%nat ->
  exists o', put_field fuel fd c s t o m = COk o' m /\ fprinted (done ++ around s c bs) o' m.
Proof.
  intros HP Ht Hl Hc Hpad Hw Hp Hlen. unfold put_field. rewrite (cbind_ok _ _ _ _ _ (strlen_ok m t bs fuel Ht ltac:(lia) Hl)).
  unfold around in *. set (P := if sp_precision s =? -1 then Z.of_nat (length bs) else sp_precision s) in *.
  assert (0 <= P <= INT_MAX) as HPr by (subst P; destruct (Z.eqb_spec (sp_precision s) (-1)); lia). clearbody P. cbn zeta in *.
  rewrite app_length in Hlen. unfold INT_MAX, INT_MIN in *. destruct (sp_left s).
  - rewrite app_length, replicate_length, take_length in Hlen. rewrite (cbind_ok (cret _) _ m _ m eq_refl). cbn [fst snd].
    destruct (fcopy_ok fuel bs t (sp_width s) P done o m HP Ht) as (o1 & E1 & P1); try (unfold INT_MAX, INT_MIN in *; lia).
    rewrite (cbind_ok _ _ _ _ _ E1). cbn [fst snd].
    destruct (fpad_right_ok (sp_pad s) fuel (sp_width s - Z.min P (Z.of_nat (length bs))) _ o1 m P1 Hpad) as (o2 & E2 & P2);
      try (rewrite ?app_length, ?take_length; unfold INT_MAX; lia).
    exists o2. split; [exact E2|]. by rewrite <- app_assoc in P2.
  - rewrite !app_length, !replicate_length, take_length in Hlen.
    destruct (fpad_left_ok (sp_pad s) P fuel (sp_width s) done o m HP Hpad) as (o1 & E1 & P1); try (unfold INT_MAX, INT_MIN; lia).
    destruct (ffill_ok c (Z.of_nat (length bs)) fuel (Z.min (sp_width s) P - 1) P _ o1 m P1 Hc) as (o2 & E2 & P2);
      try (rewrite ?app_length, ?replicate_length; unfold INT_MAX, INT_MIN; lia).
    assert ((wo <- fpad_left fd fuel (sp_pad s) (sp_width s) P o ;; ffill fd fuel c (fst wo) P (Z.of_nat (length bs)) (snd wo)) m =
      COk (Z.min (sp_width s) P - 1 - Z.max 0 (P - Z.of_nat (length bs)), P - Z.max 0 (P - Z.of_nat (length bs)), o2) m) as Eh
      by (rewrite (cbind_ok _ _ _ _ _ E1); exact E2).
    rewrite (cbind_ok _ _ _ _ _ Eh). cbn [fst snd].
    replace (P - Z.max 0 (P - Z.of_nat (length bs))) with (Z.min P (Z.of_nat (length bs))) in * by lia.
    destruct (fcopy_ok fuel bs t (Z.min (sp_width s) P - 1 - Z.max 0 (P - Z.of_nat (length bs))) (Z.min P (Z.of_nat (length bs))) _ o2 m P2 Ht) as (o3 & E3 & P3);
      try (rewrite ?app_length, ?replicate_length; unfold INT_MAX, INT_MIN; lia).
    rewrite (cbind_ok _ _ _ _ _ E3). cbn [fst snd].
    match type of E3 with _ = COk (?W, _) _ => destruct (fpad_right_ok (sp_pad s) fuel W _ o3 m P3 Hpad) as (o4 & E4 & P4) end;
      try (rewrite ?app_length, ?replicate_length, ?take_length; unfold INT_MAX; lia).
    exists o4. split; [exact E4|].
    match type of P4 with fprinted (_ ++ replicate (Z.to_nat ?W) _) _ _ => replace (Z.to_nat W) with 0%nat in P4 by lia end.
    cbn [replicate] in P4. rewrite app_nil_r in P4.
    assert (take (Z.to_nat (Z.min P (Z.of_nat (length bs)))) bs = take (Z.to_nat P) bs) as Et.
    { destruct (Z.le_ge_cases P (Z.of_nat (length bs))); [by rewrite Z.min_l|]. rewrite !take_ge by lia. done. }
    rewrite Et in P4. by rewrite <- !app_assoc in P4.
Qed.

Lemma fprinted_buf done o m m' :
  fprinted done o m -> buffer m' buf -> (forall q, m' !! q <> m !! q -> buf <= q <= buf + 11) -> fprinted done o m'.
Proof.
  intros [Ho Hc Hb Hm] Hb' Hd. split; try done. intros q Hq. rewrite <- Hm by done.
  destruct (decide (m' !! q = m !! q)) as [|Hne]; [done|]. exfalso. by apply Hq, Hd.
Qed.
Lemma fput_number_ok c s x ds done o m :
  fprinted done o m -> in_long x = true -> text (radix c) ds (if unsigned c then x mod 2 ^ 64 else x) -> (length ds <= 11)%nat ->
  byte (sp_pad s) -> -1 <= sp_width s <= INT_MAX -> -1 <= sp_precision s <= INT_MAX ->
  let ds' := if c =? 88 then map capital ds else ds in
  (length (done ++ around s 48 ds') <= top)%nat ->
  exists o' m', fput_number fuel buf fd c s x o m = COk o' m' /\ fprinted (done ++ around s 48 ds') o' m'.
Proof.
  intros HP Hx Ht Hl Hpad Hw Hp ds' Hlen. unfold fput_number. fold (base_of c). fold (signed_of c).
  destruct (C26_format m buf x (base_of c) (signed_of c) fuel (fp_buf _ _ _ HP) (base_range c) Hx Hfuel)
    as (p & bs & m1 & E1 & Hs & Ht' & Hf & Hb1 & Hp1 & Hp2).
  { eapply text_fits; [pose proof (base_range c); lia|done|exact Ht|done]. }
  assert (bs = ds) as ->.
  { eapply (text_unique (base_of c)); [pose proof (base_range c); lia|exact Ht'|]. rewrite unsigned_signed. by destruct (unsigned c). }
  rewrite (cbind_ok _ _ _ _ _ E1).
  assert (exists m2, (if c =? 88 then strupr fuel p ;;; cret tt else cret tt) m1 = COk tt m2 /\ cstr m2 p ds' /\ length ds' = length ds /\
           buffer m2 buf /\ forall q, m2 !! q <> m !! q -> buf <= q <= buf + 11) as (m2 & E2 & Hs2 & Hl2 & Hb2 & Hf2).
  { subst ds'. destruct (c =? 88).
    - destruct (C27_strlwr_strupr m1 p ds fuel Hs) as [_ (m2 & E2 & Hpt)]; [lia|].
      assert (m2 = blit p (map upper ds) m1) as -> by (eapply patched_fun; [exact Hpt|apply blit_lookup]).
      assert (length (map upper ds) = length ds) as Hlen' by apply map_length.
      eexists. split; [unfold cbind; by rewrite E2|]. change (map capital ds) with (map upper ds). split.
      { destruct Hs as [[Hsb Hs] Hz]. split.
        - apply bytes_at_app. split.
          + apply blit_bytes_at. apply Forall_app in Hsb as [Hsb _]. clear -Hsb. induction Hsb as [|b l Hb Hl IH]; cbn; constructor; [|done].
            unfold upper, byte in *. destruct (_ && _) eqn:E; lia.
          + apply bytes_at_cons. split; [unfold byte; lia|]. split; [|apply bytes_at_nil].
            rewrite blit_outside by lia. rewrite Hlen'. apply (Hs (length ds)). by rewrite lookup_app_r, Nat.sub_diag by lia.
        - intros Hin. apply elem_of_list_fmap in Hin as (b & Hb & Hin). unfold upper in Hb.
          destruct ((97 <=? b) && (b <=? 122)) eqn:E; [lia|]. subst b. done. }
      split; [done|]. split; [split; [apply room_blit, Hb1|rewrite blit_outside by lia; apply Hb1]|].
      intros q Hq. destruct (decide (p <= q < p + Z.of_nat (length ds))); [lia|]. apply Hf. rewrite blit_outside in Hq by lia. done.
    - by exists m1. }
  rewrite (cbind_ok _ _ _ _ _ E2).
  destruct (put_field_ok 48 s p ds' done o m2) as (o' & E & HP'); try done; [by eapply fprinted_buf|lia|by exists o', m2].
Qed.

(** strings the formatting of numbers does not disturb *)
Definition fundisturbed (a : Z) (n : nat) : Prop := a + Z.of_nat n < buf \/ buf + 12 <= a.
Definition fprintable (a : Z) (n : nat) : Prop := fundisturbed a n /\ (n < fuel)%nat.
Lemma fcstr_kept done o m a s : fprinted done o m -> cstr m0 a s -> fundisturbed a (length s) -> cstr m a s.
Proof.
  intros [_ _ _ Hm] [Hb Hz] H. split; [|done]. eapply bytes_at_agree; [exact Hb|].
  intros i Hi. apply Hm. rewrite app_length in Hi. cbn in Hi. unfold fundisturbed in H. lia.
Qed.
Lemma fskip_ok q k c u o m : cstr m q (replicate k 108 ++ c :: u) -> (k <= 1)%nat -> 88 <= c <= 120 -> c <> 108 ->
  fskip_ells err q (hd0 (replicate k 108 ++ c :: u)) o m = COk (q + Z.of_nat k, c, o) m.
Proof.
  intros Hs Hk Hc Hc8. assert ((c =? 108) = false) as E8 by lia. unfold fskip_ells, skip_l.
  destruct k as [|[|]]; cbn [replicate app] in *; [| |lia]; unfold hd0; cbn [head default from_option id].
  - rewrite E8. rewrite (cbind_ok (cret _) _ m _ m eq_refl). cbn [fst snd]. rewrite E8. by rewrite Z.add_0_r.
  - change (108 =? 108) with true. cbv iota. assert ((c0 <- ld (q + 1) ;; cret (q + 1, c0)) m = COk (q + 1, c) m) as E.
    { by rewrite (cbind_ok _ _ _ _ _ (ld_hd m _ c u (cstr_tail _ _ _ _ Hs) ltac:(lia))). }
    rewrite (cbind_ok _ _ _ _ _ E). cbn [fst snd]. by rewrite E8.
Qed.

Lemma fdirective_ok x t rest p args bs args' done o m :
  fprinted done o m -> piece_text x (37 :: t) -> one_l x -> cstr m p (t ++ rest) ->
  frenders m0 fprintable x args bs args' -> (length t < fuel)%nat -> (length (done ++ bs) <= top)%nat ->
  exists o' m', fdirective fuel buf fd err p args o m = COk (p + Z.of_nat (length t), args', o') m' /\ fprinted (done ++ bs) o' m'.
Proof.
  intros HP Hx H1l Hs Hr Hft Hlen. pose proof Hlen as Hlen'. rewrite app_length in Hlen'. unfold fdirective.
  inversion Hx; subst; [done| |].
  - assert (renders m0 fprintable Percent args bs args') as Hr' by (inversion Hr; subst; done). inversion Hr'; subst. cbn [app] in Hs. pose proof (ld_hd m p 37 rest Hs ltac:(lia)) as E.
    assert (parse_amounts fuel p args' m = COk (Spec p 37 false 32 (-1) (-1) args') m) as Ep.
    { unfold parse_amounts. rewrite (cbind_ok _ _ _ _ _ E). done. }
    rewrite (cbind_ok _ _ _ _ _ Ep). cbn [sp_c sp_p sp_args].
    rewrite (cbind_ok (fskip_ells err p 37 o) _ m (p, 37, o) m) by done. cbn [fst snd]. change (37 =? 37) with true. cbn iota.
    rewrite (cbind_ok _ _ _ _ _ E). cbn [length] in Hlen'.
    destruct (fput_ok 37 done o m HP) as (o1 & E1 & P1); [lia|].
    rewrite (cbind_ok _ _ _ _ _ E1). exists o1, m. by split.
  - specialize (H1l v eq_refl).
    assert (length (((if left v then [45] else []) ++ (if zero v then [48] else []) ++ w ++ p0 ++ replicate (ells v) 108 ++ [letter v])%Z : list Z) =
      ((if left v then 1 else 0) + (if zero v then 1 else 0) + length w + length p0 + ells v + 1)%nat) as El.
    { rewrite !app_length, replicate_length. cbn [length]. destruct (left v), (zero v); cbn [length]; lia. }
    rewrite El in Hft |- *.
    assert (forall wd args1 pr args2, resolves (width v) args wd args1 -> resolves (precision v) args1 pr args2 ->
      exists s q c, parse_amounts fuel p args m = COk s m /\ sp_p s = q /\ sp_c s = c /\ sp_left s = left v /\ sp_pad s = (if zero v then 48 else 32) /\
        sp_width s = default (if zero v then 0 else -1) wd /\ sp_precision s = default (-1) pr /\ sp_args s = args2 /\
        fskip_ells err q c o m = COk (p + Z.of_nat ((if left v then 1 else 0) + (if zero v then 1 else 0) + length w + length p0 + ells v), letter v, o) m) as Hparse.
    { intros wd args1 pr args2 Hwd Hpr. destruct (amounts_ok fuel p v w p0 args wd args1 pr args2 rest m) as (q & c & Eq & Hsq & Ec & E); try done; [by rewrite <- !app_assoc in Hs|lia|].
      eexists _, q, c. split; [exact E|]. do 7 (split; [done|]). match goal with H : letter v ∈ _ |- _ => destruct (letter_range _ H) as [Hc Hc8] end.
      rewrite Ec. cbn [app] in Hsq |- *. rewrite (fskip_ok q (ells v) (letter v) rest o m Hsq H1l Hc Hc8). f_equal. f_equal. f_equal. lia. }
    set (k := ((if left v then 1 else 0) + (if zero v then 1 else 0) + length w + length p0 + ells v)%nat) in *.
    assert (forall B (f : Z -> B), f (p + Z.of_nat k + 1) = f (p + Z.of_nat (k + 1))) as Hk by (intros; f_equal; lia).
    assert (forall args1 n, resolves (width v) args (Some n) args1 -> 0 <= n <= INT_MAX) as Hwr.
    { intros args1 n Hwd. eapply resolves_range; [exact Hwd|]. match goal with H : width_text v w |- _ => apply H end. }
    assert (forall args1 args2 n, resolves (precision v) args1 (Some n) args2 -> 0 <= n <= INT_MAX) as Hpr.
    { intros args1 args2 n Hp. match goal with H : precision_text v p0 |- _ => rename H into Hpt end. unfold precision_text in Hpt.
      destruct (precision v) as [|f|] eqn:Ep; [inversion Hp| |]; destruct Hpt as (t' & _ & Ht'); by eapply resolves_range. }
    clear Hx. revert Hparse Hwr Hpr. generalize dependent k. intros k Hft El Hk Hparse Hwr Hpr.
    inversion Hr as [x' args0 bs0 args0' Hno Hr'|v' args0 wd args1 pr a args2 s Hc Hcz Hwd Hprd Ha Hstr Hfree Hag]; subst; clear Hr.
    + inversion Hr' as [| |v' a args0 Hc Hcl Hcz Hcw Hcp|v' args0 wd args1 pr x' args2 body Hc Hwd Hprd Hbody Hlong Hag1 Hag2 Hag3
                    |v' args0 wd args1 pr a args2 s Hc Hcz Hwd Hprd Ha Hstr Hfree Hag]; subst; clear Hr'; [| |by destruct (Hno v eq_refl)].
      * destruct (Hparse None (a :: args') None (a :: args') ltac:(rewrite Hcw; constructor) ltac:(rewrite Hcp; constructor))
          as (s & q & c & E & E1 & E2 & E3 & E4 & E5 & E6 & E7 & Es).
        rewrite (cbind_ok _ _ _ _ _ E), E1, E2. rewrite (cbind_ok _ _ _ _ _ Es). cbn [fst snd]. rewrite Hc, E7.
        change (99 =? 37) with false. change (99 =? 99) with true. cbn iota.
        unfold va_arg. rewrite (cbind_ok (cret _) _ m _ m eq_refl). cbn [fst snd].
        eexists _, m. split; [unfold cret; by rewrite <- (Hk _ (fun z => z))|]. rewrite <- byte_char. by apply fputc_ok.
      * destruct (Hparse wd args1 pr (x' :: args') Hwd Hprd) as (s & q & c & E & E1 & E2 & E3 & E4 & E5 & E6 & E7 & Es).
        rewrite (cbind_ok _ _ _ _ _ E), E1, E2. rewrite (cbind_ok _ _ _ _ _ Es). cbn [fst snd]. rewrite E7.
        assert (letter v =? 37 = false /\ letter v =? 99 = false /\ existsb (Z.eqb (letter v)) [100; 105; 111; 117; 120; 88] = true) as (-> & -> & ->).
        { revert Hc. rewrite !elem_of_cons, elem_of_nil. intros [->|[->|[->|[->|[->|[->|[]]]]]]]; done. }
        unfold va_arg. rewrite (cbind_ok (cret _) _ m _ m eq_refl). cbn [fst snd].
        destruct Hbody as (ds & Hds & Hdl & ->). cbn zeta in *. set (ds' := if letter v =? 88 then map capital ds else ds) in *.
        assert (length ds' = length ds) as Hdl' by (subst ds'; destruct (letter v =? 88); by rewrite ?map_length).
        assert (around s 48 ds' = field (left v) (zero v) wd (replicate (Z.to_nat (default 0 pr) - length ds') 48 ++ ds')) as Ear.
        { unfold around, field. rewrite E3, E4, E5, E6. destruct pr as [n|]; cbn [default from_option id].
          - destruct (Hag1 n eq_refl) as (Hleft & Hz & _ & Hbl). pose proof (Hpr _ _ n Hprd) as Hn. rewrite Hleft, Hz in *. rewrite app_length, replicate_length in Hbl |- *. cbn [default from_option id] in Hbl.
            destruct (Z.eqb_spec n (-1)); [lia|]. rewrite (take_ge ds') by lia.
            assert (default (-1) wd = match wd with Some k => k | None => -1 end) as -> by done.
            rewrite <- ?app_assoc. f_equal; [f_equal; destruct wd as [k'|]; cbn [default from_option id]; lia|]. f_equal. f_equal. lia.
          - rewrite Z.eqb_refl. replace (Z.to_nat 0 - length ds')%nat with 0%nat by lia. cbn [replicate app].
            rewrite Nat2Z.id, firstn_all, Z.min_id. replace (Z.to_nat (Z.of_nat (length ds') - Z.of_nat (length ds'))) with 0%nat by lia. cbn [replicate app].
            destruct (left v) eqn:Hleft.
            + destruct (zero v) eqn:Hz; [destruct (Hag2 eq_refl); congruence|]. f_equal. f_equal. destruct wd as [k'|]; cbn [default from_option id]; lia.
            + destruct (zero v); f_equal; f_equal; destruct wd as [k'|]; cbn [default from_option id]; lia. }
        destruct (fput_number_ok (letter v) s x' ds done o m HP Hlong Hds Hdl) as (o1 & m1 & Ef & P1).
        -- rewrite E4. destruct (zero v); unfold byte; lia.
        -- rewrite E5. destruct wd as [n|]; cbn; [pose proof (Hwr _ n Hwd); lia|destruct (zero v); unfold INT_MAX; lia].
        -- rewrite E6. destruct pr as [n|]; cbn; [pose proof (Hpr _ _ n Hprd); lia|unfold INT_MAX; lia].
        -- fold ds'. by rewrite Ear.
        -- fold ds' in P1. rewrite Ear in P1. rewrite (cbind_ok _ _ _ _ _ Ef). exists o1, m1. split; [|exact P1]. unfold cret. by rewrite <- (Hk _ (fun z => z)).
    + destruct (Hparse wd args1 pr (a :: args') Hwd Hprd) as (s' & q & c & E & E1 & E2 & E3 & E4 & E5 & E6 & E7 & Es).
      rewrite (cbind_ok _ _ _ _ _ E), E1, E2. rewrite (cbind_ok _ _ _ _ _ Es). cbn [fst snd]. rewrite E7, Hc.
      change (115 =? 37) with false. change (115 =? 99) with false. change (existsb (Z.eqb 115) [100; 105; 111; 117; 120; 88]) with false. change (115 =? 115) with true. cbn iota.
      unfold va_arg. rewrite (cbind_ok (cret _) _ m _ m eq_refl). cbn [fst snd]. destruct Hfree as [Hund Hsf]. rewrite Hcz in *.
      assert (around s' 32 s = field (left v) false wd (match pr with Some n => take (Z.to_nat n) s | None => s end)) as Ear.
      { unfold around, field. rewrite E3, E4, E5, E6.
        destruct pr as [n|]; cbn [default from_option id].
        - pose proof (Hpr _ _ n Hprd) as Hn. destruct (Z.eqb_spec n (-1)); [lia|]. rewrite take_length. destruct (left v) eqn:Hleft.
          + f_equal. f_equal. destruct wd as [k'|]; cbn [default from_option id]; lia.
          + rewrite app_assoc. f_equal. rewrite <- replicate_add. f_equal. pose proof (Hag eq_refl n eq_refl). destruct wd as [k'|]; cbn [default from_option id] in *; lia.
        - rewrite Z.eqb_refl, Nat2Z.id, firstn_all, Z.min_id. replace (Z.to_nat (Z.of_nat (length s) - Z.of_nat (length s))) with 0%nat by lia. cbn [replicate app].
          destruct (left v); f_equal; f_equal; destruct wd as [k'|]; cbn [default from_option id]; lia. }
      destruct (put_field_ok 32 s' a s done o m HP) as (o1 & Ef & P1).
      * by eapply fcstr_kept.
      * done.
      * unfold byte; lia.
      * rewrite E4. unfold byte; lia.
      * rewrite E5. destruct wd as [n|]; cbn; [pose proof (Hwr _ n Hwd); lia|unfold INT_MAX; lia].
      * rewrite E6. destruct pr as [n|]; cbn; [pose proof (Hpr _ _ n Hprd); lia|unfold INT_MAX; lia].
      * by rewrite Ear.
      * rewrite Ear in P1. rewrite (cbind_ok _ _ _ _ _ Ef). exists o1, m. split; [|exact P1]. unfold cret. by rewrite <- (Hk _ (fun z => z)).
Qed.

Lemma floop_ok pieces : forall n texts p args bs done o m,
  fprinted done o m -> Forall2 piece_text pieces texts -> Forall one_l pieces -> cstr m0 p (concat texts) -> fundisturbed p (length (concat texts)) ->
  frenders_all m0 fprintable pieces args bs ->
  (length pieces < n)%nat -> (length (concat texts) < fuel)%nat -> (length (done ++ bs) <= top)%nat ->
  exists o' m', vfprintf_loop fuel buf fd err n p args o m = COk o' m' /\ fprinted (done ++ bs) o' m'.
Proof.
  induction pieces as [|x pieces IH]; intros n texts p args bs done o m HP Ht H1l Hs Hu Hr Hn Hft Hlen;
    (destruct n as [|n]; [lia|]); cbn [vfprintf_loop]; inversion Ht as [|? t ? texts' Hxt Hts]; subst; clear Ht.
  - inversion Hr; subst. pose proof (fcstr_kept _ _ _ _ _ HP Hs Hu) as [Hb _]. cbn in Hb. apply bytes_at_cons in Hb as (_ & Hb & _).
    rewrite (cbind_ok _ _ _ _ _ (ld_ok _ _ _ Hb)). change (to_schar 0 =? 0) with true. cbn iota. exists o, m. by rewrite app_nil_r.
  - inversion Hr as [|? ? ? b args' b' Hxr Hrs]; subst; clear Hr. cbn [concat] in *. inversion H1l as [|? ? Hx1 H1l']; subst.
    pose proof (fcstr_kept _ _ _ _ _ HP Hs Hu) as Hsm. rewrite app_length in Hft, Hu.
    assert (forall q, q = p + Z.of_nat (length t) -> cstr m0 q (concat texts') /\ fundisturbed q (length (concat texts'))) as Hnext.
    { intros q ->. split; [by apply cstr_drop|]. unfold fundisturbed in *. lia. }
    rewrite (app_assoc done b b') in Hlen |- *. pose proof Hlen as Hlen'. rewrite !app_length in Hlen'. cbn [length] in Hn.
    destruct (piece_shape x t Hxt) as [(c & -> & -> & Hc & Hc37)|(t' & ->)].
    + assert (renders m0 fprintable (Plain c) args b args') as Hxr' by (inversion Hxr; subst; done). inversion Hxr'; subst. cbn [app length] in *.
      pose proof Hsm as [Hb _]. cbn [app] in Hb. apply bytes_at_cons in Hb as (Hcb & Hb & _).
      rewrite (cbind_ok _ _ _ _ _ (ld_ok _ _ _ Hb)). rewrite to_schar_zero by done. destruct (Z.eqb_spec c 0); [lia|].
      assert (to_schar c =? 37 = false) as ->. { change 37 with (to_schar 37). rewrite to_schar_eq; [lia|done|unfold byte; lia]. }
      cbn [negb]. destruct (fput_ok (to_schar c) done o m HP) as (o1 & E1 & P1); [lia|].
      rewrite (cbind_ok _ _ _ _ _ E1). rewrite to_byte_schar in P1 by done. destruct (Hnext (p + 1) ltac:(lia)) as [Hs1 Hu1].
      apply (IH n texts' (p + 1) args' b' (done ++ [c]) o1 m); try done; lia.
    + cbn [app] in Hsm. rewrite (cbind_ok _ _ _ _ _ (ld_hd _ _ _ _ Hsm ltac:(lia))).
      change (37 =? 0) with false. change (negb (37 =? 37)) with false. cbn iota. cbn [length] in *.
      destruct (fdirective_ok x t' (concat texts') (p + 1) args b args' done o m HP Hxt Hx1 (cstr_tail _ _ _ _ Hsm) Hxr) as (o1 & m1 & E1 & P1);
        try (rewrite ?app_length; lia).
      rewrite (cbind_ok _ _ _ _ _ E1). cbn [fst snd].
      destruct (Hnext (p + 1 + Z.of_nat (length t')) ltac:(lia)) as [Hs1 Hu1].
      apply (IH n texts' _ args' b' (done ++ b) o1 m1); try done; lia.
Qed.
End Prints.

(** ** C45 *)
(** Formatted output to a file writes exactly the text that the format and the arguments stand for
    (FprintfSpec.v: what ISO C prescribes, on the domain where the code follows it) to that file, in
    order, and nothing else anywhere; nothing in memory changes but ntoab's block.  It returns 0. *)
Theorem C45_fprintf m fuel buf fd err format pieces texts args out :
  buffer m buf -> Forall2 piece_text pieces texts -> Forall one_l pieces -> cstr m format (concat texts) ->
  fundisturbed buf format (length (concat texts)) ->
  frenders_all m (fprintable fuel buf) pieces args out ->
  (64 + length (concat texts) + length out < fuel)%nat -> Z.of_nat fuel <= INT_MAX ->
  exists m', vfprintf fuel buf fd err format args m = COk (0, map (pair fd) out) m' /\
    forall q, m' !! q <> m !! q -> buf <= q <= buf + 11.
Proof.
  intros Hb Ht H1 Hc Hu Hr Hf Hf2.
  assert (length pieces <= length (concat texts))%nat as Hlp.
  { clear -Ht. induction Ht as [|x t xs ts Hx Ht IH]; cbn; [lia|]. rewrite app_length. inversion Hx; subst; cbn; lia. }
  destruct (floop_ok fuel (length out) buf fd err m ltac:(lia) Hf2 ltac:(lia) pieces fuel texts format args out [] (FOut [] 0) m) as (o & m' & E & [Po _ _ Pm]); try done; try lia.
  exists m'. unfold vfprintf. rewrite (cbind_ok _ _ _ _ _ E). cbn [app] in Po. split; [unfold cret; by rewrite Po|].
  intros q Hq. destruct (decide (buf <= q <= buf + 11)); [done|]. exfalso. by apply Hq, Pm.
Qed.
(** the two specifications agree on strings without a precision *)
Lemma renders_frenders m (free free' : Z -> nat -> Prop) pieces args out :
  (forall a n, free a n -> free' a n) -> renders_all m free pieces args out ->
  Forall (fun x => forall v, x = Convert v -> letter v = 115 -> precision v = Absent) pieces ->
  frenders_all m free' pieces args out.
Proof.
  intros Hfree Hren. induction Hren as [|x xs args bs args' bs' Hx Hxs IH]; intros Hprec; [constructor|]. inversion Hprec as [|? ? Hp Hprec']; subst.
  econstructor; [|by apply IH].
  destruct Hx as [c args Hc|args|v a args Hc Hcl Hcz Hcw Hcp|v args wd args1 pr x' args2 body Hc Hwd Hprd Hbody Hlong Hag1 Hag2 Hag3
                    |v args wd args1 pr a args2 s Hc Hcz Hwd Hprd Ha Hstr Hfr Hag].
  - apply frender_other; [done|by constructor].
  - apply frender_other; [done|by constructor].
  - apply frender_other; [intros v' [= <-]; lia|by constructor].
  - apply frender_other; [|by econstructor]. intros v' [= <-] E. rewrite E in Hc. revert Hc. rewrite !elem_of_cons, elem_of_nil. lia.
  - eapply frender_string; try done; [apply Hfree; exact Hfr|]. intros _ n ->. rewrite (Hp v eq_refl Hc) in Hprd. inversion Hprd.
Qed.
(** Where both follow ISO C, the file gets what sprintf would have stored. *)
Theorem C45_same_as_sprintf m fuel buf fd err str format pieces texts args out :
  let written := Z.of_nat (length out) + 1 in
  buffer m buf -> room m str (length out + 1) -> str + written <= buf \/ buf + 12 <= str ->
  Forall2 piece_text pieces texts -> Forall one_l pieces -> cstr m format (concat texts) ->
  undisturbed buf written str format (length (concat texts)) ->
  renders_all m (printable fuel buf written str) pieces args out ->
  Forall (fun x => forall v, x = Convert v -> letter v = 115 -> precision v = Absent) pieces ->
  (64 + length (concat texts) + length out < fuel)%nat -> Z.of_nat fuel <= INT_MAX -> 0 ∉ out ->
  exists r m1 m2, vsprintf fuel buf str format args m = COk r m1 /\ cstr m1 str out /\
    vfprintf fuel buf fd err format args m = COk (0, map (pair fd) out) m2.
Proof.
  intros written Hb Hr Hap Ht H1 Hc Hu Hren Hprec Hf Hf2 Hz.
  destruct (C31_sprintf m fuel buf str format pieces texts args out) as (m1 & E1 & Hs & _); try done.
  destruct (C45_fprintf m fuel buf fd err format pieces texts args out) as (m2 & E2 & _); try done; [apply Hu| |by eexists _, m1, m2].
  eapply renders_frenders; [|exact Hren|done]. intros a n [[_ ?] ?]. by split.
Qed.

(** "n=%5ld %-*s|%04x%%" with -42, 4, "ab" and 255 is "n=  -42 ab  |00ff%" *)
Example fprintf_hypotheses_hold :
  let m := fmt_mem (bytes_of "n=%5ld %-*s|%04x%%") in
  let out := bytes_of "n=  -42 ab  |00ff%" in
  buffer m 1000 /\ Forall2 piece_text example_pieces example_texts /\ Forall one_l example_pieces /\ cstr m 2000 (concat example_texts) /\
  fundisturbed 1000 2000 (length (concat example_texts)) /\
  frenders_all m (fprintable 200 1000) example_pieces [-42; 4; 3000; 255] out /\
  (64 + length (concat example_texts) + length out < 200)%nat /\ Z.of_nat 200 <= INT_MAX.
Proof.
  intros m out. destruct (format_hypotheses_hold 40) as (Hb & _ & _ & _ & Ht & Hc & Hu & Hr & Hf & Hf2); [lia|].
  split; [exact Hb|]. split; [exact Ht|]. split.
  { unfold example_pieces, one_l. repeat (constructor; [intros v E; inversion E; subst; cbn; lia|]). constructor. }
  split; [exact Hc|]. split; [apply Hu|]. split; [|by split].
  eapply renders_frenders; [|exact Hr|]; [intros a n [[_ ?] ?]; by split|].
  unfold example_pieces. repeat (constructor; [intros v E; inversion E; subst; cbn; done|]). constructor.
Qed.

(** ** where the code does not do what ISO C says *)
(** what a call on descriptor 1, with 2 the error output, wrote *)
Definition fprints (fmt : list Z) (args : list Z) (r : Z) (ws : list (Z * Z)) : Prop :=
  exists m', vfprintf 200 1000 1 2 2000 args (fmt_mem fmt) = COk (r, ws) m'.
Lemma fprints_check fmt args r ws :
  match vfprintf 200 1000 1 2 2000 args (fmt_mem fmt) with COk (r', ws') _ => (r' =? r) && bool_decide (ws' = ws) | _ => false end = true ->
  fprints fmt args r ws.
Proof.
  unfold fprints. destruct (vfprintf 200 1000 1 2 2000 args (fmt_mem fmt)) as [[r' ws'] m'| | |]; try done.
  rewrite andb_true_iff, bool_decide_eq_true. intros [H1 ->]. exists m'. f_equal. f_equal. lia.
Qed.
Ltac fruns := apply fprints_check; vm_compute; reflexivity.
(** it returns 0, not the number of characters *)
Theorem C45_return_refuted : fprints (bytes_of "abc") [] 0 (map (pair 1) (bytes_of "abc")).
Proof. fruns. Qed.
(** a precision larger than the string pads it: "%.4s" with "ab" (ISO C: "ab") *)
Theorem C45_string_precision_refuted : fprints (bytes_of "%.4s") [3000] 0 (map (pair 1) (bytes_of "  ab")).
Proof. fruns. Qed.
(** "%lld" writes a message to the error output as well *)
Theorem C45_long_long_refuted : fprints (bytes_of "%lld") [7] 0 (map (pair 2) (bytes_of "vfprintf: skipping second: l" ++ [10]) ++ [(1, 55)]).
Proof. fruns. Qed.
(** zeros come before the minus sign: "%05d" with -3 (ISO C: "-0003") *)
Theorem C45_zero_sign_refuted : fprints (bytes_of "%05d") [-3] 0 (map (pair 1) (bytes_of "000-3")).
Proof. fruns. Qed.
(** a precision cuts digits off: "%.1d" with 42 (ISO C: "42") *)
Theorem C45_precision_refuted : fprints (bytes_of "%.1d") [42] 0 (map (pair 1) (bytes_of "4")).
Proof. fruns. Qed.
(** "%n" does not count what "%c" printed: after "a%cb" it stores 2 (ISO C: 3) *)
Theorem C45_n_refuted : exists m', vfprintf 200 1000 1 2 2000 [120; 100] (fmt_mem (bytes_of "a%cb%n")) = COk (0, map (pair 1) (bytes_of "axb")) m' /\ bytes_at m' 100 [2; 0; 0; 0].
Proof.
  destruct (run_check (vfprintf 200 1000 1 2 2000 [120; 100]) (fmt_mem (bytes_of "a%cb%n"))
    (fun r m' => bool_decide (r = (0, map (pair 1) (bytes_of "axb"))) && bytes_b m' 100 [2; 0; 0; 0])) as (r & m' & E & H); [vm_compute; reflexivity|].
  rewrite andb_true_iff, bool_decide_eq_true in H. destruct H as [-> H]. exists m'. split; [exact E|]. by apply bytes_check.
Qed.
(** a lone '%' at the end makes it run past the terminator of the format *)
Theorem C45_lone_percent_refuted : vfprintf 200 1000 1 2 2000 [] (fmt_mem (bytes_of "a%")) = CUB.
Proof.
  assert (match vfprintf 200 1000 1 2 2000 [] (fmt_mem (bytes_of "a%")) with CUB => true | _ => false end = true) as H by (vm_compute; reflexivity).
  revert H. by destruct (vfprintf 200 1000 1 2 2000 [] (fmt_mem (bytes_of "a%"))).
Qed.
(** a null string is read (ISO C leaves this undefined; many programs rely on "(null)") *)
Theorem C45_null_refuted : vfprintf 200 1000 1 2 2000 [0] (fmt_mem (bytes_of "%s")) = CUB.
Proof.
  assert (match vfprintf 200 1000 1 2 2000 [0] (fmt_mem (bytes_of "%s")) with CUB => true | _ => false end = true) as H by (vm_compute; reflexivity).
  revert H. by destruct (vfprintf 200 1000 1 2 2000 [0] (fmt_mem (bytes_of "%s"))).
Qed.
Print Assumptions C45_fprintf.
Print Assumptions C45_same_as_sprintf.
