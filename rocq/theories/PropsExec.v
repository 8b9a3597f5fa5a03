(** C43: programs are found in the first directory of PATH that has them. *)
From stdpp Require Import base gmap list.
From Coq Require Import ZArith Lia.
From Coq Require Import ZifyBool ZifyNat.
From Verif Require Import CInt LibModel LibSpec LibProofs PropsLib ExecModel.
Open Scope Z_scope.
Ltac Zify.zify_post_hook ::= Z.div_mod_to_equations.

(** the elements of a PATH: the texts between colons *)
Fixpoint elements (path : list Z) : list (list Z) :=
  match path with
  | [] => [[]]
  | c :: p => if c =? 58 then [] :: elements p
              else match elements p with e :: es => (c :: e) :: es | [] => [[c]] end
  end.
Definition in_dir (dir file : list Z) : list Z := dir ++ 47 :: file.

(** memory is as before except for the 256 bytes at [buf] *)
Definition same_but (buf : Z) (m m' : gmap Z Z) : Prop := forall q, q < buf \/ buf + 256 <= q -> m' !! q = m !! q.

Lemma elements_cons c p : exists e es, elements (c :: p) = e :: es.
Proof. cbn. destruct (c =? 58); [eauto|]. destruct (elements p); eauto. Qed.
Lemma elements_split p d ds : elements p = d :: ds ->
  58 ∉ d /\ ((ds = [] /\ p = d) \/ exists p', p = d ++ 58 :: p' /\ elements p' = ds).
Proof.
  revert d ds. induction p as [|c p IH]; intros d ds.
  - cbn. intros [= <- <-]. split; [apply not_elem_of_nil|]. by left.
  - cbn. destruct (c =? 58) eqn:Ec.
    + intros [= <- <-]. split; [apply not_elem_of_nil|]. right. exists p. assert (c = 58) as -> by lia. done.
    + destruct (elements p) as [|e es] eqn:Ep.
      { destruct p as [|c' p']; [done|]. destruct (elements_cons c' p') as (? & ? & ?). congruence. }
      intros [= <- <-]. destruct (IH _ _ eq_refl) as [H1 H2]. split; [apply not_elem_of_cons; split; [lia|done]|].
      destruct H2 as [[-> ->]|(p' & -> & H2)]; [by left|right]. exists p'. done.
Qed.

Lemma cstr_same buf m m' p bs : cstr m p bs -> apart buf 256 p (S (length bs)) -> same_but buf m m' -> cstr m' p bs.
Proof.
  intros [[Hb H] Hz] Ha Hs. split; [|done]. split; [done|]. intros i b Hi. rewrite Hs; [by apply H|].
  apply lookup_lt_Some in Hi. rewrite app_length in Hi. cbn in Hi. unfold apart in Ha. lia.
Qed.
Lemma room_same buf m m' : room m buf 256 -> (forall q, is_Some (m !! q) -> is_Some (m' !! q)) -> room m' buf 256.
Proof. intros H Hs i Hi. apply Hs, H, Hi. Qed.
Lemma patched_some m p bs m' q : patched m p bs m' -> is_Some (m !! q) -> is_Some (m' !! q).
Proof.
  intros H Hq. rewrite H. destruct ((p <=? q) && (q <? p + Z.of_nat (length bs))) eqn:E; [|done].
  apply lookup_lt_is_Some_2. lia.
Qed.
Lemma kernel_string_ok m bs : forall p n, cstr m p bs -> (length bs < n)%nat -> kernel_string n p m = COk bs m.
Proof.
  induction bs as [|b bs IH]; intros p n [Hb Hz] Hn; (destruct n as [|n]; [cbn in Hn; lia|]); cbn [kernel_string].
  - cbn [app] in Hb. apply bytes_at_cons in Hb as (_ & H0 & _). unfold cbind, ldu. rewrite H0. done.
  - cbn [app] in Hb. apply bytes_at_cons in Hb as (_ & H0 & H1). apply not_elem_of_cons in Hz as [Hz1 Hz2].
    unfold cbind, ldu. rewrite H0. destruct (b =? 0) eqn:E; [lia|].
    rewrite (IH (p + 1) n); [done|split; done|cbn in Hn; lia].
Qed.

(** one element of the path *)
Lemma search_round fuel access n buf slash file path ftext ptext d rest m :
  cstr m path ptext -> cstr m file ftext -> cstr m slash [47] ->
  ptext = d ++ rest -> 58 ∉ d -> (rest = [] \/ exists r, rest = 58 :: r) -> ptext <> [] ->
  room m buf 256 -> apart buf 256 path (S (length ptext)) -> apart buf 256 file (S (length ftext)) -> apart buf 256 slash 2 ->
  (length (in_dir d ftext) < 256)%nat -> (length ptext < fuel)%nat -> (256 <= fuel)%nat -> 0 < path ->
  exists m', same_but buf m m' /\ room m' buf 256 /\ cstr m' buf (in_dir d ftext) /\
    search_loop fuel access (S n) buf slash file path m =
      if access (in_dir d ftext) then COk buf m' else search_loop fuel access n buf slash file (path + Z.of_nat (length d) + 1) m'.
Proof.
  intros Hp Hf Hs Ept Hd Hrest Hne Hroom Ap Af As Hlen Hfu Hfu2 Hpos.
  assert (Hdl : (length d + length ftext + 1 < 256)%nat) by (unfold in_dir in Hlen; rewrite app_length in Hlen; cbn in Hlen; lia).
  cbn [search_loop].
  (* the first byte *)
  destruct ptext as [|c0 pt] eqn:Ept'; [done|]. rewrite <- Ept' in *.
  assert (H0 : m !! path = Some c0 /\ c0 <> 0 /\ byte c0).
  { destruct Hp as [Hp Hz]. rewrite Ept' in Hp, Hz. cbn [app] in Hp. apply bytes_at_cons in Hp as (Hb & Hp & _).
    apply not_elem_of_cons in Hz as [Hz _]. done. }
  destruct H0 as (H0 & H00 & Hb0). erewrite cbind_ok by (by apply ld_ok).
  assert (Hc0 : to_schar c0 =? 0 = false) by (unfold to_schar, byte in *; lia).
  rewrite Hc0.
  (* the end of the element *)
  assert (He : exists e0, strchr fuel path 58 m = COk e0 m /\
     (if e0 =? 0 then strchr fuel path 0 else cret e0) m = COk (path + Z.of_nat (length d)) m).
  { destruct (C27_strchr m path 58 ptext fuel Hp ltac:(lia) Hfu) as (r & Er & Hr). exists r. split; [done|].
    change (58 mod 256) with 58 in Hr.
    destruct Hr as [[-> Hno]|(i & -> & (b & Hb & ->) & Hfirst)].
    - cbn [Z.eqb]. destruct Hp as [Hp Hz]. rewrite (strchr_end ptext m path fuel Hp Hz Hfu). f_equal.
      destruct Hrest as [->|[r ->]]; [rewrite app_nil_r in Ept; by rewrite Ept|].
      exfalso. apply Hno. rewrite Ept. apply elem_of_app. left. apply elem_of_app. right. left.
    - destruct (path + Z.of_nat i =? 0) eqn:E0; [lia|]. unfold cret. f_equal. f_equal. f_equal.
      destruct (lt_eq_lt_dec i (length d)) as [[Hi|Hi]|Hi]; [|done|].
      + exfalso. rewrite Ept, <- app_assoc, lookup_app_l in Hb by lia. apply Hd. by eapply elem_of_list_lookup_2.
      + exfalso. destruct Hrest as [->|[r ->]].
        * rewrite app_nil_r in Ept. rewrite Ept, lookup_app_r in Hb by lia.
          destruct (i - length d)%nat as [|k] eqn:Ek; [lia|]. by destruct k.
        * eapply (Hfirst (length d) 58); [lia| |done]. rewrite Ept, <- app_assoc, lookup_app_r, Nat.sub_diag by lia. done. }
  destruct He as (e0 & E1 & E2). erewrite cbind_ok by exact E1. erewrite cbind_ok by exact E2. clear E1 E2 e0.
  replace (path + Z.of_nat (length d) - path) with (Z.of_nat (length d)) by lia.
  (* the copy *)
  destruct (C27_strncpy m buf path ptext (length d) fuel Hp) as (m1 & E1 & P1).
  { intros i Hi. apply Hroom. lia. } { unfold apart in *. lia. } { done. } { change (2 ^ 64) with 18446744073709551616. lia. }
  erewrite cbind_ok by exact E1. clear E1.
  assert (Ht : take (length d) (ptext ++ replicate (length d) 0) = d) by (rewrite Ept, <- app_assoc; apply take_app).
  rewrite Ht in P1.
  assert (R1 : room m1 buf 256) by (eapply room_same; [exact Hroom|]; intros q; by eapply patched_some).
  erewrite cbind_ok by (apply st_ok; apply (R1 (length d)); lia).
  change (to_byte 0) with 0. set (m2 := <[buf + Z.of_nat (length d) := 0]> m1).
  assert (S2 : same_but buf m m2).
  { intros q Hq. unfold m2. rewrite lookup_insert_ne by lia. rewrite P1.
    destruct ((buf <=? q) && (q <? buf + Z.of_nat (length d))) eqn:E; [lia|done]. }
  assert (R2 : room m2 buf 256).
  { eapply room_same; [exact R1|]. intros q Hq. unfold m2. destruct (decide (q = buf + Z.of_nat (length d))) as [->|Hne']; [rewrite lookup_insert; eauto|by rewrite lookup_insert_ne]. }
  assert (Hdb : Forall byte d).
  { destruct Hp as [[Hp _] _]. rewrite Ept in Hp. rewrite !Forall_app in Hp. tauto. }
  assert (Hdz : 0 ∉ d). { destruct Hp as [_ Hz]. rewrite Ept in Hz. intros H. apply Hz. apply elem_of_app. by left. }
  assert (C2 : cstr m2 buf d).
  { split; [|done]. split; [apply Forall_app; split; [done|]; constructor; [unfold byte; lia|constructor]|].
    intros i b Hi. unfold m2. destruct (decide (i = length d)) as [->|Hi'].
    - rewrite lookup_app_r, Nat.sub_diag in Hi by lia. injection Hi as <-. by rewrite lookup_insert.
    - pose proof (lookup_lt_Some _ _ _ Hi) as HL. rewrite app_length in HL. cbn in HL.
      rewrite lookup_insert_ne by lia. rewrite P1. rewrite lookup_app_l in Hi by lia.
      destruct ((buf <=? buf + Z.of_nat i) && (buf + Z.of_nat i <? buf + Z.of_nat (length d))) eqn:E; [|lia].
      replace (Z.to_nat (buf + Z.of_nat i - buf)) with i by lia. done. }
  erewrite cbind_ok by (apply (ld_ok _ _ 0); unfold m2; by rewrite lookup_insert). change (negb (to_schar 0 =? 47)) with true. cbn iota.
  (* the slash *)
  pose proof (cstr_same _ _ _ _ _ Hs As S2) as Hs2. pose proof (cstr_same _ _ _ _ _ Hf Af S2) as Hf2.
  destruct (C27_strcat m2 buf d slash [47] fuel C2 Hs2) as (m3 & E3 & P3 & C3).
  { intros i Hi. apply R2. cbn in Hi. lia. } { unfold apart in *. cbn. lia. } { lia. } { cbn. lia. }
  assert (R3 : room m3 buf 256) by (eapply room_same; [exact R2|]; intros q; by eapply patched_some).
  assert (S3 : same_but buf m m3).
  { intros q Hq. rewrite P3. unfold size_of. rewrite app_length. cbn [length].
    destruct ((buf + Z.of_nat (length d) <=? q) && (q <? buf + Z.of_nat (length d) + Z.of_nat (1 + 1))) eqn:E; [lia|by apply S2]. }
  erewrite cbind_ok by (erewrite cbind_ok by exact E3; done).
  (* the file name *)
  pose proof (cstr_same _ _ _ _ _ Hf Af S3) as Hf3.
  destruct (C27_strcat m3 buf (d ++ [47]) file ftext fuel C3 Hf3) as (m4 & E4 & P4 & C4).
  { intros i Hi. apply R3. rewrite app_length in Hi. cbn in Hi. lia. } { rewrite app_length. unfold apart in *. cbn. lia. }
  { rewrite app_length. cbn. lia. } { lia. }
  erewrite cbind_ok by exact E4.
  assert (C4' : cstr m4 buf (in_dir d ftext)) by (unfold in_dir; rewrite <- app_assoc in C4; exact C4).
  erewrite cbind_ok by (apply kernel_string_ok; [exact C4'|lia]).
  exists m4. split; [|split; [eapply room_same; [exact R3|]; intros q; by eapply patched_some|split; [done|by destruct (access _)]]].
  intros q Hq. rewrite P4. unfold size_of. rewrite !app_length. cbn [length].
  destruct ((buf + Z.of_nat (length d + 1) <=? q) && (q <? buf + Z.of_nat (length d + 1) + Z.of_nat (length ftext + 1))) eqn:E; [lia|by apply S3].
Qed.

(** where the strings are, and that they do not overlap the buffer *)
Record layout (m : gmap Z Z) (buf slash file path : Z) (ftext ptext : list Z) : Prop := {
  la_path : cstr m path ptext; la_file : cstr m file ftext; la_slash : cstr m slash [47]; la_room : room m buf 256;
  la_ap : apart buf 256 path (S (length ptext)); la_af : apart buf 256 file (S (length ftext)); la_as : apart buf 256 slash 2;
  la_pos : 0 < path }.
Lemma layout_next m m' buf slash file path ftext d p : layout m buf slash file path ftext (d ++ 58 :: p) -> same_but buf m m' -> room m' buf 256 ->
  layout m' buf slash file (path + Z.of_nat (length d) + 1) ftext p.
Proof.
  intros [H1 H2 H3 H4 H5 H6 H7 H8] Hs Hr.
  pose proof (cstr_same _ _ _ _ _ H1 H5 Hs) as [[Hb Hl] Hz].
  split; try done; [split; [split|]|by eapply cstr_same|by eapply cstr_same| |lia].
  - rewrite <- app_assoc in Hb. apply Forall_app in Hb as [_ Hb]. by inversion Hb.
  - intros i b Hi. replace (path + Z.of_nat (length d) + 1 + Z.of_nat i) with (path + Z.of_nat (length d + S i)) by lia. apply Hl.
    rewrite <- app_assoc, lookup_app_r by lia. replace (length d + S i - length d)%nat with (S i) by lia. done.
  - intros Hin. apply Hz. apply elem_of_app. right. by right.
  - rewrite app_length in H5. cbn in H5. unfold apart in *. lia.
Qed.


(** If the file is executable in directory [d] and in none of the directories before it, and the
    names fit in the buffer, the search gives [d]/file. *)
Theorem C43_first_directory fuel access buf slash file path ftext ptext ds1 d ds2 m :
  layout m buf slash file path ftext ptext ->
  elements ptext = ds1 ++ d :: ds2 -> (d <> [] \/ ds2 <> []) ->
  Forall (fun x => access (in_dir x ftext) = false /\ (length (in_dir x ftext) < 256)%nat) ds1 ->
  access (in_dir d ftext) = true -> (length (in_dir d ftext) < 256)%nat ->
  (length ptext < fuel)%nat -> (256 <= fuel)%nat ->
  exists m', search_path fuel access (S (length ds1)) buf slash path file m = COk buf m' /\ cstr m' buf (in_dir d ftext) /\ same_but buf m m'.
Proof.
  intros HL Hel Hne Hall Hacc Hlen Hf1 Hf2. unfold search_path. destruct (path =? 0) eqn:E0; [pose proof (la_pos _ _ _ _ _ _ _ HL); lia|]. clear E0.
  revert path ptext m HL Hel Hf1. induction Hall as [|x ds1 [Hx1 Hx2] Hall IH]; intros path ptext m HL Hel Hf1; pose proof HL as [H1 H2 H3 H4 H5 H6 H7 H8].
  - destruct (elements_split _ _ _ Hel) as [Hd Hcase].
    assert (exists rest, ptext = d ++ rest /\ (rest = [] \/ exists r, rest = 58 :: r) /\ ptext <> []) as (rest & Hr1 & Hr2 & Hr3).
    { destruct Hcase as [[-> ->]|(p' & -> & _)]; [exists []; rewrite app_nil_r; split; [done|]; split; [by left|]; destruct Hne; done|].
      exists (58 :: p'). split; [done|]. split; [eauto|]. by destruct d. }
    destruct (search_round fuel access 0 buf slash file path ftext ptext d rest m) as (m' & S' & _ & C' & E'); try done.
    rewrite Hacc in E'. eauto.
  - destruct (elements_split _ _ _ Hel) as [Hd Hcase].
    destruct Hcase as [[Hn _]|(p' & -> & Hel')]; [by destruct ds1|].
    destruct (search_round fuel access (S (length ds1)) buf slash file path ftext (x ++ 58 :: p') x (58 :: p') m) as (m' & S' & R' & C' & E'); try done; [eauto|by destruct x|].
    rewrite Hx1 in E'.
    pose proof (layout_next _ _ _ _ _ _ _ _ _ HL S' R') as HL'.
    destruct (IH _ _ _ HL' Hel') as (m'' & E'' & C'' & S''); [rewrite app_length in Hf1; cbn in Hf1; lia|].
    exists m''. cbn [length]. rewrite E'. split; [done|]. split; [done|]. intros q Hq. rewrite S'' by done. by apply S'.
Qed.

(** If the path ends with a colon, or is empty, and the file is in none of its directories, the search
    gives the null pointer. *)
Theorem C43_nowhere fuel access buf slash file path ftext ptext ds m :
  layout m buf slash file path ftext ptext ->
  elements ptext = ds ++ [[]] ->
  Forall (fun x => access (in_dir x ftext) = false /\ (length (in_dir x ftext) < 256)%nat) ds ->
  (length ptext < fuel)%nat -> (256 <= fuel)%nat ->
  exists m', search_path fuel access (S (length ds)) buf slash path file m = COk 0 m' /\ same_but buf m m'.
Proof.
  intros HL Hel Hall Hf1 Hf2. unfold search_path. destruct (path =? 0) eqn:E0; [pose proof (la_pos _ _ _ _ _ _ _ HL); lia|]. clear E0.
  revert path ptext m HL Hel Hf1. induction Hall as [|x ds [Hx1 Hx2] Hall IH]; intros path ptext m HL Hel Hf1; pose proof HL as [H1 H2 H3 H4 H5 H6 H7 H8].
  - destruct (elements_split _ _ _ Hel) as [Hd [[_ ->]|(p' & -> & Hp')]].
    + exists m. split; [|done]. cbn [search_loop length]. destruct H1 as [H1 _]. cbn [app] in H1. apply bytes_at_cons in H1 as (_ & H1 & _).
      erewrite cbind_ok by (by apply ld_ok). done.
    + destruct p' as [|c p']; [done|]. destruct (elements_cons c p') as (? & ? & ?). congruence.
  - destruct (elements_split _ _ _ Hel) as [Hd Hcase].
    destruct Hcase as [[Hn _]|(p' & -> & Hel')]; [by destruct ds|].
    destruct (search_round fuel access (S (length ds)) buf slash file path ftext (x ++ 58 :: p') x (58 :: p') m) as (m' & S' & R' & C' & E'); try done; [eauto|by destruct x|].
    rewrite Hx1 in E'.
    pose proof (layout_next _ _ _ _ _ _ _ _ _ HL S' R') as HL'.
    destruct (IH _ _ _ HL' Hel') as (m'' & E'' & S''); [rewrite app_length in Hf1; cbn in Hf1; lia|].
    exists m''. cbn [length]. rewrite E'. split; [done|]. intros q Hq. rewrite S'' by done. by apply S'.
Qed.

(** execvp executes a name with a slash as it is, and otherwise what the search finds. *)
Theorem C43_execvp fuel access n buf slash file path ftext m :
  cstr m file ftext -> (length ftext < fuel)%nat -> 0 < file -> 0 < buf ->
  (47 ∈ ftext -> execvp fuel access n buf slash path file m = COk (Executes file) m) /\
  (47 ∉ ftext -> forall r m', search_path fuel access n buf slash path file m = COk r m' ->
     execvp fuel access n buf slash path file m = COk (if r =? 0 then NotFound else Executes r) m').
Proof.
  intros Hf Hfu Hpos Hb. unfold execvp.
  destruct (C27_strchr m file 47 ftext fuel Hf ltac:(lia) Hfu) as (e & E & He). erewrite cbind_ok by exact E.
  change (47 mod 256) with 47 in He. split.
  - intros Hin. destruct He as [[_ Hno]|(i & -> & _)].
    { exfalso. apply Hno. apply elem_of_app. by left. }
    destruct (file + Z.of_nat i =? 0) eqn:E0; [lia|]. erewrite cbind_ok by reflexivity. destruct (file =? 0) eqn:E1; [lia|done].
  - intros Hin r m' Hs. destruct He as [[-> _]|(i & -> & (b & Hbi & ->) & _)].
    + cbn [Z.eqb]. erewrite cbind_ok by exact Hs. by destruct (r =? 0).
    + exfalso. apply elem_of_list_lookup_2 in Hbi. apply elem_of_app in Hbi as [?|Hz]; [done|].
      apply elem_of_list_singleton in Hz. done.
Qed.

(** execl gives the new program the file name followed by the arguments after the first *)
Theorem C43_execl file arg args : (length args <= 998)%nat -> execl file arg args = Some (file, file :: args).
Proof.
  intros H. unfold execl.
  assert (forall args argv, (length argv + length args < 1000)%nat -> vexec_loop argv args = Some (argv ++ args)) as ->; [|done|].
  - clear. induction args as [|a args IH]; intros argv H; cbn [vexec_loop].
    + rewrite app_nil_r. destruct (length argv <? 1000)%nat eqn:E; [done|cbn in H; lia].
    + cbn in H. destruct (length argv <? 1000)%nat eqn:E; [|lia]. rewrite IH; [by rewrite <- app_assoc|]. rewrite app_length. cbn. lia.
  - cbn [length]. lia.
Qed.

(** The whole of it: a name without a slash is executed in the first directory of the path that has it. *)
Theorem C43_execvp_first fuel access buf slash file path ftext ptext ds1 d ds2 m :
  layout m buf slash file path ftext ptext -> 47 ∉ ftext ->
  elements ptext = ds1 ++ d :: ds2 -> (d <> [] \/ ds2 <> []) ->
  Forall (fun x => access (in_dir x ftext) = false /\ (length (in_dir x ftext) < 256)%nat) ds1 ->
  access (in_dir d ftext) = true -> (length (in_dir d ftext) < 256)%nat ->
  (length ptext < fuel)%nat -> (length ftext < fuel)%nat -> (256 <= fuel)%nat -> 0 < file -> 0 < buf ->
  exists m', execvp fuel access (S (length ds1)) buf slash path file m = COk (Executes buf) m' /\
    cstr m' buf (in_dir d ftext) /\ same_but buf m m'.
Proof.
  intros HL Hns Hel Hne Hall Hacc Hlen Hf1 Hf3 Hf2 Hfp Hbp.
  destruct (C43_first_directory fuel access buf slash file path ftext ptext ds1 d ds2 m) as (m' & E & C & S'); try done.
  exists m'. split; [|done].
  destruct (C43_execvp fuel access (S (length ds1)) buf slash file path ftext m (la_file _ _ _ _ _ _ _ HL) Hf3 Hfp Hbp) as [_ Hx].
  rewrite (Hx Hns _ _ E). destruct (buf =? 0) eqn:E0; [lia|done].
Qed.
(** execlp finds the same file as execvp, and the new program gets its name and the arguments after the first. *)
Theorem C43_execlp fuel access n buf slash file path arg args m m' :
  (length args <= 998)%nat ->
  (forall f, execvp fuel access n buf slash path file m = COk (Executes f) m' ->
     execlp fuel access n buf slash path file arg args m = COk (Some (Some (f, f :: args))) m') /\
  (execvp fuel access n buf slash path file m = COk NotFound m' ->
     execlp fuel access n buf slash path file arg args m = COk None m').
Proof.
  intros Ha. unfold execvp, execlp, cbind, cret.
  destruct (strchr fuel file 47 m) as [e m1| | |]; [|split; intros; done..].
  destruct ((if e =? 0 then search_path fuel access n buf slash path file else fun m => COk file m) m1) as [f m2| | |]; [|split; intros; done..].
  destruct (f =? 0); split; intros; simplify_eq; try done.
  by rewrite C43_execl.
Qed.

(** A memory with "/" at 100, "f" at 110, the PATH [ptext] at 120 and whatever follows it, and the
    buffer at 1000. *)
Definition mem_of (l : list (Z * list Z)) : gmap Z Z := foldr (fun x m => blit (fst x) (snd x) m) ∅ l.
Definition ex_mem (after : list Z) : gmap Z Z := mem_of [(100, [47; 0]); (110, [102; 0]); (120, after); (1000, replicate 256 0)].
Definition room_b (m : gmap Z Z) (p : Z) (n : nat) : bool := forallb (fun i => match m !! (p + Z.of_nat i) with Some _ => true | None => false end) (seq 0 n).
Lemma room_b_ok m p n : room_b m p n = true -> room m p n.
Proof. intros H i Hi. unfold room_b in H. rewrite forallb_forall in H. specialize (H i). rewrite in_seq in H.
  destruct (m !! (p + Z.of_nat i)); [eauto|]. discriminate H. lia. Qed.
Definition cstr_b (m : gmap Z Z) (p : Z) (bs : list Z) : bool :=
  forallb (fun b => (1 <=? b) && (b <? 256)) bs && forallb (fun i => bool_decide (m !! (p + Z.of_nat i) = (bs ++ [0]) !! i)) (seq 0 (S (length bs))).
Lemma cstr_b_ok m p bs : cstr_b m p bs = true -> cstr m p bs.
Proof.
  unfold cstr_b. intros H. apply andb_true_iff in H as [H1 H2]. rewrite forallb_forall in H1. rewrite forallb_forall in H2.
  split; [split|].
  - apply Forall_app. split; [|constructor; [unfold byte; lia|constructor]].
    apply Forall_forall. intros x Hx%elem_of_list_In. specialize (H1 x Hx). unfold byte. lia.
  - intros i b Hi. pose proof (lookup_lt_Some _ _ _ Hi) as HL. rewrite app_length in HL. cbn in HL.
    rewrite <- Hi. specialize (H2 i). rewrite in_seq in H2. apply bool_decide_eq_true in H2; [done|lia].
  - intros Hin%elem_of_list_In. specialize (H1 0 Hin). lia.
Qed.
Definition layout_b (m : gmap Z Z) (ptext : list Z) : bool :=
  cstr_b m 120 ptext && cstr_b m 110 [102] && cstr_b m 100 [47] && room_b m 1000 256 && (length ptext <? 800)%nat.
Lemma layout_b_ok m ptext : layout_b m ptext = true -> layout m 1000 100 110 120 [102] ptext.
Proof.
  unfold layout_b. rewrite !andb_true_iff. intros ((((H1 & H2) & H3) & H4) & H5).
  split; try (by apply cstr_b_ok); [by apply room_b_ok|..]; unfold apart; cbn; lia.
Qed.

(** PATH is "/b:/c:/d", the file is in /c and /d *)
Definition ex_path : list Z := [47; 98; 58; 47; 99; 58; 47; 100].
Definition ex_access (n : list Z) : bool := bool_decide (n = [47; 99; 47; 102]) || bool_decide (n = [47; 100; 47; 102]).
Example C43_ex_hyps : layout (ex_mem (ex_path ++ [0])) 1000 100 110 120 [102] ex_path /\
  elements ex_path = [[47; 98]] ++ [47; 99] :: [[47; 100]] /\ ex_access (in_dir [47; 98] [102]) = false /\ ex_access (in_dir [47; 99] [102]) = true.
Proof. split; [apply layout_b_ok; vm_compute; reflexivity|]. vm_compute. tauto. Qed.
Example C43_ex : exists m', search_path 300 ex_access 2 1000 100 120 110 (ex_mem (ex_path ++ [0])) = COk 1000 m' /\ cstr m' 1000 [47; 99; 47; 102].
Proof.
  destruct C43_ex_hyps as (H1 & H2 & H3 & H4).
  destruct (C43_first_directory 300 ex_access 1000 100 110 120 [102] ex_path [[47; 98]] [47; 99] [[47; 100]] _ H1 H2) as (m' & E & C & _).
  - by left.
  - constructor; [|constructor]. split; [exact H3|cbn; lia].
  - exact H4.
  - cbn; lia.
  - cbn; lia.
  - lia.
  - exists m'. split; [exact E|exact C].
Qed.
Example C43_nowhere_ex : layout (ex_mem [47; 98; 58; 0]) 1000 100 110 120 [102] [47; 98; 58] /\ elements [47; 98; 58] = [[47; 98]] ++ [[]].
Proof. split; [apply layout_b_ok; vm_compute; reflexivity|reflexivity]. Qed.

(** The statement without the colon at the end of the PATH is false: the search then goes on behind
    the end of the PATH.  PATH is "/b"; the string behind it in memory, another variable of the
    environment, is "/c"; the program found is in /c, which is not in the PATH. *)
Theorem C43_nowhere_refuted : exists access m m',
  layout m 1000 100 110 120 [102] [47; 98] /\ elements [47; 98] = [[47; 98]] /\
  access (in_dir [47; 98] [102]) = false /\
  search_path 300 access 2 1000 100 120 110 m = COk 1000 m' /\ cstr m' 1000 [47; 99; 47; 102].
Proof.
  exists ex_access, (ex_mem [47; 98; 0; 47; 99; 0]).
  set (r := search_path _ _ _ _ _ _ _ _).
  assert (Hr : match r with COk v m' => (v =? 1000) && cstr_b m' 1000 [47; 99; 47; 102] | _ => false end = true) by (vm_compute; reflexivity).
  destruct r as [v m'| | |]; try done. apply andb_true_iff in Hr as [Hv Hc]. apply Z.eqb_eq in Hv. subst v.
  exists m'. split; [apply layout_b_ok; vm_compute; reflexivity|]. split; [reflexivity|]. split; [reflexivity|]. split; [done|]. by apply cstr_b_ok.
Qed.
(** ... and if nothing readable is behind it, the behaviour is undefined *)
Theorem C43_nowhere_undefined : layout (ex_mem [47; 98; 0]) 1000 100 110 120 [102] [47; 98] /\
  search_path 300 (fun _ => false) 2 1000 100 120 110 (ex_mem [47; 98; 0]) = CUB.
Proof. split; [apply layout_b_ok|]; vm_compute; reflexivity. Qed.
(** An empty element is searched as the root directory, not as the current directory. *)
Theorem C43_empty_element_refuted : exists m', search_path 300 (fun n => bool_decide (n = [102])) 2 1000 100 120 110 (ex_mem [58; 0]) = COk 0 m'.
Proof.
  set (r := search_path _ _ _ _ _ _ _ _).
  assert (Hr : match r with COk v m' => v =? 0 | _ => false end = true) by (vm_compute; reflexivity).
  destruct r as [v m'| | |]; try done. apply Z.eqb_eq in Hr. subst v. eauto.
Qed.
(** Without a PATH in the environment the search reads through the null pointer. *)
Theorem C43_no_path_undefined fuel access n buf slash file m : search_path fuel access n buf slash 0 file m = CUB.
Proof. reflexivity. Qed.
(** The first argument given to execl is not the first argument of the new program, and more than 998
    arguments after it do not fit in the array. *)
Theorem C43_execl_refuted : exists file arg args, execl file arg args <> Some (file, arg :: args).
Proof. exists 1, 2, []. done. Qed.
Theorem C43_execl_overflow file arg args : (998 < length args)%nat -> execl file arg args = None.
Proof.
  intros H. unfold execl.
  assert (forall args argv, (1000 <= length argv + length args)%nat -> vexec_loop argv args = None) as G.
  - clear. induction args as [|a args IH]; intros argv H; cbn [vexec_loop].
    + destruct (length argv <? 1000)%nat eqn:E; [cbn in H; lia|done].
    + cbn in H. destruct (length argv <? 1000)%nat eqn:E; [|done]. apply IH. rewrite app_length. cbn. lia.
  - rewrite G; [done|]. cbn [length]. lia.
Qed.

Print Assumptions C43_first_directory.
Print Assumptions C43_nowhere.
Print Assumptions C43_execvp.
Print Assumptions C43_execvp_first.
Print Assumptions C43_execlp.
Print Assumptions C43_execl.
Print Assumptions C43_nowhere_refuted.
