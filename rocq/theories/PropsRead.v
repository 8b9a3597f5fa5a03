(** C32, C33, C34: reading and writing. *)
From stdpp Require Import base gmap list fin_maps.
From Coq Require Import ZArith Lia.
From Coq Require Import ZifyBool ZifyNat.
From Verif Require Import CInt Symbols Heap HeapLemmas DataModel BootModel DataSpec DataLemmas CoreProofs StringProofs HashProofs ListProofs ArrayProofs LibModel Samples SamplesHash PropsCore PropsHash ReadModel ReadSpec ReadProofs DisplayModel WriteProofs.
Import Strings.String.StringSyntax.
Open Scope Z_scope.
Open Scope mes_scope.

(** ** equal? on data *)
Fixpoint datum_of (al : list entry) (x : sexp) : datum :=
  match x with
  | XNum n => DNum n
  | XChar c => DChar c
  | XStr bs => DStr bs
  | XKey bs => DKey bs
  | XSym name => DAtom (default 0 (latest (same_name name) al))
  | XNil => DAtom cell_nil
  | XBool b => DAtom (if b then cell_t else cell_f)
  | XPair a d => DPair (datum_of al a) (datum_of al d)
  | XVec l => DVec (map (datum_of al) l)
  end.
Lemma sexp_ind' (P : sexp -> Prop) : (forall n, P (XNum n)) -> (forall c, P (XChar c)) -> (forall bs, P (XStr bs)) -> (forall n, P (XSym n)) -> (forall n, P (XKey n)) ->
  P XNil -> (forall b, P (XBool b)) -> (forall a d, P a -> P d -> P (XPair a d)) -> (forall l, Forall P l -> P (XVec l)) -> forall x, P x.
Proof.
  intros H1 H2 H3 H4 H5 H6 H7 H8 H9. fix IH 1. intros [n|c|bs|n|n| |b|a d|l]; [apply H1|apply H2|apply H3|apply H4|apply H5|apply H6|apply H7| |].
  - apply H8; apply IH.
  - apply H9. induction l as [|x l IHl]; constructor; [apply IH|apply IHl].
Qed.
Lemma depth_of al x : (depth (datum_of al x) < wdepth x)%nat.
Proof.
  induction x as [| | | | | | |a d IHa IHd|l IH] using sexp_ind'; cbn [datum_of depth wdepth]; try lia.
  apply le_n_S. apply le_n_S. apply (proj2 (list_max_le _ _)).
  induction IH as [|x l Hx Hl IHl]; cbn [map foldr]; constructor; [lia|].
  eapply List.Forall_impl; [|exact IHl]. cbn. intros; lia.
Qed.

Section Machine.
Context (max w size : Z).
Lemma sexp_datum s al : ready max w size s al -> forall x p, sexp_at al (cells s) p x -> repr (heap s) p (datum_of al x).
Proof.
  intros Hr. assert (forall p t c, cells s !! p = Some c -> c_ty c = t -> t ∈ [TSPECIAL; TSYMBOL] -> repr (heap s) p (DAtom p)) as Hatom.
  { intros p t c Hc Ht Hin. apply cells_heap in Hc as [Hc _]. apply (repr_atom _ _ c); [done|]. rewrite Ht. rewrite !elem_of_cons, elem_of_nil in *.
    destruct Hin as [->|[->|[]]]; intros F; repeat (destruct F as [F|F]; [discriminate F|]); done. }
  assert (forall t p bs, text_at (cells s) t p bs -> text_at (heap s) t p bs) as Htext.
  { intros t p bs H. eapply text_at_mono; [apply cells_sub|done]. }
  fix IH 3. intros x p Hx. destruct Hx as [p n H|p c H|p bs H|p bs H|p name H| |b|p a d xa xd H Ha Hd|p c es l Hc Ht Hl He HF]; cbn [datum_of].
  - constructor. eapply number_at_mono; [apply cells_sub|done].
  - constructor. eapply char_at_mono; [apply cells_sub|done].
  - constructor. by apply Htext.
  - constructor. by apply Htext.
  - destruct (interned_symbol _ _ _ _ _ _ (ready_symbols _ _ _ _ _ Hr) H) as (t & Hin & q & ? & Hq & Hqt & _).
    unfold interned in H. rewrite H. cbn. by eapply Hatom.
  - destruct (ready_special max w size s al _ _ Hr nil_special) as (q & ? & Hq & Hqt & _). eapply Hatom; [done|done|set_solver].
  - destruct (ready_special max w size s al _ _ Hr (bool_special b)) as (q & ? & Hq & Hqt & _). eapply Hatom; [done|done|set_solver].
  - econstructor; [eapply pair_at_mono; [apply cells_sub|done]|by apply IH|by apply IH].
  - pose proof (cells_heap _ _ _ Hc) as [Hc' _]. apply (repr_vec _ _ c es); [done|done|done| |].
    + intros i e Hi. eapply entry_at_mono; [apply cells_sub|by apply He].
    + clear He Hl. induction HF; cbn [map]; constructor; [by apply IH|done].
Qed.
(** two objects that hold the same datum are equal? *)
Lemma same_datum_equal s al x p q f : ready max w size s al -> sexp_at al (cells s) p x -> sexp_at al (cells s) q x -> (wdepth x <= f)%nat ->
  equal2_p f p q s = ROk cell_t s.
Proof.
  intros Hr Hp Hq Hf. eapply (C14_equal f p q (datum_of al x) (datum_of al x)); [by eapply sexp_datum|by eapply sexp_datum| |done].
  pose proof (depth_of al x). lia.
Qed.
Lemma outside_cells s : outside w size (cells s) ⊆ cells s.
Proof. apply outside_sub. Qed.
Lemma result_cells n m s al rest x r s' al' : result max w size n m s al rest x r s' al' -> sexp_at al' (cells s') r x.
Proof. intros H. eapply sexp_at_mono; [apply grows_refl|apply outside_cells|]. apply H. Qed.
(** what was there before reading is still there *)
Lemma result_keeps n m s al rest x r s' al' p y : result max w size n m s al rest x r s' al' -> sexp_at al (outside w size (cells s)) p y ->
  sexp_at al' (outside w size (cells s')) p y.
Proof.
  intros H Hy. destruct H as [_ _ (k & _ & Hm) _ Hg _]. eapply sexp_at_mono; [exact Hg| |exact Hy].
  change (outside w size (cells (blind s)) ⊆ outside w size (cells (blind s'))). by eapply outside_mono.
Qed.
End Machine.

(** ** C33 *)
(** Reading a text, after any white space and comments, gives the datum that the text denotes, takes
    exactly the text from the input and changes no datum that was there before. *)
Theorem C33_read max w size s al l t x rest fuel :
  ready max w size s al -> layout blank l -> text max rest t x -> input s (l ++ t ++ rest) ->
  can_alloc (20 * Z.of_nat (length t)) s -> (length al + 4 * length t + 2 * length l + 4 <= fuel)%nat ->
  exists r s' al', read_env fuel s = ROk r s' /\ ready max w size s' al' /\ sexp_at al' (outside w size (cells s')) r x /\ input s' rest /\
    (forall p y, sexp_at al (outside w size (cells s)) p y -> sexp_at al' (outside w size (cells s')) p y) /\
    (exists k, k <= 20 * Z.of_nat (length t) /\ modifies (in_buckets w size) k (blind s) (blind s')) /\
    (length al' <= length al + length t)%nat.
Proof.
  intros Hr Hl Ht Hi Ha Hf. pose proof (proj1 (read_ok max w size) _ _ _ Ht) as Hg.
  destruct (next_ok max w size rest t x l fuel s al Hg Hl Hr Hi) as (r & s' & al' & E & H); [eapply can_alloc_le; [done|unfold room; lia]|lia|].
  exists r, s', al'. split; [done|]. split; [apply H|]. split; [apply H|]. split; [apply H|]. split; [intros p y Hy; by eapply result_keeps|].
  split; [|apply H]. destruct (res_heap _ _ _ _ _ _ _ _ _ _ _ _ H) as (k & Hk & Hm). exists k. split; [|done].
  pose proof (spine_nonneg x). unfold room in Hk. lia.
Qed.
(** Two texts of the same datum, with different layout, read as equal? data. *)
Theorem C33_same_datum max w size s al l1 t1 l2 t2 x rest fuel f :
  ready max w size s al -> layout blank l1 -> text max (l2 ++ t2 ++ rest) t1 x -> layout blank l2 -> text max rest t2 x ->
  input s (l1 ++ t1 ++ l2 ++ t2 ++ rest) -> can_alloc (20 * Z.of_nat (length t1) + 20 * Z.of_nat (length t2)) s ->
  (length al + 5 * length t1 + 4 * length t2 + 2 * length l1 + 2 * length l2 + 4 <= fuel)%nat -> (wdepth x <= f)%nat ->
  exists r1 r2 s1 s2, read_env fuel s = ROk r1 s1 /\ read_env fuel s1 = ROk r2 s2 /\ equal2_p f r1 r2 s2 = ROk cell_t s2 /\ input s2 rest.
Proof.
  intros Hr Hl1 Ht1 Hl2 Ht2 Hi Ha Hf Hw.
  destruct (C33_read max w size s al l1 t1 x _ fuel Hr Hl1 Ht1 Hi) as (r1 & s1 & al1 & E1 & Hr1 & Hx1 & Hi1 & _ & (k & Hk & Hm) & Hal1); [eapply can_alloc_le; [done|lia]|lia|].
  assert (can_alloc (20 * Z.of_nat (length t2)) s1) as Ha1.
  { change (can_alloc (20 * Z.of_nat (length t2)) (blind s1)). eapply modifies_can_alloc; [exact Hm| |lia].
    change (can_alloc (20 * Z.of_nat (length t2) + k) s). eapply can_alloc_le; [done|lia]. }
  destruct (C33_read max w size s1 al1 l2 t2 x rest fuel Hr1 Hl2 Ht2 Hi1 Ha1) as (r2 & s2 & al2 & E2 & Hr2 & Hx2 & Hi2 & Hkeep & _); [lia|].
  exists r1, r2, s1, s2. split; [done|]. split; [done|]. split; [|done].
  apply (same_datum_equal max w size s2 al2 x); [done| | |done]; (eapply sexp_at_mono; [apply grows_refl|apply outside_cells|]); [by apply Hkeep|exact Hx2].
Qed.
(** White space and comments can be put before any element of a list and before its end, as far as
    they do not run into the preceding word. *)
Lemma layout_app ws l1 l2 : layout ws l1 -> layout ws l2 -> layout ws (l1 ++ l2).
Proof.
  intros H1 H2. induction H1; cbn [app]; [done|by constructor| |].
  - rewrite <- app_assoc. cbn [app]. by constructor.
  - rewrite <- app_assoc. cbn [app]. by constructor.
Qed.
Theorem C33_layout_in_lists max dot rest t x l : layout white l -> items max dot rest t x -> items max dot rest (l ++ t) x.
Proof.
  intros Hl H. destruct H as [dot l' rest Hl'|dot l' t1 x1 t2 x2 rest Hl' H1 H2|l' l1 t1 x1 l2 rest Hl' Hl1 H1 Hl2 Hd];
  rewrite (app_assoc l l'); constructor; try done; by apply layout_app.
Qed.
Print Assumptions C33_read.
Print Assumptions C33_same_datum.
Print Assumptions C33_layout_in_lists.

(** ** C32 *)
Lemma write_start cp pp f x fd wp s : display_helper cp pp (S f) 5 x 0 [] fd wp s = display_helper cp pp (S f) 5 x 0 [] fd wp (outs fd [] s).
Proof.
  cbn [display_helper]. assert (fdputs [] fd s = ROk tt (outs fd [] s)) as E by done. rewrite (bind_ok _ _ _ _ _ E).
  by rewrite (bind_ok _ _ _ _ _ (fdputs_ok fd [] [] s ltac:(constructor))).
Qed.
Theorem C32_write call_printer procedure_p max w size s al p x fuel fd :
  ready max w size s al -> cells s !! 0 = None -> sexp_at al (cells s) p x -> representable max x -> no_circular x -> (wdepth x <= fuel)%nat ->
  exists t, writes x t /\ fdisplay_ call_printer procedure_p fuel p fd true s = ROk cell_unspecified (outs fd t s).
Proof.
  intros Hr H0 Hx Hre Hn Hf. destruct fuel as [|f]; [destruct x; cbn in Hf; lia|].
  destruct (proj1 (write_ok call_printer procedure_p max w size fd s al Hr H0 (S f)) x Hf p [] [] Hx Hre Hn ltac:(constructor)) as (t & E & Hw).
  exists t. split; [done|]. unfold fdisplay_. rewrite <- write_start in E. by rewrite (bind_ok _ _ _ _ _ E).
Qed.
(** What write produced can be read, followed by anything that ends a word: the result is the datum
    that was written.  In particular it is equal? to the object written, if that still exists. *)
Theorem C32_write_read call_printer procedure_p max w size s al p x fuel :
  ready max w size s al -> cells s !! 0 = None -> sexp_at al (cells s) p x -> representable max x -> no_circular x -> (wdepth x <= fuel)%nat ->
  exists t, write_ call_printer procedure_p fuel p s = ROk cell_unspecified (outs 1 t s) /\
  forall w2 size2 s2 al2 l rest fuel2, ready max w2 size2 s2 al2 -> layout blank l -> ends rest -> input s2 (l ++ t ++ rest) ->
    can_alloc (20 * Z.of_nat (length t)) s2 -> (length al2 + 4 * length t + 2 * length l + 4 <= fuel2)%nat ->
    exists r s3 al3, read_env fuel2 s2 = ROk r s3 /\ input s3 rest /\ ready max w2 size2 s3 al3 /\ sexp_at al3 (outside w2 size2 (cells s3)) r x /\
      (sexp_at al2 (outside w2 size2 (cells s2)) p x -> forall f, (wdepth x <= f)%nat -> equal2_p f p r s3 = ROk cell_t s3).
Proof.
  intros Hr H0 Hx Hre Hn Hf. destruct (C32_write call_printer procedure_p max w size s al p x fuel 1 Hr H0 Hx Hre Hn Hf) as (t & Hw & E).
  exists t. split; [exact E|]. intros w2 size2 s2 al2 l rest fuel2 Hr2 Hl Hends Hi Ha Hf2.
  pose proof (proj1 (written_readable max (ready_room _ _ _ _ _ Hr)) x t Hw Hre rest Hends) as Ht.
  destruct (C33_read max w2 size2 s2 al2 l t x rest fuel2 Hr2 Hl Ht Hi Ha Hf2) as (r & s3 & al3 & E3 & Hr3 & Hx3 & Hi3 & Hkeep & _).
  exists r, s3, al3. split; [done|]. split; [done|]. split; [done|]. split; [done|]. intros Hp f Hwf.
  apply (same_datum_equal max w2 size2 s3 al3 x); [done| | |done]; (eapply sexp_at_mono; [apply grows_refl|apply outside_cells|]); [by apply Hkeep|exact Hx3].
Qed.
Print Assumptions C32_write.
Print Assumptions C32_write_read.

(** ** C34 *)
(** A file: texts separated by white space and comments.  [x <> XNil]: reading () ends the file. *)
Inductive file_text (max : Z) : list Z -> list sexp -> Prop :=
| file_end l : layout blank l -> file_text max l []
| file_datum l t x rest xs : layout blank l -> text max rest t x -> x <> XNil -> file_text max rest xs -> file_text max (l ++ t ++ rest) (x :: xs).

Lemma text_not_nil max : (forall rest t x, text max rest t x -> x <> XSym (bytes_of "()")) /\ (forall dot rest t x, items max dot rest t x -> x <> XSym (bytes_of "()")).
Proof.
  apply text_items_ind; try done. intros name rest [(_ & Hw & _) _] _ _ [= ->]. revert Hw. lits. intros Hw. inversion Hw as [|? ? Hw0 _]; subst.
  apply word_char_not in Hw0 as (_ & H & _). set_solver.
Qed.
Lemma read_end max w size s al l fuel : ready max w size s al -> layout blank l -> input s l -> (2 * length l + 1 < fuel)%nat ->
  exists s', read_env fuel s = ROk cell_nil s' /\ quiet s s' /\ input s' [].
Proof.
  intros Hr Hl Hi Hf. unfold read_env. destruct (cur_read fuel _ _ Hi) as (s1 & E1 & Hq1 & Hc1). rewrite (bind_ok _ _ _ _ _ E1).
  rewrite <- (app_nil_r l) in Hc1 |- *. destruct (sexp_layout l Hl fuel s1 [] Hc1) as (f' & s2 & -> & Hq2 & [_ Hc2] & Hf'); [lia|].
  destruct f' as [|f']; [lia|]. exists s2. split; [done|]. split; [by eapply quiet_trans|done].
Qed.
Lemma not_nil max w size s al p x : ready max w size s al -> sexp_at al (cells s) p x -> x <> XNil -> x <> XSym (bytes_of "()") -> p <> cell_nil.
Proof.
  intros Hr Hx Hn Hs ->. destruct (ready_special _ _ _ _ _ _ _ Hr nil_special) as (c & b & Hc & Ht & Hrest).
  assert (forall q t, cells s !! cell_nil = Some q -> c_ty q = t -> t = TSPECIAL) as Hty by (intros q t Hq <-; congruence).
  inversion Hx; subst; try done.
  - destruct H as (q & Hq & Hqt & _). by specialize (Hty _ _ Hq Hqt).
  - destruct H as (q & Hq & Hqt & _). by specialize (Hty _ _ Hq Hqt).
  - destruct H as (q & ? & Hq & Hqt & _). by specialize (Hty _ _ Hq Hqt).
  - destruct H as (q & ? & Hq & Hqt & _). by specialize (Hty _ _ Hq Hqt).
  - destruct (interned_symbol _ _ _ _ _ _ (ready_symbols _ _ _ _ _ Hr) H) as (t & _ & Hsym).
    destruct (text_at_unique _ _ _ _ _ _ (ready_special _ _ _ _ _ _ _ Hr nil_special) Hsym) as [<- _]. done.
  - by destruct b0.
  - destruct H as (q & Hq & Hqt & _). by specialize (Hty _ _ Hq Hqt).
  - match goal with Hq : cells s !! cell_nil = Some ?q, Hqt : c_ty ?q = TVECTOR |- _ => by specialize (Hty _ _ Hq Hqt) end.
Qed.
Lemma file_read max w size b xs : file_text max b xs -> forall s al f f2, ready max w size s al -> input s b ->
  can_alloc (21 * Z.of_nat (length b)) s -> (length al + 6 * length b + 4 <= f)%nat -> (length al + 6 * length b + 4 <= f2)%nat ->
  exists r s2 al2, (e <- read_env f ;; read_input_file_env_ f2 e) s = ROk r s2 /\
    result max w size (21 * Z.of_nat (length b)) (length b) s al [] (XList xs) r s2 al2.
Proof.
  induction 1 as [l Hl|l t x rest xs Hl Ht Hx Hfile IH]; intros s al f f2 Hr Hi Ha Hf Hf2.
  - destruct (read_end max w size s al l f Hr Hl Hi) as (s1 & E1 & Hq & Hi1); [lia|]. rewrite (bind_ok _ _ _ _ _ E1).
    destruct f2 as [|f2]; [lia|]. exists cell_nil, s1, al. split; [done|]. assert (result max w size 0 0 s al [] XNil cell_nil s1 al) as H1 by (apply result_same; [lia|done|done|done|constructor]).
    eapply result_weaken; [| |exact H1]; lia.
  - rewrite !app_length in *. pose proof (proj1 (read_ok max w size) _ _ _ Ht) as Hg.
    destruct (next_ok max w size rest t x l f s al Hg Hl Hr Hi) as (e & s1 & al1 & E1 & H1); [eapply can_alloc_le; [done|unfold room; lia]|lia|].
    change (read_env f s = ROk e s1) in E1. rewrite (bind_ok _ _ _ _ _ E1). destruct f2 as [|f2]; [lia|]. cbn [read_input_file_env_].
    rewrite (proj2 (Z.eqb_neq e cell_nil)).
    2:{ eapply not_nil; [apply H1|by eapply result_cells|done|]. eapply (proj1 (text_not_nil max)); exact Ht. }
    assert (1 <= length t)%nat as Hlen. { pose proof (proj1 (text_head max) _ _ _ Ht) as Hh. destruct Hh as (? & ? & -> & _). cbn. lia. }
    pose proof (spine_nonneg x) as Hsp. pose proof (res_size _ _ _ _ _ _ _ _ _ _ _ _ H1) as Hsz.
    destruct (IH s1 al1 f2 f2) as (r & s2 & al2 & E2 & H2); [apply H1|apply H1| |lia|lia|].
    { eapply result_alloc; [exact H1| |lia]. eapply can_alloc_le; [done|]. unfold room. lia. }
    rewrite <- bind_assoc, (bind_ok _ _ _ _ _ E2).
    destruct (result_trans _ _ _ _ _ _ _ _ _ _ _ _ _ _ _ _ _ _ _ H1 H2) as [H3 Hv].
    destruct (result_pair _ _ _ _ _ _ _ _ _ _ _ _ _ _ H3 Hv) as (r' & s3 & E3 & H4).
    { eapply result_alloc; [exact H3| |lia]. eapply can_alloc_le; [done|]. unfold room. lia. }
    exists r', s3, al2. split; [done|]. eapply result_weaken; [| |exact H4]; [unfold room; lia|lia].
Qed.
(** Reading a whole file gives the list of its data, in order, and ends at the end of the file; the
    number of calls is linear in the length of the file. *)
Theorem C34_read_file max w size s al b xs fuel :
  ready max w size s al -> file_text max b xs -> input s b -> can_alloc (21 * Z.of_nat (length b)) s ->
  (length al + 6 * length b + 4 <= fuel)%nat ->
  exists r s' al', read_input_file_env fuel s = ROk r s' /\ ready max w size s' al' /\ sexp_at al' (outside w size (cells s')) r (XList xs) /\ input s' [].
Proof.
  intros Hr Hb Hi Ha Hf. destruct (file_read max w size b xs Hb s al fuel fuel Hr Hi Ha Hf Hf) as (r & s' & al' & E & H).
  exists r, s', al'. split; [exact E|]. split; [apply H|]. split; [apply H|]. apply H.
Qed.

(** Where the reader does not make progress.  A block comment that is not closed: no number of steps
    is enough. *)
Lemma block_comment_diverges sc : 0 <= sc -> forall f bs s, (forall u v, bs <> u ++ sc :: 35 :: v) -> cur s bs ->
  reader_read_block_comment f sc (first bs) s = ROutOfFuel.
Proof.
  intros Hsc. induction f as [|f IH]; intros bs s Hno Hc; [done|]. cbn [reader_read_block_comment]. destruct bs as [|c bs]; cbn [first].
  - rewrite (proj2 (Z.eqb_neq (-1) sc)) by lia. rewrite bind_ret. cbn [andb]. destruct (cur_read f s [] (proj2 Hc)) as (s1 & E1 & _ & Hc1).
    rewrite (bind_ok _ _ _ _ _ E1). exact (IH [] s1 Hno Hc1).
  - assert (exists s1 p, (if c =? sc then peekchar f else ret (-1)) s = ROk p s1 /\ cur s1 (c :: bs) /\ (c =? sc) && (p =? 35) = false) as (s1 & p & E1 & Hc1 & Hp).
    { destruct (Z.eqb_spec c sc) as [->|].
      - destruct (cur_peek f _ _ _ Hc) as (s1 & E1 & Hq1 & Hc1). exists s1, (first bs). split; [done|]. split; [done|]. cbn [andb]. apply Z.eqb_neq.
        intros E. destruct bs as [|b bs]; [done|]. cbn in E. subst b. by apply (Hno [] bs).
      - exists s, (-1). done. }
    rewrite (bind_ok _ _ _ _ _ E1), Hp. destruct (cur_next f _ _ _ Hc1) as (s2 & E2 & _ & _ & Hc2). rewrite (bind_ok _ _ _ _ _ E2).
    apply IH; [|done]. intros u v ->. by apply (Hno (c :: u) v).
Qed.
Theorem C34_open_comment_refuted s l sc body fuel : layout blank l -> sc ∈ bytes_of "!|" -> (forall u v, body <> u ++ sc :: 35 :: v) ->
  input s (l ++ 35 :: sc :: body) -> read_env fuel s = ROutOfFuel.
Proof.
  intros Hl Hsc Hno Hi. apply block_start in Hsc. unfold read_env. destruct (cur_read fuel _ _ Hi) as (s1 & E1 & _ & Hc1). rewrite (bind_ok _ _ _ _ _ E1). clear E1 Hi.
  revert Hl fuel s1 Hc1. clear s. 
  assert (forall f s, cur s (35 :: sc :: body) -> reader_read_sexp_ f 35 s = ROutOfFuel) as Hstop.
  { intros [|f] s Hc; [done|]. destruct (sexp_hash f s _ Hc) as (s1 & -> & _ & Hc1). destruct f as [|f]; [done|]. cbn [first reader_read_hash].
    assert ((sc =? 33) || (sc =? 124) = true) as -> by lia. destruct (cur_next f _ _ _ Hc1) as (s2 & E2 & _ & _ & Hc2). rewrite (bind_ok _ _ _ _ _ E2).
    pose proof (block_comment_diverges sc ltac:(lia) f body s2 Hno Hc2) as E. unfold bind. by rewrite E. }
  induction 1 as [|c l Hw Hl IH|bd l Hb Hl IH|sc' bd l Hsc' Hb Hl IH]; intros f s Hc.
  - by apply Hstop.
  - destruct f as [|f]; [done|]. cbn [app first reader_read_sexp_] in *.
    assert (c = 32 \/ c = 9 \/ c = 10 \/ c = 12) as Hcc. { unfold blank in Hw. rewrite !elem_of_cons, elem_of_nil in Hw. lia. }
    assert (c =? -1 = false) as -> by lia. assert (c =? 59 = false) as -> by lia.
    assert ((c =? 32) || (c =? 9) || (c =? 10) || (c =? 12) = true) as -> by lia.
    destruct (cur_next f _ _ _ Hc) as (s1 & E1 & _ & _ & Hc1). rewrite (bind_ok _ _ _ _ _ E1). by apply IH.
  - destruct f as [|f]; [done|]. cbn [app first] in *. rewrite <- app_assoc in *. cbn [app] in *.
    cbn [reader_read_sexp_]. change (59 =? -1) with false. change (59 =? 59) with true. cbn iota.
    destruct (Nat.le_gt_cases f (length (59 :: bd))) as [Hle|Hgt].
    + assert (forall g bs s, (g <= length bs)%nat -> Forall (fun c => c <> 10) bs -> cur s (bs ++ 10 :: l ++ 35 :: sc :: body) -> reader_read_line_comment g (first (bs ++ 10 :: l ++ 35 :: sc :: body)) s = ROutOfFuel) as Hshort.
      { clear. induction g as [|g IH]; intros bs s Hg HF Hc; [done|]. destruct bs as [|b bs]; [cbn in Hg; lia|]. inversion HF as [|? ? Hb HF']; subst. cbn [app first reader_read_line_comment].
        pose proof (cur_byte _ _ _ Hc). rewrite (proj2 (Z.eqb_neq b (-1))), (proj2 (Z.eqb_neq b 10)) by lia.
        destruct (cur_next g _ _ _ Hc) as (s1 & E1 & _ & _ & Hc1). rewrite (bind_ok _ _ _ _ _ E1). apply IH; [cbn in Hg; lia|done|done]. }
      pose proof (Hshort f (59 :: bd) s Hle ltac:(by constructor) Hc) as E. cbn [app first] in E. unfold bind. by rewrite E.
    + destruct (line_comment_ok (l ++ 35 :: sc :: body) (59 :: bd) f s Hc) as (s1 & E1 & Hq1 & Hc1); [by constructor|lia|].
      cbn [app first] in E1. rewrite (bind_ok _ _ _ _ _ E1). destruct f as [|f]; [done|]. cbn [reader_read_sexp_].
      change (10 =? -1) with false. change (10 =? 59) with false. cbn [orb Z.eqb Pos.eqb].
      destruct (cur_next f _ _ _ Hc1) as (s2 & E2 & _ & _ & Hc2). rewrite (bind_ok _ _ _ _ _ E2). by apply IH.
  - destruct f as [|f]; [done|]. cbn [app first] in *. rewrite <- app_assoc in *. cbn [app] in *. apply block_start in Hsc'.
    destruct (sexp_hash f s _ Hc) as (s1 & -> & _ & Hc1). destruct f as [|f]; [done|]. cbn [first reader_read_hash].
    assert ((sc' =? 33) || (sc' =? 124) = true) as -> by lia. destruct (cur_next f _ _ _ Hc1) as (s2 & E2 & _ & _ & Hc2). rewrite (bind_ok _ _ _ _ _ E2).
    destruct (Nat.le_gt_cases f (length bd)) as [Hle|Hgt].
    + assert (forall g bs s, (g <= length bs)%nat -> no_end sc' bs -> cur s (bs ++ sc' :: 35 :: l ++ 35 :: sc :: body) -> reader_read_block_comment g sc' (first (bs ++ sc' :: 35 :: l ++ 35 :: sc :: body)) s = ROutOfFuel) as Hshort.
      { clear. induction g as [|g IH]; intros bs s Hg HF Hc; [done|]. destruct bs as [|b bs]; [cbn in Hg; lia|]. apply no_end_cons in HF as [HF Hne]. cbn [app first reader_read_block_comment].
        assert (exists s1 p, (if b =? sc' then peekchar g else ret (-1)) s = ROk p s1 /\ cur s1 (b :: bs ++ sc' :: 35 :: l ++ 35 :: sc :: body) /\ (b =? sc') && (p =? 35) = false) as (s1 & p & E1 & Hc1 & Hp).
        { destruct (Z.eqb_spec b sc') as [->|].
          - destruct (cur_peek g _ _ _ Hc) as (s1 & E1 & Hq1 & Hc1). exists s1, (first (bs ++ sc' :: 35 :: l ++ 35 :: sc :: body)). split; [done|]. split; [done|]. specialize (Hne eq_refl). rewrite first_app_snoc. cbn. lia.
          - exists s, (-1). done. }
        rewrite (bind_ok _ _ _ _ _ E1), Hp. destruct (cur_next g _ _ _ Hc1) as (s2 & E2 & _ & _ & Hc2). rewrite (bind_ok _ _ _ _ _ E2). apply IH; [cbn in Hg; lia|done|done]. }
      pose proof (Hshort f bd s2 Hle Hb Hc2) as E. unfold bind. by rewrite E.
    + destruct (block_comment_ok sc' (l ++ 35 :: sc :: body) ltac:(lia) bd f s2 Hc2 Hb ltac:(lia)) as (s4 & E4 & _ & Hi4). rewrite (bind_ok _ _ _ _ _ E4).
      destruct (cur_read f _ _ Hi4) as (s5 & E5 & _ & Hc5). rewrite (bind_ok _ _ _ _ _ E5). by apply IH.
Qed.
(** A string that is not closed overruns the reader's buffer. *)
Theorem C34_open_string_refuted max w size s al body fuel : ready max w size s al -> Forall (fun c => c ∉ bytes_of """\") body ->
  input s (34 :: body) -> (Z.to_nat max + 2 <= fuel)%nat -> read_env fuel s = RUB.
Proof.
  intros Hr Hb Hi Hf. pose proof (ready_max _ _ _ _ _ Hr) as Hm. pose proof (ready_room _ _ _ _ _ Hr) as H64. unfold read_env.
  destruct (cur_read fuel _ _ Hi) as (s1 & E1 & Hq1 & Hc1). rewrite (bind_ok _ _ _ _ _ E1). cbn [first]. destruct fuel as [|f]; [lia|]. cbn [reader_read_sexp_ Z.eqb Pos.eqb orb].
  assert (forall g bs buf s, (Z.to_nat (max - Z.of_nat (length buf)) < g)%nat -> Z.of_nat (length buf) <= max -> MAX_STRING s = max -> Forall (fun c => c ∉ bytes_of """\") bs -> input s bs -> read_string_chars g buf s = RUB) as H.
  { clear -H64. lits. induction g as [|g IH]; intros bs buf s Hg Hl Hm Hb Hi; [lia|]. cbn [read_string_chars].
    destruct (cur_read g _ _ Hi) as (s1 & E1 & Hq1 & Hc1). rewrite (bind_ok _ _ _ _ _ E1).
    assert (first bs <> 34 /\ first bs <> 92) as [H1 H2]. { destruct bs as [|b bs]; [done|]. inversion Hb as [|? ? Hb0 _]; subst. cbn. set_solver. }
    rewrite (proj2 (Z.eqb_neq _ _) H1), (proj2 (Z.eqb_neq _ _) H2), bind_ret. unfold g_buf_store at 1. rewrite bind_assoc. rewrite bind_gets, (quiet_max _ _ Hq1), Hm.
    destruct (Z.ltb_spec (Z.of_nat (length buf)) max) as [Hlt|Hge]; [|done]. rewrite bind_ret.
    apply (IH (tail bs)); [rewrite app_length; cbn [length]; lia|rewrite app_length; cbn [length]; lia|by rewrite (quiet_max _ _ Hq1)|destruct bs; [done|]; by inversion Hb|apply Hc1]. }
  pose proof (H f body [] s1 ltac:(cbn [length]; lia) ltac:(cbn [length]; lia) ltac:(by rewrite (quiet_max _ _ Hq1)) Hb (proj2 Hc1)) as E.
  unfold reader_read_string, bind. by rewrite E.
Qed.
(** A carriage return or vertical tab outside of a list reads as the number 0 and is not taken from
    the input: reading on reads it again. *)
Theorem C34_return_refuted max w size s al c rest fuel : ready max w size s al -> c = 13 \/ c = 11 -> input s (c :: rest) -> can_alloc 1 s -> (2 <= fuel)%nat ->
  exists r s', read_env fuel s = ROk r s' /\ number_at (cells s') r 0 /\ input s' (c :: rest).
Proof.
  intros Hr Hcc Hi Ha Hf. unfold read_env. destruct (readchar_ok fuel _ _ Hi) as (s1 & E1 & Hq1 & Hc1). rewrite (bind_ok _ _ _ _ _ E1). cbn [first].
  destruct fuel as [|f]; [lia|]. rewrite sexp_word. 2:{ rewrite !elem_of_cons, elem_of_nil. lia. } rewrite (proj2 (Z.eqb_neq c 46)) by lia. rewrite bind_ret.
  unfold reader_read_identifier_or_number, read_sign. rewrite (proj2 (Z.eqb_neq c 43)), bind_assoc, bind_ret, (proj2 (Z.eqb_neq c 45)), bind_ret by lia. cbn [fst snd].
  destruct f as [|f]; [lia|]. cbn [read_digits]. assert (c_isdigit c = false) as -> by (destruct Hcc as [->| ->]; done). rewrite bind_ret. cbn [fst snd].
  assert (reader_end_of_word_p c = true) as -> by (destruct Hcc as [->| ->]; done).
  destruct (unreadchar_ok (S f) s1 (c :: rest) (input_bytes _ _ Hi) Hc1) as (s2 & E2 & Hq2 & Hi2). cbn [first] in E2. rewrite (bind_ok _ _ _ _ _ E2).
  assert (quiet s s2) as Hq by by eapply quiet_trans.
  destruct (number_new max w size 0 s2 al (c :: rest)) as (r & s3 & E3 & H3). { by eapply ready_quiet. } { done. } { by eapply alloc_quiet. }
  exists r, s3. split; [exact E3|]. split; [|apply H3]. pose proof (result_cells _ _ _ _ _ _ _ _ _ _ _ _ H3) as Hx. by inversion Hx.
Qed.
Print Assumptions C34_read_file.
Print Assumptions C34_open_comment_refuted.
Print Assumptions C34_open_string_refuted.
Print Assumptions C34_return_refuted.

(** The restrictions of [representable] are needed.  A number that is no int is written modulo 2^32;
    a character such as #\001 is written as # and the character, which reads as nothing at all; a
    symbol with a backslash is written with two of them. *)
Theorem C32_long_refuted call_printer procedure_p p s fd : number_at (cells s) p 2147483648 ->
  fdisplay_ call_printer procedure_p 1 p fd true s = ROk cell_unspecified (outs fd (bytes_of "-2147483648") s).
Proof.
  intros (c & Hc & Ht & Hv). unfold fdisplay_. erewrite bind_ok. 2:{ rewrite write_start. cbn [display_helper].
    rewrite (bind_ok _ _ _ _ _ (fdputs_ok fd [] [] s ltac:(constructor))). change (5 =? 0) with false. cbv iota zeta. cbn [app].
    rewrite (bind_ok _ _ _ _ _ (rd_outs fd [] s _ _ Hc)). rewrite Ht, Hv. cbv [TCHAR TCLOSURE TMACRO TVARIABLE TNUMBER Z.eqb Pos.eqb].
    change (itoa (to_s32 2147483648)) with (itoa (-2147483648)). rewrite (bind_ok _ _ _ _ _ (fdputs_ok fd _ [] s (proj2 (itoa_ok (-2147483648) eq_refl)))). reflexivity. }
  reflexivity.
Qed.
Theorem C32_char_refuted call_printer procedure_p p s fd : char_at (cells s) p 1 ->
  fdisplay_ call_printer procedure_p 1 p fd true s = ROk cell_unspecified (outs fd [35; 1] s) /\
  forall max w size s2 al2, ready max w size s2 al2 -> input s2 [35; 1] -> exists s3, read_env 4 s2 = ROk cell_nil s3.
Proof.
  intros (c & Hc & Ht & Hv). split.
  - unfold fdisplay_. erewrite bind_ok. 2:{ rewrite write_start. cbn [display_helper].
      rewrite (bind_ok _ _ _ _ _ (fdputs_ok fd [] [] s ltac:(constructor))). change (5 =? 0) with false. cbv iota zeta. cbn [app].
      rewrite (bind_ok _ _ _ _ _ (rd_outs fd [] s _ _ Hc)). rewrite Ht, Hv. cbv [TCHAR Z.eqb Pos.eqb].
      erewrite bind_ok. 2:{ rewrite (bind_ok _ _ _ _ _ (fdputs_ok fd (bytes_of "#") [] s ltac:(lits; repeat constructor; lia))).
        change (fdwrite_char 1 fd) with (ret tt ;;; fdputc 1 fd). rewrite bind_ret. apply fdputc_ok. }
      reflexivity. }
    reflexivity.
  - intros max w size s2 al2 Hr Hi. unfold read_env. destruct (cur_read 4 _ _ Hi) as (s3 & E3 & _ & Hc3). rewrite (bind_ok _ _ _ _ _ E3). cbn [first].
    destruct (sexp_hash 3 s3 _ Hc3) as (s4 & -> & _ & Hc4). cbn [reader_read_hash first Z.eqb Pos.eqb orb].
    destruct (cur_next 2 _ _ _ Hc4) as (s5 & E5 & _ & _ & Hc5). rewrite (bind_ok _ _ _ _ _ E5). by exists s5.
Qed.
Theorem C32_symbol_refuted call_printer procedure_p p s fd : is_symbol (cells s) p (bytes_of "a\b") ->
  fdisplay_ call_printer procedure_p 1 p fd true s = ROk cell_unspecified (outs fd (bytes_of "a\\b") s) /\
  forall max rest, 64 <= max -> ends rest -> text max rest (bytes_of "a\\b") (XSym (bytes_of "a\\b")).
Proof.
  intros (t & Hin & H). split.
  - destruct (text_written fd s t p _ H) as (c & Hc & Ht & b & Hb'); [lits; repeat constructor; unfold is_byte; lia|].
    unfold fdisplay_. erewrite bind_ok. 2:{ rewrite write_start. cbn [display_helper].
      rewrite (bind_ok _ _ _ _ _ (fdputs_ok fd [] [] s ltac:(constructor))). change (5 =? 0) with false. cbv iota zeta. cbn [app].
      rewrite (bind_ok _ _ _ _ _ (rd_outs fd [] s _ _ Hc)). rewrite Ht. rewrite !elem_of_cons, elem_of_nil in Hin.
      destruct Hin as [->|[->|[]]]; cbv [TCHAR TCLOSURE TMACRO TVARIABLE TNUMBER TPAIR TPORT TKEYWORD TSTRING TSPECIAL TSYMBOL Z.eqb Pos.eqb orb];
      rewrite (bind_ok _ _ _ _ _ (proj1 (Hb' _))); rewrite (bind_ok _ _ _ _ _ (proj2 (Hb' _))); reflexivity. }
    reflexivity.
  - intros max rest Hmax He. apply t_symbol; [|unfold short; lits; cbn; lia|done].
    assert (Forall word_char (bytes_of "a\\b")) as Hw.
    { lits. repeat constructor; try lia; unfold delimiter, white; lits; rewrite !elem_of_cons, elem_of_nil; lia. }
    split; [split; [done|split; [done|split]]|].
    + split; [|split].
      * lits. intros F. inversion F as [|? ? F0 _]. unfold decimal_digit in F0. lia.
      * lits. intros sg d r [= <- <- <-]. set_solver.
      * lits. intros [|d ds] r Heq Hd; [vm_compute; discriminate|]. injection Heq as <- _. inversion Hd as [|? ? F0 _]. unfold decimal_digit in F0. lia.
    + done.
    + lits. split; [set_solver|done].
Qed.
Print Assumptions C32_long_refuted.
Print Assumptions C32_char_refuted.
Print Assumptions C32_symbol_refuted.

(** ** The hypotheses are met *)
(** by an interpreter that has started, with any input *)
Definition ready_b (s : state) (al : list entry) : bool :=
  constants_b (cells s) && values_b (cells s) al && (MAX_STRING s =? 1000) &&
  forallb (fun q => bool_decide (latest (same_name (fst q)) al = Some (snd q))) tag_symbols &&
  forallb (fun q => bool_decide (text_b (cells s) TSPECIAL (snd q) = Some (fst q))) special_names.
Definition text_1 : list Z := bytes_of "(foo #(1 ""a\""b"") #\space . -12)".
Definition datum_1 : sexp :=
  XPair (XSym (bytes_of "foo")) (XPair (XVec [XNum 1; XStr (bytes_of "a""b")]) (XPair (XChar 32) (XNum (-12)))).
Example read_hypotheses_hold : exists s w size al, ready 1000 w size s al /\ (100 < length al)%nat /\ cells s !! 0 = None /\ can_alloc 4000 s /\
  forall bs, is_bytes bs -> exists s', quiet s s' /\ input s' bs.
Proof.
  destruct (check_res (on_sample (ret 0))
    (fun r s => match table_b (cells s) [TSTRING] (g_symbols s) with
       | Some (_, _, al) => ready_b s al && (100 <? length al)%nat && bool_decide (cells s !! 0 = None) && can_alloc_b 4000 s && (0 <=? std_in s)
       | None => false end)) as (r & s & E & H).
  { vm_compute. reflexivity. }
  clear E. destruct (table_b (cells s) [TSTRING] (g_symbols s)) as [[[w size] al]|] eqn:E1; [|discriminate H]. apply table_check in E1.
  apply andb_prop in H as [H B1]. apply andb_prop in H as [H B2]. apply andb_prop in H as [H B3]. apply andb_prop in H as [H B4].
  unfold ready_b in H. apply andb_prop in H as [H C1]. apply andb_prop in H as [H C2]. apply andb_prop in H as [H C3]. apply andb_prop in H as [C5 C4].
  assert (Forall (fun q => text_at (cells s) TSPECIAL (snd q) (fst q)) special_names) as Hnames.
  { apply Forall_forall. intros q Hq. apply text_check. rewrite forallb_forall in C1. apply elem_of_list_In in Hq. specialize (C1 q Hq). by apply bool_decide_eq_true in C1. }
  exists s, w, size, al. split.
  { split; [|by apply Z.eqb_eq|lia| |done].
    - split; [done|]. split; [by apply constants_check|]. split; [by apply values_check|]. rewrite Forall_forall in Hnames. exact (Hnames _ (bool_special false)).
    - apply Forall_forall. intros q Hq. rewrite forallb_forall in C2. apply elem_of_list_In in Hq. specialize (C2 q Hq). by apply bool_decide_eq_true in C2. }
  split; [by apply Nat.ltb_lt|]. split; [by apply bool_decide_eq_true in B3|]. split; [by apply can_alloc_check|].
  intros bs Hbs. exists (set_unget ∅ (set_in_fds (<[std_in s := bs]> (in_fds s)) s)). split; [done|]. left. apply Z.leb_le in B1.
  split; [done|]. split; [done|]. split; [apply lookup_empty|]. cbn. apply lookup_insert.
Qed.

Lemma letters_name name : name <> [] -> Forall (fun c => 97 <= c <= 122) name -> symbol_name name /\ plain name.
Proof.
  intros Hne Hl. assert (Forall word_char name) as Hw.
  { eapply Forall_impl; [exact Hl|]. intros c Hc. cbn beta in Hc. split; [lia|]. unfold delimiter, white. lits. rewrite !elem_of_cons, elem_of_nil. lia. }
  split; [|eapply Forall_impl; [exact Hl|]; intros c Hc; cbn beta; rewrite !elem_of_cons, elem_of_nil; cbn beta in Hc; lia].
  destruct name as [|c name]; [done|]. inversion Hl as [|? ? Hc Hl']; subst. split; [split; [done|split; [done|split]]|].
  - split; [|split].
    + intros F. inversion F as [|? ? F0 _]; subst. unfold decimal_digit in F0. lia.
    + lits. intros sg d r [= <- _]. rewrite !elem_of_cons, elem_of_nil. lia.
    + intros [|d ds] r Heq Hd; [vm_compute; discriminate|]. injection Heq as <- _. inversion Hd as [|? ? F0 _]; subst. unfold decimal_digit in F0. lia.
  - lits. intros [= ->]. lia.
  - lits. rewrite !elem_of_cons, elem_of_nil. split; lia.
Qed.
Lemma datum_1_writes : writes datum_1 text_1 /\ representable 1000 datum_1 /\ no_circular datum_1.
Proof.
  split; [|split].
  - change text_1 with (40 :: bytes_of "foo" ++ (32 :: (bytes_of "#(" ++ bytes_of "1" ++ (32 :: (34 :: (bytes_of "a""b" ≫= byte_text) ++ [34]) ++ [41])) ++
      (32 :: (bytes_of "#\" ++ bytes_of "space") ++ (bytes_of " . " ++ bytes_of "-12" ++ [41])))).
    unfold datum_1. apply w_pair; [constructor|]. apply f_pair.
    + apply w_vector; [|apply f_pair; constructor]. apply w_number. exists (bytes_of "1"). lits. repeat split; try done. repeat constructor; unfold decimal_digit; lia.
    + apply f_pair; [apply w_named_char; unfold written_names; set_solver|]. apply f_dot; [done|]. apply w_number. exists (bytes_of "12"). lits. repeat split; try done. repeat constructor; unfold decimal_digit; lia.
  - unfold datum_1. apply re_pair.
    { destruct (letters_name (bytes_of "foo")) as [H1 H2]; [done|lits; repeat constructor; lia|]. apply re_sym; [done|unfold short; lits; cbn; lia|done]. }
    apply re_pair; [|apply re_pair; [apply re_char; lia|by apply re_num]]. apply re_vec. constructor; [by apply re_num|]. constructor; [|done].
    apply re_str; [lits; repeat constructor; unfold is_byte; lia|unfold short; lits; cbn; lia].
  - unfold datum_1. repeat constructor; done.
Qed.
(** the datum can be read; what was read meets the hypotheses of the theorem about writing *)
Example write_hypotheses_hold : exists s w size al p, ready 1000 w size s al /\ cells s !! 0 = None /\ sexp_at al (cells s) p datum_1 /\
  representable 1000 datum_1 /\ no_circular datum_1 /\ (wdepth datum_1 <= 10)%nat.
Proof.
  destruct read_hypotheses_hold as (s0 & w & size & al0 & Hr0 & _ & Hnull & Ha & Hin).
  destruct datum_1_writes as (Hw & Hre & Hnc).
  set (fuel := (length al0 + 4 * length text_1 + 2 * length [59; 32; 10] + 4)%nat).
  destruct (Hin ([59; 32; 10] ++ text_1 ++ [10])) as (s1 & Hq & Hi). { vm_compute. repeat constructor; discriminate. }
  pose proof (ready_quiet _ _ _ _ _ _ Hq Hr0) as Hr1. pose proof (alloc_quiet _ _ _ Hq Ha) as Ha1.
  assert (ends [10]) as He. { left. unfold white. set_solver. }
  pose proof (proj1 (written_readable 1000 ltac:(lia)) _ _ Hw Hre [10] He) as Ht.
  destruct (C33_read 1000 w size s1 al0 [59; 32; 10] text_1 datum_1 [10] fuel Hr1) as (p & s2 & al2 & E2 & Hr2 & Hx2 & Hi2 & _ & (k & Hk & Hm) & _); [|exact Ht|exact Hi| |exact (le_n _)|].
  { apply (lay_line _ [32] []); [|constructor]. repeat constructor; lia. }
  { eapply can_alloc_le; [done|]. vm_compute. discriminate. }
  assert (cells s2 !! 0 = None) as Hnull2.
  { destruct (cells s2 !! 0) as [c|] eqn:E; [|done]. exfalso. apply cells_heap in E as [E Hlt].
    destruct (ready_special _ _ _ _ _ _ _ Hr0 nil_special) as (q & ? & Hq0 & _). apply cells_heap in Hq0 as [_ Hq0].
    assert (0 < g_free s0) as Hpos by (revert Hq0; unfold cell_nil; lia).
    assert (~ in_buckets w size 0) as Hnb. { intros Hb. destruct (buckets_ref _ _ _ _ _ (ready_symbols _ _ _ _ _ Hr0) Hb) as (? & F & _). congruence. }
    pose proof (mod_keep _ _ _ _ Hm 0) as Hkeep. change (heap (blind s2)) with (heap s2) in Hkeep. change (heap (blind s1)) with (heap s1) in Hkeep.
    rewrite (quiet_free _ _ Hq) in Hkeep || (change (g_free (blind s1)) with (g_free s1) in Hkeep; rewrite (quiet_free _ _ Hq) in Hkeep).
    specialize (Hkeep Hpos Hnb). rewrite E in Hkeep.
    assert (cells s1 !! 0 = Some c) as F. { apply heap_cells; [done|]. by rewrite (quiet_free _ _ Hq). }
    rewrite (quiet_cells _ _ Hq) in F. congruence. }
  exists s2, w, size, al2, p. split; [done|]. split; [done|]. split; [|split; [done|split; [done|cbn; lia]]].
  eapply sexp_at_mono; [apply grows_refl|apply outside_cells|exact Hx2].
Qed.
