(** Proofs about eq?, equal?, assq, memq, assoc and last-pair. *)
From stdpp Require Import base gmap list.
From Coq Require Import ZArith Lia.
From Coq Require Import ZifyBool ZifyNat.
From Verif Require Import CInt Symbols Heap HeapLemmas DataModel DataSpec DataLemmas.
Open Scope Z_scope.
Open Scope mes_scope.

Ltac clean := repeat match goal with
  | H : Some _ = Some _ |- _ => injection H as H
  | H : ?h !! ?p = Some ?x, H' : ?h !! ?p = Some ?y |- _ =>
      lazymatch x with y => fail | _ => rewrite H in H'; injection H' as H' end
  end; subst.

Lemma text_at_fun h t t' p bs bs' : text_at h t p bs -> text_at h t' p bs' -> bs = bs'.
Proof.
  intros (c & b & H1 & _ & _ & H2 & _ & H3) (c' & b' & H1' & _ & _ & H2' & _ & H3').
  rewrite H1 in H1'. injection H1' as <-. rewrite H2 in H2'. injection H2' as <-.
  rewrite H3 in H3'. by apply app_inj_tail in H3' as [-> _].
Qed.

Lemma bytes_equal_ok bs bs' s : length bs = length bs' ->
  bytes_equal (Z.of_nat (length bs)) (bs ++ [0]) (bs' ++ [0]) s = ROk (bool_decide (bs = bs')) s.
Proof.
  intros Hl. unfold bytes_equal. rewrite !app_length. cbn [length].
  replace (_ && _ && _) with true by lia. rewrite Nat2Z.id.
  rewrite take_app. rewrite Hl, take_app. done.
Qed.
Lemma string_equal_ok t t' a b bs bs' s : text_at (heap s) t a bs -> text_at (heap s) t' b bs' ->
  (t = TSTRING /\ t' = TSTRING) \/ t = TKEYWORD \/ t' = TKEYWORD ->
  string_equal_p a b s = ROk (scm_bool (bool_decide (bs = bs'))) s.
Proof.
  intros Ha Hb Ht. unfold string_equal_p.
  pose proof Ha as (ca & xa & H1 & H2 & H3 & H4 & H5 & H6).
  pose proof Hb as (cb & xb & K1 & K2 & K3 & K4 & K5 & K6). run.
  rewrite H2, K2. erewrite bind_ok by (apply assert_msg_true; destruct Ht as [[-> ->]|[->| ->]]; lia).
  destruct (Z.eqb_spec a b) as [->|Hab].
  { rewrite (text_at_fun _ _ _ _ _ _ Ha Hb). by rewrite bool_decide_eq_true_2. }
  destruct (Z.eqb_spec (c_cdr ca) (c_cdr cb)) as [E|Hc].
  { rewrite E in H4. rewrite H4 in K4. injection K4 as ->. rewrite H6 in K6. apply app_inj_tail in K6 as [-> _].
    by rewrite bool_decide_eq_true_2. }
  destruct (Z.eqb_spec (c_car ca) 0), (Z.eqb_spec (c_car cb) 0); cbn [andb].
  { destruct bs, bs'; cbn in *; try lia. done. }
  all: destruct (Z.eqb_spec (c_car ca) (c_car cb)).
  all: try lia.
  all: try (rewrite bool_decide_eq_false_2; [done|congruence]).
  unfold cell_bytes. run. rewrite H5, Z.eqb_refl. run. rewrite K5, Z.eqb_refl. run.
  rewrite H6, K6, H3. erewrite bind_ok by (apply bytes_equal_ok; lia). done.
Qed.

Lemma run_into {A B} (x y : res A) (s : state) (f : B -> A) (P : B -> Prop) :
  x = y -> (exists r, y = ROk (f r) s /\ P r) -> exists r, x = ROk (f r) s /\ P r.
Proof. by intros ->. Qed.
Ltac into := match goal with
  | |- exists b, _ = ROk (scm_bool b) _ /\ _ => eapply (run_into _ _ _ scm_bool)
  | |- exists r, _ = ROk r _ /\ _ => eapply (run_into _ _ _ (fun r => r))
  end.
Ltac runx := into; [run; reflexivity|]; cbv beta.

Definition eq_spec (m : M Z) (P : Prop) (s : state) : Prop :=
  exists b, m s = ROk (scm_bool b) s /\ (b = true <-> P).

Lemma number_at_fun h p n n' : number_at h p n -> number_at h p n' -> n = n'.
Proof. intros (c & H & _ & <-) (c' & H' & _ & <-). rewrite H in H'. by injection H' as <-. Qed.
Lemma char_at_fun h p n n' : char_at h p n -> char_at h p n' -> n = n'.
Proof. intros (c & H & _ & <-) (c' & H' & _ & <-). rewrite H in H'. by injection H' as <-. Qed.

(** what eqv says when the type of the first argument is known *)
Lemma eqv_other h x y c : h !! x = Some c -> c_ty c <> TNUMBER -> c_ty c <> TCHAR -> c_ty c <> TKEYWORD ->
  eqv h x y <-> x = y.
Proof.
  intros Hc H1 H2 H3. split; [|by left].
  intros [?|[(n & (c' & Hc' & Ht & _) & _)|[(n & (c' & Hc' & Ht & _) & _)|(bs & (c' & b & Hc' & Ht & _) & _)]]];
    [done|..]; rewrite Hc in Hc'; injection Hc' as <-; congruence.
Qed.
Lemma eqv_number h x y c c' : h !! x = Some c -> c_ty c = TNUMBER -> h !! y = Some c' ->
  eqv h x y <-> c_ty c' = TNUMBER /\ c_cdr c = c_cdr c'.
Proof.
  intros Hc Ht Hc'. split.
  - intros [->|[(n & (d & Hd & Hdt & Hv) & (d' & Hd' & Hdt' & Hv'))|[(n & (d & Hd & Hdt & Hv) & _)|(bs & (d & b & Hd & Hdt & _) & _)]]]; clean; try done;
      rewrite Ht in Hdt; discriminate.
  - intros [Ht' Hv]. right. left. exists (c_cdr c). split; [by exists c|by exists c'].
Qed.
Lemma eqv_char h x y c c' : h !! x = Some c -> c_ty c = TCHAR -> h !! y = Some c' ->
  eqv h x y <-> c_ty c' = TCHAR /\ c_cdr c = c_cdr c'.
Proof.
  intros Hc Ht Hc'. split.
  - intros [->|[(n & (d & Hd & Hdt & Hv) & (d' & Hd' & Hdt' & Hv'))|[(n & (d & Hd & Hdt & Hv) & (d' & Hd' & Hdt' & Hv'))|(bs & (d & b & Hd & Hdt & _) & _)]]]; clean; try done;
      rewrite Ht in Hdt; discriminate.
  - intros [Ht' Hv]. right. right. left. exists (c_cdr c). split; [by exists c|by exists c'].
Qed.
Lemma eqv_keyword h x y bs bs' : text_at h TKEYWORD x bs -> text_at h TKEYWORD y bs' ->
  eqv h x y <-> bs = bs'.
Proof.
  intros Hx Hy. split.
  - intros [->|[(n & (d & Hd & Hdt & _) & _)|[(n & (d & Hd & Hdt & _) & _)|(bs0 & H1 & H2)]]].
    + by eapply text_at_fun.
    + destruct Hx as (c & b & Hc & Ht & _). clean. rewrite Ht in Hdt. discriminate.
    + destruct Hx as (c & b & Hc & Ht & _). clean. rewrite Ht in Hdt. discriminate.
    + rewrite (text_at_fun _ _ _ _ _ _ Hx H1), (text_at_fun _ _ _ _ _ _ Hy H2). done.
  - intros ->. do 3 right. by exists bs'.
Qed.
Lemma eqv_keyword_other h x y bs c : text_at h TKEYWORD x bs -> h !! y = Some c -> c_ty c <> TKEYWORD -> ~ eqv h x y.
Proof.
  intros (cx & b & Hx & Ht & _) Hy Hn [->|[(n & (d & Hd & Hdt & _) & _)|[(n & (d & Hd & Hdt & _) & _)|(bs0 & _ & (d & b' & Hd & Hdt & _))]]];
    clean; first [congruence | rewrite Ht in Hdt; discriminate].
Qed.

Lemma scm_bool_t b : (scm_bool b =? cell_t) = b.
Proof. by destruct b. Qed.

Lemma eq_p_ok x y s : named (heap s) x -> named (heap s) y -> eq_spec (eq_p x y) (eqv (heap s) x y) s.
Proof.
  intros (c & Hx & Hkx) (c' & Hy & Hky). unfold eq_p, eq_spec.
  destruct (Z.eqb_spec x y) as [->|Hne].
  { exists true. split; [done|]. split; [by left|done]. }
  runx. destruct (Z.eqb_spec (c_ty c) TKEYWORD) as [Ek|].
  - runx. destruct (Hkx Ek) as (bs & Tx). destruct (Z.eqb_spec (c_ty c') TKEYWORD) as [Ek'|].
    + destruct (Hky Ek') as (bs' & Ty). exists (bool_decide (bs = bs')). split.
      * by eapply string_equal_ok; [..|right; left].
      * rewrite bool_decide_eq_true. by rewrite eqv_keyword.
    + exists false. split; [done|]. split; [done|]. intros H. by eapply eqv_keyword_other in H.
  - destruct (Z.eqb_spec (c_ty c) TCHAR) as [Ec|].
    + runx. destruct (Z.eqb_spec (c_ty c') TCHAR) as [Ec'|].
      * exists (c_cdr c =? c_cdr c'). split; [done|]. rewrite eqv_char by done. lia.
      * exists false. split; [done|]. rewrite eqv_char by done. split; [done|]. lia.
    + destruct (Z.eqb_spec (c_ty c) TNUMBER) as [En|].
      * runx. destruct (Z.eqb_spec (c_ty c') TNUMBER) as [En'|].
        -- exists (c_cdr c =? c_cdr c'). split; [done|]. rewrite eqv_number by done. lia.
        -- exists false. split; [done|]. rewrite eqv_number by done. split; [done|]. lia.
      * exists false. split; [done|]. rewrite eqv_other by done. done.
Qed.

(** * Searching a list *)
Lemma find_loop_ok (m : Z -> Prop) (test : Z -> M bool) (result : Z -> M Z) fuel : forall p ps vs (out : Z -> Z) s,
  seg (heap s) p cell_nil ps vs -> (length vs <= fuel)%nat ->
  (forall x, x ∈ ps -> exists b, test x s = ROk b s /\ (b = true <-> m x)) ->
  (forall x, x ∈ ps -> result x s = ROk (out x) s) ->
  exists r, find_loop fuel test result p s = ROk r s /\
    ((exists i x, ps !! i = Some x /\ m x /\ r = out x /\ forall j y, (j < i)%nat -> ps !! j = Some y -> ~ m y)
     \/ (r = cell_f /\ forall x, x ∈ ps -> ~ m x)).
Proof.
  induction fuel as [|fuel IH]; intros p ps vs out s H Hf Ht Hr;
    inversion H as [|? ? a d ps' vs' Hp Hpa Hl]; subst; cbn in Hf; try lia; cbn [find_loop].
  1,2: rewrite Z.eqb_refl; exists cell_f; split; [done|]; right; split; [done|]; by intros x Hx%elem_of_nil.
  rewrite (proj2 (Z.eqb_neq _ _) Hp).
  destruct (Ht p) as (b & E & Hb); [constructor|]. erewrite bind_ok by exact E. destruct b.
  - exists (out p). split; [apply Hr; constructor|]. left. exists 0%nat, p. split; [done|]. split; [by apply Hb|].
    split; [done|]. lia.
  - run. destruct (IH d ps' vs' out s Hl ltac:(lia)) as (r & E' & Hcase).
    { intros x Hx. apply Ht. by constructor. }
    { intros x Hx. apply Hr. by constructor. }
    exists r. split; [done|]. assert (~ m p) as Hnp by (intros Hm; apply Hb in Hm; discriminate).
    destruct Hcase as [(i & x & Hi & Hm & -> & Hj)|(-> & Hn)].
    + left. exists (S i), x. do 3 (split; [done|]). intros [|j] y Hlt Hy; cbn in Hy; [by simplify_eq|].
      eapply (Hj j); [lia|done].
    + right. split; [done|]. intros x Hx. apply elem_of_cons in Hx as [->|Hx]; [done|by apply Hn].
Qed.

Lemma seg_lookup h p q ps vs i x : seg h p q ps vs -> ps !! i = Some x -> exists a d, vs !! i = Some a /\ pair_at h x a d.
Proof.
  intros H. revert i. induction H as [|p q a d ps vs Hp Hpa _ IH]; intros i Hi; [by rewrite lookup_nil in Hi|].
  destruct i as [|i]; cbn in Hi; [|by apply IH]. injection Hi as <-. by exists a, d.
Qed.
Lemma seg_lookup' h p q ps vs i a : seg h p q ps vs -> vs !! i = Some a -> exists x d, ps !! i = Some x /\ pair_at h x a d.
Proof.
  intros H. revert i. induction H as [|p q b d ps vs Hp Hpa _ IH]; intros i Hi; [by rewrite lookup_nil in Hi|].
  destruct i as [|i]; cbn in Hi; [|by apply IH]. injection Hi as <-. by exists p, d.
Qed.

Definition car_fun (h : gmap Z cell) (x : Z) : Z := match h !! x with Some c => c_car c | None => 0 end.
Lemma car_fun_pair h x a d : pair_at h x a d -> car_fun h x = a.
Proof. intros (c & Hc & _ & <- & _). unfold car_fun. by rewrite Hc. Qed.

(** the shape shared by assq, assoc, xassq: the answer is the first matching element *)
Lemma find_elem_ok (m : Z -> Prop) (test : Z -> M bool) fuel p vs s :
  list_at (heap s) p vs -> (length vs <= fuel)%nat ->
  (forall x a d, pair_at (heap s) x a d -> a ∈ vs -> exists b, test x s = ROk b s /\ (b = true <-> m a)) ->
  exists r, find_loop fuel test car_of p s = ROk r s /\ finds m vs r.
Proof.
  intros Hl Hf Ht. apply seg_list in Hl as (ps & Hs).
  destruct (find_loop_ok (fun x => m (car_fun (heap s) x)) test car_of fuel p ps vs (car_fun (heap s)) s Hs Hf)
    as (r & E & Hc).
  { intros x Hx. apply elem_of_list_lookup in Hx as (i & Hi).
    destruct (seg_lookup _ _ _ _ _ _ _ Hs Hi) as (a & d & Ha & Hpa).
    rewrite (car_fun_pair _ _ _ _ Hpa). eapply Ht; [done|]. by eapply elem_of_list_lookup_2. }
  { intros x Hx. apply elem_of_list_lookup in Hx as (i & Hi).
    destruct (seg_lookup _ _ _ _ _ _ _ Hs Hi) as (a & d & Ha & Hpa).
    rewrite (car_fun_pair _ _ _ _ Hpa). by eapply car_of_pair. }
  exists r. split; [done|]. destruct Hc as [(i & x & Hi & Hm & -> & Hj)|(-> & Hn)].
  - left. exists i. destruct (seg_lookup _ _ _ _ _ _ _ Hs Hi) as (a & d & Ha & Hpa).
    rewrite (car_fun_pair _ _ _ _ Hpa) in *. do 2 (split; [done|]). intros j y Hlt Hy.
    destruct (seg_lookup' _ _ _ _ _ _ _ Hs Hy) as (x' & d' & Hx' & Hpa').
    rewrite <- (car_fun_pair _ _ _ _ Hpa'). by eapply Hj.
  - right. split; [done|]. intros y Hy. apply elem_of_list_lookup in Hy as (i & Hi).
    destruct (seg_lookup' _ _ _ _ _ _ _ Hs Hi) as (x' & d' & Hx' & Hpa').
    rewrite <- (car_fun_pair _ _ _ _ Hpa'). apply Hn. by eapply elem_of_list_lookup_2.
Qed.

(** memq: the answer is the first pair whose car matches *)
Lemma find_tail_ok (m : Z -> Prop) (test : Z -> M bool) fuel p ps vs s :
  seg (heap s) p cell_nil ps vs -> (length vs <= fuel)%nat ->
  (forall x a d, pair_at (heap s) x a d -> a ∈ vs -> exists b, test x s = ROk b s /\ (b = true <-> m a)) ->
  exists r, find_loop fuel test ret p s = ROk r s /\
    finds (fun x => exists a d, pair_at (heap s) x a d /\ m a) ps r.
Proof.
  intros Hs Hf Ht.
  destruct (find_loop_ok (fun x => exists a d, pair_at (heap s) x a d /\ m a) test ret fuel p ps vs id s Hs Hf)
    as (r & E & Hc).
  { intros x Hx. apply elem_of_list_lookup in Hx as (i & Hi).
    destruct (seg_lookup _ _ _ _ _ _ _ Hs Hi) as (a & d & Ha & Hpa).
    destruct (Ht x a d Hpa) as (b & Eb & Hb); [by eapply elem_of_list_lookup_2|]. exists b. split; [done|].
    rewrite Hb. split; [by exists a, d|]. intros (a' & d' & Hpa' & Hm).
    by destruct (pair_at_fun _ _ _ _ _ _ Hpa Hpa') as [-> _]. }
  { done. }
  exists r. split; [done|]. destruct Hc as [(i & x & Hi & Hm & -> & Hj)|(-> & Hn)].
  - left. exists i. done.
  - right. done.
Qed.

(** keys that assq may compare: numbers with numbers, characters with characters, keywords with
    keywords; any other key with anything *)
Definition comparable (h : gmap Z cell) (x k : Z) : Prop :=
  exists cx ck, h !! x = Some cx /\ h !! k = Some ck
    /\ (c_ty cx = TNUMBER \/ c_ty cx = TCHAR -> c_ty ck = c_ty cx)
    /\ (c_ty cx = TKEYWORD -> exists bs bs', text_at h TKEYWORD x bs /\ text_at h TKEYWORD k bs').

Lemma assq_ok fuel x p es s :
  list_at (heap s) p es -> (length es <= fuel)%nat -> type_at (heap s) cell_nil TSPECIAL ->
  (exists cx, heap s !! x = Some cx) ->
  (forall e, e ∈ es -> exists k v, pair_at (heap s) e k v /\ comparable (heap s) x k) ->
  exists r, assq fuel x p s = ROk r s /\
    finds (fun e => exists k v, pair_at (heap s) e k v /\ eqv (heap s) x k) es r.
Proof.
  intros Hl Hf Hnil (cx & Hx) He. unfold assq.
  assert (forall e k v, pair_at (heap s) e k v -> forall P : Z -> Prop,
    (exists k' v', pair_at (heap s) e k' v' /\ P k') <-> P k) as Hpk.
  { intros e k v Hp P. split; [|by exists k, v]. intros (k' & v' & Hp' & HP).
    by destruct (pair_at_fun _ _ _ _ _ _ Hp Hp') as [-> _]. }
  inversion Hl as [|? a d vs' Hp Hpa Hl']; subst.
  { runx. exists cell_f. split; [done|]. right. split; [done|]. by intros y Hy%elem_of_nil. }
  into; [run; rewrite Z.eqb_refl; cbn [negb]; run; reflexivity|]. cbv beta zeta. destruct ((c_ty cx =? TSYMBOL) || (c_ty cx =? TSPECIAL)) eqn:E1.
  { eapply find_elem_ok; [done|done|]. intros y b d' Hy Hb. destruct (He _ Hb) as (k & v & Hk & Hc). runx.
    exists (x =? k). split; [done|]. rewrite (Hpk _ _ _ Hk). rewrite eqv_other; [lia|done|..]; intros E; rewrite E in E1; discriminate. }
  destruct ((c_ty cx =? TCHAR) || (c_ty cx =? TNUMBER)) eqn:E2.
  { eapply find_elem_ok; [done|done|]. intros y b d' Hy Hb. destruct (He _ Hb) as (k & v & Hk & (cx' & ck & Hx' & Hck & Hcmp & _)).
    rewrite Hx in Hx'; injection Hx' as <-. runx. exists (c_cdr cx =? c_cdr ck). split; [done|]. rewrite (Hpk _ _ _ Hk).
    apply orb_prop in E2 as [E2|E2]; apply Z.eqb_eq in E2.
    - rewrite eqv_char by done. rewrite Hcmp by (by right). lia.
    - rewrite eqv_number by done. rewrite Hcmp by (by left). lia. }
  apply orb_false_elim in E2 as [E2 E3]. destruct (Z.eqb_spec (c_ty cx) TKEYWORD) as [E4|E4].
  { eapply find_elem_ok; [done|done|]. intros y b d' Hy Hb. destruct (He _ Hb) as (k & v & Hk & (cx' & ck & Hx' & Hck & _ & Hkey)).
    rewrite Hx in Hx'; injection Hx' as <-. destruct (Hkey E4) as (bs & bs' & T1 & T2). runx.
    into; [erewrite bind_ok by (eapply string_equal_ok; [done|done|by right; left]); reflexivity|]. rewrite scm_bool_t.
    exists (bool_decide (bs = bs')). split; [done|]. rewrite (Hpk _ _ _ Hk).
    rewrite (eqv_keyword _ _ _ _ _ T1 T2). by rewrite bool_decide_eq_true. }
  eapply find_elem_ok; [done|done|]. intros y b d' Hy Hb. destruct (He _ Hb) as (k & v & Hk & Hc). runx.
  exists (x =? k). split; [done|]. rewrite (Hpk _ _ _ Hk). rewrite eqv_other; [lia|done|lia|lia|done].
Qed.

Lemma memq_ok fuel x p ps vs s :
  seg (heap s) p cell_nil ps vs -> (length vs <= fuel)%nat ->
  named (heap s) x ->
  (forall k, k ∈ vs -> named (heap s) k /\
     (forall cx ck, heap s !! x = Some cx -> heap s !! k = Some ck -> c_ty cx = TNUMBER \/ c_ty cx = TCHAR -> c_ty ck = c_ty cx)) ->
  exists r, memq fuel x p s = ROk r s /\
    finds (fun q => exists a d, pair_at (heap s) q a d /\ eqv (heap s) x a) ps r.
Proof.
  intros Hs Hf (cx & Hx & Hname) He. unfold memq. runx. cbv zeta.
  destruct ((c_ty cx =? TCHAR) || (c_ty cx =? TNUMBER)) eqn:E2.
  { eapply find_tail_ok; [done|done|]. intros y k d Hy Hk. destruct (He _ Hk) as ((ck & Hck & _) & Hcmp). runx.
    exists (c_cdr cx =? c_cdr ck). split; [done|].
    apply orb_prop in E2 as [E2|E2]; apply Z.eqb_eq in E2.
    - rewrite eqv_char by done. rewrite (Hcmp _ _ Hx Hck) by (by right). lia.
    - rewrite eqv_number by done. rewrite (Hcmp _ _ Hx Hck) by (by left). lia. }
  apply orb_false_elim in E2 as [E2 E3]. destruct (Z.eqb_spec (c_ty cx) TKEYWORD) as [E4|E4].
  { eapply find_tail_ok; [done|done|]. intros y k d Hy Hk. destruct (He _ Hk) as ((ck & Hck & Hkn) & _). runx.
    destruct (Hname E4) as (bs & T1). destruct (Z.eqb_spec (c_ty ck) TKEYWORD) as [E5|E5].
    - destruct (Hkn E5) as (bs' & T2).
      into; [erewrite bind_ok by (eapply string_equal_ok; [done|done|by right; left]); reflexivity|]. rewrite scm_bool_t.
      exists (bool_decide (bs = bs')). split; [done|].
      rewrite (eqv_keyword _ _ _ _ _ T1 T2). by rewrite bool_decide_eq_true.
    - exists false. split; [done|]. split; [done|]. intros H. by eapply eqv_keyword_other in H. }
  eapply find_tail_ok; [done|done|]. intros y k d Hy Hk. runx.
  exists (x =? k). split; [done|]. rewrite eqv_other; [lia|done|lia|lia|done].
Qed.

Lemma last_pair_ok fuel : forall p ps vs s, seg (heap s) p cell_nil ps vs -> ps <> [] -> (length vs <= fuel)%nat ->
  exists r, last ps = Some r /\ last_pair fuel p s = ROk r s.
Proof.
  induction fuel as [|fuel IH]; intros p ps vs s H Hne Hf;
    inversion H as [|? ? a d ps' vs' Hp Hpa Hl]; subst; cbn in Hf; try lia; try done; cbn [last_pair].
  rewrite (proj2 (Z.eqb_neq _ _) Hp). run. destruct (Z.eqb_spec d cell_nil) as [->|Hd].
  - inversion Hl as [|? ? ? ? ? ? Hq]; subst; [|done]. by exists p.
  - destruct (IH d ps' vs' s Hl) as (r & Hr & E); [by inversion Hl|lia|]. exists r. split; [|done].
    destruct ps'; [by inversion Hl; subst|]. done.
Qed.

(** * equal? *)
Section datum_ind.
  Context (P : datum -> Prop).
  Context (Hnum : forall n, P (DNum n)) (Hchar : forall n, P (DChar n)) (Hstr : forall bs, P (DStr bs))
    (Hkey : forall bs, P (DKey bs)) (Hatom : forall p, P (DAtom p))
    (Hpair : forall a d, P a -> P d -> P (DPair a d)) (Hvec : forall ds, Forall P ds -> P (DVec ds)).
  Fixpoint datum_ind' (d : datum) : P d :=
    match d with
    | DNum n => Hnum n | DChar n => Hchar n | DStr bs => Hstr bs | DKey bs => Hkey bs | DAtom p => Hatom p
    | DPair a d => Hpair a d (datum_ind' a) (datum_ind' d)
    | DVec ds => Hvec ds ((fix go ds := match ds return Forall P ds with
                   | [] => Forall_nil_2 P
                   | x :: l => Forall_cons_2 P x l (datum_ind' x) (go l) end) ds)
    end.
End datum_ind.

(** the type a representation must have *)
Definition dtype (d : datum) : option Z :=
  match d with
  | DNum _ => Some TNUMBER | DChar _ => Some TCHAR | DStr _ => Some TSTRING | DKey _ => Some TKEYWORD
  | DAtom _ => None | DPair _ _ => Some TPAIR | DVec _ => Some TVECTOR
  end.
Lemma repr_type h p d : repr h p d -> exists c, h !! p = Some c /\
  match dtype d with Some t => c_ty c = t | None => c_ty c ∉ [TNUMBER; TCHAR; TSTRING; TKEYWORD; TPAIR; TVECTOR] end.
Proof.
  intros H. inversion H as [? ? (c & Hc & Ht & _)|? ? (c & Hc & Ht & _)|? ? (c & b & Hc & Ht & _)|? ? (c & b & Hc & Ht & _)
    |? c Hc Ht|? ? ? ? ? (c & Hc & Ht & _)|? c ? ? Hc Ht]; subst; exists c; by split.
Qed.
Lemma repr_dtype h p d d' : repr h p d -> repr h p d' -> dtype d = dtype d'.
Proof.
  intros H H'. apply repr_type in H as (c & Hc & Ht). apply repr_type in H' as (c' & Hc' & Ht').
  rewrite Hc in Hc'. injection Hc' as <-.
  destruct d, d'; cbn [dtype] in *; try done; exfalso;
    match goal with
    | H : c_ty _ = _, H' : c_ty _ = _ |- _ => rewrite H in H'; discriminate H'
    | H : c_ty _ = _, H' : c_ty _ ∉ _ |- _ => apply H'; rewrite H; set_solver
    end.
Qed.
Lemma entry_at_fun h q e e' : entry_at h q e -> entry_at h q e' -> e = e'.
Proof. intros (c & Hc & ->) (c' & Hc' & ->). rewrite Hc in Hc'. by injection Hc' as <-. Qed.

Lemma repr_fun h d : forall p d', repr h p d -> repr h p d' -> d = d'.
Proof.
  induction d as [n|n|bs|bs|q|a b IHa IHb|ds IH] using datum_ind'; intros p d' H H';
    pose proof (repr_dtype _ _ _ _ H H') as Ht; destruct d'; try discriminate Ht; clear Ht;
    inversion H; inversion H'; subst; try done.
  - f_equal. by eapply number_at_fun.
  - f_equal. by eapply char_at_fun.
  - f_equal. by eapply text_at_fun.
  - f_equal. by eapply text_at_fun.
  - match goal with H1 : pair_at _ _ _ _, H2 : pair_at _ _ _ _ |- _ => destruct (pair_at_fun _ _ _ _ _ _ H1 H2) as [-> ->] end.
    f_equal; eauto.
  - clean. f_equal.
    match goal with H1 : Forall2 _ ?es ds, H2 : Forall2 _ ?es' ds0 |- _ => rename es into l, es' into l', H1 into F1, H2 into F2 end.
    assert (l = l') as <-.
    { apply list_eq. intros i. destruct (l !! i) as [x|] eqn:E1, (l' !! i) as [y|] eqn:E2; try done.
      - f_equal. eapply entry_at_fun; eauto.
      - apply lookup_ge_None in E2. apply lookup_lt_Some in E1. lia.
      - apply lookup_ge_None in E1. apply lookup_lt_Some in E2. lia. }
    clear -F1 F2 IH. revert l ds0 F1 F2. induction IH as [|d ds Hd _ IH]; intros l ds0 F1 F2;
      inversion F1; subst; inversion F2; subst; [done|]. f_equal; eauto.
Qed.

Lemma deref_ok q e s : entry_at (heap s) q e -> deref q s = ROk e s.
Proof.
  intros (c & Hc & ->). unfold deref. run. by destruct (c_ty c =? TREF).
Qed.

Lemma scm_bool_f b : (scm_bool b =? cell_f) = negb b.
Proof. by destruct b. Qed.

Lemma vector_equal_ok (eq : Z -> Z -> M Z) s va vb : forall ds ds' es es' i,
  Forall2 (repr (heap s)) es ds -> Forall2 (repr (heap s)) es' ds' -> length es = length es' ->
  (forall j e, es !! j = Some e -> entry_at (heap s) (va + i + Z.of_nat j) e) ->
  (forall j e, es' !! j = Some e -> entry_at (heap s) (vb + i + Z.of_nat j) e) ->
  (forall e e' d d', d ∈ ds -> d' ∈ ds' -> repr (heap s) e d -> repr (heap s) e' d' ->
     exists b, eq e e' s = ROk (scm_bool b) s /\ (b = true <-> d = d')) ->
  exists b, vector_equal_loop eq (length es) i va vb s = ROk (scm_bool b) s /\ (b = true <-> ds = ds').
Proof.
  induction ds as [|d ds IH]; intros ds' es es' i F F' Hl He He' Heq;
    inversion F as [|e ? es0 ? Hr F0]; subst; cbn [length vector_equal_loop] in *.
  - exists true. split; [done|]. destruct es'; [|done]. by inversion F'.
  - destruct es' as [|e' es']; [done|]. inversion F' as [|? d' ? ds0 Hr' F0']; subst. cbn [length] in Hl.
    pose proof (He 0%nat e eq_refl) as H0. pose proof (He' 0%nat e' eq_refl) as H0'.
    rewrite Z.add_0_r in H0, H0'.
    destruct (Heq e e' d d') as (b & E & Hb); [constructor|constructor|done|done|].
    into. { unfold cell_ref. erewrite bind_ok by (by apply deref_ok). erewrite bind_ok by (by apply deref_ok).
      erewrite bind_ok by exact E. rewrite scm_bool_f. reflexivity. }
    cbv beta. destruct b; cbn [negb].
    + destruct (IH ds0 es0 es' (i + 1) F0 F0') as (b & E' & Hb').
      * lia.
      * intros j x Hj. replace (va + (i + 1) + Z.of_nat j) with (va + i + Z.of_nat (S j)) by lia. by apply He.
      * intros j x Hj. replace (vb + (i + 1) + Z.of_nat j) with (vb + i + Z.of_nat (S j)) by lia. by apply He'.
      * intros x x' y y' Hy Hy'. apply Heq; by constructor.
      * exists b. split; [done|]. rewrite Hb'. rewrite (proj1 Hb eq_refl). split; [by intros ->|].
        intros [=]. done.
    + exists false. split; [done|]. split; [done|]. intros [= -> _]. by apply Hb.
Qed.

Lemma list_max_elem n l : n ∈ l -> (n <= list_max l)%nat.
Proof.
  intros H. pose proof (proj1 (list_max_le l (list_max l)) (le_n _)) as F.
  rewrite Forall_forall in F. by apply F.
Qed.

Lemma repr_named h p d : repr h p d -> named h p.
Proof.
  intros H. pose proof (repr_type _ _ _ H) as (c & Hc & Ht). exists c. split; [done|]. intros E.
  destruct d; cbn [dtype] in Ht; try (rewrite E in Ht; discriminate Ht).
  - inversion H; subst. by eexists.
  - exfalso. apply Ht. rewrite E. set_solver.
Qed.

Lemma equal_ok s fuel : forall d d' p q, repr (heap s) p d -> repr (heap s) q d' -> (depth d < fuel)%nat ->
  exists b, equal2_p fuel p q s = ROk (scm_bool b) s /\ (b = true <-> d = d').
Proof.
  induction fuel as [|fuel IH]; intros d d' p q H H' Hf; [lia|]. cbn [equal2_p].
  destruct (Z.eqb_spec p q) as [->|Hne].
  { exists true. split; [done|]. split; [|done]. intros _. by eapply repr_fun. }
  pose proof (repr_type _ _ _ H) as (c & Hc & Ht). pose proof (repr_type _ _ _ H') as (c' & Hc' & Ht').
  runx. destruct ((c_ty c =? TPAIR) && (c_ty c' =? TPAIR)) eqn:E1.
  { apply andb_prop in E1 as [E1 E1']. apply Z.eqb_eq in E1, E1'.
    destruct d as [| | | | |a b|], d' as [| | | | |a' b'|]; cbn [dtype] in Ht, Ht';
      try (rewrite E1 in Ht; discriminate Ht); try (rewrite E1' in Ht'; discriminate Ht');
      try (exfalso; apply Ht; rewrite E1; set_solver); try (exfalso; apply Ht'; rewrite E1'; set_solver).
    inversion H as [| | | | |? x y ? ? (c0 & Hc0 & _ & <- & <-) Hx Hy|]; subst.
    inversion H' as [| | | | |? x' y' ? ? (c0' & Hc0' & _ & <- & <-) Hx' Hy'|]; subst. clean.
    cbn [depth] in Hf.
    destruct (IH a a' _ _ Hx Hx') as (b1 & E & Hb1); [lia|].
    into. { erewrite bind_ok by exact E. rewrite scm_bool_t. reflexivity. }
    cbv beta. destruct b1.
    - runx. destruct (IH b b' _ _ Hy Hy') as (b2 & E' & Hb2); [lia|]. exists b2. split; [done|].
      rewrite Hb2. rewrite (proj1 Hb1 eq_refl). split; [by intros ->|]. intros [=]. done.
    - exists false. split; [done|]. split; [done|]. intros [= -> _]. by apply Hb1. }
  destruct ((c_ty c =? TSTRING) && (c_ty c' =? TSTRING)) eqn:E2.
  { apply andb_prop in E2 as [E2 E2']. apply Z.eqb_eq in E2, E2'.
    destruct d as [| |bs| | | |], d' as [| |bs'| | | |]; cbn [dtype] in Ht, Ht';
      try (rewrite E2 in Ht; discriminate Ht); try (rewrite E2' in Ht'; discriminate Ht');
      try (exfalso; apply Ht; rewrite E2; set_solver); try (exfalso; apply Ht'; rewrite E2'; set_solver).
    inversion H; subst. inversion H'; subst.
    exists (bool_decide (bs = bs')). split; [eapply string_equal_ok; [done|done|by left]|].
    rewrite bool_decide_eq_true. split; [by intros ->|]. by intros [=]. }
  destruct ((c_ty c =? TVECTOR) && (c_ty c' =? TVECTOR)) eqn:E3.
  { apply andb_prop in E3 as [E3 E3']. apply Z.eqb_eq in E3, E3'.
    destruct d as [| | | | | |ds], d' as [| | | | | |ds']; cbn [dtype] in Ht, Ht';
      try (rewrite E3 in Ht; discriminate Ht); try (rewrite E3' in Ht'; discriminate Ht');
      try (exfalso; apply Ht; rewrite E3; set_solver); try (exfalso; apply Ht'; rewrite E3'; set_solver).
    inversion H as [| | | | | |? c0 es ? Hc0 _ Hl He F]; subst.
    inversion H' as [| | | | | |? c0' es' ? Hc0' _ Hl' He' F']; subst. rewrite Hc in Hc0; injection Hc0 as <-. rewrite Hc' in Hc0'; injection Hc0' as <-.
    destruct (Z.eqb_spec (c_car c) (c_car c')) as [El|El].
    - rewrite Hl, Nat2Z.id.
      destruct (vector_equal_ok (equal2_p fuel) s (c_cdr c) (c_cdr c') ds ds' es es' 0) as (b & E & Hb);
        [done|done|lia|..].
      + intros j e Hj. rewrite Z.add_0_r. by apply He.
      + intros j e Hj. rewrite Z.add_0_r. by apply He'.
      + intros e e' d d' Hd Hd' Hr Hr'. apply IH; [done|done|]. cbn [depth] in Hf.
        pose proof (list_max_elem (depth d) (map depth ds)) as Hm. apply (elem_of_list_fmap_1 depth) in Hd. specialize (Hm Hd). lia.
      + exists b. split; [done|]. rewrite Hb. split; [by intros ->|]. by intros [=].
    - exists false. split; [done|]. split; [done|]. intros [=]. subst.
      apply Forall2_length in F, F'. lia. }
  destruct (eq_p_ok p q s (repr_named _ _ _ H) (repr_named _ _ _ H')) as (b & E & Hb). exists b. split; [done|].
  rewrite Hb. clear E Hb IH. split.
  - intros [?|[(n & N1 & N2)|[(n & N1 & N2)|(bs & N1 & N2)]]]; [done|..].
    + transitivity (DNum n); [|symmetry]; (eapply repr_fun; [done|by constructor]).
    + transitivity (DChar n); [|symmetry]; (eapply repr_fun; [done|by constructor]).
    + transitivity (DKey bs); [|symmetry]; (eapply repr_fun; [done|by constructor]).
  - intros <-. destruct d as [n|n|bs|bs|x0|x1 x2|ds]; cbn [dtype] in Ht, Ht'; rewrite ?Ht, ?Ht' in *; try done;
      inversion H; inversion H'; subst; try done; unfold eqv; eauto 8.
Qed.

Lemma assoc_ok fuel x dx p es s :
  repr (heap s) x dx -> list_at (heap s) p es -> (length es <= fuel)%nat -> (depth dx < fuel)%nat ->
  (forall e, e ∈ es -> exists k v dk, pair_at (heap s) e k v /\ repr (heap s) k dk) ->
  exists r, assoc fuel x p s = ROk r s /\
    finds (fun e => exists k v, pair_at (heap s) e k v /\ repr (heap s) k dx) es r.
Proof.
  intros Hx Hl Hf Hd He. unfold assoc.
  pose proof (repr_type _ _ _ Hx) as (cx & Hcx & Htx).
  assert (forall e k v, pair_at (heap s) e k v -> forall P : Z -> Prop,
    (exists k' v', pair_at (heap s) e k' v' /\ P k') <-> P k) as Hpk.
  { intros e k v Hp P. split; [|by exists k, v]. intros (k' & v' & Hp' & HP).
    by destruct (pair_at_fun _ _ _ _ _ _ Hp Hp') as [-> _]. }
  runx. destruct (Z.eqb_spec (c_ty cx) TSTRING) as [E|E].
  - unfold assoc_string. eapply find_elem_ok; [done|done|]. intros y e d' Hy Hb.
    destruct (He _ Hb) as (k & v & dk & Hk & Hr). pose proof (repr_type _ _ _ Hr) as (ck & Hck & Htk).
    setoid_rewrite (Hpk _ _ _ Hk). runx.
    destruct dx as [| |bs| | | |]; cbn [dtype] in Htx; try (rewrite E in Htx; discriminate Htx);
      try (exfalso; apply Htx; rewrite E; set_solver). inversion Hx; subst.
    destruct (Z.eqb_spec (c_ty ck) TSTRING) as [E'|E'].
    + destruct dk as [| |bs'| | | |]; cbn [dtype] in Htk; try (rewrite E' in Htk; discriminate Htk);
        try (exfalso; apply Htk; rewrite E'; set_solver). inversion Hr; subst.
      into; [erewrite bind_ok by (eapply string_equal_ok; [done|done|by left]); reflexivity|].
      cbv beta. rewrite scm_bool_t. exists (bool_decide (bs = bs')). split; [done|]. rewrite bool_decide_eq_true.
      split; [by intros ->|]. intros Hz. by pose proof (repr_fun _ _ _ _ Hr Hz) as [=].
    + exists false. split; [done|]. split; [done|]. intros Hz.
      apply repr_type in Hz as (ck' & Hck' & Ht'). clean. done.
  - eapply find_elem_ok; [done|done|]. intros y e d' Hy Hb.
    destruct (He _ Hb) as (k & v & dk & Hk & Hr).
    destruct (equal_ok s fuel dx dk x k Hx Hr Hd) as (b & Eb & Hbb).
    setoid_rewrite (Hpk _ _ _ Hk). runx.
    rewrite scm_bool_t.
    exists b. split; [done|]. rewrite Hbb. split; [by intros ->|]. intros Hz. by eapply repr_fun.
Qed.
