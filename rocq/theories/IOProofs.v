(** The read buffer refines the unbuffered view: lemmas. *)
From stdpp Require Import base list.
From Coq Require Import ZArith Lia.
From Coq Require Import ZifyBool ZifyNat.
From Verif Require Import CInt IOModel IOSpec.
Open Scope Z_scope. Open Scope io_scope.

(** lists *)
Lemma take_drop_split {A} (l : list A) (a b : nat) :
  take (a + b) l = take a l ++ take b (drop a l).
Proof.
  revert l. induction a as [|a IH]; intros l; [done|].
  destruct l as [|x l]; cbn; [by rewrite !take_nil|]. by rewrite IH.
Qed.

Lemma take_drop_cons {A} (l : list A) n k x :
  l !! n = Some x -> take (S k) (drop n l) = x :: take k (drop (S n) l).
Proof. intros E. by rewrite (drop_S _ _ _ E). Qed.

Lemma from_length c p : 0 <= p -> Z.of_nat (length (from c p)) = Z.max 0 (Z.of_nat (length c) - p).
Proof. intros. unfold from. rewrite drop_length. lia. Qed.

Lemma from_from c p k : 0 <= p -> 0 <= k -> from c (p + k) = drop (Z.to_nat k) (from c p).
Proof. intros. unfold from. rewrite drop_drop. f_equal. lia. Qed.

Section Refine.
Context (short : nat -> Z -> Z) (max : Z).
Hypothesis Hmax : 0 <= max <= READ_BUFFER_MAX.

(** the cache holds the [csize] bytes before the kernel's offset *)
Record cached (s : fdst) (p : Z) : Prop := {
  ca_offset : offset s = p + csize s;
  ca_pos : 0 <= p;
  ca_size : 0 <= csize s <= max;
  ca_len : length (cstring s) = Z.to_nat READ_BUFFER_MAX;
  ca_in : 0 < csize s -> p + csize s <= Z.of_nat (length (content s));
  ca_bytes : take (Z.to_nat (csize s)) (drop (Z.to_nat (max - csize s)) (cstring s))
             = take (Z.to_nat (csize s)) (from (content s) p);
}.

Record same_file (s s' : fdst) : Prop := {
  sf_content : content s' = content s;
  sf_seek : seekable s' = seekable s;
  sf_pushed : pushed s' = pushed s;
}.
Lemma same_file_refl s : same_file s s.
Proof. done. Qed.
Lemma same_file_trans s1 s2 s3 : same_file s1 s2 -> same_file s2 s3 -> same_file s1 s3.
Proof. intros [] []. split; congruence. Qed.

Lemma ibind_ok {A B} (c : IM A) (k : A -> IM B) s a s' :
  c s = IOk a s' -> ibind c k s = k a s'.
Proof. intros E. unfold ibind. by rewrite E. Qed.

Lemma transfer_bounds i n a : 0 < n -> 0 < a -> 1 <= transfer short i n a <= Z.min n a.
Proof. unfold transfer. lia. Qed.

(** the system call *)
Lemma sys_read_ok n s :
  0 <= n -> 0 <= offset s ->
  exists k s', sys_read short n s = IOk (take (Z.to_nat k) (from (content s) (offset s))) s' /\
    0 <= k <= n /\ k <= Z.of_nat (length (from (content s) (offset s))) /\
    (k = 0 -> n = 0 \/ from (content s) (offset s) = []) /\
    same_file s s' /\ offset s' = offset s + k /\ csize s' = csize s /\ cstring s' = cstring s.
Proof.
  intros Hn Ho. unfold sys_read. fold (from (content s) (offset s)).
  set (rest := from (content s) (offset s)).
  destruct ((n =? 0) || (Z.of_nat (length rest) =? 0)) eqn:E.
  - exists 0, (FD (content s) (offset s) (seekable s) (S (calls s)) (csize s) (cstring s) (pushed s)).
    cbn. repeat split; try lia. intros _.
    destruct (Z.eqb_spec n 0); [by left|right].
    apply nil_length_inv. cbn in E. lia.
  - pose proof (transfer_bounds (calls s) n (Z.of_nat (length rest)) ltac:(lia) ltac:(lia)).
    eexists (transfer short (calls s) n (Z.of_nat (length rest))), _. split; [reflexivity|].
    cbn. repeat split; lia.
Qed.

(** bytes out of the cache *)
Lemma from_cache_ok todo : forall s p, cached s p ->
  exists s', let k := Z.min (Z.of_nat todo) (csize s) in
    from_cache max todo s = IOk (take (Z.to_nat k) (from (content s) p), (todo - Z.to_nat k)%nat) s' /\
    same_file s s' /\ cached s' (p + k) /\ csize s' = csize s - k.
Proof.
  induction todo as [|todo IH]; intros s p Hc; cbn [from_cache].
  - destruct (ca_size _ _ Hc).
    exists s. cbn zeta. replace (Z.min (Z.of_nat 0) (csize s)) with 0 by lia.
    rewrite Z.add_0_r, Z.sub_0_r. done.
  - destruct (0 <? csize s) eqn:E; cycle 1.
    + destruct (ca_size _ _ Hc). exists s. cbn zeta. replace (Z.min (Z.of_nat (S todo)) (csize s)) with 0 by lia.
      rewrite Z.add_0_r, Z.sub_0_r. done.
    + pose proof (ca_size _ _ Hc) as Hsz. pose proof (ca_len _ _ Hc) as Hlen.
      pose proof (ca_bytes _ _ Hc) as Hb. pose proof (ca_in _ _ Hc ltac:(lia)) as Hin.
      pose proof (ca_pos _ _ Hc) as Hp. pose proof (ca_offset _ _ Hc) as Ho.
      unfold READ_BUFFER_MAX in *.
      assert (exists b, cstring s !! Z.to_nat (max - csize s) = Some b) as (b & Eb)
        by (apply lookup_lt_is_Some_2; lia).
      assert (content s !! Z.to_nat p = Some b /\
              take (Z.to_nat (csize s - 1)) (drop (Z.to_nat (max - (csize s - 1))) (cstring s))
              = take (Z.to_nat (csize s - 1)) (from (content s) (p + 1))) as [Ec Hb'].
      { replace (Z.to_nat (csize s)) with (S (Z.to_nat (csize s - 1))) in Hb by lia.
        rewrite (take_drop_cons _ _ _ _ Eb) in Hb.
        assert (exists b', content s !! Z.to_nat p = Some b') as (b' & Eb')
          by (apply lookup_lt_is_Some_2; lia).
        unfold from in *. rewrite (take_drop_cons _ _ _ _ Eb') in Hb. injection Hb as -> Hb.
        split; [done|].
        replace (Z.to_nat (max - (csize s - 1))) with (S (Z.to_nat (max - csize s))) by lia.
        by replace (Z.to_nat (p + 1)) with (S (Z.to_nat p)) by lia. }
      assert (cache_byte max s = IOk b (FD (content s) (offset s) (seekable s) (calls s) (csize s - 1) (cstring s) (pushed s))) as E1.
      { unfold cache_byte, READ_BUFFER_MAX. rewrite Eb. 
        assert ((0 <=? max - csize s) && (max - csize s <? 128) = true) as -> by lia. done. }
      set (s1 := FD _ _ _ _ _ _ _) in E1.
      assert (cached s1 (p + 1)) as Hc1 by (split; cbn; try lia; done).
      destruct (IH s1 (p + 1) Hc1) as (s' & E2 & Hf & Hc' & Hsz').
      rewrite (ibind_ok _ _ _ _ _ E1), (ibind_ok _ _ _ _ _ E2).
      exists s'. cbn zeta. cbn [csize s1] in *.
      split; [|split; [|split]].
      * unfold iret. cbn [fst snd content s1].
        replace (Z.to_nat (Z.min (Z.of_nat (S todo)) (csize s))) with (S (Z.to_nat (Z.min (Z.of_nat todo) (csize s - 1)))) by lia.
        unfold from. rewrite (take_drop_cons _ _ _ _ Ec).
        replace (Z.to_nat (p + 1)) with (S (Z.to_nat p)) by lia. done.
      * destruct Hf. split; done.
      * replace (p + Z.min (Z.of_nat (S todo)) (csize s)) with (p + 1 + Z.min (Z.of_nat todo) (csize s - 1)) by lia. done.
      * lia.
Qed.

Lemma same_file_s (s s' : fdst) : content s' = content s -> seekable s' = seekable s -> pushed s' = pushed s -> same_file s s'.
Proof. by split. Qed.

(** the cache filled and its bytes moved to the end *)
Lemma fill_ok s p :
  cached s p -> csize s = 0 ->
  exists k s', fill short max s = IOk k s' /\ 0 <= k <= max /\ same_file s s' /\
    (k = 0 -> (max = 0 \/ from (content s) p = []) /\ cached s' p /\ csize s' = 0) /\
    (0 < k -> exists s'', settle max k s' = IOk tt s'' /\ same_file s s'' /\ cached s'' p /\ csize s'' = k).
Proof.
  intros Hc Hz. destruct (sys_read_ok max s) as (k & s1 & E & Hk & Hl & H0 & Hf & Ho & Hs & Hst);
    [lia|destruct Hc; lia|].
  pose proof (ca_offset _ _ Hc) as Hoff. pose proof (ca_len _ _ Hc) as Hlen. pose proof (ca_pos _ _ Hc) as Hp.
  rewrite Hz, Z.add_0_r in Hoff. rewrite Hoff in *.
  set (bs := take (Z.to_nat k) (from (content s) p)) in *.
  assert (length bs = Z.to_nat k) as Hlb by (unfold bs; rewrite take_length; lia).
  unfold fill. rewrite (ibind_ok _ _ _ _ _ E). rewrite Hlb.
  eexists (Z.of_nat (Z.to_nat k)), _. split; [reflexivity|].
  rewrite (Z2Nat.id k) by lia. split; [lia|]. split; [destruct Hf; split; cbn; done|]. split.
  - intros ->. split; [by apply H0|]. split; [|cbn; lia].
    split; cbn; rewrite ?Hs, ?Hst, ?Hz; try lia; done.
  - intros Hk0. eexists. split; [reflexivity|]. cbn [content seekable pushed calls csize cstring offset].
    split; [destruct Hf; split; cbn; done|]. split; [|done].
    rewrite Hst. unfold READ_BUFFER_MAX in *.
    assert (length (bs ++ drop (Z.to_nat k) (cstring s)) = Z.to_nat 128) as Hl2
      by (rewrite app_length, drop_length; lia).
    rewrite from_length in Hl by lia.
    split; cbn; try lia.
    + destruct (k <? max) eqn:Ek; [|done].
      rewrite !app_length, !take_length, drop_length, Hl2. unfold READ_BUFFER_MAX. lia.
    + rewrite (sf_content _ _ Hf). lia.
    + rewrite (sf_content _ _ Hf). fold bs.
      assert (take (Z.to_nat k) (bs ++ drop (Z.to_nat k) (cstring s)) = bs) as Htk
        by (rewrite <- Hlb; apply take_app).
      destruct (k <? max) eqn:Ek.
      * rewrite drop_app_alt by (rewrite take_length, Hl2; lia).
        rewrite Htk. rewrite <- Hlb at 1. apply take_app.
      * replace (Z.to_nat (max - k)) with 0%nat by lia. rewrite drop_0. done.
Qed.

Lemma take_0 {A} (l : list A) : take 0 l = [].
Proof. by destruct l. Qed.

(** nothing cached: any offset will do *)
Lemma cached_empty s p : offset s = p -> 0 <= p -> csize s = 0 -> length (cstring s) = Z.to_nat READ_BUFFER_MAX -> cached s p.
Proof.
  intros. split; try lia. rewrite H1. cbn. by rewrite !take_0.
Qed.

(** [read] delivers the next bytes *)
Lemma buffered_read_ok fuel : forall size s p,
  cached s p -> 0 <= size ->
  (Z.to_nat size + (if (csize s =? 0)%Z then 2 else 1) <= fuel)%nat ->
  exists k s', buffered_read short max fuel size s = IOk (k, take (Z.to_nat k) (from (content s) p)) s' /\
    0 <= k <= size /\ k <= Z.of_nat (length (from (content s) p)) /\
    (k = 0 -> size = 0 \/ from (content s) p = []) /\
    same_file s s' /\ cached s' (p + k).
Proof.
  induction fuel as [|f IH]; intros size s p Hc Hs Hf.
  - destruct (csize s =? 0); lia.
  - cbn [buffered_read].
    pose proof (ca_offset _ _ Hc) as Hoff. pose proof (ca_pos _ _ Hc) as Hp. pose proof (ca_size _ _ Hc) as Hsz.
    pose proof (ca_len _ _ Hc) as Hlen.
    destruct ((csize s =? 0) && (max <? size)) eqn:E0.
    + assert (csize s = 0) as Hz by lia.
      destruct (sys_read_ok size s) as (k & s1 & E & Hk & Hl & H0 & Hsf & Ho & Hcs & Hst); [lia|lia|].
      replace (offset s) with p in * by lia.
      rewrite (ibind_ok _ _ _ _ _ E). unfold iret.
      exists k, s1. rewrite take_length.
      split; [repeat f_equal; lia|]. repeat split; try lia; try done; try apply Hsf.
      all: try (destruct (cached_empty s1 (p + k)); [lia|lia|lia|by rewrite Hst|done]).
    + destruct (from_cache_ok (Z.to_nat size) s p Hc) as (s1 & E1 & Hsf1 & Hc1 & Hs1). cbn zeta in E1, Hc1, Hs1.
      set (k1 := Z.min (Z.of_nat (Z.to_nat size)) (csize s)) in *.
      rewrite (ibind_ok _ _ _ _ _ E1). cbn [fst snd].
      assert (k1 <= Z.of_nat (length (from (content s) p))) as Hk1.
      { rewrite from_length by lia. destruct (Z.ltb_spec 0 (csize s)); [|lia].
        pose proof (ca_in _ _ Hc ltac:(done)). lia. }
      replace (Z.of_nat (Z.to_nat size - Z.to_nat k1)) with (size - k1) by lia.
      destruct (Z.eqb_spec (size - k1) 0) as [Et|Et].
      * unfold iret. exists k1, s1. replace (size - (size - k1)) with k1 by lia.
        split; [done|]. repeat split; try lia; try done; try apply Hsf1; apply Hc1.
      * assert (csize s1 = 0) as Hz1 by lia.
        assert (content s1 = content s) as Hct by apply Hsf1.
        pose proof (ca_offset _ _ Hc1) as Hoff1. pose proof (ca_len _ _ Hc1) as Hlen1.
        assert (forall k2, 0 <= k2 -> take (Z.to_nat k1) (from (content s) p) ++ take (Z.to_nat k2) (from (content s) (p + k1))
                = take (Z.to_nat (k1 + k2)) (from (content s) p)) as Happ.
        { intros k2 Hk2. rewrite from_from by lia. rewrite Z2Nat.inj_add by lia. by rewrite take_drop_split. }
        destruct (max <? size - k1) eqn:Em.
        -- destruct (sys_read_ok (size - k1) s1) as (k & s2 & E & Hk & Hl & H0 & Hsf & Ho & Hcs & Hst); [lia|lia|].
           replace (offset s1) with (p + k1) in * by lia.
           rewrite (ibind_ok _ _ _ _ _ E). unfold iret. rewrite take_length.
           rewrite Hct in *. rewrite Happ by lia.
           exists (k1 + k), s2. split; [do 2 f_equal; lia|].
           rewrite from_length in Hl, Hk1 |- * by lia.
           split; [lia|]. split; [lia|]. split.
           { intros Hk0. right. apply nil_length_inv. destruct (H0 ltac:(lia)) as [?|Hn]; [lia|].
             replace (p + k1) with p in Hn by lia. by rewrite Hn. }
           split; [by eapply same_file_trans|]. apply cached_empty; try lia. by rewrite Hst.
        -- destruct (fill_ok s1 (p + k1) Hc1 Hz1) as (k & s2 & E & Hk & Hsf & H0 & H1).
           rewrite (ibind_ok _ _ _ _ _ E). rewrite Hct in *.
           destruct (Z.eqb_spec k 0) as [->|Hkz].
           ++ unfold iret. exists k1, s2. replace (size - (size - k1)) with k1 by lia.
              destruct (H0 eq_refl) as (He & Hc2 & Hz2). split; [done|]. split; [lia|]. split; [lia|].
              split. { intros Hk0. right. destruct He as [He|He]; [lia|]. by replace (p + k1) with p in He by lia. }
              split; [by eapply same_file_trans|]. done.
           ++ destruct (H1 ltac:(lia)) as (s3 & E3 & Hsf3 & Hc3 & Hz3).
              rewrite (ibind_ok _ _ _ _ _ E3).
              destruct (IH (size - k1) s3 (p + k1) Hc3 ltac:(lia)) as (k2 & s4 & E4 & Hk2 & Hl2 & H02 & Hsf4 & Hc4).
              { rewrite Hz3. assert (k =? 0 = false) as -> by lia. destruct (csize s =? 0) eqn:Ecs; lia. }
              rewrite (ibind_ok _ _ _ _ _ E4). unfold iret. cbn [fst snd].
              rewrite (sf_content _ _ Hsf3), Hct in *. rewrite Happ by lia.
              exists (k1 + k2), s4. split; [do 2 f_equal; lia|].
              rewrite from_length in Hl2, Hk1 |- * by lia.
              split; [lia|]. split; [lia|]. split.
              { intros Hk0. right. destruct (H02 ltac:(lia)) as [?|Hn]; [lia|].
                by replace (p + k1) with p in Hn by lia. }
              split; [eapply same_file_trans; [exact Hsf1|]; eapply same_file_trans; [exact Hsf3|done]|].
              by replace (p + (k1 + k2)) with (p + k1 + k2) by lia.
Qed.

(** the descriptor presents the view *)
Record presents (s : fdst) (v : view) : Prop := {
  pr_content : content s = v_content v;
  pr_seek : seekable s = v_seekable v;
  pr_cached : cached s (v_pos v);
  pr_pushed : match v_pushed v with Some c => pushed s = c /\ 0 <= c <= 255 | None => pushed s < 0 end;
  pr_bytes : Forall (fun b => 0 <= b <= 255) (content s);
}.

Lemma presents_read s v s' k :
  presents s v -> same_file s s' -> cached s' (v_pos v + k) ->
  presents s' (View (v_content v) (v_pos v + k) (v_seekable v) (v_pushed v)).
Proof.
  intros [] [E1 E2 E3] Hc. split; cbn; rewrite ?E1, ?E2, ?E3; done.
Qed.

Lemma schar_byte b : 0 <= b <= 255 -> (let i := to_schar b in if i <? 0 then i + 256 else i) = b.
Proof.
  intros Hb. unfold to_schar. cbn zeta.
  destruct (Z.leb_spec 128 b).
  - replace ((b + 128) mod 256) with (b + 128 - 256).
    + destruct (Z.ltb_spec (b + 128 - 256 - 128) 0); lia.
    + apply (Z.mod_unique_pos _ _ 1); lia.
  - rewrite Z.mod_small by lia. destruct (Z.ltb_spec (b + 128 - 128) 0); lia.
Qed.

Lemma fdgetc_ok s v :
  presents s v ->
  exists c v' s', fdgetc short max s = IOk c s' /\ presents s' v' /\
    ((upcoming v = [] /\ c = -1 /\ v' = v) \/
     (exists l, upcoming v = c :: l /\ 0 <= c <= 255 /\ v' = consume 1 v /\ upcoming v' = l)).
Proof.
  intros Hv. pose proof Hv as [Hct Hsk Hc Hpu Hby]. unfold fdgetc.
  pose proof (ca_pos _ _ Hc) as Hp.
  destruct (v_pushed v) as [c|] eqn:Ep.
  - destruct Hpu as [Hpc Hcb]. assert (0 <=? pushed s = true) as -> by lia.
    eexists (pushed s), (consume 1 v), _. split; [reflexivity|]. split.
    + unfold consume. rewrite Ep. cbn. rewrite Z.add_0_r. split; cbn; try done; try lia.
      destruct Hc. split; cbn; done.
    + right. unfold upcoming, consume. rewrite Ep, Hpc. cbn. eexists. split; [reflexivity|].
      split; [lia|]. split; [done|]. by rewrite Z.add_0_r.
  - assert (0 <=? pushed s = false) as -> by lia.
    destruct (buffered_read_ok 3 1 s (v_pos v) Hc) as (k & s' & E & Hk & Hl & H0 & Hsf & Hc'); [lia|destruct (csize s =? 0); cbn; lia|].
    assert (Forall (fun b => 0 <= b <= 255) (from (content s) (v_pos v))) as Hby' by by apply Forall_drop.
    assert (presents s' (consume k v)) as Hpr.
    { unfold consume. rewrite Ep. pose proof (presents_read _ _ _ _ Hv Hsf Hc') as H. by rewrite Ep in H. }
    rewrite (ibind_ok _ _ _ _ _ E). cbn [fst snd].
    assert (k = 0 \/ k = 1) as [->| ->] by lia.
    + destruct (H0 eq_refl) as [?|Hn]; [lia|].
      eexists (-1), v, s'. split; [done|]. split.
      { unfold consume in Hpr. rewrite Ep in Hpr. rewrite Z.add_0_r in Hpr. destruct v; cbn in *; by subst. }
      left. unfold upcoming. by rewrite Ep, <- Hct, Hn.
    + destruct (from (content s) (v_pos v)) as [|b l] eqn:Ef; [cbn in Hl; lia|].
      inversion Hby' as [|? ? Hb Hby'']; subst.
      change (to_s32 1 <? 1) with false. cbn [take Z.to_nat Pos.to_nat Pos.iter_op].
      change (Z.to_nat 1) with 1%nat. cbn [take].
      eexists _, (consume 1 v), s'. split; [reflexivity|].
      pose proof (schar_byte b Hb) as Hsb. cbn zeta in Hsb. rewrite Hsb.
      split; [done|]. right. exists l. unfold upcoming, consume. rewrite Ep. cbn. rewrite <- Hct.
      split; [done|]. split; [lia|]. split; [done|].
      rewrite from_from by lia. by rewrite Ef.
Qed.

Lemma consume_0 v : consume 0 v = v.
Proof. unfold consume. destruct v as [? ? ? [|]]; cbn; [done|]. by rewrite Z.add_0_r. Qed.

Lemma upcoming_consume_1 v c l : 0 <= v_pos v -> upcoming v = c :: l -> upcoming (consume 1 v) = l.
Proof.
  intros Hp. unfold upcoming, consume. destruct (v_pushed v); cbn [v_pushed v_content v_pos app Z.ltb Z.compare].
  - intros [= -> <-]. f_equal. lia.
  - intros E. rewrite from_from by lia. by rewrite E.
Qed.

Lemma consume_consume v a : 0 <= a -> 
  consume a (consume 1 v) = consume (1 + a) v.
Proof.
  intros. unfold consume. destruct v as [c p sk [x|]]; cbn; cbn;
    [destruct (Z.ltb_spec 0 (1 + a)); [|lia]|]; f_equal; lia.
Qed.

Lemma fdgets_loop_ok n : forall c s v,
  presents s v -> c <> 10 ->
  exists c' s', let t := line n (upcoming v) in
    fdgets_loop short max n c s = IOk (t, c') s' /\
    presents s' (consume (Z.of_nat (length t)) v) /\
    (t = [] -> upcoming v = [] /\ c' = (if decide (n = O) then c else -1) \/ n = O /\ c' = c).
Proof.
  induction n as [|n IH]; intros c s v Hv Hc; cbn [fdgets_loop].
  - exists c, s. cbn. rewrite consume_0. split; [done|]. split; [done|]. by right.
  - destruct (Z.eqb_spec c 10); [done|].
    destruct (fdgetc_ok s v Hv) as (c1 & v1 & s1 & E1 & Hv1 & [(Hu & -> & ->)|(l & Hu & Hcb & -> & Hl)]).
    + rewrite (ibind_ok _ _ _ _ _ E1). cbn [Z.eqb]. rewrite Hu. cbn.
      exists (-1), s1. rewrite consume_0. split; [done|]. split; [done|]. by left.
    + rewrite (ibind_ok _ _ _ _ _ E1). destruct (Z.eqb_spec c1 (-1)); [lia|].
      rewrite Hu. cbn [line]. rewrite to_byte_id by lia.
      destruct (Z.eqb_spec c1 10) as [->|Hc1].
      * exists 10, s1. cbn zeta.
        assert (fdgets_loop short max n 10 s1 = IOk ([], 10) s1) as E2 by (by destruct n).
        rewrite (ibind_ok _ _ _ _ _ E2). done.
      * destruct (IH c1 s1 (consume 1 v) Hv1 Hc1) as (c2 & s2 & E2 & Hv2 & _). cbn zeta in *.
        rewrite Hl in *. rewrite (ibind_ok _ _ _ _ _ E2). exists c2, s2. split; [done|]. split; [|done].
        rewrite consume_consume in Hv2 by lia. cbn [length].
        by replace (Z.of_nat (S (length (line n l)))) with (1 + Z.of_nat (length (line n l))) by lia.
Qed.

Lemma upcoming_none v : v_pushed v = None -> upcoming v = from (v_content v) (v_pos v).
Proof. intros E. unfold upcoming. by rewrite E. Qed.

Lemma lseek_ok s off w :
  seekable s = true -> 0 <= offset s ->
  lseek off w s = sys_lseek (if w =? 1 then off - csize s else off) w
    (FD (content s) (offset s) true (calls s) 0 (cstring s) (pushed s)).
Proof.
  intros Hsk Ho. unfold lseek.
  assert (sys_lseek 0 1 s = IOk (offset s) s) as E.
  { unfold sys_lseek. rewrite Hsk. cbn. rewrite Z.add_0_r.
    destruct (Z.ltb_spec (offset s) 0); [lia|]. destruct s; cbn in *; by subst. }
  rewrite (ibind_ok _ _ _ _ _ E). destruct (Z.eqb_spec (offset s) (-1)); [lia|].
  unfold buffered_read_clear. unfold ibind. by rewrite Hsk.
Qed.

(** every permitted call is answered as the view allows *)
Lemma do_op_ok o s v :
  presents s v -> permitted v o ->
  exists r s' v', do_op short max o s = IOk r s' /\ allowed v o r v' /\ presents s' v'.
Proof.
  intros Hv Ho. pose proof Hv as [Hct Hsk Hc Hpu Hby]. pose proof (ca_pos _ _ Hc) as Hp.
  destruct o as [n| |c|n|a b|off w|bs]; cbn [do_op permitted] in *.
  - destruct (buffered_read_ok (Z.to_nat n + 2) n s _ Hc Ho) as (k & s' & E & Hk & Hl & H0 & Hsf & Hc').
    { destruct (csize s =? 0); lia. }
    rewrite Hct in *. eexists _, s', _. split; [exact E|]. split; [by apply allow_read|].
    by eapply presents_read.
  - destruct (fdgetc_ok s v Hv) as (c1 & v1 & s1 & E1 & Hv1 & [(Hu & -> & ->)|(l & Hu & Hcb & -> & Hl)]);
      rewrite (ibind_ok _ _ _ _ _ E1); eexists _, s1, _; (split; [reflexivity|]); (split; [|exact Hv1]).
    + by apply allow_getc_eof.
    + by eapply allow_getc.
  - unfold fdungetc. destruct (Z.eqb_spec c (-1)) as [->|Hn].
    + eexists _, s, v. split; [reflexivity|]. split; [by apply allow_ungetc_eof|done].
    + destruct Ho as [?|[Hnone Hcb]]; [lia|]. rewrite Hnone in Hpu.
      unfold ungetc_p, ibind, ungetc_set, iret. assert (0 <=? pushed s = false) as -> by lia.
      eexists _, _, _. split; [reflexivity|]. split; [by apply allow_ungetc|].
      split; cbn; try done. destruct Hc; split; done.
  - unfold fdgets. destruct (fdgets_loop_ok (Z.to_nat (n - 1)) 0 s v Hv ltac:(lia)) as (c' & s' & E & Hv' & Hz).
    cbn zeta in *.
    unfold ibind at 1 2. rewrite E. cbn [fst snd]. unfold ibind, iret. set (t := line _ _) in *.
    destruct t as [|x t'] eqn:Et.
    + destruct (Hz eq_refl) as [[Hu Hc']|[Hn Hc']].
      * case_decide as Hd.
        -- subst c'. cbn. eexists _, s', _. split; [reflexivity|]. split; [|exact Hv'].
           apply allow_gets; [by subst t|]. left. lia.
        -- subst c'. cbn. eexists _, s', _. split; [reflexivity|]. split; [|exact Hv']. cbn. rewrite consume_0.
           apply allow_gets_eof; [lia|done].
      * subst c'. cbn. eexists _, s', _. split; [reflexivity|]. split; [|exact Hv'].
        apply allow_gets; [by subst t|]. left. lia.
    + eexists _, s', _. split; [reflexivity|]. split; [|exact Hv'].
      apply allow_gets; [by subst t|]. by right.
  - destruct Ho as (Ha & Hb & Hab). unfold fread.
    destruct ((a =? 0) || (b =? 0)) eqn:E0.
    { eexists _, s, _. split; [reflexivity|]. split; [|exact Hv].
      assert (a * b = 0) by (destruct (Z.eqb_spec a 0); [subst; lia|]; destruct (Z.eqb_spec b 0); [subst; lia|done]).
      pose proof (allow_fread v a b 0 ltac:(lia) ltac:(lia) ltac:(lia) ltac:(lia)) as H1.
      rewrite consume_0 in H1. destruct a; cbn in H1 |- *; exact H1. }
    assert (0 < a * b) as Hpos by nia.
    assert (to_u64 (a * b) = a * b) as ->.
    { apply to_u64_id. unfold INT_MAX in Hab. unfold two64. lia. }
    assert (exists s1 j, fread_pushed short max (Z.to_nat (a * b)) 0 s
              = IOk (take (Z.to_nat j) (upcoming v), (a * b - j, j)) s1 /\
              presents s1 (consume j v) /\ 
              match v_pushed v with Some _ => j = 1 | None => j = 0 end) as (s1 & j & E1 & Hv1 & Hj).
    { destruct (v_pushed v) as [c|] eqn:Ep.
      - destruct (fdgetc_ok s v Hv) as (c1 & v1 & s1 & E1 & Hv1 & [(Hu & -> & ->)|(l & Hu & Hcb & -> & Hl)]).
        { unfold upcoming in Hu. by rewrite Ep in Hu. }
        exists s1, 1. split; [|done].
        destruct (Z.to_nat (a * b)) as [|m] eqn:Em; [lia|]. cbn [fread_pushed].
        unfold ungetc_p at 1. unfold ibind at 1. destruct Hpu as [Hpc ?].
        assert (0 <=? pushed s = true) as -> by lia. cbn [negb].
        rewrite (ibind_ok _ _ _ _ _ E1).
        assert (fread_pushed short max m (0 + 1) s1 = IOk ([], (Z.of_nat m, 1)) s1) as E2.
        { pose proof (pr_pushed _ _ Hv1) as Hp1. unfold consume in Hp1. rewrite Ep in Hp1. cbn in Hp1.
          destruct m; cbn [fread_pushed]; unfold ungetc_p, ibind at 1;
            assert (0 <=? pushed s1 = false) as -> by lia; done. }
        rewrite (ibind_ok _ _ _ _ _ E2). rewrite Hu. unfold iret. cbn [fst snd].
        rewrite to_byte_id by lia. change (Z.to_nat 1) with 1%nat. cbn [take]. rewrite take_0. do 3 f_equal. lia.
      - exists s, 0. rewrite consume_0. split; [|done].
        destruct (Z.to_nat (a * b)) as [|m] eqn:Em; [lia|]. cbn [fread_pushed].
        unfold ungetc_p, ibind at 1. assert (0 <=? pushed s = false) as -> by lia. cbn [negb].
        unfold iret. do 3 f_equal. lia. }
    unfold iret at 1.
    rewrite (ibind_ok _ _ _ _ _ E1). cbn [fst snd].
    assert (Hj01 : 0 <= j <= 1) by (destruct (v_pushed v); lia).
    assert (v_pushed (consume j v) = None) as Hnp.
    { unfold consume. destruct (v_pushed v) eqn:Ep; subst j; done. }
    assert (upcoming (consume j v) = drop (Z.to_nat j) (upcoming v)) as Hup.
    { unfold upcoming, consume. destruct (v_pushed v) eqn:Ep; subst j; cbn [v_pushed v_content v_pos Z.ltb Z.compare app].
      - replace (v_pos v + (1 - 1)) with (v_pos v) by lia. done.
      - rewrite Z.add_0_r. done. }
    assert (j <= Z.of_nat (length (upcoming v))) as Hjl.
    { unfold upcoming. destruct (v_pushed v) eqn:Ep; subst j; cbn; lia. }
    assert (upcoming (consume j v) = from (v_content v) (v_pos v)) as Hrest.
    { rewrite Hup. unfold upcoming. destruct (v_pushed v) eqn:Ep; subst j; done. }
    destruct (Z.eqb_spec (a * b - j) 0) as [Ej|Ej].
    + eexists _, s1, (consume j v). split; [reflexivity|]. split; [|exact Hv1].
      assert (j = 1) as -> by lia. 
      pose proof (allow_fread v a b 1 ltac:(lia) ltac:(lia) ltac:(lia) ltac:(lia)) as H1.
      destruct (a =? 0) eqn:?; [lia|]. exact H1.
    + pose proof (pr_cached _ _ Hv1) as Hc1.
      destruct (buffered_read_ok (Z.to_nat (a * b) + 2) (a * b - j) s1 _ Hc1 ltac:(lia)) as (k & s' & E & Hk & Hl & H0 & Hsf & Hc').
      { destruct (csize s1 =? 0); lia. }
      unfold read. rewrite (ibind_ok _ _ _ _ _ E). cbn [fst snd].
      unfold INT_MAX in Hab.
      rewrite to_s32_id by (unfold in_int, INT_MIN, INT_MAX; lia).
      assert ((k <? 0) && (j =? 0) = false) as -> by lia.
      assert (in_int (j + k) = true) as -> by (unfold in_int, INT_MIN, INT_MAX; lia).
      rewrite (pr_content _ _ Hv1) in *.
      rewrite <- (upcoming_none _ Hnp) in *.
      rewrite Hup in Hl. rewrite drop_length in Hl.
      eexists _, s', (consume (j + k) v). split; [reflexivity|]. split.
      * rewrite Hup. rewrite <- (take_drop_split (upcoming v)). rewrite <- Z2Nat.inj_add by lia.
        replace (if 0 <? j + k then (j + k) / a else 0) with (if a =? 0 then 0 else (j + k) / a).
        2: { destruct (a =? 0) eqn:?; [lia|]. destruct (Z.ltb_spec 0 (j + k)); [done|].
             replace (j + k) with 0 by lia. done. }
        apply allow_fread; [lia|lia| |].
        -- intros Hjk. assert (j = 0) as -> by lia. destruct (H0 ltac:(lia)) as [?|Hn]; [lia|].
           right. rewrite Hup in Hn. by rewrite drop_0 in Hn.
        -- intros Hjk Hpn. assert (j = 1) as -> by (destruct (v_pushed v); [done|by destruct Hpn]).
           destruct (H0 ltac:(lia)) as [?|Hn]; [lia|]. right. by rewrite <- Hrest.
      * pose proof (presents_read _ _ _ _ Hv1 Hsf Hc') as H1. rewrite Hnp in H1.
        replace (consume (j + k) v) with (View (v_content (consume j v)) (v_pos (consume j v) + k) (v_seekable (consume j v)) None); [done|].
        unfold consume. destruct (v_pushed v) eqn:Ep; subst j; cbn.
        -- destruct (Z.ltb_spec 0 (1 + k)); [|lia]. f_equal. lia.
        -- f_equal. lia.
  - destruct (seekable s) eqn:Esk.
    + rewrite <- Hsk in Ho. destruct (Ho eq_refl) as [Hw Ht].
      pose proof (ca_offset _ _ Hc) as Hoff. pose proof (ca_size _ _ Hc) as Hsz.
      unfold ibind. fold (lseek off w s). rewrite lseek_ok by (done || lia).
      unfold sys_lseek. cbn [csize content offset seekable calls cstring pushed negb].
      set (off' := if w =? 1 then off - csize s else off).
      set (base := if w =? 0 then Some 0 else (if w =? 1 then Some (offset s) else
                   if w =? 2 then Some (Z.of_nat (length (content s))) else None)).
      assert (exists b, base = Some b /\ b + off' = target v off w) as (b & -> & Eb).
      { unfold base, off', target. assert (w = 0 \/ w = 1 \/ w = 2) as [->|[->| ->]] by lia; cbn;
          eexists; (split; [reflexivity|]); rewrite ?Hct; lia. }
      rewrite Eb. destruct (Z.ltb_spec (target v off w) 0); [lia|].
      eexists _, _, _. split; [reflexivity|]. split; [apply allow_seek; by rewrite <- Hsk|].
      split; cbn; try done. apply cached_empty; cbn; try lia. apply Hc.
    + unfold lseek, sys_lseek, ibind. rewrite Esk. cbn.
      eexists _, s, v. split; [reflexivity|]. split; [apply allow_seek_pipe; by rewrite <- Hsk|done].
  - destruct Ho as (Hsk' & Hl & Hbs). unfold write.
    pose proof (ca_offset _ _ Hc) as Hoff. pose proof (ca_size _ _ Hc) as Hsz.
    assert (exists s1, ((if csize s =? 0 then iret 0 else lseek (- csize s) 1) : IM Z)
              (FD (content s) (offset s) (seekable s) (calls s) 0 (cstring s) (pushed s)) = IOk (if csize s =? 0 then 0 else v_pos v) s1 /\
              same_file s s1 /\ offset s1 = v_pos v /\ csize s1 = 0 /\ cstring s1 = cstring s) as (s1 & E1 & Hsf & Ho1 & Hz1 & Hst1).
    { destruct (Z.eqb_spec (csize s) 0).
      - eexists. split; [reflexivity|]. split; [done|]. cbn. repeat split; lia.
      - rewrite lseek_ok by (cbn; congruence || lia). unfold sys_lseek. cbn.
        destruct (Z.ltb_spec (offset s + (- csize s - 0)) 0); [lia|].
        eexists. split; [f_equal; lia|]. cbn. split; [split; cbn; congruence|]. repeat split; lia. }
    unfold buffered_read_clear. unfold ibind at 1 2. cbn [csize content offset seekable calls cstring pushed].
    rewrite (ibind_ok _ _ _ _ _ E1). unfold sys_write. unfold ibind at 1.
    unfold INT_MAX in Hl.
    destruct (Z.eqb_spec (Z.of_nat (length bs)) 0) as [El|El].
    + assert (bs = []) as -> by (apply nil_length_inv; lia).
      eexists _, _, _. split; [reflexivity|]. split.
      { change (to_s32 0) with 0. apply allow_write; [cbn; lia|done]. }
      destruct Hsf as [S1 S2 S3]. rewrite Z.add_0_r.
      split; cbn.
      * by rewrite S1, Hct.
      * by rewrite S2, Hsk.
      * apply cached_empty; cbn; try lia. rewrite Hst1. apply Hc.
      * by rewrite S3.
      * by rewrite S1.
    + pose proof (transfer_bounds (calls s1) (Z.of_nat (length bs)) (Z.of_nat (length bs)) ltac:(lia) ltac:(lia)) as Hk.
      set (k := transfer short (calls s1) _ _) in *.
      destruct Hsf as [S1 S2 S3]. rewrite S2, Hsk, Hsk'. unfold iret at 1.
      eexists _, _, _. split; [reflexivity|].
      rewrite to_s32_id by (unfold in_int, INT_MIN, INT_MAX; lia).
      split; [apply allow_write; lia|].
      split; cbn.
      * by rewrite S1, Hct, Ho1.
      * done.
      * apply cached_empty; cbn; try lia. rewrite Hst1. apply Hc.
      * by rewrite S3.
      * rewrite S1. unfold overwrite. destruct (take (Z.to_nat k) bs) as [|x l] eqn:Et; [done|]. rewrite <- Et.
        apply Forall_app. split; [by apply Forall_take|].
        apply Forall_app. split; [apply Forall_forall; intros x' Hx'; apply elem_of_list_In, repeat_spec in Hx'; lia|].
        apply Forall_app. split; [by apply Forall_take|by apply Forall_drop].
Qed.

Lemma do_ops_ok l : forall s v,
  presents s v -> safe v l ->
  exists rs s' v', do_ops short max l s = IOk rs s' /\ answers v l rs v' /\ presents s' v'.
Proof.
  induction l as [|o l IH]; intros s v Hv Hs; cbn [do_ops].
  - eexists _, s, v. split; [reflexivity|]. split; [constructor|done].
  - destruct Hs as [Hp Hs].
    destruct (do_op_ok o s v Hv Hp) as (r & s1 & v1 & E & Ha & Hv1).
    destruct (IH s1 v1 Hv1 (Hs _ _ Ha)) as (rs & s2 & v2 & E2 & Ha2 & Hv2).
    rewrite (ibind_ok _ _ _ _ _ E), (ibind_ok _ _ _ _ _ E2).
    eexists _, s2, v2. split; [reflexivity|]. split; [by econstructor|done].
Qed.

Lemma opened_presents bs sk :
  Forall (fun b => 0 <= b <= 255) bs -> presents (opened bs sk) (View bs 0 sk None).
Proof.
  intros. split; cbn; try done. apply cached_empty; cbn; try lia. done.
Qed.
End Refine.
