(** C34 for inputs that need not be the text of data. *)
From stdpp Require Import base gmap list fin_maps.
From Coq Require Import ZArith Lia.
From Coq Require Import ZifyBool ZifyNat.
From Verif Require Import CInt Symbols Heap HeapLemmas DataModel DataSpec DataLemmas CoreProofs StringProofs HashProofs ListProofs ArrayProofs LibModel PropsHash ReadModel ReadSpec ReadProofs ReadTotal PropsRead.
Import Strings.String.StringSyntax.
Open Scope Z_scope.
Open Scope mes_scope.

(** ** C34 *)
Lemma read_fin max w size s al b fuel : ready max w size s al -> input s b -> good b -> can_alloc (20 * Z.of_nat (length b)) s ->
  (length al + 8 * length b + Z.to_nat (max + 10) <= fuel)%nat -> fin (read_env fuel s) (sexp_post max w size s al b).
Proof.
  intros Hr Hi Hg Ha Hf. pose proof (ready_room _ _ _ _ _ Hr). apply (next_fin max w size (Z.to_nat (max + 10))); try done.
  apply (reader_stops max w size (Z.to_nat (max + 10)) ltac:(lia) fuel).
Qed.
(** Reading from any input in ASCII whose block comments are closed and whose dots are followed by a
    datum ends: the number of calls is linear in the length of the input.  It may raise an error or
    overrun a buffer, but if it returns, then it has taken characters off the front of the input and
    nothing else, left the interpreter ready to read on, and the objects that were there before are
    unchanged.  It has taken at least one character, unless the input was empty, when it returns the
    empty list, or began with a vertical tab or a carriage return ([C34_return_refuted]). *)
Theorem C34_any_input max w size s al b fuel :
  ready max w size s al -> input s b -> ascii b -> comments_closed b -> dots_followed b -> can_alloc (20 * Z.of_nat (length b)) s ->
  (length al + 8 * length b + Z.to_nat (max + 10) <= fuel)%nat ->
  match read_env fuel s with
  | ROutOfFuel => False
  | ROk r s' => exists t rest al', b = t ++ rest /\ input s' rest /\ ready max w size s' al' /\
      (forall p c, cells s !! p = Some c -> ~ in_buckets w size p -> cells s' !! p = Some c) /\ is_Some (cells s' !! r) /\
      (t <> [] \/ b = [] /\ r = cell_nil \/ exists c rest', b = c :: rest' /\ (c = 11 \/ c = 13))
  | _ => True
  end.
Proof.
  intros Hr Hi H1 H2 H3 Ha Hf. pose proof (read_fin max w size s al b fuel Hr Hi (conj H1 (conj H2 H3)) Ha Hf) as H. unfold fin in H.
  destruct (read_env fuel s) as [r s'| | | |]; try done. destruct H as (al' & rest & n & m & Hst & Ht & Hc & _).
  destruct (st_left _ _ _ _ _ _ _ _ _ _ Hst) as [t Ht']. exists t, rest, al'. split; [done|]. split; [apply Hst|]. split; [apply Hst|].
  split. { intros p c Hp Hb. pose proof (step_sub _ _ _ _ _ _ _ _ _ _ Hst) as Hs. assert (outside w size (cells s) !! p = Some c) as Hp' by by apply outside_lookup.
    apply (lookup_weaken _ _ _ _ Hp') in Hs. by apply outside_lookup in Hs as [? _]. }
  split. { assert (exists c, outside w size (cells s') !! r = Some c) as [c Hcc]. { inversion Ht as [? ? c ? Hc' ?|? ? ? ? ? (c & Hc' & _)]; subst; by exists c. }
    apply outside_lookup in Hcc as [? _]. by exists c. }
  destruct Hc as [[Hu _]|(_ & _ & [(-> & _ & ->)|Hb])].
  - left. intros ->. unfold used in Hu. rewrite Ht' in Hu. cbn [app] in Hu. lia.
  - right. left. done.
  - right. right. destruct b as [|c b]; [cbn in Hb; lia|]. exists c, b. done.
Qed.

Lemma file_fin max w size : forall k b, (length b <= k)%nat -> Forall (fun c => c <> 11 /\ c <> 13) b -> good b -> forall s al f f2, ready max w size s al -> input s b ->
  can_alloc (20 * Z.of_nat (length b)) s -> (length al + 8 * length b + Z.to_nat (max + 10) <= f)%nat -> (length al + 8 * length b + Z.to_nat (max + 10) <= f2)%nat ->
  fin ((e <- read_env f ;; read_input_file_env_ f2 e) s) (fun r s' => exists al' rest n vs, step max w size n s al b s' al' rest /\ list_at (outside w size (cells s')) r vs /\
    n <= 20 * used b rest /\ (length vs + length rest <= length b)%nat).
Proof.
  induction k as [|k IH]; intros b Hk Hcr Hg s al f f2 Hr Hi Ha Hf Hf2.
  all: pose proof (ready_room _ _ _ _ _ Hr) as H64; eapply fin_bind; [by apply (read_fin max w size s al b)|].
  all: intros e s1 (al1 & rest & n & m & Hst & Ht & Hc & _); pose proof (step_length _ _ _ _ _ _ _ _ _ _ Hst) as Hlen; pose proof (st_size _ _ _ _ _ _ _ _ _ _ Hst) as Hsz.
  all: destruct f2 as [|f2]; [lia|]; cbn [read_input_file_env_]; destruct (Z.eqb_spec e cell_nil) as [->|Hne].
  1,3: (unfold used in *; exists al1, rest, n, []; split; [done|]; split; [apply la_nil|]; cbn [length];
      split; [destruct Hc as [?|(_ & _ & [(-> & ? & _)|Hb])]; [lia|cbn [length] in *; lia|exfalso; destruct b as [|c b]; [cbn in Hb; lia|]; inversion Hcr as [|? ? [? ?] _]; subst; cbn in Hb; lia]|lia]).
  all: assert (0 < used b rest /\ n <= 20 * used b rest - 5) as [Hu Hn] by
    (unfold used in *; destruct Hc as [?|(_ & _ & [(-> & ? & ?)|Hb])]; [lia|done|exfalso; destruct b as [|c b]; [cbn in Hb; lia|]; inversion Hcr as [|? ? [? ?] _]; subst; cbn in Hb; lia]).
  { unfold used in Hu. destruct b; cbn [length] in *; lia. }
  rewrite <- bind_assoc. pose proof (st_left _ _ _ _ _ _ _ _ _ _ Hst) as Hl. unfold used in *. eapply fin_bind.
  { apply (IH rest); [lia| |by eapply good_left|apply Hst|apply Hst| |lia|lia].
    - destruct Hl as [t ->]. by apply Forall_app in Hcr as [_ ?].
    - eapply step_alloc; [exact Hst| |lia]. eapply can_alloc_le; [exact Ha|lia]. }
  cbn beta. intros l s2 (al2 & rest2 & n2 & vs & Hst2 & Hvs & Hn2 & Hlen2). pose proof (step_length _ _ _ _ _ _ _ _ _ _ Hst2) as Hle2.
  pose proof (step_trans _ _ _ _ _ _ _ _ _ _ _ _ _ _ Hst Hst2) as H3.
  assert (can_alloc 1 s2) as Ha2. { eapply step_alloc; [exact H3| |lia]. eapply can_alloc_le; [exact Ha|lia]. }
  eapply fin_ok; [by apply cons_s|]. set (c := Cell TPAIR e l []). pose proof (modifies_with_cell c s2) as Hm.
  assert (step max w size 1 s2 al2 rest2 (with_cell c s2) al2 rest2) as H4 by (eapply step_new; [apply Hst2|apply Hst2|apply left_refl|exact Hm|lia]).
  exists al2, rest2, (n + n2 + 1), (e :: vs). split; [by eapply step_trans|]. cbn [length]. split; [|lia].
  assert (pair_at (outside w size (cells (with_cell c s2))) (g_free s2) e l) as Hp.
  { exists c. split; [|done]. eapply outside_other; [apply H4|rewrite cells_with_cell; apply lookup_insert|discriminate]. }
  econstructor; [|exact Hp|].
  - eapply pair_not_nil; [|exact Hp]. apply (ready_symbols _ _ _ _ _ (st_ready _ _ _ _ _ _ _ _ _ _ H4)).
  - eapply list_at_mono; [|exact Hvs]. by eapply step_sub.
Qed.
(** Reading a file with such contents, and without vertical tabs and carriage returns, ends, whatever
    the file contains; if no error is raised, then with a proper list of at most as many objects as
    characters were read. *)
Theorem C34_any_file max w size s al b fuel :
  ready max w size s al -> input s b -> ascii b -> comments_closed b -> dots_followed b -> Forall (fun c => c <> 11 /\ c <> 13) b ->
  can_alloc (20 * Z.of_nat (length b)) s -> (length al + 8 * length b + Z.to_nat (max + 10) <= fuel)%nat ->
  match read_input_file_env fuel s with
  | ROutOfFuel => False
  | ROk r s' => exists t rest al' vs, b = t ++ rest /\ input s' rest /\ ready max w size s' al' /\ list_at (cells s') r vs /\ (length vs <= length t)%nat
  | _ => True
  end.
Proof.
  intros Hr Hi H1 H2 H3 Hcr Ha Hf. pose proof (file_fin max w size (length b) b (le_n _) Hcr (conj H1 (conj H2 H3)) s al fuel fuel Hr Hi Ha Hf Hf) as H.
  unfold fin in H. unfold read_input_file_env. destruct ((e <- read_env fuel ;; read_input_file_env_ fuel e) s) as [r s'| | | |]; try done.
  destruct H as (al' & rest & n & vs & Hst & Hvs & _ & Hlen). destruct (st_left _ _ _ _ _ _ _ _ _ _ Hst) as [t Ht].
  exists t, rest, al', vs. split; [done|]. split; [apply Hst|]. split; [apply Hst|]. split; [by eapply list_at_mono; [apply outside_cells|]|].
  rewrite Ht, app_length in Hlen. lia.
Qed.
Print Assumptions C34_any_input.
Print Assumptions C34_any_file.

(** ** The hypotheses are met *)
(** An input that is not the text of data: a parenthesis too many, a string without an end, a dot at the top level. *)
Definition noise : list Z := bytes_of "#| x |# ) . a #\zz (b . c) #:k ' ""d".
Ltac in_lits := lits; rewrite ?elem_of_cons, ?elem_of_nil.
Lemma noise_ok : ascii noise /\ comments_closed noise /\ dots_followed noise /\ Forall (fun c => c <> 11 /\ c <> 13) noise.
Proof.
  assert (noise = [35; 124; 32; 120; 32; 124; 35; 32; 41; 32; 46; 32; 97; 32; 35; 92; 122; 122; 32; 40; 98; 32; 46; 32; 99; 41; 32; 35; 58; 107; 32; 39; 32; 34; 100]) as -> by reflexivity.
  split; [repeat constructor; lia|]. split; [|split; [|repeat constructor; lia]].
  - intros u sc v H Hs. revert Hs. in_lits. intros Hs.
    assert (forall d, d = sc -> d = 33 \/ d = 124) as Hd by (intros d ->; lia). clear Hs.
    destruct u as [|? u]; [injection H as <- <-; exists [32; 120; 32], (drop 7 [35; 124; 32; 120; 32; 124; 35; 32; 41; 32; 46; 32; 97; 32; 35; 92; 122; 122; 32; 40; 98; 32; 46; 32; 99; 41; 32; 35; 58; 107; 32; 39; 32; 34; 100]); done|injection H as <- H].
    do 34 (destruct u as [|? u]; [first [discriminate H|injection H; intros; exfalso; match goal with E : _ = sc |- _ => specialize (Hd _ E); lia end]|injection H as <- H]).
    destruct u; discriminate H.
  - intros u v H Hp.
    do 10 (destruct u as [|? u]; [discriminate H|injection H as <- H]).
    destruct u as [|? u].
    { injection H as <-. exists [32], (drop 12 [35; 124; 32; 120; 32; 124; 35; 32; 41; 32; 46; 32; 97; 32; 35; 92; 122; 122; 32; 40; 98; 32; 46; 32; 99; 41; 32; 35; 58; 107; 32; 39; 32; 34; 100]).
      split; [done|]. split; [repeat constructor; unfold white; in_lits; lia|]. cbn [drop datum_start]. left. unfold white. in_lits. lia. }
    injection H as <- H. do 11 (destruct u as [|? u]; [discriminate H|injection H as <- H]). destruct u as [|? u].
    { injection H as <-. exists [32], [99; 41; 32; 35; 58; 107; 32; 39; 32; 34; 100].
      split; [done|]. split; [repeat constructor; unfold white; in_lits; lia|]. cbn [datum_start]. left. unfold white. in_lits. lia. }
    injection H as <- H. do 12 (destruct u as [|? u]; [discriminate H|injection H as <- H]). destruct u; discriminate H.
Qed.
Example any_input_hypotheses_hold : exists s w size al, ready 1000 w size s al /\ input s noise /\ can_alloc (20 * Z.of_nat (length noise)) s /\ (100 < length al)%nat.
Proof.
  destruct read_hypotheses_hold as (s0 & w & size & al0 & Hr0 & Hl & _ & Ha & Hin). destruct (Hin noise) as (s1 & Hq & Hi).
  { vm_compute. repeat constructor; discriminate. }
  exists s1, w, size, al0. split; [by eapply ready_quiet|]. split; [done|]. split; [|done]. eapply alloc_quiet; [exact Hq|]. eapply can_alloc_le; [exact Ha|].
  assert (length noise = 35%nat) as -> by (vm_compute; reflexivity). lia.
Qed.
