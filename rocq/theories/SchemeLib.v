(** The procedures of the Scheme library compute what they should. *)
From stdpp Require Import base gmap list fin_maps.
From Coq Require Import ZArith Lia.
From Coq Require Import ZifyBool ZifyNat.
From Verif Require Import CInt Symbols Builtins EvalSpec EvalPrimSpec TopSpec SchemeSpec.
Open Scope Z_scope.

Lemma keep {μ μ' : store} {l o} : μ ⊆ μ' -> μ !! l = Some o -> μ' !! l = Some o.
Proof. intros H ?. by eapply lookup_weaken. Qed.
Lemma list_val_keep μ μ' v vs : μ ⊆ μ' -> list_val μ v vs -> list_val μ' v vs.
Proof. intros H. induction 1; econstructor; [by eapply keep|done]. Qed.
Lemma begins_keep μ μ' v vs : μ ⊆ μ' -> begins μ v vs -> begins μ' v vs.
Proof. intros H. induction 1; econstructor; [by eapply keep|done]. Qed.
Lemma list_val_defined μ v vs : list_val μ v vs -> v <> v_undefined.
Proof. by destruct 1. Qed.
Lemma nth_tail_keep μ μ' k v r : μ ⊆ μ' -> nth_tail μ k v r -> nth_tail μ' k v r.
Proof. intros H. induction 1; econstructor; [by eapply keep|done]. Qed.
Lemma member_tail_keep μ μ' g v r : μ ⊆ μ' -> member_tail μ g v r -> member_tail μ' g v r.
Proof. intros H. induction 1; [constructor|eapply mt_here; [by eapply keep|done]|eapply mt_next; [by eapply keep|done..]]. Qed.
Lemma path_keep μ μ' p v r : μ ⊆ μ' -> path_val μ p v r -> path_val μ' p v r.
Proof. intros H. induction 1; econstructor; [done|by eapply keep]. Qed.
Lemma builtin_keep gs μ μ' x fn n : μ ⊆ μ' -> builtin gs μ x fn n -> builtin gs μ' x fn n.
Proof. intros H (l & p & H1 & H2 & H3). exists l, p. split; [done|]. split; by eapply keep. Qed.
Lemma closure_env_keep μ μ' ρ ρ' : μ ⊆ μ' -> closure_env μ ρ = Some ρ' -> closure_env μ' ρ = Some ρ'.
Proof. intros H. destruct ρ; try done. cbn. destruct (μ !! f) as [[]|] eqn:E; try done. intros [= ->]. by rewrite (keep H E). Qed.
Lemma installed_keep gs0 gs μ μ' p v : μ ⊆ μ' -> installed gs0 gs μ p v -> installed gs0 gs μ' p v.
Proof.
  intros H (l & lc & ρ & ρ' & H1 & H2 & H3 & H4 & H5 & H6). exists l, lc, ρ, ρ'. split; [done|]. split; [done|]. split; [by eapply keep|]. split; [done|].
  split; [by eapply keep|by eapply closure_env_keep].
Qed.
Lemma grow (μ : store) l o : μ !! l = None -> μ ⊆ <[l := o]> μ.
Proof. apply insert_subseteq. Qed.
Lemma fresh_place (μ : store) : exists l, μ !! l = None.
Proof. exists (fresh (dom μ)). apply not_elem_of_dom, is_fresh. Qed.

Lemma resolve_not_begin gs fs e : (forall es, e <> EBegin es) -> forall es, resolve gs fs e <> EBegin es.
Proof.
  intros H. destruct e; try done; cbn; unfold reference; try (destruct (decide _); [done|]; by destruct (lookup_var _ _)). by edestruct H.
Qed.
Lemma exp_len_plain e : (forall es, e <> EBegin es) -> exp_len e = 1%nat.
Proof. intros H. destruct e; try done. by edestruct H. Qed.
Lemma exp_len_resolve gs fs e : (forall es, e <> EBegin es) -> exp_len (resolve gs fs e) = 1%nat.
Proof. intros H. by apply exp_len_plain, resolve_not_begin. Qed.

(** [lia] without the names, which are all different *)
Ltac nlia := repeat match goal with H : _ <> _ |- _ => clear H end; lia.
Ltac distinct := solve
  [ repeat (apply not_elem_of_cons; split; [first [assumption|apply not_eq_sym; assumption]|]); apply not_elem_of_nil
  | repeat (first [apply elem_of_list_here|apply elem_of_list_further]) ].

Section semantics.
Context (w : nat) (gs : list (Z * Z)) (defs : bool).
Notation eval := (eval w (prims w) gs defs).
Notation args := (args w (prims w) gs defs).
Notation body := (body w (prims w) gs defs).
Notation apply := (apply w (prims w) gs defs).
Notation call_ := (call w (prims w) gs defs).

(** * Local variables *)
Definition local (μ : store) (ρ : env) (x : Z) (a : val) : Prop := exists l, finds gs μ x ρ l /\ μ !! l = Some (SVar x a).
Lemma finds_keep μ μ' x ρ l : μ ⊆ μ' -> finds gs μ x ρ l -> finds gs μ' x ρ l.
Proof. intros H. induction 1; econstructor; try done. by eapply keep. Qed.
Lemma local_keep μ μ' ρ x a : μ ⊆ μ' -> local μ ρ x a -> local μ' ρ x a.
Proof. intros H (l & H1 & H2). exists l. split; [by eapply finds_keep|by eapply keep]. Qed.
Lemma ev_local d μ ρ x a : local μ ρ x a -> a <> v_undefined -> eval d ρ μ (EVar x) μ a.
Proof. intros (l & H1 & H2) Hu. apply ev_var. by exists l. Qed.

Lemma bind_args_total xs : forall vs μ, length xs = length vs -> exists bs μ1, bind_args xs None vs μ bs μ1 /\ μ ⊆ μ1 /\
  map fst bs = xs /\ forall i x l a, bs !! i = Some (x, l) -> vs !! i = Some a -> μ1 !! l = Some (SVar x a).
Proof.
  induction xs as [|x xs IH]; intros [|v vs] μ Hl; try done.
  - exists [], μ. split; [constructor|]. split; [done|]. by split.
  - destruct (fresh_place μ) as (l & Hfr). injection Hl as Hl. destruct (IH vs (<[l := SVar x v]> μ) Hl) as (bs & μ1 & H1 & H2 & H3 & H4).
    exists ((x, l) :: bs), μ1. split; [by econstructor|]. split; [etrans; [by apply grow|exact H2]|]. split; [cbn; by rewrite H3|].
    intros [|i] y l' a; cbn; [|by apply H4]. intros [= <- <-] [= <-]. eapply keep; [exact H2|]. apply lookup_insert.
Qed.
Lemma finds_extend μ x ρ bs : NoDup (map fst bs) -> forall i l, bs !! i = Some (x, l) -> finds gs μ x (extend bs ρ) l.
Proof.
  induction bs as [|[y l'] bs IH]; intros Hnd i l Hi; [done|]. cbn in Hnd. apply NoDup_cons in Hnd as [Hn Hnd]. destruct i as [|i]; cbn in Hi.
  - injection Hi as -> ->. apply finds_here.
  - apply finds_next; [|by eapply IH]. intros ->. apply Hn. apply elem_of_list_fmap. exists (y, l). split; [done|]. by eapply elem_of_list_lookup_2.
Qed.
Lemma enter xs vs μ ρ : length xs = length vs -> (length xs <= w)%nat -> NoDup xs -> exists ρ1 μ1, μ ⊆ μ1 /\
  (forall d bd μ2 v, body d ρ1 μ1 bd μ2 v -> call_ d μ xs None bd ρ vs μ2 v) /\
  forall i x a, xs !! i = Some x -> vs !! i = Some a -> local μ1 ρ1 x a.
Proof.
  intros Hl Hw Hnd. destruct (bind_args_total xs vs μ Hl) as (bs & μ1 & H1 & H2 & H3 & H4). destruct (fresh_place μ1) as (f & Hf).
  exists (EFrame f), (<[f := SFrame (extend bs ρ)]> μ1). split; [etrans; [exact H2|by apply grow]|]. split; [intros; by econstructor|].
  intros i x a Hx Ha. rewrite <- H3 in Hx. apply list_lookup_fmap_inv in Hx as ([y l] & -> & Hb). exists l. split.
  - eapply finds_frame; [apply lookup_insert|]. eapply finds_extend; [by rewrite H3|exact Hb].
  - eapply keep; [by apply grow|]. by eapply H4.
Qed.

(** * Calls of primitive procedures and of procedures in global variables *)
Definition prim_at (μ : store) (l fn n : Z) : Prop := exists x p, μ !! l = Some (SVar x (VLoc p)) /\ μ !! p = Some (SPrim fn n).
Lemma prim_at_keep μ μ' l fn n : μ ⊆ μ' -> prim_at μ l fn n -> prim_at μ' l fn n.
Proof. intros H (x & p & H1 & H2). exists x, p. split; by eapply keep. Qed.
Lemma ev_prim d μ ρ l fn n es μ1 vs μ2 v : prim_at μ l fn n -> args d ρ μ es μ1 vs -> μ ⊆ μ1 -> n = -1 \/ n = Z.of_nat (length vs) -> prims w fn n vs μ1 μ2 v ->
  eval (S d) ρ μ (EApp (EGlobal l) es) μ2 v.
Proof.
  intros (x & p & H1 & H2) Ha Hk Hn Hp. eapply ev_app; [by exists x|exact Ha|exists x; by eapply keep|]. eapply apply_prim; [by eapply keep|exact Hn|exact Hp].
Qed.
Lemma ev_global_call d μ ρ l x f es μ1 vs μ2 v : μ !! l = Some (SVar x f) -> args d ρ μ es μ1 vs -> μ ⊆ μ1 -> apply (S d) μ1 f vs μ2 v ->
  eval (S d) ρ μ (EApp (EGlobal l) es) μ2 v.
Proof. intros H Ha Hk Hp. eapply ev_app; [by exists x|exact Ha|exists x; by eapply keep|done]. Qed.
Lemma ev_local_call d μ ρ x f es μ1 vs μ2 v : local μ ρ x f -> f <> v_undefined -> args d ρ μ es μ1 vs -> μ ⊆ μ1 -> apply (S d) μ1 f vs μ2 v ->
  eval (S d) ρ μ (EApp (EVar x) es) μ2 v.
Proof.
  intros H Hu Ha Hk Hp. destruct (local_keep _ _ _ _ _ Hk H) as (l' & H1' & H2'). destruct H as (l & H1 & H2).
  eapply ev_app; [by exists l|exact Ha|by exists l'|done].
Qed.
Lemma args1 d μ ρ e μ1 v : eval d ρ μ e μ1 v -> args (S d) ρ μ [e] μ1 [v].
Proof. intros H. econstructor; [exact H|constructor]. Qed.
Lemma args2 d μ ρ e e' μ1 v μ2 v' : eval (S d) ρ μ e μ1 v -> eval d ρ μ1 e' μ2 v' -> args (S (S d)) ρ μ [e; e'] μ2 [v; v'].
Proof. intros H H'. econstructor; [exact H|]. by apply args1. Qed.
(** a call of a procedure of the library *)
Lemma apply_installed gs0 gs1 μ p v vs : installed gs0 gs1 μ p v -> length (p_formals p) = length vs -> (length (p_formals p) <= w)%nat -> (1 <= w)%nat -> NoDup (p_formals p) -> (forall es, p_body p <> EBegin es) ->
  exists ρ1 μ1, μ ⊆ μ1 /\
  (forall d μ2 r, (match resolve_all gs1 (p_formals p) (resolve_all gs0 (p_formals p) [p_body p]) with [e] => eval d ρ1 μ1 e μ2 r | _ => False end) -> apply d μ v vs μ2 r) /\
  forall i x a, p_formals p !! i = Some x -> vs !! i = Some a -> local μ1 ρ1 x a.
Proof.
  intros (l & lc & ρ & ρ' & H1 & H2 & H3 & -> & H5 & H6) Hl Hw Hw1 Hnd Hne. destruct (enter (p_formals p) vs μ ρ' Hl Hw Hnd) as (ρ1 & μ1 & E1 & E2 & E3).
  exists ρ1, μ1. split; [done|]. split; [|done]. intros d μ2 r Hev. eapply apply_clo; [exact H5|exact H6|]. apply E2.
  unfold resolve_all in *. cbn [elements] in *. apply body_last; [|exact Hev].
  unfold body_len. cbn [map list_sum foldr]. rewrite exp_len_resolve; [lia|]. by apply resolve_not_begin.
Qed.
(** * Finding the names *)
Lemma ref_formal g fs x : x ∈ fs -> reference g fs x = EVar x.
Proof. intros H. unfold reference. by rewrite decide_True. Qed.
Lemma ref_global g fs x l : x ∉ fs -> lookup_var x g = Some l -> reference g fs x = EGlobal l.
Proof. intros H Hl. unfold reference. by rewrite decide_False, Hl. Qed.
Lemma ref_self gs0 gs1 fs x l : x ∉ fs -> lookup_var x gs1 = Some l -> lookup_var x gs0 = None \/ lookup_var x gs0 = Some l -> resolve gs1 fs (reference gs0 fs x) = EGlobal l.
Proof.
  intros H Hl [H0|H0]; unfold reference; rewrite decide_False, H0 by done; [|done]. cbn. by apply ref_global.
Qed.
Lemma binders_ref g fs x : binders (reference g fs x) = [].
Proof. unfold reference. destruct (decide _); [done|]. by destruct (lookup_var _ _). Qed.
Lemma builtin_prim g μ x fn n : builtin g μ x fn n -> exists l, lookup_var x g = Some l /\ prim_at μ l fn n.
Proof. intros (l & p & H1 & H2 & H3). exists l. split; [done|]. by exists x, p. Qed.
Lemma installed_var gs0 gs1 μ p v : installed gs0 gs1 μ p v -> exists l, lookup_var (p_name p) gs1 = Some l /\ (lookup_var (p_name p) gs0 = None \/ lookup_var (p_name p) gs0 = Some l) /\ μ !! l = Some (SVar (p_name p) v).
Proof. intros (l & lc & ρ & ρ' & H1 & H2 & H3 & _). by exists l. Qed.

(** * The primitive procedures used *)
Lemma ev_null d μ ρ l x v : prim_at μ l fn_null_p 1 -> local μ ρ x v -> v <> v_undefined -> eval (S (S d)) ρ μ (EApp (EGlobal l) [EVar x]) μ (v_bool (match v with VAtom k => k =? cell_nil | _ => false end)).
Proof. intros Hp Hx Hu. eapply ev_prim; [exact Hp|apply args1; by apply ev_local|done|by right|constructor]. Qed.
Lemma ev_car d μ ρ l x p a b : prim_at μ l fn_car 1 -> local μ ρ x (VLoc p) -> μ !! p = Some (SPair a b) -> eval (S (S d)) ρ μ (EApp (EGlobal l) [EVar x]) μ a.
Proof. intros Hp Hx Hu. eapply ev_prim; [exact Hp|apply args1; by apply ev_local|done|by right|by econstructor]. Qed.
Lemma ev_cdr d μ ρ l x p a b : prim_at μ l fn_cdr 1 -> local μ ρ x (VLoc p) -> μ !! p = Some (SPair a b) -> eval (S (S d)) ρ μ (EApp (EGlobal l) [EVar x]) μ b.
Proof. intros Hp Hx Hu. eapply ev_prim; [exact Hp|apply args1; by apply ev_local|done|by right|by econstructor]. Qed.
Lemma ev_zero d μ ρ l x n : prim_at μ l fn_is_p (-1) -> local μ ρ x (VNum n) -> eval (S (S (S d))) ρ μ (EApp (EGlobal l) [EConst (VNum 0); EVar x]) μ (v_bool (n =? 0)).
Proof.
  intros Hp Hx. eapply ev_prim; [exact Hp|eapply args2; [constructor|by apply ev_local]|done|by left|].
  apply (pr_equal _ [0; n] (n =? 0)). unfold ordered. split.
  - intros H i a b Ha Hb. destruct i as [|[|i]]; cbn in Ha, Hb; try done; injection Ha as <-; injection Hb as <-; lia.
  - intros H. specialize (H O 0 n eq_refl eq_refl). lia.
Qed.
Lemma ev_pred d μ ρ l x n : prim_at μ l fn_minus (-1) -> local μ ρ x (VNum n) -> 0 < n <= LONG_MAX -> eval (S (S (S d))) ρ μ (EApp (EGlobal l) [EVar x; EConst (VNum 1)]) μ (VNum (n - 1)).
Proof.
  intros Hp Hx Hn. eapply ev_prim; [exact Hp|eapply args2; [by apply ev_local|constructor]|done|by left|].
  apply (pr_minus _ n 1 []). intros k Hk. cbn in Hk. unfold in_long. destruct k as [|[|]]; cbn; [unfold LONG_MIN, LONG_MAX in *; lia..|lia].
Qed.
Lemma nil_case v vs μ : list_val μ v vs -> (match v with VAtom k => k =? cell_nil | _ => false end) = match vs with [] => true | _ => false end.
Proof. by destruct 1. Qed.

Lemma map1_applies gs0 gs1 d0 g map1 f lst null_p list cons car cdr v fv :
  NoDup [map1; f; lst; null_p; list; cons; car; cdr] -> (2 <= w)%nat -> fv <> v_undefined ->
  forall vs μ lv d, installed gs0 gs1 μ (map1_proc map1 f lst null_p list cons car cdr) v ->
    builtin gs0 μ null_p fn_null_p 1 -> builtin gs0 μ list fn_list (-1) -> builtin gs0 μ cons fn_cons 2 -> builtin gs0 μ car fn_car 1 -> builtin gs0 μ cdr fn_cdr 1 ->
    list_val μ lv vs -> computes w gs defs d0 μ fv (map (fun v => [v]) vs) g -> (d0 + 3 * length vs + 8 <= d)%nat ->
    exists μ' r, apply d μ v [fv; lv] μ' r /\ list_val μ' r (map (fun v => g [v]) vs) /\ μ ⊆ μ'.
Proof.
  intros Hnd Hw Hfu. rewrite !NoDup_cons, !not_elem_of_cons in Hnd; destruct_and! Hnd.
  induction vs as [|a vs IH]; intros μ lv d Hi Bn Bl Bc Ba Bd Hl Hf Hd.
  all: destruct (apply_installed _ _ _ _ _ [fv; lv] Hi) as (ρ1 & μ1 & K1 & Happ & Hloc); [done|cbn; nlia|nlia|cbn; rewrite !NoDup_cons; split_and!; try apply NoDup_nil_2; distinct|done|].
  all: pose proof (Hloc 0%nat f fv eq_refl eq_refl) as Lf; pose proof (Hloc 1%nat lst lv eq_refl eq_refl) as Ll; clear Hloc.
  all: destruct (builtin_prim _ _ _ _ _ Bn) as (ln & En & Pn); destruct (builtin_prim _ _ _ _ _ Bl) as (ll & El & Pl); destruct (builtin_prim _ _ _ _ _ Bc) as (lc & Ec & Pc); destruct (builtin_prim _ _ _ _ _ Ba) as (la & Ea & Pa); destruct (builtin_prim _ _ _ _ _ Bd) as (ld & Ed & Pd).
  all: destruct (installed_var _ _ _ _ _ Hi) as (ls & Es & Es0 & Ps); cbn [p_name map1_proc] in Es, Es0, Ps.
  all: apply (prim_at_keep _ _ _ _ _ K1) in Pn, Pl, Pc, Pa, Pd; apply (keep K1) in Ps.
  all: cbn [map1_proc p_formals p_body resolve_all elements resolve binders app] in Happ; rewrite ?binders_ref in Happ; cbn [binders app] in Happ.
  all: rewrite (ref_global gs0 _ null_p ln), (ref_global gs0 _ list ll), (ref_global gs0 _ cons lc), (ref_global gs0 _ car la), (ref_global gs0 _ cdr ld), (ref_formal gs0 _ lst), (ref_formal gs0 _ f), (ref_self gs0 _ _ map1 ls) in Happ by (try done; distinct).
  all: cbn [resolve] in Happ; rewrite (ref_formal gs1 _ lst), (ref_formal gs1 _ f) in Happ by distinct.
  all: destruct d as [|[|[|[|[|[|[|[|d]]]]]]]]; try nlia.
  - inversion Hl; subst. exists μ1, v_nil. split; [|split; [constructor|done]]. apply Happ. eapply ev_if_true; [eapply (ev_null _ _ _ _ _ v_nil); [exact Pn|exact Ll|done]|done|].
    eapply ev_prim; [exact Pl|constructor|done|by left|]. by apply (pr_list _ []).
  - inversion Hl as [|p ? dv ? Hp Hl']; subst. pose proof (keep K1 Hp) as Hp1.
    destruct (Hf (S (S (S (S (S (S d)))))) μ1 [a]) as (μ2 & K2 & Hfa); [cbn in Hd; nlia|done|by left|].
    assert (μ ⊆ μ2) as K12 by (by etrans).
    destruct (IH μ2 dv (S (S (S (S (S d)))))) as (μ3 & r & Hr & Hrl & K3).
    { by eapply installed_keep. } 1-5: (by eapply builtin_keep). { by eapply list_val_keep. }
    { intros d' μ' us Hd' Hμ' Hus. apply Hf; [done|by etrans|by right]. } { cbn in Hd. nlia. }
    destruct (fresh_place μ3) as (q & Hq).
    exists (<[q := SPair (g [a]) r]> μ3), (VLoc q). split; [|split].
    + apply Happ. eapply ev_if_false; [eapply (ev_null _ _ _ _ _ (VLoc _)); [exact Pn|exact Ll|done]|].
      eapply (ev_prim _ _ _ _ _ _ _ _ [_; _]); [exact Pc| | |by right|by constructor]; [|by etrans].
      eapply args2.
      * eapply ev_local_call; [exact Lf|done|eapply args1, ev_car; [exact Pa|exact Ll|exact Hp1]|reflexivity|exact Hfa].
      * eapply ev_global_call; [exact (keep K2 Ps)| |reflexivity|exact Hr].
        eapply args2; [apply ev_local; [eapply local_keep; [exact K2|eassumption]|done]|]. eapply ev_cdr; [eapply prim_at_keep; [exact K2|exact Pd]|eapply local_keep; [exact K2|eassumption]|exact (keep K2 Hp1)].
    + cbn. econstructor; [apply lookup_insert|]. eapply list_val_keep; [by apply grow|done].
    + etrans; [exact K12|]. etrans; [exact K3|]. by apply grow.
Qed.

Lemma list_tail_applies gs0 gs1 list_tail x n is cdr minus v :
  NoDup [list_tail; x; n; is; cdr; minus] -> (2 <= w)%nat ->
  forall k μ lv r d, installed gs0 gs1 μ (list_tail_proc list_tail x n is cdr minus) v ->
    builtin gs0 μ is fn_is_p (-1) -> builtin gs0 μ cdr fn_cdr 1 -> builtin gs0 μ minus fn_minus (-1) ->
    nth_tail μ k lv r -> r <> v_undefined -> Z.of_nat k <= LONG_MAX -> (6 <= d)%nat ->
    exists μ', apply d μ v [lv; VNum (Z.of_nat k)] μ' r /\ μ ⊆ μ'.
Proof.
  intros Hnd Hw. rewrite !NoDup_cons, !not_elem_of_cons in Hnd; destruct_and! Hnd.
  induction k as [|k IH]; intros μ lv r d Hi Be Bd Bm Hl Hu Hk Hd.
  all: match goal with H : installed _ _ _ _ _ |- context [ [?u; VNum ?z] ] => destruct (apply_installed _ _ _ _ _ [u; VNum z] H) as (ρ1 & μ1 & K1 & Happ & Hloc); [done|cbn; nlia|nlia|cbn; rewrite !NoDup_cons; split_and!; try apply NoDup_nil_2; distinct|done|] end.
  all: pose proof (Hloc 0%nat x lv eq_refl eq_refl) as Lx; pose proof (Hloc 1%nat n _ eq_refl eq_refl) as Ln; clear Hloc.
  all: destruct (builtin_prim _ _ _ _ _ Be) as (le & Ee & Pe); destruct (builtin_prim _ _ _ _ _ Bd) as (ld & Ed & Pd); destruct (builtin_prim _ _ _ _ _ Bm) as (lm & Em & Pm).
  all: destruct (installed_var _ _ _ _ _ Hi) as (ls & Es & Es0 & Ps); cbn [p_name list_tail_proc] in Es, Es0, Ps.
  all: apply (prim_at_keep _ _ _ _ _ K1) in Pe, Pd, Pm; apply (keep K1) in Ps.
  all: cbn [list_tail_proc p_formals p_body resolve_all elements resolve binders app] in Happ; rewrite ?binders_ref in Happ; cbn [binders app] in Happ.
  all: rewrite (ref_global gs0 _ is le), (ref_global gs0 _ cdr ld), (ref_global gs0 _ minus lm), (ref_formal gs0 _ x), (ref_formal gs0 _ n), (ref_self gs0 _ _ list_tail ls) in Happ by (try done; distinct).
  all: cbn [resolve] in Happ; rewrite (ref_formal gs1 _ x), (ref_formal gs1 _ n) in Happ by distinct.
  all: destruct d as [|[|[|[|[|[|d]]]]]]; try nlia.
  - inversion Hl; subst. exists μ1. split; [|done]. apply Happ. eapply ev_if_true; [eapply ev_zero; [exact Pe|exact Ln]|done|]. by apply ev_local.
  - inversion Hl as [|? p a dv ? Hp Hl']; subst. pose proof (keep K1 Hp) as Hp1.
    destruct (IH μ1 dv r (S (S (S (S (S (S d))))))) as (μ2 & Hr & K2); [by eapply installed_keep|by eapply builtin_keep|by eapply builtin_keep|by eapply builtin_keep|by eapply nth_tail_keep|done|nlia|nlia|].
    exists μ2. split; [|by etrans]. apply Happ. eapply ev_if_false.
    + replace v_false with (v_bool (Z.of_nat (S k) =? 0)) by (by destruct (Z.eqb_spec (Z.of_nat (S k)) 0); [nlia|]). eapply ev_zero; [exact Pe|exact Ln].
    + eapply ev_global_call; [exact Ps|eapply args2; [eapply ev_cdr; [exact Pd|exact Lx|exact Hp1]|eapply ev_pred; [exact Pm|exact Ln|nlia]]|reflexivity|].
      by replace (Z.of_nat (S k) - 1) with (Z.of_nat k) by nlia.
Qed.

Lemma list_head_applies gs0 gs1 list_head x n is cons car cdr minus v :
  NoDup [list_head; x; n; is; cons; car; cdr; minus] -> (2 <= w)%nat ->
  forall vs μ lv d, installed gs0 gs1 μ (list_head_proc list_head x n is cons car cdr minus) v ->
    builtin gs0 μ is fn_is_p (-1) -> builtin gs0 μ cons fn_cons 2 -> builtin gs0 μ car fn_car 1 -> builtin gs0 μ cdr fn_cdr 1 -> builtin gs0 μ minus fn_minus (-1) ->
    begins μ lv vs -> Z.of_nat (length vs) <= LONG_MAX -> (3 * length vs + 9 <= d)%nat ->
    exists μ' r, apply d μ v [lv; VNum (Z.of_nat (length vs))] μ' r /\ list_val μ' r vs /\ μ ⊆ μ'.
Proof.
  intros Hnd Hw. rewrite !NoDup_cons, !not_elem_of_cons in Hnd; destruct_and! Hnd.
  induction vs as [|a vs IH]; intros μ lv d Hi Be Bc Ba Bd Bm Hl Hk Hd.
  all: match goal with H : installed _ _ _ _ _ |- context [ [?u; VNum ?z] ] => destruct (apply_installed _ _ _ _ _ [u; VNum z] H) as (ρ1 & μ1 & K1 & Happ & Hloc); [done|cbn; nlia|nlia|cbn; rewrite !NoDup_cons; split_and!; try apply NoDup_nil_2; distinct|done|] end.
  all: pose proof (Hloc 0%nat x lv eq_refl eq_refl) as Lx; pose proof (Hloc 1%nat n _ eq_refl eq_refl) as Ln; clear Hloc.
  all: destruct (builtin_prim _ _ _ _ _ Be) as (le & Ee & Pe); destruct (builtin_prim _ _ _ _ _ Bc) as (lc & Ec & Pc); destruct (builtin_prim _ _ _ _ _ Ba) as (la & Ea & Pa); destruct (builtin_prim _ _ _ _ _ Bd) as (ld & Ed & Pd); destruct (builtin_prim _ _ _ _ _ Bm) as (lm & Em & Pm).
  all: destruct (installed_var _ _ _ _ _ Hi) as (ls & Es & Es0 & Ps); cbn [p_name list_head_proc] in Es, Es0, Ps.
  all: apply (prim_at_keep _ _ _ _ _ K1) in Pe, Pc, Pa, Pd, Pm; apply (keep K1) in Ps.
  all: cbn [list_head_proc p_formals p_body resolve_all elements resolve binders app] in Happ; rewrite ?binders_ref in Happ; cbn [binders app] in Happ.
  all: rewrite (ref_global gs0 _ is le), (ref_global gs0 _ cons lc), (ref_global gs0 _ car la), (ref_global gs0 _ cdr ld), (ref_global gs0 _ minus lm), (ref_formal gs0 _ x), (ref_formal gs0 _ n), (ref_self gs0 _ _ list_head ls) in Happ by (try done; distinct).
  all: cbn [resolve] in Happ; rewrite (ref_formal gs1 _ x), (ref_formal gs1 _ n) in Happ by distinct.
  all: destruct d as [|[|[|[|[|[|[|[|[|d]]]]]]]]]; try nlia.
  - exists μ1, v_nil. split; [|split; [constructor|done]]. apply Happ. eapply ev_if_true; [eapply ev_zero; [exact Pe|exact Ln]|done|]. constructor.
  - inversion Hl as [|p ? dv ? Hp Hl']; subst. pose proof (keep K1 Hp) as Hp1. cbn [length] in Hk, Hd.
    destruct (IH μ1 dv (S (S (S (S (S (S d))))))) as (μ2 & r & Hr & Hrl & K2); [by eapply installed_keep|by eapply builtin_keep|by eapply builtin_keep|by eapply builtin_keep|by eapply builtin_keep|by eapply builtin_keep|by eapply begins_keep|nlia|nlia|].
    destruct (fresh_place μ2) as (q & Hq).
    exists (<[q := SPair a r]> μ2), (VLoc q). split; [|split].
    + apply Happ. eapply ev_if_false.
      * replace v_false with (v_bool (Z.of_nat (length (a :: vs)) =? 0)) by (by destruct (Z.eqb_spec (Z.of_nat (length (a :: vs))) 0); [cbn in *; nlia|]). eapply ev_zero; [exact Pe|exact Ln].
      * eapply (ev_prim _ _ _ _ _ _ _ _ [_; _]); [exact Pc| |exact K2|by right|by constructor].
        eapply args2; [eapply ev_car; [exact Pa|exact Lx|exact Hp1]|].
        eapply ev_global_call; [exact Ps|eapply args2; [eapply ev_cdr; [exact Pd|exact Lx|exact Hp1]|eapply ev_pred; [exact Pm|exact Ln|cbn [length]; nlia]]|reflexivity|].
        replace (Z.of_nat (length (a :: vs)) - 1) with (Z.of_nat (length vs)) by (cbn [length]; nlia). exact Hr.
    + econstructor; [apply lookup_insert|]. eapply list_val_keep; [by apply grow|done].
    + etrans; [exact K1|]. etrans; [exact K2|]. by apply grow.
Qed.

Lemma member_applies gs0 gs1 d0 same member x lst eq null_p car cdr v xv ev :
  NoDup [member; x; lst; eq; null_p; car; cdr] -> (3 <= w)%nat -> xv <> v_undefined -> ev <> v_undefined ->
  forall vs μ lv r d, installed gs0 gs1 μ (member_proc member x lst eq null_p car cdr) v ->
    builtin gs0 μ null_p fn_null_p 1 -> builtin gs0 μ car fn_car 1 -> builtin gs0 μ cdr fn_cdr 1 ->
    list_val μ lv vs -> computes w gs defs d0 μ ev (map (fun a => [xv; a]) vs) (fun us => match us with [_; a] => v_bool (same a) | _ => v_false end) ->
    member_tail μ same lv r -> (d0 + 8 <= d)%nat ->
    exists μ', apply d μ v [xv; lv; ev] μ' r /\ μ ⊆ μ'.
Proof.
  intros Hnd Hw Hxu Heu. rewrite !NoDup_cons, !not_elem_of_cons in Hnd; destruct_and! Hnd.
  induction vs as [|a vs IH]; intros μ lv r d Hi Bn Ba Bd Hl Hf Hm Hd.
  all: destruct (apply_installed _ _ _ _ _ [xv; lv; ev] Hi) as (ρ1 & μ1 & K1 & Happ & Hloc); [done|cbn; nlia|nlia|cbn; rewrite !NoDup_cons; split_and!; try apply NoDup_nil_2; distinct|done|].
  all: pose proof (Hloc 0%nat x xv eq_refl eq_refl) as Lx; pose proof (Hloc 1%nat lst lv eq_refl eq_refl) as Ll; pose proof (Hloc 2%nat eq ev eq_refl eq_refl) as Lq; clear Hloc.
  all: destruct (builtin_prim _ _ _ _ _ Bn) as (ln & En & Pn); destruct (builtin_prim _ _ _ _ _ Ba) as (la & Ea & Pa); destruct (builtin_prim _ _ _ _ _ Bd) as (ld & Ed & Pd).
  all: destruct (installed_var _ _ _ _ _ Hi) as (ls & Es & Es0 & Ps); cbn [p_name member_proc] in Es, Es0, Ps.
  all: apply (prim_at_keep _ _ _ _ _ K1) in Pn, Pa, Pd; apply (keep K1) in Ps.
  all: cbn [member_proc p_formals p_body resolve_all elements resolve binders app] in Happ; rewrite ?binders_ref in Happ; cbn [binders app] in Happ.
  all: rewrite (ref_global gs0 _ null_p ln), (ref_global gs0 _ car la), (ref_global gs0 _ cdr ld), (ref_formal gs0 _ x), (ref_formal gs0 _ lst), (ref_formal gs0 _ eq), (ref_self gs0 _ _ member ls) in Happ by (try done; distinct).
  all: cbn [resolve] in Happ; rewrite (ref_formal gs1 _ x), (ref_formal gs1 _ lst), (ref_formal gs1 _ eq) in Happ by distinct.
  all: destruct d as [|[|[|[|[|[|[|[|d]]]]]]]]; try nlia.
  - inversion Hl; subst. inversion Hm; subst. exists μ1. split; [|done]. apply Happ. eapply ev_if_true; [eapply (ev_null _ _ _ _ _ v_nil); [exact Pn|exact Ll|done]|done|constructor].
  - inversion Hl as [|p ? dv ? Hp Hl']; subst. pose proof (keep K1 Hp) as Hp1.
    destruct (Hf (S (S (S (S (S (S (S d))))))) μ1 [xv; a]) as (μ2 & K2 & Hfa); [nlia|done|by left|]. cbn beta iota in Hfa.
    assert (eval (S (S (S (S (S (S (S d))))))) ρ1 μ1 (EApp (EVar eq) [EVar x; EApp (EGlobal la) [EVar lst]]) μ2 (v_bool (same a))) as Htest.
    { eapply ev_local_call; [exact Lq|done|eapply args2; [by apply ev_local|eapply ev_car; [exact Pa|exact Ll|exact Hp1]]|reflexivity|exact Hfa]. }
    assert (μ ⊆ μ2) as K12 by (by etrans).
    inversion Hm as [|p' a' d' Hp' Hs|p' a' d' r' Hp' Hs Hm']; subst; rewrite Hp in Hp'; injection Hp' as <- <-; rewrite Hs in Htest.
    + exists μ2. split; [|done]. apply Happ. eapply ev_if_false; [eapply (ev_null _ _ _ _ _ (VLoc _)); [exact Pn|exact Ll|done]|]. eapply ev_if_true; [exact Htest|done|]. apply ev_local; [eapply local_keep; [exact K2|eassumption]|done].
    + destruct (IH μ2 dv r (S (S (S (S (S (S (S (S d))))))))) as (μ3 & Hr & K3).
      { by eapply installed_keep. } 1-3: (by eapply builtin_keep). { by eapply list_val_keep. }
      { intros d1 μ' us Hd' Hμ' Hus. apply Hf; [done|by etrans|by right]. } { by eapply member_tail_keep. } { nlia. }
      exists μ3. split; [|by etrans]. apply Happ. eapply ev_if_false; [eapply (ev_null _ _ _ _ _ (VLoc _)); [exact Pn|exact Ll|done]|]. eapply ev_if_false; [exact Htest|].
      eapply ev_global_call; [exact (keep K2 Ps)| |reflexivity|exact Hr].
      eapply args_cons; [apply ev_local; [eapply local_keep; [exact K2|eassumption]|done]|].
      eapply args2; [eapply ev_cdr; [eapply prim_at_keep; [exact K2|exact Pd]|eapply local_keep; [exact K2|eassumption]|exact (keep K2 Hp1)]|]. apply ev_local; [eapply local_keep; [exact K2|eassumption]|done].
Qed.

Lemma cxr_applies gs0 gs1 path cxr x car cdr v μ a r d :
  NoDup [cxr; x; car; cdr] -> (1 <= w)%nat -> installed gs0 gs1 μ (cxr_proc path cxr x car cdr) v ->
  builtin gs0 μ car fn_car 1 -> builtin gs0 μ cdr fn_cdr 1 -> path_val μ path a r -> a <> v_undefined -> (2 * length path <= d)%nat ->
  exists μ', apply d μ v [a] μ' r /\ μ ⊆ μ'.
Proof.
  intros Hnd Hw Hi Ba Bd Hp Hu Hd. rewrite !NoDup_cons, !not_elem_of_cons in Hnd; destruct_and! Hnd.
  destruct (apply_installed _ _ _ _ _ [a] Hi) as (ρ1 & μ1 & K1 & Happ & Hloc); [done|cbn; nlia|nlia|cbn; rewrite !NoDup_cons; split_and!; try apply NoDup_nil_2; distinct|by destruct path|].
  pose proof (Hloc 0%nat x a eq_refl eq_refl) as Lx; clear Hloc.
  destruct (builtin_prim _ _ _ _ _ Ba) as (la & Ea & Pa); destruct (builtin_prim _ _ _ _ _ Bd) as (ld & Ed & Pd). apply (prim_at_keep _ _ _ _ _ K1) in Pa, Pd.
  exists μ1. split; [|done]. apply Happ. cbn [cxr_proc p_formals p_body resolve_all elements]. clear Happ. apply (path_keep _ _ _ _ _ K1) in Hp. clear Hi.
  assert (forall p : list bool, binders (path_exp car cdr p (EVar x)) = [] /\ forall fs, binders (resolve gs0 fs (path_exp car cdr p (EVar x))) = []) as Hb.
  { intros [|b p]; (split; [done|]); intros fs; [apply binders_ref|done]. }
  rewrite (proj1 (Hb _)), (proj2 (Hb _)). cbn [app].
  revert r d Hp Hd. induction path as [|b path IH]; intros r d Hp Hd.
  - inversion Hp; subst. cbn. rewrite ref_formal by distinct. cbn. rewrite ref_formal by distinct. by apply ev_local.
  - inversion Hp as [|? ? ? l a' d' Hp' Hl]; subst. cbn [length] in Hd. destruct d as [|[|d]]; [nlia..|].
    cbn [path_exp resolve elements]. rewrite (proj1 (Hb _)). cbn [binders app].
    assert (reference gs0 [x] (if b then car else cdr) = EGlobal (if b then la else ld)) as -> by (destruct b; apply ref_global; try done; distinct).
    cbn [binders app resolve elements]. rewrite (proj2 (Hb _)). cbn [app].
    specialize (IH (VLoc l) d Hp' ltac:(nlia)).
    destruct b; (eapply ev_prim; [done|apply args1; exact IH|done|by right|by econstructor]).
Qed.

Lemma not_applies gs0 gs1 not x v μ a b d : NoDup [not; x] -> (1 <= w)%nat -> installed gs0 gs1 μ (not_proc not x) v -> a <> v_undefined -> (1 <= d)%nat -> (b = true <-> a = v_false) ->
  exists μ', apply d μ v [a] μ' (v_bool b) /\ μ ⊆ μ'.
Proof.
  intros Hnd Hw Hi Hu Hd Hb. rewrite !NoDup_cons, !not_elem_of_cons in Hnd; destruct_and! Hnd.
  destruct (apply_installed _ _ _ _ _ [a] Hi) as (ρ1 & μ1 & K1 & Happ & Hloc); [done|cbn; nlia|nlia|cbn; rewrite !NoDup_cons; split_and!; try apply NoDup_nil_2; distinct|done|].
  pose proof (Hloc 0%nat x a eq_refl eq_refl) as Lx; clear Hloc. exists μ1. split; [|done]. apply Happ.
  cbn. rewrite !ref_formal by distinct. cbn. rewrite !ref_formal by distinct. destruct d as [|d]; [nlia|].
  destruct b.
  - rewrite (proj1 Hb eq_refl) in *. eapply ev_if_false; [by apply ev_local|constructor].
  - eapply ev_if_true; [by apply ev_local|intros Ha; apply Hb in Ha; done|constructor].
Qed.

Lemma quot_bounds n m : 0 < m -> n = m * (n ÷ m) + Z.rem n m /\ Z.abs (n ÷ m) <= Z.abs n /\ Z.abs (n ÷ m * m) <= Z.abs n /\ Z.abs (Z.rem n m) <= Z.abs n.
Proof.
  intros Hm. pose proof (Z.quot_rem' n m) as E.
  assert ((0 <= n /\ 0 <= n ÷ m /\ 0 <= Z.rem n m) \/ (n < 0 /\ n ÷ m <= 0 /\ Z.rem n m <= 0)) as [(H1 & H2 & H3)|(H1 & H2 & H3)].
  { destruct (Z.le_gt_cases 0 n); [left|right]; (split; [lia|]).
    - split; [apply Z.quot_pos; lia|apply Z.rem_nonneg; lia].
    - split; [|apply Z.rem_nonpos; lia]. pose proof (Z.quot_opp_l n m ltac:(lia)). pose proof (Z.quot_pos (- n) m ltac:(lia) ltac:(lia)). lia. }
  all: split; [exact E|]; split_and!; nia.
Qed.
Lemma remainder_applies gs0 gs1 remainder x y minus times quotient v μ n m d :
  NoDup [remainder; x; y; minus; times; quotient] -> (2 <= w)%nat -> installed gs0 gs1 μ (remainder_proc remainder x y minus times quotient) v ->
  builtin gs0 μ minus fn_minus (-1) -> builtin gs0 μ times fn_multiply (-1) -> builtin gs0 μ quotient fn_divide (-1) ->
  LONG_MIN < n <= LONG_MAX -> 0 < m <= LONG_MAX -> (8 <= d)%nat ->
  exists μ', apply d μ v [VNum n; VNum m] μ' (VNum (Z.rem n m)) /\ μ ⊆ μ'.
Proof.
  intros Hnd Hw Hi Bm Bt Bq Hn Hm Hd. rewrite !NoDup_cons, !not_elem_of_cons in Hnd; destruct_and! Hnd.
  destruct (apply_installed _ _ _ _ _ [VNum n; VNum m] Hi) as (ρ1 & μ1 & K1 & Happ & Hloc); [done|cbn; nlia|nlia|cbn; rewrite !NoDup_cons; split_and!; try apply NoDup_nil_2; distinct|done|].
  pose proof (Hloc 0%nat x _ eq_refl eq_refl) as Lx; pose proof (Hloc 1%nat y _ eq_refl eq_refl) as Ly; clear Hloc.
  destruct (builtin_prim _ _ _ _ _ Bm) as (lm & Em & Pm); destruct (builtin_prim _ _ _ _ _ Bt) as (lt & Et & Pt); destruct (builtin_prim _ _ _ _ _ Bq) as (lq & Eq & Pq). apply (prim_at_keep _ _ _ _ _ K1) in Pm, Pt, Pq.
  cbn [remainder_proc p_formals p_body resolve_all elements resolve binders app] in Happ; rewrite ?binders_ref in Happ; cbn [binders app] in Happ.
  rewrite (ref_global gs0 _ minus lm), (ref_global gs0 _ times lt), (ref_global gs0 _ quotient lq), (ref_formal gs0 _ x), (ref_formal gs0 _ y) in Happ by (try done; distinct).
  cbn [resolve] in Happ. rewrite (ref_formal gs1 _ x), (ref_formal gs1 _ y) in Happ by distinct.
  destruct d as [|[|[|[|[|[|[|[|d]]]]]]]]; try nlia.
  destruct (quot_bounds n m) as (Q0 & Q1 & Q2 & Q3); [nlia|].
  exists μ1. split; [|done]. apply Happ. eapply ev_prim; [exact Pm| |done|by left|].
  - eapply args2; [by apply ev_local|]. eapply ev_prim; [exact Pt| |done|by left|].
    + eapply args2; [|by apply ev_local]. eapply ev_prim; [exact Pq|eapply args2; by apply ev_local|done|by left|]. apply (pr_divide _ n [m]); [done|constructor; [done|constructor]].
    + apply (pr_times _ [Z.quot n m; m]). intros k Hk. cbn in Hk. unfold in_long, LONG_MIN, LONG_MAX in *. destruct k as [|[|[|]]]; cbn [take foldl]; nlia.
  - replace (Z.rem n m) with (n - (1 * (n ÷ m)%Z * m)) by nlia.
    apply (pr_minus _ n _ []). intros k Hk. cbn in Hk. unfold in_long, LONG_MIN, LONG_MAX in *. destruct k as [|[|]]; cbn [take foldl]; [nlia| |nlia]. replace (n - 1 * (n ÷ m) * m) with (Z.rem n m) by nlia. nlia.
Qed.
End semantics.


(** * The definition of a procedure *)
Lemma bind_args_keep xs r vs μ bs μ1 : bind_args xs r vs μ bs μ1 -> r = None -> μ ⊆ μ1.
Proof.
  induction 1 as [| |x xs r v vs l μ ρ μ1 Hl Hb IH]; intros Hr; [done|done|]. etrans; [by apply grow|by apply IH].
Qed.
Lemma definition_installs w P d ρ gs μ p gs1 μ1 v : run_form w P d ρ gs μ (definition p) gs1 μ1 v ->
  (forall l, lookup_var (p_name p) gs = Some l -> exists u, μ !! l = Some (SVar (p_name p) u)) ->
  v = v_unspecified /\ (exists f, installed gs gs1 μ1 p f) /\
  forall l c, μ !! l = Some c -> (forall u, c <> SVar (p_name p) u) -> μ1 !! l = Some c.
Proof.
  unfold definition. intros H Hwf. inversion H as [? ? ? He| |x xs r bd l gs1' μ1' bs μ2 lc Hd Hl Hb Hlc]; subst; [done|]. split; [done|].
  pose proof (bind_args_keep _ _ _ _ _ _ Hb eq_refl) as K2.
  assert (exists u, μ1' !! l = Some (SVar (p_name p) u)) as (u & Hu). { inversion Hd; subst; [by apply Hwf|]. exists v_false. apply lookup_insert. }
  assert (l <> lc) as Hne by (intros ->; by rewrite (keep K2 Hu) in Hlc).
  split.
  - exists (VLoc lc). inversion Hb as [| |? ? ? ? ? l0 ? bs' ? Hl0 Hb']; subst.
    exists l, lc, (extend ((p_name p, l0) :: bs') ρ), (extend bs' ρ). split; [|split; [|split; [|split; [done|split; [|done]]]]].
    + inversion Hd; subst; [done|]. unfold lookup_var. cbn. by case_decide.
    + inversion Hd; subst; [by right|by left].
    + apply lookup_insert.
    + rewrite lookup_insert_ne by done. rewrite lookup_insert. repeat match goal with b := _ |- _ => subst b end. cbn [opt_list]. by rewrite app_nil_r.
  - intros l' c Hc Hnc. assert (μ ⊆ μ2) as K. { etrans; [|exact K2]. inversion Hd; subst; [done|by apply grow]. }
    pose proof (keep K Hc) as Hc2. rewrite !lookup_insert_ne; [done|intros ->; congruence|].
    intros ->. rewrite (keep K2 Hu) in Hc2. injection Hc2 as <-. by apply (Hnc u).
Qed.
Lemma builtin_defined w P d ρ gs μ p gs1 μ1 v g x fn n : run_form w P d ρ gs μ (definition p) gs1 μ1 v ->
  (forall l, lookup_var (p_name p) gs = Some l -> exists u, μ !! l = Some (SVar (p_name p) u)) ->
  x <> p_name p -> builtin g μ x fn n -> builtin g μ1 x fn n.
Proof.
  intros H Hwf Hx (l & q & H1 & H2 & H3). destruct (definition_installs _ _ _ _ _ _ _ _ _ _ H Hwf) as (_ & _ & Hk).
  exists l, q. split; [done|]. split; apply Hk; try done. intros u [= E _]. done.
Qed.
(** a call of a procedure as a form of a program *)
Lemma call_form w d ρ gs0 gs μ p f es μ1 vs μ2 r : installed gs0 gs μ p f ->
  args w (prims w) gs true d ρ μ (resolve_all gs [] es) μ1 vs -> μ ⊆ μ1 -> apply w (prims w) gs true (S d) μ1 f vs μ2 r ->
  run_form w (prims w) (S d) ρ gs μ (EApp (EVar (p_name p)) es) gs μ2 r.
Proof.
  intros Hi Ha Hk Hp. destruct (installed_var _ _ _ _ _ Hi) as (l & E & _ & Hl). constructor; [done|].
  unfold resolve_form. cbn [resolve binders app]. rewrite (ref_global gs [] _ l) by (done || apply not_elem_of_nil). eapply ev_global_call; done.
Qed.
