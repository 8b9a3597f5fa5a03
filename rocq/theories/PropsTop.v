(** C44: what a program does: its top-level definitions and expressions, one after the other. *)
From stdpp Require Import base gmap list fin_maps.
From Coq Require Import ZArith Lia.
From Coq Require Import ZifyBool ZifyNat.
From Verif Require Import CInt Symbols Heap HeapLemmas GcModel GcSpec GcCheck DataModel BootModel Builtins DataSpec.
From Verif Require Import EvalModel Rep EvalSpec EvalRep EvalRun RepProofs EvalSteps PrimModel EvalPrimSpec EvalTop EvalCheck Samples.
From Verif Require Import TopSpec TopRep TopRun TopMain TopCheck PropsEval.
Import Strings.String.StringSyntax.
Open Scope Z_scope. Open Scope mes_scope.

(** C44.  [s] is a state in which a program, the list [i] of forms as the reader returns it, is to
    be run: the procedure that runs programs is in R3, and the frame of the caller is on top of the
    stack.  [T] is the table of global variables and [m] is the table of macros.  The global
    variables are [gs], the store is [μ].  If the semantics of programs (TopSpec.v) gives the
    program the value [v] and the global variables [gs'] with the store [μ'], there is stack and
    memory lasts, then the evaluator returns [v]; afterwards the table of global variables holds
    [gs'] and nothing else of the names in [xs], the store is [μ'], and the stack and the registers
    R0, R2 and R3 are what the caller saved: however often the collector moved everything. *)
Theorem C44_programs T xs m load fuel width d ρ gs μ es gs' μ' v :
  run_program width (prims width) d ρ gs μ v_unspecified es gs' μ' v ->
  forall f s σ r0 i r2 r2' x r0' p st sz gl ts D K,
    rep f (Mst σ r0 i r2 (Imp cell_vm_begin_expand) (Imp cell_unspecified :: r2' :: x :: r0' :: p :: st) sz gl) s ->
    world T xs m ρ gs μ σ r0 -> forms T xs m σ i ts es ->
    NoDup (all_nodes ts) -> Forall (untouched (all_nodes ts)) (r2' :: x :: r0' :: p :: st ++ gl) ->
    gl !! 1%nat = Some (Imp m) -> gl !! 3%nat = Some (Imp (tb_module T)) ->
    Forall (fun t => (depth t <= D)%nat /\ 4 * size t <= K) ts -> 0 <= K ->
    Z.of_nat (length st) + 5 * (Z.of_nat (Nat.max d D) + 4) <= sz ->
    roomy_ load fuel (step_memory width + K) L_eval_apply (Locals false false) s ->
    exists n q s' f' σ' j, (forall k, (n <= k)%nat -> eval_apply_ load fuel k s = ROk q s')
      /\ rep f' (Mst σ' r0' j r2' (Imp cell_unspecified) st sz gl) s'
      /\ f' j q /\ val_at σ' v j /\ world T xs m ρ gs' μ' σ' r0.
Proof.
  intros H f s σ r0 i r2 r2' x r0' p st sz gl ts D K R W F Hnd Hu Hm HM Hsz HK Hst Hroom.
  assert (goes (prim_call fuel) (load fuel) fuel any any (step_memory width + K) L_eval_apply
     (Mst σ r0 i r2 (Imp cell_vm_begin_expand) (Imp cell_unspecified :: r2' :: x :: r0' :: p :: st) sz gl) L_eval_apply
     (fun M' => exists σ' j', M' = Mst σ' r0' j' r2' (Imp cell_unspecified) st sz gl /\ world T xs m ρ gs' μ' σ' r0 /\ val_at σ' v j')) as [_ Hr].
  { eapply goes_bind with (d := true); [apply (runs_dispatch _ _ _ _ _ cell_vm_begin_expand L_begin_expand); [reflexivity|vm_compute; split; congruence]|unfold step_memory; lia|].
    eapply (eval_program T xs m ρ width d load fuel sz gl HM Hm gs μ v_unspecified es gs' μ' v H (step_memory width + K) K D);
      [apply (arrives_start xs)|exact W| |exact F|exact Hnd| |exact Hsz|cbn [length]; lia..|exact HK|unfold step_memory; lia].
    - destruct (cst_const _ _ (ba_consts _ (wo_base _ _ _ _ _ _ _ _ W)) cell_unspecified) as (t' & n' & d' & Hno & Ht' & _); [vm_compute; split; congruence|].
      cbn. split; [done|]. eexists. split; [exact Hno|]. cbn. destruct Ht' as [-> | ->]; auto.
    - cbn. constructor; [by intros ? _|exact Hu]. }
  destruct (Hr f _ s I R Hroom) as (f' & s' & M' & v' & St & _ & R' & σ' & j & -> & W' & V).
  destruct (steps_return _ _ _ _ _ _ _ _ St) as (n & Hn).
  { pose proof (rp_r3 _ _ _ R') as H3. cbn in H3. eapply (rh_fun _ _ _ (rp_heap _ _ _ R')); [exact H3|].
    eapply rep_const; [exact R'|]. vm_compute; split; congruence. }
  exists n, (R1 s'), s', f', σ', j. split; [exact Hn|]. split; [exact R'|]. split; [exact (rp_r1 _ _ _ R')|]. done.
Qed.

(** What the caller sees if the value is a number. *)
Corollary C44_returned_number T xs m load fuel width d ρ gs μ es gs' μ' n0 :
  run_program width (prims width) d ρ gs μ v_unspecified es gs' μ' (VNum n0) ->
  forall f s σ r0 i r2 r2' x r0' p st sz gl ts D K,
    rep f (Mst σ r0 i r2 (Imp cell_vm_begin_expand) (Imp cell_unspecified :: r2' :: x :: r0' :: p :: st) sz gl) s ->
    world T xs m ρ gs μ σ r0 -> forms T xs m σ i ts es ->
    NoDup (all_nodes ts) -> Forall (untouched (all_nodes ts)) (r2' :: x :: r0' :: p :: st ++ gl) ->
    gl !! 1%nat = Some (Imp m) -> gl !! 3%nat = Some (Imp (tb_module T)) ->
    Forall (fun t => (depth t <= D)%nat /\ 4 * size t <= K) ts -> 0 <= K ->
    Z.of_nat (length st) + 5 * (Z.of_nat (Nat.max d D) + 4) <= sz ->
    roomy_ load fuel (step_memory width + K) L_eval_apply (Locals false false) s ->
    exists n q s', (forall k, (n <= k)%nat -> eval_apply_ load fuel k s = ROk q s')
      /\ (exists c, heap s' !! q = Some c /\ c_ty c = TNUMBER /\ c_cdr c = n0)
      /\ g_stack s' = STACK_SIZE s' - Z.of_nat (length st).
Proof.
  intros H f s σ r0 i r2 r2' x r0' p st sz gl ts D K R W F Hnd Hu Hm HM Hsz HK Hst Hroom.
  destruct (C44_programs T xs m load fuel width d ρ gs μ es gs' μ' _ H f s σ r0 i r2 r2' x r0' p st sz gl ts D K R W F Hnd Hu Hm HM Hsz HK Hst Hroom)
    as (n & q & s' & f' & σ' & j & H1 & H2 & H3 & H4 & H5).
  exists n, q, s'. split; [done|]. destruct H4 as [_ H4]. split.
  - destruct (rh_obj _ _ _ (rp_heap _ _ _ H2) _ _ H3) as (o & Ho & Hobj). cbn in Ho. rewrite H4 in Ho. injection Ho as <-.
    destruct Hobj as (c & Hc' & Ht & _ & _ & Hd). by exists c.
  - destruct (rp_size _ _ _ H2) as [_ Hs]. cbn in Hs. lia.
Qed.

(** * A concrete run *)
(** Executing the semantics of programs *)
Section run.
Context (w : nat) (d : nat) (ρ : env).
Definition declare_fn (gs : list (Z * Z)) (μ : store) (x : Z) : option (Z * list (Z * Z) * store) :=
  match lookup_var x gs with
  | Some l => Some (l, gs, μ)
  | None => let l := fresh_loc μ in if decide (μ !! l = None) then Some (l, (x, l) :: gs, <[l := SVar x v_false]> μ) else None
  end.
Lemma declare_fn_ok gs μ x l gs1 μ1 : declare_fn gs μ x = Some (l, gs1, μ1) -> declares gs μ x l gs1 μ1.
Proof.
  unfold declare_fn. destruct (lookup_var x gs) as [l'|] eqn:E; [intros [= <- <- <-]; by constructor|]. cbv zeta. case_decide; [|done]. intros [= <- <- <-]. by constructor.
Qed.
Definition form_fn (gs : list (Z * Z)) (μ : store) (e : exp) : option (list (Z * Z) * store * val) :=
  match e with
  | EDefine x e1 =>
      match declare_fn gs μ x with
      | Some (l, gs1, μ1) => let l0 := fresh_loc μ1 in
          if decide (μ1 !! l0 = None) then
            match ev gs1 w false 100 d (EBind x l0 ρ) (<[l0 := SVar x (VAtom x)]> μ1) (resolve gs (binders e1 ++ [x]) e1) with
            | Some (μ2, v) => Some (gs1, <[l := SVar x v]> μ2, v_unspecified)
            | None => None
            end else None
      | None => None
      end
  | EDefun x xs r bd =>
      match declare_fn gs μ x with
      | Some (l, gs1, μ1) => if (length xs <=? w)%nat then
          match bind_fn (x :: xs ++ opt_list r) None (map VAtom (x :: xs ++ opt_list r)) μ1 with
          | Some (bs, μ2) => let lc := fresh_loc μ2 in
              if decide (μ2 !! lc = None) then
                Some (gs1, <[l := SVar x (VLoc lc)]> (<[lc := SClo xs r (resolve_all gs1 (xs ++ opt_list r) (resolve_all gs (xs ++ opt_list r) bd)) (extend bs ρ)]> μ2), v_unspecified)
              else None
          | None => None
          end else None
      | None => None
      end
  | _ => match ev gs w true 100 d ρ μ (resolve_form gs e) with Some (μ', v) => Some (gs, μ', v) | None => None end
  end.
Lemma form_fn_ok gs μ e gs' μ' v : form_fn gs μ e = Some (gs', μ', v) -> run_form w (prims w) d ρ gs μ e gs' μ' v.
Proof.
  unfold form_fn. generalize 100%nat. intros fu H.
  assert (expression e -> match ev gs w true fu d ρ μ (resolve_form gs e) with Some (μ', v) => Some (gs, μ', v) | None => None end = Some (gs', μ', v) -> run_form w (prims w) d ρ gs μ e gs' μ' v) as Hexp.
  { intros He. destruct (ev _ _ _ _ _ _ _ _) as [[μ1 v1]|] eqn:E; [|done]. intros [= <- <- <-]. apply ev_ok in E. by constructor. }
  destruct e as [| | | | | | | | |x e1|x ys r bd| |]; try (by apply Hexp).
  - destruct (declare_fn gs μ x) as [[[l gs1] μ1]|] eqn:E; [|done]. apply declare_fn_ok in E. cbv zeta in H. case_decide; [|done].
    destruct (ev _ _ _ _ _ _ _ _) as [[μ2 v2]|] eqn:E2; [|done]. injection H as <- <- <-. apply ev_ok in E2. by econstructor.
  - destruct (declare_fn gs μ x) as [[[l gs1] μ1]|] eqn:E; [|done]. apply declare_fn_ok in E. destruct (Nat.leb_spec (length ys) w); [|done].
    destruct (bind_fn _ _ _ _) as [[bs μ2]|] eqn:E2; [|done]. cbv zeta in H. case_decide; [|done]. injection H as <- <- <-. apply bind_fn_ok in E2. by econstructor.
Qed.
Fixpoint prog_fn (n : nat) (gs : list (Z * Z)) (μ : store) (v0 : val) (es : list exp) : option (list (Z * Z) * store * val) :=
  match n with
  | O => None
  | S n' =>
      match match es with EBegin bs :: es' => match bs ++ es' with [] => None | fs => Some fs end | _ => Some es end with
      | Some [] => Some (gs, μ, v0)
      | Some (e1 :: es1) => match form_fn gs μ e1 with Some (gs1, μ1, v1) => prog_fn n' gs1 μ1 v1 es1 | None => None end
      | None => None
      end
  end.
Lemma prog_fn_ok n : forall gs μ v0 es gs' μ' v, prog_fn n gs μ v0 es = Some (gs', μ', v) -> run_program w (prims w) d ρ gs μ v0 es gs' μ' v.
Proof.
  induction n as [|n IH]; intros gs μ v0 es gs' μ' v H; [done|]. cbn [prog_fn] in H.
  destruct es as [|e es]; [injection H as <- <- <-; constructor|].
  assert ((exists bs, e = EBegin bs) \/ forall bs, e <> EBegin bs) as [[bs ->]|Hne]. { destruct e; try (right; congruence). left. by eexists. }
  - destruct (bs ++ es) as [|e1 es1] eqn:E; [done|]. destruct (form_fn gs μ e1) as [[[gs1 μ1] v1]|] eqn:E1; [|done]. apply form_fn_ok in E1. eapply run_begin; [exact E|exact E1|by apply IH].
  - assert (match form_fn gs μ e with Some (gs1, μ1, v1) => prog_fn n gs1 μ1 v1 es | None => None end = Some (gs', μ', v)) as H'. { destruct e; try exact H. by destruct (Hne es0). }
    destruct (form_fn gs μ e) as [[[gs1 μ1] v1]|] eqn:E1; [|done]. apply form_fn_ok in E1. eapply run_next; [exact Hne|exact E1|by apply IH].
Qed.
End run.

(** The boot sequence with a small table of builtin procedures; then the program is about to be run. *)
Definition program_state_with (table : list (list Z * Z * Z)) (forms : list (M Z)) : res (list Z * list Z) :=
  (boot 200 7 table (bytes_of "/usr/share/mes") [bytes_of "mes"] ;;;
   gs <- sample_globals table ;; e <- list_m forms ;;
   r0 <- acons cell_symbol_program cell_nil cell_nil ;;
   push_cc e cell_unspecified r0 cell_unspecified ;;;
   modify (set_R3 cell_vm_begin_expand) ;;;
   ps <- cdrs gs ;; ret (gs, ps)) (init_state 8000 8000 1000 500 1000).
Definition program_state : list (M Z) -> res (list Z * list Z) := program_state_with sample_table.

(** the pairs below [p] *)
Fixpoint pairs_below (n : nat) (s : state) (p : Z) : list Z :=
  match n with
  | O => []
  | S n' => match heap s !! p with
            | Some c => if c_ty c =? TPAIR then p :: pairs_below n' s (c_car c) ++ pairs_below n' s (c_cdr c) else []
            | None => []
            end
  end.
Definition plain_view : naming := Naming ∅ ∅.
Definition slot_ref (ts : list aslot) (k : nat) : Z := match ts !! k with Some (ARef (Imp p)) => p | _ => 0 end.
Definition slots_of (s : state) (p : Z) : list aslot := match iget plain_view s (Imp p) with Some (OArr _ ts) => ts | _ => [] end.
Definition the_table (s : state) : table :=
  let t := slot_ref (slots_of s (the_module s)) 5 in
  Table (the_module s) t (match slots_of s t !! 3%nat with Some (ANum n) => n | _ => 0 end) (slot_ref (slots_of s t) 4).
Definition the_macros (s : state) : Z := nth 1 (globals s) 0.
Definition text_pairs (s : state) : list Z :=
  match list_b 100 (heap s) (R1 s) with Some ps => concat (map (pairs_below 100 s) ps) | None => [] end.
Definition program_view (l : list Z * list Z) (s : state) : naming := locs (fst l) (snd l) (tb_vector (the_table s) :: text_pairs s).
Definition symbols_of (L : naming) (s : state) (ts : list tree) : list Z :=
  List.filter (fun x => match iget L s (Imp x) with Some o => object_type o =? TSYMBOL | None => false end) (concat (map leaves ts)).
Definition untouched_b (U : list Z) (i : id) : bool := match i with Txt k => bool_decide (k ∉ U) | _ => true end.
Lemma untouched_b_ok U i : untouched_b U i = true -> untouched U i.
Proof. destruct i as [| | |k]; intros H z Hz; try done. cbn in H. apply bool_decide_eq_true in H. congruence. Qed.
Definition program_trees (l : list Z * list Z) (s : state) : option (list tree) :=
  let L := program_view l s in
  match dec_list L s (Z.to_nat 100) (R1 s) with Some ps => dec_trees L s ps | None => None end.
Definition program_names (l : list Z * list Z) (s : state) : list Z :=
  match program_trees l s with Some ts => symbols_of (program_view l s) s ts | None => [] end.
Definition program_ok (width depth_ size_ : nat) (chk : list (Z * Z) -> env -> list exp -> store -> bool) (l : list Z * list Z) (s : state) : bool :=
  let T := the_table s in
  let L := program_view l s in
  let gs := sample_vars l s in
  let xs := program_names l s in
  machine_check s (live_objects s) && (g_cells s + ARENA_SIZE s <? limit s) && (g_free s <=? limit s) && (cell_symbol_test <? g_symbol_max s)
  && forallb (fun k => (k <? cell_nil) || (g_symbol_max s <=? k)) (fst l ++ snd l ++ tb_vector T :: text_pairs s)
  && consts_b L s && (match heap s !! cell_nil with Some c => c_ty c =? TSPECIAL | None => false end)
  && (R3 s =? cell_vm_begin_expand) && (STACK_SIZE s =? 1000)
  && negb (inL L (the_module s)) && negb (inL L (the_macros s)) && negb (inL L cell_symbol_portable_macro_expand)
  && (match stack_entries s with [x; _; _; _; _] => x =? cell_unspecified | _ => false end)
  && globals_b L s T xs gs && forallb (fun x => bool_decide (lookup_var x gs = None)) reserved
  && no_macro_b L s (the_macros s) cell_symbol_portable_macro_expand
  && (match dec_env L s 10 (R0 s), forms_b L s T xs (the_macros s) (R1 s), dec_store (fst l) (snd l) (tb_vector T :: text_pairs s) s with
      | Some ρ, Some (ts, es), Some μ =>
          hides_b ρ && top_b L s (R0 s) && bool_decide (NoDup (all_nodes ts))
          && forallb (untouched_b (all_nodes ts)) ((name L <$> tail (stack_entries s)) ++ (name L <$> globals s))
          && forallb (fun t => (depth t <=? depth_)%nat && (4 * size t <=? Z.of_nat size_)) ts
          && chk gs ρ es μ && vars_b μ gs && map_fold (fun _ o b => match o with SClo _ _ _ _ => false | _ => b end) true μ
      | _, _, _ => false
      end)
  && roomy_b (prim_call sample_fuel) (no_load sample_fuel) sample_fuel (Z.to_nat 20000) (step_memory width + Z.of_nat size_) L_eval_apply (Locals false false) s.

(** (define (sum n) (if (= n 0) 0 (+ n (sum (- n 1)))))
    (define k 2)
    (begin (define z (sum k)) (set! k 100) (+ z k)) *)
Definition sum_code : list (M Z) :=
  let is := sym (bytes_of "=") in let plus := sym (bytes_of "+") in let minus := sym (bytes_of "-") in
  let sum := sym (bytes_of "sum") in let n := sym (bytes_of "n") in let k := sym (bytes_of "k") in let z := sym (bytes_of "z") in
  [list_m [ret cell_symbol_define; list_m [sum; n];
           list_m [ret cell_symbol_if; list_m [is; n; make_number 0]; make_number 0; list_m [plus; n; list_m [sum; list_m [minus; n; make_number 1]]]]];
   list_m [ret cell_symbol_define; k; make_number 2];
   list_m [ret cell_symbol_begin; list_m [ret cell_symbol_define; z; list_m [sum; k]]; list_m [ret cell_symbol_set_x; k; make_number 100]; list_m [plus; z; k]]].
Definition sum_chk (gs : list (Z * Z)) (ρ : env) (es : list exp) (μ : store) : bool :=
  match prog_fn 4 40 ρ 20 gs μ v_unspecified es with Some (_, _, VNum n) => n =? 103 | _ => false end.
Lemma sum_chk_ok gs ρ es μ : sum_chk gs ρ es μ = true -> exists gs' μ', run_program 4 (prims 4) 40 ρ gs μ v_unspecified es gs' μ' (VNum 103).
Proof.
  unfold sum_chk. generalize 20%nat 40%nat. intros k d H. destruct (prog_fn 4 d ρ k gs μ v_unspecified es) as [[[gs' μ'] [n| | | |]]|] eqn:Hp; try discriminate H.
  apply Z.eqb_eq in H as ->. apply prog_fn_ok in Hp. by exists gs', μ'.
Qed.
Lemma no_expander_ok L s m : inL L cell_nil = false -> no_macro_b L s m cell_symbol_portable_macro_expand = true -> no_expander m (abs_heap L s).
Proof. intros Hn H o _ _. by apply no_macro_b_ok. Qed.
Lemma program_ok_spec width depth_ size_ chk l s : program_ok width depth_ size_ chk l s = true ->
  let L := program_view l s in let T := the_table s in let xs x := x ∈ program_names l s in let m := the_macros s in let σ := abs_heap L s in
  exists ρ es μ ts r2' x r0' p, chk (sample_vars l s) ρ es μ = true
    /\ rep (view_map L s) (Mst σ (name L (R0 s)) (name L (R1 s)) (name L (R2 s)) (Imp cell_vm_begin_expand) [Imp cell_unspecified; r2'; x; r0'; p] 1000 (name L <$> globals s)) s
    /\ world T xs m ρ (sample_vars l s) μ σ (name L (R0 s)) /\ forms T xs m σ (name L (R1 s)) ts es
    /\ NoDup (all_nodes ts) /\ Forall (untouched (all_nodes ts)) (r2' :: x :: r0' :: p :: [] ++ (name L <$> globals s))
    /\ (name L <$> globals s) !! 1%nat = Some (Imp m) /\ (name L <$> globals s) !! 3%nat = Some (Imp (tb_module T))
    /\ Forall (fun t => (depth t <= depth_)%nat /\ 4 * size t <= Z.of_nat size_) ts
    /\ roomy_ no_load sample_fuel (step_memory width + Z.of_nat size_) L_eval_apply (Locals false false) s.
Proof.
  unfold program_ok. set (L := program_view l s). cbv zeta. intros H.
  apply andb_prop in H as [H Hroom]. apply andb_prop in H as [H He]. apply andb_prop in H as [H Hexp]. apply andb_prop in H as [H Hres]. apply andb_prop in H as [H Hgl].
  apply andb_prop in H as [H Hst]. apply andb_prop in H as [H Hpm%negb_true_iff]. apply andb_prop in H as [H Hmm%negb_true_iff]. apply andb_prop in H as [H Hmo%negb_true_iff].
  apply andb_prop in H as [H Hsz%Z.eqb_eq]. apply andb_prop in H as [H H3%Z.eqb_eq]. apply andb_prop in H as [H Hn]. apply andb_prop in H as [H Hc].
  apply andb_prop in H as [H Hl]. apply andb_prop in H as [H Hmax]. apply andb_prop in H as [H Hf]. apply andb_prop in H as [Hm Ha].
  destruct (consts_b_ok L s [] cell_nil Hc eq_refl) as [C HL]. pose proof (HL cell_nil ltac:(vm_compute; split; congruence)) as Hnil.
  rewrite (inL_imp _ _ Hnil) in C.
  destruct (dec_env L s 10 (R0 s)) as [ρ|] eqn:Er; [|done].
  destruct (forms_b L s _ _ _ (R1 s)) as [[ts es]|] eqn:Ee; [|done]. destruct (dec_store (fst l) (snd l) _ s) as [μ|] eqn:Eμ; [|done].
  apply andb_prop in He as [He Hclo]. apply andb_prop in He as [He Hvars]. apply andb_prop in He as [He Hchk]. apply andb_prop in He as [He Hsize].
  apply andb_prop in He as [He Hunt]. apply andb_prop in He as [He Hnd%bool_decide_eq_true]. apply andb_prop in He as [Hhid Htop].
  destruct (stack_entries s) as [|c [|r2' [|x [|r0' [|p [|]]]]]] eqn:Est; try done. apply Z.eqb_eq in Hst as ->.
  destruct (dec_env_ok _ _ _ Hnil _ _ Er) as [Er1 Er2]. apply forms_b_ok in Ee; [|done].
  assert (rep (view_map L s) (Mst (abs_heap L s) (name L (R0 s)) (name L (R1 s)) (name L (R2 s)) (Imp cell_vm_begin_expand) [Imp cell_unspecified; name L r2'; name L x; name L r0'; name L p] 1000 (name L <$> globals s)) s) as R.
  { pose proof (view_ok L s (machine_check_ok _ _ Hm) ltac:(lia) ltac:(lia) ltac:(lia)) as Hv.
    unfold view in Hv. rewrite Est in Hv. rewrite H3, Hsz in Hv. cbn in Hv.
    rewrite (inL_imp L cell_unspecified), (inL_imp L cell_vm_begin_expand) in Hv by (apply HL; vm_compute; split; congruence).
    apply Hv. intros k Hk. unfold inL. rewrite forallb_forall in Hl. apply orb_false_iff. split; apply bool_decide_eq_false; intros Hin; unfold L, program_view, locs in Hin; cbn [nm_loc nm_txt] in Hin; apply elem_of_list_to_set in Hin.
    - apply elem_of_app in Hin. specialize (Hl k ltac:(apply elem_of_list_In; rewrite !elem_of_app; tauto)). lia.
    - specialize (Hl k ltac:(apply elem_of_list_In; rewrite !elem_of_app; tauto)). lia. }
  exists ρ, es, μ, ts, (name L r2'), (name L x), (name L r0'), (name L p). split; [done|]. split; [done|]. split.
  - split.
    + split; [done|]. destruct (heap s !! cell_nil) as [c|] eqn:Ec; [|done]. apply Z.eqb_eq in Hn.
      pose proof (abs_lookup L s cell_nil) as Hp. rewrite inL_imp, Ec in Hp by done. cbn in Hp. unfold abs_obj, is_array, GcSpec.is_bytes, abs_word in Hp. rewrite Hn in Hp. cbn in Hp. by eexists _, _.
    + by apply globals_b_ok.
    + by apply top_b_ok.
    + intros y Hy. rewrite forallb_forall in Hres. apply elem_of_list_In, Hres in Hy. by apply bool_decide_eq_true in Hy.
    + apply dec_store_ok; [apply HL; vm_compute; split; congruence|done].
    + by apply no_closures.
    + by apply no_expander_ok.
  - split; [done|]. split; [done|]. split; [|split; [|split; [|split]]].
    + rewrite Forall_forall. intros j Hj. apply untouched_b_ok. rewrite forallb_forall in Hunt. apply Hunt, elem_of_list_In. exact Hj.
    + rewrite <- (inL_imp _ _ Hmm). done.
    + change (tb_module (the_table s)) with (the_module s). rewrite <- (inL_imp _ _ Hmo). done.
    + rewrite Forall_forall. intros t Ht. rewrite forallb_forall in Hsize. apply elem_of_list_In, Hsize in Ht. lia.
    + by eapply roomy_b_ok.
Qed.
Example C44_programs_ex : exists l s, program_state sum_code = ROk l s /\
  exists n q s', (forall k, (n <= k)%nat -> eval_apply_ no_load sample_fuel k s = ROk q s')
      /\ (exists c, heap s' !! q = Some c /\ c_ty c = TNUMBER /\ c_cdr c = 103) /\ g_stack s' = STACK_SIZE s'.
Proof.
  destruct (check_res (program_state sum_code) (fun l s => program_ok 4 20 240 sum_chk l s)) as (l & s & E & H). { vm_compute. reflexivity. }
  exists l, s. split; [exact E|]. clear E.
  apply program_ok_spec in H as (ρ & es & μ & ts & r2' & x & r0' & p & Hchk & R & W & F & Hnd & Hu & Hm & HM & Hsz & Hroom).
  apply sum_chk_ok in Hchk as (gs' & μ' & Hrun).
  destruct (C44_returned_number _ _ _ no_load sample_fuel 4 40 ρ _ μ es gs' μ' 103 Hrun
     _ s _ _ _ _ _ _ _ _ [] _ _ ts 20 240 R W F Hnd Hu Hm HM Hsz ltac:(lia) ltac:(cbn; lia) Hroom) as (n & q & s' & Q1 & Q2 & Q3).
  exists n, q, s'. split; [done|]. split; [done|]. cbn in Q3. lia.
Qed.

(** A program with lists and vectors:
    (define v (list->vector (append2 (list 1 2) (list 3))))
    (vector-set! v 1 (vector-ref v 2))
    (+ (vector-ref v 0) (vector-ref v 1) (vector-ref v 2)) *)
Definition vector_table : list (list Z * Z * Z) :=
  [(bytes_of "list", -1, fn_list); (bytes_of "append2", 2, fn_append2); (bytes_of "list->vector", 1, fn_list_to_vector);
   (bytes_of "vector-ref", 2, fn_vector_ref); (bytes_of "vector-set!", 3, fn_vector_set_x); (bytes_of "+", -1, fn_plus)].
Definition vector_code : list (M Z) :=
  let lst := sym (bytes_of "list") in let append := sym (bytes_of "append2") in let vec := sym (bytes_of "list->vector") in
  let ref := sym (bytes_of "vector-ref") in let set := sym (bytes_of "vector-set!") in let plus := sym (bytes_of "+") in let v := sym (bytes_of "v") in
  [list_m [ret cell_symbol_define; v; list_m [vec; list_m [append; list_m [lst; make_number 1; make_number 2]; list_m [lst; make_number 3]]]];
   list_m [set; v; make_number 1; list_m [ref; v; make_number 2]];
   list_m [plus; list_m [ref; v; make_number 0]; list_m [ref; v; make_number 1]; list_m [ref; v; make_number 2]]].
Definition vector_chk (gs : list (Z * Z)) (ρ : env) (es : list exp) (μ : store) : bool :=
  match prog_fn 6 40 ρ 20 gs μ v_unspecified es with Some (_, _, VNum n) => n =? 7 | _ => false end.
Lemma vector_chk_ok gs ρ es μ : vector_chk gs ρ es μ = true -> exists gs' μ', run_program 6 (prims 6) 40 ρ gs μ v_unspecified es gs' μ' (VNum 7).
Proof.
  unfold vector_chk. generalize 20%nat 40%nat. intros k d H. destruct (prog_fn 6 d ρ k gs μ v_unspecified es) as [[[gs' μ'] [n| | | |]]|] eqn:Hp; try discriminate H.
  apply Z.eqb_eq in H as ->. apply prog_fn_ok in Hp. by exists gs', μ'.
Qed.
Example C44_vector_example : exists l s, program_state_with vector_table vector_code = ROk l s
  /\ exists n q s', (forall k, (n <= k)%nat -> eval_apply_ no_load sample_fuel k s = ROk q s')
      /\ (exists c, heap s' !! q = Some c /\ c_ty c = TNUMBER /\ c_cdr c = 7) /\ g_stack s' = STACK_SIZE s'.
Proof.
  destruct (check_res (program_state_with vector_table vector_code) (fun l s => program_ok 6 20 240 vector_chk l s)) as (l & s & E & H). { vm_compute. reflexivity. }
  exists l, s. split; [exact E|]. clear E.
  apply program_ok_spec in H as (ρ & es & μ & ts & r2' & x & r0' & p & Hchk & R & W & F & Hnd & Hu & Hm & HM & Hsz & Hroom).
  apply vector_chk_ok in Hchk as (gs' & μ' & Hrun).
  destruct (C44_returned_number _ _ _ no_load sample_fuel 6 40 ρ _ μ es gs' μ' 7 Hrun
     _ s _ _ _ _ _ _ _ _ [] _ _ ts 20 240 R W F Hnd Hu Hm HM Hsz ltac:(lia) ltac:(cbn; lia) Hroom) as (n & q & s' & Q1 & Q2 & Q3).
  exists n, q, s'. split; [done|]. split; [done|]. cbn in Q3. lia.
Qed.

Print Assumptions C44_programs.
Print Assumptions C44_returned_number.
