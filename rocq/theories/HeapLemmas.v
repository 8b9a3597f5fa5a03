(** Rewriting lemmas for the outcome monad over states of the form [upd h fr s]. *)
From stdpp Require Import base gmap list.
From Coq Require Import ZArith Lia.
From Verif Require Import CInt Symbols Heap.
Open Scope Z_scope.
Open Scope mes_scope.

Definition upd (h : gmap Z cell) (fr : Z) (s : state) : state := set_g_free fr (set_heap h s).
Global Arguments upd : simpl never.

Lemma upd_id s : upd (heap s) (g_free s) s = s.
Proof. by destruct s. Qed.
Lemma upd_upd h fr h' fr' s : upd h fr (upd h' fr' s) = upd h fr s.
Proof. by destruct s. Qed.
Lemma heap_upd h fr s : heap (upd h fr s) = h. Proof. done. Qed.
Lemma g_free_upd h fr s : g_free (upd h fr s) = fr. Proof. done. Qed.
Lemma set_heap_upd h h' fr s : set_heap h (upd h' fr s) = upd h fr s.
Proof. by destruct s. Qed.
Lemma set_g_free_upd h fr' fr s : set_g_free fr (upd h fr' s) = upd h fr s.
Proof. by destruct s. Qed.
Lemma g_cells_upd h fr s : g_cells (upd h fr s) = g_cells s. Proof. done. Qed.
Lemma g_news_upd h fr s : g_news (upd h fr s) = g_news s. Proof. done. Qed.
Lemma limit_upd h fr s : limit (upd h fr s) = limit s. Proof. done. Qed.
Lemma ARENA_SIZE_upd h fr s : ARENA_SIZE (upd h fr s) = ARENA_SIZE s. Proof. done. Qed.
Lemma MAX_ARENA_SIZE_upd h fr s : MAX_ARENA_SIZE (upd h fr s) = MAX_ARENA_SIZE s. Proof. done. Qed.
Lemma JAM_SIZE_upd h fr s : JAM_SIZE (upd h fr s) = JAM_SIZE s. Proof. done. Qed.
Lemma GC_SAFETY_upd h fr s : GC_SAFETY (upd h fr s) = GC_SAFETY s. Proof. done. Qed.
Lemma MAX_STRING_upd h fr s : MAX_STRING (upd h fr s) = MAX_STRING s. Proof. done. Qed.
Lemma STACK_SIZE_upd h fr s : STACK_SIZE (upd h fr s) = STACK_SIZE s. Proof. done. Qed.
Lemma g_stack_array_upd h fr s : g_stack_array (upd h fr s) = g_stack_array s. Proof. done. Qed.
Lemma g_stack_upd h fr s : g_stack (upd h fr s) = g_stack s. Proof. done. Qed.
Lemma R0_upd h fr s : R0 (upd h fr s) = R0 s. Proof. done. Qed.
Lemma R1_upd h fr s : R1 (upd h fr s) = R1 s. Proof. done. Qed.
Lemma R2_upd h fr s : R2 (upd h fr s) = R2 s. Proof. done. Qed.
Lemma R3_upd h fr s : R3 (upd h fr s) = R3 s. Proof. done. Qed.
Lemma M0_upd h fr s : M0 (upd h fr s) = M0 s. Proof. done. Qed.
Lemma g_symbols_upd h fr s : g_symbols (upd h fr s) = g_symbols s. Proof. done. Qed.
Lemma g_macros_upd h fr s : g_macros (upd h fr s) = g_macros s. Proof. done. Qed.
Lemma g_ports_upd h fr s : g_ports (upd h fr s) = g_ports s. Proof. done. Qed.
Lemma g_symbol_max_upd h fr s : g_symbol_max (upd h fr s) = g_symbol_max s. Proof. done. Qed.
Lemma g_continuations_upd h fr s : g_continuations (upd h fr s) = g_continuations s. Proof. done. Qed.
Lemma std_in_upd h fr s : std_in (upd h fr s) = std_in s. Proof. done. Qed.
Lemma in_fds_upd h fr s : in_fds (upd h fr s) = in_fds s. Proof. done. Qed.
Lemma unget_upd h fr s : unget (upd h fr s) = unget s. Proof. done. Qed.
Lemma out_fds_upd h fr s : out_fds (upd h fr s) = out_fds s. Proof. done. Qed.
Lemma set_g_cells_upd v h fr s : set_g_cells v (upd h fr s) = upd h fr (set_g_cells v s). Proof. done. Qed.
Lemma set_g_news_upd v h fr s : set_g_news v (upd h fr s) = upd h fr (set_g_news v s). Proof. done. Qed.
Lemma set_limit_upd v h fr s : set_limit v (upd h fr s) = upd h fr (set_limit v s). Proof. done. Qed.
Lemma set_ARENA_SIZE_upd v h fr s : set_ARENA_SIZE v (upd h fr s) = upd h fr (set_ARENA_SIZE v s). Proof. done. Qed.
Lemma set_MAX_ARENA_SIZE_upd v h fr s : set_MAX_ARENA_SIZE v (upd h fr s) = upd h fr (set_MAX_ARENA_SIZE v s). Proof. done. Qed.
Lemma set_JAM_SIZE_upd v h fr s : set_JAM_SIZE v (upd h fr s) = upd h fr (set_JAM_SIZE v s). Proof. done. Qed.
Lemma set_GC_SAFETY_upd v h fr s : set_GC_SAFETY v (upd h fr s) = upd h fr (set_GC_SAFETY v s). Proof. done. Qed.
Lemma set_MAX_STRING_upd v h fr s : set_MAX_STRING v (upd h fr s) = upd h fr (set_MAX_STRING v s). Proof. done. Qed.
Lemma set_STACK_SIZE_upd v h fr s : set_STACK_SIZE v (upd h fr s) = upd h fr (set_STACK_SIZE v s). Proof. done. Qed.
Lemma set_g_stack_array_upd v h fr s : set_g_stack_array v (upd h fr s) = upd h fr (set_g_stack_array v s). Proof. done. Qed.
Lemma set_g_stack_upd v h fr s : set_g_stack v (upd h fr s) = upd h fr (set_g_stack v s). Proof. done. Qed.
Lemma set_R0_upd v h fr s : set_R0 v (upd h fr s) = upd h fr (set_R0 v s). Proof. done. Qed.
Lemma set_R1_upd v h fr s : set_R1 v (upd h fr s) = upd h fr (set_R1 v s). Proof. done. Qed.
Lemma set_R2_upd v h fr s : set_R2 v (upd h fr s) = upd h fr (set_R2 v s). Proof. done. Qed.
Lemma set_R3_upd v h fr s : set_R3 v (upd h fr s) = upd h fr (set_R3 v s). Proof. done. Qed.
Lemma set_M0_upd v h fr s : set_M0 v (upd h fr s) = upd h fr (set_M0 v s). Proof. done. Qed.
Lemma set_g_symbols_upd v h fr s : set_g_symbols v (upd h fr s) = upd h fr (set_g_symbols v s). Proof. done. Qed.
Lemma set_g_macros_upd v h fr s : set_g_macros v (upd h fr s) = upd h fr (set_g_macros v s). Proof. done. Qed.
Lemma set_g_ports_upd v h fr s : set_g_ports v (upd h fr s) = upd h fr (set_g_ports v s). Proof. done. Qed.
Lemma set_g_symbol_max_upd v h fr s : set_g_symbol_max v (upd h fr s) = upd h fr (set_g_symbol_max v s). Proof. done. Qed.
Lemma set_g_continuations_upd v h fr s : set_g_continuations v (upd h fr s) = upd h fr (set_g_continuations v s). Proof. done. Qed.
Lemma set_std_in_upd v h fr s : set_std_in v (upd h fr s) = upd h fr (set_std_in v s). Proof. done. Qed.
Lemma set_in_fds_upd v h fr s : set_in_fds v (upd h fr s) = upd h fr (set_in_fds v s). Proof. done. Qed.
Lemma set_unget_upd v h fr s : set_unget v (upd h fr s) = upd h fr (set_unget v s). Proof. done. Qed.
Lemma set_out_fds_upd v h fr s : set_out_fds v (upd h fr s) = upd h fr (set_out_fds v s). Proof. done. Qed.

Global Hint Rewrite upd_upd heap_upd g_free_upd set_heap_upd set_g_free_upd
  g_cells_upd g_news_upd limit_upd ARENA_SIZE_upd MAX_ARENA_SIZE_upd JAM_SIZE_upd GC_SAFETY_upd MAX_STRING_upd STACK_SIZE_upd g_stack_array_upd g_stack_upd R0_upd R1_upd R2_upd R3_upd M0_upd g_symbols_upd g_macros_upd g_ports_upd g_symbol_max_upd g_continuations_upd std_in_upd in_fds_upd unget_upd out_fds_upd
  set_g_cells_upd set_g_news_upd set_limit_upd set_ARENA_SIZE_upd set_MAX_ARENA_SIZE_upd set_JAM_SIZE_upd set_GC_SAFETY_upd set_MAX_STRING_upd set_STACK_SIZE_upd set_g_stack_array_upd set_g_stack_upd set_R0_upd set_R1_upd set_R2_upd set_R3_upd set_M0_upd set_g_symbols_upd set_g_macros_upd set_g_ports_upd set_g_symbol_max_upd set_g_continuations_upd set_std_in_upd set_in_fds_upd set_unget_upd set_out_fds_upd : upd.

Lemma bind_ok {A B} (m : M A) (k : A -> M B) s a s' : m s = ROk a s' -> bind m k s = k a s'.
Proof. intros H; unfold bind; by rewrite H. Qed.
Lemma bind_ret {A B} (a : A) (k : A -> M B) s : bind (ret a) k s = k a s.
Proof. done. Qed.
Lemma bind_assoc {A B C} (m : M A) (k : A -> M B) (k' : B -> M C) s :
  bind (bind m k) k' s = bind m (fun a => bind (k a) k') s.
Proof. unfold bind; by destruct (m s). Qed.
Lemma bind_gets {A B} (f : state -> A) (k : A -> M B) s : bind (gets f) k s = k (f s) s.
Proof. done. Qed.
Lemma bind_get {B} (k : state -> M B) s : bind get k s = k s s.
Proof. done. Qed.
Lemma bind_modify {B} f (k : unit -> M B) s : bind (modify f) k s = k tt (f s).
Proof. done. Qed.

Lemma rd_ok p c h fr s : h !! p = Some c -> rd p (upd h fr s) = ROk c (upd h fr s).
Proof. intros H; unfold rd; by rewrite heap_upd, H. Qed.
Lemma rd_ok' p c s : heap s !! p = Some c -> rd p s = ROk c s.
Proof. intros H; unfold rd; by rewrite H. Qed.
Lemma wr_ok p c h fr s : 1 <= p < limit s -> wr p c (upd h fr s) = ROk tt (upd (<[p:=c]> h) fr s).
Proof.
  intros H; unfold wr. rewrite limit_upd.
  destruct (Z.leb_spec 1 p), (Z.ltb_spec p (limit s)); try lia. cbn.
  by rewrite heap_upd, set_heap_upd.
Qed.
Lemma ty_ok p c h fr s : h !! p = Some c -> ty p (upd h fr s) = ROk (c_ty c) (upd h fr s).
Proof. intros H; unfold ty. by erewrite bind_ok by by apply rd_ok. Qed.
Lemma car_of_ok p c h fr s : h !! p = Some c -> car_of p (upd h fr s) = ROk (c_car c) (upd h fr s).
Proof. intros H; unfold car_of. by erewrite bind_ok by by apply rd_ok. Qed.
Lemma cdr_of_ok p c h fr s : h !! p = Some c -> cdr_of p (upd h fr s) = ROk (c_cdr c) (upd h fr s).
Proof. intros H; unfold cdr_of. by erewrite bind_ok by by apply rd_ok. Qed.
Lemma set_car_ok p c a h fr s : h !! p = Some c -> 1 <= p < limit s ->
  set_car p a (upd h fr s) = ROk tt (upd (<[p := Cell (c_ty c) a (c_cdr c) (c_bytes c)]> h) fr s).
Proof. intros H Hp; unfold set_car. erewrite bind_ok by by apply rd_ok. by apply wr_ok. Qed.
Lemma set_cdr_ok p c d h fr s : h !! p = Some c -> 1 <= p < limit s ->
  set_cdr p d (upd h fr s) = ROk tt (upd (<[p := Cell (c_ty c) (c_car c) d (c_bytes c)]> h) fr s).
Proof. intros H Hp; unfold set_cdr. erewrite bind_ok by by apply rd_ok. by apply wr_ok. Qed.
Lemma set_ty_ok p c t h fr s : h !! p = Some c -> 1 <= p < limit s ->
  set_ty p t (upd h fr s) = ROk tt (upd (<[p := Cell t (c_car c) (c_cdr c) (c_bytes c)]> h) fr s).
Proof. intros H Hp; unfold set_ty. erewrite bind_ok by by apply rd_ok. by apply wr_ok. Qed.
Lemma copy_cell_ok to from c h fr s : h !! from = Some c -> 1 <= to < limit s ->
  copy_cell to from (upd h fr s) = ROk tt (upd (<[to := Cell (c_ty c) (c_car c) (c_cdr c) []]> h) fr s).
Proof. intros H Hp; unfold copy_cell. erewrite bind_ok by by apply rd_ok. by apply wr_ok. Qed.

Lemma del_cells_lookup_out h p n q : (q < p \/ p + Z.of_nat n <= q) -> del_cells h p n !! q = h !! q.
Proof.
  revert h p; induction n as [|n IH]; intros h p Hq; cbn [del_cells]; [done|].
  rewrite IH by lia. apply lookup_delete_ne. lia.
Qed.
Lemma del_cells_subset h p n q c : del_cells h p n !! q = Some c -> h !! q = Some c.
Proof.
  revert h p; induction n as [|n IH]; intros h p Hq; cbn [del_cells] in Hq; [done|].
  apply IH in Hq. by apply lookup_delete_Some in Hq as [_ ?].
Qed.

Lemma set_bytes_ok p c bs h fr s :
  h !! p = Some c -> p + touched_cells (Z.of_nat (length bs)) <= limit s ->
  set_bytes p bs (upd h fr s) =
  ROk tt (upd (<[p := Cell (c_ty c) (c_car c) (c_cdr c) bs]>
     (del_cells h (p + 1) (Z.to_nat (touched_cells (Z.of_nat (length bs)) - 1)))) fr s).
Proof.
  intros H Hl; unfold set_bytes. erewrite bind_ok by by apply rd_ok.
  rewrite bind_get, limit_upd. destruct (Z.leb_spec (p + touched_cells (Z.of_nat (length bs))) (limit s)); [|lia].
  unfold modify. by rewrite heap_upd, set_heap_upd.
Qed.

Ltac Zify.zify_post_hook ::= Z.div_mod_to_equations.

Lemma touched_le_bytes n : 0 <= n -> 1 <= touched_cells n <= bytes_cells n.
Proof. unfold touched_cells, bytes_cells; lia. Qed.
Lemma bytes_cells_pos n : 0 <= n -> 2 <= bytes_cells n.
Proof. unfold bytes_cells; lia. Qed.
(** enough room: two words and the payload fit into the cells allocated *)
Lemma bytes_cells_enough n : 0 <= n -> 16 + n <= 24 * bytes_cells n.
Proof. unfold bytes_cells; lia. Qed.

(** Allocation *)
Lemma make_cell_ok t a d h fr s :
  1 <= fr < limit s -> fr + 1 - g_cells s <= ARENA_SIZE s ->
  make_cell t a d (upd h fr s) = ROk fr (upd (<[fr := Cell t a d []]> h) (fr + 1) s).
Proof.
  intros H1 H2; unfold make_cell.
  rewrite bind_gets, bind_modify, bind_get. autorewrite with upd.
  destruct (Z.ltb_spec (ARENA_SIZE s) (fr + 1 - g_cells s)); [lia|].
  rewrite bind_ret. by erewrite bind_ok by by apply wr_ok.
Qed.

Lemma alloc_ok n h fr s :
  fr + n - g_cells s <= ARENA_SIZE s ->
  alloc n (upd h fr s) = ROk fr (upd h (fr + n) s).
Proof.
  intros H2; unfold alloc.
  rewrite bind_gets, bind_modify, bind_get. autorewrite with upd.
  destruct (Z.ltb_spec (ARENA_SIZE s) (fr + n - g_cells s)); [lia|].
  by rewrite bind_ret.
Qed.
