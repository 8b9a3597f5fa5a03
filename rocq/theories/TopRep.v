(** The text of programs that have not been expanded yet, and the tables of global variables and of
    macros, as objects without addresses. *)
From stdpp Require Import base gmap list.
From Coq Require Import ZArith Lia.
From Verif Require Import CInt Symbols Heap GcSpec DataSpec Rep EvalSpec EvalRep TopSpec.
Open Scope Z_scope.

(** * Text
    The pairs of a text are objects [Txt k] of their own: no pair occurs twice. *)
Inductive tree : Type := Leaf (i : id) | Node (k : Z) (a d : tree).
Definition root (t : tree) : id := match t with Leaf i => i | Node k _ _ => Txt k end.
Fixpoint nodes (t : tree) : list Z :=
  match t with Leaf _ => [] | Node k a d => k :: nodes a ++ nodes d end.
(** the number of pairs, and the number of pairs on the longest way into the text *)
Definition tsize (t : tree) : nat := length (nodes t).
Fixpoint depth (t : tree) : nat :=
  match t with Leaf _ => 0 | Node _ a d => S (Nat.max (depth a) (depth d)) end.
Inductive tree_at (σ : oheap) : tree -> Prop :=
| ta_leaf i : (forall k, i <> Txt k) -> tree_at σ (Leaf i)
| ta_node k a d : σ !! Txt k = Some (opair (root a) (root d)) -> tree_at σ a -> tree_at σ d ->
    tree_at σ (Node k a d).

Notation Sym k := (Leaf (Imp k)).
Inductive names_tree (σ : oheap) : list Z -> option Z -> tree -> Prop :=
| nt_nil : names_tree σ [] None (Sym cell_nil)
| nt_rest r : name_ok σ r -> names_tree σ [] (Some r) (Sym r)
| nt_cons x xs r k d : name_ok σ x -> names_tree σ xs r d ->
    names_tree σ (x :: xs) r (Node k (Sym x) d).

(** the symbols that the expansion looks for at the head of a form *)
Definition heads : list Z :=
  [cell_symbol_lambda; cell_symbol_define; cell_symbol_define_macro; cell_symbol_quote;
   cell_symbol_set_x; cell_symbol_begin].

(** expressions as trees: the same as [code_at] for text *)
Inductive parse (σ : oheap) : exp -> tree -> Prop :=
| pa_const v k o : val_at σ v (Imp k) -> σ !! Imp k = Some o -> self_evaluating o -> k ∉ heads ->
    parse σ (EConst v) (Sym k)
| pa_quote v k k' a : val_at σ v a ->
    parse σ (EQuote v) (Node k (Sym cell_symbol_quote) (Node k' (Leaf a) (Sym cell_nil)))
| pa_var x : name_ok σ x -> parse σ (EVar x) (Sym x)
| pa_global l k : σ !! Imp k = Some (OCell TVARIABLE (WId (Loc l)) (WInt 0)) -> parse σ (EGlobal l) (Sym k)
| pa_if c t e k d : parses σ [c; t; e] d -> parse σ (EIf c t e) (Node k (Sym cell_symbol_if) d)
| pa_when c t k d : parses σ [c; t] d -> parse σ (EWhen c t) (Node k (Sym cell_symbol_if) d)
| pa_lam xs r bd k k' fm b : names_tree σ xs r fm -> parses σ bd b ->
    parse σ (ELam xs r bd) (Node k (Sym cell_symbol_lambda) (Node k' fm b))
| pa_set x e k d : parses σ [EVar x; e] d -> parse σ (ESet x e) (Node k (Sym cell_symbol_set_x) d)
| pa_set_global l e k d : parses σ [EGlobal l; e] d -> parse σ (ESetGlobal l e) (Node k (Sym cell_symbol_set_x) d)
| pa_define x e k k' d : name_ok σ x -> parses σ [e] d ->
    parse σ (EDefine x e) (Node k (Sym cell_symbol_define) (Node k' (Sym x) d))
| pa_defun x xs r bd k k' k2 fm b : name_ok σ x -> names_tree σ xs r fm -> parses σ bd b ->
    parse σ (EDefun x xs r bd) (Node k (Sym cell_symbol_define) (Node k' (Node k2 (Sym x) fm) b))
| pa_begin es k b : parses σ es b -> parse σ (EBegin es) (Node k (Sym cell_symbol_begin) b)
| pa_app f es k a b : operator f -> parse σ f a -> parses σ es b -> parse σ (EApp f es) (Node k a b)
with parses (σ : oheap) : list exp -> tree -> Prop :=
| ps_nil : parses σ [] (Sym cell_nil)
| ps_cons e es k a d : parse σ e a -> parses σ es d -> parses σ (e :: es) (Node k a d).

(** the symbols of a text *)
Inductive occurs (x : Z) : tree -> Prop :=
| oc_leaf : occurs x (Sym x)
| oc_car k a d : occurs x a -> occurs x (Node k a d)
| oc_cdr k a d : occurs x d -> occurs x (Node k a d).

(** * Tables
    The number of the bucket for symbol [x] in a table of [size] buckets. *)
Definition bucket_of (σ : oheap) (size x h : Z) : Prop :=
  exists n nb nm, σ !! Imp x = Some (OCell TSYMBOL (WInt n) (WId (Imp nb))) /\
    σ !! Imp nb = Some (OBytes (nm ++ [0])) /\ 0 <= name_hash nm /\ h = name_hash nm mod size.
Definition object_type (o : obj) : Z := match o with OCell t _ _ | OArr t _ => t | OBytes _ => TBYTES end.
(** a bucket without an entry for [x] *)
Definition bucket_without (gs : list (Z * Z)) (σ : oheap) (x : Z) (i : id) : Prop :=
  (exists k o, i = Imp k /\ σ !! i = Some o /\ object_type o <> TPAIR /\ object_type o <> TCHAR /\ object_type o <> TNUMBER) \/
  (exists es, ilist σ i es /\ es <> [] /\ Forall (skips gs σ x) es).
(** a bucket with the entry [Loc l] for [x] *)
Definition bucket_with (gs : list (Z * Z)) (σ : oheap) (x l : Z) (i : id) : Prop :=
  exists pre post, ilist σ i (pre ++ Loc l :: post) /\ Forall (skips gs σ x) pre.

(** a table of [size] buckets: a structure with their number and their vector *)
Definition table_at (σ : oheap) (t size : Z) (v : id) : Prop :=
  exists ts, σ !! Imp t = Some (OArr TSTRUCT ts) /\ ts !! 3%nat = Some (ANum size) /\
    ts !! 4%nat = Some (ARef v) /\ 0 < size < 2147483648.

(** The table of global variables is in field 5 of the module object.  Its vector of buckets,
    [Txt tb_vector], changes only between forms. *)
Record table : Type := Table { tb_module : Z; tb_table : Z; tb_size : Z; tb_vector : Z }.
Definition bound_in (T : table) (gs : list (Z * Z)) (σ : oheap) (bs : list aslot) (x : Z) : Prop :=
  exists h i, bucket_of σ (tb_size T) x h /\ bs !! Z.to_nat h = Some (ARef i) /\
    match lookup_var x gs with Some l => bucket_with gs σ x l i | None => bucket_without gs σ x i end.
(** the global variables [gs] are in the table, and the other names in [xs] are not *)
Record globals_at (T : table) (xs : Z -> Prop) (gs : list (Z * Z)) (σ : oheap) (bs : list aslot) : Prop := {
  ga_module : exists ms, σ !! Imp (tb_module T) = Some (OArr TSTRUCT ms) /\ ms !! 5%nat = Some (ARef (Imp (tb_table T)));
  ga_table : table_at σ (tb_table T) (tb_size T) (Txt (tb_vector T));
  ga_vector : σ !! Txt (tb_vector T) = Some (OArr TVECTOR bs);
  ga_bound : forall x, xs x \/ lookup_var x gs <> None -> bound_in T gs σ bs x }.

(** the macro table [m] has no entry for [x] *)
Definition no_macro (m : Z) (σ : oheap) (x : Z) : Prop :=
  exists size v bs h i, table_at σ m size (Imp v) /\ σ !! Imp v = Some (OArr TVECTOR bs) /\
    bucket_of σ size x h /\ bs !! Z.to_nat h = Some (ARef i) /\ bucket_without [] σ x i.
Definition symbol (σ : oheap) (x : Z) : Prop := exists a d, σ !! Imp x = Some (OCell TSYMBOL a d).

(** the environment of top-level forms: nothing but entries of the evaluator, the first of which is
    not the one that marks the body of a procedure *)
Inductive hides : env -> Prop :=
| hides_nil : hides ENil
| hides_entry ρ : hides ρ -> hides (EHide ρ).
Definition top_env (σ : oheap) (ρ : env) (i : id) : Prop :=
  env_at σ ρ i /\ hides ρ /\
  exists k e d key w, i = Imp k /\ σ !! i = Some (opair (Imp e) d) /\ σ !! Imp e = Some (opair (Imp key) w) /\ key <> cell_closure.

(** * States at the top level *)
(** the constants are symbols and special objects; the empty list is a special object *)
Notation consts0 := (consts_ok (Genv (Imp cell_nil) [])).
Record base (σ : oheap) : Prop := {
  ba_consts : consts0 σ;
  ba_nil : exists a d, σ !! Imp cell_nil = Some (OCell TSPECIAL a d) }.
Definition size (t : tree) : Z := Z.of_nat (tsize t).
(** text that can be expanded: the symbols in it are known to the table or in it *)
Record text (T : table) (xs : Z -> Prop) (σ : oheap) (t : tree) : Prop := {
  tx_at : tree_at σ t;
  tx_once : NoDup (nodes t);
  tx_apart : tb_vector T ∉ nodes t;
  tx_known : forall x, occurs x t -> exists o, σ !! Imp x = Some o /\ (object_type o = TSYMBOL -> xs x) }.
(** no symbol of the text is the name of a macro *)
Definition unmacro (m : Z) (σ : oheap) (t : tree) : Prop :=
  forall x, occurs x t -> exists o, σ !! Imp x = Some o /\ (object_type o = TSYMBOL -> no_macro m σ x).
(** the same for the symbol that names the expander written in Scheme *)
Definition no_expander (m : Z) (σ : oheap) : Prop :=
  forall o, σ !! Imp cell_symbol_portable_macro_expand = Some o -> object_type o = TSYMBOL -> no_macro m σ cell_symbol_portable_macro_expand.
(** none of these objects is an [Txt] object of [U] *)
Definition untouched (U : list Z) (i : id) : Prop := forall k, k ∈ U -> i <> Txt k.
(** between two forms: the global variables are [gs], the store is [μ], the environment is [ρ], and
    [m] is the table of macros *)
Record world (T : table) (xs : Z -> Prop) (m : Z) (ρ : env) (gs : list (Z * Z)) (μ : store) (σ : oheap) (r0 : id) : Prop := {
  wo_base : base σ;
  wo_globals : exists bs, globals_at T xs gs σ bs;
  wo_env : top_env σ ρ r0;
  wo_names : forall x, x ∈ reserved -> lookup_var x gs = None;
  wo_store : store_at [] μ σ;
  wo_ok : store_ok (Genv (Imp (tb_module T)) gs) μ;
  wo_expander : no_expander m σ }.
(** all the pairs of some text *)
Definition all_nodes (ts : list tree) : list Z := concat (map nodes ts).
(** the list [i] of the forms of a program, with the text of each *)
Record forms (T : table) (xs : Z -> Prop) (m : Z) (σ : oheap) (i : id) (ts : list tree) (es : list exp) : Prop := {
  fo_list : ilist σ i (map root ts);
  fo_parse : Forall2 (parse σ) es ts;
  fo_text : Forall (text T xs σ) ts;
  fo_macro : Forall (unmacro m σ) ts }.
