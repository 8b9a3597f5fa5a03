(** Programs, environments, values and stores as objects without addresses: which objects stand
    for an expression, an environment, a value or a store of EvalSpec.v. *)
From stdpp Require Import base gmap list.
From Coq Require Import ZArith Lia.
From Verif Require Import CInt Symbols Heap GcSpec DataSpec Rep EvalSpec.
Open Scope Z_scope.

Notation oheap := (gmap id obj).
Definition opair (a d : id) : obj := OCell TPAIR (WId a) (WId d).

(** The word a begin loop compares with the symbol primitive-load when the expression is not a
    pair (in C a length, or nothing; never equal to the address of a symbol). *)
Definition no_load (w : word) : Prop := w <> WInt cell_symbol_primitive_load.

(** symbols that mean something to the evaluator, and keys of the entries it keeps in
    environments for itself *)
Definition hidden : list Z :=
  [cell_closure; cell_symbol_program; cell_symbol_hashq_table; cell_symbol_module].
Definition reserved : list Z :=
  hidden ++ [cell_nil; cell_f; cell_t; cell_undefined; cell_unspecified] ++
  [cell_symbol_boot_module; cell_symbol_current_module; cell_symbol_begin;
   cell_symbol_call_with_current_continuation; cell_symbol_call_with_values;
   cell_symbol_pmatch_car; cell_symbol_pmatch_cdr; cell_symbol_quote; cell_symbol_lambda;
   cell_symbol_if; cell_symbol_set_x; cell_symbol_define; cell_symbol_define_macro;
   cell_symbol_primitive_load; cell_vm_macro_expand].
Definition name_ok (σ : oheap) (x : Z) : Prop :=
  (exists n d, σ !! Imp x = Some (OCell TSYMBOL (WInt n) d) /\ no_load (WInt n)) /\ x ∉ reserved.

(** values *)
Definition atom (o : obj) : Prop :=
  match o with
  | OCell t _ _ => t = TSYMBOL \/ t = TSPECIAL \/ t = TSTRING \/ t = TCONTINUATION
  | OArr t _ => t = TVECTOR
  | OBytes _ => True
  end.
Definition val_at (σ : oheap) (v : val) (i : id) : Prop :=
  match v with
  | VNum n => (exists k, i = Imp k) /\ σ !! i = Some (OCell TNUMBER (WInt 0) (WInt n))
  | VChar n => (exists k, i = Imp k) /\ σ !! i = Some (OCell TCHAR (WInt 0) (WInt n))
  | VAtom k => i = Imp k /\ exists o, σ !! i = Some o /\ atom o
  | VKey k => i = Imp k /\ exists a d, σ !! i = Some (OCell TKEYWORD a d)
  | VLoc l => i = Loc l
  end.

(** (x1 ... xn . rest) *)
Inductive names_at (σ : oheap) : list Z -> option Z -> id -> Prop :=
| na_nil : names_at σ [] None (Imp cell_nil)
| na_rest r : name_ok σ r -> names_at σ [] (Some r) (Imp r)
| na_cons x xs r k d : name_ok σ x -> σ !! Imp k = Some (opair (Imp x) d) -> names_at σ xs r d ->
    names_at σ (x :: xs) r (Imp k).

(** lists that nothing changes *)
Inductive ilist (σ : oheap) : id -> list id -> Prop :=
| il_nil : ilist σ (Imp cell_nil) []
| il_cons k a d es : σ !! Imp k = Some (opair a d) -> ilist σ d es -> ilist σ (Imp k) (a :: es).

Definition self_evaluating (o : obj) : Prop :=
  match o with
  | OCell t a _ => (t = TNUMBER \/ t = TCHAR \/ t = TSPECIAL \/ t = TSTRING \/ t = TKEYWORD) /\ no_load a
  | _ => False
  end.
Definition operator (e : exp) : Prop :=
  match e with EConst _ => False | _ => True end.

(** expressions as lists *)
Inductive code_at (σ : oheap) : exp -> id -> Prop :=
| co_const v k o : val_at σ v (Imp k) -> σ !! Imp k = Some o -> self_evaluating o ->
    code_at σ (EConst v) (Imp k)
| co_quote v i a : ilist σ i [Imp cell_symbol_quote; a] -> val_at σ v a -> code_at σ (EQuote v) i
| co_var x : name_ok σ x -> code_at σ (EVar x) (Imp x)
| co_global l k : σ !! Imp k = Some (OCell TVARIABLE (WId (Loc l)) (WInt 0)) ->
    code_at σ (EGlobal l) (Imp k)
| co_if c t e i ic it ie : ilist σ i [Imp cell_symbol_if; ic; it; ie] ->
    code_at σ c ic -> code_at σ t it -> code_at σ e ie -> code_at σ (EIf c t e) i
| co_when c t i ic it : ilist σ i [Imp cell_symbol_if; ic; it] ->
    code_at σ c ic -> code_at σ t it -> code_at σ (EWhen c t) i
| co_lam xs r bd k k' fm b : σ !! Imp k = Some (opair (Imp cell_symbol_lambda) (Imp k')) ->
    σ !! Imp k' = Some (opair fm b) -> names_at σ xs r fm -> codes_at σ bd b ->
    code_at σ (ELam xs r bd) (Imp k)
| co_set x e i ie : ilist σ i [Imp cell_symbol_set_x; Imp x; ie] -> name_ok σ x -> code_at σ e ie ->
    code_at σ (ESet x e) i
| co_set_global l e i k ie : ilist σ i [Imp cell_symbol_set_x; Imp k; ie] ->
    σ !! Imp k = Some (OCell TVARIABLE (WId (Loc l)) (WInt 0)) -> code_at σ e ie ->
    code_at σ (ESetGlobal l e) i
| co_define x e i ie : ilist σ i [Imp cell_symbol_define; Imp x; ie] -> name_ok σ x -> code_at σ e ie ->
    code_at σ (EDefine x e) i
| co_defun x xs r bd k k' k2 fm b : σ !! Imp k = Some (opair (Imp cell_symbol_define) (Imp k')) ->
    σ !! Imp k' = Some (opair (Imp k2) b) -> σ !! Imp k2 = Some (opair (Imp x) fm) -> name_ok σ x ->
    names_at σ xs r fm -> codes_at σ bd b -> code_at σ (EDefun x xs r bd) (Imp k)
| co_begin es k b : σ !! Imp k = Some (opair (Imp cell_symbol_begin) b) -> codes_at σ es b ->
    code_at σ (EBegin es) (Imp k)
| co_app f es k i b : operator f -> σ !! Imp k = Some (opair i b) -> code_at σ f i ->
    codes_at σ es b -> code_at σ (EApp f es) (Imp k)
with codes_at (σ : oheap) : list exp -> id -> Prop :=
| cs_nil : codes_at σ [] (Imp cell_nil)
| cs_cons e es k i d : σ !! Imp k = Some (opair i d) -> code_at σ e i -> codes_at σ es d ->
    codes_at σ (e :: es) (Imp k).

(** association lists: entries for the evaluator itself, variables, and frames *)
Inductive env_at (σ : oheap) : env -> id -> Prop :=
| env_end : env_at σ ENil (Imp cell_nil)
| env_hide ρ k e d key w : σ !! Imp k = Some (opair (Imp e) d) -> σ !! Imp e = Some (opair (Imp key) w) ->
    key ∈ hidden -> env_at σ ρ d -> env_at σ (EHide ρ) (Imp k)
| env_bind x l ρ k d : σ !! Imp k = Some (opair (Loc l) d) -> env_at σ ρ d -> env_at σ (EBind x l ρ) (Imp k)
| env_frame f : env_at σ (EFrame f) (Loc f).

(** an element of a vector: numbers and characters are in the vector itself *)
Definition slot_val (σ : oheap) (v : val) (e : aslot) : Prop :=
  match v with
  | VNum n => e = ANum n
  | VChar n => e = AChar n
  | _ => exists j, e = ARef j /\ val_at σ v j
  end.
(** the store *)
Definition sobj_at (σ : oheap) (o : sobj) (i : id) : Prop :=
  match o with
  | SVar x v => exists j, σ !! i = Some (opair (Imp x) j) /\ val_at σ v j
  | SPair a d => exists j j', σ !! i = Some (opair j j') /\ val_at σ a j /\ val_at σ d j'
  | SClo xs r bd ρ => exists k c e a fm b,
      σ !! i = Some (OCell TCLOSURE (WInt cell_f) (WId (Imp k))) /\
      σ !! Imp k = Some (opair (Imp c) (Imp e)) /\
      σ !! Imp c = Some (opair (Imp cell_circular) a) /\ env_at σ ρ a /\
      σ !! Imp e = Some (opair fm b) /\ names_at σ xs r fm /\ codes_at σ bd b
  | SPrim p n => exists es, σ !! i = Some (OArr TSTRUCT es) /\
      es !! 2%nat = Some (ARef (Imp cell_symbol_builtin)) /\ es !! 4%nat = Some (ANum n) /\
      es !! 5%nat = Some (ANum p)
  | SFrame ρ => exists k d w, σ !! i = Some (opair (Key k) d) /\
      σ !! Key k = Some (opair (Imp cell_closure) w) /\ env_at σ ρ d
  | SVec vs => exists es, σ !! i = Some (OArr TVECTOR es) /\ Forall2 (slot_val σ) vs es
  end.
(** [rs]: locations that objects have already been made for, and that the store does not have yet *)
Record store_at (rs : list Z) (μ : store) (σ : oheap) : Prop := {
  sa_obj : forall l o, μ !! l = Some o -> sobj_at σ o (Loc l);
  sa_free : forall l, μ !! l = None -> l ∉ rs -> σ !! Loc l = None }.

(** the global variables: the module object, the table in its field 5 with the number of buckets
    and the vector of buckets in its fields 3 and 4, and in bucket [name_hash mod size] the variable *)
Record genv : Type := GenvM { ge_module : id; ge_vars : list (Z * Z); ge_missing : list Z (* names that have no global variable *) }.
Notation Genv m gs := (GenvM m gs []).
Definition frozen (i : id) : Prop := match i with Imp _ | Txt _ => True | _ => False end.
Inductive flist (σ : oheap) : id -> list id -> Prop :=
| fl_nil : flist σ (Imp cell_nil) []
| fl_cons i a d es : frozen i -> σ !! i = Some (opair a d) -> flist σ d es -> flist σ i (a :: es).
(** an entry of a bucket that is for another name than [x] *)
Definition skips (gs : list (Z * Z)) (σ : oheap) (x : Z) (e : id) : Prop :=
  (exists y l, e = Loc l /\ (y, l) ∈ gs /\ y <> x) \/
  (exists k y w, e = Imp k /\ σ !! e = Some (opair (Imp y) w) /\ y <> x).
Record global_at (G : genv) (σ : oheap) (x l : Z) (ms ts bs : list aslot) (t b nb i : id) (size n : Z) (nm : list Z) (pre post : list id) : Prop := {
  gl_module : frozen (ge_module G) /\ σ !! ge_module G = Some (OArr TSTRUCT ms) /\ ms !! 5%nat = Some (ARef t);
  gl_table : frozen t /\ σ !! t = Some (OArr TSTRUCT ts) /\ ts !! 3%nat = Some (ANum size) /\ ts !! 4%nat = Some (ARef b);
  gl_vector : frozen b /\ σ !! b = Some (OArr TVECTOR bs);
  gl_name : σ !! Imp x = Some (OCell TSYMBOL (WInt n) (WId nb)) /\ frozen nb /\ σ !! nb = Some (OBytes (nm ++ [0]));
  gl_size : 0 < size < 2147483648 /\ 0 <= name_hash nm;
  gl_slot : bs !! Z.to_nat (name_hash nm mod size) = Some (ARef i);
  gl_bucket : flist σ i (pre ++ Loc l :: post) /\ Forall (skips (ge_vars G) σ x) pre }.

(** no global variable has the name [x]: there is no list in its bucket, or none of the entries is for it *)
Definition otype (o : obj) : Z := match o with OCell t _ _ | OArr t _ => t | OBytes _ => TBYTES end.
Record absent_at (G : genv) (σ : oheap) (x : Z) (ms ts bs : list aslot) (t b nb i : id) (size n : Z) (nm : list Z) : Prop := {
  ab_module : frozen (ge_module G) /\ σ !! ge_module G = Some (OArr TSTRUCT ms) /\ ms !! 5%nat = Some (ARef t);
  ab_table : frozen t /\ σ !! t = Some (OArr TSTRUCT ts) /\ ts !! 3%nat = Some (ANum size) /\ ts !! 4%nat = Some (ARef b);
  ab_vector : frozen b /\ σ !! b = Some (OArr TVECTOR bs);
  ab_name : σ !! Imp x = Some (OCell TSYMBOL (WInt n) (WId nb)) /\ frozen nb /\ σ !! nb = Some (OBytes (nm ++ [0]));
  ab_size : 0 < size < 2147483648 /\ 0 <= name_hash nm;
  ab_slot : bs !! Z.to_nat (name_hash nm mod size) = Some (ARef i);
  ab_bucket : (exists o, frozen i /\ σ !! i = Some o /\ otype o <> TPAIR /\ otype o <> TCHAR /\ otype o <> TNUMBER) \/
    (exists es, es <> [] /\ flist σ i es /\ Forall (skips (ge_vars G) σ x) es) }.

(** the built-in constants and the global variables *)
Record consts_ok (G : genv) (σ : oheap) : Prop := {
  cst_const : forall k, cell_nil <= k <= cell_symbol_test -> exists t n d, σ !! Imp k = Some (OCell t (WInt n) d)
    /\ (t = TSPECIAL \/ t = TSYMBOL) /\ no_load (WInt n);
  cst_globals : forall x l, lookup_var x (ge_vars G) = Some l ->
    exists ms ts bs t b nb i size n nm pre post, global_at G σ x l ms ts bs t b nb i size n nm pre post;
  cst_missing : forall x, x ∈ ge_missing G ->
    exists ms ts bs t b nb i size n nm, absent_at G σ x ms ts bs t b nb i size n nm }.

(** variables stay variables, procedures do not change, frames only get more variables *)
Definition vars_in (μ : store) (bs : list (Z * Z)) : Prop :=
  forall x l, (x, l) ∈ bs -> exists v, μ !! l = Some (SVar x v).
Record store_le (μ μ' : store) : Prop := {
  sl_var : forall l x v, μ !! l = Some (SVar x v) -> exists v', μ' !! l = Some (SVar x v');
  sl_clo : forall l xs r bd ρ, μ !! l = Some (SClo xs r bd ρ) -> μ' !! l = Some (SClo xs r bd ρ);
  sl_prim : forall l p n, μ !! l = Some (SPrim p n) -> μ' !! l = Some (SPrim p n);
  sl_pair : forall l a d, μ !! l = Some (SPair a d) -> exists a' d', μ' !! l = Some (SPair a' d');
  sl_frame : forall l ρ, μ !! l = Some (SFrame ρ) -> exists bs, μ' !! l = Some (SFrame (extend bs ρ)) /\ vars_in μ' bs }.
(** environments end, and their bindings are variables *)
Inductive env_ok (μ : store) : env -> Prop :=
| eo_nil : env_ok μ ENil
| eo_bind x l v ρ : μ !! l = Some (SVar x v) -> env_ok μ ρ -> env_ok μ (EBind x l ρ)
| eo_hide ρ : env_ok μ ρ -> env_ok μ (EHide ρ)
| eo_frame f ρ : μ !! f = Some (SFrame ρ) -> env_ok μ ρ -> env_ok μ (EFrame f).
Record store_ok (G : genv) (μ : store) : Prop := {
  so_clo : forall l xs r bd ρ, μ !! l = Some (SClo xs r bd ρ) -> env_ok μ ρ;
  so_global : vars_in μ (ge_vars G) }.

(** the list of arguments of a call: pair [j] of it is a new object that nothing changes (None) or
    one that the procedure called gets as part of a list of its own (Some l) *)
Definition arg_id (j : option Z) (i : id) : Prop :=
  match j with None => exists k, i = Imp k | Some l => i = Loc l end.
Inductive alist_at (σ : oheap) : list (option Z) -> list val -> id -> Prop :=
| al_nil : alist_at σ [] [] (Imp cell_nil)
| al_cons j js v vs i a d : arg_id j i -> σ !! i = Some (opair a d) -> val_at σ v a ->
    alist_at σ js vs d -> alist_at σ (j :: js) (v :: vs) i.
Definition locs_of (js : list (option Z)) : list Z := omap (fun j => j) js.
