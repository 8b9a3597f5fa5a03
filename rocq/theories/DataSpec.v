(** Specification vocabulary for data in the heap: what it means that an address holds a
    number, a list, a string, a vector.  Nothing here mentions the functions of the
    interpreter. *)
From stdpp Require Import base gmap list.
From Coq Require Import ZArith Lia.
From Verif Require Import CInt Symbols Heap.
Open Scope Z_scope.

(** Address [p] holds the number [n] / the character [n] / a pair of [a] and [d]. *)
Definition number_at (h : gmap Z cell) (p n : Z) : Prop :=
  exists c, h !! p = Some c /\ c_ty c = TNUMBER /\ c_cdr c = n.
Definition char_at (h : gmap Z cell) (p n : Z) : Prop :=
  exists c, h !! p = Some c /\ c_ty c = TCHAR /\ c_cdr c = n.
Definition pair_at (h : gmap Z cell) (p a d : Z) : Prop :=
  exists c, h !! p = Some c /\ c_ty c = TPAIR /\ c_car c = a /\ c_cdr c = d.
Definition type_at (h : gmap Z cell) (p t : Z) : Prop :=
  exists c, h !! p = Some c /\ c_ty c = t.

(** [p] is a proper list whose elements are the addresses [vs]. *)
Inductive list_at (h : gmap Z cell) : Z -> list Z -> Prop :=
| la_nil : list_at h cell_nil []
| la_cons p a d vs : p <> cell_nil -> pair_at h p a d -> list_at h d vs -> list_at h p (a :: vs).

(** [p] is a proper list of the numbers [ns]. *)
Definition numbers_at (h : gmap Z cell) (p : Z) (ns : list Z) : Prop :=
  exists vs, list_at h p vs /\ Forall2 (number_at h) vs ns.

(** [p] holds a string / symbol / keyword / special (type [t]) whose name is the bytes [bs]. *)
Definition text_at (h : gmap Z cell) (t p : Z) (bs : list Z) : Prop :=
  exists c b, h !! p = Some c /\ c_ty c = t /\ c_car c = Z.of_nat (length bs)
    /\ h !! c_cdr c = Some b /\ c_ty b = TBYTES /\ c_bytes b = bs ++ [0].
Definition string_at (h : gmap Z cell) := text_at h TSTRING.

(** The cells in use.  (Above g_free lie leftovers of earlier collections.) *)
Definition cells (s : state) : gmap Z cell := filter (fun kv => kv.1 < g_free s) (heap s).

(** The interpreter can allocate [n] more cells without running out of its arena. *)
Definition can_alloc (n : Z) (s : state) : Prop :=
  1 <= g_free s /\ g_free s + n <= limit s /\ g_free s + n - g_cells s <= ARENA_SIZE s.

(** The state after allocating one cell with contents [c]; it lies at address [g_free s] and
    everything else is as before. *)
Definition with_cell (c : cell) (s : state) : state :=
  set_g_free (g_free s + 1) (set_heap (<[g_free s := c]> (heap s)) s).

(** [s'] is [s] after allocating [k] cells and possibly changing those old cells that satisfy
    [P]; every other cell in use and every other part of the machine is as before. *)
Record modifies (P : Z -> Prop) (k : Z) (s s' : state) : Prop := {
  mod_size : 0 <= k;
  mod_free : g_free s' = g_free s + k;
  mod_keep : forall p, p < g_free s -> ~ P p -> heap s' !! p = heap s !! p;
  mod_rest : exists h, s' = set_g_free (g_free s + k) (set_heap h s) }.
Definition nothing (_ : Z) : Prop := False.
(** [s'] differs from [s] only in newly allocated cells. *)
Definition extends (s s' : state) : Prop := exists k, modifies nothing k s s'.

(** every cell lies in the malloc'ed arena *)
Definition in_arena (s : state) : Prop := forall p c, heap s !! p = Some c -> 1 <= p < limit s.

(** neighbours in the list are related by [R]: [n0 R n1 R n2 ...] *)
Definition chain (R : Z -> Z -> Prop) (ns : list Z) : Prop :=
  forall i a b, ns !! i = Some a -> ns !! S i = Some b -> R a b.

(** A chain of pairs leading from [p] to [q]: the pairs' addresses [ps], their cars [vs]. *)
Inductive seg (h : gmap Z cell) : Z -> Z -> list Z -> list Z -> Prop :=
| seg_nil p : seg h p p [] []
| seg_cons p q a d ps vs : p <> cell_nil -> pair_at h p a d -> seg h d q ps vs ->
    seg h p q (p :: ps) (a :: vs).

(** eq?: the same object, or equal numbers, characters or keywords *)
Definition eqv (h : gmap Z cell) (x y : Z) : Prop :=
  x = y \/ (exists n, number_at h x n /\ number_at h y n) \/ (exists n, char_at h x n /\ char_at h y n)
  \/ (exists bs, text_at h TKEYWORD x bs /\ text_at h TKEYWORD y bs).

(** keywords have a name *)
Definition named (h : gmap Z cell) (x : Z) : Prop :=
  exists c, h !! x = Some c /\ (c_ty c = TKEYWORD -> exists bs, text_at h TKEYWORD x bs).

(** [r] is the first element of [l] with property [m], or #f if there is none *)
Definition finds (m : Z -> Prop) (l : list Z) (r : Z) : Prop :=
  (exists i, l !! i = Some r /\ m r /\ forall j x, (j < i)%nat -> l !! j = Some x -> ~ m x)
  \/ (r = cell_f /\ forall x, x ∈ l -> ~ m x).

(** Finite data.  [DAtom p]: an object known only by its identity (a symbol, a procedure, ...). *)
Inductive datum : Type :=
| DNum (n : Z) | DChar (n : Z) | DStr (bs : list Z) | DKey (bs : list Z) | DAtom (p : Z)
| DPair (a d : datum) | DVec (ds : list datum).

(** what the element slot at address [q] refers to *)
Definition entry_at (h : gmap Z cell) (q e : Z) : Prop :=
  exists c, h !! q = Some c /\ e = (if c_ty c =? TREF then c_car c else q).

(** address [p] represents the datum *)
Inductive repr (h : gmap Z cell) : Z -> datum -> Prop :=
| repr_num p n : number_at h p n -> repr h p (DNum n)
| repr_char p n : char_at h p n -> repr h p (DChar n)
| repr_str p bs : text_at h TSTRING p bs -> repr h p (DStr bs)
| repr_key p bs : text_at h TKEYWORD p bs -> repr h p (DKey bs)
| repr_atom p c : h !! p = Some c -> c_ty c ∉ [TNUMBER; TCHAR; TSTRING; TKEYWORD; TPAIR; TVECTOR] ->
    repr h p (DAtom p)
| repr_pair p a d da dd : pair_at h p a d -> repr h a da -> repr h d dd -> repr h p (DPair da dd)
| repr_vec p c es ds : h !! p = Some c -> c_ty c = TVECTOR -> c_car c = Z.of_nat (length es) ->
    (forall i e, es !! i = Some e -> entry_at h (c_cdr c + Z.of_nat i) e) ->
    Forall2 (repr h) es ds -> repr h p (DVec ds).

Fixpoint depth (d : datum) : nat :=
  match d with
  | DPair a d => S (max (depth a) (depth d))
  | DVec ds => S (list_max (map depth ds))
  | _ => O
  end.

(** What a vector or struct element holds: numbers and characters are stored by value, anything
    else by reference. *)
Inductive slot : Type := SNum (n : Z) | SChar (n : Z) | SRef (p : Z).
(** [p] is an object that is neither a number nor a character (nor an element cell) *)
Definition other (h : gmap Z cell) (p : Z) : Prop :=
  exists c, h !! p = Some c /\ c_ty c ∉ [TNUMBER; TCHAR; TREF].
(** the value [e] is that number, that character, that very object *)
Definition value_at (h : gmap Z cell) (e : Z) (sl : slot) : Prop :=
  match sl with
  | SNum n => number_at h e n
  | SChar n => char_at h e n /\ in_int n = true
  | SRef p => e = p /\ other h p
  end.
(** the element cell [q] holds [sl] *)
Definition slot_at (h : gmap Z cell) (q : Z) (sl : slot) : Prop :=
  match sl with
  | SNum n => number_at h q n
  | SChar n => char_at h q n /\ in_int n = true
  | SRef p => (exists c, h !! q = Some c /\ c_ty c = TREF /\ c_car c = p) /\ other h p
  end.
(** [x] is a vector (type TVECTOR) or struct (type TSTRUCT) with elements [sls] stored from
    address [v] on *)
Definition array_at (h : gmap Z cell) (t x v : Z) (sls : list slot) : Prop :=
  (exists c, h !! x = Some c /\ c_ty c = t /\ c_car c = Z.of_nat (length sls) /\ c_cdr c = v) /\
  forall i sl, sls !! i = Some sl -> slot_at h (v + Z.of_nat i) sl.

(* ------------------------------------------------------------------ strings *)

Definition is_byte (b : Z) : Prop := 0 <= b < 256.
Definition is_bytes (bs : list Z) : Prop := Forall is_byte bs.

(** a list of characters *)
Definition chars_at (h : gmap Z cell) (p : Z) (cs : list Z) : Prop :=
  exists vs, list_at h p vs /\ Forall2 (char_at h) vs cs.

(* ------------------------------------------------------------------ hash tables *)

(** an association: the key object, its name, the value *)
Record entry : Type := Entry { e_key : Z; e_name : list Z; e_value : Z }.

(** the number that selects the bucket: from the first two bytes, taken as signed chars *)
Definition name_hash (bs : list Z) : Z :=
  match bs with
  | [] => 0
  | b0 :: rest => if to_schar b0 =? 0 then 0 else to_schar b0 * 37 + match rest with [] => 0 | b1 :: _ => to_schar b1 * 43 end
  end.

(** the key/value pairs that belong into bucket [i] of [size], latest first *)
Definition bucket (size i : Z) (al : list entry) : list (Z * Z) :=
  map (fun e => (e_key e, e_value e)) (filter (fun e => name_hash (e_name e) mod size = i) al).

(** [q] is the association list of the pairs [kvs]; an empty bucket is any object other than a pair *)
Definition alist_at (h : gmap Z cell) (q : Z) (kvs : list (Z * Z)) : Prop :=
  match kvs with
  | [] => exists c, h !! q = Some c /\ c_ty c <> TPAIR
  | _ => exists es, list_at h q es /\ Forall2 (fun e kv => pair_at h e (fst kv) (snd kv)) es kvs
  end.

(** [x] is a hash table with [size] buckets (stored from address [w] on), with keys of the types
    [ts], that holds the associations [al], latest first *)
Definition table_at (h : gmap Z cell) (ts : list Z) (x w size : Z) (al : list entry) : Prop :=
  exists v b st sp sn qs,
    array_at h TSTRUCT x v [st; sp; sn; SNum size; SRef b] /\
    array_at h TVECTOR b w (map SRef qs) /\ Z.of_nat (length qs) = size /\
    (forall i q, qs !! i = Some q -> alist_at h q (bucket size (Z.of_nat i) al)) /\
    Forall (fun e => exists t, t ∈ ts /\ text_at h t (e_key e) (e_name e) /\ 0 <= name_hash (e_name e)) al /\
    1 <= w /\ (v + 5 <= w \/ w + size <= v) /\ 0 < size < 2147483648.

(** the predefined objects (#f, '(), the predefined symbols, ...) are in place *)
Definition constants_at (h : gmap Z cell) : Prop :=
  Forall (fun c => type_at h (fst (fst c)) (if snd (fst c) : bool then TSPECIAL else TSYMBOL)) builtin_symbols.

(* ------------------------------------------------------------------ modules *)

(** the global bindings of the current module are [al], latest first; its table has [size]
    buckets stored from address [w] on *)
Definition module_at (s : state) (w size : Z) (al : list entry) : Prop :=
  exists v sls g, array_at (cells s) TSTRUCT (M0 s) v sls /\ sls !! 5%nat = Some (SRef g) /\
    (v + Z.of_nat (length sls) <= w \/ w + size <= v) /\ table_at (cells s) [TSPECIAL; TSYMBOL] g w size al.

(** [e] is a list of pairs (key . value): a local environment *)
Definition env_at (h : gmap Z cell) (e : Z) (kvs : list (Z * Z)) : Prop :=
  exists es, list_at h e es /\ Forall2 (fun p kv => pair_at h p (fst kv) (snd kv) /\ exists c, h !! fst kv = Some c) es kvs.
