(** What the primitive procedures mean, in terms of values and the store. *)
From stdpp Require Import base gmap list.
From Coq Require Import ZArith.
From Verif Require Import CInt Symbols Builtins EvalSpec.
Open Scope Z_scope.

(** every intermediate result is a 64-bit signed integer *)
Definition fits (f : Z -> Z -> Z) (n : Z) (ns : list Z) : Prop :=
  forall k, (k <= length ns)%nat -> in_long (foldl f n (take k ns)) = true.
(** each number and the next one are related *)
Definition ordered (R : Z -> Z -> Prop) (ns : list Z) : Prop :=
  forall i a b, ns !! i = Some a -> ns !! S i = Some b -> R a b.
(** [v] is a proper list of the values [vs] *)
Inductive list_val (μ : store) : val -> list val -> Prop :=
| lv_nil : list_val μ v_nil []
| lv_cons l a d vs : μ !! l = Some (SPair a d) -> list_val μ d vs -> list_val μ (VLoc l) (a :: vs).
(** eq? looks at the names of keywords: two keywords are compared here only when they are the
    same.  It compares numbers and characters by value, and anything else by identity *)
Definition known (μ : store) (v : val) : Prop := match v with VLoc l => is_Some (μ !! l) | _ => True end.
Definition comparable (μ : store) (a b : val) : Prop :=
  known μ a /\ known μ b /\ match a, b with VKey k, VKey k' => k = k' | _, _ => True end.
(** memq and assq compare only the words of numbers and characters: here a number is searched for
    among numbers and a character among characters; anything else is compared by identity *)
Definition alike (x a : val) : Prop :=
  match x, a with
  | VNum _, VNum _ | VChar _, VChar _ => True
  | VNum _, _ | VChar _, _ | VKey _, _ => False
  | _, _ => True
  end.
(** the first tail of a list that begins with [x] *)
Inductive memq_val (μ : store) (x : val) : val -> val -> Prop :=
| mq_none : memq_val μ x v_nil v_false
| mq_here l d : μ !! l = Some (SPair x d) -> memq_val μ x (VLoc l) (VLoc l)
| mq_next l a d r : μ !! l = Some (SPair a d) -> a <> x -> memq_val μ x d r -> memq_val μ x (VLoc l) r.
(** the first association with key [x] *)
Inductive assq_val (μ : store) (x : val) : val -> val -> Prop :=
| aq_none : assq_val μ x v_nil v_false
| aq_here l e d v : μ !! l = Some (SPair (VLoc e) d) -> μ !! e = Some (SPair x v) -> assq_val μ x (VLoc l) (VLoc e)
| aq_next l e d k v r : μ !! l = Some (SPair (VLoc e) d) -> μ !! e = Some (SPair k v) -> k <> x ->
    assq_val μ x d r -> assq_val μ x (VLoc l) r.
(** [v] is an association list with the keys [ks] *)
Inductive keys_val (μ : store) : val -> list val -> Prop :=
| kv_nil : keys_val μ v_nil []
| kv_cons l e d k v ks : μ !! l = Some (SPair (VLoc e) d) -> μ !! e = Some (SPair k v) -> keys_val μ d ks ->
    keys_val μ (VLoc l) (k :: ks).
(** pairs [ls] that hold [vs] one after the other, and then [y] *)
Definition first_of (ls : list Z) (y : val) : val := match ls with [] => y | l :: _ => VLoc l end.
Fixpoint link (ls : list Z) (vs : list val) (y : val) (μ : store) : store :=
  match ls, vs with
  | l :: ls', v :: vs' => <[l := SPair v (first_of ls' y)]> (link ls' vs' y μ)
  | _, _ => μ
  end.
Definition unused (μ : store) (ls : list Z) : Prop := NoDup ls /\ Forall (fun l => μ !! l = None) ls.
(** the pairs of a list *)
Inductive pairs_of (μ : store) : val -> list Z -> list val -> Prop :=
| po_nil : pairs_of μ v_nil [] []
| po_cons l a d ls vs : μ !! l = Some (SPair a d) -> pairs_of μ d ls vs -> pairs_of μ (VLoc l) (l :: ls) (a :: vs).
(** vectors hold the low 32 bits of a character *)
Definition char_fits (v : val) : Prop := match v with VChar n => in_int n = true | _ => True end.
Definition is_pair (μ : store) (v : val) (b : bool) : Prop :=
  match v with
  | VLoc l => match μ !! l with Some (SPair _ _) => b = true | Some (SClo _ _ _ _) | Some (SPrim _ _) | Some (SVec _) => b = false | _ => False end
  | _ => b = false
  end.

(** [w] bounds how much memory a primitive takes at once: the length of a list that is copied, and
    the size of a new vector *)
Section width.
Context (w : nat).
Inductive prims : Z -> Z -> list val -> store -> store -> val -> Prop :=
| pr_cons a d l μ : μ !! l = None -> prims fn_cons 2 [a; d] μ (<[l := SPair a d]> μ) (VLoc l)
| pr_car l a d μ : μ !! l = Some (SPair a d) -> prims fn_car 1 [VLoc l] μ μ a
| pr_cdr l a d μ : μ !! l = Some (SPair a d) -> prims fn_cdr 1 [VLoc l] μ μ d
| pr_set_car l a d v μ : μ !! l = Some (SPair a d) -> prims fn_set_car_x 2 [VLoc l; v] μ (<[l := SPair v d]> μ) v_unspecified
| pr_set_cdr l a d v μ : μ !! l = Some (SPair a d) -> prims fn_set_cdr_x 2 [VLoc l; v] μ (<[l := SPair a v]> μ) v_unspecified
| pr_list ls vs μ μ1 v : store_list ls vs μ = Some (μ1, v) -> prims fn_list (-1) vs μ μ1 v
| pr_length v vs μ : list_val μ v vs -> prims fn_length 1 [v] μ μ (VNum (Z.of_nat (length vs)))
| pr_null v μ : prims fn_null_p 1 [v] μ μ (v_bool (match v with VAtom k => k =? cell_nil | _ => false end))
| pr_pair v b μ : is_pair μ v b -> prims fn_pair_p 1 [v] μ μ (v_bool b)
| pr_eq a b r μ : comparable μ a b -> (r = true <-> a = b) -> prims fn_eq_p 2 [a; b] μ μ (v_bool r)
| pr_plus ns μ : fits Z.add 0 ns -> prims fn_plus (-1) (VNum <$> ns) μ μ (VNum (foldl Z.add 0 ns))
| pr_times ns μ : fits Z.mul 1 ns -> prims fn_multiply (-1) (VNum <$> ns) μ μ (VNum (foldl Z.mul 1 ns))
| pr_minus n m ns μ : fits Z.sub n (m :: ns) -> prims fn_minus (-1) (VNum <$> n :: m :: ns) μ μ (VNum (foldl Z.sub n (m :: ns)))
| pr_negate n μ : in_long n = true -> in_long (- n) = true -> prims fn_minus (-1) [VNum n] μ μ (VNum (- n))
| pr_greater ns r μ : (r = true <-> ordered Z.gt ns) -> prims fn_greater_p (-1) (VNum <$> ns) μ μ (v_bool r)
| pr_less ns r μ : (r = true <-> ordered Z.lt ns) -> prims fn_less_p (-1) (VNum <$> ns) μ μ (v_bool r)
| pr_equal ns r μ : (r = true <-> ordered eq ns) -> prims fn_is_p (-1) (VNum <$> ns) μ μ (v_bool r)
| pr_char_to_integer n μ : prims fn_char_to_integer 1 [VChar n] μ μ (VNum n)
| pr_integer_to_char n μ : prims fn_integer_to_char 1 [VNum n] μ μ (VChar (to_s32 n))
| pr_acons k v a l l' μ : unused μ [l; l'] -> prims fn_acons 3 [k; v; a] μ (<[l' := SPair (VLoc l) a]> (<[l := SPair k v]> μ)) (VLoc l')
| pr_divide n ns μ : LONG_MIN < n <= LONG_MAX -> Forall (fun m => 0 < m <= LONG_MAX) ns ->
    prims fn_divide (-1) (VNum <$> n :: ns) μ μ (VNum (foldl Z.quot n ns))
| pr_modulo n m μ : in_long n = true -> 0 < m <= LONG_MAX -> - m <= n -> prims fn_modulo 2 [VNum n; VNum m] μ μ (VNum (n mod m))
| pr_logand ns μ : prims fn_logand (-1) (VNum <$> ns) μ μ (VNum (foldl Z.land (-1) ns))
| pr_logior ns μ : prims fn_logior (-1) (VNum <$> ns) μ μ (VNum (foldl Z.lor 0 ns))
| pr_logxor ns μ : prims fn_logxor (-1) (VNum <$> ns) μ μ (VNum (foldl Z.lxor 0 ns))
| pr_lognot n μ : prims fn_lognot 1 [VNum n] μ μ (VNum (- n - 1))
| pr_ash n c μ : in_long n = true -> -63 <= c <= 63 -> in_long (Z.shiftl n c) = true ->
    prims fn_ash 2 [VNum n; VNum c] μ μ (VNum (Z.shiftl n c))
| pr_memq x v vs r μ : list_val μ v vs -> Forall (alike x) vs -> known μ x -> memq_val μ x v r -> prims fn_memq 2 [x; v] μ μ r
| pr_assq x v ks r μ : keys_val μ v ks -> Forall (alike x) ks -> known μ x -> assq_val μ x v r -> prims fn_assq 2 [x; v] μ μ r
| pr_last_pair v ls l vs μ : pairs_of μ v (ls ++ [l]) vs -> prims fn_last_pair 1 [v] μ μ (VLoc l)
| pr_append x y vs ls μ : list_val μ x vs -> (length vs <= w)%nat -> length ls = length vs -> unused μ ls ->
    prims fn_append2 2 [x; y] μ (link ls vs y μ) (first_of ls y)
| pr_append_reverse x y vs ls μ : list_val μ x vs -> (length vs <= w)%nat -> length ls = length vs -> unused μ ls ->
    prims fn_append_reverse 2 [x; y] μ (link ls (reverse vs) y μ) (first_of ls y)
| pr_reverse x y ls vs μ : pairs_of μ x ls vs ->
    prims fn_reverse_x_ 2 [x; y] μ (link (reverse ls) (reverse vs) y μ) (first_of (reverse ls) y)
| pr_make_vector k l μ : μ !! l = None -> (k <= w)%nat ->
    prims fn_make_vector (-1) [VNum (Z.of_nat k)] μ (<[l := SVec (replicate k v_unspecified)]> μ) (VLoc l)
| pr_make_vector_fill k v l μ : μ !! l = None -> (k <= w)%nat -> known μ v -> char_fits v ->
    prims fn_make_vector (-1) [VNum (Z.of_nat k); v] μ (<[l := SVec (replicate k v)]> μ) (VLoc l)
| pr_vector_length l vs μ : μ !! l = Some (SVec vs) -> prims fn_vector_length 1 [VLoc l] μ μ (VNum (Z.of_nat (length vs)))
| pr_vector_ref l vs k v μ : μ !! l = Some (SVec vs) -> vs !! k = Some v -> known μ v -> char_fits v ->
    prims fn_vector_ref 2 [VLoc l; VNum (Z.of_nat k)] μ μ v
| pr_vector_set l vs k v μ : μ !! l = Some (SVec vs) -> (k < length vs)%nat -> known μ v ->
    prims fn_vector_set_x 3 [VLoc l; VNum (Z.of_nat k); v] μ (<[l := SVec (<[k := v]> vs)]> μ) v_unspecified
| pr_list_to_vector v vs l μ : list_val μ v vs -> μ !! l = None -> (2 * length vs <= w)%nat -> Forall (known μ) vs -> Forall char_fits vs ->
    prims fn_list_to_vector 1 [v] μ (<[l := SVec vs]> μ) (VLoc l).
End width.
