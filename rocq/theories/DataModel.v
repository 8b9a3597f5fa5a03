(** src/core.c, src/lib.c, src/string.c, src/vector.c, src/struct.c, src/hash.c,
    src/module.c: the data structures of the interpreter, function by function.
    Loops over heap lists take a fuel argument and have the outcome [ROutOfFuel]; no C
    behaviour corresponds to it.  Diagnostics written to stderr before an abort are left out. *)
From stdpp Require Import base gmap list.
From Coq Require Import ZArith Lia.
From Coq Require Strings.String Strings.Ascii.
From Verif Require Import CInt Symbols Heap.
Import Strings.String.StringSyntax.
Open Scope Z_scope.
Open Scope mes_scope.

(** a C string literal as its bytes, without the NUL *)
Fixpoint bytes_of (s : String.string) : list Z :=
  match s with
  | String.EmptyString => []
  | String.String c s' => Z.of_N (Ascii.N_of_ascii c) :: bytes_of s'
  end.

Global Arguments bytes_of _%string_scope.

(** C truth values as Scheme booleans *)
Definition scm_bool (b : bool) : Z := if b then cell_t else cell_f.

(* ------------------------------------------------------------------ core.c, first part *)

(** src/core.c:48-56 car *)
Definition car (x : Z) : M Z :=
  c <- rd x ;;
  if c_ty c =? TPAIR then ret (c_car c)
  else e <- cons x cell_symbol_car ;; error cell_symbol_not_a_pair e.

(** src/core.c:58-66 cdr *)
Definition cdr (x : Z) : M Z :=
  c <- rd x ;;
  if c_ty c =? TPAIR then ret (c_cdr c)
  else e <- cons x cell_symbol_cdr ;; error cell_symbol_not_a_pair e.

(** src/core.c:74-80 null_p *)
Definition null_p (x : Z) : M Z := ret (scm_bool (x =? cell_nil)).

(** src/lib.c:155-161 pair_p *)
Definition pair_p (x : Z) : M Z := t <- ty x ;; ret (scm_bool (t =? TPAIR)).

(** src/core.c:114-120 values *)
Definition values (x : Z) : M Z := v <- cons 0 x ;; set_ty v TVALUES ;;; ret v.

(** src/core.c:122-126 acons *)
Definition acons (key value alist : Z) : M Z := p <- cons key value ;; cons p alist.

(** src/core.c:128-140 length__ *)
Fixpoint length_loop (fuel : nat) (x n : Z) : M Z :=
  if x =? cell_nil then ret n else
  match fuel with
  | O => out_of_fuel
  | S fuel' =>
      c <- rd x ;;
      if c_ty c =? TPAIR then length_loop fuel' (c_cdr c) (n + 1) else ret (-1)
  end.
Definition length__ (fuel : nat) (x : Z) : M Z := length_loop fuel x 0.

(** src/core.c:142-146 length *)
Definition length_ (fuel : nat) (x : Z) : M Z := n <- length__ fuel x ;; make_number n.

(* ------------------------------------------------------------------ string.c, comparison *)

(** lib/string/memcmp.c on the first [n] bytes: equal or not (the sign of the result is not
    used by string_equal_p); reading past a payload is UB *)
Definition bytes_equal (n : Z) (a b : list Z) : M bool :=
  let k := Z.to_nat n in
  if (0 <=? n) && (n <=? Z.of_nat (List.length a)) && (n <=? Z.of_nat (List.length b))
  then ret (bool_decide (take k a = take k b)) else ub.

(** src/string.c:64-94 string_equal_p *)
Definition string_equal_p (a b : Z) : M Z :=
  ca <- rd a ;;
  cb <- rd b ;;
  assert_msg (((c_ty ca =? TSTRING) && (c_ty cb =? TSTRING))
              || ((c_ty ca =? TKEYWORD) || (c_ty cb =? TKEYWORD))) ;;;
  if a =? b then ret cell_t else
  if c_cdr ca =? c_cdr cb then ret cell_t else
  if (c_car ca =? 0) && (c_car cb =? 0) then ret cell_t else
  if c_car ca =? c_car cb then
    ba <- cell_bytes (c_cdr ca) ;;
    bb <- cell_bytes (c_cdr cb) ;;
    e <- bytes_equal (c_car ca) ba bb ;;
    ret (scm_bool e)
  else ret cell_f.

(* ------------------------------------------------------------------ eq?, equal?, lookup *)

(** src/core.c:82-112 eq_p *)
Definition eq_p (x y : Z) : M Z :=
  if x =? y then ret cell_t else
  cx <- rd x ;;
  let t := c_ty cx in
  if t =? TKEYWORD then
    cy <- rd y ;; (if c_ty cy =? TKEYWORD then string_equal_p x y else ret cell_f)
  else if t =? TCHAR then
    cy <- rd y ;; (if c_ty cy =? TCHAR then ret (scm_bool (c_cdr cx =? c_cdr cy)) else ret cell_f)
  else if t =? TNUMBER then
    cy <- rd y ;; (if c_ty cy =? TNUMBER then ret (scm_bool (c_cdr cx =? c_cdr cy)) else ret cell_f)
  else ret cell_f.

(** [if (e->type == TREF) e = e->ref;] *)
Definition deref (e : Z) : M Z := c <- rd e ;; ret (if c_ty c =? TREF then c_car c else e).

(** src/lib.c:125-138, the loop over two vectors *)
Fixpoint vector_equal_loop (eq : Z -> Z -> M Z) (n : nat) (i va vb : Z) : M Z :=
  match n with
  | O => ret cell_t
  | S n' =>
      ai <- deref (cell_ref va i) ;;
      bi <- deref (cell_ref vb i) ;;
      r <- eq ai bi ;;
      if r =? cell_f then ret cell_f else vector_equal_loop eq n' (i + 1) va vb
  end.

(** src/lib.c:102-142 equal2_p (the goto is a recursive call) *)
Fixpoint equal2_p (fuel : nat) (a b : Z) : M Z :=
  match fuel with
  | O => out_of_fuel
  | S fuel' =>
      if a =? b then ret cell_t else
      ca <- rd a ;;
      cb <- rd b ;;
      if (c_ty ca =? TPAIR) && (c_ty cb =? TPAIR) then
        r <- equal2_p fuel' (c_car ca) (c_car cb) ;;
        if r =? cell_t then
          (* a and b are re-read after the call *)
          ca <- rd a ;;
          cb <- rd b ;;
          equal2_p fuel' (c_cdr ca) (c_cdr cb)
        else ret cell_f
      else if (c_ty ca =? TSTRING) && (c_ty cb =? TSTRING) then string_equal_p a b
      else if (c_ty ca =? TVECTOR) && (c_ty cb =? TVECTOR) then
        if c_car ca =? c_car cb
        then vector_equal_loop (equal2_p fuel') (Z.to_nat (c_car ca)) 0 (c_cdr ca) (c_cdr cb)
        else ret cell_f
      else eq_p a b
  end.

(** the loops [while (a != cell_nil) { if (test (a)) return result (a); a = a->cdr; } return cell_f;]
    of assq, assoc, assoc_string, xassq and memq *)
Fixpoint find_loop (fuel : nat) (test : Z -> M bool) (result : Z -> M Z) (a : Z) : M Z :=
  if a =? cell_nil then ret cell_f else
  match fuel with
  | O => out_of_fuel
  | S fuel' =>
      b <- test a ;;
      if b : bool then result a else
      a' <- cdr_of a ;;
      find_loop fuel' test result a'
  end.

(** src/core.c:31-46 assoc_string; the test of lines 43-44 after the loop never holds *)
Definition assoc_string (fuel : nat) (x a : Z) : M Z :=
  find_loop fuel
    (fun a => b <- car_of a ;; k <- car_of b ;; t <- ty k ;;
              if t =? TSTRING then r <- string_equal_p x k ;; ret (r =? cell_t) else ret false)
    car_of a.

(** src/core.c:211-253 assq *)
Definition assq (fuel : nat) (x a : Z) : M Z :=
  ta <- ty a ;;
  if negb (ta =? TPAIR) then ret cell_f else
  cx <- rd x ;;
  let t := c_ty cx in
  if (t =? TSYMBOL) || (t =? TSPECIAL) then
    find_loop fuel (fun a => b <- car_of a ;; k <- car_of b ;; ret (x =? k)) car_of a
  else if (t =? TCHAR) || (t =? TNUMBER) then
    let v := c_cdr cx in
    find_loop fuel (fun a => b <- car_of a ;; k <- car_of b ;; w <- cdr_of k ;; ret (v =? w)) car_of a
  else if t =? TKEYWORD then
    find_loop fuel (fun a => b <- car_of a ;; k <- car_of b ;; r <- string_equal_p x k ;; ret (r =? cell_t)) car_of a
  else
    find_loop fuel (fun a => b <- car_of a ;; k <- car_of b ;; ret (x =? k)) car_of a.

(** src/core.c:255-267 assoc *)
Definition assoc (fuel : nat) (x a : Z) : M Z :=
  t <- ty x ;;
  if t =? TSTRING then assoc_string fuel x a else
  find_loop fuel (fun a => b <- car_of a ;; k <- car_of b ;; r <- equal2_p fuel x k ;; ret (r =? cell_t)) car_of a.

(** src/lib.c:55-65 xassq *)
Definition xassq (fuel : nat) (x a : Z) : M Z :=
  find_loop fuel (fun a => b <- car_of a ;; k <- cdr_of b ;; ret (x =? k)) car_of a.

(** src/lib.c:67-100 memq *)
Definition memq (fuel : nat) (x a : Z) : M Z :=
  cx <- rd x ;;
  let t := c_ty cx in
  if (t =? TCHAR) || (t =? TNUMBER) then
    let v := c_cdr cx in
    find_loop fuel (fun a => k <- car_of a ;; w <- cdr_of k ;; ret (v =? w)) ret a
  else if t =? TKEYWORD then
    find_loop fuel (fun a => k <- car_of a ;; t <- ty k ;;
        if t =? TKEYWORD then r <- string_equal_p x k ;; ret (r =? cell_t) else ret false) ret a
  else
    find_loop fuel (fun a => k <- car_of a ;; ret (x =? k)) ret a.

(** src/lib.c:144-153 last_pair *)
Fixpoint last_pair (fuel : nat) (x : Z) : M Z :=
  if x =? cell_nil then ret x else
  match fuel with
  | O => out_of_fuel
  | S fuel' =>
      d <- cdr_of x ;;
      if d =? cell_nil then ret x else last_pair fuel' d
  end.

(** src/lib.c:31-35 type_ *)
Definition type_ (x : Z) : M Z := t <- ty x ;; make_number t.
(** src/lib.c:163-173 char_to_integer, integer_to_char ([make_char] takes an int) *)
Definition char_to_integer (x : Z) : M Z := v <- cdr_of x ;; make_number v.
Definition integer_to_char (x : Z) : M Z := v <- cdr_of x ;; make_char (to_s32 v).

(* ------------------------------------------------------------------ vector.c *)

(** src/vector.c:88-94 vector_entry *)
Definition vector_entry (x : Z) : M Z :=
  t <- ty x ;;
  if negb (t =? TCHAR) && negb (t =? TNUMBER) then make_ref x else ret x.

(** [copy_cell (cell_ref (v, i), vector_entry (e))] *)
Definition set_entry (v i e : Z) : M unit :=
  x <- vector_entry e ;; copy_cell (cell_ref v i) x.

Fixpoint fill_loop (n : nat) (v i e : Z) : M unit :=
  match n with
  | O => ret tt
  | S n' => set_entry v i e ;;; fill_loop n' v (i + 1) e
  end.

(** src/vector.c:32-45 make_vector_ (the payload words of [x] are written one by one in C) *)
Definition make_vector_ (k e : Z) : M Z :=
  x <- alloc 1 ;;
  v <- alloc k ;;
  wr x (Cell TVECTOR k v []) ;;;
  fill_loop (Z.to_nat k) v 0 e ;;;
  ret x.

(** src/math.c:31-38 assert_number *)
Definition assert_number (x : Z) : M unit :=
  t <- ty x ;; if t =? TNUMBER then ret tt else error cell_symbol_not_a_number x.

(** src/vector.c:47-58 make_vector *)
Definition make_vector (x : Z) : M Z :=
  k <- car_of x ;;
  assert_number k ;;;
  n <- cdr_of k ;;
  d <- cdr_of x ;;
  e <- (if d =? cell_nil then ret cell_unspecified else car_of d) ;;
  make_vector_ n e.

(** src/vector.c:60-65 vector_length *)
Definition vector_length (x : Z) : M Z :=
  c <- rd x ;; assert_msg (c_ty c =? TVECTOR) ;;; make_number (c_car c).

(** src/vector.c:72-79 and src/struct.c:62-69: load an element; characters and numbers get a
    cell of their own.  The two tests on the type run one after the other. *)
Definition get_entry (v i : Z) : M Z :=
  e <- deref (cell_ref v i) ;;
  c <- rd e ;;
  e <- (if c_ty c =? TCHAR then make_char (to_s32 (c_cdr c)) else ret e) ;;
  c <- rd e ;;
  if c_ty c =? TNUMBER then make_number (c_cdr c) else ret e.

(** src/vector.c:67-80 vector_ref_ *)
Definition vector_ref_ (x i : Z) : M Z :=
  c <- rd x ;;
  assert_msg (c_ty c =? TVECTOR) ;;;
  assert_msg (i <? c_car c) ;;;
  get_entry (c_cdr c) i.
(** src/vector.c:82-86 vector_ref *)
Definition vector_ref (x i : Z) : M Z := n <- cdr_of i ;; vector_ref_ x n.

(** src/vector.c:96-103 vector_set_x_ *)
Definition vector_set_x_ (x i e : Z) : M Z :=
  c <- rd x ;;
  assert_msg (c_ty c =? TVECTOR) ;;;
  assert_msg (i <? c_car c) ;;;
  set_entry (c_cdr c) i e ;;;
  ret cell_unspecified.
(** src/vector.c:105-109 vector_set_x *)
Definition vector_set_x (x i e : Z) : M Z := n <- cdr_of i ;; vector_set_x_ x n e.

(** src/vector.c:111-123 list_to_vector *)
Fixpoint l2v_loop (fuel : nat) (p x : Z) : M unit :=
  if x =? cell_nil then ret tt else
  match fuel with
  | O => out_of_fuel
  | S fuel' =>
      a <- car x ;;
      e <- vector_entry a ;;
      copy_cell p e ;;;
      d <- cdr x ;;
      l2v_loop fuel' (p + 1) d
  end.
Definition list_to_vector (fuel : nat) (x : Z) : M Z :=
  n <- length__ fuel x ;;
  v <- make_vector_ n cell_unspecified ;;
  p <- cdr_of v ;;
  l2v_loop fuel p x ;;;
  ret v.

(** src/vector.c:125-139 vector_to_list: counts down from the length to 0 (a negative length
    would not stop; [Z.to_nat] then gives no iteration at all, see [vector_to_list]) *)
Fixpoint v2l_loop (n : nat) (v x : Z) : M Z :=
  match n with
  | O => ret x
  | S n' =>
      e <- deref (cell_ref v (Z.of_nat n')) ;;
      x <- cons e x ;;
      v2l_loop n' v x
  end.
Definition vector_to_list (v : Z) : M Z :=
  c <- rd v ;;
  if c_car c <? 0 then ub else v2l_loop (Z.to_nat (c_car c)) (c_cdr c) cell_nil.

(* ------------------------------------------------------------------ struct.c *)

(** src/struct.c:35-46, fields from index [i] on *)
Fixpoint struct_loop (n : nat) (v i fields : Z) : M unit :=
  match n with
  | O => ret tt
  | S n' =>
      er <- (if fields =? cell_nil then ret (cell_unspecified, fields)
                     else c <- rd fields ;; ret (c_car c, c_cdr c)) ;;
      set_entry v i (fst er) ;;;
      struct_loop n' v (i + 1) (snd er)
  end.

(** src/struct.c:24-48 make_struct *)
Definition make_struct (fuel : nat) (type fields printer : Z) : M Z :=
  len <- length__ fuel fields ;;
  let size := 2 + len in
  x <- alloc 1 ;;
  v <- alloc size ;;
  wr x (Cell TSTRUCT size v []) ;;;
  set_entry v 0 type ;;;
  set_entry v 1 printer ;;;
  struct_loop (Z.to_nat (size - 2)) v 2 fields ;;;
  ret x.

(** src/struct.c:50-55 struct_length *)
Definition struct_length (x : Z) : M Z :=
  c <- rd x ;; assert_msg (c_ty c =? TSTRUCT) ;;; make_number (c_car c).

(** src/struct.c:57-70 struct_ref_ *)
Definition struct_ref_ (x i : Z) : M Z :=
  c <- rd x ;;
  assert_msg (c_ty c =? TSTRUCT) ;;;
  assert_msg (i <? c_car c) ;;;
  get_entry (c_cdr c) i.

(** src/struct.c:72-79 struct_set_x_ *)
Definition struct_set_x_ (x i e : Z) : M Z :=
  c <- rd x ;;
  assert_msg (c_ty c =? TSTRUCT) ;;;
  assert_msg (i <? c_car c) ;;;
  set_entry (c_cdr c) i e ;;;
  ret cell_unspecified.
(** src/struct.c:81-91 *)
Definition struct_ref (x i : Z) : M Z := n <- cdr_of i ;; struct_ref_ x n.
Definition struct_set_x (x i e : Z) : M Z := n <- cdr_of i ;; struct_set_x_ x n e.

(* ------------------------------------------------------------------ hash.c *)

(** a byte of a payload read through [char]; a zero-length payload still has its NUL
    (src/gc.c:262-263), anything else behind the payload is UB *)
Definition byte_at (bs : list Z) (i : Z) : M Z :=
  match bs !! Z.to_nat i with
  | Some b => ret (to_schar b)
  | None => match bs with [] => if i =? 0 then ret 0 else ub | _ => ub end
  end.

(** src/hash.c:26-36 hash_cstring; [int % long] is computed in long *)
Definition hash_cstring (bs : list Z) (size : Z) : M Z :=
  s0 <- byte_at bs 0 ;;
  let hash := s0 * 37 in
  hash <- (if s0 =? 0 then ret hash else
           s1 <- byte_at bs 1 ;;
           ret (if s1 =? 0 then hash else hash + s1 * 43)) ;;
  assert_msg (negb (size =? 0)) ;;;
  ret (to_s32 (Z.rem hash size)).

(** src/hash.c:38-44 hashq_ *)
Definition hashq_ (x size : Z) : M Z :=
  c <- rd x ;;
  if (c_ty c =? TSPECIAL) || (c_ty c =? TSYMBOL) then
    bs <- cell_bytes (c_cdr c) ;; hash_cstring bs size
  else
    m <- make_string0 (bytes_of "hashq_: not a symbol") ;;
    e <- cons m x ;; error cell_symbol_system_error e.

(** src/hash.c:46-56 hash_ *)
Definition hash_ (x size : Z) : M Z :=
  c <- rd x ;;
  if c_ty c =? TSTRING then bs <- cell_bytes (c_cdr c) ;; hash_cstring bs size else abort.

(** src/hash.c:72-86 hashq_get_handle; [unsigned hash] *)
Definition hashq_get_handle (fuel : nat) (table key dflt : Z) : M Z :=
  s <- struct_ref_ table 3 ;;
  size <- cdr_of s ;;
  hash <- hashq_ key size ;;
  buckets <- struct_ref_ table 4 ;;
  bucket <- vector_ref_ buckets (to_u32 hash) ;;
  d <- rd dflt ;;
  let x := if c_ty d =? TPAIR then c_car d else cell_f in
  t <- ty bucket ;;
  if t =? TPAIR then assq fuel key bucket else ret x.

(** src/hash.c:88-95 hashq_ref *)
Definition hashq_ref (fuel : nat) (table key dflt : Z) : M Z :=
  x <- hashq_get_handle fuel table key dflt ;;
  if x =? cell_f then ret x else cdr_of x.

(** src/hash.c:97-115 hash_ref *)
Definition hash_ref (fuel : nat) (table key dflt : Z) : M Z :=
  s <- struct_ref_ table 3 ;;
  size <- cdr_of s ;;
  hash <- hash_ key size ;;
  buckets <- struct_ref_ table 4 ;;
  bucket <- vector_ref_ buckets (to_u32 hash) ;;
  d <- rd dflt ;;
  let x := if c_ty d =? TPAIR then c_car d else cell_f in
  t <- ty bucket ;;
  if t =? TPAIR then
    x <- assoc fuel key bucket ;;
    if x =? cell_f then ret x else cdr_of x
  else ret x.

(** src/hash.c:117-127 hash_set_x_ *)
Definition hash_set_x_ (table hash key value : Z) : M Z :=
  buckets <- struct_ref_ table 4 ;;
  bucket <- vector_ref_ buckets hash ;;
  t <- ty bucket ;;
  let bucket := if t =? TPAIR then bucket else cell_nil in
  bucket <- acons key value bucket ;;
  vector_set_x_ buckets hash bucket ;;;
  ret value.

(** src/hash.c:129-136 hashq_set_x *)
Definition hashq_set_x (table key value : Z) : M Z :=
  s <- struct_ref_ table 3 ;;
  size <- cdr_of s ;;
  hash <- hashq_ key size ;;
  hash_set_x_ table (to_u32 hash) key value.

(** src/hash.c:138-145 hash_set_x *)
Definition hash_set_x (table key value : Z) : M Z :=
  s <- struct_ref_ table 3 ;;
  size <- cdr_of s ;;
  hash <- hash_ key size ;;
  hash_set_x_ table (to_u32 hash) key value.

(** src/hash.c:179-188 make_hashq_type *)
Definition make_hashq_type : M Z :=
  fields <- cons cell_symbol_buckets cell_nil ;;
  fields <- cons cell_symbol_size fields ;;
  fields <- cons fields cell_nil ;;
  fields <- cons cell_symbol_hashq_table fields ;;
  make_struct 2 cell_symbol_record_type fields cell_unspecified.

(** src/hash.c:190-205 make_hash_table_ *)
Definition make_hash_table_ (size : Z) : M Z :=
  let size := if size =? 0 then 100 else size in
  hashq_type <- make_hashq_type ;;
  buckets <- make_vector_ size cell_unspecified ;;
  values <- cons buckets cell_nil ;;
  n <- make_number size ;;
  values <- cons n values ;;
  values <- cons cell_symbol_hashq_table values ;;
  make_struct 3 hashq_type values cell_unspecified.

(** src/hash.c:207-217 make_hash_table (arity 1) *)
Definition make_hash_table (x : Z) : M Z :=
  c <- rd x ;;
  size <- (if c_ty c =? TPAIR then assert_msg (c_ty c =? TNUMBER) ;;; ret (c_cdr c) else ret 0) ;;
  make_hash_table_ size.

(* ------------------------------------------------------------------ string.c *)

(** src/string.c:43-62 list_to_cstring: the bytes stored in g_buf, without the final NUL.
    g_buf has MAX_STRING bytes (src/gc.c:117); the check in line 51 comes too late for the
    store at index MAX_STRING, which is UB *)
Fixpoint l2c_loop (fuel : nat) (list i : Z) (acc : Datatypes.list Z) : M (Datatypes.list Z) :=
  max <- gets MAX_STRING ;;
  if list =? cell_nil then
    if i <? max then ret acc else ub
  else
  match fuel with
  | O => out_of_fuel
  | S fuel' =>
      x <- car list ;;
      v <- cdr_of x ;;
      if i <? max then
        d <- cdr list ;;
        l2c_loop fuel' d (i + 1) (acc ++ [to_byte v])
      else ub
  end.

(** src/string.c:164-170 list_to_string *)
Definition list_to_string (fuel : nat) (list : Z) : M Z :=
  bs <- l2c_loop fuel list 0 [] ;; make_string bs.

(** src/string.c:131-143 bytes_to_list: from the last byte down *)
Fixpoint b2l_loop (rev_bytes : list Z) (p : Z) : M Z :=
  match rev_bytes with
  | [] => ret p
  | b :: rest =>
      c <- make_char (Z.rem (256 + to_schar b) 256) ;;
      p <- cons c p ;;
      b2l_loop rest p
  end.
Definition bytes_to_list (s : list Z) (i : Z) : M Z :=
  if i <=? Z.of_nat (List.length s) then b2l_loop (rev (take (Z.to_nat i) s)) cell_nil else ub.

(** src/string.c:145-149 cstring_to_list *)
Definition cstring_to_list (s : list Z) : M Z :=
  let s := until_nul s in bytes_to_list s (Z.of_nat (List.length s)).

(** src/string.c:158-162 string_to_list *)
Definition string_to_list (string : Z) : M Z :=
  c <- rd string ;; bs <- cell_bytes (c_cdr c) ;; bytes_to_list bs (c_car c).

(** src/string.c:96-112 symbol_to_string, symbol_to_keyword, keyword_to_string *)
Definition symbol_to_string (symbol : Z) : M Z :=
  c <- rd symbol ;; make_cell TSTRING (c_car c) (c_cdr c).
Definition symbol_to_keyword (symbol : Z) : M Z :=
  c <- rd symbol ;; make_cell TKEYWORD (c_car c) (c_cdr c).
Definition keyword_to_string (keyword : Z) : M Z :=
  c <- rd keyword ;; make_cell TSTRING (c_car c) (c_cdr c).

(** src/string.c:123-129 make_symbol *)
Definition make_symbol (string : Z) : M Z :=
  c <- rd string ;;
  x <- make_pointer_cell TSYMBOL (c_car c) (c_cdr c) ;;
  t <- gets g_symbols ;;
  hash_set_x t string x ;;;
  ret x.

(** src/string.c:114-121 string_to_symbol *)
Definition string_to_symbol (fuel : nat) (string : Z) : M Z :=
  t <- gets g_symbols ;;
  x <- hash_ref fuel t string cell_f ;;
  if x =? cell_f then make_symbol string else ret x.

(** src/string.c:151-156 cstring_to_symbol *)
Definition cstring_to_symbol (fuel : nat) (s : list Z) : M Z :=
  string <- make_string0 s ;; string_to_symbol fuel string.

(** src/string.c:197-216 string_append; [acc] are the bytes stored so far, [term] the byte after
    them (the last byte copied).  memcpy past the end of g_buf is UB, so is reading past a payload *)
Fixpoint append_loop (fuel : nat) (x : Z) (acc : list Z) (term : Z) : M (list Z * Z) :=
  if x =? cell_nil then ret (acc, term) else
  match fuel with
  | O => out_of_fuel
  | S fuel' =>
      cx <- rd x ;;
      c <- rd (c_car cx) ;;
      assert_msg (c_ty c =? TSTRING) ;;;
      bs <- cell_bytes (c_cdr c) ;;
      max <- gets MAX_STRING ;;
      let len := c_car c in
      if (0 <=? len) && (len + 1 <=? Z.of_nat (List.length bs))
         && (Z.of_nat (List.length acc) + len + 1 <=? max)
      then
        match bs !! Z.to_nat len with
        | Some t => append_loop fuel' (c_cdr cx) (acc ++ take (Z.to_nat len) bs) t
        | None => ub
        end
      else ub
  end.
Definition string_append (fuel : nat) (x : Z) : M Z :=
  bt <- append_loop fuel x [] 0 ;; make_string_term (fst bt) (snd bt).

(** src/string.c:218-223 string_length *)
Definition string_length (string : Z) : M Z :=
  c <- rd string ;; assert_msg (c_ty c =? TSTRING) ;;; make_number (c_car c).

(** src/string.c:225-236 string_ref; [size_t i] *)
Definition string_ref (str k : Z) : M Z :=
  c <- rd str ;;
  assert_msg (c_ty c =? TSTRING) ;;;
  ck <- rd k ;;
  assert_msg (c_ty ck =? TNUMBER) ;;;
  let size := to_u64 (c_car c) in
  let i := to_u64 (c_cdr ck) in
  (if size <? i then
     m <- make_string0 (bytes_of "value out of range") ;;
     e <- cons m k ;; error cell_symbol_system_error e
   else ret tt) ;;;
  bs <- cell_bytes (c_cdr c) ;;
  match bs !! Z.to_nat i with
  | Some b => make_char (to_schar b)
  | None => ub
  end.

(* ------------------------------------------------------------------ core.c, second part *)

(** src/core.c:195-209 reverse_x_ *)
Fixpoint reverse_loop (fuel : nat) (x r : Z) : M Z :=
  if x =? cell_nil then ret r else
  match fuel with
  | O => out_of_fuel
  | S fuel' =>
      t <- cdr_of x ;;
      set_cdr x r ;;;
      reverse_loop fuel' t x
  end.
Definition not_a_pair {A} (fuel : nat) (x : Z) (who : list Z) : M A :=
  s <- cstring_to_symbol fuel who ;; e <- cons x s ;; error cell_symbol_not_a_pair e.
Definition reverse_x_ (fuel : nat) (x t : Z) : M Z :=
  (if x =? cell_nil then ret tt else
   tx <- ty x ;; if tx =? TPAIR then ret tt else not_a_pair fuel x (bytes_of "core:reverse!")) ;;;
  reverse_loop fuel x t.

(** src/core.c:172-176 and 186-190 *)
Fixpoint append_reverse_loop (fuel : nat) (x r : Z) : M Z :=
  if x =? cell_nil then ret r else
  match fuel with
  | O => out_of_fuel
  | S fuel' =>
      c <- rd x ;;
      r <- cons (c_car c) r ;;
      (* x->cdr is read after the allocation *)
      d <- cdr_of x ;;
      append_reverse_loop fuel' d r
  end.

(** src/core.c:164-178 append2 *)
Definition append2 (fuel : nat) (x y : Z) : M Z :=
  if x =? cell_nil then ret y else
  tx <- ty x ;;
  (if tx =? TPAIR then ret tt else not_a_pair fuel x (bytes_of "append2")) ;;;
  r <- append_reverse_loop fuel x cell_nil ;;
  reverse_x_ fuel r y.

(** src/core.c:180-193 append_reverse *)
Definition append_reverse (fuel : nat) (x y : Z) : M Z :=
  if x =? cell_nil then ret y else
  tx <- ty x ;;
  (if tx =? TPAIR then ret tt else not_a_pair fuel x (bytes_of "append-reverse")) ;;;
  append_reverse_loop fuel x y.

(** src/eval-apply.c:104-120 set_car_x, set_cdr_x *)
Definition set_car_x (fuel : nat) (x e : Z) : M Z :=
  t <- ty x ;;
  (if t =? TPAIR then ret tt else not_a_pair fuel x (bytes_of "set-car!")) ;;;
  set_car x e ;;; ret cell_unspecified.
Definition set_cdr_x (fuel : nat) (x e : Z) : M Z :=
  t <- ty x ;;
  (if t =? TPAIR then ret tt else not_a_pair fuel x (bytes_of "set-cdr!")) ;;;
  set_cdr x e ;;; ret cell_unspecified.

(* ------------------------------------------------------------------ module.c *)

(** src/module.c:86-99 module_variable *)
Definition module_variable (fuel : nat) (module name : Z) : M Z :=
  x <- assq fuel name module ;;
  if x =? cell_f then
    module <- gets M0 ;;
    globals <- struct_ref_ module 5 ;;
    hashq_get_handle fuel globals name cell_f
  else ret x.

(** src/module.c:101-108 module_ref *)
Definition module_ref (fuel : nat) (module name : Z) : M Z :=
  x <- module_variable fuel module name ;;
  if x =? cell_f then ret cell_undefined else cdr_of x.

(** src/module.c:110-116 module_define_x *)
Definition module_define_x (module name value : Z) : M Z :=
  module <- gets M0 ;;
  globals <- struct_ref_ module 5 ;;
  hashq_set_x globals name value.

(** src/module.c:24-34 make_module_type *)
Definition make_module_type (fuel : nat) : M Z :=
  y <- cstring_to_symbol fuel (bytes_of "globals") ;; fields <- cons y cell_nil ;;
  y <- cstring_to_symbol fuel (bytes_of "locals") ;; fields <- cons y fields ;;
  y <- cstring_to_symbol fuel (bytes_of "name") ;; fields <- cons y fields ;;
  fields <- cons fields cell_nil ;;
  fields <- cons cell_symbol_module fields ;;
  make_struct fuel cell_symbol_record_type fields cell_unspecified.

Fixpoint define_all (fuel : nat) (module a : Z) : M unit :=
  c <- rd a ;;
  if c_ty c =? TPAIR then
    match fuel with
    | O => out_of_fuel
    | S fuel' =>
        b <- rd (c_car c) ;;
        module_define_x module (c_car b) (c_cdr b) ;;;
        d <- cdr_of a ;;
        define_all fuel' module d
    end
  else ret tt.

(** src/module.c:36-66 make_initial_module *)
Definition make_initial_module (fuel : nat) (a : Z) : M Z :=
  module_type <- make_module_type fuel ;;
  a <- acons cell_symbol_module module_type a ;;
  hashq_type <- make_hashq_type ;;
  a <- acons cell_symbol_hashq_table hashq_type a ;;
  y <- cstring_to_symbol fuel (bytes_of "boot") ;;
  name <- cons y cell_nil ;;
  globals <- make_hash_table_ 0 ;;
  values <- cons globals cell_nil ;;
  values <- cons cell_nil values ;;
  values <- cons name values ;;
  values <- cons cell_symbol_module values ;;
  y <- cstring_to_symbol fuel (bytes_of "module-printer") ;;
  module <- make_struct fuel module_type values y ;;
  modify (set_R0 cell_nil) ;;;
  ca <- rd a ;; cda <- rd (c_cdr ca) ;;
  x <- cons (c_car cda) cell_nil ;; modify (set_R0 x) ;;;
  x <- cons (c_car ca) x ;; modify (set_R0 x) ;;;
  modify (set_M0 module) ;;;
  define_all fuel module a ;;;
  ret module.

(* ------------------------------------------------------------------ symbol.c *)

(** src/symbol.c:36-52 init_symbol.  In the first pass (g_symbols == 0) only the type word of a
    fresh cell is written; its other words, which malloc leaves undefined, are taken to be 0.
    The first pass and the second write the same constants, so cell_xxx = [x]. *)
Definition init_symbol (x : Z) (special : bool) (name : list Z) : M unit :=
  let type := if special then TSPECIAL else TSYMBOL in
  t <- gets g_symbols ;;
  if t =? 0 then
    wr x (Cell type 0 0 []) ;;;
    modify (fun s => set_g_free (g_free s + 1) s)
  else
    set_ty x type ;;;
    string <- make_string name ;;
    set_car x (Z.of_nat (List.length name)) ;;;
    b <- cdr_of string ;;
    set_cdr x b ;;;
    hash_set_x t string x ;;; ret tt.

Fixpoint init_symbols_ (l : list (Z * bool * String.string)) : M unit :=
  match l with
  | [] => ret tt
  | (x, special, name) :: l' => init_symbol x special (bytes_of name) ;;; init_symbols_ l'
  end.

(** src/symbol.c:178-222 init_symbols, without the last two strings' contents (version and data
    directory), which are parameters *)
Definition type_constants : list (Z * Z) :=
  [ (cell_type_bytes, TBYTES); (cell_type_char, TCHAR); (cell_type_closure, TCLOSURE);
    (cell_type_continuation, TCONTINUATION); (cell_type_keyword, TKEYWORD); (cell_type_macro, TMACRO);
    (cell_type_number, TNUMBER); (cell_type_pair, TPAIR); (cell_type_port, TPORT); (cell_type_ref, TREF);
    (cell_type_special, TSPECIAL); (cell_type_string, TSTRING); (cell_type_struct, TSTRUCT);
    (cell_type_symbol, TSYMBOL); (cell_type_values, TVALUES); (cell_type_variable, TVARIABLE);
    (cell_type_vector, TVECTOR); (cell_type_broken_heart, TBROKEN_HEART) ].
Fixpoint acons_numbers (l : list (Z * Z)) (a : Z) : M Z :=
  match l with
  | [] => ret a
  | (k, n) :: l' => v <- make_number n ;; a <- acons k v a ;; acons_numbers l' a
  end.
Definition init_symbols (buckets : Z) (version datadir : list Z) : M Z :=
  modify (fun s => set_g_free (g_cells s + 1) s) ;;;
  modify (set_g_symbols 0) ;;;
  init_symbols_ builtin_symbols ;;;
  modify (set_g_symbol_max (cell_nil + Z.of_nat (List.length builtin_symbols))) ;;;
  t <- make_hash_table_ buckets ;;                     (* 500 in the source *)
  modify (set_g_symbols t) ;;;
  init_symbols_ builtin_symbols ;;;
  modify (set_g_ports cell_nil) ;;;
  a <- acons cell_symbol_call_with_values cell_symbol_call_with_values cell_nil ;;
  a <- acons cell_symbol_boot_module cell_symbol_boot_module a ;;
  a <- acons cell_symbol_current_module cell_symbol_current_module a ;;
  x <- make_string0 version ;; a <- acons cell_symbol_mes_version x a ;;
  x <- make_string0 datadir ;; a <- acons cell_symbol_mes_datadir x a ;;
  a <- acons_numbers type_constants a ;;
  acons cell_closure a a.

(** src/gc.c:54-118 gc_init: the arena, with the sizes as parameters (they come from the
    environment); cell_arena is cell 1, cell_zero cell 2.  99 is 'c'. *)
Definition init_state (arena jam stack safety max_string : Z) : state :=
  {| heap := <[2 := Cell TCHAR 0 99 []]> (<[1 := Cell TVECTOR 1000 2 []]> ∅);
     g_free := 3; g_cells := 2; g_news := 0; limit := 1 + arena + jam;
     ARENA_SIZE := arena; MAX_ARENA_SIZE := 10000000; JAM_SIZE := jam; GC_SAFETY := safety;
     MAX_STRING := max_string; STACK_SIZE := stack; g_stack_array := ∅; g_stack := stack;
     R0 := 0; R1 := 0; R2 := 0; R3 := 0; M0 := 0; g_symbols := 0; g_macros := 0; g_ports := 0;
     g_symbol_max := 0; g_continuations := 0; std_in := 0; in_fds := ∅; unget := ∅; out_fds := ∅ |}.
