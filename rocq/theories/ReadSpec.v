(** Specification of external representations: data, the texts that denote them, and the text that
    write produces.  Nothing here mentions the functions of the interpreter. *)
From stdpp Require Import base gmap list.
From Coq Require Import ZArith.
From Verif Require Import CInt Symbols Heap DataModel DataSpec HashProofs.
Import Strings.String.StringSyntax.
Open Scope Z_scope.

(** ** Data *)
Inductive sexp : Type :=
| XNum (n : Z) | XChar (c : Z) | XStr (bs : list Z) | XSym (name : list Z) | XKey (name : list Z)
| XNil | XBool (b : bool) | XPair (a d : sexp) | XVec (l : list sexp).
Definition XList (l : list sexp) : sexp := foldr XPair XNil l.
(** a tagged datum such as (quote x) *)
Definition XTag (name : list Z) (x : sexp) : sexp := XPair (XSym name) (XPair x XNil).

(** the symbol called [name] in the symbol table [al] *)
Definition interned (al : list entry) (name : list Z) (p : Z) : Prop := latest (same_name name) al = Some p.

(** address [p] holds the datum *)
Inductive sexp_at (al : list entry) (h : gmap Z cell) : Z -> sexp -> Prop :=
| at_num p n : number_at h p n -> sexp_at al h p (XNum n)
| at_char p c : char_at h p c -> sexp_at al h p (XChar c)
| at_str p bs : text_at h TSTRING p bs -> sexp_at al h p (XStr bs)
| at_key p bs : text_at h TKEYWORD p bs -> sexp_at al h p (XKey bs)
| at_sym p name : interned al name p -> sexp_at al h p (XSym name)
| at_nil : sexp_at al h cell_nil XNil
| at_bool b : sexp_at al h (if b : bool then cell_t else cell_f) (XBool b)
| at_pair p a d xa xd : pair_at h p a d -> sexp_at al h a xa -> sexp_at al h d xd -> sexp_at al h p (XPair xa xd)
| at_vec p c es l : h !! p = Some c -> c_ty c = TVECTOR -> c_car c = Z.of_nat (length es) ->
    (forall i e, es !! i = Some e -> entry_at h (c_cdr c + Z.of_nat i) e) ->
    Forall2 (sexp_at al h) es l -> sexp_at al h p (XVec l).

(** ** Characters *)
Definition blank (c : Z) : Prop := c ∈ [32; 9; 10; 12].
(** inside a list also vertical tab and carriage return are white space *)
Definition white (c : Z) : Prop := c ∈ [32; 9; 10; 12; 11; 13].
Definition delimiter (c : Z) : Prop := white c \/ c ∈ bytes_of """();".
(** a word ends before [rest] *)
Definition ends (rest : list Z) : Prop := match rest with [] => True | c :: _ => delimiter c end.
Definition decimal_digit (c : Z) : Prop := 48 <= c <= 57.
(** the digits of the bases 2, 8, 16 *)
Definition digit_value (base c : Z) : option Z :=
  let d := if (48 <=? c) && (c <=? 57) then Some (c - 48)
           else if (65 <=? c) && (c <=? 70) then Some (c - 55)
           else if (97 <=? c) && (c <=? 102) then Some (c - 87) else None in
  match d with Some v => if v <? base then Some v else None | None => None end.
Definition digits_value (base : Z) (ds : list Z) : Z :=
  fold_left (fun v c => v * base + default 0 (digit_value base c)) ds 0.

(** ** Layout: what may stand between tokens *)
(** [body] does not contain the end of the comment, [s] followed by "#" *)
Definition no_end (s : Z) (body : list Z) : Prop := forall u v, body ++ [s] <> u ++ s :: 35 :: v.
Inductive layout (ws : Z -> Prop) : list Z -> Prop :=
| lay_nil : layout ws []
| lay_white c l : ws c -> layout ws l -> layout ws (c :: l)
| lay_line body l : Forall (fun c => c <> 10) body -> layout ws l -> layout ws (59 :: body ++ 10 :: l)
| lay_block s body l : s ∈ bytes_of "!|" -> no_end s body -> layout ws l -> layout ws (35 :: s :: body ++ s :: 35 :: l).

(** ** Words *)
Definition word_char (c : Z) : Prop := 1 <= c < 128 /\ ~ delimiter c.
(** [name] cannot be taken for a number and does not lose a sign; the reader computes the value of
    the digits a name starts with *)
Definition no_number (name : list Z) : Prop :=
  ~ Forall decimal_digit name /\
  (forall s d r, name = s :: d :: r -> s ∈ bytes_of "+-" -> ~ decimal_digit d) /\
  (forall ds r, name = ds ++ r -> Forall decimal_digit ds -> digits_value 10 ds <= LONG_MAX - 48).
Definition key_name (name : list Z) : Prop := name <> [] /\ Forall word_char name /\ no_number name /\ name <> bytes_of "#f".
(** in addition a symbol does not start with one of # ' ` , and a dot must be followed by a
    printing character that is not a delimiter *)
Definition symbol_name (name : list Z) : Prop := key_name name /\
  match name with
  | [] => False
  | c :: r => c ∉ bytes_of "#'`," /\ (c = 46 -> exists d r', r = d :: r' /\ 32 < d < 127)
  end.

(** ** Strings: the text between the quotes *)
Definition escapes : list (Z * Z) :=
  [ (48, 0); (97, 7); (98, 8); (116, 9); (110, 10); (118, 11); (102, 12); (114, 13); (101, 27) ].
Inductive string_text : list Z -> list Z -> Prop :=
| st_nil : string_text [] []
| st_char c t bs : c ∉ bytes_of """\" -> string_text t bs -> string_text (c :: t) (c :: bs)
| st_escape c b t bs : (c, b) ∈ escapes -> string_text t bs -> string_text (92 :: c :: t) (b :: bs)
| st_quoted c t bs : c <> 120 -> (forall b, (c, b) ∉ escapes) -> string_text t bs -> string_text (92 :: c :: t) (c :: bs).

(** ** Characters *)
Definition named_chars : list (list Z * Z) :=
  [ (bytes_of "nul", 0); (bytes_of "alarm", 7); (bytes_of "backspace", 8); (bytes_of "tab", 9); (bytes_of "linefeed", 10);
    (bytes_of "newline", 10); (bytes_of "vtab", 11); (bytes_of "page", 12); (bytes_of "return", 13); (bytes_of "esc", 27);
    (bytes_of "space", 32); (bytes_of "bel", 7); (bytes_of "bs", 8); (bytes_of "ht", 9); (bytes_of "vt", 11);
    (bytes_of "cr", 13); (bytes_of "*eof*", -1) ].
Definition octal (c : Z) : Prop := 48 <= c <= 55.
Definition letter (c : Z) : Prop := 97 <= c <= 122 \/ c = 42.
(** the character [c] is not the beginning of a longer name with [rest] *)
Definition lone (c : Z) (rest : list Z) : Prop :=
  match rest with
  | [] => True
  | p :: _ => ~ (octal c /\ octal p) /\ ~ (c = 120 /\ (decimal_digit p \/ 97 <= p <= 102 \/ p = 70)) /\ ~ (letter c /\ letter p)
  end.
Definition not_letter (rest : list Z) : Prop := match rest with [] => True | p :: _ => ~ letter p end.

(** ** Abbreviations *)
Definition abbreviations : list (list Z * list Z) :=
  [ (bytes_of "'", bytes_of "quote"); (bytes_of "`", bytes_of "quasiquote"); (bytes_of ",", bytes_of "unquote");
    (bytes_of ",@", bytes_of "unquote-splicing"); (bytes_of "#'", bytes_of "syntax"); (bytes_of "#`", bytes_of "quasisyntax");
    (bytes_of "#,", bytes_of "unsyntax"); (bytes_of "#,@", bytes_of "unsyntax-splicing") ].

(** ** Texts: [text rest t x]: [t], when followed by [rest], denotes [x] *)
Section Text.
(** words, strings and numbers have fewer than [max] characters *)
Context (max : Z).
Definition short (bs : list Z) : Prop := Z.of_nat (length bs) < max.

Inductive text : list Z -> list Z -> sexp -> Prop :=
| t_number sign ds rest : sign ∈ [[]; bytes_of "+"; bytes_of "-"] -> ds <> [] -> Forall decimal_digit ds -> short ds ->
    digits_value 10 ds <= LONG_MAX - 48 -> ends rest ->
    text rest (sign ++ ds) (XNum (if bool_decide (sign = bytes_of "-") then - digits_value 10 ds else digits_value 10 ds))
| t_based r base sign ds rest : (r, base) ∈ [(98, 2); (111, 8); (120, 16)] -> sign ∈ [[]; bytes_of "-"] ->
    Forall (fun c => is_Some (digit_value base c)) ds -> digits_value base ds <= LONG_MAX - 128 ->
    match ds ++ rest with [] => True | c :: _ => sign = [] -> c <> 45 end ->
    match rest with [] => True | c :: _ => digit_value base c = None end ->
    text rest (35 :: r :: sign ++ ds) (XNum (if bool_decide (sign = bytes_of "-") then - digits_value base ds else digits_value base ds))
| t_symbol name rest : symbol_name name -> short name -> ends rest -> text rest name (XSym name)
| t_keyword name rest : key_name name -> short name -> ends rest -> text rest (bytes_of "#:" ++ name) (XKey name)
| t_string t bs rest : string_text t bs -> short bs -> text rest (34 :: t ++ [34]) (XStr bs)
| t_char c rest : lone c rest -> text rest (bytes_of "#\" ++ [c]) (XChar c)
| t_named_char name c rest : (name, c) ∈ named_chars -> not_letter rest -> text rest (bytes_of "#\" ++ name) (XChar c)
| t_true rest : text rest (bytes_of "#t") (XBool true)
| t_false rest : text rest (bytes_of "#f") (XBool false)
| t_list t x rest : items false rest t x -> text rest (40 :: t) x
| t_vector t l rest : items false rest t (XList l) -> text rest (35 :: 40 :: t) (XVec l)
| t_abbreviation q name l t x rest : (q, name) ∈ abbreviations -> layout blank l -> text rest t x ->
    (last q = Some 44 -> head (l ++ t) <> Some 64) -> text rest (q ++ l ++ t) (XTag name x)
| t_datum_comment l1 t1 x1 l2 t2 x2 rest : layout blank l1 -> text (l2 ++ t2 ++ rest) t1 x1 -> layout blank l2 -> text rest t2 x2 ->
    text rest (bytes_of "#;" ++ l1 ++ t1 ++ l2 ++ t2) x2
(** the elements of a list up to the closing parenthesis; a dot may come after the first one *)
with items : bool -> list Z -> list Z -> sexp -> Prop :=
| i_close dot l rest : layout white l -> items dot rest (l ++ [41]) XNil
| i_item dot l t1 x1 t2 x2 rest : layout white l -> text (t2 ++ rest) t1 x1 -> items true rest t2 x2 ->
    items dot rest (l ++ t1 ++ t2) (XPair x1 x2)
| i_dot l l1 t1 x1 l2 rest : layout white l -> layout white l1 -> text (l2 ++ 41 :: rest) t1 x1 -> layout white l2 ->
    match l1 ++ t1 with [] => True | c :: _ => delimiter c end ->
    items true rest (l ++ 46 :: l1 ++ t1 ++ l2 ++ [41]) x1.
End Text.
Scheme text_mut := Minimality for text Sort Prop with items_mut := Minimality for items Sort Prop.
Combined Scheme text_items_ind from text_mut, items_mut.

(** ** The text that write produces *)
Definition written_names : list (list Z * Z) :=
  [ (bytes_of "nul", 0); (bytes_of "alarm", 7); (bytes_of "backspace", 8); (bytes_of "tab", 9); (bytes_of "newline", 10);
    (bytes_of "vtab", 11); (bytes_of "page", 12); (bytes_of "return", 13); (bytes_of "space", 32) ].
(** a byte of a string: quoted, or itself *)
Definition byte_text (b : Z) : list Z :=
  match List.find (fun e => snd e =? b) (escapes ++ [(92, 92); (34, 34)]) with Some e => [92; fst e] | None => [b] end.
(** the decimal numeral without superfluous zeros *)
Definition number_text (n : Z) (t : list Z) : Prop :=
  exists ds, t = (if n <? 0 then bytes_of "-" else []) ++ ds /\ ds <> [] /\ Forall decimal_digit ds /\ digits_value 10 ds = Z.abs n /\
    (head ds = Some 48 -> ds = [48]).
Definition atom (x : sexp) : bool := match x with XPair _ _ | XNil => false | _ => true end.
Inductive writes : sexp -> list Z -> Prop :=
| w_number n t : number_text n t -> writes (XNum n) t
| w_named_char name c : (name, c) ∈ written_names -> writes (XChar c) (bytes_of "#\" ++ name)
| w_char c : 33 <= c <= 127 -> writes (XChar c) (bytes_of "#\" ++ [c])
| w_string bs : writes (XStr bs) (34 :: (bs ≫= byte_text) ++ [34])
| w_symbol name : writes (XSym name) name
| w_keyword name : writes (XKey name) (bytes_of "#:" ++ name)
| w_nil : writes XNil (bytes_of "()")
| w_bool b : writes (XBool b) (if b : bool then bytes_of "#t" else bytes_of "#f")
| w_pair a d ta td : writes a ta -> follows d td -> writes (XPair a d) (40 :: ta ++ td)
| w_empty_vector : writes (XVec []) (bytes_of "#()")
| w_vector a l ta tl : writes a ta -> follows (XList l) tl -> writes (XVec (a :: l)) (bytes_of "#(" ++ ta ++ tl)
(** the rest of a list, after the first element *)
with follows : sexp -> list Z -> Prop :=
| f_nil : follows XNil [41]
| f_pair a d ta td : writes a ta -> follows d td -> follows (XPair a d) (32 :: ta ++ td)
| f_dot x t : atom x = true -> writes x t -> follows x (bytes_of " . " ++ t ++ [41]).
Scheme writes_mut := Minimality for writes Sort Prop with follows_mut := Minimality for follows Sort Prop.
Combined Scheme writes_follows_ind from writes_mut, follows_mut.

(** The data that write can represent: numbers that fit an int; the characters with codes 0, 7 to 13
    and 32 to 127; strings and names that fit the reader's buffer; names that can be read and in which
    nothing is quoted. *)
Definition plain (name : list Z) : Prop := Forall (fun c => c ∉ [7; 8; 27; 92]) name.
Inductive representable (max : Z) : sexp -> Prop :=
| re_num n : in_int n = true -> representable max (XNum n)
| re_char c : c = 0 \/ 7 <= c <= 13 \/ 32 <= c <= 127 -> representable max (XChar c)
| re_str bs : is_bytes bs -> short max bs -> representable max (XStr bs)
| re_sym name : symbol_name name -> short max name -> plain name -> representable max (XSym name)
| re_key name : key_name name -> short max name -> plain name -> representable max (XKey name)
| re_nil : representable max XNil
| re_bool b : representable max (XBool b)
| re_pair a d : representable max a -> representable max d -> representable max (XPair a d)
| re_vec l : Forall (representable max) l -> representable max (XVec l).
(** lists with an element *circular* are taken for environments *)
Inductive no_circular : sexp -> Prop :=
| nc_atom x : match x with XPair _ _ | XVec _ => False | _ => True end -> no_circular x
| nc_pair a d : a <> XSym (bytes_of "*circular*") -> no_circular a -> no_circular d -> no_circular (XPair a d)
| nc_vec l : Forall no_circular l -> no_circular (XVec l).

(** ** Inputs that need not be texts of data *)
Definition ascii (b : list Z) : Prop := Forall (fun c => 0 <= c < 128) b.
(** every block comment is closed: after "#" and "!" or "|" come, somewhere, the same character and "#" *)
Definition comments_closed (b : list Z) : Prop :=
  forall u s v, b = u ++ 35 :: s :: v -> s ∈ bytes_of "!|" -> exists x y, v = x ++ s :: 35 :: y.
Definition printing (c : Z) : Prop := 32 < c <= 126 /\ c ∉ bytes_of """();".
(** nothing at all, or the beginning of a datum: not a closing parenthesis, a dot, white space, a comment *)
Definition datum_start (r : list Z) : Prop :=
  match r with
  | [] => True
  | c :: r' => c ∉ bytes_of ").;#" /\ ~ white c \/ c = 35 /\ exists d r'', r' = d :: r'' /\ d ∈ bytes_of "ft\(:box"
  end.
(** after every dot that stands alone comes a datum *)
Definition dots_followed (b : list Z) : Prop :=
  forall u v, b = u ++ 46 :: v -> (forall c r, v = c :: r -> ~ printing c) ->
  exists ws r, v = ws ++ r /\ Forall white ws /\ datum_start r.
