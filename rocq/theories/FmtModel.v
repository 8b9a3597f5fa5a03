(** Formatted output: lib/stdio/vsnprintf.c, for a 64-bit target, in the memory of
    LibModel.v. *)
From stdpp Require Import base gmap list.
From Coq Require Import ZArith.
From Verif Require Import CInt LibModel LibNumModel.
Open Scope Z_scope. Open Scope clib_scope.

(** the variables [str] and [count] (lib/stdio/vsnprintf.c:27,30) *)
Record out := Out { o_str : Z; o_count : Z }.

Section Fmt.
(** [size]: the parameter, a [size_t].  [buf]: the block ntoab formats in
    (LibNumModel.v).  [fuel] bounds every loop *)
Context (fuel : nat) (buf size : Z).

(** [if (count < size) *str++ = c; count++;]: lines 36-38 and the like.  [count] is
    converted to [size_t] for the comparison *)
Definition put (c : Z) (o : out) : CM out :=
  if to_u64 (o_count o) <? size then
    st (o_str o) c ;;; n <- c_int (o_count o + 1) ;; cret (Out (o_str o + 1) n)
  else n <- c_int (o_count o + 1) ;; cret (Out (o_str o) n).

(** lines 130-135, 172-177: [while (width-- > precision)]; gives [width] too *)
Fixpoint pad_left (n : nat) (pad width precision : Z) (o : out) : CM (Z * out) :=
  match n with
  | O => cfuel
  | S n' =>
      w <- c_int (width - 1) ;;
      if precision <? width then o <- put pad o ;; pad_left n' pad w precision o
      else cret (w, o)
  end.

(** lines 136-143: [while (precision > length)]; gives [width] and [precision] *)
Fixpoint fill_zeros (n : nat) (width precision length : Z) (o : out) : CM (Z * Z * out) :=
  match n with
  | O => cfuel
  | S n' =>
      if length <? precision then
        o <- put 48 o ;; w <- c_int (width - 1) ;; fill_zeros n' w (precision - 1) length o
      else cret (width, precision, o)
  end.

(** lines 178-185: [while (width > length)], for strings *)
Fixpoint fill_blanks (n : nat) (width precision length : Z) (o : out) : CM (Z * Z * out) :=
  match n with
  | O => cfuel
  | S n' =>
      if length <? width then
        o <- put 32 o ;; pr <- c_int (precision - 1) ;; fill_blanks n' (width - 1) pr length o
      else cret (width, precision, o)
  end.

(** lines 145-154, 187-196: the characters of the string; gives [width] *)
Fixpoint copy (n : nat) (s width precision : Z) (o : out) : CM (Z * out) :=
  match n with
  | O => cfuel
  | S n' =>
      c <- ld s ;;
      if c =? 0 then cret (width, o)
      else
        pr <- c_int (precision - 1) ;;
        if precision <=? 0 then cret (width, o)
        else w <- c_int (width - 1) ;; o <- put c o ;; copy n' (s + 1) w pr o
  end.

(** lines 155-161, 197-203: [while (width > 0)] *)
Fixpoint pad_right (n : nat) (pad width : Z) (o : out) : CM out :=
  match n with
  | O => cfuel
  | S n' => if 0 <? width then o <- put pad o ;; pad_right n' pad (width - 1) o else cret o
  end.

(** [va_arg (ap, long)] (include/stdarg.h:40): the arguments are a list of words *)
Definition va_arg (args : list Z) : CM (Z * list Z) :=
  match args with [] => cub | a :: args' => cret (a, args') end.

(** what stands between the '%' and the conversion character: lines 42-95.  [p] points
    to the character after the '%' *)
Record spec := Spec {
  sp_p : Z; sp_c : Z; sp_left : bool; sp_pad : Z; sp_width : Z; sp_precision : Z; sp_args : list Z }.

(** lines 63-72, and 75-84 for [precision]: a number, or the next argument *)
Definition amount (p c : Z) (args : list Z) (none : Z) : CM (Z * Z * Z * list Z) :=
  if (48 <=? c) && (c <=? 57) then
    r <- abtol fuel p 10 ;; c <- ld (snd r) ;; cret (snd r, c, to_s32 (fst r), args)
  else if c =? 42 then
    a <- va_arg args ;; c <- ld (p + 1) ;; cret (p + 1, c, to_s32 (fst a), snd a)
  else cret (p, c, none, args).

Definition skip_l (p c : Z) : CM (Z * Z) := if c =? 108 then c <- ld (p + 1) ;; cret (p + 1, c) else cret (p, c).

(** lines 42-89: up to the 'l's *)
Definition parse_amounts (p : Z) (args : list Z) : CM spec :=
  c <- ld p ;;
  let left_p := c =? 45 in
  pc <- (if left_p then c <- ld (p + 1) ;; cret (p + 1, c) else cret (p, c)) ;;
  let p := fst pc in
  let c := snd pc in
  (* lines 53-57: [c = *p++] *)
  pc <- (if c =? 32 then c <- ld p ;; cret (p + 1, c) else cret (p, c)) ;;
  let p := fst pc in
  let c := snd pc in
  (* lines 58-62 *)
  pcp <- (if c =? 48 then c <- ld p ;; cret (p + 1, c, 48) else cret (p, c, 32)) ;;
  let p := fst (fst pcp) in
  let c := snd (fst pcp) in
  let pad := snd pcp in
  w <- amount p c args (-1) ;;
  let p := fst (fst (fst w)) in
  let c := snd (fst (fst w)) in
  let width := snd (fst w) in
  let args := snd w in
  pr <- (if c =? 46 then c <- ld (p + 1) ;; amount (p + 1) c args (-1) else cret (p, c, -1, args)) ;;
  let p := fst (fst (fst pr)) in
  let c := snd (fst (fst pr)) in
  let precision := snd (fst pr) in
  let args := snd pr in
  cret (Spec p c left_p pad width precision args).

(** lines 90-95 *)
Definition parse (p : Z) (args : list Z) : CM spec :=
  s <- parse_amounts p args ;;
  pc <- skip_l (sp_p s) (sp_c s) ;; pc <- skip_l (fst pc) (snd pc) ;; pc <- skip_l (fst pc) (snd pc) ;;
  cret (Spec (fst pc) (snd pc) (sp_left s) (sp_pad s) (sp_width s) (sp_precision s) (sp_args s)).

(** lines 113-163: the integer conversions *)
Definition put_number (c : Z) (s : spec) (d : Z) (o : out) : CM out :=
  let base := if c =? 111 then 8 else if (c =? 120) || (c =? 88) then 16 else 10 in
  t <- ntoab fuel buf d base (negb (c =? 117) && negb (c =? 120) && negb (c =? 88)) ;;
  (if c =? 88 then strupr fuel t ;;; cret tt else cret tt) ;;;
  length <- strlen fuel t ;;
  let precision := if sp_precision s =? -1 then length else sp_precision s in
  wpo <- (if sp_left s then cret (sp_width s, precision, o)
          else wo <- pad_left fuel (sp_pad s) (sp_width s) precision o ;;
               fill_zeros fuel (fst wo) precision length (snd wo)) ;;
  wo <- copy fuel t (fst (fst wpo)) (snd (fst wpo)) (snd wpo) ;;
  pad_right fuel (sp_pad s) (fst wo) (snd wo).

(** lines 164-205: [%s]; [t] may be the null pointer *)
Definition put_string (s : spec) (t : Z) (o : out) : CM out :=
  length <- (if t =? 0 then cret 0 else strlen fuel t) ;;
  let precision := if sp_precision s =? -1 then length else sp_precision s in
  wpo <- (if sp_left s then cret (sp_width s, precision, o)
          else wo <- pad_left fuel (sp_pad s) (sp_width s) precision o ;;
               fill_blanks fuel (fst wo) precision length (snd wo)) ;;
  wo <- (if t =? 0 then cret (fst (fst wpo), snd wpo)
         else copy fuel t (fst (fst wpo)) (snd (fst wpo)) (snd wpo)) ;;
  pad_right fuel (sp_pad s) (fst wo) (snd wo).

(** lines 255-260: [%n] stores [count], an [int], at the pointer *)
Definition store_int (p v : Z) : CM unit :=
  st p (to_byte v) ;;; st (p + 1) (to_byte (v / 256)) ;;; st (p + 2) (to_byte (v / 65536)) ;;; st (p + 3) (to_byte (v / 16777216)).

(** lines 42-269: one directive; gives the new [p], the arguments left and the output.
    The floating point conversions (lines 206-254) are not modelled: CAbort *)
Definition directive (p : Z) (args : list Z) (o : out) : CM (Z * list Z * out) :=
  s <- parse p args ;;
  let c := sp_c s in
  let p := sp_p s in
  let args := sp_args s in
  if c =? 37 then v <- ld p ;; o <- put v o ;; cret (p + 1, args, o)
  else if c =? 99 then
    a <- va_arg args ;; o <- put (to_schar (fst a)) o ;; cret (p + 1, snd a, o)
  else if existsb (Z.eqb c) [100; 105; 111; 117; 120; 88] then
    a <- va_arg args ;; o <- put_number c s (fst a) o ;; cret (p + 1, snd a, o)
  else if c =? 115 then
    a <- va_arg args ;; o <- put_string s (fst a) o ;; cret (p + 1, snd a, o)
  else if existsb (Z.eqb c) [102; 101; 69; 103; 71] then cabort
  else if c =? 110 then
    a <- va_arg args ;; store_int (fst a) (o_count o) ;;; cret (p + 1, snd a, o)
  else cret (p + 2, args, o).

(** lines 32-270 *)
Fixpoint vsnprintf_loop (n : nat) (p : Z) (args : list Z) (o : out) : CM out :=
  match n with
  | O => cfuel
  | S n' =>
      c <- ld p ;;
      if c =? 0 then cret o
      else if negb (c =? 37) then o <- put c o ;; vsnprintf_loop n' (p + 1) args o
      else r <- directive (p + 1) args o ;; vsnprintf_loop n' (fst (fst r)) (snd (fst r)) (snd r)
  end.

(** lib/stdio/vsnprintf.c:26-275 *)
Definition vsnprintf (str format : Z) (args : list Z) : CM Z :=
  o <- vsnprintf_loop fuel format args (Out str 0) ;;
  (if to_u64 (o_count o) <? size then st (o_str o) 0 else cret tt) ;;;
  cret (o_count o).
End Fmt.

(** lib/stdio/vsprintf.c:24-28 *)
Definition vsprintf (fuel : nat) (buf str format : Z) (args : list Z) : CM Z :=
  vsnprintf fuel buf LONG_MAX str format args.
