(** Formatted output to a file: lib/stdio/vfprintf.c, for a 64-bit target, in the memory of
    LibModel.v.  The reading of directives is that of FmtModel.v, which vfprintf.c repeats. *)
From Verif Require Import DataModel.
From stdpp Require Import base gmap list.
From Coq Require Import ZArith.
From Verif Require Import CInt LibModel LibNumModel FmtModel.
Import Strings.String.StringSyntax.
Open Scope Z_scope. Open Scope clib_scope.

(** what was written so far, each byte with the descriptor it went to, and the variable [count]
    (lib/stdio/vfprintf.c:31) *)
Record fout := FOut { fo_out : list (Z * Z); fo_count : Z }.

Section Fprintf.
(** [fd]: the descriptor, which is what a FILE * is here (lib/stdio/vfprintf.c:29,
    lib/stdio/fputc.c:25).  [err]: __stderr (lib/mes/globals.c).  [buf]: the block ntoab formats
    in.  [fuel] bounds every loop *)
Context (fuel : nat) (buf fd err : Z).

(** lib/stdio/fputc.c:24-28, lib/mes/fdputc.c:24-30: the byte is written; a failing write is not
    noticed, and not modelled *)
Definition fputc (c : Z) (o : fout) : fout := FOut (fo_out o ++ [(fd, to_byte c)]) (fo_count o).
(** fputc and [count++] *)
Definition fput (c : Z) (o : fout) : CM fout :=
  n <- c_int (fo_count o + 1) ;; cret (FOut (fo_out (fputc c o)) n).
(** lib/mes/eputs.c:24-30, lib/mes/eputc.c *)
Definition ewrite (bs : list Z) (o : fout) : fout := FOut (fo_out o ++ map (fun b => (err, to_byte b)) bs) (fo_count o).

(** lines 124-128, 161-165: [while (width-- > precision)] *)
Fixpoint fpad_left (n : nat) (pad width precision : Z) (o : fout) : CM (Z * fout) :=
  match n with
  | O => cfuel
  | S n' =>
      w <- c_int (width - 1) ;;
      if precision <? width then o <- fput pad o ;; fpad_left n' pad w precision o
      else cret (w, o)
  end.
(** lines 129-135 with [c] a zero, 166-172 with [c] a blank: [while (precision > length)] *)
Fixpoint ffill (n : nat) (c width precision length : Z) (o : fout) : CM (Z * Z * fout) :=
  match n with
  | O => cfuel
  | S n' =>
      if length <? precision then
        o <- fput c o ;; w <- c_int (width - 1) ;; ffill n' c w (precision - 1) length o
      else cret (width, precision, o)
  end.
(** lines 137-144, 174-181: the characters *)
Fixpoint fcopy (n : nat) (s width precision : Z) (o : fout) : CM (Z * fout) :=
  match n with
  | O => cfuel
  | S n' =>
      c <- ld s ;;
      if c =? 0 then cret (width, o)
      else
        pr <- c_int (precision - 1) ;;
        if precision <=? 0 then cret (width, o)
        else w <- c_int (width - 1) ;; o <- fput c o ;; fcopy n' (s + 1) w pr o
  end.
(** lines 145-150, 182-187: [while (width > 0)] *)
Fixpoint fpad_right (n : nat) (pad width : Z) (o : fout) : CM fout :=
  match n with
  | O => cfuel
  | S n' => if 0 <? width then o <- fput pad o ;; fpad_right n' pad (width - 1) o else cret o
  end.

(** lines 119-150, 156-187: what the integer and the string conversions do with their text;
    [c] fills up to the precision *)
Definition put_field (c : Z) (s : spec) (t : Z) (o : fout) : CM fout :=
  length <- strlen fuel t ;;
  let precision := if sp_precision s =? -1 then length else sp_precision s in
  wpo <- (if sp_left s then cret (sp_width s, precision, o)
          else wo <- fpad_left fuel (sp_pad s) (sp_width s) precision o ;;
               ffill fuel c (fst wo) precision length (snd wo)) ;;
  wo <- fcopy fuel t (fst (fst wpo)) (snd (fst wpo)) (snd wpo) ;;
  fpad_right fuel (sp_pad s) (fst wo) (snd wo).
(** lines 107-152 *)
Definition fput_number (c : Z) (s : spec) (d : Z) (o : fout) : CM fout :=
  let base := if c =? 111 then 8 else if (c =? 120) || (c =? 88) then 16 else 10 in
  t <- ntoab fuel buf d base (negb (c =? 117) && negb (c =? 120) && negb (c =? 88)) ;;
  (if c =? 88 then strupr fuel t ;;; cret tt else cret tt) ;;;
  put_field 48 s t o.

(** lines 87-92: one 'l', and another with a message *)
Definition fskip_ells (p c : Z) (o : fout) : CM (Z * Z * fout) :=
  pc <- skip_l p c ;;
  if snd pc =? 108 then
    c <- ld (fst pc + 1) ;; cret (fst pc + 1, c, ewrite (bytes_of "vfprintf: skipping second: l" ++ [10]) o)
  else cret (fst pc, snd pc, o).

(** lines 40-248: one directive; gives the new [p], the arguments left and the output.  The
    floating point conversions (lines 190-233) are not modelled: CAbort.  The width and precision
    arguments are of type int here and long in vsnprintf.c: the same word, cut to an int *)
Definition fdirective (p : Z) (args : list Z) (o : fout) : CM (Z * list Z * fout) :=
  s <- parse_amounts fuel p args ;;
  pco <- fskip_ells (sp_p s) (sp_c s) o ;;
  let p := fst (fst pco) in
  let c := snd (fst pco) in
  let o := snd pco in
  let args := sp_args s in
  if c =? 37 then v <- ld p ;; o <- fput v o ;; cret (p + 1, args, o)
  else if c =? 99 then
    (* lines 100-106: not counted *)
    a <- va_arg args ;; cret (p + 1, snd a, fputc (to_schar (fst a)) o)
  else if existsb (Z.eqb c) [100; 105; 111; 117; 120; 88] then
    a <- va_arg args ;; o <- fput_number c s (fst a) o ;; cret (p + 1, snd a, o)
  else if c =? 115 then
    a <- va_arg args ;; o <- put_field 32 s (fst a) o ;; cret (p + 1, snd a, o)
  else if existsb (Z.eqb c) [102; 101; 69; 103; 71] then cabort
  else if c =? 110 then
    a <- va_arg args ;; store_int (fst a) (fo_count o) ;;; cret (p + 1, snd a, o)
  else cret (p + 2, args, ewrite (bytes_of "vfprintf: not supported: %:" ++ [c; 10]) o).

(** lines 32-249 *)
Fixpoint vfprintf_loop (n : nat) (p : Z) (args : list Z) (o : fout) : CM fout :=
  match n with
  | O => cfuel
  | S n' =>
      c <- ld p ;;
      if c =? 0 then cret o
      else if negb (c =? 37) then o <- fput c o ;; vfprintf_loop n' (p + 1) args o
      else r <- fdirective (p + 1) args o ;; vfprintf_loop n' (fst (fst r)) (snd (fst r)) (snd r)
  end.
(** lib/stdio/vfprintf.c:26-252: what is returned, and what was written *)
Definition vfprintf (format : Z) (args : list Z) : CM (Z * list (Z * Z)) :=
  o <- vfprintf_loop fuel format args (FOut [] 0) ;; cret (0, fo_out o).
End Fprintf.
