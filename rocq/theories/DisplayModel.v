(** Model of src/display.c: write and display.

    g_depth is passed and returned explicitly.  Not modelled: the procedures that print structs
    (src/display.c:216-220) are a parameter [call_printer]; the address printed for objects without
    a textual form (line 254) is not part of the model, the outcome there is left open ([ub]). *)
From stdpp Require Import base gmap list.
From Coq Require Import ZArith.
From Verif Require Import CInt Symbols Heap DataModel ReadModel.
Import Strings.String.StringSyntax.
Open Scope Z_scope.
Open Scope mes_scope.

(** lib/mes/itoa.c:23-27: the decimal numeral of an int.  ntoab, which computes it, is modelled in
    LibNumModel.v; C26_format shows that its result is the numeral. *)
Fixpoint decimal (n : nat) (u : Z) : list Z :=
  match n with
  | O => []
  | S n' => if u / 10 =? 0 then [48 + u mod 10] else decimal n' (u / 10) ++ [48 + u mod 10]
  end.
Definition itoa (x : Z) : list Z := if x <? 0 then 45 :: decimal 64 (- x) else decimal 64 x.

(** src/display.c:28-58 fdwrite_char; the argument is a (signed) char *)
Definition fdwrite_char (v fd : Z) : M unit :=
  let v := to_schar v in
  if v =? 0 then fdputs (bytes_of "\nul") fd
  else if v =? 7 then fdputs (bytes_of "\alarm") fd
  else if v =? 8 then fdputs (bytes_of "\backspace") fd
  else if v =? 9 then fdputs (bytes_of "\tab") fd
  else if v =? 10 then fdputs (bytes_of "\newline") fd
  else if v =? 11 then fdputs (bytes_of "\vtab") fd
  else if v =? 12 then fdputs (bytes_of "\page") fd
  else if v =? 13 then fdputs (bytes_of "\return") fd
  else if v =? 32 then fdputs (bytes_of "\space") fd
  else
  (if (32 <=? v) && (v <=? 127) then fdputc 92 fd else ret tt) ;;;
  fdputc v fd.

(** src/display.c:60-91 fdwrite_string_char *)
Definition fdwrite_string_char (v fd : Z) : M unit :=
  let v := to_schar v in
  if v =? 0 then fdputs (bytes_of "\0") fd
  else if v =? 7 then fdputs (bytes_of "\a") fd
  else if v =? 8 then fdputs (bytes_of "\b") fd
  else if v =? 9 then fdputs (bytes_of "\t") fd
  else if v =? 11 then fdputs (bytes_of "\v") fd
  else if v =? 10 then fdputs (bytes_of "\n") fd
  else if v =? 12 then fdputs (bytes_of "\f") fd
  else if v =? 13 then fdputs (bytes_of "\r") fd
  else if v =? 27 then fdputs (bytes_of "\e") fd
  else if v =? 92 then fdputs (bytes_of "\\") fd
  else if v =? 34 then fdputs (bytes_of "\""") fd
  else fdputc v fd.

(** src/display.c:93-99 fdwrite_string: [length] bytes of [s] *)
Fixpoint fdwrite_bytes (s : list Z) (fd : Z) : M unit :=
  match s with
  | [] => ret tt
  | v :: s' => fdwrite_string_char v fd ;;; fdwrite_bytes s' fd
  end.
Definition fdwrite_string (s : list Z) (length fd : Z) : M unit :=
  if length <=? Z.of_nat (List.length s) then fdwrite_bytes (take (Z.to_nat length) s) fd else ub.

Section Display.
Context (call_printer : Z -> Z -> M Z) (procedure_p : Z -> M bool).

(** src/display.c:229-232 and 241-246: the elements [i] .. of a struct or vector, each preceded by a
    space (except the first one of a vector) *)
Fixpoint display_elements (fdisplay_ : Z -> M Z) (n : nat) (v i skip fd depth : Z) : M Z :=
  match n with
  | O => ret depth
  | S n' =>
      (if i =? skip then ret tt else fdputc 32 fd) ;;;
      depth <- fdisplay_ (cell_ref v i) ;;
      display_elements fdisplay_ n' v (i + 1) skip fd depth
  end.
(** src/display.c:155-164: at most ten elements of a circular environment *)
Fixpoint display_circular (fdisplay_ : Z -> M Z) (n : nat) (x fd depth : Z) : M Z :=
  match n with
  | O => ret depth
  | S n' =>
      if x =? cell_nil then ret depth else
      a <- car_of x ;;
      a <- car_of a ;;
      depth <- fdisplay_ a ;;
      fdputs (bytes_of " ") fd ;;;
      d <- cdr_of x ;;
      display_circular fdisplay_ n' d fd depth
  end.

(** src/display.c:103-258 display_helper; the result is g_depth afterwards.  302-307 fdisplay_
    starts with g_depth = 5 *)
Fixpoint display_helper (fuel : nat) (depth x cont : Z) (sep : list Z) (fd : Z) (write_p : bool) : M Z :=
  match fuel with
  | O => out_of_fuel
  | S fuel' =>
      let fdisplay_ := fun x => display_helper fuel' 5 x 0 [] fd write_p in
      fdputs sep fd ;;;
      if depth =? 0 then ret depth else
      let depth := depth - 1 in
      c <- rd x ;;
      let t := c_ty c in
      if t =? TCHAR then
        (if write_p then fdputs (bytes_of "#") fd ;;; fdwrite_char (c_cdr c) fd else fdputc (c_cdr c) fd) ;;;
        ret depth
      else if t =? TCLOSURE then
        fdputs (bytes_of "#<closure ") fd ;;;
        circ <- car_of (c_cdr c) ;;
        name <- cdr_of circ ;;
        name <- car_of name ;;
        args <- cdr_of (c_cdr c) ;;
        args <- car_of args ;;
        n <- car_of name ;;
        depth <- display_helper fuel' depth n 0 [] fd false ;;
        fdputc 32 fd ;;;
        depth <- display_helper fuel' depth args 0 [] fd false ;;
        fdputs (bytes_of ">") fd ;;;
        ret depth
      else if t =? TMACRO then
        fdputs (bytes_of "#<macro ") fd ;;;
        depth <- display_helper fuel' depth (c_cdr c) cont [] fd false ;;
        fdputs (bytes_of ">") fd ;;;
        ret depth
      else if t =? TVARIABLE then
        fdputs (bytes_of "#<variable ") fd ;;;
        v <- car_of (c_car c) ;;
        depth <- display_helper fuel' depth v cont [] fd false ;;
        fdputs (bytes_of ">") fd ;;;
        ret depth
      else if t =? TNUMBER then
        fdputs (itoa (to_s32 (c_cdr c))) fd ;;; ret depth
      else if t =? TPAIR then
        (if cont =? 0 then fdputs (bytes_of "(") fd else ret tt) ;;;
        circ <- (if c_car c =? cell_circular then a <- car_of (c_cdr c) ;; ret (negb (a =? cell_closure)) else ret false) ;;
        depth <- (if circ : bool then
             fdputs (bytes_of "(*circ* . ") fd ;;;
             depth <- display_circular fdisplay_ 10 (c_cdr c) fd depth ;;
             fdputs (bytes_of " ...)") fd ;;;
             ret depth
           else
             depth <- (if negb (x =? 0) && negb (x =? cell_nil) then fdisplay_ (c_car c) else ret depth) ;;
             if c_cdr c =? 0 then ret depth else
             td <- ty (c_cdr c) ;;
             if td =? TPAIR then display_helper fuel' depth (c_cdr c) 1 (bytes_of " ") fd write_p
             else if negb (c_cdr c =? cell_nil) then
               fdputs (bytes_of " . ") fd ;;; fdisplay_ (c_cdr c)
             else ret depth) ;;
        (if cont =? 0 then fdputs (bytes_of ")") fd else ret tt) ;;;
        ret depth
      else if t =? TPORT then
        fdputs (bytes_of "#<port ") fd ;;;
        fdputs (itoa (to_s32 (c_car c))) fd ;;;
        fdputs (bytes_of " ") fd ;;;
        s <- rd (c_cdr c) ;;
        fdputc 34 fd ;;;
        bs <- cell_bytes (c_cdr s) ;;
        fdwrite_string bs (c_car s) fd ;;;
        fdputc 34 fd ;;;
        fdputs (bytes_of ">") fd ;;;
        ret depth
      else if t =? TKEYWORD then
        fdputs (bytes_of "#:") fd ;;;
        bs <- cell_bytes (c_cdr c) ;;
        fdwrite_string bs (c_car c) fd ;;;
        ret depth
      else if t =? TSTRING then
        bs <- cell_bytes (c_cdr c) ;;
        (if write_p then fdputc 34 fd ;;; fdwrite_string bs (c_car c) fd ;;; fdputc 34 fd
         else fdputs bs fd) ;;;
        ret depth
      else if (t =? TSPECIAL) || (t =? TSYMBOL) then
        bs <- cell_bytes (c_cdr c) ;;
        fdwrite_string bs (c_car c) fd ;;;
        ret depth
      else if t =? TREF then fdisplay_ (c_car c)
      else if t =? TSTRUCT then
        printer <- struct_ref_ x 1 ;;
        pc <- rd printer ;;
        let printer := if c_ty pc =? TREF then c_car pc else printer in
        proc <- procedure_p printer ;;
        if proc : bool then call_printer printer x else
        fdputs (bytes_of "#<") fd ;;;
        depth <- fdisplay_ (c_cdr c) ;;
        depth <- display_elements fdisplay_ (Z.to_nat (c_car c - 2)) (c_cdr c) 2 0 fd depth ;;
        fdputc 62 fd ;;;
        ret depth
      else if t =? TVECTOR then
        fdputs (bytes_of "#(") fd ;;;
        depth <- display_elements fdisplay_ (Z.to_nat (c_car c)) (c_cdr c) 0 0 fd depth ;;
        fdputc 41 fd ;;;
        ret depth
      else ub
  end.

(** src/display.c:302-307 fdisplay_, 260-300 display_, write_, display_port_, write_port_; __stdout
    is descriptor 1 *)
Definition fdisplay_ (fuel : nat) (x fd : Z) (write_p : bool) : M Z :=
  display_helper fuel 5 x 0 [] fd write_p ;;; ret cell_unspecified.
Definition display_ (fuel : nat) (x : Z) : M Z := fdisplay_ fuel x 1 false.
Definition write_ (fuel : nat) (x : Z) : M Z := fdisplay_ fuel x 1 true.
Definition display_port_ (fuel : nat) (x p : Z) : M Z :=
  c <- rd p ;; assert_msg (c_ty c =? TNUMBER) ;;; fdisplay_ fuel x (to_s32 (c_cdr c)) false.
Definition write_port_ (fuel : nat) (x p : Z) : M Z :=
  c <- rd p ;; assert_msg (c_ty c =? TNUMBER) ;;; fdisplay_ fuel x (to_s32 (c_cdr c)) true.
End Display.
