(** Model of character input (lib/mes/fdgetc.c, fdungetc.c, src/posix.c:62-191) and of the reader
    (src/reader.c).

    Not modelled: the depth of the C stack (the reader is recursive), the reallocation of the
    descriptor tables, read errors (a failing read is the end of the input).  Recursion and loops
    take [fuel]; running out of it is the outcome [ROutOfFuel]. *)
From stdpp Require Import base gmap list.
From Coq Require Import ZArith.
From Verif Require Import CInt Symbols Heap DataModel LibModel.
Import Strings.String.StringSyntax.
Open Scope Z_scope.
Open Scope mes_scope.

Notation EOF := (-1) (only parsing).

(** write (fd, ...): the bytes go to the end of the descriptor's output *)
Definition write_fd (fd : Z) (bs : list Z) : M unit :=
  modify (fun s => set_out_fds (<[fd := default [] (out_fds s !! fd) ++ bs]> (out_fds s)) s).
(** lib/mes/fdputc.c:23-29 *)
Definition fdputc (c fd : Z) : M unit := write_fd fd [to_byte c].
(** lib/mes/fdputs.c:24-30 *)
Definition fdputs (bs : list Z) (fd : Z) : M unit := write_fd fd (until_nul bs).
(** lib/mes/eputs.c; __stderr is descriptor 2 (it can only be changed by set-current-error-port) *)
Definition eputs (bs : list Z) : M unit := fdputs bs 2.

(** lib/mes/fdgetc.c:68-90 fdgetc.  [unget] holds the non-negative entries of __ungetc_buf; a byte
    read is stored in a char and made non-negative again. *)
Definition fdgetc (fd : Z) : M Z :=
  s <- get ;;
  match unget s !! fd with
  | Some i => modify (set_unget (delete fd (unget s))) ;;; ret i
  | None =>
      match in_fds s !! fd with
      | Some (b :: bs) =>
          modify (set_in_fds (<[fd := bs]> (in_fds s))) ;;;
          ret (if to_schar b <? 0 then to_schar b + 256 else to_schar b)
      | _ => ret EOF
      end
  end.

(** lib/mes/fdungetc.c:23-38 fdungetc; a negative c other than -1 leaves the entry unused *)
Definition fdungetc (c fd : Z) : M Z :=
  if c =? EOF then ret c else
  s <- get ;;
  match unget s !! fd with
  | Some _ => abort
  | None => (if 0 <=? c then modify (set_unget (<[fd := c]> (unget s))) else ret tt) ;;; ret c
  end.

(** src/posix.c:221-236 current_input_port, for string ports (__stdin < 0) *)
Fixpoint find_port (fuel : nat) (fd x : Z) : M Z :=
  match fuel with
  | O => out_of_fuel
  | S fuel' =>
      a <- car_of x ;;
      n <- car_of a ;;
      if n =? fd then ret a else
      d <- cdr_of x ;;
      find_port fuel' fd d
  end.
Definition current_input_port (fuel : nat) : M Z :=
  fd <- gets std_in ;;
  if 0 <=? fd then make_number fd else
  x <- gets g_ports ;; find_port fuel fd x.

(** src/posix.c:80-95 readchar *)
Definition readchar (fuel : nat) : M Z :=
  fd <- gets std_in ;;
  if 0 <=? fd then fdgetc fd else
  port <- current_input_port fuel ;;
  string <- cdr_of port ;;
  length <- car_of string ;;
  if length =? 0 then ret EOF else
  v <- cdr_of string ;;
  p <- cell_bytes v ;;
  match p with
  | [] => ub
  | b :: p' =>
      if length - 1 <=? Z.of_nat (List.length p') then
        string' <- make_string (take (Z.to_nat (length - 1)) p') ;;
        set_cdr port string' ;;;
        ret (to_schar b)
      else ub
  end.

(** src/posix.c:97-114 unreadchar.  The new string is copied from one byte before the bytes of the
    old one (inside its length word); that first byte is then overwritten. *)
Definition unreadchar (fuel : nat) (c : Z) : M Z :=
  fd <- gets std_in ;;
  if 0 <=? fd then fdungetc c fd else
  if c =? EOF then ret c else
  port <- current_input_port fuel ;;
  string <- cdr_of port ;;
  length <- car_of string ;;
  v <- cdr_of string ;;
  p <- cell_bytes v ;;
  if length <=? Z.of_nat (List.length p) then
    string' <- make_string (to_byte c :: take (Z.to_nat length) p) ;;
    set_cdr port string' ;;;
    ret c
  else ub.

(** src/posix.c:62-78 peekchar *)
Definition peekchar (fuel : nat) : M Z :=
  fd <- gets std_in ;;
  if 0 <=? fd then c <- readchar fuel ;; unreadchar fuel c ;;; ret c else
  port <- current_input_port fuel ;;
  string <- cdr_of port ;;
  length <- car_of string ;;
  if length =? 0 then ret EOF else
  v <- cdr_of string ;;
  p <- cell_bytes v ;;
  match p with [] => ub | b :: _ => ret (to_schar b) end.

(** src/posix.c:116-158 peek_byte, read_byte, unread_byte, peek_char, read_char, unread_char *)
Definition peek_byte (fuel : nat) : M Z := c <- peekchar fuel ;; make_number c.
Definition read_byte (fuel : nat) : M Z := c <- readchar fuel ;; make_number c.
Definition unread_byte (fuel : nat) (i : Z) : M Z := v <- cdr_of i ;; unreadchar fuel (to_s32 v) ;;; ret i.
Definition peek_char (fuel : nat) : M Z := c <- peekchar fuel ;; make_char c.
Definition read_char (fuel : nat) (port : Z) : M Z :=
  fd <- gets std_in ;;
  c <- rd port ;;
  (if c_ty c =? TPAIR then
     n <- rd (c_car c) ;; if c_ty n =? TNUMBER then modify (set_std_in (to_s32 (c_cdr n))) else ret tt
   else ret tt) ;;;
  i <- readchar fuel ;;
  r <- make_char i ;;
  modify (set_std_in fd) ;;;
  ret r.
Definition unread_char (fuel : nat) (i : Z) : M Z := unread_byte fuel i.

(** src/posix.c:167-191 write_byte, 160-165 write_char; __stdout and __stderr are the descriptors
    1 and 2.  The assertion after the write is kept. *)
Definition write_byte (fuel : nat) (x : Z) : M Z :=
  c <- car x ;;
  p <- cdr x ;;
  pc <- rd p ;;
  fd <- (if c_ty pc =? TPAIR then
           f <- rd (c_car pc) ;; ret (if c_ty f =? TNUMBER then c_cdr f else 1)
         else ret 1) ;;
  cc <- rd c ;;
  write_fd (to_s32 fd) [to_byte (c_cdr cc)] ;;;
  assert_msg ((c_ty cc =? TNUMBER) || (c_ty cc =? TCHAR)) ;;;
  ret c.
Definition write_char (fuel : nat) (i : Z) : M Z := write_byte fuel i ;;; ret i.

(** src/string.c:172-195 read_string: everything up to the end of the input.  g_buf has MAX_STRING
    bytes (src/gc.c:117); the check in line 186 comes too late for the store at index MAX_STRING *)
Fixpoint read_rest (fuel : nat) (acc : list Z) : M (list Z) :=
  match fuel with
  | O => out_of_fuel
  | S fuel' =>
      c <- readchar fuel' ;;
      max <- gets MAX_STRING ;;
      if Z.of_nat (List.length acc) <? max then
        if c =? EOF then ret acc else read_rest fuel' (acc ++ [to_byte c])
      else ub
  end.
Definition read_string (fuel : nat) (port : Z) : M Z :=
  fd <- gets std_in ;;
  c <- rd port ;;
  (if c_ty c =? TPAIR then
     n <- rd (c_car c) ;; if c_ty n =? TNUMBER then modify (set_std_in (to_s32 (c_cdr n))) else ret tt
   else ret tt) ;;;
  bs <- read_rest fuel [] ;;
  modify (set_std_in fd) ;;;
  make_string bs.

(* ------------------------------------------------------------------ reader.c *)

(** src/reader.c:43-53 reader_read_line_comment *)
Fixpoint reader_read_line_comment (fuel : nat) (c : Z) : M Z :=
  match fuel with
  | O => out_of_fuel
  | S fuel' =>
      if c =? EOF then
        msg <- make_string0 (bytes_of "reader_read_line_comment") ;; error cell_symbol_system_error msg
      else if c =? 10 then ret c
      else c <- readchar fuel' ;; reader_read_line_comment fuel' c
  end.

(** src/reader.c:59-63 reader_identifier_p, 65-69 reader_end_of_word_p *)
Definition reader_identifier_p (c : Z) : bool :=
  (32 <? c) && (c <=? 126) && negb (c =? 34) && negb (c =? 59) && negb (c =? 40) && negb (c =? 41) && negb (c =? EOF).
Definition reader_end_of_word_p (c : Z) : bool :=
  (c =? 34) || (c =? 59) || (c =? 40) || (c =? 41) || c_isspace c || (c =? EOF).

(** a store g_buf[i] = c; g_buf has MAX_STRING bytes (src/gc.c:117), [buf] are the first i of them *)
Definition g_buf_store (buf : list Z) (c : Z) : M (list Z) :=
  max <- gets MAX_STRING ;;
  if Z.of_nat (List.length buf) <? max then ret (buf ++ [to_byte c]) else ub.

(** signed long arithmetic: overflow is UB *)
Definition checked (n : Z) : M Z := if in_long n then ret n else ub.

(** src/reader.c:86-93: the digits; the next character, the number and the buffer *)
Fixpoint read_digits (fuel : nat) (c n : Z) (buf : list Z) : M (Z * Z * list Z) :=
  match fuel with
  | O => out_of_fuel
  | S fuel' =>
      if c_isdigit c then
        buf <- g_buf_store buf c ;;
        n <- checked (n * 10) ;;
        n <- checked (n + c) ;;
        c <- readchar fuel' ;;
        read_digits fuel' c (n - 48) buf
      else ret (c, n, buf)
  end.
(** src/reader.c:102-107: the rest of a word *)
Fixpoint read_word (fuel : nat) (c : Z) (buf : list Z) : M (Z * list Z) :=
  match fuel with
  | O => out_of_fuel
  | S fuel' =>
      if reader_end_of_word_p c then ret (c, buf) else
      buf <- g_buf_store buf c ;;
      c <- readchar fuel' ;;
      read_word fuel' c buf
  end.
(** src/reader.c:77-85: the sign: whether the number is negative, and the next character *)
Definition read_sign (fuel : nat) (c : Z) : M (bool * Z) :=
  c <- (if c =? 43 then
          p <- peekchar fuel ;; if c_isdigit p then readchar fuel else ret c
        else ret c) ;;
  if c =? 45 then
    p <- peekchar fuel ;;
    if c_isdigit p then c <- readchar fuel ;; ret (true, c) else ret (false, c)
  else ret (false, c).
(** src/reader.c:71-111 reader_read_identifier_or_number *)
Definition reader_read_identifier_or_number (fuel : nat) (c : Z) : M Z :=
  sg <- read_sign fuel c ;;
  r <- read_digits fuel (sg.2) 0 [] ;;
  if reader_end_of_word_p (r.1.1) then
    unreadchar fuel (r.1.1) ;;;
    make_number (if sg.1 : bool then 0 - r.1.2 else r.1.2)
  else
  w <- read_word fuel (r.1.1) (r.2) ;;
  unreadchar fuel (w.1) ;;;
  g_buf_store (w.2) 0 ;;;
  cstring_to_symbol fuel (w.2).

(** src/reader.c:199-209 reader_read_block_comment *)
Fixpoint reader_read_block_comment (fuel : nat) (s c : Z) : M unit :=
  match fuel with
  | O => out_of_fuel
  | S fuel' =>
      p <- (if c =? s then peekchar fuel' else ret EOF) ;;
      if (c =? s) && (p =? 35) then readchar fuel' ;;; ret tt
      else c <- readchar fuel' ;; reader_read_block_comment fuel' s c
  end.

(** src/reader.c:156-174 reader_eat_whitespace *)
Fixpoint reader_eat_whitespace (fuel : nat) (c : Z) : M Z :=
  match fuel with
  | O => out_of_fuel
  | S fuel' =>
      if c_isspace c then c <- readchar fuel' ;; reader_eat_whitespace fuel' c
      else if c =? 59 then c <- reader_read_line_comment fuel' c ;; reader_eat_whitespace fuel' c
      else if c =? 35 then
        p <- peekchar fuel' ;;
        if (p =? 33) || (p =? 124) then
          c <- readchar fuel' ;;
          c' <- readchar fuel' ;;
          reader_read_block_comment fuel' c c' ;;;
          c <- readchar fuel' ;;
          reader_eat_whitespace fuel' c
        else ret c
      else ret c
  end.

(** src/reader.c:360-435 reader_read_binary, reader_read_octal, reader_read_hex: the value of a
    digit of the base (None: not a digit) and the loop.  The shift of a long is taken as the
    multiplication; a result out of range is UB *)
Definition base_digit (base c : Z) : option Z :=
  if base =? 16 then
    if c_isdigit c then Some (c - 48)
    else if (65 <=? c) && (c <=? 70) then Some (c - 65 + 10)
    else if (97 <=? c) && (c <=? 102) then Some (c - 97 + 10)
    else None
  else if (48 <=? c) && (c <? 48 + base) then Some (c - 48) else None.
Fixpoint read_base_digits (fuel : nat) (base c n : Z) : M Z :=
  match fuel with
  | O => out_of_fuel
  | S fuel' =>
      match base_digit base c with
      | Some d =>
          n <- checked (n * base) ;;
          checked (n + c) ;;;
          readchar fuel' ;;;
          c <- peekchar fuel' ;;
          read_base_digits fuel' base c (n + d)
      | None => ret n
      end
  end.
Definition reader_read_base (base : Z) (fuel : nat) : M Z :=
  c <- peekchar fuel ;;
  let neg := c =? 45 in
  c <- (if neg then readchar fuel ;;; peekchar fuel else ret c) ;;
  n <- read_base_digits fuel base c 0 ;;
  make_number (if neg then 0 - n else n).
Definition reader_read_binary := reader_read_base 2.
Definition reader_read_octal := reader_read_base 8.
Definition reader_read_hex := reader_read_base 16.

(** src/reader.c:310-348: the names of characters *)
Definition char_names : list (list Z * Z) :=
  [ (bytes_of "*eof*", -1); (bytes_of "nul", 0); (bytes_of "alarm", 7); (bytes_of "backspace", 8);
    (bytes_of "tab", 9); (bytes_of "linefeed", 10); (bytes_of "newline", 10); (bytes_of "vtab", 11);
    (bytes_of "page", 12); (bytes_of "return", 13); (bytes_of "esc", 27); (bytes_of "space", 32);
    (bytes_of "bel", 7); (bytes_of "bs", 8); (bytes_of "ht", 9); (bytes_of "vt", 11); (bytes_of "cr", 13) ].
Fixpoint char_named (l : list (list Z * Z)) (name : list Z) : option Z :=
  match l with
  | [] => None
  | (n, c) :: l => if bool_decide (n = name) then Some c else char_named l name
  end.
Definition octal_p (c : Z) : bool := (48 <=? c) && (c <=? 55).
Definition name_char_p (c : Z) : bool := ((97 <=? c) && (c <=? 122)) || (c =? 42).
(** the condition in line 290, with 'F' for both bounds *)
Definition hex_start_p (c : Z) : bool := c_isdigit c || ((97 <=? c) && (c <=? 102)) || (c =? 70).
(** src/reader.c:283-288 *)
Fixpoint read_octal_char (fuel : nat) (c p : Z) : M Z :=
  match fuel with
  | O => out_of_fuel
  | S fuel' =>
      if octal_p p then
        r <- readchar fuel' ;;
        (if in_int (c * 8 + r) then ret tt else ub) ;;;
        p <- peekchar fuel' ;;
        read_octal_char fuel' (c * 8 + r - 48) p
      else ret c
  end.
(** src/reader.c:303-308; __reader_read_char_buf has 10 bytes (src/mes.c:168) *)
Fixpoint read_char_name (fuel : nat) (p : Z) (buf : list Z) : M (list Z) :=
  match fuel with
  | O => out_of_fuel
  | S fuel' =>
      if Z.of_nat (List.length buf) <? 10 then
        if name_char_p p then
          c <- readchar fuel' ;;
          p <- peekchar fuel' ;;
          read_char_name fuel' p (buf ++ [c])
        else ret buf
      else ub
  end.
(** src/reader.c:274-358 reader_read_character.  The messages of lines 294-296 and 351-353 go to
    the error output; the number in the former is left out *)
Definition reader_read_character (fuel : nat) : M Z :=
  c <- readchar fuel ;;
  p <- peekchar fuel ;;
  c <- (if octal_p c && octal_p p then read_octal_char fuel (c - 48) p
        else if (c =? 120) && hex_start_p p then
          n <- reader_read_hex fuel ;;
          v <- cdr_of n ;;
          eputs (bytes_of "reading hex c=") ;;;
          eputs [10] ;;;
          ret (to_s32 v)
        else if name_char_p c && name_char_p p then
          buf <- read_char_name fuel p [c] ;;
          match char_named char_names buf with
          | Some c => ret c
          | None =>
              eputs (bytes_of "char not supported: ") ;;;
              eputs buf ;;;
              eputs [10] ;;;
              msg <- make_string0 (bytes_of "char not supported") ;;
              error cell_symbol_system_error msg
          end
        else ret c) ;;
  make_char c.

(** src/reader.c:453-476: the character that follows a backslash in a string *)
Definition unescape (c : Z) : Z :=
  if c =? 48 then 0 else if c =? 97 then 7 else if c =? 98 then 8 else if c =? 116 then 9
  else if c =? 110 then 10 else if c =? 118 then 11 else if c =? 102 then 12
  else if c =? 114 then 13 else if c =? 101 then 27 else c.
(** src/reader.c:437-489 reader_read_string.  The check of line 445 comes too late for the store
    at index MAX_STRING, which is UB *)
Fixpoint read_string_chars (fuel : nat) (buf : list Z) : M (list Z) :=
  match fuel with
  | O => out_of_fuel
  | S fuel' =>
      c <- readchar fuel' ;;
      if c =? 34 then ret buf else
      c <- (if c =? 92 then
              c <- readchar fuel' ;;
              if c =? 120 then n <- reader_read_hex fuel' ;; cdr_of n
              else ret (unescape c)
            else ret c) ;;
      buf <- g_buf_store buf c ;;
      read_string_chars fuel' buf
  end.
Definition reader_read_string (fuel : nat) : M Z :=
  buf <- read_string_chars fuel [] ;;
  g_buf_store buf 0 ;;;
  make_string buf.

(** (cons symbol (cons x '())) *)
Definition tagged (symbol x : Z) : M Z := l <- cons x cell_nil ;; cons symbol l.

(** src/reader.c:113-154 reader_read_sexp_, 176-191 reader_read_list, 211-266 reader_read_hash.
    A failing check in line 183 raises the error; the jump to reset_reader is a recursive call *)
Fixpoint reader_read_sexp_ (fuel : nat) (c : Z) : M Z :=
  match fuel with
  | O => out_of_fuel
  | S fuel' =>
      let next := c <- readchar fuel' ;; reader_read_sexp_ fuel' c in
      if c =? EOF then ret cell_nil
      else if c =? 59 then
        c <- reader_read_line_comment fuel' c ;; reader_read_sexp_ fuel' c
      else if (c =? 32) || (c =? 9) || (c =? 10) || (c =? 12) then next
      else if c =? 40 then c <- readchar fuel' ;; reader_read_list fuel' c
      else if c =? 41 then ret cell_nil
      else if c =? 35 then c <- readchar fuel' ;; reader_read_hash fuel' c
      else if c =? 96 then x <- next ;; tagged cell_symbol_quasiquote x
      else if c =? 44 then
        p <- peekchar fuel' ;;
        if p =? 64 then readchar fuel' ;;; x <- next ;; tagged cell_symbol_unquote_splicing x
        else x <- next ;; tagged cell_symbol_unquote x
      else if c =? 39 then x <- next ;; tagged cell_symbol_quote x
      else if c =? 34 then reader_read_string fuel'
      else
      dot <- (if c =? 46 then p <- peekchar fuel' ;; ret (negb (reader_identifier_p p)) else ret false) ;;
      if dot : bool then ret cell_dot else reader_read_identifier_or_number fuel' c
  end
with reader_read_list (fuel : nat) (c : Z) : M Z :=
  match fuel with
  | O => out_of_fuel
  | S fuel' =>
      c <- reader_eat_whitespace fuel' c ;;
      if c =? 41 then ret cell_nil else
      if c =? EOF then
        msg <- make_string0 (bytes_of "EOF in list") ;; error cell_symbol_not_a_pair msg
      else
      s <- reader_read_sexp_ fuel' c ;;
      c <- readchar fuel' ;;
      l <- reader_read_list fuel' c ;;
      if s =? cell_dot then car_of l else cons s l
  end
with reader_read_hash (fuel : nat) (c : Z) : M Z :=
  match fuel with
  | O => out_of_fuel
  | S fuel' =>
      let next := c <- readchar fuel' ;; reader_read_sexp_ fuel' c in
      if (c =? 33) || (c =? 124) then
        c' <- readchar fuel' ;; reader_read_block_comment fuel' c c' ;;; next
      else if c =? 102 then ret cell_f
      else if c =? 116 then ret cell_t
      else if c =? 44 then
        p <- peekchar fuel' ;;
        if p =? 64 then readchar fuel' ;;; x <- next ;; tagged cell_symbol_unsyntax_splicing x
        else x <- next ;; tagged cell_symbol_unsyntax x
      else if c =? 39 then x <- next ;; tagged cell_symbol_syntax x
      else if c =? 96 then x <- next ;; tagged cell_symbol_quasisyntax x
      else if c =? 58 then
        c <- readchar fuel' ;;
        x <- reader_read_identifier_or_number fuel' c ;;
        msg <- make_string0 (bytes_of "keyword perifx ':' not followed by a symbol: ") ;;
        t <- ty x ;;
        if t =? TNUMBER then e <- cons msg x ;; error cell_symbol_system_error e
        else symbol_to_keyword x
      else if c =? 98 then reader_read_binary fuel'
      else if c =? 111 then reader_read_octal fuel'
      else if c =? 120 then reader_read_hex fuel'
      else if c =? 92 then reader_read_character fuel'
      else if c =? 40 then
        c <- readchar fuel' ;; l <- reader_read_list fuel' c ;; list_to_vector fuel' l
      else if c =? 59 then next ;;; next
      else next
  end.

(** src/reader.c:193-197 read_env *)
Definition read_env (fuel : nat) : M Z := c <- readchar fuel ;; reader_read_sexp_ fuel c.

(** src/reader.c:29-41 read_input_file_env_, read_input_file_env *)
Fixpoint read_input_file_env_ (fuel : nat) (e : Z) : M Z :=
  match fuel with
  | O => out_of_fuel
  | S fuel' =>
      if e =? cell_nil then ret e else
      x <- read_env fuel' ;;
      l <- read_input_file_env_ fuel' x ;;
      cons e l
  end.
Definition read_input_file_env (fuel : nat) : M Z :=
  e <- read_env fuel ;; read_input_file_env_ fuel e.
