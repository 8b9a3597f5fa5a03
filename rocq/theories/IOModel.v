(** Buffered input of the mes C library: lib/mes/__buffered_read.c,
    lib/posix/buffered-read.c, lib/linux/lseek.c, lib/posix/write.c,
    lib/mes/fdgetc.c, lib/mes/fdungetc.c, lib/mes/fdgets.c, lib/stdio/fread.c,
    as they act on one open file descriptor.

    The kernel side of the descriptor is a byte sequence and an offset.  A
    [read] or [write] system call that has anything to transfer transfers at
    least one byte and at most what was asked and is there; how many is chosen by
    [short], an arbitrary function of the number of system calls made so far and
    of the size asked, so the results hold for every schedule of short transfers.
    System calls that fail (EINTR, EIO) are not modelled.  The bytes a call
    delivers to the caller's buffer are returned as a list; the buffer is
    assumed to hold them and not to overlap the read cache. *)
From stdpp Require Import base list.
From Coq Require Import ZArith.
From Verif Require Import CInt.
Open Scope Z_scope.

(** lib/mes/__buffered_read.c:27-37 [struct __read_buffer] and the entry of
    [__ungetc_buf] (lib/mes/fdgetc.c:29) of this descriptor; [seekable] is false
    for pipes and terminals *)
Record fdst := FD {
  content : list Z;
  offset : Z;
  seekable : bool;
  calls : nat;
  csize : Z;
  cstring : list Z;
  pushed : Z;
}.

Inductive ires (A : Type) : Type :=
| IOk (a : A) (s : fdst)
| IUB
| IAbort
| IFuel.
Arguments IOk {A}. Arguments IUB {A}. Arguments IAbort {A}. Arguments IFuel {A}.

Definition IM (A : Type) : Type := fdst -> ires A.
Definition iret {A} (a : A) : IM A := fun s => IOk a s.
Definition ibind {A B} (c : IM A) (k : A -> IM B) : IM B := fun s =>
  match c s with IOk a s' => k a s' | IUB => IUB | IAbort => IAbort | IFuel => IFuel end.
Declare Scope io_scope.
Notation "x <- c ;; k" := (ibind c (fun x => k)) (at level 100, c at next level, right associativity) : io_scope.
Notation "c ;;; k" := (ibind c (fun _ => k)) (at level 100, right associativity) : io_scope.
Open Scope io_scope.

(** lib/mes/__buffered_read.c:26: [__READ_BUFFER_MAX] *)
Definition READ_BUFFER_MAX : Z := 128.

(** a descriptor just opened: lib/linux/_open3.c:29-35 clears the push-back and
    the cache (the cache array itself is fresh memory from the kernel, so zero) *)
Definition opened (bs : list Z) (seek : bool) : fdst :=
  FD bs 0 seek 0 0 (repeat 0 (Z.to_nat READ_BUFFER_MAX)) (-1).

Section IO.
(** how the kernel splits its answers *)
Context (short : nat -> Z -> Z).
(** [__read_buffer_max]: 128, or what MES_READ_BUFFER says, clamped to 0..128
    (lib/mes/__buffered_read.c:47-57) *)
Context (max : Z).

(** how much of [n] bytes, with [avail] there, is transferred *)
Definition transfer (i : nat) (n avail : Z) : Z :=
  Z.max 1 (Z.min (short i n) (Z.min n avail)).

(** lib/linux/_read.c:26-30, the system call *)
Definition sys_read (n : Z) : IM (list Z) := fun s =>
  let rest := drop (Z.to_nat (offset s)) (content s) in
  if (n =? 0) || (Z.of_nat (length rest) =? 0) then
    IOk [] (FD (content s) (offset s) (seekable s) (S (calls s)) (csize s) (cstring s) (pushed s))
  else
    let k := transfer (calls s) n (Z.of_nat (length rest)) in
    IOk (take (Z.to_nat k) rest)
        (FD (content s) (offset s + k) (seekable s) (S (calls s))
            (csize s) (cstring s) (pushed s)).

(** lib/mes/__buffered_read.c:62-69; [__buffered_read_init] only sets up memory *)
Definition buffered_read_clear : IM Z := fun s =>
  IOk (csize s) (FD (content s) (offset s) (seekable s) (calls s) 0 (cstring s) (pushed s)).

(** lib/mes/__buffered_read.c:83-84: [*p++ = cache->string[__read_buffer_max - cache->size--]] *)
Definition cache_byte : IM Z := fun s =>
  let i := max - csize s in
  if (0 <=? i) && (i <? READ_BUFFER_MAX) then
    match cstring s !! Z.to_nat i with
    | Some b => IOk b (FD (content s) (offset s) (seekable s) (calls s) (csize s - 1) (cstring s) (pushed s))
    | None => IUB
    end
  else IUB.

(** lib/mes/__buffered_read.c:80-85; [todo] counts down; the bytes delivered and
    what is left to do *)
Fixpoint from_cache (todo : nat) : IM (list Z * nat) := fun s =>
  match todo with
  | O => IOk ([], O) s
  | S todo' =>
      if 0 <? csize s then
        (b <- cache_byte ;; r <- from_cache todo' ;; iret (b :: r.1, r.2)) s
      else IOk ([], todo) s
  end.

(** the system call of line 97, [_read (filedes, cache->string, __read_buffer_max)]:
    what it delivers lands at the start of [cache->string]; the count is returned *)
Definition fill : IM Z :=
  bs <- sys_read max ;;
  fun s => IOk (Z.of_nat (length bs))
    (FD (content s) (offset s) (seekable s) (calls s) (csize s)
        (bs ++ drop (length bs) (cstring s)) (pushed s)).

(** lines 102-104: [cache->size = bytes], and [memmove] of the [bytes] bytes at the
    start of the string to its end (C23 is about [memmove] itself) *)
Definition settle (bytes : Z) : IM unit := fun s =>
  let str := cstring s in
  let str' := if bytes <? max
              then take (Z.to_nat (max - bytes)) str ++ take (Z.to_nat bytes) str ++ drop (Z.to_nat max) str
              else str in
  IOk tt (FD (content s) (offset s) (seekable s) (calls s) bytes str' (pushed s)).

(** lib/mes/__buffered_read.c:71-109; the count returned and the bytes delivered.
    The recursion (line 105) is on [fuel] *)
Fixpoint buffered_read (fuel : nat) (size : Z) : IM (Z * list Z) :=
  match fuel with
  | O => fun _ => IFuel
  | S f => fun s =>
      if (csize s =? 0) && (max <? size) then
        (bs <- sys_read size ;; iret (Z.of_nat (length bs), bs)) s
      else
        (r <- from_cache (Z.to_nat size) ;;
         let todo := Z.of_nat r.2 in
         if todo =? 0 then iret (size - todo, r.1)
         else if max <? todo then
           bs <- sys_read todo ;; iret (size - todo + Z.of_nat (length bs), r.1 ++ bs)
         else
           bytes <- fill ;;
           if bytes =? 0 then iret (size - todo, r.1)
           else settle bytes ;;;
                q <- buffered_read f todo ;;
                iret (size - todo + q.1, r.1 ++ q.2)) s
  end.

(** lib/posix/buffered-read.c:24-48, without the debugging output *)
Definition read (fuel : nat) (size : Z) : IM (Z * list Z) := buffered_read fuel size.

(** the [lseek] system call; whence is SEEK_SET 0, SEEK_CUR 1, SEEK_END 2 *)
Definition sys_lseek (off whence : Z) : IM Z := fun s =>
  if negb (seekable s) then IOk (-1) s
  else
    let base := if whence =? 0 then Some 0 else if whence =? 1 then Some (offset s)
                else if whence =? 2 then Some (Z.of_nat (length (content s))) else None in
    match base with
    | None => IOk (-1) s
    | Some b =>
        if b + off <? 0 then IOk (-1) s
        else IOk (b + off) (FD (content s) (b + off) (seekable s) (calls s) (csize s) (cstring s) (pushed s))
    end.

(** lib/linux/lseek.c:35-46 *)
Definition lseek (off whence : Z) : IM Z :=
  r <- sys_lseek 0 1 ;;
  if r =? -1 then iret (-1)
  else
    skip <- buffered_read_clear ;;
    sys_lseek (if whence =? 1 then off - skip else off) whence.

(** the [write] system call: the file is overwritten from its offset on, a gap is
    filled with zeros.  Writing to a pipe or terminal leaves its input alone *)
Definition overwrite (c : list Z) (p : Z) (bs : list Z) : list Z :=
  let p := Z.to_nat p in
  match bs with
  | [] => c
  | _ => take p c ++ repeat 0 (p - length c) ++ bs ++ drop (p + length bs) c
  end.
Definition sys_write (bs : list Z) : IM Z := fun s =>
  if (Z.of_nat (length bs) =? 0) then
    IOk 0 (FD (content s) (offset s) (seekable s) (S (calls s)) (csize s) (cstring s) (pushed s))
  else
    let k := transfer (calls s) (Z.of_nat (length bs)) (Z.of_nat (length bs)) in
    if seekable s then
      IOk k (FD (overwrite (content s) (offset s) (take (Z.to_nat k) bs)) (offset s + k) true (S (calls s))
                (csize s) (cstring s) (pushed s))
    else
      IOk k (FD (content s) (offset s) false (S (calls s)) (csize s) (cstring s) (pushed s)).

(** lib/posix/write.c:26-41 *)
Definition write (bs : list Z) : IM Z :=
  skip <- buffered_read_clear ;;
  (if skip =? 0 then iret 0 else lseek (- skip) 1) ;;;
  r <- sys_write bs ;; iret (to_s32 r).

(** lib/mes/fdgetc.c:31-37 *)
Definition ungetc_p : IM bool := fun s => IOk (0 <=? pushed s) s.
(** lib/mes/fdgetc.c:51-65 *)
Definition ungetc_set (c : Z) : IM unit := fun s =>
  IOk tt (FD (content s) (offset s) (seekable s) (calls s) (csize s) (cstring s) c).

(** lib/mes/fdgetc.c:67-90; [char] is signed *)
Definition fdgetc : IM Z := fun s =>
  if 0 <=? pushed s then
    (let i := pushed s in ungetc_set (-1) ;;; iret i) s
  else
    (r <- read 3 1 ;;
     if to_s32 r.1 <? 1 then iret (-1)
     else match r.2 with
          | b :: _ => let i := to_schar b in iret (if i <? 0 then i + 256 else i)
          | [] => fun _ => IUB
          end) s.

(** lib/mes/fdungetc.c:23-37 *)
Definition fdungetc (c : Z) : IM Z :=
  if c =? -1 then iret c
  else b <- ungetc_p ;;
       if b then fun _ => IAbort else ungetc_set c ;;; iret c.

(** lib/mes/fdgets.c:29-35; what is stored, and the last [c].  The text ends with
    the NUL of line 38.  [n] is the [count] of the loop test *)
Fixpoint fdgets_loop (n : nat) (c : Z) : IM (list Z * Z) :=
  match n with
  | O => iret ([], c)
  | S n' =>
      if c =? 10 then iret ([], c)
      else
        c' <- fdgetc ;;
        if c' =? -1 then iret ([], c')
        else r <- fdgets_loop n' c' ;; iret (to_byte c' :: r.1, r.2)
  end.
(** lib/mes/fdgets.c:24-40 for [count > 0]: [None] is the null pointer, [Some t]
    the text stored (without its final NUL) *)
Definition fdgets (count : Z) : IM (option (list Z)) :=
  r <- fdgets_loop (Z.to_nat (count - 1)) 0 ;;
  iret (match r.1 with [] => if r.2 =? -1 then None else Some [] | _ => Some r.1 end).

(** lib/stdio/fread.c:40-41; [todo] and [bytes] of the code *)
Fixpoint fread_pushed (todo : nat) (bytes : Z) : IM (list Z * (Z * Z)) :=
  b <- ungetc_p ;;
  if negb b then iret ([], (Z.of_nat todo, bytes))
  else match todo with
       | O => iret ([], (2 ^ 64 - 1, bytes))
       | S todo' =>
           c <- fdgetc ;;
           r <- fread_pushed todo' (bytes + 1) ;;
           iret (to_byte c :: r.1, r.2)
       end.
(** lib/stdio/fread.c:32-75, without the debugging output: the number of items
    and the bytes stored *)
Definition fread (fuel : nat) (size count : Z) : IM (Z * list Z) :=
  if (size =? 0) || (count =? 0) then iret (0, [])
  else
    r <- fread_pushed (Z.to_nat (to_u64 (size * count))) 0 ;;
    let todo := r.2.1 in
    let bytes := r.2.2 in
    if todo =? 0 then iret (if 0 <? bytes then bytes / size else 0, r.1)
    else
      q <- read fuel todo ;;
      let n := to_s32 q.1 in
      let bytes' := if (n <? 0) && (bytes =? 0) then n else bytes + n in
      if in_int bytes' then iret (if 0 <? bytes' then bytes' / size else 0, r.1 ++ q.2)
      else fun _ => IUB.

(** lib/stdio/fseek.c:25-41 *)
Definition fseek (off whence : Z) : IM Z :=
  pos <- lseek off whence ;; iret (if 0 <=? pos then 0 else -1).

(** what a program does with the descriptor *)
Inductive op :=
| Read (size : Z)
| Getc
| Ungetc (c : Z)
| Gets (count : Z)
| Fread (size count : Z)
| Seek (off whence : Z)
| Write (bs : list Z).

(** what it sees: a number and bytes *)
Definition do_op (o : op) : IM (Z * list Z) :=
  match o with
  | Read n => read (Z.to_nat n + 2) n
  | Getc => c <- fdgetc ;; iret (c, [])
  | Ungetc c => r <- fdungetc c ;; iret (r, [])
  | Gets n => r <- fdgets n ;; iret (match r with None => (0, []) | Some t => (1, t) end)
  | Fread a b => fread (Z.to_nat (a * b) + 2) a b
  | Seek off w => r <- lseek off w ;; iret (r, [])
  | Write bs => r <- write bs ;; iret (r, [])
  end.

Fixpoint do_ops (l : list op) : IM (list (Z * list Z)) :=
  match l with
  | [] => iret []
  | o :: l' => r <- do_op o ;; rs <- do_ops l' ;; iret (r :: rs)
  end.
End IO.
