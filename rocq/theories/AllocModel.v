(** Memory allocation and the environment of a process that uses the mes C
    library: lib/linux/malloc.c, lib/linux/brk.c, lib/stdlib/calloc.c,
    lib/stdlib/realloc.c, lib/stdlib/free.c, lib/posix/getenv.c,
    lib/posix/setenv.c, lib/posix/unsetenv.c, for a 64-bit Linux target.

    Memory is that of LibModel.v.  The kernel's side of [brk] is modelled too:
    the heap starts at [kstart], the kernel grants a break of up to [limit], maps
    whole pages of zeros, and answers a request it refuses with the break it has
    (the system call never answers -1).  The array [environ] points to is a list
    of slots of a given length, apart from byte memory: reading or writing a slot
    beyond the list is undefined behaviour. *)
From stdpp Require Import base gmap list.
From Coq Require Import ZArith.
From Verif Require Import CInt LibModel.
Open Scope Z_scope.

(** [__brk] (lib/linux/malloc.c:27) is [pbrk]; [kbrk] is the kernel's break;
    [slots] is the array at [environ] (lib/mes/globals.c:24) *)
Record proc := Proc { pmem : gmap Z Z; pbrk : Z; kbrk : Z; slots : list Z }.

Inductive pres (A : Type) : Type := POk (a : A) (p : proc) | PUB | PFuel.
Arguments POk {A}. Arguments PUB {A}. Arguments PFuel {A}.
Definition PM (A : Type) : Type := proc -> pres A.
Definition pret {A} (a : A) : PM A := fun p => POk a p.
Definition pbind {A B} (c : PM A) (k : A -> PM B) : PM B := fun p =>
  match c p with POk a p' => k a p' | PUB => PUB | PFuel => PFuel end.
Declare Scope proc_scope.
Notation "x <- c ;; k" := (pbind c (fun x => k)) (at level 100, c at next level, right associativity) : proc_scope.
Notation "c ;;; k" := (pbind c (fun _ => k)) (at level 100, right associativity) : proc_scope.
Open Scope proc_scope.

(** a function of LibModel.v at work on the memory of the process; none of those
    used here aborts *)
Definition lib {A} (c : CM A) : PM A := fun p =>
  match c (pmem p) with
  | COk a m => POk a (Proc m (pbrk p) (kbrk p) (slots p))
  | CUB => PUB
  | CAbort => PUB
  | CFuel => PFuel
  end.

(** zero bytes mapped at [a] and after *)
Fixpoint map_zero (n : nat) (a : Z) (m : gmap Z Z) : gmap Z Z :=
  match n with O => m | S n' => <[a := 0]> (map_zero n' (a + 1) m) end.
Fixpoint unmap (n : nat) (a : Z) (m : gmap Z Z) : gmap Z Z :=
  match n with O => m | S n' => delete a (unmap n' (a + 1) m) end.

Section Alloc.
Context (page kstart limit : Z).

Definition page_up (z : Z) : Z := (z + (page - 1)) / page * page.

(** the [brk] system call; lib/linux/brk.c:25-30 passes the answer on *)
Definition brk (addr : Z) : PM Z := fun p =>
  if (addr <? kstart) || (limit <? addr) then POk (kbrk p) p
  else
    let old := page_up (kbrk p) in
    let new := page_up addr in
    let m := if old <=? new then map_zero (Z.to_nat (new - old)) old (pmem p)
             else unmap (Z.to_nat (old - new)) new (pmem p) in
    POk addr (Proc m (pbrk p) addr (slots p)).

Definition set_brk (b : Z) : PM unit := fun p => POk tt (Proc (pmem p) b (kbrk p) (slots p)).

(** lib/linux/malloc.c:35-36; [sizeof (max_align_t)] is 8 (include/stddef.h:43),
    the arithmetic is on [uintptr_t] *)
Definition aligned (b : Z) : Z := Z.land (to_u64 (b + 8 - 1)) (to_u64 (- 8)).

(** lib/linux/malloc.c:29-42 *)
Definition malloc (size : Z) : PM Z := fun p =>
  ((if pbrk p =? 0 then b <- brk 0 ;; set_brk b else pret tt) ;;;
   fun p =>
   (let b := aligned (pbrk p) in
    set_brk b ;;;
    r <- brk (to_u64 (b + size)) ;;
    if to_s64 r =? -1 then pret 0
    else set_brk (to_u64 (b + size)) ;;; pret b) p) p.

(** lib/stdlib/calloc.c:24-31 *)
Definition calloc (nmemb size : Z) : PM Z :=
  let count := to_u64 (nmemb * size) in
  p <- malloc count ;; lib (memset p 0 count) ;;; pret p.

(** lib/stdlib/free.c:23-26 *)
Definition free (ptr : Z) : PM unit := pret tt.

(** lib/stdlib/realloc.c:24-34 *)
Definition realloc (ptr size : Z) : PM Z :=
  new <- malloc size ;;
  (if negb (ptr =? 0) && negb (new =? 0) then lib (memcpy new ptr size) ;;; free ptr else pret tt) ;;;
  pret new.

(** [p[i]] and [p[i] = v] for a [char **] into [environ] *)
Definition slot (i : nat) : PM Z := fun p =>
  match slots p !! i with Some v => POk v p | None => PUB end.
Definition set_slot (i : nat) (v : Z) : PM unit := fun p =>
  match slots p !! i with
  | Some _ => POk tt (Proc (pmem p) (pbrk p) (kbrk p) (<[i := v]> (slots p)))
  | None => PUB
  end.

(** lib/posix/getenv.c:39-43 and setenv.c:37-40: does the entry at [e] set [s]? *)
Definition entry_matches (s e length : Z) : PM bool :=
  r <- lib (strncmp s e length) ;;
  if r =? 0 then c <- lib (ld (e + length)) ;; pret (c =? 61) else pret false.

(** lib/posix/getenv.c:36-49; [n] turns of the loop at most *)
Fixpoint getenv_loop (n : nat) (i : nat) (s length : Z) : PM Z :=
  match n with
  | O => fun _ => PFuel
  | S n' =>
      e <- slot i ;;
      if e =? 0 then pret 0
      else b <- entry_matches s e length ;;
           if (b : bool) then pret (e + length + 1) else getenv_loop n' (S i) s length
  end.
(** lib/posix/getenv.c:28-52 *)
Definition getenv (fuel : nat) (s : Z) : PM Z := fun p =>
  (length <- lib (strlen fuel s) ;; getenv_loop (S (List.length (slots p))) 0 s length) p.

(** lib/posix/setenv.c:35-44: the slot where the loop stops *)
Fixpoint setenv_loop (n : nat) (i : nat) (s length : Z) : PM nat :=
  match n with
  | O => fun _ => PFuel
  | S n' =>
      e <- slot i ;;
      if e =? 0 then pret i
      else b <- entry_matches s e length ;;
           if (b : bool) then pret i else setenv_loop n' (S i) s length
  end.
(** lib/posix/setenv.c:28-56.  [strcpy (entry + length, "=")] (line 49) is two
    stores; [overwrite_p] is not looked at *)
Definition setenv (fuel : nat) (s v overwrite_p : Z) : PM Z := fun p =>
  (length <- lib (strlen fuel s) ;;
   i <- setenv_loop (S (List.length (slots p))) 0 s length ;;
   vlen <- lib (strlen fuel v) ;;
   entry <- malloc (length + vlen + 2) ;;
   old <- slot i ;;
   set_slot i entry ;;;
   lib (strcpy fuel entry s) ;;;
   lib (st (entry + length) 61) ;;; lib (st (entry + length + 1) 0) ;;;
   lib (strcpy fuel (entry + length + 1) v) ;;;
   vlen2 <- lib (strlen fuel v) ;;
   lib (st (entry + (length + vlen2 + 2)) 0) ;;;
   (if old =? 0 then set_slot (S i) 0 else pret tt) ;;;
   pret 0) p.

(** lib/posix/unsetenv.c:35-37: [q[0] = q[1]; while ( *q++) q[0] = q[1];] *)
Fixpoint shift_down (n : nat) (q : nat) : PM unit :=
  match n with
  | O => fun _ => PFuel
  | S n' =>
      v <- slot (S q) ;; set_slot q v ;;;
      w <- slot q ;;
      if w =? 0 then pret tt else shift_down n' (S q)
  end.
(** lib/posix/unsetenv.c:30-40 *)
Fixpoint unsetenv_loop (n : nat) (i : nat) (s length : Z) : PM unit :=
  match n with
  | O => fun _ => PFuel
  | S n' =>
      e <- slot i ;;
      if e =? 0 then pret tt
      else
        b <- entry_matches s e length ;;
        (if (b : bool) then fun p => shift_down (S (List.length (slots p))) i p else pret tt) ;;;
        unsetenv_loop n' (S i) s length
  end.
(** lib/posix/unsetenv.c:25-41 *)
Definition unsetenv (fuel : nat) (s : Z) : PM unit := fun p =>
  (length <- lib (strlen fuel s) ;; unsetenv_loop (S (List.length (slots p))) 0 s length) p.

(** ** programs that allocate.  [Realloc i n], [Free i], [Store i k v] speak of the
    pointer the [i]-th allocation returned; [Store] writes the byte at offset [k] *)
Inductive aop :=
| Malloc (n : Z)
| Calloc (nmemb size : Z)
| Realloc (i : nat) (n : Z)
| Free (i : nat)
| Store (i : nat) (k v : Z).

Definition do_aop (o : aop) (ptrs : list Z) : PM (list Z) :=
  match o with
  | Malloc n => a <- malloc n ;; pret (ptrs ++ [a])
  | Calloc n s => a <- calloc n s ;; pret (ptrs ++ [a])
  | Realloc i n => match ptrs !! i with Some q => a <- realloc q n ;; pret (ptrs ++ [a]) | None => fun _ => PUB end
  | Free i => match ptrs !! i with Some q => free q ;;; pret ptrs | None => fun _ => PUB end
  | Store i k v => match ptrs !! i with Some q => lib (st (q + k) v) ;;; pret ptrs | None => fun _ => PUB end
  end.
Fixpoint do_aops (l : list aop) (ptrs : list Z) : PM (list Z) :=
  match l with [] => pret ptrs | o :: l' => ptrs' <- do_aop o ptrs ;; do_aops l' ptrs' end.

(** ** programs that change their environment *)
Inductive eop :=
| Setenv (s v overwrite_p : Z)
| Unsetenv (s : Z).
Definition do_eop (fuel : nat) (o : eop) : PM unit :=
  match o with
  | Setenv s v w => setenv fuel s v w ;;; pret tt
  | Unsetenv s => unsetenv fuel s
  end.
Fixpoint do_eops (fuel : nat) (l : list eop) : PM unit :=
  match l with [] => pret tt | o :: l' => do_eop fuel o ;;; do_eops fuel l' end.
End Alloc.
