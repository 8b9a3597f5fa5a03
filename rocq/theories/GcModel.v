(** The copying collector of src/gc.c, cell by cell. *)
From stdpp Require Import base gmap list.
From Coq Require Import ZArith Lia.
From Verif Require Import CInt Symbols Heap.
Open Scope Z_scope.
Open Scope mes_scope.

(** src/gc.c:323-338 gc_init_news *)
Definition gc_init_news : M unit :=
  modify (fun s => set_g_news (g_free s) s) ;;;
  ncell_arena <- gets g_news ;;
  let ncell_zero := ncell_arena + 1 in
  modify (fun s => set_g_news (g_news s + 1) s) ;;;
  cells <- gets g_cells ;;
  len <- car_of (cells - 1) ;;           (* cell_arena->length *)
  news <- gets g_news ;;
  wr ncell_arena (Cell TVECTOR len news []) ;;;
  (* ncell_zero->type = TCHAR; ->value = 'n' ('n' is 110); the car word is left as it was *)
  wr ncell_zero (Cell TCHAR 0 110 []).

(** src/gc.c:498-503, the interior of a vector or struct: copied contiguously after the head *)
Fixpoint copy_interior (n : nat) (vector i : Z) : M unit :=
  match n with
  | O => ret tt
  | S n' =>
      free <- gets g_free ;;
      copy_cell free (cell_ref vector i) ;;;
      modify (fun s => set_g_free (g_free s + 1) s) ;;;
      copy_interior n' vector (i + 1)
  end.

(** memcpy on overlapping ranges is UB; the payloads of the cells [d] and [s] are 24 * |d - s|
    bytes apart *)
Definition memcpy_apart (d s len : Z) : bool := len <=? 24 * Z.abs (d - s).

(** src/gc.c:486-531 gc_copy *)
Definition gc_copy (old : Z) : M Z :=
  o <- rd old ;;
  if c_ty o =? TBROKEN_HEART then ret (c_car o) else
  new <- gets g_free ;;
  modify (fun s => set_g_free (g_free s + 1) s) ;;;
  copy_cell new old ;;;
  (if (c_ty o =? TSTRUCT) || (c_ty o =? TVECTOR) then
     free <- gets g_free ;;
     set_cdr new free ;;;
     copy_interior (Z.to_nat (c_car o)) (c_cdr o) 0
   else if c_ty o =? TBYTES then
     (* memcpy (dest, src, length): reading past the payload would be UB *)
     (if (Z.of_nat (length (c_bytes o)) =? c_car o) && memcpy_apart new old (c_car o)
      then ret tt else ub) ;;;
     set_bytes new (c_bytes o) ;;;
     modify (fun s => set_g_free (g_free s + (bytes_cells (c_car o) - 1)) s)
   else ret tt) ;;;
  set_ty old TBROKEN_HEART ;;;
  set_car old new ;;;
  ret new.

(** src/gc.c:551-559 and 402-407: types whose first word is a pointer *)
Definition car_pointer (t : Z) : bool :=
  (t =? TMACRO) || (t =? TPAIR) || (t =? TREF) || (t =? TVARIABLE).

(** src/gc.c:566-579: types whose second word gc_loop follows *)
Definition cdr_pointer (t : Z) : bool :=
  (t =? TCLOSURE) || (t =? TCONTINUATION) || (t =? TKEYWORD) || (t =? TMACRO) || (t =? TPAIR)
  || (t =? TPORT) || (t =? TSPECIAL) || (t =? TSTRING) || (t =? TSYMBOL) || (t =? TVALUES).

(** src/gc.c:408-420: types whose second word gc_cellcpy shifts *)
Definition cdr_shifted (t : Z) : bool :=
  (t =? TBYTES) || (t =? TCLOSURE) || (t =? TCONTINUATION) || (t =? TKEYWORD) || (t =? TMACRO)
  || (t =? TPAIR) || (t =? TPORT) || (t =? TSPECIAL) || (t =? TSTRING) || (t =? TSTRUCT)
  || (t =? TSYMBOL) || (t =? TVALUES) || (t =? TVECTOR).

(** src/gc.c:547-592 gc_loop, without the final gc_flip *)
Fixpoint gc_scan (fuel : nat) (scan : Z) : M unit :=
  free <- gets g_free ;;
  if negb (scan <? free) then ret tt else
  match fuel with
  | O => out_of_fuel
  | S fuel' =>
      t <- ty scan ;;
      (if t =? TBROKEN_HEART then abort else ret tt) ;;;
      (if car_pointer t then
         a <- car_of scan ;; car <- gc_copy a ;; set_car scan car
       else ret tt) ;;;
      (if cdr_pointer t then
         d <- cdr_of scan ;; cdr <- gc_copy d ;; set_cdr scan cdr
       else ret tt) ;;;
      if t =? TBYTES then
        len <- car_of scan ;; gc_scan fuel' (scan + bytes_cells len)
      else gc_scan fuel' (scan + 1)
  end.

(** src/gc.c:383-458 gc_cellcpy; [n] is unsigned in C and would wrap below zero: UB here *)
Fixpoint gc_cellcpy (fuel : nat) (dest src n : Z) : M unit :=
  if n =? 0 then ret tt else
  if n <? 0 then ub else
  match fuel with
  | O => out_of_fuel
  | S fuel' =>
      let dist := src - dest in
      c <- rd src ;;
      let t := c_ty c in
      (if t =? TBROKEN_HEART then abort else ret tt) ;;;
      wr dest (Cell t
        (if car_pointer t then c_car c - dist else c_car c)
        (if cdr_shifted t then (if t =? TBYTES then c_cdr c else c_cdr c - dist) else c_cdr c) []) ;;;
      if t =? TBYTES then
        (if (Z.of_nat (length (c_bytes c)) =? c_car c) && memcpy_apart dest src (c_car c)
         then ret tt else ub) ;;;
        set_bytes dest (c_bytes c) ;;;
        let i := bytes_cells (c_car c) in
        gc_cellcpy fuel' (dest + i) (src + i) (n - i)
      else gc_cellcpy fuel' (dest + 1) (src + 1) (n - 1)
  end.

(** src/gc.c:479-480: shift the live part of the stack *)
Fixpoint shift_stack (n : nat) (i dist : Z) : M unit :=
  match n with
  | O => ret tt
  | S n' => v <- stack_get i ;; stack_set i (v - dist) ;;; shift_stack n' (i + 1) dist
  end.

(** src/gc.c:462-484 gc_flip.  The difference of two cell pointers is a number of cells. *)
Definition gc_flip : M unit :=
  s <- get ;;
  modify (fun s => if JAM_SIZE s <? g_free s - g_news s
                   then set_JAM_SIZE ((g_free s - g_news s) + (g_free s - g_news s) / 2) s else s) ;;;
  gc_cellcpy (Z.to_nat (limit s)) (g_cells s) (g_news s) (g_free s - g_news s) ;;;
  let dist := g_news s - g_cells s in
  modify (fun s => set_g_free (g_free s - dist) s) ;;;
  modify (fun s => set_g_symbols (g_symbols s - dist) s) ;;;
  modify (fun s => set_g_macros (g_macros s - dist) s) ;;;
  modify (fun s => set_g_ports (g_ports s - dist) s) ;;;
  modify (fun s => set_M0 (M0 s - dist) s) ;;;
  shift_stack (Z.to_nat (STACK_SIZE s - g_stack s)) (g_stack s) dist.

(** src/gc.c:547-593 gc_loop; every round of the C loop advances scan, which stays below
    g_free <= limit, so [limit] rounds are enough *)
Definition gc_loop (scan : Z) : M unit :=
  s <- get ;;
  gc_scan (Z.to_nat (limit s)) scan ;;;
  gc_flip.

(** src/gc.c:636-638: copy the built-in symbols first *)
Fixpoint copy_symbols (n : nat) (s : Z) : M unit :=
  match n with
  | O => ret tt
  | S n' => gc_copy s ;;; copy_symbols n' (s + 1)
  end.

(** src/gc.c:645-647: copy the stack's entries *)
Fixpoint copy_stack_entries (n : nat) (i : Z) : M unit :=
  match n with
  | O => ret tt
  | S n' => v <- stack_get i ;; v' <- gc_copy v ;; stack_set i v' ;;; copy_stack_entries n' (i + 1)
  end.

(** src/gc.c:617-618: the test for growing the arena.  g_cells is 24 bytes behind the arena's
    start and M2_CELL_SIZE is 1, so the byte addresses never agree in this build. *)
Definition gc_up_arena_test (s : state) : bool :=
  (ARENA_SIZE s <? MAX_ARENA_SIZE s) && (24 * (g_cells s - 1) =? 1).

(** src/gc.c:604-654 gc_; growing (gc_up_arena, never taken here) is not modelled: UB.
    cell_nil is a C global here; in the model it is the constant of Symbols.v, g_cells + 1. *)
Definition gc_ : M unit :=
  gc_init_news ;;;
  modify (fun s => set_g_free (g_news s + 1) s) ;;;
  s <- get ;;
  (if gc_up_arena_test s then ub else ret tt) ;;;
  let new_cell_nil := g_free s in
  copy_symbols (Z.to_nat (g_symbol_max s - cell_nil)) cell_nil ;;;
  v <- gets g_symbols ;; v <- gc_copy v ;; modify (set_g_symbols v) ;;;
  v <- gets g_macros ;; v <- gc_copy v ;; modify (set_g_macros v) ;;;
  v <- gets g_ports ;; v <- gc_copy v ;; modify (set_g_ports v) ;;;
  v <- gets M0 ;; v <- gc_copy v ;; modify (set_M0 v) ;;;
  copy_stack_entries (Z.to_nat (STACK_SIZE s - g_stack s)) (g_stack s) ;;;
  gc_loop new_cell_nil.

(** src/gc.c:656-692 gc (timing and dumping left out) *)
Definition gc : M unit :=
  gc_push_frame ;;;
  gc_ ;;;
  gc_pop_frame.

(** src/gc.c:595-602 gc_check *)
Definition gc_check : M unit :=
  s <- get ;;
  if ARENA_SIZE s <=? (g_free s - g_cells s) + GC_SAFETY s then gc else ret tt.
