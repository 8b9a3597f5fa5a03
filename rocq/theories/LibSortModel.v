(** Model of /repo/lib/stdlib/qsort.c on byte memory.  The comparison function
    pointer is a parameter: a computation on the two addresses. *)
From stdpp Require Import base gmap list.
From Coq Require Import ZArith.
From Verif Require Import CInt LibModel.
Open Scope Z_scope. Open Scope clib_scope.

(** lib/stdlib/qsort.c:28-33, [n] turns to go *)
Fixpoint qswap_loop (n : nat) (pa pb : Z) : CM unit :=
  match n with
  | O => cret tt
  | S n' =>
      tmp <- ld pa ;;
      y <- ld pb ;; st pa y ;;;
      st pb tmp ;;;
      qswap_loop n' (pa + 1) (pb + 1)
  end.
(** lib/stdlib/qsort.c:23-34: a do-while loop on a [size_t], so size 0 means 2^64 turns *)
Definition qswap (a b size : Z) : CM unit :=
  qswap_loop (Z.to_nat (if size =? 0 then two64 else size)) a b.

Section qsort.
  Context (compare : Z -> Z -> CM Z).

  (** lib/stdlib/qsort.c:41-57: the loop over [j] with [n] turns to go; the result is [i] *)
  Fixpoint qpart_loop (n : nat) (base p size i j : Z) : CM Z :=
    match n with
    | O => cret i
    | S n' =>
        c <- compare (base + j * size) p ;;
        if c <? 0 then
          qswap (base + i * size) (base + j * size) size ;;;
          qpart_loop n' base p size (i + 1) (j + 1)
        else if c =? 0 then qpart_loop n' base p size (i + 1) (j + 1)
        else qpart_loop n' base p size i (j + 1)
    end.
  (** lib/stdlib/qsort.c:36-61 *)
  Definition qpart (base count size : Z) : CM Z :=
    let p := base + count * size in
    i <- qpart_loop (Z.to_nat count) base p size 0 0 ;;
    c <- compare (base + count * size) (base + i * size) ;;
    if c <? 0 then qswap (base + i * size) (base + count * size) size ;;; cret i
    else cret i.

  (** lib/stdlib/qsort.c:63-79: [p] is an [int] *)
  Fixpoint qsort (fuel : nat) (base count size : Z) : CM unit :=
    match fuel with
    | O => cfuel
    | S f =>
        if 1 <? count then
          p0 <- qpart base (count - 1) size ;;
          let p := to_s32 p0 in
          qsort f base p size ;;;
          qsort f (base + p * size) (count - p) size
        else cret tt
    end.
End qsort.
