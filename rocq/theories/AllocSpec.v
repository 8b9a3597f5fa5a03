(** What a program may expect of the allocator: a table of blocks, one for each
    allocation made so far, with their contents. *)
From stdpp Require Import base gmap list.
From Coq Require Import ZArith.
From Verif Require Import LibSpec AllocModel.
Open Scope Z_scope.

(** where the next block may start *)
Definition cur (p : proc) : Z := if pbrk p =? 0 then kbrk p else pbrk p.

(** a process between two calls: the library's idea of the break is the kernel's, and
    everything from the start of the heap to the end of its last page is mapped.  A
    process that has not allocated yet is such a process *)
Record heap_ok (page kstart limit : Z) (p : proc) : Prop := {
  ho_cur : cur p = kbrk p;
  ho_bounds : kstart <= kbrk p <= limit;
  ho_mapped : forall q, kstart <= q < page_up page (kbrk p) -> exists b, pmem p !! q = Some b /\ byte b;
}.

Record block := Block { b_bytes : list Z; b_live : bool }.

(** what each call does to the table.  Memory from [malloc], and the part of a
    reallocated block beyond the old one, may hold anything *)
Inductive step (B : list block) : aop -> list block -> Prop :=
| step_malloc n bs :
    Z.of_nat (length bs) = n -> step B (Malloc n) (B ++ [Block bs true])
| step_calloc a b :
    step B (Calloc a b) (B ++ [Block (replicate (Z.to_nat (a * b)) 0) true])
| step_realloc i n bs bs' :
    B !! i = Some (Block bs true) ->
    Z.of_nat (length bs') = n ->
    take (length bs) bs' = take (Z.to_nat n) bs ->
    step B (Realloc i n) (<[i := Block bs false]> B ++ [Block bs' true])
| step_free i bs :
    B !! i = Some (Block bs true) -> step B (Free i) (<[i := Block bs false]> B)
| step_store i k v bs :
    B !! i = Some (Block bs true) ->
    step B (Store i k v) (<[i := Block (<[Z.to_nat k := v mod 256]> bs) true]> B).

Inductive steps : list block -> list aop -> list block -> Prop :=
| steps_nil B : steps B [] B
| steps_cons B o B' l B'' : step B o B' -> steps B' l B'' -> steps B (o :: l) B''.

(** the calls a program may make: sizes that are sizes, blocks that are allocated,
    offsets inside them *)
Definition permitted (B : list block) (o : aop) : Prop :=
  match o with
  | Malloc n => 0 <= n
  | Calloc a b => 0 <= a /\ 0 <= b
  | Realloc i n => 0 <= n /\ exists bs, B !! i = Some (Block bs true)
  | Free i => exists bs, B !! i = Some (Block bs true)
  | Store i k v => exists bs, B !! i = Some (Block bs true) /\ 0 <= k < Z.of_nat (length bs)
  end.
Fixpoint safe (B : list block) (l : list aop) : Prop :=
  match l with
  | [] => True
  | o :: l' => permitted B o /\ forall B', step B o B' -> safe B' l'
  end.

(** how much of the heap the calls can use up: the sizes, and alignment *)
Definition need (o : aop) : Z :=
  match o with
  | Malloc n | Realloc _ n => Z.max 0 n + 7
  | Calloc a b => Z.max 0 (a * b) + 7
  | Free _ | Store _ _ _ => 0
  end.
Definition needs (l : list aop) : Z := foldr (fun o t => need o + t) 0 l.

(** the live blocks of the table are in memory at the pointers returned: aligned, not
    at the null pointer, holding their contents, no two of them overlapping *)
Record laid_out (m : gmap Z Z) (ptrs : list Z) (B : list block) : Prop := {
  lo_length : length ptrs = length B;
  lo_aligned : forall i q bs, ptrs !! i = Some q -> B !! i = Some (Block bs true) -> q mod 8 = 0 /\ 0 < q;
  lo_bytes : forall i q bs, ptrs !! i = Some q -> B !! i = Some (Block bs true) -> bytes_at m q bs;
  lo_apart : forall i j q r bs cs, i <> j ->
    ptrs !! i = Some q -> B !! i = Some (Block bs true) ->
    ptrs !! j = Some r -> B !! j = Some (Block cs true) ->
    apart q (length bs) r (length cs);
}.
