(** Reading directories: /repo/lib/dirent/readdir.c, opendir.c, closedir.c.
    The directory block [data] is a list of bytes of length [allocation]; reading outside of it is
    undefined.  The kernel is a list of answers to getdents; when there are no more it answers 0. *)
From stdpp Require Import base list.
From Coq Require Import ZArith.
From Verif Require Import CInt.
Open Scope Z_scope.

(** an answer of the kernel: bytes for the block, or an error number *)
Inductive kanswer : Type := KBytes (bs : list Z) | KError (e : Z).

(** include/dirstream.h:39-49 struct __dirstream, with errno and what the kernel is going to answer *)
Record dstate : Type := Ds { d_data : list Z; d_size : Z; d_offset : Z; d_filepos : Z; d_errno : Z; d_kernel : list kanswer }.

(** an unsigned little-endian number of [n] bytes at offset [o] *)
Fixpoint number_at (n : nat) (data : list Z) (o : nat) : option Z :=
  match n with
  | O => Some 0
  | S n' => match data !! o, number_at n' data (S o) with Some b, Some z => Some (b + 256 * z) | _, _ => None end
  end.
(** include/dirent.h:46-55 struct dirent: offsets of the members *)
Definition o_ino : nat := 0.
Definition o_off : nat := 8.
Definition o_reclen : nat := 16.
Definition o_name : nat := 18.

(** lib/linux/getdents.c:25-29 with lib/linux/x86_64-mes-gcc/syscall.c:155-167: the value returned
    is converted to [int].  The kernel stores its bytes in the block; an answer longer than the block
    does not occur: it is the kernel that keeps to the size it is given. *)
Definition getdents (s : dstate) : Z * dstate :=
  match d_kernel s with
  | [] => (0, Ds (d_data s) (d_size s) (d_offset s) (d_filepos s) 0 [])
  | KBytes bs :: k => (to_s32 (Z.of_nat (length bs)), Ds (bs ++ drop (length bs) (d_data s)) (d_size s) (d_offset s) (d_filepos s) 0 k)
  | KError e :: k => (-1, Ds (d_data s) (d_size s) (d_offset s) (d_filepos s) e k)
  end.

(** what readdir does: returns null, or a pointer to offset [o] of the block *)
Inductive dres : Type := DNull (s : dstate) | DEntry (o : nat) (s : dstate) | DUB | DFuel.

(** readdir.c:77-85: the entry at the offset *)
Definition dir_entry (again : dstate -> dres) (s : dstate) : dres :=
  let o := Z.to_nat (d_offset s) in
  match number_at 8 (d_data s) (o + o_ino), number_at 8 (d_data s) (o + o_off), number_at 2 (d_data s) (o + o_reclen) with
  | Some ino, Some off, Some reclen =>
      let s' := Ds (d_data s) (d_size s) (to_u64 (d_offset s + reclen)) (to_s64 off) (d_errno s) (d_kernel s) in
      if ino =? 0 then again s' else DEntry o s'
  | _, _, _ => DUB
  end.
(** readdir.c:44-85: the loop *)
Fixpoint readdir_loop (fuel : nat) (saved_errno : Z) (s : dstate) : dres :=
  match fuel with
  | O => DFuel
  | S fuel' =>
      if d_size s <=? d_offset s then
        let '(bytes, s) := getdents s in
        if bytes <=? 0 then
          DNull (if bytes =? 0 then Ds (d_data s) (d_size s) (d_offset s) (d_filepos s) saved_errno (d_kernel s) else s)
        else dir_entry (readdir_loop fuel' saved_errno) (Ds (d_data s) (to_u64 bytes) 0 (d_filepos s) (d_errno s) (d_kernel s))
      else dir_entry (readdir_loop fuel' saved_errno) s
  end.
(** readdir.c:38-88 *)
Definition readdir (fuel : nat) (s : dstate) : dres := readdir_loop fuel (d_errno s) s.

(** opendir.c:66-79: the new stream; calloc clears it (C39).  Opening the file, fstat and fcntl are
    not modelled: [allocation] is any block size *)
Definition new_stream (allocation : nat) (errno : Z) (k : list kanswer) : dstate := Ds (repeat 0 allocation) 0 0 0 errno k.
