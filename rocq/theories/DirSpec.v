(** What a directory is, what the kernel writes for it, and what a program that reads it sees. *)
From stdpp Require Import base list.
From Coq Require Import ZArith.
From Verif Require Import CInt DirModel.
Open Scope Z_scope.

(** a directory entry: inode number (0 if the file has been deleted), position, name *)
Record dentry : Type := De { de_ino : Z; de_off : Z; de_name : list Z; de_pad : list Z }.
Fixpoint le (n : nat) (z : Z) : list Z := match n with O => [] | S n' => z mod 256 :: le n' (z / 256) end.
Definition reclen (e : dentry) : nat := (18 + length (de_name e) + 1 + length (de_pad e))%nat.
(** struct linux_dirent, getdents(2): inode, offset, record length, name, NUL, padding *)
Definition record (e : dentry) : list Z :=
  le 8 (de_ino e) ++ le 8 (de_off e) ++ le 2 (Z.of_nat (reclen e)) ++ de_name e ++ 0 :: de_pad e.
Definition entry_ok (e : dentry) : Prop :=
  0 <= de_ino e < 2 ^ 64 /\ 0 <= de_off e < 2 ^ 64 /\ Z.of_nat (reclen e) < 2 ^ 16 /\ Forall (fun c => 0 < c < 256) (de_name e).

(** the answers for a directory whose entries come in these groups; then the end, or an error *)
Inductive ending : Type := AtEnd | Failed (e : Z).
Definition answers (groups : list (list dentry)) (fin : ending) : list kanswer :=
  map (fun g => KBytes (concat (map record g))) groups ++ match fin with AtEnd => [] | Failed e => [KError e] end.
(** the kernel gives at least one entry at a time, and no more than fit in the block *)
Definition group_ok (allocation : nat) (g : list dentry) : Prop :=
  g <> [] /\ Forall entry_ok g /\ (length (concat (map record g)) <= allocation)%nat.

(** the NUL-terminated string at an offset *)
Fixpoint cstring (bs : list Z) : option (list Z) :=
  match bs with [] => None | b :: bs' => if decide (b = 0) then Some [] else match cstring bs' with Some s => Some (b :: s) | None => None end end.
(** the inode number and name that the program reads through the pointer it gets *)
Definition seen_at (o : nat) (s : dstate) : option (Z * list Z) :=
  match number_at 8 (d_data s) o, cstring (drop (o + 18) (d_data s)) with Some i, Some n => Some (i, n) | _, _ => None end.

(** a program that calls readdir until it gives null: what it sees, errno before and after the last call *)
Inductive listing (fuel : nat) : dstate -> list (Z * list Z) -> Z -> Z -> dstate -> Prop :=
| li_end s s' : readdir fuel s = DNull s' -> listing fuel s [] (d_errno s) (d_errno s') s'
| li_entry s o s' x xs e e' s'' : readdir fuel s = DEntry o s' -> seen_at o s' = Some x -> listing fuel s' xs e e' s'' ->
    listing fuel s (x :: xs) e e' s''.
