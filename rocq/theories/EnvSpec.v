(** The environment as a program sees it: a finite map from names to values. *)
From stdpp Require Import base gmap list.
From Coq Require Import ZArith.
From Verif Require Import LibSpec AllocModel AllocSpec.
Open Scope Z_scope.

(** the name and the value an entry [name=value] stands for; 61 is '=' *)
Fixpoint split (t : list Z) : option (list Z * list Z) :=
  match t with
  | [] => None
  | c :: t' =>
      if c =? 61 then Some ([], t')
      else match split t' with Some (n, v) => Some (c :: n, v) | None => None end
  end.

(** the map a list of entries stands for; of two entries for a name the first counts *)
Fixpoint env_of (E : list (list Z)) : gmap (list Z) (list Z) :=
  match E with
  | [] => ∅
  | t :: E' => match split t with Some (n, v) => <[n := v]> (env_of E') | None => env_of E' end
  end.

(** no two entries for the same name *)
Definition distinct (E : list (list Z)) : Prop :=
  forall i j t u n v w, E !! i = Some t -> E !! j = Some u ->
    split t = Some (n, v) -> split u = Some (n, w) -> i = j.

(** names: not empty, no '=' *)
Definition good_name (n : list Z) : Prop := n <> [] /\ 61 ∉ n.

(** what a program asks for, and its effect on the map *)
Inductive request := Set_ (n v : list Z) | Unset (n : list Z).
Definition apply (r : request) (M : gmap (list Z) (list Z)) : gmap (list Z) (list Z) :=
  match r with Set_ n v => <[n := v]> M | Unset n => delete n M end.
Definition apply_all (rs : list request) (M : gmap (list Z) (list Z)) : gmap (list Z) (list Z) :=
  foldl (fun M r => apply r M) M rs.

Section Env.
Context (page kstart limit : Z).

(** the string at [s] is [t], shorter than [bound], and not in memory that is still
    to be allocated *)
Definition text_at (p : proc) (bound : nat) (s : Z) (t : list Z) : Prop :=
  0 < s /\ cstr (pmem p) s t /\ (length t < bound)%nat /\
  (s + Z.of_nat (length t) + 1 <= cur p \/ page_up page limit <= s).

(** the call [o] asks for [r]; the new entry is shorter than [bound] too *)
Definition asks (p : proc) (bound : nat) (o : eop) (r : request) : Prop :=
  match o, r with
  | Setenv s v _, Set_ n x => text_at p bound s n /\ text_at p bound v x /\ good_name n /\ (length n + length x + 1 < bound)%nat
  | Unsetenv s, Unset n => text_at p bound s n /\ good_name n
  | _, _ => False
  end.

(** the entries [E] are the environment of the process, with [spare] unused slots after
    the null pointer that ends it *)
Definition environment (p : proc) (bound : nat) (E : list (list Z)) (spare : nat) : Prop :=
  exists qs rest, slots p = qs ++ 0 :: rest /\ length rest = spare /\
    Forall2 (text_at p bound) qs E.

(** there is memory for the new entries, and none of them ends exactly with a page; see
    C30_overrun_refuted *)
Fixpoint fits (b : Z) (rs : list request) : Prop :=
  match rs with
  | [] => True
  | Set_ n v :: rs' =>
      let e := (b + 7) / 8 * 8 + Z.of_nat (length n) + Z.of_nat (length v) + 2 in
      e <= limit /\ e mod page <> 0 /\ fits e rs'
  | Unset _ :: rs' => fits b rs'
  end.
End Env.

Definition sets (rs : list request) : nat :=
  length (List.filter (fun r => match r with Set_ _ _ => true | Unset _ => false end) rs).
