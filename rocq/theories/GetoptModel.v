(** Command line parsing, /repo/lib/posix/getopt.c.
    Strings are lists of bytes without the terminating NUL; [argv] is a list of strings.
    A [char *] into [argv] is the index of the string and an offset; reading the byte at the
    offset of the NUL gives 0, reading further is undefined.  The texts printed to stderr are left
    out.  [strchr], [strlen] and [strncmp] are replaced by what they compute (see C27). Counts and
    indexes are natural numbers: they are bounded by [argc], an [int]. *)
From stdpp Require Import base list.
From Coq Require Import ZArith.
From Verif Require Import CInt.
Open Scope Z_scope.

Notation text := (list Z) (only parsing).
Definition MINUS : Z := 45.  (* '-' *)
Definition COLON : Z := 58.  (* ':' *)
Definition EQUALS : Z := 61. (* '=' *)
Definition QUESTION : Z := 63. (* '?' *)
Definition EOF : Z := -1.

(** include/getopt.h:39-45 struct option; [flag] is the address of an int *)
Record lopt : Type := Lopt { lo_name : list Z; lo_has_arg : Z; lo_flag : option Z; lo_val : Z }.

(** the variables of lib/posix/getopt.c:31-69 *)
Record gstate : Type := Gs {
  optind : nat; nextchar : option (nat * nat); first_nonopt : nat; last_nonopt : nat; optarg : option (nat * nat) }.
Definition init_gstate : gstate := Gs 0 None 0 0 None.

(** what a call does: returns a value, with what it stored through [longind] and through the
    [flag] of the option; or undefined behaviour *)
Inductive gres : Type :=
| GRet (code : Z) (longind : option nat) (flag : option (Z * Z)) (s : gstate)
| GUB.

(** [s[i]] *)
Definition char_at (s : text) (i : nat) : option Z :=
  if (i <? length s)%nat then s !! i else if (i =? length s)%nat then Some 0 else None.
(** [strchr (s, c)] for [c] other than NUL: the offset *)
Fixpoint find_char (c : Z) (s : text) : option nat :=
  match s with [] => None | x :: s' => if x =? c then Some 0%nat else match find_char c s' with Some i => Some (S i) | None => None end end.
(** the number of bytes before the first '=' or the NUL: getopt.c:182-183 *)
Fixpoint name_len (s : text) : nat :=
  match s with [] => 0%nat | x :: s' => if x =? EQUALS then 0%nat else S (name_len s') end.

(** getopt.c:186-206: the loop over the long options.  [s] is the text from [nextchar], [n] is
    [s - nextchar]; the result is [pfound] with its index, [exact] and [ambig] *)
Fixpoint long_loop (opts : list lopt) (i : nat) (s : text) (n : nat) (pfound : option (nat * lopt)) (ambig : bool)
  : option (nat * lopt) * bool * bool :=
  match opts with
  | [] => (pfound, false, ambig)
  | p :: opts' =>
      if decide (take n (lo_name p) = take n s) then
        if (n =? length (lo_name p))%nat then (Some (i, p), true, ambig)
        else match pfound with
             | None => long_loop opts' (S i) s n (Some (i, p)) ambig
             | Some _ => long_loop opts' (S i) s n pfound true
             end
      else long_loop opts' (S i) s n pfound ambig
  end.

Section getopt.
Context (argv : list (list Z)) (optstring : list Z) (longopts : option (list lopt)) (long_only : bool).
Notation argc := (length argv).

(** getopt.c:288-347: the next option character, which is at offset [o] of [argv[i]] *)
Definition short_option (s : gstate) (i o : nat) : gres :=
  match argv !! i with
  | None => GUB
  | Some a =>
  match char_at a o with
  | None => GUB
  | Some c =>
      (* c = *nextchar++ *)
      match char_at a (S o) with
      | None => GUB
      | Some next =>
          let temp := find_char c optstring in
          let ind := if next =? 0 then S (optind s) else optind s in
          let ret code ind next arg := GRet code None None (Gs ind next (first_nonopt s) (last_nonopt s) arg) in
          match temp with
          | None => ret QUESTION ind (Some (i, S o)) (optarg s)
          | Some t =>
              if c =? COLON then ret QUESTION ind (Some (i, S o)) (optarg s)
              else if decide (optstring !! S t = Some COLON) then
                if decide (optstring !! S (S t) = Some COLON) then
                  if negb (next =? 0) then ret (to_schar c) (S ind) None (Some (i, S o))
                  else ret (to_schar c) ind None None
                else
                  if negb (next =? 0) then ret (to_schar c) (S ind) None (Some (i, S o))
                  else if (ind =? argc)%nat then ret QUESTION ind None (optarg s)
                  else ret (to_schar c) (S ind) None (Some (ind, 0%nat))
              else ret (to_schar c) ind (Some (i, S o)) (optarg s)
          end
      end
  end end.

(** getopt.c:173-286: a long option; [None] if the argument is to be read as short options *)
Definition long_option (opts : list lopt) (s : gstate) (i o : nat) : option gres :=
  match argv !! i with
  | None => Some GUB
  | Some a =>
      let rest := drop o a in
      let n := name_len rest in
      let done_ := Some (i, length a) in    (* nextchar += strlen (nextchar) *)
      let ret code ind arg := Some (GRet code None None (Gs ind done_ (first_nonopt s) (last_nonopt s) arg)) in
      let '(pfound, exact, ambig) := long_loop opts 0 rest n None false in
      if ambig && negb exact then ret QUESTION (S (optind s)) (optarg s)
      else match pfound with
      | Some (idx, p) =>
          let ind := S (optind s) in
          let fin ind arg :=
            Some (match lo_flag p with
                  | Some q => GRet 0 (Some idx) (Some (q, lo_val p)) (Gs ind done_ (first_nonopt s) (last_nonopt s) arg)
                  | None => GRet (lo_val p) (Some idx) None (Gs ind done_ (first_nonopt s) (last_nonopt s) arg)
                  end) in
          if (n <? length rest)%nat then (* *s is '=' *)
            if negb (lo_has_arg p =? 0) then fin ind (Some (i, (o + n + 1)%nat))
            else ret QUESTION ind (optarg s)
          else if lo_has_arg p =? 1 then
            if (ind <? argc)%nat then fin (S ind) (Some (ind, 0%nat))
            else ret QUESTION ind (optarg s)
          else fin ind (optarg s)
      | None =>
          (* the byte at nextchar; not looked at unless long_only *)
          match argv !! optind s with
          | None => Some GUB
          | Some b =>
              if negb long_only || bool_decide (char_at b 1 = Some MINUS) then ret QUESTION (S (optind s)) (optarg s)
              else match char_at a o with
                   | None => Some GUB
                   | Some c => if decide (c = 0) then None
                               else match find_char c optstring with None => ret QUESTION (S (optind s)) (optarg s) | Some _ => None end
                   end
          end
      end
  end.

(** getopt.c:127-348 _getopt_internal *)
Definition getopt_internal (s : gstate) : gres :=
  let s := Gs (optind s) (nextchar s) (first_nonopt s) (last_nonopt s) None in
  let s := if (optind s =? 0)%nat then Gs 1 None 1 1 None else s in
  (* getopt.c:147-171: is there an element being scanned? *)
  let fresh := match nextchar s with
               | None => Some true
               | Some (i, o) => match argv !! i with Some a => match char_at a o with Some c => Some (c =? 0) | None => None end | None => None end
               end in
  let continue_ s i o :=
    match argv !! optind s with
    | None => GUB
    | Some b =>
        match longopts with
        | Some opts =>
            if bool_decide (char_at b 0 = Some MINUS) && (bool_decide (char_at b 1 = Some MINUS) || long_only)
            then match long_option opts s i o with Some r => r | None => short_option s i o end
            else short_option s i o
        | None => short_option s i o
        end
    end in
  match fresh with
  | None => GUB
  | Some false => match nextchar s with Some (i, o) => continue_ s i o | None => GUB end
  | Some true =>
      if (optind s =? argc)%nat then
        GRet EOF None None (Gs (if (first_nonopt s =? last_nonopt s)%nat then optind s else first_nonopt s) (nextchar s) (first_nonopt s) (last_nonopt s) None)
      else match argv !! optind s with
      | None => GUB
      | Some a =>
          if negb (bool_decide (char_at a 0 = Some MINUS)) then GRet EOF None None s
          else match char_at a 1 with
          | None => GUB
          | Some c1 =>
              if c1 =? 0 then GRet EOF None None s
              else
                let o := if bool_decide (is_Some longopts) && (c1 =? MINUS) then 2%nat else 1%nat in
                continue_ (Gs (optind s) (Some (optind s, o)) (first_nonopt s) (last_nonopt s) None) (optind s) o
          end
      end
  end.
End getopt.

(** getopt.c:350-354 *)
Definition getopt (argv : list (list Z)) (options : list Z) : gstate -> gres := getopt_internal argv options None false.
(** getopt.c:356-361 *)
Definition getopt_long (argv : list (list Z)) (options : list Z) (opts : list lopt) : gstate -> gres := getopt_internal argv options (Some opts) false.
(** getopt.c:363-368 *)
Definition getopt_long_only (argv : list (list Z)) (options : list Z) (opts : list lopt) : gstate -> gres := getopt_internal argv options (Some opts) true.
