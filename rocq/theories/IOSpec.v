(** What a program may expect of one open file, said without any buffer: the
    bytes of the file, a position in it, and at most one character pushed back. *)
From stdpp Require Import base list.
From Coq Require Import ZArith.
From Verif Require Import CInt IOModel.
Open Scope Z_scope.

Record view := View {
  v_content : list Z;
  v_pos : Z;
  v_seekable : bool;
  v_pushed : option Z;
}.

(** the bytes from position [p] on *)
Definition from (c : list Z) (p : Z) : list Z := drop (Z.to_nat p) c.

(** what the character functions will deliver: a pushed-back character comes first *)
Definition upcoming (v : view) : list Z :=
  match v_pushed v with Some c => [c] | None => [] end ++ from (v_content v) (v_pos v).

(** the view after the first [k] of the upcoming characters were taken *)
Definition consume (k : Z) (v : view) : view :=
  match v_pushed v with
  | Some _ => if 0 <? k then View (v_content v) (v_pos v + (k - 1)) (v_seekable v) None else v
  | None => View (v_content v) (v_pos v + k) (v_seekable v) None
  end.

(** the first line of [l]: up to and including the first newline, [n] characters at most *)
Fixpoint line (n : nat) (l : list Z) : list Z :=
  match n, l with
  | S n', c :: l' => c :: (if c =? 10 then [] else line n' l')
  | _, _ => []
  end.

(** where a seek leads *)
Definition target (v : view) (off whence : Z) : Z :=
  (if whence =? 0 then 0 else if whence =? 1 then v_pos v else Z.of_nat (length (v_content v))) + off.

(** the calls a program may make: no second push-back, and no seek to before the
    start of the file; see C29_second_pushback_refuted, C29_failed_seek_refuted *)
Definition permitted (v : view) (o : op) : Prop :=
  match o with
  | Read n => 0 <= n
  | Getc => True
  | Ungetc c => c = -1 \/ v_pushed v = None /\ 0 <= c <= 255
  | Gets n => 0 < n
  | Fread a b => 0 <= a /\ 0 <= b /\ a * b <= INT_MAX
  | Seek off w => v_seekable v = true -> 0 <= w <= 2 /\ 0 <= target v off w
  | Write bs => v_seekable v = true /\ Z.of_nat (length bs) <= INT_MAX /\ Forall (fun b => 0 <= b <= 255) bs
  end.

(** what the call may answer, and the view after it *)
Inductive allowed (v : view) : op -> Z * list Z -> view -> Prop :=
(** some of the next bytes, in order; none only at the end of the file *)
| allow_read n k :
    0 <= k <= n ->
    k <= Z.of_nat (length (from (v_content v) (v_pos v))) ->
    (k = 0 -> n = 0 \/ from (v_content v) (v_pos v) = []) ->
    allowed v (Read n) (k, take (Z.to_nat k) (from (v_content v) (v_pos v)))
            (View (v_content v) (v_pos v + k) (v_seekable v) (v_pushed v))
| allow_getc c l :
    upcoming v = c :: l -> allowed v Getc (c, []) (consume 1 v)
| allow_getc_eof :
    upcoming v = [] -> allowed v Getc (-1, []) v
| allow_ungetc c :
    c <> -1 ->
    allowed v (Ungetc c) (c, []) (View (v_content v) (v_pos v) (v_seekable v) (Some c))
| allow_ungetc_eof :
    allowed v (Ungetc (-1)) (-1, []) v
| allow_gets n t :
    t = line (Z.to_nat (n - 1)) (upcoming v) ->
    n = 1 \/ t <> [] ->
    allowed v (Gets n) (1, t) (consume (Z.of_nat (length t)) v)
| allow_gets_eof n :
    1 < n -> upcoming v = [] -> allowed v (Gets n) (0, []) v
(** up to [a * b] of the upcoming characters; the pushed-back one alone only if it was all
    that was asked for or all there is *)
| allow_fread a b k :
    0 <= k <= a * b ->
    k <= Z.of_nat (length (upcoming v)) ->
    (k = 0 -> a * b = 0 \/ upcoming v = []) ->
    (k = 1 -> v_pushed v <> None -> a * b = 1 \/ from (v_content v) (v_pos v) = []) ->
    allowed v (Fread a b) (if a =? 0 then 0 else k / a, take (Z.to_nat k) (upcoming v)) (consume k v)
| allow_seek off w :
    v_seekable v = true ->
    allowed v (Seek off w) (target v off w, []) (View (v_content v) (target v off w) true (v_pushed v))
| allow_seek_pipe off w :
    v_seekable v = false -> allowed v (Seek off w) (-1, []) v
(** some of the bytes replace those at the position *)
| allow_write bs k :
    0 <= k <= Z.of_nat (length bs) ->
    (k = 0 -> bs = []) ->
    allowed v (Write bs) (k, [])
            (View (overwrite (v_content v) (v_pos v) (take (Z.to_nat k) bs)) (v_pos v + k) true (v_pushed v)).

(** every call of the sequence is permitted, whatever the calls before it answered *)
Fixpoint safe (v : view) (l : list op) : Prop :=
  match l with
  | [] => True
  | o :: l' => permitted v o /\ forall r v', allowed v o r v' -> safe v' l'
  end.

(** a sequence of allowed answers *)
Inductive answers : view -> list op -> list (Z * list Z) -> view -> Prop :=
| answers_nil v : answers v [] [] v
| answers_cons v o l r v' rs v'' :
    allowed v o r v' -> answers v' l rs v'' -> answers v (o :: l) (r :: rs) v''.
