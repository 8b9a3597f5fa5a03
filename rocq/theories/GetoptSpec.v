(** What a command line means.  Independent of the code of getopt. *)
From stdpp Require Import base list.
From Coq Require Import ZArith.
From Verif Require Import CInt GetoptModel.
Open Scope Z_scope.

(** what the option string says about a character: not an option, an option without argument, with
    an argument, with an argument that may be missing *)
Inductive kind : Type := Unknown | Plain | Needs | May.
(** the text after the first [c] in [os] *)
Fixpoint after (c : Z) (os : list Z) : option (list Z) :=
  match os with [] => None | x :: os' => if decide (x = c) then Some os' else after c os' end.
Definition kind_of (os : list Z) (c : Z) : kind :=
  if decide (c = COLON) then Unknown else
  match after c os with
  | None => Unknown
  | Some (x :: y :: _) => if decide (x = COLON) then if decide (y = COLON) then May else Needs else Plain
  | Some [x] => if decide (x = COLON) then Needs else Plain
  | Some [] => Plain
  end.

(** one answer to the program: the value returned, the argument of the option, for a long option
    its index, and the variable it sets *)
Record event : Type := Ev { e_code : Z; e_arg : option (list Z); e_long : option nat; e_flag : option (Z * Z) }.
Definition bad : event := Ev QUESTION None None None.
Definition short (c : Z) (arg : option (list Z)) : event := Ev (to_schar c) arg None None.
Definition long (i : nat) (p : lopt) (arg : option (list Z)) : event :=
  match lo_flag p with Some q => Ev 0 arg (Some i) (Some (q, lo_val p)) | None => Ev (lo_val p) arg (Some i) None end.

(** [--name] or [--name=value]: [b] is the text after the dashes *)
Definition long_text (b name : list Z) (value : option (list Z)) : Prop :=
  EQUALS ∉ name /\ b = name ++ match value with Some v => EQUALS :: v | None => [] end.
(** option number [i] is called [name]; no earlier one is *)
Definition is_exact (opts : list lopt) (name : list Z) (i : nat) (p : lopt) : Prop :=
  opts !! i = Some p /\ lo_name p = name /\ forall j q, (j < i)%nat -> opts !! j = Some q -> lo_name q <> name.
(** the name of option number [i] begins with [name] *)
Definition is_abbrev (opts : list lopt) (name : list Z) (i : nat) (p : lopt) : Prop :=
  opts !! i = Some p /\ name `prefix_of` lo_name p.
(** the option meant: the exact match, or the only one it abbreviates *)
Definition means (opts : list lopt) (name : list Z) (i : nat) (p : lopt) : Prop :=
  is_exact opts name i p \/
  (forall j q, ~ is_exact opts name j q) /\ is_abbrev opts name i p /\ forall j q, is_abbrev opts name j q -> j = i.
Definition no_meaning (opts : list lopt) (name : list Z) : Prop := forall i p, ~ means opts name i p.

(** [gives os lo args evs rest]: the arguments [args] consist of options that give the answers
    [evs], followed by the arguments [rest], which begin with one that is not an option.  [lo] is
    the table of long options if there is one *)
Section spec.
Context (os : list Z) (lo : option (list lopt)).
Definition is_long (a : list Z) : Prop := exists opts b, lo = Some opts /\ a = MINUS :: MINUS :: b.
Inductive gives : list (list Z) -> list event -> list (list Z) -> Prop :=
| g_end : gives [] [] []
| g_stop a args : (forall c cs, a <> MINUS :: c :: cs) -> gives (a :: args) [] (a :: args)
| g_short c cs args evs rest : ~ is_long (MINUS :: c :: cs) -> cluster (c :: cs) args evs rest ->
    gives ((MINUS :: c :: cs) :: args) evs rest
| g_long_bad opts b name value args evs rest : lo = Some opts -> long_text b name value -> no_meaning opts name ->
    gives args evs rest -> gives ((MINUS :: MINUS :: b) :: args) (bad :: evs) rest
| g_long_value opts b name v i p args evs rest : lo = Some opts -> long_text b name (Some v) -> means opts name i p ->
    lo_has_arg p <> 0 -> gives args evs rest ->
    gives ((MINUS :: MINUS :: b) :: args) (long i p (Some v) :: evs) rest
| g_long_no_value opts b name v i p args evs rest : lo = Some opts -> long_text b name (Some v) -> means opts name i p ->
    lo_has_arg p = 0 -> gives args evs rest -> gives ((MINUS :: MINUS :: b) :: args) (bad :: evs) rest
| g_long_next opts b name i p v args evs rest : lo = Some opts -> long_text b name None -> means opts name i p ->
    lo_has_arg p = 1 -> gives args evs rest ->
    gives ((MINUS :: MINUS :: b) :: v :: args) (long i p (Some v) :: evs) rest
| g_long_missing opts b name i p : lo = Some opts -> long_text b name None -> means opts name i p ->
    lo_has_arg p = 1 -> gives [MINUS :: MINUS :: b] [bad] []
| g_long_plain opts b name i p args evs rest : lo = Some opts -> long_text b name None -> means opts name i p ->
    lo_has_arg p <> 1 -> gives args evs rest ->
    gives ((MINUS :: MINUS :: b) :: args) (long i p None :: evs) rest
(** the option characters of one argument *)
with cluster : list Z -> list (list Z) -> list event -> list (list Z) -> Prop :=
| c_end args evs rest : gives args evs rest -> cluster [] args evs rest
| c_bad c cs args evs rest : kind_of os c = Unknown -> cluster cs args evs rest -> cluster (c :: cs) args (bad :: evs) rest
| c_plain c cs args evs rest : kind_of os c = Plain -> cluster cs args evs rest -> cluster (c :: cs) args (short c None :: evs) rest
| c_text c cs args evs rest : kind_of os c = Needs \/ kind_of os c = May -> cs <> [] -> gives args evs rest ->
    cluster (c :: cs) args (short c (Some cs) :: evs) rest
| c_none c args evs rest : kind_of os c = May -> gives args evs rest -> cluster [c] args (short c None :: evs) rest
| c_next c a args evs rest : kind_of os c = Needs -> gives args evs rest -> cluster [c] (a :: args) (short c (Some a) :: evs) rest
| c_missing c : kind_of os c = Needs -> cluster [c] [] [bad] [].
End spec.

(** A program that calls getopt until it returns EOF, and looks at the argument after each call. *)
Inductive scan (get : gstate -> gres) (argv : list (list Z)) : gstate -> list event -> gstate -> Prop :=
| scan_end s l f s' : get s = GRet EOF l f s' -> scan get argv s [] s'
| scan_event s c l f s' evs s'' arg : get s = GRet c l f s' -> c <> EOF ->
    arg = match optarg s' with Some (i, o) => match argv !! i with Some a => Some (drop o a) | None => None end | None => None end ->
    scan get argv s' evs s'' -> scan get argv s (Ev c arg l f :: evs) s''.
