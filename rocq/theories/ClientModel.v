(** Programs that use the interpreter's heap: a client keeps every value in a root of the
    collector (a register or a slot of the interpreter's stack), calls the library, looks at the
    answers and decides on the next call.  Collections may run between any two calls. *)
From stdpp Require Import base gmap list.
From Coq Require Import ZArith Lia.
From Verif Require Import CInt Symbols Heap GcModel GcSpec DataModel DataSpec.
Open Scope Z_scope.
Open Scope mes_scope.

(** Where a client keeps a value: the registers R0-R3 (include/mes/mes.h:65-72; src/gc.c:694-705
    saves them in every frame), or entry [k] of the stack counted from its top
    (src/stack.c, g_stack_array[g_stack + k]). *)
Inductive var : Type := VR0 | VR1 | VR2 | VR3 | VStack (k : nat).
Definition get_var (v : var) : M Z :=
  match v with
  | VR0 => gets R0 | VR1 => gets R1 | VR2 => gets R2 | VR3 => gets R3
  | VStack k => g <- gets g_stack ;; stack_get (g + Z.of_nat k)
  end.
Definition put_var (v : var) (x : Z) : M unit :=
  match v with
  | VR0 => modify (set_R0 x) | VR1 => modify (set_R1 x)
  | VR2 => modify (set_R2 x) | VR3 => modify (set_R3 x)
  | VStack k => g <- gets g_stack ;; stack_set (g + Z.of_nat k) x
  end.

(** The library calls.  [d] is where the result goes. *)
Inductive cmd : Type :=
| Cons (d a b : var)                        (* d := (cons a b) *)
| Car (d a : var) | Cdr (d a : var)         (* d := (car a) *)
| SetCar (a b : var) | SetCdr (a b : var)   (* (if (pair? a) (set-car! a b)) *)
| Number (d : var) (n : Z)                  (* d := the number n *)
| Char (d : var) (n : Z)                    (* d := the character n *)
| Str (d : var) (bs : list Z)               (* d := a new string with these bytes *)
| MakeVector (d : var) (k : nat)            (* d := (make-vector k) *)
| VectorSet (a : var) (k : nat) (b : var)   (* (vector-set! a k b) *)
| VectorRef (d a : var) (k : nat)           (* d := (vector-ref a k) *)
| Move (d a : var)                          (* d := a *)
| IsEq (a b : var)                          (* (eq? a b) *)
| Show (a : var).                           (* look at the object itself *)

(** What the client sees of a call. *)
Inductive answer : Type :=
| Fine
| Failed (key : Z)                 (* the call raised an error with this key *)
| NotPair
| Truth (b : bool)
| SeesNumber (n : Z)
| SeesChar (n : Z)
| SeesText (t : Z) (bs : list Z)   (* string, symbol, keyword *)
| SeesArray (t n : Z)              (* vector or struct and its length *)
| SeesType (t : Z).                (* anything else: the type *)

(** The client looks at an object: its type and its own data, not at what it refers to and not at
    its address (mes.h:25-53 struct scm). *)
Definition look (h : gmap Z cell) (p : Z) : answer :=
  match h !! p with
  | None => SeesType TBROKEN_HEART
  | Some c =>
    let t := c_ty c in
    if t =? TNUMBER then SeesNumber (c_cdr c)
    else if t =? TCHAR then SeesChar (c_cdr c)
    else if is_array c then SeesArray t (c_car c)
    else if (t =? TSTRING) || (t =? TSYMBOL) || (t =? TKEYWORD) then
      match h !! c_cdr c with
      | Some b => if c_ty b =? TBYTES then SeesText t (take (Z.to_nat (c_car c)) (c_bytes b)) else SeesType t
      | None => SeesType t
      end
    else SeesType t
  end.

(** an error ends the call, not the client: it sees the key *)
Definition attempt (m : M answer) : M answer := fun s =>
  match m s with RThrow key _ s' => ROk (Failed key) s' | r => r end.

(** One call.  [set_car_x] is given fuel 0: the fuel is for looking up the name of the procedure
    when the argument is not a pair, which the test before it excludes. *)
Definition exec (c : cmd) : M answer :=
  match c with
  | Cons d a b => x <- get_var a ;; y <- get_var b ;; r <- Heap.cons x y ;; put_var d r ;;; ret Fine
  | Car d a => attempt (x <- get_var a ;; r <- DataModel.car x ;; put_var d r ;;; ret Fine)
  | Cdr d a => attempt (x <- get_var a ;; r <- DataModel.cdr x ;; put_var d r ;;; ret Fine)
  | SetCar a b => x <- get_var a ;; y <- get_var b ;; p <- pair_p x ;;
                  if p =? cell_f then ret NotPair else set_car_x 0 x y ;;; ret Fine
  | SetCdr a b => x <- get_var a ;; y <- get_var b ;; p <- pair_p x ;;
                  if p =? cell_f then ret NotPair else set_cdr_x 0 x y ;;; ret Fine
  | Number d n => r <- make_number n ;; put_var d r ;;; ret Fine
  | Char d n => r <- make_char n ;; put_var d r ;;; ret Fine
  | Str d bs => r <- make_string bs ;; put_var d r ;;; ret Fine
  | MakeVector d k => r <- make_vector_ (Z.of_nat k) cell_unspecified ;; put_var d r ;;; ret Fine
  | VectorSet a k b => x <- get_var a ;; y <- get_var b ;; vector_set_x_ x (Z.of_nat k) y ;;; ret Fine
  | VectorRef d a k => x <- get_var a ;; r <- vector_ref_ x (Z.of_nat k) ;; put_var d r ;;; ret Fine
  | Move d a => x <- get_var a ;; put_var d x ;;; ret Fine
  | IsEq a b => x <- get_var a ;; y <- get_var b ;; r <- eq_p x y ;; ret (Truth (negb (r =? cell_f)))
  | Show a => x <- get_var a ;; s <- get ;; ret (look (heap s) x)
  end.

(** A client: the next call may depend on every answer so far. *)
Inductive client : Type := Stop | Do (c : cmd) (k : answer -> client).

(** How a run ends: the client stopped; the interpreter exited with a message (assert_msg); its
    behaviour is undefined. *)
Inductive ending : Type := Stopped | Exited | Undefined.

(** [n] collections (src/gc.c:656-680 gc) in a row *)
Fixpoint collect (n : nat) : M unit := match n with O => ret tt | S n => gc ;;; collect n end.

(** Run a client; [sched] says how many collections happen before each call. *)
Fixpoint run (sched : list nat) (p : client) (s : state) : list answer * ending :=
  match p with
  | Stop => ([], Stopped)
  | Do c k =>
    match collect (hd 0%nat sched) s with
    | ROk _ s1 =>
      match exec c s1 with
      | ROk a s2 => let r := run (tl sched) (k a) s2 in (a :: r.1, r.2)
      | RAbort => ([], Exited)
      | _ => ([], Undefined)
      end
    | RAbort => ([], Exited)
    | _ => ([], Undefined)
    end
  end.

(** * Enough memory *)
(** cells a call takes *)
Definition need (c : cmd) : Z :=
  match c with
  | Str _ bs => 1 + bytes_cells (Z.of_nat (length bs) + 1)
  | MakeVector _ k => 1 + 2 * Z.of_nat k
  | Move _ _ | IsEq _ _ | Show _ | SetCar _ _ | SetCdr _ _ => 0
  | _ => 1
  end.
Definition fits (c : cmd) (s : state) : Prop :=
  can_alloc (need c) s
  /\ match c with Str _ bs => Z.of_nat (length bs) <= MAX_STRING s | _ => True end.
Fixpoint room_to_collect (n : nat) (s : state) : Prop :=
  match n with
  | O => True
  | S n => 5 <= g_stack s /\ has_room s /\ forall s', gc s = ROk tt s' -> room_to_collect n s'
  end.
(** The run never meets the end of the memory: every collection finds five free stack entries for
    its frame and room for the live objects, every call finds the cells it needs. *)
Fixpoint lasts (sched : list nat) (p : client) (s : state) : Prop :=
  match p with
  | Stop => True
  | Do c k =>
    room_to_collect (hd 0%nat sched) s
    /\ forall s1, collect (hd 0%nat sched) s = ROk tt s1 ->
         fits c s1 /\ forall a s2, exec c s1 = ROk a s2 -> lasts (tl sched) (k a) s2
  end.

(** The client uses the stack entries below [n] only. *)
Definition var_ok (n : nat) (v : var) : Prop := match v with VStack k => (k < n)%nat | _ => True end.
Definition vars (c : cmd) : list var :=
  match c with
  | Cons d a b => [d; a; b]
  | Car d a | Cdr d a | Move d a | VectorRef d a _ => [d; a]
  | SetCar a b | SetCdr a b | VectorSet a _ b | IsEq a b => [a; b]
  | Number d _ | Char d _ | Str d _ | MakeVector d _ => [d]
  | Show a => [a]
  end.
Fixpoint within (n : nat) (p : client) : Prop :=
  match p with Stop => True | Do c k => Forall (var_ok n) (vars c) /\ forall a, within n (k a) end.

(** The client makes no string longer than [max] and its calls take at most [N] cells together,
    whatever the answers. *)
Fixpoint costs (N max : Z) (p : client) : Prop :=
  match p with
  | Stop => True
  | Do c k => need c <= N /\ match c with Str _ bs => Z.of_nat (length bs) <= max | _ => True end
              /\ forall a, costs (N - need c) max (k a)
  end.

(** Every keyword has its text (what boot and make_keyword establish); eq? reads it. *)
Definition keywords_sane (s : state) : Prop :=
  forall p c, heap s !! p = Some c -> c_ty c = TKEYWORD ->
    exists b, heap s !! c_cdr c = Some b /\ c_ty b = TBYTES /\ 0 <= c_car c <= Z.of_nat (length (c_bytes b)).
