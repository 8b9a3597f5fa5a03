(** The evaluator: src/eval-apply.c.

    eval_apply (lines 331-978) is one C function made of labels and gotos.  The model has one
    constructor of [label] for each C label (and a few for the points behind a gc_check, so
    that a collection is always the first thing a step does), and a function [step] that runs
    the code from one label to the next goto.  C locals that are live across labels are
    parameters of the labels ([x] of the begin loops) or of the machine ([global_p], [macro_p]);
    all others are assigned before use on every path from a label.

    Parameters of the section: the collector called by gc_check, the C functions behind the
    builtin procedures (called through a function pointer), and reading a program from a file.
    Not modelled: the text check_formals and check_apply print on stderr before they signal
    the error, and the module dump for g_debug > 5. *)
From stdpp Require Import base gmap list.
From Coq Require Import ZArith Lia.
From Verif Require Import CInt Symbols Heap DataModel.
Import Strings.String.StringSyntax.
Open Scope Z_scope.
Open Scope mes_scope.

(** src/builtins.c:55-81 builtin_arity, builtin_function, builtin_p *)
Definition builtin_arity (builtin : Z) : M Z := struct_ref_ builtin 4.
Definition builtin_function (builtin : Z) : M Z := x <- struct_ref_ builtin 5 ;; cdr_of x.
Definition builtin_p (x : Z) : M Z :=
  t <- ty x ;;
  if t =? TSTRUCT then
    r <- struct_ref_ x 2 ;; ret (if r =? cell_symbol_builtin then cell_t else cell_f)
  else ret cell_f.

(** src/eval-apply.c:27-33 assert_defined *)
Definition assert_defined (x e : Z) : M Z :=
  if e =? cell_undefined then error cell_symbol_unbound_variable x else ret e.

(** src/eval-apply.c:35-57 check_formals *)
Definition check_formals (fuel : nat) (f formals args : Z) : M unit :=
  t <- ty formals ;;
  flen <- (if t =? TNUMBER then cdr_of formals else length__ fuel formals) ;;
  alen <- length__ fuel args ;;
  if negb (alen =? flen) && negb (alen =? -1) && negb (flen =? -1) then
    e <- make_string0 (bytes_of "apply: wrong number of arguments; expected: ") ;;
    x <- cons e f ;;
    error cell_symbol_wrong_number_of_args x
  else ret tt.

(** src/eval-apply.c:59-94 check_apply; the tests only compute the text of the message *)
Definition check_apply (f : Z) : M unit :=
  t <- ty f ;;
  b <- (if t =? TSTRUCT then b <- builtin_p f ;; ret (b =? cell_f) else ret false) ;;
  if (f =? cell_f) || (f =? cell_t) || (f =? cell_nil) || (f =? cell_unspecified)
     || (f =? cell_undefined) || (t =? TCHAR) || (t =? TNUMBER) || (t =? TSTRING) || b
     || (t =? TBROKEN_HEART)
  then
    e <- make_string0 (bytes_of "cannot apply: ") ;;
    x <- cons e f ;;
    error cell_symbol_wrong_type_arg x
  else ret tt.

(** src/eval-apply.c:96-104 pairlis.  The arguments of the C call [cons (cons (car (x), car (y)),
    pairlis (...))] are evaluated in an unspecified order; the model makes the entry first. *)
Fixpoint pairlis (fuel : nat) (x y a : Z) : M Z :=
  if x =? cell_nil then ret a else
  t <- ty x ;;
  if negb (t =? TPAIR) then e <- cons x y ;; cons e a else
  match fuel with
  | O => out_of_fuel
  | S fuel' =>
      xa <- car x ;; ya <- car y ;; e <- cons xa ya ;;
      xd <- cdr x ;; yd <- cdr y ;; r <- pairlis fuel' xd yd a ;;
      cons e r
  end.

(** src/eval-apply.c:124-135 set_env_x *)
Definition set_env_x (fuel : nat) (x e a : Z) : M Z :=
  cx <- rd x ;;
  p <- (if c_ty cx =? TVARIABLE then ret (c_car cx)
        else v <- module_variable fuel a x ;; assert_defined x v) ;;
  t <- ty p ;;
  (if t =? TPAIR then ret tt else y <- cons p x ;; error cell_symbol_not_a_pair y) ;;;
  set_cdr_x fuel p e.

(** src/eval-apply.c:137-144 call_lambda *)
Definition call_lambda (e x : Z) : M unit :=
  m <- cons cell_closure x ;;
  cl <- cons m x ;;
  modify (set_R1 e) ;;; modify (set_R0 cl).

(** src/eval-apply.c:146-150 make_closure_ (inner calls of cons from left to right) *)
Definition make_closure_ (args body a : Z) : M Z :=
  c <- cons cell_circular a ;; l <- cons args body ;; d <- cons c l ;;
  make_cell TCLOSURE cell_f d.

(** src/eval-apply.c:152-156 make_variable_ *)
Definition make_variable_ (var : Z) : M Z := make_cell TVARIABLE var 0.

(** src/eval-apply.c:158-182 macro_get_handle, get_macro, macro_set_x *)
Definition macro_get_handle (fuel : nat) (name : Z) : M Z :=
  t <- ty name ;;
  if t =? TSYMBOL then
    g <- gets g_macros ;; hashq_get_handle fuel g name cell_nil
  else ret cell_f.
Definition get_macro (fuel : nat) (name : Z) : M Z :=
  m <- macro_get_handle fuel name ;;
  if m =? cell_f then ret cell_f else d <- cdr_of m ;; car_of d.
Definition macro_set_x (name value : Z) : M Z :=
  g <- gets g_macros ;; hashq_set_x g name value.

(** src/eval-apply.c:184-195 push_cc *)
Definition push_cc (p1 p2 a c : Z) : M unit :=
  x <- gets R3 ;;
  modify (set_R3 c) ;;; modify (set_R2 p2) ;;;
  gc_push_frame ;;;
  modify (set_R1 p1) ;;; modify (set_R0 a) ;;; modify (set_R3 x).

(** src/eval-apply.c:197-208 add_formals *)
Fixpoint add_formals (fuel : nat) (formals x : Z) : M Z :=
  c <- rd x ;;
  if c_ty c =? TPAIR then
    match fuel with
    | O => out_of_fuel
    | S fuel' =>
        f <- cons (c_car c) formals ;; d <- cdr_of x ;; add_formals fuel' f d
    end
  else if c_ty c =? TSYMBOL then cons x formals
  else ret formals.

(** src/eval-apply.c:210-230 formal_p: a formal, or the symbol ending a dotted list of formals *)
Fixpoint formal_p (fuel : nat) (x formals : Z) : M bool :=
  c <- rd formals ;;
  if c_ty c =? TSYMBOL then ret (x =? formals) else
  if c_ty c =? TPAIR then
    if c_car c =? x then ret true else
    match fuel with
    | O => out_of_fuel
    | S fuel' => formal_p fuel' x (c_cdr c)
    end
  else ret false.

(** src/eval-apply.c:232-293 expand_variable_: replace the symbols that have a binding now by a
    direct reference to it, in place.  One unit of fuel for each pair visited. *)
Fixpoint expand_variable_ (fuel fuel0 : nat) (x formals : Z) (top_p : bool) : M unit :=
  tx <- ty x ;;
  if negb (tx =? TPAIR) then ret tt else
  match fuel with
  | O => out_of_fuel
  | S fuel' =>
      a <- car_of x ;;
      ca <- rd a ;;
      if c_ty ca =? TPAIR then
        formals <- (if (c_car ca =? cell_symbol_lambda) || (c_car ca =? cell_symbol_define)
                       || (c_car ca =? cell_symbol_define_macro)
                    then d <- cdr_of a ;; f <- car_of d ;; add_formals fuel0 formals f
                    else ret formals) ;;
        (if c_car ca =? cell_symbol_quote then ret tt
         else expand_variable_ fuel' fuel0 a formals false) ;;;
        x <- cdr_of x ;;
        expand_variable_ fuel' fuel0 x formals false
      else if a =? cell_symbol_lambda then
        d <- cdr_of x ;; f <- car_of d ;; formals <- add_formals fuel0 formals f ;;
        x <- cdr_of d ;;
        expand_variable_ fuel' fuel0 x formals false
      else if (a =? cell_symbol_define) || (a =? cell_symbol_define_macro) then
        d <- cdr_of x ;; f <- car_of d ;;
        tf <- ty f ;;
        f <- (if top_p && (tf =? TPAIR) then cdr_of f else ret f) ;;
        formals <- add_formals fuel0 formals f ;;
        x <- cdr_of d ;;
        expand_variable_ fuel' fuel0 x formals false
      else if a =? cell_symbol_quote then ret tt
      else
        b <- (if (c_ty ca =? TSYMBOL) && negb (a =? cell_symbol_boot_module)
                 && negb (a =? cell_symbol_current_module) && negb (a =? cell_symbol_primitive_load)
              then b <- formal_p fuel0 a formals ;; ret (negb b) else ret false) ;;
        (if b : bool then
           r0 <- gets R0 ;;
           v <- module_variable fuel0 r0 a ;;
           if v =? cell_f then ret tt else w <- make_variable_ v ;; set_car x w
         else ret tt) ;;;
        x <- cdr_of x ;;
        expand_variable_ fuel' fuel0 x formals false
  end.
(** src/eval-apply.c:295-299 expand_variable *)
Definition expand_variable (fuel : nat) (x formals : Z) : M unit :=
  expand_variable_ fuel fuel x formals true.

(** The labels of eval_apply. *)
Inductive label : Type :=
| L_eval_apply                              (* line 356: dispatch on R3 *)
| L_evlis | L_evlis2 | L_evlis3             (* 429, 436, 439 *)
| L_apply | L_apply2                        (* 443, 541 *)
| L_eval | L_eval_pmatch_car | L_eval_pmatch_cdr | L_eval_set_x   (* 546, 555, 565, 594 *)
| L_eval_macro_expand_eval | L_eval_macro_expand_expand           (* 602, 605 *)
| L_eval_define                             (* 657 *)
| L_eval_operator                           (* 686: gc_check (); goto eval *)
| L_eval_check_func | L_eval2               (* 688, 691 *)
| L_macro_expand | L_macro_expand_lambda | L_macro_expand_define  (* 720, 728, 749 *)
| L_macro_expand_define_macro | L_macro_expand_set_x              (* 756, 766 *)
| L_macro_expand_car | L_macro_expand_cdr                         (* 802, 811 *)
| L_begin | L_begin_while (x : Z) | L_begin_body | L_begin_round   (* 817, 819, 821: gc_check, 822 *)
| L_begin_primitive_load | L_begin_eval                           (* 829, 851 *)
| L_begin_expand | L_begin_expand_loop (x : Z) | L_begin_expand_while | L_begin_expand_round  (* 859, 861, 864: gc_check, 866 *)
| L_begin_expand_primitive_load | L_begin_expand_macro | L_begin_expand_eval (* 876, 908, 920 *)
| L_vm_if | L_if_expr                       (* 927, 930 *)
| L_call_with_current_continuation | L_call_with_current_continuation2 (* 946, 957 *)
| L_call_with_values | L_call_with_values2  (* 964, 967 *)
| L_vm_return.                              (* 973 *)

(** the C locals that stay live between labels *)
Record locals := Locals { global_p : bool; macro_p : bool }.

(** where control goes next: another label, or out of eval_apply with a value *)
Inductive next : Type := Goto (l : label) (v : locals) | Return (x : Z).

Section evaluator.
(** gc_check (src/gc.c:595), the C functions behind builtins by number, and lines 876-903: read
    the program that the value of (primitive-load x) stands for *)
Context (gc_check : M unit) (prim : Z -> list Z -> M Z) (load_program : Z -> M Z) (fuel : nat).

(** src/eval-apply.c:301-329 apply_builtin, with apply_builtin0-3 (src/builtins.c:292-330):
    called through the pointer stored in the builtin's structure *)
Definition apply_builtin (fn x : Z) : M Z :=
  a <- builtin_arity fn ;;
  n <- cdr_of a ;;
  let arity := to_s32 n in
  x <- (if ((arity >? 0) || (arity =? -1)) && negb (x =? cell_nil) then
          a <- car_of x ;; ta <- ty a ;;
          if ta =? TVALUES then
            d <- cdr_of a ;; v <- car_of d ;; xd <- cdr_of x ;; cons v xd
          else ret x
        else ret x) ;;
  x <- (if ((arity >? 1) || (arity =? -1)) && negb (x =? cell_nil) then
          a <- car_of x ;; d <- cdr_of x ;; td <- ty d ;;
          if td =? TPAIR then
            da <- car_of d ;; tda <- ty da ;;
            if tda =? TVALUES then
              dd <- cdr_of da ;; v <- car_of dd ;; e <- cons v d ;; cons a e
            else ret x
          else ret x
        else ret x) ;;
  if arity =? 0 then f <- builtin_function fn ;; prim f []
  else if arity =? 1 then
    a <- car_of x ;; f <- builtin_function fn ;; prim f [a]
  else if arity =? 2 then
    a <- car_of x ;; d <- cdr_of x ;; b <- car_of d ;; f <- builtin_function fn ;; prim f [a; b]
  else if arity =? 3 then
    a <- car_of x ;; d <- cdr_of x ;; b <- car_of d ;; dd <- cdr_of d ;; c <- car_of dd ;;
    f <- builtin_function fn ;; prim f [a; b; c]
  else if arity =? -1 then f <- builtin_function fn ;; prim f [x]
  else ret cell_unspecified.

(** src/eval-apply.c:950-953 and 958-961: the interpreter's stack as a vector *)
Fixpoint save_stack (n : nat) (v i g : Z) : M unit :=
  match n with
  | O => ret tt
  | S n' => e <- stack_get (g + i) ;; vector_set_x_ v i e ;;; save_stack n' v (i + 1) g
  end.
Definition stack_to_vector : M Z :=
  s <- get ;;
  v <- make_vector_ (STACK_SIZE s - g_stack s) cell_unspecified ;;
  save_stack (Z.to_nat (STACK_SIZE s - g_stack s)) v 0 (g_stack s) ;;;
  ret v.
(** 482-484: the stack from a vector *)
Fixpoint load_stack (n : nat) (v i g : Z) : M unit :=
  match n with
  | O => ret tt
  | S n' => e <- vector_ref_ v i ;; stack_set (g + i) e ;;; load_stack n' v (i + 1) g
  end.

(** src/eval-apply.c:356-431, the dispatch on R3; None: no label, the assertion fails *)
Definition dispatch (r3 : Z) : option (option label) :=
  if r3 =? cell_vm_evlis2 then Some (Some L_evlis2)
  else if r3 =? cell_vm_evlis3 then Some (Some L_evlis3)
  else if r3 =? cell_vm_eval_check_func then Some (Some L_eval_check_func)
  else if r3 =? cell_vm_eval2 then Some (Some L_eval2)
  else if r3 =? cell_vm_apply2 then Some (Some L_apply2)
  else if r3 =? cell_vm_if_expr then Some (Some L_if_expr)
  else if r3 =? cell_vm_begin_eval then Some (Some L_begin_eval)
  else if r3 =? cell_vm_eval_set_x then Some (Some L_eval_set_x)
  else if r3 =? cell_vm_macro_expand_car then Some (Some L_macro_expand_car)
  else if r3 =? cell_vm_return then Some (Some L_vm_return)
  else if r3 =? cell_vm_macro_expand_cdr then Some (Some L_macro_expand_cdr)
  else if r3 =? cell_vm_eval_define then Some (Some L_eval_define)
  else if r3 =? cell_vm_macro_expand then Some (Some L_macro_expand)
  else if r3 =? cell_vm_macro_expand_lambda then Some (Some L_macro_expand_lambda)
  else if r3 =? cell_vm_eval_pmatch_car then Some (Some L_eval_pmatch_car)
  else if r3 =? cell_vm_begin_expand_macro then Some (Some L_begin_expand_macro)
  else if r3 =? cell_vm_macro_expand_define then Some (Some L_macro_expand_define)
  else if r3 =? cell_vm_begin_expand_eval then Some (Some L_begin_expand_eval)
  else if r3 =? cell_vm_call_with_current_continuation2 then Some (Some L_call_with_current_continuation2)
  else if r3 =? cell_vm_macro_expand_set_x then Some (Some L_macro_expand_set_x)
  else if r3 =? cell_vm_eval_pmatch_cdr then Some (Some L_eval_pmatch_cdr)
  else if r3 =? cell_vm_macro_expand_define_macro then Some (Some L_macro_expand_define_macro)
  else if r3 =? cell_vm_begin_primitive_load then Some (Some L_begin_primitive_load)
  else if r3 =? cell_vm_evlis then Some (Some L_evlis)
  else if r3 =? cell_vm_apply then Some (Some L_apply)
  else if r3 =? cell_vm_eval then Some (Some L_eval)
  else if r3 =? cell_vm_eval_macro_expand_eval then Some (Some L_eval_macro_expand_eval)
  else if r3 =? cell_vm_eval_macro_expand_expand then Some (Some L_eval_macro_expand_expand)
  else if r3 =? cell_vm_begin then Some (Some L_begin)
  else if r3 =? cell_vm_begin_expand then Some (Some L_begin_expand)
  else if r3 =? cell_vm_begin_expand_primitive_load then Some (Some L_begin_expand_primitive_load)
  else if r3 =? cell_vm_if then Some (Some L_vm_if)
  else if r3 =? cell_vm_call_with_values2 then Some (Some L_call_with_values2)
  else if r3 =? cell_unspecified then Some None
  else None.

(** src/eval-apply.c:443-540 *)
Definition step_apply (v : locals) : M next :=
  r1 <- gets R1 ;;
  a <- car_of r1 ;;
  g <- gets g_stack ;;
  stack_set (g + GC_FRAME_PROCEDURE) a ;;;
  t <- ty a ;;
  b <- (if t =? TSTRUCT then builtin_p a else ret cell_f) ;;
  if b =? cell_t then
    args <- cdr_of r1 ;;
    n <- builtin_arity a ;;
    check_formals fuel a n args ;;;
    x <- apply_builtin a args ;;
    modify (set_R1 x) ;;;
    ret (Goto L_vm_return v)
  else if t =? TCLOSURE then
    cl <- cdr_of a ;;
    cd <- cdr_of cl ;;
    body <- cdr_of cd ;;
    formals <- car_of cd ;;
    args <- cdr_of r1 ;;
    ca <- car_of cl ;;
    aa <- cdr_of ca ;;
    aa <- cdr_of aa ;;
    check_formals fuel a formals args ;;;
    p <- pairlis fuel formals args aa ;;
    call_lambda body p ;;;
    ret (Goto L_begin v)
  else if t =? TCONTINUATION then
    w <- cdr_of a ;;
    n <- car_of w ;;
    (if n =? 0 then ret tt
     else
       sz <- gets STACK_SIZE ;;
       load_stack (Z.to_nat n) w 0 (sz - n) ;;;
       modify (set_g_stack (sz - n))) ;;;
    gc_pop_frame ;;;
    d <- cdr_of r1 ;;
    x <- car_of d ;;
    modify (set_R1 x) ;;;
    ret (Goto L_eval_apply v)
  else if (t =? TSPECIAL) && (a =? cell_vm_apply) then
    d <- cdr_of r1 ;; f <- car_of d ;; dd <- cdr_of d ;; x <- car_of dd ;;
    p <- cons f x ;;
    r0 <- gets R0 ;;
    push_cc p r1 r0 cell_vm_return ;;;
    ret (Goto L_apply v)
  else if (t =? TSPECIAL) && (a =? cell_vm_eval) then
    d <- cdr_of r1 ;; e <- car_of d ;; dd <- cdr_of d ;; env <- car_of dd ;;
    push_cc e r1 env cell_vm_return ;;;
    ret (Goto L_eval v)
  else if (t =? TSPECIAL) && (a =? cell_vm_begin_expand) then
    d <- cdr_of r1 ;; e <- car_of d ;; dd <- cdr_of d ;; env <- car_of dd ;;
    p <- cons e cell_nil ;;
    push_cc p r1 env cell_vm_return ;;;
    ret (Goto L_begin_expand v)
  else
    (if t =? TSPECIAL then check_apply cell_f else ret tt) ;;;
    if (t =? TSYMBOL) && (a =? cell_symbol_call_with_current_continuation) then
      d <- cdr_of r1 ;; modify (set_R1 d) ;;;
      ret (Goto L_call_with_current_continuation v)
    else if (t =? TSYMBOL) && (a =? cell_symbol_call_with_values) then
      d <- cdr_of r1 ;; modify (set_R1 d) ;;;
      ret (Goto L_call_with_values v)
    else if (t =? TSYMBOL) && (a =? cell_symbol_current_module) then
      r0 <- gets R0 ;; modify (set_R1 r0) ;;;
      ret (Goto L_vm_return v)
    else if (t =? TSYMBOL) && (a =? cell_symbol_boot_module) then
      m <- gets M0 ;; modify (set_R1 m) ;;;
      ret (Goto L_vm_return v)
    else
      aa <- (if t =? TPAIR then car_of a else ret cell_f) ;;
      if aa =? cell_symbol_lambda then
        ad <- cdr_of a ;;
        formals <- car_of ad ;;
        args <- cdr_of r1 ;;
        body <- cdr_of ad ;;
        r0 <- gets R0 ;;
        p <- pairlis fuel formals args r0 ;;
        check_formals fuel r1 formals args ;;;
        call_lambda body p ;;;
        ret (Goto L_begin v)
      else
        r0 <- gets R0 ;;
        push_cc a r1 r0 cell_vm_apply2 ;;;
        ret (Goto L_eval v).

(** src/eval-apply.c:612-656, (define ...) and (define-macro ...) up to the evaluation *)
Definition step_define : M next :=
  r0 <- gets R0 ;;
  r1 <- gets R1 ;;
  op <- car_of r1 ;;
  e <- car_of r0 ;; k <- car_of e ;;
  let global_p := negb (k =? cell_closure) in
  let macro_p := op =? cell_symbol_define_macro in
  d <- cdr_of r1 ;;
  target <- car_of d ;;
  tt_ <- ty target ;;
  (if global_p then
     name <- (if tt_ =? TPAIR then car_of target else ret target) ;;
     (if macro_p then
        g <- gets g_macros ;;
        entry <- assq fuel name g ;;
        if entry =? cell_f then macro_set_x name cell_f ;;; ret tt else ret tt
      else
        entry <- module_variable fuel r0 name ;;
        if entry =? cell_f then m <- gets M0 ;; module_define_x m name cell_f ;;; ret tt else ret tt)
   else ret tt) ;;;
  modify (set_R2 r1) ;;;
  if negb (tt_ =? TPAIR) then
    dd <- cdr_of d ;; e <- car_of dd ;;
    b <- cons target target ;; env <- cons b r0 ;;
    push_cc e r1 env cell_vm_eval_define ;;;
    ret (Goto L_eval (Locals global_p macro_p))
  else
    p <- pairlis fuel target target r0 ;;
    formals <- cdr_of target ;;
    body <- cdr_of d ;;
    (if macro_p || global_p then expand_variable fuel body formals else ret tt) ;;;
    l <- cons formals body ;; l <- cons cell_symbol_lambda l ;;
    modify (set_R1 l) ;;;
    push_cc l r1 p cell_vm_eval_define ;;;
    ret (Goto L_eval (Locals global_p macro_p)).

(** src/eval-apply.c:657-684 *)
Definition step_eval_define (v : locals) : M next :=
  r0 <- gets R0 ;; r1 <- gets R1 ;; r2 <- gets R2 ;;
  d <- cdr_of r2 ;;
  target <- car_of d ;;
  t <- ty target ;;
  name <- (if t =? TPAIR then car_of target else ret target) ;;
  (if macro_p v then
     entry <- macro_get_handle fuel name ;;
     m <- make_macro name r1 ;;
     modify (set_R1 m) ;;;
     set_cdr_x fuel entry m ;;; ret tt
   else if global_p v then
     entry <- module_variable fuel r0 name ;;
     set_cdr_x fuel entry r1 ;;; ret tt
   else
     entry <- cons name r1 ;;
     aa <- cons entry cell_nil ;;
     rest <- cdr r0 ;;
     set_cdr_x fuel aa rest ;;;
     set_cdr_x fuel r0 aa ;;;
     cl <- module_variable fuel r0 cell_closure ;;
     set_cdr_x fuel cl aa ;;; ret tt) ;;;
  modify (set_R1 cell_unspecified) ;;;
  ret (Goto L_vm_return v).

(** src/eval-apply.c:546-718 *)
Definition step_eval (v : locals) : M next :=
  r0 <- gets R0 ;;
  r1 <- gets R1 ;;
  cr1 <- rd r1 ;;
  let t := c_ty cr1 in
  if t =? TPAIR then
    let c := c_car cr1 in
    if c =? cell_symbol_pmatch_car then
      d <- cdr_of r1 ;; e <- car_of d ;;
      push_cc e r1 r0 cell_vm_eval_pmatch_car ;;; ret (Goto L_eval v)
    else if c =? cell_symbol_pmatch_cdr then
      d <- cdr_of r1 ;; e <- car_of d ;;
      push_cc e r1 r0 cell_vm_eval_pmatch_cdr ;;; ret (Goto L_eval v)
    else if c =? cell_symbol_quote then
      gc_pop_frame ;;;
      d <- cdr_of r1 ;; e <- car_of d ;;
      modify (set_R1 e) ;;; ret (Goto L_eval_apply v)
    else if c =? cell_symbol_begin then ret (Goto L_begin v)
    else if c =? cell_symbol_lambda then
      d <- cdr_of r1 ;; formals <- car_of d ;; body <- cdr_of d ;;
      x <- make_closure_ formals body r0 ;;
      modify (set_R1 x) ;;; ret (Goto L_vm_return v)
    else if c =? cell_symbol_if then
      d <- cdr_of r1 ;; modify (set_R1 d) ;;; ret (Goto L_vm_if v)
    else if c =? cell_symbol_set_x then
      d <- cdr_of r1 ;; dd <- cdr_of d ;; e <- car_of dd ;;
      push_cc e r1 r0 cell_vm_eval_set_x ;;; ret (Goto L_eval v)
    else if c =? cell_vm_macro_expand then
      d <- cdr_of r1 ;; e <- car_of d ;;
      push_cc e r1 r0 cell_vm_eval_macro_expand_eval ;;; ret (Goto L_eval v)
    else if (c =? cell_symbol_define) || (c =? cell_symbol_define_macro) then step_define
    else
      push_cc c r1 r0 cell_vm_eval_check_func ;;; ret (Goto L_eval_operator v)
  else if t =? TSYMBOL then
    if (r1 =? cell_symbol_boot_module) || (r1 =? cell_symbol_current_module)
       || (r1 =? cell_symbol_begin) || (r1 =? cell_symbol_call_with_current_continuation)
    then ret (Goto L_vm_return v)
    else
      x <- module_ref fuel r0 r1 ;;
      x <- assert_defined r1 x ;;
      modify (set_R1 x) ;;; ret (Goto L_vm_return v)
  else if t =? TVARIABLE then
    x <- cdr_of (c_car cr1) ;; modify (set_R1 x) ;;; ret (Goto L_vm_return v)
  else if t =? TBROKEN_HEART then error cell_symbol_system_error r1
  else ret (Goto L_vm_return v).

(** src/eval-apply.c:720-800 *)
Definition step_macro_expand (v : locals) : M next :=
  r0 <- gets R0 ;;
  r1 <- gets R1 ;;
  cr1 <- rd r1 ;;
  if negb (c_ty cr1 =? TPAIR) || (c_car cr1 =? cell_symbol_quote) then ret (Goto L_vm_return v)
  else if c_car cr1 =? cell_symbol_lambda then
    dd <- cdr_of (c_cdr cr1) ;;
    push_cc dd r1 r0 cell_vm_macro_expand_lambda ;;; ret (Goto L_macro_expand v)
  else
    macro <- get_macro fuel (c_car cr1) ;;
    if negb (macro =? cell_f) then
      x <- cons macro (c_cdr cr1) ;;
      modify (set_R1 x) ;;;
      push_cc x cell_nil r0 cell_vm_macro_expand ;;; ret (Goto L_apply v)
    else if (c_car cr1 =? cell_symbol_define) || (c_car cr1 =? cell_symbol_define_macro) then
      dd <- cdr_of (c_cdr cr1) ;;
      push_cc dd r1 r0 cell_vm_macro_expand_define ;;; ret (Goto L_macro_expand v)
    else if c_car cr1 =? cell_symbol_set_x then
      dd <- cdr_of (c_cdr cr1) ;;
      push_cc dd r1 r0 cell_vm_macro_expand_set_x ;;; ret (Goto L_macro_expand v)
    else
      ta <- ty (c_car cr1) ;;
      sc <- (if (ta =? TSYMBOL) && negb (c_car cr1 =? cell_symbol_begin) then
               m <- macro_get_handle fuel cell_symbol_portable_macro_expand ;;
               if m =? cell_f then ret cell_f else
               expanders <- module_ref fuel r0 cell_symbol_sc_expander_alist ;;
               if expanders =? cell_undefined then ret cell_f else
               m <- assq fuel (c_car cr1) expanders ;;
               if m =? cell_f then ret cell_f else
               sc_expand <- module_ref fuel r0 cell_symbol_macro_expand ;;
               modify (set_R2 r1) ;;;
               ret (if sc_expand =? cell_undefined then cell_f else sc_expand)
             else ret cell_f) ;;
      if negb (sc =? cell_f) then
        l <- cons r1 cell_nil ;; x <- cons sc l ;;
        modify (set_R1 x) ;;; ret (Goto L_apply v)
      else
        push_cc (c_car cr1) r1 r0 cell_vm_macro_expand_car ;;; ret (Goto L_macro_expand v).

(** src/eval-apply.c:834-850: the rest of one round of the begin loop *)
Definition begin_splice (v : locals) : M next :=
  r1 <- gets R1 ;;
  c <- rd r1 ;;
  (if c_ty c =? TPAIR then
     ca <- rd (c_car c) ;;
     if (c_ty ca =? TPAIR) && (c_car ca =? cell_symbol_begin) then
       x <- append2 fuel (c_cdr ca) (c_cdr c) ;; modify (set_R1 x)
     else ret tt
   else ret tt) ;;;
  r1 <- gets R1 ;;
  c <- rd r1 ;;
  if c_cdr c =? cell_nil then
    modify (set_R1 (c_car c)) ;;; ret (Goto L_eval v)
  else
    r0 <- gets R0 ;;
    push_cc (c_car c) r1 r0 cell_vm_begin_eval ;;; ret (Goto L_eval v).

(** src/eval-apply.c:866-907: one round of the begin_expand loop *)
Definition step_begin_expand_round (v : locals) : M next :=
  r1 <- gets R1 ;;
  c <- rd r1 ;;
  b <- (if c_ty c =? TPAIR then
     ca <- rd (c_car c) ;;
     (if (c_ty ca =? TPAIR) && (c_car ca =? cell_symbol_begin) then
        x <- append2 fuel (c_cdr ca) (c_cdr c) ;; modify (set_R1 x)
      else ret tt) ;;;
     r1 <- gets R1 ;;
     a <- car_of r1 ;; k <- car_of a ;;
     ret (k =? cell_symbol_primitive_load)
   else ret false) ;;
  r0 <- gets R0 ;;
  r1 <- gets R1 ;;
  a <- car_of r1 ;;
  if b : bool then
    d <- cdr_of a ;; e <- car_of d ;;
    push_cc e r1 r0 cell_vm_begin_expand_primitive_load ;;; ret (Goto L_eval v)
  else
    push_cc a r1 r0 cell_vm_begin_expand_macro ;;; ret (Goto L_macro_expand v).

(** R2->car = R1; R1 = R2 and R2->cdr->cdr = R1; R1 = R2 *)
Definition put_car : M unit :=
  r1 <- gets R1 ;; r2 <- gets R2 ;; set_car r2 r1 ;;; modify (set_R1 r2).
Definition put_cddr : M unit :=
  r1 <- gets R1 ;; r2 <- gets R2 ;; d <- cdr_of r2 ;; set_cdr d r1 ;;; modify (set_R1 r2).
(** x = R1; gc_pop_frame (); R1 = f (x); goto eval_apply *)
Definition return_with (f : Z -> M Z) (v : locals) : M next :=
  x <- gets R1 ;;
  gc_pop_frame ;;;
  y <- f x ;;
  modify (set_R1 y) ;;; ret (Goto L_eval_apply v).

Definition step (l : label) (v : locals) : M next :=
  match l with
  | L_eval_apply =>
      r3 <- gets R3 ;;
      match dispatch r3 with
      | Some (Some l') => ret (Goto l' v)
      | Some None => x <- gets R1 ;; ret (Return x)
      | None => abort
      end
  | L_evlis =>
      r1 <- gets R1 ;;
      if r1 =? cell_nil then ret (Goto L_vm_return v) else
      c <- rd r1 ;;
      if negb (c_ty c =? TPAIR) then ret (Goto L_eval v) else
      r0 <- gets R0 ;;
      push_cc (c_car c) r1 r0 cell_vm_evlis2 ;;; ret (Goto L_eval v)
  | L_evlis2 =>
      r0 <- gets R0 ;; r1 <- gets R1 ;; r2 <- gets R2 ;;
      d <- cdr_of r2 ;;
      push_cc d r1 r0 cell_vm_evlis3 ;;; ret (Goto L_evlis v)
  | L_evlis3 =>
      r1 <- gets R1 ;; r2 <- gets R2 ;;
      x <- cons r2 r1 ;; modify (set_R1 x) ;;; ret (Goto L_vm_return v)
  | L_apply => step_apply v
  | L_apply2 =>
      r1 <- gets R1 ;; r2 <- gets R2 ;;
      check_apply r1 ;;;
      d <- cdr_of r2 ;;
      x <- cons r1 d ;; modify (set_R1 x) ;;; ret (Goto L_apply v)
  | L_eval => step_eval v
  | L_eval_pmatch_car => return_with car_of v
  | L_eval_pmatch_cdr => return_with cdr_of v
  | L_eval_set_x =>
      r0 <- gets R0 ;; r1 <- gets R1 ;; r2 <- gets R2 ;;
      d <- cdr_of r2 ;; name <- car_of d ;;
      x <- set_env_x fuel name r1 r0 ;;
      modify (set_R1 x) ;;; ret (Goto L_vm_return v)
  | L_eval_macro_expand_eval =>
      r0 <- gets R0 ;; r1 <- gets R1 ;; r2 <- gets R2 ;;
      push_cc r1 r2 r0 cell_vm_eval_macro_expand_expand ;;; ret (Goto L_macro_expand v)
  | L_eval_macro_expand_expand => ret (Goto L_vm_return v)
  | L_eval_define => step_eval_define v
  | L_eval_operator => gc_check ;;; ret (Goto L_eval v)
  | L_eval_check_func =>
      r0 <- gets R0 ;; r2 <- gets R2 ;;
      d <- cdr_of r2 ;;
      push_cc d r2 r0 cell_vm_eval2 ;;; ret (Goto L_evlis v)
  | L_eval2 =>
      r1 <- gets R1 ;; r2 <- gets R2 ;;
      a <- car_of r2 ;;
      x <- cons a r1 ;; modify (set_R1 x) ;;; ret (Goto L_apply v)
  | L_macro_expand => step_macro_expand v
  | L_macro_expand_lambda => put_cddr ;;; ret (Goto L_vm_return v)
  | L_macro_expand_define =>
      put_cddr ;;;
      r0 <- gets R0 ;; r1 <- gets R1 ;;
      a <- car_of r1 ;;
      if a =? cell_symbol_define_macro then
        push_cc r1 r1 r0 cell_vm_macro_expand_define_macro ;;; ret (Goto L_eval v)
      else ret (Goto L_vm_return v)
  | L_macro_expand_define_macro =>
      r2 <- gets R2 ;; modify (set_R1 r2) ;;; ret (Goto L_vm_return v)
  | L_macro_expand_set_x => put_cddr ;;; ret (Goto L_vm_return v)
  | L_macro_expand_car =>
      put_car ;;;
      r0 <- gets R0 ;; r1 <- gets R1 ;;
      d <- cdr_of r1 ;;
      if d =? cell_nil then ret (Goto L_vm_return v) else
      push_cc d r1 r0 cell_vm_macro_expand_cdr ;;; ret (Goto L_macro_expand v)
  | L_macro_expand_cdr =>
      r1 <- gets R1 ;; r2 <- gets R2 ;;
      set_cdr r2 r1 ;;; modify (set_R1 r2) ;;; ret (Goto L_vm_return v)
  | L_begin => ret (Goto (L_begin_while cell_unspecified) v)
  | L_begin_while x =>
      r1 <- gets R1 ;;
      if r1 =? cell_nil then modify (set_R1 x) ;;; ret (Goto L_vm_return v)
      else ret (Goto L_begin_body v)
  | L_begin_body => gc_check ;;; ret (Goto L_begin_round v)
  | L_begin_round =>
      r1 <- gets R1 ;;
      c <- rd r1 ;;
      k <- (if c_ty c =? TPAIR then car_of (c_car c) else ret cell_f) ;;
      if k =? cell_symbol_primitive_load then
        program <- cons (c_car c) cell_nil ;;
        r0 <- gets R0 ;;
        push_cc program r1 r0 cell_vm_begin_primitive_load ;;; ret (Goto L_begin_expand v)
      else begin_splice v
  | L_begin_primitive_load => put_car ;;; begin_splice v
  | L_begin_eval =>
      x <- gets R1 ;; r2 <- gets R2 ;; d <- cdr_of r2 ;;
      modify (set_R1 d) ;;; ret (Goto (L_begin_while x) v)
  | L_begin_expand => ret (Goto (L_begin_expand_loop cell_unspecified) v)
  | L_begin_expand_loop x =>
      r1 <- gets R1 ;;
      if r1 =? cell_nil then modify (set_R1 x) ;;; ret (Goto L_vm_return v)
      else ret (Goto L_begin_expand_while v)
  | L_begin_expand_while => gc_check ;;; ret (Goto L_begin_expand_round v)
  | L_begin_expand_round => step_begin_expand_round v
  | L_begin_expand_primitive_load =>
      r1 <- gets R1 ;;
      x <- load_program r1 ;;
      x <- cons cell_symbol_begin x ;;
      modify (set_R1 x) ;;;
      put_car ;;;
      ret (Goto L_begin_expand_while v)
  | L_begin_expand_macro =>
      r1 <- gets R1 ;; r2 <- gets R2 ;;
      a <- car_of r2 ;;
      if negb (r1 =? a) then put_car ;;; ret (Goto L_begin_expand_while v) else
      modify (set_R1 r2) ;;;
      expand_variable fuel a cell_nil ;;;
      r0 <- gets R0 ;;
      a <- car_of r2 ;;
      push_cc a r2 r0 cell_vm_begin_expand_eval ;;; ret (Goto L_eval v)
  | L_begin_expand_eval =>
      x <- gets R1 ;; r2 <- gets R2 ;; d <- cdr_of r2 ;;
      modify (set_R1 d) ;;; ret (Goto (L_begin_expand_loop x) v)
  | L_vm_if =>
      r0 <- gets R0 ;; r1 <- gets R1 ;; a <- car_of r1 ;;
      push_cc a r1 r0 cell_vm_if_expr ;;; ret (Goto L_eval v)
  | L_if_expr =>
      x <- gets R1 ;; r2 <- gets R2 ;;
      modify (set_R1 r2) ;;;
      d <- cdr_of r2 ;;
      if negb (x =? cell_f) then
        e <- car_of d ;; modify (set_R1 e) ;;; ret (Goto L_eval v)
      else
        dd <- cdr_of d ;;
        if negb (dd =? cell_nil) then
          e <- car_of dd ;; modify (set_R1 e) ;;; ret (Goto L_eval v)
        else modify (set_R1 cell_unspecified) ;;; ret (Goto L_vm_return v)
  | L_call_with_current_continuation =>
      gc_push_frame ;;;
      n <- gets g_continuations ;;
      x <- make_continuation n ;;
      modify (fun s => set_g_continuations (g_continuations s + 1) s) ;;;
      w <- stack_to_vector ;;
      set_cdr x w ;;;
      gc_pop_frame ;;;
      r0 <- gets R0 ;; r1 <- gets R1 ;;
      f <- car_of r1 ;;
      l <- cons x cell_nil ;; p <- cons f l ;;
      push_cc p x r0 cell_vm_call_with_current_continuation2 ;;; ret (Goto L_apply v)
  | L_call_with_current_continuation2 =>
      r2 <- gets R2 ;;
      w <- stack_to_vector ;;
      set_cdr r2 w ;;; ret (Goto L_vm_return v)
  | L_call_with_values =>
      r0 <- gets R0 ;; r1 <- gets R1 ;;
      a <- car_of r1 ;; p <- cons a cell_nil ;;
      push_cc p r1 r0 cell_vm_call_with_values2 ;;; ret (Goto L_apply v)
  | L_call_with_values2 =>
      r1 <- gets R1 ;; r2 <- gets R2 ;;
      c <- rd r1 ;;
      let x := if c_ty c =? TVALUES then c_cdr c else r1 in
      d <- cdr_of r2 ;; a <- car_of d ;;
      y <- cons a x ;; modify (set_R1 y) ;;; ret (Goto L_apply v)
  | L_vm_return => return_with ret v
  end.

(** eval_apply: run until it returns; [n] bounds the number of steps of the model *)
Fixpoint run_eval (n : nat) (l : label) (v : locals) : M Z :=
  match n with
  | O => out_of_fuel
  | S n' =>
      r <- step l v ;;
      match r with
      | Goto l' v' => run_eval n' l' v'
      | Return x => ret x
      end
  end.
(** src/eval-apply.c:331: the two ints are uninitialised in C; they are set before use *)
Definition eval_apply (n : nat) : M Z := run_eval n L_eval_apply (Locals false false).

(** src/eval-apply.c:980-986 apply *)
Definition apply (n : nat) (f x : Z) : M Z :=
  p <- cons f x ;;
  r0 <- gets R0 ;;
  push_cc p cell_unspecified r0 cell_unspecified ;;;
  modify (set_R3 cell_vm_apply) ;;;
  eval_apply n.
End evaluator.
