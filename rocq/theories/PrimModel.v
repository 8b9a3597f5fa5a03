(** The C functions behind the built-in procedures: src/builtins.c:135-290 (mes_builtins) gives
    the name, arity and function of each; src/eval-apply.c:269-296 calls the function with as
    many arguments as the arity says, or with the list of the arguments if it is -1.

    Functions that are not modelled (input and output, processes, the reader, printers, stack
    objects, eval-apply called as a procedure) are undefined here: nothing is claimed of a
    program that calls one. *)
From stdpp Require Import base gmap list.
From Coq Require Import ZArith.
From Verif Require Import CInt Symbols Heap GcModel DataModel MathModel Builtins EvalModel BootModel.
Open Scope Z_scope.
Open Scope mes_scope.

Definition call0 (f : M Z) (xs : list Z) : M Z := match xs with [] => f | _ => ub end.
Definition call1 (f : Z -> M Z) (xs : list Z) : M Z := match xs with [x] => f x | _ => ub end.
Definition call2 (f : Z -> Z -> M Z) (xs : list Z) : M Z := match xs with [x; y] => f x y | _ => ub end.
Definition call3 (f : Z -> Z -> Z -> M Z) (xs : list Z) : M Z :=
  match xs with [x; y; z] => f x y z | _ => ub end.

(** src/lib.c:38-54 car_, cdr_: the fields of any cell, as a number unless the cell is a pair
    (or, for cdr_, a closure) *)
Definition car_field (x : Z) : M Z :=
  t <- ty x ;; a <- car_of x ;; if t =? TPAIR then ret a else make_number a.
Definition cdr_field (x : Z) : M Z :=
  t <- ty x ;; d <- cdr_of x ;; if (t =? TPAIR) || (t =? TCLOSURE) then ret d else make_number d.

Definition prim_call (fuel : nat) (p : Z) : list Z -> M Z :=
  if p =? fn_builtin_p then call1 builtin_p
  else if p =? fn_builtin_arity then call1 builtin_arity
  else if p =? fn_car then call1 car
  else if p =? fn_cdr then call1 cdr
  else if p =? fn_list then call1 (fun x => ret x)           (* src/core.c:69-73 *)
  else if p =? fn_null_p then call1 null_p
  else if p =? fn_eq_p then call2 eq_p
  else if p =? fn_values then call1 values
  else if p =? fn_acons then call3 acons
  else if p =? fn_length then call1 (length_ fuel)
  else if p =? fn_error then call2 (fun key x => error key x)
  else if p =? fn_append2 then call2 (append2 fuel)
  else if p =? fn_append_reverse then call2 (append_reverse fuel)
  else if p =? fn_reverse_x_ then call2 (reverse_x_ fuel)
  else if p =? fn_assq then call2 (assq fuel)
  else if p =? fn_assoc then call2 (assoc fuel)
  else if p =? fn_pairlis then call3 (pairlis fuel)
  else if p =? fn_set_car_x then call2 (set_car_x fuel)
  else if p =? fn_set_cdr_x then call2 (set_cdr_x fuel)
  else if p =? fn_set_env_x then call3 (set_env_x fuel)
  else if p =? fn_add_formals then call2 (add_formals fuel)
  else if p =? fn_cons then call2 cons
  else if p =? fn_hashq_get_handle then call3 (hashq_get_handle fuel)
  else if p =? fn_hashq_ref then call3 (hashq_ref fuel)
  else if p =? fn_hash_ref then call3 (hash_ref fuel)
  else if p =? fn_hashq_set_x then call3 hashq_set_x
  else if p =? fn_hash_set_x then call3 hash_set_x
  else if p =? fn_make_hash_table then call1 make_hash_table
  else if p =? fn_type_ then call1 type_
  else if p =? fn_car_ then call1 car_field
  else if p =? fn_cdr_ then call1 cdr_field
  else if p =? fn_xassq then call2 (xassq fuel)
  else if p =? fn_memq then call2 (memq fuel)
  else if p =? fn_equal2_p then call2 (equal2_p fuel)
  else if p =? fn_last_pair then call1 (last_pair fuel)
  else if p =? fn_pair_p then call1 pair_p
  else if p =? fn_char_to_integer then call1 char_to_integer
  else if p =? fn_integer_to_char then call1 integer_to_char
  else if p =? fn_greater_p then call1 (greater_p fuel)
  else if p =? fn_less_p then call1 (less_p fuel)
  else if p =? fn_is_p then call1 (is_p fuel)
  else if p =? fn_minus then call1 (minus fuel)
  else if p =? fn_plus then call1 (plus fuel)
  else if p =? fn_divide then call1 (divide fuel)
  else if p =? fn_modulo then call2 (modulo fuel)
  else if p =? fn_multiply then call1 (multiply fuel)
  else if p =? fn_logand then call1 (logand fuel)
  else if p =? fn_logior then call1 (logior fuel)
  else if p =? fn_lognot then call1 lognot
  else if p =? fn_logxor then call1 (logxor fuel)
  else if p =? fn_ash then call2 ash
  else if p =? fn_make_module_type then call0 (make_module_type fuel)
  else if p =? fn_module_variable then call2 (module_variable fuel)
  else if p =? fn_module_ref then call2 (module_ref fuel)
  else if p =? fn_module_define_x then call3 module_define_x
  else if p =? fn_string_equal_p then call2 string_equal_p
  else if p =? fn_symbol_to_string then call1 symbol_to_string
  else if p =? fn_symbol_to_keyword then call1 symbol_to_keyword
  else if p =? fn_keyword_to_string then call1 keyword_to_string
  else if p =? fn_string_to_symbol then call1 (string_to_symbol fuel)
  else if p =? fn_make_symbol then call1 make_symbol
  else if p =? fn_string_to_list then call1 string_to_list
  else if p =? fn_list_to_string then call1 (list_to_string fuel)
  else if p =? fn_string_append then call1 (string_append fuel)
  else if p =? fn_string_length then call1 string_length
  else if p =? fn_string_ref then call2 string_ref
  else if p =? fn_make_struct then call3 (make_struct fuel)
  else if p =? fn_struct_length then call1 struct_length
  else if p =? fn_struct_ref then call2 struct_ref
  else if p =? fn_struct_set_x then call3 struct_set_x
  else if p =? fn_make_vector then call1 make_vector
  else if p =? fn_vector_length then call1 vector_length
  else if p =? fn_vector_ref then call2 vector_ref
  else if p =? fn_vector_entry then call1 vector_entry
  else if p =? fn_vector_set_x then call3 vector_set_x
  else if p =? fn_list_to_vector then call1 (list_to_vector fuel)
  else if p =? fn_vector_to_list then call1 vector_to_list
  else fun _ => ub.
