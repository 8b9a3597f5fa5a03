(** Addresses of the built-in constants.
    Models src/symbol.c:54-176 (init_symbols_): cell_nil is the cell after
    cell_zero and every init_symbol call takes the next cell.
    The arena starts at index 1 (cell_arena), cell_zero = g_cells = 2. Generated
    from the order of the init_symbol calls. *)
From Coq Require Import ZArith List String.
Import ListNotations.
Open Scope Z_scope.

Definition cell_nil : Z := 3. (* src/symbol.c:58 *)
Definition cell_f : Z := 4. (* src/symbol.c:59 *)
Definition cell_t : Z := 5. (* src/symbol.c:60 *)
Definition cell_dot : Z := 6. (* src/symbol.c:61 *)
Definition cell_arrow : Z := 7. (* src/symbol.c:62 *)
Definition cell_undefined : Z := 8. (* src/symbol.c:63 *)
Definition cell_unspecified : Z := 9. (* src/symbol.c:64 *)
Definition cell_closure : Z := 10. (* src/symbol.c:65 *)
Definition cell_circular : Z := 11. (* src/symbol.c:66 *)
Definition cell_vm_apply : Z := 12. (* src/symbol.c:68 *)
Definition cell_vm_apply2 : Z := 13. (* src/symbol.c:69 *)
Definition cell_vm_begin : Z := 14. (* src/symbol.c:70 *)
Definition cell_vm_begin_eval : Z := 15. (* src/symbol.c:71 *)
Definition cell_vm_begin_expand : Z := 16. (* src/symbol.c:72 *)
Definition cell_vm_begin_expand_eval : Z := 17. (* src/symbol.c:73 *)
Definition cell_vm_begin_expand_macro : Z := 18. (* src/symbol.c:74 *)
Definition cell_vm_begin_expand_primitive_load : Z := 19. (* src/symbol.c:75 *)
Definition cell_vm_begin_primitive_load : Z := 20. (* src/symbol.c:76 *)
Definition cell_vm_begin_read_input_file : Z := 21. (* src/symbol.c:77 *)
Definition cell_vm_call_with_current_continuation2 : Z := 22. (* src/symbol.c:78 *)
Definition cell_vm_call_with_values2 : Z := 23. (* src/symbol.c:79 *)
Definition cell_vm_eval : Z := 24. (* src/symbol.c:80 *)
Definition cell_vm_eval2 : Z := 25. (* src/symbol.c:81 *)
Definition cell_vm_eval_check_func : Z := 26. (* src/symbol.c:82 *)
Definition cell_vm_eval_define : Z := 27. (* src/symbol.c:83 *)
Definition cell_vm_eval_macro_expand_eval : Z := 28. (* src/symbol.c:84 *)
Definition cell_vm_eval_macro_expand_expand : Z := 29. (* src/symbol.c:85 *)
Definition cell_vm_eval_pmatch_car : Z := 30. (* src/symbol.c:86 *)
Definition cell_vm_eval_pmatch_cdr : Z := 31. (* src/symbol.c:87 *)
Definition cell_vm_eval_set_x : Z := 32. (* src/symbol.c:88 *)
Definition cell_vm_evlis : Z := 33. (* src/symbol.c:89 *)
Definition cell_vm_evlis2 : Z := 34. (* src/symbol.c:90 *)
Definition cell_vm_evlis3 : Z := 35. (* src/symbol.c:91 *)
Definition cell_vm_if : Z := 36. (* src/symbol.c:92 *)
Definition cell_vm_if_expr : Z := 37. (* src/symbol.c:93 *)
Definition cell_vm_macro_expand : Z := 38. (* src/symbol.c:94 *)
Definition cell_vm_macro_expand_car : Z := 39. (* src/symbol.c:95 *)
Definition cell_vm_macro_expand_cdr : Z := 40. (* src/symbol.c:96 *)
Definition cell_vm_macro_expand_define : Z := 41. (* src/symbol.c:97 *)
Definition cell_vm_macro_expand_define_macro : Z := 42. (* src/symbol.c:98 *)
Definition cell_vm_macro_expand_lambda : Z := 43. (* src/symbol.c:99 *)
Definition cell_vm_macro_expand_set_x : Z := 44. (* src/symbol.c:100 *)
Definition cell_vm_return : Z := 45. (* src/symbol.c:101 *)
Definition cell_symbol_lambda : Z := 46. (* src/symbol.c:103 *)
Definition cell_symbol_begin : Z := 47. (* src/symbol.c:104 *)
Definition cell_symbol_if : Z := 48. (* src/symbol.c:105 *)
Definition cell_symbol_quote : Z := 49. (* src/symbol.c:106 *)
Definition cell_symbol_define : Z := 50. (* src/symbol.c:107 *)
Definition cell_symbol_define_macro : Z := 51. (* src/symbol.c:108 *)
Definition cell_symbol_quasiquote : Z := 52. (* src/symbol.c:109 *)
Definition cell_symbol_unquote : Z := 53. (* src/symbol.c:110 *)
Definition cell_symbol_unquote_splicing : Z := 54. (* src/symbol.c:111 *)
Definition cell_symbol_syntax : Z := 55. (* src/symbol.c:112 *)
Definition cell_symbol_quasisyntax : Z := 56. (* src/symbol.c:113 *)
Definition cell_symbol_unsyntax : Z := 57. (* src/symbol.c:114 *)
Definition cell_symbol_unsyntax_splicing : Z := 58. (* src/symbol.c:115 *)
Definition cell_symbol_set_x : Z := 59. (* src/symbol.c:116 *)
Definition cell_symbol_sc_expand : Z := 60. (* src/symbol.c:117 *)
Definition cell_symbol_macro_expand : Z := 61. (* src/symbol.c:118 *)
Definition cell_symbol_portable_macro_expand : Z := 62. (* src/symbol.c:119 *)
Definition cell_symbol_sc_expander_alist : Z := 63. (* src/symbol.c:120 *)
Definition cell_symbol_call_with_values : Z := 64. (* src/symbol.c:121 *)
Definition cell_symbol_call_with_current_continuation : Z := 65. (* src/symbol.c:122 *)
Definition cell_symbol_boot_module : Z := 66. (* src/symbol.c:123 *)
Definition cell_symbol_current_module : Z := 67. (* src/symbol.c:124 *)
Definition cell_symbol_primitive_load : Z := 68. (* src/symbol.c:125 *)
Definition cell_symbol_car : Z := 69. (* src/symbol.c:126 *)
Definition cell_symbol_cdr : Z := 70. (* src/symbol.c:127 *)
Definition cell_symbol_not_a_number : Z := 71. (* src/symbol.c:128 *)
Definition cell_symbol_not_a_pair : Z := 72. (* src/symbol.c:129 *)
Definition cell_symbol_system_error : Z := 73. (* src/symbol.c:130 *)
Definition cell_symbol_throw : Z := 74. (* src/symbol.c:131 *)
Definition cell_symbol_unbound_variable : Z := 75. (* src/symbol.c:132 *)
Definition cell_symbol_wrong_number_of_args : Z := 76. (* src/symbol.c:133 *)
Definition cell_symbol_wrong_type_arg : Z := 77. (* src/symbol.c:134 *)
Definition cell_symbol_buckets : Z := 78. (* src/symbol.c:136 *)
Definition cell_symbol_builtin : Z := 79. (* src/symbol.c:137 *)
Definition cell_symbol_frame : Z := 80. (* src/symbol.c:138 *)
Definition cell_symbol_hashq_table : Z := 81. (* src/symbol.c:139 *)
Definition cell_symbol_module : Z := 82. (* src/symbol.c:140 *)
Definition cell_symbol_procedure : Z := 83. (* src/symbol.c:141 *)
Definition cell_symbol_record_type : Z := 84. (* src/symbol.c:142 *)
Definition cell_symbol_size : Z := 85. (* src/symbol.c:143 *)
Definition cell_symbol_stack : Z := 86. (* src/symbol.c:144 *)
Definition cell_symbol_argv : Z := 87. (* src/symbol.c:145 *)
Definition cell_symbol_mes_datadir : Z := 88. (* src/symbol.c:146 *)
Definition cell_symbol_mes_version : Z := 89. (* src/symbol.c:147 *)
Definition cell_symbol_internal_time_units_per_second : Z := 90. (* src/symbol.c:148 *)
Definition cell_symbol_compiler : Z := 91. (* src/symbol.c:149 *)
Definition cell_symbol_arch : Z := 92. (* src/symbol.c:150 *)
Definition cell_symbol_pmatch_car : Z := 93. (* src/symbol.c:151 *)
Definition cell_symbol_pmatch_cdr : Z := 94. (* src/symbol.c:152 *)
Definition cell_type_bytes : Z := 95. (* src/symbol.c:154 *)
Definition cell_type_char : Z := 96. (* src/symbol.c:155 *)
Definition cell_type_closure : Z := 97. (* src/symbol.c:156 *)
Definition cell_type_continuation : Z := 98. (* src/symbol.c:157 *)
Definition cell_type_function : Z := 99. (* src/symbol.c:158 *)
Definition cell_type_keyword : Z := 100. (* src/symbol.c:159 *)
Definition cell_type_macro : Z := 101. (* src/symbol.c:160 *)
Definition cell_type_number : Z := 102. (* src/symbol.c:161 *)
Definition cell_type_pair : Z := 103. (* src/symbol.c:162 *)
Definition cell_type_port : Z := 104. (* src/symbol.c:163 *)
Definition cell_type_ref : Z := 105. (* src/symbol.c:164 *)
Definition cell_type_special : Z := 106. (* src/symbol.c:165 *)
Definition cell_type_string : Z := 107. (* src/symbol.c:166 *)
Definition cell_type_struct : Z := 108. (* src/symbol.c:167 *)
Definition cell_type_symbol : Z := 109. (* src/symbol.c:168 *)
Definition cell_type_values : Z := 110. (* src/symbol.c:169 *)
Definition cell_type_variable : Z := 111. (* src/symbol.c:170 *)
Definition cell_type_vector : Z := 112. (* src/symbol.c:171 *)
Definition cell_type_broken_heart : Z := 113. (* src/symbol.c:172 *)
Definition cell_symbol_program : Z := 114. (* src/symbol.c:174 *)
Definition cell_symbol_test : Z := 115. (* src/symbol.c:175 *)

(** src/symbol.c:186 — one past the last built-in symbol *)
Definition symbol_max : Z := 116.

(** (address, is it TSPECIAL?, print name), in the order of src/symbol.c:54-176 *)
Definition builtin_symbols : list (Z * bool * string) :=
  [ (cell_nil, true, "()"%string)
  ; (cell_f, true, "#f"%string)
  ; (cell_t, true, "#t"%string)
  ; (cell_dot, true, "."%string)
  ; (cell_arrow, true, "=>"%string)
  ; (cell_undefined, true, "*undefined*"%string)
  ; (cell_unspecified, true, "*unspecified*"%string)
  ; (cell_closure, true, "*closure*"%string)
  ; (cell_circular, true, "*circular*"%string)
  ; (cell_vm_apply, true, "core:apply"%string)
  ; (cell_vm_apply2, true, "*vm-apply2*"%string)
  ; (cell_vm_begin, true, "*vm-begin*"%string)
  ; (cell_vm_begin_eval, true, "*vm:begin-eval*"%string)
  ; (cell_vm_begin_expand, true, "core:eval"%string)
  ; (cell_vm_begin_expand_eval, true, "*vm:begin-expand-eval*"%string)
  ; (cell_vm_begin_expand_macro, true, "*vm:begin-expand-macro*"%string)
  ; (cell_vm_begin_expand_primitive_load, true, "*vm:core:begin-expand-primitive-load*"%string)
  ; (cell_vm_begin_primitive_load, true, "*vm:core:begin-primitive-load*"%string)
  ; (cell_vm_begin_read_input_file, true, "*vm-begin-read-input-file*"%string)
  ; (cell_vm_call_with_current_continuation2, true, "*vm-call-with-current-continuation2*"%string)
  ; (cell_vm_call_with_values2, true, "*vm-call-with-values2*"%string)
  ; (cell_vm_eval, true, "core:eval-expanded"%string)
  ; (cell_vm_eval2, true, "*vm-eval2*"%string)
  ; (cell_vm_eval_check_func, true, "*vm-eval-check-func*"%string)
  ; (cell_vm_eval_define, true, "*vm-eval-define*"%string)
  ; (cell_vm_eval_macro_expand_eval, true, "*vm:eval-macro-expand-eval*"%string)
  ; (cell_vm_eval_macro_expand_expand, true, "*vm:eval-macro-expand-expand*"%string)
  ; (cell_vm_eval_pmatch_car, true, "*vm-eval-pmatch-car*"%string)
  ; (cell_vm_eval_pmatch_cdr, true, "*vm-eval-pmatch-cdr*"%string)
  ; (cell_vm_eval_set_x, true, "*vm-eval-set!*"%string)
  ; (cell_vm_evlis, true, "*vm-evlis*"%string)
  ; (cell_vm_evlis2, true, "*vm-evlis2*"%string)
  ; (cell_vm_evlis3, true, "*vm-evlis3*"%string)
  ; (cell_vm_if, true, "*vm-if*"%string)
  ; (cell_vm_if_expr, true, "*vm-if-expr*"%string)
  ; (cell_vm_macro_expand, true, "core:macro-expand"%string)
  ; (cell_vm_macro_expand_car, true, "*vm:core:macro-expand-car*"%string)
  ; (cell_vm_macro_expand_cdr, true, "*vm:macro-expand-cdr*"%string)
  ; (cell_vm_macro_expand_define, true, "*vm:core:macro-expand-define*"%string)
  ; (cell_vm_macro_expand_define_macro, true, "*vm:core:macro-expand-define-macro*"%string)
  ; (cell_vm_macro_expand_lambda, true, "*vm:core:macro-expand-lambda*"%string)
  ; (cell_vm_macro_expand_set_x, true, "*vm:core:macro-expand-set!*"%string)
  ; (cell_vm_return, true, "*vm-return*"%string)
  ; (cell_symbol_lambda, false, "lambda"%string)
  ; (cell_symbol_begin, false, "begin"%string)
  ; (cell_symbol_if, false, "if"%string)
  ; (cell_symbol_quote, false, "quote"%string)
  ; (cell_symbol_define, false, "define"%string)
  ; (cell_symbol_define_macro, false, "define-macro"%string)
  ; (cell_symbol_quasiquote, false, "quasiquote"%string)
  ; (cell_symbol_unquote, false, "unquote"%string)
  ; (cell_symbol_unquote_splicing, false, "unquote-splicing"%string)
  ; (cell_symbol_syntax, false, "syntax"%string)
  ; (cell_symbol_quasisyntax, false, "quasisyntax"%string)
  ; (cell_symbol_unsyntax, false, "unsyntax"%string)
  ; (cell_symbol_unsyntax_splicing, false, "unsyntax-splicing"%string)
  ; (cell_symbol_set_x, false, "set!"%string)
  ; (cell_symbol_sc_expand, false, "sc-expand"%string)
  ; (cell_symbol_macro_expand, false, "macro-expand"%string)
  ; (cell_symbol_portable_macro_expand, false, "portable-macro-expand"%string)
  ; (cell_symbol_sc_expander_alist, false, "*sc-expander-alist*"%string)
  ; (cell_symbol_call_with_values, false, "call-with-values"%string)
  ; (cell_symbol_call_with_current_continuation, false, "call-with-current-continuation"%string)
  ; (cell_symbol_boot_module, false, "boot-module"%string)
  ; (cell_symbol_current_module, false, "current-module"%string)
  ; (cell_symbol_primitive_load, false, "primitive-load"%string)
  ; (cell_symbol_car, false, "car"%string)
  ; (cell_symbol_cdr, false, "cdr"%string)
  ; (cell_symbol_not_a_number, false, "not-a-number"%string)
  ; (cell_symbol_not_a_pair, false, "not-a-pair"%string)
  ; (cell_symbol_system_error, false, "system-error"%string)
  ; (cell_symbol_throw, false, "throw"%string)
  ; (cell_symbol_unbound_variable, false, "unbound-variable"%string)
  ; (cell_symbol_wrong_number_of_args, false, "wrong-number-of-args"%string)
  ; (cell_symbol_wrong_type_arg, false, "wrong-type-arg"%string)
  ; (cell_symbol_buckets, false, "buckets"%string)
  ; (cell_symbol_builtin, false, "<builtin>"%string)
  ; (cell_symbol_frame, false, "<frame>"%string)
  ; (cell_symbol_hashq_table, false, "<hashq-table>"%string)
  ; (cell_symbol_module, false, "<module>"%string)
  ; (cell_symbol_procedure, false, "procedure"%string)
  ; (cell_symbol_record_type, false, "<record-type>"%string)
  ; (cell_symbol_size, false, "size"%string)
  ; (cell_symbol_stack, false, "<stack>"%string)
  ; (cell_symbol_argv, false, "%argv"%string)
  ; (cell_symbol_mes_datadir, false, "%datadir"%string)
  ; (cell_symbol_mes_version, false, "%version"%string)
  ; (cell_symbol_internal_time_units_per_second, false, "internal-time-units-per-second"%string)
  ; (cell_symbol_compiler, false, "%compiler"%string)
  ; (cell_symbol_arch, false, "%arch"%string)
  ; (cell_symbol_pmatch_car, false, "pmatch-car"%string)
  ; (cell_symbol_pmatch_cdr, false, "pmatch-cdr"%string)
  ; (cell_type_bytes, false, "<cell:bytes>"%string)
  ; (cell_type_char, false, "<cell:char>"%string)
  ; (cell_type_closure, false, "<cell:closure>"%string)
  ; (cell_type_continuation, false, "<cell:continuation>"%string)
  ; (cell_type_function, false, "<cell:function>"%string)
  ; (cell_type_keyword, false, "<cell:keyword>"%string)
  ; (cell_type_macro, false, "<cell:macro>"%string)
  ; (cell_type_number, false, "<cell:number>"%string)
  ; (cell_type_pair, false, "<cell:pair>"%string)
  ; (cell_type_port, false, "<cell:port>"%string)
  ; (cell_type_ref, false, "<cell:ref>"%string)
  ; (cell_type_special, false, "<cell:special>"%string)
  ; (cell_type_string, false, "<cell:string>"%string)
  ; (cell_type_struct, false, "<cell:struct>"%string)
  ; (cell_type_symbol, false, "<cell:symbol>"%string)
  ; (cell_type_values, false, "<cell:values>"%string)
  ; (cell_type_variable, false, "<cell:variable>"%string)
  ; (cell_type_vector, false, "<cell:vector>"%string)
  ; (cell_type_broken_heart, false, "<cell:broken-heart>"%string)
  ; (cell_symbol_program, false, "%program"%string)
  ; (cell_symbol_test, false, "%%test"%string) ].
