(** The table of built-in procedures: src/builtins.c:135-290 (mes_builtins, full interpreter).
    Name, arity (-1: any number of arguments, passed as a list) and an index standing for the
    address of the C function.  Generated from the init_builtin calls, in their order. *)
From stdpp Require Import base list.
From Coq Require Import ZArith.
From Verif Require Import Symbols DataModel.
Import Strings.String.StringSyntax.
Open Scope Z_scope.

Definition fn_make_builtin : Z := 1. (* src/builtins.c:135 *)
Definition fn_builtin_name : Z := 2. (* src/builtins.c:136 *)
Definition fn_builtin_arity : Z := 3. (* src/builtins.c:137 *)
Definition fn_builtin_p : Z := 4. (* src/builtins.c:138 *)
Definition fn_builtin_printer : Z := 5. (* src/builtins.c:139 *)
Definition fn_car : Z := 6. (* src/builtins.c:141 *)
Definition fn_cdr : Z := 7. (* src/builtins.c:142 *)
Definition fn_list : Z := 8. (* src/builtins.c:143 *)
Definition fn_null_p : Z := 9. (* src/builtins.c:144 *)
Definition fn_eq_p : Z := 10. (* src/builtins.c:145 *)
Definition fn_values : Z := 11. (* src/builtins.c:146 *)
Definition fn_acons : Z := 12. (* src/builtins.c:147 *)
Definition fn_length : Z := 13. (* src/builtins.c:148 *)
Definition fn_error : Z := 14. (* src/builtins.c:149 *)
Definition fn_append2 : Z := 15. (* src/builtins.c:150 *)
Definition fn_append_reverse : Z := 16. (* src/builtins.c:151 *)
Definition fn_reverse_x_ : Z := 17. (* src/builtins.c:152 *)
Definition fn_assq : Z := 18. (* src/builtins.c:153 *)
Definition fn_assoc : Z := 19. (* src/builtins.c:154 *)
Definition fn_display_ : Z := 20. (* src/builtins.c:156 *)
Definition fn_display_error_ : Z := 21. (* src/builtins.c:157 *)
Definition fn_display_port_ : Z := 22. (* src/builtins.c:158 *)
Definition fn_write_ : Z := 23. (* src/builtins.c:159 *)
Definition fn_write_error_ : Z := 24. (* src/builtins.c:160 *)
Definition fn_write_port_ : Z := 25. (* src/builtins.c:161 *)
Definition fn_pairlis : Z := 26. (* src/builtins.c:163 *)
Definition fn_set_car_x : Z := 27. (* src/builtins.c:164 *)
Definition fn_set_cdr_x : Z := 28. (* src/builtins.c:165 *)
Definition fn_set_env_x : Z := 29. (* src/builtins.c:166 *)
Definition fn_add_formals : Z := 30. (* src/builtins.c:167 *)
Definition fn_eval_apply : Z := 31. (* src/builtins.c:168 *)
Definition fn_gc_stats : Z := 32. (* src/builtins.c:170 *)
Definition fn_cons : Z := 33. (* src/builtins.c:171 *)
Definition fn_gc_check : Z := 34. (* src/builtins.c:172 *)
Definition fn_gc : Z := 35. (* src/builtins.c:173 *)
Definition fn_hashq : Z := 36. (* src/builtins.c:175 *)
Definition fn_hash : Z := 37. (* src/builtins.c:176 *)
Definition fn_hashq_get_handle : Z := 38. (* src/builtins.c:177 *)
Definition fn_hashq_ref : Z := 39. (* src/builtins.c:178 *)
Definition fn_hash_ref : Z := 40. (* src/builtins.c:179 *)
Definition fn_hashq_set_x : Z := 41. (* src/builtins.c:180 *)
Definition fn_hash_set_x : Z := 42. (* src/builtins.c:181 *)
Definition fn_hash_table_printer : Z := 43. (* src/builtins.c:182 *)
Definition fn_make_hash_table : Z := 44. (* src/builtins.c:183 *)
Definition fn_type_ : Z := 45. (* src/builtins.c:185 *)
Definition fn_car_ : Z := 46. (* src/builtins.c:186 *)
Definition fn_cdr_ : Z := 47. (* src/builtins.c:187 *)
Definition fn_xassq : Z := 48. (* src/builtins.c:188 *)
Definition fn_memq : Z := 49. (* src/builtins.c:189 *)
Definition fn_equal2_p : Z := 50. (* src/builtins.c:190 *)
Definition fn_last_pair : Z := 51. (* src/builtins.c:191 *)
Definition fn_pair_p : Z := 52. (* src/builtins.c:192 *)
Definition fn_char_to_integer : Z := 53. (* src/builtins.c:193 *)
Definition fn_integer_to_char : Z := 54. (* src/builtins.c:194 *)
Definition fn_greater_p : Z := 55. (* src/builtins.c:196 *)
Definition fn_less_p : Z := 56. (* src/builtins.c:197 *)
Definition fn_is_p : Z := 57. (* src/builtins.c:198 *)
Definition fn_minus : Z := 58. (* src/builtins.c:199 *)
Definition fn_plus : Z := 59. (* src/builtins.c:200 *)
Definition fn_divide : Z := 60. (* src/builtins.c:201 *)
Definition fn_modulo : Z := 61. (* src/builtins.c:202 *)
Definition fn_multiply : Z := 62. (* src/builtins.c:203 *)
Definition fn_logand : Z := 63. (* src/builtins.c:204 *)
Definition fn_logior : Z := 64. (* src/builtins.c:205 *)
Definition fn_lognot : Z := 65. (* src/builtins.c:206 *)
Definition fn_logxor : Z := 66. (* src/builtins.c:207 *)
Definition fn_ash : Z := 67. (* src/builtins.c:208 *)
Definition fn_make_module_type : Z := 68. (* src/builtins.c:210 *)
Definition fn_module_printer : Z := 69. (* src/builtins.c:211 *)
Definition fn_module_variable : Z := 70. (* src/builtins.c:212 *)
Definition fn_module_ref : Z := 71. (* src/builtins.c:213 *)
Definition fn_module_define_x : Z := 72. (* src/builtins.c:214 *)
Definition fn_abort_ : Z := 73. (* src/builtins.c:216 *)
Definition fn_exit_ : Z := 74. (* src/builtins.c:217 *)
Definition fn_peek_byte : Z := 75. (* src/builtins.c:218 *)
Definition fn_read_byte : Z := 76. (* src/builtins.c:219 *)
Definition fn_unread_byte : Z := 77. (* src/builtins.c:220 *)
Definition fn_peek_char : Z := 78. (* src/builtins.c:221 *)
Definition fn_read_char : Z := 79. (* src/builtins.c:222 *)
Definition fn_unread_char : Z := 80. (* src/builtins.c:223 *)
Definition fn_write_char : Z := 81. (* src/builtins.c:224 *)
Definition fn_write_byte : Z := 82. (* src/builtins.c:225 *)
Definition fn_getenv_ : Z := 83. (* src/builtins.c:226 *)
Definition fn_setenv_ : Z := 84. (* src/builtins.c:227 *)
Definition fn_access_p : Z := 85. (* src/builtins.c:228 *)
Definition fn_current_input_port : Z := 86. (* src/builtins.c:229 *)
Definition fn_open_input_file : Z := 87. (* src/builtins.c:230 *)
Definition fn_open_input_string : Z := 88. (* src/builtins.c:231 *)
Definition fn_set_current_input_port : Z := 89. (* src/builtins.c:232 *)
Definition fn_current_output_port : Z := 90. (* src/builtins.c:233 *)
Definition fn_current_error_port : Z := 91. (* src/builtins.c:234 *)
Definition fn_open_output_file : Z := 92. (* src/builtins.c:235 *)
Definition fn_set_current_output_port : Z := 93. (* src/builtins.c:236 *)
Definition fn_set_current_error_port : Z := 94. (* src/builtins.c:237 *)
Definition fn_chmod_ : Z := 95. (* src/builtins.c:238 *)
Definition fn_isatty_p : Z := 96. (* src/builtins.c:239 *)
Definition fn_primitive_fork : Z := 97. (* src/builtins.c:240 *)
Definition fn_execl_ : Z := 98. (* src/builtins.c:241 *)
Definition fn_waitpid_ : Z := 99. (* src/builtins.c:242 *)
Definition fn_current_time : Z := 100. (* src/builtins.c:243 *)
Definition fn_gettimeofday_ : Z := 101. (* src/builtins.c:244 *)
Definition fn_get_internal_run_time : Z := 102. (* src/builtins.c:245 *)
Definition fn_getcwd_ : Z := 103. (* src/builtins.c:246 *)
Definition fn_dup_ : Z := 104. (* src/builtins.c:247 *)
Definition fn_dup2_ : Z := 105. (* src/builtins.c:248 *)
Definition fn_delete_file : Z := 106. (* src/builtins.c:249 *)
Definition fn_read_input_file_env_ : Z := 107. (* src/builtins.c:251 *)
Definition fn_read_input_file_env : Z := 108. (* src/builtins.c:252 *)
Definition fn_read_env : Z := 109. (* src/builtins.c:253 *)
Definition fn_reader_read_sexp : Z := 110. (* src/builtins.c:254 *)
Definition fn_reader_read_character : Z := 111. (* src/builtins.c:255 *)
Definition fn_reader_read_binary : Z := 112. (* src/builtins.c:256 *)
Definition fn_reader_read_octal : Z := 113. (* src/builtins.c:257 *)
Definition fn_reader_read_hex : Z := 114. (* src/builtins.c:258 *)
Definition fn_reader_read_string : Z := 115. (* src/builtins.c:259 *)
Definition fn_frame_printer : Z := 116. (* src/builtins.c:261 *)
Definition fn_make_stack : Z := 117. (* src/builtins.c:262 *)
Definition fn_stack_length : Z := 118. (* src/builtins.c:263 *)
Definition fn_stack_ref : Z := 119. (* src/builtins.c:264 *)
Definition fn_string_equal_p : Z := 120. (* src/builtins.c:266 *)
Definition fn_symbol_to_string : Z := 121. (* src/builtins.c:267 *)
Definition fn_symbol_to_keyword : Z := 122. (* src/builtins.c:268 *)
Definition fn_keyword_to_string : Z := 123. (* src/builtins.c:269 *)
Definition fn_string_to_symbol : Z := 124. (* src/builtins.c:270 *)
Definition fn_make_symbol : Z := 125. (* src/builtins.c:271 *)
Definition fn_string_to_list : Z := 126. (* src/builtins.c:272 *)
Definition fn_list_to_string : Z := 127. (* src/builtins.c:273 *)
Definition fn_read_string : Z := 128. (* src/builtins.c:274 *)
Definition fn_string_append : Z := 129. (* src/builtins.c:275 *)
Definition fn_string_length : Z := 130. (* src/builtins.c:276 *)
Definition fn_string_ref : Z := 131. (* src/builtins.c:277 *)
Definition fn_make_struct : Z := 132. (* src/builtins.c:279 *)
Definition fn_struct_length : Z := 133. (* src/builtins.c:280 *)
Definition fn_struct_ref : Z := 134. (* src/builtins.c:281 *)
Definition fn_struct_set_x : Z := 135. (* src/builtins.c:282 *)
Definition fn_make_vector : Z := 136. (* src/builtins.c:284 *)
Definition fn_vector_length : Z := 137. (* src/builtins.c:285 *)
Definition fn_vector_ref : Z := 138. (* src/builtins.c:286 *)
Definition fn_vector_entry : Z := 139. (* src/builtins.c:287 *)
Definition fn_vector_set_x : Z := 140. (* src/builtins.c:288 *)
Definition fn_list_to_vector : Z := 141. (* src/builtins.c:289 *)
Definition fn_vector_to_list : Z := 142. (* src/builtins.c:290 *)

Definition builtin_table : list (list Z * Z * Z) :=
  [ (bytes_of "make-builtin", 4, fn_make_builtin)
  ; (bytes_of "builtin-name", 1, fn_builtin_name)
  ; (bytes_of "builtin-arity", 1, fn_builtin_arity)
  ; (bytes_of "builtin?", 1, fn_builtin_p)
  ; (bytes_of "builtin-printer", 1, fn_builtin_printer)
  ; (bytes_of "car", 1, fn_car)
  ; (bytes_of "cdr", 1, fn_cdr)
  ; (bytes_of "list", (-1), fn_list)
  ; (bytes_of "null?", 1, fn_null_p)
  ; (bytes_of "eq?", 2, fn_eq_p)
  ; (bytes_of "values", (-1), fn_values)
  ; (bytes_of "acons", 3, fn_acons)
  ; (bytes_of "length", 1, fn_length)
  ; (bytes_of "error", 2, fn_error)
  ; (bytes_of "append2", 2, fn_append2)
  ; (bytes_of "append-reverse", 2, fn_append_reverse)
  ; (bytes_of "core:reverse!", 2, fn_reverse_x_)
  ; (bytes_of "assq", 2, fn_assq)
  ; (bytes_of "assoc", 2, fn_assoc)
  ; (bytes_of "core:display", 1, fn_display_)
  ; (bytes_of "core:display-error", 1, fn_display_error_)
  ; (bytes_of "core:display-port", 2, fn_display_port_)
  ; (bytes_of "core:write", 1, fn_write_)
  ; (bytes_of "core:write-error", 1, fn_write_error_)
  ; (bytes_of "core:write-port", 2, fn_write_port_)
  ; (bytes_of "pairlis", 3, fn_pairlis)
  ; (bytes_of "set-car!", 2, fn_set_car_x)
  ; (bytes_of "set-cdr!", 2, fn_set_cdr_x)
  ; (bytes_of "set-env!", 3, fn_set_env_x)
  ; (bytes_of "add-formals", 2, fn_add_formals)
  ; (bytes_of "eval-apply", 0, fn_eval_apply)
  ; (bytes_of "gc-stats", 0, fn_gc_stats)
  ; (bytes_of "cons", 2, fn_cons)
  ; (bytes_of "gc-check", 0, fn_gc_check)
  ; (bytes_of "gc", 0, fn_gc)
  ; (bytes_of "hashq", 2, fn_hashq)
  ; (bytes_of "hash", 2, fn_hash)
  ; (bytes_of "hashq-get-handle", 3, fn_hashq_get_handle)
  ; (bytes_of "hashq-ref", 3, fn_hashq_ref)
  ; (bytes_of "hash-ref", 3, fn_hash_ref)
  ; (bytes_of "hashq-set!", 3, fn_hashq_set_x)
  ; (bytes_of "hash-set!", 3, fn_hash_set_x)
  ; (bytes_of "hash-table-printer", 1, fn_hash_table_printer)
  ; (bytes_of "make-hash-table", 1, fn_make_hash_table)
  ; (bytes_of "core:type", 1, fn_type_)
  ; (bytes_of "core:car", 1, fn_car_)
  ; (bytes_of "core:cdr", 1, fn_cdr_)
  ; (bytes_of "xassq", 2, fn_xassq)
  ; (bytes_of "memq", 2, fn_memq)
  ; (bytes_of "equal2?", 2, fn_equal2_p)
  ; (bytes_of "last-pair", 1, fn_last_pair)
  ; (bytes_of "pair?", 1, fn_pair_p)
  ; (bytes_of "char->integer", 1, fn_char_to_integer)
  ; (bytes_of "integer->char", 1, fn_integer_to_char)
  ; (bytes_of ">", (-1), fn_greater_p)
  ; (bytes_of "<", (-1), fn_less_p)
  ; (bytes_of "=", (-1), fn_is_p)
  ; (bytes_of "-", (-1), fn_minus)
  ; (bytes_of "+", (-1), fn_plus)
  ; (bytes_of "/", (-1), fn_divide)
  ; (bytes_of "modulo", 2, fn_modulo)
  ; (bytes_of "*", (-1), fn_multiply)
  ; (bytes_of "logand", (-1), fn_logand)
  ; (bytes_of "logior", (-1), fn_logior)
  ; (bytes_of "lognot", 1, fn_lognot)
  ; (bytes_of "logxor", (-1), fn_logxor)
  ; (bytes_of "ash", 2, fn_ash)
  ; (bytes_of "make-module-type", 0, fn_make_module_type)
  ; (bytes_of "module-printer", 1, fn_module_printer)
  ; (bytes_of "module-variable", 2, fn_module_variable)
  ; (bytes_of "module-ref", 2, fn_module_ref)
  ; (bytes_of "module-define!", 3, fn_module_define_x)
  ; (bytes_of "abort", 0, fn_abort_)
  ; (bytes_of "exit", 1, fn_exit_)
  ; (bytes_of "peek-byte", 0, fn_peek_byte)
  ; (bytes_of "read-byte", 0, fn_read_byte)
  ; (bytes_of "unread-byte", 1, fn_unread_byte)
  ; (bytes_of "peek-char", 0, fn_peek_char)
  ; (bytes_of "read-char", (-1), fn_read_char)
  ; (bytes_of "unread-char", 1, fn_unread_char)
  ; (bytes_of "write-char", (-1), fn_write_char)
  ; (bytes_of "write-byte", (-1), fn_write_byte)
  ; (bytes_of "getenv", 1, fn_getenv_)
  ; (bytes_of "setenv", 2, fn_setenv_)
  ; (bytes_of "access?", 2, fn_access_p)
  ; (bytes_of "current-input-port", 0, fn_current_input_port)
  ; (bytes_of "open-input-file", 1, fn_open_input_file)
  ; (bytes_of "open-input-string", 1, fn_open_input_string)
  ; (bytes_of "set-current-input-port", 1, fn_set_current_input_port)
  ; (bytes_of "current-output-port", 0, fn_current_output_port)
  ; (bytes_of "current-error-port", 0, fn_current_error_port)
  ; (bytes_of "open-output-file", (-1), fn_open_output_file)
  ; (bytes_of "set-current-output-port", 1, fn_set_current_output_port)
  ; (bytes_of "set-current-error-port", 1, fn_set_current_error_port)
  ; (bytes_of "chmod", 2, fn_chmod_)
  ; (bytes_of "isatty?", 1, fn_isatty_p)
  ; (bytes_of "primitive-fork", 0, fn_primitive_fork)
  ; (bytes_of "execl", 2, fn_execl_)
  ; (bytes_of "core:waitpid", 2, fn_waitpid_)
  ; (bytes_of "current-time", 0, fn_current_time)
  ; (bytes_of "gettimeofday", 0, fn_gettimeofday_)
  ; (bytes_of "get-internal-run-time", 0, fn_get_internal_run_time)
  ; (bytes_of "getcwd", 0, fn_getcwd_)
  ; (bytes_of "dup", 1, fn_dup_)
  ; (bytes_of "dup2", 2, fn_dup2_)
  ; (bytes_of "delete-file", 1, fn_delete_file)
  ; (bytes_of "core:read-input-file-env", 2, fn_read_input_file_env_)
  ; (bytes_of "read-input-file-env", 1, fn_read_input_file_env)
  ; (bytes_of "read-env", 1, fn_read_env)
  ; (bytes_of "reader-read-sexp", 3, fn_reader_read_sexp)
  ; (bytes_of "reader-read-character", 0, fn_reader_read_character)
  ; (bytes_of "reader-read-binary", 0, fn_reader_read_binary)
  ; (bytes_of "reader-read-octal", 0, fn_reader_read_octal)
  ; (bytes_of "reader-read-hex", 0, fn_reader_read_hex)
  ; (bytes_of "reader-read-string", 0, fn_reader_read_string)
  ; (bytes_of "frame-printer", 1, fn_frame_printer)
  ; (bytes_of "make-stack", (-1), fn_make_stack)
  ; (bytes_of "stack-length", 1, fn_stack_length)
  ; (bytes_of "stack-ref", 2, fn_stack_ref)
  ; (bytes_of "string=?", 2, fn_string_equal_p)
  ; (bytes_of "symbol->string", 1, fn_symbol_to_string)
  ; (bytes_of "symbol->keyword", 1, fn_symbol_to_keyword)
  ; (bytes_of "keyword->string", 1, fn_keyword_to_string)
  ; (bytes_of "string->symbol", 1, fn_string_to_symbol)
  ; (bytes_of "make-symbol", 1, fn_make_symbol)
  ; (bytes_of "string->list", 1, fn_string_to_list)
  ; (bytes_of "list->string", 1, fn_list_to_string)
  ; (bytes_of "read-string", (-1), fn_read_string)
  ; (bytes_of "string-append", (-1), fn_string_append)
  ; (bytes_of "string-length", 1, fn_string_length)
  ; (bytes_of "string-ref", 2, fn_string_ref)
  ; (bytes_of "make-struct", 3, fn_make_struct)
  ; (bytes_of "struct-length", 1, fn_struct_length)
  ; (bytes_of "struct-ref", 2, fn_struct_ref)
  ; (bytes_of "struct-set!", 3, fn_struct_set_x)
  ; (bytes_of "make-vector", (-1), fn_make_vector)
  ; (bytes_of "vector-length", 1, fn_vector_length)
  ; (bytes_of "vector-ref", 2, fn_vector_ref)
  ; (bytes_of "vector-entry", 1, fn_vector_entry)
  ; (bytes_of "vector-set!", 3, fn_vector_set_x)
  ; (bytes_of "list->vector", 1, fn_list_to_vector)
  ; (bytes_of "vector->list", 1, fn_vector_to_list) ].
