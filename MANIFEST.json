{
 "claims": [
  {
   "property": "C01",
   "status": "proved",
   "theorems": [
    "C01_history_refines_std",
    "C01_every_instantiation"
   ],
   "note": "Refinement for every history, environment and world; hypotheses env_ok/op_ok are discharged for the library's strategies in Manip.v/Sample.v."
  },
  {
   "property": "C02",
   "status": "proved",
   "theorems": [
    "C02_default_empty_on_any_memory",
    "C02_default_nullopt_empty",
    "C02_every_instantiation"
   ],
   "note": ""
  },
  {
   "property": "C03",
   "status": "proved",
   "theorems": [
    "C03_read_back"
   ],
   "note": ""
  },
  {
   "property": "C04",
   "status": "proved",
   "theorems": [
    "C04_double_all_but_one",
    "C04_double_values",
    "C04_every_number"
   ],
   "note": ""
  },
  {
   "property": "C05",
   "status": "proved",
   "theorems": [
    "C05_float_all_but_one",
    "C05_float_values",
    "C05_every_number"
   ],
   "note": ""
  },
  {
   "property": "C06",
   "status": "proved",
   "theorems": [
    "C06_bool_three_states",
    "C06_no_invented_values",
    "C06_bool_only_bools"
   ],
   "note": ""
  },
  {
   "property": "C07",
   "status": "proved",
   "theorems": [
    "C07_pointer64_all_but_one",
    "C07_pointer64_values",
    "C07_pointer32_all_but_one",
    "C07_pointer32_values"
   ],
   "note": ""
  },
  {
   "property": "C08",
   "status": "proved",
   "theorems": [
    "C08_integer_sentinel",
    "C08_double_sentinel",
    "C08_float_sentinel",
    "C08_double_patterns",
    "C08_float_patterns",
    "C08_bool_sentinel",
    "C08_pointer_sentinel",
    "C08_enum_sentinel"
   ],
   "note": ""
  },
  {
   "property": "C09",
   "status": "proved",
   "theorems": [
    "C09_debug_detects_sentinel"
   ],
   "note": ""
  },
  {
   "property": "C10",
   "status": "proved",
   "theorems": [
    "C10_release_sentinel_leaks"
   ],
   "note": ""
  },
  {
   "property": "C11",
   "status": "proved",
   "theorems": [
    "C11_emplace",
    "C11_assign_to_empty",
    "C11_copy_assign_to_empty",
    "C11_move_assign_to_empty",
    "C11_throwing_construction_leaves_empty",
    "C11_usable_afterwards"
   ],
   "note": ""
  },
  {
   "property": "C12",
   "status": "proved",
   "theorems": [
    "C12_assign_engaged",
    "C12_copy_assign_engaged",
    "C12_move_assign_engaged"
   ],
   "note": ""
  },
  {
   "property": "C13",
   "status": "proved",
   "theorems": [
    "C13_throwing_swap",
    "C13_swap_outcome"
   ],
   "note": "About the member function swap and the library's swap function. What `using std::swap; swap(a, b)` calls for tiny::optional is C54."
  },
  {
   "property": "C14",
   "status": "proved",
   "theorems": [
    "C14_source_bytes_unchanged",
    "C14_copy_construct",
    "C14_independent_afterwards"
   ],
   "note": ""
  },
  {
   "property": "C15",
   "status": "proved",
   "theorems": [
    "C15_move_construct",
    "C15_move_assign_from_empty",
    "C15_source_keeps_engagement"
   ],
   "note": ""
  },
  {
   "property": "C16",
   "status": "proved",
   "theorems": [
    "C16_payload_destroyed_exactly_once"
   ],
   "note": ""
  },
  {
   "property": "C17",
   "status": "partial",
   "theorems": [
    "C17_flag_of_empty_optional_refuted",
    "C17_flag_of_failed_construction_refuted",
    "C17_flag_balance",
    "C17_exact_loss",
    "C17_destructor"
   ],
   "note": "Partial because the statement is false of the code as given; this is settled by the _refuted theorem(s), and the part that is true is proved. By the two _refuted theorems: destroying an empty in-place optional, and a constructor that throws, leave the flag object undestroyed. Proved instead: the exact number of flag objects lost, for every history (C17_exact_loss, C17_flag_balance)."
  },
  {
   "property": "C18",
   "status": "proved",
   "theorems": [
    "C18_no_fault",
    "C18_flag_always_readable"
   ],
   "note": ""
  },
  {
   "property": "C19",
   "status": "proved",
   "theorems": [
    "C19_self_engaged",
    "C19_self_empty"
   ],
   "note": ""
  },
  {
   "property": "C20",
   "status": "proved",
   "theorems": [
    "C20_emplace_own_payload_undefined",
    "C20_std_undefined"
   ],
   "note": ""
  },
  {
   "property": "C21",
   "status": "proved",
   "theorems": [
    "C21_reset_empty_is_noop",
    "C21_reset_engaged",
    "C21_reset_like_fresh"
   ],
   "note": ""
  },
  {
   "property": "C22",
   "status": "proved",
   "theorems": [
    "C22_value_throws_iff_empty",
    "C22_value_in_histories",
    "C22_unchecked_access_of_empty"
   ],
   "note": ""
  },
  {
   "property": "C23",
   "status": "proved",
   "theorems": [
    "C23_value_or_copy",
    "C23_value_or_move"
   ],
   "note": ""
  },
  {
   "property": "C24",
   "status": "proved",
   "theorems": [
    "C24_swap_exchanges",
    "C24_swap_twice"
   ],
   "note": "About the member function swap and the library's swap function; for the generic std::swap, which `using std::swap; swap(a, b)` selects for tiny::optional, see C54_std_swap_exchanges."
  },
  {
   "property": "C25",
   "status": "proved",
   "theorems": [
    "C25_and_then",
    "C25_transform",
    "C25_or_else",
    "C25_left_identity",
    "C25_right_identity",
    "C25_associativity",
    "C25_functor_identity",
    "C25_functor_composition"
   ],
   "note": ""
  },
  {
   "property": "C26",
   "status": "partial",
   "theorems": [
    "C26_transform_propagates",
    "C26_refuted"
   ],
   "note": "Partial because the statement is false of the code as given; this is settled by the _refuted theorem(s), and the part that is true is proved. Proved unless the construction of the result from the callable's return value is noexcept; for that case refuted (C26_refuted): the exception terminates the program."
  },
  {
   "property": "C27",
   "status": "proved",
   "theorems": [
    "C27_never_terminates",
    "C27_noexcept_condition",
    "C27_access_never_throws"
   ],
   "note": ""
  },
  {
   "property": "C28",
   "status": "partial",
   "theorems": [
    "C28_relational_operators",
    "C28_evaluated_expression",
    "C28_rewritten_less_refuted"
   ],
   "note": "Partial because the statement is false of the code as given; this is settled by the _refuted theorem(s), and the part that is true is proved. Proved as stated if the operator itself is called, and for rewritten expressions if the payload's operators agree with each other (cmp_ok); C28_evaluated_expression says what is computed otherwise. Refuted beyond that: C28_rewritten_less_refuted (in C++20 a < b on three-way comparable payloads calls the payload's <=>, not its <)."
  },
  {
   "property": "C29",
   "status": "proved",
   "theorems": [
    "C29_comparison_of_contents",
    "C29_strict_weak_order",
    "C29_equivalence",
    "C29_consistent_total"
   ],
   "note": ""
  },
  {
   "property": "C30",
   "status": "proved",
   "theorems": [
    "C30_three_way"
   ],
   "note": ""
  },
  {
   "property": "C31",
   "status": "proved",
   "theorems": [
    "C31_hash",
    "C31_equal_implies_equal_hash"
   ],
   "note": ""
  },
  {
   "property": "C32",
   "status": "proved",
   "theorems": [
    "C32_never_ambiguous",
    "C32_optional_matches_one",
    "C32_bad_payloads_rejected",
    "C32_selection_as_documented",
    "C32_default_manipulator",
    "C32_sentinels_accepted"
   ],
   "note": ""
  },
  {
   "property": "C33",
   "status": "proved",
   "theorems": [
    "C33_sizeof",
    "C33_in_place_iff"
   ],
   "note": ""
  },
  {
   "property": "C34",
   "status": "proved",
   "theorems": [
    "C34_range_check_exact"
   ],
   "note": ""
  },
  {
   "property": "C35",
   "status": "proved",
   "theorems": [
    "C35_sentinel_keeps_value"
   ],
   "note": ""
  },
  {
   "property": "C36",
   "status": "partial",
   "theorems": [
    "C36_aip_default_in_place",
    "C36_aip_sentinel_in_place",
    "C36_aip_integers",
    "C36_aip_size_refuted",
    "C36_aip_default_value_refuted"
   ],
   "note": "Partial because the statement is false of the code as given; this is settled by the _refuted theorem(s), and the part that is true is proved. Proved except for two cases, refuted: a member pointer as second argument while the member trick is switched off by a macro, and UseDefaultValue as explicit second argument; both compile and are larger than T."
  },
  {
   "property": "C37",
   "status": "proved",
   "theorems": [
    "C37_still_compiles",
    "C37_size_grows",
    "C37_same_behaviour",
    "C37_any_two_configurations",
    "C37_unused_bits_alone_refuted"
   ],
   "note": "Proved as stated, for the combined macro, and between any two configurations under which the program compiles. C37_unused_bits_alone_refuted: one of the single macros alone makes some types ill-formed."
  },
  {
   "property": "C38",
   "status": "partial",
   "theorems": [
    "C38_rules_unambiguous",
    "C38_natvis_agrees",
    "C38_shipped_namespace",
    "C38_user_specialization_refuted"
   ],
   "note": "Partial because the statement is false of the code as given; this is settled by the _refuted theorem(s), and the part that is true is proved. Proved for the strategies that the library itself chooses. Refuted where the user has specialized optional_flag_manipulator for such a type (C38_user_specialization_refuted)."
  },
  {
   "property": "C39",
   "status": "partial",
   "theorems": [
    "C39_default_empty",
    "C39_floating_sentinel",
    "C39_nan_sentinel_refuted",
    "C39_sentinel_flag_manipulator",
    "C39_sentinel_flag_manipulator_refuted"
   ],
   "note": "Partial because the statement is false of the code as given; this is settled by the _refuted theorem(s), and the part that is true is proved. Proved for all accepted sentinels except NaN and out-of-range values of sentinel_flag_manipulator; refuted for these two."
  },
  {
   "property": "C40",
   "status": "proved",
   "theorems": [
    "C40_query_reads_only_flag",
    "C40_empty_optional_reads_only_flag",
    "C40_default_writes_only_flag",
    "C40_flag_functions_write_only_flag",
    "C40_reset_writes_only_flag",
    "C40_flag_is_where_the_arguments_say"
   ],
   "note": ""
  },
  {
   "property": "C41",
   "status": "proved",
   "theorems": [
    "C41_read_only"
   ],
   "note": ""
  },
  {
   "property": "C42",
   "status": "proved",
   "theorems": [
    "C42_call_is_local",
    "C42_history_is_local",
    "C42_contents_of_others"
   ],
   "note": ""
  },
  {
   "property": "C43",
   "status": "proved",
   "theorems": [
    "C43_as_std_optional",
    "C43_fallback_to_copy",
    "C43_never_trivial"
   ],
   "note": ""
  },
  {
   "property": "C44",
   "status": "proved",
   "theorems": [
    "C44_braces_empty",
    "C44_braces_compile",
    "C44_braces_volatile",
    "C44_converting_constructor",
    "C44_converting_assignment",
    "C44_scalar_value",
    "C44_forwarding",
    "C44_braces_effect",
    "C44_scalar_value_effect"
   ],
   "note": "Proved as stated. In addition: for volatile scalars a value is stored (C44_braces_volatile), as the standard's own condition implies."
  },
  {
   "property": "C45",
   "status": "proved",
   "theorems": [
    "C45_other_optional",
    "C45_scalars",
    "C45_bool",
    "C45_same_implementation",
    "C45_bool_refuted"
   ],
   "note": "Proved as stated; C45_bool_refuted shows that the intention fails for bool."
  },
  {
   "property": "C46",
   "status": "partial",
   "theorems": [
    "C46_builds_do_not_share_symbols",
    "C46_documented_names",
    "C46_version_decodes",
    "C46_version_unique",
    "C46_flag_manipulator_differs_refuted",
    "C46_flag_manipulator_differs"
   ],
   "note": "Partial because the statement is false of the code as given; this is settled by the _refuted theorem(s), and the part that is true is proved. Proved for all entities in the inline namespace. Refuted for optional_flag_manipulator, which is declared outside of it (C46_flag_manipulator_differs_refuted)."
  },
  {
   "property": "C47",
   "status": "proved",
   "theorems": [
    "C47_nested",
    "C47_levels_apart",
    "C47_client_make",
    "C47_client_use",
    "C47_inner_swap_refuted"
   ],
   "note": "The comparison includes which swap the inner optionals are swapped with (a parameter of each level); with the generic one, used for tiny::optional inside, the std::optionals of the comparison are exchanged by the generic algorithm as well, and C47_inner_swap_refuted shows the consequence (C54)."
  },
  {
   "property": "C48",
   "status": "proved",
   "theorems": [
    "C48_third_argument",
    "C48_third_argument_matters"
   ],
   "note": ""
  },
  {
   "property": "C49",
   "status": "proved",
   "theorems": [
    "C49_calls_checked",
    "C49_preconditions_never_violated",
    "C49_init_and_invalidate_alternate"
   ],
   "note": ""
  },
  {
   "property": "C50",
   "status": "proved",
   "theorems": [
    "C50_enumerator_sentinel_changed_refuted",
    "C50_enumerator_sentinel"
   ],
   "note": "Proved as stated; the theorem named _refuted refutes that the value meaning empty is always the one written."
  },
  {
   "property": "C51",
   "status": "proved",
   "theorems": [
    "C51_assertion_on_move",
    "C51_source_lost",
    "C51_separate_flag_not_affected"
   ],
   "note": "Proved as stated, for every way in which the payload can be moved out."
  },
  {
   "property": "C52",
   "status": "proved",
   "theorems": [
    "C52_has_value_never_terminates",
    "C52_nothrow_copy_suffices",
    "C52_value_like_flags",
    "C52_checked_operation_refuted"
   ],
   "note": "Proved as stated; the theorem named _refuted is the failing half (noexcept of the assignment is checked, the copy constructor is called)."
  },
  {
   "property": "C53",
   "status": "partial",
   "theorems": [
    "C53_relational_expressions",
    "C53_three_way_expressions",
    "C53_gcc_three_way_refuted",
    "C53_derived_class_refuted"
   ],
   "note": "Partial because the statement is false of the code as given; this is settled by the _refuted theorem(s), and the part that is true is proved. Proved for all language modes, operand kinds and constraint outcomes in scope. Refuted for gcc without CWG 2445 (C53_gcc_three_way_refuted) and for classes derived from tiny::optional against std::optional (C53_derived_class_refuted)."
  },
  {
   "property": "C54",
   "status": "partial",
   "theorems": [
    "C54_function_called",
    "C54_library_swap_bypassed",
    "C54_alias_as_std",
    "C54_qualified",
    "C54_mixed_classes",
    "C54_swappable",
    "C54_swappable_deleted_refuted",
    "C54_noexcept",
    "C54_noexcept_as_std",
    "C54_noexcept_refuted",
    "C54_std_swap_outcome",
    "C54_std_swap_self",
    "C54_engagement_after_throw",
    "C54_value_lost_refuted",
    "C54_std_swap_exchanges",
    "C54_payload_swap_unused",
    "C54_member_swap_uses_it"
   ],
   "note": "Partial because the statement is false of the code as given; this is settled by the _refuted theorem(s), and the part that is true is proved: which function is called for every form of the call, class and trait combination (C54_function_called and corollaries), the exact outcome of the generic std::swap on two optionals including exceptions (C54_std_swap_outcome, C54_std_swap_self), and the one case where engagement is lost (C54_engagement_after_throw)."
  },
  {
   "property": "C55",
   "status": "proved",
   "theorems": [
    "C55_every_exercise_passes",
    "C55_sentinel_as_test_value_fails"
   ],
   "note": "All 45 tests of the suite, in its order and with its names; swap in both forms (member and generic). Not covered: static_asserts and addresses of returned references (C18, C27, C43), std::optional as result of and_then, the volatile branch of the braces test (C44)."
  },
  {
   "property": "C56",
   "status": "proved",
   "theorems": [
    "C56_call_reads_only_operands",
    "C56_threads_do_not_interfere",
    "C56_schedule_is_irrelevant",
    "C56_threads_as_std"
   ],
   "note": "A call is one step of a schedule; C62 refines this to single memory accesses. User code of different threads shares no state."
  },
  {
   "property": "C57",
   "status": "proved",
   "theorems": [
    "C57_deduced_type",
    "C57_nothing_else_is_deduced",
    "C57_deduced_type_as_std",
    "C57_std_optional_is_wrapped",
    "C57_make_optional_of_a_value",
    "C57_make_optional_explicit",
    "C57_make_optional_is_callable",
    "C57_make_optional_type",
    "C57_make_optional_as_std"
   ],
   "note": "Overload resolution and deduction are computed by the definitions in Deduce.v for all argument types; conversions between unrelated types are an arbitrary predicate. A std::optional argument is wrapped (C57_std_optional_is_wrapped), which std::optional's own guide does not do with its own type."
  },
  {
   "property": "C58",
   "status": "proved",
   "theorems": [
    "C58_hash_enabled_as_std",
    "C58_innermost_payload_decides",
    "C58_disabled_is_detectable",
    "C58_derived_class_has_its_own"
   ],
   "note": "Types are those of Deduce.v (no volatile). A user specialisation of std::hash that is not default constructible does not meet the standard's requirements and counts as not enabled."
  },
  {
   "property": "C59",
   "status": "proved",
   "theorems": [
    "C59_no_program_can_tell",
    "C59_blocks_leave_nothing",
    "C59_best_of_a_list",
    "C59_search"
   ],
   "note": "The client language is small and generic (any local state, any computation between calls); its functions and blocks are those of C++ with automatic variables. The bound n of the executions is quantified: both sides agree for every n, also when they have not ended. C59_best_of_a_list and C59_search verify two clients for all inputs, the second with a recursive function that returns an optional by value."
  },
  {
   "property": "C60",
   "status": "proved",
   "theorems": [
    "C60_and_then_is_its_code",
    "C60_or_else_is_its_code",
    "C60_chain_or_nest"
   ],
   "note": "The first two theorems hold in every state of the machine, including states outside of the contract. C60_chain_or_nest assumes that the version with the chain ends and is defined with std::optional (in particular the name of the temporary is not in use)."
  },
  {
   "property": "C61",
   "status": "partial",
   "theorems": [
    "C61_true_for_tiny_optionals",
    "C61_false_for_other_types",
    "C61_decided_by_one_declaration",
    "C61_derived_classes",
    "C61_no_false_positives",
    "C61_readme_claim_refuted",
    "C61_tells_apart_partial",
    "C61_and_then_accepts"
   ],
   "note": "Partial because the statement is false of the code as given; this is settled by C61_readme_claim_refuted (a user's class with a member is_tiny_optional, and a class derived from an optional, have the trait), and the part that is true is proved: the trait for every type outside those two kinds of classes (C61_tells_apart_partial), for every class hierarchy the exact condition (C61_decided_by_one_declaration, C61_derived_classes), and the types accepted by and_then."
  },
  {
   "property": "C62",
   "status": "proved",
   "theorems": [
    "C62_calls_are_accesses",
    "C62_no_data_race",
    "C62_interleaved_accesses_do_not_interfere",
    "C62_every_thread_finishes",
    "C62_threads_as_std"
   ],
   "note": "Accesses are to whole objects (an optional, a user's variable), memory is sequentially consistent (what the standard guarantees to programs without data races), user code of different threads shares no state. C62_conflict_example shows a race and a broken outcome when calls do conflict."
  },
  {
   "property": "C63",
   "status": "partial",
   "theorems": [
    "C63_separate_flag",
    "C63_in_place_exact",
    "C63_other_members",
    "C63_one_byte_flag",
    "C63_in_place_flag_refuted"
   ],
   "note": "Partial because the statement is false of the code as given; this is settled by C63_in_place_flag_refuted (for every sentinel of two or more bytes that is compared bytewise there are two storable values and a mix of their bytes that has_value() takes for empty, e.g. optional<double>). The part that is true is proved: optionals with a separate flag, with a flag of one byte, modifications outside of the member with the flag, and the exact condition for in-place flags."
  },
  {
   "property": "C64",
   "status": "partial",
   "theorems": [
    "C64_reference_like_object",
    "C64_arrow",
    "C64_const_correct",
    "C64_value_or",
    "C64_and_then",
    "C64_transform",
    "C64_or_else_compiles",
    "C64_or_else_exact",
    "C64_or_else_by_value",
    "C64_or_else_runs_as_std",
    "C64_or_else_refuted"
   ],
   "note": "Partial because the statement is false of the code as given; this is settled by C64_or_else_refuted: or_else is one conditional expression, so a callable that returns a const reference (C++20 wording of [expr.cond], CWG2352) or a const && makes or_else of an rvalue copy the value instead of moving it. Proved: all the rest, the exact condition (C64_or_else_exact), and that executions agree with std::optional where it holds. Callables that return volatile optionals are excluded."
  },
  {
   "property": "C65",
   "status": "proved",
   "theorems": [
    "C65_rules_kept",
    "C65_index_pair",
    "C65_const_payload_not_specialized",
    "C65_flag_in_part",
    "C65_enumeration",
    "C65_iterator",
    "C65_iterator_as_member",
    "C65_static_constexpr"
   ],
   "note": "The README's user code at the level of bytes (Documented.v), as parameters of the same selection and machine model as all other optionals. Layouts (member order, padding) are those of x86/x64; the accessors are modelled as reads of the members' bytes."
  },
  {
   "property": "C66",
   "status": "proved",
   "theorems": [
    "C66_answers",
    "C66_known_beforehand",
    "C66_asking_is_harmless",
    "C66_too_early"
   ],
   "note": "Reentry.v states the functions of Optional.v again with a parameter for how user code is run; with the handler that does not ask they are Optional.v's by computation (step_call). Only questions (has_value, operator bool) are covered, not modification of the calling optional. The table `answers` is the specification; C66_answers: asking has_value() is the same as looking into the table. That a constructor may not ask (C66_too_early) differs from the usual implementations of std::optional, where the answer is no."
  },
  {
   "property": "C67",
   "status": "proved",
   "theorems": [
    "C67_named_bytes_only",
    "C67_model_on_bytes",
    "C67_std_on_bytes",
    "C67_every_instantiation",
    "C67_placement_irrelevant",
    "C67_array"
   ],
   "note": "Generic.v states the functions of Optional.v over an arbitrary machine; with the one of Machine.v they are Optional.v's by computation (step_machine). Flat.v gives a machine that has only bytes. Nothing is said about programs with undefined behaviour in the model. Indeterminate parts of payload values (paddings) are carried along as the model has them. Alignment is not modelled. env_mono is shown for all flag manipulators of the library and of the README."
  },
  {
   "property": "C68",
   "status": "proved",
   "theorems": [
    "C68_within_the_contract",
    "C68_release_on_bytes",
    "C68_debug_on_bytes",
    "C68_stored_sentinel_is_lost",
    "C68_every_instantiation"
   ],
   "note": "swallow_run is the specification: Spec.v's std::optional with another way to store a value (sstep_become: with Spec's own way it is Spec.v). It is undefined where Spec.v is, except that a value that looks empty may be stored. Values whose flag bytes can be neither read as empty nor as not empty (indeterminate bytes under the flag) stay outside. Calls that fetch such a value again through an old reference are not described. With assertions the theorem allows a failed assertion at any call; C10 and C51 say which ones fail."
  },
  {
   "property": "C69",
   "status": "proved",
   "theorems": [
    "C69_every_call_can_be_written",
    "C69_every_type_can_be_written",
    "C69_any_depth",
    "C69_remembers_at_every_depth"
   ],
   "note": "The program is written once (code: computations, calls, work on the world below) and executed with tiny optionals on all levels (tiny) and with Spec.v's std::optional on all levels (std). User code on level n + 1 uses optionals whose user code is of level n; code that uses the very optionals it is called from is in C65 and C66. Code on each level terminates (programs that may run on are in C59). After a call with undefined behaviour code goes on with an arbitrary result and the world is marked (violated). C69_remembers_at_every_depth is a concrete program for every depth."
  },
  {
   "property": "C70",
   "status": "proved",
   "theorems": [
    "C70_recursive_user_code",
    "C70_depth_irrelevant",
    "C70_every_height"
   ],
   "note": "The program is a table of functions; a body is code of Worlds.v (calls to optionals, calls of other functions) or works on the user's world. The depth of nested calls is a parameter of the execution; a program that exceeds it is regarded as faulty, and C70_depth_irrelevant and the bound 'for all m >= n' of C70_recursive_user_code make the depth disappear. While a call is in progress the memory is divided into its operands, on which the call works, and the rest, on which user code works; this loses nothing, since a call neither reads nor changes anything but its operands (C56, C42). User code that uses an operand of a call in progress is outside (flagged as an error; C65 and C66 are about that). C70_every_height is a concrete recursive program for every height."
  },
  {
   "property": "C71",
   "status": "proved",
   "theorems": [
    "C71_text_is_model",
    "C71_text_deterministic",
    "C71_text_refines_std"
   ],
   "note": "Source.v is generated from /repo/include/tiny/optional.h by tools/cpp2coq.py (170 functions as trees); Exec.v is an interpreter of such trees; Texts.v lists the ways to write each call. The per-call lemmas execute the trees symbolically in an arbitrary state and prove equality with the model of Program.v, so that all properties of the model are properties of the text. Trusted: the translator (no interpretation, it drops comments, attributes, template heads and requires clauses) and the interpreter's C++ rules. Flag manipulators and decompositions are primitives here; C72 does the same for their text."
  },
  {
   "property": "C72",
   "status": "proved",
   "theorems": [
    "C72_manipulator_text",
    "C72_decomposition_text",
    "C72_shape_kept",
    "C72_selected_text",
    "C72_every_instantiation"
   ],
   "note": "Flags.v executes the trees of Source.v for the decompositions and flag manipulators on the bytes of the storage. C72_manipulator_text: the model's is_empty/init/invalidate (used by all other theorems) equal the executed text, except that the model additionally treats invalidate_empty_flag of a non-empty optional as a violated precondition. C72_selected_text: every nameable optional uses such text or a user's specialisation."
  },
  {
   "property": "C73",
   "status": "partial",
   "theorems": [
    "C73_where_addresses_are_taken",
    "C73_library_strategies",
    "C73_sentinel_flag_manipulator_refuted",
    "C73_sentinel_flag_manipulator_builtin"
   ],
   "note": "Refuted for sentinel_flag_manipulator (init_empty_flag, optional.h:240, uses the operator & of the payload). Proved: all other functions of the header take addresses with std::addressof only (line 837 uses & in an unevaluated operand of a static_assert, so a type with an overloaded & has to make this expression well formed), and the library's own strategies do not depend on an overload."
  },
  {
   "property": "C74",
   "status": "proved",
   "theorems": [
    "C74_range_check_text",
    "C74_sentinel_text",
    "C74_sentinels_accepted_text",
    "C74_value_kept",
    "C74_constants"
   ],
   "note": "Constants.v is generated from the header by tools/cpp2coq.py --constants; CompileTime.v interprets it. Types of equal width and signedness are identified in common_type_t."
  },
  {
   "property": "C75",
   "status": "proved",
   "theorems": [
    "C75_via_type_text",
    "C75_optional_text",
    "C75_inplace_text",
    "C75_aip_text",
    "C75_aip_sentinel_text",
    "C75_as_documented",
    "C75_one_meaning",
    "C75_sentinels_accepted",
    "C75_text_types",
    "C75_text_types_lawful",
    "C75_special_member_bases"
   ],
   "note": "Templates.v is generated from the header by tools/cpp2coq.py --templates; Instantiate.v evaluates it to decision trees, SelectionText.v runs them with the facts of a program. Partial specializations of users that overlap with the library's are not modelled; the classes between StorageBase and TinyOptionalImpl are shown not to matter (C75_special_member_bases)."
  },
  {
   "property": "C76",
   "status": "proved",
   "theorems": [
    "C76_copy_and_move_as_std",
    "C76_noexcept_as_std",
    "C76_exists"
   ],
   "note": "Specials.v is generated from the header by tools/cpp2coq.py --specials; Declared.v evaluates declarations of Source.v, Specials.v and Templates.v for arbitrary traits. Whether templates are constrained away (C44) is not part of it."
  },
  {
   "property": "C77",
   "status": "proved",
   "theorems": [
    "C77_comparison_candidates",
    "C77_comparison_called",
    "C77_other_functions",
    "C77_swap",
    "C77_converting_constructor",
    "C77_converting_assignment",
    "C77_braces",
    "C77_other_optional",
    "C77_conversions",
    "C77_explicit",
    "C77_explicit_complete"
   ],
   "note": "Heads.v is generated from the header by tools/cpp2coq.py --heads; Constraints.v evaluates heads and conditions. The traits that the conditions ask for (is_constructible, three_way_comparable_with, ...) are given by arbitrary functions of the types. The overload resolution rules themselves are those of Overload.v, CmpOverload.v and SwapCall.v. The known deviations (volatile scalars with {}, bool from other optionals, gcc's <=>) are those of C44, C45 and C53. Explicit.v reads the specifier explicit of constructors and conversion functions from DataText.v."
  },
  {
   "property": "C78",
   "status": "proved",
   "theorems": [
    "C78_deduced_type",
    "C78_nothing_else_is_deduced",
    "C78_deduced_type_as_std",
    "C78_make_optional_of_a_value",
    "C78_make_optional_explicit",
    "C78_make_optional_is_callable",
    "C78_make_optional_as_std",
    "C78_hash_enabled_as_std",
    "C78_hash_innermost_payload",
    "C78_hash_disabled_is_detectable",
    "C78_hash_call"
   ],
   "note": "Library.v is generated from the header by tools/cpp2coq.py --library; Deduced.v computes guides, candidates, return types, initialisation and hash specialisations from it. The rules for deduction, partial ordering and overload resolution are those of Deduce.v (C57), std::optional is that of C57 and C58. make_optional is recognised by the shapes of its parameters."
  },
  {
   "property": "C79",
   "status": "proved",
   "theorems": [
    "C79_trait_of_classes",
    "C79_trait_is_decided",
    "C79_trait_of_derived_classes",
    "C79_value_or",
    "C79_swap",
    "C79_and_then",
    "C79_transform",
    "C79_or_else",
    "C79_no_other_restrictions",
    "C79_default_constructor_and_destructor",
    "C79_storage",
    "C79_own_functions_qualify"
   ],
   "note": "Accepted.v evaluates Library.v, Source.v and Templates.v. The traits of the payload and of the results of callables are arbitrary; types and classes are those of Traits.v (C61). Whether an expression in a function body compiles is not part of it."
  },
  {
   "property": "C80",
   "status": "proved",
   "theorems": [
    "C80_members",
    "C80_not_ambiguous",
    "C80_base_classes",
    "C80_flag_manipulators",
    "C80_constructors",
    "C80_inherited_constructors",
    "C80_base_alias",
    "C80_using_declarations",
    "C80_executed",
    "C80_names",
    "C80_other_classes"
   ],
   "note": "Members.v is the text of the classes (access, declarations, using-declarations, base classes), Interface.v the lookup and access rules of C++ for it. Which overload is chosen and whether its arguments convert is not part of it (C64, C77); names of types inside template arguments are not looked up."
  },
  {
   "property": "C81",
   "status": "proved",
   "theorems": [
    "C81_types",
    "C81_template_parameters",
    "C81_deduced"
   ],
   "note": "Types are text in Source.v and Heads.v; TypeNames.v reads the identifiers out of it. Identifiers after :: are not looked up in the scope they name, names of namespace std are taken as declared, and the specialisation of std::hash is left out (C78 reads it). Whether a deduction succeeds for given argument types is C77."
  },
  {
   "property": "C82",
   "status": "proved",
   "theorems": [
    "C82_storage",
    "C82_layout",
    "C82_is_compressed",
    "C82_is_tiny_optional",
    "C82_value_type",
    "C82_lifetime",
    "C82_memory_model",
    "C82_selected"
   ],
   "note": "DataText.v is the text of the classes, Layout.v the rules of layout (bases first, members in order, rounding; sizeof(bool) = 1, no virtual functions, which the reader checks). Which way to store the flag is chosen for a payload is C75; that is_compressed and value_type are found in these classes is C80."
  },
  {
   "property": "C83",
   "status": "proved",
   "theorems": [
    "C83_compile_time",
    "C83_not_literal",
    "C83_methods",
    "C83_not_declared_constexpr_refuted",
    "C83_declared_constexpr"
   ],
   "note": "Constexpr.v lists the functions that the header declares constexpr (tools/cpp2coq.py --constexpr), ConstantUse.v has the calls in the trees. Overloads are told apart by name only, functions of the standard library and the user are taken as constexpr; the conditions of literal types and constant calls are necessary ones. That and_then, transform and or_else are declared constexpr although the README says that methods are not is C83_not_declared_constexpr_refuted; the claim itself is about what can be evaluated and holds."
  }
 ]
}