# Design of the formal model of tiny-optional

Source: `/repo/include/tiny/optional.h` (version 100301), and
`/repo/include/tiny_optional.natvis`.  Everything is Rocq (Coq 8.16.1), standard
library only, in `rocq/theories` (logical name `Verif`).  Every definition carries a
comment that cites the lines it mirrors.

## Structure

| file | contents |
|------|----------|
| `Cells`, `CellsFacts` | object representations: lists of cells (indeterminate, byte, opaque atom); sub-ranges and overwriting |
| `Machine` | the C++ abstract machine: regions with object lifetimes (ghost bits), exceptions, noexcept, assert, undefined behaviour; user code as arbitrary functions on an arbitrary "world" that may throw whenever it wants |
| `Optional` | `StorageBase`, the construct/assign bases, `TinyOptionalImpl`, comparison and hash functions, one definition per C++ function, generic in decomposition and flag manipulator exactly like the templates |
| `Program` | API calls as a datatype; a driver that runs any list of them and catches exceptions between calls |
| `Spec` | std::optional of the C++ standard on `option value`, written without reference to `Optional` |
| `Laws` | what a storage strategy and a payload type must satisfy; when an API call is within the contract |
| `Refine` | simulation between `Optional` and `Spec`, one lemma per operation, induction over programs |
| `Effects`, `Frame`, `Lifetime`, `Noexcept`, `Locality` | other invariants of all operations in all states: events, untouched memory, lifetime automaton, nothrow, locality |
| `Bits`, `Manip` | bytes, IEEE formats and the library's concrete flag manipulators, shown to satisfy `Laws` |
| `Contract`, `SpecTac`, `ExampleTac`, `Sample` | vocabulary of the theorems; tactics; concrete environments for the examples |
| `Histories`, `Leaks`, `Exceptions`, `Values`, `Monadic`, `Compare`, `Moved`, `Nested`, `FlagClass` | theorems about executions |
| `IntRange`, `Select`, `Selection`, `Smf`, `Overload`, `CmpOverload`, `SwapCall`, `Namespace`, `Natvis` | the compile time part (range check, selection of the storage strategy, special members, overload resolution of constructors, assignments, comparisons and swap, namespaces) and the debugger visualisation as total functions, with their theorems |
| `Deduce`, `HashEnable`, `Traits` | class template argument deduction, make_optional; for which types std::hash is enabled; is_tiny_optional_v by name lookup in class hierarchies |
| `Exercises` | the test suite of tests/Exercises.h as histories with demanded observations |
| `Clients`, `Callables` | programs with loops, exceptions, blocks, recursion and functions that return optionals; monadic operations with such programs as callables |
| `Reentry` | user code that asks the optionals it is called from for has_value() |
| `Generic`, `Flat` | the functions of `Optional` over any machine, and a simulation theorem; a machine that is one array of bytes |
| `Swallow`, `Forgets` | `Spec`'s std::optional with another way to store; the library beyond the contract: sentinels stored anyway |
| `Worlds` | user code that itself uses optionals, on any number of levels |
| `Recursion` | user code that uses other optionals of the same program, recursively |
| `Categories` | overloads for const, lvalue and rvalue objects; the conditional expression of or_else |
| `Threads`, `Accesses` | schedules of calls of several threads, and of their single memory accesses |
| `Tearing` | has_value() while the value is modified through a reference |
| `Sentinels`, `Numbers`, `Scalars`, `Provenance`, `Defaults`, `Whole`, `Configs` | theorems that combine selection and execution |
| `Documented` | the flag manipulators of the README (user code) and what the library makes of them |
| `Data` | representation independence of the specification (of payload values and of the user's world), used by `Nested` and `Worlds` |
| `Syntax`, `Source` | the text of the run-time functions of optional.h as syntax trees, generated by `tools/cpp2coq.py` |
| `Exec`, `Texts`, `TextFacts`, `TextPairs`, `TextCompare`, `TextRuns` | an interpreter of the trees; the ways to write each API call; proof that each of them equals the model |
| `Flags`, `Address` | the text of the layouts and flag manipulators executed on bytes; types that overload unary `&` |
| `Constants`, `CompileTime` | the text of the functions that the compiler executes (range check, conversion of sentinels) and of the sentinel constants, generated by `tools/cpp2coq.py --constants`; their execution |
| `TemplateSyntax`, `Templates`, `Instantiate`, `SelectionText`, `SelectionProof` | the text of the templates that choose the storage strategy, generated by `tools/cpp2coq.py --templates`; their instantiation, as decision trees that are run with the facts of a program (C75) |
| `Specials`, `Declared` | the declarations of the header (the partial specialisations of the base classes generated by `tools/cpp2coq.py --specials`): which special members exist and what is noexcept (C76) |
| `Heads`, `Constraints` | template heads, constraints and `#if` conditions of the functions (generated by `tools/cpp2coq.py --heads`) and the overload sets that they give (C77) |
| `Library`, `Deduced`, `Accepted` | deduction guide, `make_optional`, `std::hash`, `is_tiny_optional_v` as syntax trees (generated by `tools/cpp2coq.py --library`) and what they give (C78); the trait, static_asserts, default constructors and destructors (C79) |
| `Members`, `Interface` | what the classes declare and with which access (generated by `tools/cpp2coq.py --members`); member name lookup, access, using-declarations, lookup in templates; which members user code can name, and that every name in the functions is found (C80) |
| `TypeNames` | the identifiers in types, template arguments and constraints: each is found; template parameters are distinct and deduced (C81) |
| `Explicit` | which constructors and conversion functions of the public classes are explicit (from the list that `--data` writes), C77 |
| `Constexpr`, `ConstantUse` | the functions declared constexpr (generated by `tools/cpp2coq.py --constexpr`); what the compiler evaluates and what cannot be evaluated, C83 |
| `DataText`, `Layout`, `Sizes` | the data members, constants and types of the classes (generated by `tools/cpp2coq.py --data`); size, alignment, offsets and member types of an optional (C82) |
| `Assumptions` | `Print Assumptions` of every property theorem |

Theorems about executions quantify over all environments (number and types of the
optionals, sizes, in-place or separate flags, manipulators that satisfy `Laws`,
payload behaviour), all worlds, all states or all histories of any length.

## Properties and theorems

A theorem named `..._refuted` shows that the documented or expected claim is false of
the code; the other theorems of such a property state what holds instead.  Beside each
theorem there is an `Example` with a concrete case that meets its hypotheses.

| id | property | theorems (file) |
|----|----------|-----------------|
| C01 | Behaves like std::optional over whole histories | `C01_history_refines_std` (Histories); `C01_every_instantiation` (Whole) |
| C02 | Default and nullopt construction give an empty optional | `C02_default_empty_on_any_memory`, `C02_default_nullopt_empty` (Histories); `C02_every_instantiation` (Whole) |
| C03 | Stored values are read back bit for bit | `C03_read_back` (Histories) |
| C04 | optional<double> distinguishes every double from empty | `C04_double_all_but_one`, `C04_double_values`, `C04_every_number` (Scalars) |
| C05 | optional<float> distinguishes every float from empty | `C05_float_all_but_one`, `C05_float_values`, `C05_every_number` (Scalars) |
| C06 | optional<bool> has three distinguishable states in one byte | `C06_bool_three_states` (Scalars); `C06_no_invented_values`, `C06_bool_only_bools` (Provenance) |
| C07 | optional<T*> keeps nullptr, user addresses and special handles apart from empty | `C07_pointer64_all_but_one`, `C07_pointer64_values`, `C07_pointer32_all_but_one`, `C07_pointer32_values` (Scalars) |
| C08 | Swallowed sentinel: exactly the values equal to the sentinel are unstorable | `C08_integer_sentinel`, `C08_double_sentinel`, `C08_float_sentinel` (Sentinels); `C08_double_patterns`, `C08_float_patterns`, `C08_bool_sentinel`, `C08_pointer_sentinel`, `C08_enum_sentinel` (Scalars) |
| C09 | Debug builds detect every attempt to store the sentinel | `C09_debug_detects_sentinel` (Sentinels) |
| C10 | Release builds: storing the sentinel yields has_value()==false and leaks the payload | `C10_release_sentinel_leaks` (Sentinels) |
| C11 | A throwing construction leaves the optional empty and usable | `C11_emplace`, `C11_assign_to_empty`, `C11_copy_assign_to_empty`, `C11_move_assign_to_empty`, `C11_throwing_construction_leaves_empty`, `C11_usable_afterwards` (Exceptions) |
| C12 | A throwing payload assignment keeps the optional engaged | `C12_assign_engaged`, `C12_copy_assign_engaged`, `C12_move_assign_engaged` (Exceptions) |
| C13 | A throwing swap never changes which optionals are engaged | `C13_throwing_swap`, `C13_swap_outcome` (Exceptions) |
| C14 | Copies are independent of their source | `C14_source_bytes_unchanged`, `C14_copy_construct`, `C14_independent_afterwards` (Values) |
| C15 | Moved-from optionals stay engaged | `C15_move_construct`, `C15_move_assign_from_empty`, `C15_source_keeps_engagement` (Values) |
| C16 | Every payload object is destroyed exactly once | `C16_payload_destroyed_exactly_once` (Histories) |
| C17 | Flag objects of in-place optionals are destroyed | `C17_flag_of_empty_optional_refuted`, `C17_flag_of_failed_construction_refuted`, `C17_flag_balance`, `C17_exact_loss`, `C17_destructor` (Leaks) |
| C18 | No operation reads indeterminate memory or a dead object | `C18_no_fault`, `C18_flag_always_readable` (Histories) |
| C19 | Self assignment, self swap and assigning an optional's own payload are safe | `C19_self_engaged`, `C19_self_empty` (Values) |
| C20 | emplace from a reference into the same optional is a use of a destroyed object | `C20_emplace_own_payload_undefined`, `C20_std_undefined` (Values) |
| C21 | reset is idempotent and restores the fresh empty state | `C21_reset_empty_is_noop`, `C21_reset_engaged`, `C21_reset_like_fresh` (Values) |
| C22 | value() throws exactly on empty optionals | `C22_value_throws_iff_empty`, `C22_value_in_histories`, `C22_unchecked_access_of_empty` (Values) |
| C23 | value_or | `C23_value_or_copy`, `C23_value_or_move` (Values) |
| C24 | swap exchanges the contents | `C24_swap_exchanges`, `C24_swap_twice` (Values) |
| C25 | Monadic operations call their function at most once and obey the monad laws | `C25_and_then`, `C25_transform`, `C25_or_else`, `C25_left_identity`, `C25_right_identity`, `C25_associativity`, `C25_functor_identity`, `C25_functor_composition` (Monadic) |
| C26 | Exceptions thrown by transform's callable reach the caller | `C26_transform_propagates`, `C26_refuted` (Exceptions) |
| C27 | noexcept operations never terminate the program | `C27_never_terminates`, `C27_noexcept_condition`, `C27_access_never_throws` (Noexcept) |
| C28 | Relational operators order empty first and agree with std::optional | `C28_relational_operators`, `C28_evaluated_expression` (Compare); `C28_rewritten_less_refuted` (CmpOverload) |
| C29 | The order on optionals is a total order whenever the payload's is | `C29_comparison_of_contents`, `C29_strict_weak_order`, `C29_equivalence`, `C29_consistent_total` (Compare) |
| C30 | Three-way comparison is consistent with the other operators | `C30_three_way` (Compare) |
| C31 | Hash agrees with equality and with the payload's hash | `C31_hash`, `C31_equal_implies_equal_hash` (Compare) |
| C32 | Template arguments always select exactly one storage strategy | `C32_never_ambiguous`, `C32_optional_matches_one`, `C32_bad_payloads_rejected`, `C32_selection_as_documented`, `C32_default_manipulator`, `C32_sentinels_accepted` (Selection) |
| C33 | is_compressed and sizeof | `C33_sizeof`, `C33_in_place_iff` (Selection) |
| C34 | Integer range check for sentinels is exact | `C34_range_check_exact` (IntRange) |
| C35 | Sentinel conversion never changes a value silently | `C35_sentinel_keeps_value` (Selection) |
| C36 | optional_aip is always in place | `C36_aip_default_in_place`, `C36_aip_sentinel_in_place`, `C36_aip_integers`, `C36_aip_size_refuted`, `C36_aip_default_value_refuted` (Selection) |
| C37 | Configuration macros never change observable behaviour | `C37_still_compiles`, `C37_size_grows`, `C37_same_behaviour`, `C37_any_two_configurations`, `C37_unused_bits_alone_refuted` (Configs) |
| C38 | Debugger visualisation agrees with has_value() | `C38_rules_unambiguous`, `C38_natvis_agrees`, `C38_shipped_namespace`, `C38_user_specialization_refuted` (Natvis) |
| C39 | A default constructed optional with a user sentinel is empty for every accepted sentinel | `C39_default_empty`, `C39_floating_sentinel`, `C39_nan_sentinel_refuted`, `C39_sentinel_flag_manipulator`, `C39_sentinel_flag_manipulator_refuted` (Defaults) |
| C40 | Storing the flag in a member never touches other members | `C40_query_reads_only_flag`, `C40_empty_optional_reads_only_flag`, `C40_default_writes_only_flag`, `C40_flag_functions_write_only_flag`, `C40_reset_writes_only_flag` (Locality); `C40_flag_is_where_the_arguments_say` (Whole) |
| C41 | Read-only operations never write | `C41_read_only` (Locality) |
| C42 | Operations are local | `C42_call_is_local`, `C42_history_is_local`, `C42_contents_of_others` (Locality) |
| C43 | Special member functions are available exactly as for std::optional | `C43_as_std_optional`, `C43_fallback_to_copy`, `C43_never_trivial` (Smf) |
| C44 | o = {} empties optionals of scalars | `C44_braces_empty`, `C44_braces_compile`, `C44_braces_volatile`, `C44_converting_constructor`, `C44_converting_assignment`, `C44_scalar_value`, `C44_forwarding`, `C44_braces_effect`, `C44_scalar_value_effect` (Overload) |
| C45 | An optional of another type is never silently converted into an engaged optional | `C45_other_optional`, `C45_scalars`, `C45_bool`, `C45_same_implementation`, `C45_bool_refuted` (Overload) |
| C46 | Different configurations and versions live in different namespaces | `C46_builds_do_not_share_symbols`, `C46_documented_names`, `C46_version_decodes`, `C46_version_unique`, `C46_flag_manipulator_differs_refuted`, `C46_flag_manipulator_differs` (Namespace) |
| C47 | Nested optionals keep all nesting levels apart | `C47_nested`, `C47_levels_apart`, `C47_client_make`, `C47_client_use`, `C47_inner_swap_refuted` (Nested) |
| C48 | The third template argument only matters with a member pointer | `C48_third_argument`, `C48_third_argument_matters` (Selection) |
| C49 | Custom flag manipulators get their documented preconditions | `C49_calls_checked`, `C49_preconditions_never_violated`, `C49_init_and_invalidate_alternate` (Leaks) |
| C50 | Enumerators as sentinel of an integer optional escape the range check | `C50_enumerator_sentinel_changed_refuted`, `C50_enumerator_sentinel` (Selection) |
| C51 | A payload that looks empty once it was moved from | `C51_assertion_on_move`, `C51_source_lost`, `C51_separate_flag_not_affected` (Moved) |
| C52 | The noexcept checks on the sentinel's type cover the operations used | `C52_has_value_never_terminates`, `C52_nothrow_copy_suffices`, `C52_value_like_flags`, `C52_checked_operation_refuted` (FlagClass) |
| C53 | Comparison expressions resolve unambiguously to the operator meant for their operand kinds | `C53_relational_expressions`, `C53_three_way_expressions`, `C53_gcc_three_way_refuted`, `C53_derived_class_refuted` (CmpOverload) |
| C54 | Swap expressions behave as the swap of std::optional | `C54_function_called`, `C54_library_swap_bypassed`, `C54_alias_as_std`, `C54_qualified`, `C54_mixed_classes`, `C54_swappable`, `C54_swappable_deleted_refuted`, `C54_noexcept`, `C54_noexcept_as_std`, `C54_noexcept_refuted`, `C54_std_swap_outcome`, `C54_std_swap_self`, `C54_engagement_after_throw`, `C54_value_lost_refuted`, `C54_std_swap_exchanges`, `C54_payload_swap_unused`, `C54_member_swap_uses_it` (SwapCall) |
| C55 | The repository's exercise suite passes for every type and every pair of values | `C55_every_exercise_passes`, `C55_sentinel_as_test_value_fails` (Exercises) |
| C56 | Threads without conflicting calls do not influence each other | `C56_call_reads_only_operands`, `C56_threads_do_not_interfere`, `C56_schedule_is_irrelevant`, `C56_threads_as_std` (Threads) |
| C57 | The type that tiny::optional{x} and make_optional give | `C57_deduced_type`, `C57_nothing_else_is_deduced`, `C57_deduced_type_as_std`, `C57_std_optional_is_wrapped`, `C57_make_optional_of_a_value`, `C57_make_optional_explicit`, `C57_make_optional_is_callable`, `C57_make_optional_type`, `C57_make_optional_as_std` (Deduce) |
| C58 | std::hash is enabled for exactly the right optionals | `C58_hash_enabled_as_std`, `C58_innermost_payload_decides`, `C58_disabled_is_detectable`, `C58_derived_class_has_its_own` (HashEnable) |
| C59 | No program can tell tiny::optional from std::optional; automatic optionals leave nothing behind | `C59_no_program_can_tell`, `C59_blocks_leave_nothing`, `C59_best_of_a_list`, `C59_search` (Clients) |
| C60 | Callables of and_then and or_else may use the library themselves, even the same optional | `C60_and_then_is_its_code`, `C60_or_else_is_its_code`, `C60_chain_or_nest` (Callables) |
| C61 | is_tiny_optional_v tells the library's optionals from all other types | `C61_true_for_tiny_optionals`, `C61_false_for_other_types`, `C61_decided_by_one_declaration`, `C61_derived_classes`, `C61_no_false_positives`, `C61_readme_claim_refuted`, `C61_tells_apart_partial`, `C61_and_then_accepts` (Traits) |
| C62 | Threads whose calls do not conflict have no data race, at the granularity of single memory accesses | `C62_calls_are_accesses`, `C62_no_data_race`, `C62_interleaved_accesses_do_not_interfere`, `C62_every_thread_finishes`, `C62_threads_as_std` (Accesses) |
| C63 | has_value() is not disturbed while another thread modifies the contained value through a reference | `C63_separate_flag`, `C63_in_place_exact`, `C63_other_members`, `C63_one_byte_flag`, `C63_in_place_flag_refuted` (Tearing) |
| C64 | Members for const, lvalue and rvalue objects are chosen, and copy and move, as those of std::optional | `C64_reference_like_object`, `C64_arrow`, `C64_const_correct`, `C64_value_or`, `C64_and_then`, `C64_transform`, `C64_or_else_compiles`, `C64_or_else_exact`, `C64_or_else_by_value`, `C64_or_else_runs_as_std`, `C64_or_else_refuted` (Categories) |
| C65 | The flag manipulators shown in the documentation work as described | `C65_rules_kept`, `C65_index_pair`, `C65_const_payload_not_specialized`, `C65_flag_in_part`, `C65_enumeration`, `C65_iterator`, `C65_iterator_as_member`, `C65_static_constexpr` (Documented) |
| C66 | User code that asks the optional it was called from gets consistent answers | `C66_answers`, `C66_known_beforehand`, `C66_asking_is_harmless`, `C66_too_early` (Reentry) |
| C67 | On one memory of bytes the library behaves the same, wherever the optionals are placed and whatever is left in memory | `C67_named_bytes_only`, `C67_model_on_bytes`, `C67_std_on_bytes`, `C67_every_instantiation`, `C67_placement_irrelevant`, `C67_array` (Flat) |
| C68 | Whatever is stored, a release build behaves like a std::optional that forgets values that look empty | `C68_within_the_contract`, `C68_release_on_bytes`, `C68_debug_on_bytes`, `C68_stored_sentinel_is_lost`, `C68_every_instantiation` (Forgets) |
| C69 | User code that itself uses optionals, to any depth, cannot tell tiny::optional from std::optional | `C69_every_call_can_be_written`, `C69_every_type_can_be_written`, `C69_any_depth`, `C69_remembers_at_every_depth` (Worlds) |
| C70 | User code that uses other optionals of the same program, recursively, cannot tell tiny::optional from std::optional | `C70_recursive_user_code`, `C70_depth_irrelevant`, `C70_every_height` (Recursion) |
| C71 | Every function of the header, executed as it is written, does what std::optional does | `C71_text_is_model`, `C71_text_deterministic`, `C71_text_refines_std` (TextRuns) |
| C72 | The flag functions and storage layouts of the header, executed as they are written, do what the storage strategies promise | `C72_manipulator_text`, `C72_decomposition_text`, `C72_shape_kept`, `C72_selected_text`, `C72_every_instantiation` (Flags) |
| C73 | Payload and flag types that overload the unary operator& can be used | `C73_where_addresses_are_taken`, `C73_library_strategies`, `C73_sentinel_flag_manipulator_refuted`, `C73_sentinel_flag_manipulator_builtin` (Address) |
| C74 | The compile time conversion of a sentinel, executed as it is written, accepts exactly the documented constants and keeps their values | `C74_range_check_text`, `C74_sentinel_text`, `C74_sentinels_accepted_text`, `C74_value_kept`, `C74_constants` (CompileTime) |
| C75 | The templates of the header, instantiated as they are written, choose the documented storage strategy | `C75_via_type_text`, `C75_optional_text`, `C75_inplace_text`, `C75_aip_text`, `C75_aip_sentinel_text`, `C75_as_documented`, `C75_one_meaning`, `C75_sentinels_accepted`, `C75_text_types`, `C75_text_types_lawful`, `C75_special_member_bases` (SelectionProof) |
| C76 | Copy and move operations and noexcept specifications, as the header declares them, are those of std::optional | `C76_copy_and_move_as_std`, `C76_noexcept_as_std`, `C76_exists` (Declared) |
| C77 | The constraints written in the header select the constructors, assignments, comparisons and other functions that the API promises | `C77_comparison_candidates`, `C77_comparison_called`, `C77_other_functions`, `C77_swap`, `C77_converting_constructor`, `C77_converting_assignment`, `C77_braces`, `C77_other_optional`, `C77_conversions` (Constraints); `C77_explicit`, `C77_explicit_complete` (Explicit) |
| C78 | The deduction guide, make_optional and the specialisations of std::hash, as written, deduce the documented types | `C78_deduced_type`, `C78_nothing_else_is_deduced`, `C78_deduced_type_as_std`, `C78_make_optional_of_a_value`, `C78_make_optional_explicit`, `C78_make_optional_is_callable`, `C78_make_optional_as_std`, `C78_hash_enabled_as_std`, `C78_hash_innermost_payload`, `C78_hash_disabled_is_detectable`, `C78_hash_call` (Deduced) |
| C79 | is_tiny_optional_v and the static_asserts, as written, accept exactly what is documented | `C79_trait_of_classes`, `C79_trait_is_decided`, `C79_trait_of_derived_classes`, `C79_value_or`, `C79_swap`, `C79_and_then`, `C79_transform`, `C79_or_else`, `C79_no_other_restrictions`, `C79_default_constructor_and_destructor`, `C79_storage`, `C79_own_functions_qualify` (Accepted) |
| C80 | User code can name exactly the documented members of an optional, and every name in the header is found | `C80_members`, `C80_not_ambiguous`, `C80_base_classes`, `C80_flag_manipulators`, `C80_constructors`, `C80_inherited_constructors`, `C80_base_alias`, `C80_using_declarations`, `C80_executed`, `C80_names`, `C80_other_classes` (Interface) |
| C81 | Every type name in the header is declared, and every template parameter of a function can be deduced | `C81_types`, `C81_template_parameters`, `C81_deduced` (TypeNames) |
| C82 | Size, alignment and member types of an optional follow from the data members that the header declares | `C82_storage`, `C82_layout`, `C82_is_compressed`, `C82_is_tiny_optional`, `C82_value_type`, `C82_lifetime`, `C82_memory_model` (Layout); `C82_selected` (Sizes) |
| C83 | What the compiler evaluates is constexpr, and types and methods of the library are not | `C83_compile_time`, `C83_not_literal`, `C83_methods`, `C83_not_declared_constexpr_refuted`, `C83_declared_constexpr` (ConstantUse) |

## Findings: where the code deviates from its documentation or from std::optional

A property that is false of the code as stated has the status "partial" in
MANIFEST.json (C17, C26, C28, C36, C38, C39, C46, C53, C54, C61, C63,
C64, C73): a theorem with the suffix
`_refuted` gives a counterexample, the other theorems prove the part that is true.

1. C17: the flag object of an in-place optional is not destroyed when an empty
   optional is destroyed (README says `invalidate_empty_flag` is called), nor when a
   constructor throws.  `C17_exact_loss` gives the exact number for every call.
2. C26: `transform` whose callable throws terminates the program if the construction
   of the result from the callable's return value is noexcept (optional.h:1083-1084:
   the noexcept condition ignores the callable).
3. C28: in C++20 `a < b` for three-way comparable payloads calls the payload's `<=>`,
   not its `<`; std::optional does otherwise.  Visible if the payload's operators
   disagree.
4. C36: `optional_aip<S, &S::m>` without the member trick, and
   `optional_aip<int, UseDefaultValue>`, compile but are larger than the payload.
5. C37: `TINY_OPTIONAL_USE_SEPARATE_BOOL_INSTEAD_OF_UNUSED_BITS` alone makes
   `optional<S, &S::d>` (double member) and `optional_aip<double>` ill-formed.
6. C38: the natvis file ignores user specialisations of `optional_flag_manipulator`.
7. C39: `optional<double, NaN>` compiles and is never empty; so is
   `sentinel_flag_manipulator<unsigned char, -1>`.
8. C44: for volatile scalars `o = {}` assigns 0 (the standard's own condition).
9. C45: `optional<bool>` is explicitly constructible from every other optional.
10. C46: `optional_flag_manipulator<T>` has the same name in all configurations but
    different definitions (ODR violation when mixing).
11. C50: an unscoped enumerator as sentinel escapes the range check.
12. C51: moved-from payloads that look empty are not detected by swap and value_or,
    and leak.
13. C52: `init_empty_flag` checks noexcept of the assignment but calls the copy
    constructor.
14. C53: gcc without CWG2445: `std::optional <=> optional_inplace/...` uses
    std::optional's comparison with a value; a class derived from tiny::optional
    compared with std::optional as well.
15. C54: `using std::swap; swap(a, b)` with two tiny::optionals calls the generic
    std::swap, because the library's overload needs a derived-to-base conversion.  The
    payload's swap is not used, the noexcept specification differs, and a throw of the
    second move construction empties both optionals.  In `Nested` each level says which
    swap its inner optionals have.
16. C61: is_tiny_optional_v (README: "false for any other type") is true for a user's
    class with its own constant `is_tiny_optional`, and for classes publicly derived from
    an optional unless two different optionals are among the bases.

17. C63: with an in-place flag has_value() reads the value, so it must not be called while
    another thread modifies the value through a reference (allowed for std::optional).
    Between 0x7ff8fedc00000000 and 0x00000000ba987654 an `optional<double>` may look empty.

18. C64: `std::move(o).or_else(f)` copies the value of `o` instead of moving it if `f`
    returns a reference to const ([expr.cond]/4.1 with CWG2352; `const &&` always), and
    `o.or_else(f)` copies an xvalue returned by `f`: the library writes
    `has_value() ? std::move(*this) : f()` where the standard has two return statements.

19. C66: while the payload is being constructed the optional already says that it has a
    value (the flag is set before the constructor runs), and with an in-place flag asking it
    is undefined behaviour.  Implementations of std::optional say "empty" until the
    constructor has finished; the standard does not say.  The same holds for the result of
    transform while the callable runs, if the callable can name it.
20. C73: `sentinel_flag_manipulator::init_empty_flag` applies the operator `&` to the payload,
    so it does not work with types that overload it; all other functions use std::addressof.
21. C83: and_then, transform and or_else are declared constexpr, although the README says that
    methods are not and no call of them can be constant; up to C++20 such templates are
    ill-formed, no diagnostic required.

## What is modelled and what is not

Modelled: optional.h lines 77-130 (configuration, namespaces), 163-270, 305-335,
354-2809 as cited in the definitions; the natvis visualizers.

Not modelled, or simplified (also said at the definitions):

- User code terminates, has no undefined behaviour of its own, and does not re-enter
  the optional it was called from (`Callables` relaxes this for and_then and or_else;
  `Reentry` for calls of has_value() and operator bool from all user code; `Worlds` and
  `Recursion` let user code use all other optionals).
  The arguments of a construction may refer to any number of modelled objects; if two
  references that are not to const refer to the same object, its new value is the one
  given for the later of them.  The argument of an assignment is one reference at most.
  Flag manipulators have no side effects outside the flag (`FlagClass`
  relaxes this for sentinels of class type).
- Every variable has its own region of memory (`Flat`: one array of bytes); alignment is not
  modelled.
- Destructors do not throw.
- The callable of and_then/or_else returns an optional built by the default or the
  in_place constructor (in `Callables`: by any code; in `Categories`: or_else with a
  reference); and_then's result is a tiny optional.
- Overload resolution is modelled in `Overload` (constructors, assignments), `Smf`
  (special members), `CmpOverload` (comparisons), `SwapCall` (swap) and `Deduce` (deduction guides, make_optional) only, and `Categories` (ref-qualifiers);
  elsewhere the call names the function.  Implicit conversions between user types are arbitrary predicates with the
  standard's laws.  Array and function arguments (decay; only in `Deduce`), user-defined comparison
  operators that also match optionals, classes derived from std::optional, and
  argument dependent lookup are not modelled.
- User partial specialisations that overlap the library's; conversions between
  pointers to different types; values of `constexpr` evaluation (other than C74); volatile in `Deduce` and `HashEnable`;
  virtual bases in `Traits`.
- Integer types with equal width and signedness are identified in common_type.
- C37: both builds use payload types of the same size; C47: outer flags separate,
  lifetimes of inner objects are reconstructed from cells.
- Natvis: the debugger's expression evaluator is assumed to follow C++; the most
  specific visualizer is used.
- `sizeof(bool) == 1`; pointers have 4 or 8 bytes.
- Concurrency only in `Threads`, where a call is one step of the schedule, `Accesses`,
  where a step is one access to a whole object, and `Tearing`; every thread has its own
  world and memory is sequentially consistent.  Optimisation and fast-math are not modelled.

## Trusted base

- Coq's kernel (with `vm_compute`).
- The reading of the C++ text into the definitions, and the rules of the C++ abstract
  machine as encoded in `Machine.v`, of std::optional as encoded in `Spec.v`, and of
  template selection and overload resolution as encoded in `Select.v`, `Smf.v`,
  `Overload.v`, `CmpOverload.v`, `SwapCall.v`, `Deduce.v`, `HashEnable.v`, `Traits.v`, `Categories.v`.
- For C71 instead of the reading of the functions by hand: `tools/cpp2coq.py`, which
  turns the text into trees (it drops comments, attributes, template heads and requires
  clauses, expands the comparison macro and resolves nothing), and the rules of C++ in
  `Exec.v` (order of construction and destruction, unwinding, categories of expressions,
  overloads by kinds of arguments, enable_if in return types, `noexcept`; callables accept one
  category of the payload; static_asserts must hold for the requirements of std::optional).
  Type traits in noexcept specifications are
  read from the payload type's record; template parameters that select a strategy are
  replaced by the primitives of `Machine.v`; the conditional base classes are taken to be the
  non-trivial ones (`Smf` is about the choice).
  `python3 tools/cpp2coq.py > rocq/theories/Source.v` reproduces `Source.v`, and with
  `--constants` `Constants.v`, with `--templates` `Templates.v`, with `--specials`
  `Specials.v`, with `--heads` `Heads.v`, with `--library` `Library.v`,
  with `--members` `Members.v`.
- For C72, C73 and C74 in the same way: the rules in `Flags.v` (lifetimes, memcpy, memcmp,
  placement new) and `CompileTime.v` (`if constexpr`, type aliases, integer arithmetic); what
  an overloaded unary `&` does is unknown, so that a call of it is not executed.
- For C77 in the same way: the meaning of the conditions in `Constraints.v` (`holds`,
  `constraint_of`, `compiled`, `atom`), which parameter types accept which arguments
  (`constructor`, `assignment`, `side_of`), and overload resolution as in `Overload.v` and
  `CmpOverload.v`.
- For C78: the reading of guides, parameters, return types and aliases in `Deduced.v`
  (`guide_of`, `kind_of`, `ret_of`, `init_of`, `expand`); deduction and overload resolution
  as in `Deduce.v`.  For C79: the names of traits and types in `Accepted.v` (`trait_names`,
  `type_names`, `noexcept_names`), class lookup as in `Traits.v`; other reasons for which a
  body does not compile are not modelled.
- For C80: the lookup and access rules in `Interface.v` (`found`, `inherit`, `accessible_base`,
  `names`, `resolves`) and the classes of objects in member accesses (`object`, from the
  declared types of parameters, variables and members).  For C81: which identifiers of a
  text are looked up (`looked_up`) and when a parameter is deduced (`deduced`).
- For C82: the rules of layout and of the types in a class in `Layout.v` (`denotes`, `lay`,
  `automatic`).
- For C83: which functions an expression or body calls (`calls`, `certain`), the necessary
  conditions of literal types and constant calls (`literal`, `constant_call`).
- For C75 in the same way: the rules of template instantiation in `Instantiate.v` (default
  arguments, matching of partial specializations, SFINAE, static_asserts of completed classes,
  the traits of std), the questions about the program and their answers in `SelectionText.v`
  (`answer`), and that the classes for the flag mean the primitives of `Manip.v` (`meaning`;
  what their functions do is C72, their constants C74).  Two matching specializations are an
  ambiguity even if one is more specialized (there is no such pair in the header); noexcept
  requirements of static_asserts (`noexcept(...)`) are skipped here (C52, C79).  The trees are
  computed with the special member function classes left out; C75_special_member_bases
  shows that they do not matter.
- For C76: the same reader, the rules for defaulted, deleted and undeclared copy and move
  operations (`Smf.members_of`) and the table `std_noexcept` of the standard's specifications.
  A constraint (requires, enable_if in template heads) is not part of it (`Overload`).
- No axioms: `Print Assumptions` (file `Assumptions.v`) prints "Closed under the global
  context" for each of the 370 theorems of the table.  `coqchk -o` on the whole
  library lists only the axioms of `Coq.ssr.ssrunder` that the standard library loads,
  used by no theorem here.

## Mutation testing

`seeded/LOG.jsonl` records edits of the model like realistic bugs, made in a copy
outside of this directory.  For each mutant the whole development is rebuilt; a proof
that fails is recorded and replaced by an axiom so that the later files are reached;
`Print Assumptions` then tells which property theorems depend on a failed proof.
`lemmas_failed_directly` are the proofs that broke; `theorems_failed` those of the
properties that the edit falsifies.
