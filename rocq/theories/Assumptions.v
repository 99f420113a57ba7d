(** * Assumptions: what every property theorem depends on

    The build prints "Closed under the global context" for each of them: no axioms,
    neither of this development nor of the standard library. *)

From Verif Require Cells Machine Optional Program Spec CellsFacts Laws Refine Effects Frame Lifetime Bits Manip Contract Sample Histories Leaks ExampleTac SpecTac Exceptions Values Monadic Noexcept Compare CmpOverload Locality Threads Accesses IntRange Select Selection Sentinels Tearing Numbers Scalars Provenance Defaults Documented Whole Configs Namespace Natvis Smf Overload SwapCall Deduce HashEnable Traits Exercises Clients Callables Categories Data Nested Moved FlagClass Reentry Generic Flat Swallow Forgets Worlds Recursion Syntax Source Exec Texts TextFacts TextPairs TextCompare TextRuns Flags Address Constants CompileTime TemplateSyntax Templates Instantiate SelectionText SelectionProof Specials Declared Heads Constraints Library Deduced Accepted Members Interface TypeNames DataText Explicit Constexpr ConstantUse Layout Sizes.

Print Assumptions Histories.C01_history_refines_std.
Print Assumptions Whole.C01_every_instantiation.
Print Assumptions Histories.C02_default_empty_on_any_memory.
Print Assumptions Histories.C02_default_nullopt_empty.
Print Assumptions Whole.C02_every_instantiation.
Print Assumptions Histories.C03_read_back.
Print Assumptions Scalars.C04_double_all_but_one.
Print Assumptions Scalars.C04_double_values.
Print Assumptions Scalars.C04_every_number.
Print Assumptions Scalars.C05_float_all_but_one.
Print Assumptions Scalars.C05_float_values.
Print Assumptions Scalars.C05_every_number.
Print Assumptions Scalars.C06_bool_three_states.
Print Assumptions Provenance.C06_no_invented_values.
Print Assumptions Provenance.C06_bool_only_bools.
Print Assumptions Scalars.C07_pointer64_all_but_one.
Print Assumptions Scalars.C07_pointer64_values.
Print Assumptions Scalars.C07_pointer32_all_but_one.
Print Assumptions Scalars.C07_pointer32_values.
Print Assumptions Sentinels.C08_integer_sentinel.
Print Assumptions Sentinels.C08_double_sentinel.
Print Assumptions Sentinels.C08_float_sentinel.
Print Assumptions Scalars.C08_double_patterns.
Print Assumptions Scalars.C08_float_patterns.
Print Assumptions Scalars.C08_bool_sentinel.
Print Assumptions Scalars.C08_pointer_sentinel.
Print Assumptions Scalars.C08_enum_sentinel.
Print Assumptions Sentinels.C09_debug_detects_sentinel.
Print Assumptions Sentinels.C10_release_sentinel_leaks.
Print Assumptions Exceptions.C11_emplace.
Print Assumptions Exceptions.C11_assign_to_empty.
Print Assumptions Exceptions.C11_copy_assign_to_empty.
Print Assumptions Exceptions.C11_move_assign_to_empty.
Print Assumptions Exceptions.C11_throwing_construction_leaves_empty.
Print Assumptions Exceptions.C11_usable_afterwards.
Print Assumptions Exceptions.C12_assign_engaged.
Print Assumptions Exceptions.C12_copy_assign_engaged.
Print Assumptions Exceptions.C12_move_assign_engaged.
Print Assumptions Exceptions.C13_throwing_swap.
Print Assumptions Exceptions.C13_swap_outcome.
Print Assumptions Values.C14_source_bytes_unchanged.
Print Assumptions Values.C14_copy_construct.
Print Assumptions Values.C14_independent_afterwards.
Print Assumptions Values.C15_move_construct.
Print Assumptions Values.C15_move_assign_from_empty.
Print Assumptions Values.C15_source_keeps_engagement.
Print Assumptions Histories.C16_payload_destroyed_exactly_once.
Print Assumptions Leaks.C17_flag_of_empty_optional_refuted.
Print Assumptions Leaks.C17_flag_of_failed_construction_refuted.
Print Assumptions Leaks.C17_flag_balance.
Print Assumptions Leaks.C17_exact_loss.
Print Assumptions Leaks.C17_destructor.
Print Assumptions Histories.C18_no_fault.
Print Assumptions Histories.C18_flag_always_readable.
Print Assumptions Values.C19_self_engaged.
Print Assumptions Values.C19_self_empty.
Print Assumptions Values.C20_emplace_own_payload_undefined.
Print Assumptions Values.C20_std_undefined.
Print Assumptions Values.C21_reset_empty_is_noop.
Print Assumptions Values.C21_reset_engaged.
Print Assumptions Values.C21_reset_like_fresh.
Print Assumptions Values.C22_value_throws_iff_empty.
Print Assumptions Values.C22_value_in_histories.
Print Assumptions Values.C22_unchecked_access_of_empty.
Print Assumptions Values.C23_value_or_copy.
Print Assumptions Values.C23_value_or_move.
Print Assumptions Values.C24_swap_exchanges.
Print Assumptions Values.C24_swap_twice.
Print Assumptions Monadic.C25_and_then.
Print Assumptions Monadic.C25_transform.
Print Assumptions Monadic.C25_or_else.
Print Assumptions Monadic.C25_left_identity.
Print Assumptions Monadic.C25_right_identity.
Print Assumptions Monadic.C25_associativity.
Print Assumptions Monadic.C25_functor_identity.
Print Assumptions Monadic.C25_functor_composition.
Print Assumptions Exceptions.C26_transform_propagates.
Print Assumptions Exceptions.C26_refuted.
Print Assumptions Noexcept.C27_never_terminates.
Print Assumptions Noexcept.C27_noexcept_condition.
Print Assumptions Noexcept.C27_access_never_throws.
Print Assumptions Compare.C28_relational_operators.
Print Assumptions Compare.C28_evaluated_expression.
Print Assumptions CmpOverload.C28_rewritten_less_refuted.
Print Assumptions Compare.C29_comparison_of_contents.
Print Assumptions Compare.C29_strict_weak_order.
Print Assumptions Compare.C29_equivalence.
Print Assumptions Compare.C29_consistent_total.
Print Assumptions Compare.C30_three_way.
Print Assumptions Compare.C31_hash.
Print Assumptions Compare.C31_equal_implies_equal_hash.
Print Assumptions Selection.C32_never_ambiguous.
Print Assumptions Selection.C32_optional_matches_one.
Print Assumptions Selection.C32_bad_payloads_rejected.
Print Assumptions Selection.C32_selection_as_documented.
Print Assumptions Selection.C32_default_manipulator.
Print Assumptions Selection.C32_sentinels_accepted.
Print Assumptions Selection.C33_sizeof.
Print Assumptions Selection.C33_in_place_iff.
Print Assumptions IntRange.C34_range_check_exact.
Print Assumptions Selection.C35_sentinel_keeps_value.
Print Assumptions Selection.C36_aip_default_in_place.
Print Assumptions Selection.C36_aip_sentinel_in_place.
Print Assumptions Selection.C36_aip_integers.
Print Assumptions Selection.C36_aip_size_refuted.
Print Assumptions Selection.C36_aip_default_value_refuted.
Print Assumptions Configs.C37_still_compiles.
Print Assumptions Configs.C37_size_grows.
Print Assumptions Configs.C37_same_behaviour.
Print Assumptions Configs.C37_any_two_configurations.
Print Assumptions Configs.C37_unused_bits_alone_refuted.
Print Assumptions Natvis.C38_rules_unambiguous.
Print Assumptions Natvis.C38_natvis_agrees.
Print Assumptions Natvis.C38_shipped_namespace.
Print Assumptions Natvis.C38_user_specialization_refuted.
Print Assumptions Defaults.C39_default_empty.
Print Assumptions Defaults.C39_floating_sentinel.
Print Assumptions Defaults.C39_nan_sentinel_refuted.
Print Assumptions Defaults.C39_sentinel_flag_manipulator.
Print Assumptions Defaults.C39_sentinel_flag_manipulator_refuted.
Print Assumptions Locality.C40_query_reads_only_flag.
Print Assumptions Locality.C40_empty_optional_reads_only_flag.
Print Assumptions Locality.C40_default_writes_only_flag.
Print Assumptions Locality.C40_flag_functions_write_only_flag.
Print Assumptions Locality.C40_reset_writes_only_flag.
Print Assumptions Whole.C40_flag_is_where_the_arguments_say.
Print Assumptions Locality.C41_read_only.
Print Assumptions Locality.C42_call_is_local.
Print Assumptions Locality.C42_history_is_local.
Print Assumptions Locality.C42_contents_of_others.
Print Assumptions Smf.C43_as_std_optional.
Print Assumptions Smf.C43_fallback_to_copy.
Print Assumptions Smf.C43_never_trivial.
Print Assumptions Overload.C44_braces_empty.
Print Assumptions Overload.C44_braces_compile.
Print Assumptions Overload.C44_braces_volatile.
Print Assumptions Overload.C44_converting_constructor.
Print Assumptions Overload.C44_converting_assignment.
Print Assumptions Overload.C44_scalar_value.
Print Assumptions Overload.C44_forwarding.
Print Assumptions Overload.C44_braces_effect.
Print Assumptions Overload.C44_scalar_value_effect.
Print Assumptions Overload.C45_other_optional.
Print Assumptions Overload.C45_scalars.
Print Assumptions Overload.C45_bool.
Print Assumptions Overload.C45_same_implementation.
Print Assumptions Overload.C45_bool_refuted.
Print Assumptions Namespace.C46_builds_do_not_share_symbols.
Print Assumptions Namespace.C46_documented_names.
Print Assumptions Namespace.C46_version_decodes.
Print Assumptions Namespace.C46_version_unique.
Print Assumptions Namespace.C46_flag_manipulator_differs_refuted.
Print Assumptions Namespace.C46_flag_manipulator_differs.
Print Assumptions Nested.C47_nested.
Print Assumptions Nested.C47_levels_apart.
Print Assumptions Nested.C47_client_make.
Print Assumptions Nested.C47_client_use.
Print Assumptions Nested.C47_inner_swap_refuted.
Print Assumptions Selection.C48_third_argument.
Print Assumptions Selection.C48_third_argument_matters.
Print Assumptions Leaks.C49_calls_checked.
Print Assumptions Leaks.C49_preconditions_never_violated.
Print Assumptions Leaks.C49_init_and_invalidate_alternate.
Print Assumptions Selection.C50_enumerator_sentinel_changed_refuted.
Print Assumptions Selection.C50_enumerator_sentinel.
Print Assumptions Moved.C51_assertion_on_move.
Print Assumptions Moved.C51_source_lost.
Print Assumptions Moved.C51_separate_flag_not_affected.
Print Assumptions FlagClass.C52_has_value_never_terminates.
Print Assumptions FlagClass.C52_nothrow_copy_suffices.
Print Assumptions FlagClass.C52_value_like_flags.
Print Assumptions FlagClass.C52_checked_operation_refuted.
Print Assumptions CmpOverload.C53_relational_expressions.
Print Assumptions CmpOverload.C53_three_way_expressions.
Print Assumptions CmpOverload.C53_gcc_three_way_refuted.
Print Assumptions CmpOverload.C53_derived_class_refuted.
Print Assumptions SwapCall.C54_function_called.
Print Assumptions SwapCall.C54_library_swap_bypassed.
Print Assumptions SwapCall.C54_alias_as_std.
Print Assumptions SwapCall.C54_qualified.
Print Assumptions SwapCall.C54_mixed_classes.
Print Assumptions SwapCall.C54_swappable.
Print Assumptions SwapCall.C54_swappable_deleted_refuted.
Print Assumptions SwapCall.C54_noexcept.
Print Assumptions SwapCall.C54_noexcept_as_std.
Print Assumptions SwapCall.C54_noexcept_refuted.
Print Assumptions SwapCall.C54_std_swap_outcome.
Print Assumptions SwapCall.C54_std_swap_self.
Print Assumptions SwapCall.C54_engagement_after_throw.
Print Assumptions SwapCall.C54_value_lost_refuted.
Print Assumptions SwapCall.C54_std_swap_exchanges.
Print Assumptions SwapCall.C54_payload_swap_unused.
Print Assumptions SwapCall.C54_member_swap_uses_it.
Print Assumptions Exercises.C55_every_exercise_passes.
Print Assumptions Exercises.C55_sentinel_as_test_value_fails.
Print Assumptions Threads.C56_call_reads_only_operands.
Print Assumptions Threads.C56_threads_do_not_interfere.
Print Assumptions Threads.C56_schedule_is_irrelevant.
Print Assumptions Threads.C56_threads_as_std.
Print Assumptions Deduce.C57_deduced_type.
Print Assumptions Deduce.C57_nothing_else_is_deduced.
Print Assumptions Deduce.C57_deduced_type_as_std.
Print Assumptions Deduce.C57_std_optional_is_wrapped.
Print Assumptions Deduce.C57_make_optional_of_a_value.
Print Assumptions Deduce.C57_make_optional_explicit.
Print Assumptions Deduce.C57_make_optional_is_callable.
Print Assumptions Deduce.C57_make_optional_type.
Print Assumptions Deduce.C57_make_optional_as_std.
Print Assumptions HashEnable.C58_hash_enabled_as_std.
Print Assumptions HashEnable.C58_innermost_payload_decides.
Print Assumptions HashEnable.C58_disabled_is_detectable.
Print Assumptions HashEnable.C58_derived_class_has_its_own.
Print Assumptions Clients.C59_no_program_can_tell.
Print Assumptions Clients.C59_blocks_leave_nothing.
Print Assumptions Clients.C59_best_of_a_list.
Print Assumptions Clients.C59_search.
Print Assumptions Callables.C60_and_then_is_its_code.
Print Assumptions Callables.C60_or_else_is_its_code.
Print Assumptions Callables.C60_chain_or_nest.
Print Assumptions Traits.C61_true_for_tiny_optionals.
Print Assumptions Traits.C61_false_for_other_types.
Print Assumptions Traits.C61_decided_by_one_declaration.
Print Assumptions Traits.C61_derived_classes.
Print Assumptions Traits.C61_no_false_positives.
Print Assumptions Traits.C61_readme_claim_refuted.
Print Assumptions Traits.C61_tells_apart_partial.
Print Assumptions Traits.C61_and_then_accepts.
Print Assumptions Accesses.C62_calls_are_accesses.
Print Assumptions Accesses.C62_no_data_race.
Print Assumptions Accesses.C62_interleaved_accesses_do_not_interfere.
Print Assumptions Accesses.C62_every_thread_finishes.
Print Assumptions Accesses.C62_threads_as_std.
Print Assumptions Tearing.C63_separate_flag.
Print Assumptions Tearing.C63_in_place_exact.
Print Assumptions Tearing.C63_other_members.
Print Assumptions Tearing.C63_one_byte_flag.
Print Assumptions Tearing.C63_in_place_flag_refuted.
Print Assumptions Categories.C64_reference_like_object.
Print Assumptions Categories.C64_arrow.
Print Assumptions Categories.C64_const_correct.
Print Assumptions Categories.C64_value_or.
Print Assumptions Categories.C64_and_then.
Print Assumptions Categories.C64_transform.
Print Assumptions Categories.C64_or_else_compiles.
Print Assumptions Categories.C64_or_else_exact.
Print Assumptions Categories.C64_or_else_by_value.
Print Assumptions Categories.C64_or_else_runs_as_std.
Print Assumptions Categories.C64_or_else_refuted.
Print Assumptions Documented.C65_rules_kept.
Print Assumptions Documented.C65_index_pair.
Print Assumptions Documented.C65_const_payload_not_specialized.
Print Assumptions Documented.C65_flag_in_part.
Print Assumptions Documented.C65_enumeration.
Print Assumptions Documented.C65_iterator.
Print Assumptions Documented.C65_iterator_as_member.
Print Assumptions Documented.C65_static_constexpr.
Print Assumptions Reentry.C66_answers.
Print Assumptions Reentry.C66_known_beforehand.
Print Assumptions Reentry.C66_asking_is_harmless.
Print Assumptions Reentry.C66_too_early.
Print Assumptions Flat.C67_named_bytes_only.
Print Assumptions Flat.C67_model_on_bytes.
Print Assumptions Flat.C67_std_on_bytes.
Print Assumptions Flat.C67_every_instantiation.
Print Assumptions Flat.C67_placement_irrelevant.
Print Assumptions Flat.C67_array.
Print Assumptions Forgets.C68_within_the_contract.
Print Assumptions Forgets.C68_release_on_bytes.
Print Assumptions Forgets.C68_debug_on_bytes.
Print Assumptions Forgets.C68_stored_sentinel_is_lost.
Print Assumptions Forgets.C68_every_instantiation.
Print Assumptions Worlds.C69_every_call_can_be_written.
Print Assumptions Worlds.C69_every_type_can_be_written.
Print Assumptions Worlds.C69_any_depth.
Print Assumptions Worlds.C69_remembers_at_every_depth.
Print Assumptions Recursion.C70_recursive_user_code.
Print Assumptions Recursion.C70_depth_irrelevant.
Print Assumptions Recursion.C70_every_height.
Print Assumptions TextRuns.C71_text_is_model.
Print Assumptions TextRuns.C71_text_deterministic.
Print Assumptions TextRuns.C71_text_refines_std.
Print Assumptions Flags.C72_manipulator_text.
Print Assumptions Flags.C72_decomposition_text.
Print Assumptions Flags.C72_shape_kept.
Print Assumptions Flags.C72_selected_text.
Print Assumptions Flags.C72_every_instantiation.
Print Assumptions Address.C73_where_addresses_are_taken.
Print Assumptions Address.C73_library_strategies.
Print Assumptions Address.C73_sentinel_flag_manipulator_refuted.
Print Assumptions Address.C73_sentinel_flag_manipulator_builtin.
Print Assumptions CompileTime.C74_range_check_text.
Print Assumptions CompileTime.C74_sentinel_text.
Print Assumptions CompileTime.C74_sentinels_accepted_text.
Print Assumptions CompileTime.C74_value_kept.
Print Assumptions CompileTime.C74_constants.
Print Assumptions SelectionProof.C75_via_type_text.
Print Assumptions SelectionProof.C75_optional_text.
Print Assumptions SelectionProof.C75_inplace_text.
Print Assumptions SelectionProof.C75_aip_text.
Print Assumptions SelectionProof.C75_aip_sentinel_text.
Print Assumptions SelectionProof.C75_as_documented.
Print Assumptions SelectionProof.C75_one_meaning.
Print Assumptions SelectionProof.C75_sentinels_accepted.
Print Assumptions SelectionProof.C75_text_types.
Print Assumptions SelectionProof.C75_text_types_lawful.
Print Assumptions SelectionProof.C75_special_member_bases.
Print Assumptions Declared.C76_copy_and_move_as_std.
Print Assumptions Declared.C76_noexcept_as_std.
Print Assumptions Declared.C76_exists.
Print Assumptions Constraints.C77_comparison_candidates.
Print Assumptions Constraints.C77_comparison_called.
Print Assumptions Constraints.C77_other_functions.
Print Assumptions Constraints.C77_swap.
Print Assumptions Constraints.C77_converting_constructor.
Print Assumptions Constraints.C77_converting_assignment.
Print Assumptions Constraints.C77_braces.
Print Assumptions Constraints.C77_other_optional.
Print Assumptions Constraints.C77_conversions.
Print Assumptions Explicit.C77_explicit.
Print Assumptions Explicit.C77_explicit_complete.
Print Assumptions Deduced.C78_deduced_type.
Print Assumptions Deduced.C78_nothing_else_is_deduced.
Print Assumptions Deduced.C78_deduced_type_as_std.
Print Assumptions Deduced.C78_make_optional_of_a_value.
Print Assumptions Deduced.C78_make_optional_explicit.
Print Assumptions Deduced.C78_make_optional_is_callable.
Print Assumptions Deduced.C78_make_optional_as_std.
Print Assumptions Deduced.C78_hash_enabled_as_std.
Print Assumptions Deduced.C78_hash_innermost_payload.
Print Assumptions Deduced.C78_hash_disabled_is_detectable.
Print Assumptions Deduced.C78_hash_call.
Print Assumptions Accepted.C79_trait_of_classes.
Print Assumptions Accepted.C79_trait_is_decided.
Print Assumptions Accepted.C79_trait_of_derived_classes.
Print Assumptions Accepted.C79_value_or.
Print Assumptions Accepted.C79_swap.
Print Assumptions Accepted.C79_and_then.
Print Assumptions Accepted.C79_transform.
Print Assumptions Accepted.C79_or_else.
Print Assumptions Accepted.C79_no_other_restrictions.
Print Assumptions Accepted.C79_default_constructor_and_destructor.
Print Assumptions Accepted.C79_storage.
Print Assumptions Accepted.C79_own_functions_qualify.
Print Assumptions Interface.C80_members.
Print Assumptions Interface.C80_not_ambiguous.
Print Assumptions Interface.C80_base_classes.
Print Assumptions Interface.C80_flag_manipulators.
Print Assumptions Interface.C80_constructors.
Print Assumptions Interface.C80_inherited_constructors.
Print Assumptions Interface.C80_base_alias.
Print Assumptions Interface.C80_using_declarations.
Print Assumptions Interface.C80_executed.
Print Assumptions Interface.C80_names.
Print Assumptions Interface.C80_other_classes.
Print Assumptions TypeNames.C81_types.
Print Assumptions TypeNames.C81_template_parameters.
Print Assumptions TypeNames.C81_deduced.
Print Assumptions Layout.C82_storage.
Print Assumptions Layout.C82_layout.
Print Assumptions Layout.C82_is_compressed.
Print Assumptions Layout.C82_is_tiny_optional.
Print Assumptions Layout.C82_value_type.
Print Assumptions Layout.C82_lifetime.
Print Assumptions Layout.C82_memory_model.
Print Assumptions Sizes.C82_selected.
Print Assumptions ConstantUse.C83_compile_time.
Print Assumptions ConstantUse.C83_not_literal.
Print Assumptions ConstantUse.C83_methods.
Print Assumptions ConstantUse.C83_not_declared_constexpr_refuted.
Print Assumptions ConstantUse.C83_declared_constexpr.
