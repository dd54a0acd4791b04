{
 "claims": [
  {
   "property": "C01",
   "status": "proved",
   "theorems": [
    "C01_arena_history_refines",
    "C01_handles_never_reissued",
    "C01_stale_forever",
    "C01_reserve_zero_refuted"
   ],
   "note": "reserve(0) is excluded from histories: it corrupts the free list in generational-arena 0.2.8 (refuted theorem)."
  },
  {
   "property": "C02",
   "status": "proved",
   "theorems": [
    "C02_iter_len_agree"
   ],
   "note": ""
  },
  {
   "property": "C03",
   "status": "proved",
   "theorems": [
    "C03_register_succeeds_iff_id_unused",
    "C03_failed_register_changes_nothing",
    "C03_register_adds_one_contract",
    "C03_ids_unique",
    "C03_registered_until_unregistered"
   ],
   "note": ""
  },
  {
   "property": "C04",
   "status": "proved",
   "theorems": [
    "C04_create_succeeds_iff_types_match",
    "C04_failed_create_changes_nothing"
   ],
   "note": ""
  },
  {
   "property": "C05",
   "status": "proved",
   "theorems": [
    "C05_create_disturbs_nothing_else"
   ],
   "note": ""
  },
  {
   "property": "C06",
   "status": "proved",
   "theorems": [
    "C06_new_state_reads_back",
    "C06_new_channel_reads_back"
   ],
   "note": ""
  },
  {
   "property": "C07",
   "status": "proved",
   "theorems": [
    "C07_objects_are_records",
    "C07_write_changes_exactly_one_field",
    "C07_foreign_contract_type_aliases_refuted"
   ],
   "note": "Proved for histories in which no object is created through a contract handle of a foreign contract type; that case is refuted."
  },
  {
   "property": "C08",
   "status": "proved",
   "theorems": [
    "C08_bind_state_exact",
    "C08_bind_channel_exact",
    "C08_bind_state_rejects_iff",
    "C08_bind_channel_rejects_iff",
    "C08_state_binding_stable",
    "C08_channel_binding_stable",
    "C08_object_accessors_agree"
   ],
   "note": ""
  },
  {
   "property": "C09",
   "status": "proved",
   "theorems": [
    "C09_state_has_handle_type",
    "C09_channel_has_handle_type",
    "C09_write_then_read",
    "C09_write_succeeds_iff_readable",
    "C09_dead_handles_fail_alike",
    "C09_removal_returns_what_reading_gives",
    "C09_dynamic_handles_are_typed",
    "C09_dynamic_state_handle_agrees",
    "C09_dynamic_state_handle_mut_agrees",
    "C09_dynamic_channel_handle_agrees",
    "C09_dynamic_handles_compare",
    "C09_dynamic_ids_are_typed",
    "C09_dynamic_ids_bind_alike",
    "C09_indexing_is_access_or_panic",
    "C09_indexed_writes_are_writes_or_panic"
   ],
   "note": ""
  },
  {
   "property": "C10",
   "status": "partial",
   "theorems": [
    "C10_remove_exact_partial",
    "C10_remove_releases_data_refuted",
    "C10_removed_object_stays_listed_refuted"
   ],
   "note": "The full property is false of the code (data leaked, object stays listed): refuted. The exact effect is proved."
  },
  {
   "property": "C11",
   "status": "partial",
   "theorems": [
    "C11_unregister_exact_partial",
    "C11_only_unregister_panics",
    "C11_unregister_panics_refuted",
    "C11_unregister_after_remove_panics_refuted"
   ],
   "note": "The full property is false of the code (panics): refuted. The exact outcome is proved."
  },
  {
   "property": "C12",
   "status": "proved",
   "theorems": [
    "C12_stale_object_never_resolves",
    "C12_stale_contract_never_resolves"
   ],
   "note": ""
  },
  {
   "property": "C13",
   "status": "proved",
   "theorems": [
    "C13_baselines_isolated",
    "C13_other_baseline_untouched",
    "C13_interleavings_possible",
    "C13_kind_fixed"
   ],
   "note": "Isolation between realms is Rust ownership: a realm is a value with no shared state."
  },
  {
   "property": "C14",
   "status": "proved",
   "theorems": [
    "C14_assertions_are_about_records",
    "C14_kinds_tell_actions_apart",
    "C14_accepted_iff_assertions_hold",
    "C14_try_apply"
   ],
   "note": ""
  },
  {
   "property": "C15",
   "status": "proved",
   "theorems": [
    "C15_no_writes_no_change"
   ],
   "note": ""
  },
  {
   "property": "C16",
   "status": "proved",
   "theorems": [
    "C16_fifo_exactly_once",
    "C16_per_sender_order",
    "C16_bounded",
    "C16_send_possible_iff_room",
    "C16_apply_terminates",
    "C16_applies_are_atomic",
    "C16_one_result_per_collaction",
    "C16_empty_and_disconnected",
    "C16_drain_after_disconnect",
    "C16_disconnected_iff_every_sender_dropped",
    "C16_api_matches_schedule",
    "C16_engine_is_the_system_when_idle",
    "C16_capacity_zero_is_a_rendezvous",
    "C16_send_matches_schedule",
    "C16_sent_then_applied_in_order"
   ],
   "note": "crossbeam-channel is modelled by its documented FIFO/bounded behaviour, not verified."
  },
  {
   "property": "C17",
   "status": "partial",
   "theorems": [
    "C17_reached_write_panics",
    "C17_panics_iff_write_reached_partial",
    "C17_never_takes_effect",
    "C17_write_takes_effect_refuted",
    "C17_accepted_contains_no_write"
   ],
   "note": "False of the code: a reached write always panics (refuted for every realm and handle). Exact outcome for every collaction proved."
  },
  {
   "property": "C18",
   "status": "proved",
   "theorems": [
    "C18_time_is_saturating_sum",
    "C18_exact_while_in_range",
    "C18_never_decreases",
    "C18_always_in_range",
    "C18_clamped_total_refuted",
    "C18_tick_matches_schedule"
   ],
   "note": "Applies to histories that do not overwrite the time through time_mut."
  },
  {
   "property": "C19",
   "status": "proved",
   "theorems": [
    "C19_warp_is_affine_in_range",
    "C19_warp_rounds_down",
    "C19_default_warp_is_identity",
    "C19_warp_monotone",
    "C19_warp_antitone",
    "C19_slow_warp_never_wraps",
    "C19_warp_result_is_i32",
    "C19_warp_wraps_refuted"
   ],
   "note": "Exact in range; wrap-around outside is characterised and the claim without the range condition refuted."
  },
  {
   "property": "C20",
   "status": "partial",
   "theorems": [
    "C20_as_secs_exact_partial",
    "C20_seconds_roundtrip_iff",
    "C20_one_second_is_zero_seconds_refuted"
   ],
   "note": "Round trip is exactly characterised; the documented claim is refuted."
  },
  {
   "property": "C21",
   "status": "partial",
   "theorems": [
    "C21_next_enumerates_ids",
    "C21_collect_is_all_ids",
    "C21_size_hint_exact",
    "C21_id_accessors_agree",
    "C21_nth_exact_partial",
    "C21_nth_always_wrong_refuted",
    "C21_nth_zero_refuted",
    "C21_nth_out_of_range_refuted"
   ],
   "note": "next/collect/size_hint/len proved; nth is wrong in the code: refuted, exact behaviour proved."
  },
  {
   "property": "C22",
   "status": "proved",
   "theorems": [
    "C22_new_loses_nothing",
    "C22_new_sorts",
    "C22_new_total",
    "C22_new_order_irrelevant",
    "C22_new_idempotent",
    "C22_comparator_antisymmetric",
    "C22_sort_guarantee_exact"
   ],
   "note": "slice::sort_unstable_by is assumed to meet its documented contract."
  },
  {
   "property": "C23",
   "status": "partial",
   "theorems": [
    "C23_channels_stay_sorted_partial",
    "C23_keyframes_mut_unsorts_refuted",
    "C23_nan_new_unsorted_refuted"
   ],
   "note": "Proved for histories without keyframes_mut and NaN; both exceptions refuted."
  },
  {
   "property": "C24",
   "status": "proved",
   "theorems": [
    "C24_prop_type_of_converted",
    "C24_every_dynamic_value_is_static",
    "C24_roundtrip",
    "C24_try_into_sound",
    "C24_try_into_fails_iff_other_type",
    "C24_dyn_equals_static_iff",
    "C24_static_equals_dyn_iff",
    "C24_operand_order_irrelevant",
    "C24_dyn_equals_dyn_iff",
    "C24_equality_is_identity_off_floats",
    "C24_f32_equality",
    "C24_f64_equality",
    "C24_f32_nan_iff",
    "C24_f64_nan_iff",
    "C24_borrow_preserves_value",
    "C24_borrow_preserves_type",
    "C24_borrow_preserves_equality"
   ],
   "note": ""
  },
  {
   "property": "C25",
   "status": "partial",
   "theorems": [
    "C25_round_trip_partial",
    "C25_negative_zero_and_warp_are_lost_refuted",
    "C25_channel_contracts_cannot_be_read_back_refuted",
    "C25_objects_with_channels_never_read_back"
   ],
   "note": "Round trip proved for every panic-free disciplined history, every reference-closed selection of live contracts without channels, every hash order and every registration/deserialization order. Missing, because false of the code and refuted: contracts with channels (proved: their objects are never read back), -0.0 and time warps (lost), removed objects; vector fields are rejected by serialize."
  },
  {
   "property": "C26",
   "status": "partial",
   "theorems": [
    "C26_accepted_objects_conform",
    "C26_finish_fails_iff_dangling",
    "C26_finish_never_panics",
    "C26_deserialize_panics_only_on_broken_objects_partial",
    "C26_fitting_objects_are_accepted",
    "C26_never_panics_refuted",
    "C26_accepts_exactly",
    "C26_panics_exactly",
    "C26_second_time_exactly",
    "C26_objects_with_channels_are_never_accepted"
   ],
   "note": "Conformance of everything accepted, finish never panics and fails exactly on dangling references, the first deserialize_objects of a contract succeeds exactly if every object of it is acceptable and panics exactly if the first object that is not acceptable is one of two named kinds (specs in PropertiesDeserExact.v; every other failure is an error), and what a second call does, exactly: proved. 'Never panics' is false of the code (four kinds of panic exhibited), hence partial."
  },
  {
   "property": "C27",
   "status": "partial",
   "theorems": [
    "C27_unregistered_objects_reported_refuted",
    "C27_exactly_the_requested_objects",
    "C27_reference_to_missing_object_reported"
   ],
   "note": "The documented error does not exist: refuted; proved instead exactly which objects the result contains and that references to absent objects are reported."
  },
  {
   "property": "C28",
   "status": "partial",
   "theorems": [
    "C28_kind_equals_type_iff_same",
    "C28_type_equals_kind_iff_same",
    "C28_tag_equals_type_iff_same",
    "C28_type_equals_tag_iff_same",
    "C28_conversion_denotes_the_type",
    "C28_conversion_accepted",
    "C28_tags_compare_wrongly_refuted",
    "C28_tags_compare_exactly",
    "C28_tags_symmetric"
   ],
   "note": "Both type comparisons proved in both operand orders; the tag-to-tag clause is false of the code (U32/U64): refuted and characterised exactly."
  },
  {
   "property": "C29",
   "status": "partial",
   "theorems": [
    "C29_accepted_iff",
    "C29_rejections",
    "C29_accessors_and_listings",
    "C29_accessors_agree_with_the_contract",
    "C29_accessor_reads_the_declared_field",
    "C29_compiles_iff",
    "C29_accepted_code_need_not_compile_refuted",
    "C29_raw_identifiers_evade_the_check_refuted"
   ],
   "note": "Acceptance, accessor ids, listings, agreement with the contract iterators and reading through the accessor are proved for every declaration. Refuted: accepted declarations need not compile (field named new, vector fields), and raw identifiers evade the reserved-name check."
  },
  {
   "property": "C30",
   "status": "partial",
   "theorems": [
    "C30_any_path",
    "C30_mangled_form",
    "C30_symbol_form",
    "C30_distinct_within_one_path",
    "C30_distinct_without_double_underscores_partial",
    "C30_distinct_by_initial_letter_partial",
    "C30_different_paths_one_symbol_refuted"
   ],
   "note": "Full claim refuted (different paths, one symbol). Injectivity proved for delimited segments with identifiers free of \"__\", and for identifiers of any shape with a distinguishing first letter (the repository's naming convention)."
  },
  {
   "property": "C31",
   "status": "partial",
   "theorems": [
    "C31_jump_exact",
    "C31_int_ascending_partial",
    "C31_int_ascending_f64_partial",
    "C31_int_descending_never_moves",
    "C31_int_overflow_panics",
    "C31_end_points_refuted",
    "C31_int_any_distance",
    "C31_int_never_goes_back"
   ],
   "note": "Jump tweens characterised exactly; ascending integer tweens up to 2^24 apart proved exact to the neighbouring integer for every f32/f64 time in [0,1]; for every representable distance below 2^64 and every finite time, the exact panic condition, a 2^-22 relative error bound and monotonicity (C31_int_any_distance, C31_int_never_goes_back; these two use the standard library's axioms of real numbers through Flocq). Refuted, hence partial: descending, unsigned descending (panic), more than 2^24 apart, jump at -1."
  },
  {
   "property": "C32",
   "status": "proved",
   "theorems": [
    "C32_states_and_channels_only_grow"
   ],
   "note": ""
  },
  {
   "property": "C33",
   "status": "partial",
   "theorems": [
    "C33_serializing_twice_leaves_placeholders_refuted",
    "C33_removed_objects_are_not_skipped_refuted",
    "C33_buffer_holds_exactly_the_selection",
    "C33_serialize_succeeds_iff",
    "C33_serialize_appends"
   ],
   "note": "Exact contents of the buffer, of one serialize call, and its exact success/panic condition proved. The clause 'fails if a listed object no longer exists' is false for contracts without fields, and serializing a contract twice leaves placeholders: both refuted."
  },
  {
   "property": "C34",
   "status": "proved",
   "theorems": [
    "C34_register_selects_by_id_and_layout",
    "C34_selection_is_unique"
   ],
   "note": "Registering a contract with the id of the internal null contract fails too; the iff says so."
  },
  {
   "property": "C35",
   "status": "partial",
   "theorems": [
    "C35_exact_value",
    "C35_collisions_exact",
    "C35_unpackable_without_blue_and_alpha_partial",
    "C35_packing_is_not_injective_refuted"
   ],
   "note": "Exact packed value and exact collision condition proved for all colours; injectivity refuted."
  },
  {
   "property": "C36",
   "status": "partial",
   "theorems": [
    "C36_foreign_handle_accepted_refuted",
    "C36_same_history_same_handles"
   ],
   "note": "The claim is false of the code: refuted. What holds (handles depend only on the history) is proved."
  },
  {
   "property": "C37",
   "status": "proved",
   "theorems": [
    "C37_iterator_is_the_live_pairs",
    "C37_collect_and_rev_collect",
    "C37_iteration_follows_handle_order",
    "C37_handle_order_is_total",
    "C37_iter_mut_writes_exactly_what_was_visited",
    "C37_indexing_panics_iff_dead",
    "C37_from_iter_into_iter"
   ],
   "note": "The traversal loops are those of generational-arena 0.2.8, modelled from the published source."
  },
  {
   "property": "C38",
   "status": "proved",
   "theorems": [
    "C38_circle_is_the_declared_struct",
    "C38_every_schedule_moves_each_circle_alone",
    "C38_every_circle_is_its_own_object",
    "C38_main_baseline_untouched",
    "C38_synchronised_circles_are_drawn_where_they_are",
    "C38_grid_positions_are_exact",
    "C38_each_move_is_rounded_once",
    "C38_circles_stay_finite_and_near"
   ],
   "note": "f32 arithmetic is Coq's SpecFloat binary32 on bit patterns. Bevy itself, drawing and colours are not modelled; the scheduler is any order. In the numeric theorems rand::random::<f32>() is a multiple of 2^-24 in [0,1) (rand 0.8.5); their proofs use the standard library's axioms of real numbers (listed in DESIGN.md), through Flocq."
  },
  {
   "property": "C39",
   "status": "proved",
   "theorems": [
    "C39_ball_is_the_declared_struct",
    "C39_platform_mirrors_unity",
    "C39_after_a_frame_both_sides_agree",
    "C39_field_by_field",
    "C39_missing_colour_spoils_only_the_colour",
    "C39_not_ready_changes_nothing",
    "C39_handles_are_the_bound_fields",
    "C39_angles_are_stored_in_whole_degrees",
    "C39_colour_channels_are_scaled_to_16_bits",
    "C39_extreme_channels_are_exact",
    "C39_object_remove_always_panics_refuted"
   ],
   "note": "ObjectCreate passes a boxed contract handle where Rust expects the contract (type confusion); the model reads the handle as the contract's first field, which is what the compiled code does only if rustc keeps the field order."
  },
  {
   "property": "C40",
   "status": "partial",
   "theorems": [
    "C40_obedient_programs_are_memory_safe",
    "C40_obedient_programs_leak_only_vectors",
    "C40_every_box_has_one_owner",
    "C40_dispose_is_idempotent",
    "C40_disposed_is_gone",
    "C40_using_a_gone_wrapper_throws",
    "C40_moving_nulls_the_wrapper",
    "C40_shared_baselines_are_not_mutated",
    "C40_guarded_methods",
    "C40_object_create_wants_an_owned_string",
    "C40_unreachable_drops_are_unreachable",
    "C40_vectors_always_leak",
    "C40_assigning_a_borrowed_value_is_undefined",
    "C40_object_remove_then_dispose_is_undefined",
    "C40_a_view_outliving_its_baseline_is_undefined",
    "C40_a_view_outliving_a_move_is_undefined",
    "C40_last_use_races_with_the_finalizer",
    "C40_ball_object_create_confuses_types",
    "C40_vector_assignment_confuses_types",
    "C40_assigning_to_a_disposed_vector_loses_the_keyframe",
    "C40_read_only_states_are_writable",
    "C40_calls_have_exactly_the_documented_effect"
   ],
   "note": "Proved for every program that follows the rules of ManagedSpec.v; the parts of the claim the C# code itself breaks are refuted for every state. (Values, native panics and the two arguments ExampleContract.ObjectCreate forgets: C47.)"
  },
  {
   "property": "C41",
   "status": "proved",
   "theorems": [
    "C41_deserialized_baselines_are_ordinary",
    "C41_deserialized_baselines_are_consistent",
    "C41_saving_and_loading_adds_no_states"
   ],
   "note": "Reachability by API calls is proved call by call; the consistency facts and closure under load/use/save cycles follow. Buffers are the FlatBuffers accessor view of the bytes (see C24-C27)."
  },
  {
   "property": "C42",
   "status": "proved",
   "theorems": [
    "C42_scale_as_f64_exact",
    "C42_scale_as_f64_order",
    "C42_f32_correctly_rounded",
    "C42_f32_monotone",
    "C42_f32_exact_iff",
    "C42_f32_exact_range",
    "C42_f32_error",
    "C42_as_secs_is_floor",
    "C42_as_secs_is_floor_refuted",
    "C42_f32_injective_refuted",
    "C42_one_second_refuted"
   ],
   "note": "IEEE arithmetic is Coq's SpecFloat. The refuted theorems delimit the claim: beyond 2^24 ticks as_secs_f32 can be a whole second ahead of as_secs, and distinct values share an f32."
  },
  {
   "property": "C43",
   "status": "partial",
   "theorems": [
    "C43_text_round_trip",
    "C43_ill_formed_text_is_sanitised",
    "C43_unchanged_iff_well_formed",
    "C43_empty_string_refuted",
    "C43_native_text_is_read_exactly",
    "C43_copy_utf8_accepts_exactly_utf8",
    "C43_copy_utf16_accepts_exactly_utf16",
    "C43_encodings_are_unambiguous"
   ],
   "note": "Proved for every non-empty string, both directions, both native constructors. Refuted: new RString(\"\") throws IndexOutOfRangeException."
  },
  {
   "property": "C44",
   "status": "partial",
   "theorems": [
    "C44_example_is_the_declared_struct",
    "C44_created_object_shows_its_arguments",
    "C44_created_object_is_new",
    "C44_create_succeeds_iff_the_contract_is_known",
    "C44_only_writes_change_fields",
    "C44_fields_last_until_written",
    "C44_a_write_stores_its_value",
    "C44_a_write_changes_one_field",
    "C44_write_then_read",
    "C44_reading_is_all_or_nothing",
    "C44_reading_is_defined",
    "C44_boxes_live_until_given_away",
    "C44_register_once_per_baseline",
    "C44_kind_is_kept",
    "C44_contract_data_names_the_example",
    "C44_object_remove_never_returns_refuted",
    "C44_removing_a_live_object_aborts",
    "C44_no_first_object_refuted",
    "C44_handles_by_value",
    "C44_objects_are_listed",
    "C44_object_lists_are_permanent",
    "C44_value_pointers_show_a_value",
    "C44_example"
   ],
   "note": "Proved for every program. Refuted: ExampleContract__object_remove never returns (it aborts the process on every object), and a program that uses only this library cannot create a first object, since creation consumes a boxed object handle and only creation makes one."
  },
  {
   "property": "C45",
   "status": "proved",
   "theorems": [
    "C45_lists_are_lists",
    "C45_element_is_what_was_pushed",
    "C45_channel_lists_sorted",
    "C45_nothing_else_leaks",
    "C45_push_and_element_pointers",
    "C45_set_replaces_one",
    "C45_struct_copy_is_not_a_list_copy_refuted",
    "C45_csharp_indexer",
    "C45_csharp_push",
    "C45_csharp_push_of_an_element_refuted",
    "C45_capacity_doubles"
   ],
   "note": "For single-owner programs. Copying the struct is refuted as a list copy. The C# setter passes the wrong pointer (C40_vector_assignment_confuses_types), so indexed assignment works from C only. push of the C# class does not check that the keyframe is owned: pushing an element of a list is undefined behaviour (C45_csharp_push_of_an_element_refuted)."
  },
  {
   "property": "C46",
   "status": "proved",
   "theorems": [
    "C46_error_exactly",
    "C46_replaces_exactly",
    "C46_no_placeholder_left",
    "C46_other_items_untouched",
    "C46_attribute_text",
    "C46_attribute_rewritten",
    "C46_ends_unless_nested",
    "C46_panics_exactly",
    "C46_marks_become_the_path",
    "C46_module_symbols",
    "C46_attribute_texts_refuted",
    "C46_expressions_differ_refuted"
   ],
   "note": "Syntax trees are cut down to macro expressions, attributes and other nodes; the tokenizer (text to tokens and back) and the expression parser are parameters of the theorems."
  },
  {
   "property": "C47",
   "status": "partial",
   "theorems": [
    "C47_exceptions_have_no_effect",
    "C47_exceptions_exactly",
    "C47_owned_wrappers_have_their_own_boxes",
    "C47_calls_empty_exactly_what_they_take",
    "C47_owned_arguments_are_safe",
    "C47_reading_is_reading_in_C",
    "C47_write_then_read",
    "C47_fields_last_until_assigned",
    "C47_reading_is_defined",
    "C47_new_boxes_are_read_back",
    "C47_handles_have_no_value",
    "C47_new_state_holds_its_value",
    "C47_assigned_state_holds_its_value",
    "C47_states_last_until_assigned",
    "C47_baselines_keep_their_kind",
    "C47_borrowed_baselines_show_the_same",
    "C47_register_succeeds_once",
    "C47_register_twice_crashes",
    "C47_ids_name_the_example",
    "C47_handles_have_no_identity_refuted",
    "C47_object_create_is_undefined_refuted",
    "C47_writing_a_shared_state_is_undefined_refuted",
    "C47_old_views_dangle_refuted",
    "C47_borrows_outlive_the_owner_refuted",
    "C47_dispose_once",
    "C47_fixed_create_shows_its_arguments",
    "C47_methods_exist_for_these_types_only",
    "C47_example"
   ],
   "note": "ObjectCreate (refuted: undefined, two arguments missing) is excluded from the positive theorems; objects come from a corrected call. Lent views used too late or written through are undefined (refuted). Everything else proved."
  },
  {
   "property": "C48",
   "status": "proved",
   "theorems": [
    "C48_rendering",
    "C48_templates_are_cut_whole",
    "C48_every_type_renders",
    "C48_classes_are_well_formed",
    "C48_classes_have_their_members",
    "C48_constructors",
    "C48_success_writes_every_class",
    "C48_other_files_untouched",
    "C48_failure_point",
    "C48_fails_only_for_a_reason",
    "C48_refuses_to_overwrite",
    "C48_unreadable_directory_is_overwritten_refuted",
    "C48_second_run",
    "C48_every_box_renders",
    "C48_box_generator",
    "C48_box_refuses_to_overwrite",
    "C48_success_hides_no_failure",
    "C48_box_success_hides_no_failure"
   ],
   "note": "All parts are proved. C48_unreadable_directory_is_overwritten_refuted shows why the proviso about the existence test is needed: Path::exists() answers false on an error, and then files are replaced without -f."
  },
  {
   "property": "C49",
   "status": "partial",
   "theorems": [
    "C49_symbols_are_distinct",
    "C49_every_use_has_its_function",
    "C49_calls_have_the_right_number_of_arguments_partial",
    "C49_object_create_is_two_short_refuted",
    "C49_generators_agree_on_the_types",
    "C49_type_tables_fit",
    "C49_classes_use_their_own_functions",
    "C49_classes_stay_with_their_type",
    "C49_casts_match",
    "C49_results_get_their_own_wrapper",
    "C49_results_are_labelled_right",
    "C49_declarations_match",
    "C49_every_use_has_a_place",
    "C49_arguments_are_what_the_function_takes_partial",
    "C49_wrong_arguments_refuted",
    "C49_members_call_their_namesakes"
   ],
   "note": "False at four places: ExampleContract.ObjectCreate passes nine arguments to a native function of eleven (C49_object_create_is_two_short_refuted; that C# does not compile); ExampleContract.ObjectRemove does not give its object away, BallContract.ObjectCreate passes a contract handle for the contract, and BallContract.ObjectRemove passes a contract handle for an object (C49_wrong_arguments_refuted). Everything else is proved for every use; the theorems named _partial exclude exactly those. RVec_Keyframe.cs is left out of the argument theorem (its memory is the subject of C40)."
  },
  {
   "property": "C50",
   "status": "partial",
   "theorems": [
    "C50_finds_the_project",
    "C50_arguments_are_refused",
    "C50_directories_are_apart",
    "C50_touches_nothing_else",
    "C50_success_replaces_the_bindings",
    "C50_libraries_are_copied_partial",
    "C50_dotted_project_fails_refuted",
    "C50_real_library_overwritten_refuted"
   ],
   "note": "False in two ways. If a directory above the project has a dot in its name the copy throws, after the client's bindings have been deleted (C50_dotted_project_fails_refuted); the copying theorem is for dot-free paths (C50_libraries_are_copied_partial). With the default name, the library of the crate unity_states is itself overwritten, first by the client's (which CppSharp then sees in its place) and at the end by the example contract's (C50_real_library_overwritten_refuted). CppSharp is a parameter that writes only below its output directory; the AST pass that ignores copy constructors is not modelled; paths are Unix paths and target/debug exists."
  },
  {
   "property": "C51",
   "status": "partial",
   "theorems": [
    "C51_loaded_values_are_proper",
    "C51_no_file_is_read_outside",
    "C51_what_is_loaded_is_bounded",
    "C51_accepted_files_hold_proper_values",
    "C51_trailing_bytes_change_nothing",
    "C51_torn_files_are_rejected_or_complete",
    "C51_file_identifier_is_not_checked_refuted"
   ],
   "note": "The last sentence is false: the four bytes of the format's identifier are written but not checked on loading (C51_file_identifier_is_not_checked_refuted). The rest is proved for all byte strings. The generated accessors and the verifier of the crate flatbuffers 22.12.6 are not in /repo; they are modelled from the crate (Wire.v) and trusted to be so."
  },
  {
   "property": "C52",
   "status": "partial",
   "theorems": [
    "C52_saved_bytes_are_the_tables",
    "C52_saved_files_are_accepted",
    "C52_more_than_a_million_tables_cannot_be_loaded",
    "C52_save_and_load_restore_partial",
    "C52_a_saved_baseline_may_be_unreadable_refuted"
   ],
   "note": "False for large baselines: the loader's verifier accepts at most 1000000 tables and an object takes 2 + 3 per field, so a baseline with 60000 objects of five fields is saved without an error and cannot be loaded (C52_a_saved_baseline_may_be_unreadable_refuted). Up to that number (and 10^9 bytes) every saved file is accepted. The statement about restoring has the hypotheses of C25_round_trip_partial. Files of 2 GiB and more are outside the theorems (the crate's builder panics there). The crate flatbuffers is modelled from its source, which is not in /repo."
  },
  {
   "property": "C53",
   "status": "proved",
   "theorems": [
    "C53_a_view_shows_the_value",
    "C53_a_slice_shows_its_elements",
    "C53_handle_views_when_readable",
    "C53_assigning_through_a_view",
    "C53_assigning_to_an_element",
    "C53_views_keep_type_and_length",
    "C53_slices_keep_the_rest",
    "C53_views_compare_what_they_show"
   ],
   "note": "Places (program variables and baseline states), views as place/offset/length, all variants. The borrow checker's exclusivity is not modelled; views are used one operation at a time on the current memory."
  },
  {
   "property": "C54",
   "status": "proved",
   "theorems": [
    "C54_loaded_baselines_are_ordinary",
    "C54_loaded_baselines_go_on_as_records",
    "C54_any_number_of_saves_and_loads",
    "C54_only_the_first_time_changes_values",
    "C54_files_can_be_saved_and_loaded_for_ever"
   ],
   "note": "The conditions on the selection are those of C25 (and C52 for files): they are what the first save and load need; the theorems add none for the later ones. For files each has at most 10^9 bytes. A file's length may differ from one generation to the next (example C54_two_files)."
  },
  {
   "property": "C55",
   "status": "proved",
   "theorems": [
    "C55_values_were_handed_over",
    "C55_keyframes_were_handed_over",
    "C55_later_values_were_there_or_handed_over"
   ],
   "note": "Through the typed handles one writes a state with a value or replaces keyframes; these are the model's two writing calls."
  },
  {
   "property": "C56",
   "status": "partial",
   "theorems": [
    "C56_options",
    "C56_long_options_refuted",
    "C56_native_libraries",
    "C56_no_torn_library",
    "C56_managed_links_dangle_refuted",
    "C56_assemblies_are_elsewhere",
    "C56_runtime_link_opens",
    "C56_project_file_is_never_lost",
    "C56_interrupted_runs_rename_refuted",
    "C56_renamed_for_ever",
    "C56_renamed_stops_every_run",
    "C56_restored_by_hand",
    "C56_nothing_else",
    "C56_met",
    "C56_placeholder_may_be_missing_refuted"
   ],
   "note": "Options (C56_options), native libraries (C56_native_libraries), stopped runs (C56_no_torn_library), the CppSharp runtime link and the extent of the writes (C56_nothing_else) hold. The rest of the claim is false of the script and refuted: the six assembly links point to demos/unity_states/cs/bin/{main,ios} while the script writes cs/src/bin, so they never open (C56_managed_links_dangle_refuted; where the assemblies are instead: C56_assemblies_are_elsewhere); with -w, a run stopped in the wrong place leaves codegen.csproj renamed, which no later run undoes and which stops every later run with -w (C56_interrupted_runs_rename_refuted, C56_renamed_for_ever, C56_renamed_stops_every_run; the remedy: C56_restored_by_hand); a failing mkdir left of && does not stop the script (C56_placeholder_may_be_missing_refuted); long options are read letter by letter (C56_long_options_refuted)."
  },
  {
   "property": "C57",
   "status": "partial",
   "theorems": [
    "C57_only_the_packaged_libraries_change",
    "C57_only_the_libraries_named_change",
    "C57_exactly_one_settings",
    "C57_packages_what_the_links_open",
    "C57_packages_what_was_built",
    "C57_packages_old_or_empty_libraries_refuted",
    "C57_succeeds_iff_libraries_are_there",
    "C57_stopped_builds_do_no_harm",
    "C57_met"
   ],
   "note": "Partial because the last expectation is false of the code: C57_packages_old_or_empty_libraries_refuted proves what a build without -a packages instead (old libraries, or empty files, with no error); everything else is proved. Unity's FileUtil functions are modelled from their documentation."
  },
  {
   "property": "C58",
   "status": "proved",
   "theorems": [
    "C58_tween_agrees",
    "C58_tween_goes_around",
    "C58_unsigned_descending",
    "C58_signed_overflow_never_moves",
    "C58_serialize_agrees",
    "C58_serialize_never_panics",
    "C58_contract_index",
    "C58_the_65536th_contract",
    "C58_assertion_never_fires",
    "C58_nth"
   ],
   "note": "The statement about release builds is exact where the two builds differ; the surprising results (indices modulo 65536, tweens around the circle) are part of the statement."
  },
  {
   "property": "C59",
   "status": "proved",
   "theorems": [
    "C59_keys_are_lawful",
    "C59_hash_maps_are_finite_maps",
    "C59_two_way_maps_are_lists_of_pairs"
   ],
   "note": "std's and bimap's tables are modelled as chained buckets with any hash function of what the key writes to the hasher. Contract names are text (no byte 255) for the statement that different ids feed the hasher differently."
  },
  {
   "property": "C60",
   "status": "partial",
   "theorems": [
    "C60_never_invented_or_copied",
    "C60_engines_change_no_collaction",
    "C60_clients_can_submit_refuted",
    "C60_with_a_constructor_it_works"
   ],
   "note": "The conservation part is proved for all programs. That clients outside the crate can submit is false of the code (refuted for every such program)."
  },
  {
   "property": "C61",
   "status": "partial",
   "theorems": [
    "C61_only_unregister_panics",
    "C61_panics_iff",
    "C61_panic_exact",
    "C61_still_sound",
    "C61_histories",
    "C61_register_and_create_work",
    "C61_consistent_without_panics",
    "C61_consistent_after_panic_iff",
    "C61_books_kept_refuted",
    "C61_orphans_for_ever",
    "C61_met"
   ],
   "note": "Everything but the listing clause is proved for all histories with caught panics; that clause is false of the code (refuted for every baseline with two live objects of a contract with fields), and the exact effect of the panic is proved."
  },
  {
   "property": "C62",
   "status": "partial",
   "theorems": [
    "C62_same_as_vectors",
    "C62_asks_once_more_than_fields",
    "C62_no_success_no_change",
    "C62_succeeds_iff",
    "C62_panics_iff",
    "C62_refused_sizes_take_no_item",
    "C62_endless_is_rejected",
    "C62_mismatch_is_an_error_refuted",
    "C62_the_rest_is_ignored",
    "C62_met"
   ],
   "note": "All clauses but the last are proved for every iterator; the last is false of the code (refuted for every registered contract), the exact condition is proved."
  },
  {
   "property": "C63",
   "status": "partial",
   "theorems": [
    "C63_ignored_failures",
    "C63_call_exact",
    "C63_no_trace_iff",
    "C63_failed_call_writes_nothing_refuted",
    "C63_leftovers_depend_on_hash_order_refuted",
    "C63_retry_gives_the_same_answer",
    "C63_file_after_failures"
   ],
   "note": "All clauses but the last are proved; the last is false of the code (refuted for every contract with fields that lists a removed object), and the exact content left behind is proved. Contracts without fields that list removed objects are excluded here (they are written as objects: C33)."
  },
  {
   "property": "C64",
   "status": "partial",
   "theorems": [
    "C64_what_failed_loads_leave",
    "C64_loaded_objects_come_first",
    "C64_finish_after_failures",
    "C64_answer_after_failures",
    "C64_order_and_retries_do_not_matter",
    "C64_whatever_was_caught",
    "C64_references_lead_somewhere_whatever_was_caught",
    "C64_finish_whatever_was_caught",
    "C64_answer_whatever_was_caught",
    "C64_ordinary_whatever_failed",
    "C64_written_buffers_are_unshared",
    "C64_failed_load_leaves_nothing_refuted",
    "C64_asking_again_can_load_twice_refuted"
   ],
   "note": "All clauses but the last sentence are proved; the last sentence is false of the code (C64_failed_load_leaves_nothing_refuted, C64_asking_again_can_load_twice_refuted), and what happens instead is proved."
  },
  {
   "property": "C65",
   "status": "proved",
   "theorems": [
    "C65_the_orders_are_lawful",
    "C65_ordered_maps_keep_their_order",
    "C65_listings_forget_the_history",
    "C65_sorting_handles_restores_arena_order",
    "C65_binary_search_finds",
    "C65_a_reused_slot_has_a_greater_handle",
    "C65_handle_order_is_age_order_refuted",
    "C65_time_arithmetic_keeps_the_order",
    "C65_time_arithmetic_is_strict_in_range",
    "C65_adding_keeps_times_apart_refuted"
   ],
   "note": "Proved for all keys, histories and tree shapes. Two readings the statement does not make are false of the code and are refuted: a handle issued later can come before one issued earlier (slots are reused; only within one slot does the order follow age, which is proved), and adding the same ticks to different times can make them equal (saturation; strictness in range is proved). The tree is a binary search tree with arbitrary rotations standing for the library's B-tree; generational_arena::Index's derived order (slot, then generation) is taken from the crate, which is not in /repo."
  }
 ]
}