{
 "claims": [
  {
   "property": "C01",
   "status": "proved",
   "theorems": [
    "sel_changed_event_exact",
    "sel_shift_silent",
    "sel_add_range_fires"
   ],
   "note": ""
  },
  {
   "property": "C02",
   "status": "proved",
   "theorems": [
    "sel_insert_follows_items",
    "sel_remove_follows_items",
    "sel_edits_follow_items",
    "sel_edits_follow_anchor"
   ],
   "note": ""
  },
  {
   "property": "C03",
   "status": "proved",
   "theorems": [
    "sel_none_never_selects",
    "sel_single_or_none_at_most_one",
    "sel_single_at_most_one",
    "sel_single_clear_effect",
    "sel_single_at_most_one_refuted"
   ],
   "note": "FINDING: in style single, clear adds index 0 without removing the others."
  },
  {
   "property": "C04",
   "status": "proved",
   "theorems": [
    "sel_extend_interval",
    "sel_extend_no_anchor",
    "sel_extend_selects_refuted"
   ],
   "note": "FINDING: extend to the anchor itself selects nothing when the anchor is not selected."
  },
  {
   "property": "C05",
   "status": "proved",
   "theorems": [
    "sel_anchor_selected_history",
    "sel_remove_anchor",
    "sel_remove_index_anchor",
    "sel_anchor_selected_refuted"
   ],
   "note": "FINDING: removing the anchor keeps an unselected anchor in some cases."
  },
  {
   "property": "C06",
   "status": "proved",
   "theorems": [
    "sel_ordered_indexes"
   ],
   "note": ""
  },
  {
   "property": "C07",
   "status": "proved",
   "theorems": [
    "sel_multiple_set_operations",
    "sel_toggle_involutive"
   ],
   "note": ""
  },
  {
   "property": "C08",
   "status": "proved",
   "theorems": [
    "listmodel_observer_reconstructs",
    "listmodel_call_notifies",
    "listmodel_clear_last_to_first"
   ],
   "note": ""
  },
  {
   "property": "C09",
   "status": "proved",
   "theorems": [
    "filter_comparison_leaves",
    "filter_missing_attribute_raises",
    "filter_and_is_conjunction",
    "filter_or_is_disjunction",
    "filter_tree_is_boolean",
    "filter_text_is_substring",
    "filter_date_fields",
    "filter_deepcopy_matches",
    "filter_deepcopy_text_raises"
   ],
   "note": "FINDING: a deep-copied TextFilter raises AttributeError on matching."
  },
  {
   "property": "C10",
   "status": "proved",
   "theorems": [
    "filtered_observer_reconstructs"
   ],
   "note": ""
  },
  {
   "property": "C11",
   "status": "proved",
   "theorems": [
    "filtered_unsorted_is_filter"
   ],
   "note": ""
  },
  {
   "property": "C12",
   "status": "proved",
   "theorems": [
    "filtered_sorted_permutation",
    "filtered_master_is_container"
   ],
   "note": ""
  },
  {
   "property": "C13",
   "status": "proved",
   "theorems": [
    "filtered_key_change",
    "filtered_key_change_refuted"
   ],
   "note": "FINDING: keys [1,5,7], changing 5 to 9 leaves the list unsorted."
  },
  {
   "property": "C14",
   "status": "proved",
   "theorems": [
    "filtered_block_end",
    "filtered_reinsertion_refuted",
    "filtered_reverse_no_key_refuted",
    "filtered_block_key_change_refuted"
   ],
   "note": "FINDING: re-insertion inside a change block, sort_reverse without sort key, and key changes inside a block give wrong lists."
  },
  {
   "property": "C15",
   "status": "proved",
   "theorems": [
    "filtered_changes_bracketed"
   ],
   "note": ""
  },
  {
   "property": "C16",
   "status": "proved",
   "theorems": [
    "filtered_removals_named",
    "filtered_rebuild_removals",
    "filtered_rebuild_removal_refuted"
   ],
   "note": "FINDING: full rebuilds notify removals with the wrong item."
  },
  {
   "property": "C17",
   "status": "proved",
   "theorems": [
    "filtered_selection_follows",
    "filtered_selection_refuted"
   ],
   "note": "FINDING: selections are shifted by container positions, not list positions."
  },
  {
   "property": "C18",
   "status": "proved",
   "theorems": [
    "mapped_items_are_images",
    "mapped_items_are_map",
    "mapped_observer_reconstructs",
    "mapped_selection_follows"
   ],
   "note": "Holds for every integer index with Python's rules; the selection part for in-range indexes and pairwise different mapped objects."
  },
  {
   "property": "C19",
   "status": "proved",
   "theorems": [
    "mapped_called_once_per_item",
    "mapped_unmapped_once",
    "mapped_all_unmapped_at_none"
   ],
   "note": ""
  },
  {
   "property": "C20",
   "status": "proved",
   "theorems": [
    "flattened_is_concatenation",
    "flattened_observer_reconstructs",
    "flattened_negative_child_index_refuted"
   ],
   "note": "FINDING: a negative child index misplaces the item."
  },
  {
   "property": "C21",
   "status": "proved",
   "theorems": [
    "flattened_selection_removals",
    "flattened_selection_insertion",
    "flattened_selection_insertion_refuted"
   ],
   "note": "FINDING: on insertion selections are shifted at the child index."
  },
  {
   "property": "C22",
   "status": "proved",
   "theorems": [
    "event_fire_turns",
    "event_fire_any_all_turns"
   ],
   "note": ""
  },
  {
   "property": "C23",
   "status": "proved",
   "theorems": [
    "event_raise_stops_fire",
    "event_all_listeners_called_refuted"
   ],
   "note": "FINDING: one raising listener silences the ones after it."
  },
  {
   "property": "C24",
   "status": "proved",
   "theorems": [
    "event_fire_any_result",
    "event_fire_all_result",
    "event_fire_without_listeners",
    "event_fire_all_true_refuted",
    "event_fire_all_closed_refuted"
   ],
   "note": "FINDING: fire_all is None (falsy) without listeners or after an exception, and False because of a closed listener."
  },
  {
   "property": "C25",
   "status": "proved",
   "theorems": [
    "event_registered_iff",
    "event_closed_iff",
    "event_never_called_after_close"
   ],
   "note": ""
  },
  {
   "property": "C26",
   "status": "proved",
   "theorems": [
    "registry_views_agree_with_history"
   ],
   "note": ""
  },
  {
   "property": "C27",
   "status": "proved",
   "theorems": [
    "registry_register_succeeds",
    "registry_register_all_or_nothing",
    "registry_unregister_all_or_nothing"
   ],
   "note": ""
  },
  {
   "property": "C28",
   "status": "proved",
   "theorems": [
    "registry_unregister_types",
    "registry_unregister_all_notifies_empty",
    "registry_unregister_payload_refuted"
   ],
   "note": "FINDING: unregistering all types notifies with the empty set of types."
  },
  {
   "property": "C29",
   "status": "proved",
   "theorems": [
    "registry_get_component",
    "registry_fire_existing",
    "registry_priority_refuted"
   ],
   "note": "FINDING: get_component returns a component although one with a higher priority is registered."
  },
  {
   "property": "C30",
   "status": "proved",
   "theorems": [
    "rc_hook_once_at_first_zero",
    "rc_add_ref_recorded",
    "rc_remove_ref_recorded",
    "rc_remove_at_zero_raises"
   ],
   "note": ""
  },
  {
   "property": "C31",
   "status": "proved",
   "theorems": [
    "taskqueue_perform_fifo",
    "taskqueue_unfinished_counts_raises"
   ],
   "note": ""
  },
  {
   "property": "C32",
   "status": "proved",
   "theorems": [
    "taskset_perform_latest",
    "taskset_add_clear_latest",
    "taskset_every_history",
    "taskset_raise_loses_tasks_refuted"
   ],
   "note": "FINDING: tasks pending when another one raises are lost."
  },
  {
   "property": "C33",
   "status": "proved",
   "theorems": [
    "promise_access_results",
    "promise_calls_until_first_return",
    "promise_raising_is_retried",
    "promise_has_value_refuted"
   ],
   "note": "FINDING: has_value is False for a promise evaluated to None."
  },
  {
   "property": "C34",
   "status": "proved",
   "theorems": [
    "validator_nearest",
    "validator_laws"
   ],
   "note": ""
  },
  {
   "property": "C35",
   "status": "proved",
   "theorems": [
    "conv_int_roundtrip",
    "conv_int_accepts",
    "conv_int_rejects",
    "conv_int_text_canonical"
   ],
   "note": "ASCII text; Python's 4300 digit limit is not modelled."
  },
  {
   "property": "C36",
   "status": "proved",
   "theorems": [
    "conv_scaled_position_roundtrip",
    "conv_scaled_value_within_step",
    "conv_scaled_onto",
    "conv_scaled_double_refuted"
   ],
   "note": "FINDING: in doubles positions 29, 57, 58 of 100 come back one lower."
  },
  {
   "property": "C37",
   "status": "proved",
   "theorems": [
    "conv_percent_roundtrip",
    "conv_percent_double_refuted"
   ],
   "note": "FINDING: in doubles 29%, 57% and 58% come back one lower."
  },
  {
   "property": "C38",
   "status": "proved",
   "theorems": [
    "conv_uuid_back_iff",
    "conv_uuid_roundtrip"
   ],
   "note": "FINDING: only version 4 RFC 4122 UUIDs come back; every other UUID gives None."
  },
  {
   "property": "C39",
   "status": "proved",
   "theorems": [
    "conv_date_roundtrip",
    "conv_date_back_iff",
    "conv_date_offset_lost",
    "conv_date_other_length"
   ],
   "note": "FINDING: a datetime with UTC offset never comes back."
  },
  {
   "property": "C40",
   "status": "proved",
   "theorems": [
    "conv_fuzzy_no_number",
    "conv_fuzzy_point_locale",
    "conv_fuzzy_comma_raises",
    "conv_fuzzy_comma_locale",
    "conv_physical_back",
    "conv_physical_none_refuted"
   ],
   "note": "FINDING: a comma raises ValueError in a '.' locale; pass_none is ignored by the physical value converter. Exact rationals, ASCII text."
  },
  {
   "property": "C41",
   "status": "proved",
   "theorems": [
    "conv_check_roundtrip",
    "conv_check_back_true"
   ],
   "note": ""
  },
  {
   "property": "C42",
   "status": "proved",
   "theorems": [
    "geom_point_algebra",
    "geom_size_algebra",
    "geom_make_tuple",
    "geom_eq_ne",
    "geom_eq_truncates",
    "geom_eq_points",
    "geom_eq_fraction_refuted"
   ],
   "note": "FINDING: a point equals every float tuple that truncates to it."
  },
  {
   "property": "C43",
   "status": "proved",
   "theorems": [
    "geom_contains",
    "geom_intersect_points",
    "geom_intersect_laws",
    "geom_intersect_edges"
   ],
   "note": ""
  },
  {
   "property": "C44",
   "status": "proved",
   "theorems": [
    "geom_union_points",
    "geom_union_least",
    "geom_union_encloses",
    "geom_union_laws"
   ],
   "note": ""
  },
  {
   "property": "C45",
   "status": "proved",
   "theorems": [
    "geom_intersects_iff",
    "geom_intersects_common",
    "geom_intersects_sym",
    "geom_touching_refuted"
   ],
   "note": "FINDING: rectangles that merely touch count as intersecting."
  },
  {
   "property": "C46",
   "status": "proved",
   "theorems": [
    "geom_translated",
    "geom_inset_inverse",
    "geom_inset_edges",
    "geom_from_edges",
    "geom_add_point",
    "geom_add_is_translated",
    "geom_add_negative_refuted"
   ],
   "note": "FINDING: r + p is off by one for negative odd sizes."
  },
  {
   "property": "C47",
   "status": "proved",
   "theorems": [
    "geom_floordiv_truncates",
    "geom_floordiv_differs",
    "geom_mul_exact",
    "geom_floordiv_refuted"
   ],
   "note": "FINDING: // truncates toward zero. Divisors are integers."
  },
  {
   "property": "C48",
   "status": "proved",
   "theorems": [
    "pretty_shape",
    "pretty_without_rounding",
    "pretty_with_rounding",
    "pretty_log_exists",
    "pretty_log_rounded_up",
    "pretty_collapse_refuted"
   ],
   "note": "FINDING: with log10 rounded up make_pretty is 0 for values just below a negative power of ten, for example 0.03 - 0.02 in doubles."
  },
  {
   "property": "C49",
   "status": "proved",
   "theorems": [
    "pretty_range_covers",
    "pretty_tick_count",
    "pretty_range_equal",
    "pretty_range_order",
    "pretty_range_few_ticks",
    "pretty_range_collapse_refuted",
    "pretty_range_double_refuted"
   ],
   "note": "FINDING: in doubles the range 0.02..0.03 gives the single tick 0, and the minimum of 3.9..4.2 is above 3.9. logarithmic=False only."
  },
  {
   "property": "C50",
   "status": "proved",
   "theorems": [
    "fit_ratio",
    "fit_largest",
    "fit_size"
   ],
   "note": ""
  },
  {
   "property": "C51",
   "status": "proved",
   "theorems": [
    "map_point_fraction",
    "map_point_inverse",
    "map_point_compose",
    "map_size_inverse",
    "map_rect_corners",
    "map_rect_inverse",
    "map_degenerate"
   ],
   "note": ""
  },
  {
   "property": "C52",
   "status": "proved",
   "theorems": [
    "rot_isometry",
    "rot_origin_fixed",
    "rot_keeps_radius",
    "rot_adds",
    "rot_inverse",
    "rot_full_turn",
    "rot_midpoint",
    "rot_quarter",
    "rot_size",
    "dist_symmetric",
    "dist_zero",
    "dist_midpoint"
   ],
   "note": "Uses the axioms of the standard library's real numbers."
  },
  {
   "property": "C53",
   "status": "proved",
   "theorems": [
    "bind_notified",
    "bind_other_notifications",
    "bind_update_source",
    "bind_in_step",
    "bind_closed"
   ],
   "note": "The target setter does not call back into the binding."
  },
  {
   "property": "C54",
   "status": "proved",
   "theorems": [
    "tuple_set_element",
    "tuple_set_negative",
    "bind_tuple_update",
    "bind_tuple_none_refuted"
   ],
   "note": "FINDING: an element that is None is shown as the converted None by a notification but as the fallback by get_target_value."
  },
  {
   "property": "C55",
   "status": "proved",
   "theorems": [
    "bind_attribute_update",
    "bind_attribute_target",
    "bind_attribute_none",
    "bind_attribute_silent_refuted"
   ],
   "note": "FINDING: the same object is re-assigned, so a source comparing objects does not notify. update_attribute_fn is not modelled."
  },
  {
   "property": "C56",
   "status": "proved",
   "theorems": [
    "bind_list_mirror",
    "bind_list_closed"
   ],
   "note": ""
  },
  {
   "property": "C57",
   "status": "proved",
   "theorems": [
    "pm_set",
    "pm_history"
   ],
   "note": "Listeners do not set the value again during the notification."
  },
  {
   "property": "C58",
   "status": "proved",
   "theorems": [
    "sm_follows",
    "sm_closed"
   ],
   "note": ""
  },
  {
   "property": "C59",
   "status": "proved",
   "theorems": [
    "fm_value",
    "fm_count",
    "fm_pending_zero",
    "fm_in_order",
    "fm_finish_announces",
    "fm_raise_pending_refuted",
    "fm_late_refuted"
   ],
   "note": "FINDING: a late older evaluation overwrites a newer one; an evaluation that raises leaves the pending count positive; a changed value is announced twice. Closing the model during an evaluation is not modelled."
  },
  {
   "property": "C60",
   "status": "proved",
   "theorems": [
    "vs_any_comparison",
    "vs_fires",
    "map_any_comparison",
    "map_fires",
    "map_of_value",
    "map_close"
   ],
   "note": "vs_fires, map_fires and map_of_value are for a comparison that is equality; the *_any_comparison theorems are for any."
  },
  {
   "property": "C61",
   "status": "proved",
   "theorems": [
    "combine_value",
    "combine_fires",
    "combine_close"
   ],
   "note": ""
  },
  {
   "property": "C62",
   "status": "proved",
   "theorems": [
    "concat_follows",
    "concat_fires",
    "concat_close"
   ],
   "note": "Inner streams are kept alive by someone else."
  },
  {
   "property": "C63",
   "status": "proved",
   "theorems": [
    "propstream_follows",
    "propstream_fires",
    "propstream_none_keeps",
    "propstream_close",
    "propstream_none_refuted"
   ],
   "note": "FINDING: with source None the value of the previous object is kept."
  },
  {
   "property": "C64",
   "status": "proved",
   "theorems": [
    "debounce_fires",
    "debounce_delivered",
    "debounce_input_waits",
    "debounce_reaction_lost",
    "debounce_closed",
    "debounce_delivered_refuted"
   ],
   "note": "FINDING: a value set by a listener during the fire is never fired."
  },
  {
   "property": "C65",
   "status": "proved",
   "theorems": [
    "sample_value",
    "sample_fires",
    "sample_interleaved",
    "sample_only_inputs",
    "sample_initial_lost_refuted",
    "sample_lost_refuted"
   ],
   "note": "FINDING: the first sample replaces the initial value by None; a sample between the flag and the pending value loses the update. One input thread."
  },
  {
   "property": "C66",
   "status": "proved",
   "theorems": [
    "struct_roundtrip",
    "struct_deepcopy",
    "struct_copy_from",
    "struct_copy_from_none_refuted",
    "struct_absent_record_refuted"
   ],
   "note": "A conforming value has an entry for every record and array field and no None; primitive fields may be left out, except in the source of copy_from. Values of the wrong kind are outside the model. FINDING: copy_from does not clear a field that is None in the source; a record field left out comes back as an empty dict."
  },
  {
   "property": "C67",
   "status": "proved",
   "theorems": [
    "struct_default_prim",
    "struct_default_field",
    "struct_default_deepcopy_refuted",
    "struct_default_array",
    "struct_default_record"
   ],
   "note": "FINDING: a default overrides the supplied value, also in a deep copy."
  },
  {
   "property": "C68",
   "status": "proved",
   "theorems": [
    "array_appends",
    "array_inserts",
    "array_remove_ok",
    "array_insert_remove_refuted",
    "array_load_refuted"
   ],
   "note": "FINDING: insert before the end then remove disconnects a contained record; records loaded from a dict value are not connected and removing one raises IndexError."
  },
  {
   "property": "C69",
   "status": "proved",
   "theorems": [
    "struct_float_raises",
    "struct_float_record_refuted",
    "struct_prim_array_refuted"
   ],
   "note": "FINDING: define_float gives the type name double, which build_model does not know, so any record with such a field at any depth cannot be built; a non-empty array of primitives has no dict value and no deep copy."
  },
  {
   "property": "C70",
   "status": "proved",
   "theorems": [
    "pd_round_trip",
    "pd_round_trip_same",
    "pd_default_refuted"
   ],
   "note": "Converters, readers and writers do not raise; a property with its own writer must write only under its key. A factory makes the class from the type in the dict. FINDING: None in a property with another default comes back as the default; the time of modification is read from dicts but never written."
  },
  {
   "property": "C71",
   "status": "proved",
   "theorems": [
    "heap_modified",
    "heap_unmodified",
    "heap_forest",
    "heap_set_item_old_refuted",
    "heap_no_storage_refuted"
   ],
   "note": "All objects alive; subclass hooks do nothing; the recursion limit is a parameter and must exceed the number of ancestors. FINDING: an object replaced by set_item is still counted in its former parent; an insert without a storage handler raises after inserting and counting."
  },
  {
   "property": "C72",
   "status": "proved",
   "theorems": [
    "pd_stored",
    "pd_stored_key",
    "pd_stored_none_refuted"
   ],
   "note": "Properties without their own writer. FINDING: clear_property is called with the name, not the storage key, so under a key that differs from the name the last written value stays."
  },
  {
   "property": "C73",
   "status": "proved",
   "theorems": [
    "ctx_registered",
    "ctx_subscriber",
    "ctx_subscription_dropped",
    "ctx_event",
    "ctx_raises",
    "ctx_resubscribe_refuted"
   ],
   "note": "Callbacks do not call back into the context and do not raise; the uuid of an object is fixed. FINDING: an unregistration drops the subscription, so a later registration of the same uuid is not told; unregistering an unknown uuid calls the subscribers with None and then raises KeyError; subscribing with registered=None to a registered object raises TypeError after subscribing."
  },
  {
   "property": "C74",
   "status": "proved",
   "theorems": [
    "heap_set_context",
    "heap_clear_context",
    "heap_context_assert",
    "heap_context_covers",
    "heap_remove_clears",
    "heap_add_covers"
   ],
   "note": "The storage handler sets the context of an inserted item, as the comments in the code say. Histories are of operations that completed, on distinct uuids, with set_item only into an empty slot. FINDING: heap_set_item_old_refuted under C71."
  },
  {
   "property": "C75",
   "status": "proved",
   "theorems": [
    "heap_storage"
   ],
   "note": "Every parent chain; the recursion limit is a parameter."
  },
  {
   "property": "C76",
   "status": "proved",
   "theorems": [
    "rec_replay",
    "rec_replay_same",
    "rec_outside",
    "rec_passed_over",
    "rec_insert_front_refuted",
    "rec_insert_front_later_refuted",
    "rec_remove_front_refuted",
    "rec_set_item_refuted",
    "rec_clear_item_refuted",
    "rec_nested_refuted",
    "rec_nested_remove_refuted"
   ],
   "note": "FINDING: assigning _accessor_fn recurses, so inserting or removing before the end is never logged and later appends are replayed at the wrong index or raise; __item_set calls the accessor with no argument, so setting or clearing an item is never logged; inserted items are deep-copied at replay, so structural changes inside them are applied twice or raise. rec_passed_over states what is not logged for every state; the *_refuted theorems are concrete histories."
  },
  {
   "property": "C77",
   "status": "proved",
   "theorems": [
    "task_started_once",
    "task_finished_once",
    "task_returned",
    "task_inner_cancel_refuted",
    "task_inner_execute_refuted"
   ],
   "note": "Every interleaving of any number of threads. FINDING: a function that cancels its own task gets the finished callback twice (and in the pool the second one raises ValueError and ends the worker); one that executes its own task runs again."
  },
  {
   "property": "C78",
   "status": "proved",
   "theorems": [
    "pool_once",
    "pool_fifo",
    "pool_removed",
    "pool_closed",
    "pool_close_returns",
    "pool_second_close_refuted"
   ],
   "note": "FINDING: close puts one None per thread and joins the queue, also when the threads have ended, so a second call of close on a started pool blocks for ever. Queued functions do not call close, run_all, run_one or their own task in the model."
  },
  {
   "property": "C79",
   "status": "proved",
   "theorems": [
    "disp_served",
    "disp_soon",
    "disp_interval",
    "disp_closed",
    "disp_close_returns",
    "disp_wait",
    "disp_wait_early_refuted",
    "disp_wait_raise_refuted",
    "disp_wait_closed_refuted"
   ],
   "note": "FINDING: trigger(wait=True) can return on the end of an invocation that had started before the call, blocks while the function raises, and blocks for ever if the dispatcher is closed before or meanwhile; a second close raises AttributeError. The function does not call trigger(wait=True) or close in the model; the clock does not go back."
  },
  {
   "property": "C80",
   "status": "proved",
   "theorems": [
    "mapped_blocks_bracketed"
   ],
   "note": ""
  },
  {
   "property": "C81",
   "status": "proved",
   "theorems": [
    "pretty_odd",
    "pretty_monotone",
    "pretty_scales",
    "pretty_idempotent"
   ],
   "note": ""
  },
  {
   "property": "C82",
   "status": "proved",
   "theorems": [
    "frect_contains",
    "frect_intersect_points",
    "frect_union_least",
    "frect_intersects_iff",
    "frect_moves",
    "frect_double_refuted"
   ],
   "note": "FINDING: in doubles a rectangle can differ from its intersection with itself."
  },
  {
   "property": "C83",
   "status": "proved",
   "theorems": [
    "pd_deepcopy",
    "pd_deepcopy_hidden_refuted"
   ],
   "note": "FINDING: getattr of a hidden item raises AttributeError, so no object of a class with a hidden item can be copied."
  },
  {
   "property": "C84",
   "status": "proved",
   "theorems": [
    "fmt_fixed_reads",
    "fmt_exponent_reads",
    "fmt_general_reads",
    "fmt_float_back",
    "fmt_float_exact",
    "fmt_float_double",
    "fmt_float_stable",
    "fmt_float_lost_refuted",
    "fmt_physical_back",
    "fmt_physical_double"
   ],
   "note": "FINDING: the default format keeps six significant digits, so committing the unchanged text of a field bound through FloatToStringConverter changes 1234567 to 1234570. NaN, infinities, negative zero, overflow and subnormal doubles are not modelled."
  },
  {
   "property": "C85",
   "status": "proved",
   "theorems": [
    "ticker_labels",
    "ticker_labels_distinct",
    "ticker_value_label",
    "ticker_value_label_exponent",
    "ticker_negative_refuted",
    "ticker_equal_refuted"
   ],
   "note": "FINDING: in exponent notation the precision of a label is computed from log10 of the value only if the value is positive, so negative ticks get one digit: the limits -12e6 and -8e6 give the labels -1e+07, -1e+07, -1e+07, -9e+06, -8e+06. With equal limits 0.25 is labelled 0."
  },
  {
   "property": "C86",
   "status": "proved",
   "theorems": [
    "logt_decades",
    "logt_increasing",
    "logt_minor",
    "logt_count",
    "logt_labels",
    "logt_labels_exact",
    "logt_maximum",
    "logt_minimum",
    "logt_maximum_refuted",
    "logt_equal_refuted"
   ],
   "note": "FINDING: the loop that reduces numdec also reduces the reported maximum of a LogTicker: limits 0.95 and 3.5 give maximum 3 although ticks go to 4; equal limits 2.5 give maximum 2 and minimum 2.505. Non-finite limits and rounding errors of pow and log are not modelled."
  },
  {
   "property": "C87",
   "status": "proved",
   "theorems": [
    "convdbl_trip",
    "convdbl_repeated",
    "convdbl_rest",
    "convdbl_binary_steps",
    "convdbl_positions",
    "convdbl_monotone",
    "convdbl_back_monotone",
    "convdbl_value",
    "convdbl_errors",
    "convdbl_percent",
    "convdbl_drift_refuted",
    "convdbl_top_refuted"
   ],
   "note": "FINDING: int() truncates a quotient that rounding may have put just below an integer, so a slider bound to a float drifts down: 58 of 100 becomes 57 and then 56, 192 of 321 goes down 32 steps to 160; the maximum of 100 steps on [0, 0.17] is position 99. Overflow and subnormal doubles are not modelled."
  },
  {
   "property": "C88",
   "status": "proved",
   "theorems": [
    "seq_as_list",
    "seq_unlike_list",
    "seq_clear_any",
    "seq_clear_refuted"
   ],
   "note": "FINDING: ItemsSequence.__contains__ calls contains on a list, so x in s raises AttributeError for every array; items given by from_dict_value have no listener, so clear of three loaded items removes one and stops without an error (MutableSequence.clear ends at the IndexError of the listener list). Slices as indices are not modelled."
  },
  {
   "property": "C89",
   "status": "proved",
   "theorems": [
    "tree_edit",
    "tree_edit_possible",
    "tree_all_hear",
    "tree_closed",
    "tree_made",
    "tree_appends",
    "tree_inserts",
    "tree_remove",
    "tree_insert_remove_refuted"
   ],
   "note": "FINDING: listeners of inserted items are appended but removed by index, so inserting at the front and removing it again leaves the first item without a listener: changes in it no longer reach the array or anything above. ArrayModel.close calls the list items and always raises TypeError. Every object is at one place and listeners do not edit."
  },
  {
   "property": "C90",
   "status": "proved",
   "theorems": [
    "attr_read",
    "attr_missing",
    "attr_assign",
    "attr_shadow",
    "attr_builtin"
   ],
   "note": "FINDING: assigning a record or array field of a record sets a plain attribute that hides the field, without changing the model or an error; a primitive field called schema is written but reads as the schema."
  },
  {
   "property": "C91",
   "status": "proved",
   "theorems": [
    "loop_settles",
    "loop_history",
    "loop_not_normalised_refuted",
    "loop_lossy",
    "loop_diverges_refuted"
   ],
   "note": "FINDING: update_source does not refresh the target when the source keeps its value, so after typing 150 into a field whose validator allows 100, the field shows 100 if the source was 50, but 150 if it was already 100; with a converter that loses digits the source itself is changed by being bound (47 becomes 40 with tens)."
  },
  {
   "property": "C92",
   "status": "proved",
   "theorems": [
    "chain_members",
    "chain_order",
    "chain_sorted",
    "chain_observer_reconstructs",
    "chain_blocks",
    "chain_names_repaired",
    "chain_block_order_refuted"
   ],
   "note": "FINDING: an item moved by the sort key of the first list while a change block of the second list is open is taken as removed and inserted again; at the end of the block nothing is found to do, so the second list keeps the old order: first list 2, 3, 1, second list 1, 2, 3."
  },
  {
   "property": "C93",
   "status": "proved",
   "theorems": [
    "feed_right",
    "feed_shown",
    "feed_mapped_first",
    "feed_observers",
    "feed_mapped_observers",
    "feed_blocks",
    "feed_indices",
    "feed_stale_refuted",
    "feed_two_flattened_refuted"
   ],
   "note": "FINDING: setting the filter, sort key or reverse of a filtered list names items at wrong indices in its removals (C16); a flattened list that has it as container fails an assertion for about half of them, Event.fire swallows the exception and skips every later listener: mapped lists made after the flattened list keep the images of the second half of the old items for ever, and of two flattened lists the second shows children of items that are gone."
  },
  {
   "property": "C94",
   "status": "proved",
   "theorems": [
    "mapfail_observer",
    "mapfail_balance",
    "mapfail_none_right",
    "mapfail_set",
    "mapfail_detach",
    "mapfail_attach",
    "mapfail_stuck_forever",
    "mapfail_left_out",
    "mapfail_displaced_refuted",
    "mapfail_stuck_refuted"
   ],
   "note": "FINDING: if map_fn raises once for an inserted item, the exception is swallowed and the mapped list is one item short: later insertions and removals hit the wrong position, giving the container up (also by close) raises IndexError after the listeners have been dropped, and from then on every assignment of the container and every close raises AttributeError."
  },
  {
   "property": "C95",
   "status": "proved",
   "theorems": [
    "net_consistent",
    "net_source",
    "net_announced",
    "net_fires_at_most",
    "net_unreached",
    "net_single_path",
    "net_fires_exactly",
    "net_same_value",
    "net_exponential",
    "net_glitch_refuted",
    "net_raise_refuted"
   ],
   "note": "FINDING: where two streams made from one stream are combined, every change fires an intermediate value mixing new and old inputs, and the number of firings per change is the number of paths, 2^n for n combinations; if the function of a map or combine stream raises, streams made later on the same input keep their old value."
  },
  {
   "property": "C96",
   "status": "proved",
   "theorems": [
    "filtfail_observer",
    "filtfail_gentle",
    "filtfail_quiet_right",
    "filtfail_insert",
    "filtfail_filter",
    "filtfail_attach",
    "filtfail_attach_stuck",
    "filtfail_stuck_forever",
    "filtfail_order_refuted"
   ],
   "note": "FINDING: while the container has an item the filter raises for, everything inserted behind it is silently not shown even if it passes, stays hidden when that item has gone, and later insertions then come at wrong places: container 3, 4, 5, shown 5, 4. Assigning a container with such an item raises and follows only the items up to it; the next assignment, or close, raises KeyError, and every later one AttributeError."
  },
  {
   "property": "C97",
   "status": "proved",
   "theorems": [
    "promnet_values",
    "promnet_kept",
    "promnet_exclusive",
    "promnet_no_deadlock",
    "promnet_steps",
    "promnet_turns",
    "promnet_once",
    "promnet_deadlock_refuted",
    "promnet_recursion_refuted"
   ],
   "note": "FINDING: promises whose functions use each other are not detected: two threads reading them block each other for ever, a single thread recurses without end; the re-entrant lock does not stop a promise whose function reads the promise itself."
  },
  {
   "property": "C98",
   "status": "proved",
   "theorems": [
    "taskthr_queue_order",
    "taskthr_queue_unfinished",
    "taskthr_queue_exit",
    "taskthr_queue_bound",
    "taskthr_queue_over",
    "taskthr_queue_running_refuted",
    "taskthr_set_pending",
    "taskthr_set_starts",
    "taskthr_set_exit",
    "taskthr_set_once",
    "taskthr_set_over",
    "taskthr_set_order_refuted"
   ],
   "note": "FINDING: a TaskQueue task that raises is never marked done, so join on the queue would wait for ever. With two threads performing a TaskSet, a task can be started after the task that replaced it; perform_tasks of a queue can return while a task put before is still running elsewhere."
  },
  {
   "property": "C99",
   "status": "proved",
   "theorems": [
    "eventthr_order",
    "eventthr_registered",
    "eventthr_all",
    "eventthr_close",
    "eventthr_close_later",
    "eventthr_over",
    "eventthr_dropped",
    "eventthr_dropped_refuted",
    "eventthr_closed_refuted"
   ],
   "note": "FINDING: a listener can be called once more after its close() has returned in another thread; a listener whose token was dropped (not closed) while any call of fire is going on stays registered until that call ends, and is called even by calls made after it was dropped."
  },
  {
   "property": "C100",
   "status": "proved",
   "theorems": [
    "reent_once",
    "reent_last",
    "reent_order",
    "reent_list_follows",
    "reent_filtered",
    "reent_list_refuted",
    "reent_filtered_refuted",
    "reent_property_callback",
    "reent_property_callback_refuted"
   ],
   "note": "FINDING: if a listener of a ListModel edits the list from within a notification, listeners added later are told the inner edit before the outer one: a FilteredListModel behind it shows 1, 2 for the list 2, 1, or still shows an item already removed. If a listener of a PropertyModel sets the value again, on_value_changed is called with the older value last."
  },
  {
   "property": "C101",
   "status": "proved",
   "theorems": [
    "refnet_count",
    "refnet_safe",
    "refnet_once",
    "refnet_order",
    "refnet_no_wait",
    "refnet_finish",
    "refnet_live",
    "refnet_cycle_refuted"
   ],
   "note": "Objects that refer to each other in a ring are never deleted; reference counting cannot do better. Listeners called by close are not modelled."
  },
  {
   "property": "C102",
   "status": "proved",
   "theorems": [
    "funclife_count",
    "funclife_drain",
    "funclife_stuck",
    "funclife_no_function",
    "funclife_after_close",
    "funclife_settled",
    "funclife_closed_refuted"
   ],
   "note": "FINDING: close does not stop evaluations: a closed FuncStreamValueModel still changes its value and notifies. A function that raises, or a stream whose value is None at construction, leaves the count above zero for ever, so _run_until_complete spins without end (after close: AttributeError)."
  },
  {
   "property": "C103",
   "status": "proved",
   "theorems": [
    "geommore_to_float",
    "geommore_lattice",
    "geommore_tests",
    "geommore_moves",
    "geommore_center",
    "geommore_add",
    "geommore_slice",
    "geommore_slice_negative",
    "geommore_aspect",
    "geommore_aspect_compare",
    "geommore_tuples",
    "geommore_index",
    "geommore_scaling",
    "geommore_scaling_refuted"
   ],
   "note": "FINDING: IntRect.slice of a rectangle that sticks out above or to the left of an array takes negative bounds as counted from the end: rows inside the rectangle are missed and others taken."
  },
  {
   "property": "C104",
   "status": "proved",
   "theorems": [
    "filtthr_pointwise",
    "filtthr_reader",
    "filtthr_settled",
    "filtthr_order_apart",
    "filtthr_order_filters",
    "filtthr_follow",
    "filtthr_finish",
    "filtthr_filter_race_refuted",
    "filtthr_edit_race_refuted"
   ],
   "note": "Change blocks (begin_change, end_change) are not part of this model. FINDING: the filter setter writes the filter and __items_sorted without the mutex, unlike the setters of the sort key. If it does so while another thread is inside __update_items, the other thread overwrites the mark, an insertion in between is placed by the new filter in the list of the old one, and the wrong order stays: 4, 3 for 3, 4. Likewise if two threads change items and the second change is handled first: 1, 3, 2 for 1, 2, 3."
  },
  {
   "property": "C105",
   "status": "proved",
   "theorems": [
    "netlife_counts",
    "netlife_wanted",
    "netlife_all_released",
    "netlife_release",
    "netlife_once",
    "netlife_after",
    "netlife_rest",
    "netlife_consistent",
    "netlife_lost_keeps",
    "netlife_leak_refuted",
    "netlife_zombie_refuted"
   ],
   "note": "FINDING: MapStream and CombineLatestStream take references to their inputs and listen before their function is first called. If it raises then, the constructor gives no stream, but the inputs keep its references for ever, so they are never closed; and as stream and listener refer to one another, it goes on listening until the garbage collector runs, and what its function raises keeps streams made later of the same input from being updated."
  },
  {
   "property": "C106",
   "status": "proved",
   "theorems": [
    "filtblk_level",
    "filtblk_pointwise",
    "filtblk_reader",
    "filtblk_settled",
    "filtblk_quiet",
    "filtblk_follow",
    "filtblk_finish",
    "filtblk_frozen",
    "filtblk_frozen_refuted",
    "filtblk_early_refuted",
    "filtblk_twice_refuted"
   ],
   "note": "Up to the order of the items, which C104 treats for lists without sort key. FINDING: begin_change does self.__change_level += 1 without the mutex, end_change lowers it with the mutex. Where the interpreter can switch threads between reading and writing an attribute, a begin_change meeting another change of the level loses one of the two: the level stays at 1 after all blocks have ended, and the list is never updated again; or it is too low, and blocks do not hold back notifications, and an item can even be listed twice."
  },
  {
   "property": "C107",
   "status": "proved",
   "theorems": [
    "persiststore_in_step",
    "persiststore_reload",
    "persiststore_no_raise",
    "persiststore_tree",
    "persiststore_replaced_refuted",
    "persiststore_put_back_refuted",
    "persiststore_key_refuted",
    "persiststore_key_raises_refuted"
   ],
   "note": "The repository has only the interface of a storage handler; the one modelled does what the methods are named for on the dict that the accessors lead to. FINDING: set_item leaves the replaced item with its parent and its context. What is later set on the old item is stored in the dict of the item that replaced it, and setting the old item again fails an assertion. A relationship may be defined with a key; write_to_dict and read_from_dict use the key, but the accessor and the calls of the storage use the name: inserted items are stored where they are not read, and a property of an item of an opened document cannot be set (KeyError)."
  },
  {
   "property": "C108",
   "status": "proved",
   "theorems": [
    "lockorder_no_deadlock",
    "lockorder_ends",
    "lockorder_derived",
    "lockorder_flattened_refuted",
    "lockorder_upstream_refuted"
   ],
   "note": "Filters, sort keys and map functions take no mutex in this model. FINDING: a listener to a FlattenedListModel that reads its items can come to a deadlock: a change of a master item that is itself a filtered list is told with the mutex of the master item held but not that of the flattened list, which the reader then takes; while removing a master item takes the two the other way round. The same holds for a listener to a filtered list that reads the list from which it is derived."
  },
  {
   "property": "C109",
   "status": "proved",
   "theorems": [
    "bindthr_right",
    "bindthr_one_thread",
    "bindthr_held",
    "bindthr_updates",
    "bindthr_assignments",
    "bindthr_stale_refuted",
    "bindthr_stream_refuted",
    "bindthr_once_refuted",
    "bindthr_callback_refuted",
    "bindthr_tuple_refuted"
   ],
   "note": "Observers are made before the threads start and closed after they end; converters and clients' functions do not raise and do not use the model. FINDING: update_source and the listeners of bindings are documented as thread safe, but no mutex is held between reading and writing. If a value is assigned while another thread is inside a listener, the target can keep the older value for ever, and a stream can fire its older value last. Of two threads that update different elements of a tuple through tuple bindings one can undo the other."
  },
  {
   "property": "C110",
   "status": "proved",
   "theorems": [
    "loopclose_rounds",
    "loopclose_none",
    "loopclose_gathered",
    "loopclose_returns",
    "loopclose_never",
    "loopclose_quiet",
    "loopclose_left_refuted"
   ],
   "note": "What asyncio does is taken for granted as said in the model; tasks are not cancelled; the shutdown of the executor is not part of the model. FINDING: close_event_loop looks once which tasks there are. A task created while it waits for them, for instance the next sample of a SampleStream that was not closed, is left pending when the loop is closed unless it ends within two rounds."
  },
  {
   "property": "C111",
   "status": "proved",
   "theorems": [
    "filtattach_mirrors",
    "filtattach_insert_raises",
    "filtattach_removed_behind",
    "filtattach_half_insertion",
    "filtattach_stuck",
    "filtattach_mirrors_refuted",
    "filtattach_half_removal_refuted",
    "filtattach_detach_refuted"
   ],
   "note": "One edit of the container is under way at a time; master items only. FINDING: the container setter is documented as thread safe but has no mutex and walks the live list. Removing an item it has already read makes it skip an item for good, and a later removal takes the wrong master item out, all silently; inserting makes the assignment raise AssertionError half way. A removal not yet told when the container is attached takes a wrong item out. While detaching, an insertion between the closing of the listeners and the copying of the items makes the assignment raise, after which every assignment of a container (and close) raises AttributeError; a removal there leaves items in the detached list."
  },
  {
   "property": "C112",
   "status": "proved",
   "theorems": [
    "geomeq_ne",
    "geomeq_left_int",
    "geomeq_left_float",
    "geomeq_raises",
    "geomeq_none",
    "geomeq_equivalence",
    "geomeq_mixed",
    "geomeq_sequence",
    "geomeq_symmetric_refuted",
    "geomeq_large_refuted",
    "geomeq_transitive_refuted",
    "geomeq_kinds_refuted"
   ],
   "note": "Infinities, strings and bools as operands are left out. FINDING: IntPoint.__eq__ and the others convert the other operand by make, so IntPoint(1, 2) == FloatPoint(1.5, 2) holds while the contrary comparison does not, and two different float points equal the same integer point. A point equals a size and a longer tuple with the same first two numbers, IntSize(0, 0) equals (None, None), and comparing a point with a rectangle or a number raises TypeError instead of being False."
  },
  {
   "property": "C113",
   "status": "proved",
   "theorems": [
    "streamthr_once",
    "streamthr_slots",
    "streamthr_right",
    "streamthr_repair",
    "streamthr_stale_refuted",
    "streamthr_told_refuted",
    "streamthr_same_refuted"
   ],
   "note": "Functions do not raise and do not set streams. FINDING: CombineLatestStream computes, writes and fires its value without a lock. Two inputs each set by its own thread can leave it with a value that is not that of its inputs, after all threads have ended, and it can fire an older value last. If two threads set the same input it can keep an older value of that input until that input changes again."
  },
  {
   "property": "C114",
   "status": "proved",
   "theorems": [
    "cascade_level",
    "cascade_members",
    "cascade_order",
    "cascade_sorted",
    "cascade_observers",
    "cascade_names",
    "cascade_transient_refuted"
   ],
   "note": "One thread; listeners of the lists do not edit. FINDING: the lists hear of a changed item in the order in which they began to listen to it. A list that loses an item and takes it back inside one of its change blocks listens last, so when the item then changes, the next list first announces it as inserted although the list before no longer accepts it, and then as removed."
  },
  {
   "property": "C115",
   "status": "proved",
   "theorems": [
    "blocks_count",
    "blocks_count_any",
    "blocks_told",
    "blocks_alternate",
    "blocks_end",
    "blocks_open",
    "blocks_left_open",
    "blocks_unannounced",
    "blocks_left_open_refuted",
    "blocks_unannounced_refuted",
    "blocks_handler_refuted",
    "blocks_handler_end_refuted"
   ],
   "note": "One thread; handlers do not raise; only the two events are modelled. FINDING: a list whose container is changed in the middle of a change block of the old container has told a begin and never tells the end, since the listeners are closed and the level is not reset; given a container that is in a block, its level goes to -1 at the end and later blocks are not announced. MappedListModel.begin_change fires before it counts, so a handler of begin_changes_event that uses changes() on the same list makes a second begin without an end, and one that calls end_change leaves the block open for observers."
  },
  {
   "property": "C116",
   "status": "proved",
   "theorems": [
    "pread_read",
    "pread_clear",
    "pread_history",
    "pread_stale",
    "pread_finish",
    "pread_twice_refuted",
    "pread_replaced_refuted",
    "pread_halfway_refuted"
   ],
   "note": "Factories make an object, uuids parse, hooks do nothing. FINDING: read_from_dict on an object in a context registers it under the uuid that was read and leaves it registered under the old one, for good; the item that a read item replaces stays in the context and registered; relationships are appended to, so reading a dict with uuids in relationships twice gives objects with equal uuids, and setting the context to None then raises KeyError halfway through the tree."
  },
  {
   "property": "C117",
   "status": "proved",
   "theorems": [
    "mapattach_mirrors",
    "mapattach_inserted",
    "mapattach_inserted_between",
    "mapattach_removed_behind",
    "mapattach_growing",
    "mapattach_pending",
    "mapattach_detach",
    "mapattach_behind",
    "mapattach_account",
    "mapattach_stuck",
    "mapattach_mirrors_refuted",
    "mapattach_detach_refuted"
   ],
   "note": "map_fn and unmap_fn do not raise; one edit of the container at a time; selections and change blocks left out. FINDING: the setter of MappedListModel.container, marked thread safe, walks the live list of the container while listening to it. Without any exception, an item inserted meanwhile is shown twice, and after a removal of an item already read one item is not shown at all; items too many stay in the list when the container is taken away and are shown behind the items of every later container; with an item too few, taking the container away raises IndexError and the model can never be given another container."
  },
  {
   "property": "C118",
   "status": "proved",
   "theorems": [
    "regnet_once",
    "regnet_in_turn",
    "regnet_count",
    "regnet_mirror",
    "regnet_existing",
    "regnet_mirror_refuted",
    "regnet_threads_refuted",
    "regnet_unnamed_refuted",
    "regnet_existing_refuted",
    "regnet_count_refuted"
   ],
   "note": "A use of the registry is one step up to its notification; listeners catch what their own uses raise. FINDING: events are fired after the change without any order between nested uses or threads. A listener that unregisters a component when told it was registered makes later listeners hear unregistered first and registered last, and they are wrong for good; so do two threads. unregister without types tells an empty set of types, so no listener can know which. fire_existing_component_registered_events walks the live set: a listener that registers another component of the type ends it with RuntimeError and the others are never told; and listeners that were there before are told again."
  },
  {
   "property": "C119",
   "status": "proved",
   "theorems": [
    "flatthr_alone",
    "flatthr_children",
    "flatthr_count",
    "flatthr_insertions",
    "flatthr_in_place",
    "flatthr_out_of_place",
    "flatthr_told",
    "flatthr_one_by_one",
    "flatthr_set_container",
    "flatthr_order_refuted",
    "flatthr_left_over_refuted",
    "flatthr_wrong_item_refuted",
    "flatthr_told_refuted"
   ],
   "note": "One thread at a time for each child list; the container is edited and set while no call is under way. FINDING: FlattenedListModel edits its list without its mutex when children are inserted or removed. Two threads that edit the children of two master items can leave the items in the wrong order; a removal can take out another item than it tells, or raise IndexError inside the event (printed and dropped), and the item then stays in the list even after the container is taken away; and observers can be told of edits in another order than they were made in."
  },
  {
   "property": "C120",
   "status": "proved",
   "theorems": [
    "reclife_closed",
    "reclife_close",
    "reclife_closed_apply",
    "reclife_self",
    "reclife_self_closed",
    "reclife_late",
    "reclife_other",
    "reclife_self_refuted",
    "reclife_late_refuted"
   ],
   "note": "The objects tell of each assignment, also of the value they have (set_value compares nothing). Self application and late values are for histories that set properties; examples for items. FINDING: Recorder.apply walks the live log; applied to the recorded object itself while the recorder is open it never ends if any property was recorded (the log grows by one entry per call). The closures read the recorded object when called: closing the recorder does not keep the values, changes made after close are replayed."
  },
  {
   "property": "C121",
   "status": "proved",
   "theorems": [
    "sortfail_observer",
    "sortfail_master",
    "sortfail_insert",
    "sortfail_steady",
    "sortfail_set",
    "sortfail_mark",
    "sortfail_change",
    "sortfail_blocked",
    "sortfail_uniform",
    "sortfail_filter_refuted",
    "sortfail_history_refuted",
    "sortfail_hidden_refuted",
    "sortfail_reverse_refuted",
    "sortfail_mark_refuted",
    "sortfail_lost_refuted",
    "sortfail_selection_refuted"
   ],
   "note": "The list is attached to its container throughout and always has a sort key; filters do not raise. list.sort is taken to raise if two keys cannot be compared. FINDING: FilteredListModel sorts the container before it filters, so one item the filter rejects with a key of another type makes setting the filter raise; the new filter, key or direction is kept with the old items. Keys that cannot be compared when an item comes are printed and dropped, the item stays hidden for good (also when the item in its way goes) and the selections are not told of it, but are told when it goes. An item with key None that comes first hides all others. A changed item can be lost: it is taken out and the second search raises."
  },
  {
   "property": "C122",
   "status": "proved",
   "theorems": [
    "ctxnet_mirror",
    "ctxnet_register",
    "ctxnet_unregister",
    "ctxnet_least",
    "ctxnet_gone",
    "ctxnet_ends",
    "ctxnet_endless",
    "ctxnet_twice_refuted",
    "ctxnet_stale_refuted",
    "ctxnet_late_refuted",
    "ctxnet_again_refuted",
    "ctxnet_replace_refuted"
   ],
   "note": "One thread; objects live as long as the context; callbacks catch what their own uses raise. FINDING: PersistentObjectContext deletes registration and subscriptions by uuid after all callbacks were called. A replacement registered under the same uuid in an unregistered callback is announced to all and then deleted; unregistering it raises KeyError. A listener of registration_event that subscribes during an unregistration is told that the object is there and then loses its subscription. A registered callback that unregisters the object makes later subscribers hear gone first and registered last, for good. A subscription made in a registered callback is told twice; one that is made at each call keeps register from returning."
  },
  {
   "property": "C123",
   "status": "proved",
   "theorems": [
    "selshare_values",
    "selshare_values_history",
    "selshare_replaces",
    "selshare_kept",
    "selshare_compare",
    "selshare_old",
    "selshare_own",
    "selshare_own_argument",
    "selshare_style_restored",
    "selshare_compare_refuted",
    "selshare_view_refuted",
    "selshare_own_refuted",
    "selshare_style_refuted"
   ],
   "note": "Listeners are counted, not called. FINDING: IndexedSelection.indexes gives out the live set. add, remove, extend (style multiple) edit it in place, set, set_multiple, clear and shifts replace it: a listener that keeps it to find what changed finds no difference after add, and a client that keeps it as its view is wrong for good after set; a client that edits it changes the selection without event and can leave the anchor unselected. Assigning selection_style leaves the indexes, so a selection of style single or none can have any number of them, and one of style none can select."
  },
  {
   "property": "C124",
   "status": "proved",
   "theorems": [
    "convpath_path",
    "convpath_proper",
    "convpath_text",
    "convpath_again",
    "convpath_place",
    "convpath_empty_refuted",
    "convpath_place_refuted"
   ],
   "note": "pathlib's PurePosixPath is modelled, not taken from the repository; values are paths or None. FINDING: the empty text becomes None and not the path '.', and a slash at the end is lost, so that a text that is no path to anything (a slash after the name of a file) becomes the path of the file."
  },
  {
   "property": "C125",
   "status": "proved",
   "theorems": [
    "propnet_told",
    "propnet_stored",
    "propnet_in_step",
    "propnet_quiet",
    "propnet_reread",
    "propnet_chain",
    "propnet_atomic_refuted",
    "propnet_read_refuted",
    "propnet_moment_refuted"
   ],
   "note": "One object in a context throughout; keys are names; readers, writers and make are left out. FINDING: PersistentObject calls the changed callback after it assigned the value and before it counts and writes. If the callback raises (or recurses without end), the value is changed for good, the storage keeps the old one and no modification is counted. A callback that sets another property writes that one first, so a storage read in between holds what the object never was; while a document is read, such a write changes the document and the value read later changes the object, so that both differ for good without anything raising."
  },
  {
   "property": "C126",
   "status": "proved",
   "theorems": [
    "selrel_release",
    "selrel_release_other",
    "selrel_contents",
    "selrel_exact",
    "selrel_oldest_first",
    "selrel_follows",
    "selrel_left",
    "selrel_follows_refuted",
    "selrel_left_refuted",
    "selrel_twice_refuted"
   ],
   "note": "The edits of the list are given; a selection belongs to one list. FINDING: list.remove(selection) in release_selection uses IndexedSelection.__eq__, which compares contents. With two selections that are equal when one is released - such as two empty ones - the older is taken out instead: it is no longer adjusted when items come or go, while the released one still is. A selection given to the constructor can be lost in the same way, also one of another style; releasing twice takes another selection out without an exception."
  },
  {
   "property": "C127",
   "status": "proved",
   "theorems": [
    "propshare_set",
    "propshare_read",
    "propshare_changes",
    "propshare_live",
    "propshare_live_refuted",
    "propshare_callback_refuted",
    "propshare_validate_refuted",
    "propshare_default_refuted"
   ],
   "note": "What is within an object is part of its contents; no converters, readers, writers or make. FINDING: a value got from a property that is not copy_on_read is the live object: editing it changes the property without callback, modification or storage. copy_on_read does not isolate it: the changed callback is given the live object, and with a validate function that returns its argument the object of the caller (or of the dict that was read) becomes the value, so that later edits of it go past validation. Defaults are not copied: properties defined with the same object share it."
  },
  {
   "property": "C128",
   "status": "proved",
   "theorems": [
    "eqitems_right",
    "eqitems_copy",
    "eqitems_inserted",
    "eqitems_raised",
    "eqitems_appended",
    "eqitems_order_refuted",
    "eqitems_missing_refuted",
    "eqitems_gone_refuted",
    "eqitems_other_refuted",
    "eqitems_double_refuted"
   ],
   "note": "No sort key, change blocks, selections or item changes; the container stays attached and the filter stays. FINDING: __item_inserted asserts that no equal item is in its copy; the AssertionError is printed and dropped by Event.fire and the copy then lacks the item, so all later positions are off. Deleting the item shown hides the equal one that is left; deletions take other items out of the copy or raise IndexError or KeyError, printed and dropped; items that were removed stay shown for good, also such as were never equal to any other, and a later equal one is then shown twice."
  }
 ]
}