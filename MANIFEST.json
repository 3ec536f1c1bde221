{"claims": [
  {"property": "C01", "status": "proved", "theorems": ["C01_map_refines_dictionary", "C01_truth_and_items"], "note": ""},
  {"property": "C02", "status": "proved", "theorems": ["C02_add"], "note": ""},
  {"property": "C03", "status": "proved", "theorems": ["C03_remove"], "note": ""},
  {"property": "C04", "status": "partial", "theorems": ["C04_change_some", "C04_change_none_partial", "C04_change_absent_nothing_partial", "C04_change_raise", "C04_change_absent_nothing_refuted"], "note": "Full statement is false: with an absent key and a callback returning Nothing, change raises EffectError on some tree shapes and returns the map on others (refuted by two maps with the same bindings). Proved exactly when it raises (the search ends at a missing child), and everything else."},
  {"property": "C05", "status": "proved", "theorems": ["C05_iteration_sorted"], "note": ""},
  {"property": "C06", "status": "proved", "theorems": ["C06_no_internal_errors"], "note": ""},
  {"property": "C07", "status": "proved", "theorems": ["C07_cached_heights_exact", "C07_insertion_only_maps_are_logarithmic", "C07_lookup_cost"], "note": ""},
  {"property": "C08", "status": "partial", "theorems": ["C08_remove_height_partial", "C08_removal_keeps_balance_refuted", "C08_lookups_stay_logarithmic_refuted", "C08_removals_partial", "C08_change_height_partial"], "note": "False of the code: remove and the splicing out of the successor use mk where add uses rebalance. Refuted: removals can turn a map of any size into a linear list, so that a lookup compares every key (C08_lookups_stay_logarithmic_refuted). Proved instead: removal never increases the height, so the depth stays logarithmic in the size the map had before the removals."},
  {"property": "C09", "status": "proved", "theorems": ["C09_find_getitem_contains", "C09_try_get_value"], "note": ""},
  {"property": "C10", "status": "proved", "theorems": ["C10_filter", "C10_partition"], "note": ""},
  {"property": "C11", "status": "proved", "theorems": ["C11_map"], "note": ""},
  {"property": "C12", "status": "proved", "theorems": ["C12_fold", "C12_fold_back", "C12_iterate", "C12_key_order"], "note": ""},
  {"property": "C13", "status": "proved", "theorems": ["C13_try_pick", "C13_exists", "C13_for_all", "C13_key_order"], "note": ""},
  {"property": "C14", "status": "partial", "theorems": ["C14_pick_partial", "C14_pick_keyerror_refuted"], "note": "False of the code: pick raises EffectError, never KeyError. Exact behaviour proved, KeyError refuted."},
  {"property": "C15", "status": "partial", "theorems": ["C15_equality_is_prefix_partial", "C15_equality_same_length_partial", "C15_laws_partial", "C15_equality_refuted"], "note": "False of the code: == is a prefix test, so it is not symmetric and equal maps can hash differently. Exact behaviour proved, equality laws refuted; for maps of equal length the claim is proved."},
  {"property": "C16", "status": "proved", "theorems": ["C16_history_independent", "C16_hash_reads_every_value"], "note": ""},
  {"property": "C17", "status": "proved", "theorems": ["C17_of_seq_last_wins", "C17_round_trip"], "note": ""},
  {"property": "C18", "status": "partial", "theorems": ["C18_of_seq_stack_partial", "C18_of_seq_stack_refuted"], "note": "False of the code: of_seq recurses once per element. Proved exactly when it fails for every recursion limit; of_block does not depend on the limit."},
  {"property": "C19", "status": "proved", "theorems": ["C19_append", "C19_cons_head_tail", "C19_item", "C19_contains", "C19_concat", "C19_reversed"], "note": ""},
  {"property": "C20", "status": "proved", "theorems": ["C20_take_skip", "C20_take_first"], "note": ""},
  {"property": "C21", "status": "partial", "theorems": ["C21_take_skip_last_partial", "C21_zero_refuted"], "note": "False for n = 0: take_last(0) is the whole block and skip_last(0) is empty (slices [-0:] and [:-0]). Refuted for every non-empty block; proved for all n >= 1."},
  {"property": "C22", "status": "partial", "theorems": ["C22_map_partial", "C22_starmap_partial", "C22_starmap_not_iterable", "C22_filter_partial", "C22_choose_partial", "C22_collect_partial", "C22_mapi_partial", "C22_stop_iteration_refuted", "C22_partition", "C22_partition_interleaves", "C22_fold", "C22_forall_partial"], "note": "Calls, order, results and exceptions are proved for every callback and every exception other than StopIteration (C22_*_partial; partition and fold for every exception). Refuted for StopIteration: map, filter, choose, collect and mapi run their callback inside builtins.map/filter/itertools.starmap, so a StopIteration of the callback ends the result silently instead of propagating; forall turns it into RuntimeError (C22_stop_iteration_refuted)."},
  {"property": "C23", "status": "partial", "theorems": ["C23_indexed_partial", "C23_start_refuted"], "note": "False: indexed ignores its start argument. Refuted by a witness; proved that the indices are always counted from 0."},
  {"property": "C24", "status": "proved", "theorems": ["C24_zip", "C24_unfold", "C24_unfold_calls", "C24_reduce"], "note": "Proved; a StopIteration of the generator function reaches the caller of unfold as RuntimeError."},
  {"property": "C25", "status": "proved", "theorems": ["C25_sort_with_effects", "C25_sort_with", "C25_sort"], "note": ""},
  {"property": "C26", "status": "proved", "theorems": ["C26_elementwise", "C26_equivalence"], "note": ""},
  {"property": "C27", "status": "partial", "theorems": ["C27_any_source", "C27_any_scan_partial", "C27_any_scan_none_partial", "C27_any_zip", "C27_any_mapi", "C27_any_collect_method", "C27_unopened", "C27_map", "C27_filter", "C27_choose", "C27_collect", "C27_concat", "C27_append", "C27_skip", "C27_tail", "C27_take", "C27_pairwise", "C27_scan_partial", "C27_scan_none_partial", "C27_scan_none_refuted", "C27_zip", "C27_zip_short_second", "C27_concat_method", "C27_collect_method", "C27_map_effects", "C27_starmap_effects", "C27_dict", "C27_filter_effects", "C27_choose_effects", "C27_collect_effects", "C27_collect_sources", "C27_scan_effects_partial", "C27_scan_none_effects_partial", "C27_zip_effects", "C27_mapi", "C27_mapi_effects"], "note": "Proved for all sources, callbacks and counts, and for all states of scan other than None. False for scan with the state None: itertools.accumulate takes it for 'no state', so the state is not handed out and folding starts with the first element (C27_scan_none_refuted; exact behaviour in C27_scan_none_partial). A StopIteration that leaves a generator is seen as RuntimeError, one that leaves builtins.filter, accumulate or starmap ends the iteration; the theorems with effects say which (leaving, ended, outside). The _any_ theorems characterise the behaviour exactly (both ways) for any source and any callbacks, with effects on the same state and exceptions on both sides: the source is asked for an element, the callback runs on it, then the next is asked for; so a source may depend on what the callback did."},
  {"property": "C28", "status": "partial", "theorems": ["C28_reiterable_partial", "C28_any_number_of_times", "C28_lists", "C28_filter_scan_zip_refuted", "C28_dict_refuted", "C28_unfold_refuted"], "note": "True of map, choose, collect, append/concat, skip, take, tail, pairwise, delay and init_infinite (C28_reiterable_partial, any number of iterations, also interrupted or interleaved ones). False of filter, scan, zip and unfold, whose results are one-shot iterators: the second iteration is empty (C28_*_refuted)."},
  {"property": "C29", "status": "proved", "theorems": ["C29_take_exact", "C29_take_any_source", "C29_take_short", "C29_take_nothing", "C29_deterministic"], "note": ""},
  {"property": "C30", "status": "partial", "theorems": ["C30_any_source", "C30_building_partial", "C30_on_demand", "C30_concat_on_demand", "C30_eager_refuted"], "note": "Building a pipeline is free of effects when opening the sources is (C30_building_partial) and elements are pulled on demand; C30_any_source says exactly what has happened when elements have been taken, for any source and callbacks with effects. False of mapi, Seq.collect/Seq.concat (which iterate the source at once) and of filter/scan/zip over delay, which call the delayed function when built (C30_eager_refuted)."},
  {"property": "C31", "status": "proved", "theorems": ["C31_any_source", "C31_head", "C31_head_empty", "C31_try_pick_hit", "C31_try_pick_miss", "C31_try_find_index_hit", "C31_try_find_index_miss", "C31_try_pick_effects", "C31_try_find_index_effects"], "note": "The theorems with effects take scripted sources whose effects do not raise StopIteration, since such a source has simply ended. The _any_ theorems characterise the behaviour exactly (both ways) for any source and any callbacks, with effects on the same state and exceptions on both sides: the source is asked for an element, the callback runs on it, then the next is asked for; so a source may depend on what the callback did."},
  {"property": "C32", "status": "partial", "theorems": ["C32_comparisons", "C32_comparisons_value", "C32_any_source", "C32_any_max_min", "C32_fold", "C32_fold_effects", "C32_iter_effects", "C32_fold_back", "C32_fold_back_pure", "C32_scan_prefixes_partial", "C32_scan_none_refuted", "C32_length", "C32_sum", "C32_max_min", "C32_sum_effects", "C32_max_min_effects"], "note": "Proved, for scan with all states other than None. False for scan with the state None, which hands out as many elements as the source has, not one more (C32_scan_none_refuted). The theorems with effects take scripted sources whose effects do not raise StopIteration, since such a source has simply ended. Sums are by +, one after the other: since Python 3.12 builtins.sum corrects the rounding of a run of floats, which is not modelled. The _any_ theorems characterise the behaviour exactly (both ways) for any source and any callbacks, with effects on the same state and exceptions on both sides: the source is asked for an element, the callback runs on it, then the next is asked for; so a source may depend on what the callback did. max and min with comparisons that have effects or raise: C32_comparisons, for any source and projection, both ways; comparisons are one per further element, in order."},
  {"property": "C33", "status": "proved", "theorems": ["C33_unfold_on_demand", "C33_unfold_ends", "C33_init_infinite", "C33_init_infinite_ends"], "note": ""},
  {"property": "C34", "status": "partial", "theorems": ["C34_construct_partial", "C34_construct_plain_partial", "C34_typed_are_plain_partial", "C34_take_skip_partial", "C34_head_tail_partial", "C34_item_partial", "C34_map_partial", "C34_map_calls_partial", "C34_choose_partial", "C34_collect_partial", "C34_filter_partial", "C34_stop_iteration_refuted", "C34_fold", "C34_forall_partial", "C34_sort_with_partial", "C34_unfold_partial", "C34_eq", "C34_setitem", "C34_insert", "C34_extend", "C34_extend_refused", "C34_delete", "C34_clear_reverse_remove", "C34_delete_slice", "C34_indexed_partial", "C34_mixed_refuted", "C34_take_last_zero_refuted", "C34_indexed_start_refuted"], "note": "List semantics is proved for arrays of plain elements (always the case for typed storage, C34_typed_are_plain_partial) and for filter, fold, forall, equality, item assignment, insertion and deletion of every array. Refuted: an untyped list that contains an int8 (etc.) in the middle makes skip/take/map raise OverflowError because the constructor re-infers the type from the first element (C34_mixed_refuted); take_last(0)/skip_last(0) (C34_take_last_zero_refuted); indexed ignores start (C34_indexed_start_refuted). Slices with a step and slice assignment are C86. Callbacks are proved for every exception other than StopIteration, which cuts the result of map, filter, choose and collect short (C34_stop_iteration_refuted)."},
  {"property": "C35", "status": "partial", "theorems": ["C35_range_partial", "C35_refuses_partial", "C35_wrong_kind", "C35_wide_partial", "C35_int32_refuted"], "note": "Proved for every history of construction, assignment, insertion, append, extend, deletion, pop, slice assignment and slice deletion, for all integer typecodes except Int32/Uint32 on platforms where C long has 64 bits; there it is false (C35_int32_refuted: array.array('l') accepts 2**40) and only the 64-bit range holds (C35_wide_partial). Values of another kind are refused with TypeError (C35_wrong_kind)."},
  {"property": "C36", "status": "partial", "theorems": ["C36_owns_partial", "C36_derived_partial", "C36_isolated", "C36_bytearray_aliased", "C36_bytearray_refuted"], "note": "Proved for every initializer except a bytearray given without a typecode, which is kept without copying: C36_bytearray_aliased, C36_bytearray_refuted. Slices of an array never share storage with it (C36_derived_partial)."},
  {"property": "C37", "status": "proved", "theorems": ["C37_option_functor", "C37_option_monad", "C37_option_map_is_bind", "C37_option_or_else", "C37_option_filter", "C37_option_map2_apply", "C37_option_calls", "C37_option_fallback", "C37_option_starmap"], "note": ""},
  {"property": "C38", "status": "proved", "theorems": ["C38_result_functor", "C38_result_error_functor", "C38_result_monad", "C38_error_passes_through", "C38_swap", "C38_map2_apply", "C38_map2_chain_leftmost_error", "C38_bind_chain_stops", "C38_or_else", "C38_fallback", "C38_filter"], "note": ""},
  {"property": "C39", "status": "partial", "theorems": ["C39_conversions", "C39_of_option_with", "C39_optional_round_trip_partial", "C39_optional_inverse", "C39_optional_round_trip_refuted"], "note": "False for Some(None): to_optional gives None and of_optional gives Nothing. Refuted by that witness; proved that it is the only exception, and every other conversion round trip holds."},
  {"property": "C40", "status": "proved", "theorems": ["C40_lt_by_case_then_payload", "C40_strict_order_and_equivalence", "C40_cases_in_order", "C40_equal_values_equal_hash"], "note": ""},
  {"property": "C41", "status": "proved", "theorems": ["C41_construction"], "note": ""},
  {"property": "C42", "status": "proved", "theorems": ["C42_copy", "C42_deepcopy", "C42_pickle", "C42_frozen_rejects", "C42_frozen_history", "C42_other_attributes"], "note": ""},
  {"property": "C43", "status": "partial", "theorems": ["C43_staging_partial", "C43_reuse", "C43_keywords_refuted"], "note": "False for keyword arguments given before the last call: _curry drops them. Refuted by a witness; proved for every grouping of the positional arguments with keywords in the last call, and reuse of partial applications."},
  {"property": "C44", "status": "proved", "theorems": ["C44_curry_flip", "C44_keywords", "C44_curry_flip_zero", "C44_pipeable"], "note": "C44_keywords: keyword arguments are taken only by the first call; in the last call they are a TypeError, in between they are lost."},
  {"property": "C45", "status": "proved", "theorems": ["C45_compose", "C45_first_exception_stops", "C45_pipe2", "C45_values", "C45_pipe3", "C45_identity_flip", "C45_star"], "note": "C45_values: too few values for pipe2 and pipe3 are an IndexError after the function was applied to those there are; further values are ignored."},
  {"property": "C46", "status": "proved", "theorems": ["C46_tailrec_is_recursion", "C46_constant_stack", "C46_divergence"], "note": ""},
  {"property": "C47", "status": "proved", "theorems": ["C47_option_do_notation", "C47_result_do_notation", "C47_option_body", "C47_result_body", "C47_nontermination"], "note": ""},
  {"property": "C48", "status": "proved", "theorems": ["C48_option_short_circuit", "C48_result_short_circuit", "C48_exceptions_propagate"], "note": ""},
  {"property": "C49", "status": "partial", "theorems": ["C49_no_return_value_refuted", "C49_result_no_return_value_refuted", "C49_option_partial", "C49_result_partial", "C49_plain_body"], "note": "False after a yield: a body that yields and then ends without a value gives Some/Ok of the value yielded last (C49_no_return_value_refuted, C49_result_no_return_value_refuted). Proved: zero exactly when nothing was yielded, the value yielded last otherwise, and plain function bodies."},
  {"property": "C50", "status": "partial", "theorems": ["C50_elements_partial", "C50_iteration_partial", "C50_bind", "C50_long_sequences_refuted", "C50_yield_from_list_refuted", "C50_frames_partial", "C50_work_partial", "C50_work_refuted"], "note": "Elements, order, single eager execution, return value and exceptions are proved for every body (C50_elements_partial). Refuted: yield from a list or other plain iterable raises AttributeError because the builder sends the previous value to its iterator (C50_yield_from_list_refuted); the result nests one lazy concatenation per yield, so for every recursion limit a long enough body gives a sequence whose iteration raises RecursionError (C50_long_sequences_refuted, exact bound in C50_iteration_partial; C50_frames_partial shows that this bound is what the nested generators need), and iterating N elements asks the nested concatenations (N+4)(N-1)/2 times, which is not proportional to N (C50_work_partial, C50_work_refuted)."},
  {"property": "C51", "status": "partial", "theorems": ["C51_async_option_partial", "C51_async_result_partial", "C51_plain_coroutine_partial", "C51_await_nothing_refuted", "C51_await_value_refuted"], "note": "Proved equal, step for step, for every body that an async generator can be (no return value, no yield from) and for plain coroutines. Refuted: awaiting Nothing/Error in a coroutine without yield lets EffectError escape (C51_await_nothing_refuted); an awaited value does not become the result as a yielded-from one does (C51_await_value_refuted)."},
  {"property": "C52", "status": "partial", "theorems": ["C52_value_partial", "C52_all_ok", "C52_sequence", "C52_effects_partial", "C52_calls_partial", "C52_order_refuted"], "note": "The value is proved for all functions without effects (leftmost error, or all values in order) and sequence completely. The order of calls is false: fold_back calls the function on every element from the last to the first, also after an error (C52_order_refuted); the exact effects are proved (C52_effects_partial, C52_calls_partial) for functions that do not raise EffectError, those are C129_traverse_refuted."},
  {"property": "C53", "status": "proved", "theorems": ["C53_result_pipeline", "C53_option_pipeline", "C53_result_grouping", "C53_option_grouping"], "note": ""},
  {"property": "C54", "status": "proved", "theorems": ["C54_catch", "C54_catch_raises_iff", "C54_catch_twice"], "note": ""},
  {"property": "C55", "status": "proved", "theorems": ["C55_position"], "note": "Proved for every parser in the inductive class of parsers built from all combinators of the module, with arbitrary user functions in map and bind."},
  {"property": "C56", "status": "proved", "theorems": ["C56_or_else", "C56_choice", "C56_choice_of_nothing", "C56_any_of", "C56_any_of_nothing", "C56_character_classes", "C56_opt"], "note": "Proved for all parsers with effects and exceptions; the error of choice is that of the last alternative."},
  {"property": "C57", "status": "proved", "theorems": ["C57_monad_laws", "C57_functor_laws", "C57_bind", "C57_and_then", "C57_ignoring", "C57_lift2_apply", "C57_fail", "C57_starts_with", "C57_sequence"], "note": "Proved pointwise for parsers and functions with effects; sequence for lists the recursion limit has room for (it raises RecursionError when the parser is made otherwise, see C58)."},
  {"property": "C58", "status": "partial", "theorems": ["C58_pstring_partial", "C58_mismatch", "C58_call_partial", "C58_pstring_refuted"], "note": "Exact result, consumption and error message proved for strings shorter than the recursion limit; refuted for every limit: pstring of a longer string raises RecursionError because sequence recurses once per character (and running it needs four frames for each character, see C112)."},
  {"property": "C59", "status": "partial", "theorems": ["C59_many_partial", "C59_many_raises", "C59_many_total", "C59_many1_partial", "C59_sep_by_partial", "C59_sep_by1_partial", "C59_runs_partial", "C59_many_refuted", "C59_many_long_refuted"], "note": "many/many1/sep_by/sep_by1 return exactly the relational specification whenever they return, and return for every consuming parser when the text left is shorter than the recursion limit. Refuted for every limit: many(preturn(x)) and many(parse_digit) on a long text raise RecursionError."},
  {"property": "C60", "status": "partial", "theorems": ["C60_pint_round_trip_partial", "C60_call_partial", "C60_pint_numerals_partial", "C60_pint_no_number", "C60_pint_refuted"], "note": "Round trip proved for all integers whose number of digits is within the recursion limit and int's digit limit, also for numerals with leading zeros; failure without digits proved. Refuted for every recursion limit by an integer with more digits."},
  {"property": "C61", "status": "proved", "theorems": ["C61_at_most_once", "C61_exactly_once", "C61_no_deadlock", "C61_bounded", "C61_enter", "C61_async", "C61_async_calls"], "note": "Transition system with any number of threads, one step per access to the lock or the flag, adversarial user code in threads and actions (reentrancy). At most once, exactly once when all calls are over, no deadlock, at most six steps per call, entering only before; async version on one event loop. On the event loop only the call that started the action may be under way, all others have returned (C61_async_calls)."},
  {"property": "C62", "status": "partial", "theorems": ["C62_at_most_once_partial", "C62_called_once_partial", "C62_order_partial", "C62_unregistered_partial", "C62_called_by_cancel_partial", "C62_one_thread_partial", "C62_unregister_safe_partial", "C62_nothing_more_partial", "C62_no_deadlock_partial", "C62_base_exception_refuted", "C62_unregistered_during_cancel_refuted"], "note": "Threads with arbitrary interleaving, reentrant listeners. True: no listener is called twice; a listener registered before the first cancel and never unregistered is called exactly once when every call of cancel is over and no listener raised a BaseException; registration order; a handle disposed before the first cancel prevents the call; one thread calls all; nothing is called after cancel is over; disposing a handle never raises; no deadlock. False of the code, with witnesses: a listener raising a BaseException (asyncio.CancelledError, SystemExit) stops cancel and the rest are never called; a listener unregistered by an earlier listener during cancel is still called."},
  {"property": "C63", "status": "partial", "theorems": ["C63_lost_refuted", "C63_before_partial", "C63_after_partial"], "note": "False of the code: register_internal tests the flag outside the lock, so a cancel that runs between the test and the lock loses the listener for ever (C63_lost_refuted, for every continuation). Proved: a registration that ends before the first cancel is called, one that begins after a cancel has returned raises ObjectDisposedException."},
  {"property": "C64", "status": "proved", "theorems": ["C64_flag", "C64_with", "C64_register_raises", "C64_register_after", "C64_token", "C64_none_register"], "note": "All interleavings. While the first cancel runs the flag is one or the other; after anything that shows the source cancelled it is True, before any call of cancel it is False. throw_if_cancellation_requested raises ObjectDisposedException (not OperationCanceledError)."},
  {"property": "C65", "status": "partial", "theorems": ["C65_dispose_partial", "C65_all_members_partial", "C65_all_members_refuted"], "note": "Exact behaviour proved for all nestings (members in order, each object once, up to the first that raises); all members disposed when no action raises, a second dispose does nothing. Refuted when a member raises: later members are not disposed."},
  {"property": "C66", "status": "proved", "theorems": ["C66_position", "C66_accepted", "C66_prefix", "C66_all_received", "C66_once"], "note": "Proved for all schedules in which any threads post and the loop's thread receives, with abandoned receives and cancellation allowed: the i-th accepted receive gets the i-th message or nothing (C66_position), one receiving task gets a prefix (C66_prefix), at quiescence all messages (C66_all_received). Hypothesis on_loop: post_and_async_reply is called on the loop's thread only; other threads are C67."},
  {"property": "C67", "status": "partial", "theorems": ["C67_lost_refuted", "C67_never_answered_refuted", "C67_order_partial", "C67_no_deadlock_partial"], "note": "Refuted: the test of self.continuation is outside the lock (mailbox.py:143-146), so two threads each take a message and the second drops it (C67_lost_refuted); a continuation stored between read and clear is erased and its receive waits for ever (C67_never_answered_refuted). Proved for all interleavings: no message twice, none out of order, no receive ends twice, no deadlock."},
  {"property": "C68", "status": "partial", "theorems": ["C68_lost_refuted", "C68_waits_refuted", "C68_raises_refuted", "C68_raised_partial", "C68_others_partial"], "note": "Refuted: the continuation of an abandoned receive stays in place, so the next message goes to it and is never received (C68_lost_refuted, for every schedule), or the next receive raises (C68_raises_refuted). Proved: receive raises only when the last accepted receive has not returned; every other receive gets its message."},
  {"property": "C69", "status": "partial", "theorems": ["C69_completes_partial", "C69_value_partial", "C69_second_partial", "C69_first_partial", "C69_none_refuted", "C69_second_refuted", "C69_takes_back_refuted"], "note": "Refuted for None (never completes) and for a second reply that comes before the caller waits (it replaces the first). Proved for all interleavings of replies other than None with the caller: no reply is lost, only replied values arrive, a completed request does not change, the first reply wins when the caller waits."},
  {"property": "C70", "status": "partial", "theorems": ["C70_receive_partial", "C70_loop_partial", "C70_pending_partial", "C70_post_refuted", "C70_pending_refuted"], "note": "Refuted: a cancellation by another thread during event processing lets a later post through (C70_post_refuted); a pending receive is cancelled only by the next event (C70_pending_refuted; with start() the body's task is cancelled as well, which is not part of this model). Proved: only receives accepted before the cancellation get messages, and only messages posted before it when the loop's thread cancels; at most one message later otherwise; every receive ends once something is posted after the cancellation."},
  {"property": "C71", "status": "partial", "theorems": ["C71_first_wins_partial", "C71_later_partial", "C71_settled_partial", "C71_stop_iteration_refuted", "C71_callback_raises_partial"], "note": "First call wins for every sequence of calls, also with the awaiter cancelled. Refuted for a first call error(StopIteration()): asyncio refuses it, the call raises TypeError and the awaiting code is told nothing."},
  {"property": "C72", "status": "proved", "theorems": ["C72_lists", "C72_take", "C72_append", "C72_effects", "C72_collect", "C72_concat", "C72_fold", "C72_fold_back", "C72_totals", "C72_best", "C72_head", "C72_range", "C72_sources", "C72_comparisons", "C72_any_source", "C72_any_concat", "C72_any_fold"], "note": "Pure callbacks over any source (effects, exceptions, infinite for take and head). Callbacks with effects over any source: the _any_ theorems say exactly (both ways) what is handed out, how it ends and what it does. A StopIteration that leaves async code is seen as RuntimeError. max and min with comparisons that have effects: C72_comparisons."},
  {"property": "C73", "status": "proved", "theorems": ["C73_range", "C73_zero"], "note": ""},
  {"property": "C74", "status": "partial", "theorems": ["C74_result_dict", "C74_result_dict_injective", "C74_option_dict", "C74_option_dict_partial", "C74_option_dict_refuted"], "note": "Result.dict() determines the result (proved for every injective payload dump). Option.dict() does not: Some(Nothing).dict() and Some(None).dict() are None like Nothing.dict() (C74_option_dict_refuted); proved for payloads that do not dump to None."},
  {"property": "C75", "status": "partial", "theorems": ["C75_pfloat_partial", "C75_pfloat_no_number", "C75_pfloat_refuted"], "note": "Proved for all numerals within the recursion limit, for any float function (builtins.float is a parameter); an Error without digits. Refuted for every recursion limit by a longer numeral."},
  {"property": "C76", "status": "proved", "theorems": ["C76_with", "C76_with_any_body", "C76_disposed"], "note": "Proved for all disposables, bodies and actions."},
  {"property": "C77", "status": "partial", "theorems": ["C77_returned_after_action_refuted", "C77_one_thread_partial"], "note": "Refuted with two threads: the second dispose() returns before the action has started. Proved for one thread (the action has started; with reentrancy it need not have finished)."},
  {"property": "C78", "status": "partial", "theorems": ["C78_running_partial", "C78_leak_refuted", "C78_registration_refuted"], "note": "Model of tasks for start and start_immediate (same code). Kept while running and dropped on return: proved. Refuted: a computation that raises or is cancelled stays in the set for ever, and the token's source keeps the callback of every task for ever (C78_registration_refuted)."},
  {"property": "C79", "status": "partial", "theorems": ["C79_start_partial", "C79_cancelled_later_partial", "C79_raises_but_runs_refuted"], "note": "Raises exactly for none() and for a cancelled source's token; otherwise cancelling the source calls task.cancel(): proved. Refuted: when start raises the computation has been scheduled and runs, and no source can cancel it."},
  {"property": "C80", "status": "partial", "theorems": ["C80_on_demand_partial", "C80_scan_first_partial", "C80_effects_partial", "C80_collect_partial", "C80_append_partial", "C80_take_loses_refuted", "C80_take_waits_refuted", "C80_any_source_partial"], "note": "C80_any_source_partial says exactly what has happened when elements have been taken, for any source and callbacks with effects. Proved for map, filter, choose, scan (with callbacks that have effects), collect, concat, append, skip and the elements of take. Refuted for the end of take(n): it awaits and drops element n+1, so a shared source loses it (C80_take_loses_refuted) and take never ends if it never comes (C80_take_waits_refuted)."},
  {"property": "C81", "status": "partial", "theorems": ["C81_again_refuted", "C81_range_again_refuted", "C81_anew_partial"], "note": "Refuted: every operation gives one async generator object, the second pass over it is empty. Proved: applying the operation anew gives the same elements."},
  {"property": "C82", "status": "partial", "theorems": ["C82_endless_refuted", "C82_count_partial"], "note": "Refuted without a count: itertools.repeat(value, times or 0) yields nothing. Proved with a count."},
  {"property": "C83", "status": "partial", "theorems": ["C83_any_source_partial", "C83_exceptions_partial", "C83_stop_iteration_refuted"], "note": "Proved for every exception other than StopIteration, for lists (C83_exceptions_partial) and any source, which may have effects on the same state as the callback (C83_any_source_partial). Refuted for StopIteration: map, choose, collect, sum_by, max_by and min_by raise RuntimeError; filter, scan and mapi end silently and drop the rest of the source (C83_stop_iteration_refuted). unfold and init_infinite are in C33."},
  {"property": "C84", "status": "partial", "theorems": ["C84_sequencing_partial", "C84_or_else_refuted"], "note": "Proved for and_then, then_ignore and ignore_then. Refuted for or_else: it is curried the other way round, so pipe(p, or_else(q)) tries q first while p.or_else(q) tries p first."},
  {"property": "C85", "status": "partial", "theorems": ["C85_short_partial", "C85_long_partial", "C85_one_shot_refuted"], "note": "The text and the exact number of pulled elements are proved for every source. Refuted that printing leaves the sequence as it was: over a one-shot iterator the printed elements (and the 101st) are gone."},
  {"property": "C86", "status": "partial", "theorems": ["C86_block_slice", "C86_array_slice", "C86_positions_unique", "C86_reversed", "C86_contiguous", "C86_delete", "C86_assign_partial", "C86_assign_code", "C86_assign_fails", "C86_assign_refuted"], "note": "Proved for all bounds and steps: reading, deleting, and assigning what the storage accepts. Refuted that assignment treats typed storage as a list: array.array refuses every other iterable (TypeError), a bytearray takes the memory of an array.array instead of its numbers, and an empty value with a step deletes instead of raising ValueError. Slices of a TypedArray are storage objects, not TypedArrays; the theorems are about their elements."},
  {"property": "C87", "status": "partial", "theorems": ["C87_round_trip_partial", "C87_nested_refuted", "C87_json_partial", "C87_json_result_refuted", "C87_json_option_refuted"], "note": "Pydantic's core schemas are modelled as documented (DESIGN.md). Python data: proved for all nestings in which no Option holds an Option or a type with None; Some(Nothing) comes back as Nothing (C87_nested_refuted). JSON: proved for types without Result whose options hold other types; reading a Result from JSON always raises (TypeError of Result(data)), and the item of an Option read from JSON stays raw data."},
  {"property": "C88", "status": "partial", "theorems": ["C88_validated_partial", "C88_instance_refuted"], "note": "Proved for Python data without instances of the three classes. Refuted for instances, which are taken unchecked, and therefore for every Option read from JSON."},
  {"property": "C89", "status": "partial", "theorems": ["C89_errors_partial", "C89_result_refuted", "C89_text_partial", "C89_json_errors_partial"], "note": "Proved for types without Result and for a Result validated from a dictionary. Refuted for a Result validated from None, numbers, and strings or lists with the word error: TypeError leaves the validation. JSON: ValueError for types without Result; for a Result, TypeError exactly for an object with a str tag and a fitting item (C89_json_errors_partial). For a text in place of a Result it is TypeError exactly when the word ok or error occurs in it (C89_text_partial)."},
  {"property": "C90", "status": "partial", "theorems": ["C90_is_partial", "C90_only_empty_partial", "C90_is_refuted", "C90_values"], "note": "Proved for all programs of Option operations. Refuted for Option.Nothing() and for copies (copy, deepcopy, pickle): they make empty options that are other objects."},
  {"property": "C91", "status": "partial", "theorems": ["C91_option_text", "C91_result_text", "C91_determined", "C91_repr_partial", "C91_repr_refuted", "C91_copy_partial", "C91_copy_refuted", "C91_copy_class", "C91_own_repr"], "note": "Texts and their injectivity are proved in full. Refuted: repr() is str() (the decorator replaces the __repr__ of the class body, so repr(Some(1)) is 'Option(some=1)') and copies print alike (a copy of a Try is a Result)."},
  {"property": "C92", "status": "partial", "theorems": ["C92_text_partial", "C92_text_refuted", "C92_map_text", "C92_determined_partial", "C92_determined_refuted", "C92_map_determined_partial", "C92_map_determined_refuted"], "note": "The text is proved for every collection whose element texts do not raise StopIteration (that ends the join early, refuted). Refuted that texts tell collections apart when element texts contain the separator; proved when they do not."},
  {"property": "C93", "status": "partial", "theorems": ["C93_hash_partial", "C93_hash_refuted", "C93_own_methods", "C93_operators_partial", "C93_operators_refuted", "C93_own_operators", "C93_option_result"], "note": "Hashes: proved for frozen unions; refuted without frozen (identity hash beside structural equality). Operators: < and > proved; <= and >= always raise TypeError, also with order=True (refuted)."},
  {"property": "C94", "status": "partial", "theorems": ["C94_active_partial", "C94_other_refuted", "C94_retag_refuted"], "note": "Proved for the active case. Refuted for another case: it is accepted and has no visible effect; assigning the tag too gives a value equal to a fresh one, yet smaller than it and not picklable."},
  {"property": "C95", "status": "partial", "theorems": ["C95_downcast_partial", "C95_try_partial", "C95_try_generic_partial", "C95_upcast", "C95_none_partial", "C95_casts_refuted"], "note": "Proved for classes, tuples of classes and, for downcast, unions of classes. Refuted for generics (type arguments unchecked by try_downcast; TypeError from downcast), unions (try_downcast never recognises a | b and raises for typing.Union), None, and downcast under -O. Python 3.10 to 3.13; classes whose instance check raises are left out. The type None is decided by try_downcast and refused by downcast (C95_none_partial)."},
  {"property": "C96", "status": "partial", "theorems": ["C96_functions_partial", "C96_arguments_partial", "C96_names", "C96_uncurried_partial", "C96_map2", "C96_methods_partial", "C96_unfold", "C96_agree_refuted"], "note": "Proved for the 82 forwarding functions and 29 forwarding methods in the tables of Model/Modules.v; what a method does with its arguments is an oracle there. False of array.indexed (start dropped), map.fold_back (pipes the state, so a piped table is taken for it), Parser.or_else (the piped parser comes second) and functions that are not curried, such as option.or_else(y), which raise TypeError when piped."},
  {"property": "C97", "status": "partial", "theorems": ["C97_sequential_partial", "C97_prefix_partial", "C97_all_partial", "C97_state_partial", "C97_answers_partial", "C97_threads_refuted"], "note": "Proved for posts from any threads and requests (post_and_async_reply) made on the loop's thread, without cancellation for completeness; refuted when other threads make requests (a message is dropped, see C67). The body does not catch CancelledError; its effects other than receive are outputs."},
  {"property": "C98", "status": "partial", "theorems": ["C98_ends", "C98_one_more_partial", "C98_loop_partial", "C98_after_refuted", "C98_threads_refuted"], "note": "That the agent ends is proved for all threads and schedules (C98_ends). Handling no further message is false: on the loop's thread it may get one more (at most one, C98_one_more_partial; none posted later when the loop's thread cancels, C98_loop_partial), even one posted after the cancellation (C98_after_refuted), and two more when other threads call post_and_async_reply (C98_threads_refuted). Calling task.cancel() from another thread is modelled as taking effect on the loop."},
  {"property": "C99", "status": "partial", "theorems": ["C99_value_partial", "C99_answered_partial", "C99_numbers", "C99_none_refuted", "C99_threads_refuted"], "note": "Proved for requests made on the loop's thread and posts from any thread, without cancellation for completeness, and answers other than None. Refuted for the answer None (C99_none_refuted: the request waits for ever) and for requests from several other threads (C99_threads_refuted: one request is dropped and waits for ever)."},
  {"property": "C100", "status": "partial", "theorems": ["C100_sum_partial", "C100_sum_by_partial", "C100_sum_by_sized_partial", "C100_singleton_partial", "C100_refuted", "C100_float32_refuted"], "note": "sum_by hands the results of the projection to a TypedArray first. Proved when the first result is not of a library number class (C100_sum_by_partial) and, for sized integers, up to the exception of the intermediate array (C100_sum_by_sized_partial). Refuted: int8(5) followed by 1000 raises OverflowError, a projection that raises StopIteration ends the sum silently (C100_refuted), float32 results are rounded before they are added (C100_float32_refuted). builtins.sum itself is a parameter."},
  {"property": "C101", "status": "partial", "theorems": ["C101_enough_partial", "C101_filter_partial", "C101_of_block", "C101_logarithmic_partial", "C101_lookup_exact", "C101_traversal_needs_depth", "C101_refuted"], "note": "Stated with d, the nested calls still allowed. Proved: depth of the tree is enough for every operation (plus the depth of the tree being built for filter and partition), lookup and traversal need exactly that; maps built by insertion, filter, partition, map have logarithmic depth, and blocks are turned into maps with a logarithmic stack. Refuted after removals: for every limit d a map of d + 1 keys in which looking up a present key raises RecursionError (C101_refuted). Map.of_seq/of_list(list) recurse once per element anyway (C18)."},
  {"property": "C102", "status": "partial", "theorems": ["C102_sum", "C102_order", "C102_sum_by_partial", "C102_stop_iteration_refuted", "C102_singleton_of_option"], "note": "sum is proved in full. sum_by is proved for projections that do not raise StopIteration; refuted otherwise: the map inside takes it for the end of the block and the sum is cut short silently (C102_stop_iteration_refuted). Python 3.12 and later add floats with compensation inside builtins.sum; add is then a parameter that need not be the + of the elements."},
  {"property": "C103", "status": "partial", "theorems": ["C103_runs_partial", "C103_once", "C103_in_loop", "C103_values", "C103_refuted"], "note": "Proved for all coroutines when the stack has room for as many nested awaits as there are unawaited coroutine objects. Refuted: StopIteration comes out as RuntimeError, and long chains of awaits raise RecursionError (C103_refuted). Cancellation from outside, futures and the loop of asyncio.run itself are not modelled here."},
  {"property": "C104", "status": "partial", "theorems": ["C104_chain_partial", "C104_returns", "C104_one_partial", "C104_order_refuted", "C104_exception_refuted", "C104_stop_iteration_refuted", "C104_tail_refuted", "C104_negative_refuted"], "note": "Refuted in five ways: with two transformations the Block runs the first one on all elements before the second starts, so effects come in another order (C104_order_refuted) and another exception may be seen (C104_exception_refuted); a callback's StopIteration ends a Block silently and is a RuntimeError elsewhere; tail of an empty Block raises ValueError, elsewhere it is empty; negative counts are slices for a Block and zero elsewhere. Proved: for callbacks whose results depend on their arguments only (other effects allowed) and non-negative counts, all chains give the same elements on all three; a single transformation has the same elements, effects and exception for any callbacks that do not raise StopIteration."},
  {"property": "C105", "status": "partial", "theorems": ["C105_call_partial", "C105_nontermination", "C105_async_partial", "C105_plain", "C105_lazy_refuted"], "note": "Proved for all builders whose bind of a return_ value calls the function once (left unit) and whose delay is eager (the inherited one is); the methods of the builder other than bind are without effects in the model (C134 has methods with effects). Refuted for lazy monads (reader, state, task): a bind that does not call its function never sets is_done, so the call of a body that yields never ends (C105_lazy_refuted)."},
  {"property": "C106", "status": "proved", "theorems": ["C106_add", "C106_remove", "C106_change", "C106_lookup", "C106_filter", "C106_shape", "C106_log", "C106_comparisons", "C106_comparisons_all", "C106_ordered_keys", "C106_just_added", "C106_in_is_found", "C106_limits"], "note": "Model/MapCmp.v repeats the functions of maptree.py that compare keys with arbitrary comparison methods; C106_ordered_keys shows that with the comparisons of an order they are the functions of MapTree.v. C106_limits gives witnesses for what cannot be promised."},
  {"property": "C107", "status": "partial", "theorems": ["C107_each_alone_partial", "C107_nested_partial", "C107_map", "C107_one_shot_refuted", "C107_to_seq_refuted", "C107_filter_refuted"], "note": "Proved for everything whose iter() makes a new iterator: lists, Block, Map (C107_map) and the results of the operations named in C28. False of the one-shot objects that filter, scan, zip, unfold and Map.to_seq() return: nested loops over one such object see only the pairs of the first element with the others."},
  {"property": "C108", "status": "partial", "theorems": ["C108_do_notation", "C108_option_body", "C108_result_body", "C108_async", "C108_kind_partial", "C108_kind_refuted", "C108_seq_values", "C108_seq_failure_refuted"], "note": "Proved: the call is do-notation in which either kind hands on its value and the first failure, whatever its kind, is the outcome (sync and async). False: an option function gives the Error it met and a result function gives Nothing (C108_kind_refuted), so the kind is only the builder's own when no failure of the other kind ends the body (C108_kind_partial). In effect.seq a Nothing or Error after a yield leaves the call as EffectError, and before any yield it is returned and cannot be iterated (C108_seq_failure_refuted)."},
  {"property": "C109", "status": "partial", "theorems": ["C109_case", "C109_exhaustive", "C109_guard", "C109_option", "C109_result", "C109_positional_partial", "C109_positional_refuted", "C109_malformed", "C109_assigned_refuted", "C109_block_fixed", "C109_block_star", "C109_block_cons", "C109_sequence_refuted", "C109_seq_refuted", "C109_array_refuted", "C109_array_partial"], "note": "Proved for the patterns that name the case, U(tag=\"c\", c=p), U(c=p), U(\"c\", c=p), for the match statements the library itself uses, and for Block([...]). False by position: __match_args__ is all the declared names in order, so U(_, x) stands for the first declared case only and Option(\"some\", x) never matches a Some (C109_positional_refuted). False of a union that is not frozen after assigning to another case (C109_assigned_refuted). Seq(p) and TypedArray(p) never match because __match_args__ names attributes that do not exist, and [head, *tail] without the class never matches a Block or a Seq (C109_seq_refuted, C109_array_refuted, C109_sequence_refuted)."},
  {"property": "C110", "status": "partial", "theorems": ["C110_same", "C110_made", "C110_or_else", "C110_filter_partial", "C110_bind_partial", "C110_class_refuted", "C110_text_refuted", "C110_builder_partial", "C110_builder_refuted", "C110_failure", "C110_pipeline_partial", "C110_catch_partial"], "note": "Proved: up to the class a Try is a Result (C110_same), Success and Failure make Trys, or_else and or_else_with among Trys give a Try, effect.try_ gives the first Failure itself (C110_failure), catch hands a Try on. False otherwise: map, map2, apply, map_error and swap give a Result always, bind of a Failure and a rejecting filter give a Result, effect.try_ wraps a value with Ok, pipeline turns a Failure of any function but the last into an Error; str() of the outcome then says Ok or Error (C110_class_refuted, C110_text_refuted, C110_builder_refuted)."},
  {"property": "C111", "status": "partial", "theorems": ["C111_hands_off_partial", "C111_behind_map_partial", "C111_behind_fold_partial", "C111_push_refuted", "C111_delete_refuted"], "note": "True of callbacks that leave the array alone (all seven methods, C111_hands_off_partial) and of those that only change positions already visited, such as writing back in place (map and fold, C111_behind_map_partial, C111_behind_fold_partial). False otherwise, because the iterators of the storage follow it as it changes: a callback that pushes makes map endless on every non-empty array (C111_push_refuted), one that deletes the first element is called for every other element only (C111_delete_refuted)."},
  {"property": "C112", "status": "partial", "theorems": ["C112_nesting_partial", "C112_literal_partial", "C112_literal_anywhere_partial", "C112_literal_refuted", "C112_alternatives_refuted", "C112_any_of_refuted", "C112_alternatives_partial", "C112_many_partial", "C112_many_refuted", "C112_many1_partial"], "note": "Proved: two frames for each level of nested combinators are enough, and with less the parser does the same or raises RecursionError (C112_nesting_partial). False of the rest, with the exact need: a literal of n characters needs 4n+8 frames to be recognised (about 250 characters with Python's default limit of 1000), n alternatives need 2n frames even where the first one matches, n repetitions need n frames beside those of one element (C112_literal_refuted, C112_alternatives_refuted, C112_any_of_refuted, C112_many_refuted). Counted are the frames of Parser.run, the inner run functions, parse_zero_or_more and the callbacks; those of calls that end before the next counted one are not."},
  {"property": "C113", "status": "partial", "theorems": ["C113_size_partial", "C113_derived_partial", "C113_literal_partial", "C113_choice_partial", "C113_any_of_partial", "C113_sharing_refuted", "C113_many1_refuted", "C113_parentheses_refuted", "C113_preturn_refuted", "C113_preturn_partial", "C113_own_names", "C113_leaves"], "note": "Names of all combinators are proved, and their length in proportion to the combinators when no parser is used twice (C113_size_partial). False otherwise: every use of a parser copies its name, so k levels of sep_by1 give a name 2^k times as long (C113_sharing_refuted); many1 is called many (C113_many1_refuted); and_then, or_else and bind leave a parenthesis open (C113_parentheses_refuted); preturn formats its value when it is called, and what that raises comes out of preturn (C113_preturn_refuted)."},
  {"property": "C114", "status": "partial", "theorems": ["C114_reflexive", "C114_never_raises_partial", "C114_equal_partial", "C114_symmetric_partial", "C114_transitive_partial", "C114_array_partial", "C114_map_partial", "C114_contains_partial", "C114_hashable", "C114_hash_partial", "C114_raises_refuted", "C114_transitive_refuted", "C114_symmetric_refuted", "C114_hash_refuted"], "note": "Proved: reflexive for all values (C114_reflexive); without arrays nothing raises; without arrays and Maps two values are equal exactly if they are the same up to tuples for Blocks, so == is an equivalence and hashes agree; arrays against sequences of such values, Maps of the same size and Block.__contains__ likewise; a value has a hash exactly if no list, Block or array is in it (C114_hashable). False: TypedArray.__eq__ raises TypeError for whatever has no length, also from the right and from inside Blocks and Options (C114_raises_refuted); a list equals an array that equals a tuple (C114_transitive_refuted); Map.__eq__ takes a prefix for equal, and an array equals a Map that does not equal it (C114_symmetric_refuted); a Block has no hash though it equals a tuple that has one (C114_hash_refuted). Map keys are integers in this model."},
  {"property": "C115", "status": "partial", "theorems": ["C115_value_partial", "C115_in_partial", "C115_collect_partial", "C115_concat_partial", "C115_block_collect_partial", "C115_failure_refuted", "C115_block_collect_refuted"], "note": "Proved for Some and Ok, and for collect and concat exactly: the values up to the first Nothing, then EffectError. False for Nothing and Error: their iteration raises EffectError instead of ending, so in, seq.collect, seq.concat and Block.collect raise where choose leaves them out (C115_failure_refuted, C115_block_collect_refuted)."},
  {"property": "C116", "status": "partial", "theorems": ["C116_contains", "C116_index", "C116_index_first", "C116_count", "C116_reversed", "C116_extend_partial", "C116_own_storage_refuted"], "note": "Proved for in, index, count, reversed and for extend and += with the array itself and with anything that does not share its storage. False when it shares the storage (the bytearray the array was made from, a.value): extend and += never end, where a list is doubled (C116_own_storage_refuted). Assumes comparisons do not change the array."},
  {"property": "C117", "status": "partial", "theorems": ["C117_get", "C117_keys", "C117_values", "C117_dict_partial", "C117_unhashable_refuted", "C117_compare", "C117_combine"], "note": "Proved for all maps, except that items() and dict(m) are proved for keys that can be hashed. False for others: a Map takes keys that can only be compared, such as lists; keys() and values() work, items() and dict(m) raise TypeError (C117_unhashable_refuted)."},
  {"property": "C118", "status": "partial", "theorems": ["C118_linear_partial", "C118_apart_partial", "C118_same_results", "C118_shared_partial", "C118_cons_refuted", "C118_walk_refuted", "C118_concat_partial", "C118_concat_refuted", "C118_traverse_partial", "C118_traverse_refuted"], "note": "The cost counted is the number of references written into new tuples and lists by CPython. Proved: exact costs of head, tail, reduce and of the shared cases, linear upper bounds of the others with their results. False of the code, which keeps a tuple and copies it: cons, head and tail copy the whole Block (C118_cons_refuted, C118_walk_refuted; building n elements with cons copies n(n+1) references, walking down copies 3n(n-1)/2), concat copies every prefix (C118_concat_refuted), and traverse of n elements that are all Ok copies n(n+7)/2-1 references (C118_traverse_partial, C118_traverse_refuted). C118_same_results: also for empty blocks the results and exceptions of the counted operations are those of the Block model."},
  {"property": "C119", "status": "partial", "theorems": ["C119_same_elements", "C119_same_elements2", "C119_same_outcomes", "C119_finished_partial", "C119_filter_partial", "C119_scan_partial", "C119_zip_partial", "C119_init_infinite_partial", "C119_goes_on_refuted", "C119_next_loop_partial", "C119_next_loop_refuted", "C119_any_source_partial"], "note": "Proved for map, collect, choose, concat, append, skip, tail, take, pairwise, delay, dict, unfold and every iteration of a Seq or SeqGen, over all sources and callbacks (C119_finished_partial). False for filter, scan, zip and init_infinite, which give builtin objects: after an exception they go on with the next element, scan with the total it had, zip with its sources out of step when the second one raised or ended (C119_goes_on_refuted; exact outcomes for any source, also one that goes on after it raised or ended, in C119_any_source_partial; as functions of the script of a source in C119_filter_partial, C119_scan_partial, C119_zip_partial, C119_init_infinite_partial). A second loop over such an object, or over a Seq made from it, continues behind the failed element (C119_next_loop_refuted). Up to the exception these iterators are the ones of C27 to C33 (C119_same_elements, C119_same_outcomes)."},
  {"property": "C120", "status": "partial", "theorems": ["C120_same_elements", "C120_same_elements2", "C120_same_outcomes", "C120_held_partial", "C120_held_refuted", "C120_balanced", "C120_balanced2", "C120_released", "C120_released_at_end_partial", "C120_at_end_refuted"], "note": "Proved: everything entered is left exactly once when the iteration is given up, for every function and nesting (C120_balanced, C120_balanced2, C120_released), and already when it ends or raises for all but filter, scan and zip (C120_released_at_end_partial); zip whose second source ends first and filter and scan whose callback raised keep their source until they are dropped themselves (C120_at_end_refuted). An iterator the user holds is left alone by every function (C120_held_partial) except that concat, append and collect close a generator that they were given directly or that their mapping gave: its remaining elements are lost (C120_held_refuted). CPython's reference counting is taken as given; exceptions raised in finally blocks and references kept by tracebacks are not modelled."},
  {"property": "C121", "status": "partial", "theorems": ["C121_compose", "C121_pipeline_partial", "C121_seq_partial", "C121_async_partial", "C121_long_chains_refuted", "C121_async_chains_refuted"], "note": "Proved for compose and pipe (two and three frames for any number of functions, C121_compose). False for pipelines, which need a frame for every function, for sequences, which need two frames for every stage other than filter, and for asynchronous sequences, which need one for every stage: for every recursion limit there are chains of map alone and of append alone that raise RecursionError when iterated (C121_long_chains_refuted, C121_async_chains_refuted). The exact bounds: C121_pipeline_partial; C121_seq_partial and C121_async_partial (up to one frame, for any source); within them the results are those of C45, C53 and C27, beyond them no callback is called."},
  {"property": "C122", "status": "partial", "theorems": ["C122_over", "C122_over_own", "C122_same_elements", "C122_same_elements2", "C122_same_own", "C122_same_results", "C122_balanced", "C122_balanced2", "C122_balanced_concat", "C122_nested", "C122_nested2", "C122_nested_concat", "C122_resource", "C122_chain", "C122_released_partial", "C122_at_end_partial", "C122_consumers_partial", "C122_at_once_refuted", "C122_aclose_refuted", "C122_late_refuted"], "note": "Model of async generators with the finalizer of asyncio's event loop (a generator without references is closed by a task made in the next turn). Proved: ended or raised is over for good; elements and effects are those of AsyncSeq.v; everything opened is closed, once, when the loop has turned twice per generator around each other. Refuted: not when the consumer goes on (C122_at_once_refuted), not after await result.aclose() (C122_aclose_refuted), and no fixed number of turns is enough (C122_late_refuted, for every number). finally blocks that await or raise, and references kept by tracebacks, are not modelled."},
  {"property": "C123", "status": "proved", "theorems": ["C123_add", "C123_remove", "C123_change", "C123_logarithmic", "C123_both", "C123_filter", "C123_partition", "C123_map", "C123_of_list", "C123_versions", "C123_insertions", "C123_absent"], "note": "MapTree.v again with a number for every leaf and node created; erasing the numbers gives MapTree.v, exceptions and effects included. The bound of C123_add, C123_remove and C123_change is in the depth of the tree, logarithmic for maps built by insertion (C123_logarithmic); after removals the tree can be as deep as it has keys (C07, C101). The Map object around the tree is not counted."},
  {"property": "C124", "status": "partial", "theorems": ["C124_same", "C124_same_tokens", "C124_literal", "C124_any_of", "C124_grammar_partial", "C124_linear_partial", "C124_tokens", "C124_recursive_refuted", "C124_repetition_refuted"], "note": "Proved: the counted parsers do what the parsers of C55-C60 and C75 do (C124_same, C124_same_tokens); exact counts of pstring and any_of; the polynomial bound of all grammars without recursion (C124_grammar_partial); linear bounds of parsers told apart by the first character and of the tokens (C124_linear_partial, C124_tokens). Refuted in general: C124_repetition_refuted (quadratic), C124_recursive_refuted (exponential). Repetitions of parsers that succeed without consuming end in a RecursionError (C59) and are left out by the hypothesis consuming. Counted are the looks at the input, not the copying of Blocks (C118)."},
  {"property": "C125", "status": "partial", "theorems": ["C125_alone", "C125_alone_own", "C125_one_reader", "C125_each_once", "C125_refused", "C125_over", "C125_over_sources", "C125_thrown", "C125_ended", "C125_over_for_all", "C125_timeout_refuted", "C125_new_pipeline"], "note": "Proved: the model with visible suspensions is that of AsyncSeq.v when nobody interferes (C125_alone, C125_alone_own); the sharing part for all sources, numbers of tasks and schedules (C125_one_reader, C125_each_once, C125_refused); what a thrown exception does (C125_over, C125_over_sources, C125_thrown, C125_ended, C125_over_for_all). Refuted: C125_timeout_refuted, the last sentence: every operation of asyncseq is an async generator, and one that is left by an exception is over, so that asking again ends without an exception, although the source still has the element (C125_new_pipeline). Assumed of sources: they do not catch what is thrown into their awaits (passes). C125_over leaves out concat (collect with the identity)."},
  {"property": "C126", "status": "partial", "theorems": ["C126_true", "C126_derived", "C126_number", "C126_furthest", "C126_furthest_string", "C126_last_alternative", "C126_last_character", "C126_furthest_refuted"], "note": "C126_true is the first half for all grammars (C126_derived: strings, character sets, choices and sequences are such grammars; C126_number: numbers). The second half (furthest place) holds for parsers without alternatives and repetitions (C126_furthest, C126_furthest_string) and is false in general (C126_furthest_refuted): 'ab' or 'x' on the text 'ac' reports \"Expecting 'x'. Got 'a'\" about the first character. C126_last_alternative and C126_last_character say what is reported instead: the error of the last alternative only, so any_of names only its last character."},
  {"property": "C127", "status": "partial", "theorems": ["C127_stack", "C127_curry", "C127_computation", "C127_async", "C127_tailrec_idle", "C127_tailrec_curry", "C127_catch_async", "C127_async_like", "C127_catch_inside", "C127_order_refuted"], "note": "Proved for one order: curry outermost (C127_curry, over anything), then catches, then effect.result, then tailrec innermost (C127_stack; C127_computation for generators; C127_async for tailrec_async under effect.async_result). False of the other orders (C127_order_refuted), which C127_tailrec_idle, C127_tailrec_curry, C127_catch_async and C127_catch_inside describe: tailrec over catch returns Ok(TailCall(...)), catch over an async function returns Ok of a coroutine that nobody has run, catch over curry returns Ok of a function, effect.result over catch nests Results and never runs generators. Keyword arguments, async generators and awaiting a coroutine twice are not in this model."},
  {"property": "C128", "status": "partial", "theorems": ["C128_option", "C128_result", "C128_async", "C128_cleanup_once", "C128_cleanup_once_async", "C128_own_exceptions_partial", "C128_swallowed_refuted"], "note": "Partial because a short circuit is an EffectError, which is an Exception (error.py:4): except Exception or a bare except around a yield from Nothing catches it and the expression goes on to a value, and a return in finally or a suppressing with discards it (C128_swallowed_refuted). Proved in full: the call agrees with the meaning of the body for all four builders (C128_option, C128_result, C128_async), cleanup exactly once (C128_cleanup_once, _async), and except clauses that do not name EffectError or a base class leave short circuits alone (C128_own_exceptions_partial). Bodies with while loops are covered by C47 and C51 as arbitrary generators, not here."},
  {"property": "C129", "status": "partial", "theorems": ["C129_other_exceptions_partial", "C129_effect_errors_refuted", "C129_pick_refuted", "C129_change_refuted", "C129_traverse_refuted", "C129_leftmost"], "note": "Partial because _send catches every EffectError that leaves the body (builder.py:74-77, async_builder.py:81-84), not only its own: a call that raises EffectError(Nothing) makes the decorated function return Nothing, an effect.result one as well (C129_effect_errors_refuted), which Map.pick without a match (C129_pick_refuted) and Map.change (C129_change_refuted) do; traverse gives Nothing when its function raises it (C129_traverse_refuted with C129_leftmost: the exact outcome). Every other exception propagates, for all four builders (C129_other_exceptions_partial). EffectErrors with another argument, of iterating an Error and of ResultException, are taken likewise (NFail in Model/Builder.v) but have no theorem of their own."},
  {"property": "C130", "status": "partial", "theorems": ["C130_decorate_partial", "C130_decorated_exists", "C130_none_refuted", "C130_yields_refuted"], "note": "Partial because zero() of effect.option is Nothing: a helper that returns None ends the whole expression with Nothing once it is decorated (C130_none_refuted), and one that yields and returns nothing gives its last yielded value instead of None (C130_yields_refuted). Proved for helpers that return values other than None, short circuit or raise, also for helpers of effect.result that return None and yield nothing, in bodies that return a value other than None, short circuit or raise (C130_decorate_partial); helpers in which another call raises EffectError are C129. Every helper has a decorated form (C130_decorated_exists)."},
  {"property": "C131", "status": "partial", "theorems": ["C131_same", "C131_calls", "C131_maps", "C131_appends_partial", "C131_linear_refuted", "C131_async_same", "C131_async_calls", "C131_async_appends_partial"], "note": "Partial because append does not flatten: n elements appended one by one are iterated with n*(n+5)/2 calls of next(), against n+2 when they are appended at once (C131_appends_partial), so no constant times elements and operations is enough (C131_linear_refuted). Proved: that counting changes nothing for all chains, callbacks and exceptions (C131_same), the exact number of calls for callbacks that answer whatever the state and do not raise (C131_calls: the lengths of all intermediate results and one for each, less only when there is a take), and (n+1)*k calls for n elements through k maps (C131_maps); the same counts hold for async sequences (C131_async_same, C131_async_calls), whose append does not flatten either (C131_async_appends_partial). Not counted: the calls of the lists that append, choose and collect are given, and the second generator of Seq.__iter__ around each result, which is asked as often as the result itself."},
  {"property": "C132", "status": "partial", "theorems": ["C132_same", "C132_len", "C132_iteration", "C132_next", "C132_equality", "C132_to_list_refuted", "C132_hash_refuted", "C132_removals_refuted"], "note": "Partial because three parts are false of the code. to_list prepends to a Block, which copies it: n*(n+1) references for every map of n bindings (C132_to_list_refuted). hash shifts an integer that grows by two bits for every binding: more than 2*n*n bits are written when the hashes are not negative (C132_hash_refuted). After removals the tree can be a path (C08), and then making an iterator alone copies more than n*n references (C132_removals_refuted). Proved: counting changes nothing (C132_same), len costs at most 2n+1 calls (C132_len), iterating n times the depth and n*log n for maps built without removals (C132_iteration), one step the square of the depth (C132_next), == the sum for both maps (C132_equality). Counted are calls and references copied by Block operations, not the resumption of generators or what comparing items costs."},
  {"property": "C133", "status": "partial", "theorems": ["C133_at_most_once", "C133_order", "C133_returned_partial", "C133_all_released", "C133_no_deadlock", "C133_returned_refuted", "C133_failed_refuted"], "note": "Proved: at most once (C133_at_most_once), in order (C133_order), started when a call has returned (C133_returned_partial), each action run once to its end when all calls have returned (C133_all_released), and a call that is not over waits for its own action only (C133_no_deadlock). False: a call returns while another call still waits for an action (C133_returned_refuted), and an action that raised or was cancelled is never run again, whatever happens later, while later calls pass it and return (C133_failed_refuted). C65 is the case of one task, with the effects of the actions."},
  {"property": "C134", "status": "partial", "theorems": ["C134_calls_partial", "C134_missing_partial", "C134_plain", "C134_quiet", "C134_zero_refuted", "C134_delay_refuted", "C134_signal_refuted", "C134_handled", "C134_handled_stop"], "note": "Proved for builders whose methods log their calls with the arguments and may raise any exception but StopIteration (StopAsyncIteration) and EffectError, over any builder with left unit and eager delay: the exact list of calls (C134_calls_partial), the cut at the first call that raises (C134_missing_partial), bodies without yield (C134_plain), and agreement with the model of C105 (C134_quiet). Refuted: zero is called before every generator body, so a class without zero cannot be used at all (C134_zero_refuted); delay is given a value that is computed already and delays nothing (C134_delay_refuted); a StopIteration raised by a method ends the call quietly with the result so far (C134_signal_refuted). A bind that handles an exception: after an exception of return_ AsyncBuilder does not resume the body again, while Builder goes on with it (C134_handled); a StopIteration ends both (C134_handled_stop)."},
  {"property": "C135", "status": "partial", "theorems": ["C135_next", "C135_send", "C135_early", "C135_released_partial", "C135_throw_refuted", "C135_finally_refuted"], "note": "Proved: with next() alone it is the iterator of C119 and C120 (C135_next), what is sent does not matter (C135_send), values sent too early (C135_early), and throw, close and the end release everything, for every sequence of operations (C135_released_partial; throw of StopIteration excluded). Refuted: throw never comes to the generator that is iterated, it is closed instead (C135_throw_refuted), and exceptions of finally blocks are lost (C135_finally_refuted), because the iterator is a generator expression and not yield from. References kept by tracebacks are not modelled; the objects that filter, scan and zip give have none of these methods."},
  {"property": "C136", "status": "partial", "theorems": ["C136_ended", "C136_answered_partial", "C136_waits_refuted", "C136_accepts_refuted"], "note": "Proved for all bodies, threads and interleavings: an ended agent handles nothing more (C136_ended), and a request answered before with something other than None has its answer once nothing goes on (C136_answered_partial). Refuted for the others, and for all of them: whatever happens after the end, an unanswered request completes only if its caller gives up (C136_waits_refuted), post is accepted as before, and what is posted stays in the queue for as long as the mailbox exists, all but one message (C136_accepts_refuted; the second part for requests made on the loop's thread). Not modelled: post raises RuntimeError once the event loop itself is closed."},
  {"property": "C137", "status": "proved", "theorems": ["C137_bodies", "C137_order", "C137_all", "C137_fifo", "C137_chain"], "note": "Proved for all bodies and all interleavings: C137_bodies, C137_order (what an agent got is an initial part of the posts to it), C137_fifo (between each pair of agents), C137_all and C137_chain (at the end everything, when nothing was cancelled). Requests (post_and_async_reply) from outside are on the loop's thread, as in C66; requests between agents are in C139; agents on different event loops are not modelled."},
  {"property": "C138", "status": "proved", "theorems": ["C138_bounded", "C138_mailbox", "C138_not_stuck", "C138_agent", "C138_delivers", "C138_prompt", "C138_requests", "C138_answers", "C138_net", "C138_chain_forward", "C138_chain", "C138_prompt_needed"], "note": "Proved for all executions: C138_bounded (at most 13 steps per call), C138_mailbox, C138_agent and C138_net (accessibility: no infinite run of steps, and a run to rest exists), C138_delivers and C138_chain (what has been delivered at any rest). Bodies must be prompt (C138_prompt gives the usual ones, C138_prompt_needed shows that the condition is needed) and nets acyclic; two agents that answer each other's posts for ever do not come to rest. C138_not_stuck: no deadlock, whichever threads process events, and at rest every call has returned. C138_requests and C138_answers: requests to an agent come to rest and have then been answered (requests on the loop's thread, nobody cancelling, answers other than None, as in C99)."},
  {"property": "C139", "status": "proved", "theorems": ["C139_rest", "C139_good", "C139_passing", "C139_comes_to_rest", "C139_deadlock", "C139_circle"], "note": "Proved for all bodies and all interleavings: C139_rest (at rest everything is answered), C139_good (at any time the answers seen are good ones), C139_comes_to_rest (prompt bodies: no infinite run, and a run to rest exists), C139_passing (agents that pass a part of the work on compute the plain function). The circle: C139_circle (two agents that ask each other), and C139_deadlock shows for all bodies that agents that await one another do so for ever. Requests are made on the loop's thread, no token is cancelled and no task is abandoned."},
  {"property": "C140", "status": "partial", "theorems": ["C140_value", "C140_replied", "C140_seen_partial", "C140_rest_partial", "C140_lock_one_partial", "C140_lock_order_partial", "C140_lock_rest_partial", "C140_lock_all_partial", "C140_pool_seen_partial", "C140_pool_rest_partial", "C140_giveup_refuted", "C140_threads_refuted"], "note": "For every body and any threads: C140_value, C140_replied. For agents that compute their replies message by message, with requests made on the loop's thread and posts from any thread: C140_seen_partial, C140_rest_partial; the lock: C140_lock_one_partial, C140_lock_order_partial, C140_lock_rest_partial, C140_lock_all_partial; permits: C140_pool_seen_partial, C140_pool_rest_partial. Refuted: when a caller that waited gave up, the lock is granted to it all the same and the next waits for ever (C140_giveup_refuted); requests from several other threads can be lost (C140_threads_refuted); a reply None leaves the caller waiting (second part of C140_replied, C99_none_refuted)."},
  {"property": "C141", "status": "partial", "theorems": ["C141_sound", "C141_call_sound", "C141_reads_partial", "C141_round_trip_partial", "C141_decides_partial", "C141_show_injective", "C141_whole_refuted", "C141_deep_refuted"], "note": "C141_sound and C141_call_sound hold for all texts and limits. Within the limits (recursion for many and for the grammar, digits for int): C141_reads_partial, C141_round_trip_partial, C141_decides_partial; C141_show_injective. Refuted: a text of which only the beginning belongs to the grammar is accepted by Parser.__call__ (C141_whole_refuted), and for every size of the stack there is a tree whose text raises RecursionError (C141_deep_refuted)."},
  {"property": "C142", "status": "proved", "theorems": ["C142_table", "C142_table_pure", "C142_counts", "C142_groups", "C142_union", "C142_union_laws", "C142_split"], "note": "C142_table: any functions with effects, against a plain function from keys updated element by element. C142_table_pure, C142_counts, C142_groups; C142_union, C142_union_laws, C142_split. The tables are compared by try_find (keys up to ==)."},
  {"property": "C143", "status": "partial", "theorems": ["C143_sound", "C143_complete", "C143_deterministic", "C143_limits", "C143_replace", "C143_forward", "C143_total", "C143_choice", "C143_left_recursion", "C143_idle_loop", "C143_answers_refuted", "C143_choice_refuted", "C143_safe", "C143_safe_total"], "note": "C143_sound, C143_complete, C143_deterministic, C143_limits, C143_replace, C143_forward, C143_choice and C143_total hold for all grammars; C143_safe and C143_safe_total for those whose functions neither raise nor have effects. Refuted: not every grammar has an answer (C143_answers_refuted; in general C143_left_recursion and C143_idle_loop), and choices may not be swapped (C143_choice_refuted). All errors count as no match here, their texts are not compared; the number parsers have properties of their own."},
  {"property": "C144", "status": "proved", "theorems": ["C144_shortest", "C144_raises", "C144_ends", "C144_goes_on", "C144_stack"], "note": "C144_shortest, C144_raises, C144_ends, C144_goes_on, C144_stack. The neighbour function gives equal keys the same neighbours and always the same ones when it returns. The program is written by a user of the library (Spec/SearchSpec.v)."},
  {"property": "C145", "status": "partial", "theorems": ["C145_parsers", "C145_equivalence", "C145_inside", "C145_choice", "C145_sequence", "C145_unfold", "C145_quiet", "C145_factor", "C145_swap", "C145_rules", "C145_rules_refuted", "C145_factor_right_refuted", "C145_swap_refuted", "C145_factor_effects_refuted"], "note": "The laws are about what grammars say (the relation of C143); C145_parsers carries them to the parsers. C145_equivalence and C145_inside: replacing anywhere inside; C145_choice, C145_sequence, C145_unfold for all functions; C145_quiet, C145_factor, C145_swap for functions without effects; C145_rules. Refuted: C145_rules_refuted, C145_factor_right_refuted, C145_swap_refuted, C145_factor_effects_refuted."},
  {"property": "C146", "status": "proved", "theorems": ["C146_computes", "C146_sound", "C146_total", "C146_unambiguous"], "note": "C146_computes, C146_sound, C146_total, C146_unambiguous. The calculator is a program of the library's user (Spec/CalcSpec.v), compiled to the combinators as in C143; its functions (int of digits, the fold) are pure. Integers are unbounded, as in Python."},
  {"property": "C147", "status": "partial", "theorems": ["C147_sequence", "C147_append", "C147_starmap", "C147_not_iterable", "C147_long_refuted"], "note": "Proved for all lists shorter than the recursion limit (C147_sequence, C147_append, C147_starmap) and for values that cannot be unpacked (C147_not_iterable). False for longer lists (C147_long_refuted): sequence is recursive in the list, so it raises RecursionError when it is called."}
]}
