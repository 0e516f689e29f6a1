{
 "claims": [
  {
   "property": "C01",
   "status": "partial",
   "theorems": [
    "C01_base64_encode",
    "C01_base64_decode",
    "C01_base64_roundtrip_partial",
    "C01_base64_distinct",
    "C01_base64_limits",
    "C01_base64_read",
    "C01_base64_empty_refuted",
    "C01_base64_lenient_refuted",
    "C01_base64_size_refuted"
   ],
   "note": "Writing, reading of all written texts, distinctness, limits and memory safety of reading are proved for everything but the empty text. Refuted: the empty text (written for empty data) is read outside its buffer; several texts give the same bytes, because left-over bits and the character after the first '=' are not looked at; the reported size of a text with padding is more than the text. Not covered: the JSON message the text is put in."
  },
  {
   "property": "C02",
   "status": "proved",
   "theorems": [
    "C02_header_roundtrip",
    "C02_header_decode_no_overread",
    "C02_header_decode_bounded",
    "C02_header_without_init_refuted"
   ],
   "note": "For every header built by header_init; decoding never reads outside the received bytes. The refuted theorem shows what happens without header_init."
  },
  {
   "property": "C03",
   "status": "proved",
   "theorems": [
    "C03_framing",
    "C03_framing_any_prefix",
    "C03_chunking_irrelevant"
   ],
   "note": "All message sequences, all chunkings; also chunk independence for arbitrary bytes from any reader state."
  },
  {
   "property": "C04",
   "status": "partial",
   "theorems": [
    "C04_empty_payload_refuted"
   ],
   "note": "Refuted: every message with an empty payload is lost and the sender is disconnected at its next byte."
  },
  {
   "property": "C05",
   "status": "partial",
   "theorems": [
    "C05_message_roundtrip",
    "C05_message_pieces",
    "C05_wrong_kind",
    "C05_truncation_refuted",
    "C05_unterminated_refuted"
   ],
   "note": "All field sequences round-trip in order and fields of another kind are rejected; refuted: 32-bit getters truncate wider integers, unterminated strings from a peer are read past their end."
  },
  {
   "property": "C06",
   "status": "proved",
   "theorems": [
    "C06_call_metadata",
    "C06_any_payload",
    "C06_bound_tight",
    "C06_no_metadata"
   ],
   "note": "For every payload below the stated size and all three strings; the bound is shown to be tight."
  },
  {
   "property": "C07",
   "status": "partial",
   "theorems": [
    "C07_value_on_wire",
    "C07_value_exact",
    "C07_property_list",
    "C07_unsendable_refuted",
    "C07_length_unchecked_refuted"
   ],
   "note": "Round trip proved for every sendable value tree; NULL string/bytes contents, empty object values, signalling NaN floats and unchecked lengths are refuted. Legacy text-typed values (codes 0-11) are the subject of C102."
  },
  {
   "property": "C08",
   "status": "proved",
   "theorems": [
    "C08_object_on_wire",
    "C08_object_exact"
   ],
   "note": ""
  },
  {
   "property": "C09",
   "status": "proved",
   "theorems": [
    "C09_filter_on_wire",
    "C09_filter_exact"
   ],
   "note": ""
  },
  {
   "property": "C10",
   "status": "proved",
   "theorems": [
    "C10_event_on_wire"
   ],
   "note": ""
  },
  {
   "property": "C11",
   "status": "partial",
   "theorems": [
    "C11_value_roundtrip_partial",
    "C11_values_roundtrip_partial",
    "C11_exact_fill_refuted",
    "C11_long_bytes_refuted"
   ],
   "note": "Round trip for every sequence of encodable values whose total size is not exactly the 64-byte initial allocation; exact fill and byte arrays over 65535 bytes are refuted."
  },
  {
   "property": "C12",
   "status": "partial",
   "theorems": [
    "C12_filter_roundtrip_partial",
    "C12_range_filter_refuted",
    "C12_not_filter_refuted"
   ],
   "note": "Round trip for AND/OR/relation trees not filling the buffer exactly; NOT filters and an AND of two uint32 relations (exactly 64 bytes) are refuted."
  },
  {
   "property": "C13",
   "status": "partial",
   "theorems": [
    "C13_buffer_is_queue_partial",
    "C13_overread_refuted",
    "C13_exact_fill_refuted"
   ],
   "note": "Every read/write sequence behaves as a byte queue while reads ask for no more than was written and do not hit the exact-fill case; both exceptions are refuted."
  },
  {
   "property": "C14",
   "status": "partial",
   "theorems": [
    "C14_numbers_partial",
    "C14_wide_integers_partial",
    "C14_wide_integers_refuted",
    "C14_numbers_antisymmetric_partial",
    "C14_numbers_transitive_partial",
    "C14_nan_refuted",
    "C14_strings",
    "C14_lexicographic_is_strict",
    "C14_bytes_partial",
    "C14_bytes_refuted",
    "C14_datetime_refuted",
    "C14_types",
    "C14_copy_equal_partial",
    "C14_objects_refuted"
   ],
   "note": "Exact order for numbers up to 2^53 and for strings, preorder laws for all non-NaN numbers, copies compare equal for nested values. Refuted: wide integers, NaN, date-times (always 0), objects (not antisymmetric), byte arrays when the first is longer (reads unwritten bytes)."
  },
  {
   "property": "C15",
   "status": "partial",
   "theorems": [
    "C15_text_roundtrip",
    "C15_signed_exact",
    "C15_unsigned_exact_partial",
    "C15_unsigned_refuted",
    "C15_unsigned_in_range",
    "C15_leading_zero_refuted",
    "C15_bytes_refuted"
   ],
   "note": "Round trip for all integers/booleans/strings; exact acceptance for signed types; unsigned types accept out-of-range negatives after white space and 8-bit types read octal (refuted)."
  },
  {
   "property": "C16",
   "status": "proved",
   "theorems": [
    "C16_filter_meaning",
    "C16_reading_unambiguous",
    "C16_integer_filters"
   ],
   "note": "For every expression and value for which the comparisons are defined; for integers up to 2^53 against plain arithmetic relations."
  },
  {
   "property": "C17",
   "status": "proved",
   "theorems": [
    "C17_vector_is_list",
    "C17_removal_keeps_order"
   ],
   "note": "Refinement to lists for every operation history; allocation failure not modelled."
  },
  {
   "property": "C18",
   "status": "proved",
   "theorems": [
    "C18_hashmap_is_map",
    "C18_hashmap_is_map_any_hasher"
   ],
   "note": "Refinement to finite maps for every operation history and every hash function; allocation failure not modelled."
  },
  {
   "property": "C19",
   "status": "proved",
   "theorems": [
    "C19_list_is_list"
   ],
   "note": "Refinement to lists through the heap of nodes for every operation history."
  },
  {
   "property": "C20",
   "status": "partial",
   "theorems": [
    "C20_object_history",
    "C20_set_effect",
    "C20_names_unique",
    "C20_set_same_property_refuted",
    "C20_set_own_value_refuted"
   ],
   "note": "Proved on a heap model with reference counts for every history of sets, references taken and given back (order, uniqueness, latest contents, no use of freed memory, no leak). Refuted: setting again a property the object already contains makes the list cyclic; setting the value just read from the object uses freed memory."
  },
  {
   "property": "C21",
   "status": "partial",
   "theorems": [
    "C21_match_partial",
    "C21_no_alias_refuted",
    "C21_uninitialised_refuted",
    "C21_one_letter_refuted",
    "C21_malformed_refuted",
    "C21_leading_dot_refuted"
   ],
   "note": "Create and match on the byte buffer, for every well-formed name (names, row numbers, aliases, wildcards, with or without a final dot) and every element. Refuted: rows without an alias match any alias (or read an uninitialised variable), one-letter names never match, unclosed brackets are searched beyond the segment, a leading dot makes the release free a wild pointer."
  },
  {
   "property": "C22",
   "status": "partial",
   "theorems": [
    "C22_registry_partial",
    "C22_kept",
    "C22_table_overwrites_refuted"
   ],
   "note": "Lookup equals the registered map after every orderly history (rows only under tables, no element registered on top of a table); kept until overwritten. Refuted without orderliness: registering a table after its content drops the content."
  },
  {
   "property": "C23",
   "status": "partial",
   "theorems": [
    "C23_register_row",
    "C23_unregister_row",
    "C23_names_unique",
    "C23_alias",
    "C23_no_dot_refuted",
    "C23_unregister_any_refuted",
    "C23_not_a_table_refuted"
   ],
   "note": "Row registration is exact and its removal restores the state, removal is exact, names stay unique, alias and number agree, for dotted table names and tables without a get handler. Refuted otherwise: missing trailing dot adds the row twice, any element can be removed as a row, adding a row below a non-table is undefined."
  },
  {
   "property": "C24",
   "status": "partial",
   "theorems": [
    "C24_lookup_partial",
    "C24_partial_path_partial",
    "C24_taken_partial",
    "C24_placeholder_lookup_refuted",
    "C24_left_table_refuted",
    "C24_reregister_refuted",
    "C24_accepted_refuted"
   ],
   "note": "Exact lookups equal the registrations that serve the name, for all histories in which the accepted names are used consistently (no placeholder beside a literal), removals are literal and names fit the buffers; trailing-dot lookups for histories without topic removal. Refuted in general: a lookup with a placeholder over literal children is misrouted; a name under which a table existed stays unfindable after the table's owner left; a free name is refused as duplicate while something below it is registered."
  },
  {
   "property": "C25",
   "status": "partial",
   "theorems": [
    "C25_buffers",
    "C25_operations_partial",
    "C25_validated_refuted",
    "C25_lookup_refuted"
   ],
   "note": "Exact condition for parsing to stay inside the two buffers (at most 32 parts, at most 512 bytes with terminators), and no operation on names that satisfy it leaves them. Refuted: the registration check admits 512 bytes or 33 parts, and lookups, removals and partial-path resolution are not checked at all."
  },
  {
   "property": "C26",
   "status": "partial",
   "theorems": [
    "C26_gone",
    "C26_others_partial",
    "C26_partial_paths_partial",
    "C26_exempt_name_refuted",
    "C26_clients_partial"
   ],
   "note": "After a route is removed no exact lookup gives it, for every history that uses routes the way the broker does; the other routes are found as before when names are used consistently (also for trailing-dot lookups without topic removals). Refuted for the exempt advisory topic registered twice by one route."
  },
  {
   "property": "C27",
   "status": "partial",
   "theorems": [
    "C27_dispatch_partial",
    "C27_undeliverable_partial",
    "C27_answer_refuted"
   ],
   "note": "Proved for every consistent history (names requested by clients do not mix a placeholder with other names at the same place, names taken back are literal, the advisory name is not an alias) and topics that fit the broker's buffers: what dispatch delivers is exactly what the list of registrations says, and a request nobody serves produces one undeliverable response with its sequence number. Sockets always accept in the model. Refuted: a subscribe request whose reply topic is one of the broker's own names makes it read through NULL."
  },
  {
   "property": "C28",
   "status": "partial",
   "theorems": [
    "C28_matching_partial",
    "C28_ownership_partial",
    "C28_discarded",
    "C28_completes",
    "C28_safe_partial",
    "C28_timeout_refuted",
    "C28_leak_refuted"
   ],
   "note": "Proved for every interleaving of the callers, the reader and their timeouts: a call is given only a response with its own sequence number, responses are matched at most once, each is given to one call, freed or discarded, and a response to nobody is discarded. Sequence numbers must not wrap while calls are pending. Nested requests made from the reader thread, reconnecting and closing are not modelled. Refuted: a call that times out leaves the list without the lock, so the reader can write to its dead frame, and a response that arrives at the deadline can leak."
  },
  {
   "property": "C29",
   "status": "proved",
   "theorems": [
    "C29_order",
    "C29_lost",
    "C29_handled"
   ],
   "note": "For every interleaving of application calls with the reader and callback threads: callbacks get accepted messages in arrival order, each at most once; a message is refused only when 26 are waiting; a handled message reaches a callback unless no listener has its id. Reconnecting and closing are not modelled."
  },
  {
   "property": "C30",
   "status": "partial",
   "theorems": [
    "C30_listeners_partial",
    "C30_capacity",
    "C30_duplicate_refuted",
    "C30_counter_refuted",
    "C30_removed_refuted"
   ],
   "note": "The listener table is the finite map of the specification as long as no id and no expression is added while it is active: results, messages to the broker, active listeners and dispatch. The capacity is respected without condition. Refuted: an active id can be added again (by the caller, or by the counter when the caller used 10000), and then the second listener is never called; a callback can start after its removal returned."
  },
  {
   "property": "C31",
   "status": "partial",
   "theorems": [
    "C31_registry_partial",
    "C31_nan_refuted"
   ],
   "note": "Every reachable registry (requests, rows added and deleted, providers restarting, disconnections), for filters whose constants are strings or numbers a double can hold: keys are distinct, a subscribe that succeeds adds exactly its key, one with a held key is refused, an unsubscribe that succeeds removes exactly its key, failures change nothing, and requests the element takes and the handler accepts succeed. Requests are served one at a time; raw subscriptions to elements that are not events are excepted (C57). Refuted with NaN in a filter: accepted again and again, cannot be ended."
  },
  {
   "property": "C32",
   "status": "partial",
   "theorems": [
    "C32_others",
    "C32_gone_partial",
    "C32_remaining_refuted",
    "C32_freed_refuted"
   ],
   "note": "Other consumers' subscriptions always stay; the consumer's own are all removed when they have no filter, interval, duration or raw flag, their names still lead to elements and the handlers accept. Refuted: subscriptions with a filter or interval stay, and an unfiltered one behind them is freed and then used. A provider without direct connections is never told that a consumer went (C103)."
  },
  {
   "property": "C33",
   "status": "partial",
   "theorems": [
    "C33_row_partial",
    "C33_untouched_partial",
    "C33_wildcard_refuted",
    "C33_unrelated_refuted",
    "C33_freed_refuted"
   ],
   "note": "Exact outcome in every reachable registry without stale elements: the registry is cut before the first subscription that matches an element of the deleted row; when none does nothing changes. Refuted: wildcard subscriptions end with the first row that goes, so does everything subscribed later, and a subscription to the rows of a nested table survives with a dangling element that the next added row uses."
  },
  {
   "property": "C34",
   "status": "partial",
   "theorems": [
    "C34_restore_partial",
    "C34_truncated_partial",
    "C34_prefix_refuted",
    "C34_uninitialised_refuted",
    "C34_long_name_refuted",
    "C34_not_filter_refuted",
    "C34_synced_partial",
    "C34_stale_refuted",
    "C34_number_refuted"
   ],
   "note": "Proved: for every list of subscriptions within the name limits and every set of listeners still present, loading what was saved gives exactly the saved subscriptions (minus those whose listener has gone) and re-saves what was loaded; for every truncation point, a load that does not read uninitialised memory yields exactly the subscriptions of an initial segment; in every history without re-subscription the file holds exactly the registry. Refuted: a file cut at a subscription boundary is partially trusted; other cuts read uninitialised memory; names of 255 bytes and negation filters are saved but abort the load; a refused re-subscription leaves a stale file; restored subscriptions are renumbered and numbers collide. Not covered: arbitrary corruption of bytes other than truncation."
  },
  {
   "property": "C35",
   "status": "partial",
   "theorems": [
    "C35_publish_partial",
    "C35_raw_partial",
    "C35_raw_error_refuted"
   ],
   "note": "Exact list of messages of a publish in every reachable registry without stale elements; whether a subscription is one of the element's is decided by its name (C21). Success means every send succeeded. Raw publishing likewise. Refuted: errors of raw direct sends are overwritten."
  },
  {
   "property": "C36",
   "status": "partial",
   "theorems": [
    "C36_crossing_partial",
    "C36_alternation_partial"
   ],
   "note": "Every set of subscribers: exactly those whose filter changes its truth value are sent the event, with the new truth value; over any run of integer values what a subscriber is told is the sequence of turns, alternates and ends with the current truth. Filters must be comparable with the values (C16). Element references must not be stale (C33)."
  },
  {
   "property": "C37",
   "status": "partial",
   "theorems": [
    "C37_data_partial",
    "C37_leak_refuted"
   ],
   "note": "Everything except the property \"filter\" is that of the event, and \"filter\" is right for subscribers that have one. Refuted: unfiltered subscribers behind a filtered one are sent its truth value."
  },
  {
   "property": "C38",
   "status": "partial",
   "theorems": [
    "C38_chain_partial",
    "C38_running_partial",
    "C38_shared_object_refuted",
    "C38_datetime_refuted",
    "C38_wide_refuted",
    "C38_nan_refuted",
    "C38_bytes_refuted",
    "C38_freed_refuted"
   ],
   "note": "Proved over every interleaving of additions, removals, closings and polls: for every node the events are exactly one per read whose number or string differs from the current one, carrying exactly these two values, none otherwise and none while it is not watched; the polling thread runs exactly while something is watched. Conditions: values are strings or numbers a double can hold, providers do not modify a value object they handed out, additions of one node do not overlap its removal. Each condition is necessary: refuted for shared value objects, date-times, wide integers, NaN (an event at every poll) and byte strings (out of bounds read); closing one handle while another adds uses freed memory."
  },
  {
   "property": "C39",
   "status": "partial",
   "theorems": [
    "C39_events_partial",
    "C39_stopped_partial",
    "C39_times_partial",
    "C39_unsubscribe_refuted",
    "C39_overflow_refuted"
   ],
   "note": "Proved for every interval of 1 to 2147483 seconds, every duration and every pattern of failing reads: exactly floor(d/i) events at the times of the successful reads, then one completion event at the next successful read, then the thread ends; with duration 0 it never completes; a stopped thread publishes nothing after the turn that sees the flag. Refuted: larger intervals overflow; the stop signal itself makes the thread publish one extra, early event."
  },
  {
   "property": "C40",
   "status": "partial",
   "theorems": [
    "C40_unsubscribe_partial",
    "C40_complete_refuted",
    "C40_subscribe_refuted"
   ],
   "note": "Proved for any number of threads serving any mix of requests, publishing threads and polling threads, under every schedule: no reachable state is stuck and every schedule finishes all threads, provided no duration completes, no poll finds a change and no set handler publishes. Refuted: unsubscribing (or subscribing with an interval) while a duration completes blocks both threads for ever."
  },
  {
   "property": "C41",
   "status": "partial",
   "theorems": [
    "C41_once_partial",
    "C41_round_partial",
    "C41_wakeup_partial",
    "C41_uninitialised_refuted",
    "C41_withdraw_refuted",
    "C41_close_refuted",
    "C41_timeout_refuted"
   ],
   "note": "Proved for every sequence of additions, removals, closes, answers and clock steps whose outcome is defined: at most one callback, with the result of the definitive last answer, paced retries, progress of every round, no oversleeping. Refuted: a failure without provider error reads an unset variable; withdrawing while the request is under way is a use after free; closing a handle withdraws only one pending subscription; the timeout argument is ignored (the handle's timeout is used)."
  },
  {
   "property": "C42",
   "status": "partial",
   "theorems": [
    "C42_schedule_partial",
    "C42_default_partial",
    "C42_negative_partial",
    "C42_fraction_refuted",
    "C42_overflow_refuted"
   ],
   "note": "Proved for every timeout of whole seconds up to 2147483 and every sequence of answers (plan of waits, total, termination); for the handle's timeout in whole seconds. Refuted: the fraction of a second of a handle timeout is not slept; a timeout from 2147484 s on overflows. The time the requests themselves take is not modelled."
  },
  {
   "property": "C43",
   "status": "partial",
   "theorems": [
    "C43_success_partial",
    "C43_failure_partial",
    "C43_async_partial",
    "C43_dirty_refuted",
    "C43_raw_refuted",
    "C43_undo_lost_refuted",
    "C43_uninitialised_refuted",
    "C43_async_refuted"
   ],
   "note": "Proved after every fair history: success makes the whole list active and accepted by its providers; failure leaves what is active unchanged, and when no reply is lost and the undoing requests are accepted also what the providers hold; asynchronous lists become pending as a whole or not at all. Refuted: a list naming a subscription withdrawn while the provider was away; raw data lists (never undone); a lost undoing request; a provider that answers ALREADY_EXIST (unset fields are read); asynchronous undo with a withdrawn entry."
  },
  {
   "property": "C44",
   "status": "partial",
   "theorems": [
    "C44_broker_partial",
    "C44_success_partial",
    "C44_duplicate_partial",
    "C44_component",
    "C44_visible_refuted",
    "C44_late_refuted",
    "C44_others_refuted"
   ],
   "note": "Proved on the broker model and the component's tree together: after a failed call whose requests were answered or never arrived, no message goes to anybody it did not go to before, and with nothing registered below the listed names the broker behaves exactly as before; success adds exactly the listed names; taken names make the call fail. Refuted: the elements stay visible in the component (C44_visible_refuted, C44_component gives the exact tree), a late answer leaves the failing element registered, and the rollback withdraws other components' elements below a listed name."
  },
  {
   "property": "C45",
   "status": "partial",
   "theorems": [
    "C45_success",
    "C45_restored_partial",
    "C45_frame",
    "C45_missing_refuted",
    "C45_unwritable_refuted",
    "C45_duplicate_refuted",
    "C45_writeonly_refuted",
    "C45_unread_refuted"
   ],
   "note": "Proved for every request: what an accepted request does, and that a refused one touches only what it names. A refused request leaves everything as it was if the parameters are distinct, exist, are writable, can be read, reading works and the old values are accepted. Refuted when a parameter is missing or not writable, named twice, write-only, or when reading its value fails."
  },
  {
   "property": "C46",
   "status": "partial",
   "theorems": [
    "C46_success_partial",
    "C46_requests",
    "C46_failure_partial",
    "C46_two_partial",
    "C46_three_refuted",
    "C46_lost_refuted",
    "C46_unreachable_refuted",
    "C46_named_refuted"
   ],
   "note": "Proved: one request per component with its parameters in order, for every environment; success means every component accepted when every request is answered; exact result of a failure with well-behaved handlers: nothing changed with up to two components. Refuted: a third component (only the last component's values are remembered), a lost request forgotten or not undone, failing name not reported after the first component."
  },
  {
   "property": "C47",
   "status": "partial",
   "theorems": [
    "C47_requests",
    "C47_result_partial",
    "C47_complete_partial",
    "C47_one_partial",
    "C47_forgotten_refuted",
    "C47_wildcard_refuted"
   ],
   "note": "Proved: the requests, for every environment; the exact result without wildcards when every request is answered; completeness when all can be read or one component owns all. Refuted: a component's error is overwritten by a later success; a wildcard hides the other parameters of its component."
  },
  {
   "property": "C48",
   "status": "partial",
   "theorems": [
    "C48_sessions",
    "C48_one_at_a_time",
    "C48_stale_close_refuted",
    "C48_close_zero"
   ],
   "note": "Proved for every history; refuted: since every session has the same id, a late close by the former holder ends the session of another component."
  },
  {
   "property": "C49",
   "status": "partial",
   "theorems": [
    "C49_ids_unique",
    "C49_lookup_partial",
    "C49_open",
    "C49_lookup_refuted"
   ],
   "note": "Ids of open components are distinct in every history and lookups of known ids are right; refuted: an unknown id resolves to the most recently opened component."
  },
  {
   "property": "C50",
   "status": "partial",
   "theorems": [
    "C50_destroy_once_partial",
    "C50_serialized_safe_partial",
    "C50_concurrent_release_refuted"
   ],
   "note": "Threads and schedules are arbitrary; at most one destruction, only after the last release, and exactly one when all have returned - in runs that touch no freed memory, which holds when releases do not overlap. Refuted: two overlapping releases read the freed counter."
  },
  {
   "property": "C51",
   "status": "partial",
   "theorems": [
    "C51_once",
    "C51_drained_partial",
    "C51_limit_partial",
    "C51_stop",
    "C51_limit_refuted",
    "C51_stranded_refuted",
    "C51_create_refuted",
    "C51_stopped_refuted",
    "C51_stop_refuted"
   ],
   "note": "Proved for every schedule: order and at-most-once execution, accounting of stopped tasks. Every task is executed within a bounded number of worker steps if no submission falls in the time-out window of a worker, thread creation succeeds and the pool is not stopped; the limit holds if no submission falls between the creation and the start of a worker. Refuted otherwise: unlimited threads, stranded task, ignored pthread_create failure, submission after stop, stop that does not wait."
  },
  {
   "property": "C52",
   "status": "partial",
   "theorems": [
    "C52_posts_accounted",
    "C52_single_wait_partial",
    "C52_spurious_refuted",
    "C52_stolen_wakeup_refuted"
   ],
   "note": "Every interleaving, with timeouts and spurious wakeups; posts are never lost or taken twice; for a single wait success implies a post. Refuted in general: a spurious or overtaken wakeup reports success without a post."
  },
  {
   "property": "C53",
   "status": "partial",
   "theorems": [
    "C53_later_adds_exactly",
    "C53_elapsed_is_floor",
    "C53_elapsed_later_partial",
    "C53_compare_chronological",
    "C53_elapsed_later_refuted"
   ],
   "note": "Exact for every duration below 2^31 ms; refuted from 2^31 ms on, where the int result wraps."
  },
  {
   "property": "C54",
   "status": "partial",
   "theorems": [
    "C54_connections",
    "C54_teardown_partial",
    "C54_teardown_refuted"
   ],
   "note": "Both ends of direct connections; every history leaves one entry per parameter. Teardown on exit terminates exactly when all connections lead to one provider; with two providers it never ends (refuted)."
  },
  {
   "property": "C55",
   "status": "partial",
   "theorems": [
    "C55_history",
    "C55_balance",
    "C55_requests_dispatched_partial",
    "C55_unregister_silent_refuted",
    "C55_requests_dispatched_refuted"
   ],
   "note": "Provider side of rbuscore (objects, methods, events, listeners, override handler) as a transition system; every step of every history agrees with a specification in terms of who listens; 'added' minus 'removed' equals reachability by publish while the event stays registered. Refuted: unregistering an event tells nobody; with 31 methods registration reports success although unsubscribe requests are not handled."
  },
  {
   "property": "C56",
   "status": "partial",
   "theorems": [
    "C56_balanced_partial",
    "C56_refuted"
   ],
   "note": "While requests the handler accepts succeed, the history it sees replays to the registry. Refuted: the handler is asked before the registry is, so it accepts a duplicate that is then refused and the end of a subscription that never was; subscriptions ended by row deletion are not reported to it."
  },
  {
   "property": "C57",
   "status": "partial",
   "theorems": [
    "C57_unchanged_partial",
    "C57_raw_refuted",
    "C57_abort_refuted"
   ],
   "note": "Registry, links, watched properties, timers and cache file unchanged by every failed request, except raw subscriptions to elements that are not events. Refuted there: refused but kept, and then impossible to end. Subscribing to a property without get handler aborts the provider."
  },
  {
   "property": "C58",
   "status": "partial",
   "theorems": [
    "C58_others_partial",
    "C58_others_names_refuted",
    "C58_dangling_refuted",
    "C58_own_partial",
    "C58_others_client_refuted"
   ],
   "note": "Withdrawing a name removes it and what lies below and changes no other exact lookup. Refuted: the names below may belong to other routes, and topics above keep a pointer to a freed route."
  },
  {
   "property": "C59",
   "status": "partial",
   "theorems": [
    "C59_reader_memory_safe_partial",
    "C59_short_header_refuted",
    "C59_huge_payload_refuted",
    "C59_small_buffer_refuted"
   ],
   "note": "Holds for the 64 KB buffer and streams that never announce a header below 22 bytes or a payload near 2 GB; refuted otherwise (three concrete attacks)."
  },
  {
   "property": "C60",
   "status": "partial",
   "theorems": [
    "C60_reopen_after_close_refuted",
    "C60_reopen_after_close_partial"
   ],
   "note": "Proved when the provider confirms the close; refuted otherwise: an unconfirmed close leaves the entry, and the parameter cannot be opened again."
  },
  {
   "property": "C61",
   "status": "partial",
   "theorems": [
    "C61_open_safe_partial",
    "C61_reopen_refuted"
   ],
   "note": "Proved for histories in which no reopen of an already open component fails; refuted otherwise: a second open of the same component while the broker is down frees the shared handle twice."
  },
  {
   "property": "C62",
   "status": "partial",
   "theorems": [
    "C62_row_partial",
    "C62_prefix_refuted"
   ],
   "note": "Proved for rows whose name begins no subscription's event name. Refuted: adding row 1 subscribes the subscribers of row 10 again, under an id they do not know, or loses them when the handler refuses."
  },
  {
   "property": "C63",
   "status": "partial",
   "theorems": [
    "C63_by_partial",
    "C63_by_refuted"
   ],
   "note": "Proved for every history: the 'by' field is the component that last set the node through the bus, or the provider if none ever did. Refuted: after one set through the bus every later provider-side change is still attributed to that component."
  },
  {
   "property": "C64",
   "status": "partial",
   "theorems": [
    "C64_progress_partial",
    "C64_poll_refuted",
    "C64_handler_refuted"
   ],
   "note": "Same general progress theorem as C40. Refuted: a poll that finds a changed value and a subscribe or unsubscribe for any property of the same handle take the detector mutex and the subscription mutex in opposite orders and block for ever; so do a set handler that publishes and a subscription to the same property."
  },
  {
   "property": "C65",
   "status": "partial",
   "theorems": [
    "C65_view_partial",
    "C65_delivery_partial",
    "C65_refused_partial",
    "C65_accepted_partial",
    "C65_withdrawn_refuted",
    "C65_pending_refuted"
   ],
   "note": "Proved for every history in which filters are ordinary, no provider answers ALREADY_EXIST and no refused request is for a subscription withdrawn while its provider was away: the view, exact delivery, refusal without request, acceptance with one request. Refuted: the handler of a withdrawn subscription runs while the provider cannot be reached; pending requests that differ in interval only exclude each other."
  },
  {
   "property": "C66",
   "status": "partial",
   "theorems": [
    "C66_freed_partial",
    "C66_twice_refuted",
    "C66_started_refuted"
   ],
   "note": "Proved for every schedule: a pool that was shut down is freed once nothing can go on (no leak). Refuted: double free by the destroying thread and the last worker; a worker that has not run yet uses the freed pool."
  },
  {
   "property": "C67",
   "status": "partial",
   "theorems": [
    "C67_set",
    "C67_get_partial",
    "C67_several_refuted"
   ],
   "note": "Proved for set calls (also restoring), for rbus_get and for one wildcard query. Refuted for rbus_getExt with several parameters: every provider is told its own name."
  },
  {
   "property": "C68",
   "status": "partial",
   "theorems": [
    "C68_result_partial",
    "C68_incomplete_refuted",
    "C68_released_refuted",
    "C68_stale_refuted"
   ],
   "note": "Proved when the first component has something for the query. Refuted: a failing component after the first is not reported; when the first component has nothing the result was already released (and further parts are added to it); when the first component fails the result depends on the caller's uninitialised variable."
  },
  {
   "property": "C69",
   "status": "partial",
   "theorems": [
    "C69_partial_path_partial",
    "C69_instance",
    "C69_missing",
    "C69_once",
    "C69_single",
    "C69_star_refuted",
    "C69_below_property_refuted"
   ],
   "note": "Proved for every data model and every query without a star: exact answers, order, names (also below tables with their own get handler), each once, same value when asked singly. Missing: names of 256 bytes and more. Refuted: a star after the last dot below a table with its own get handler makes the walk loop forever; properties below a property are left out."
  },
  {
   "property": "C70",
   "status": "partial",
   "theorems": [
    "C70_rows",
    "C70_failure",
    "C70_refused",
    "C70_own_handler_refuted",
    "C70_one_bad_refuted"
   ],
   "note": "Proved for every data model, any number of stars and every row order. Refuted for a table with its own get handler (nothing is returned though rows can be read) and compared with partial paths (one unreadable property makes the whole query fail)."
  },
  {
   "property": "C71",
   "status": "partial",
   "theorems": [
    "C71_exact",
    "C71_partial",
    "C71_missing_refuted",
    "C71_lost_refuted"
   ],
   "note": "C71_exact gives the answer for every list of plain names; C71_partial: it is right if all elements are served by equally many components. Missing: an element nobody serves empties the whole answer with success (C71_missing_refuted), and a lost request is reported as success (C71_lost_refuted)."
  },
  {
   "property": "C72",
   "status": "partial",
   "theorems": [
    "C72_partial",
    "C72_name",
    "C72_own_name_refuted",
    "C72_namesake_refuted"
   ],
   "note": "Proved for every history over consistent names and every component name. The component's own name is listed too (C72_own_name_refuted), and of two components of one name only the first is looked at (C72_namesake_refuted)."
  },
  {
   "property": "C73",
   "status": "partial",
   "theorems": [
    "C73_partial",
    "C73_inbox_refuted"
   ],
   "note": "The list is proved to be exactly the first names of the live subscriptions that do not begin with an underscore; it therefore also has the reply topics of all connected processes (C73_inbox_refuted)."
  },
  {
   "property": "C74",
   "status": "partial",
   "theorems": [
    "C74_partial",
    "C74_withdrawn_refuted",
    "C74_element_refuted"
   ],
   "note": "Proved for histories in which names are withdrawn only with their whole subscription. A single withdrawn element leaves the component listed (C74_withdrawn_refuted); queries ending in an element name find nobody (C74_element_refuted)."
  },
  {
   "property": "C75",
   "status": "partial",
   "theorems": [
    "C75_watched",
    "C75_exact_partial",
    "C75_timer_partial",
    "C75_row_refuted",
    "C75_timer_refuted",
    "C75_empty_refuted"
   ],
   "note": "C75_watched covers all operations; exactness and timers hold only while no row is removed and names keep leading to the same element; three refutations show what row removal and empty tables break"
  },
  {
   "property": "C76",
   "status": "partial",
   "theorems": [
    "C76_reads",
    "C76_cut_off",
    "C76_error_refuted",
    "C76_huge_payload_refuted"
   ],
   "note": "Proved for all message sequences, chunkings, interruptions and cut-off points (C76_reads, C76_cut_off). Refuted: another recv error within a message desynchronises the stream; a header announcing 2^32-1 bytes makes the client write outside its memory."
  },
  {
   "property": "C77",
   "status": "partial",
   "theorems": [
    "C77_sends_partial",
    "C77_short_write_refuted",
    "C77_long_topic_refuted"
   ],
   "note": "Proved when sendmsg takes a message whole or not at all and topics have at most 255 bytes. Refuted: after a short write the whole message is sent again behind the part; longer topics are cut off silently."
  },
  {
   "property": "C78",
   "status": "partial",
   "theorems": [
    "C78_end_to_end_partial"
   ],
   "note": "Proved for one sending program, messages with a payload (C04) that are not for the broker itself, consistent registration histories and plain topics (C27), whole writes (C77)."
  },
  {
   "property": "C79",
   "status": "partial",
   "theorems": [
    "C79_rows_partial",
    "C79_later_partial",
    "C79_errors_partial",
    "C79_no_dot_refuted",
    "C79_no_row_refuted"
   ],
   "note": "Proved for every history of calls with numbers below 2^31 on plain names, from the registration of the table on, without table get handlers. Refuted: a table name without its last dot gives wrong names; a property registered inside a table is shown as row 0."
  },
  {
   "property": "C80",
   "status": "partial",
   "theorems": [
    "C80_elements_partial",
    "C80_one_partial",
    "C80_once",
    "C80_refused",
    "C80_code_refuted",
    "C80_own_table_refuted"
   ],
   "note": "Proved for all trees, depths and lists of components whose names fit (255 bytes), for paths that lead through no table with its own get handler. Refuted: the code is that of the last component only; a table with its own get handler is answered with success and nothing, and rows below it are named {i}."
  },
  {
   "property": "C81",
   "status": "partial",
   "theorems": [
    "C81_call_partial",
    "C81_missing_partial",
    "C81_later_partial",
    "C81_bus",
    "C81_callback",
    "C81_no_params_refuted",
    "C81_timeout_refuted",
    "C81_legacy_refuted",
    "C81_unnamed_refuted"
   ],
   "note": "Proved from the caller's message to the handler and back for orderly registration histories and plain names; errors, missing methods, later answers, timeouts and the asynchronous form are covered. Not covered: aliases and wildcards in method names, tables with get handlers, codes outside the enumeration. Refuted: a later successful answer without out parameters is read beyond its end by the caller; the timeout of an asynchronous call overflows above 2147483 seconds; an unnamed out property of a failing handler is compared with strcmp; the older library's code for success (100) is returned to the caller of a method as it is."
  },
  {
   "property": "C82",
   "status": "partial",
   "theorems": [
    "C82_get_partial",
    "C82_errors_partial",
    "C82_names",
    "C82_bus",
    "C82_many_partial",
    "C82_typed",
    "C82_empty_refuted"
   ],
   "note": "Proved from the caller's request to the handler and back, for plain names, tables without get handlers and handler codes in the enumeration. Not covered: aliases in names, handlers of tables, several destinations of one query (C68). Refuted: the empty name is read at index -1."
  },
  {
   "property": "C83",
   "status": "partial",
   "theorems": [
    "C83_set_partial",
    "C83_errors_partial",
    "C83_refused",
    "C83_stops",
    "C83_bus",
    "C83_empty_refuted"
   ],
   "note": "Proved from the caller's request to the handler and back, for plain names and handler codes in the enumeration. Not covered: aliases in names; requests with rollback are C45 and C46. Refuted: the empty name is read at index -1."
  },
  {
   "property": "C84",
   "status": "partial",
   "theorems": [
    "C84_registers_partial"
   ],
   "note": "Proved by induction over any sequence of reads and sets at one provider. Not covered: values with unnamed or missing parts (they arrive as C07 and C08 say), aliases in names, several providers."
  },
  {
   "property": "C85",
   "status": "partial",
   "theorems": [
    "C85_listeners_partial",
    "C85_shared_refuted",
    "C85_private_refuted",
    "C85_full_refuted",
    "C85_closed_refuted",
    "C85_private_closed_refuted",
    "C85_mixed_refuted"
   ],
   "note": "Proved by refinement to a list of listeners, for histories in which no two listeners of the handle's connection share an expression and no two of one connection an id, a listener is removed with the expression and id it was added with, a connection has at most 128 listeners, queries are about expressions not used on private connections, and removing all listeners comes last. Each of these conditions is shown necessary by a refutation: a context is freed by expression but its slot by id, private contexts are looked for under another name and never freed, a context stays after a failed add, and removing all listeners leaves freed contexts in the list."
  },
  {
   "property": "C86",
   "status": "partial",
   "theorems": [
    "C86_exact_partial",
    "C86_gone_partial",
    "C86_visible_refuted",
    "C86_below_refuted",
    "C86_foreign_refuted"
   ],
   "note": "Proved on the broker model for every consistent history of registrations (as in C27): the exact receivers of every message after the call, nobody for what only listed names served, no change for other messages when nothing is registered below the listed names. Refuted: the component keeps the elements in its own tree, so a query for the path above still calls their handlers; elements of other components below a listed name are withdrawn too; a component can withdraw what another has registered."
  },
  {
   "property": "C87",
   "status": "partial",
   "theorems": [
    "C87_add_partial",
    "C87_add_missing_partial",
    "C87_add_refused",
    "C87_lost",
    "C87_remove_partial",
    "C87_empty_refuted",
    "C87_template_refuted",
    "C87_legacy_refuted"
   ],
   "note": "Proved from the caller's request to the handler and back, for plain names (no aliases or wildcards), tables without get handlers, handler codes below 100 and row numbers not in use. Refuted: the empty table name is read at index -1; removing the row {i} removes the template and the next add aborts the provider; an add handler returning 100 is reported as a success without a row."
  },
  {
   "property": "C88",
   "status": "partial",
   "theorems": [
    "C88_answered_partial",
    "C88_session_partial",
    "C88_lost_answer_refuted",
    "C88_in_use_refuted"
   ],
   "note": "Proved by induction over any sequence of requests that are answered or do not arrive, through the history theorem of C79. Refuted for answers that are lost on the way back and for handlers that answer with a number in use."
  },
  {
   "property": "C89",
   "status": "partial",
   "theorems": [
    "C89_crowd_partial"
   ],
   "note": "Proved by induction over the broker's main loop for any number of senders and any interleaving with consistent registrations. Not covered: registration requests travel outside the byte streams (their JSON parsing is not modelled), a program that leaves while its own bytes are unread, and sends that stop in the middle of a message."
  },
  {
   "property": "C90",
   "status": "partial",
   "theorems": [
    "C90_publish_partial",
    "C90_everyone_partial",
    "C90_subscribe_partial",
    "C90_unsubscribe_partial",
    "C90_lost_refuted",
    "C90_nobody_refuted",
    "C90_refused_refuted"
   ],
   "note": "Proved for histories with one provider whose elements stay, filters with plain constants, handlers that accept unsubscribing, and events other than VALUE_CHANGED (filters: C36, C37) and DURATION_COMPLETE. Refuted: publishing reports success when every message is lost; a process that ends leaves subscriptions with an interval at the provider, so publishing succeeds with nobody subscribed; after a refused unsubscribe the subscriber is told it succeeded, and subscribing again leads to a comparison with fields never set. Not covered: raw data, asynchronous subscribing, several providers."
  },
  {
   "property": "C91",
   "status": "partial",
   "theorems": [
    "C91_initial_partial",
    "C91_silent_partial",
    "C91_error_refuted"
   ],
   "note": "Proved for every reachable state when the get handler succeeds or is missing. Refuted: when it returns an error nothing is written in place of the flag; the subscriber takes the subscription number for it and reads an event past the end of the answer. Not covered: initial values of tables and of names with wildcards."
  },
  {
   "property": "C92",
   "status": "partial",
   "theorems": [
    "C92_request_partial",
    "C92_same_partial",
    "C92_never_opened",
    "C92_closed_partial",
    "C92_safe_partial",
    "C92_reopen_refuted",
    "C92_later_refuted"
   ],
   "note": "Proved for all histories in which names fit their arrays and a consumer opens again only after the provider's thread for its former connection has ended, when the handlers answer at once. Refuted: a consumer that reopens earlier loses its new entry with the old thread and is refused although connected; a handler that answers later (or not at all) makes the provider use an uninitialised response. Parameters closed by everybody are refused only if no consumer failed while connecting. Not covered: several providers, tcp addresses, partial reads (C80, C81 treat the byte streams)."
  },
  {
   "property": "C93",
   "status": "partial",
   "theorems": [
    "C93_event_partial",
    "C93_never_opened",
    "C93_closed_partial",
    "C93_connecting_refuted",
    "C93_gave_up_refuted",
    "C93_freed_refuted",
    "C93_long_refuted"
   ],
   "note": "Proved for all interleavings in which this consumer neither closes the parameter nor ends between the lookup and the sending. Refuted: the item found is used without the lock, so closing in between reads freed memory; while the consumer is still connecting an event is written to descriptor 0; when connecting fails the provider keeps the entry and all later events for that consumer are lost; consumers whose addresses do not fit share one and get each other's events. Not covered: what the consumer does with the event."
  },
  {
   "property": "C94",
   "status": "partial",
   "theorems": [
    "C94_safe_partial",
    "C94_kept_partial",
    "C94_exact_partial",
    "C94_empty_partial",
    "C94_lost_refuted",
    "C94_reassign_refuted",
    "C94_same_refuted",
    "C94_again_refuted",
    "C94_circle_refuted",
    "C94_copy_refuted",
    "C94_parent_refuted"
   ],
   "note": "Proved for all programs that use live handles of the right type, close no circle and do not put back what they are taking out; exactness also needs that no string or bytes are stored over a property or object. Refuted without these: SetString/SetBytes over a property or object lose it; storing back what is stored there (all setters of a counted pointer, rbusObject_SetPropertyValue, rbusObject_SetProperty) uses freed memory when the container has the only reference; setting a property that is already in the object ties its list into a circle; circles are not refused and are never freed; rbusValue_Copy of a property or object fails an assertion; a child's parent pointer dangles. Not covered: several threads (C50), the stack needed by recursive release, out of memory."
  },
  {
   "property": "C95",
   "status": "partial",
   "theorems": [
    "C95_effect_partial",
    "C95_noname_refuted",
    "C95_twice_refuted"
   ],
   "note": "Proved for the calls of C94 in all states careful programs reach. Refuted: properties without a name make SetProperty and the by-name setters read a null pointer; setting a property that carries a list can give the object two properties of one name. Not covered: the getters and iterators (C05, C20 treat some)."
  },
  {
   "property": "C96",
   "status": "partial",
   "theorems": [
    "C96_first_partial",
    "C96_list",
    "C96_not_true",
    "C96_absent",
    "C96_builds_partial",
    "C96_again_refuted",
    "C96_case_refuted",
    "C96_topic_refuted",
    "C96_type_refuted",
    "C96_null_refuted",
    "C96_cut_refuted",
    "C96_index_refuted"
   ],
   "note": "Proved: the first value given to a name (letter case ignored) is read back in its type, lists in order, missing names reported, building is safe when the topic is set once. Refuted: setting again does not change what is read; names differing in case are one field; a second send topic frees memory twice; another type is read as 0, false or null; string-into-buffer and binary reads of a number follow a null pointer; a string as long as the buffer loses its last character; a negative index gives an empty message. Not covered: the JSON library itself (its documented behaviour is assumed), printing and parsing, NaN and infinity."
  },
  {
   "property": "C97",
   "status": "partial",
   "theorems": [
    "C97_one_partial",
    "C97_once",
    "C97_again_partial",
    "C97_exactly_partial",
    "C97_fresh",
    "C97_renewed",
    "C97_gives_up",
    "C97_stale",
    "C97_alias_refuted",
    "C97_socket_refuted",
    "C97_fcntl_refuted",
    "C97_stuck_refuted"
   ],
   "note": "Proved for every interleaving as long as sockets can be had: one thread at a time, one renewal per failure, every listener told again on the new socket (exactly and in order if they do not change, as a fresh connection would), success within the tries, giving up after them. Refuted: aliases (data elements) are not told again; after one failed socket() the listeners are not told again; after a failed fcntl() everybody waits for good; if the broker dies during the telling the thread waits for itself for good. Not covered: the key exchange, and that the table is read without its lock while it is told again."
  },
  {
   "property": "C98",
   "status": "partial",
   "theorems": [
    "C98_reads",
    "C98_writes",
    "C98_distinct_partial",
    "C98_usable_partial",
    "C98_v6_partial",
    "C98_interface",
    "C98_refused",
    "C98_safe_partial",
    "C98_cut_refuted",
    "C98_overflow_refuted",
    "C98_unset_refuted",
    "C98_port_refuted",
    "C98_v6_refuted"
   ],
   "note": "Proved for well written texts (paths of at most 107 bytes, four numbers, ports of 16 bits, interface names of at most 15 bytes): read, written back, distinct, usable; other forms refused; safe for hosts under 128 bytes. Refuted: longer paths are cut, so different texts name one socket; longer hosts overrun a buffer; a host beginning with a digit that is no address is accepted and then ends the process; ports are taken modulo 65536; IPv6 addresses beginning with a letter are refused. Interfaces and the library's IPv6 reader are parameters."
  },
  {
   "property": "C99",
   "status": "partial",
   "theorems": [
    "C99_configured",
    "C99_start",
    "C99_file",
    "C99_separate_partial",
    "C99_given",
    "C99_environment_refuted",
    "C99_overflow_refuted",
    "C99_unterminated_refuted",
    "C99_shared_refuted",
    "C99_negative_refuted"
   ],
   "note": "Proved: the configured value, the default after 0, the environment, the file and the given timeout decide as stated, for every history of configuration calls; kinds are independent for program names of at most 80 bytes. Refuted: 0 does not bring the environment's number back, a file of 2147484 seconds or more overflows, a file starting with 25 digits is read beyond the buffer, program names of 116 bytes share one file for all kinds, and a subscribe timeout of 2^31 ms or more becomes negative."
  },
  {
   "property": "C100",
   "status": "partial",
   "theorems": [
    "C100_raw_partial",
    "C100_two_refuted",
    "C100_silenced_refuted",
    "C100_closed_refuted",
    "C100_withdrawn_refuted",
    "C100_renewed_refuted",
    "C100_exists_refuted",
    "C100_reported_refuted"
   ],
   "note": "Proved for one provider and at most 128 subscriptions, when a withdrawn subscription the provider did not hear of is renewed before its event is connected directly and a direct connection is closed only after its subscription was withdrawn. Refuted: two providers give out the same numbers, so an event runs the other's handler and withdrawing one silences the other; closing a direct connection under a subscription leaves a listener with a freed handle; a withdrawn handler runs again after a direct connection; a refused renewal blocks the event for good; 'already subscribed' from the provider reads an unset field; a refused withdrawal is reported as success."
  },
  {
   "property": "C101",
   "status": "partial",
   "theorems": [
    "C101_trace_partial",
    "C101_later_refuted",
    "C101_event_refuted",
    "C101_started_refuted",
    "C101_long_refuted",
    "C101_zero_refuted"
   ],
   "note": "Proved for all trees of requests and events in which no busy thread handles another request, texts have at most 510 bytes, handlers that answer later and event handlers leave no context, and asynchronous invocations are made without one. Refuted: a handler that answers later and an event handler leave their context to later event handlers; an asynchronous invocation loses its caller's context; texts of 511 bytes or more are dropped without an error; reading into an array of length 0 writes beyond it."
  },
  {
   "property": "C102",
   "status": "partial",
   "theorems": [
    "C102_text_partial",
    "C102_get_partial",
    "C102_list_partial",
    "C102_set_partial",
    "C102_refused_partial",
    "C102_agrees",
    "C102_get_refuted",
    "C102_set_refuted",
    "C102_base64_refuted",
    "C102_byte_refuted",
    "C102_unsigned_refuted"
   ],
   "note": "Proved for texts, integers, booleans, and floating point numbers and times as the C library reads them. Refuted: a read whose text means nothing is a success with an untyped value; a set of several parameters is refused only if the last text means nothing; base 64 is not decoded; any text is read as a byte; a negative number after a space is read as an unsigned one. Legacy values inside lists and objects are not modelled."
  },
  {
   "property": "C103",
   "status": "partial",
   "theorems": [
    "C103_told_partial",
    "C103_provider_refuted",
    "C103_reopen_refuted",
    "C103_full_refuted"
   ],
   "note": "Proved for programs that hold a direct handle, when handles are closed before the program's own and the listener finds a free slot. Refuted: a provider that holds none is never told, whatever it has registered (the call is compiled out), so C32 and the end of a consumer in C90 apply to it only if it does; closing the program's handle first leaves stale marks; a listener that found no slot is not tried again. One handle per program; losses on the way are not modelled."
  },
  {
   "property": "C104",
   "status": "partial",
   "theorems": [
    "C104_released_partial",
    "C104_calls_released",
    "C104_disconnect_released",
    "C104_close_refuted",
    "C104_handler_refuted"
   ],
   "note": "Proved for all calls and thread functions listed, on all paths, with handlers that make any calls any number of times. Refuted: closing a connection that is not open returns with the core's mutex locked; a subscribe handler that opens a handle when a client has gone away waits for its own thread. Conditions are choices, so more paths are covered than the code has; waiting for other threads is C40 and C64; one handle and one element; mutexes of the message layer and null entries in rbus's own lists are left out."
  },
  {
   "property": "C105",
   "status": "partial",
   "theorems": [
    "C105_guarded_partial",
    "C105_confined",
    "C105_handlers_free",
    "C105_careless_refuted",
    "C105_handlers_refuted"
   ],
   "note": "Proved for the 44 functions listed, at every moment of every path, and for the handlers of methods, core events, raw data and asynchronous subscriptions, which run with no mutex. Refuted for 34 others, for each of which the exact set of faults is proved: clean-up of the core under its own mutex, direct connections used after the mutex is given back, subscriptions walked after a nested call has given it back, lists searched without it, the list of handles read without it."
  },
  {
   "property": "C106",
   "status": "partial",
   "theorems": [
    "C106_resolved",
    "C106_get",
    "C106_set_partial",
    "C106_unknown",
    "C106_forever_refuted",
    "C106_braces_refuted",
    "C106_open_brace_partial"
   ],
   "note": "Proved as an equivalence for every database and name that does not begin with a dot, and for every value that does not begin with a brace. Refuted: a set of a name without a dot never returns; a value in braces, or with a part up to a dot in braces, is taken for a list of settings. Reading the database from its files is not modelled."
  },
  {
   "property": "C107",
   "status": "partial",
   "theorems": [
    "C107_get_partial",
    "C107_all_partial",
    "C107_set_partial",
    "C107_several_partial",
    "C107_guarded",
    "C107_unanswered_refuted",
    "C107_empty_refuted",
    "C107_left_out_refuted",
    "C107_error_refuted",
    "C107_int8_refuted",
    "C107_item_refuted",
    "C107_own_get_partial",
    "C107_own_set_partial",
    "C107_absent",
    "C107_text_partial"
   ],
   "note": "Proved for every instance name, property and provider with getters and setters, and for every list of settings without commas and equals signs in them; no setter is ever called for a property that cannot be written. Refuted: a request that is lost or answered late is reported as a success without values; a set to the empty text does nothing and succeeds; a setting with a comma or an equals sign in its value is left out silently; the error code of a provider's own handler is dropped; numbers of 8 bits are reported as characters; results for items of a list do not name the item. Floating point values and the JSON of the messages are not modelled."
  },
  {
   "property": "C108",
   "status": "partial",
   "theorems": [
    "C108_recursive_partial",
    "C108_list_partial",
    "C108_object",
    "C108_unknown",
    "C108_ends",
    "C108_plain",
    "C108_query",
    "C108_empty_refuted",
    "C108_invented_refuted",
    "C108_masked_refuted",
    "C108_null_refuted",
    "C108_blank_refuted",
    "C108_root_refuted",
    "C108_twice_refuted"
   ],
   "note": "Proved for every database of objects with a dot in their names and for lists that have an item at least and no comma or dot in an id: each instance below is asked for exactly once. Every get ends, whatever is answered, and a get of one level always returns. Refuted: a list without items cannot be got; if the ids are lost an item 0 is asked for; the result of everything below is that of the last object only; an unknown name and an id with a dot make a get of everything below use a null pointer; the empty name reads before the text; an object without a dot in its name is its own child; two databases in one process double every child."
  },
  {
   "property": "C109",
   "status": "partial",
   "theorems": [
    "C109_read_partial",
    "C109_plain",
    "C109_text",
    "C109_any_type_partial",
    "C109_any_type_refuted",
    "C109_null_refuted",
    "C109_object",
    "C109_first",
    "C109_copy_partial",
    "C109_copy_null_refuted",
    "C109_copy_nested_refuted"
   ],
   "note": "Proved for all histories of writes and all typed reads of values that are not NULL, for values and for objects' properties, and for values made from the type, length and contents of others. Refuted: a checked read of a boolean or number from a NULL value dereferences it; the unchecked read of a text from a value that holds a number uses the number as an address, where NULL is promised; the length of a NULL text is looked for behind the NULL pointer; properties and objects made from type, length and contents read as NULL."
  },
  {
   "property": "C110",
   "status": "partial",
   "theorems": [
    "C110_list_partial",
    "C110_free_partial",
    "C110_short_refuted"
   ],
   "note": "Proved for all answers in which no provider says it has more names than it has, with memory that does not run out and realloc always moving the list. Refuted: a reply that says it has more names than it has makes the reader copy from an address nobody wrote. The returned code is the subject of C80."
  },
  {
   "property": "C111",
   "status": "proved",
   "theorems": [
    "C111_list",
    "C111_free"
   ],
   "note": "For replies that hold as many rows as they say and memory that does not run out. What the full name of a row is, is the subject of C79."
  },
  {
   "property": "C112",
   "status": "partial",
   "theorems": [
    "C112_exact",
    "C112_next",
    "C112_closed",
    "C112_wait_refuted",
    "C112_failed_refuted"
   ],
   "note": "Proved for all messages and all ways a read can go: only the message's own bytes are taken, all of them when it succeeds; the next message is read from its first byte; closing midway is noticed. Refuted: a sender that says more than it sends and stays connected holds the router for ever; a read that fails leaves the rest of the message to be read as the next one."
  }
 ]
}