{
 "claims": [
  {
   "property": "C01",
   "status": "proved",
   "theorems": [
    "C01_refines_sections",
    "C01_round_trip",
    "C01_shutdown",
    "C01_page_64k_refuted"
   ],
   "note": "Every history, page size a power of two in 16..32768, any slab size, sections below 2^32 bytes, entry types other than the two markers. Panicking histories are characterised exactly by the abstract log. For 65536-byte pages (outside the statement) the round trip is refuted."
  },
  {
   "property": "C02",
   "status": "proved",
   "theorems": [
    "C02_isolation",
    "C02_disjoint"
   ],
   "note": "Every history; a range handed to a stream is only ever written by operations through that stream while it holds the range."
  },
  {
   "property": "C03",
   "status": "partial",
   "theorems": [
    "C03_crash_partial",
    "C03_crash_at_shutdown_partial",
    "C03_multi_slab_refuted"
   ],
   "note": "Proved for every crash point of every operation that does not itself panic, as long as no slab file before the last one is still at full size; then the reader stops early and sections closed in later slabs are lost: refuted as stated. Whatever is returned is always exact. The slab size must be a multiple of the page size."
  },
  {
   "property": "C04",
   "status": "proved",
   "theorems": [
    "C04_log_whole",
    "C04_files_hold_sections"
   ],
   "note": "Every object as any list of chunk writes, every fill level."
  },
  {
   "property": "C05",
   "status": "partial",
   "theorems": [
    "C05_end_of_data_partial",
    "C05_empty_section_refuted"
   ],
   "note": "Holds when no section of the type is empty; refuted otherwise: an empty section (stream closed before logging) reads as end of file."
  },
  {
   "property": "C06",
   "status": "proved",
   "theorems": [
    "C06_flushing"
   ],
   "note": "Every reachable state, every mapped slab."
  },
  {
   "property": "C07",
   "status": "proved",
   "theorems": [
    "C07_bounded_stack"
   ],
   "note": "All histories of fewer than 2^32 creations, any capacity > 0, both overflow modes."
  },
  {
   "property": "C08",
   "status": "partial",
   "theorems": [
    "C08_ids_increasing_checked_partial",
    "C08_ids_increasing_bounded_partial",
    "C08_ids_wrap_refuted"
   ],
   "note": "Holds unconditionally with overflow checks; without them holds below 2^32 creations and is refuted beyond (u32 wrap)."
  },
  {
   "property": "C09",
   "status": "partial",
   "theorems": [
    "C09_iter_live_partial",
    "C09_other_iterators_partial",
    "C09_other_iterators_refuted"
   ],
   "note": "iter holds as stated; iter_mut and asc_iter also visit stale slots when not full (refuted, with an exact characterisation)."
  },
  {
   "property": "C10",
   "status": "proved",
   "theorems": [
    "C10_logged_at_most_once",
    "C10_logged_promptly",
    "C10_all_logged",
    "C10_begin_succeeds",
    "C10_refinement"
   ],
   "note": "All histories of fewer than 2^32 lists; a failing log write is a panic in the code and excluded by hypothesis."
  },
  {
   "property": "C11",
   "status": "proved",
   "theorems": [
    "C11_plan_order"
   ],
   "note": "Every graph (cyclic ones and parallel connections included) for which planning returns."
  },
  {
   "property": "C12",
   "status": "proved",
   "theorems": [
    "C12_plan_complete"
   ],
   "note": "Every acyclic graph and declaration order."
  },
  {
   "property": "C13",
   "status": "proved",
   "theorems": [
    "C13_termination"
   ],
   "note": "Fuel of the model is shown sufficient; panics exactly when some task has no connection at all."
  },
  {
   "property": "C14",
   "status": "proved",
   "theorems": [
    "C14_inputs_in_order",
    "C14_parallel_inputs"
   ],
   "note": "With parallel connections there is one input per connection in some order."
  },
  {
   "property": "C15",
   "status": "partial",
   "theorems": [
    "C15_last_declared_partial",
    "C15_single_type_partial",
    "C15_refuted"
   ],
   "note": "Settled negatively: the planned type is that of the producer's last declared connection; correct when the producer's connections agree."
  },
  {
   "property": "C16",
   "status": "partial",
   "theorems": [
    "C16_iteration_partial",
    "C16_run_partial",
    "C16_started_refuted"
   ],
   "note": "Order of phases, plan order and stopping proved for every application, task behaviour and monitor. Settled negatively for starting: after an Abort decision while starting, the remaining tasks are never started and yet processed."
  },
  {
   "property": "C17",
   "status": "proved",
   "theorems": [
    "C17_shutdown",
    "C17_abort",
    "C17_ignore",
    "C17_ignore_continues"
   ],
   "note": "Every application, task behaviour, monitor and reachable state. An aborted list is reported and, if the monitor accepts the report and task logging is on, logged."
  },
  {
   "property": "C18",
   "status": "partial",
   "theorems": [
    "C18_one_list_partial",
    "C18_content_partial",
    "C18_abort_stale_refuted",
    "C18_silent_stale_refuted"
   ],
   "note": "One list per accepted iteration with increasing ids: proved. Content: proved to be independent of earlier iterations when processing overwrites the output message and no process step is aborted; refuted without either (slots are reused without being cleared)."
  },
  {
   "property": "C19",
   "status": "partial",
   "theorems": [
    "C19_iteration_partial",
    "C19_running_partial",
    "C19_exhausted_partial",
    "C19_refuted"
   ],
   "note": "Settled negatively: iterations that end with a process shutdown or a refused copper list keep their slot for ever; the exact effect on the number of slots is proved, and that run itself (which stops then) never runs out."
  },
  {
   "property": "C20",
   "status": "partial",
   "theorems": [
    "C20_report_partial",
    "C20_metadata_partial",
    "C20_getter_partial",
    "C20_refuted"
   ],
   "note": "Settled negatively: right exactly when the call order, as a permutation, is its own inverse; refuted for a graph with three tasks."
  },
  {
   "property": "C21",
   "status": "proved",
   "theorems": [
    "C21_simulation",
    "C21_iteration"
   ],
   "note": "Every callback, task behaviour, monitor and history, start and stop included."
  },
  {
   "property": "C22",
   "status": "proved",
   "theorems": [
    "C22_integers",
    "C22_leaves",
    "C22_containers",
    "C22_prefix_free",
    "C22_headers",
    "C22_decoded_in_range",
    "C22_strict"
   ],
   "note": "bincode is an external crate: the model transcribes its documented format. Every width and every continuation of the stream."
  },
  {
   "property": "C23",
   "status": "proved",
   "theorems": [
    "C23_copperlist",
    "C23_sequence"
   ],
   "note": "For all lists of payload types whose user supplied codecs are lossless stream codecs; also when the data ends in the middle of a list."
  },
  {
   "property": "C24",
   "status": "proved",
   "theorems": [
    "C24_values",
    "C24_fuel",
    "C24_order",
    "C24_entries"
   ],
   "note": "Unbounded nesting; floats bit for bit; map keys in the strict order a BTreeMap maintains (shown to be preserved by insertion). Log entries included."
  },
  {
   "property": "C25",
   "status": "partial",
   "theorems": [
    "C25_borrow_exact_partial",
    "C25_agreement_refuted"
   ],
   "note": "Settled negatively: refuted for every kind of value except char and string, for which alone the borrowing decoder agrees."
  },
  {
   "property": "C26",
   "status": "partial",
   "theorems": [
    "C26_pieces",
    "C26_line_partial",
    "C26_plain_partial",
    "C26_refuted"
   ],
   "note": "Settled negatively as stated: a parameter with a single brace can complete a placeholder of the format string (C26_refuted). Proved for parameter texts without braces, which all numbers, booleans, times and sequences of them have."
  },
  {
   "property": "C27",
   "status": "partial",
   "theorems": [
    "C27_place_partial",
    "C27_refuted"
   ],
   "note": "Settled negatively as stated: a parameter showing as {} takes the place of the next one (C27_refuted). Proved for texts without braces."
  },
  {
   "property": "C28",
   "status": "partial",
   "theorems": [
    "C28_rebuilt_partial",
    "C28_console_partial",
    "C28_refuted"
   ],
   "note": "Settled negatively as stated: unnamed parameters are moved before named ones, and the console pairs names with all parameters (C28_refuted). Proved: the rebuilt line gives each name its value and the unnamed parameters in their order; the console line agrees when there is no mix. The strfmt crate is an arbitrary function."
  },
  {
   "property": "C29",
   "status": "partial",
   "theorems": [
    "C29_interning",
    "C29_concurrent_partial",
    "C29_concurrent_refuted"
   ],
   "note": "Proved for requests one after the other. When two compilations run at the same time one string can get two indices (C29_concurrent_refuted); the rest still holds. LMDB is a map with serialised write transactions."
  },
  {
   "property": "C30",
   "status": "proved",
   "theorems": [
    "C30_round_trip",
    "C30_read_configuration",
    "C30_written_as_read",
    "C30_conditions_refuted"
   ],
   "note": "On the representation handed to serde; the RON text itself is not modelled. C30_conditions_refuted shows that unique, unchanged ids are needed. read_configuration additionally rejects sections larger than slabs."
  },
  {
   "property": "C31",
   "status": "proved",
   "theorems": [
    "C31_accounting",
    "C31_returned",
    "C31_exclusive",
    "C31_contents"
   ],
   "note": "Host pools. Each operation is one atomic step. Contents are tracked too: nothing done with another handle is seen through a live handle."
  },
  {
   "property": "C32",
   "status": "partial",
   "theorems": [
    "C32_statistics_partial",
    "C32_range",
    "C32_exact_refuted",
    "C32_long_refuted"
   ],
   "note": "Settled negatively: the histogram keeps three digits, so values above 2047 ns are rounded, and a duration above the range panics. Proved: counts exact, everything within 0.1 percent, exact below 2048 ns, the exact range. Missing: percentiles, standard deviation, f64 rounding of the mean. The hdrhistogram crate is modelled from its documentation."
  },
  {
   "property": "C33",
   "status": "proved",
   "theorems": [
    "C33_bounded_list"
   ],
   "note": "Fields of one value type stand for the union of the field types; direct writes to the public fields are not modelled."
  },
  {
   "property": "C34",
   "status": "partial",
   "theorems": [
    "C34_refuted",
    "C34_never_read_back",
    "C34_length_partial",
    "C34_capacity_refuted"
   ],
   "note": "Settled negatively: the encoder writes a length before each field and the decoder does not read it; no container is ever read back from a stream. What survives is the number of elements."
  },
  {
   "property": "C35",
   "status": "proved",
   "theorems": [
    "C35_fill",
    "C35_round_trip",
    "C35_bounded",
    "C35_reject"
   ],
   "note": "Every capacity, content and byte stream; arrays below 2^32 elements (the length is stored as u32)."
  },
  {
   "property": "C36",
   "status": "partial",
   "theorems": [
    "C36_optional_times_partial",
    "C36_sentinel_refuted"
   ],
   "note": "Proved for absence and every time but 2^64-1 ns, which is the sentinel and comes back as absent."
  },
  {
   "property": "C37",
   "status": "partial",
   "theorems": [
    "C37_first_day_partial",
    "C37_refuted"
   ],
   "note": "Settled negatively: the seconds are not reduced modulo a day, so the timestamp is right exactly for times below one day."
  },
  {
   "property": "C38",
   "status": "proved",
   "theorems": [
    "C38_ranges",
    "C38_order"
   ],
   "note": "Every list of times."
  },
  {
   "property": "C39",
   "status": "proved",
   "theorems": [
    "C39_round_trip",
    "C39_chunks",
    "C39_command_refuted",
    "C39_crc_standard",
    "C39_crc_unique"
   ],
   "note": "Within the size limits, both formats mixed. The checksum of the second format is the remainder the standard asks for, so other implementations agree. Outside them the first format truncates the command silently (refuted witness)."
  },
  {
   "property": "C40",
   "status": "proved",
   "theorems": [
    "C40_v1",
    "C40_v2"
   ],
   "note": "The CRC of the crc_any crate is transcribed from its parameters. A wrong length byte is not covered by the claim."
  },
  {
   "property": "C41",
   "status": "partial",
   "theorems": [
    "C41_total",
    "C41_after",
    "C41_resume_partial",
    "C41_recovers_partial",
    "C41_stray_refuted"
   ],
   "note": "Settled negatively for stray start bytes: '$' before a packet hides it. Proved: no panic, between packets after every error and packet, packets delivered from there, recovery within 65543 bytes."
  },
  {
   "property": "C42",
   "status": "partial",
   "theorems": [
    "C42_few_partial",
    "C42_refuted"
   ],
   "note": "Settled negatively: the source drops the rest of the bytes of a read once 16 packets are batched. Proved when every read completes fewer."
  },
  {
   "property": "C43",
   "status": "partial",
   "theorems": [
    "C43_round_trip_partial",
    "C43_corruption_partial",
    "C43_crash_refuted",
    "C43_only_crash_partial",
    "C43_sound_partial",
    "C43_ping_partial",
    "C43_ping_refuted",
    "C43_long_refuted"
   ],
   "note": "Settled negatively: a frame announcing a length below 3 crashes the reader, an answer without data crashes ping, 253 bytes of data crash the sender. Round trip and rejection of corrupted frames proved. (process itself is todo!() in the source.)"
  },
  {
   "property": "C44",
   "status": "proved",
   "theorems": [
    "C44_within",
    "C44_constant"
   ],
   "note": "16-bit samples; failed reads included."
  },
  {
   "property": "C45",
   "status": "partial",
   "theorems": [
    "C45_window_partial",
    "C45_buffer_partial",
    "C45_refuted",
    "C45_untimed_refuted"
   ],
   "note": "Settled negatively for inputs without (timed) data, which are ignored when computing the window. Proved when every input has timed data; buffer contents proved for time ordered inputs."
  },
  {
   "property": "C46",
   "status": "partial",
   "theorems": [
    "C46_refuted",
    "C46_window_refuted",
    "C46_later_partial"
   ],
   "note": "Settled negatively: the subtraction panics while the clock is below the horizon or the window. Proved afterwards."
  },
  {
   "property": "C47",
   "status": "proved",
   "theorems": [
    "C47_exact",
    "C47_radius_refuted"
   ],
   "note": "Unchecked accesses out of the buffers are modelled as panics and excluded. Radius 0 and 2^31 do panic."
  },
  {
   "property": "C48",
   "status": "partial",
   "theorems": [
    "C48_full_partial",
    "C48_single_return_partial",
    "C48_order_refuted",
    "C48_fill_refuted"
   ],
   "note": "Settled negatively: the order of return is left behind by the sort, and the unused capacity is sorted with the points. Proved for full clouds, without the order of return."
  },
  {
   "property": "C49",
   "status": "proved",
   "theorems": [
    "C49_bounded",
    "C49_total"
   ],
   "note": "At the level of the task, for every configuration; C49_total: no panic with limits that are not negative and times that do not go back."
  },
  {
   "property": "C50",
   "status": "partial",
   "theorems": [
    "C50_same_phase_partial",
    "C50_after_stop_partial",
    "C50_refuted"
   ],
   "note": "Settled negatively: whether a measurement was seen and its time are not frozen, so a new task swallows the next measurement. Proved when these agree, and for everything after a stop."
  },
  {
   "property": "C51",
   "status": "partial",
   "theorems": [
    "C51_commands_partial",
    "C51_changed_partial",
    "C51_forward_partial",
    "C51_missing_refuted",
    "C51_failure_refuted",
    "C51_range_refuted"
   ],
   "note": "Settled negatively: after a missing payload or a hardware failure the same command is ignored; backward commands are compensated beyond -1. Proved for uninterrupted commands, for changed commands, and the range of forward commands."
  },
  {
   "property": "C52",
   "status": "partial",
   "theorems": [
    "C52_distance_partial",
    "C52_iff_partial",
    "C52_refuted",
    "C52_cast_partial"
   ],
   "note": "Settled negatively: the offset between the clocks is added instead of subtracted, so the time is right only when both clocks agree. Proved: exact error, and that distances between frames are right."
  },
  {
   "property": "C53",
   "status": "proved",
   "theorems": [
    "C53_types",
    "C53_connections"
   ],
   "note": "For every graph whose connections join its nodes."
  },
  {
   "property": "C54",
   "status": "partial",
   "theorems": [
    "C54_refuted",
    "C54_all_refuted",
    "C54_point_partial",
    "C54_fixed_partial"
   ],
   "note": "Settled negatively: a stored ratio is read back as a percentage. Proved for the other fields of a point, and for zero and the infinities."
  },
  {
   "property": "C55",
   "status": "proved",
   "theorems": [
    "C55_recorded_lists_exported"
   ],
   "note": "Composition of C01, C05 and C23 for every history with exactly one copper list stream; the reading program is the byte-wise decoder over what the Read adapter delivers."
  },
  {
   "property": "C56",
   "status": "partial",
   "theorems": [
    "C56_no_panic_partial",
    "C56_refuted"
   ],
   "note": "Settled negatively: with overflow checks the computation panics when the first task of the plan was declared after the last one; never when declared before it."
  },
  {
   "property": "C57",
   "status": "partial",
   "theorems": [
    "C57_text_export_partial",
    "C57_named_refuted"
   ],
   "note": "Proved for calls with unnamed parameters whose texts have no braces; with named parameters the time is printed twice (C57_named_refuted)."
  },
  {
   "property": "C58",
   "status": "partial",
   "theorems": [
    "C58_params_partial",
    "C58_text_params",
    "C58_modulo",
    "C58_truncated_refuted"
   ],
   "note": "Settled negatively as stated: an integer that does not fit the requested type is silently truncated. Proved for integers that fit, strings and booleans."
  },
  {
   "property": "C59",
   "status": "partial",
   "theorems": [
    "C59_exact_partial",
    "C59_status_refuted",
    "C59_duration_refuted"
   ],
   "note": "Settled negatively: an empty status or a duration of 2^33 ns panics. Proved: exactly which runs survive, and that the statistics then count and describe every sample."
  },
  {
   "property": "C60",
   "status": "partial",
   "theorems": [
    "C60_settles_partial",
    "C60_refuted"
   ],
   "note": "Settled negatively: a constant input above the first sample is never reached; the output settles one below. Proved: it settles at the value or one below."
  },
  {
   "property": "C61",
   "status": "partial",
   "theorems": [
    "C61_output_partial",
    "C61_refuted"
   ],
   "note": "Settled negatively: an output message without payload (as all are at the start) makes the task panic. Proved when payloads are present."
  },
  {
   "property": "C62",
   "status": "proved",
   "theorems": [
    "C62_number",
    "C62_same_time_refuted"
   ],
   "note": "Uses Flocq on top of Coq's real numbers. Increasing times are needed: C62_same_time_refuted."
  },
  {
   "property": "C63",
   "status": "partial",
   "theorems": [
    "C63_refuted",
    "C63_empty_partial",
    "C63_gstreamer_partial",
    "C63_received",
    "C63_lidars_partial",
    "C63_failed_lidars_partial",
    "C63_failed_livox_partial"
   ],
   "note": "Settled negatively for the camera and shared memory sources, which leave the previous payload. Proved for the pipeline source and the lidars."
  },
  {
   "property": "C64",
   "status": "proved",
   "theorems": [
    "C64_fifo",
    "C64_lossless"
   ],
   "note": "The circular buffer crate is modelled by its documentation."
  },
  {
   "property": "C65",
   "status": "proved",
   "theorems": [
    "C65_count"
   ],
   "note": "As long as the count stays in the 32 bit range at every moment."
  },
  {
   "property": "C66",
   "status": "partial",
   "theorems": [
    "C66_refuted",
    "C66_hesai_partial",
    "C66_livox_partial"
   ],
   "note": "Settled negatively: a datagram of fewer than 2 bytes (Hesai) or an empty one (Livox) panics. For all others acceptance is proved to be exactly well-formedness."
  },
  {
   "property": "C67",
   "status": "proved",
   "theorems": [
    "C67_decode",
    "C67_points",
    "C67_only"
   ],
   "note": "Azimuth, channel, distance and reflectivity as measured; their conversion to f32 coordinates is not modelled."
  },
  {
   "property": "C68",
   "status": "proved",
   "theorems": [
    "C68_points",
    "C68_only"
   ],
   "note": "Millimeters as measured; their conversion to f32 is not modelled."
  },
  {
   "property": "C69",
   "status": "partial",
   "theorems": [
    "C69_refuted",
    "C69_exchanged_partial",
    "C69_last_partial",
    "C69_release_partial"
   ],
   "note": "Settled negatively: the tables of single and dual return mode are exchanged. Exact characterization proved; the last block is right."
  },
  {
   "property": "C70",
   "status": "partial",
   "theorems": [
    "C70_refuted",
    "C70_times_partial",
    "C70_error_partial"
   ],
   "note": "Settled negatively: all blocks are timed as block 6 and one channel early. Exact times and bounds of the error proved."
  },
  {
   "property": "C71",
   "status": "partial",
   "theorems": [
    "C71_refuted",
    "C71_hesai_partial",
    "C71_hesai_tight_partial",
    "C71_livox_partial"
   ],
   "note": "Proved for Hesai. Settled negatively for Livox, which never sets the time."
  },
  {
   "property": "C72",
   "status": "partial",
   "theorems": [
    "C72_refuted",
    "C72_conversion_partial",
    "C72_before_partial"
   ],
   "note": "Proved for packets after the synchronization, and for earlier ones in builds without overflow checks; earlier packets panic with overflow checks."
  },
  {
   "property": "C73",
   "status": "proved",
   "theorems": [
    "C73_parameter",
    "C73_entry",
    "C73_time"
   ],
   "note": "Types are finite trees; serde attributes other than rename are not modelled. serde's own visitors are part of the model, from their documented behaviour."
  },
  {
   "property": "C74",
   "status": "partial",
   "theorems": [
    "C74_refuted",
    "C74_panic_partial"
   ],
   "note": "Settled negatively: a parameter holding an i128 or u128 panics. It panics on exactly those."
  },
  {
   "property": "C75",
   "status": "partial",
   "theorems": [
    "C75_refuted",
    "C75_log_refuted",
    "C75_partial"
   ],
   "note": "Settled negatively: times come back as numbers, map entries can be lost, and a logged Value is recorded as a wrapped pair. Read back unchanged exactly when no time is inside."
  },
  {
   "property": "C76",
   "status": "partial",
   "theorems": [
    "C76_refuted",
    "C76_integers_partial",
    "C76_lengths_partial",
    "C76_variants_partial",
    "C76_tuples_partial",
    "C76_fields_partial",
    "C76_duplicates_partial",
    "C76_enum_partial",
    "C76_positional_partial",
    "C76_keys_partial"
   ],
   "note": "Settled negatively: a tuple drops what is recorded behind its length. Proved for integers, lists, tuple variants and struct fields; a tuple never invents elements."
  },
  {
   "property": "C77",
   "status": "proved",
   "theorems": [
    "C77_agreement",
    "C77_equivalence",
    "C77_identity"
   ],
   "note": ""
  },
  {
   "property": "C78",
   "status": "partial",
   "theorems": [
    "C78_refuted",
    "C78_partial"
   ],
   "note": "Settled negatively: a duplicate field becomes a missing one. All other errors are kept."
  },
  {
   "property": "C79",
   "status": "partial",
   "theorems": [
    "C79_refuted",
    "C79_short_refuted",
    "C79_meaning_partial",
    "C79_i16_partial",
    "C79_u16_partial",
    "C79_battery_partial",
    "C79_altitude_partial",
    "C79_analog_partial",
    "C79_features_partial",
    "C79_enum_partial",
    "C79_source_partial",
    "C79_batches_partial",
    "C79_serial_partial"
   ],
   "note": "Settled negatively: a frame with an unknown command, or too short, panics. Packets with a meaning are decoded to it, all others panic. Six structs whose announced size is smaller than their fields are left open."
  },
  {
   "property": "C80",
   "status": "partial",
   "theorems": [
    "C80_refuted",
    "C80_partial",
    "C80_sound_partial",
    "C80_code_partial"
   ],
   "note": "Settled negatively: converting a response to a packet always panics. The bytes of the packed struct are read back as the response."
  },
  {
   "property": "C81",
   "status": "proved",
   "theorems": [
    "C81_sent",
    "C81_failed",
    "C81_reported",
    "C81_code"
   ],
   "note": ""
  },
  {
   "property": "C82",
   "status": "partial",
   "theorems": [
    "C82_refuted",
    "C82_partial",
    "C82_distinct_partial"
   ],
   "note": "Settled negatively: throttle and yaw are exchanged against MspRcChannel. Proved for the other setters."
  },
  {
   "property": "C83",
   "status": "proved",
   "theorems": [
    "C83_batch"
   ],
   "note": ""
  },
  {
   "property": "C84",
   "status": "partial",
   "theorems": [
    "C84_refuted",
    "C84_partial"
   ],
   "note": "Settled negatively: from 26 cells on, the divisor overflows u8. Exact up to 25 cells."
  },
  {
   "property": "C85",
   "status": "partial",
   "theorems": [
    "C85_refuted",
    "C85_conversion_refuted",
    "C85_partial",
    "C85_div_partial",
    "C85_wrapping_partial",
    "C85_conversion_partial"
   ],
   "note": "Settled negatively: a negative i32 factor gives a huge duration (-1 the mark of an absent time), and long std durations are cut. Everything else proved."
  },
  {
   "property": "C86",
   "status": "proved",
   "theorems": [
    "C86_wanted",
    "C86_set"
   ],
   "note": ""
  },
  {
   "property": "C87",
   "status": "partial",
   "theorems": [
    "C87_refuted",
    "C87_partial"
   ],
   "note": "Settled negatively: two concurrent settings can add up. Proved when one is done before the other starts."
  },
  {
   "property": "C88",
   "status": "partial",
   "theorems": [
    "C88_refuted",
    "C88_partial",
    "C88_new_partial"
   ],
   "note": "Settled negatively: a reference time longer than the machine has run panics. Proved otherwise."
  },
  {
   "property": "C89",
   "status": "proved",
   "theorems": [
    "C89_close",
    "C89_exact",
    "C89_option"
   ],
   "note": "Uses Flocq and so the axioms of the standard library's real numbers."
  },
  {
   "property": "C90",
   "status": "partial",
   "theorems": [
    "C90_steady_partial",
    "C90_payloads_partial",
    "C90_clock_refuted",
    "C90_abort_refuted",
    "C90_getter_refuted"
   ],
   "note": "Settled negatively as stated: a clock that runs during an iteration, an iteration given up by the monitor, or tasks declared in another order than called make the replay differ. Proved exactly for clocks that stand still within an iteration, and up to process times for tasks that do not look at them; both for runs without given up iterations and for right getters."
  },
  {
   "property": "C91",
   "status": "partial",
   "theorems": [
    "C91_calls_partial",
    "C91_partial",
    "C91_clock_refuted",
    "C91_drop_refuted"
   ],
   "note": "Settled negatively: a second logger keeps the clock of the first one, and dropping an older logger cuts the lines of the one in use. Proved: exactly where each line goes in any sequence of calls, and the claim itself when all loggers share a clock and none is dropped after the last initialisation."
  },
  {
   "property": "C92",
   "status": "partial",
   "theorems": [
    "C92_refuted",
    "C92_threads_partial"
   ],
   "note": "Settled negatively: two threads can swap their lines, for the time is taken before the lock. Proved for the lines of each thread in any interleaving."
  },
  {
   "property": "C93",
   "status": "partial",
   "theorems": [
    "C93_refuted",
    "C93_partial"
   ],
   "note": "Settled negatively: of two concurrent first initialisations one panics. Proved when the first one is over before another one starts, whatever else happens."
  },
  {
   "property": "C94",
   "status": "partial",
   "theorems": [
    "C94_partial",
    "C94_prefix_partial",
    "C94_torn_refuted"
   ],
   "note": "Settled negatively: a line torn by a full disk makes later lines unreadable. Proved when the disk has room; and that in any case the file is a beginning of what was given to it, with failed lines cut short."
  },
  {
   "property": "C95",
   "status": "partial",
   "theorems": [
    "C95_partial",
    "C95_refuted",
    "C95_none_refuted"
   ],
   "note": "Settled negatively: a later cause replaces an earlier one, and no cause looks like the cause None. Proved for the message and the last cause."
  },
  {
   "property": "C96",
   "status": "partial",
   "theorems": [
    "C96_partial",
    "C96_refuted",
    "C96_stale_refuted"
   ],
   "note": "Settled negatively: started again while it runs, the source hands out buffers the driver still has, or the wrong ones. Proved for all other sequences of calls, failures, restarts and kept images."
  },
  {
   "property": "C97",
   "status": "partial",
   "theorems": [
    "C97_partial",
    "C97_timeout_refuted",
    "C97_refuted"
   ],
   "note": "Settled negatively: after one late picture every call fails until the stream is stopped; an empty frame, a kept image or a restart with an image in the message panics. Proved for any number of sessions without such events, with any order of the buffers."
  },
  {
   "property": "C98",
   "status": "partial",
   "theorems": [
    "C98_refuted",
    "C98_glam_partial",
    "C98_nalgebra_partial",
    "C98_translation_partial"
   ],
   "note": "Settled negatively: glam gets the transposed rotation, so poses turn the other way. Proved exactly when it agrees (symmetric rotations); and for nalgebra, given that its quaternions stand for rotations."
  },
  {
   "property": "C99",
   "status": "partial",
   "theorems": [
    "C99_refuted",
    "C99_partial",
    "C99_shape_partial"
   ],
   "note": "Settled negatively: the default pose (all zeros) comes back changed from glam. Proved for faer, and for glam and nalgebra when the last row is that of a pose."
  },
  {
   "property": "C100",
   "status": "partial",
   "theorems": [
    "C100_partial",
    "C100_refuted"
   ],
   "note": "Settled negatively: the magnetometer is scaled by 8.333 nT for full range instead of per unit, and a failing bus panics. Proved for accelerations, angular velocities and angles."
  },
  {
   "property": "C101",
   "status": "partial",
   "theorems": [
    "C101_partial",
    "C101_refuted",
    "C101_serde_partial"
   ],
   "note": "Settled negatively: serde writes SI units and reads g, degrees and nanoteslas. Proved for bincode."
  },
  {
   "property": "C102",
   "status": "partial",
   "theorems": [
    "C102_partial",
    "C102_refuted"
   ],
   "note": "Settled negatively: views of 16 bit pixels and kornia views of several channels reach beyond the buffer. Proved for one byte per pixel; and that views of bytes by the image crate stay in the buffer."
  },
  {
   "property": "C103",
   "status": "proved",
   "theorems": [
    "C103_image_round_trip",
    "C103_image_size"
   ],
   "note": "For all images whose fields are in range; the buffer of a decoded image is a vector."
  },
  {
   "property": "C104",
   "status": "partial",
   "theorems": [
    "C104_partial",
    "C104_refuted",
    "C104_sizes_refuted"
   ],
   "note": "Settled negatively: a text that is not a configuration, or whose connections name no task, panics, and the sizes of a configuration given by program are not checked. Proved: the order of preference, equal effect wherever the configuration comes from, errors for unreadable files and bad sizes in texts."
  },
  {
   "property": "C105",
   "status": "partial",
   "theorems": [
    "C105_partial",
    "C105_refuted",
    "C105_fewer_refuted"
   ],
   "note": "Settled negatively: parameters are taken by position, so tasks in another order get each other's parameters and missing tasks panic. Proved when the tasks compiled in come first and in the same order."
  },
  {
   "property": "C106",
   "status": "proved",
   "theorems": [
    "C106_builder"
   ],
   "note": "For all sequences of calls, with and without simulation."
  },
  {
   "property": "C107",
   "status": "partial",
   "theorems": [
    "C107_partial",
    "C107_refuted"
   ],
   "note": "Settled negatively: the size in bytes overflows from 2^44 MiB on. Proved below."
  },
  {
   "property": "C108",
   "status": "partial",
   "theorems": [
    "C108_partial",
    "C108_refuted"
   ],
   "note": "Settled negatively: the placeholder of a sink takes one message. Proved: sources always fit, sinks exactly when they have one connection of the type planned for its producer."
  },
  {
   "property": "C109",
   "status": "partial",
   "theorems": [
    "C109_partial",
    "C109_refuted",
    "C109_digit_partial"
   ],
   "note": "Settled negatively: characters other than letters and digits become underscores. Proved for identifiers the change of case keeps apart."
  },
  {
   "property": "C110",
   "status": "partial",
   "theorems": [
    "C110_partial",
    "C110_live_partial",
    "C110_refuted",
    "C110_threads_refuted"
   ],
   "note": "Settled negatively: a reset makes the counter panic or wrap, and allocations of other threads are counted. Proved without reset for the whole program, below 2^64 bytes."
  },
  {
   "property": "C111",
   "status": "proved",
   "theorems": [
    "C111_iteration",
    "C111_ends",
    "C111_malformed"
   ],
   "note": "On the bytes the reader delivers; which decoding errors mean end of data is a parameter, constrained only on data that some continuation completes."
  },
  {
   "property": "C112",
   "status": "partial",
   "theorems": [
    "C112_partial",
    "C112_params_partial",
    "C112_unhashable_partial",
    "C112_refuted",
    "C112_keys_refuted",
    "C112_mixed_refuted"
   ],
   "note": "Settled negatively: keys that Python takes for equal (None and Some(None)) lose an entry, keys that are sequences panic. Proved when the keys of every map are scalars of one type (floats by their IEEE value)."
  },
  {
   "property": "C113",
   "status": "proved",
   "theorems": [
    "C113_log",
    "C113_bounded",
    "C113_sequence"
   ],
   "note": "The sequence form for payloads whose columns have one height (as the task makes them)."
  },
  {
   "property": "C114",
   "status": "partial",
   "theorems": [
    "C114_partial",
    "C114_filter_partial",
    "C114_nothing_partial",
    "C114_refuted"
   ],
   "note": "Settled negatively: with more than 16 tags the task panics. Proved for up to 16."
  },
  {
   "property": "C115",
   "status": "partial",
   "theorems": [
    "C115_partial",
    "C115_refuted",
    "C115_row_refuted"
   ],
   "note": "Settled negatively: the rotation is transposed (the library stores matrices row after row) and the last row is zero. Proved: the translation, and the rotation exactly when it is symmetric."
  },
  {
   "property": "C116",
   "status": "partial",
   "theorems": [
    "C116_partial",
    "C116_huge_partial",
    "C116_refuted"
   ],
   "note": "Settled negatively: width may exceed the stride. Proved when it does not, below 2^31."
  },
  {
   "property": "C117",
   "status": "partial",
   "theorems": [
    "C117_partial",
    "C117_distinct_partial",
    "C117_refuted",
    "C117_path_refuted"
   ],
   "note": "Settled negatively: a name without a dot becomes the extension, so foo and .foo share their files; a path without a file name, or with one that is no text, panics. Proved for names with a dot."
  },
  {
   "property": "C118",
   "status": "partial",
   "theorems": [
    "C118_partial",
    "C118_refuted"
   ],
   "note": "Settled negatively: slab_size_mib of the configuration is checked but not used. Proved: the size is the one given to the setup, else ten MiB."
  },
  {
   "property": "C119",
   "status": "partial",
   "theorems": [
    "C119_partial",
    "C119_refuted"
   ],
   "note": "Settled negatively: sections that fit the slabs of the configuration need not fit those of the setup. Proved: the exact condition on the sizes, below 4 GiB."
  },
  {
   "property": "C120",
   "status": "partial",
   "theorems": [
    "C120_partial",
    "C120_refuted"
   ],
   "note": "Settled negatively: write and create without a name or a size panics, write without create gives a reader. Proved otherwise."
  },
  {
   "property": "C121",
   "status": "proved",
   "theorems": [
    "C121_stops",
    "C121_first",
    "C121_restart",
    "C121_reads"
   ],
   "note": "With the console monitor of the example's configuration, when the PWM accepts the writes and no PID panics (times going back)."
  },
  {
   "property": "C122",
   "status": "partial",
   "theorems": [
    "C122_partial",
    "C122_refuted"
   ],
   "note": "Settled negatively: a monitor that answers Abort ends the iteration before the motor's turn, which goes on as before. Proved for monitors that answer Ignore to errors of process."
  },
  {
   "property": "C123",
   "status": "proved",
   "theorems": [
    "C123_number"
   ],
   "note": "For monitors that answer Ignore to errors of process, among them the console monitor."
  },
  {
   "property": "C124",
   "status": "partial",
   "theorems": [
    "C124_partial",
    "C124_refuted"
   ],
   "note": "Settled negatively: the PID does not pass the time on, so the command has none. Proved: it never has one."
  },
  {
   "property": "C125",
   "status": "partial",
   "theorems": [
    "C125_partial",
    "C125_start_partial",
    "C125_refuted",
    "C125_write_refuted"
   ],
   "note": "Settled negatively: quitting the console makes the iteration an error, on which main panics without stopping the tasks; the motor goes on; and after Ctrl-C a channel whose write fails stays enabled. Proved: disabled when the program ends normally."
  },
  {
   "property": "C126",
   "status": "partial",
   "theorems": [
    "C126_partial",
    "C126_refuted"
   ],
   "note": "Settled negatively: backwards up to 1.6. Proved: forwards from 0 to 1, backwards from 0 to 1.6."
  },
  {
   "property": "C127",
   "status": "partial",
   "theorems": [
    "C127_partial",
    "C127_refuted"
   ],
   "note": "Settled negatively: after a failed reading the same command as before is ignored, and the motor stays off. Proved: a command that differs from the last one is applied."
  },
  {
   "property": "C128",
   "status": "partial",
   "theorems": [
    "C128_closed_partial",
    "C128_crash_partial",
    "C128_refuted"
   ],
   "note": "Settled negatively: only the files the new writer needs are replaced; when it is interrupted with its last file full, the reader goes on with the next file of the older log and ends as after a clean shutdown. Proved: a log shut down cleanly is read alone, and after any interruption what is read of the new log comes first, alone if the older log had no more files."
  },
  {
   "property": "C129",
   "status": "partial",
   "theorems": [
    "C129_newest",
    "C129_limit_partial",
    "C129_refuted",
    "C129_text"
   ],
   "note": "Settled negatively: after the terminal is made smaller the excess stays, since each new entry removes one at most. Proved: the newest, in order, without gaps; never more than the largest size so far; exactly the last ones without resize."
  },
  {
   "property": "C130",
   "status": "partial",
   "theorems": [
    "C130_partial",
    "C130_hidden_partial",
    "C130_refuted",
    "C130_open_partial"
   ],
   "note": "Settled negatively: a resize stores the rows of the terminal instead of those of the pane, after which the newest five lines are below the screen, always. Proved: without resize and for entries of one line the screen ends with the newest."
  },
  {
   "property": "C131",
   "status": "partial",
   "theorems": [
    "C131_partial",
    "C131_refuted"
   ],
   "note": "Settled negatively: the call waits when 1000 entries are pending. Proved: exactly then, that is when more than 1000 entries are logged between two turns of the console."
  },
  {
   "property": "C132",
   "status": "proved",
   "theorems": [
    "C132_blinks"
   ],
   "note": "For runs in which all iterations returned Ok; a payload that is on drives the pin low."
  },
  {
   "property": "C133",
   "status": "partial",
   "theorems": [
    "C133_newest_partial",
    "C133_distinct_partial",
    "C133_refuted",
    "C133_ids_partial"
   ],
   "note": "Settled negatively: a pool made with the id of an older one hides it though it is in use. Holds for the newest pool of each id, and in full when the ids differ."
  },
  {
   "property": "C134",
   "status": "partial",
   "theorems": [
    "C134_table_partial",
    "C134_distinct_partial",
    "C134_refuted"
   ],
   "note": "Settled negatively: when an id is used again the bytes of a buffer shown stay those of the older pool. All else holds, and all of it when the ids differ."
  },
  {
   "property": "C135",
   "status": "partial",
   "theorems": [
    "C135_bound_partial",
    "C135_refuted",
    "C135_symmetric_partial"
   ],
   "note": "Settled negatively: ten handles taken in a second are shown as one per second, because the difference is to the update before. The rate never exceeds the number of buffers of the largest pool (up to 2^24)."
  },
  {
   "property": "C136",
   "status": "partial",
   "theorems": [
    "C136_sound_partial",
    "C136_refuted",
    "C136_alignment_refuted",
    "C136_empty_refuted",
    "C136_exact_partial"
   ],
   "note": "Settled negatively: in a release build the number of bytes wraps, so 2^61 + 1 elements of 8 bytes get 8 bytes; an alignment less than that of the elements is accepted; without elements an allocation of no bytes is asked for. Holds otherwise."
  },
  {
   "property": "C137",
   "status": "partial",
   "theorems": [
    "C137_shown_partial",
    "C137_refuted"
   ],
   "note": "Settled negatively: an error followed by another of the same task before the next drawing is never shown. Holds for the last error of each task; a task without one is shown with its last status."
  },
  {
   "property": "C138",
   "status": "partial",
   "theorems": [
    "C138_safe_partial",
    "C138_ascii_partial",
    "C138_refuted",
    "C138_status_refuted"
   ],
   "note": "Settled negatively: the name of a type is cut 25 bytes from its end, and when that is inside a character the user interface panics with the statuses locked, so the robot panics at its next call. An empty status (set_status of an empty text, a message made anew) panics too. Holds when all names can be cut there, in particular in ASCII, and no status is empty."
  },
  {
   "property": "C139",
   "status": "partial",
   "theorems": [
    "C139_quits_partial",
    "C139_stops_partial",
    "C139_refuted",
    "C139_decisions_partial",
    "C139_console_partial"
   ],
   "note": "Settled negatively: while a preprocess call fails the console aborts each iteration before it is asked, so the robot goes on for ever after q. Holds for every iteration without such an abort."
  },
  {
   "property": "C140",
   "status": "partial",
   "theorems": [
    "C140_partial",
    "C140_refuted"
   ],
   "note": "Settled negatively: ids, types and parameters are not escaped, so a task of a generic type has a label that is not HTML. Holds when they have none of <, > and &; the types of messages are escaped and may have any. The reader of dot's language in the specification is a subset."
  },
  {
   "property": "C141",
   "status": "proved",
   "theorems": [
    "C141",
    "C141_safe",
    "C141_end",
    "C141_refused"
   ],
   "note": "Panics of irregular time stamps (shown by C141_case) and of a socket that fails are excluded by the statement."
  },
  {
   "property": "C142",
   "status": "partial",
   "theorems": [
    "C142_refuted",
    "C142_partial",
    "C142_rush_partial"
   ],
   "note": "Settled negatively: waiting is counted from the creation of the replayer, not from the last datagram, so of three packets 100 ms apart the last two go together. Holds: the order, and no datagram before the creation plus its gap. C142_rush_partial: a whole capture of any length is sent within its longest gap."
  },
  {
   "property": "C143",
   "status": "partial",
   "theorems": [
    "C143_refuted",
    "C143_datagram_refuted",
    "C143_dual_refuted",
    "C143_partial"
   ],
   "note": "Settled negatively: silence, read errors, foreign datagrams and points with two returns all panic. Holds: the calls that return are exactly those with a usable datagram, and they send its points."
  },
  {
   "property": "C144",
   "status": "partial",
   "theorems": [
    "C144_refuted",
    "C144_partial",
    "C144_order_partial"
   ],
   "note": "Settled negatively: the Velodyne source gives the ratio as a number of percents, so it is stored a hundred times too small. Holds for Hesai and Livox among themselves; the order of intensities is kept by all."
  },
  {
   "property": "C145",
   "status": "partial",
   "theorems": [
    "C145_refuted",
    "C145_partial",
    "C145_stopped_partial"
   ],
   "note": "Settled negatively: no configuration, or test_mode given as a boolean, panics. Holds when all parameters are texts."
  },
  {
   "property": "C146",
   "status": "proved",
   "theorems": [
    "C146",
    "C146_lossless"
   ],
   "note": "The service of iceoryx2 (a buffer whose oldest message makes room) is as its documentation says."
  },
  {
   "property": "C147",
   "status": "partial",
   "theorems": [
    "C147_refuted",
    "C147_lost_refuted",
    "C147_partial",
    "C147_started_partial"
   ],
   "note": "Settled negatively: the sink sends inputs without payload; each makes a call of the source fail and takes a place in the buffer, so payloads are pushed out. Holds when every message sent has a payload."
  },
  {
   "property": "C148",
   "status": "partial",
   "theorems": [
    "C148_refuted",
    "C148_partial"
   ],
   "note": "Settled negatively: a service given as something else than a text panics. Holds otherwise."
  },
  {
   "property": "C149",
   "status": "partial",
   "theorems": [
    "C149_partial",
    "C149_single_partial",
    "C149_refuted",
    "C149_quotes_refuted",
    "C149_letters_partial"
   ],
   "note": "Settled negatively: the first manifest found with the text name=\"crate\" is taken, also when that is the name of a binary of another crate; a name in single quotes is not found. Holds when a single manifest outside of target directories has that text."
  },
  {
   "property": "C150",
   "status": "partial",
   "theorems": [
    "C150_encoder_partial",
    "C150_gpio_partial",
    "C150_adc_partial",
    "C150_aligner_partial",
    "C150_lidar_partial",
    "C150_msp_partial",
    "C150_threshold_partial",
    "C150_motor_partial",
    "C150_pid_partial",
    "C150_tags_partial",
    "C150_gst_partial",
    "C150_types_refuted",
    "C150_refuted",
    "C150_cut_refuted",
    "C150_none_partial"
   ],
   "note": "Settled negatively: a parameter of another type panics everywhere; a missing one, a device that does not open or an unknown text panics in some components; integers are cut to their type. For each component: what is used, and exactly when there is an error, with parameters of the right type and range. Conversions to f64 are any functions."
  },
  {
   "property": "C151",
   "status": "partial",
   "theorems": [
    "C151_partial",
    "C151_refuted",
    "C151_width_refuted",
    "C151_panics_refuted"
   ],
   "note": "Settled negatively: a size that the camera does not list is replaced by 0 x 0 without an error, a width without a height is ignored; cameras with ranges of sizes, or none, panic. Holds when the camera lists the size."
  },
  {
   "property": "C152",
   "status": "partial",
   "theorems": [
    "C152_partial",
    "C152_refuted",
    "C152_ninth_refuted"
   ],
   "note": "Settled negatively: servos after a gap in the numbers, and from the ninth on, are ignored without an error. Holds for servos numbered from 0 without a gap."
  },
  {
   "property": "C153",
   "status": "partial",
   "theorems": [
    "C153_stop_partial",
    "C153_thread_partial",
    "C153_quit_partial",
    "C153_early_refuted",
    "C153_failed_stop_refuted"
   ],
   "note": "Settled negatively: a run that ends before the console's thread has set up the terminal, or one of whose tasks cannot be stopped, leaves the terminal in raw mode on the other screen. Holds when the threads have set up before the stop; when run ends because of q and every task stops; and, for one run, whenever the console's thread has ended."
  },
  {
   "property": "C154",
   "status": "partial",
   "theorems": [
    "C154_once_partial",
    "C154_quit_partial",
    "C154_refuted"
   ],
   "note": "Settled negatively: at most one console is ever shown in a process, the thread of every other start panics; after q every later run ends after one copper list."
  },
  {
   "property": "C155",
   "status": "partial",
   "theorems": [
    "C155_latencies_partial",
    "C155_stop_refuted"
   ],
   "note": "Settled negatively: a stop does not reset the end to end latencies. Exact: each task's latencies are those since the last reset or stop, the end to end ones those since the last reset."
  },
  {
   "property": "C156",
   "status": "partial",
   "theorems": [
    "C156_partial",
    "C156_refuted"
   ],
   "note": "Settled negatively: an angle just below a quarter turn reads 4096, one more than the converter can give. The reading is accurate to 1/500 of a step before it is cut to a whole number, and at most 4096."
  },
  {
   "property": "C157",
   "status": "proved",
   "theorems": [
    "C157_same"
   ],
   "note": "For a robot whose monitor ignores errors of process, as the console does."
  },
  {
   "property": "C158",
   "status": "proved",
   "theorems": [
    "C158_log",
    "C158_rerun"
   ],
   "note": ""
  },
  {
   "property": "C159",
   "status": "proved",
   "theorems": [
    "C159_runs"
   ],
   "note": ""
  },
  {
   "property": "C160",
   "status": "partial",
   "theorems": [
    "C160_refuted"
   ],
   "note": "Settled negatively: the error of the console reaches the expect in run_copper_callback, which panics."
  },
  {
   "property": "C161",
   "status": "partial",
   "theorems": [
    "C161_integers_partial",
    "C161_bytes_partial",
    "C161_sequences_partial",
    "C161_refuted"
   ],
   "note": "Settled negatively: strings are not quoted, so sequences of strings of different lengths can print the same. Holds for integers, bytes and sequences of integers."
  },
  {
   "property": "C162",
   "status": "partial",
   "theorems": [
    "C162_partial",
    "C162_refuted"
   ],
   "note": "Settled negatively: the export panics at the first message that the table lacks; the lines before it are printed, the others lost."
  },
  {
   "property": "C163",
   "status": "partial",
   "theorems": [
    "C163_partial",
    "C163_sent_partial",
    "C163_distinct_partial",
    "C163_late_refuted",
    "C163_short_refuted"
   ],
   "note": "Settled negatively: answers are not compared with the request, so after one late answer every reading is that of the servo asked before, and a valid answer with less data panics. Holds when every answer arrives before the next request; the values are correctly rounded and different positions never read the same."
  },
  {
   "property": "C164",
   "status": "partial",
   "theorems": [
    "C164_partial",
    "C164_refuted"
   ],
   "note": "Settled negatively for the counting: the float stays at 2^24 from the 16777192nd iteration on. Holds: both sinks get the same pair of that iteration, the integer counts, the float counts up to 2^24, and nothing panics before the integer has reached the largest i32."
  },
  {
   "property": "C165",
   "status": "proved",
   "theorems": [
    "C165_order",
    "C165_floats",
    "C165_total"
   ],
   "note": "The order is stated as a relation of its own; floats are read from their bits by the relation of IEEE 754 in PySpec."
  },
  {
   "property": "C166",
   "status": "proved",
   "theorems": [
    "C166_recording"
   ],
   "note": "The log accepts every list (a full disk is not modelled) and the clock stays below 2^64 ns; joins the models of the runtime, the codec, the unified log and the export."
  },
  {
   "property": "C167",
   "status": "proved",
   "theorems": [
    "C167_rerun",
    "C167_payloads"
   ],
   "note": "No iteration of the run is given up by the monitor and the getters of the sources are right (both needed: see C90); messages fit the types of their fields, as the compiler guarantees."
  },
  {
   "property": "C168",
   "status": "proved",
   "theorems": [
    "C168_died",
    "C168_shutdown"
   ],
   "note": "The slab size is a multiple of the page size, as in C03; a section still open counts as not closed and its lists are lost."
  },
  {
   "property": "C169",
   "status": "proved",
   "theorems": [
    "C169_died",
    "C169_payloads"
   ],
   "note": "Conditions on the application as in C167, on the log as in C168."
  },
  {
   "property": "C170",
   "status": "proved",
   "theorems": [
    "C170_times"
   ],
   "note": "Writes to the log succeed; fewer than 2^32 iterations. C170_aborted_refuted shows that the condition on aborts is needed: the list of an aborted iteration is recorded with messages, and times, of an earlier one."
  },
  {
   "property": "C171",
   "status": "proved",
   "theorems": [
    "C171_lines",
    "C171_died"
   ],
   "note": "Lines as in C57: unnamed parameters, none of them breaking a later placeholder. On files of a program that died the reader may report an error after the last line."
  },
  {
   "property": "C172",
   "status": "proved",
   "theorems": [
    "C172_alone",
    "C172_apart",
    "C172_leftover_refuted"
   ],
   "note": "Messages are compared without their process times. The whole new message matters: C172_leftover_refuted shows a task that sometimes leaves its output as it found it sending again what the reused copper list held."
  },
  {
   "property": "C173",
   "status": "partial",
   "theorems": [
    "C173_partial",
    "C173_reasons_partial",
    "C173_accounting_partial",
    "C173_refuted",
    "C173_lost_refuted"
   ],
   "note": "Settled negatively. The copied elements come back (C173_partial), a copy fails exactly for the reasons given (C173_reasons_partial) and buffers are counted correctly (C173_accounting_partial). False: behind data shorter than the device buffer the destination receives what an earlier user of the device buffer had put there (C173_refuted), and a copy to a host buffer that is too short poisons the device handle, so that its data can no longer be copied anywhere (C173_lost_refuted)."
  },
  {
   "property": "C174",
   "status": "partial",
   "theorems": [
    "C174_kept_partial",
    "C174_refuted"
   ],
   "note": "Settled negatively. It holds of all runs in which every iteration returns without error and the monitor ignores the errors of tasks (C174_kept_partial, for any number of copper lists, in simulation for tasks left to the runtime). After an iteration that returned an error its copper list stays taken, and the task next finds the message of another copper list (C174_refuted)."
  },
  {
   "property": "C175",
   "status": "proved",
   "theorems": [
    "C175_slots",
    "C175_error_refuted"
   ],
   "note": "No hypothesis on tasks, clock or monitor, nor on the number of iterations. The condition that errors end the comparison is needed: C175_error_refuted."
  },
  {
   "property": "C176",
   "status": "proved",
   "theorems": [
    "C176_logging",
    "C176_simulation",
    "C176_write_refuted"
   ],
   "note": "Equality of whole traces, apart from log entries or questions to the callback. The clock is part of the environment, whose final state is the same; how long a log write takes is outside the model. The condition on the writes is needed: C176_write_refuted."
  },
  {
   "property": "C177",
   "status": "proved",
   "theorems": [
    "C177_monitor",
    "C177_exchange"
   ],
   "note": "Equality of whole traces. That the monitor shares no state with the tasks is the only condition; how long its calls take is outside the model. Errors are assumed to have decidable equality."
  },
  {
   "property": "C178",
   "status": "proved",
   "theorems": [
    "C178_ignored"
   ],
   "note": "Equality of whole traces with errors and decisions left out. The monitor may count errors, but shares no state with the tasks. Sinks may fail in both runs: they send nothing. Errors are assumed to have decidable equality."
  },
  {
   "property": "C179",
   "status": "proved",
   "theorems": [
    "C179_clock",
    "C179_back_refuted"
   ],
   "note": "Equality of whole traces apart from process times. The exception for panics is needed: a clock that goes back makes the end to end time panic (C179_back_refuted)."
  },
  {
   "property": "C180",
   "status": "proved",
   "theorems": [
    "C180_influence",
    "C180_abort_refuted"
   ],
   "note": "Equality of the calls, inputs, results, logged messages and states of the group. The monitor ignores errors of tasks outside the group, decides by phase, task and error for those of the group, accepts every report, and the log can be written; a monitor that answers so may do what it likes (C177_exchange). Under a monitor that aborts at errors of other tasks they are felt by the group (C180_abort_refuted). Not in simulation."
  },
  {
   "property": "C181",
   "status": "partial",
   "theorems": [
    "C181_partial",
    "C181_refuted"
   ],
   "note": "Settled negatively: output.svg is emptied before the drawing is written, so when writing fails the earlier picture is lost (C181_refuted). Proved: exactly when a run succeeds, that it then leaves or shows exactly the drawing, and that a run that does not succeed leaves output.svg alone or, when writing failed, the part written. That the viewer started well is not looked at by the program."
  },
  {
   "property": "C182",
   "status": "partial",
   "theorems": [
    "C182_lists_partial",
    "C182_lines_partial",
    "C182_refuted"
   ],
   "note": "Settled negatively for the format: it is named in the heading and otherwise ignored, both give the debug notation (C182_refuted, whatever JSON and CSV are as long as they differ). Proved: every copper list logged is printed once and in order, and every line logged."
  }
 ]
}