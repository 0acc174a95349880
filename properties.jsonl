{"id": "C01", "title": "Unified log round trip", "statement": "After a clean shutdown, reading the log for an entry type returns, section by section and in allocation order, exactly the bytes that the streams of that type wrote: nothing lost, duplicated, reordered within a stream, or mixed with another stream's bytes, whatever the number of slabs the log spans.", "quantifier": "every sequence of stream openings, writes of arbitrary encoded objects, stream closings and slab roll-overs, for every page size below 65536, slab size and section size", "why_tests_cant": "The number of interleavings of streams, section exhaustion points and slab boundaries is unbounded; tests fix one or two layouts.", "anchors": ["core/cu29_unifiedlog/src/lib.rs: UnifiedLoggerWrite::add_section, MmapStream::log, SlabEntry::add_section, SlabEntry::flush_section, UnifiedLoggerRead::read_next_section_type"]}
{"id": "C02", "title": "Streams never touch each other's bytes", "statement": "A write through one stream, or the opening or closing of a stream, never changes a byte that another stream has written, and the byte ranges handed to two streams never overlap.", "quantifier": "every history of open, write and close operations on any number of streams", "why_tests_cant": "Aliasing between memory mapped buffers only shows up for particular size and alignment combinations.", "anchors": ["core/cu29_unifiedlog/src/lib.rs: SlabEntry::add_section, SlabEntry::flush_section, SectionHandle::get_user_buffer"]}
{"id": "C03", "title": "Sections closed before a crash survive it", "statement": "If the process dies at any point, then reading the file image left behind returns, for every section whose stream had been closed before that point, exactly the bytes that stream had written to it; a section still open reads as empty; no reader ever returns bytes that were not written.", "quantifier": "every crash point of every history of logger operations", "why_tests_cant": "Crash points are not enumerable by unit tests, which always drop the logger cleanly.", "anchors": ["core/cu29_unifiedlog/src/lib.rs: SlabEntry::flush_section, SectionHandle::update_header, UnifiedLoggerRead::read_next_section_type"]}
{"id": "C04", "title": "Records are never split across sections", "statement": "A logged object is found whole in one section: when it does not fit in what is left of the current section, the whole object is written to a fresh one and the earlier section's recorded size excludes any partially written prefix.", "quantifier": "every object encoding (as any sequence of chunk writes), every fill level of the current section", "why_tests_cant": "The partial-write path is only taken at specific remaining sizes inside a multi-chunk encoding.", "anchors": ["core/cu29_unifiedlog/src/lib.rs: MmapStream::log"]}
{"id": "C05", "title": "Log reader reports end of data only at the end of the log", "statement": "The std::io::Read adapter over the log returns 0 bytes (end of file) for a non-empty destination buffer only when no later section of the requested type holds data.", "quantifier": "every log produced by the writer and every sequence of read calls", "why_tests_cant": "Depends on the position of empty sections between non-empty ones.", "anchors": ["core/cu29_unifiedlog/src/lib.rs: UnifiedLoggerIOReader::read, UnifiedLoggerIOReader::fill_buffer"]}
{"id": "C06", "title": "Log flushing never loses track of open sections", "statement": "The flushed prefix of a slab never extends past the start of a section that is still being written, the set of open sections stays sorted and duplicate free, and once all sections of a slab are closed everything up to the write position (page padding aside) is flushed.", "quantifier": "every history of logger operations", "why_tests_cant": "It is an invariant over the full history of open and close orders.", "anchors": ["core/cu29_unifiedlog/src/lib.rs: SlabEntry::flush_section, SlabEntry::flush_until, SlabEntry::add_section"]}
{"id": "C07", "title": "Copper list manager is a bounded stack", "statement": "For a manager of capacity N, every history of create, peek, drop_last, pop and clear behaves as a stack of at most N copper lists: create fails exactly when N lists are live, pop returns and removes the newest live list.", "quantifier": "every N > 0 and every finite sequence of operations", "why_tests_cant": "Wrap-around of the insertion index interacts with pops and clears over unbounded histories.", "anchors": ["core/cu29_runtime/src/copperlist.rs: CuListsManager::{create,pop,peek,drop_last,clear,len,is_full}"]}
{"id": "C08", "title": "Copper list identifiers are unique and increasing", "statement": "Every copper list created by one manager carries an id strictly greater than all ids created before, so an id identifies one cycle of the robot.", "quantifier": "every sequence of operations, of any length", "why_tests_cant": "Needs 2^32 creations to exercise.", "anchors": ["core/cu29_runtime/src/copperlist.rs: CuListsManager::create"]}
{"id": "C09", "title": "Iterators visit exactly the live copper lists", "statement": "iter and iter_mut visit each live copper list exactly once from the newest to the oldest, asc_iter and asc_iter_mut exactly once from the oldest to the newest, and nothing else.", "quantifier": "every reachable manager state", "why_tests_cant": "Depends on the fill level and insertion index reached by the history.", "anchors": ["core/cu29_runtime/src/copperlist.rs: CuListsManager::{iter,iter_mut,asc_iter,asc_iter_mut}"]}
{"id": "C10", "title": "Finished copper lists are logged exactly once", "statement": "Whatever order copper lists finish in, each list that finished processing is serialized to the log at most once, never before it finished, and as soon as no list created after it is unfinished; its slot is then available again.", "quantifier": "every interleaving of create and end-of-processing calls over any number of copper lists", "why_tests_cant": "Out-of-order completion histories are unbounded.", "anchors": ["core/cu29_runtime/src/curuntime.rs: CuRuntime::end_of_processing, CuRuntime::available_copper_lists", "core/cu29_runtime/src/copperlist.rs"]}
{"id": "C11", "title": "Execution plan respects the data flow", "statement": "In the computed execution plan each task appears at most once and only after all the tasks it consumes messages from.", "quantifier": "every task graph accepted by the configuration", "why_tests_cant": "The number of graphs and of connection declaration orders is unbounded.", "anchors": ["core/cu29_runtime/src/curuntime.rs: compute_runtime_plan, plan_tasks_tree_branch"]}
{"id": "C12", "title": "Execution plan is complete", "statement": "For every acyclic task graph in which each task without input has at least one consumer, the execution plan contains every task exactly once.", "quantifier": "every acyclic task graph and every declaration order", "why_tests_cant": "Completeness of the breadth-first planning depends on arbitrary graph shapes.", "anchors": ["core/cu29_runtime/src/curuntime.rs: compute_runtime_plan, plan_tasks_tree_branch"]}
{"id": "C13", "title": "Planning terminates and omits exactly the tasks behind cycles", "statement": "Planning terminates on every graph. It fails exactly when some task has no connection at all; otherwise the tasks missing from the plan are exactly those that lie on a cycle or downstream of one.", "quantifier": "every finite directed graph, cyclic or not", "why_tests_cant": "Termination and the exact set of omitted tasks are statements over all graphs.", "anchors": ["core/cu29_runtime/src/curuntime.rs: compute_runtime_plan"]}
{"id": "C14", "title": "Task inputs arrive in declaration order", "statement": "The inputs of a task in the plan are ordered by the order in which its incoming connections were declared in the configuration, one input per producer, each designating the slot where that producer's message is stored.", "quantifier": "every task graph without parallel connections", "why_tests_cant": "Depends on declaration orders of all connections of the graph.", "anchors": ["core/cu29_runtime/src/curuntime.rs: sort_inputs_by_cnx_id, find_edge_with_plan_input_id, plan_tasks_tree_branch"]}
{"id": "C15", "title": "Input message types follow the connection", "statement": "The message type planned for an input of a task is the message type declared on the connection feeding that input.", "quantifier": "every task graph and message type assignment", "why_tests_cant": "Only visible for producers with several outgoing connections.", "anchors": ["core/cu29_runtime/src/curuntime.rs: plan_tasks_tree_branch, find_output_index_type_from_nodeid"]}
{"id": "C16", "title": "Task lifecycle order", "statement": "In every run, no task is processed unless all tasks were started without a shutdown decision; preprocess of all tasks precedes process of any task, which precedes postprocess, in each iteration; tasks are processed in plan order; stop is attempted whenever the main loop ends.", "quantifier": "every pattern of task results and monitor decisions over any number of iterations", "why_tests_cant": "The error patterns and decisions form an unbounded tree of executions.", "anchors": ["core/cu29_derive/src/lib.rs: run_one_iteration, start_all_tasks, stop_all_tasks, run"]}
{"id": "C17", "title": "Error decisions are honoured", "statement": "When a task fails while processing: Ignore empties that task's output and the iteration continues with the next task; Abort processes no later task in that iteration, yet the iteration's copper list is still reported and logged, and the next iteration runs; Shutdown processes no later task and makes the application return the error.", "quantifier": "every task set, failure pattern and decision pattern", "why_tests_cant": "Quantifies over all failure points and decisions.", "anchors": ["core/cu29_derive/src/lib.rs: gen_runtime process steps and monitoring_action"]}
{"id": "C18", "title": "Each completed iteration logs exactly one copper list", "statement": "Each iteration that completes (including aborted ones) logs exactly one copper list, with a fresh id, whose messages are those produced during that iteration.", "quantifier": "every run from a fresh runtime, all failure patterns", "why_tests_cant": "Stale data in reused slots only shows after particular failure histories.", "anchors": ["core/cu29_derive/src/lib.rs: run_one_iteration", "core/cu29_runtime/src/curuntime.rs: end_of_processing", "core/cu29_runtime/src/copperlist.rs: create"]}
{"id": "C19", "title": "Copper list slots are not leaked", "statement": "However iterations end, the application never runs out of copper list slots.", "quantifier": "every sequence of iterations with any results", "why_tests_cant": "Needs repeated failing iterations.", "anchors": ["core/cu29_derive/src/lib.rs: run_one_iteration", "core/cu29_runtime/src/curuntime.rs: end_of_processing"]}
{"id": "C20", "title": "Monitoring attributes measurements to the right task", "statement": "The i-th metadata given to the monitor and the output returned by a task's getter belong to that task (the monitor's metadata order is the order of the task ids it was constructed with).", "quantifier": "every task graph", "why_tests_cant": "Only wrong for particular plan permutations.", "anchors": ["core/cu29_derive/src/lib.rs: gen_culist_support", "core/cu29_runtime/src/curuntime.rs: CuRuntime::new"]}
{"id": "C21", "title": "Simulation callback control", "statement": "In simulation mode, a task's code runs in a step exactly when the callback answers ExecuteByRuntime; an Errored answer is handled exactly like a task failure.", "quantifier": "every callback and failure pattern", "why_tests_cant": "Quantifies over all callback behaviours.", "anchors": ["core/cu29_derive/src/lib.rs: sim_mode process steps", "core/cu29_runtime/src/simulation.rs: SimOverride"]}
{"id": "C22", "title": "Bincode integer encoding is lossless and prefix free", "statement": "Every integer, time, option, byte string and sequence that Copper stores is decoded back to the same value from its encoding followed by arbitrary bytes, leaving exactly those bytes; encodings never exceed the size bound used for the section header.", "quantifier": "every value of each width, every continuation of the stream", "why_tests_cant": "The value domain is 2^64 and wider.", "anchors": ["core/cu29_unifiedlog/src/lib.rs: SectionHeader, MAX_HEADER_SIZE", "core/cu29_clock/src/lib.rs: CuDuration Encode/Decode"]}
{"id": "C23", "title": "Copper list serialization round trip", "statement": "A copper list with its messages, metadata (process times, time of validity, status text) encodes to bytes from which the same copper list is decoded, for any continuation of the stream; a log of many copper lists decodes to the same sequence.", "quantifier": "every copper list and every sequence of copper lists", "why_tests_cant": "Unbounded payloads and sequences.", "anchors": ["core/cu29_runtime/src/cutask.rs: CuMsg, CuMsgMetadata, CuCompactString", "core/cu29_runtime/src/copperlist.rs: CopperList", "core/cu29_derive/src/lib.rs: build_culist_tuple_encode/decode", "core/cu29_export/src/lib.rs: copperlists_dump"]}
{"id": "C24", "title": "Structured log values round trip", "statement": "Every structured log value (including nested sequences, maps, options) is decoded back to itself from its binary encoding.", "quantifier": "every value of the recursive Value type", "why_tests_cant": "Unbounded nesting.", "anchors": ["core/cu29_value/src/benc.rs", "core/cu29_value/src/bdec.rs: Decode for Value"]}
{"id": "C25", "title": "Borrowed decoding agrees with owned decoding", "statement": "Decoding a structured value with the borrowing decoder gives the same value as the owning decoder.", "quantifier": "every encoded value", "why_tests_cant": "Per-tag table mismatches need one case per tag and nesting.", "anchors": ["core/cu29_value/src/bdec.rs: BorrowDecode for Value"]}
{"id": "C26", "title": "Log entries are rebuilt into the logged line", "statement": "For a log entry whose parameter texts contain no placeholder, rebuilding the line substitutes the k-th unnamed parameter for the k-th anonymous placeholder of the interned format string.", "quantifier": "every format string and parameter list", "why_tests_cant": "Depends on arbitrary format and parameter strings.", "anchors": ["core/cu29_log/src/lib.rs: format_logline, rebuild_logline"]}
{"id": "C27", "title": "Log parameters keep their placeholder whatever they contain", "statement": "The text of one log parameter never influences where another parameter is placed in the rebuilt line.", "quantifier": "every format string and parameter texts", "why_tests_cant": "Needs parameter values that contain placeholder syntax.", "anchors": ["core/cu29_log/src/lib.rs: format_logline"]}
{"id": "C28", "title": "Log parameters keep the order of the call", "statement": "When a debug! call mixes named and unnamed parameters, each placeholder receives the parameter written at its position; in debug console mode each named parameter is displayed with its own value.", "quantifier": "every debug! call", "why_tests_cant": "Every mix and order of named and unnamed parameters.", "anchors": ["core/cu29_log_derive/src/lib.rs: debug!", "core/cu29_log_runtime/src/lib.rs: log_debug_mode"]}
{"id": "C29", "title": "String interning is stable and injective", "statement": "Interning never gives two different strings the same index nor one string two indices, never uses the index reserved for anonymous parameters, and an index once given keeps denoting the same string; the exported table returns the string for each index.", "quantifier": "every sequence of interning requests across builds", "why_tests_cant": "Unbounded histories.", "anchors": ["core/cu29_log_derive/src/index.rs: intern_string, get_next_index", "core/cu29_intern_strs/src/lib.rs: read_interned_strings"]}
{"id": "C30", "title": "Configuration round trip", "statement": "Serializing a configuration and reading it back gives the same tasks in the same order and the same connections in the same order, provided task ids are unique and no task was removed.", "quantifier": "every configuration graph", "why_tests_cant": "Unbounded graphs.", "anchors": ["core/cu29_runtime/src/config.rs: Serialize/Deserialize for CuConfig, connect_ext"]}
{"id": "C31", "title": "Memory pool buffers are exclusive and returned", "statement": "A pool of N buffers never hands the same buffer to two live handles obtained by separate acquisitions, has N live acquisitions at most, and a buffer becomes available again exactly when the last clone of its handle is dropped.", "quantifier": "every history of acquire, clone and drop operations", "why_tests_cant": "Unbounded ownership histories.", "anchors": ["core/cu29_runtime/src/pool.rs: CuHostMemoryPool, CuHandle"]}
{"id": "C32", "title": "Duration statistics are exact", "statement": "The count, minimum, maximum, mean and the jitter statistics reported by the monitor are those of the whole sequence of recorded durations since the last reset.", "quantifier": "every sequence of recorded durations", "why_tests_cant": "Unbounded sequences.", "anchors": ["core/cu29_runtime/src/monitoring.rs: CuDurationStatistics, LiveStatistics"]}
{"id": "C33", "title": "Structure-of-arrays container behaves as a bounded list", "statement": "The generated container behaves as a bounded list of records under push, pop, set, get, apply and iteration.", "quantifier": "every history of operations and every capacity", "why_tests_cant": "Unbounded histories.", "anchors": ["core/cu29_soa_derive/src/lib.rs"]}
{"id": "C34", "title": "Structure-of-arrays serialization round trip", "statement": "Decoding an encoded structure-of-arrays container gives back the same elements.", "quantifier": "every container content", "why_tests_cant": "Field-wise framing depends on the length.", "anchors": ["core/cu29_soa_derive/src/lib.rs: Encode/Decode"]}
{"id": "C35", "title": "Bounded array payload", "statement": "The fixed capacity array payload keeps the first N elements it is filled with, encodes and decodes losslessly, and rejects encoded lengths above its capacity.", "quantifier": "every capacity, iterator and byte stream", "why_tests_cant": "Every length and content.", "anchors": ["core/cu29_runtime/src/payload.rs: CuArray"]}
{"id": "C36", "title": "Optional times are lossless", "statement": "A time stored in the compact optional representation is read back as the same time; an absent time as absent.", "quantifier": "every u64 time", "why_tests_cant": "The single failing value is the sentinel.", "anchors": ["core/cu29_clock/src/lib.rs: OptionCuTime"]}
{"id": "C37", "title": "Exported timestamps denote the logged time", "statement": "The Python timedelta exported for a log entry denotes the entry's time (to the microsecond).", "quantifier": "every u64 time", "why_tests_cant": "Only fails for runs longer than a day.", "anchors": ["core/cu29_export/src/lib.rs: PyCuLogEntry::ts"]}
{"id": "C38", "title": "Time range covers its samples", "statement": "The time range computed from a set of times is the smallest range containing all of them, independently of their order.", "quantifier": "every non-empty list of times", "why_tests_cant": "Unbounded lists.", "anchors": ["core/cu29_clock/src/lib.rs: CuTimeRange::from"]}
{"id": "C39", "title": "MSP packets round trip", "statement": "A stream of serialized MSP packets fed byte by byte to the parser yields exactly those packets in order, in both protocol versions.", "quantifier": "every sequence of packets within the size limits of the protocol version, every chunking", "why_tests_cant": "Unbounded packet sequences.", "anchors": ["components/common/cu_msp_lib/src/lib.rs: MspParser::parse, MspPacket::serialize, MspPacket::serialize_v2"]}
{"id": "C40", "title": "MSP corruption is detected", "statement": "Changing any single byte of the command or payload (or checksum) of a serialized packet makes the parser report a checksum error and deliver no packet.", "quantifier": "every packet, position and wrong byte", "why_tests_cant": "Packet contents are unbounded.", "anchors": ["components/common/cu_msp_lib/src/lib.rs: MspParser::parse"]}
{"id": "C41", "title": "MSP parser resynchronises", "statement": "After any garbage, once the parser is between packets a following valid packet is delivered; the parser never panics and is between packets after every error or delivered packet. In particular a stray start byte must not hide the packet that follows.", "quantifier": "every byte stream", "why_tests_cant": "Every prefix of garbage.", "anchors": ["components/common/cu_msp_lib/src/lib.rs: MspParser::parse, MspParser::reset"]}
{"id": "C42", "title": "MSP source delivers every received packet", "statement": "Every packet received on the serial line is delivered in some batch, in order.", "quantifier": "every byte stream and every chunking of reads", "why_tests_cant": "Depends on the number of packets per read.", "anchors": ["components/sources/cu_msp_src/src/lib.rs: MSPSrc::process"]}
{"id": "C43", "title": "Servo bus frames round trip", "statement": "A frame sent to a servo is parsed back to the same id, command and data by the response reader; corrupted frames are rejected by checksum; no received bytes can crash the task.", "quantifier": "every frame and byte stream", "why_tests_cant": "Every length byte value.", "anchors": ["components/sinks/cu_lewansoul/src/lib.rs: send_packet, read_response, compute_checksum"]}
{"id": "C44", "title": "ADC filter stays within the samples", "statement": "The filtered ADC value is always between the smallest and the largest raw sample seen since start, and equals the input for a constant input.", "quantifier": "every sequence of samples", "why_tests_cant": "Integer rounding drift over unbounded histories.", "anchors": ["components/sources/cu_ads7883/src/lib.rs: start, process"]}
{"id": "C45", "title": "Aligner window", "statement": "The aligned data handed to a task contains exactly the buffered messages whose time of validity lies in the alignment window ending at the latest time for which every input has data, in arrival order; purging removes exactly the messages older than the horizon for time ordered inputs.", "quantifier": "every sequence of pushes and purges", "why_tests_cant": "Unbounded histories.", "anchors": ["components/tasks/cu_aligner/src/buffers.rs: TimeboundCircularBuffer, alignment_buffers!"]}
{"id": "C46", "title": "Aligner tolerates any clock value", "statement": "Alignment works from the first instant of the clock: purging with a horizon longer than the elapsed time removes nothing.", "quantifier": "every clock value and horizon", "why_tests_cant": "Only fails at start-up.", "anchors": ["components/tasks/cu_aligner/src/buffers.rs: purge, get_latest_aligned_data"]}
{"id": "C47", "title": "Adaptive threshold is exact", "statement": "Each output pixel is white exactly when it is brighter than the mean of the block around it clipped to the image, for every frame of a stream processed with the same scratch buffer.", "quantifier": "every size whose brightest image has a pixel sum that fits 32 bits, every block radius from 1 to 2^31-1, every sequence of frames", "why_tests_cant": "All images.", "anchors": ["components/tasks/cu_dynthreshold/src/cu_dynthreshold_impl.rs: integral_image, sum_image_pixels, adaptive_threshold"]}
{"id": "C48", "title": "Point cloud sort", "statement": "Sorting a point cloud orders its points by time and keeps each point's attributes together.", "quantifier": "every point cloud and fill level", "why_tests_cant": "All permutations and fill levels.", "anchors": ["components/payloads/cu_sensor_payloads/src/pointcloud.rs: PointCloudSoa::sort, quicksort, partition, swap"]}
{"id": "C49", "title": "PID output is bounded", "statement": "The PID controller's output never exceeds the configured output limit in magnitude, nor do its reported terms, for every history, including infinite inputs; the only exception is NaN.", "quantifier": "every history of float measurements and intervals", "why_tests_cant": "All float histories.", "anchors": ["components/tasks/cu_pid/src/lib.rs: PIDController::next_control_output"]}
{"id": "C50", "title": "PID freeze/thaw resumes identically", "statement": "A PID task thawed from its frozen state behaves on all further inputs as the original would have.", "quantifier": "every state and input continuation", "why_tests_cant": "Needs comparison over all continuations.", "anchors": ["components/tasks/cu_pid/src/lib.rs: Freezable for GenericPIDTask"]}
{"id": "C51", "title": "Motor driver applies the last command", "statement": "After each processed message with a payload the motor runs at the commanded (compensated) power, whatever happened before, and the compensated power stays within [-1, 1] for commands within [-1, 1].", "quantifier": "every history of payloads and missing payloads", "why_tests_cant": "Depends on history of missing payloads.", "anchors": ["components/sinks/cu_rp_sn754410/src/lib.rs: process"]}
{"id": "C52", "title": "Camera timestamps are in robot time", "statement": "A camera frame captured at some instant carries the robot clock time of that instant.", "quantifier": "every clock offset", "why_tests_cant": "Offset sign only visible when clocks differ.", "anchors": ["components/sources/cu_v4l/src/lib.rs: start, cutime_from_v4ltime"]}
{"id": "C53", "title": "Console node classification", "statement": "The console shows a task as source, sink or regular task according to whether it has only outgoing, only incoming or both kinds of connections.", "quantifier": "every graph and edge order", "why_tests_cant": "All graphs.", "anchors": ["components/monitors/cu_consolemon/src/lib.rs: NodeType"]}
{"id": "C54", "title": "Reflectivity serialization round trip", "statement": "The reflectivity stored in a serialized point cloud is read back unchanged.", "quantifier": "every ratio", "why_tests_cant": "Unit conversion only visible on decode.", "anchors": ["components/payloads/cu_sensor_payloads/src/pointcloud.rs: Reflectivity"]}
{"id": "C55", "title": "Recorded copper lists are what the export gives", "statement": "After a run whose copper lists were logged through one stream and a clean shutdown, exporting the log yields exactly the logged copper lists, in order.", "quantifier": "every sequence of copper lists and payload types with lossless encoders, every interleaving with other streams, every page, slab and section size", "why_tests_cant": "Composes framing, rollover, slab files and codecs over unbounded histories.", "anchors": ["core/cu29_export/src/lib.rs: copperlists_dump", "core/cu29_unifiedlog/src/lib.rs: UnifiedLoggerIOReader, stream_write", "core/cu29_runtime/src/copperlist.rs: CopperList"]}
{"id": "C56", "title": "End-to-end time of an iteration", "statement": "Computing the end-to-end time of a completed iteration never fails when the clock never goes back.", "quantifier": "every task graph accepted by the planner, every monotone clock, any number of iterations", "why_tests_cant": "Depends on the declaration order of tasks and on the overflow mode of the build.", "anchors": ["core/cu29_derive/src/lib.rs: run_one_iteration (e2e)", "core/cu29_clock/src/lib.rs: CuDuration Sub"]}
{"id": "C57", "title": "Text export prints one line per log call", "statement": "Exporting a structured text log prints, in the order of the calls, exactly one line per debug! call, made of the time of the call and its message with every parameter in its place.", "quantifier": "every sequence of calls, format strings, parameter values and times", "why_tests_cant": "Needs arbitrary sequences of entries through encoding, decoding, string table and formatting.", "anchors": ["core/cu29_export/src/lib.rs: textlog_dump", "core/cu29_log/src/lib.rs: rebuild_logline", "core/cu29_log_derive/src/lib.rs: debug!"]}
{"id": "C58", "title": "Task parameters arrive unchanged", "statement": "A parameter set in the configuration of a task is returned unchanged when the task asks for it, or the request fails; it is never silently replaced by another value.", "quantifier": "every parameter value, requested type and other parameters", "why_tests_cant": "Needs all values of all pairs of integer types.", "anchors": ["core/cu29_runtime/src/config.rs: Node::get_param, Node::set_param, From<Value>"]}
{"id": "C59", "title": "Console monitor accepts every metadata", "statement": "The console monitor accepts the metadata of every copper list the runtime can produce, whatever the tasks' status text and durations, and its statistics then count one more sample per task.", "quantifier": "every status text, every processing time, every history", "why_tests_cant": "Needs all status texts and durations; the failure kills the robot through its monitor.", "anchors": ["components/monitors/cu_consolemon/src/lib.rs: process_copperlist, TaskStats::update"]}
{"id": "C60", "title": "ADC filter converges", "statement": "When the input of the analog converter stays at a value, the filtered output reaches that value after finitely many reads and stays there.", "quantifier": "every history of samples and every constant value", "why_tests_cant": "A limit over unbounded executions with integer rounding.", "anchors": ["components/sources/cu_ads7883/src/lib.rs: process"]}
{"id": "C61", "title": "Aligner task delivers the aligned payloads", "statement": "Whenever aligned data are available the aligner's output holds the payloads of the aligned messages, up to the size of each output array.", "quantifier": "every aligner state, every input and every state of the output message", "why_tests_cant": "Needs all states of the reused output message and messages without payload.", "anchors": ["components/tasks/cu_aligner/src/lib.rs: define_task!"]}
{"id": "C62", "title": "PID output stays a number", "statement": "However long it runs, the PID sends finite numbers: with a finite configuration, a set point and measurements up to 2^50 in magnitude and increasing times, neither the growth of the integral nor short intervals ever produce NaN or infinity.", "quantifier": "every finite configuration, every history of measurements up to 2^50 with increasing times, with stops", "why_tests_cant": "One NaN poisons the integral for ever and appears only after long histories of extreme values.", "anchors": ["components/tasks/cu_pid/src/lib.rs: PIDController::next_control_output, GenericPIDTask::process"]}
{"id": "C63", "title": "Sources that received nothing send nothing", "statement": "A source task that received nothing from its device leaves no payload in its output message, whatever a previous iteration left there.", "quantifier": "every state of the reused output message, every source of the list", "why_tests_cant": "Needs the content left by earlier iterations in a reused message.", "anchors": ["components/sources/cu_v4l/src/lib.rs: process", "components/sources/cu_iceoryx2_src/src/lib.rs: process", "components/sources/cu_gstreamer/src/cu_gstreamer_impl.rs: process", "components/sources/cu_livox/src/lib.rs: process", "components/sources/cu_hesai/src/lib.rs: process"]}
{"id": "C64", "title": "Pipeline frames are delivered in order", "statement": "The video pipeline source sends each frame at most once and in order of arrival; it skips a frame only when as many newer ones as its buffer holds arrived before it could be sent.", "quantifier": "every interleaving of frame arrivals, process calls, starts and stops, every buffer size", "why_tests_cant": "Concurrent arrivals at any rate against any schedule of calls.", "anchors": ["components/sources/cu_gstreamer/src/cu_gstreamer_impl.rs: process, start, stop, new_sample callback"]}
{"id": "C65", "title": "Encoder count is exact", "statement": "Every message of the wheel encoder carries the number of forward edges minus the number of backward edges seen so far, as long as this fits its type.", "quantifier": "every interleaving of interrupts and process calls", "why_tests_cant": "Interrupts come concurrently at any moment.", "anchors": ["components/sources/cu_rp_encoder/src/lib.rs: start, process"]}
{"id": "C66", "title": "Lidar drivers take or refuse every datagram", "statement": "Every datagram received by the Hesai or Livox driver is either accepted or refused with an error; those accepted are exactly the well-formed ones of the manufacturer's format. No datagram stops the robot.", "quantifier": "every byte sequence of every length", "why_tests_cant": "All contents and lengths of datagrams; anyone on the network can send them.", "anchors": ["components/sources/cu_hesai/src/parser.rs: parse_packet, check_invariants", "components/sources/cu_livox/src/parser.rs: parse_frame"]}
{"id": "C67", "title": "Hesai points are those measured", "statement": "For every well-formed packet the parsed packet has the values the lidar encoded, and the message of the source has exactly one point per echo, in packet order, with its azimuth, channel, distance and reflectivity. Nothing else makes points.", "quantifier": "every well-formed packet", "why_tests_cant": "All field values at all 256 positions.", "anchors": ["components/sources/cu_hesai/src/parser.rs: Packet, parse_packet", "components/sources/cu_hesai/src/lib.rs: Xt32::process"]}
{"id": "C68", "title": "Livox points are those measured", "statement": "For every well-formed frame the message of the source has exactly the 96 points of the frame in order, with their coordinates, reflectivity and the time stamp of the frame. Nothing else makes points.", "quantifier": "every well-formed frame", "why_tests_cant": "All field values at all 96 positions, including negative coordinates.", "anchors": ["components/sources/cu_livox/src/parser.rs: LidarFrame, parse_frame", "components/sources/cu_livox/src/lib.rs: Tele15::process"]}
{"id": "C69", "title": "Hesai block start times", "statement": "The start times of the eight blocks of a packet are those of the manufacturer's table for the return mode of the packet.", "quantifier": "every well-formed packet, every synchronization time", "why_tests_cant": "Needs both return modes and all times.", "anchors": ["components/sources/cu_hesai/src/parser.rs: Packet::block_ts, Header::is_dual_return"]}
{"id": "C70", "title": "Hesai point times", "statement": "Every point has the time at which its laser fired in its block according to the manual.", "quantifier": "every well-formed packet, every point of it", "why_tests_cant": "Needs every block and channel in both modes.", "anchors": ["components/sources/cu_hesai/src/lib.rs: channel_time, Xt32::process"]}
{"id": "C71", "title": "Lidar message time covers its points", "statement": "The time of validity of a lidar message is a range that contains the times of all its points, and no wider than needed.", "quantifier": "every well-formed packet and previous content of the message", "why_tests_cant": "Needs all times, and the content left in a reused message.", "anchors": ["components/sources/cu_hesai/src/lib.rs: Xt32::process", "components/sources/cu_livox/src/lib.rs: Tele15::process"]}
{"id": "C72", "title": "Lidar dates become robot times", "statement": "The robot time given to a Hesai packet is the robot time of the last synchronization plus the (possibly negative) time from the synchronization to the date of the packet.", "quantifier": "every date, every synchronization", "why_tests_cant": "Packets older than the synchronization come only from a full socket buffer.", "anchors": ["components/sources/cu_hesai/src/parser.rs: Tail::tov, Tail::utc_tov"]}
{"id": "C73", "title": "Logged parameters are read back unchanged", "statement": "A value of any serializable type (structs, enums, options, maps, times and so on, without 128-bit integers) given as a parameter to a logging macro is recorded, the record is decoded from the log whatever follows it, and deserialize_into that type gives the same value back; a robot time is recorded as a time.", "quantifier": "every type built from the serde data model, every value of it, every list of parameters, every continuation of the log", "why_tests_cant": "Types and values nest without bound.", "anchors": ["core/cu29_value/src/ser.rs: to_value, Serializer", "core/cu29_value/src/de.rs: ValueDeserializer, EnumDeserializer, VariantDeserializer", "core/cu29_value/src/lib.rs: Value::deserialize_into", "core/cu29_log_derive/src/lib.rs: create_log_entry"]}
{"id": "C74", "title": "Logging a parameter never panics", "statement": "A logging macro accepts every parameter whose type can be serialized.", "quantifier": "every parameter value", "why_tests_cant": "All types a user may log.", "anchors": ["core/cu29_log_derive/src/lib.rs: create_log_entry (expect)", "core/cu29_value/src/ser.rs: to_value"]}
{"id": "C75", "title": "A structured value read back as a structured value is unchanged", "statement": "Deserializing a Value as Value gives the same Value, and a Value that is itself logged is recorded as it is.", "quantifier": "every structured value", "why_tests_cant": "Values nest without bound.", "anchors": ["core/cu29_value/src/de.rs: ValueVisitor, Deserialize for Value", "core/cu29_value/src/ser.rs: Serialize for Value"]}
{"id": "C76", "title": "Typed reading of a structured value is exact or fails", "statement": "Reading a structured value as a typed one never changes an integer and never drops or invents elements of lists, tuples and tuple variants or fields of structs; otherwise it reports an error.", "quantifier": "every structured value, every wanted type", "why_tests_cant": "All combinations of recorded and wanted types and lengths.", "anchors": ["core/cu29_value/src/de.rs: ValueDeserializer::deserialize_any, VariantDeserializer::tuple_variant", "core/cu29_value/src/lib.rs: Value::deserialize_into"]}
{"id": "C77", "title": "Equality, order and hash of structured values agree", "statement": "Equality of structured values is an equivalence that agrees with their order, equal values hash alike, and values without floats are equal only when identical; so values may be keys of any map.", "quantifier": "every pair (or triple) of structured values", "why_tests_cant": "All nested values, including NaN and negative zero.", "anchors": ["core/cu29_value/src/lib.rs: PartialEq, Ord and Hash for Value"]}
{"id": "C78", "title": "Errors handed on keep their kind", "statement": "Converting a deserialization error into another error type keeps what went wrong.", "quantifier": "every deserialization error", "why_tests_cant": "All kinds of errors with all contents.", "anchors": ["core/cu29_value/src/de.rs: DeserializerError::to_error, into_error"]}
{"id": "C79", "title": "MSP packets are decoded exactly and never stop the source", "statement": "Every packet the flight controller may send becomes the response it encodes, field by field; a packet that encodes no response is reported or skipped, and never stops the task.", "quantifier": "every command number, every data of every length, every stream of such packets", "why_tests_cant": "All contents and lengths of 47 kinds of messages; the other end of the line may be newer than the library.", "anchors": ["components/common/cu_msp_lib/src/structs.rs: From<MspPacket> for MspResponse and the packed structs", "components/common/cu_msp_lib/src/commands.rs: From<u16>", "components/common/cu_msp_lib/src/lib.rs: MspPacket::decode_as", "components/sources/cu_msp_src/src/lib.rs: process"]}
{"id": "C80", "title": "MSP responses survive conversion to packets and back", "statement": "Converting a response into a packet and the packet back into a response gives the same response.", "quantifier": "every response, every value of its fields", "why_tests_cant": "All values of all fields of all messages.", "anchors": ["components/common/cu_msp_lib/src/structs.rs: MspResponse::to_bytes, From<MspResponse> for MspPacket, From<MspPacket> for MspResponse"]}
{"id": "C81", "title": "MSP requests are sent in order", "statement": "The sink sends one packet per request, in order, each with the command and the data of its request; when the line fails it reports it, and what was sent is a beginning of that.", "quantifier": "every batch of requests, every failure of the line", "why_tests_cant": "All batches, all values, all places where a write can fail; and the packets must be parsed back.", "anchors": ["components/sinks/cu_msp_sink/src/lib.rs: process", "components/common/cu_msp_lib/src/structs.rs: From<&MspRequest> for MspPacket", "components/common/cu_msp_lib/src/lib.rs: MspPacket::serialize"]}
{"id": "C82", "title": "Radio channels are numbered alike", "statement": "A setter of the remote control message writes the channel of that name in the library's own numbering, and no other.", "quantifier": "every setter, every value, every content", "why_tests_cant": "All contents of the message.", "anchors": ["components/common/cu_msp_lib/src/structs.rs: MspRc::set_throttle, MspRc::set_yaw, MspRcChannel"]}
{"id": "C83", "title": "Batches of MSP requests survive the log", "statement": "A batch of requests written to the log is read back unchanged, whatever follows it.", "quantifier": "every batch of requests, every continuation of the log", "why_tests_cant": "Batches of any length with all channel values.", "anchors": ["components/sinks/cu_msp_sink/src/lib.rs: Encode and Decode for MspRequestBatch", "components/common/cu_msp_lib/src/structs.rs: MspRequest, MspRc"]}
{"id": "C84", "title": "Cell voltage for every battery", "statement": "The voltage per cell of a battery is computed for every battery state a packet can carry.", "quantifier": "every cell count a packet can carry", "why_tests_cant": "Depends on the overflow mode of the build and on all values.", "anchors": ["components/common/cu_msp_lib/src/structs.rs: MspBatteryState::cell_voltage"]}
{"id": "C85", "title": "Duration arithmetic is exact or stops", "statement": "In a build with overflow checks every sum, difference and product of robot durations is the mathematical one, or the robot stops; converting durations loses nothing. Without checks, any chain of sums and differences whose result is a duration is right.", "quantifier": "all durations, all factors, all chains of operations", "why_tests_cant": "All pairs of 64 bit values, negative factors, both builds.", "anchors": ["core/cu29_clock/src/lib.rs: Add, Sub, Mul and Div for CuDuration, Mul<CuDuration> for i32, From<Duration>"]}
{"id": "C86", "title": "A mocked clock reads what its holder wants", "statement": "However the holders of a mocked clock move it (forward, backward, to a value), one call at a time, the clock and all its clones read the time wanted, as long as this is a time; after setting a value they read this value.", "quantifier": "every history of calls", "why_tests_cant": "Histories of any length over 64 bit values.", "anchors": ["core/cu29_clock/src/lib.rs: RobotClockMock::increment, decrement, set_value, RobotClock::mock, RobotClock::now"]}
{"id": "C87", "title": "A mocked clock set by two threads", "statement": "When two threads set a mocked clock at the same time it ends at one of the two times.", "quantifier": "every interleaving, all times", "why_tests_cant": "Depends on the interleaving.", "anchors": ["core/cu29_clock/src/lib.rs: RobotClockMock::set_value"]}
{"id": "C88", "title": "A clock starts at its reference time", "statement": "A clock built from a reference time reads this time when built, a new clock reads zero, and then both go exactly as the machine's clock, never back.", "quantifier": "every machine time, every reference time", "why_tests_cant": "All machine times, including those just after boot.", "anchors": ["core/cu29_clock/src/lib.rs: RobotClock::new, from_ref_time, now"]}
{"id": "C89", "title": "Durations are printed to the last digit", "statement": "A duration is printed in the largest unit not longer than itself, and the number printed differs from the duration by at most half of its last digit (plus two roundings of 53 bit floating point numbers); whole thousandths of the unit are printed exactly. Only an absent time is printed as None.", "quantifier": "every duration", "why_tests_cant": "All 64 bit values through two floating point roundings and a decimal one.", "anchors": ["core/cu29_clock/src/lib.rs: Display for CuDuration, Display for OptionCuTime"]}
{"id": "C90", "title": "A recorded run replayed gives the same messages", "statement": "A run is recorded; then its log is replayed: the clock is set to the recorded start time of a source, the callback hands out the recorded messages of the sources and answers for the sinks, and the tasks in between are run again, from the same states. The replay succeeds, writes the same log, and these tasks get the same inputs, give the same results and end in the same states.", "quantifier": "every task graph the planner accepts, every deterministic task code, every recorded run of any length, in simulation or not, with errors that were ignored", "why_tests_cant": "Quantifies over all applications, tasks and runs; tests replay one run of one robot. It rests on the order of calls, copper list contents, getters and clock readings together.", "anchors": ["examples/cu_rp_balancebot/src/resim.rs: run_one_copperlist, main", "core/cu29_derive/src/lib.rs: run_one_iteration, start_all_tasks, gen_culist_support"]}
{"id": "C91", "title": "A log line goes to the logger in use", "statement": "As long as the logger initialised last is not dropped, every line logged goes to its destination, with the time of the clock it was given; lines logged before any logger was initialised are reported as errors.", "quantifier": "every sequence of initialisations, drops and logged lines", "why_tests_cant": "Histories of any length; the logger is global, so a test program can try only one history.", "anchors": ["core/cu29_log_runtime/src/lib.rs: LoggerRuntime::init, Drop for LoggerRuntime, log, WRITER"]}
{"id": "C92", "title": "Log lines are in the order of their times", "statement": "The entries a destination receives are in the order of their times; each line a thread logs is received once, in the order in which the thread logged them.", "quantifier": "every number of threads, every interleaving of their calls", "why_tests_cant": "Depends on the interleaving.", "anchors": ["core/cu29_log_runtime/src/lib.rs: log"]}
{"id": "C93", "title": "The logger can be initialised by any thread", "statement": "Initialising a logger never panics, whatever other threads do.", "quantifier": "every interleaving of calls", "why_tests_cant": "Depends on the interleaving.", "anchors": ["core/cu29_log_runtime/src/lib.rs: LoggerRuntime::init"]}
{"id": "C94", "title": "The standalone log file reads back as the lines logged", "statement": "A file written through the standalone file logger and closed reads back as exactly the lines logged with success, in order, whatever the flushes and the state of the disk.", "quantifier": "every sequence of entries, flushes and changes of the room left on the disk, every division of an entry into writes", "why_tests_cant": "Needs all sizes against the buffer, and a disk that fills up at any byte.", "anchors": ["core/cu29_log_runtime/src/lib.rs: SimpleFileWriter, OwningIoWriter"]}
{"id": "C95", "title": "An error shows every cause it was given", "statement": "The text of an error has its message and every cause that was attached to it, and tells an error without a cause from one with.", "quantifier": "every message, every sequence of causes", "why_tests_cant": "All texts and chains of causes.", "anchors": ["core/cu29_traits/src/lib.rs: CuError::add_cause, new_with_cause, Display"]}
{"id": "C96", "title": "A camera image does not change in the hands of the program", "statement": "An image that the camera source hands out is in the buffer that the driver delivered the picture in, and neither the driver nor a later call changes it as long as a message or a task has it, whatever errors, time outs, empty frames and restarts happen.", "quantifier": "every number of buffers, every order in which the driver returns buffers, every sequence of calls and failures, every image kept by tasks", "why_tests_cant": "Buffers are reused in an order the driver and the pool choose, and it takes particular failures to mix them up.", "anchors": ["components/sources/cu_v4l/src/v4lstream.rs: CuV4LStream::queue, dequeue, next, start, stop", "components/sources/cu_v4l/src/lib.rs: V4l::process", "core/cu29_runtime/src/pool.rs: CuHostMemoryPool::acquire"]}
{"id": "C97", "title": "The camera goes on delivering", "statement": "After a picture that came late or empty, while tasks keep images, and after a restart, the camera source goes on delivering the pictures the driver has, or reports an error it recovers from; it never panics.", "quantifier": "every number of buffers, every order in which the driver returns buffers, every sequence of calls, time outs and empty frames", "why_tests_cant": "Needs a camera that fails on demand and all orders of its buffers.", "anchors": ["components/sources/cu_v4l/src/v4lstream.rs: CuV4LStream::queue, dequeue, next, start, stop", "components/sources/cu_v4l/src/lib.rs: V4l::new, V4l::process"]}
{"id": "C98", "title": "A pose moves points alike in every library", "statement": "A pose converted to the type of glam or nalgebra (or made from it) moves every point as the pose does.", "quantifier": "every pose, every point", "why_tests_cant": "All matrices; the tests use the identity as rotation.", "anchors": ["components/payloads/cu_spatial_payloads/src/lib.rs: From<Transform3D<f64>> for DAffine3, From<DAffine3> for Transform3D<f64>, From<&Transform3D<f64>> for Isometry3<f64>"]}
{"id": "C99", "title": "Poses survive conversion and back", "statement": "A pose converted to the type of faer, nalgebra or glam and back is the same pose.", "quantifier": "every pose", "why_tests_cant": "All matrices.", "anchors": ["components/payloads/cu_spatial_payloads/src/lib.rs: From implementations between Transform3D<f64> and Mat<f64>, Isometry3<f64>, DAffine3; Default"]}
{"id": "C100", "title": "Inertial readings are those of the registers", "statement": "Each of the twelve values of a WT901 message is the signed number in its own register at the scale of the sensor, exactly; a failure of the bus is reported.", "quantifier": "every content of the registers", "why_tests_cant": "All contents of 24 bytes, through f32 arithmetic.", "anchors": ["components/sources/cu_wt901/src/lib.rs: bulk_position_read, get_vec_i16, convert_acc, convert_ang_vel, convert_mag, convert_angle, Registers::offset"]}
{"id": "C101", "title": "Inertial readings survive serialization", "statement": "The readings of an inertial unit written by bincode or serde are read back unchanged.", "quantifier": "every reading", "why_tests_cant": "All values of twelve floats, two formats.", "anchors": ["components/sources/cu_wt901/src/lib.rs: Encode, Decode, Serialize and Deserialize for PositionalReadingsPayload"]}
{"id": "C102", "title": "A view of an image shows the image", "statement": "The view of an image for the image crate or kornia shows every pixel of the image, and nothing beyond its buffer.", "quantifier": "every image, every kind of pixel", "why_tests_cant": "All sizes, strides and kinds of pixels; reading beyond a buffer often goes unnoticed.", "anchors": ["components/payloads/cu_sensor_payloads/src/image.rs: CuImage::as_image_buffer, CuImage::as_kornia_image, CuImage::new"]}
{"id": "C103", "title": "Images survive the log", "statement": "An image written to the log is read back with the same sequence number, format and bytes, whatever follows it, and with a buffer as large as its format says.", "quantifier": "every image, every continuation of the log", "why_tests_cant": "All sizes and contents.", "anchors": ["components/payloads/cu_sensor_payloads/src/image.rs: Encode and Decode for CuImage, CuImageBufferFormat::byte_size", "core/cu29_runtime/src/pool.rs: Encode for CuHandle"]}
{"id": "C104", "title": "The configuration in use", "statement": "An application uses the configuration given by program, else the one in the file present at run time, else the one it was compiled with; a configuration that cannot be used (unreadable, not a configuration, connections naming no task, sections larger than slabs) is reported as an error by the constructor.", "quantifier": "every override, every state of the file, every compiled configuration, every task code", "why_tests_cant": "Depends on the state of the file system and on the content of files met in the field.", "anchors": ["core/cu29_derive/src/lib.rs: generated new", "core/cu29_runtime/src/config.rs: read_configuration, read_configuration_str, CuConfig::deserialize_ron, LoggingConfig::validate"]}
{"id": "C105", "title": "Each task is created with its own parameters", "statement": "Each task of the application is created once, in order, with the parameters that the configuration in use gives to the task of its id; the first task that fails stops the creation and is reported; the simulation is told the same parameters.", "quantifier": "every configuration in use at run time, every task code", "why_tests_cant": "Tests start with the configuration they were compiled with.", "anchors": ["core/cu29_derive/src/lib.rs: tasks_instanciator, tasks_instanciator_sim, sim_callback_on_new", "core/cu29_runtime/src/curuntime.rs: CuRuntime::new", "core/cu29_runtime/src/config.rs: get_all_nodes"]}
{"id": "C106", "title": "The application builder hands over what it was given", "statement": "Whatever calls are made on an application builder and in whatever order, building uses the last clock, logger, configuration and simulation callback given, and reports as an error the clock, logger or (in a simulation) callback that was never given.", "quantifier": "every finite sequence of builder calls", "why_tests_cant": "There are infinitely many call sequences.", "anchors": ["core/cu29_derive/src/lib.rs: generated builder (with_clock, with_unified_logger, with_context, with_config, with_sim_callback, build)"]}
{"id": "C107", "title": "Copper list log settings are honoured", "statement": "Copper lists are logged in sections of the size the configuration in use asks for, or of 64 copper lists when it asks for none, and are not logged exactly when it disables task logging.", "quantifier": "every configuration, every size of copper list, both overflow modes", "why_tests_cant": "Arithmetic on a 64 bit configuration value.", "anchors": ["core/cu29_derive/src/lib.rs: generated new (default_section_size)", "core/cu29_runtime/src/curuntime.rs: CuRuntime::new"]}
{"id": "C108", "title": "Simulation placeholders fit the plan", "statement": "The placeholder that stands for a source or sink in a simulation has the message types with which the execution plan calls it, so that an application built for the robot can be built for the simulation.", "quantifier": "every task graph the planner accepts", "why_tests_cant": "Quantifies over task graphs; a mismatch is a compile time error of the generated code.", "anchors": ["core/cu29_derive/src/lib.rs: copper_runtime (all_sim_tasks_types)", "core/cu29_runtime/src/config.rs: get_node_output_msg_type, get_node_input_msg_type", "core/cu29_runtime/src/simulation.rs: CuSimSrcTask, CuSimSinkTask"]}
{"id": "C109", "title": "Tasks with different ids get different generated names", "statement": "Tasks with different ids are given different names in the generated code (simulation steps and copper list getters).", "quantifier": "every pair of task ids", "why_tests_cant": "Ids are free text.", "anchors": ["core/cu29_derive/src/utils.rs: config_id_to_enum, config_id_to_struct_member"]}
{"id": "C110", "title": "The allocation counter counts its scope", "statement": "A scoped allocation counter gives the bytes allocated and freed since its creation by the code of its scope, whatever other threads do and whether or not the counters are reset in between; overall, the bytes counted as freed never exceed those counted as allocated and the difference is what the program holds.", "quantifier": "every interleaving of any number of threads, both overflow modes", "why_tests_cant": "Depends on the interleaving of threads inside the allocator.", "anchors": ["core/cu29_runtime/src/monitoring.rs: CountingAllocator, ScopedAllocCounter"]}
{"id": "C111", "title": "Iterating over a log in Python sees every entry", "statement": "A Python loop over the iterator of a structured log yields exactly the entries that were written, in order, and then ends without an exception, also when the data was cut inside a last entry or is followed by an end marker; on any data whatever, the loop ends.", "quantifier": "every list of entries that can be logged and every way the data may go on after them; every byte string for termination", "why_tests_cant": "Depends on arbitrary nested values and on the point where the data was cut.", "anchors": ["core/cu29_export/src/lib.rs: PyLogIterator::__next__, struct_log_iterator_bare", "core/cu29_log/src/lib.rs: CuLogEntry"]}
{"id": "C112", "title": "Python sees the logged values", "statement": "The Python object given for a parameter of a log entry shows the logged value: the same number, text or bytes, a list element by element, a dict with one entry for each entry of the logged map.", "quantifier": "every value that can be logged", "why_tests_cant": "Values are arbitrarily nested; whether two keys coincide for Python depends on their types and values (floats included).", "anchors": ["core/cu29_export/src/lib.rs: value_to_py, PyCuLogEntry::params"]}
{"id": "C113", "title": "Detected tags survive the log", "statement": "The tags written to the log are read back unchanged, whatever follows them; no data makes more than 16 be read; serialized as a sequence and back they are the same, and the announced length is that of the sequence.", "quantifier": "every payload the type can hold, every byte string read", "why_tests_cant": "All contents of three arrays, all malformed data.", "anchors": ["components/tasks/cu_apriltag/src/lib.rs: CuArrayVec (Encode, Decode), AprilTagDetections (Encode, Decode, Serialize, Deserialize)"]}
{"id": "C114", "title": "Every detected tag is reported", "statement": "The task reports every tag of which the library gives a pose, with its number, pose and margin in one row and in the order of the library, with the time of validity of the image; a user asking for a margin gets exactly those above it.", "quantifier": "every list of detections", "why_tests_cant": "Any number of tags in view; floats compared.", "anchors": ["components/tasks/cu_apriltag/src/lib.rs: AprilTags::process, AprilTagDetections::filtered_by_decision_margin"]}
{"id": "C115", "title": "The reported pose is that of the tag", "statement": "The pose reported for a tag is the homogeneous matrix with the rotation and the translation the library estimated.", "quantifier": "every estimate", "why_tests_cant": "All matrices; the test looks at the number of the tag only.", "anchors": ["components/tasks/cu_apriltag/src/lib.rs: AprilTags::process", "components/payloads/cu_spatial_payloads/src/lib.rs: Transform3D::default"]}
{"id": "C116", "title": "The detector reads only the image", "statement": "The view of an image given to the detector makes it look only at bytes of the buffer of the image.", "quantifier": "every image that CuImage::new accepts, every pixel", "why_tests_cant": "Reading beyond a buffer often goes unnoticed.", "anchors": ["components/tasks/cu_apriltag/src/lib.rs: image_from_cuimage", "components/payloads/cu_sensor_payloads/src/image.rs: CuImage::new"]}
{"id": "C117", "title": "A log is written to files of its own name", "statement": "A log with the base name stem.ext is written to stem_0.ext, stem_1.ext and so on; logs of different names, and different slabs of one log, never share a file.", "quantifier": "every file name, every slab number", "why_tests_cant": "All pairs of names and numbers.", "anchors": ["core/cu29_unifiedlog/src/lib.rs: build_slab_path"]}
{"id": "C118", "title": "The slab size of the configuration is used", "statement": "The files of the log of an application have the size asked for in its configuration.", "quantifier": "every configuration, page size and setup argument", "why_tests_cant": "Tests set the size by hand.", "anchors": ["core/cu29_helpers/src/lib.rs: basic_copper_setup", "core/cu29_runtime/src/config.rs: LoggingConfig", "core/cu29_derive/src/lib.rs: copper_runtime"]}
{"id": "C119", "title": "A valid configuration can open its log", "statement": "An application whose configuration was accepted gets its log of copper lists when started on the log of the basic setup.", "quantifier": "every configuration, page size, copper list size and setup argument", "why_tests_cant": "All sizes, and two parts of the code that are tested apart.", "anchors": ["core/cu29_helpers/src/lib.rs: basic_copper_setup", "core/cu29_derive/src/lib.rs: copper_runtime", "core/cu29_runtime/src/config.rs: validate_logging_config"]}
{"id": "C120", "title": "The logger builder does what it was told", "statement": "Whatever the order of the calls, the last value given of each kind counts: write and create give a new log with that name and size, otherwise the existing log of that name is read; anything missing is an error.", "quantifier": "every sequence of calls", "why_tests_cant": "All sequences of calls.", "anchors": ["core/cu29_unifiedlog/src/lib.rs: UnifiedLoggerBuilder"]}
{"id": "C121", "title": "The balancing robot stops its motor on readings it may not be driven on", "statement": "In the balance bot example, an iteration in which the angle cannot be read, or in which the angle or the position on the rail has no time, is the first, or is out of its configured limits, leaves no power on the motor; every iteration that does not panic reads both sensors once and commands the motor once, in that order.", "quantifier": "every reachable state, all sensor values, times and clock readings, both overflow modes", "why_tests_cant": "It is about whole runs of six tasks, the scheduler and the monitor on hardware.", "anchors": ["examples/cu_rp_balancebot/copperconfig.ron", "examples/cu_rp_balancebot/src/tasks.rs: PIDMerger", "components/tasks/cu_pid/src/lib.rs: GenericPIDTask", "components/sinks/cu_rp_sn754410/src/lib.rs: SN754410", "components/monitors/cu_consolemon/src/lib.rs: process_error"]}
{"id": "C122", "title": "The balancing robot stops its motor whatever monitor is configured", "statement": "The balance bot stops its motor on such readings with any monitor.", "quantifier": "every monitor, reachable state and reading", "why_tests_cant": "All decisions of a monitor.", "anchors": ["examples/cu_rp_balancebot/src/tasks.rs: PIDMerger", "core/cu29_derive/src/lib.rs: copper_runtime", "core/cu29_runtime/src/monitoring.rs: Decision"]}
{"id": "C123", "title": "The balancing robot commands its motor with numbers between -1 and 1", "statement": "When the times of the readings of each sensor increase, every power the balance bot's motor is given is a number from -1 to 1, never NaN.", "quantifier": "every run, all sensor values and increasing times", "why_tests_cant": "Rounding of floats over whole runs.", "anchors": ["examples/cu_rp_balancebot/src/tasks.rs: PIDMerger", "examples/cu_rp_balancebot/copperconfig.ron", "components/tasks/cu_pid/src/lib.rs: PIDController"]}
{"id": "C124", "title": "A command of the balancing robot carries the time of the reading it follows", "statement": "The message that commands the balance bot's motor has the time of validity of the angle it was computed from.", "quantifier": "every iteration with a command", "why_tests_cant": "It is about the metadata through four tasks.", "anchors": ["examples/cu_rp_balancebot/src/tasks.rs: PIDMerger", "components/tasks/cu_pid/src/lib.rs: GenericPIDTask"]}
{"id": "C125", "title": "The balancing robot's motor is off when its program has ended", "statement": "When the program of the balance bot ends, because of Ctrl-C, because the user quits the console or because of an error, the PWM channels of its motor are disabled.", "quantifier": "every run and way of ending", "why_tests_cant": "All ways a run can end, on hardware.", "anchors": ["examples/cu_rp_balancebot/src/main.rs: main", "components/monitors/cu_consolemon/src/lib.rs: process_copperlist", "components/sinks/cu_rp_sn754410/src/lib.rs: stop"]}
{"id": "C126", "title": "The balancing robot's duty cycles are from 0 to 1", "statement": "In the balance bot the duty cycles written to the PWM channels are from 0 to 1.", "quantifier": "every reachable state, whatever sensors, clock and PWM do", "why_tests_cant": "Rounding of floats over whole runs, with failures.", "anchors": ["examples/cu_rp_balancebot/copperconfig.ron", "components/sinks/cu_rp_sn754410/src/lib.rs: SN754410"]}
{"id": "C127", "title": "The balancing robot's motor runs at its last command", "statement": "After an iteration in which the balance bot's motor was given a power, it runs at that power (with the dead zone).", "quantifier": "every run", "why_tests_cant": "It needs the right sequence of failures.", "anchors": ["components/sinks/cu_rp_sn754410/src/lib.rs: SN754410", "examples/cu_rp_balancebot/src/tasks.rs: PIDMerger"]}
{"id": "C128", "title": "A log is not mixed with an older one of the same name", "statement": "When a log is written under the name of an older log, reading it gives only what was written to the new one, even if the program was interrupted.", "quantifier": "every older log, sequence of operations, page and slab size and point of interruption", "why_tests_cant": "It depends on sizes that fill a file exactly, on what is left on the disk, and on when the program is interrupted.", "anchors": ["core/cu29_unifiedlog/src/lib.rs: make_slab_file", "core/cu29_unifiedlog/src/lib.rs: UnifiedLoggerRead::next_slab", "core/cu29_unifiedlog/src/lib.rs: UnifiedLoggerRead::read_next_section_type"]}
{"id": "C129", "title": "The console's debug pane holds the newest entries", "statement": "The debug pane of the console holds the newest of the entries it was given, in order and without gaps, and never more than the terminal has rows.", "quantifier": "every sequence of logged records, lines on stderr, turns of the user interface and resizes", "why_tests_cant": "Histories with resizes at any point.", "anchors": ["components/monitors/cu_consolemon/src/debug_pane.rs: DebugLog", "components/monitors/cu_consolemon/src/lib.rs: run_app"]}
{"id": "C130", "title": "The console's debug pane shows the newest entry", "statement": "When the debug pane is on the screen, the newest log entry is on it.", "quantifier": "every sequence of logged records, lines on stderr, turns and resizes, every height", "why_tests_cant": "It relates two sizes kept in different places over a whole session.", "anchors": ["components/monitors/cu_consolemon/src/debug_pane.rs: draw_debug_output", "components/monitors/cu_consolemon/src/lib.rs: draw", "components/monitors/cu_consolemon/src/lib.rs: run_app"]}
{"id": "C131", "title": "Logging does not wait for the console", "statement": "A task that logs with the debug pane active is not held up by the console.", "quantifier": "every sequence of logged records and turns of the user interface", "why_tests_cant": "It needs the worst interleaving of two threads.", "anchors": ["components/monitors/cu_consolemon/src/debug_pane.rs: LogSubscriber", "components/monitors/cu_consolemon/src/debug_pane.rs: DebugLog::new"]}
{"id": "C132", "title": "The caterpillar blinks in step", "statement": "In every iteration of the caterpillar example each of its pins is written exactly once, all to the same level, the opposite of that of the iteration before; no task panics. This holds for any connections of its sources, tasks and pins.", "quantifier": "every graph without cycle in which a task has one input, every number of iterations, clock, monitor and log", "why_tests_cant": "It is about all graphs and all lengths of runs.", "anchors": ["examples/cu_caterpillar/src/tasks.rs: CaterpillarSource, CaterpillarTask", "examples/cu_caterpillar/copperconfig.ron", "components/sinks/cu_rp_gpio/src/lib.rs: RPGpio", "core/cu29_runtime/src/curuntime.rs: compute_runtime_plan", "core/cu29_derive/src/lib.rs: run_one_iteration"]}
{"id": "C133", "title": "Pool statistics tell about every pool", "statement": "At any time the pool statistics have one entry for each host memory pool that was made, with its number of buffers, the bytes of one buffer, and how many buffers nobody uses.", "quantifier": "all programs that make and use pools, all orders of the registry", "why_tests_cant": "It is about all histories of several pools.", "anchors": ["core/cu29_runtime/src/pool.rs: register_pool, pools_statistics, CuHostMemoryPool::new"]}
{"id": "C134", "title": "The console's table of pools", "statement": "After every iteration the console's table has one row for each pool id, with the buffers in use, all buffers and the bytes of a buffer of the pool of that id; updating and drawing it never panics.", "quantifier": "all programs that make and use pools, all times at which the console looks", "why_tests_cant": "It is about all histories of several pools and updates.", "anchors": ["components/monitors/cu_consolemon/src/lib.rs: PoolStats, process_copperlist, draw_memory_pools", "core/cu29_runtime/src/pool.rs: pools_statistics"]}
{"id": "C135", "title": "The console's handles per second", "statement": "The handles per second shown for a pool are the change of the number of its handles in use since the rate was last measured, per second.", "quantifier": "all programs, pools and times of updates", "why_tests_cant": "It is about all histories and uses rounded arithmetic.", "anchors": ["components/monitors/cu_consolemon/src/lib.rs: PoolStats::update"]}
{"id": "C136", "title": "Aligned buffers lie in their memory", "statement": "All elements of an aligned buffer lie in the memory it allocated, at addresses fit for its elements, and that memory is given back as it was got.", "quantifier": "all element sizes, numbers of elements, alignments, allocators, debug and release builds", "why_tests_cant": "It depends on overflow for sizes no test can allocate.", "anchors": ["core/cu29_runtime/src/pool.rs: AlignedBuffer"]}
{"id": "C137", "title": "Every error is shown by the console", "statement": "Every error of a task is shown by the console, in red beneath the task, when the screen of tasks is next drawn; a task without an error since then is shown with its last status.", "quantifier": "all types of tasks, all sequences of errors, copper lists, keys and turns of the user interface", "why_tests_cant": "It is about all interleavings of two threads.", "anchors": ["components/monitors/cu_consolemon/src/lib.rs: process_error, process_copperlist, NodesScrollableWidget::render, run_app"]}
{"id": "C138", "title": "Looking at the console never stops the robot", "statement": "Whichever screens are looked at and whichever keys are pressed, the calls the robot makes to the console return.", "quantifier": "all types of tasks, all sequences of errors, copper lists, keys and turns of the user interface", "why_tests_cant": "It is about all interleavings of two threads and all names of types.", "anchors": ["components/monitors/cu_consolemon/src/lib.rs: process_error, process_copperlist, NodesScrollableWidget::render, run_app"]}
{"id": "C139", "title": "Pressing q ends the program", "statement": "When q has been pressed in the console, the next iteration is the last one: the main loop ends with an error and the tasks are stopped.", "quantifier": "all applications, tasks, simulations, clocks and errors, all numbers of iterations before", "why_tests_cant": "It is about runs of any length with any errors of tasks.", "anchors": ["components/monitors/cu_consolemon/src/lib.rs: process_copperlist, process_error, run_app", "core/cu29_derive/src/lib.rs: run_one_iteration, run"]}
{"id": "C140", "title": "The picture of a configuration shows the configuration", "statement": "The file that rendering a configuration gives to dot is one dot can read; it shows every task once, with its id, type and parameters and the colour of the role it is run in, and every connection once, with the type of its messages.", "quantifier": "all configurations with a type for each task, all displays of parameters and orders of the map", "why_tests_cant": "It is about all names and a language parsed by another program.", "anchors": ["core/cu29_runtime/src/config.rs: render, get_src_edges, get_dst_edges", "core/cu29_runtime/src/rendercfg.rs: main", "core/cu29_runtime/src/curuntime.rs: find_task_type_for_id"]}
{"id": "C141", "title": "A capture is replayed faithfully", "statement": "The calls that replay a capture send the payloads of its packets, one per call, in order and without their headers; a packet too short for the payload is refused and skipped, and the end is told once there is no packet left, or at a record that cannot be read. With regular time stamps and a socket that sends, no call panics.", "quantifier": "all captures, payload sizes, pauses between calls, clocks, with and without overflow checks", "why_tests_cant": "All captures and all sequences of calls; a test replays one packet of one file.", "anchors": ["components/testing/cu_udp_inject/src/lib.rs: PcapStreamer, send_next"]}
{"id": "C142", "title": "A capture is replayed at the pace it was captured", "statement": "Datagrams are sent in order and at least as far apart as their packets were captured.", "quantifier": "all captures, all pauses between calls, all clocks", "why_tests_cant": "Time and all captures; a sleep is not observable in a test of one packet.", "anchors": ["components/testing/cu_udp_inject/src/lib.rs: send_next"]}
{"id": "C143", "title": "The Velodyne source takes or refuses every datagram", "statement": "Every call of the Velodyne source takes a datagram and sends the points of its frame in order, or gives an error, or sends nothing when nothing came. It never panics.", "quantifier": "all datagrams and all silences, all behaviours of the library that reads packets", "why_tests_cant": "All bytes anyone may send to the port, all timings.", "anchors": ["components/sources/cu_vlp16/src/lib.rs: process", "core/cu29_soa_derive/src/lib.rs: push"]}
{"id": "C144", "title": "Lidars agree on reflectivity", "statement": "A reflectivity of n out of 255 is stored as the ratio n/255 by all lidar sources, so that their clouds can be compared.", "quantifier": "all reflectivities, all three lidar sources", "why_tests_cant": "A unit of a library type, only visible when clouds of two lidars are compared.", "anchors": ["components/sources/cu_vlp16/src/lib.rs: process", "components/sources/cu_hesai/src/parser.rs: reflectivity", "components/sources/cu_livox/src/parser.rs: reflectivity", "components/payloads/cu_sensor_payloads/src/pointcloud.rs: new"]}
{"id": "C145", "title": "A wrong configuration of the Velodyne source is reported", "statement": "Creating the Velodyne source gives an error exactly when its configuration is missing or wrong; it never panics. It has the address given and works from a start to the next stop.", "quantifier": "all configurations", "why_tests_cant": "All configurations; tests use the empty one.", "anchors": ["components/sources/cu_vlp16/src/lib.rs: new, start, stop", "core/cu29_runtime/src/config.rs: get"]}
{"id": "C146", "title": "Messages between robots arrive unchanged and in order", "statement": "What the shared memory source gives on one robot are messages that the shared memory sink sent on another, in order, each at most once, payload and time of validity unchanged; nothing is lost as long as no more messages wait than the buffer of the source has places.", "quantifier": "all histories of starts, stops, failures and calls of both tasks, all sizes of the buffer", "why_tests_cant": "All interleavings of two programs and all losses.", "anchors": ["components/sinks/cu_iceoryx2_sink/src/lib.rs: start, process, stop", "components/sources/cu_iceoryx2_src/src/lib.rs: start, process, stop"]}
{"id": "C147", "title": "A robot with nothing to say does not disturb the others", "statement": "An iteration in which the shared memory sink gets no payload causes no error and no loss on the robots that receive.", "quantifier": "all histories of calls of both tasks", "why_tests_cant": "It takes two programs and an iteration without payload.", "anchors": ["components/sinks/cu_iceoryx2_sink/src/lib.rs: process", "components/sources/cu_iceoryx2_src/src/lib.rs: process"]}
{"id": "C148", "title": "A wrong configuration of the shared memory tasks is reported", "statement": "Creating a shared memory sink or source gives an error exactly when its configuration is missing or wrong; it never panics.", "quantifier": "all configurations and names", "why_tests_cant": "All configurations.", "anchors": ["components/sinks/cu_iceoryx2_sink/src/lib.rs: new", "components/sources/cu_iceoryx2_src/src/lib.rs: new", "core/cu29_runtime/src/config.rs: get"]}
{"id": "C149", "title": "The configuration file is that of the crate", "statement": "The macros that generate an application read the configuration file named in their argument in the directory of the manifest of the crate being compiled, wherever in the workspace that crate is.", "quantifier": "all directory trees, contents of manifests, names of crates and orders in which the system lists a directory", "why_tests_cant": "All layouts of a workspace and orders of listing; a test sees one.", "anchors": ["core/cu29_derive/src/utils.rs: caller_crate_root", "core/cu29_derive/src/lib.rs: config_full_path"]}
{"id": "C150", "title": "A task gets the parameters configured or refuses them", "statement": "Creating a component of the repository (encoder, GPIO pin, converter, motor driver, servo bus, lidars, flight controller source and sink, inertial unit, aligner, controller, threshold, tag detector, pipeline source) gives a task that works with the parameters of its configuration, or their documented defaults, or else an error that says why; it never panics.", "quantifier": "all configurations: any parameters, of any type and value, present or not; all devices, that open or not", "why_tests_cant": "All configurations, for fourteen components.", "anchors": ["components/sinks/cu_rp_gpio/src/lib.rs: new", "components/sources/cu_rp_encoder/src/lib.rs: new", "components/sources/cu_ads7883/src/lib.rs: new", "components/sinks/cu_rp_sn754410/src/lib.rs: new", "components/sinks/cu_lewansoul/src/lib.rs: new", "components/sources/cu_hesai/src/lib.rs: new", "components/sources/cu_livox/src/lib.rs: new", "components/sources/cu_msp_src/src/lib.rs: new", "components/sinks/cu_msp_sink/src/lib.rs: new", "components/sources/cu_wt901/src/lib.rs: new", "components/tasks/cu_aligner/src/lib.rs: new", "components/tasks/cu_pid/src/lib.rs: new", "components/tasks/cu_dynthreshold/src/cu_dynthreshold_impl.rs: new", "components/tasks/cu_apriltag/src/lib.rs: new", "components/sources/cu_gstreamer/src/cu_gstreamer_impl.rs: new", "core/cu29_runtime/src/config.rs: ComponentConfig::get"]}
{"id": "C151", "title": "The camera delivers the image size asked for", "statement": "A camera source configured with a width and a height delivers images of that size, or its creation fails with an error.", "quantifier": "all configurations and all cameras: any codes, sizes and answers", "why_tests_cant": "All cameras and configurations; a test has one camera.", "anchors": ["components/sources/cu_v4l/src/lib.rs: V4l::new", "components/sources/cu_v4l/src/v4lstream.rs: set_timeout"]}
{"id": "C152", "title": "Every servo that is configured is addressed", "statement": "The servo bus addresses every servo of its configuration, each in the place of its number.", "quantifier": "all configurations", "why_tests_cant": "All sets of numbers of servos.", "anchors": ["components/sinks/cu_lewansoul/src/lib.rs: new"]}
{"id": "C153", "title": "The console leaves the terminal as it found it", "statement": "When a program with the console has ended, or its run has returned, the terminal is as it was before: not in raw mode and on its own screen.", "quantifier": "all programs that call run any number of times; all interleavings of the program, the console's threads, keys, panics of a thread, and tasks that fail or cannot be stopped", "why_tests_cant": "Interleavings of the console's thread with the end of the program.", "anchors": ["components/monitors/cu_consolemon/src/lib.rs: start, stop, setup_terminal, restore_terminal, init_error_hooks", "core/cu29_derive/src/lib.rs: run, stop_all_tasks"]}
{"id": "C154", "title": "A robot can be run again with its console", "statement": "When the run of a robot has returned, run can be called again: the console is shown again and the robot runs until it is told to stop.", "quantifier": "all programs that call run any number of times; all interleavings", "why_tests_cant": "What is left behind by the first run, in the process and in the console.", "anchors": ["components/monitors/cu_consolemon/src/lib.rs: start, stop, process_copperlist, init_error_hooks"]}
{"id": "C155", "title": "The latencies shown are those since the last reset or stop", "statement": "The latencies the console keeps for each task and end to end are those of the copper lists since the user reset them with r or the robot was stopped, whichever is later.", "quantifier": "all sequences of runs, copper lists, keys and stops", "why_tests_cant": "All sequences of events and all durations.", "anchors": ["components/monitors/cu_consolemon/src/lib.rs: TaskStats, stop, run_app", "core/cu29_runtime/src/monitoring.rs: CuDurationStatistics"]}
{"id": "C156", "title": "The simulated angle sensor", "statement": "The angle reading of the simulator is the rod's angle in 4096ths of a turn, within the range 0 to 4095 of the robot's 12-bit converter.", "quantifier": "all angles between minus half a turn and half a turn", "why_tests_cant": "All 32-bit floating point angles, with the rounding of four operations.", "anchors": ["examples/cu_rp_balancebot/src/sim.rs: run_copper_callback"]}
{"id": "C157", "title": "The simulator and the robot act the same", "statement": "When the sensors of the simulator give the same readings at the same times as those of the robot, the simulator applies the forces that correspond to the commands the robot's motor is given, and the controllers are in the same state.", "quantifier": "all robots, all sequences of frames, all sequences of iterations of the robot", "why_tests_cant": "All sequences of readings, through the state of two controllers.", "anchors": ["examples/cu_rp_balancebot/src/sim.rs: run_copper_callback", "examples/cu_rp_balancebot/src/tasks.rs: PIDMerger", "core/cu29_derive/src/lib.rs: copper_runtime (sim_mode)"]}
{"id": "C158", "title": "Running the log of a simulation again", "statement": "The log of a simulation has one copper list for each frame with a cart, in order, with what the sensors read and the time of the physics; running it again through the re-simulator gives the same log.", "quantifier": "all sequences of fewer than 2^32 frames", "why_tests_cant": "All sequences of frames; equality of whole logs.", "anchors": ["examples/cu_rp_balancebot/src/resim.rs: main, run_one_copperlist, sim_callback", "examples/cu_rp_balancebot/src/sim.rs: run_copper_callback", "core/cu29_derive/src/lib.rs: copper_runtime (sim_mode)"]}
{"id": "C159", "title": "The simulator keeps running", "statement": "While the time of the physics does not go back and the user does not quit, the simulator runs an iteration and applies one force for each frame with a cart, whatever the angle of the rod and the position of the cart.", "quantifier": "all sequences of fewer than 2^32 frames with times below 2^63 ns, any angles and positions, NaN and infinities among them", "why_tests_cant": "All sequences of frames and all floating point values.", "anchors": ["examples/cu_rp_balancebot/src/sim.rs: run_copper_callback", "components/tasks/cu_pid/src/lib.rs: process"]}
{"id": "C160", "title": "Quitting the simulator", "statement": "When the user quits from the console of the simulator, the simulator ends without a panic.", "quantifier": "all sequences of frames", "why_tests_cant": "When the user quits is not decided by the program.", "anchors": ["examples/cu_rp_balancebot/src/sim.rs: run_copper_callback", "components/monitors/cu_consolemon/src/lib.rs: process_copperlist"]}
{"id": "C161", "title": "Texts tell values apart", "statement": "Two different parameters of the same type logged with debug! have different texts in the text log, and the text of a number is that number.", "quantifier": "all values of every type that can be logged", "why_tests_cant": "All values, with sequences of any length.", "anchors": ["core/cu29_value/src/lib.rs: Display for Value"]}
{"id": "C162", "title": "Text export with an older table of strings", "statement": "Exporting a text log with a table that lacks some of its strings reports the lines that cannot be rebuilt and prints the others.", "quantifier": "all logs and all tables of strings", "why_tests_cant": "All logs and tables, of any length.", "anchors": ["core/cu29_export/src/lib.rs: textlog_dump", "core/cu29_log/src/lib.rs: rebuild_logline"]}
{"id": "C163", "title": "Readings of servos", "statement": "Asking a servo for its position, voltage, temperature or limits gives what that servo answered, as the number of the type closest to it, for any sequence of such readings on one bus.", "quantifier": "all sequences of readings, all servos and states of them, and all times at which the answers arrive", "why_tests_cant": "Sequences of readings of any length, all 65536 raw values and all arrival orders.", "anchors": ["components/sinks/cu_lewansoul/src/lib.rs: Lewansoul::read_current_position, read_present_voltage, read_temperature, read_angle_limits, reassign_servo_id"]}
{"id": "C164", "title": "Merging of two sources", "statement": "In the example with two sources, in every iteration both sinks get the same pair, made of the integer and the float that the sources gave in that iteration; both count up by one from one iteration to the next.", "quantifier": "all numbers of iterations, capacities of the queue of copper lists, clocks and monitors", "why_tests_cant": "Runs of any length; the float stops counting after 16777192 iterations.", "anchors": ["examples/cu_multisources/src/tasks.rs: IntegerSrcTask, FloatSrcTask, MergerTask, MergingSinkTask, MergedSinkTask", "examples/cu_multisources/copperconfig.ron", "core/cu29_derive/src/lib.rs: copper_runtime"]}
{"id": "C165", "title": "Order of structured values", "statement": "Structured values are sorted by kind and within a kind by value: false before true, numbers by value, floats as IEEE 754 compares them with NaN after every number, text, bytes, sequences and maps lexicographically, absent before present; floats are equal when IEEE 754 says so or both are NaN; of two values exactly one comes first or they are equal, and the order is transitive.", "quantifier": "all well formed structured values, nested to any depth", "why_tests_cant": "All nested values and all bit patterns of floats.", "anchors": ["core/cu29_value/src/lib.rs: Ord and PartialEq for Value, Value::discriminant"]}
{"id": "C166", "title": "The log of a run shows what the sinks were given", "statement": "For the example with two sources: every iteration records one copper list, and when the log is read back, across all its slabs and sections, there are as many lists as iterations, in order and numbered from 0; the k-th holds the integer 43+k, the float 25+k (2^24 once that is reached), the pair of both and nothing for the sinks; the lines both sinks printed are exactly those of the pairs read back; the times of processing of every message are those of the run.", "quantifier": "all numbers of iterations up to the largest i32, sizes of the queue, clocks, monitors, build modes, page and slab sizes and other streams written to the same log", "why_tests_cant": "Every length of run and every layout of the log; the claim joins scheduling, encoding, log writing and reading.", "anchors": ["examples/cu_multisources/src/tasks.rs: IntegerSrcTask, FloatSrcTask, MergerTask, MergedSinkTask, MergingSinkTask", "core/cu29_runtime/src/curuntime.rs: CuRuntime::end_of_processing", "core/cu29_unifiedlog/src/lib.rs: UnifiedLoggerWrite, UnifiedLoggerRead", "core/cu29_export/src/lib.rs: copperlists_dump"]}
{"id": "C167", "title": "A log on disk can be run again", "statement": "A run is recorded to log files; the files are then read and replayed: the clock is set to the recorded start of a source, the recorded messages of the sources are handed out, the sinks are answered, the tasks in between are run again. If the tasks depend only on their state, their inputs and the time shown, and the clock stands still within an iteration, the replay succeeds, its own copper lists are the same as those in the files, the tasks make the same calls with the same results and end in the same states; under any other clock this holds up to the process times for tasks that do not look at them.", "quantifier": "all applications with tasks of that kind, plans, payload types with lossless encodings, lengths of run, page and slab sizes, other streams in the same log", "why_tests_cant": "Every application, run and layout of the log; the claim joins scheduling, encoding, log writing, reading and replay.", "anchors": ["examples/cu_rp_balancebot/src/resim.rs: main, run_one_copperlist", "core/cu29_export/src/lib.rs: copperlists_dump", "core/cu29_unifiedlog/src/lib.rs: UnifiedLoggerWrite, UnifiedLoggerRead, UnifiedLoggerIOReader", "core/cu29_derive/src/lib.rs: run_one_iteration, build_culist_tuple_encode, build_culist_tuple_decode"]}
{"id": "C168", "title": "A program that dies leaves the beginning of its copper lists", "statement": "If the program is killed at any moment, also in the middle of writing or of shutting the log down, the copper lists read from the files are a beginning of those it had given to the log: in order, unchanged, none invented and none skipped. Unless a slab file before the last was still at its full size, at least all lists in sections that were closed are among them; after the last stream was closed, all lists.", "quantifier": "all histories of the log with one stream of copper lists, moments of death between two effects on the files, page and slab sizes, payload types with lossless encodings, sizes of read buffers", "why_tests_cant": "A death at every single write cannot be tried; neither every layout of the log.", "anchors": ["core/cu29_unifiedlog/src/lib.rs: UnifiedLoggerWrite, UnifiedLoggerRead, UnifiedLoggerIOReader, MmapStream", "core/cu29_export/src/lib.rs: copperlists_dump"]}
{"id": "C169", "title": "The log of a robot that died can be replayed", "statement": "When the program was killed at any moment, what its log holds can be replayed: the replay succeeds and is that of the first iterations of the run, one for each copper list left: it records the same lists, calls the tasks with the same inputs and results and leaves them in the states they had after those iterations.", "quantifier": "all applications with deterministic tasks and a clock that stands still within an iteration, plans, lengths of run, moments of death, page and slab sizes, payload types with lossless encodings", "why_tests_cant": "A death at every single write cannot be tried; the claim joins scheduling, encoding, log writing, recovery and replay.", "anchors": ["examples/cu_rp_balancebot/src/resim.rs: main, run_one_copperlist", "core/cu29_unifiedlog/src/lib.rs: UnifiedLoggerWrite, UnifiedLoggerRead, UnifiedLoggerIOReader", "core/cu29_export/src/lib.rs: copperlists_dump"]}
{"id": "C170", "title": "Times of processing in the log never go back", "statement": "While the monitor aborts no iteration and the clock does not go back, every message of every copper list in the log carries the start and the end of the processing that made it, and in the order of the log and of the plan these times never decrease: a task starts after the tasks before it in the plan (among them all it has inputs from) have ended, and an iteration starts after the one before has ended.", "quantifier": "all applications, plans, lengths of run, tasks that leave the start time of their output alone, simulation callbacks, monotone clocks, errors that are ignored or end the iteration with an error, sizes of the pool of copper lists", "why_tests_cant": "The times depend on the interleaving of clock readings with all task code; tests see a few runs with one clock.", "anchors": ["core/cu29_derive/src/lib.rs: copper_runtime (generated process steps, run_one_iteration)", "core/cu29_clock/src/lib.rs: RobotClock::now, OptionCuTime"]}
{"id": "C171", "title": "The lines of a log on disk", "statement": "A program logs lines with unnamed parameters among its copper lists. When the log was closed, the text export of its files prints exactly these lines, in order, with their times and parameters in place, whatever slabs and sections they went to, and the Python reader sees exactly these entries. When the program was killed at any moment, they give a beginning of the lines, with, unless a slab file before the last was still at its full size, at least all lines in sections that were closed.", "quantifier": "all histories of the log with one stream of lines, parameters whose texts do not break the format (as in C57), tables of strings that hold the formats, moments of death between two effects on the files, page and slab sizes, sizes of read buffers", "why_tests_cant": "Joins logging, encoding, sections and slabs, recovery, decoding and formatting; every layout of the log and every moment of death cannot be tried.", "anchors": ["core/cu29_unifiedlog/src/lib.rs: UnifiedLoggerWrite, UnifiedLoggerRead, UnifiedLoggerIOReader, MmapStream", "core/cu29_export/src/lib.rs: textlog_dump, struct_log_iterator_unified", "core/cu29_log/src/lib.rs: CuLogEntry, rebuild_logline"]}
{"id": "C172", "title": "A task in the graph behaves as it does alone", "statement": "A regular task computes its state and a whole new output message from its own state and the payloads and metadata of its inputs. In any application, over any run in which the monitor ignores the errors of tasks, its recorded messages and its final state are then those it gives when it is started alone from the same state and fed the recorded inputs, round after round, a round that fails giving an empty message. So a part of a graph that receives the same messages records the same messages and reaches the same states in any two applications, whatever other tasks, task numbers, clocks, simulation callbacks or numbers of copper lists these have.", "quantifier": "all plans in which steps follow their inputs, tasks, initial states, behaviours of all other tasks, monitors that ignore, clocks, changes of the environment between iterations, numbers of iterations", "why_tests_cant": "Two whole applications and every behaviour of their other tasks are compared; tests run tasks in the applications at hand.", "anchors": ["core/cu29_derive/src/lib.rs: gen_runtime (run_one_iteration, start_all_tasks)", "core/cu29_runtime/src/copperlist.rs: CuListsManager::create"]}
{"id": "C173", "title": "Data copied to a device pool comes back", "statement": "A host buffer copied into a buffer of a CUDA pool and later copied back into a host buffer that is long enough arrives there as it was and changes nothing else, whatever else a program does in between with the handles of both pools, as long as a handle of the device buffer is kept and no operation on it panics. A copy panics exactly when no device buffer is free, the destination is too short or a handle was poisoned, and then costs no data; the device pool always counts as free the buffers that no live handle holds.", "quantifier": "all sizes of both pools, buffer lengths, contents, sequences of acquiring, cloning, dropping, looking, writing and copying on both pools", "why_tests_cant": "The data must survive every interleaving of uses of both pools; the only test needs a GPU and makes one copy.", "anchors": ["core/cu29_runtime/src/pool.rs: CuCudaPool (new, acquire, copy_from, copy_to_host_pool), CudaSliceWrapper::deref"]}
{"id": "C174", "title": "A task finds its last message in its output", "statement": "What a task does not set in its output message, be it the payload, the time of validity or the status text, is in every iteration what it was in the message the task sent in the iteration before, and at first what an empty message holds. So, in any application, the recorded messages and the final state of a task are those it gives when it is run alone on the recorded inputs with one message that it goes on writing over.", "quantifier": "all plans in which steps follow their inputs, tasks, initial states, behaviours of all other tasks, monitors, clocks, changes of the environment between iterations, numbers of copper lists and of iterations", "why_tests_cant": "Which copper list an iteration gets depends on everything that happened before; tests look at single iterations.", "anchors": ["core/cu29_runtime/src/copperlist.rs: CuListsManager (create, pop)", "core/cu29_runtime/src/curuntime.rs: CuRuntime::end_of_processing", "core/cu29_derive/src/lib.rs: gen_runtime (run_one_iteration)"]}
{"id": "C175", "title": "The number of copper lists does not matter to a run without errors", "statement": "Two runs of one application that differ only in how many copper lists they have show the same calls of tasks with the same inputs and results, the same reports to the monitor, the same log and the same results of the iterations, up to and including the first iteration that returns an error or panics.", "quantifier": "all applications, positive numbers of copper lists, tasks, monitors, simulation callbacks, clocks, failures of log writes, changes of the environment between iterations, numbers of iterations", "why_tests_cant": "The copper lists are reused for ever; tests run with the one number that is built in.", "anchors": ["core/cu29_runtime/src/copperlist.rs: CuListsManager (new, create, pop)", "core/cu29_runtime/src/curuntime.rs: CuRuntime::end_of_processing", "core/cu29_derive/src/lib.rs: gen_runtime (run_one_iteration)"]}
{"id": "C176", "title": "Logging and a passive simulation callback do not influence a run", "statement": "A run whose copper lists are logged, all log writes succeeding, and the same run with logging turned off show the same calls of tasks with the same inputs and results, the same monitor decisions and reports, the same results of start and iterations, the same use of the clock, and the same copper lists at the end; the log is the only difference. Likewise an application made for simulation whose callback always answers that the runtime shall execute the step shows exactly what the application made for the robot shows, apart from the questions to the callback.", "quantifier": "all applications, task behaviours, monitors, clocks, states of the copper lists, changes of the environment between iterations, numbers of iterations; with and without errors and panics", "why_tests_cant": "A comparison of two programs that are built differently, over all tasks and lengths of runs; a test builds one and sees one run.", "anchors": ["core/cu29_derive/src/lib.rs: gen_runtime (run_one_iteration, start_all_tasks, the simulation callbacks)", "core/cu29_runtime/src/curuntime.rs: CuRuntime::end_of_processing", "core/cu29_runtime/src/simulation.rs: SimOverride"]}
{"id": "C177", "title": "A monitor has no influence but by its answers", "statement": "A monitor that shares no state with the tasks influences a run only by what it answers: when one application is run with two monitors, everything that happens, the inputs and results of the tasks, the log, the results of start and iterations and the states of the tasks and copper lists, is the same in both runs up to the first question (a decision about an error, the report of a copper list, the start) to which the two answer differently. Monitors that always answer alike can be exchanged without any change of the run.", "quantifier": "all applications, task behaviours, clocks, simulation callbacks, pairs of monitors, states of the copper lists, changes of the environment between iterations, numbers of iterations; with and without errors and panics", "why_tests_cant": "A statement about all pairs of monitors and whole runs; tests run with one monitor and check single decisions.", "anchors": ["core/cu29_derive/src/lib.rs: gen_runtime (monitoring_action of start, preprocess, process, postprocess; run_one_iteration, start_all_tasks)", "core/cu29_runtime/src/monitoring.rs: CuMonitor, Decision"]}
{"id": "C178", "title": "An ignored error is like sending nothing", "statement": "Under a monitor that decides to ignore errors and whose other answers do not depend on them, a run in which source and regular tasks fail now and then is the same, apart from the errors themselves and the decisions about them, as the run of tasks that do the same work but report no error and, where they failed to process, send no payload: all tasks get the same inputs, the log, the reports to the monitor and the results of the iterations are the same, and the tasks end in the same states.", "quantifier": "all applications, task behaviours, clocks, simulation callbacks, such monitors, states of the copper lists, changes of the environment between iterations, numbers of iterations", "why_tests_cant": "Whole runs over all behaviours of tasks are compared; tests check one decision at a time.", "anchors": ["core/cu29_derive/src/lib.rs: gen_runtime (monitoring_action of start, preprocess, process, postprocess)", "core/cu29_runtime/src/cutask.rs: CuMsg::clear_payload", "core/cu29_runtime/src/monitoring.rs: Decision::Ignore"]}
{"id": "C179", "title": "The clock does not influence tasks that do not look at it", "statement": "If tasks, simulation callback, monitor and log writer look neither at the clock nor at the process times in messages, what the clock shows makes no difference: two runs of one application with different clocks, starting with the same copper lists apart from times, show the same calls with the same inputs and results, the same decisions, reports, log entries and results of start and iterations, and end in the same states, all apart from process times, up to the first iteration in which one of the two panics.", "quantifier": "all applications, such tasks, monitors and simulation callbacks, all pairs of clocks including ones that jump or go back, states of the copper lists, changes of the environment between iterations, numbers of iterations", "why_tests_cant": "Statement about all clocks and whole runs; tests run with one mocked or real clock.", "anchors": ["core/cu29_derive/src/lib.rs: gen_runtime (run_one_iteration: process_time start and end, end to end time)", "core/cu29_runtime/src/curuntime.rs: CuRuntime::end_of_processing", "core/cu29_runtime/src/copperlist.rs: CuListsManager"]}
{"id": "C180", "title": "A task influences only the tasks it feeds", "statement": "If tasks know nothing but their own state and the messages they are given, and the errors of all tasks outside a group of tasks are ignored, then changing tasks outside the group in any way leaves alone the group, provided it is not fed by them, directly or through others: up to the first iteration in which a run panics, the tasks of the group get the same calls with the same inputs, answer alike, have the same messages with the same times in the log and the same states.", "quantifier": "all task graphs and plans computed from them, groups of tasks closed under their inputs, changes of the other tasks, decisions of the monitor about tasks of the group, clocks, states of the copper lists, numbers of iterations", "why_tests_cant": "Absence of influence over all behaviours of the other tasks; tests can only try some.", "anchors": ["core/cu29_derive/src/lib.rs: gen_runtime (run_one_iteration, the generated process calls)", "core/cu29_runtime/src/curuntime.rs: compute_runtime_plan, CuRuntime::end_of_processing", "core/cu29_runtime/src/copperlist.rs: CuListsManager"]}
{"id": "C181", "title": "The drawing tool keeps or replaces the picture", "statement": "A run of the program that draws a configuration which succeeds leaves in output.svg, or gives to the viewer, exactly dot's drawing of the configuration in the file; a run that does not succeed leaves the output.svg of an earlier run as it was.", "quantifier": "all configuration files, behaviours of dot, the file system and the viewer, earlier contents of output.svg, with and without opening the viewer", "why_tests_cant": "Failures of processes and disks at each step, after any number of bytes; tests have a working disk.", "anchors": ["core/cu29_runtime/src/rendercfg.rs: main", "core/cu29_runtime/src/config.rs: CuConfig::render, read_configuration"]}
{"id": "C182", "title": "The export program prints the log in the format asked for", "statement": "Asked for the copper lists of a log, the export program prints every copper list once, in order and in the format named on the command line, JSON or CSV; asked for the log lines, it prints every line logged.", "quantifier": "all cleanly closed logs of one stream of copper lists and one of lines, payloads, both formats", "why_tests_cant": "The choice of format is an argument of a program whose output no test looks at; logs are unbounded.", "anchors": ["core/cu29_export/src/lib.rs: run_cli, ExportFormat, Command, copperlists_dump, textlog_dump"]}
