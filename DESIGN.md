# Formal model of copper-rs in Rocq

## Layout

`rocq/theories` holds, per topic `X`:

* `XModel.v`: total computable functions, one per Rust function; each definition
  cites the file and lines it models and states its simplifications.
* `XSpec.v`: the vocabulary in which properties are stated (abstract stacks,
  lists, graphs, wire formats, rectangles of pixels, ...). It imports the model's
  data types only when the property has to speak about them.
* `XProofs.v`: invariants, refinement and induction lemmas.
* `XProps.v`: the property theorems, each followed by `Print Assumptions` and an
  `Example` showing that a concrete non-trivial case meets the hypotheses. Small
  topics keep their specification and lemmas in this file too.

`properties.jsonl` states the properties in words, `MANIFEST.json` maps each to
its theorems, `seeded/LOG.jsonl` records the mutations of the model that were
tried against the theorems.

Conventions.

* Machine integers are `N`/`Z` with the bound written explicitly whenever a
  property is about overflow. Where the behaviour depends on overflow checks the
  model takes an `ovf_mode` (`Checked`, a debug build, or `Wrapping`, a release
  build) or says in its header which one it describes.
* A Rust panic is an explicit error value (`Panic`), never a default.
* External code (task bodies, monitors, clocks, encoders of user payloads,
  devices, sockets) is a universally quantified function or an explicit trace of
  results, so a theorem holds for every such behaviour.
* Loops with fuel (planner, value decoder) return an error when it runs out, and
  the fuel is proved sufficient (C13, C24_fuel).
* A property that the unchanged code violates is proved false of the model by a
  theorem `..._refuted` with a concrete witness. Beside it stands the strongest
  true variant that was found, usually an exact characterisation of when the
  property holds, with the suffix `_partial`. Such a property has status
  `partial` in the manifest, with a note that begins "Settled negatively".

## What is modelled, per topic

| files | code | properties | method |
|-------|------|------------|--------|
| ULog* | core/cu29_unifiedlog/src/lib.rs: slabs, sections, headers, streams, reader, IO reader, flushing, at byte level | C01-C06, C55 | invariant relating the file images to the list of sections; frame lemmas; induction on the reader; crash images as prefixes of the writes |
| CuList* | core/cu29_runtime/src/copperlist.rs, and end_of_processing of curuntime.rs | C07-C10 | refinement to a bounded stack |
| Plan* | core/cu29_runtime/src/curuntime.rs: planner over a petgraph-like graph | C11-C15 | ancestor-closed plan invariant; minimal counterexample for completeness |
| Runtime* | core/cu29_derive/src/lib.rs: the generated application (start, run, stop, simulation) as an interpreter producing a trace | C16-C21, C56 | trace invariants by induction on runs |
| Bincode*, Codec*, Value* | bincode `standard()` subset, core/cu29_clock, cutask.rs, payload.rs, copperlist.rs, cu29_value | C22-C25, C35, C36, C38 | round trip with continuation, nested induction |
| Log* | core/cu29_log, cu29_log_derive, cu29_intern_strs, text export | C26-C29, C57 | induction on strings and histories; interleavings of compilations |
| Config* | core/cu29_runtime/src/config.rs | C30, C58 | list induction |
| Pool* | core/cu29_runtime/src/pool.rs (host) | C31 | invariant over histories of handles |
| Stats*, Console* | core/cu29_runtime/src/monitoring.rs, components/monitors/cu_consolemon | C32, C53, C59 | fold invariant |
| Soa*, Cloud* | core/cu29_soa_derive, components/payloads/cu_sensor_payloads/src/pointcloud.rs | C33, C34, C48, C54 | refinement to lists of records; permutation and sortedness by strong induction |
| Ts* | core/cu29_export/src/lib.rs (Python timestamps) | C37 | arithmetic |
| Msp* | components/common/cu_msp_lib, components/sources/cu_msp_src | C39-C42 | parser state machine induction; CRC as a polynomial remainder |
| Servo* | components/sinks/cu_lewansoul | C43 | list induction |
| Adc* | components/sources/cu_ads7883 | C44, C60 | invariant; measure |
| Aligner* | components/tasks/cu_aligner | C45, C46, C61 | list induction |
| Thresh* | components/tasks/cu_dynthreshold | C47 | double induction on rows and columns |
| Float*, Pid*, Motor* | components/tasks/cu_pid, components/sinks/cu_rp_sn754410, with IEEE binary32 | C49-C51, C62 | invariants; error bounds through Flocq |
| Sources* | cu_v4l, cu_iceoryx2_src, cu_gstreamer, cu_rp_encoder | C52, C63-C65 | induction on event sequences |
| Lidar* | components/sources/cu_hesai, cu_livox | C63, C66-C72 | exact inverse of a wire format; interval invariants |
| Serde* | core/cu29_value ser.rs, de.rs, Eq and Hash of lib.rs; the parameter conversion of core/cu29_log_derive | C73-C78 | nested induction over data; permutation of map entries |
| MspMsg* | components/common/cu_msp_lib structs.rs and commands.rs, components/sinks/cu_msp_sink, the conversion in components/sources/cu_msp_src | C79-C84 | a relation between bytes and fields; induction over layouts |
| Clock* | core/cu29_clock (arithmetic, Display, mock and real clocks) | C85-C89 | modular arithmetic; Flocq for the f64 of Display |
| Replay* | examples/cu_rp_balancebot/src/resim.rs, for any application, on top of Runtime* | C90 | simulation of the recorded run by the replay, up to a view of messages |
| Logger* | core/cu29_log_runtime/src/lib.rs (LoggerRuntime, log, SimpleFileWriter), CuError of core/cu29_traits/src/lib.rs | C91 to C95 | interleavings of calls split at each access of the shared logger; invariants over all interleavings; buffered file on a disk with changing room |
| Camera* | components/sources/cu_v4l/src/v4lstream.rs, process/start/stop of its lib.rs, acquire and drop of core/cu29_runtime/src/pool.rs | C96, C97 | buffers owned by pool, arena, driver, message, tasks; the driver's order and failures and the pool's choice are parameters; inductive invariant over all histories |
| Payload* | components/payloads/cu_spatial_payloads/src/lib.rs, components/sources/cu_wt901/src/lib.rs, components/payloads/cu_sensor_payloads/src/image.rs | C98 to C103 | matrices over integers; f32 scaling proved exact through Flocq; codec combinators; glam, nalgebra, faer, kornia and uom modelled by what their documentation says of the calls used |
| App* | core/cu29_derive/src/lib.rs (new, builder, instanciators, simulation types), core/cu29_runtime/src/curuntime.rs (new), core/cu29_runtime/src/config.rs, core/cu29_derive/src/utils.rs | C104 to C109 | task, monitor creation and the change of case are arbitrary functions; the effects of building are a list of events |
| Alloc* | core/cu29_runtime/src/monitoring.rs (CountingAllocator, ScopedAllocCounter) | C110 | interleaved atomic actions of threads on blocks of memory; the system allocator and the default methods of GlobalAlloc by their documentation |
| Py* | core/cu29_export/src/lib.rs 165-192, 266-269, 282-326 (Python iterator, value_to_py) | C111, C112 | Python objects as a data type; Python's equality and hashing of keys and pyo3's conversions by their documentation; opening files not modelled |
| Tag* | components/tasks/cu_apriltag/src/lib.rs (payload, codec, serde, process, image view) | C113-C116 | what the apriltag library detects, as data; its matrices stored row after row (its documentation); floats by their bits, the f64 to f32 cast any function; reading the configuration not modelled |
| Setup* | core/cu29_unifiedlog/src/lib.rs (build_slab_path, builder), core/cu29_helpers/src/lib.rs, core/cu29_derive/src/lib.rs (the stream of copper lists) | C117-C120 | the last component of a path as data (none, no text, text); opening files always succeeds; the clock and the text logger of the setup not modelled |
| Bot* | examples/cu_rp_balancebot/copperconfig.ron, src/tasks.rs, src/main.rs, with the runtime, PID, motor and console monitor models | C121-C127 | the drivers of the sensors by what they send; what the monitor reports, the clock and the PWM as inputs; status texts not modelled; the panic of a PID recorded as a flag that ends the program |
| Stale* | core/cu29_unifiedlog/src/lib.rs 450-493 on a disk with older slab files, with the log model | C128 | creating a file is one effect (truncation and set_len together) |
| Pane* | components/monitors/cu_consolemon/src/debug_pane.rs and its use in src/lib.rs (debug pane) | C129-C131 | ratatui by the first lines it shows of a text; width, carriage returns and the drawing itself not modelled; a record being logged is atomic; the time stamp is an input |
| Cat* | examples/cu_caterpillar (tasks, configuration), components/sinks/cu_rp_gpio, with the planner and runtime models | C132 | clock, monitor report and log as inputs; a panic of a task recorded as a flag, proved never set; status texts and creating the pins not modelled |
| Reg* | core/cu29_runtime/src/pool.rs (registry, statistics, AlignedBuffer), components/monitors/cu_consolemon/src/lib.rs (PoolStats, updating the table) | C133 to C136 | order of the HashMap, times of the updates and the allocator as inputs; all pools read at one moment; CUDA pools (see Device*), which are never registered, and the drawing itself not modelled |
| Screen* | components/monitors/cu_consolemon/src/lib.rs (task screen, keys, statuses, quitting), with the runtime model | C137 to C139 | the two threads take turns, a turn of each being one event; positions of nodes, scrolling and the other screens not modelled |
| Render* | core/cu29_runtime/src/config.rs (render), core/cu29_runtime/src/rendercfg.rs (what is given to dot) | C140 | Display of values and the order of the HashMap as inputs; html_escape::encode_text as its documentation says; dot itself as the small reader of RenderSpec.v |
| Velo* | components/testing/cu_udp_inject/src/lib.rs, components/sources/cu_vlp16/src/lib.rs, reflectivity of cu_hesai and cu_livox | C141-C145 | the crates pcap and velodyne-lidar, sockets, sleeping and the clock as inputs; what the caller lets pass between calls is arbitrary; the 256 reflectivities by exhaustion |
| Bridge* | components/sinks/cu_iceoryx2_sink/src/lib.rs, components/sources/cu_iceoryx2_src/src/lib.rs | C146-C148 | the iceoryx2 service as documented (buffer with safe overflow, no history), its failures as inputs; both tasks in any interleaving |
| Crate* | core/cu29_derive/src/utils.rs (caller_crate_root), core/cu29_derive/src/lib.rs (config_full_path) | C149 | file system as a tree in any order; whitespace ASCII only; relative config names |
| Make* | the functions new of components/sinks/cu_rp_gpio, cu_rp_sn754410, cu_lewansoul, cu_msp_sink, components/sources/cu_rp_encoder, cu_ads7883, cu_hesai, cu_livox, cu_msp_src, cu_wt901, cu_gstreamer, cu_v4l, components/tasks/cu_aligner, cu_pid, cu_dynthreshold, cu_apriltag; core/cu29_runtime/src/config.rs (ComponentConfig::get, From<Value>) | C150-C152 | devices, sockets and libraries as predicates; f64 parameters as an abstract type, casts to f32 left out |
| Term* | components/monitors/cu_consolemon/src/lib.rs (TaskStats::reset, start, stop, setup_terminal, restore_terminal, init_error_hooks, keys), core/cu29_derive/src/lib.rs (run, stop_all_tasks as far as the console sees them) | C153-C155 | without debug_pane; calls to the terminal succeed; threads cut into the steps others can see; a panic of the console in the main thread ends what is modelled |
| Sim* | examples/cu_rp_balancebot/src/sim.rs, resim.rs on the generated code of RuntimeModel and the tasks of BotModel | C156-C160 | the physics are the frames they produce; the force's components across the rail (0) and the status texts left out |
| Text* | the model of Log*: core/cu29_value/src/lib.rs (Display), core/cu29_log/src/lib.rs (rebuild_logline), core/cu29_export/src/lib.rs (textlog_dump) | C161-C162 | as Log* |
| ServoRead* | components/sinks/cu_lewansoul/src/lib.rs (reassign_servo_id, read_current_position, read_present_voltage, read_temperature, read_angle_limits) | C163 | writing to the port succeeds; the bytes that arrive during each reading are arbitrary; process is todo!() in the code and not modelled |
| Multi* | examples/cu_multisources (tasks and configuration) on the model of Runtime* | C164 | the clock, the monitor and the log as arbitrary functions; printing is a list of lines |
| Order* | core/cu29_value/src/lib.rs (Ord and PartialEq for Value), on the models of Value* and Serde* | C165 | ordered-float's comparison as an integer key of the bits, proved to agree with IEEE 754 |
| Record* | the copper lists of examples/cu_multisources as written to the log (core/cu29_runtime/src/cutask.rs, curuntime.rs), on the models of Multi*, Codec*, ULog* and Export* | C166 | the time of validity and status of messages stay at their defaults, as these tasks leave them |
| Rerun* | the messages of any application as written to its log and read for a replay (examples/cu_rp_balancebot/src/resim.rs, core/cu29_derive/src/lib.rs tuple of messages), on the models of Runtime*, Replay*, Codec*, ULog* and Export* | C167 | the payload types of the fields are parameters, with their encodings |
| Died* | no code of its own: what the models of ULog*, Codec*, Export*, Replay* and Rerun* say of a program that is killed | C168, C169 | a death is between two effects on the files (a store to a mapped page, a truncation), as in C03 |
| Times* | no code of its own: what Runtime* says of the process times in the log | C170 | as Runtime* |
| Lines* | no code of its own: what the models of ULog*, Log*, Export* and Py* say of the lines in the files of a log | C171 | as these |
| Alone* | no code of its own: what the model of Runtime* says of one task in a graph | C172 | as Runtime* |
| Device* | core/cu29_runtime/src/pool.rs (mod cuda) | C173 | the copies of cudarc, taken to assert that the destination is no shorter than the source and to copy the source to its beginning; kernels working on the device buffers not modelled; each operation atomic, as in Pool* |
| Keep* | no code of its own: what the model of Runtime* says of the copper list an iteration gets | C174 | as Runtime* |
| Slots* | no code of its own: what the model of Runtime* says of runs with different numbers of copper lists | C175 | as Runtime* |
| Watch* | no code of its own: what the model of Runtime* says of runs with and without log and simulation callback | C176 | as Runtime* |
| Rival* | no code of its own: what the model of Runtime* says of runs with different monitors | C177 | as Runtime* |
| Forgive* | no code of its own: what the model of Runtime* says of errors that are ignored | C178 | as Runtime* |
| Timeless* | no code of its own: what the model of Runtime* says of runs with different clocks | C179 | as Runtime* |
| Influence* | no code of its own: what the models of Plan* and Runtime* say of the influence of one task on another | C180 | as Runtime* |
| Picture* | core/cu29_runtime/src/rendercfg.rs:23-75 (main), on Config* and Render* | C181 | parsing of arguments; dot, inkscape and the file system are inputs; a dot that writes before it has read its input could block the program, not modelled |
| Cli* | core/cu29_export/src/lib.rs:11-82 (run_cli), on Codec*, Log* and ULog* | C182 | parsing of arguments, notices about damaged data, the value returned by textlog_dump; the debug notation of a copper list is an input |

## Trusted base

* Coq 8.16.1's kernel, with `vm_compute`.
* What `Print Assumptions` lists. Every property theorem prints "Closed under the
  global context", except those below, which use Flocq's theorems on Coq's real
  numbers and so the standard library's axioms
  `ClassicalDedekindReals.sig_not_dec`, `ClassicalDedekindReals.sig_forall_dec`,
  `FunctionalExtensionality.functional_extensionality_dep` and
  `Classical_Prop.classic`:
  * `C54_all_refuted`, `C51_forward_partial`, `C50_same_phase_partial`,
    `C50_after_stop_partial`, `C62_number`, `C89_close`, `C89_exact`, `C89_option`,
    `C100_partial`, `C100_refuted`, `C121_stops`, `C121_first`, `C122_partial`, `C123_number`,
    `C126_partial`, `C135_bound_partial`, `C156_partial`, `C163_partial`,
    `C163_late_refuted`, `C163_distinct_partial`, `C164_partial`, `C164_refuted`, `C166_recording` (all four axioms),
  * `C62_same_time_refuted` (`sig_forall_dec` and functional extensionality).
* That the Gallina functions say what the cited Rust code does. The Rust code is
  not compiled or extracted; the correspondence is by reading.
* The behaviour of dependencies, transcribed from their documentation into the
  model: bincode 2 `standard()` (varint integers, derived codecs), petgraph
  (iteration orders, most recently added edge first), `BTreeMap`, `Vec`,
  ordered-float, strfmt, LMDB transactions, `object-pool`, hdrhistogram (three
  digits), serde's visitors for std types and those its derive generates (types of
  finite depth, no attributes), crc_any (its parameters are checked against the standard by
  `C39_crc_standard`), circular-buffer, compact_str, bytemuck casts of packed
  structs on a little endian machine, glam, nalgebra, faer, kornia and uom (the calls
  of the payload conversions), packed_struct (fields one after the other, its size
  checks; the six MSP structs that announce fewer bytes than their fields take are a
  parameter `odd`, about which nothing is assumed but, in C80, that they are not empty), std's `read_exact` and formatting
  of floats with three decimals, quanta (the mock's counter wraps around, differences of
  instants stop at zero).
* The following are inputs, about which nothing is assumed: task bodies,
  monitors, clocks, sockets and serial lines, cameras, GPIO, shared memory,
  chrono's calendar (`utc`), user payload codecs (assumed to be lossless stream
  codecs where the theorem says so).

## What is not modelled

* Threads and memory ordering. Operations protected by a lock are one step;
  concurrent ones are interleaved (string interning, pool handles, interrupts,
  pipeline callbacks, logger calls).
* The operating system: page cache (a crash image is a prefix of the writes in
  program order), files that cannot be created, memory exhaustion, scheduling.
* Text formats: RON, JSON, terminal screens, the parsing of Rust by macros
  (their output is what is modelled), and generated names.
* Trigonometry and unit conversions to f32 of the lidars, standard deviations and
  percentiles, CUDA kernels, Python bindings other than timestamps, AprilTag
  detection, examples (but the replay program of the balance bot) and templates.
