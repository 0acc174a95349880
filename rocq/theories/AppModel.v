(** Building an application: the configuration in use, the tasks and their parameters,
    the builder and the placeholders of the simulation
    (core/cu29_derive/src/lib.rs, core/cu29_runtime/src/curuntime.rs and config.rs). *)
From Coq Require Import String List Arith NArith Bool.
From Verif Require Import Base ConfigModel PlanModel.
Import ListNotations.
Local Open Scope list_scope.
Local Open Scope nat_scope.

(** What is found at run time under the name of the configuration file
    (core/cu29_derive/src/lib.rs:1037, core/cu29_runtime/src/config.rs:674-683,
    562-570): no file, a file that cannot be read, or a text; [None] is a text that is
    not a configuration in the RON format. *)
Inductive file := Absent | Unreadable | Text (parsed : option repr).

(** The errors building an application can give (core/cu29_runtime/src/config.rs:675-681,
    664; core/cu29_derive/src/lib.rs:406-413, 1126, 1188, 1190): the text is left out
    except for the index of the task and the error of the task. *)
Inductive app_error :=
| ReadFailed | BadSizes | TaskFailed (i : nat) (cause : string)
| ClockMissing | LoggerMissing | CallbackMissing.

(** core/cu29_runtime/src/config.rs:562-570 (deserialize_ron) and 686-691
    (read_configuration_str). *)
Definition read_str (parsed : option repr) : outcome (config + app_error) :=
  match parsed with
  | None => Panic
  | Some r => let! c := read_configuration r in
              match c with None => Ret (inr BadSizes) | Some c => Ret (inl c) end
  end.

(** core/cu29_derive/src/lib.rs:1031-1044, beginning of [new]. [original] is the text of the
    configuration the application was compiled with (1077-1079). *)
Definition choose (override : option config) (f : file) (original : option repr)
    : outcome (config + app_error) :=
  match override with
  | Some c => Ret (inl c)
  | None => match f with
            | Unreadable => Ret (inr ReadFailed)
            | Text t => read_str t
            | Absent => read_str original
            end
  end.

(** The product of two usize (64 bits) as at core/cu29_derive/src/lib.rs:1048, 1052: panics or
    wraps. *)
Definition mul_usize (mode : ovf_mode) (a b : N) : outcome N :=
  (if a * b <? 2 ^ 64 then Ret (a * b)
   else match mode with Checked => Panic | Wrapping => Ret ((a * b) mod 2 ^ 64) end)%N.
(** core/cu29_derive/src/lib.rs:1048-1053: u64 to usize (64 bits) and the products. *)
Definition section_size (mode : ovf_mode) (culist : N) (c : config) : outcome N :=
  let! default := mul_usize mode culist 64 in
  match c_logging c with
  | Some (LoggingConfig _ (Some mib) _) =>
      let! a := mul_usize mode mib 1024 in mul_usize mode a 1024
  | _ => Ret default
  end.

(** core/cu29_runtime/src/curuntime.rs:65-69 and core/cu29_runtime/src/config.rs:501-506,
    636-641. *)
Definition all_instances_configs (c : config) : list (option params) := map n_config (c_nodes c).

(** core/cu29_runtime/src/curuntime.rs:75-84: is the logger of copper lists kept? *)
Definition logs_lists (c : config) : bool :=
  match c_logging c with Some l => lc_enable l | None => true end.

Section New.
(** External code: tasks of the application and the monitor; a task is created from its
    parameters by user code which may fail or panic (core/cu29_runtime/src/cutask.rs:203, 244, 289);
    [sz] is size_of::<CuList>(). *)
Context {task monitor : Type}.
Variable create : nat -> option params -> outcome (task + string).
Variable create_monitor : config -> outcome monitor.
Variable sz : N.
Variable mode : ovf_mode.

(** What user code sees while an application is built: a section of the log asked for,
    a task or the monitor created, the simulation told of a task
    (core/cu29_derive/src/lib.rs:1054-1072). *)
Inductive event :=
| Stream (size : N) | Create (i : nat) (p : option params) | Monitor (c : config)
| Told (i : nat) (p : option params).

(** The result of building (core/cu29_derive/src/lib.rs:1063-1070, curuntime.rs:86-92). *)
Record application := App { a_tasks : list task; a_monitor : monitor; a_logs : bool }.

(** core/cu29_derive/src/lib.rs:1251-1257 with 406-413 and 382-391: the tasks in the order
    of their indices from [i]; [n] are left to create. *)
Fixpoint instanciate (cfgs : list (option params)) (i n : nat)
    : list event * outcome (list task + app_error) :=
  match n with
  | 0 => ([], Ret (inl []))
  | S n =>
      match nth_error cfgs i with
      | None => ([], Panic)
      | Some p =>
          match create i p with
          | Panic => ([Create i p], Panic)
          | Ret (inr e) => ([Create i p], Ret (inr (TaskFailed i e)))
          | Ret (inl t) =>
              let (tr, r) := instanciate cfgs (S i) n in
              (Create i p :: tr,
               match r with
               | Ret (inl ts) => Ret (inl (t :: ts))
               | r => r
               end)
          end
      end
  end.

(** core/cu29_runtime/src/curuntime.rs:58-95 (new). *)
Definition runtime_new (n : nat) (c : config) : list event * outcome (application + app_error) :=
  let (tr, r) := instanciate (all_instances_configs c) 0 n in
  match r with
  | Panic => (tr, Panic)
  | Ret (inr e) => (tr, Ret (inr e))
  | Ret (inl ts) =>
      (tr ++ [Monitor c],
       let! m := create_monitor c in Ret (inl (App ts m (logs_lists c))))
  end.

(** core/cu29_derive/src/lib.rs:938-958: the callbacks on new, for the tasks from [i] on. *)
Fixpoint callbacks (cfgs : list (option params)) (i n : nat) : list event * outcome unit :=
  match n with
  | 0 => ([], Ret tt)
  | S n => match nth_error cfgs i with
           | None => ([], Panic)
           | Some p => let (tr, r) := callbacks cfgs (S i) n in (Told i p :: tr, r)
           end
  end.

(** core/cu29_derive/src/lib.rs:1031-1075 (new) for an application of [n] tasks, [sim] for
    sim_mode. The section is asked for before the tasks are created; taking it from the log
    is in ULogModel. *)
Definition app_new (n : nat) (sim : bool) (original : option repr) (f : file)
    (override : option config) : list event * outcome (application + app_error) :=
  match choose override f original with
  | Panic => ([], Panic)
  | Ret (inr e) => ([], Ret (inr e))
  | Ret (inl c) =>
      match section_size mode sz c with
      | Panic => ([], Panic)
      | Ret size =>
          let (tr, r) := runtime_new n c in
          match r with
          | Ret (inl a) =>
              if sim then
                let (tr', r') := callbacks (all_instances_configs c) 0 n in
                (Stream size :: tr ++ tr', let! _ := r' in Ret (inl a))
              else (Stream size :: tr, Ret (inl a))
          | r => (Stream size :: tr, r)
          end
      end
  end.

(** ** The builder *)
Context {clock logger callback : Type}.

(** core/cu29_derive/src/lib.rs:1095-1100, 1132-1136: the builder; without simulation it
    has no callback. *)
Record builder := Builder {
  b_clock : option clock; b_logger : option logger; b_config : option config;
  b_callback : option callback }.

(** core/cu29_derive/src/lib.rs:1103-1110, 1139-1145 (new). *)
Definition builder_new : builder := Builder None None None None.
(** core/cu29_derive/src/lib.rs:1162-1165 (with_clock). *)
Definition with_clock (b : builder) (x : clock) : builder :=
  Builder (Some x) (b_logger b) (b_config b) (b_callback b).
(** core/cu29_derive/src/lib.rs:1167-1170 (with_unified_logger). *)
Definition with_logger (b : builder) (x : logger) : builder :=
  Builder (b_clock b) (Some x) (b_config b) (b_callback b).
(** core/cu29_derive/src/lib.rs:1172-1176 (with_context). *)
Definition with_context (b : builder) (x : clock) (y : logger) : builder :=
  Builder (Some x) (Some y) (b_config b) (b_callback b).
(** core/cu29_derive/src/lib.rs:1178-1181 (with_config). *)
Definition with_config (b : builder) (x : config) : builder :=
  Builder (b_clock b) (b_logger b) (Some x) (b_callback b).
(** core/cu29_derive/src/lib.rs:1118-1122 (with_sim_callback). *)
Definition with_callback (b : builder) (x : callback) : builder :=
  Builder (b_clock b) (b_logger b) (b_config b) (Some x).

(** core/cu29_derive/src/lib.rs:1185-1194 (build), up to the call of [new], whose arguments
    are given. The arguments are evaluated from left to right. *)
Definition build (sim : bool) (b : builder)
    : (clock * logger * option config * option callback) + app_error :=
  match b_clock b with
  | None => inr ClockMissing
  | Some k =>
      match b_logger b with
      | None => inr LoggerMissing
      | Some l =>
          if sim then match b_callback b with
                      | None => inr CallbackMissing
                      | Some f => inl (k, l, b_config b, Some f)
                      end
          else inl (k, l, b_config b, None)
      end
  end.
End New.

(** ** Placeholders of the simulation *)
(** core/cu29_derive/src/lib.rs:305-326: the type of a task in the simulation. *)
Inductive sim_type := SimSource (msg : string) | Real (ty : string) | SimSink (msg : string).

(** core/cu29_runtime/src/config.rs:438-442, 460-464: the first node with the given id
    (node_indices().find_map). *)
Fixpoint index_of (ids : list string) (id : string) : option nat :=
  match ids with
  | [] => None
  | x :: ids => if String.eqb x id then Some 0 else option_map S (index_of ids id)
  end.

(** core/cu29_runtime/src/config.rs:488-493 (get_dst_edges). *)
Definition get_dst_edges (g : graph) (v : nat) : list (nat * edge) := in_edges g v.

(** core/cu29_runtime/src/config.rs:437-455 (get_node_output_msg_type). *)
Definition output_msg_type (ids : list string) (g : graph) (id : string) : outcome (option string) :=
  match index_of ids id with
  | None => Ret None
  | Some v => match get_src_edges g v with
              | [] => Panic
              | e :: _ => Ret (Some (e_msg (snd e)))
              end
  end.
(** core/cu29_runtime/src/config.rs:459-477 (get_node_input_msg_type). *)
Definition input_msg_type (ids : list string) (g : graph) (id : string) : outcome (option string) :=
  match index_of ids id with
  | None => Ret None
  | Some v => match get_dst_edges g v with
              | [] => Panic
              | e :: _ => Ret (Some (e_msg (snd e)))
              end
  end.

(** core/cu29_derive/src/lib.rs:305-326: the type in the simulation of the task at index
    [v], called [id], of type [ty]. *)
Definition sim_type_of (ids : list string) (g : graph) (v : nat) (id ty : string) : outcome sim_type :=
  match task_type_of g v with
  | Source => let! m := output_msg_type ids g id in
              match m with None => Panic | Some m => Ret (SimSource m) end
  | Regular => Ret (Real ty)
  | Sink => let! m := input_msg_type ids g id in
            match m with None => Panic | Some m => Ret (SimSink m) end
  end.

(** Does the call of [process] generated for a step of the plan have the types the
    placeholder wants? core/cu29_derive/src/lib.rs:705-713 and 780-785 (the calls),
    core/cu29_runtime/src/simulation.rs:166-178 and 189-201 (the placeholders). A real task
    is checked against its own types, which are not modelled. *)
Definition fits (t : sim_type) (s : step) : bool :=
  match t with
  | SimSource m => match s_out s with Some (_, m') => String.eqb m m' | None => false end
  | Real _ => true
  | SimSink m => match s_inputs s with [(_, m')] => String.eqb m m' | _ => false end
  end.

(** ** Names generated for tasks *)
Section Names.
(** External code: convert_case's [to_case] with Case::Pascal
    (core/cu29_derive/src/utils.rs:12) and char::is_alphanumeric outside ASCII. *)
Variable to_case : list N -> list N.
Variable is_alphanumeric : N -> bool.

(** core/cu29_derive/src/utils.rs:7-10, 23-26. *)
Definition sanitize (id : list N) : list N :=
  map (fun c => if is_alphanumeric c then c else 95%N) id.
(** core/cu29_derive/src/utils.rs:14-16 (is_ascii_digit). *)
Definition is_digit (c : N) : bool := ((48 <=? c) && (c <=? 57))%N.
(** core/cu29_derive/src/utils.rs:6-19 (config_id_to_enum) and, with another case, 22-35
    (config_id_to_struct_member). *)
Definition generated_name (id : list N) : list N :=
  match to_case (sanitize id) with
  | [] => []
  | c :: r => if is_digit c then 95%N :: c :: r else c :: r
  end.
End Names.
