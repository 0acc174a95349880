(** The configuration: building it by program, writing and reading its serialized
    representation, and task parameters (core/cu29_runtime/src/config.rs). The RON text
    format between the representation and a file is not modelled. *)
From Coq Require Import String List Arith NArith ZArith Bool.
From Verif Require Import Base.
Import ListNotations.
Local Open Scope list_scope.
Local Open Scope nat_scope.

(** core/cu29_runtime/src/config.rs:73-74, Value: a RON value. Numbers are integers of
    some variant, of which only the value matters (config.rs:122-130), or floats, given
    by their bits. Chars, maps, options, sequences, bytes and unit are [COther]. *)
Inductive cvalue := CInt (z : Z) | CFloat (bits : N) | CBool (b : bool) | CStr (s : string) | COther (n : nat).

(** core/cu29_runtime/src/config.rs:28, ComponentConfig: a HashMap, as the list of its
    insertions, the last one first. *)
Definition params := list (string * cvalue).
(** HashMap::get, core/cu29_runtime/src/config.rs:54-57. *)
Fixpoint map_get (m : params) (k : string) : option cvalue :=
  match m with
  | [] => None
  | (k', v) :: m => if String.eqb k k' then Some v else map_get m k
  end.
(** HashMap::insert, core/cu29_runtime/src/config.rs:60-63. *)
Definition map_set (m : params) (k : string) (v : cvalue) : params := (k, v) :: m.

(** core/cu29_runtime/src/config.rs:206-213, Node. *)
Record node := Node { n_id : string; n_type : option string; n_config : option params }.
(** core/cu29_runtime/src/config.rs:265-284, Cnx. *)
Record cnx := Cnx { x_src : string; x_dst : string; x_msg : string; x_batch : option N; x_store : option bool }.
(** core/cu29_runtime/src/config.rs:295-301, MonitorConfig. *)
Record monitor_config := MonitorConfig { mc_type : string; mc_config : option params }.
(** core/cu29_runtime/src/config.rs:319-327, LoggingConfig. *)
Record logging_config := LoggingConfig { lc_slab : option N; lc_section : option N; lc_enable : bool }.

(** core/cu29_runtime/src/config.rs:286-293, CuConfig: petgraph's StableDiGraph filled by
    add_node and add_edge only, as the nodes and the edges with their end points, both in
    the order of their indices. *)
Record config := Config {
  c_nodes : list node; c_edges : list (nat * nat * cnx);
  c_monitor : option monitor_config; c_logging : option logging_config }.
(** core/cu29_runtime/src/config.rs:405-413 (default). *)
Definition empty_config : config := Config [] [] None None.

(** core/cu29_runtime/src/config.rs:419-421 (add_node). *)
Definition add_node (c : config) (n : node) : config :=
  Config (c_nodes c ++ [n]) (c_edges c) (c_monitor c) (c_logging c).
(** core/cu29_runtime/src/config.rs:512-539 (connect_ext). *)
Definition connect_ext (c : config) (s t : nat) (msg : string) (batch : option N) (store : option bool)
    : outcome config :=
  match nth_error (c_nodes c) s, nth_error (c_nodes c) t with
  | Some a, Some b => Ret (Config (c_nodes c) (c_edges c ++ [(s, t, Cnx (n_id a) (n_id b) msg batch store)])
                            (c_monitor c) (c_logging c))
  | _, _ => Panic
  end.
(** Assignment through core/cu29_runtime/src/config.rs:431-433 (get_node_mut). *)
Definition set_node (c : config) (i : nat) (n : node) : config :=
  Config (upd i n (c_nodes c)) (c_edges c) (c_monitor c) (c_logging c).

(** core/cu29_runtime/src/config.rs:330-336, CuConfigRepresentation; of the logging
    section, the field enable_task_logging may be missing (config.rs:324-325). *)
Record repr := Repr {
  r_tasks : list node; r_cnx : list cnx;
  r_monitor : option monitor_config; r_logging : option (option N * option N * option bool) }.

(** core/cu29_runtime/src/config.rs:318-326, derived Serialize: the field is left out
    when true. *)
Definition write_logging (l : logging_config) : option N * option N * option bool :=
  (lc_slab l, lc_section l, if lc_enable l then None else Some false).
(** core/cu29_runtime/src/config.rs:314-326, derived Deserialize with the default. *)
Definition read_logging (l : option N * option N * option bool) : logging_config :=
  let '(a, b, e) := l in LoggingConfig a b (match e with Some e => e | None => true end).

(** core/cu29_runtime/src/config.rs:377-403 (serialize). *)
Definition serialize (c : config) : repr :=
  Repr (c_nodes c) (map snd (c_edges c)) (c_monitor c) (option_map write_logging (c_logging c)).

(** core/cu29_runtime/src/config.rs:352-361: the first node with this id. *)
Fixpoint find_node (l : list node) (id : string) : option nat :=
  match l with
  | [] => None
  | n :: l => if String.eqb (n_id n) id then Some 0 else option_map S (find_node l id)
  end.
(** core/cu29_runtime/src/config.rs:351-369, the loop over connections. *)
Fixpoint read_cnx (c : config) (l : list cnx) : outcome config :=
  match l with
  | [] => Ret c
  | x :: l => match find_node (c_nodes c) (x_src x), find_node (c_nodes c) (x_dst x) with
              | Some s, Some t => let! c := connect_ext c s t (x_msg x) (x_batch x) (x_store x) in read_cnx c l
              | _, _ => Panic
              end
  end.
(** core/cu29_runtime/src/config.rs:338-375 (deserialize). *)
Definition deserialize (r : repr) : outcome config :=
  let c := fold_left add_node (r_tasks r) empty_config in
  let! c := read_cnx c (r_cnx r) in
  Ret (Config (c_nodes c) (c_edges c) (r_monitor r) (option_map read_logging (r_logging r))).

(** core/cu29_runtime/src/config.rs:650-655 and 658-670 (validate). *)
Definition validate (c : config) : bool :=
  match c_logging c with
  | Some (LoggingConfig (Some slab) (Some section) _) => negb (slab <? section)%N
  | _ => true
  end.
(** core/cu29_runtime/src/config.rs:686-691 (read_configuration_str) on the parsed text;
    [None] is Err. *)
Definition read_configuration (r : repr) : outcome (option config) :=
  let! c := deserialize r in Ret (if validate c then Some c else None).

(** ** Parameters *)
(** The integer types of core/cu29_runtime/src/config.rs:144. *)
Inductive int_type := U8 | I8 | U16 | I16 | U32 | I32 | U64 | I64.
(** Width of the types of core/cu29_runtime/src/config.rs:144. *)
Definition bits_of (t : int_type) : Z :=
  match t with U8 | I8 => 8 | U16 | I16 => 16 | U32 | I32 => 32 | U64 | I64 => 64 end%Z.
(** Signedness of the types of core/cu29_runtime/src/config.rs:144. *)
Definition is_signed (t : int_type) : bool := match t with I8 | I16 | I32 | I64 => true | _ => false end.
(** [n as $target], core/cu29_runtime/src/config.rs:123-130. *)
Definition cast (t : int_type) (z : Z) : Z :=
  let m := (z mod 2 ^ bits_of t)%Z in
  if is_signed t && (2 ^ (bits_of t - 1) <=? m)%Z then (m - 2 ^ bits_of t)%Z else m.
(** core/cu29_runtime/src/config.rs:116-142, From<Value> for integers. *)
Definition int_of (t : int_type) (v : cvalue) : outcome Z :=
  match v with CInt z => Ret (cast t z) | _ => Panic end.
(** core/cu29_runtime/src/config.rs:77-99, From<i32>, u32, u16 and u8 for Value. *)
Definition value_of_int (z : Z) : cvalue := CInt z.
(** core/cu29_runtime/src/config.rs:107-115, From<Value> for bool. *)
Definition bool_of (v : cvalue) : outcome bool := match v with CBool b => Ret b | _ => Panic end.
(** core/cu29_runtime/src/config.rs:162-170, From<Value> for String. *)
Definition string_of (v : cvalue) : outcome string := match v with CStr s => Ret s | _ => Panic end.

(** core/cu29_runtime/src/config.rs:247-252 (get_param). *)
Definition get_param {A} (conv : cvalue -> outcome A) (n : node) (k : string) : outcome (option A) :=
  match n_config n with
  | None => Ret None
  | Some m => match map_get m k with
              | None => Ret None
              | Some v => let! a := conv v in Ret (Some a)
              end
  end.
(** core/cu29_runtime/src/config.rs:255-261 (set_param). *)
Definition set_param (n : node) (k : string) (v : cvalue) : node :=
  Node (n_id n) (n_type n) (Some (map_set (match n_config n with Some m => m | None => [] end) k v)).
