(** What configurations are required to do. *)
From Coq Require Import String List Arith NArith ZArith Bool.
From Verif Require Import Base ConfigModel.
Import ListNotations.
Local Open Scope list_scope.
Local Open Scope nat_scope.

(** Programs building a configuration. *)
Inductive op :=
| AddNode (n : node)
| Connect (s t : nat) (msg : string) (batch : option N) (store : option bool)
| Assign (i : nat) (n : node)
| SetMonitor (m : option monitor_config)
| SetLogging (l : option logging_config).
Definition run_op (c : config) (x : op) : outcome config :=
  match x with
  | AddNode n => Ret (add_node c n)
  | Connect s t m b st => connect_ext c s t m b st
  | Assign i n => Ret (set_node c i n)
  | SetMonitor m => Ret (Config (c_nodes c) (c_edges c) m (c_logging c))
  | SetLogging l => Ret (Config (c_nodes c) (c_edges c) (c_monitor c) l)
  end.
Fixpoint build (c : config) (l : list op) : outcome config :=
  match l with [] => Ret c | x :: l => let! c := run_op c x in build c l end.
(** Assignments to tasks keep their ids. *)
Definition keeps_ids (l : list op) : Prop :=
  forall pre i n post c m, l = pre ++ Assign i n :: post -> build empty_config pre = Ret c ->
  nth_error (c_nodes c) i = Some m -> n_id m = n_id n.

(** The values of an integer type. *)
Definition fits (t : int_type) (z : Z) : Prop :=
  match t with
  | U8 => 0 <= z < 256 | I8 => -128 <= z < 128
  | U16 => 0 <= z < 65536 | I16 => -32768 <= z < 32768
  | U32 => 0 <= z < 4294967296 | I32 => -2147483648 <= z < 2147483648
  | U64 => 0 <= z < 18446744073709551616 | I64 => -9223372036854775808 <= z < 9223372036854775808
  end%Z.
