(** What a user expects of an execution plan. *)
From Coq Require Import String List Arith Bool Relations.
From Verif Require Import Base PlanModel.
Import ListNotations.
Local Open Scope list_scope.
Local Open Scope nat_scope.

(** Connections join tasks of the configuration. *)
Definition wf_graph (g : graph) : Prop :=
  Forall (fun e => e_src e < g_n g /\ e_dst e < g_n g) (g_edges g).

(** [b] consumes messages of [a]. *)
Definition feeds (g : graph) (a b : nat) : Prop :=
  exists e, In e (g_edges g) /\ e_src e = a /\ e_dst e = b.

(** [b] is [a] or downstream of [a]. *)
Definition reaches (g : graph) : nat -> nat -> Prop := clos_refl_trans_1n nat (feeds g).

(** [v] lies on a cycle. *)
Definition on_cycle (g : graph) (v : nat) : Prop := exists w, feeds g v w /\ reaches g w v.

Definition acyclic (g : graph) : Prop := forall v, ~ on_cycle g v.

(** A task without any connection. *)
Definition isolated (g : graph) (v : nat) : Prop :=
  v < g_n g /\ forall w, ~ feeds g w v /\ ~ feeds g v w.

(** The connections into [v], in order of declaration. *)
Definition connections_into (g : graph) (v : nat) : list edge :=
  filter (fun e => e_dst e =? v) (g_edges g).

(** No two connections join the same two tasks. *)
Definition no_parallel (g : graph) : Prop :=
  NoDup (map (fun e => (e_src e, e_dst e)) (g_edges g)).

(** The most recently declared connection out of [v]. *)
Definition last_connection_from (g : graph) (v : nat) (e : edge) : Prop :=
  exists l1 l2, g_edges g = l1 ++ e :: l2 /\ e_src e = v /\ Forall (fun f => e_src f <> v) l2.
