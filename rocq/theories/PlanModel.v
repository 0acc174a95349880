(** The task graph of a configuration and the computation of the execution plan
    (core/cu29_runtime/src/curuntime.rs). *)
From Coq Require Import String List Arith Bool.
From Verif Require Import Base.
Import ListNotations.
Local Open Scope list_scope.
Local Open Scope nat_scope.

(** core/cu29_runtime/src/config.rs:252-269 (Cnx) as an edge of the graph: source,
    target and message type. Of the task nodes only the number matters here. *)
Record edge := Edge { e_src : nat; e_dst : nat; e_msg : string }.

(** core/cu29_runtime/src/config.rs:286-290, the graph of CuConfig: petgraph's
    StableDiGraph filled by add_node and add_edge only, so that node and edge
    indices are consecutive in order of declaration. *)
Record graph := Graph { g_n : nat; g_edges : list edge }.

(** The edges with their index (petgraph EdgeIndex), in order of declaration. The graph of core/cu29_runtime/src/config.rs:289. *)
Definition indexed (g : graph) : list (nat * edge) :=
  combine (seq 0 (length (g_edges g))) (g_edges g).

(** petgraph edges_directed(v, Outgoing): the most recently added edge first
    (the test at core/cu29_runtime/src/curuntime.rs:692-739 relies on it). *)
Definition out_edges (g : graph) (v : nat) : list (nat * edge) :=
  rev (filter (fun e => e_src (snd e) =? v) (indexed g)).
(** petgraph edges_directed(v, Incoming), likewise. Used at core/cu29_runtime/src/config.rs:488-493. *)
Definition in_edges (g : graph) (v : nat) : list (nat * edge) :=
  rev (filter (fun e => e_dst (snd e) =? v) (indexed g)).

(** petgraph neighbors(v) and neighbors_directed(v, Incoming): one per edge. Used through core/cu29_runtime/src/curuntime.rs:292. *)
Definition succs (g : graph) (v : nat) : list nat := map (fun e => e_dst (snd e)) (out_edges g v).
(** The same for incoming edges, used at core/cu29_runtime/src/curuntime.rs:321-324. *)
Definition preds (g : graph) (v : nat) : list nat := map (fun e => e_src (snd e)) (in_edges g v).

(** core/cu29_runtime/src/config.rs:480-485 (get_src_edges). *)
Definition get_src_edges (g : graph) (v : nat) : list (nat * edge) := out_edges g v.

(** petgraph edges_connecting(a, b): the outgoing edges of [a] that end in [b]. Used at core/cu29_runtime/src/curuntime.rs:244-264. *)
Definition edges_connecting (g : graph) (a b : nat) : list (nat * edge) :=
  filter (fun e => e_dst (snd e) =? b) (out_edges g a).

(** Membership, as in the set of discovered nodes of the traversal at core/cu29_runtime/src/curuntime.rs:292. *)
Definition mem (v : nat) (l : list nat) : bool := existsb (Nat.eqb v) l.

(** petgraph visit::Bfs: a FIFO of nodes and the set of discovered nodes; the
    successors of a node are discovered when it is taken from the FIFO. Used at core/cu29_runtime/src/curuntime.rs:292, 442. *)
Fixpoint push_new (ws disc queue : list nat) : list nat * list nat :=
  match ws with
  | [] => (disc, queue)
  | w :: ws => if mem w disc then push_new ws disc queue
               else push_new ws (w :: disc) (queue ++ [w])
  end.
(** The same traversal (core/cu29_runtime/src/curuntime.rs:292, 442), one node per unit of fuel. *)
Fixpoint bfs_go (g : graph) (fuel : nat) (disc queue : list nat) : list nat :=
  match fuel with
  | O => []
  | S fuel => match queue with
              | [] => []
              | v :: queue => let (disc, queue) := push_new (succs g v) disc queue in
                              v :: bfs_go g fuel disc queue
              end
  end.
(** The nodes in the order in which [Bfs::new(g, start)] yields them. Used at core/cu29_runtime/src/curuntime.rs:292, 442. *)
Definition bfs (g : graph) (start : nat) : list nat := bfs_go g (g_n g) [start] [start].

(** core/cu29_runtime/src/curuntime.rs:144-149, CuTaskType. *)
Inductive task_type := Source | Regular | Sink.

(** core/cu29_runtime/src/curuntime.rs:229-240 (find_task_type_for_id). *)
Definition task_type_of (g : graph) (v : nat) : task_type :=
  if length (preds g v) =? 0 then Source
  else if length (succs g v) =? 0 then Sink
  else Regular.

(** core/cu29_runtime/src/curuntime.rs:152-170, CuExecutionStep; the plan holds no loops. *)
Record step := Step {
  s_node : nat; s_type : task_type; s_inputs : list (nat * string); s_out : option (nat * string) }.

(** core/cu29_runtime/src/curuntime.rs:208-227 (find_output_index_type_from_nodeid). *)
Fixpoint find_output (v : nat) (plan : list step) : option (nat * string) :=
  match plan with
  | [] => None
  | s :: plan => if s_node s =? v then s_out s else find_output v plan
  end.

(** core/cu29_runtime/src/curuntime.rs:244-264 (find_edge_with_plan_input_id). *)
Definition find_edge (plan : list step) (g : graph) (plan_id v : nat) : outcome nat :=
  match nth_error plan plan_id with
  | None => Panic
  | Some s => match edges_connecting g (s_node s) v with
              | [] => Panic
              | e :: _ => Ret (fst e)
              end
  end.

(** Stable sort by a key computed for each element (slice::sort_by). Used at core/cu29_runtime/src/curuntime.rs:268-279. *)
Fixpoint insert_key {A} (k : nat) (a : A) (l : list (nat * A)) : list (nat * A) :=
  match l with
  | [] => [(k, a)]
  | (k', a') :: l => if k <=? k' then (k, a) :: (k', a') :: l else (k', a') :: insert_key k a l
  end.
(** The same for a list (core/cu29_runtime/src/curuntime.rs:268-279). *)
Fixpoint sort_key {A} (l : list (nat * A)) : list (nat * A) :=
  match l with [] => [] | (k, a) :: l => insert_key k a (sort_key l) end.

(** core/cu29_runtime/src/curuntime.rs:268-279 (sort_inputs_by_cnx_id). The keys are computed once per
    input; Rust computes them in each comparison (and not at all for a single
    input), which differs only when the lookup panics: it never does (C11). *)
Fixpoint with_keys (plan : list step) (g : graph) (v : nat) (ins : list (nat * string))
    : outcome (list (nat * (nat * string))) :=
  match ins with
  | [] => Ret []
  | i :: ins => let! k := find_edge plan g (fst i) v in
                let! r := with_keys plan g v ins in Ret ((k, i) :: r)
  end.
(** core/cu29_runtime/src/curuntime.rs:268-279 (sort_inputs_by_cnx_id). *)
Definition sort_inputs (plan : list step) (g : graph) (v : nat) (ins : list (nat * string))
    : outcome (list (nat * string)) :=
  let! l := with_keys plan g v ins in Ret (map snd (sort_key l)).

(** core/cu29_runtime/src/curuntime.rs:325-341 and 350-366: the outputs of the parents, [None] as soon
    as one is not planned. *)
Fixpoint parent_outputs (plan : list step) (ps : list nat) : option (list (nat * string)) :=
  match ps with
  | [] => Some []
  | p :: ps => match find_output p plan with
               | None => None
               | Some o => match parent_outputs plan ps with
                           | None => None | Some r => Some (o :: r) end
               end
  end.

(** config.get_src_edges(id)[0] (core/cu29_runtime/src/curuntime.rs:314, 374): index out of bounds
    without outgoing edge. *)
Definition first_out_msg (g : graph) (v : nat) : outcome string :=
  match get_src_edges g v with [] => Panic | e :: _ => Ret (e_msg (snd e)) end.

(** core/cu29_runtime/src/curuntime.rs:383-399: push the step; one already in the plan is moved to the
    end with new inputs and its former output. *)
Fixpoint remove_step (v : nat) (plan : list step) : option (step * list step) :=
  match plan with
  | [] => None
  | s :: plan => if s_node s =? v then Some (s, plan)
                 else match remove_step v plan with
                      | None => None | Some (x, r) => Some (x, s :: r) end
  end.
(** core/cu29_runtime/src/curuntime.rs:383-399: push the step. *)
Definition add_step (s : step) (plan : list step) : list step :=
  match remove_step (s_node s) plan with
  | Some (old, rest) => rest ++ [Step (s_node old) (s_type old) (s_inputs s) (s_out old)]
  | None => plan ++ [s]
  end.

(** core/cu29_runtime/src/curuntime.rs:295-402, one turn of the loop in plan_tasks_tree_branch; [None]:
    an input is not ready and the function returns. *)
Definition visit (g : graph) (next v : nat) (plan : list step)
    : outcome (option (nat * list step)) :=
  match task_type_of g v with
  | Source =>
      let! m := first_out_msg g v in
      let! ins := sort_inputs plan g v [] in
      Ret (Some (S next, add_step (Step v Source ins (Some (next, m))) plan))
  | Sink =>
      match parent_outputs plan (preds g v) with
      | None => Ret None
      | Some ins =>
          let! ins := sort_inputs plan g v ins in
          Ret (Some (S next, add_step (Step v Sink ins (Some (next, "()"%string))) plan))
      end
  | Regular =>
      match parent_outputs plan (preds g v) with
      | None => Ret None
      | Some ins =>
          let! m := first_out_msg g v in
          let! ins := sort_inputs plan g v ins in
          Ret (Some (S next, add_step (Step v Regular ins (Some (next, m))) plan))
      end
  end.

(** core/cu29_runtime/src/curuntime.rs:281-408 (plan_tasks_tree_branch). *)
Fixpoint branch_go (g : graph) (next : nat) (plan : list step) (handled : bool) (vs : list nat)
    : outcome (nat * bool * list step) :=
  match vs with
  | [] => Ret (next, handled, plan)
  | v :: vs => let! r := visit g next v plan in
               match r with
               | None => Ret (next, handled, plan)
               | Some (next, plan) => branch_go g next plan true vs
               end
  end.
(** core/cu29_runtime/src/curuntime.rs:281-408 (plan_tasks_tree_branch), with enough fuel. *)
Definition branch (g : graph) (next start : nat) (plan : list step) : outcome (nat * bool * list step) :=
  branch_go g next plan false (bfs g start).

(** Whether the plan has a step for the node (core/cu29_runtime/src/curuntime.rs:444-474). *)
Definition planned (v : nat) (plan : list step) : bool := existsb (fun s => s_node s =? v) plan.

(** core/cu29_runtime/src/curuntime.rs:444-474, the inner loop of compute_runtime_plan over a breadth
    first traversal; returns the nodes to enqueue as well. *)
Fixpoint outer (g : graph) (next : nat) (plan : list step) (queue : list nat) (vs : list nat)
    : outcome (nat * list step * list nat) :=
  match vs with
  | [] => Ret (next, plan, queue)
  | v :: vs =>
      if planned v plan then outer g next plan queue vs
      else let! (next, handled, plan) := branch g next v plan in
           outer g next plan (if handled : bool then queue ++ succs g v else queue) vs
  end.

(** core/cu29_runtime/src/curuntime.rs:432-475: the queue loop. The map [visited] is never written, so
    its tests are always false. [None]: [fuel] turns were not enough. *)
Fixpoint queue_loop (g : graph) (fuel next : nat) (plan : list step) (queue : list nat)
    : outcome (option (list step)) :=
  match queue with
  | [] => Ret (Some plan)
  | start :: queue =>
      match fuel with
      | O => Ret None
      | S fuel => let! (next, plan, queue) := outer g next plan queue (bfs g start) in
                  queue_loop g fuel next plan queue
      end
  end.

(** core/cu29_runtime/src/curuntime.rs:419-426: the initial queue. *)
Definition sources (g : graph) : list nat :=
  filter (fun v => match task_type_of g v with Source => true | _ => false end) (seq 0 (g_n g)).

(** core/cu29_runtime/src/curuntime.rs:412-482 (compute_runtime_plan). Enough fuel for every graph (C13). *)
Definition plan_fuel (g : graph) : nat := S (g_n g + length (g_edges g)).
(** core/cu29_runtime/src/curuntime.rs:412-482 (compute_runtime_plan). *)
Definition compute_plan (g : graph) : outcome (option (list step)) :=
  queue_loop g (plan_fuel g) 0 [] (sources g).
