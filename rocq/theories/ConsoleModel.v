(** The console monitor (components/monitors/cu_consolemon/src/lib.rs): classification of the
    nodes, statistics and statuses. The screen, the memory pools and the locks are left out. *)
From Coq Require Import List Arith NArith Bool.
From Verif Require Import Base PlanModel BincodeModel CodecModel StatsModel.
Import ListNotations.
Local Open Scope nat_scope.

(** components/monitors/cu_consolemon/src/lib.rs:142-147 (NodeType). *)
Inductive node_type := NUnknown | NSource | NSink | NTask.
(** components/monitors/cu_consolemon/src/lib.rs:161-168 (add_incoming). *)
Definition add_incoming (t : node_type) : node_type :=
  match t with NUnknown => NSink | NSource => NTask | NSink => NSink | NTask => NTask end.
(** components/monitors/cu_consolemon/src/lib.rs:170-177 (add_outgoing). *)
Definition add_outgoing (t : node_type) : node_type :=
  match t with NUnknown => NSource | NSource => NSource | NSink => NTask | NTask => NTask end.
(** Indexing a vector and storing the result (components/monitors/cu_consolemon/src/lib.rs:217). *)
Definition update_at {A} (f : A -> A) (i : nat) (l : list A) : outcome (list A) :=
  match nth_error l i with None => Panic | Some a => Ret (upd i (f a) l) end.
(** components/monitors/cu_consolemon/src/lib.rs:208-222: the incoming edges of one node, from
    port [port] on; a connection is (source, port 0, destination, port). *)
Fixpoint node_edges (es : list (nat * edge)) (port : nat) (cs : list (nat * nat * nat * nat)) (ts : list node_type)
    : outcome (list (nat * nat * nat * nat) * list node_type) :=
  match es with
  | [] => Ret (cs, ts)
  | (_, e) :: es =>
      let! ts := update_at add_incoming (e_dst e) ts in
      let! ts := update_at add_outgoing (e_src e) ts in
      node_edges es (port + 1) (cs ++ [(e_src e, 0, e_dst e, port)]) ts
  end.
(** components/monitors/cu_consolemon/src/lib.rs:206-223, for the nodes [vs]. *)
Fixpoint all_edges (g : graph) (vs : list nat) (cs : list (nat * nat * nat * nat)) (ts : list node_type)
    : outcome (list (nat * nat * nat * nat) * list node_type) :=
  match vs with
  | [] => Ret (cs, ts)
  | v :: vs => let! (cs, ts) := node_edges (in_edges g v) 0 cs ts in all_edges g vs cs ts
  end.
(** components/monitors/cu_consolemon/src/lib.rs:196-231 (NodesScrollableWidgetState::new): the
    connections and the types of the nodes. *)
Definition widget_new (g : graph) : outcome (list (nat * nat * nat * nat) * list node_type) :=
  all_edges g (seq 0 (g_n g)) [] (repeat NUnknown (g_n g)).

Local Open Scope N_scope.
(** core/cu29_runtime/src/cutask.rs:99-108 (CuMsgMetadata), as far as the console reads it;
    the status as bytes. *)
Record metadata := Metadata { md_start : option_cutime; md_end : option_cutime; md_status : list N }.
(** components/monitors/cu_consolemon/src/lib.rs:56-59 (TaskStats) and the statuses shown
    (181-185, status_txt only). *)
Record console := Console { k_stats : list stats; k_end2end : stats; k_statuses : list (list N) }.
(** components/monitors/cu_consolemon/src/lib.rs:737-754 (new), with statistics up to 5 s. *)
Definition console_new (n : nat) : outcome console :=
  let! s := stats_new 5000000000 in Ret (Console (repeat s n) s (repeat [] n)).
(** Sub of durations (core/cu29_clock/src/lib.rs:75-83); panics below zero. *)
Definition sub (a b : N) : outcome N := if a <? b then Panic else Ret (a - b).
(** components/monitors/cu_consolemon/src/lib.rs:71-77, from task [i] on. *)
Fixpoint update_each (i : nat) (msgs : list metadata) (ss : list stats) : outcome (list stats) :=
  match msgs with
  | [] => Ret ss
  | m :: msgs =>
      let! before := oct_unwrap (md_start m) in
      let! after := oct_unwrap (md_end m) in
      match nth_error ss i with
      | None => Panic
      | Some s => let! v := sub after before in let! s := stats_record s v in update_each (i + 1) msgs (upd i s ss)
      end
  end.
(** components/monitors/cu_consolemon/src/lib.rs:135-138 (compute_end_to_end_latency). *)
Definition end_to_end (msgs : list metadata) : outcome N :=
  match msgs with
  | [] => Panic
  | first :: _ => let! e := oct_unwrap (md_end (last msgs first)) in
                  let! b := oct_unwrap (md_start first) in sub e b
  end.
(** components/monitors/cu_consolemon/src/lib.rs:845-851, from task [i] on. *)
Fixpoint status_each (i : nat) (msgs : list metadata) (ts : list (list N)) : outcome (list (list N)) :=
  match msgs with
  | [] => Ret ts
  | m :: msgs =>
      match nth_error ts i with
      | None => Panic
      | Some _ => match md_status m with
                  | [] => Panic
                  | b :: _ => status_each (i + 1) msgs (upd i (if b =? 0 then [] else md_status m) ts)
                  end
      end
  end.
(** components/monitors/cu_consolemon/src/lib.rs:838-875 (process_copperlist) while the user has
    not quit. *)
Definition process_copperlist (msgs : list metadata) (k : console) : outcome console :=
  let! ss := update_each 0 msgs (k_stats k) in
  let! l := end_to_end msgs in
  let! e := stats_record (k_end2end k) l in
  let! ts := status_each 0 msgs (k_statuses k) in
  Ret (Console ss e ts).
(** A run of the robot: one call (components/monitors/cu_consolemon/src/lib.rs:838) per copper
    list. *)
Fixpoint watch (cls : list (list metadata)) (k : console) : outcome console :=
  match cls with [] => Ret k | msgs :: cls => let! k := process_copperlist msgs k in watch cls k end.
