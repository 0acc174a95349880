(** The application code generated by the [copper_runtime] macro
    (core/cu29_derive/src/lib.rs), as an interpreter of the execution plan. *)
From Coq Require Import String List Arith NArith Bool.
From Verif Require Import Base CuListModel PlanModel.
Import ListNotations.
Local Open Scope list_scope.
Local Open Scope nat_scope.

(** core/cu29_runtime/src/monitoring.rs:16-22, CuTaskState. *)
Inductive phase := Start | Preprocess | Process | Postprocess | Stop.

(** core/cu29_runtime/src/monitoring.rs:26-30. *)
Inductive decision := Abort | Ignore | Shutdown.

(** core/cu29_runtime/src/simulation.rs:148, SimOverride. *)
Inductive override (Er : Type) := ExecutedBySim | ExecuteByRuntime | Errored (reason : Er).
Arguments ExecutedBySim {Er}. Arguments ExecuteByRuntime {Er}. Arguments Errored {Er}.

(** core/cu29_runtime/src/cutask.rs:56-64 and 122-146, CuMsg with its metadata; the
    process times are OptionCuTime, the rest of the metadata is [M]. *)
Record msg (V M : Type) := Msg {
  m_payload : option V; m_meta : M; m_start : option N; m_end : option N }.
Arguments Msg {V M}. Arguments m_payload {V M}. Arguments m_meta {V M}.
Arguments m_start {V M}. Arguments m_end {V M}.

(** What can be observed of an application (core/cu29_derive/src/lib.rs:415-1014), in order. [ETask] and [EProcess] are
    calls of the code of a task with their result, [ESim] calls of the simulation
    callback with its answer, [EReport] calls of the monitor's process_copperlist,
    [ELog] copper lists handed to the logger. *)
Inductive event (V M Er : Type) :=
| ETask (ph : phase) (t : nat) (r : option Er)
| EProcess (t : nat) (ins : list (msg V M)) (r : option Er)
| ESim (ph : phase) (t : nat) (o : override Er)
| EDecision (ph : phase) (t : nat) (e : Er) (d : decision)
| EReport (md : list (msg V M)) (r : option Er)
| ELog (id : N) (msgs : list (msg V M))
| EMonitor (ph : phase) (r : option Er).
Arguments ETask {V M Er}. Arguments EProcess {V M Er}. Arguments ESim {V M Er}.
Arguments EDecision {V M Er}. Arguments EReport {V M Er}. Arguments ELog {V M Er}.
Arguments EMonitor {V M Er}.

(** Everything outside the generated code, as arbitrary functions of an arbitrary
    environment state [E]: task bodies (core/cu29_runtime/src/cutask.rs:177-270), the
    monitor (core/cu29_runtime/src/monitoring.rs:33-54), the simulation callback, the clock, the success of
    log writes. A sink does not receive its output message. Their panics are not
    modelled. *)
Record oracles (V M Er E : Type) := Oracles {
  o_task : phase -> nat -> E -> E * option Er;
  o_process : nat -> list (msg V M) -> msg V M -> E -> E * msg V M * option Er;
  o_sink : nat -> list (msg V M) -> E -> E * option Er;
  o_sim : phase -> nat -> E -> E * override Er;
  o_sim_process : nat -> list (msg V M) -> msg V M -> E -> E * msg V M * override Er;
  o_decide : phase -> nat -> Er -> E -> E * decision;
  o_report : list (msg V M) -> E -> E * option Er;
  o_monitor : phase -> E -> E * option Er;
  o_now : E -> E * N;
  o_log : E -> cl (list (msg V M)) -> bool }.
Arguments o_task {V M Er E}. Arguments o_process {V M Er E}. Arguments o_sink {V M Er E}.
Arguments o_sim {V M Er E}. Arguments o_sim_process {V M Er E}. Arguments o_decide {V M Er E}.
Arguments o_report {V M Er E}. Arguments o_monitor {V M Er E}. Arguments o_now {V M Er E}.
Arguments o_log {V M Er E}.

(** The parameters of the generated code: the number of tasks (lifecycle calls are
    generated in node order), the execution plan, simulation mode, whether task
    logging is enabled (core/cu29_runtime/src/curuntime.rs:75-84) and overflow checks. All known at core/cu29_derive/src/lib.rs:623-1013. *)
Record application := App { a_tasks : nat; a_plan : list step; a_sim : bool; a_logging : bool; a_mode : ovf_mode }.

(** How a piece of generated code (core/cu29_derive/src/lib.rs:415-861) ends: fall through, [return Ok] /
    [return Err], panic. *)
Inductive flow (Er : Type) := Next | Return (r : option Er) | Panicked.
Arguments Next {Er}. Arguments Return {Er}. Arguments Panicked {Er}.
(** The same for process steps, with the abort branch of core/cu29_derive/src/lib.rs:662-669. *)
Inductive pflow (Er : Type) := PNext | PAbort | PErr (e : Er) | PPanic.
Arguments PNext {Er}. Arguments PAbort {Er}. Arguments PErr {Er}. Arguments PPanic {Er}.

Section Runtime.
Context {V M Er E : Type}.
Variable a : application.
Variable o : oracles V M Er E.
Notation ev := (event V M Er).
Notation message := (msg V M).

(** The [monitoring_action] blocks of the lifecycle calls: core/cu29_derive/src/lib.rs:415-433 (start),
    468-486 (stop), 518-536 (preprocess), 567-585 (postprocess). The error returned on
    Shutdown is the task's, under a fixed heading. *)
Definition act (ph : phase) (t : nat) (e : Er) (env : E) : E * list ev * flow Er :=
  let (env, d) := o_decide o ph t e env in
  (env, [EDecision ph t e d],
   match d with Abort => Return None | Ignore => Next | Shutdown => Return (Some e) end).

(** The call itself: core/cu29_derive/src/lib.rs:456-463, 506-513, 555-562, 604-611. *)
Definition do_call (ph : phase) (t : nat) (env : E) : E * list ev * flow Er :=
  let (env, r) := o_task o ph t env in
  match r with
  | None => (env, [ETask ph t None], Next)
  | Some e => let '(env, tr, f) := act ph t e env in (env, ETask ph t (Some e) :: tr, f)
  end.

(** One element of start_calls, stop_calls, preprocess_calls or postprocess_calls,
    with the simulation callback of core/cu29_derive/src/lib.rs:435-453 and its three copies. *)
Definition one_call (ph : phase) (t : nat) (env : E) : E * list ev * flow Er :=
  if a_sim a then
    let (env, ovr) := o_sim o ph t env in
    match ovr with
    | Errored e => let '(env, tr, f) := act ph t e env in (env, ESim ph t ovr :: tr, f)
    | ExecuteByRuntime => let '(env, tr, f) := do_call ph t env in (env, ESim ph t ovr :: tr, f)
    | ExecutedBySim => (env, [ESim ph t ovr], Next)
    end
  else do_call ph t env.

(** The calls of one phase for the tasks [ts], in node order: the repetitions in
    core/cu29_derive/src/lib.rs:965, 986, 991, 997. *)
Fixpoint lifecycle (ph : phase) (ts : list nat) (env : E) : E * list ev * flow Er :=
  match ts with
  | [] => (env, [], Next)
  | t :: ts => let '(env, tr, f) := one_call ph t env in
               match f with
               | Next => let '(env, tr', f) := lifecycle ph ts env in (env, tr ++ tr', f)
               | _ => (env, tr, f)
               end
  end.

(** [clock.now().into()] as OptionCuTime: u64::MAX is the absent value
    (core/cu29_clock/src/lib.rs:210-237). *)
Definition to_oct (t : N) : option N := if (t =? 2 ^ 64 - 1)%N then None else Some t.
(** core/cu29_derive/src/lib.rs:710, 784, 852: metadata.process_time.start is set. *)
Definition with_start (t : N) (m : message) : message := Msg (m_payload m) (m_meta m) (to_oct t) (m_end m).
(** core/cu29_derive/src/lib.rs:716, 786, 854: metadata.process_time.end is set. *)
Definition with_end (t : N) (m : message) : message := Msg (m_payload m) (m_meta m) (m_start m) (to_oct t).
(** core/cu29_runtime/src/cutask.rs:167-169. *)
Definition clear_payload (m : message) : message := Msg None (m_meta m) (m_start m) (m_end m).

(** The monitoring_action of process steps: core/cu29_derive/src/lib.rs:658-680, 733-755, 802-824. Returns
    the output message, emptied on Ignore. *)
Definition pact (t : nat) (e : Er) (out : message) (env : E) : E * list ev * message * pflow Er :=
  let (env, d) := o_decide o Process t e env in
  match d with
  | Abort => (env, [EDecision Process t e d], out, PAbort)
  | Ignore => (env, [EDecision Process t e d], clear_payload out, PNext)
  | Shutdown => (env, [EDecision Process t e d], out, PErr e)
  end.

(** core/cu29_derive/src/lib.rs:710-720, 784-789, 852-857: from the start time on. *)
Definition do_process (s : step) (ins : list message) (doit : bool) (out : message) (env : E)
    : E * list ev * message * pflow Er :=
  let t := s_node s in
  let (env, t0) := o_now o env in
  let out := with_start t0 out in
  let '(env, tr, out, r) :=
    if doit then
      match s_type s with
      | Sink => let (env, r) := o_sink o t ins env in (env, [EProcess t ins r], out, r)
      | _ => let '(env, out, r) := o_process o t ins out env in (env, [EProcess t ins r], out, r)
      end
    else (env, [], out, None) in
  let (env, t1) := o_now o env in
  let out := with_end t1 out in
  match r with
  | None => (env, tr, out, PNext)
  | Some e => let '(env, tr', out, f) := pact t e out env in (env, tr ++ tr', out, f)
  end.

(** One process step on its inputs and output: core/cu29_derive/src/lib.rs:681-722, 757-791, 826-859. *)
Definition process_msg (s : step) (ins : list message) (out : message) (env : E)
    : E * list ev * message * pflow Er :=
  let t := s_node s in
  if a_sim a then
    let '(env, out, ovr) := o_sim_process o t ins out env in
    let ask := ESim Process t ovr in
    match ovr with
    | Errored e =>
        let '(env, tr, out, f) := pact t e out env in
        match f with
        | PNext => let '(env, tr', out, f) := do_process s ins false out env in
                   (env, ask :: tr ++ tr', out, f)
        | _ => (env, ask :: tr, out, f)
        end
    | ExecuteByRuntime => let '(env, tr, out, f) := do_process s ins true out env in (env, ask :: tr, out, f)
    | ExecutedBySim => let '(env, tr, out, f) := do_process s ins false out env in (env, ask :: tr, out, f)
    end
  else do_process s ins true out env.

(** [msgs.#i] for the input indices; a missing field would not compile. Generated at core/cu29_derive/src/lib.rs:623-863. *)
Fixpoint gather (msgs : list message) (is : list (nat * string)) : option (list message) :=
  match is with
  | [] => Some []
  | i :: is => match nth_error msgs (fst i), gather msgs is with
               | Some m, Some r => Some (m :: r) | _, _ => None end
  end.

(** core/cu29_derive/src/lib.rs:623-863, the generated code of one step. *)
Definition process_step (s : step) (msgs : list message) (env : E)
    : E * list ev * list message * pflow Er :=
  match s_out s with
  | None => (env, [], msgs, PPanic)
  | Some (k, _) =>
      match nth_error msgs k, gather msgs (s_inputs s) with
      | Some out, Some ins =>
          let '(env, tr, out, f) := process_msg s ins out env in (env, tr, upd k out msgs, f)
      | _, _ => (env, [], msgs, PPanic)
      end
  end.
(** The concatenation of the generated steps, runtime_plan_code in core/cu29_derive/src/lib.rs:970-973. *)
Fixpoint process_all (ss : list step) (msgs : list message) (env : E)
    : E * list ev * list message * pflow Er :=
  match ss with
  | [] => (env, [], msgs, PNext)
  | s :: ss => let '(env, tr, msgs, f) := process_step s msgs env in
               match f with
               | PNext => let '(env, tr', msgs, f) := process_all ss msgs env in (env, tr ++ tr', msgs, f)
               | _ => (env, tr, msgs, f)
               end
  end.

(** core/cu29_derive/src/lib.rs:619-650: task ids in call order. *)
Definition call_order : list nat := map s_node (a_plan a).
(** Tuple fields by index, as in [#(&culist.msgs.0.#taskid_call_order.metadata,)*] of core/cu29_derive/src/lib.rs:141-146. *)
Fixpoint select {A} (l : list A) (is : list nat) : option (list A) :=
  match is with
  | [] => Some []
  | i :: is => match nth_error l i, select l is with
               | Some m, Some r => Some (m :: r) | _, _ => None end
  end.
(** core/cu29_derive/src/lib.rs:141-146 (collect_metadata): the tuple fields named by the call order. The
    code hands over the metadata of these messages only; here whole messages. *)
Definition collect_metadata {A} (msgs : list A) : option (list A) := select msgs call_order.
(** core/cu29_derive/src/lib.rs:148-159: the getter of the i-th task returns this tuple field. *)
Definition getter_field (i : nat) : option nat := nth_error call_order i.

(** core/cu29_derive/src/lib.rs:976-980, the end to end time; the subtraction is on u64
    (core/cu29_clock/src/lib.rs:75-83). *)
Definition e2e (md : list message) : outcome N :=
  match last (map m_end md) None, hd None (map m_start md) with
  | Some t1, Some t0 => if (t0 <=? t1)%N then Ret (t1 - t0)%N
                        else match a_mode a with Checked => Panic
                             | Wrapping => Ret (2 ^ 64 + t1 - t0)%N end
  | _, _ => Panic
  end.

(** [self.copper_runtime.end_of_processing(id)] (core/cu29_runtime/src/curuntime.rs:101-124)
    and what it logs. *)
Definition finish (id : N) (m : mgr (list message)) (env : E)
    : outcome (mgr (list message) * list ev) :=
  let! (m, logged) := end_of_processing (if a_logging a then Some (o_log o env) else None) m id in
  Ret (m, map (fun c => ELog (cl_id c) (cl_msgs c)) logged).

(** [monitor.process_copperlist(&collect_metadata(&culist))?; end_of_processing(id)]:
    core/cu29_derive/src/lib.rs:665-666, 740-741, 809-810 and 982-983. *)
Definition report_and_finish (id : N) (m : mgr (list message)) (msgs : list message) (env : E)
    : E * mgr (list message) * list ev * flow Er :=
  match collect_metadata msgs with
  | None => (env, m, [], Panicked)
  | Some md =>
      let (env, r) := o_report o md env in
      match r with
      | Some e => (env, m, [EReport md r], Return (Some e))
      | None => match finish id m env with
                | Panic => (env, m, [EReport md r], Panicked)
                | Ret (m, lg) => (env, m, EReport md r :: lg, Next)
                end
      end
  end.

(** Writing through the [&mut CopperList] of core/cu29_derive/src/lib.rs:967-973 into its slot, the state
    set by change_state(Processing). *)
Definition set_slot (i : nat) (c : cl (list message)) (m : mgr (list message)) : mgr (list message) :=
  mkMgr (upd i c (m_data m)) (m_len m) (m_ins m) (m_next m).

(** core/cu29_derive/src/lib.rs:966-985, between preprocess and postprocess. *)
Definition copperlist_body (m : mgr (list message)) (env : E)
    : E * mgr (list message) * list ev * flow Er :=
  match create (a_mode a) m with
  | Ret (Some (m, i)) =>
      match nth_error (m_data m) i with
      | None => (env, m, [], Panicked)
      | Some c =>
          let id := cl_id c in
          let '(env, tr, msgs, f) := process_all (a_plan a) (cl_msgs c) env in
          let m := set_slot i (mkCl id Processing msgs) m in
          match f with
          | PPanic => (env, m, tr, Panicked)
          | PErr e => (env, m, tr, Return (Some e))
          | PAbort => let '(env, m, tr', f) := report_and_finish id m msgs env in
                      (env, m, tr ++ tr', match f with Next => Return None | _ => f end)
          | PNext =>
              match (match collect_metadata msgs with Some md => e2e md | None => Panic end) with
              | Panic => (env, m, tr, Panicked)
              | Ret _ => let '(env, m, tr', f) := report_and_finish id m msgs env in
                         (env, m, tr ++ tr', f)
              end
          end
      end
  | _ => (env, m, [], Panicked)
  end.

(** How run_one_iteration (core/cu29_derive/src/lib.rs:964-988) returns: Ok, Err or a panic. *)
Inductive result := ROk | RErr (e : Er) | RPanic.
(** [Ok(())] at the end of core/cu29_derive/src/lib.rs:987, 993, 999 or an early return. *)
Definition to_result (f : flow Er) : result :=
  match f with Next | Return None => ROk | Return (Some e) => RErr e | Panicked => RPanic end.

(** core/cu29_derive/src/lib.rs:964-988 (run_one_iteration). *)
Definition run_one_iteration (m : mgr (list message)) (env : E)
    : E * mgr (list message) * list ev * result :=
  let ts := seq 0 (a_tasks a) in
  let '(env, tr1, f) := lifecycle Preprocess ts env in
  match f with
  | Next =>
      let '(env, m, tr2, f) := copperlist_body m env in
      match f with
      | Next => let '(env, tr3, f) := lifecycle Postprocess ts env in
                (env, m, tr1 ++ tr2 ++ tr3, to_result f)
      | _ => (env, m, tr1 ++ tr2, to_result f)
      end
  | _ => (env, m, tr1, to_result f)
  end.

(** core/cu29_derive/src/lib.rs:990-1000 (start_all_tasks, stop_all_tasks). *)
Definition all_tasks (ph : phase) (env : E) : E * list ev * result :=
  let '(env, tr, f) := lifecycle ph (seq 0 (a_tasks a)) env in
  match f with
  | Next => let (env, r) := o_monitor o ph env in
            (env, tr ++ [EMonitor ph r], match r with None => ROk | Some e => RErr e end)
  | _ => (env, tr, to_result f)
  end.

(** The loop of core/cu29_derive/src/lib.rs:1004-1009, for at most [fuel] iterations; [None]: still running. *)
Fixpoint run_loop (fuel : nat) (m : mgr (list message)) (env : E)
    : E * mgr (list message) * list ev * option result :=
  match fuel with
  | O => (env, m, [], None)
  | S fuel =>
      let '(env, m, tr, r) := run_one_iteration m env in
      match r with
      | ROk => let '(env, m, tr', r) := run_loop fuel m env in (env, m, tr ++ tr', r)
      | _ => (env, m, tr, Some r)
      end
  end.

(** core/cu29_derive/src/lib.rs:1002-1013 (run). *)
Definition run (fuel : nat) (m : mgr (list message)) (env : E)
    : E * mgr (list message) * list ev * option result :=
  let '(env, tr1, r) := all_tasks Start env in
  match r with
  | ROk =>
      let '(env, m, tr2, r) := run_loop fuel m env in
      match r with
      | Some (RErr e) =>
          let '(env, tr3, r) := all_tasks Stop env in
          (env, m, tr1 ++ tr2 ++ tr3, Some (match r with ROk => RErr e | _ => r end))
      | _ => (env, m, tr1 ++ tr2, r)
      end
  | _ => (env, m, tr1, Some r)
  end.
End Runtime.
Arguments ROk {Er}. Arguments RErr {Er}. Arguments RPanic {Er}.
