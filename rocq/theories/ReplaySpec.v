(** Vocabulary for recorded runs and their replay. *)
From Coq Require Import String List Arith NArith Bool.
From Verif Require Import Base CuListModel PlanModel RuntimeModel RuntimeSpec.
Import ListNotations.
Local Open Scope list_scope.
Local Open Scope nat_scope.

(** A run of an application whose iterations are called one by one; before each one the
    rest of the program does something: [between]. *)
Section Driven.
Context {V M Er E : Type}.
Variable a : application.
Variable o : oracles V M Er E.
Fixpoint driven (between : list (E -> E)) (m : mgr (list (msg V M))) (env : E)
    : E * mgr (list (msg V M)) * list (list (event V M Er) * result (Er := Er)) :=
  match between with
  | [] => (env, m, [])
  | b :: between =>
      let '(env, m, tr, r) := run_one_iteration a o m (b env) in
      let '(env, m, l) := driven between m env in (env, m, (tr, r) :: l)
  end.
(** The tasks are started first. *)
Definition session (between : list (E -> E)) (m : mgr (list (msg V M))) (env : E)
    : E * mgr (list (msg V M)) * list (list (event V M Er) * result (Er := Er)) :=
  let '(env, tr, r) := all_tasks a o Start env in
  let '(env, m, l) := driven between m env in (env, m, (tr, r) :: l).
End Driven.

Section Spec.
Context {V M Er : Type}.
Notation message := (msg V M).
Notation ev := (event V M Er).

(** A message without its process times. *)
Definition untimed (x : message) : message := Msg (m_payload x) (m_meta x) None None.
(** All copper lists written to the log in a run. *)
Definition log_of (l : list (list ev * result (Er := Er))) : list (N * list message) :=
  flat_map (fun x => logged (fst x)) l.
(** The calls of the tasks in the middle of the graph, with their inputs and results. *)
Definition calls (kind : nat -> task_type) (tr : list ev) : list ev :=
  filter (fun e => match e with
                   | ETask _ t _ | EProcess t _ _ => match kind t with Regular => true | _ => false end
                   | _ => false end) tr.
Definition untimed_call (e : ev) : ev :=
  match e with EProcess t ins r => EProcess t (map untimed ins) r | _ => e end.
(** Every iteration succeeded, and no error was more than ignored, neither then nor by
    [policy]. *)
Definition undisturbed (policy : phase -> nat -> Er -> decision) (l : list (list ev * result (Er := Er))) : Prop :=
  Forall (fun x => snd x = ROk /\
    forall ph t e d, In (EDecision ph t e d) (fst x) -> d = Ignore /\ policy ph t e = Ignore) l.

Section World.
Context {S E : Type}.
Variable a : application.
Variable o : oracles V M Er E.
Variable kind : nat -> task_type.
(** The state of each task in the environment of the recorded run. *)
Variable state : E -> nat -> S.
Variable f_task : phase -> nat -> N -> S -> S * option Er.
Variable f_process : nat -> N -> list message -> message -> S -> S * message * option Er.
Variable g_sink : nat -> list message -> message -> message.

(** The regular tasks but [but] have the same state in both environments. *)
Definition same_states (but : option nat) (env env' : E) : Prop :=
  forall u, kind u = Regular -> but <> Some u -> state env' u = state env u.

(** The regular tasks are deterministic: what they do is a function of their own state,
    of their messages and of the clock. Nothing else changes their state. *)
Record deterministic (time : E -> N) : Prop := {
  det_task : forall ph t env, kind t = Regular ->
    let (env', r) := o_task o ph t env in
    f_task ph t (time env) (state env t) = (state env' t, r) /\ same_states (Some t) env env';
  det_process : forall t ins out env, kind t = Regular ->
    let '(env', out', r) := o_process o t ins out env in
    f_process t (time env) ins out (state env t) = (state env' t, out', r) /\ same_states (Some t) env env';
  det_other_task : forall ph t env, kind t <> Regular -> same_states None env (fst (o_task o ph t env));
  det_other_process : forall t ins out env, kind t <> Regular -> same_states None env (fst (fst (o_process o t ins out env)));
  det_sink : forall t ins env, same_states None env (fst (o_sink o t ins env));
  det_sim : forall ph t env, same_states None env (fst (o_sim o ph t env));
  det_sim_process : forall t ins out env, same_states None env (fst (fst (o_sim_process o t ins out env)));
  det_decide : forall ph t e env, same_states None env (fst (o_decide o ph t e env));
  det_report : forall md env, same_states None env (fst (o_report o md env));
  det_monitor : forall ph env, same_states None env (fst (o_monitor o ph env));
  det_now : forall env, same_states None env (fst (o_now o env)) }.

(** The clock stands still while an iteration runs, as when it is mocked and set before
    each iteration. *)
Record steady (time : E -> N) : Prop := {
  st_now : forall env, o_now o env = (fst (o_now o env), time env) /\ time (fst (o_now o env)) = time env;
  st_task : forall ph t env, time (fst (o_task o ph t env)) = time env;
  st_process : forall t ins out env, time (fst (fst (o_process o t ins out env))) = time env;
  st_sink : forall t ins env, time (fst (o_sink o t ins env)) = time env;
  st_sim : forall ph t env, time (fst (o_sim o ph t env)) = time env;
  st_sim_process : forall t ins out env, time (fst (fst (o_sim_process o t ins out env))) = time env;
  st_decide : forall ph t e env, time (fst (o_decide o ph t e env)) = time env;
  st_report : forall md env, time (fst (o_report o md env)) = time env;
  st_monitor : forall ph env, time (fst (o_monitor o ph env)) = time env }.

(** The regular tasks do not look at the clock nor at the process times. *)
Record timeless : Prop := {
  tl_task : forall ph t c c' x, kind t = Regular -> f_task ph t c x = f_task ph t c' x;
  tl_process : forall t c c' ins ins' out out' x, kind t = Regular ->
    map untimed ins = map untimed ins' -> untimed out = untimed out' ->
    let '(x1, y1, r1) := f_process t c ins out x in
    let '(x2, y2, r2) := f_process t c' ins' out' x in
    x1 = x2 /\ untimed y1 = untimed y2 /\ r1 = r2;
  tl_sink : forall t ins ins' out out', map untimed ins = map untimed ins' -> untimed out = untimed out' ->
    untimed (g_sink t ins out) = untimed (g_sink t ins' out') }.

(** The recorded run was made with the real sources and sinks, or in simulation by a
    callback that leaves the regular tasks to the runtime and treats the messages of
    sinks as the replay does. *)
Definition recorded_with : Prop :=
  if a_sim a
  then (forall ph t env, kind t = Regular -> snd (o_sim o ph t env) = ExecuteByRuntime) /\
       (forall t ins out env, kind t = Regular ->
          snd (o_sim_process o t ins out env) = ExecuteByRuntime /\ snd (fst (o_sim_process o t ins out env)) = out) /\
       (forall t ins out env, kind t = Sink -> snd (fst (o_sim_process o t ins out env)) = g_sink t ins out)
  else forall t ins out, g_sink t ins out = out.

(** The getters of the sources give the messages of these sources (see C20). *)
Definition getters_right : Prop :=
  forall t k, kind t = Source -> slot_of_task (a_plan a) t k -> getter_field a t = Some k.

(** What the replay needs of the application: a plan as the planner makes them, whose
    steps have the part [kind] says; empty messages for the sinks at the start; messages
    logged. *)
Record replayable (zero : list message) : Prop := {
  rp_plan : good_plan (a_plan a);
  rp_kind : forall s, In s (a_plan a) -> s_type s = kind (s_node s);
  rp_zero : length zero = length (a_plan a);
  rp_sinks : forall t k x, kind t = Sink -> slot_of_task (a_plan a) t k -> nth_error zero k = Some x -> m_payload x = None;
  rp_sink_payload : forall t ins out, m_payload (g_sink t ins out) = m_payload out;
  rp_logging : a_logging a = true;
  rp_writes : writes_succeed o;
  rp_start : keeps_start o;
  rp_regular_start : forall t c ins out x, kind t = Regular -> m_start (snd (fst (f_process t c ins out x))) = m_start out;
  rp_clock : forall env, (snd (o_now o env) < 2 ^ 64 - 1)%N }.
End World.
End Spec.
