(** Vocabulary for the observable behaviour of an application. *)
From Coq Require Import String List Arith NArith Bool.
From Verif Require Import Base CuListModel PlanModel RuntimeModel.
Import ListNotations.
Local Open Scope list_scope.
Local Open Scope nat_scope.

Definition prefix {A} (l1 l2 : list A) : Prop := exists r, l2 = l1 ++ r.

Section Spec.
Context {V M Er : Type}.
Notation ev := (event V M Er).

(** The steps of the life of tasks that were attempted, in order: the task's code was
    called or, in simulation mode, the callback was asked. *)
Definition attempt (sim : bool) (e : ev) : list (phase * nat) :=
  match e, sim with
  | ETask ph t _, false => [(ph, t)]
  | EProcess t _ _, false => [(Process, t)]
  | ESim ph t _, true => [(ph, t)]
  | _, _ => []
  end.
Definition attempts (sim : bool) (tr : list ev) : list (phase * nat) := flat_map (attempt sim) tr.

(** What an iteration is meant to do: preprocess every task, process every task in
    plan order, postprocess every task. *)
Definition schedule (ntasks : nat) (order : list nat) : list (phase * nat) :=
  map (pair Preprocess) (seq 0 ntasks) ++ map (pair Process) order ++
  map (pair Postprocess) (seq 0 ntasks).

(** The monitor decided to give up. *)
Definition gives_up (e : ev) : Prop :=
  match e with EDecision _ _ _ Abort | EDecision _ _ _ Shutdown => True | _ => False end.
(** The monitor refused a copper list. *)
Definition refuses (e : ev) : Prop := match e with EReport _ (Some _) => True | _ => False end.

Definition is_log (e : ev) : bool := match e with ELog _ _ => true | _ => false end.
Definition logged (tr : list ev) : list (N * list (msg V M)) :=
  flat_map (fun e => match e with ELog i ms => [(i, ms)] | _ => [] end) tr.

(** Code of tasks, callbacks or the error hook of the monitor being run. *)
Definition runs_tasks (e : ev) : Prop :=
  match e with ETask _ _ _ | EProcess _ _ _ | ESim _ _ _ | EDecision _ _ _ _ => True | _ => False end.

(** The task's code was called, with result [r]. *)
Definition called (ph : phase) (t : nat) (r : option Er) (e : ev) : Prop :=
  match ph with
  | Process => exists ins, e = EProcess t ins r
  | _ => e = ETask ph t r
  end.

(** What must come right before an event, if anything must. *)
Definition justified (sim : bool) (prev : option ev) (e : ev) : Prop :=
  match e with
  | ETask ph t _ => sim = true -> prev = Some (ESim ph t ExecuteByRuntime)
  | EProcess t _ _ => sim = true -> prev = Some (ESim Process t ExecuteByRuntime)
  | EDecision ph t err _ =>
      prev = Some (ESim ph t (Errored err)) \/ exists c, prev = Some c /\ called ph t (Some err) c
  | ESim _ _ _ => sim = true
  | _ => True
  end.
(** What must come right after an event, if anything must. *)
Definition demands (e : ev) (next : option ev) : Prop :=
  match e with
  | ESim ph t (Errored err) => exists d, next = Some (EDecision ph t err d)
  | ESim ph t ExecuteByRuntime => exists c r, next = Some c /\ called ph t r c
  | ETask ph t (Some err) => exists d, next = Some (EDecision ph t err d)
  | EProcess t _ (Some err) => exists d, next = Some (EDecision Process t err d)
  | _ => True
  end.
Definition last_of {A} (l : list A) : option A := hd_error (rev l).

(** The monitor accepted the copper list of the iteration. *)
Definition accepted (tr : list ev) : bool :=
  existsb (fun e => match e with EReport _ None => true | _ => false end) tr.
(** A process step ended with a shutdown, or the copper list was refused. *)
Definition abandons (tr : list ev) : bool :=
  existsb (fun e => match e with EDecision Process _ _ Shutdown | EReport _ (Some _) => true | _ => false end) tr.
(** The trace without the ids of copper lists. *)
Definition without_id (e : ev) : ev := match e with ELog _ msgs => ELog 0 msgs | _ => e end.
End Spec.

(** A plan as the planner computes it (C11, C14): step [k] stores its message in slot
    [k] and reads slots of earlier steps. *)
Definition good_plan (plan : list step) : Prop :=
  NoDup (map s_node plan) /\
  forall k s, nth_error plan k = Some s ->
    (exists ty, s_out s = Some (k, ty)) /\ Forall (fun i => fst i < k) (s_inputs s).

(** Several iterations in a row, whatever their results, until a panic. *)
Section Iterate.
Context {V M Er E : Type}.
Variable a : application.
Variable o : oracles V M Er E.
Fixpoint iterations (n : nat) (m : mgr (list (msg V M))) (env : E)
    : E * mgr (list (msg V M)) * list (list (event V M Er) * result (Er := Er)) :=
  match n with
  | O => (env, m, [])
  | S n => let '(env, m, tr, r) := run_one_iteration a o m env in
           match r with
           | RPanic => (env, m, [(tr, r)])
           | _ => let '(env, m, l) := iterations n m env in (env, m, (tr, r) :: l)
           end
  end.

(** The copper lists of an application after some iterations since its creation with
    [cap] lists of [zero] messages; fewer than 2^32 - 1 iterations, so that ids (u32)
    have not run out. *)
Definition reachable (cap : nat) (zero : list (msg V M)) (m : mgr (list (msg V M))) : Prop :=
  0 < cap /\ exists n env env' l, (N.of_nat n + 1 < 2 ^ 32)%N /\
    iterations n (mgr_new cap zero) env = (env', m, l) /\ Forall (fun x => snd x <> RPanic) l.

(** Every write to the log succeeds. *)
Definition writes_succeed : Prop := forall env c, o_log o env c = true.
(** The result of processing does not depend on the old content of the output message,
    except for the start time which is set for the call; tasks may leave the end time,
    set after the call, as it was. *)
Definition overwrites : Prop := forall t ins out out' env, m_start out = m_start out' ->
  let '(e1, x1, r1) := o_process o t ins out env in
  let '(e2, x2, r2) := o_process o t ins out' env in
  e1 = e2 /\ r1 = r2 /\ m_payload x1 = m_payload x2 /\ m_meta x1 = m_meta x2 /\ m_start x1 = m_start x2.

(** A clock that never goes back, as read by the runtime: [time] is what it would show
    in a state of the environment; it stays below u64::MAX, the encoding of "no time". *)
Definition monotone_clock (time : E -> N) : Prop :=
  (forall env, let (env', t) := o_now o env in t = time env /\ (time env <= time env')%N) /\
  (forall env, (time env < 2 ^ 64 - 1)%N) /\
  (forall ph t env, (time env <= time (fst (o_task o ph t env)))%N) /\
  (forall t ins out env, (time env <= time (fst (fst (o_process o t ins out env))))%N) /\
  (forall t ins env, (time env <= time (fst (o_sink o t ins env)))%N) /\
  (forall ph t env, (time env <= time (fst (o_sim o ph t env)))%N) /\
  (forall t ins out env, (time env <= time (fst (fst (o_sim_process o t ins out env))))%N) /\
  (forall ph t e env, (time env <= time (fst (o_decide o ph t e env)))%N).
(** Tasks leave the start time of their output alone. *)
Definition keeps_start : Prop := forall t ins out env,
  m_start (snd (fst (o_process o t ins out env))) = m_start out.
End Iterate.

(** The field of the tuple of messages in which task [t] stores its message. *)
Definition slot_of_task (plan : list step) (t k : nat) : Prop :=
  exists s, nth_error plan k = Some s /\ s_node s = t.
