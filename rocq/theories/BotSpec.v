(** What is expected of the balancing robot, in terms of the messages its tasks are given and
    of the duty cycles of its motor. *)
From Coq Require Import List NArith ZArith Bool SpecFloat.
From Verif Require Import Base CuListModel PlanModel RuntimeModel FloatModel PidModel MotorModel BotModel.
Import ListNotations.

Notation ev := (event value (option N) fault).

(** The calls of process in a trace: the task, the messages given, the result. *)
Definition calls (tr : list ev) : list (nat * list message * option fault) :=
  flat_map (fun x => match x with EProcess t ins r => [(t, ins, r)] | _ => [] end) tr.
(** The messages task [t], which has one input, was given. *)
Definition given (t : nat) (tr : list ev) : list message :=
  flat_map (fun c => match c with (u, [x], _) => if Nat.eqb u t then [x] else [] | _ => [] end) (calls tr).

(** No power on either channel. *)
Definition off (m : motor) : Prop := duty0 m = zero /\ duty1 m = zero.

(** A reading of the angle the robot may be driven on: there is one, it has a time, and it is
    within 170 of 3072. *)
Definition good_angle (x : message) : Prop :=
  exists a t, m_payload x = Some (VAngle a) /\ m_meta x = Some t /\ (2902 <= a <= 3242)%N.
(** The same for the position on the rail: within 1000 of 0. *)
Definition good_rail (x : message) : Prop :=
  exists z t, m_payload x = Some (VRail z) /\ m_meta x = Some t /\ (-1000 <= z <= 1000)%Z.

(** The sensors give 16 bits of angle and 32 bits of position; the PWM accepts the writes. *)
Definition sensors_ok {W} (w : world W) : Prop :=
  (forall x y a t, w_angle w x = (y, Some (a, t)) -> (a < 2 ^ 16)%N) /\
  (forall x y z t, w_rail w x = (y, (z, t)) -> (- 2 ^ 31 <= z < 2 ^ 31)%Z).
Definition pwm_ok {W} (w : world W) : Prop := forall x, snd (w_hw w x) = (true, true).

(** A monitor that answers Ignore to every error of process. *)
Definition ignores (monitor : phase -> nat -> fault -> decision) : Prop :=
  forall t f, monitor RuntimeModel.Process t f = Ignore.

(** The states between the iterations of the program: after a successful start, then after
    each iteration that returned Ok and in which no PID panicked; with everything observed so far. *)
Inductive reaches {W} (w : world W) monitor mode : list ev -> mgr (list message) -> bot W -> Prop :=
| started x e tr : all_tasks (bot_app mode) (bot_oracles w monitor) Start (bot_new x) = (e, tr, ROk) ->
    reaches w monitor mode tr (mgr_new 10 bot_zero) e
| iterated tr m e tr' m' e' : reaches w monitor mode tr m e ->
    run_one_iteration (bot_app mode) (bot_oracles w monitor) m e = (e', m', tr', ROk) -> b_dead e' = false ->
    reaches w monitor mode (tr ++ tr') m' e'.

(** The times of the readings given to task [t], and their being strictly increasing. *)
Definition times (t : nat) (tr : list ev) : list N :=
  flat_map (fun x => match m_payload x, m_meta x with Some _, Some u => [u] | _, _ => [] end) (given t tr).
Fixpoint increasing (l : list N) : Prop :=
  match l with
  | [] => True
  | x :: l => match l with [] => True | y :: _ => (x < y)%N end /\ increasing l
  end.
