(** What a user expects when an application is built. *)
From Coq Require Import String List Arith NArith Bool.
From Verif Require Import Base ConfigModel PlanModel AppModel.
Import ListNotations.
Local Open Scope list_scope.
Local Open Scope nat_scope.

(** The sections of the log are not larger than its slabs. *)
Definition sizes_ok (c : config) : Prop :=
  forall l slab section, c_logging c = Some l -> lc_slab l = Some slab -> lc_section l = Some section ->
  (section <= slab)%N.

(** The text [t] describes the configuration [c]. *)
Definition describes (t : option repr) (c : config) : Prop :=
  exists r, t = Some r /\ deserialize r = Ret c.

(** The text to be used: that of the file when there is one, else the compiled one. *)
Definition text_in_use (f : file) (original t : option repr) : Prop :=
  f = Text t \/ (f = Absent /\ t = original).

(** The configuration an application must use: the one given by program if any, else that of
    the text to be used. *)
Definition in_use (override : option config) (f : file) (original : option repr) (c : config) : Prop :=
  override = Some c \/ (override = None /\ exists t, text_in_use f original t /\ describes t c).

(** The parameters [c] gives to the task called [id]. *)
Definition gives (c : config) (id : string) (p : option params) : Prop :=
  exists n, In n (c_nodes c) /\ n_id n = id /\ n_config n = p.

(** What is seen of the tasks created, and of those the simulation was told of. *)
Definition creations (tr : list event) : list (nat * option params) :=
  flat_map (fun e => match e with Create i p => [(i, p)] | _ => [] end) tr.
Definition told (tr : list event) : list (nat * option params) :=
  flat_map (fun e => match e with Told i p => [(i, p)] | _ => [] end) tr.
Definition streams (tr : list event) : list N :=
  flat_map (fun e => match e with Stream n => [n] | _ => [] end) tr.
Definition monitors (tr : list event) : list config :=
  flat_map (fun e => match e with Monitor c => [c] | _ => [] end) tr.

(** The task at index [i] among the tasks called [ids] was given the parameters [c] gives to
    the task of that name. *)
Definition own_parameters (ids : list string) (c : config) (x : nat * option params) : Prop :=
  exists id, nth_error ids (fst x) = Some id /\ gives c id (snd x).

(** The tasks compiled in come first in [c], in the same order; their parameters are free. *)
Definition same_tasks (ids : list string) (c : config) : Prop :=
  exists more, map n_id (c_nodes c) = ids ++ more.

(** The calls a program can make on a builder. *)
Inductive setter (clock logger callback : Type) :=
| SetClock (x : clock) | SetLogger (x : logger) | SetContext (x : clock) (y : logger)
| SetConfig (x : config) | SetCallback (x : callback).
Arguments SetClock {_ _ _}. Arguments SetLogger {_ _ _}. Arguments SetContext {_ _ _}.
Arguments SetConfig {_ _ _}. Arguments SetCallback {_ _ _}.

Definition clock_of {C L F} (s : setter C L F) : option C :=
  match s with SetClock x => Some x | SetContext x _ => Some x | _ => None end.
Definition logger_of {C L F} (s : setter C L F) : option L :=
  match s with SetLogger x => Some x | SetContext _ y => Some y | _ => None end.
Definition config_of {C L F} (s : setter C L F) : option config :=
  match s with SetConfig x => Some x | _ => None end.
Definition callback_of {C L F} (s : setter C L F) : option F :=
  match s with SetCallback x => Some x | _ => None end.

(** The last value given by a list of calls, if any was given. *)
Definition last_given {S X} (sel : S -> option X) (calls : list S) (o : option X) : Prop :=
  match o with
  | Some x => exists l1 s l2, calls = l1 ++ s :: l2 /\ sel s = Some x /\ Forall (fun s => sel s = None) l2
  | None => Forall (fun s => sel s = None) calls
  end.

(** The builder a program gets by making the calls one after the other. *)
Definition call {C L F} (b : @builder C L F) (s : setter C L F) : builder :=
  match s with
  | SetClock x => with_clock b x
  | SetLogger x => with_logger b x
  | SetContext x y => with_context b x y
  | SetConfig x => with_config b x
  | SetCallback x => with_callback b x
  end.
