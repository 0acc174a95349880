(** What a user of the copper list manager relies on: a bounded stack, and a
    runtime that logs every finished copper list exactly once.  Nothing here
    mentions slots, indices or the model's helper functions. *)
From Coq Require Import List Arith NArith Bool Sorted Permutation.
From Verif Require Import Base CuListModel.
Import ListNotations.

Section Spec.
Context {P : Type}.

(** Client operations. [OCreate s p] is a [create] whose caller then sets the
    state and the messages through the returned reference. *)
Inductive op :=
| OCreate (s : clstate) (p : P) | OPop | OPeek | ODropLast | OClear
| OLen | OIsFull | OIsEmpty.

Inductive obs :=
| ObCreated (id : option N)         (* None: no room *)
| ObList (c : option (cl P))        (* result of pop / peek *)
| ObUnit | ObNat (n : nat) | ObBool (b : bool).

(** Abstract state: newest list first, and the number of lists ever created. *)
Definition sstate := (list (cl P) * N)%type.

Definition spec_step (capacity : nat) (s : sstate) (o : op) : sstate * obs :=
  let (st, next) := s in
  match o with
  | OCreate cs p =>
      if length st <? capacity
      then ((mkCl next cs p :: st, next + 1)%N, ObCreated (Some next))
      else (s, ObCreated None)
  | OPop => match st with [] => (s, ObList None) | c :: t => ((t, next), ObList (Some c)) end
  | OPeek => (s, ObList (hd_error st))
  | ODropLast => ((tl st, next), ObUnit)
  | OClear => (([], next), ObUnit)
  | OLen => (s, ObNat (length st))
  | OIsFull => (s, ObBool (length st =? capacity))
  | OIsEmpty => (s, ObBool (length st =? 0))
  end.

Fixpoint spec_run (capacity : nat) (s : sstate) (ops : list op) : sstate * list obs :=
  match ops with
  | [] => (s, [])
  | o :: ops => let (s1, b) := spec_step capacity s o in
                let (s2, bs) := spec_run capacity s1 ops in (s2, b :: bs)
  end.

(** Number of creations asked for in a history. *)
Definition creates (ops : list op) : nat :=
  length (filter (fun o => match o with OCreate _ _ => true | _ => false end) ops).

(** The ids handed out by a history, in order. *)
Definition created_ids (bs : list obs) : list N :=
  flat_map (fun b => match b with ObCreated (Some i) => [i] | _ => [] end) bs.

(** Runtime histories: begin a copper list (create it, mark it Processing,
    let the tasks fill its messages) and report the end of its processing. *)
Inductive rop := RBegin (p : P) | REnd (id : N).

(** Abstract in-flight list. *)
Record entry := mkEntry { e_id : N; e_done : bool; e_msgs : P }.

(** Split off the finished lists that no unfinished newer list hides. *)
Fixpoint take_done (l : list entry) : list entry * list entry :=
  match l with
  | [] => ([], [])
  | e :: t => if e_done e then let (d, r) := take_done t in (e :: d, r) else ([], l)
  end.

Definition mark_done (id : N) (e : entry) : entry :=
  if (e_id e =? id)%N then mkEntry (e_id e) true (e_msgs e) else e.

(** Abstract runtime: in-flight lists, newest first, and next id. Beginning a
    list without a free slot is a panic. The second result is what gets logged. *)
Definition rspec_step (capacity : nat) (s : list entry * N) (o : rop)
    : outcome ((list entry * N) * list (N * P)) :=
  let (st, next) := s in
  match o with
  | RBegin p => if length st <? capacity
                then Ret ((mkEntry next false p :: st, next + 1)%N, [])
                else Panic
  | REnd id => let (d, r) := take_done (map (mark_done id) st) in
               Ret ((r, next), map (fun e => (e_id e, e_msgs e)) d)
  end.

Fixpoint rspec_run (capacity : nat) (s : list entry * N) (ops : list rop)
    : outcome ((list entry * N) * list (list (N * P))) :=
  match ops with
  | [] => Ret (s, [])
  | o :: ops => let! (s1, l) := rspec_step capacity s o in
                let! (s2, ls) := rspec_run capacity s1 ops in Ret (s2, l :: ls)
  end.

Definition begins (ops : list rop) : list P :=
  flat_map (fun o => match o with RBegin p => [p] | _ => [] end) ops.

(** The copper lists begun by a history, numbered from [k]. *)
Fixpoint number (k : N) (ps : list P) : list (N * P) :=
  match ps with [] => [] | p :: ps => (k, p) :: number (k + 1) ps end.

(** [ended k ops]: list number [k] was begun and later reported as ended. *)
Definition ended (k : N) (ops : list rop) : Prop :=
  exists pre post, ops = pre ++ REnd k :: post /\ (k < N.of_nat (length (begins pre)))%N.

End Spec.
Arguments op : clear implicits.
Arguments obs : clear implicits.
Arguments rop : clear implicits.
Arguments entry : clear implicits.
Arguments sstate : clear implicits.

(** How the model executes client operations (a driver, no logic of its own). *)
Section Drive.
Context {P : Type}.
Definition step (mode : ovf_mode) (m : mgr P) (o : op P) : outcome (mgr P * obs P) :=
  match o with
  | OCreate s p =>
      let! r := create mode m in
      match r with
      | None => Ret (m, ObCreated None)
      | Some (m', i) =>
          match nth_error (m_data m') i with
          | None => Panic
          | Some c => Ret (mkMgr (upd i (mkCl (cl_id c) s p) (m_data m'))
                                 (m_len m') (m_ins m') (m_next m'),
                           ObCreated (Some (cl_id c)))
          end
      end
  | OPop => let! (m', c) := pop m in Ret (m', ObList c)
  | OPeek => let! c := peek m in Ret (m, ObList c)
  | ODropLast => Ret (drop_last m, ObUnit)
  | OClear => Ret (clear m, ObUnit)
  | OLen => Ret (m, ObNat (m_len m))
  | OIsFull => Ret (m, ObBool (is_full m))
  | OIsEmpty => Ret (m, ObBool (is_empty m))
  end.

Fixpoint run (mode : ovf_mode) (m : mgr P) (ops : list (op P)) : outcome (mgr P * list (obs P)) :=
  match ops with
  | [] => Ret (m, [])
  | o :: ops => let! (m1, b) := step mode m o in
                let! (m2, bs) := run mode m1 ops in Ret (m2, b :: bs)
  end.

(** Runtime operations on the model: [RBegin] is what the generated loop does at
    core/cu29_derive/src/lib.rs:967-971 (create, expect, Processing). *)
Definition rstep (mode : ovf_mode) (logger : option (cl P -> bool)) (m : mgr P) (o : rop P)
    : outcome (mgr P * list (cl P)) :=
  match o with
  | RBegin p =>
      let! (m, b) := step mode m (OCreate Processing p) in
      match b with ObCreated (Some _) => Ret (m, []) | _ => Panic end
  | REnd id => end_of_processing logger m id
  end.

Fixpoint rrun mode logger (m : mgr P) (ops : list (rop P)) : outcome (mgr P * list (list (cl P))) :=
  match ops with
  | [] => Ret (m, [])
  | o :: ops => let! (m1, l) := rstep mode logger m o in
                let! (m2, ls) := rrun mode logger m1 ops in Ret (m2, l :: ls)
  end.

Definition logged_pair (c : cl P) : N * P := (cl_id c, cl_msgs c).

(** Every log write succeeds (or logging is off). *)
Definition logger_accepts (logger : option (cl P -> bool)) : Prop :=
  match logger with None => True | Some ok => forall c, ok c = true end.

(** What reaches the log: everything, or nothing when logging is off. *)
Definition pairs_of (logger : option (cl P -> bool)) (l : list (N * P)) : list (N * P) :=
  match logger with None => [] | Some _ => l end.
End Drive.
