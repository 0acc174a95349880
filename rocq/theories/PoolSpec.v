(** Accounting of handles by the history of a program alone. *)
From Coq Require Import List Arith Bool.
From Verif Require Import Base PoolModel.
Import ListNotations.
Local Open Scope nat_scope.

Section PoolSpec.
Context {A : Type}.
Definition history := list (op A * out A).

(** The number of live clones of allocation [a]: one when a handle is returned, one more
    for each clone of a live handle, one less for each drop. *)
Definition count_step (a : nat) (n : nat) (x : op A * out A) : nat :=
  match x with
  | (Clone b, _) => if (a =? b) && negb (n =? 0) then n + 1 else n
  | (Drop b, _) => if a =? b then n - 1 else n
  | (_, Handle b) => if a =? b then 1 else n
  | _ => n
  end.
Definition live (h : history) (a : nat) : nat := fold_left (count_step a) h 0.
(** Allocations whose buffer comes from the pool, in order. *)
Definition acquired (h : history) : list nat :=
  flat_map (fun x => match x with (Acquire, Handle a) | (CopyFrom _, Handle a) => [a] | _ => [] end) h.
Definition in_use (h : history) : list nat := filter (fun a => negb (live h a =? 0)) (acquired h).
(** Executions with their history. *)
Definition runs (st : state A) (l : list (op A)) (h : history) (st' : state A) : Prop :=
  exists outs, steps st l = (st', outs) /\ h = combine l outs.
End PoolSpec.
Arguments history : clear implicits.
