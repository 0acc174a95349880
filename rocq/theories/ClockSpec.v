(** What durations and clocks should do. *)
From Coq Require Import String List NArith ZArith Bool.
From Verif Require Import Base LogModel.
Import ListNotations.
Local Open Scope list_scope.
Local Open Scope N_scope.

(** An operation computes [z] or stops; it stops only when [z] is not a duration. *)
Definition exact (o : outcome N) (z : Z) : Prop :=
  match o with
  | Ret r => Z.of_N r = z
  | Panic => ~ (0 <= z < 2 ^ 64)%Z
  end.

(** A decimal numeral, and one with three decimals, counted in thousandths. *)
Definition reads (t : txt) (n : N) : Prop :=
  t <> [] /\ Forall (fun c => 48 <= c <= 57) t /\ fold_left (fun acc c => 10 * acc + (c - 48)) t 0 = n.
Definition reads3 (t : txt) (k : N) : Prop :=
  exists i d, t = i ++ 46 :: d /\ length d = 3%nat /\ i <> [] /\ reads (i ++ d) k.

(** The units, with their nanoseconds. *)
Definition units : list (N * txt) :=
  [(1000, [181; 115]); (1000 * 1000, lit "ms"%string); (1000 * 1000 * 1000, lit "s"%string); (60 * (1000 * 1000 * 1000), lit "m"%string);
   (60 * 60 * (1000 * 1000 * 1000), lit "h"%string); (24 * 60 * 60 * (1000 * 1000 * 1000), lit "d"%string)].
(** The largest unit that is not longer than [n]. *)
Definition unit_for (n unit : N) (name : txt) : Prop :=
  In (unit, name) units /\ unit <= n /\ forall u s, In (u, s) units -> u <= n -> u <= unit.
(** [k] thousandths of the unit are [n] nanoseconds, up to half a thousandth (and the two
    roundings of floating point numbers of 53 bits). *)
Definition close (n unit k : N) : Prop :=
  (2 ^ 51 * (2 * Z.abs (Z.of_N k * Z.of_N unit - 1000 * Z.of_N n) - Z.of_N unit) <= 2000 * Z.of_N n)%Z.
