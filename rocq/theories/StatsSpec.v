(** Statistics of a list of values, defined on the list alone. *)
From Coq Require Import List NArith.
From Verif Require Import Base StatsModel.
Import ListNotations.
Local Open Scope N_scope.

(** The values recorded since the last reset. *)
Fixpoint since (l : list event) (acc : list N) : list N :=
  match l with
  | [] => acc
  | Record_ v :: l => since l (acc ++ [v])
  | Reset_ :: l => since l []
  end.
Definition is_min (m : N) (l : list N) : Prop := In m l /\ forall x, In x l -> m <= x.
Definition is_max (m : N) (l : list N) : Prop := In m l /\ forall x, In x l -> x <= m.
Definition total (l : list N) : N := fold_right N.add 0 l.
(** Distances between neighbours. *)
Fixpoint gaps (l : list N) : list N :=
  match l with
  | x :: (y :: _) as t => (N.max x y - N.min x y) :: gaps t
  | _ => []
  end.
(** [r] is [x], exactly below 2048 and within 0.1 percent above. *)
Definition below (r x : N) : Prop := r <= x /\ 1024 * (x - r) <= x /\ (x < 2048 -> r = x).
Definition above (r x : N) : Prop := x <= r /\ 1024 * (r - x) <= x /\ (x < 2048 -> r = x).
(** The same for a mean given as a fraction: the sum is off by 0.05 percent of at most. *)
Definition near_mean (m : N * N) (l : list N) : Prop :=
  snd m = N.of_nat (length l) /\
  2048 * (fst m - total l) <= total l /\ 2048 * (total l - fst m) <= total l /\
  ((forall x, In x l -> x < 2048) -> fst m = total l).
(** What the statistics say of a list: its length, minimum, maximum and mean. *)
Definition describes (n : N) (mn mx : N) (mean : N * N) (l : list N) : Prop :=
  n = N.of_nat (length l) /\
  (l = [] -> mn = 0 /\ mx = 0 /\ mean = (0, 1)) /\
  (forall m, is_min m l -> below mn m) /\ (forall m, is_max m l -> above mx m) /\
  (l <> [] -> near_mean mean l).
