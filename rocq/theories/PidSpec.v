(** What users of the PID rely on. *)
From Coq Require Import List NArith ZArith Bool Reals SpecFloat.
From Flocq Require Import Core.
From Verif Require Import Base FloatModel FloatFacts PidModel.
Import ListNotations.

(** Not above the limit in magnitude, unless NaN. *)
Definition within (limit x : f32) : Prop := x = S754_nan \/ fle (fopp limit) x = true /\ fle x limit = true.
Definition bounded (g : gains) (o : payload) : Prop :=
  within (p_limit g) (o_p o) /\ within (i_limit g) (o_i o) /\ within (d_limit g) (o_d o) /\ within (output_limit g) (o_output o).
(** The limits are not negative and not NaN. *)
Definition limits_ok (g : gains) : Prop :=
  fle f0 (p_limit g) = true /\ fle f0 (i_limit g) = true /\ fle f0 (d_limit g) = true /\ fle f0 (output_limit g) = true.
(** A finite number of magnitude at most 2^e. *)
Definition small (e : Z) (x : f32) : Prop := valid x /\ fin x /\ (Rabs (val x) <= bpow radix2 e)%R.
Definition finite (x : f32) : Prop := valid x /\ fin x.
(** Every number of the configuration is finite, and the set point at most 2^50. *)
Definition numbers (g : gains) : Prop :=
  finite (kp g) /\ finite (ki g) /\ finite (kd g) /\ small 50 (setpoint g) /\
  finite (p_limit g) /\ finite (i_limit g) /\ finite (d_limit g) /\ finite (output_limit g).
Definition finite_payload (o : payload) : Prop := fin (o_p o) /\ fin (o_i o) /\ fin (o_d o) /\ fin (o_output o).
(** Measurements whose times increase by at least [gap] between two stops and satisfy [P];
    [last] is the time of the previous one since the last stop. *)
Fixpoint timed (gap : N) (P : f32 -> N -> Prop) (last : option N) (l : list op) : Prop :=
  match l with
  | [] => True
  | Stop :: l => timed gap P None l
  | Process (Some (m, Some tov)) :: l =>
      match last with Some t => (t + gap <= tov)%N | None => True end /\ P m tov /\ timed gap P (Some tov) l
  | Process _ :: l => timed gap P last l
  end.
