(** Packets in a stream of bytes. *)
From Coq Require Import List NArith.
From Verif Require Import Base MspModel.
Import ListNotations.
Local Open Scope N_scope.

Definition byte (b : N) : Prop := b < 256.
(** Packets the first format can carry, and the second one. *)
Definition fits_v1 (p : packet) : Prop := k_cmd p < 256 /\ N.of_nat (length (k_data p)) < 256 /\ Forall byte (k_data p).
Definition fits_v2 (p : packet) : Prop := k_cmd p < 65536 /\ N.of_nat (length (k_data p)) < 65536 /\ Forall byte (k_data p).
(** The packets delivered, in order. *)
Definition delivered (rs : list result) : list packet :=
  flat_map (fun r => match r with Delivered k => [k] | _ => [] end) rs.
Definition is_error (r : result) : Prop := match r with Nothing | Delivered _ => False | _ => True end.

(** Two sequences of bytes that differ in one place. *)
Definition one_byte (l l' : list N) : Prop := exists pre b b' post, l = pre ++ b :: post /\ l' = pre ++ b' :: post /\ b <> b' /\ byte b'.
(** A packet in the first or the second format, as bytes. *)
Definition bytes_of (x : bool * packet) : list N := if fst x then serialize_v2 (snd x) else serialize (snd x).
Definition fits (x : bool * packet) : Prop := if fst x then fits_v2 (snd x) else fits_v1 (snd x).
(** Every read completes fewer than [max] packets. *)
Fixpoint few (max : nat) (p : parser) (reads : list (option (list N))) : Prop :=
  match reads with
  | [] => True
  | None :: reads => few max p reads
  | Some l :: reads => exists p' rs, feed p l = Ret (p', rs) /\ (length (delivered rs) < max)%nat /\ few max p' reads
  end.
(** All bytes read, in order. *)
Definition stream (reads : list (option (list N))) : list N := flat_map (fun r => match r with Some l => l | None => [] end) reads.
Definition batches (os : list (option (list packet))) : list packet := flat_map (fun o => match o with Some l => l | None => [] end) os.

(** CRC8/DVB-S2 as a standard defines it: polynomials over two elements are numbers, whose bits
    are the coefficients; the check value is the remainder of the message times x^8 by
    x^8 + x^7 + x^6 + x^4 + x^2 + 1. *)
Definition dvb_s2 : N := 2 ^ 8 + 2 ^ 7 + 2 ^ 6 + 2 ^ 4 + 2 ^ 2 + 1.
Inductive multiple (g : N) : N -> Prop :=
| multiple_0 : multiple g 0
| multiple_x : forall a, multiple g a -> multiple g (2 * a)
| multiple_add : forall a, multiple g a -> multiple g (N.lxor a g).
(** The message as one number, first byte first. *)
Definition message (l : list N) : N := fold_left (fun v b => 256 * v + b) l 0.
