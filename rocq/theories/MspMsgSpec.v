(** Messages of the MSP protocol, on the wire. *)
From Coq Require Import List Arith NArith ZArith Bool.
From Verif Require Import Base MspModel MspSpec MspMsgModel.
Import ListNotations.
Local Open Scope N_scope.

(** A number in [n] bytes, least significant first; a negative one as its two's complement. *)
Definition le_z (n : nat) (z : Z) : list N :=
  map (fun i => Z.to_N ((z / 256 ^ Z.of_nat i) mod 256)) (seq 0 n).

(** The bytes [b] hold the value [v] of a field. *)
Inductive carries : field -> list N -> fvalue -> Prop :=
| carries_u n z : (0 <= z < 256 ^ Z.of_nat n)%Z -> carries (FU n) (le_z n z) (VInt z)
| carries_i n z : (- 256 ^ Z.of_nat n <= 2 * z < 256 ^ Z.of_nat n)%Z -> carries (FI n) (le_z n z) (VInt z)
| carries_enum codes b : In b codes -> byte b -> carries (FEnum codes) [b] (VInt (Z.of_N b))
| carries_flags ps b : byte b ->
    carries (FFlags ps) [b] (VFlags (map (fun p => N.odd (b / 2 ^ N.of_nat (7 - p))) ps)).
Inductive message_of : list field -> list N -> list fvalue -> Prop :=
| message_nil : message_of [] [] []
| message_cons f l b bs v vs : carries f b v -> message_of l bs vs -> message_of (f :: l) (b ++ bs) (v :: vs).

(** What a received packet says. Two kinds of response share the command of another one, and
    are never received. *)
Definition received_kind (k : kind) : Prop := k <> MspDataFlashRead /\ k <> MspSetGetOsdConfig.
Inductive meaning (odd : kind -> list field) (p : packet) : response -> Prop :=
| meaning_unknown : In (k_cmd p) command_codes -> (forall k, k_cmd p <> code k) -> meaning odd p Unknown
| meaning_resp k bs extra vs : received_kind k -> k_cmd p = code k -> k_data p = bs ++ extra ->
    message_of (layout odd k) bs vs -> meaning odd p (Resp k vs).

(** Values of the type of a field. *)
Definition typed (f : field) (v : fvalue) : Prop :=
  match f, v with
  | FU n, VInt z => (0 <= z < 256 ^ Z.of_nat n)%Z
  | FI n, VInt z => (- 256 ^ Z.of_nat n <= 2 * z < 256 ^ Z.of_nat n)%Z
  | FEnum codes, VInt z => (0 <= z < 256)%Z /\ In (Z.to_N z) codes
  | FFlags ps, VFlags l => length l = length ps
  | _, _ => False
  end.
(** Flags of a byte sit at different bits of it. *)
Definition sound (f : field) : Prop :=
  match f with FFlags ps => NoDup ps /\ Forall (fun p => p < 8)%nat ps | _ => True end.

(** What is asked of the flight controller: the command and its data. *)
Definition asks (r : request) (k : packet) : Prop :=
  k_dir k = ToFC /\
  match r with
  | RUnknown => k_cmd k = 1 /\ k_data k = []
  | RBatteryState => k_cmd k = 130 /\ k_data k = []
  | RRc => k_cmd k = 105 /\ k_data k = []
  | RRawImu => k_cmd k = 102 /\ k_data k = []
  | RSetRawRc ch => k_cmd k = 200 /\ k_data k = flat_map (fun c => [c mod 256; c / 256]) ch
  end.
Definition request_ok (r : request) : Prop :=
  match r with RSetRawRc ch => length ch = 16%nat /\ Forall (fun c => c < 65536) ch | _ => True end.

(** The channel numbers of MspRcChannel. *)
Definition channel_number (s : setter) : nat :=
  match s with SRoll => 0 | SPitch => 1 | SYaw => 2 | SThrottle => 3
             | SAux1 => 4 | SAux2 => 5 | SAux3 => 6 | SAux4 => 7 end.
(** Channel [i], and no other, was set to [v]. *)
Definition sets (i : nat) (v : N) (ch ch' : list N) : Prop :=
  length ch' = length ch /\ nth_error ch' i = Some v /\
  forall j, j <> i -> nth_error ch' j = nth_error ch j.
