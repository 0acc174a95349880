(** What is required of a binary encoding. *)
From Coq Require Import List NArith ZArith.
Import ListNotations.

(** An encoder/decoder pair is lossless on the values satisfying [wf] when each
    of them is read back from its encoding whatever bytes follow, and exactly
    these following bytes are left. *)
Definition lossless {A} (wf : A -> Prop) (enc : A -> list N)
    (dec : list N -> option (A * list N)) : Prop :=
  forall v rest, wf v -> dec (enc v ++ rest) = Some (v, rest).

(** No encoding of a value is a proper prefix of (the start of) another's. *)
Definition prefix_free {A} (wf : A -> Prop) (enc : A -> list N) : Prop :=
  forall v w r1 r2, wf v -> wf w -> enc v ++ r1 = enc w ++ r2 -> v = w /\ r1 = r2.

(** Encodings consist of bytes. *)
Definition byte_valued {A} (wf : A -> Prop) (enc : A -> list N) : Prop :=
  forall v, wf v -> Forall (fun b => (b < 256)%N) (enc v).

Definition ubits (n : N) (v : N) : Prop := (v < 2 ^ n)%N.
Definition sbits (n : Z) (z : Z) : Prop := (- 2 ^ (n - 1) <= z < 2 ^ (n - 1))%Z.

(** Unicode scalar values. *)
Definition scalar (c : N) : Prop := (c < 0xD800 \/ 0xE000 <= c < 0x110000)%N.

(** Only the encoding of a value is accepted for it. *)
Definition strict {A} (enc : A -> list N) (dec : list N -> option (A * list N)) : Prop :=
  forall b v r, Forall (fun x => (x < 256)%N) b -> dec b = Some (v, r) -> b = enc v ++ r.
(** From any bytes, a decoder gives only values satisfying [P]. *)
Definition ranged {A} (P : A -> Prop) (dec : list N -> option (A * list N)) : Prop :=
  forall b v r, Forall (fun x => (x < 256)%N) b -> dec b = Some (v, r) -> P v.
