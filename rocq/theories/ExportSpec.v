(** What exporting a log is required to give. *)
From Coq Require Import List Arith NArith Bool.
From Verif Require Import Base BincodeModel ULogModel ULogSpec.
Import ListNotations.
Open Scope N_scope.

(** [delivers fs t b]: reading the sections of type [t] through the [Read] adapter,
    with buffers of any sizes, delivers the bytes [b] in order, and a read into a
    non-empty buffer returns nothing only once all of [b] has been delivered. *)
Definition delivers (fs : list file) (t : logtype) (b : bytes) : Prop :=
  exists r F, reader_new fs = ROk r /\ forall ns, exists outs rest,
    io_reads fs F t ns (mkIO r [] 0) = ROk outs /\ b = concat outs ++ rest /\
    forall k n, nth_error ns k = Some n -> 0 < n -> nth_error outs k = Some [] ->
      concat (firstn k outs) = b.

