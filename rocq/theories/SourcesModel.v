(** Source tasks of components/sources: camera (cu_v4l), shared memory (cu_iceoryx2_src),
    video pipelines (cu_gstreamer), wheel encoder (cu_rp_encoder). The devices, drivers and
    the shared memory are inputs. Builds with overflow checks. *)
From Coq Require Import List Arith NArith ZArith Bool.
From Verif Require Import Base CodecModel.
Import ListNotations.

(** The output message of a source (core/cu29_runtime/src/cutask.rs:126-137): the payload and
    the time of validity of the metadata. *)
Record msg (P : Type) := Msg { m_payload : option P; m_tov : tov }.
Arguments Msg {P}. Arguments m_payload {P}. Arguments m_tov {P}.
(** Result of [process] (core/cu29_traits/src/lib.rs:36): an error or nothing; the message is
    kept in both cases. *)
Inductive processed (P : Type) := Done (m : msg P) | Failed (m : msg P).
Arguments Done {P}. Arguments Failed {P}.

Local Open Scope Z_scope.
(** The cast of an unsigned 64 bit (or longer) number to i64, at
    components/sources/cu_v4l/src/lib.rs:65 and 225. *)
Definition as_i64 (z : Z) : Z := let r := z mod 2 ^ 64 in if r <? 2 ^ 63 then r else r - 2 ^ 64.
(** Addition and subtraction of i64, at components/sources/cu_v4l/src/lib.rs:65 and 225: panics
    when out of range. *)
Definition checked_i64 (z : Z) : outcome Z := if (- 2 ^ 63 <=? z) && (z <? 2 ^ 63) then Ret z else Panic.
(** components/sources/cu_v4l/src/lib.rs:220-232 (start): the offset, from the robot time [rb]
    and the system's monotonic time [mono] in nanoseconds. *)
Definition v4l_start (rb mono : N) : outcome Z :=
  let! m := checked_i64 (Z.of_N mono) in checked_i64 (m - as_i64 (Z.of_N rb)).
(** components/sources/cu_v4l/src/lib.rs:63-66 (cutime_from_v4ltime), [t] the time stamp of the
    frame in nanoseconds. *)
Definition v4l_time (offset : Z) (t : N) : outcome N :=
  let! z := checked_i64 (as_i64 (Z.of_N t) + offset) in Ret (Z.to_N (z mod 2 ^ 64)).
(** What the stream gave (components/sources/cu_v4l/src/lib.rs:235-238): number of bytes used,
    time stamp and image. *)
Record frame (P : Type) := Frame { f_used : N; f_time : N; f_image : P }.
Arguments Frame {P}. Arguments f_used {P}. Arguments f_time {P}. Arguments f_image {P}.
(** components/sources/cu_v4l/src/lib.rs:234-248 (process); [None] is a failure of the stream.
    The image is large enough for the format. *)
Definition v4l_process {P} (offset : Z) (f : option (frame P)) (m : msg P) : outcome (processed P) :=
  match f with
  | None => Ret (Failed m)
  | Some f =>
      if (f_used f =? 0)%N then Ret (Done m)
      else let! t := v4l_time offset (f_time f) in Ret (Done (Msg (Some (f_image f)) (TovTime t)))
  end.

(** components/sources/cu_iceoryx2_src/src/lib.rs:99-142 (process) of a started task;
    [received] is the message in shared memory, if any. *)
Definition ice_process {P} (received : option (msg P)) (m : msg P) : processed P :=
  match received with
  | None => Done m
  | Some r => match m_payload r with None => Failed m | Some p => Done (Msg (Some p) (m_tov r)) end
  end.

Local Open Scope nat_scope.
(** push_back of the circular_buffer crate with capacity [n], at
    components/sources/cu_gstreamer/src/cu_gstreamer_impl.rs:125: the oldest element makes room. *)
Definition push_back {P} (n : nat) (p : P) (q : list P) : list P :=
  if n =? 0 then q else if length q <? n then q ++ [p] else tl q ++ [p].
(** components/sources/cu_gstreamer/src/cu_gstreamer_impl.rs:150-161 (process) at time [now]. *)
Definition gst_process {P} (now : cutime) (q : list P) (m : msg P) : list P * msg P :=
  match q with
  | b :: q => (q, Msg (Some b) (TovTime now))
  | [] => ([], Msg None (m_tov m))
  end.
(** The callbacks of components/sources/cu_gstreamer/src/cu_gstreamer_impl.rs:112-170: a buffer arrives
    (112-128), the task processes (150-161), starts or stops (140-148, 163-170: both clear the
    buffer). Each holds the lock throughout, so they come one after the other. *)
Inductive gst_event (P : Type) := Arrive (p : P) | Take (now : cutime) (m : msg P) | Clear.
Arguments Arrive {P}. Arguments Take {P}. Arguments Clear {P}.
(** components/sources/cu_gstreamer/src/cu_gstreamer_impl.rs:112-170: the messages sent over a
    run, and the buffer left. *)
Fixpoint gst_run {P} (n : nat) (l : list (gst_event P)) (q : list P) : list (msg P) * list P :=
  match l with
  | [] => ([], q)
  | Arrive p :: l => gst_run n l (push_back n p q)
  | Take now m :: l => let (q, m) := gst_process now q m in let (ms, q) := gst_run n l q in (m :: ms, q)
  | Clear :: l => gst_run n l []
  end.

Local Open Scope Z_scope.
(** components/sources/cu_rp_encoder/src/lib.rs:90-106: a falling edge of the clock pin, with
    the level of the data pin, or a call of process at a time (108-114). *)
Inductive enc_event := Edge_ (high : bool) | Sample (now : cutime).
(** i32 arithmetic, at components/sources/cu_rp_encoder/src/lib.rs:98-100. *)
Definition checked_i32 (z : Z) : outcome Z := if (- 2 ^ 31 <=? z) && (z <? 2 ^ 31) then Ret z else Panic.
(** components/sources/cu_rp_encoder/src/lib.rs:90-114: the messages sent over a run from a
    tick count. A panic in the interrupt poisons the lock, so the task panics too. *)
Fixpoint enc_run (l : list enc_event) (ticks : Z) : outcome (list (msg Z)) :=
  match l with
  | [] => Ret []
  | Edge_ high :: l => let! t := checked_i32 (if high then ticks + 1 else ticks - 1) in enc_run l t
  | Sample now :: l => let! ms := enc_run l ticks in Ret (Msg (Some ticks) (TovTime now) :: ms)
  end.
