(** Messages between two robots through shared memory: components/sinks/cu_iceoryx2_sink and
    components/sources/cu_iceoryx2_src on the same service. The service is that of the crate
    iceoryx2 as documented: a subscriber has a buffer of [n] places whose oldest message makes
    room for a new one, and receives what is sent while it is there. Its failures are inputs. *)
From Coq Require Import String.
From Coq Require Import List Arith NArith ZArith Bool.
From Verif Require Import Base CodecModel SourcesModel VeloModel.
Import ListNotations.

Section Bridge.
Variable P : Type.
(** Places in the buffer of a subscriber (made at components/sources/cu_iceoryx2_src/src/lib.rs:83). *)
Variable n : nat.
(** The sink's publisher is there (components/sinks/cu_iceoryx2_sink/src/lib.rs:18) or not; the
    source's subscriber (components/sources/cu_iceoryx2_src/src/lib.rs:16) with its buffer, or
    none. *)
Record bridge := Bridge { b_publisher : bool; b_subscriber : option (list (msg P)) }.
(** What the two tasks do: start (components/sinks/cu_iceoryx2_sink/src/lib.rs:62-93,
    components/sources/cu_iceoryx2_src/src/lib.rs:66-97), stop (125-130 and 143-148) and process
    (95-123 and 99-142). [ok] tells whether the calls of the library succeed; [out] is the output
    message of the source before the call. *)
Inductive act :=
| SinkStart (ok : bool) | SinkStop | SinkProcess (ok : bool) (m : msg P)
| SrcStart (ok : bool) | SrcStop | SrcProcess (ok : bool) (out : msg P).
(** What is seen of a call: a result of start, stop or of the sink, or the message of the source. *)
Inductive seen := Fine | Error | Src (x : processed P).
(** components/sinks/cu_iceoryx2_sink/src/lib.rs:62-130, components/sources/cu_iceoryx2_src/src/lib.rs:66-148.
    A start replaces the publisher or subscriber; a failed one leaves them. The sink sends a clone
    of its input, with or without payload (109). *)
Definition bstep (b : bridge) (a : act) : bridge * seen :=
  match a with
  | SinkStart ok => if ok then (Bridge true (b_subscriber b), Fine) else (b, Error)
  | SinkStop => (Bridge false (b_subscriber b), Fine)
  | SinkProcess ok m =>
      if b_publisher b && ok then (Bridge true (option_map (push_back n m) (b_subscriber b)), Fine) else (b, Error)
  | SrcStart ok => if ok then (Bridge (b_publisher b) (Some []), Fine) else (b, Error)
  | SrcStop => (Bridge (b_publisher b) None, Fine)
  | SrcProcess ok out =>
      match b_subscriber b with
      | None => (b, Src (Failed out))
      | Some q =>
          if ok then (Bridge (b_publisher b) (Some (tl q)), Src (ice_process (hd_error q) out)) else (b, Src (Failed out))
      end
  end.
(** A history of both tasks (components/sinks/cu_iceoryx2_sink/src/lib.rs:62-130,
    components/sources/cu_iceoryx2_src/src/lib.rs:66-148). *)
Fixpoint bsteps (b : bridge) (l : list act) : bridge * list seen :=
  match l with
  | [] => (b, [])
  | a :: l => let '(b, x) := bstep b a in let '(b, xs) := bsteps b l in (b, x :: xs)
  end.
End Bridge.
Arguments Bridge {P}. Arguments b_publisher {P}. Arguments b_subscriber {P}.
Arguments SinkStart {P}. Arguments SinkStop {P}. Arguments SinkProcess {P}. Arguments SrcStart {P}. Arguments SrcStop {P}. Arguments SrcProcess {P}.
Arguments Fine {P}. Arguments Error {P}. Arguments Src {P}. Arguments bstep {P}. Arguments bsteps {P}.

(** components/sinks/cu_iceoryx2_sink/src/lib.rs:29-60 and components/sources/cu_iceoryx2_src/src/lib.rs:27-64
    (new), from the parameter "service" ([None] without a configuration): [None] is an error. The
    service's name has to be one of the library's ([valid]) and the node has to be created
    ([node]). *)
Definition ice_new (valid : string -> bool) (node : bool) (config : option param) : outcome (option string) :=
  match config with
  | None => Ret None
  | Some Absent => Ret None
  | Some OtherValue => Panic
  | Some (Text s) => Ret (if valid s && node then Some s else None)
  end.
