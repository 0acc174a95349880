(** A recorded run as it is in its log: the messages of the runtime with the types of an
    application, and back when the log is read for a replay
    (examples/cu_rp_balancebot/src/resim.rs). *)
From Coq Require Import List NArith.
From Verif Require Import Base BincodeModel CodecModel RuntimeModel.
Import ListNotations.

Section Typed.
Context {V M : Type}.
(** A field of the tuple of messages (core/cu29_derive/src/lib.rs:1334-1363): the type of its
    payload and its encoding; [sl_in] and [sl_out] tell its values among all payloads of the
    application. *)
Record slot := Slot { sl_p : CodecModel.payload; sl_in : V -> option (p_type sl_p); sl_out : p_type sl_p -> V }.
(** The rest of the metadata: time of validity and status
    (core/cu29_runtime/src/cutask.rs:99-118). *)
Variable meta_in : M -> tov * list N.
(** And back (core/cu29_runtime/src/cutask.rs:99-118). *)
Variable meta_out : tov * list N -> M.

(** The types of an application's tuple of messages (core/cu29_derive/src/lib.rs:1334-1363). *)
Definition types (sl : list slot) : list CodecModel.payload := map sl_p sl.
(** A message as it is written (core/cu29_runtime/src/cutask.rs:126-136). *)
Definition typed_msg (s : slot) (m : msg V M) : cumsg (p_type (sl_p s)) :=
  CuMsg (match m_payload m with Some v => sl_in s v | None => None end)
    (Metadata (PartialRange (oct_of_option (m_start m)) (oct_of_option (m_end m))) (fst (meta_in (m_meta m))) (snd (meta_in (m_meta m)))).
(** The tuple of messages (core/cu29_derive/src/lib.rs:1334-1363); another number of messages is
    excluded by the types. *)
Fixpoint typed_msgs (sl : list slot) (l : list (msg V M)) : option (msg_tuple (types sl)) :=
  match sl, l with
  | [], [] => Some tt
  | s :: sl, m :: l => match typed_msgs sl l with Some t => Some (typed_msg s m, t) | None => None end
  | _, _ => None
  end.
(** The copper list handed to the log (core/cu29_runtime/src/curuntime.rs:111-114). *)
Definition typed_list (sl : list slot) (r : N * list (msg V M)) : option (copperlist (types sl)) :=
  match typed_msgs sl (snd r) with Some t => Some (@CopperList (types sl) (fst r) BeingSerialized t) | None => None end.

(** A message as the callback finds it in a list that was read
    (examples/cu_rp_balancebot/src/resim.rs:28-50). *)
Definition read_msg (s : slot) (m : cumsg (p_type (sl_p s))) : msg V M :=
  let d := msg_meta m in
  Msg (match msg_payload m with Some v => Some (sl_out s v) | None => None end) (meta_out (md_tov d, md_status d))
    (oct_to_option (pr_start (md_process d))) (oct_to_option (pr_end (md_process d))).
(** The messages of a list (core/cu29_derive/src/lib.rs:148-159). *)
Fixpoint read_msgs (sl : list slot) : msg_tuple (types sl) -> list (msg V M) :=
  match sl with
  | [] => fun _ => []
  | s :: sl => fun t => read_msg s (fst t) :: read_msgs sl (snd t)
  end.
(** All lists of a log: the iterator of examples/cu_rp_balancebot/src/resim.rs:107-109. *)
Definition read_lists (sl : list slot) (b : bytes) : list (list (msg V M)) :=
  map (fun c => read_msgs sl (cl_msgs c)) (@copperlists_dump (types sl) b).
End Typed.
Arguments slot : clear implicits.
