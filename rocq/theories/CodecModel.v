(** Times, message metadata, messages, copper lists, the fixed capacity array
    payload and their binary encodings. Derived [Encode]/[Decode] of a struct is
    its fields one after the other; of an enum, the variant index as u32 and
    then the fields of the variant (bincode derive, trusted). *)
From Coq Require Import List Arith NArith Bool.
From Verif Require Import Base BincodeModel.
Import ListNotations.
Open Scope N_scope.

(** core/cu29_clock/src/lib.rs:23, 169-181: CuDuration wraps a u64 number of
    nanoseconds and is encoded as that u64. CuTime is the same type (210). *)
Definition cutime := N.
(** core/cu29_clock/src/lib.rs:169-174 (Encode for CuDuration). *)
Definition enc_time : cutime -> bytes := enc_u64.
(** core/cu29_clock/src/lib.rs:176-180 (Decode for CuDuration). *)
Definition dec_time : decoder cutime := dec_u64.

(** core/cu29_clock/src/lib.rs:213-216: OptionCuTime wraps a CuTime; NONE_VALUE
    stands for absence. Derived codec. *)
Record option_cutime := OptionCuTime { oct_raw : cutime }.
(** core/cu29_clock/src/lib.rs:216 (NONE_VALUE). *)
Definition NONE_VALUE : N := 0xFFFFFFFFFFFFFFFF.

(** core/cu29_clock/src/lib.rs:220-223. *)
Definition oct_is_none (o : option_cutime) : bool := oct_raw o =? NONE_VALUE.

(** core/cu29_clock/src/lib.rs:226-228. *)
Definition oct_none : option_cutime := OptionCuTime NONE_VALUE.

(** core/cu29_clock/src/lib.rs:231-236. *)
Definition oct_unwrap (o : option_cutime) : outcome cutime :=
  if oct_is_none o then Panic else Ret (oct_raw o).

(** core/cu29_clock/src/lib.rs:255-263, From<Option<CuTime>>. *)
Definition oct_of_option (o : option cutime) : option_cutime :=
  match o with Some t => OptionCuTime t | None => OptionCuTime NONE_VALUE end.

(** core/cu29_clock/src/lib.rs:265-275, From<OptionCuTime> for Option<CuTime>. *)
Definition oct_to_option (o : option_cutime) : option cutime :=
  if oct_raw o =? NONE_VALUE then None else Some (oct_raw o).

(** core/cu29_clock/src/lib.rs:277-282, From<CuTime>. *)
Definition oct_of_time (t : cutime) : option_cutime := oct_of_option (Some t).

(** Derived Encode of core/cu29_clock/src/lib.rs:213. *)
Definition enc_oct (o : option_cutime) : bytes := enc_time (oct_raw o).
(** Derived Decode of core/cu29_clock/src/lib.rs:213. *)
Definition dec_oct : decoder option_cutime := let? t := dec_time in dret (OptionCuTime t).

(** core/cu29_clock/src/lib.rs:285-289, CuTimeRange. *)
Record time_range := TimeRange { tr_start : cutime; tr_end : cutime }.
(** Derived Encode of core/cu29_clock/src/lib.rs:285. *)
Definition enc_range (r : time_range) : bytes := enc_time (tr_start r) ++ enc_time (tr_end r).
(** Derived Decode of core/cu29_clock/src/lib.rs:285. *)
Definition dec_range : decoder time_range :=
  let? a := dec_time in let? b := dec_time in dret (TimeRange a b).

(** core/cu29_clock/src/lib.rs:293-300: the range of a slice of times; [expect]
    on an empty slice. *)
Definition range_of_slice (l : list cutime) : outcome time_range :=
  match l with
  | [] => Panic
  | t :: l => Ret (TimeRange (fold_left N.min l t) (fold_left N.max l t))
  end.

(** core/cu29_clock/src/lib.rs:303-307, PartialCuTimeRange. *)
Record partial_range := PartialRange { pr_start : option_cutime; pr_end : option_cutime }.
(** Derived Encode of core/cu29_clock/src/lib.rs:303. *)
Definition enc_partial (r : partial_range) : bytes := enc_oct (pr_start r) ++ enc_oct (pr_end r).
(** Derived Decode of core/cu29_clock/src/lib.rs:303. *)
Definition dec_partial : decoder partial_range :=
  let? a := dec_oct in let? b := dec_oct in dret (PartialRange a b).

(** core/cu29_clock/src/lib.rs:311-317, Tov. *)
Inductive tov := TovNone | TovTime (t : cutime) | TovRange (r : time_range).
(** Derived Encode of core/cu29_clock/src/lib.rs:311. *)
Definition enc_tov (t : tov) : bytes :=
  match t with
  | TovNone => enc_u32 0
  | TovTime t => enc_u32 1 ++ enc_time t
  | TovRange r => enc_u32 2 ++ enc_range r
  end.
(** Derived Decode of core/cu29_clock/src/lib.rs:311. *)
Definition dec_tov : decoder tov :=
  let? k := dec_u32 in
  match k with
  | 0 => dret TovNone
  | 1 => let? t := dec_time in dret (TovTime t)
  | 2 => let? r := dec_range in dret (TovRange r)
  | _ => dfail
  end.

(** core/cu29_runtime/src/cutask.rs:99-109, CuMsgMetadata. The status text is a
    CuCompactString, encoded as its UTF-8 bytes behind their number and checked
    to be UTF-8 when decoded (cutask.rs:74-96): the same as a String. *)
Record metadata := Metadata { md_process : partial_range; md_tov : tov; md_status : list N }.
(** Derived Encode of core/cu29_runtime/src/cutask.rs:99. *)
Definition enc_metadata (m : metadata) : bytes :=
  enc_partial (md_process m) ++ enc_tov (md_tov m) ++ enc_string (md_status m).
(** Derived Decode of core/cu29_runtime/src/cutask.rs:99. *)
Definition dec_metadata : decoder metadata :=
  let? p := dec_partial in let? t := dec_tov in let? s := dec_string in dret (Metadata p t s).

(** core/cu29_runtime/src/cutask.rs:126-136, CuMsg: optional payload, metadata. *)
Record cumsg (T : Type) := CuMsg { msg_payload : option T; msg_meta : metadata }.
Arguments CuMsg {T} _ _. Arguments msg_payload {T} _. Arguments msg_meta {T} _.
(** Derived Encode of core/cu29_runtime/src/cutask.rs:126. *)
Definition enc_msg {T} (e : T -> bytes) (m : cumsg T) : bytes :=
  enc_option e (msg_payload m) ++ enc_metadata (msg_meta m).
(** Derived Decode of core/cu29_runtime/src/cutask.rs:126. *)
Definition dec_msg {T} (d : decoder T) : decoder (cumsg T) :=
  let? p := dec_option d in let? m := dec_metadata in dret (CuMsg p m).

(** The payload types of an application with their encoders and decoders: user
    code, any type at all. The bounds are those of core/cu29_runtime/src/cutask.rs:19-24 (CuMsgPayload). *)
Record payload := Payload { p_type : Type; p_enc : p_type -> bytes; p_dec : decoder p_type }.

(** core/cu29_derive/src/lib.rs:1334-1363 (build_culist_tuple): the tuple of
    messages, one per output in culist order, as nested pairs. *)
Fixpoint msg_tuple (ps : list payload) : Type :=
  match ps with [] => unit | p :: ps => (cumsg (p_type p) * msg_tuple ps)%type end.

(** core/cu29_derive/src/lib.rs:1366-1386 (build_culist_tuple_encode). *)
Fixpoint enc_tuple (ps : list payload) : msg_tuple ps -> bytes :=
  match ps with
  | [] => fun _ => []
  | p :: ps => fun t => enc_msg (p_enc p) (fst t) ++ enc_tuple ps (snd t)
  end.

(** core/cu29_derive/src/lib.rs:1389-1409 (build_culist_tuple_decode). *)
Fixpoint dec_tuple (ps : list payload) : decoder (msg_tuple ps) :=
  match ps with
  | [] => dret tt
  | p :: ps => let? m := dec_msg (p_dec p) in let? t := dec_tuple ps in dret (m, t)
  end.

(** core/cu29_runtime/src/copperlist.rs:25-32, CopperListState. *)
Inductive cl_state := Free | Initialized | Processing | DoneProcessing | BeingSerialized.
(** Derived Encode of core/cu29_runtime/src/copperlist.rs:25. *)
Definition enc_state (s : cl_state) : bytes :=
  enc_u32 match s with
          | Free => 0 | Initialized => 1 | Processing => 2 | DoneProcessing => 3
          | BeingSerialized => 4 end.
(** Derived Decode of core/cu29_runtime/src/copperlist.rs:25. *)
Definition dec_state : decoder cl_state :=
  let? k := dec_u32 in
  match k with
  | 0 => dret Free | 1 => dret Initialized | 2 => dret Processing
  | 3 => dret DoneProcessing | 4 => dret BeingSerialized | _ => dfail
  end.

(** core/cu29_runtime/src/copperlist.rs:46-51, CopperList: id, state, messages. *)
Record copperlist (ps : list payload) :=
  CopperList { cl_id : N; cl_st : cl_state; cl_msgs : msg_tuple ps }.
Arguments CopperList {ps} _ _ _. Arguments cl_id {ps} _. Arguments cl_st {ps} _.
Arguments cl_msgs {ps} _.
(** Derived Encode of core/cu29_runtime/src/copperlist.rs:46. *)
Definition enc_cl {ps} (c : copperlist ps) : bytes :=
  enc_u32 (cl_id c) ++ enc_state (cl_st c) ++ enc_tuple ps (cl_msgs c).
(** Derived Decode of core/cu29_runtime/src/copperlist.rs:46. *)
Definition dec_cl {ps} : decoder (copperlist ps) :=
  let? i := dec_u32 in let? s := dec_state in let? m := dec_tuple ps in
  dret (CopperList i s m).

(** core/cu29_export/src/lib.rs:85-110 (copperlists_dump): decode one copper list
    after the other from the byte stream until a decoding error (end of the
    stream or any other), which ends the iteration. [fuel] bounds the number of
    lists (each takes at least a byte, see [dump]). *)
Fixpoint dump_n {A} (d : decoder A) (fuel : nat) (b : bytes) : list A :=
  match fuel with
  | O => []
  | S fuel => match d b with Some (a, b') => a :: dump_n d fuel b' | None => [] end
  end.
(** core/cu29_export/src/lib.rs:85-110 (copperlists_dump) with enough fuel. *)
Definition copperlists_dump {ps} (b : bytes) : list (copperlist ps) :=
  dump_n dec_cl (S (length b)) b.

(** core/cu29_runtime/src/payload.rs:9-11, CuArray<T, N> over an ArrayVec: the
    elements in order; the capacity [n] is a parameter of the type. *)
Definition cuarray (T : Type) := list T.

(** core/cu29_runtime/src/payload.rs:20-28 (fill_from_iter): clear, then push at
    most [n] items. ArrayVec::push panics when full. *)
Definition av_push {T} (n : nat) (a : cuarray T) (x : T) : outcome (cuarray T) :=
  if (length a <? n)%nat then Ret (a ++ [x]) else Panic.
(** The loop of core/cu29_runtime/src/payload.rs:25-27. *)
Fixpoint av_push_all {T} (n : nat) (a : cuarray T) (l : list T) : outcome (cuarray T) :=
  match l with
  | [] => Ret a
  | x :: l => let! a := av_push n a x in av_push_all n a l
  end.
(** core/cu29_runtime/src/payload.rs:20-28 (fill_from_iter). *)
Definition cuarray_fill {T} (n : nat) (old : cuarray T) (items : list T) : outcome (cuarray T) :=
  av_push_all n [] (firstn n items).

(** core/cu29_runtime/src/payload.rs:47-64 (encode): length [as u32], elements. *)
Definition enc_cuarray {T} (e : T -> bytes) (a : cuarray T) : bytes :=
  enc_u32 (N.of_nat (length a) mod 2 ^ 32) ++ enc_all e a.

(** core/cu29_runtime/src/payload.rs:67-90 (decode). The pushes happen one by
    one; a push beyond the capacity would panic. The result distinguishes a
    decoding error from a panic. *)
Inductive dec_outcome (A : Type) := DOk (a : A) (rest : bytes) | DErr | DPanic.
Arguments DOk {A} a rest. Arguments DErr {A}. Arguments DPanic {A}.
(** The loop of core/cu29_runtime/src/payload.rs:84-86. *)
Fixpoint dec_pushes {T} (d : decoder T) (n : nat) (k : nat) (a : cuarray T) (b : bytes)
    : dec_outcome (cuarray T) :=
  match k with
  | O => DOk a b
  | S k => match d b with
           | None => DErr
           | Some (x, b) => match av_push n a x with
                            | Panic => DPanic
                            | Ret a => dec_pushes d n k a b
                            end
           end
  end.
(** core/cu29_runtime/src/payload.rs:67-90 (decode). *)
Definition dec_cuarray {T} (d : decoder T) (n : nat) (b : bytes) : dec_outcome (cuarray T) :=
  match dec_u32 b with
  | None => DErr
  | Some (len, b) => if N.of_nat n <? len then DErr else dec_pushes d n (N.to_nat len) [] b
  end.
