(** What is required of the stored times, messages, copper lists, arrays,
    structured values and log entries. *)
From Coq Require Import List Arith NArith ZArith Bool Sorted.
From Verif Require Import Base BincodeModel BincodeSpec CodecModel ValueModel.
Import ListNotations.
Open Scope N_scope.

(** A decoder that reads from a stream: it takes a prefix of its input and what
    lies behind that prefix changes nothing. (Every bincode decoder over a reader
    is one.) *)
Definition streaming {A} (d : list N -> option (A * list N)) : Prop :=
  forall b a r, d b = Some (a, r) ->
  exists p, b = p ++ r /\ forall s, d (p ++ s) = Some (a, s).

(** [a] is [b] cut short. *)
Definition proper_prefix {A} (a b : list A) : Prop := exists t, t <> [] /\ b = a ++ t.

(** Texts: scalar values, and a byte length that fits 64 bits (as any Rust
    string's does). *)
Definition text (s : list N) : Prop :=
  Forall scalar s /\ ubits 64 (N.of_nat (length (flat_map enc_char s))).

(** Ranges of the fields (what the Rust types can hold). *)
Definition time_ok (t : N) : Prop := ubits 64 t.
Definition oct_ok (o : option_cutime) : Prop := time_ok (oct_raw o).
Definition range_ok (r : time_range) : Prop := time_ok (tr_start r) /\ time_ok (tr_end r).
Definition partial_ok (r : partial_range) : Prop := oct_ok (pr_start r) /\ oct_ok (pr_end r).
Definition tov_ok (t : tov) : Prop :=
  match t with TovNone => True | TovTime t => time_ok t | TovRange r => range_ok r end.
Definition metadata_ok (m : metadata) : Prop :=
  partial_ok (md_process m) /\ tov_ok (md_tov m) /\ text (md_status m).
Definition msg_ok {T} (W : T -> Prop) (m : cumsg T) : Prop :=
  (forall p, msg_payload m = Some p -> W p) /\ metadata_ok (msg_meta m).

(** [W p] says which values of the payload type [p] its codec can store. *)
Fixpoint tuple_ok (W : forall p : payload, p_type p -> Prop) (ps : list payload)
    : msg_tuple ps -> Prop :=
  match ps with
  | [] => fun _ => True
  | p :: ps => fun t => msg_ok (W p) (fst t) /\ tuple_ok W ps (snd t)
  end.
Definition copperlist_ok W {ps} (c : copperlist ps) : Prop :=
  ubits 32 (cl_id c) /\ tuple_ok W ps (cl_msgs c).

(** The application's payload codecs are lossless stream codecs. *)
Definition payloads_ok (W : forall p : payload, p_type p -> Prop) (ps : list payload) : Prop :=
  Forall (fun p => lossless (W p) (p_enc p) (p_dec p) /\ streaming (p_dec p)) ps.

(** A structured value is one the Rust type can hold. The keys of a map are in
    strictly ascending order (what a BTreeMap guarantees: [map_insert_sorted] in
    ValueProps). *)
Definition ascending (m : list (value * value)) : Prop :=
  Sorted (fun a b => cmp_value (fst a) (fst b) = Lt) m.
Inductive wf_value : value -> Prop :=
| wf_bool b : wf_value (VBool b)
| wf_u8 n : ubits 8 n -> wf_value (VU8 n)
| wf_u16 n : ubits 16 n -> wf_value (VU16 n)
| wf_u32 n : ubits 32 n -> wf_value (VU32 n)
| wf_u64 n : ubits 64 n -> wf_value (VU64 n)
| wf_i8 z : sbits 8 z -> wf_value (VI8 z)
| wf_i16 z : sbits 16 z -> wf_value (VI16 z)
| wf_i32 z : sbits 32 z -> wf_value (VI32 z)
| wf_i64 z : sbits 64 z -> wf_value (VI64 z)
| wf_f32 n : ubits 32 n -> wf_value (VF32 n)
| wf_f64 n : ubits 64 n -> wf_value (VF64 n)
| wf_char c : scalar c -> wf_value (VChar c)
| wf_str s : text s -> wf_value (VString s)
| wf_unit : wf_value VUnit
| wf_none : wf_value (VOption None)
| wf_some v : wf_value v -> wf_value (VOption (Some v))
| wf_newtype v : wf_value v -> wf_value (VNewtype v)
| wf_seq l : Forall wf_value l -> ubits 64 (N.of_nat (length l)) -> wf_value (VSeq l)
| wf_map m : Forall (fun e => wf_value (fst e)) m -> Forall (fun e => wf_value (snd e)) m ->
    ascending m -> ubits 64 (N.of_nat (length m)) -> wf_value (VMap m)
| wf_bytes b : Forall (ubits 8) b -> ubits 64 (N.of_nat (length b)) -> wf_value (VBytes b)
| wf_time t : ubits 64 t -> wf_value (VCuTime t).

Definition entry_ok (e : log_entry) : Prop :=
  ubits 64 (le_time e) /\ ubits 32 (le_msg e) /\
  Forall (ubits 32) (le_names e) /\ ubits 64 (N.of_nat (length (le_names e))) /\
  Forall wf_value (le_params e) /\ ubits 64 (N.of_nat (length (le_params e))).

(** A three way comparison is a total preorder. *)
Record total_order {A} (c : A -> A -> comparison) : Prop := {
  to_opp : forall x y, c y x = CompOpp (c x y);
  to_trans : forall x y z, c x y = Lt -> c y z = Lt -> c x z = Lt;
  to_eq : forall x y z, c x y = Eq -> c x z = c y z }.
