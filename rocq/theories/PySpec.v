(** What a Python program is to see of a log. *)
From Coq Require Import List Arith NArith ZArith Bool SpecFloat.
From Verif Require Import Base BincodeModel ValueModel CodecSpec PyModel.
Import ListNotations.
Local Open Scope N_scope.

(** [cut] recognises at least the data that some continuation would complete: reading is
    sequential, so on such data bincode can only have run out of bytes. *)
Definition honest (cut : bytes -> bool) : Prop :=
  forall b c e r, dec_entry b = None -> dec_entry (b ++ c) = Some (e, r) -> cut b = true.

(** How the data may go on after the last entry: not at all or with the beginning of an
    entry that was never finished, or with an end marker (an entry of message 0) and
    anything behind it. *)
Inductive tail_of_log : bytes -> Prop :=
| tail_cut b e : entry_ok e -> proper_prefix b (enc_entry e) -> tail_of_log b
| tail_mark e r : entry_ok e -> le_msg e = 0 -> tail_of_log (enc_entry e ++ r).

(** The number with mantissa width [mw] and exponent width [ew] that IEEE 754 gives to
    some bits: sign, exponent field and mantissa field. *)
Inductive ieee (mw ew : N) : N -> spec_float -> Prop :=
| ieee_zero (s : bool) : ieee mw ew (N.b2n s * 2 ^ (mw + ew)) (S754_zero s)
| ieee_sub (s : bool) m : Npos m < 2 ^ mw ->
    ieee mw ew (N.b2n s * 2 ^ (mw + ew) + Npos m)
      (S754_finite s m (2 - 2 ^ (Z.of_N ew - 1) - Z.of_N mw))
| ieee_norm (s : bool) e f m : 0 < e -> e < 2 ^ ew - 1 -> f < 2 ^ mw -> Npos m = 2 ^ mw + f ->
    ieee mw ew (N.b2n s * 2 ^ (mw + ew) + e * 2 ^ mw + f)
      (S754_finite s m (Z.of_N e + 1 - 2 ^ (Z.of_N ew - 1) - Z.of_N mw))
| ieee_inf (s : bool) : ieee mw ew (N.b2n s * 2 ^ (mw + ew) + (2 ^ ew - 1) * 2 ^ mw) (S754_infinity s)
| ieee_nan (s : bool) f : 0 < f -> f < 2 ^ mw ->
    ieee mw ew (N.b2n s * 2 ^ (mw + ew) + (2 ^ ew - 1) * 2 ^ mw + f) S754_nan.

(** A Python object shows a logged value: the same truth, number, text or bytes; None for
    an absent or empty value; what is wrapped, as itself; a list of what its elements are
    shown as; a dict with one entry for each entry, in order. *)
Inductive shows : value -> pyobj -> Prop :=
| sh_bool b : shows (VBool b) (PyBool b)
| sh_u8 n z : Z.of_N n = z -> shows (VU8 n) (PyInt z)
| sh_u16 n z : Z.of_N n = z -> shows (VU16 n) (PyInt z)
| sh_u32 n z : Z.of_N n = z -> shows (VU32 n) (PyInt z)
| sh_u64 n z : Z.of_N n = z -> shows (VU64 n) (PyInt z)
| sh_i8 z : shows (VI8 z) (PyInt z)
| sh_i16 z : shows (VI16 z) (PyInt z)
| sh_i32 z : shows (VI32 z) (PyInt z)
| sh_i64 z : shows (VI64 z) (PyInt z)
| sh_f32 n f : ieee 23 8 n f -> shows (VF32 n) (PyFloat f)
| sh_f64 n f : ieee 52 11 n f -> shows (VF64 n) (PyFloat f)
| sh_char c : shows (VChar c) (PyStr [c])
| sh_str s : shows (VString s) (PyStr s)
| sh_unit : shows VUnit PyNone
| sh_none : shows (VOption None) PyNone
| sh_some v p : shows v p -> shows (VOption (Some v)) p
| sh_new v p : shows v p -> shows (VNewtype v) p
| sh_seq l ps : Forall2 shows l ps -> shows (VSeq l) (PyList ps)
| sh_map m d : Forall2 shows (map fst m) (map fst d) -> Forall2 shows (map snd m) (map snd d) ->
    shows (VMap m) (PyDict d)
| sh_bytes b : shows (VBytes b) (PyBytes b)
| sh_time n z : Z.of_N n = z -> shows (VCuTime n) (PyInt z).

(** Two values of the same scalar type. *)
Definition same_scalar (v w : value) : Prop :=
  match v, w with
  | VBool _, VBool _ | VU8 _, VU8 _ | VU16 _, VU16 _ | VU32 _, VU32 _ | VU64 _, VU64 _
  | VI8 _, VI8 _ | VI16 _, VI16 _ | VI32 _, VI32 _ | VI64 _, VI64 _
  | VF32 _, VF32 _ | VF64 _, VF64 _ | VChar _, VChar _ | VString _, VString _
  | VBytes _, VBytes _ | VCuTime _, VCuTime _ => True
  | _, _ => False
  end.

(** The keys of every map in a value are scalars of one type (as those of a Rust map with
    integers, floats, texts or times for keys are). *)
Fixpoint plain_keys (v : value) : Prop :=
  match v with
  | VOption (Some v) => plain_keys v
  | VNewtype v => plain_keys v
  | VSeq l => fold_right (fun v P => plain_keys v /\ P) True l
  | VMap m => (forall e f, In e m -> In f m -> same_scalar (fst e) (fst f)) /\
              fold_right (fun e P => plain_keys (snd e) /\ P) True m
  | _ => True
  end.
