(** The structured log value, its order, its binary encoding and decoding, and
    the structured log entry. *)
From Coq Require Import List Arith NArith ZArith Bool.
From Verif Require Import Base BincodeModel CodecModel.
Import ListNotations.
Open Scope N_scope.

(** core/cu29_value/src/lib.rs:18-45, Value. Integers are unbounded here with
    their range in [wf_value] (ValueSpec.v); a float is its bit pattern; a char
    is a code point, a String the list of its code points; a Map (BTreeMap) is
    the list of its entries in key order. *)
Inductive value :=
| VBool (b : bool)
| VU8 (n : N) | VU16 (n : N) | VU32 (n : N) | VU64 (n : N)
| VI8 (z : Z) | VI16 (z : Z) | VI32 (z : Z) | VI64 (z : Z)
| VF32 (bits : N) | VF64 (bits : N)
| VChar (c : N)
| VString (s : list N)
| VUnit
| VOption (o : option value)
| VNewtype (v : value)
| VSeq (l : list value)
| VMap (m : list (value * value))
| VBytes (b : list N)
| VCuTime (t : N).

(** core/cu29_value/src/lib.rs:193-216 (discriminant). *)
Definition discriminant (v : value) : N :=
  match v with
  | VBool _ => 0 | VU8 _ => 1 | VU16 _ => 2 | VU32 _ => 3 | VU64 _ => 4
  | VI8 _ => 5 | VI16 _ => 6 | VI32 _ => 7 | VI64 _ => 8
  | VF32 _ => 9 | VF64 _ => 10 | VChar _ => 11 | VString _ => 12 | VUnit => 13
  | VOption _ => 14 | VNewtype _ => 15 | VSeq _ => 16 | VMap _ => 17 | VBytes _ => 18
  | VCuTime _ => 32
  end.

(** The order of ordered-float's OrderedFloat (external crate, used at
    core/cu29_value/src/lib.rs:151-152, 179-180) on bit patterns of [w] bits
    whose infinity is [inf]: all NaN equal and above everything, both zeros
    equal, otherwise by value. [fkey] maps a pattern to an integer ordered that way. *)
Definition fkey (w inf bits : N) : Z :=
  let mag := bits mod 2 ^ (w - 1) in
  if inf <? mag then Z.of_N inf + 1
  else if 2 ^ (w - 1) <=? bits then - Z.of_N mag
  else Z.of_N mag.
(** OrderedFloat<f32> (core/cu29_value/src/lib.rs:179). *)
Definition f32_key (bits : N) : Z := fkey 32 0x7F800000 bits.
(** OrderedFloat<f64> (core/cu29_value/src/lib.rs:180). *)
Definition f64_key (bits : N) : Z := fkey 64 0x7FF0000000000000 bits.

(** Lexicographic comparison of slices (std Ord for Vec<u8> and str: a str is
    compared by UTF-8 bytes, which is by code points). Used at core/cu29_value/src/lib.rs:182-188. *)
Fixpoint cmp_list {A} (c : A -> A -> comparison) (l l' : list A) : comparison :=
  match l, l' with
  | [], [] => Eq
  | [], _ :: _ => Lt
  | _ :: _, [] => Gt
  | x :: l, y :: l' => match c x y with Eq => cmp_list c l l' | o => o end
  end.

(** std Ord for bool (core/cu29_value/src/lib.rs:170). *)
Definition cmp_bool (a b : bool) : comparison :=
  match a, b with false, true => Lt | true, false => Gt | _, _ => Eq end.

(** core/cu29_value/src/lib.rs:164-190 (Ord::cmp). Option, Vec and BTreeMap use
    the std orders: None first, then lexicographic over elements (entries). *)
Fixpoint cmp_value (v w : value) {struct v} : comparison :=
  match v, w with
  | VBool a, VBool b => cmp_bool a b
  | VU8 a, VU8 b => N.compare a b
  | VU16 a, VU16 b => N.compare a b
  | VU32 a, VU32 b => N.compare a b
  | VU64 a, VU64 b => N.compare a b
  | VI8 a, VI8 b => Z.compare a b
  | VI16 a, VI16 b => Z.compare a b
  | VI32 a, VI32 b => Z.compare a b
  | VI64 a, VI64 b => Z.compare a b
  | VF32 a, VF32 b => Z.compare (f32_key a) (f32_key b)
  | VF64 a, VF64 b => Z.compare (f64_key a) (f64_key b)
  | VChar a, VChar b => N.compare a b
  | VString a, VString b => cmp_list N.compare a b
  | VUnit, VUnit => Eq
  | VOption a, VOption b =>
      match a, b with
      | None, None => Eq | None, Some _ => Lt | Some _, None => Gt
      | Some a, Some b => cmp_value a b
      end
  | VNewtype a, VNewtype b => cmp_value a b
  | VSeq a, VSeq b =>
      (fix go (l l' : list value) {struct l} : comparison :=
         match l, l' with
         | [], [] => Eq | [], _ :: _ => Lt | _ :: _, [] => Gt
         | x :: l, y :: l' => match cmp_value x y with Eq => go l l' | o => o end
         end) a b
  | VMap a, VMap b =>
      (fix go (l l' : list (value * value)) {struct l} : comparison :=
         match l, l' with
         | [], [] => Eq | [], _ :: _ => Lt | _ :: _, [] => Gt
         | (k, x) :: l, (k', y) :: l' =>
             match cmp_value k k' with
             | Eq => match cmp_value x y with Eq => go l l' | o => o end
             | o => o
             end
         end) a b
  | VBytes a, VBytes b => cmp_list N.compare a b
  | VCuTime a, VCuTime b => N.compare a b
  | _, _ => N.compare (discriminant v) (discriminant w)
  end.

(** std BTreeMap::insert on the entries in key order: an equal key keeps its
    place (and the old key) and gets the new value. Of the map at core/cu29_value/src/lib.rs:42. *)
Fixpoint map_insert (k v : value) (m : list (value * value)) : list (value * value) :=
  match m with
  | [] => [(k, v)]
  | (k', v') :: m => match cmp_value k k' with
                     | Lt => (k, v) :: (k', v') :: m
                     | Eq => (k', v) :: m
                     | Gt => (k', v') :: map_insert k v m
                     end
  end.

(** core/cu29_value/src/benc.rs:7-34 (encode). Box, Option, Vec, BTreeMap by
    bincode's impls: a map is its length as u64 and then keys and values in
    order. *)
Fixpoint enc_value (v : value) : bytes :=
  enc_u8 (discriminant v) ++
  match v with
  | VBool b => enc_bool b
  | VU8 n => enc_u8 n | VU16 n => enc_u16 n | VU32 n => enc_u32 n | VU64 n => enc_u64 n
  | VI8 z => enc_i8 z | VI16 z => enc_signed z | VI32 z => enc_signed z | VI64 z => enc_signed z
  | VF32 n => enc_f32 n | VF64 n => enc_f64 n
  | VChar c => enc_char c
  | VString s => enc_string s
  | VUnit => []
  | VOption o => match o with None => [0] | Some v => 1 :: enc_value v end
  | VNewtype v => enc_value v
  | VSeq l => enc_u64 (N.of_nat (length l)) ++
      (fix go (l : list value) : bytes :=
         match l with [] => [] | x :: l => enc_value x ++ go l end) l
  | VMap m => enc_u64 (N.of_nat (length m)) ++
      (fix go (l : list (value * value)) : bytes :=
         match l with [] => [] | (k, x) :: l => enc_value k ++ enc_value x ++ go l end) m
  | VBytes b => enc_vec enc_u8 b
  | VCuTime t => enc_time t
  end.

(** bincode's Decode for BTreeMap: [n] times a key, a value, an insertion. Used at core/cu29_value/src/bdec.rs:31. *)
Fixpoint dec_entries (d : decoder value) (n : nat) (m : list (value * value))
    : decoder (list (value * value)) :=
  match n with
  | O => dret m
  | S n => let? k := d in let? v := d in dec_entries d n (map_insert k v m)
  end.
(** bincode's Decode for BTreeMap, used at core/cu29_value/src/bdec.rs:31. *)
Definition dec_map (d : decoder value) : decoder (list (value * value)) :=
  let? n := dec_u64 in dec_entries d (N.to_nat n) [].

(** core/cu29_value/src/bdec.rs:11-40 (Decode), with the nesting depth bounded
    by [fuel]; [dec_value] gives more fuel than the input can use. Allocation
    failure for huge announced lengths is not modelled. *)
Fixpoint dec_val (fuel : nat) : decoder value :=
  match fuel with
  | O => dfail
  | S fuel =>
    let? t := dec_u8 in
    match t with
    | 0 => let? x := dec_bool in dret (VBool x)
    | 1 => let? x := dec_u8 in dret (VU8 x)
    | 2 => let? x := dec_u16 in dret (VU16 x)
    | 3 => let? x := dec_u32 in dret (VU32 x)
    | 4 => let? x := dec_u64 in dret (VU64 x)
    | 5 => let? x := dec_i8 in dret (VI8 x)
    | 6 => let? x := dec_signed 2 in dret (VI16 x)
    | 7 => let? x := dec_signed 4 in dret (VI32 x)
    | 8 => let? x := dec_signed 8 in dret (VI64 x)
    | 9 => let? x := dec_f32 in dret (VF32 x)
    | 10 => let? x := dec_f64 in dret (VF64 x)
    | 11 => let? x := dec_char in dret (VChar x)
    | 12 => let? x := dec_string in dret (VString x)
    | 13 => dret VUnit
    | 14 => let? x := dec_option (dec_val fuel) in dret (VOption x)
    | 15 => let? x := dec_val fuel in dret (VNewtype x)
    | 16 => let? x := dec_vec (dec_val fuel) in dret (VSeq x)
    | 17 => let? x := dec_map (dec_val fuel) in dret (VMap x)
    | 18 => let? x := dec_vec dec_u8 in dret (VBytes x)
    | 32 => let? x := dec_time in dret (VCuTime x)
    | _ => dfail
    end
  end.
(** core/cu29_value/src/bdec.rs:11-40 (Decode) with enough fuel. *)
Definition dec_value : decoder value := fun b => dec_val (S (length b)) b.

(** core/cu29_value/src/bdec.rs:42-72 (BorrowDecode), same reading. The borrowed
    decoders of the leaf types are the owned ones (bincode). *)
Fixpoint bdec_val (fuel : nat) : decoder value :=
  match fuel with
  | O => dfail
  | S fuel =>
    let? t := dec_u8 in
    match t with
    | 0 => let? x := dec_u8 in dret (VU8 x)
    | 1 => let? x := dec_u16 in dret (VU16 x)
    | 2 => let? x := dec_u32 in dret (VU32 x)
    | 3 => let? x := dec_u64 in dret (VU64 x)
    | 4 => let? x := dec_i8 in dret (VI8 x)
    | 5 => let? x := dec_signed 2 in dret (VI16 x)
    | 6 => let? x := dec_signed 4 in dret (VI32 x)
    | 7 => let? x := dec_signed 8 in dret (VI64 x)
    | 8 => let? x := dec_f32 in dret (VF32 x)
    | 9 => let? x := dec_f64 in dret (VF64 x)
    | 10 => let? x := dec_bool in dret (VBool x)
    | 11 => let? x := dec_char in dret (VChar x)
    | 12 => let? x := dec_string in dret (VString x)
    | 13 => let? x := dec_vec dec_u8 in dret (VBytes x)
    | 14 => dret VUnit
    | 15 => let? x := dec_vec (bdec_val fuel) in dret (VSeq x)
    | 16 => let? x := dec_map (bdec_val fuel) in dret (VMap x)
    | 17 => let? x := dec_option (bdec_val fuel) in dret (VOption x)
    | 18 => let? x := bdec_val fuel in dret (VNewtype x)
    | _ => dfail
    end
  end.
(** core/cu29_value/src/bdec.rs:42-72 (BorrowDecode) with enough fuel. *)
Definition borrow_dec_value : decoder value := fun b => bdec_val (S (length b)) b.

(** core/cu29_log/src/lib.rs:21-34, CuLogEntry. *)
Record log_entry := LogEntry {
  le_time : N; le_msg : N; le_names : list N; le_params : list value }.

(** core/cu29_log/src/lib.rs:36-56 (encode). *)
Definition enc_entry (e : log_entry) : bytes :=
  enc_time (le_time e) ++ enc_u32 (le_msg e) ++
  enc_u64 (N.of_nat (length (le_names e))) ++ enc_all enc_u32 (le_names e) ++
  enc_u64 (N.of_nat (length (le_params e))) ++ enc_all enc_value (le_params e).

(** core/cu29_log/src/lib.rs:58-84 (decode). *)
Definition dec_entry : decoder log_entry :=
  let? t := dec_time in let? m := dec_u32 in
  let? k := dec_u64 in let? names := dec_n dec_u32 (N.to_nat k) in
  let? k := dec_u64 in let? params := dec_n dec_value (N.to_nat k) in
  dret (LogEntry t m names params).
