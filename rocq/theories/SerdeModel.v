(** Serde and the structured log value: a parameter is turned into a [value] when
    it is logged, and a [value] is read back into a typed one. *)
From Coq Require Import String Ascii List Arith NArith ZArith Bool.
From Verif Require Import Base BincodeModel CodecModel ValueModel.
Import ListNotations.
Open Scope N_scope.

(** The code points of a Rust string constant, as in the comparison with
    "CuDuration" at core/cu29_value/src/ser.rs:181. *)
Definition lit (s : string) : list N := map N_of_ascii (list_ascii_of_string s).

(** The integer types of serde's data model, with a method each at
    core/cu29_value/src/ser.rs:94-124. The 128 bit ones have none there. *)
Inductive int_kind := I8 | I16 | I32 | I64 | I128 | U8 | U16 | U32 | U64 | U128.

(** What a Serialize impl hands to its serializer, call by call: serde's data
    model, one constructor for each method of the Serializer impl at
    core/cu29_value/src/ser.rs:79-266. A float is its bit pattern, text is its
    code points. Tuples and tuple structs share a constructor ([None] is a
    tuple): the two impls at ser.rs:289-331 are the same. *)
Inductive data :=
| DBool (b : bool)
| DInt (k : int_kind) (z : Z)
| DF32 (bits : N) | DF64 (bits : N)
| DChar (c : N) | DStr (s : list N) | DBytes (b : list N)
| DNone | DSome (d : data)
| DUnit | DUnitStruct (name : list N)
| DNewtype (name : list N) (d : data)
| DSeq (l : list data)
| DTuple (name : option (list N)) (l : list data)
| DMap (m : list (data * data))
| DStruct (name : list N) (fs : list (list N * data))
| DUnitVar (name var : list N)
| DNewtypeVar (name var : list N) (d : data)
| DTupleVar (name var : list N) (l : list data)
| DStructVar (name var : list N) (fs : list (list N * data)).

(** All results, or the first failure: the [?] of the loops at
    core/cu29_value/src/ser.rs:273-286. *)
Fixpoint all {A} (l : list (option A)) : option (list A) :=
  match l with
  | [] => Some []
  | x :: l => match x, all l with Some x, Some l => Some (x :: l) | _, _ => None end
  end.

(** Insertions into a BTreeMap, in order (core/cu29_value/src/ser.rs:376, 399, 422). *)
Definition insert_all (m : list (value * value)) : list (value * value) :=
  fold_left (fun acc e => map_insert (fst e) (snd e) acc) m [].

(** core/cu29_value/src/ser.rs:94-124 (serialize_i8 to serialize_u64).
    serialize_i128 and serialize_u128 are serde's defaults: an error. *)
Definition int_value (k : int_kind) (z : Z) : option value :=
  match k with
  | I8 => Some (VI8 z) | I16 => Some (VI16 z) | I32 => Some (VI32 z) | I64 => Some (VI64 z)
  | U8 => Some (VU8 (Z.to_N z)) | U16 => Some (VU16 (Z.to_N z))
  | U32 => Some (VU32 (Z.to_N z)) | U64 => Some (VU64 (Z.to_N z))
  | I128 | U128 => None
  end.

(** core/cu29_value/src/ser.rs:176-193 (serialize_newtype_struct), the content
    being serialized already. CuTime::from(u64) keeps the number
    (core/cu29_clock/src/lib.rs:62-66). *)
Definition newtype_value (name : list N) (v : value) : value :=
  if list_eq_dec N.eq_dec name (lit "CuDuration") then
    match v with VU64 n => VCuTime n | v => v end
  else if list_eq_dec N.eq_dec name (lit "CuTime") then
    match v with VU64 n => VCuTime n | v => v end
  else VNewtype v.

(** core/cu29_value/src/ser.rs:73-75 (to_value) with the Serializer impl at
    79-266 and the compound ones at 268-432. [None] is a SerializerError. The
    error text is left out. A map's impl is taken to call serialize_key and
    serialize_value in turn, as serde's serialize_entry does (line 376 panics
    otherwise). *)
Fixpoint to_value (d : data) : option value :=
  let fields := map (fun e : list N * data =>
    option_map (fun v => (VString (fst e), v)) (to_value (snd e))) in
  match d with
  | DBool b => Some (VBool b)
  | DInt k z => int_value k z
  | DF32 n => Some (VF32 n) | DF64 n => Some (VF64 n)
  | DChar c => Some (VChar c) | DStr s => Some (VString s) | DBytes b => Some (VBytes b)
  | DNone => Some (VOption None)
  | DSome d => option_map (fun v => VOption (Some v)) (to_value d)
  | DUnit | DUnitStruct _ => Some VUnit
  | DNewtype n d => option_map (newtype_value n) (to_value d)
  | DSeq l => option_map VSeq (all (map to_value l))
  | DTuple _ l => option_map VSeq (all (map to_value l))
  | DMap m => option_map (fun m => VMap (insert_all m)) (all (map (fun e =>
      match to_value (fst e), to_value (snd e) with
      | Some k, Some v => Some (k, v) | _, _ => None
      end) m))
  | DStruct _ fs => option_map (fun m => VMap (insert_all m)) (all (fields fs))
  | DUnitVar _ v => Some (VString v)
  | DNewtypeVar _ v d => option_map (fun x => VMap [(VString v, x)]) (to_value d)
  | DTupleVar _ v l => option_map (fun x => VMap [(VString v, VSeq x)]) (all (map to_value l))
  | DStructVar _ v fs =>
      option_map (fun m => VMap [(VString v, VMap (insert_all m))]) (all (fields fs))
  end.

(** core/cu29_log_derive/src/lib.rs:66-80, the parameter conversion of the
    logging macros: [to_value(..).expect(..)]. *)
Definition log_param (d : data) : outcome value :=
  match to_value d with Some v => Ret v | None => Panic end.

(** What a deserializer reports to the visitor of the wanted type: the visitor
    method called by core/cu29_value/src/de.rs:353-448 and its argument. A
    sub-deserializer is the value it holds. *)
Inductive event :=
| EvBool (b : bool)
| EvInt (k : int_kind) (z : Z)
| EvF32 (bits : N) | EvF64 (bits : N)
| EvChar (c : N) | EvString (s : list N) | EvByteBuf (b : list N)
| EvUnit | EvNone | EvSome (v : value)
| EvNewtype (v : value)
| EvSeq (l : list value)
| EvMap (m : list (value * value)).

(** core/cu29_value/src/de.rs:353-385 (deserialize_any). *)
Definition deserialize_any (v : value) : event :=
  match v with
  | VBool b => EvBool b
  | VU8 n => EvInt U8 (Z.of_N n) | VU16 n => EvInt U16 (Z.of_N n)
  | VU32 n => EvInt U32 (Z.of_N n) | VU64 n => EvInt U64 (Z.of_N n)
  | VI8 z => EvInt I8 z | VI16 z => EvInt I16 z | VI32 z => EvInt I32 z | VI64 z => EvInt I64 z
  | VF32 n => EvF32 n | VF64 n => EvF64 n
  | VChar c => EvChar c
  | VString s => EvString s
  | VUnit => EvUnit
  | VOption None => EvNone
  | VOption (Some v) => EvSome v
  | VNewtype v => EvNewtype v
  | VSeq l => EvSeq l
  | VMap m => EvMap m
  | VBytes b => EvByteBuf b
  | VCuTime t => EvInt U64 (Z.of_N t)
  end.

(** core/cu29_value/src/de.rs:387-393 (deserialize_option). *)
Definition deserialize_option (v : value) : event :=
  match v with
  | VOption _ => deserialize_any v
  | VUnit => EvUnit
  | _ => EvSome v
  end.

(** core/cu29_value/src/de.rs:439-448 (deserialize_newtype_struct). *)
Definition deserialize_newtype (v : value) : event :=
  match v with
  | VNewtype v => EvNewtype v
  | v => EvNewtype v
  end.

(** core/cu29_value/src/de.rs:395-437 (deserialize_enum): the variant's
    identifier and its content; [None] is an error. *)
Definition deserialize_enum (v : value) : option (value * option value) :=
  match v with
  | VMap [(variant, content)] => Some (variant, Some content)
  | VMap _ => None
  | VString s => Some (VString s, None)
  | _ => None
  end.

(** The types a user derives Serialize and Deserialize for, as the methods of
    core/cu29_value/src/de.rs:347-455 see them: what serde's std impls and its
    derive macro ask the deserializer for. Types are finite trees (a recursive
    type is covered to any finite depth). Container and field attributes
    (rename apart, which only changes names) are not modelled. *)
Inductive ty :=
| TBool | TInt (k : int_kind) | TF32 | TF64 | TChar | TString | TByteBuf
| TOption (t : ty)
| TUnit | TUnitStruct (name : list N)
| TNewtype (name : list N) (t : ty)
| TSeq (t : ty)
| TTuple (name : option (list N)) (ts : list ty)
| TMap (k v : ty)
| TStruct (name : list N) (fs : list (list N * ty))
| TEnum (name : list N) (vs : list (list N * shape))
with shape :=
| ShUnit | ShNewtype (t : ty) | ShTuple (ts : list ty) | ShStruct (fs : list (list N * ty)).

(** The casts of serde's float visitors (serde, external), which a value of
    another numeric kind goes through (core/cu29_value/src/de.rs:364-365 calls
    them). *)
Record casts := Casts {
  f32_of_int : Z -> N; f64_of_int : Z -> N; f32_of_f64 : N -> N; f64_of_f32 : N -> N }.

(** serde's std visitors for the numbers: every integer that the wanted type can
    hold is taken, any other refused (called from core/cu29_value/src/de.rs:356-363). *)
Definition int_fits (k : int_kind) (z : Z) : bool :=
  (match k with
   | I8 => (- 2 ^ 7 <=? z) && (z <? 2 ^ 7) | I16 => (- 2 ^ 15 <=? z) && (z <? 2 ^ 15)
   | I32 => (- 2 ^ 31 <=? z) && (z <? 2 ^ 31) | I64 => (- 2 ^ 63 <=? z) && (z <? 2 ^ 63)
   | I128 => (- 2 ^ 127 <=? z) && (z <? 2 ^ 127)
   | U8 => (0 <=? z) && (z <? 2 ^ 8) | U16 => (0 <=? z) && (z <? 2 ^ 16)
   | U32 => (0 <=? z) && (z <? 2 ^ 32) | U64 => (0 <=? z) && (z <? 2 ^ 64)
   | U128 => (0 <=? z) && (z <? 2 ^ 128)
   end)%Z.

(** Position of a name. Of the field and variant names that serde's derive
    compares with (asked for at core/cu29_value/src/de.rs:450-454, identifier). *)
Fixpoint position (s : list N) (names : list (list N)) : option nat :=
  match names with
  | [] => None
  | n :: names => if list_eq_dec N.eq_dec s n then Some O
                  else option_map S (position s names)
  end.

(** serde derive's identifier visitor on the event of
    core/cu29_value/src/de.rs:353-385: an unsigned number is a position, text a
    name (a char is text of that char, bytes are compared with the name's
    UTF-8). [None]: refused, [Some None]: an unknown name. *)
Definition identifier (names : list (list N)) (e : event) : option (option nat) :=
  match e with
  | EvInt (U8 | U16 | U32 | U64) z =>
      Some (if (z <? Z.of_nat (length names))%Z then Some (Z.to_nat z) else None)
  | EvString s => Some (position s names)
  | EvChar c => Some (position [c] names)
  | EvByteBuf b => Some (position b (map (flat_map enc_char) names))
  | _ => None
  end.

(** The entry a struct field is read from. serde derive's visit_map takes
    the entries one by one, refuses a second entry for the same field, and
    reads a missing field of Option type as None; unknown names are skipped
    (their values accept any content). [Some None]: missing. Called from
    core/cu29_value/src/de.rs:375-378. *)
Definition field_entry (names : list (list N)) (i : nat) (m : list (value * value))
    : option (option value) :=
  match filter (fun e => match identifier names (deserialize_any (fst e)) with
                         | Some (Some j) => Nat.eqb i j | _ => false end) m with
  | [] => Some None
  | [(_, v)] => Some (Some v)
  | _ => None
  end.

(** serde derive: every key of the map is an identifier (core/cu29_value/src/de.rs:375-378). *)
Definition keys_ok (names : list (list N)) (m : list (value * value)) : bool :=
  forallb (fun e => match identifier names (deserialize_any (fst e)) with
                    | Some _ => true | None => false end) m.

Section With.
Variable f : ty -> value -> option data.

(** Reading the elements of a tuple (serde's std and derived visit_seq, called
    from core/cu29_value/src/de.rs:372-374 and 568-571), [f] reading each: the
    elements and what is left of the sequence. *)
Fixpoint de_tuple (ts : list ty) (l : list value) : option (list data * list value) :=
  match ts, l with
  | [], l => Some ([], l)
  | _ :: _, [] => None
  | t :: ts, x :: l => match f t x, de_tuple ts l with
                       | Some d, Some (ds, r) => Some (d :: ds, r) | _, _ => None
                       end
  end.

(** Reading the fields of a struct from a map (derived visit_map, called from
    core/cu29_value/src/de.rs:375-378 and 592-598), from the field of position
    [i] on. *)
Fixpoint de_fields (names : list (list N)) (m : list (value * value)) (i : nat)
    (fs : list (list N * ty)) {struct fs} : option (list (list N * data)) :=
  match fs with
  | [] => Some []
  | (n, t) :: fs =>
      match match field_entry names i m with
            | None => None
            | Some (Some x) => f t x
            | Some None => match t with TOption _ => Some DNone | _ => None end
            end, de_fields names m (S i) fs with
      | Some d, Some ds => Some ((n, d) :: ds)
      | _, _ => None
      end
  end.

(** Reading the fields of a struct from a sequence (derived visit_seq, called
    from core/cu29_value/src/de.rs:372-374). *)
Fixpoint de_positional (fs : list (list N * ty)) (l : list value)
    : option (list (list N * data)) :=
  match fs, l with
  | [], _ => Some []
  | _ :: _, [] => None
  | (n, t) :: fs, x :: l => match f t x, de_positional fs l with
                            | Some d, Some ds => Some ((n, d) :: ds) | _, _ => None
                            end
  end.

(** Reading the content of the variant [name] of enum [n] of shape [sh]
    (core/cu29_value/src/de.rs:537-608, VariantDeserializer). The sequence of a
    tuple variant must be used up (SeqDeserializer::deserialize_any of serde,
    called at 568-571). *)
Definition de_variant (n name : list N) (sh : shape) (content : option value) : option data :=
  match sh, content with
  | ShUnit, None => Some (DUnitVar n name)
  | ShUnit, Some x => match deserialize_any x with EvUnit => Some (DUnitVar n name) | _ => None end
  | ShNewtype t, Some x => option_map (DNewtypeVar n name) (f t x)
  | ShTuple ts, Some (VSeq l) =>
      match de_tuple ts l with
      | Some (ds, []) => Some (DTupleVar n name ds)
      | _ => None
      end
  | ShStruct fs, Some (VMap m) =>
      if keys_ok (map fst fs) m
      then option_map (DStructVar n name) (de_fields (map fst fs) m 0 fs)
      else None
  | _, _ => None
  end.

(** The variant at position [i] (core/cu29_value/src/de.rs:509-530 hands it to
    the derived visit_enum). *)
Fixpoint de_nth (n : list N) (content : option value) (i : nat) (vs : list (list N * shape))
    {struct vs} : option data :=
  match vs, i with
  | [], _ => None
  | _ :: vs, S i => de_nth n content i vs
  | (name, sh) :: _, O => de_variant n name sh content
  end.
End With.

Section De.
Variable c : casts.

(** core/cu29_value/src/lib.rs:249-251 (deserialize_into): reading the value as
    one of type [t]. The calls of the Deserializer impl are those of
    core/cu29_value/src/de.rs:347-455, the enum ones of 509-608; the visitors are
    serde's std ones and those its derive macro writes. [None] is an error,
    whose kind is left out. A map gives the insertions it makes, in order. *)
Fixpoint de (t : ty) (v : value) {struct t} : option data :=
  match t with
  | TBool => match deserialize_any v with EvBool b => Some (DBool b) | _ => None end
  | TInt k =>
      match k with
      | I128 | U128 => None
      | _ => match deserialize_any v with
             | EvInt _ z => if int_fits k z then Some (DInt k z) else None
             | _ => None
             end
      end
  | TF32 => match deserialize_any v with
            | EvF32 n => Some (DF32 n) | EvF64 n => Some (DF32 (f32_of_f64 c n))
            | EvInt _ z => Some (DF32 (f32_of_int c z)) | _ => None
            end
  | TF64 => match deserialize_any v with
            | EvF64 n => Some (DF64 n) | EvF32 n => Some (DF64 (f64_of_f32 c n))
            | EvInt _ z => Some (DF64 (f64_of_int c z)) | _ => None
            end
  | TChar => match deserialize_any v with
             | EvChar x => Some (DChar x)
             | EvString [x] => Some (DChar x)
             | _ => None
             end
  | TString => match deserialize_any v with
               | EvString s => Some (DStr s)
               | EvChar x => Some (DStr [x])
               | EvByteBuf b => option_map DStr (utf8_chars (length b) b)
               | _ => None
               end
  | TByteBuf => match deserialize_any v with
                | EvByteBuf b => Some (DBytes b)
                | EvString s => Some (DBytes (flat_map enc_char s))
                | EvChar x => Some (DBytes (enc_char x))
                | EvSeq l =>
                    option_map DBytes (all (map (fun x =>
                      match deserialize_any x with
                      | EvInt _ z => if int_fits U8 z then Some (Z.to_N z) else None
                      | _ => None
                      end) l))
                | _ => None
                end
  | TOption t => match deserialize_option v with
                 | EvNone | EvUnit => Some DNone
                 | EvSome x => option_map DSome (de t x)
                 | _ => None
                 end
  | TUnit => match deserialize_any v with EvUnit => Some DUnit | _ => None end
  | TUnitStruct n => match deserialize_any v with EvUnit => Some (DUnitStruct n) | _ => None end
  | TNewtype n t => match deserialize_newtype v with
                    | EvNewtype x => option_map (DNewtype n) (de t x)
                    | _ => None
                    end
  | TSeq t => match deserialize_any v with
              | EvSeq l => option_map DSeq (all (map (de t) l))
              | _ => None
              end
  | TTuple n ts => match deserialize_any v with
                   | EvSeq l => match de_tuple de ts l with
                                | Some (ds, _) => Some (DTuple n ds)
                                | None => None
                                end
                   | _ => None
                   end
  | TMap k x => match deserialize_any v with
                | EvMap m => option_map DMap (all (map (fun e =>
                    match de k (fst e), de x (snd e) with
                    | Some a, Some b => Some (a, b) | _, _ => None
                    end) m))
                | _ => None
                end
  | TStruct n fs =>
      match deserialize_any v with
      | EvMap m => if keys_ok (map fst fs) m
                   then option_map (DStruct n) (de_fields de (map fst fs) m 0 fs) else None
      | EvSeq l => option_map (DStruct n) (de_positional de fs l)
      | _ => None
      end
  | TEnum n vs =>
      match deserialize_enum v with
      | Some (variant, content) =>
          match identifier (map fst vs) (deserialize_any variant) with
          | Some (Some i) => de_nth de n content i vs
          | _ => None
          end
      | None => None
      end
  end.
End De.

(** core/cu29_value/src/de.rs:315-319, Deserialize for Value, with the
    ValueVisitor at 207-313 on the events of deserialize_any at 353-385: the
    value a value is read back as. *)
Fixpoint as_value (v : value) : value :=
  match v with
  | VCuTime t => VU64 t
  | VOption (Some v) => VOption (Some (as_value v))
  | VNewtype v => VNewtype (as_value v)
  | VSeq l => VSeq (map as_value l)
  | VMap m => VMap (insert_all (map (fun e => (as_value (fst e), as_value (snd e))) m))
  | v => v
  end.

(** core/cu29_value/src/ser.rs:33-71, Serialize for Value: what a value hands to
    a serializer. A Vec<u8> is a sequence of u8. *)
Fixpoint value_data (v : value) : data :=
  let wrap := fun d => DNewtype (lit "Value")
                (DTuple None [DInt U8 (Z.of_N (discriminant v)); d]) in
  match v with
  | VBool b => wrap (DBool b)
  | VU8 n => wrap (DInt U8 (Z.of_N n)) | VU16 n => wrap (DInt U16 (Z.of_N n))
  | VU32 n => wrap (DInt U32 (Z.of_N n)) | VU64 n => wrap (DInt U64 (Z.of_N n))
  | VI8 z => wrap (DInt I8 z) | VI16 z => wrap (DInt I16 z)
  | VI32 z => wrap (DInt I32 z) | VI64 z => wrap (DInt I64 z)
  | VF32 n => wrap (DF32 n) | VF64 n => wrap (DF64 n)
  | VChar x => wrap (DChar x)
  | VString s => wrap (DStr s)
  | VBytes b => wrap (DSeq (map (fun x => DInt U8 (Z.of_N x)) b))
  | VUnit => wrap DUnit
  | VOption None => wrap DUnit
  | VOption (Some v) => wrap (value_data v)
  | VNewtype v => wrap (value_data v)
  | VSeq l => DSeq (map value_data l)
  | VMap m => DMap (map (fun e => (value_data (fst e), value_data (snd e))) m)
  | VCuTime t => wrap (DNewtype (lit "CuDuration") (DInt U64 (Z.of_N t)))
  end.

(** core/cu29_value/src/lib.rs:139-165 (PartialEq::eq); OrderedFloat compares as
    in [cmp_value]; Option, Vec and BTreeMap compare element by element. *)
Fixpoint eq_value (v w : value) {struct v} : bool :=
  match v, w with
  | VBool a, VBool b => Bool.eqb a b
  | VU8 a, VU8 b => a =? b | VU16 a, VU16 b => a =? b
  | VU32 a, VU32 b => a =? b | VU64 a, VU64 b => a =? b
  | VI8 a, VI8 b => (a =? b)%Z | VI16 a, VI16 b => (a =? b)%Z
  | VI32 a, VI32 b => (a =? b)%Z | VI64 a, VI64 b => (a =? b)%Z
  | VF32 a, VF32 b => (f32_key a =? f32_key b)%Z
  | VF64 a, VF64 b => (f64_key a =? f64_key b)%Z
  | VChar a, VChar b => a =? b
  | VString a, VString b => if list_eq_dec N.eq_dec a b then true else false
  | VUnit, VUnit => true
  | VOption None, VOption None => true
  | VOption (Some a), VOption (Some b) => eq_value a b
  | VNewtype a, VNewtype b => eq_value a b
  | VSeq a, VSeq b =>
      (fix go (l l' : list value) {struct l} : bool :=
         match l, l' with
         | [], [] => true
         | x :: l, y :: l' => eq_value x y && go l l'
         | _, _ => false
         end) a b
  | VMap a, VMap b =>
      (fix go (l l' : list (value * value)) {struct l} : bool :=
         match l, l' with
         | [], [] => true
         | (k, x) :: l, (k', y) :: l' => eq_value k k' && eq_value x y && go l l'
         | _, _ => false
         end) a b
  | VBytes a, VBytes b => if list_eq_dec N.eq_dec a b then true else false
  | VCuTime a, VCuTime b => a =? b
  | _, _ => false
  end.

(** What is fed to a hasher at core/cu29_value/src/lib.rs:105-137: a number (std
    feeds an integer's bytes; which of the widths is told by what was fed before), or
    the bytes of a text. *)
Inductive fed := FInt (z : Z) | FStr (s : list N).

(** core/cu29_value/src/lib.rs:105-137 (Hash::hash). std: an Option feeds its
    discriminant, a Vec and a BTreeMap their length. OrderedFloat feeds the same
    for all NaN and for both zeros, its number otherwise. *)
Fixpoint hash_value (v : value) : list fed :=
  FInt (Z.of_N (discriminant v)) ::
  match v with
  | VBool b => [FInt (if b then 1 else 0)]
  | VU8 n => [FInt (Z.of_N n)] | VU16 n => [FInt (Z.of_N n)]
  | VU32 n => [FInt (Z.of_N n)] | VU64 n => [FInt (Z.of_N n)]
  | VI8 z => [FInt z] | VI16 z => [FInt z] | VI32 z => [FInt z] | VI64 z => [FInt z]
  | VF32 n => [FInt (f32_key n)] | VF64 n => [FInt (f64_key n)]
  | VChar c => [FInt (Z.of_N c)]
  | VString s => [FStr s]
  | VUnit => [FInt 0]
  | VOption None => [FInt 0]
  | VOption (Some v) => FInt 1 :: hash_value v
  | VNewtype v => hash_value v
  | VSeq l => FInt (Z.of_nat (length l)) :: flat_map hash_value l
  | VMap m => FInt (Z.of_nat (length m)) ::
              flat_map (fun e => hash_value (fst e) ++ hash_value (snd e)) m
  | VBytes b => FInt (Z.of_nat (length b)) :: map (fun x => FInt (Z.of_N x)) b
  | VCuTime t => [FInt (Z.of_N t)]
  end.

(** core/cu29_value/src/de.rs:81-91, DeserializerError. What was met (Unexpected,
    9-29) is its text: the conversions at 31-79 take each variant to the one of
    the same name. *)
Inductive de_error :=
| ECustom (msg : list N)
| EInvalidType (unexp exp : list N)
| EInvalidValue (unexp exp : list N)
| EInvalidLength (len : N) (exp : list N)
| EUnknownVariant (field : list N) (exp : list (list N))
| EUnknownField (field : list N) (exp : list (list N))
| EMissingField (field : list N)
| EDuplicateField (field : list N).

(** core/cu29_value/src/de.rs:127-148 (to_error, into_error) when the wanted error
    type is DeserializerError itself: the constructors it calls are those of
    93-125. *)
Definition to_error (e : de_error) : de_error :=
  match e with
  | ECustom m => ECustom m
  | EInvalidType u x => EInvalidType u x
  | EInvalidValue u x => EInvalidValue u x
  | EInvalidLength n x => EInvalidLength n x
  | EUnknownVariant f x => EUnknownVariant f x
  | EUnknownField f x => EUnknownField f x
  | EMissingField f => EMissingField f
  | EDuplicateField f => EMissingField f
  end.
