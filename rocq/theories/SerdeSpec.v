(** What is required of logged parameters: which data belongs to a type, and when
    two of them are the same. *)
From Coq Require Import List Arith NArith ZArith Bool Permutation Sorted.
From Verif Require Import BincodeSpec CodecSpec ValueModel SerdeModel.
Import ListNotations.
Open Scope N_scope.

(** The same data: a map has no order, everything else does. *)
Inductive same : data -> data -> Prop :=
| same_refl d : same d d
| same_some a b : same a b -> same (DSome a) (DSome b)
| same_newtype n a b : same a b -> same (DNewtype n a) (DNewtype n b)
| same_newtypevar n v a b : same a b -> same (DNewtypeVar n v a) (DNewtypeVar n v b)
| same_seq l l' : Forall2 same l l' -> same (DSeq l) (DSeq l')
| same_tuple n l l' : Forall2 same l l' -> same (DTuple n l) (DTuple n l')
| same_tuplevar n v l l' : Forall2 same l l' -> same (DTupleVar n v l) (DTupleVar n v l')
| same_map m p m' : Permutation m p ->
    Forall2 (fun e f => same (fst e) (fst f) /\ same (snd e) (snd f)) p m' ->
    same (DMap m) (DMap m')
| same_struct n l l' : Forall2 (fun e f => fst e = fst f /\ same (snd e) (snd f)) l l' ->
    same (DStruct n l) (DStruct n l')
| same_structvar n v l l' : Forall2 (fun e f => fst e = fst f /\ same (snd e) (snd f)) l l' ->
    same (DStructVar n v l) (DStructVar n v l').

(** The integers of a type. *)
Definition int_range (k : int_kind) (z : Z) : Prop :=
  match k with
  | I8 => sbits 8 z | I16 => sbits 16 z | I32 => sbits 32 z | I64 => sbits 64 z
  | I128 => sbits 128 z
  | U8 => (0 <= z < 2 ^ 8)%Z | U16 => (0 <= z < 2 ^ 16)%Z | U32 => (0 <= z < 2 ^ 32)%Z
  | U64 => (0 <= z < 2 ^ 64)%Z | U128 => (0 <= z < 2 ^ 128)%Z
  end.

(** No float inside (f32 and f64 are not Eq, so no std map has them as keys). *)
Fixpoint no_float (d : data) : bool :=
  match d with
  | DF32 _ | DF64 _ => false
  | DSome d | DNewtype _ d | DNewtypeVar _ _ d => no_float d
  | DSeq l | DTuple _ l | DTupleVar _ _ l => forallb no_float l
  | DMap m => forallb (fun e => no_float (fst e) && no_float (snd e)) m
  | DStruct _ fs | DStructVar _ _ fs => forallb (fun e => no_float (snd e)) fs
  | _ => true
  end.

(** A 128 bit integer inside. *)
Fixpoint wide (d : data) : bool :=
  match d with
  | DInt I128 _ | DInt U128 _ => true
  | DSome d | DNewtype _ d | DNewtypeVar _ _ d => wide d
  | DSeq l | DTuple _ l | DTupleVar _ _ l => existsb wide l
  | DMap m => existsb (fun e => wide (fst e) || wide (snd e)) m
  | DStruct _ fs | DStructVar _ _ fs => existsb (fun e => wide (snd e)) fs
  | _ => false
  end.

Definition fits {A} (l : list A) : Prop := ubits 64 (N.of_nat (length l)).

(** The data a value of a type consists of. Rust's own rules: names of fields and
    variants are distinct, a map has every key once. *)
Inductive has_type : ty -> data -> Prop :=
| ht_bool b : has_type TBool (DBool b)
| ht_int k z : int_range k z -> has_type (TInt k) (DInt k z)
| ht_f32 n : ubits 32 n -> has_type TF32 (DF32 n)
| ht_f64 n : ubits 64 n -> has_type TF64 (DF64 n)
| ht_char c : scalar c -> has_type TChar (DChar c)
| ht_string s : text s -> has_type TString (DStr s)
| ht_bytes b : Forall (ubits 8) b -> fits b -> has_type TByteBuf (DBytes b)
| ht_none t : has_type (TOption t) DNone
| ht_some t d : has_type t d -> has_type (TOption t) (DSome d)
| ht_unit : has_type TUnit DUnit
| ht_unitstruct n : has_type (TUnitStruct n) (DUnitStruct n)
| ht_newtype n t d : has_type t d -> has_type (TNewtype n t) (DNewtype n d)
| ht_seq t l : Forall (has_type t) l -> fits l -> has_type (TSeq t) (DSeq l)
| ht_tuple n ts l : Forall2 has_type ts l -> fits l -> has_type (TTuple n ts) (DTuple n l)
| ht_map k x m : Forall (fun e => has_type k (fst e)) m -> Forall (fun e => has_type x (snd e)) m ->
    Forall (fun e => no_float (fst e) = true) m ->
    ForallOrdPairs (fun e f => ~ same (fst e) (fst f)) m -> fits m ->
    has_type (TMap k x) (DMap m)
| ht_struct n fs ds : Forall2 (fun f d => fst f = fst d /\ has_type (snd f) (snd d)) fs ds ->
    NoDup (map fst fs) -> Forall text (map fst fs) -> fits fs ->
    has_type (TStruct n fs) (DStruct n ds)
| ht_unitvar n vs v : In (v, ShUnit) vs -> NoDup (map fst vs) -> text v ->
    has_type (TEnum n vs) (DUnitVar n v)
| ht_newtypevar n vs v t d : In (v, ShNewtype t) vs -> NoDup (map fst vs) -> text v ->
    has_type t d -> has_type (TEnum n vs) (DNewtypeVar n v d)
| ht_tuplevar n vs v ts l : In (v, ShTuple ts) vs -> NoDup (map fst vs) -> text v ->
    Forall2 has_type ts l -> fits l -> has_type (TEnum n vs) (DTupleVar n v l)
| ht_structvar n vs v fs ds : In (v, ShStruct fs) vs -> NoDup (map fst vs) -> text v ->
    Forall2 (fun f d => fst f = fst d /\ has_type (snd f) (snd d)) fs ds ->
    NoDup (map fst fs) -> Forall text (map fst fs) -> fits fs ->
    has_type (TEnum n vs) (DStructVar n v ds).

(** A time inside a value. *)
Fixpoint has_time (v : value) : bool :=
  match v with
  | VCuTime _ => true
  | VOption (Some v) | VNewtype v => has_time v
  | VSeq l => existsb has_time l
  | VMap m => existsb (fun e => has_time (fst e) || has_time (snd e)) m
  | _ => false
  end.
