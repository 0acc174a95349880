(** The Python view of a log: the iterator over its entries and the conversion of the
    values they carry. *)
From Coq Require Import List Arith NArith ZArith Bool SpecFloat.
From Verif Require Import Base BincodeModel CodecModel ValueModel FloatModel.
Import ListNotations.
Local Open Scope N_scope.

(** What Python gets from one call of the iterator (core/cu29_export/src/lib.rs:176-192):
    an entry, the end of the iteration, or an exception; with what is left to read. *)
Inductive stepped := Item (e : log_entry) (rest : bytes) | Stopped (rest : bytes) | Raised.

(** core/cu29_export/src/lib.rs:176-192 (__next__) on the bytes the reader still has.
    [cut b] says whether bincode's error on [b] is that the data ended (the two arms of
    lines 185-190) and not that it is malformed (line 191): the decoders of this model
    do not tell the two apart, so it is a parameter. *)
Definition py_next (cut : bytes -> bool) (b : bytes) : stepped :=
  match dec_entry b with
  | Some (e, rest) => if le_msg e =? 0 then Stopped rest else Item e rest
  | None => if cut b then Stopped [] else Raised
  end.

(** How a loop over the iterator ends: by itself, by an exception, or (never, see the
    theorems) by lack of fuel. *)
Inductive ending := Done | Exception | Starved.

(** A Python [for] over the iterator (core/cu29_export/src/lib.rs:172-192): the entries it
    sees and how it ends. One unit of fuel per entry. *)
Fixpoint py_for (cut : bytes -> bool) (fuel : nat) (b : bytes) : list log_entry * ending :=
  match fuel with
  | O => ([], Starved)
  | S fuel =>
      match py_next cut b with
      | Item e rest => let (l, x) := py_for cut fuel rest in (e :: l, x)
      | Stopped _ => ([], Done)
      | Raised => ([], Exception)
      end
  end.
(** The same with enough fuel (core/cu29_export/src/lib.rs:172-192): an entry takes at
    least a byte. *)
Definition py_loop (cut : bytes -> bool) (b : bytes) : list log_entry * ending :=
  py_for cut (S (length b)) b.

(** The Python objects core/cu29_export/src/lib.rs:282-326 builds. An int is unbounded, a
    str the list of its code points, a float the number it holds (a Python float is a
    binary64; an f32 becomes one without rounding; the payload of a NaN is dropped), a
    dict its entries in insertion order. *)
Inductive pyobj :=
| PyNone | PyBool (b : bool) | PyInt (z : Z) | PyFloat (f : spec_float)
| PyStr (s : list N) | PyBytes (b : list N) | PyList (l : list pyobj)
| PyDict (d : list (pyobj * pyobj)).

(** The f64 of a bit pattern (core/cu29_export/src/lib.rs:287). *)
Definition of_bits64 (b : N) : spec_float :=
  let b := Z.of_N b in
  (let s := Z.testbit b 63 in
   let e := (b / 2 ^ 52) mod 2048 in
   let m := b mod 2 ^ 52 in
   if e =? 2047 then (if m =? 0 then S754_infinity s else S754_nan)
   else if e =? 0 then (match m with Zpos p => S754_finite s p (-1074) | _ => S754_zero s end)
   else (match m + 2 ^ 52 with Zpos p => S754_finite s p (e - 1075) | _ => S754_nan end))%Z.

(** Whether Python accepts an object as a key (PyDict::set_item,
    core/cu29_export/src/lib.rs:301): lists and dicts are not hashable. *)
Definition hashable (p : pyobj) : bool :=
  match p with PyList _ | PyDict _ => false | _ => true end.

(** The number a bool, an int or a finite float is, as mantissa and exponent
    (Python's comparison of keys, under core/cu29_export/src/lib.rs:301). *)
Definition number (p : pyobj) : option (Z * Z) :=
  match p with
  | PyBool b => Some (if b then 1 else 0, 0)%Z
  | PyInt z => Some (z, 0%Z)
  | PyFloat (S754_zero _) => Some (0, 0)%Z
  | PyFloat (S754_finite s m e) => Some (if s then Zneg m else Zpos m, e)
  | _ => None
  end.

(** Python's [==] of two hashable objects made apart from each other (under
    core/cu29_export/src/lib.rs:301): numbers by value whatever their type, a NaN is equal
    to nothing. *)
Definition py_eq (p q : pyobj) : bool :=
  match number p, number q with
  | Some (m, e), Some (m', e') =>
      let k := Z.min e e' in (m * 2 ^ (e - k) =? m' * 2 ^ (e' - k))%Z
  | _, _ =>
      match p, q with
      | PyNone, PyNone => true
      | PyFloat (S754_infinity s), PyFloat (S754_infinity s') => Bool.eqb s s'
      | PyStr s, PyStr s' | PyBytes s, PyBytes s' =>
          if list_eq_dec N.eq_dec s s' then true else false
      | _, _ => false
      end
  end.

(** PyDict::set_item for a hashable key (core/cu29_export/src/lib.rs:301): the value of an
    equal key is replaced, otherwise an entry is added. *)
Fixpoint set_item (k v : pyobj) (d : list (pyobj * pyobj)) : list (pyobj * pyobj) :=
  match d with
  | [] => [(k, v)]
  | (k', v') :: d => if py_eq k' k then (k', v) :: d else (k', v') :: set_item k v d
  end.

(** core/cu29_export/src/lib.rs:282-326 (value_to_py). The loop of lines 300-302 panics on
    a key that is not hashable. pyo3's conversions of integers, floats, texts and bytes
    (to bytes) do not fail. Running out of stack on deep values is not modelled. *)
Fixpoint value_to_py (v : value) : outcome pyobj :=
  match v with
  | VString s => Ret (PyStr s)
  | VU8 n | VU16 n | VU32 n | VU64 n => Ret (PyInt (Z.of_N n))
  | VI8 z | VI16 z | VI32 z | VI64 z => Ret (PyInt z)
  | VF64 b => Ret (PyFloat (of_bits64 b))
  | VF32 b => Ret (PyFloat (of_bits b))
  | VBool b => Ret (PyBool b)
  | VCuTime t => Ret (PyInt (Z.of_N t))
  | VBytes b => Ret (PyBytes b)
  | VChar c => Ret (PyStr [c])
  | VMap m =>
      let! d :=
        (fix fill (m : list (value * value)) (d : list (pyobj * pyobj)) :=
           match m with
           | [] => Ret d
           | (k, v) :: m =>
               let! pk := value_to_py k in
               let! pv := value_to_py v in
               if hashable pk then fill m (set_item pk pv d) else Panic
           end) m []
      in Ret (PyDict d)
  | VOption None => Ret PyNone
  | VOption (Some v) => value_to_py v
  | VUnit => Ret PyNone
  | VNewtype v => value_to_py v
  | VSeq l =>
      let! l :=
        (fix conv (l : list value) :=
           match l with
           | [] => Ret []
           | v :: l => let! p := value_to_py v in let! r := conv l in Ret (p :: r)
           end) l
      in Ret (PyList l)
  end.

(** core/cu29_export/src/lib.rs:266-269 (params of a log entry). *)
Fixpoint py_params (l : list value) : outcome (list pyobj) :=
  match l with
  | [] => Ret []
  | v :: l => let! p := value_to_py v in let! r := py_params l in Ret (p :: r)
  end.
