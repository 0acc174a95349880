(** The structure of arrays generated by core/cu29_soa_derive/src/lib.rs. A record is the
    list of its fields, all of one type [V] that stands for the union of the field types.
    Not modelled: access to a whole column by the generated accessors (lib.rs:247-263) and
    writing the public field [len]. *)
From Coq Require Import List Arith NArith Bool.
From Verif Require Import Base BincodeModel CodecModel.
Import ListNotations.
Local Open Scope nat_scope.

Section Soa.
Context {V S : Type}.

(** core/cu29_soa_derive/src/lib.rs:181-184: the length in use and one array per field. *)
Record soa := Soa { s_len : nat; s_cols : list (list V) }.
(** core/cu29_soa_derive/src/lib.rs:187-192 (new). *)
Definition soa_new (n : nat) (default : list V) : soa := Soa 0 (map (fun d => repeat d n) default).
(** The assignments [self.field[i] = value.field] of core/cu29_soa_derive/src/lib.rs:204 and
    224, for every field. *)
Fixpoint put_row (i : nat) (r : list V) (cols : list (list V)) : list (list V) :=
  match r, cols with
  | v :: r, c :: cols => upd i v c :: put_row i r cols
  | _, _ => cols
  end.
(** The record built from [self.field[i]] for every field, core/cu29_soa_derive/src/lib.rs:216
    and 230; [None]: an index out of bounds. *)
Fixpoint row (i : nat) (cols : list (list V)) : option (list V) :=
  match cols with
  | [] => Some []
  | c :: cols => match nth_error c i, row i cols with Some v, Some r => Some (v :: r) | _, _ => None end
  end.
(** Results of the methods at core/cu29_soa_derive/src/lib.rs:187-248. *)
Inductive out := Row (r : list V) | NoRow | Unit | Rows (l : list (list V)) | Count (n : nat) | After (s : S) | Panicked.
(** Calls of the methods at core/cu29_soa_derive/src/lib.rs:194-248; the closure of [Apply]
    has a state [s]. *)
Inductive op :=
| Push (r : list V) | Pop | Set_ (i : nat) (r : list V) | Get (i : nat)
| Apply (s : S) (f : S -> list V -> S * list V) | Iter | Len.
(** core/cu29_soa_derive/src/lib.rs:202-209 (push). *)
Definition push (n : nat) (x : soa) (r : list V) : soa * out :=
  if s_len x <? n then (Soa (s_len x + 1) (put_row (s_len x) r (s_cols x)), Unit) else (x, Panicked).
(** core/cu29_soa_derive/src/lib.rs:211-220 (pop). *)
Definition pop (x : soa) : soa * out :=
  match s_len x with
  | O => (x, NoRow)
  | Datatypes.S l => (Soa l (s_cols x), match row l (s_cols x) with Some r => Row r | None => Panicked end)
  end.
(** core/cu29_soa_derive/src/lib.rs:222-225 (set). *)
Definition set (x : soa) (i : nat) (r : list V) : soa * out :=
  if i <? s_len x then (Soa (s_len x) (put_row i r (s_cols x)), Unit) else (x, Panicked).
(** core/cu29_soa_derive/src/lib.rs:227-232 (get). *)
Definition get (x : soa) (i : nat) : out :=
  if i <? s_len x then match row i (s_cols x) with Some r => Row r | None => Panicked end else Panicked.
(** core/cu29_soa_derive/src/lib.rs:234-245 (apply), from index [i], [k] turns. *)
Fixpoint apply_go (k i : nat) (s : S) (f : S -> list V -> S * list V) (cols : list (list V)) : list (list V) * out :=
  match k with
  | O => (cols, After s)
  | Datatypes.S k => match row i cols with
           | None => (cols, Panicked)
           | Some r => let (s, r) := f s r in apply_go k (i + 1) s f (put_row i r cols)
           end
  end.
(** core/cu29_soa_derive/src/lib.rs:140-168, 247-249 (iter): the iterator run to its end,
    from index [i], at most [k] turns. *)
Fixpoint iter_go (k i : nat) (x : soa) : option (list (list V)) :=
  match k with
  | O => Some []
  | Datatypes.S k => if i <? s_len x
           then match get x i, iter_go k (i + 1) x with Row r, Some l => Some (r :: l) | _, _ => None end
           else Some []
  end.
(** core/cu29_soa_derive/src/lib.rs:194-248, one call. *)
Definition step (n : nat) (x : soa) (o : op) : soa * out :=
  match o with
  | Push r => push n x r
  | Pop => pop x
  | Set_ i r => set x i r
  | Get i => (x, get x i)
  | Apply s f => let (c, r) := apply_go (s_len x) 0 s f (s_cols x) in (Soa (s_len x) c, r)
  | Iter => (x, match iter_go (s_len x + 1) 0 x with Some l => Rows l | None => Panicked end)
  | Len => (x, Count (s_len x))
  end.
(** Calls in order (core/cu29_soa_derive/src/lib.rs:187-248). *)
Fixpoint steps (n : nat) (x : soa) (l : list op) : soa * list out :=
  match l with
  | [] => (x, [])
  | o :: l => let (x, r) := step n x o in let (x, rs) := steps n x l in (x, r :: rs)
  end.

(** The encoding and decoding of a field type (core/cu29_soa_derive/src/lib.rs:274, 285) and
    its default (294). *)
Record codec := Codec { c_enc : V -> bytes; c_dec : decoder V; c_default : V }.
(** core/cu29_soa_derive/src/lib.rs:274 (encode, the fields). A slice is encoded with its
    length; [..len] is in bounds for a container made by the methods above. *)
Fixpoint enc_cols (len : nat) (cs : list codec) (cols : list (list V)) : bytes :=
  match cs, cols with
  | c :: cs, col :: cols => enc_vec (c_enc c) (firstn len col) ++ enc_cols len cs cols
  | _, _ => []
  end.
(** core/cu29_soa_derive/src/lib.rs:271-277 (encode). *)
Definition enc_soa (cs : list codec) (x : soa) : bytes :=
  enc_u64 (N.of_nat (s_len x)) ++ enc_cols (s_len x) cs (s_cols x).
(** The inner loop of core/cu29_soa_derive/src/lib.rs:284-286: [k] turns from index [i]; the
    element is decoded first, then stored; an index out of bounds panics. *)
Fixpoint dec_col (c : codec) (k : nat) (i : nat) (col : list V) (b : bytes) : dec_outcome (list V) :=
  match k with
  | O => DOk col b
  | Datatypes.S k => match c_dec c b with
           | None => DErr
           | Some (v, b) => if i <? length col then dec_col c k (i + 1) (upd i v col) b else DPanic
           end
  end.
(** The outer loop of core/cu29_soa_derive/src/lib.rs:283-287. *)
Fixpoint dec_cols (n len : nat) (cs : list codec) (b : bytes) : dec_outcome (list (list V)) :=
  match cs with
  | [] => DOk [] b
  | c :: cs => match dec_col c len 0 (repeat (c_default c) n) b with
               | DErr => DErr
               | DPanic => DPanic
               | DOk col b => match dec_cols n len cs b with
                              | DOk cols b => DOk (col :: cols) b
                              | DErr => DErr
                              | DPanic => DPanic
                              end
               end
  end.
(** core/cu29_soa_derive/src/lib.rs:279-290 (decode). *)
Definition dec_soa (n : nat) (cs : list codec) (b : bytes) : dec_outcome soa :=
  match dec_u64 b with
  | None => DErr
  | Some (len, b) => match dec_cols n (N.to_nat len) cs b with
                     | DOk cols b => DOk (Soa (N.to_nat len) cols) b
                     | DErr => DErr
                     | DPanic => DPanic
                     end
  end.
End Soa.
Arguments soa : clear implicits. Arguments op : clear implicits. Arguments out : clear implicits. Arguments codec : clear implicits.
