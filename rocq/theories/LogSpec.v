(** What text logging is required to do. *)
From Coq Require Import String List Arith NArith Bool.
From Verif Require Import Base BincodeModel CodecModel ValueModel LogModel.
Import ListNotations.
Local Open Scope list_scope.
Local Open Scope N_scope.

(** The placeholder "{}" occurs in a text. *)
Definition placeholder : txt := [123; 125].
Definition has_placeholder (s : txt) : Prop := exists a b, s = a ++ placeholder ++ b.
Definition brace_free (s : txt) : Prop := Forall (fun c => c <> 123 /\ c <> 125) s.

(** The pieces between placeholders, with the parameters put in their places; a
    placeholder without parameter stays, parameters without placeholder are dropped. *)
Fixpoint fill (pieces params : list txt) : txt :=
  match pieces with
  | [] => []
  | s :: [] => s
  | s :: t => match params with
              | [] => s ++ placeholder ++ fill t []
              | p :: ps => s ++ p ++ fill t ps
              end
  end.
(** A format string is its pieces around placeholders. *)
Definition pieces_of (fmt : txt) (pieces : list txt) : Prop :=
  pieces <> [] /\ Forall (fun s => ~ has_placeholder s) pieces /\ fmt = fill pieces [].
(** Parameters that cannot be taken for placeholders, even together with the format
    string around them. *)
Definition harmless (pieces params : list txt) : Prop :=
  Forall brace_free params /\ (Forall (fun p => p <> []) params \/ Forall brace_free pieces).

(** Formatting of floats and times prints something, and no brace. *)
Definition calm_text (s : txt) : Prop := brace_free s /\ s <> [].
Definition calm_formats (X : formats) : Prop :=
  (forall b, calm_text (show_f32 X b)) /\ (forall b, calm_text (show_f64 X b)) /\ (forall t, calm_text (show_time X t)).
(** Values made of numbers, booleans, times and other characters than braces. *)
Inductive plain : value -> Prop :=
| pl_bool b : plain (VBool b)
| pl_u8 n : plain (VU8 n) | pl_u16 n : plain (VU16 n) | pl_u32 n : plain (VU32 n) | pl_u64 n : plain (VU64 n)
| pl_i8 z : plain (VI8 z) | pl_i16 z : plain (VI16 z) | pl_i32 z : plain (VI32 z) | pl_i64 z : plain (VI64 z)
| pl_f32 b : plain (VF32 b) | pl_f64 b : plain (VF64 b)
| pl_char c : c <> 123 /\ c <> 125 -> plain (VChar c)
| pl_unit : plain VUnit
| pl_none : plain (VOption None)
| pl_some v : plain v -> plain (VOption (Some v))
| pl_newtype v : plain v -> plain (VNewtype v)
| pl_seq l : Forall plain l -> plain (VSeq l)
| pl_bytes l : Forall (fun b => b < 256) l -> plain (VBytes l)
| pl_time t : plain (VCuTime t).

(** The format string and the parameter names of a call have indices other than the
    one of unnamed parameters, and the table gives them back. *)
Definition known (intern : txt -> N) (strings : list txt) (fmt : txt) (args : list arg) : Prop :=
  intern fmt <> 0 /\ nth_error strings (N.to_nat (intern fmt)) = Some fmt /\
  forall n v, In (Named n v) args -> intern n <> 0 /\ nth_error strings (N.to_nat (intern n)) = Some n.
(** A map giving each name of the call the text of its value, and nothing else. *)
Definition own_value (X : formats) (args : list arg) (f : txt -> option txt) : Prop :=
  (forall n v, In (Named n v) args -> f n = Some (show X v)) /\
  (forall n, (forall v, ~ In (Named n v) args) -> f n = None).

(** ** Interning: requests of any number of processes (compilations), each of which
    looks a string up and, if it is missing, stores it in a second transaction. *)
Inductive act := Look (p : nat) (s : txt) | Store (p : nat).
Record world := World { w_st : stores; w_wait : list (nat * txt); w_answers : list (txt * N) }.
Fixpoint waiting (l : list (nat * txt)) (p : nat) : option txt :=
  match l with [] => None | (q, s) :: l => if Nat.eqb p q then Some s else waiting l p end.
(** A process that panics gets no answer. *)
Definition wstep (storable : txt -> bool) (mode : ovf_mode) (w : world) (a : act) : world :=
  match a with
  | Look p s => match intern_lookup (w_st w) s with
                | Some i => World (w_st w) (w_wait w) (w_answers w ++ [(s, i)])
                | None => World (w_st w) ((p, s) :: w_wait w) (w_answers w)
                end
  | Store p => match waiting (w_wait w) p with
               | None => w
               | Some s => match intern_insert storable mode (w_st w) s with
                           | Panic => w
                           | Ret (st, i) => World st (w_wait w) (w_answers w ++ [(s, i)])
                           end
               end
  end.
Definition whistory (storable : txt -> bool) (mode : ovf_mode) (acts : list act) : world :=
  fold_left (wstep storable mode) acts (World no_strings [] []).

(** One request after the other. *)
Fixpoint requests (storable : txt -> bool) (mode : ovf_mode) (st : stores) (l : list txt) : stores * list (txt * N) :=
  match l with
  | [] => (st, [])
  | s :: l => match intern_string storable mode st s with
              | Panic => requests storable mode st l
              | Ret (st, i) => let (st, ans) := requests storable mode st l in (st, (s, i) :: ans)
              end
  end.
