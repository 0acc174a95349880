(** A bounded list of records. *)
From Coq Require Import List Arith Bool NArith.
From Verif Require Import Base BincodeModel SoaModel.
Import ListNotations.
Local Open Scope nat_scope.

Section SoaSpec.
Context {V S : Type}.
(** A function with a state over a list, first element first. *)
Fixpoint map_state (f : S -> list V -> S * list V) (s : S) (l : list (list V)) : S * list (list V) :=
  match l with
  | [] => (s, [])
  | r :: l => let (s, r) := f s r in let (s, l) := map_state f s l in (s, r :: l)
  end.
Definition list_step (n : nat) (l : list (list V)) (o : op V S) : list (list V) * out V S :=
  match o with
  | Push r => if length l <? n then (l ++ [r], Unit) else (l, Panicked)
  | Pop => match rev l with [] => (l, NoRow) | r :: t => (rev t, Row r) end
  | Set_ i r => if i <? length l then (firstn i l ++ r :: skipn (i + 1) l, Unit) else (l, Panicked)
  | Get i => (l, match nth_error l i with Some r => Row r | None => Panicked end)
  | Apply s f => let (s, l) := map_state f s l in (l, After s)
  | Iter => (l, Rows l)
  | Len => (l, Count (length l))
  end.
Fixpoint list_steps (n : nat) (l : list (list V)) (os : list (op V S)) : list (list V) * list (out V S) :=
  match os with
  | [] => (l, [])
  | o :: os => let (l, r) := list_step n l o in let (l, rs) := list_steps n l os in (l, r :: rs)
  end.
(** Records have [k] fields; closures keep that number. *)
Definition typed (k : nat) (o : op V S) : Prop :=
  match o with
  | Push r | Set_ _ r => length r = k
  | Apply _ f => forall s r, length r = k -> length (snd (f s r)) = k
  | _ => True
  end.
(** The records of a container. *)
Definition rows (x : soa V) : list (option (list V)) := map (fun i => row i (s_cols x)) (seq 0 (s_len x)).
End SoaSpec.
