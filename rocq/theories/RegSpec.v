(** The pools and their use, by the history of a program alone. *)
From Coq Require Import List Arith NArith Bool Permutation.
From Verif Require Import Base PoolModel PoolSpec RegModel.
Import ListNotations.
Local Open Scope nat_scope.

Section RegSpec.
Context {A : Type}.
Definition past := list (event A * option (wout A)).
(** The pools made, in order: id, number of buffers, bytes of one buffer. *)
Definition made (h : past) : list (pid * nat * nat) :=
  flat_map (fun x => match x with
    | (Op (Create id size esize init), Some Created) => [(id, size, length (init (size - 1)) * esize)]
    | _ => [] end) h.
(** What was done with pool [k]. *)
Definition done (k : nat) (h : past) : history A :=
  flat_map (fun x => match x with (Op (Use j x), Some (Did o)) => if j =? k then [(x, o)] else [] | _ => [] end) h.
(** Pool [k] is the last one made with its id. *)
Definition newest (h : past) (id : pid) (k : nat) : Prop :=
  (exists n b, nth_error (made h) k = Some (id, n, b)) /\
  forall j n b, k < j -> nth_error (made h) j <> Some (id, n, b).
(** The order of a HashMap: every entry once. *)
Definition fair (e : event A) : Prop :=
  match e with Update ord _ => forall l, Permutation (ord l) l | Op _ => True end.
(** Runs from the start of a program, with their history. *)
Definition reaches (l : list (event A)) (h : past) (d : desk A) : Prop :=
  exists os, erun (world0, []) l = Ret (d, os) /\ h = combine l os.
End RegSpec.
Arguments past : clear implicits.

(** The bytes of all elements lie in the memory asked for, at addresses an element may have. *)
Definition sound (b : abuf) (esize ealign : N) : Prop :=
  forall i, (i < b_len b)%N ->
    (b_ptr b <= element b esize i)%N /\ (element b esize i + esize <= b_ptr b + l_size (b_layout b))%N /\
    (element b esize i mod ealign = 0)%N.
