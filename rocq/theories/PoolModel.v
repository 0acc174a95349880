(** Host memory pools and handles (core/cu29_runtime/src/pool.rs). Every operation is
    one atomic step: the pool and the handles are protected by mutexes and reference
    counts. CUDA pools are modelled in DeviceModel.v; not modelled is replacing a whole CuHandleInner through
    with_inner_mut. *)
From Coq Require Import List Arith Bool.
From Verif Require Import Base.
Import ListNotations.
Local Open Scope nat_scope.

Section Pool.
Context {A : Type}.

(** One allocation of core/cu29_runtime/src/pool.rs:132 (CuHandle, an
    Arc<Mutex<CuHandleInner>>): the number of clones, the buffer, whether it belongs to
    the pool (pool.rs:92-95), whether the mutex is poisoned. *)
Record arc := Arc { a_count : nat; a_cell : nat; a_pooled : bool; a_poisoned : bool }.

(** The pool (core/cu29_runtime/src/pool.rs:215-222) and its users: the contents of all
    buffers, those of the pool first, the free buffers in the order in which the
    object_pool crate hands them out (last one returned first), the allocations in order
    of creation. *)
Record state := State { st_size : nat; st_cells : list (list A); st_free : list nat; st_arcs : list arc }.

(** core/cu29_runtime/src/pool.rs:225-244 (new); the contents come from the initializer.
    With no buffer [try_pull().unwrap()] panics. *)
Definition pool_new (size : nat) (init : nat -> list A) : outcome state :=
  match size with
  | O => Panic
  | _ => Ret (State size (map init (seq 0 size)) (rev (seq 0 size)) [])
  end.
(** core/cu29_runtime/src/pool.rs:251-253 (space_left). *)
Definition space_left (st : state) : nat := length (st_free st).
(** core/cu29_runtime/src/pool.rs:255-257 (total_size). *)
Definition total_size (st : state) : nat := st_size st.

(** What a program can do with handles (core/cu29_runtime/src/pool.rs:131-190, 260-295); a
    handle is known by its allocation. *)
Inductive op :=
| Acquire                                   (* pool.acquire() *)
| Detached (c : list A)                     (* CuHandle::new_detached, or decoding *)
| Clone (a : nat)
| Drop (a : nat)
| Read (a : nat)                            (* with_inner *)
| Write (a : nat) (c : list A) (fails : bool)   (* with_inner_mut, whose closure may panic *)
| CopyFrom (a : nat).                       (* pool.copy_from(&mut handle) *)
(** Results of the operations of core/cu29_runtime/src/pool.rs:131-190, 260-295: a new
    handle, nothing available, contents, nothing, a panic. *)
Inductive out := Handle (a : nat) | NoBuffer | Contents (c : list A) | Done | Panicked.

(** A handle (core/cu29_runtime/src/pool.rs:132) can be used while a clone is alive
    (ownership, checked by the compiler). *)
Definition usable (st : state) (a : nat) : option arc :=
  match nth_error (st_arcs st) a with
  | Some x => match a_count x with O => None | _ => Some x end
  | None => None
  end.
(** Update of core/cu29_runtime/src/pool.rs:132, one allocation. *)
Definition set_arc (st : state) (a : nat) (x : arc) : state :=
  State (st_size st) (st_cells st) (st_free st) (upd a x (st_arcs st)).

(** core/cu29_runtime/src/pool.rs:265-269 (acquire). *)
Definition acquire (st : state) : state * option nat :=
  match st_free st with
  | [] => (st, None)
  | b :: free => (State (st_size st) (st_cells st) free (st_arcs st ++ [Arc 1 b true false]),
                  Some (length (st_arcs st)))
  end.
(** Dropping a clone; with the last one the buffer goes back to the pool (object_pool's
    ReusableOwned, held at core/cu29_runtime/src/pool.rs:93). *)
Definition drop_handle (st : state) (a : nat) (x : arc) : state :=
  let st := set_arc st a (Arc (a_count x - 1) (a_cell x) (a_pooled x) (a_poisoned x)) in
  if (a_count x =? 1) && a_pooled x
  then State (st_size st) (st_cells st) (a_cell x :: st_free st) (st_arcs st)
  else st.
(** core/cu29_runtime/src/pool.rs:271-295 (copy_from). copy_from_slice panics when the
    lengths differ; the new handle is then dropped, the source's mutex poisoned. *)
Definition copy_from (st : state) (a : nat) (x : arc) : state * out :=
  match acquire st with
  | (st, None) => (st, Panicked)
  | (st, Some h) =>
      match nth_error (st_arcs st) h with
      | None => (st, Panicked)
      | Some y =>
          if a_poisoned x then (drop_handle st h y, Panicked)
          else match nth_error (st_cells st) (a_cell x), nth_error (st_cells st) (a_cell y) with
               | Some src, Some dst =>
                   if length src =? length dst
                   then (State (st_size st) (upd (a_cell y) src (st_cells st)) (st_free st) (st_arcs st), Handle h)
                   else (set_arc (drop_handle st h y) a (Arc (a_count x) (a_cell x) (a_pooled x) true), Panicked)
               | _, _ => (st, Panicked)
               end
      end
  end.

(** One operation: core/cu29_runtime/src/pool.rs:265-269, 145-147 and 184-189 (detached),
    derived Clone at 131, with_inner 150-153, with_inner_mut 156-159, 271-295. On a handle
    without live clone nothing happens (such programs do not compile). *)
Definition step (st : state) (x : op) : state * out :=
  match x with
  | Acquire => let (st, h) := acquire st in (st, match h with Some h => Handle h | None => NoBuffer end)
  | Detached c => (State (st_size st) (st_cells st ++ [c]) (st_free st) (st_arcs st ++ [Arc 1 (length (st_cells st)) false false]),
                   Handle (length (st_arcs st)))
  | Clone a => match usable st a with
               | None => (st, Done)
               | Some x => (set_arc st a (Arc (a_count x + 1) (a_cell x) (a_pooled x) (a_poisoned x)), Done)
               end
  | Drop a => match usable st a with None => (st, Done) | Some x => (drop_handle st a x, Done) end
  | Read a => match usable st a with
              | None => (st, Done)
              | Some x => if a_poisoned x then (st, Panicked)
                          else (st, match nth_error (st_cells st) (a_cell x) with Some c => Contents c | None => Panicked end)
              end
  | Write a c fails => match usable st a with
              | None => (st, Done)
              | Some x => if a_poisoned x then (st, Panicked)
                          else let st := State (st_size st) (upd (a_cell x) c (st_cells st)) (st_free st) (st_arcs st) in
                               if fails then (set_arc st a (Arc (a_count x) (a_cell x) (a_pooled x) true), Panicked)
                               else (st, Done)
              end
  | CopyFrom a => match usable st a with None => (st, Done) | Some x => copy_from st a x end
  end.
(** A program, from a pool as created at core/cu29_runtime/src/pool.rs:225-244: the final
    state and what each operation returned. *)
Fixpoint steps (st : state) (l : list op) : state * list out :=
  match l with
  | [] => (st, [])
  | x :: l => let (st, o) := step st x in let (st, os) := steps st l in (st, o :: os)
  end.
End Pool.
Arguments op : clear implicits. Arguments out : clear implicits. Arguments state : clear implicits.
