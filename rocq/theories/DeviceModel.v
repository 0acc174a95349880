(** Device memory pools (core/cu29_runtime/src/pool.rs:300-537, with the feature cuda) beside a host pool.
    Every operation is one atomic step, as in PoolModel. The copies of the cudarc crate wait for the stream
    (SyncOnDrop::sync_stream at 361, 386, 393), so they are done when they return; they are taken to assert
    that the destination is at least as long as the source, to copy the source to its beginning and not to
    fail otherwise. A failing allocation and a name too long for a PoolID, for which [new] returns an error,
    are left out. *)
From Coq Require Import List Arith Bool.
From Verif Require Import Base PoolModel.
Import ListNotations.
Local Open Scope nat_scope.

Section Device.
Context {A : Type}.

(** A host pool (core/cu29_runtime/src/pool.rs:215-222) and a device pool (419-428), each with its users. *)
Record gpu := Gpu { g_host : state A; g_dev : state A }.

(** core/cu29_runtime/src/pool.rs:432-455 (CuCudaPool::new): buffers of [len] zeros. No buffer is taken
    out here, so that there may be none. *)
Definition dev_new (zero : A) (size len : nat) : state A :=
  State size (repeat (repeat zero len) size) (rev (seq 0 size)) [].
(** core/cu29_runtime/src/pool.rs:474-476 (buffer_size), [esize] the size of an element. *)
Definition dev_buffer_size (len esize : nat) : nat := len * esize.

(** What memcpy_htod and memcpy_dtoh leave in the destination (used at core/cu29_runtime/src/pool.rs:501-503,
    507-509 and 531-533); [None] when they panic. *)
Definition memcpy (src dst : list A) : option (list A) :=
  if length src <=? length dst then Some (src ++ skipn (length src) dst) else None.

(** What a program can do: anything with the host pool; acquire, clone and drop device handles; look at
    the elements of one, within with_inner (core/cu29_runtime/src/pool.rs:312-331); copy a host
    buffer to a new device buffer (487-513) and a device buffer to a host buffer (520-535). *)
Inductive gop := Host (x : op A) | GAcquire | GClone (d : nat) | GDrop (d : nat) | GLook (d : nat) | ToDevice (a : nat) | ToHost (d a : nat).

(** A panic while the guard of core/cu29_runtime/src/pool.rs:150-159, 494-495 or 526-527 is held. *)
Definition poison (st : state A) (a : nat) (x : arc) : state A := set_arc st a (Arc (a_count x) (a_cell x) (a_pooled x) true).
(** The contents of one buffer changed (core/cu29_runtime/src/pool.rs:501-509, 531-533). *)
Definition set_cell (st : state A) (i : nat) (c : list A) : state A := State (st_size st) (upd i c (st_cells st)) (st_free st) (st_arcs st).

(** core/cu29_runtime/src/pool.rs:487-513 (copy_from); when it panics the new handle is dropped. *)
Definition to_device (g : gpu) (a : nat) (x : arc) : gpu * out A :=
  match acquire (g_dev g) with
  | (_, None) => (g, Panicked)
  | (dev, Some h) =>
      match nth_error (st_arcs dev) h with
      | None => (g, Panicked)
      | Some y =>
          if a_poisoned x then (Gpu (g_host g) (drop_handle dev h y), Panicked)
          else match nth_error (st_cells (g_host g)) (a_cell x), nth_error (st_cells dev) (a_cell y) with
               | Some src, Some dst =>
                   match memcpy src dst with
                   | Some c => (Gpu (g_host g) (set_cell dev (a_cell y) c), Handle h)
                   | None => (Gpu (poison (g_host g) a x) (drop_handle dev h y), Panicked)
                   end
               | _, _ => (g, Panicked)
               end
      end
  end.
(** core/cu29_runtime/src/pool.rs:520-535 (copy_to_host_pool): the device handle is locked first. *)
Definition to_host (g : gpu) (d : nat) (x : arc) (a : nat) (y : arc) : gpu * out A :=
  if a_poisoned x then (g, Panicked)
  else if a_poisoned y then (Gpu (g_host g) (poison (g_dev g) d x), Panicked)
  else match nth_error (st_cells (g_dev g)) (a_cell x), nth_error (st_cells (g_host g)) (a_cell y) with
       | Some src, Some dst =>
           match memcpy src dst with
           | Some c => (Gpu (set_cell (g_host g) (a_cell y) c) (g_dev g), Done)
           | None => (Gpu (poison (g_host g) a y) (poison (g_dev g) d x), Panicked)
           end
       | _, _ => (g, Panicked)
       end.

(** One operation: core/cu29_runtime/src/pool.rs:482-486 (acquire), 131 (Clone), 150-153 with 318-330 (the
    panic on looking at elements), 487-513, 520-535. On a handle without live clone nothing happens. *)
Definition gstep (g : gpu) (x : gop) : gpu * out A :=
  match x with
  | Host x => let (h, o) := step (g_host g) x in (Gpu h (g_dev g), o)
  | GAcquire => let (d, o) := step (g_dev g) Acquire in (Gpu (g_host g) d, o)
  | GClone d => let (d, o) := step (g_dev g) (Clone d) in (Gpu (g_host g) d, o)
  | GDrop d => let (d, o) := step (g_dev g) (Drop d) in (Gpu (g_host g) d, o)
  | GLook d => match usable (g_dev g) d with
               | None => (g, Done)
               | Some x => if a_poisoned x then (g, Panicked) else (Gpu (g_host g) (poison (g_dev g) d x), Panicked)
               end
  | ToDevice a => match usable (g_host g) a with None => (g, Done) | Some x => to_device g a x end
  | ToHost d a => match usable (g_dev g) d, usable (g_host g) a with Some x, Some y => to_host g d x a y | _, _ => (g, Done) end
  end.
(** A program using both pools, operation by operation (core/cu29_runtime/src/pool.rs:482-535). *)
Fixpoint gsteps (g : gpu) (l : list gop) : gpu * list (out A) :=
  match l with
  | [] => (g, [])
  | x :: l => let (g, o) := gstep g x in let (g, os) := gsteps g l in (g, o :: os)
  end.
End Device.
Arguments gop : clear implicits. Arguments gpu : clear implicits.
