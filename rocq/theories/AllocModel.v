(** The counting allocator and the scoped counter (core/cu29_runtime/src/monitoring.rs). *)
From Coq Require Import List Arith NArith Bool.
From Verif Require Import Base.
Import ListNotations.
Local Open Scope list_scope.
Local Open Scope N_scope.

(** The life of a block of memory: obtained from the system by a thread that has not counted it
    yet, handed to the program, given back to the system and not counted yet, counted
    (core/cu29_runtime/src/monitoring.rs:111-117, 119-122). *)
Inductive phase := Obtained | Live | Returned | Gone.

(** A block: its size (layout.size()), the thread using it and its phase. *)
Record block := Block { k_size : N; k_thread : nat; k_phase : phase }.

(** core/cu29_runtime/src/monitoring.rs:77-80, CountingAllocator, with the blocks ever
    obtained, the oldest first. *)
Record state := State { allocated : N; deallocated : N; blocks : list block }.

(** core/cu29_runtime/src/monitoring.rs:89-94 (new). *)
Definition initial : state := State 0 0 [].

(** AtomicUsize::fetch_add (64 bits) wraps, in every mode
    (core/cu29_runtime/src/monitoring.rs:114, 121). *)
Definition fetch_add (a n : N) : N := (a + n) mod 2 ^ 64.

(** The atomic actions of the threads, in the single order they have (the counters are SeqCst):
    [SysAlloc t n ok] and [CountAlloc i] are alloc (monitoring.rs:111-117), [SysFree i] and
    [CountFree i] are dealloc (monitoring.rs:119-122), [ResetA] and [ResetD] are reset
    (core/cu29_runtime/src/monitoring.rs:104-107). realloc and alloc_zeroed are the default
    methods of GlobalAlloc, made of alloc and dealloc. *)
Inductive action :=
| SysAlloc (t : nat) (n : N) (ok : bool) | CountAlloc (i : nat)
| SysFree (i : nat) | CountFree (i : nat) | ResetA | ResetD.

(** Block [i] moves from a phase to the next (core/cu29_runtime/src/monitoring.rs:111-122). *)
Definition move (bs : list block) (i : nat) (p : phase) : list block :=
  match nth_error bs i with
  | Some b => upd i (Block (k_size b) (k_thread b) p) bs
  | None => bs
  end.

(** One action (core/cu29_runtime/src/monitoring.rs:104-107, 111-117, 119-122). [None] when the
    block is not in the phase the action needs: counting is done once by the thread that
    obtained or returned the block; freeing memory that is not live is undefined behaviour of
    the program. *)
Definition act (s : state) (a : action) : option state :=
  match a with
  | SysAlloc t n ok =>
      Some (if ok then State (allocated s) (deallocated s) (blocks s ++ [Block n t Obtained]) else s)
  | CountAlloc i =>
      match nth_error (blocks s) i with
      | Some (Block n _ Obtained) =>
          Some (State (fetch_add (allocated s) n) (deallocated s) (move (blocks s) i Live))
      | _ => None
      end
  | SysFree i =>
      match nth_error (blocks s) i with
      | Some (Block _ _ Live) => Some (State (allocated s) (deallocated s) (move (blocks s) i Returned))
      | _ => None
      end
  | CountFree i =>
      match nth_error (blocks s) i with
      | Some (Block n _ Returned) =>
          Some (State (allocated s) (fetch_add (deallocated s) n) (move (blocks s) i Gone))
      | _ => None
      end
  | ResetA => Some (State 0 (deallocated s) (blocks s))
  | ResetD => Some (State (allocated s) 0 (blocks s))
  end.

(** A run (core/cu29_runtime/src/monitoring.rs:104-122). *)
Fixpoint run (s : state) (l : list action) : option state :=
  match l with
  | [] => Some s
  | a :: l => match act s a with None => None | Some s => run s l end
  end.

(** Subtraction of usize (core/cu29_runtime/src/monitoring.rs:157, 173, 180, 181). *)
Definition sub_usize (mode : ovf_mode) (a b : N) : outcome N :=
  if b <=? a then Ret (a - b)
  else match mode with Checked => Panic | Wrapping => Ret (a + 2 ^ 64 - b) end.

(** core/cu29_runtime/src/monitoring.rs:125-128, ScopedAllocCounter. *)
Record scope := Scope { bf_allocated : N; bf_deallocated : N }.
(** core/cu29_runtime/src/monitoring.rs:138-143 (new): the counters are read one after the
    other, in states [s1] and [s2]. *)
Definition scope_new (s1 s2 : state) : scope := Scope (allocated s1) (deallocated s2).
(** core/cu29_runtime/src/monitoring.rs:156-158 (get_allocated). *)
Definition get_allocated (mode : ovf_mode) (c : scope) (s : state) : outcome N :=
  sub_usize mode (allocated s) (bf_allocated c).
(** core/cu29_runtime/src/monitoring.rs:172-174 (get_deallocated). *)
Definition get_deallocated (mode : ovf_mode) (c : scope) (s : state) : outcome N :=
  sub_usize mode (deallocated s) (bf_deallocated c).
(** core/cu29_runtime/src/monitoring.rs:179-182 (drop): only the subtractions matter. *)
Definition scope_drop (mode : ovf_mode) (c : scope) (s : state) : outcome unit :=
  let! _ := sub_usize mode (allocated s) (bf_allocated c) in
  let! _ := sub_usize mode (deallocated s) (bf_deallocated c) in Ret tt.
