(** The camera source: buffers that travel between the pool, the arena of the stream, the
    driver in the kernel and the messages. *)
From Coq Require Import List Arith NArith Bool.
From Verif Require Import Base.
Import ListNotations.
Local Open Scope nat_scope.

(** The stream (components/sources/cu_v4l/src/v4lstream.rs:14-23) and its surroundings. Buffers of the pool
    are numbers. [c_mem]: what each buffer holds; [c_arena]: the handles of the arena;
    [c_last]: arena_last_freed_up_index; [c_kq]: the entries queued in the driver, as index
    and buffer; [c_msg]: the image in the message of the source (a copper list is finished
    before the next one, so it is always the same slot, core/cu29_runtime/src/copperlist.rs:148-163); [c_kept]: images that tasks
    keep. A buffer is free when nobody has a handle of it (core/cu29_runtime/src/pool.rs:137-141, 265-269). *)
Record cam := Cam { c_mem : nat -> N; c_arena : list (option nat); c_last : nat; c_active : bool;
                    c_kq : list (nat * nat); c_msg : option nat; c_kept : list nat }.

Section Camera.
(** The size of the pool, and which free buffer it hands out next. *)
Variable size : nat.
Variable pick : cam -> nat.

(** Somebody has a handle of [b] (core/cu29_runtime/src/pool.rs:137-141). *)
Definition held (c : cam) (b : nat) : bool :=
  existsb (fun o => match o with Some x => x =? b | None => false end) (c_msg c :: c_arena c) || existsb (Nat.eqb b) (c_kept c).
(** core/cu29_runtime/src/pool.rs:265-269 (acquire): some free buffer. *)
Definition acquire (c : cam) : option nat :=
  match filter (fun b => negb (held c b)) (seq 0 size) with
  | [] => None
  | b :: l => Some (nth (pick c mod length (b :: l)) (b :: l) b)
  end.

(** components/sources/cu_v4l/src/v4lstream.rs:215-238 (queue). The driver refuses an index that is queued
    already (EINVAL), and may fail for its own reasons ([fail]); the result tells whether it
    took the buffer. *)
Definition queue (fail : bool) (i : nat) (c : cam) : outcome (cam * bool) :=
  match acquire c with
  | None => Panic
  | Some b =>
      if i <? length (c_arena c) then
        let c := Cam (c_mem c) (upd i (Some b) (c_arena c)) (c_last c) (c_active c) (c_kq c) (c_msg c) (c_kept c) in
        if fail || existsb (fun x => fst x =? i) (c_kq c) then Ret (c, false)
        else Ret (Cam (c_mem c) (c_arena c) (c_last c) (c_active c) (c_kq c ++ [(i, b)]) (c_msg c) (c_kept c), true)
      else Panic
  end.

(** components/sources/cu_v4l/src/v4lstream.rs:181-183: the indexes [l] in turn. *)
Fixpoint queue_all (fails : nat -> bool) (l : list nat) (c : cam) : outcome (cam * bool) :=
  match l with
  | [] => Ret (c, true)
  | i :: l => let! r := queue (fails i) i c in
              let (c, ok) := r in if ok : bool then queue_all fails l c else Ret (c, false)
  end.
(** components/sources/cu_v4l/src/v4lstream.rs:178-197 (start); [onfail]: STREAMON fails. *)
Definition stream_start (fails : nat -> bool) (onfail : bool) (c : cam) : outcome (cam * bool) :=
  let! r := queue_all fails (seq 1 (length (c_arena c) - 1)) c in
  let (c, ok) := r in
  if ok : bool then Ret (Cam (c_mem c) (c_arena c) 0 (if onfail then c_active c else true) (c_kq c) (c_msg c) (c_kept c), negb onfail)
  else Ret (c, false).
(** components/sources/cu_v4l/src/v4lstream.rs:199-211 (stop): the driver gives up all it has. *)
Definition stream_stop (fail : bool) (c : cam) : cam * bool :=
  if fail then (c, false)
  else (Cam (c_mem c) (c_arena c) (c_last c) false [] (c_msg c) (c_kept c), true).

(** What the driver does at components/sources/cu_v4l/src/v4lstream.rs:240-261 (dequeue): time out or fail, or give back the
    [k]-th of its entries, with a picture or without ([bytesused] 0). *)
Inductive answer := Nothing | Given (k : nat) (empty : bool).
(** Without the [k]-th entry (the driver's part of components/sources/cu_v4l/src/v4lstream.rs:254-261). *)
Definition without {A} (k : nat) (l : list A) : list A := firstn k l ++ skipn (S k) l.

(** components/sources/cu_v4l/src/v4lstream.rs:276-290 (next): the buffer handed out, and whether it is empty. *)
Definition stream_next (fail : bool) (a : answer) (c : cam) : outcome (cam * option (nat * bool)) :=
  if c_active c then
    let! r := queue fail (c_last c) c in
    let (c, ok) := r in
    if ok : bool then
      match a with
      | Nothing => Ret (c, None)
      | Given k empty =>
          match nth_error (c_kq c) k with
          | None => Ret (c, None)
          | Some (i, _) =>
              let c := Cam (c_mem c) (c_arena c) (c_last c) (c_active c) (without k (c_kq c)) (c_msg c) (c_kept c) in
              match nth_error (c_arena c) i with
              | Some (Some b) => Ret (Cam (c_mem c) (c_arena c) i (c_active c) (c_kq c) (c_msg c) (c_kept c), Some (b, empty))
              | _ => Panic
              end
          end
      end
    else Ret (c, None)
  else Ret (c, None).

(** The message gets or loses an image (components/sources/cu_v4l/src/lib.rs:241-242). *)
Definition set_msg (m : option nat) (c : cam) : cam :=
  Cam (c_mem c) (c_arena c) (c_last c) (c_active c) (c_kq c) m (c_kept c).
(** components/sources/cu_v4l/src/lib.rs:234-248 (process), and what the runtime does
    with an error: it clears the message when the monitor says to ignore it ([clears], core/cu29_derive/src/lib.rs:673-677). The
    buffers have the size of the format (components/sources/cu_v4l/src/lib.rs:193), so the assertion of CuImage::new holds. *)
Definition process (fail : bool) (a : answer) (clears : bool) (c : cam) : outcome (cam * bool) :=
  let! r := stream_next fail a c in
  match r with
  | (c, Some (b, false)) => Ret (set_msg (Some b) c, true)
  | (c, Some (_, true)) => Ret (c, true)
  | (c, None) => Ret (if clears then set_msg None c else c, false)
  end.

(** What happens: calls of the source (components/sources/cu_v4l/src/lib.rs:220-254),
    a task keeps the image of the message or drops the [j]-th one it keeps, the
    message is cleared, the driver writes [v] to the buffer of its [k]-th entry. *)
Inductive event :=
| Start (fails : nat -> bool) (onfail : bool) | Stop (fail : bool) | Process (fail : bool) (a : answer) (clears : bool)
| Keep | Release (j : nat) | Clear | DriverWrites (k : nat) (v : N).
(** One of them, and whether it succeeded (components/sources/cu_v4l/src/lib.rs:220-254). *)
Definition step (x : event) (c : cam) : outcome (cam * bool) :=
  match x with
  | Start fails onfail => stream_start fails onfail c
  | Stop fail => Ret (stream_stop fail c)
  | Process fail a clears => process fail a clears c
  | Keep => Ret (Cam (c_mem c) (c_arena c) (c_last c) (c_active c) (c_kq c) (c_msg c)
                     (match c_msg c with Some b => b :: c_kept c | None => c_kept c end), true)
  | Release j => Ret (Cam (c_mem c) (c_arena c) (c_last c) (c_active c) (c_kq c) (c_msg c) (without j (c_kept c)), true)
  | Clear => Ret (set_msg None c, true)
  | DriverWrites k v => Ret (match nth_error (c_kq c) k with
                             | Some (_, b) => Cam (fun x => if x =? b then v else c_mem c x) (c_arena c) (c_last c) (c_active c)
                                                  (c_kq c) (c_msg c) (c_kept c)
                             | None => c end, true)
  end.
(** All of them (components/sources/cu_v4l/src/lib.rs:220-254). *)
Fixpoint run (l : list event) (c : cam) : outcome (cam * list bool) :=
  match l with
  | [] => Ret (c, [])
  | x :: l => let! r := step x c in let! s := run l (fst r) in Ret (fst s, snd r :: snd s)
  end.
End Camera.

(** components/sources/cu_v4l/src/v4lstream.rs:54-74 (with_buffers), with zeroed buffers. *)
Definition cam_new (buffers : nat) : cam := Cam (fun _ => 0%N) (repeat None buffers) 0 false [] None [].
(** components/sources/cu_v4l/src/lib.rs:186-201: one buffer more than the arena. *)
Definition pool_size (buffers : nat) : nat := buffers + 1.
