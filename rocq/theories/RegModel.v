(** The registry of memory pools (core/cu29_runtime/src/pool.rs:15-64), the console's table of
    pools (components/monitors/cu_consolemon/src/lib.rs:87-134, 854-868) and aligned buffers
    (core/cu29_runtime/src/pool.rs:547-593). *)
From Coq Require Import List Arith NArith ZArith Bool SpecFloat.
From Verif Require Import Base PoolModel FloatModel.
Import ListNotations.
Local Open Scope nat_scope.

(** PoolID (core/cu29_runtime/src/pool.rs:15), as its bytes. *)
Definition pid := list N.
(** Equality of two ids, as keys of the HashMap at core/cu29_runtime/src/pool.rs:32. *)
Definition pid_eqb (a b : pid) : bool := if list_eq_dec N.eq_dec a b then true else false.
(** core/cu29_runtime/src/pool.rs:44 (PoolStats): id, space left, total size, buffer size. *)
Record stat := Stat { s_id : pid; s_left : nat; s_total : nat; s_buffer : nat }.

Section Registry.
Context {A : Type}.
(** core/cu29_runtime/src/pool.rs:217-223 (CuHostMemoryPool); the size is in [h_pool]. *)
Record hpool := HPool { h_id : pid; h_pool : state A; h_buffer : nat }.
(** All pools a program has made, in order, and the registry
    (core/cu29_runtime/src/pool.rs:32): for each id a number of a pool. *)
Record world := World { w_pools : list hpool; w_reg : list (pid * nat) }.
(** core/cu29_runtime/src/pool.rs:32 before the first pool; a registry that is not initialised
    and an empty one give the same statistics (50-53). *)
Definition world0 : world := World [] [].

(** HashMap::insert of core/cu29_runtime/src/pool.rs:36-42 (register_pool). *)
Definition register (id : pid) (k : nat) (reg : list (pid * nat)) : list (pid * nat) :=
  (id, k) :: filter (fun x => negb (pid_eqb (fst x) id)) reg.
(** core/cu29_runtime/src/pool.rs:236: an ArrayString holds 64 bytes. *)
Definition id_fits (id : pid) : bool := length id <=? 64.

(** What a program does with its pools (core/cu29_runtime/src/pool.rs:226-244, 260-295); the
    elements have [esize] bytes. *)
Inductive wop := Create (id : pid) (size esize : nat) (init : nat -> list A) | Use (k : nat) (x : op A).
(** Results of the above: a pool, an error, a panic, the result of an operation on a pool; the
    last for a pool that does not exist. *)
Inductive wout := Created | Refused | Crashed | Did (o : out A) | Absent.

(** core/cu29_runtime/src/pool.rs:226-244 (new): the pool is filled, a buffer taken to measure
    it and given back, then the id checked and the pool registered. *)
Definition create (w : world) (id : pid) (size esize : nat) (init : nat -> list A) : world * wout :=
  match pool_new size init with
  | Panic => (w, Crashed)
  | Ret st =>
      let buffer := match st_free st with b :: _ => length (nth b (st_cells st) []) * esize | [] => 0 end in
      if id_fits id
      then (World (w_pools w ++ [HPool id st buffer]) (register id (length (w_pools w)) (w_reg w)), Created)
      else (w, Refused)
  end.
(** One operation of core/cu29_runtime/src/pool.rs:226-244, 260-295 on one of the pools. *)
Definition wstep (w : world) (x : wop) : world * wout :=
  match x with
  | Create id size esize init => create w id size esize init
  | Use k x => match nth_error (w_pools w) k with
               | None => (w, Absent)
               | Some p => let (st, o) := step (h_pool p) x in
                           (World (upd k (HPool (h_id p) st (h_buffer p)) (w_pools w)) (w_reg w), Did o)
               end
  end.
(** The entry of one pool at core/cu29_runtime/src/pool.rs:56-61, with 247-261. *)
Definition stat_of (p : hpool) : stat := Stat (h_id p) (space_left (h_pool p)) (total_size (h_pool p)) (h_buffer p).
(** core/cu29_runtime/src/pool.rs:48-64 (pools_statistics); [ord] is the order in which the
    HashMap gives its values. All pools are read at one moment. *)
Definition pools_statistics (ord : list (pid * nat) -> list (pid * nat)) (w : world) : list stat :=
  flat_map (fun x => match nth_error (w_pools w) (snd x) with Some p => [stat_of p] | None => [] end) (ord (w_reg w)).

(** components/monitors/cu_consolemon/src/lib.rs:88-97 (PoolStats), without
    prev_handles_in_use, which nothing reads; [r_last] in nanoseconds. *)
Record row := Row { r_id : pid; r_left : nat; r_total : nat; r_buffer : nat; r_in_use : nat; r_rate : N; r_last : N }.
(** Duration::as_secs_f32, as at components/monitors/cu_consolemon/src/lib.rs:121. *)
Definition as_secs_f32 (d : N) : f32 :=
  fadd (f32_of (d / 1000000000)) (fdiv (f32_of (d mod 1000000000)) (f32_of 1000000000)).
(** [as usize] of an f32, as at components/monitors/cu_consolemon/src/lib.rs:125: towards zero,
    saturating, zero for a NaN. *)
Definition usize_of (x : f32) : N :=
  match x with
  | S754_finite false m e => N.min (2 ^ 64 - 1) (Z.to_N (match e with Zneg q => Z.pos m / Z.pow_pos 2 q | _ => Z.pos m * 2 ^ e end))
  | S754_infinity false => 2 ^ 64 - 1
  | _ => 0
  end.
(** abs_diff, at components/monitors/cu_consolemon/src/lib.rs:125. *)
Definition abs_diff (a b : nat) : nat := (a - b) + (b - a).
(** The subtractions at components/monitors/cu_consolemon/src/lib.rs:111, 120 and 542; below
    zero taken as a panic, as in a debug build. *)
Definition sub (a b : nat) : outcome nat := if b <=? a then Ret (a - b) else Panic.
(** components/monitors/cu_consolemon/src/lib.rs:100-116 (new) at time [now]. *)
Definition row_new (now : N) (s : stat) : outcome row :=
  let! u := sub (s_total s) (s_left s) in
  Ret (Row (s_id s) (s_left s) (s_total s) (s_buffer s) u 0 now).
(** components/monitors/cu_consolemon/src/lib.rs:118-133 (update) at time [now]. *)
Definition row_update (now : N) (s : stat) (r : row) : outcome row :=
  let! u := sub (s_total s) (s_left s) in
  let elapsed := as_secs_f32 (now - r_last r) in
  let second := fle (f32_of 1) elapsed in
  Ret (Row (r_id r) (s_left s) (s_total s) (r_buffer r) u
           (if second then usize_of (fdiv (f32_of (N.of_nat (abs_diff u (r_in_use r)))) elapsed) else r_rate r)
           (if second then now else r_last r)).
(** The turn of the loop at components/monitors/cu_consolemon/src/lib.rs:860-867 for one pool:
    the first row with its id is updated, without one a row is added. *)
Fixpoint put (now : N) (s : stat) (rows : list row) : outcome (list row) :=
  match rows with
  | [] => let! r := row_new now s in Ret [r]
  | r :: rows => if pid_eqb (r_id r) (s_id s) then let! r := row_update now s r in Ret (r :: rows)
                 else let! rows := put now s rows in Ret (r :: rows)
  end.
(** The loop at components/monitors/cu_consolemon/src/lib.rs:860-867; [now] gives the time at
    each pool. *)
Fixpoint puts (now : pid -> N) (l : list stat) (rows : list row) : outcome (list row) :=
  match l with
  | [] => Ret rows
  | s :: l => let! rows := put (now (s_id s)) s rows in puts now l rows
  end.

(** A program with the console: it uses its pools, and after each iteration the console updates
    its table (components/monitors/cu_consolemon/src/lib.rs:854-868). *)
Inductive event := Op (x : wop) | Update (ord : list (pid * nat) -> list (pid * nat)) (now : pid -> N).
(** The pools (core/cu29_runtime/src/pool.rs:32) and the table
    (components/monitors/cu_consolemon/src/lib.rs:752). *)
Definition desk := (world * list row)%type.
(** One event of the above (core/cu29_runtime/src/pool.rs:226-295,
    components/monitors/cu_consolemon/src/lib.rs:854-868). *)
Definition estep (d : desk) (e : event) : outcome (desk * option wout) :=
  match e with
  | Op x => let (w, o) := wstep (fst d) x in Ret ((w, snd d), Some o)
  | Update ord now => let! rows := puts now (pools_statistics ord (fst d)) (snd d) in Ret ((fst d, rows), None)
  end.
(** A whole run of the above, with what each operation returned
    (components/monitors/cu_consolemon/src/lib.rs:752, 854-868). *)
Fixpoint erun (d : desk) (l : list event) : outcome (desk * list (option wout)) :=
  match l with
  | [] => Ret (d, [])
  | e :: l => let! (d, o) := estep d e in let! (d, os) := erun d l in Ret (d, o :: os)
  end.
(** The number of used buffers drawn at components/monitors/cu_consolemon/src/lib.rs:542. *)
Definition drawn_used (r : row) : outcome nat := sub (r_total r) (r_left r).
End Registry.
Arguments hpool : clear implicits. Arguments world : clear implicits. Arguments wop : clear implicits.
Arguments wout : clear implicits. Arguments event : clear implicits. Arguments desk : clear implicits.

(** std::alloc::Layout (core/cu29_runtime/src/pool.rs:552). *)
Record layout := Layout { l_size : N; l_align : N }.
(** Layout::from_size_align, used at core/cu29_runtime/src/pool.rs:557: the alignment is a power
    of two, the size rounded up to it at most isize::MAX. *)
Definition from_size_align (size align : N) : option layout :=
  if ((0 <? align) && (align =? 2 ^ N.log2 align) && (size <=? 2 ^ 63 - align))%N then Some (Layout size align) else None.
(** core/cu29_runtime/src/pool.rs:549-553 (AlignedBuffer). *)
Record abuf := ABuf { b_ptr : N; b_len : N; b_layout : layout }.
(** core/cu29_runtime/src/pool.rs:556-567 (AlignedBuffer::new) for elements of [esize] bytes;
    [alloc] gives the address of the memory for a layout, 0 when there is none. *)
Definition abuf_new (m : ovf_mode) (alloc : layout -> N) (esize num align : N) : outcome abuf :=
  let! bytes := (if (num * esize <? 2 ^ 64)%N then Ret (num * esize)%N
                 else match m with Checked => Panic | Wrapping => Ret ((num * esize) mod 2 ^ 64)%N end) in
  match from_size_align bytes align with
  | None => Panic
  | Some l => if (alloc l =? 0)%N then Panic else Ret (ABuf (alloc l) num l)
  end.
(** The address of element [i] of the slice at core/cu29_runtime/src/pool.rs:573-575, 579-581. *)
Definition element (b : abuf) (esize i : N) : N := (b_ptr b + i * esize)%N.
(** The address and layout given to dealloc at core/cu29_runtime/src/pool.rs:585-590. *)
Definition abuf_drop (b : abuf) : option (N * layout) :=
  if (b_ptr b =? 0)%N then None else Some (b_ptr b, b_layout b).
