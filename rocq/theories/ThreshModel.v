(** The adaptive threshold task (components/tasks/cu_dynthreshold/src/cu_dynthreshold_impl.rs).
    Images are lists of pixel values; widths, heights and positions are natural numbers. u32
    arithmetic panics on overflow, as in a debug build. The unchecked accesses of
    get_pixel and put_pixel are undefined behaviour outside the slice; the model panics
    there. *)
From Coq Require Import List Arith NArith ZArith Bool.
From Verif Require Import Base.
Import ListNotations.
Local Open Scope N_scope.

(** components/tasks/cu_dynthreshold/src/cu_dynthreshold_impl.rs:18-23 (get_pixel). *)
Definition get_pixel (s : list N) (x y width : nat) : outcome N :=
  match nth_error s (x + y * width) with Some v => Ret v | None => Panic end.
(** components/tasks/cu_dynthreshold/src/cu_dynthreshold_impl.rs:28-32 (put_pixel). *)
Definition put_pixel (s : list N) (x y width : nat) (v : N) : outcome (list N) :=
  if Nat.ltb (x + y * width) (length s) then Ret (upd (x + y * width) v s) else Panic.
(** Checked u32 arithmetic (components/tasks/cu_dynthreshold/src/cu_dynthreshold_impl.rs:42,
    45, 97). *)
Definition u32 (v : N) : outcome N := if v <? 2 ^ 32 then Ret v else Panic.
(** [for i in k..k+n] (components/tasks/cu_dynthreshold/src/cu_dynthreshold_impl.rs:39, 41,
    79, 80). *)
Fixpoint loop {S} (f : nat -> S -> outcome S) (k n : nat) (s : S) : outcome S :=
  match n with
  | O => Ret s
  | Datatypes.S n => let! s := f k s in loop f (Datatypes.S k) n s
  end.
(** components/tasks/cu_dynthreshold/src/cu_dynthreshold_impl.rs:42-45, the body of the inner
    loop. *)
Definition integral_step (src : list N) (width y x : nat) (st : N * list N) : outcome (N * list N) :=
  let out_width := (width + 1)%nat in
  let '(sum, dst) := st in
  let! v := get_pixel src x y width in
  let! sum := u32 (sum + v) in
  let! above := get_pixel dst (x + 1) y out_width in
  let! t := u32 (above + sum) in
  let! dst := put_pixel dst (x + 1) (y + 1) out_width t in
  Ret (sum, dst).
(** components/tasks/cu_dynthreshold/src/cu_dynthreshold_impl.rs:35-48 (integral_image). *)
Definition integral_image (src dst : list N) (width height : nat) : outcome (list N) :=
  loop (fun y dst => let! (_, dst) := loop (integral_step src width y) 0 width (0, dst) in Ret dst) 0 height dst.
(** components/tasks/cu_dynthreshold/src/cu_dynthreshold_impl.rs:50-67 (sum_image_pixels). *)
Definition sum_image_pixels (integral : list N) (left top right bottom width : nat) : outcome N :=
  let! a := get_pixel integral (right + 1) (bottom + 1) width in
  let! b := get_pixel integral left top width in
  let! c := get_pixel integral (right + 1) top width in
  let! d := get_pixel integral left (bottom + 1) width in
  let sum := (Z.of_N a + Z.of_N b - Z.of_N c - Z.of_N d)%Z in
  if (sum <? 0)%Z then Panic else Ret (Z.to_N sum mod 2 ^ 32).
(** [as i32] of components/tasks/cu_dynthreshold/src/cu_dynthreshold_impl.rs:85, 89. *)
Definition as_i32 (v : N) : Z := let v := v mod 2 ^ 32 in if v <? 2 ^ 31 then Z.of_N v else (Z.of_N v - 2 ^ 32)%Z.
(** [max(0, p as i32 - block_radius as i32) as usize]
    (components/tasks/cu_dynthreshold/src/cu_dynthreshold_impl.rs:85, 89). *)
Definition low (p : nat) (radius : N) : outcome nat :=
  let d := (as_i32 (N.of_nat p) - as_i32 radius)%Z in
  if ((d <? - 2 ^ 31) || (2 ^ 31 <=? d))%Z then Panic else Ret (Z.to_nat (Z.max 0 d)).
(** [min(size - 1, p + block_radius as usize)]
    (components/tasks/cu_dynthreshold/src/cu_dynthreshold_impl.rs:86, 90). *)
Definition high (size p : nat) (radius : N) : nat := N.to_nat (N.min (N.of_nat (size - 1)) (N.of_nat p + radius)).
(** components/tasks/cu_dynthreshold/src/cu_dynthreshold_impl.rs:81-102, one pixel; the
    subtractions of usize panic below 0. *)
Definition threshold_step (src integral : list N) (radius : N) (width height y x : nat) (dst : list N) : outcome (list N) :=
  let! current := get_pixel src x y width in
  let! y_low := low y radius in
  let y_high := high height y radius in
  let! x_low := low x radius in
  let x_high := high width x radius in
  if (Nat.ltb y_high y_low || Nat.ltb x_high x_low)%bool then Panic
  else let w := N.of_nat ((y_high - y_low + 1) * (x_high - x_low + 1)) mod 2 ^ 32 in
       let! sum := sum_image_pixels integral x_low y_low x_high y_high (width + 1) in
       let! p := u32 (current * w) in
       put_pixel dst x y width (if sum <? p then 255 else 0).
(** components/tasks/cu_dynthreshold/src/cu_dynthreshold_impl.rs:69-104 (adaptive_threshold). *)
Definition adaptive_threshold (src integral dst : list N) (radius : N) (width height : nat) : outcome (list N) :=
  if radius =? 0 then Panic
  else loop (fun y dst => loop (threshold_step src integral radius width height y) 0 width dst) 0 height dst.

(** DynThreshold (components/tasks/cu_dynthreshold/src/cu_dynthreshold_impl.rs:107-113)
    without the pool. *)
Record task := Task { t_integral : list N; t_width : nat; t_height : nat; t_radius : N }.
(** components/tasks/cu_dynthreshold/src/cu_dynthreshold_impl.rs:121-141 (new). *)
Definition task_new (width height : nat) (radius : N) : task :=
  Task (repeat 0 ((width + 1) * (height + 1))) width height radius.
(** components/tasks/cu_dynthreshold/src/cu_dynthreshold_impl.rs:143-203 (process): [input]
    is the mapped buffer if there is one, [dst] the old content of the buffer taken from
    the pool, [None] when the pool is empty. The result is the new task and the image put
    into the output, if any ([None]: no output or an error). *)
Definition process (t : task) (input : option (list N)) (dst : option (list N)) : outcome (task * option (list N)) :=
  match input with
  | None => Ret (t, None)
  | Some src =>
      if negb (Nat.eqb (length src) (t_width t * t_height t)) then Ret (t, None)
      else match dst with
           | None => Ret (t, None)
           | Some dst =>
               let! integral := integral_image src (t_integral t) (t_width t) (t_height t) in
               let! dst := adaptive_threshold src integral dst (t_radius t) (t_width t) (t_height t) in
               Ret (Task integral (t_width t) (t_height t) (t_radius t), Some dst)
           end
  end.
(** A stream of frames through
    components/tasks/cu_dynthreshold/src/cu_dynthreshold_impl.rs:143-203. *)
Fixpoint frames (t : task) (l : list (option (list N) * option (list N))) : outcome (list (option (list N))) :=
  match l with
  | [] => Ret []
  | (input, dst) :: l => let! (t, o) := process t input dst in let! os := frames t l in Ret (o :: os)
  end.
