(** Durations and clocks (core/cu29_clock/src/lib.rs). *)
From Coq Require Import List Arith NArith ZArith Bool SpecFloat.
From Verif Require Import Base LogModel.
Import ListNotations.
Local Open Scope N_scope.

(** A result in u64: core/cu29_clock/src/lib.rs:75-166 compute with the operators of u64. *)
Definition in_u64 (mode : ovf_mode) (z : Z) : outcome N :=
  if ((0 <=? z) && (z <? 2 ^ 64))%Z then Ret (Z.to_N z)
  else match mode with Checked => Panic | Wrapping => Ret (Z.to_N (z mod 2 ^ 64)) end.

(** core/cu29_clock/src/lib.rs:85-93 (Add) and 95-101 (AddAssign). *)
Definition dur_add (mode : ovf_mode) (a b : N) : outcome N := in_u64 mode (Z.of_N a + Z.of_N b).
(** core/cu29_clock/src/lib.rs:75-83 (Sub) and 103-109 (SubAssign). *)
Definition dur_sub (mode : ovf_mode) (a b : N) : outcome N := in_u64 mode (Z.of_N a - Z.of_N b).
(** core/cu29_clock/src/lib.rs:113-122 (Div by anything that becomes a u64). *)
Definition dur_div (a b : N) : outcome N := if b =? 0 then Panic else Ret (a / b).
(** core/cu29_clock/src/lib.rs:127-137 (Mul by anything that becomes a u64), 140-147 (u64 times a
    duration) and 150-157 (u32 times a duration). *)
Definition dur_mul (mode : ovf_mode) (a b : N) : outcome N := in_u64 mode (Z.of_N a * Z.of_N b).
(** core/cu29_clock/src/lib.rs:160-167 (i32 times a duration): the factor is cast to u64. *)
Definition i32_mul (mode : ovf_mode) (k : Z) (d : N) : outcome N :=
  dur_mul mode (Z.to_N (k mod 2 ^ 64)) d.
(** A std Duration, as the number of its nanoseconds (below 2^64 seconds).
    core/cu29_clock/src/lib.rs:49-53 (From<Duration>). *)
Definition of_duration (ns : N) : N := ns mod 2 ^ 64.
(** core/cu29_clock/src/lib.rs:55-60 (From<CuDuration> for Duration). *)
Definition to_duration (d : N) : N := d.

(** u64 as f64 (core/cu29_clock/src/lib.rs:192-202). *)
Definition f64_of (n : N) : spec_float := binary_normalize 53 1024 (Z.of_N n) 0 false.
(** Division of f64 (core/cu29_clock/src/lib.rs:192-202). *)
Definition f64_div : spec_float -> spec_float -> spec_float := SFdiv 53 1024.
(** The thousandths that std's formatting with three decimals (core/cu29_clock/src/lib.rs:192-202)
    prints of a positive number: the nearest, of two the even one. *)
Definition thousandths (x : spec_float) : N :=
  match x with
  | S754_finite false m e =>
      let n := 1000 * N.pos m in
      if (0 <=? e)%Z then n * 2 ^ Z.to_N e
      else let d := 2 ^ Z.to_N (- e) in
           let q := n / d in
           let r := n mod d in
           match N.compare (2 * r) d with
           | Lt => q | Gt => q + 1 | Eq => if N.even q then q else q + 1
           end
  | _ => 0
  end.
(** A number of thousandths in text, with three decimals (std, core/cu29_clock/src/lib.rs:192-202). *)
Definition show_thousandths (k : N) : txt :=
  show_N (k / 1000) ++ [46; 48 + k / 100 mod 10; 48 + k / 10 mod 10; 48 + k mod 10].
(** core/cu29_clock/src/lib.rs:188-207 (Display for CuDuration). The units are spelt in code points. *)
Definition show_duration (n : N) : txt :=
  let scaled (unit : N) (name : txt) := show_thousandths (thousandths (f64_div (f64_of n) (f64_of unit))) ++ 32 :: name in
  if 86400000000000 <=? n then scaled 86400000000000 [100]
  else if 3600000000000 <=? n then scaled 3600000000000 [104]
  else if 60000000000 <=? n then scaled 60000000000 [109]
  else if 1000000000 <=? n then scaled 1000000000 [115]
  else if 1000000 <=? n then scaled 1000000 [109; 115]
  else if 1000 <=? n then scaled 1000 [181; 115]
  else show_N n ++ [32; 110; 115].
(** core/cu29_clock/src/lib.rs:239-247 (Display for OptionCuTime). *)
Definition show_option (n : N) : txt :=
  if n =? 2 ^ 64 - 1 then [78; 111; 110; 101] else show_duration n.

(** The mock of a clock holds a u64 (quanta, external); the two operations of
    core/cu29_clock/src/lib.rs:347-358 on it, which wrap around, and its setter. *)
Inductive mock_op := Increment (ns : N) | Decrement (ns : N) | SetValue (v : N).
(** core/cu29_clock/src/lib.rs:347-350 (increment). *)
Definition mock_increment (v ns : N) : N := (v + ns mod 2 ^ 64) mod 2 ^ 64.
(** core/cu29_clock/src/lib.rs:354-357 (decrement). *)
Definition mock_decrement (v ns : N) : N := (v + (2 ^ 64 - ns mod 2 ^ 64)) mod 2 ^ 64.
(** core/cu29_clock/src/lib.rs:372-381 (set_value). *)
Definition mock_set (v value : N) : N :=
  if v <? value then mock_increment v (value - v) else mock_decrement v (v - value).
(** One call on the mock (core/cu29_clock/src/lib.rs:346-382). *)
Definition mock_step (v : N) (o : mock_op) : N :=
  match o with
  | Increment ns => mock_increment v ns
  | Decrement ns => mock_decrement v ns
  | SetValue x => mock_set v x
  end.
(** Calls one after the other, by any holders of the mock or of its clones
    (core/cu29_clock/src/lib.rs:344). *)
Definition mock_run (v : N) (l : list mock_op) : N := fold_left mock_step l v.

(** A thread in set_value (core/cu29_clock/src/lib.rs:372-381): before it reads the value, and
    before it adds or subtracts what it computed from its reading; then it is done. *)
Inductive setting := Starting (value : N) | Loaded (value read : N) | Finished.
(** One atomic step of a thread in set_value (core/cu29_clock/src/lib.rs:374, 377 and 379). *)
Definition setting_step (v : N) (s : setting) : N * setting :=
  match s with
  | Starting value => (v, Loaded value v)
  | Loaded value read => (if read <? value then mock_increment v (value - read) else mock_decrement v (read - value), Finished)
  | Finished => (v, Finished)
  end.
(** Two threads in set_value at the same time (core/cu29_clock/src/lib.rs:372-381), in the order of
    their steps given by [l]. *)
Fixpoint settings (v : N) (s1 s2 : setting) (l : list bool) : N * setting * setting :=
  match l with
  | [] => (v, s1, s2)
  | true :: l => let (v, s1) := setting_step v s1 in settings v s1 s2 l
  | false :: l => let (v, s2) := setting_step v s2 in settings v s1 s2 l
  end.

(** Difference of instants of the machine's clock (quanta), in nanoseconds: zero if negative;
    then From<Duration> (core/cu29_clock/src/lib.rs:426, 432). [ref] is the clock's ref_time, [t] the
    machine's time. *)
Definition clock_now (ref t : N) : N := of_duration (t - ref).
(** core/cu29_clock/src/lib.rs:387-394 (new), at machine time [t]: the reference. *)
Definition clock_new (t : N) : N := t.
(** core/cu29_clock/src/lib.rs:397-404 (from_ref_time), at machine time [t]; an instant before the
    machine's zero panics (quanta). *)
Definition clock_from_ref (t ref_ns : N) : outcome N := if t <? ref_ns then Panic else Ret (t - ref_ns).
(** core/cu29_clock/src/lib.rs:408-418 (mock): the mock's value is zero and so is the reference. *)
Definition mock_ref : N := 0.
(** Reading a mocked clock, or a clone of it, while the mock's value is [v]
    (core/cu29_clock/src/lib.rs:423-427), or the mock itself (367-370). *)
Definition mock_now (v : N) : N := clock_now mock_ref v.
