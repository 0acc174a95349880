(** Duration statistics (core/cu29_runtime/src/monitoring.rs:190-357) over the histogram of
    the hdrhistogram crate, with 3 significant digits (sub_bucket_count 2048). The
    histogram is transcribed from that crate's documentation and algorithm: the counters of
    the buckets are kept only through what is read from them (number of zeros, total
    number, sum of the bucket medians). Counters and sums do not overflow. Percentiles and
    standard deviation are not modelled, nor the rounding of mean() to f64. *)
From Coq Require Import List NArith Bool.
From Verif Require Import Base.
Import ListNotations.
Local Open Scope N_scope.

(** The bucket of a value, [leading_zero_count_base - (value | mask).leading_zeros()]
    (hdrhistogram; used from core/cu29_runtime/src/monitoring.rs:233). *)
Definition bucket (v : N) : N := N.log2 (N.lor v 2047) - 10.
(** lowest_equivalent (hdrhistogram; core/cu29_runtime/src/monitoring.rs:212). *)
Definition lowest (v : N) : N := N.shiftl (N.shiftr v (bucket v)) (bucket v).
(** highest_equivalent (hdrhistogram; core/cu29_runtime/src/monitoring.rs:217). *)
Definition highest (v : N) : N := lowest v + (N.shiftl 1 (bucket v) - 1).
(** median_equivalent (hdrhistogram; core/cu29_runtime/src/monitoring.rs:222). *)
Definition median (v : N) : N := lowest v + N.shiftr (N.shiftl 1 (bucket v)) 1.

(** A histogram (core/cu29_runtime/src/monitoring.rs:193-195). *)
Record hist := Hist { h_limit : N;      (* first value out of range *)
                      h_total : N; h_zeros : N; h_max : N; h_min : N; h_sum : N }.
(** The value of min_non_zero_value while nothing is recorded (hdrhistogram; created at
    core/cu29_runtime/src/monitoring.rs:206). *)
Definition U64_MAX : N := 2 ^ 64 - 1.
(** hdrhistogram's buckets_to_cover, from one bucket of 2048 values, doubling (used from
    core/cu29_runtime/src/monitoring.rs:206): the first value that is out of range. *)
Fixpoint cover (fuel : nat) (limit max : N) : N :=
  match fuel with
  | O => limit
  | S fuel => if max <? limit then limit else cover fuel (2 * limit) max
  end.
(** core/cu29_runtime/src/monitoring.rs:204-208 (new_with_max); new_with_bounds(1, max, 3)
    is an error when max < 2. *)
Definition hist_new (max : N) : outcome hist :=
  if max <? 2 then Panic else Ret (Hist (cover 53 2048 max) 0 0 0 U64_MAX 0).
(** Histogram::record, an error ([None]) for a value out of range (hdrhistogram; used at
    core/cu29_runtime/src/monitoring.rs:233, 338, 342, 346). *)
Definition hist_record (h : hist) (v : N) : option hist :=
  if h_limit h <=? v then None
  else Some (Hist (h_limit h) (h_total h + 1) (if v =? 0 then h_zeros h + 1 else h_zeros h)
               (if h_max h <? v then v else h_max h)
               (if negb (v =? 0) && (v <? h_min h) then v else h_min h) (h_sum h + median v)).
(** core/cu29_runtime/src/monitoring.rs:211-213 (min). *)
Definition hist_min (h : hist) : N :=
  if (h_total h =? 0) || negb (h_zeros h =? 0) then 0
  else if h_min h =? U64_MAX then U64_MAX else lowest (h_min h).
(** core/cu29_runtime/src/monitoring.rs:216-218 (max). *)
Definition hist_max (h : hist) : N := if h_max h =? 0 then 0 else highest (h_max h).
(** core/cu29_runtime/src/monitoring.rs:221-223 (mean), as numerator and denominator; no
    value gives 0. *)
Definition hist_mean (h : hist) : N * N := if h_total h =? 0 then (0, 1) else (h_sum h, h_total h).
(** core/cu29_runtime/src/monitoring.rs:251-253 (reset). *)
Definition hist_reset (h : hist) : hist := Hist (h_limit h) 0 0 0 U64_MAX 0.

(** core/cu29_runtime/src/monitoring.rs:258-263 (CuDurationStatistics). *)
Record stats := Stats { s_bare : hist; s_jitter : hist; s_last : N }.
(** core/cu29_runtime/src/monitoring.rs:266-273 (new). *)
Definition stats_new (max : N) : outcome stats :=
  let! a := hist_new max in let! b := hist_new max in Ret (Stats a b 0).
(** Rust's abs_diff, at core/cu29_runtime/src/monitoring.rs:346. *)
Definition abs_diff (a b : N) : N := if a <? b then b - a else a - b.
(** core/cu29_runtime/src/monitoring.rs:334-349 (record); the unwraps panic. *)
Definition stats_record (s : stats) (v : N) : outcome stats :=
  if h_total (s_bare s) =? 0
  then match hist_record (s_bare s) v with
       | None => Panic
       | Some b => Ret (Stats b (s_jitter s) v)
       end
  else match hist_record (s_bare s) v with
       | None => Panic
       | Some b => match hist_record (s_jitter s) (abs_diff v (s_last s)) with
                   | None => Panic
                   | Some j => Ret (Stats b j v)
                   end
       end.
(** core/cu29_runtime/src/monitoring.rs:352-355 (reset). *)
Definition stats_reset (s : stats) : stats := Stats (hist_reset (s_bare s)) (hist_reset (s_jitter s)) (s_last s).

(** A use of the statistics: core/cu29_runtime/src/monitoring.rs:334-355. *)
Inductive event := Record_ (v : N) | Reset_.
(** Events in order: core/cu29_runtime/src/monitoring.rs:334-355. *)
Fixpoint stats_run (s : stats) (l : list event) : outcome stats :=
  match l with
  | [] => Ret s
  | Record_ v :: l => let! s := stats_record s v in stats_run s l
  | Reset_ :: l => stats_run (stats_reset s) l
  end.
