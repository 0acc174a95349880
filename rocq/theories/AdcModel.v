(** The filter of the ADS7883 source (components/sources/cu_ads7883/src/lib.rs). A read of the
    converter is a 16-bit value or a failure. Timestamps and status are not modelled. *)
From Coq Require Import List NArith Bool.
From Verif Require Import Base.
Import ListNotations.
Local Open Scope N_scope.

(** components/sources/cu_ads7883/src/lib.rs:19 (INTEGRATION_FACTOR). *)
Definition FACTOR : N := 8.
(** u64 arithmetic of components/sources/cu_ads7883/src/lib.rs:140, 153-155; overflow panics. *)
Definition u64 (v : N) : outcome N := if v <? 2 ^ 64 then Ret v else Panic.
(** components/sources/cu_ads7883/src/lib.rs:134-142 (start): the new integrated value;
    [None]: the error of a failed read, which leaves the value as it is. *)
Definition adc_start (read : option N) (i : N) : outcome (N * option unit) :=
  match read with
  | None => Ret (i, None)
  | Some a => let! i := u64 (a * FACTOR) in Ret (i, Some tt)
  end.
(** components/sources/cu_ads7883/src/lib.rs:143-165 (process): the new integrated value and
    the payload. *)
Definition adc_process (read : option N) (i : N) : outcome (N * option N) :=
  match read with
  | None => Ret (i, None)
  | Some a => let! s := u64 (i + a) in let! m := u64 (s * FACTOR) in
              let i := m / (FACTOR + 1) in
              Ret (i, Some ((i / FACTOR) mod 2 ^ 16))
  end.
(** Successive calls of process (components/sources/cu_ads7883/src/lib.rs:143-165). *)
Fixpoint adc_run (i : N) (reads : list (option N)) : outcome (N * list (option N)) :=
  match reads with
  | [] => Ret (i, [])
  | r :: reads => let! (i, o) := adc_process r i in let! (i, os) := adc_run i reads in Ret (i, o :: os)
  end.
(** The source of components/sources/cu_ads7883/src/lib.rs:134-165 from start on; the value is
    0 before (lines 116 and 129). *)
Definition adc (first : N) (reads : list (option N)) : outcome (list (option N)) :=
  let! (i, _) := adc_start (Some first) 0 in let! (_, os) := adc_run i reads in Ret os.
