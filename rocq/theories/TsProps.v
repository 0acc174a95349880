(** C37: the time of an exported log entry. *)
From Coq Require Import NArith ZArith Lia.
From Verif Require Import Base TsModel.
Local Open Scope N_scope.

(** The span a timedelta denotes, in microseconds (Python's definition). *)
Definition span_us (d : delta) : Z := ((d_days d * 86400 + d_seconds d) * 1000000 + d_micros d)%Z.

(** The exported timestamp denotes the time of the entry, to the microsecond, exactly during
    the first day. Missing for C37 as stated: every later time (refuted below). *)
Theorem C37_first_day_partial : forall ns, ns < 2 ^ 64 ->
  (span_us (ts ns) = Z.of_N (ns / 1000) <-> ns < 86400000000000).
Proof.
  intros ns H. unfold span_us, ts. cbn [d_days d_seconds d_micros].
  assert (A : forall v, v < 2 ^ 31 -> as_i32 v = Z.of_N v).
  { intros v Hv. unfold as_i32. rewrite N.mod_small by (change (2 ^ 31) with 2147483648 in Hv; change (2 ^ 32) with 4294967296; lia).
    destruct (N.ltb_spec v (2 ^ 31)); [reflexivity|lia]. }
  assert (B : forall v, exists k, as_i32 v = (Z.of_N v - 4294967296 * k)%Z /\ (-1 <= k <= Z.of_N (v / 4294967296) + 1)%Z).
  { intros v. unfold as_i32. change (2 ^ 32) with 4294967296. change (2 ^ 32)%Z with 4294967296%Z. change (2 ^ 31) with 2147483648.
    destruct (N.ltb_spec (v mod 4294967296) 2147483648).
    - exists (Z.of_N (v / 4294967296)). lia.
    - exists (Z.of_N (v / 4294967296) + 1)%Z. lia. }
  change (2 ^ 64) with 18446744073709551616 in H.
  rewrite (A (ns / 86400000000000)) by (change (2 ^ 31) with 2147483648; lia).
  rewrite (A (ns mod 1000000000 / 1000)) by (change (2 ^ 31) with 2147483648; lia).
  set (days := ns / 86400000000000). set (s := ns / 1000000000). set (us := ns mod 1000000000 / 1000).
  assert (E : ns / 1000 = s * 1000000 + us) by (unfold s, us; lia).
  split.
  - intros X. rewrite E in X. destruct (B s) as (k & Bs & K). rewrite Bs in X.
    assert (D : (Z.of_N days * 86400 = 4294967296 * k)%Z) by lia.
    assert (s < 18446744074) by (unfold s; lia). assert (s / 4294967296 <= 4) by lia.
    assert (Dk : days = 0).
    { assert (k = 0 \/ k = -1 \/ k = 1 \/ k = 2 \/ k = 3 \/ k = 4 \/ k = 5)%Z as [->|[->|[->|[->|[->|[->| ->]]]]]] by lia; lia. }
    unfold days in Dk. lia.
  - intros L. assert (Z0 : days = 0) by (unfold days; lia). rewrite Z0, (A s) by (unfold s; change (2 ^ 31) with 2147483648; lia). lia.
Qed.
Print Assumptions C37_first_day_partial.

(** After one day and one second, two days and one second are exported. *)
Theorem C37_refuted : exists ns, ns < 2 ^ 64 /\ ns / 1000 = 86401000000 /\ span_us (ts ns) = 172801000000%Z.
Proof. exists 86401000000000. split; [reflexivity|]. split; reflexivity. Qed.
Print Assumptions C37_refuted.
Example C37_case : 5000000123456 < 86400000000000 /\ span_us (ts 5000000123456) = 5000000123%Z.
Proof. split; reflexivity. Qed.
