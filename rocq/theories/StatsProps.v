(** C32: duration statistics. *)
From Coq Require Import List NArith Lia.
From Verif Require Import Base StatsModel StatsSpec StatsProofs.
Import ListNotations.
Local Open Scope N_scope.

(** Over any history of records and resets that does not panic: the number of values since
    the last reset is exact; minimum, maximum and mean of the values and of the distances
    between neighbours are exact below 2048 ns, and within 0.1 percent otherwise.
    Missing for C32 as stated: exactness above 2047 ns, and durations above the limit
    (both refuted below); the f64 rounding of the mean. *)
Theorem C32_statistics_partial : forall max s0 evs s, max < 2 ^ 64 -> stats_new max = Ret s0 -> stats_run s0 evs = Ret s ->
  describes (h_total (s_bare s)) (hist_min (s_bare s)) (hist_max (s_bare s)) (hist_mean (s_bare s)) (since evs []) /\
  describes (h_total (s_jitter s)) (hist_min (s_jitter s)) (hist_max (s_jitter s)) (hist_mean (s_jitter s)) (gaps (since evs [])).
Proof.
  intros max s0 evs s Hm N R. pose proof (keeps_new _ _ N) as K.
  destruct (keeps_run _ evs _ _ K) as [R1 R2]. destruct (R1 (R2 _ R)) as (s' & E & [B J La L1 L2]).
  rewrite R in E. injection E as <-. assert (L : cover 53 2048 max <= 2 ^ 64).
  { apply cover_spec; change (2048 * 2 ^ N.of_nat 53) with (2 ^ 64); lia. }
  split; apply holds_describes; auto; lia.
Qed.
Print Assumptions C32_statistics_partial.

(** Recording panics exactly on durations from a limit on, which is above the maximum
    given at creation and at most twice that (2048 at least). *)
Theorem C32_range : forall max, max < 2 ^ 64 -> exists limit, max < limit /\ limit <= N.max 2048 (2 * max) /\
  forall s0 evs, stats_new max = Ret s0 -> (stats_run s0 evs <> Panic <-> forall v, In (Record_ v) evs -> v < limit).
Proof.
  intros max Hm. exists (cover 53 2048 max).
  destruct (cover_spec 53 2048 max) as (A & B & _); [change (2048 * 2 ^ N.of_nat 53) with (2 ^ 64); lia..|].
  split; auto. split; auto. intros s0 evs N. pose proof (keeps_new _ _ N) as K.
  destruct (keeps_run _ evs _ _ K) as [R1 R2]. rewrite <- in_range_iff. split.
  - intros X. destruct (stats_run s0 evs) as [s|] eqn:E; [eauto|congruence].
  - intros X. destruct (R1 X) as (s' & -> & _). discriminate.
Qed.
Print Assumptions C32_range.

(** A single duration of 3001 ns is reported as 3000 (minimum) and a maximum of 3000 as 3001. *)
Theorem C32_exact_refuted : exists s0 s evs m, stats_new 5000000000 = Ret s0 /\ stats_run s0 evs = Ret s /\
  is_min m (since evs []) /\ hist_min (s_bare s) <> m /\
  exists s' evs' m', stats_run s0 evs' = Ret s' /\ is_max m' (since evs' []) /\ hist_max (s_bare s') <> m'.
Proof.
  eexists. eexists. exists [Record_ 3001], 3001. split; [vm_compute; reflexivity|]. split; [vm_compute; reflexivity|]. split; [|split].
  - split; [left; auto|]. intros x [<-|[]]. lia.
  - vm_compute. discriminate.
  - eexists. exists [Record_ 3000], 3000. split; [vm_compute; reflexivity|]. split; [|vm_compute; discriminate].
    split; [left; auto|]. intros x [<-|[]]. lia.
Qed.
Print Assumptions C32_exact_refuted.
(** With the console's maximum of 5 s, a duration of 8.6 s panics. *)
Theorem C32_long_refuted : exists s0 v, stats_new 5000000000 = Ret s0 /\ v = 8600000000 /\ stats_run s0 [Record_ v] = Panic.
Proof. eexists. exists 8600000000. split; [vm_compute; reflexivity|]. split; [reflexivity|]. vm_compute. reflexivity. Qed.
Print Assumptions C32_long_refuted.

Example C32_case : exists s0 s, stats_new 100 = Ret s0 /\
  stats_run s0 [Record_ 7; Reset_; Record_ 100; Record_ 200; Record_ 500; Record_ 400] = Ret s /\
  since [Record_ 7; Reset_; Record_ 100; Record_ 200; Record_ 500; Record_ 400] [] = [100; 200; 500; 400] /\
  hist_min (s_bare s) = 100 /\ hist_max (s_bare s) = 500 /\ hist_mean (s_bare s) = (1200, 4) /\
  gaps [100; 200; 500; 400] = [100; 300; 100] /\ h_total (s_jitter s) = 3 /\ hist_min (s_jitter s) = 100 /\
  hist_max (s_jitter s) = 300 /\ hist_mean (s_jitter s) = (500, 3).
Proof. eexists. eexists. split; [vm_compute; reflexivity|]. split; [vm_compute; reflexivity|]. vm_compute. repeat split. Qed.
