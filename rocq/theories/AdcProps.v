(** C44 and C60: the filtered value of the analog converter. *)
From Coq Require Import List Arith NArith Bool Lia.
From Verif Require Import Base AdcModel.
Import ListNotations.
Local Open Scope N_scope.

(** *** Specification *)
(** The samples read, the first one being read by start. *)
Definition samples (first : N) (reads : list (option N)) : list N :=
  first :: flat_map (fun r => match r with Some a => [a] | None => [] end) reads.
Definition smallest (m : N) (l : list N) : Prop := In m l /\ forall x, In x l -> m <= x.
Definition largest (m : N) (l : list N) : Prop := In m l /\ forall x, In x l -> x <= m.

(** *** Lemmas *)
Lemma step lo hi a i : lo <= a <= hi -> hi < 65536 -> 8 * lo <= i <= 8 * hi ->
  exists i', adc_process (Some a) i = Ret (i', Some (i' / 8)) /\ 8 * lo <= i' <= 8 * hi /\ i' = (i + a) * 8 / 9.
Proof.
  intros A H I0. unfold adc_process, u64, FACTOR. change (2 ^ 64) with 18446744073709551616. change (2 ^ 16) with 65536.
  rewrite (proj2 (N.ltb_lt _ _)) by lia. cbn [obind]. rewrite (proj2 (N.ltb_lt _ _)) by lia. cbn [obind]. change (8 + 1) with 9.
  exists ((i + a) * 8 / 9). split; [|split; [lia|reflexivity]]. rewrite N.mod_small by lia. reflexivity.
Qed.
(** Every output lies between bounds of the samples up to it. *)
Lemma run_bounds lo hi reads : hi < 65536 -> (forall a, In (Some a) reads -> lo <= a <= hi) -> forall i, 8 * lo <= i <= 8 * hi ->
  exists i' os, adc_run i reads = Ret (i', os) /\ length os = length reads /\ 8 * lo <= i' <= 8 * hi /\
    (forall n, nth_error os n = Some None <-> nth_error reads n = Some None) /\
    (forall n v, nth_error os n = Some (Some v) -> lo <= v <= hi).
Proof.
  intros H. induction reads as [|[a|] reads IH]; intros A i I0; cbn [adc_run].
  - exists i, []. repeat split; try lia; destruct n; discriminate.
  - destruct (step lo hi a i) as (i1 & E & B & _); auto; [apply A; left; auto|]. rewrite E. cbn [obind].
    destruct (IH (fun x Hx => A x (or_intror Hx)) i1 B) as (i2 & os & E2 & L & B2 & Hn & Hv). rewrite E2. cbn [obind].
    exists i2, (Some (i1 / 8) :: os). split; [reflexivity|]. split; [cbn; lia|]. split; [exact B2|]. split.
    + intros [|n]; cbn; [split; discriminate|apply Hn].
    + intros [|n] v; cbn; [intros X; injection X as <-; lia|apply Hv].
  - cbn [adc_process obind]. destruct (IH (fun x Hx => A x (or_intror Hx)) i I0) as (i2 & os & E2 & L & B2 & Hn & Hv). rewrite E2. cbn [obind].
    exists i2, (None :: os). split; [reflexivity|]. split; [cbn; lia|]. split; [exact B2|]. split.
    + intros [|n]; cbn; [tauto|apply Hn].
    + intros [|n] v; cbn; [discriminate|apply Hv].
Qed.
Lemma run_app a b i : adc_run i (a ++ b) = let! (i1, o1) := adc_run i a in let! (i2, o2) := adc_run i1 b in Ret (i2, o1 ++ o2).
Proof.
  revert i. induction a as [|r a IH]; intros i; cbn [adc_run app].
  - cbn [obind]. destruct (adc_run i b) as [[? ?]|]; reflexivity.
  - destruct (adc_process r i) as [[i1 o]|]; cbn [obind]; [|reflexivity]. rewrite IH.
    destruct (adc_run i1 a) as [[i2 o1]|]; cbn [obind]; [|reflexivity]. destruct (adc_run i2 b) as [[i3 o2]|]; reflexivity.
Qed.

(** *** Theorems *)
(** No sequence of samples makes the source panic, there is a value exactly for the reads that
    succeed, and each value lies between the smallest and the largest sample read up to it. *)
Theorem C44_within : forall first reads, (forall a, In a (samples first reads) -> a < 65536) ->
  exists os, adc first reads = Ret os /\ length os = length reads /\
    (forall n, nth_error os n = Some None <-> nth_error reads n = Some None) /\
    forall n v lo hi, nth_error os n = Some (Some v) -> smallest lo (samples first (firstn (S n) reads)) ->
      largest hi (samples first (firstn (S n) reads)) -> lo <= v <= hi.
Proof.
  intros first reads F. unfold adc, adc_start, u64, FACTOR. change (2 ^ 64) with 18446744073709551616.
  assert (F1 : first < 65536) by (apply F; left; auto). rewrite (proj2 (N.ltb_lt _ _)) by lia. cbn [obind].
  assert (R : forall rs a, In (Some a) rs -> In a (samples first rs)).
  { intros rs a Ha. right. apply in_flat_map. exists (Some a). split; [auto|left; auto]. }
  destruct (run_bounds 0 65535 reads ltac:(lia)) with (i := first * 8) as (i' & os & E & L & _ & Hn & _).
  { intros a Ha. apply R, F in Ha. lia. } { lia. }
  rewrite E. cbn [obind]. exists os. split; [reflexivity|]. split; [auto|]. split; [auto|].
  intros n v lo hi Hv (In1 & Lo) (In2 & Hi).
  assert (Ln : (n < length reads)%nat) by (rewrite <- L; apply nth_error_Some; congruence).
  rewrite <- (firstn_skipn (S n) reads), run_app in E.
  assert (Fl : forall a, In a (samples first (firstn (S n) reads)) -> a < 65536).
  { intros a [<-|Ha]; [auto|]. apply in_flat_map in Ha. destruct Ha as ([b|] & Hb & Hab); [|destruct Hab].
    destruct Hab as [<-|[]]. apply F, R. rewrite <- (firstn_skipn (S n) reads). apply in_or_app. auto. }
  destruct (run_bounds lo hi (firstn (S n) reads) (Fl hi In2)) with (i := first * 8) as (i1 & o1 & E1 & L1 & B1 & _ & V1).
  { intros a Ha. apply R in Ha. split; [apply Lo|apply Hi]; auto. }
  { assert (lo <= first) by (apply Lo; left; auto). assert (first <= hi) by (apply Hi; left; auto). lia. }
  rewrite E1 in E. cbn [obind] in E. destruct (adc_run i1 (skipn (S n) reads)) as [[i2 o2]|]; cbn [obind] in E; [|discriminate].
  injection E as _ <-. apply (V1 n). rewrite nth_error_app1 in Hv; auto. rewrite L1, firstn_length. lia.
Qed.
Print Assumptions C44_within.

(** A constant input is the output. *)
Theorem C44_constant : forall a n, a < 65536 -> adc a (repeat (Some a) n) = Ret (repeat (Some a) n).
Proof.
  intros a n H. assert (X : adc_run (a * 8) (repeat (Some a) n) = Ret (a * 8, repeat (Some a) n)).
  { induction n as [|n IH]; cbn [repeat adc_run]; [reflexivity|]. destruct (step a a a (a * 8)) as (i' & E & B & _); try lia. rewrite E. cbn [obind].
    replace i' with (a * 8) by lia. rewrite IH. cbn [obind]. rewrite N.div_mul by lia. reflexivity. }
  unfold adc, adc_start, u64, FACTOR. change (2 ^ 64) with 18446744073709551616. rewrite (proj2 (N.ltb_lt _ _)) by lia. cbn [obind].
  rewrite X. reflexivity.
Qed.
Print Assumptions C44_constant.

Example C44_case : adc 100 [Some 200; None; Some 0; Some 4095] = Ret [Some 111; None; Some 98; Some 542] /\
  smallest 0 (samples 100 [Some 200; None; Some 0]) /\ largest 200 (samples 100 [Some 200; None; Some 0]).
Proof.
  split; [reflexivity|]. split; split; cbn; auto; intros x; intuition lia.
Qed.

(** Once the input stays at [a], the output settles: from some read on it is [a] or one less
    and does not change any more; it is [a] if no sample was below [a]. Missing for C60 as
    stated: that it is [a] in the other cases (refuted below). *)
Lemma settle a : a < 65536 -> forall d i, i <= 8 * 65535 -> N.max (8 * a - i) (i - 8 * a) <= N.of_nat d ->
  exists k i0 os, adc_run i (repeat (Some a) k) = Ret (i0, os) /\ length os = k /\ (i0 + a) * 8 / 9 = i0 /\ 8 * a <= i0 + 8 /\ i0 <= 8 * a /\
    (8 * a <= i -> i0 = 8 * a).
Proof.
  intros A. induction d as [|d IH]; intros i I0 D.
  - exists O, i, []. cbn [repeat adc_run length]. replace i with (8 * a) by lia. repeat split; lia.
  - destruct (N.eq_dec ((i + a) * 8 / 9) i) as [Q|Q].
    + exists O, i, []. cbn [repeat adc_run length]. repeat split; lia.
    + destruct (step 0 65535 a i) as (i1 & E & B & Ei); try lia.
      destruct (IH i1) as (k & i0 & os & E1 & L & Fx & B1 & B2 & B3); [lia|lia|].
      exists (S k), i0, (Some (i1 / 8) :: os). cbn [repeat adc_run]. rewrite E. cbn [obind]. rewrite E1. cbn [obind].
      repeat split; auto; [cbn; lia|]. intros X. apply B3. lia.
Qed.
Theorem C60_settles_partial : forall first reads a, (forall x, In x (samples first reads) -> x < 65536) -> a < 65536 ->
  exists k v, (v = a \/ v + 1 = a) /\ ((forall x, In x (samples first reads) -> a <= x) -> v = a) /\
    forall n, exists os, adc first (reads ++ repeat (Some a) (k + n)) = Ret (os ++ repeat (Some v) n) /\ length os = (length reads + k)%nat.
Proof.
  intros first reads a F A. unfold adc, adc_start, u64, FACTOR. change (2 ^ 64) with 18446744073709551616.
  assert (F1 : first < 65536) by (apply F; left; auto). rewrite (proj2 (N.ltb_lt _ _)) by lia. cbn [obind].
  assert (R : forall a, In (Some a) reads -> In a (samples first reads)).
  { intros x Hx. right. apply in_flat_map. exists (Some x). split; [auto|left; auto]. }
  assert (X : exists i os, adc_run (first * 8) reads = Ret (i, os) /\ length os = length reads /\ i <= 8 * 65535 /\
    ((forall x, In x (samples first reads) -> a <= x) -> 8 * a <= i)).
  { destruct (run_bounds 0 65535 reads ltac:(lia)) with (i := first * 8) as (i & os & E & L & B & _).
    { intros x Hx. apply R, F in Hx. lia. } { lia. }
    exists i, os. repeat split; auto; [lia|]. intros G.
    destruct (run_bounds a 65535 reads ltac:(lia)) with (i := first * 8) as (i2 & os2 & E2 & _ & B2 & _).
    { intros x Hx. apply R in Hx. split; [apply G; auto|apply F in Hx; lia]. }
    { assert (a <= first) by (apply G; left; auto). lia. }
    rewrite E in E2. injection E2 as <- <-. lia. }
  destruct X as (i & os & E & L & B & G).
  destruct (settle a A (N.to_nat (8 * 65536)) i B) as (k & i0 & os1 & E1 & L1 & Fx & B1 & B2 & B3); [lia|].
  exists k, (i0 / 8). split; [lia|]. split; [intros H; rewrite (B3 (G H)); lia|]. intros n. exists (os ++ os1).
  split; [|rewrite app_length; lia]. rewrite run_app, E. cbn [obind]. rewrite repeat_app, run_app, E1. cbn [obind].
  assert (Y : adc_run i0 (repeat (Some a) n) = Ret (i0, repeat (Some (i0 / 8)) n)).
  { clear - A Fx B2. induction n as [|n IH]; [reflexivity|]. cbn [repeat adc_run].
    destruct (step 0 65535 a i0) as (i' & E & _ & Ei); try lia. rewrite E. cbn [obind]. rewrite Fx in Ei. subst i'. rewrite IH. reflexivity. }
  rewrite Y. cbn [obind]. rewrite app_assoc. reflexivity.
Qed.
Print Assumptions C60_settles_partial.

(** A constant input above the first sample is never reached. *)
Theorem C60_refuted : forall first a n, first < a -> a < 65536 ->
  exists os, adc first (repeat (Some a) n) = Ret os /\ length os = n /\ ~ In (Some a) os.
Proof.
  intros first a n H A. unfold adc, adc_start, u64, FACTOR. change (2 ^ 64) with 18446744073709551616.
  rewrite (proj2 (N.ltb_lt _ _)) by lia. cbn [obind].
  assert (X : forall i, i + 8 <= 8 * a -> exists i' os, adc_run i (repeat (Some a) n) = Ret (i', os) /\ length os = n /\ ~ In (Some a) os).
  { induction n as [|n IH]; intros i Hi; cbn [repeat adc_run].
    - exists i, []. auto.
    - destruct (step 0 65535 a i) as (i1 & E & _ & Ei); try lia. rewrite E. cbn [obind].
      destruct (IH i1 ltac:(lia)) as (i' & os & E1 & L & N0). rewrite E1. cbn [obind]. exists i', (Some (i1 / 8) :: os).
      split; [reflexivity|]. split; [cbn; lia|]. intros [Q|Q]; [|auto]. injection Q as Q. lia. }
  destruct (X (first * 8) ltac:(lia)) as (i' & os & E & L & N0). rewrite E. cbn [obind]. eauto.
Qed.
Print Assumptions C60_refuted.

Example C60_case : exists os, adc 0 (repeat (Some 10) 60) = Ret (os ++ repeat (Some 9) 20) /\ length os = 40%nat.
Proof. exists (match adc 0 (repeat (Some 10) 40) with Ret os => os | Panic => [] end). split; vm_compute; reflexivity. Qed.
