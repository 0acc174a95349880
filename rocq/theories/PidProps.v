(** C49, C50 and C62: the PID. *)
From Coq Require Import List NArith ZArith Bool Reals SpecFloat Lia Lra.
From Flocq Require Import Core BinarySingleNaN.
From Verif Require Import Base BincodeModel BincodeSpec BincodeProofs CodecModel CodecSpec CodecProofs FloatModel FloatFacts PidModel PidSpec PidProofs.
Import ListNotations.
Local Open Scope N_scope.

(** The hypotheses speak of every 32-bit pattern. *)
Lemma f32_values : forall x, valid x <-> exists b, ubits 32 b /\ x = of_bits b.
Proof. intros x. split; [intros V; exists (to_bits x); destruct (to_bits_of x V); auto|]. intros (b & B & ->). apply of_bits_valid. exact B. Qed.

Lemma small_0 e : small e f0.
Proof. split; [reflexivity|]. split; [reflexivity|]. unfold val. cbn. rewrite Rabs_R0. apply bpow_ge_0. Qed.

(** * C49 *)
(** Whatever the configuration, the measurements (infinities and NaN included), their times and
    the stops: what a task sends is within the limits. *)
Theorem C49_bounded : forall g c l t rs o, run l (task_new g c) = Ret (t, rs) -> In (Sent (Some o)) rs -> bounded g o.
Proof. intros g c l t rs o H K. eapply run_bounded; eauto. split; [reflexivity|left; reflexivity]. Qed.
Print Assumptions C49_bounded.
(** With limits that are not negative and times that do not go back, it never panics. *)
Theorem C49_total : forall g c l, limits_ok g -> sampling g < 2 ^ 63 -> timed 0 (fun _ tov => tov < 2 ^ 63) None l ->
  exists t rs, run l (task_new g c) = Ret (t, rs) /\ length rs = length (filter (fun o => match o with Process _ => true | Stop => false end) l).
Proof.
  intros g c l L Sa. 
  assert (K : forall l t last, PidModel.g (t_pid t) = g -> elapsed (t_pid t) <= sampling g -> (first_run t = false -> exists u, last = Some u /\ last_tov t <= u) -> timed 0 (fun _ tov => tov < 2 ^ 63) last l ->
    exists t' rs, run l t = Ret (t', rs) /\ length rs = length (filter (fun o => match o with Process _ => true | Stop => false end) l)).
  { clear l c. induction l as [|[i|] l IH]; intros t last G El Fr T; cbn [run filter].
    - exists t, []. auto.
    - assert (X : exists t1 r last1, process i t = Ret (t1, r) /\ PidModel.g (t_pid t1) = g /\ elapsed (t_pid t1) <= sampling g /\
                  (first_run t1 = false -> exists u, last1 = Some u /\ last_tov t1 <= u) /\ timed 0 (fun _ tov => tov < 2 ^ 63) last1 l).
      { destruct i as [[m [tov|]]|]; cbn [process timed] in *.
        2,3: do 3 eexists; split; [reflexivity|]; eauto 6.
        destruct T as (T1 & T2 & T3). destruct (first_run t) eqn:F.
        - do 3 eexists. split; [reflexivity|]. cbn. rewrite G. split; [auto|]. split; [lia|]. split; [|exact T3]. intros _. exists tov. split; [auto|lia].
        - destruct (Fr eq_refl) as (u & -> & Hu). destruct (N.ltb_spec tov (last_tov t)); [lia|].
          destruct (next_total m (tov - last_tov t) (t_pid t)) as (p & o & E1 & El'); [rewrite G; auto|change (2 ^ 64) with (2 ^ 63 + 2 ^ 63); lia|rewrite G; auto|].
          rewrite E1. cbn [obind t_setpoint cutoff]. assert (G' := proj1 (next_bounded _ _ _ _ _ E1)). rewrite G in G'. rewrite G' in El'.
          destruct (flt (fadd _ _) m); [|destruct (flt m _)]; do 3 eexists; (split; [reflexivity|]); cbn; rewrite ?G'; (split; [auto|]); (split; [auto|]); (split; [|exact T3]); intros _; exists tov; (split; [auto|lia]). }
      destruct X as (t1 & r & last1 & E1 & G1 & El1 & Fr1 & T1). rewrite E1. cbn [obind]. destruct (IH t1 last1 G1 El1 Fr1 T1) as (t2 & rs & E2 & Ln). rewrite E2. cbn [obind].
      exists t2, (r :: rs). split; [auto|]. cbn. lia.
    - cbn [timed] in T. apply (IH (stop t) None); auto. discriminate. }
  intros T. apply (K l (task_new g c) None); auto; try discriminate. cbn. lia.
Qed.
Print Assumptions C49_total.

Definition demo_gains : gains := Gains (of_bits 0x40000000) (of_bits 0x3F000000) (of_bits 0x3F800000) (of_bits 0) (of_bits 0x40000000) (of_bits 0x3F800000) (of_bits 0x40000000) (of_bits 0x3F800000) 0.
Definition demo_ops : list op := [Process (Some (of_bits 0x3F800000, Some 5)); Process None; Process (Some (of_bits 0xBF000000, Some 9000000)); Stop; Process (Some (of_bits 0x3DCCCCCD, Some 3));
  Process (Some (of_bits 0x3E4CCCCD, Some 4000000)); Process (Some (of_bits 0x7F800000, Some 5000000))].
Example C49_case : limits_ok demo_gains /\ timed 0 (fun _ tov => tov < 2 ^ 63) None demo_ops /\
  exists t o1 o2, run demo_ops (task_new demo_gains (of_bits 0x41200000)) = Ret (t, [Sent None; Sent None; Sent (Some o1); Sent None; Sent (Some o2); Failed]) /\
    to_bits (o_output o1) = 0x3F800000 /\ to_bits (o_output o2) = 0xBF53332F.
Proof.
  split; [repeat split; vm_compute; reflexivity|]. split; [vm_compute; repeat split; discriminate|].
  do 3 eexists. split; [vm_compute; reflexivity|]. split; vm_compute; reflexivity.
Qed.

(** * C50 *)
Lemma float_read x rest : valid x -> dec_float (enc_f32 (to_bits x) ++ rest) = Some (x, rest).
Proof. intros V. destruct (to_bits_of x V) as [E B]. unfold dec_float, dbind. rewrite (f32_lossless _ rest B). unfold dret. rewrite E. reflexivity. Qed.
Lemma thaw_freeze t0 t rest : pid_valid (t_pid t) -> thaw t0 (freeze t ++ rest) =
  Some (Task (Pid (g (t_pid t0)) (integral (t_pid t)) (last_error (t_pid t)) (elapsed (t_pid t)) (last_output (t_pid t))) (first_run t0) (last_tov t0) (t_setpoint t0) (cutoff t0), rest).
Proof.
  intros (_ & V1 & V2 & V3 & V4 & V5 & V6 & V7). unfold thaw, freeze, dec_payload, enc_payload, dbind.
  rewrite <- !app_assoc, (float_read _ _ V1), (float_read _ _ V2), (time_lossless (elapsed (t_pid t)) _ V3), (float_read _ _ V4), (float_read _ _ V5), (float_read _ _ V6), (float_read _ _ V7).
  destruct (last_output (t_pid t)). reflexivity.
Qed.
(** A task after any history, and one created with the same configuration and thawed from what
    the first froze. If the second was, when thawed, in the same phase (whether it had a
    measurement) and had the same time of the last measurement, it does the same ever after. *)
Theorem C50_same_phase_partial : forall g c l t rs t0, config_valid g -> sampling g < 2 ^ 64 -> Forall valid_op l -> run l (task_new g c) = Ret (t, rs) ->
  PidModel.g (t_pid t0) = g -> t_setpoint t0 = setpoint g -> cutoff t0 = c -> first_run t0 = first_run t -> last_tov t0 = last_tov t ->
  exists t', thaw t0 (freeze t) = Some (t', []) /\ forall l', run l' t' = run l' t.
Proof.
  intros g c l t rs t0 V Sa Vl H G S0 C0 F0 L0.
  assert (Vt : pid_valid (t_pid t)).
  { eapply (run_valid l (task_new g c)); eauto. split; [exact V|]. cbn. repeat split. }
  assert (Cf : forall l t t' rs, run l t = Ret (t', rs) -> PidModel.g (t_pid t') = PidModel.g (t_pid t) /\ t_setpoint t' = t_setpoint t /\ cutoff t' = cutoff t).
  { clear. induction l as [|[i|] l IH]; intros t t' rs H; cbn [run] in H.
    - injection H as <- <-. auto.
    - destruct (process i t) as [[t1 r]|] eqn:E1; [|discriminate]. cbn [obind] in H. destruct (run l t1) as [[t2 rs2]|] eqn:E2; [|discriminate]. cbn [obind] in H. injection H as <- <-.
      destruct (IH _ _ _ E2) as (A & B & C). rewrite A, B, C. destruct i as [[m [tov|]]|]; cbn [process] in E1; [|injection E1 as <- <-; auto..].
      destruct (first_run t); [injection E1 as <- <-; auto|]. destruct (tov <? last_tov t); [discriminate|].
      destruct (next_control_output _ _ _) as [[p st]|] eqn:E3; [|discriminate]. cbn [obind t_setpoint cutoff] in E1. assert (G := proj1 (next_bounded _ _ _ _ _ E3)).
      destruct (flt (fadd _ _) m); [|destruct (flt m _)]; injection E1 as <- <-; cbn; auto.
    - destruct (IH _ _ _ H) as (A & B & C). rewrite A, B, C. auto. }
  destruct (Cf _ _ _ _ H) as (G1 & S1 & C1). cbn in G1, S1, C1.
  assert (T := thaw_freeze t0 t [] Vt). rewrite app_nil_r in T. eexists. split; [exact T|]. intros l'. f_equal.
  rewrite G, S0, C0, F0, L0, <- S1, <- C1. destruct t as [[g' a b e o] f' lt' sp co]; cbn in *. subst g'. reflexivity.
Qed.
Print Assumptions C50_same_phase_partial.
(** Whatever its phase, it does the same once it has been stopped. *)
Theorem C50_after_stop_partial : forall g c l t rs t0, config_valid g -> sampling g < 2 ^ 64 -> Forall valid_op l -> run l (task_new g c) = Ret (t, rs) ->
  PidModel.g (t_pid t0) = g -> t_setpoint t0 = setpoint g -> cutoff t0 = c ->
  exists t', thaw t0 (freeze t) = Some (t', []) /\ forall l', option_map snd (match run (Stop :: l') t' with Ret r => Some r | Panic => None end) = option_map snd (match run (Stop :: l') t with Ret r => Some r | Panic => None end).
Proof.
  intros g c l t rs t0 V Sa Vl H G S0 C0.
  destruct (C50_same_phase_partial g c l t rs (Task (t_pid t0) (first_run t) (last_tov t) (t_setpoint t0) (cutoff t0)) V Sa Vl H G S0 C0 eq_refl eq_refl) as (t1 & E1 & R1).
  assert (Vt : pid_valid (t_pid t)).
  { eapply (run_valid l (task_new g c)); eauto. split; [exact V|]. cbn. repeat split. }
  assert (T1 := thaw_freeze (Task (t_pid t0) (first_run t) (last_tov t) (t_setpoint t0) (cutoff t0)) t [] Vt).
  assert (T := thaw_freeze t0 t [] Vt). rewrite app_nil_r in T, T1. rewrite T1 in E1. injection E1 as <-. cbn in R1.
  eexists. split; [exact T|]. intros l'. rewrite <- R1. cbn [run]. unfold stop. cbn.
  set (p := reset _). generalize (last_tov t0) (last_tov t). generalize (t_setpoint t0) (cutoff t0) p. clear. intros sp co p u v.
  induction l' as [|[i|] l IH]; cbn [run]; [reflexivity| |].
  - destruct i as [[m [tov|]]|]; cbn [process obind first_run]; [reflexivity| |].
    + destruct (run l (Task p true u sp co)) as [[? ?]|], (run l (Task p true v sp co)) as [[? ?]|]; cbn in *; congruence.
    + destruct (run l (Task p true u sp co)) as [[? ?]|], (run l (Task p true v sp co)) as [[? ?]|]; cbn in *; congruence.
  - unfold stop. cbn. clear IH. set (q := reset p). clearbody q. revert q.
    induction l as [|[i|] l IH]; intros q; cbn [run]; [reflexivity| |].
    + destruct i as [[m [tov|]]|]; cbn [process obind first_run]; [reflexivity| |].
      * specialize (IH q). destruct (run l (Task q true u sp co)) as [[? ?]|], (run l (Task q true v sp co)) as [[? ?]|]; cbn in *; congruence.
      * specialize (IH q). destruct (run l (Task q true u sp co)) as [[? ?]|], (run l (Task q true v sp co)) as [[? ?]|]; cbn in *; congruence.
    + unfold stop. cbn. apply IH.
Qed.
Print Assumptions C50_after_stop_partial.
(** A new task thawed from a running one swallows its next measurement. *)
Theorem C50_refuted : exists g c l t rs t' i, config_valid g /\ Forall valid_op l /\ run l (task_new g c) = Ret (t, rs) /\ thaw (task_new g c) (freeze t) = Some (t', []) /\
  (exists t1, process i t' = Ret (t1, Sent None)) /\ exists t2 o, process i t = Ret (t2, Sent (Some o)).
Proof.
  exists demo_gains, (of_bits 0x41200000), [Process (Some (of_bits 0x3F800000, Some 5)); Process (Some (of_bits 0xBF000000, Some 9000000))].
  do 3 eexists. exists (Some (of_bits 0x3F000000, Some 9500000)).
  split; [repeat split; vm_compute; reflexivity|]. split; [repeat constructor; vm_compute; reflexivity|].
  split; [vm_compute; reflexivity|]. split; [vm_compute; reflexivity|]. split; [eexists; vm_compute; reflexivity|]. do 2 eexists. vm_compute. reflexivity.
Qed.
Print Assumptions C50_refuted.
Example C50_case : exists t rs t', run demo_ops (task_new demo_gains (of_bits 0x41200000)) = Ret (t, rs) /\ Forall valid_op demo_ops /\ length (freeze t) = 25%nat /\
  thaw (Task (pid_new demo_gains) false 5000000 (setpoint demo_gains) (of_bits 0x41200000)) (freeze t) = Some (t', []) /\ t' = t.
Proof.
  do 3 eexists. split; [vm_compute; reflexivity|]. split; [repeat constructor; vm_compute; reflexivity|]. split; [vm_compute; reflexivity|]. split; vm_compute; reflexivity.
Qed.

(** * C62 *)
(** Finite configuration, measurements of magnitude up to 2^50, increasing times: everything
    sent is a finite number, however long it runs. *)
Theorem C62_number : forall g c l t rs o, numbers g -> timed 1 (fun m _ => small 50 m) None l ->
  run l (task_new g c) = Ret (t, rs) -> In (Sent (Some o)) rs -> finite_payload o.
Proof.
  intros g c l t rs o Nu.
  assert (K : forall l t last t' rs, state_ok (t_pid t) -> (first_run t = true \/ finite_payload (last_output (t_pid t)) \/ sampling (PidModel.g (t_pid t)) <= elapsed (t_pid t)) ->
    (first_run t = false -> last = Some (last_tov t)) -> timed 1 (fun m _ => small 50 m) last l -> run l t = Ret (t', rs) -> forall o, In (Sent (Some o)) rs -> finite_payload o).
  { clear - Nu. induction l as [|[i|] l IH]; intros t last t' rs St Fi La T H o Hin; cbn [run] in H.
    - injection H as <- <-. destruct Hin.
    - destruct (process i t) as [[t1 r]|] eqn:E1; [|discriminate]. cbn [obind] in H. destruct (run l t1) as [[t2 rs2]|] eqn:E2; [|discriminate]. cbn [obind] in H. injection H as <- <-.
      assert (X : (forall o, r = Sent (Some o) -> finite_payload o) /\ state_ok (t_pid t1) /\ (first_run t1 = true \/ finite_payload (last_output (t_pid t1)) \/ sampling (PidModel.g (t_pid t1)) <= elapsed (t_pid t1)) /\
        exists last1, (first_run t1 = false -> last1 = Some (last_tov t1)) /\ timed 1 (fun m _ => small 50 m) last1 l).
      { destruct i as [[m [tov|]]|]; cbn [process timed] in *.
        2,3: injection E1 as <- <-; split; [discriminate|]; eauto 6.
        destruct T as (T1 & T2 & T3). destruct (first_run t) eqn:F.
        - injection E1 as <- <-. split; [discriminate|]. cbn. split; [|split; [right; right; lia|exists (Some tov); auto]].
          destruct St as (S1 & S2 & S3). split; [exact S1|]. cbn. split; [exact S2|]. destruct S1 as (_ & _ & _ & S1 & _). apply (small_sub 50 _ _ S1 T2). lia.
        - specialize (La eq_refl). subst last. destruct (N.ltb_spec tov (last_tov t)); [discriminate|].
          destruct (next_control_output m (tov - last_tov t) (t_pid t)) as [[p st]|] eqn:E3; [|discriminate]. cbn [obind t_setpoint cutoff] in E1.
          destruct (next_number m (tov - last_tov t) (t_pid t) p st St T2) as [St1 Fp]; [lia|exact E3|]. destruct (next_bounded _ _ _ _ _ E3) as (G & Lo & B).
          assert (Fst : finite_payload st).
          { destruct Fp as [Fp|[-> Fp]]; [auto|]. destruct Fi as [Fi|[Fi|Fi]]; [discriminate|auto|lia]. }
          assert (R : forall r', Ret (Task p false tov (t_setpoint t) (cutoff t), r') = Ret (t1, r) -> (forall o, r' = Sent (Some o) -> finite_payload o) ->
            (forall o, r = Sent (Some o) -> finite_payload o) /\ state_ok (t_pid t1) /\ (first_run t1 = true \/ finite_payload (last_output (t_pid t1)) \/ sampling (PidModel.g (t_pid t1)) <= elapsed (t_pid t1)) /\
            exists last1, (first_run t1 = false -> last1 = Some (last_tov t1)) /\ timed 1 (fun m _ => small 50 m) last1 l).
          { intros r' K1 K2. injection K1 as <- <-. split; [exact K2|]. cbn. split; [exact St1|]. rewrite Lo. split; [auto|]. exists (Some tov). auto. }
          destruct (flt (fadd _ _) m); [|destruct (flt m _)]; apply (R _ E1); try discriminate. intros o0 K0. injection K0 as <-. exact Fst. }
      destruct X as (X1 & X2 & X3 & last1 & X4 & X5). destruct Hin as [->|Hin]; [apply X1; reflexivity|]. eapply IH; eauto.
    - cbn [timed] in T. eapply (IH (stop t) None); eauto; [|discriminate]. destruct St as (S1 & S2 & S3). split; [exact S1|]. cbn.
      assert (Z0 := small_0). auto. }
  intros T H Hin. eapply (K l (task_new g c) None); eauto; [|discriminate]. split; [exact Nu|].
  assert (Z0 := small_0). split; apply Z0.
Qed.
Print Assumptions C62_number.
(** Increasing times are needed: two measurements with the same time give NaN, even with a zero
    derivative gain. *)
Theorem C62_same_time_refuted : exists g c l t o, numbers g /\ kd g = f0 /\ timed 0 (fun m _ => small 50 m) None l /\
  run l (task_new g c) = Ret (t, [Sent None; Sent (Some o)]) /\ o_output o = S754_nan.
Proof.
  exists (Gains (of_bits 0x40000000) f0 f0 f0 (of_bits 0x40000000) (of_bits 0x3F800000) (of_bits 0x40000000) (of_bits 0x3F800000) 0), (of_bits 0x41200000),
    [Process (Some (f0, Some 7)); Process (Some (f0, Some 7))].
  assert (Z0 : small 50 f0) by apply small_0.
  do 2 eexists. split; [|split; [reflexivity|split; [|split; [vm_compute; reflexivity|reflexivity]]]].
  - unfold numbers, finite. cbn [kp ki kd setpoint p_limit i_limit d_limit output_limit]. repeat (split; [first [exact Z0|split; vm_compute; reflexivity]|]). split; vm_compute; reflexivity.
  - cbn. split; [auto|]. split; [exact Z0|]. split; [lia|]. auto.
Qed.
Print Assumptions C62_same_time_refuted.
Lemma small_bits b s m : of_bits b = S754_finite s m (-23) -> (Z.pos m < 2 ^ 24)%Z -> valid (of_bits b) -> small 50 (of_bits b).
Proof.
  intros E B V. split; [exact V|]. rewrite E. split; [reflexivity|]. unfold val, SF2R, F2R. cbn [Fnum Fexp].
  rewrite Rabs_mult, <- abs_IZR. replace (Z.abs (cond_Zopp s (Z.pos m))) with (Z.pos m) by (destruct s; reflexivity).
  assert (IZR (Z.pos m) <= bpow radix2 24)%R. { change (bpow radix2 24) with (IZR (2 ^ 24)). apply IZR_le. lia. }
  rewrite Rabs_pos_eq by apply bpow_ge_0. apply Rle_trans with (bpow radix2 24 * bpow radix2 (-23))%R.
  - apply Rmult_le_compat_r; auto. apply bpow_ge_0.
  - rewrite <- bpow_plus. apply bpow_le. lia.
Qed.
(** Measurements 1.0, 1.5 and -1.25 with every gain in use. *)
Example C62_case : let l := [Process (Some (of_bits 0x3F800000, Some 5)); Process (Some (of_bits 0x3FC00000, Some 1000000)); Process (Some (of_bits 0xBFA00000, Some 2000000))] in
  numbers demo_gains /\ timed 1 (fun m _ => small 50 m) None l /\ exists t o1 o2, run l (task_new demo_gains (of_bits 0x41200000)) = Ret (t, [Sent None; Sent (Some o1); Sent (Some o2)]) /\
  to_bits (o_d o1) = 3204448298 /\ to_bits (o_output o2) = 0x3F800000.
Proof.
  cbv zeta. assert (Z0 : small 50 (of_bits 0)) by apply small_0.
  split; [|split].
  - unfold numbers, finite. cbn [demo_gains kp ki kd setpoint p_limit i_limit d_limit output_limit]. repeat (split; [first [exact Z0|split; vm_compute; reflexivity]|]). split; vm_compute; reflexivity.
  - assert (S1 : small 50 (of_bits 0x3F800000)) by (apply (small_bits _ false 8388608); [vm_compute; reflexivity|reflexivity|vm_compute; reflexivity]).
    assert (S2 : small 50 (of_bits 0x3FC00000)) by (apply (small_bits _ false 12582912); [vm_compute; reflexivity|reflexivity|vm_compute; reflexivity]).
    assert (S3 : small 50 (of_bits 0xBFA00000)) by (apply (small_bits _ true 10485760); [vm_compute; reflexivity|reflexivity|vm_compute; reflexivity]).
    cbn [timed]. split; [exact I|]. split; [exact S1|]. split; [lia|]. split; [exact S2|]. split; [lia|]. split; [exact S3|exact I].
  - do 3 eexists. split; [vm_compute; reflexivity|]. split; vm_compute; reflexivity.
Qed.
