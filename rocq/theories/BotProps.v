(** C121 to C126: the balancing robot. *)
From Coq Require Import List NArith ZArith Bool Reals Lra Lia SpecFloat.
From Flocq Require Import Core BinarySingleNaN.
From Verif Require Import Base CuListModel PlanModel RuntimeModel FloatModel FloatFacts PayloadFloat PidModel PidSpec PidProofs PidProps MotorModel MotorProps BotModel BotSpec BotProofs.
Import ListNotations.

(** * Numbers *)
Lemma f32_of_fin n : (n <= 2 ^ 32)%N -> fin (f32_of n) /\ val (f32_of n) = rn (IZR (Z.of_N n)) /\ (0 <= val (f32_of n) <= bpow radix2 32)%R.
Proof.
  intros H. assert (B : (0 <= rn (IZR (Z.of_N n)) <= bpow radix2 32)%R).
  { split; [rewrite <- rn_0; apply rn_le; apply IZR_le; lia|]. rewrite <- rn_bpow by lia. apply rn_le. change (bpow radix2 32) with (IZR (2 ^ 32)). apply IZR_le. lia. }
  destruct (f32_of_real n) as [F V].
  - rewrite Rabs_pos_eq by lra. assert (K := bpow_big 32 ltac:(lia)). lra.
  - rewrite V. auto.
Qed.
Lemma f32_of_exact n : (n < 2 ^ 24)%N -> val (f32_of n) = IZR (Z.of_N n).
Proof.
  intros H. destruct (f32_of_fin n ltac:(lia)) as (_ & -> & _). assert (K := rn_exact (Z.of_N n) 0 ltac:(lia) ltac:(lia)).
  change (bpow radix2 0) with 1%R in K. rewrite Rmult_1_r in K. exact K.
Qed.
Lemma f32_of_above k n : (k + 1 < 2 ^ 24)%N -> (n <= 2 ^ 32)%N -> flt (f32_of k) (f32_of n) = false -> (n <= k)%N.
Proof.
  intros Hk Hn H. destruct (f32_of_fin k ltac:(lia)) as (Fk & _ & _). destruct (f32_of_fin n Hn) as (Fn & Vn & _).
  rewrite flt_real, Vn, (f32_of_exact k ltac:(lia)) in H by auto using f32_of_valid.
  destruct (Rlt_bool_spec (IZR (Z.of_N k)) (rn (IZR (Z.of_N n)))) as [?|L]; [discriminate|]. apply N.nlt_ge. intros C.
  assert (rn (IZR (Z.of_N (k + 1))) <= rn (IZR (Z.of_N n)))%R by (apply rn_le, IZR_le; lia).
  destruct (f32_of_fin (k + 1) ltac:(lia)) as (_ & E & _). rewrite <- E, (f32_of_exact (k + 1) ltac:(lia)) in H0.
  assert (IZR (Z.of_N k) < IZR (Z.of_N (k + 1)))%R by (apply IZR_lt; lia). lra.
Qed.
Lemma f32_of_below k n : (k < 2 ^ 24)%N -> (n < 2 ^ 24)%N -> flt (f32_of n) (f32_of k) = false -> (k <= n)%N.
Proof.
  intros Hk Hn H. destruct (f32_of_fin k ltac:(lia)) as (Fk & _ & _). destruct (f32_of_fin n ltac:(lia)) as (Fn & _ & _).
  rewrite flt_real, !f32_of_exact in H by auto using f32_of_valid.
  destruct (Rlt_bool_spec (IZR (Z.of_N n)) (IZR (Z.of_N k))) as [?|L]; [discriminate|]. apply le_IZR in L. lia.
Qed.
Lemma flt_fopp x y : flt (fopp x) (fopp y) = flt y x.
Proof.
  unfold flt, SFltb, fopp. destruct x as [s|[]| |[] m e], y as [s'|[]| |[] m' e']; cbn; auto;
  rewrite (Z.compare_antisym e' e); destruct (Z.compare_spec e' e); cbn; auto; change (Pos.compare_cont Eq) with Pos.compare; rewrite ?(Pos.compare_antisym m' m); destruct (Pos.compare m' m); auto.
Qed.
Lemma fopp_fopp x : fopp (fopp x) = x.
Proof. destruct x as [s|s| |s m e]; cbn; rewrite ?negb_involutive; auto. Qed.
Lemma f32_of_small n : (n <= 2 ^ 32)%N -> small 50 (f32_of n).
Proof.
  intros H. destruct (f32_of_fin n H) as (F & _ & B). split; [apply f32_of_valid|]. split; [exact F|]. rewrite Rabs_pos_eq by lra.
  apply Rle_trans with (bpow radix2 32); [lra|]. apply bpow_le. lia.
Qed.
Lemma measure_small v f : measure v = Some f -> match v with VAngle a => (a < 2 ^ 16)%N | VRail z => (- 2 ^ 31 <= z < 2 ^ 31)%Z | _ => True end -> small 50 f.
Proof.
  destruct v as [a|z| |]; cbn [measure]; try discriminate; intros [= <-] H.
  - apply f32_of_small. lia.
  - destruct (Z.ltb_spec z 0); [|apply f32_of_small; lia].
    destruct (f32_of_small (Z.to_N (- z)) ltac:(lia)) as (V & F & B). split; [apply fopp_valid, V|]. split; [apply fopp_fin, F|]. rewrite fopp_val, Rabs_Ropp. exact B.
Qed.
Lemma reading_valid x : valid_op (PidModel.Process (reading x)).
Proof.
  unfold reading. destruct (m_payload x) as [v|]; [|exact I]. destruct v as [a|z| |]; cbn [measure valid_op]; auto using f32_of_valid.
  destruct (z <? 0)%Z; auto using f32_of_valid, fopp_valid.
Qed.

(** What a PID sends is its last output, and the measurement was within the limits. *)
Lemma process_sent m t t' o : PidModel.process m t = Ret (t', Sent (Some o)) -> o = last_output (t_pid t') /\
  exists f u, m = Some (f, Some u) /\ flt (fadd (t_setpoint t) (cutoff t)) f = false /\ flt f (fsub (t_setpoint t) (cutoff t)) = false.
Proof.
  destruct m as [[f [u|]]|]; cbn [PidModel.process]; try discriminate. destruct (first_run t); [discriminate|]. destruct (u <? last_tov t)%N; [discriminate|].
  destruct (next_control_output _ _ _) as [[p st]|] eqn:E; [|discriminate]. cbn [obind t_setpoint cutoff].
  destruct (flt (fadd _ _) f) eqn:E1; [discriminate|]. destruct (flt f _) eqn:E2; [discriminate|]. intros H. injection H as <- <-. cbn.
  destruct (next_bounded _ _ _ _ _ E) as (_ & -> & _). split; [reflexivity|]. eauto 6.
Qed.
Lemma angle_sent {W} (w : world W) x t t' o : sensors_ok w -> angle_msg w x -> t_setpoint t = setpoint bal_gains -> cutoff t = bal_cutoff ->
  PidModel.process (reading x) t = Ret (t', Sent (Some o)) -> good_angle x.
Proof.
  intros [Sa _] Mx Es Ec H. apply process_sent in H. destruct H as (_ & f & u & Hr & H1 & H2). rewrite Es, Ec in *.
  destruct Mx as [Mx|(y & y' & a & k & Mx & Pa & Me)]; [unfold reading in Hr; rewrite Mx in Hr; discriminate|].
  unfold reading in Hr. rewrite Pa, Me in Hr. cbn [measure] in Hr. injection Hr as <- <-. specialize (Sa _ _ _ _ Mx).
  change (fadd (setpoint bal_gains) bal_cutoff) with (f32_of 3242) in H1. change (fsub (setpoint bal_gains) bal_cutoff) with (f32_of 2902) in H2.
  apply f32_of_above in H1; [|lia..]. apply f32_of_below in H2; [|lia..]. exists a, k. auto.
Qed.
Lemma rail_sent {W} (w : world W) x t t' o : sensors_ok w -> rail_msg w x -> t_setpoint t = setpoint rail_gains -> cutoff t = rail_cutoff ->
  PidModel.process (reading x) t = Ret (t', Sent (Some o)) -> good_rail x.
Proof.
  intros [_ Sr] Mx Es Ec H. apply process_sent in H. destruct H as (_ & f & u & Hr & H1 & H2). rewrite Es, Ec in *.
  destruct Mx as (y & y' & n & k & Mx & Pa & Me). unfold reading in Hr. rewrite Pa, Me in Hr. cbn [measure] in Hr. injection Hr as <- <-. specialize (Sr _ _ _ _ Mx).
  change (fadd (setpoint rail_gains) rail_cutoff) with (f32_of 1000) in H1. change (fsub (setpoint rail_gains) rail_cutoff) with (fopp (f32_of 1000)) in H2.
  exists n, k. split; [exact Pa|]. split; [exact Me|]. destruct (Z.ltb_spec n 0).
  - rewrite flt_fopp in H2. apply f32_of_above in H2; lia.
  - apply f32_of_above in H1; lia.
Qed.
Lemma off_none m : off (fst (MotorModel.process None (true, true) m)).
Proof. split; reflexivity. Qed.

(** * C121: the motor stops on readings the robot may not be driven on *)
Section Stops.
Context {W : Type}.
Variable w : world W.
Variable monitor : phase -> nat -> fault -> decision.
Hypothesis Hi : ignores monitor.
Hypothesis Hw : pwm_ok w.
Hypothesis Hs : sensors_ok w.
Lemma pass_command tr m e e' tr' slots msgs d : inv w tr m e -> pass w e e' tr' slots msgs d ->
  off (b_motor e') \/ good_angle (x0 d) /\ good_rail (x1 d) /\ r0 d = None.
Proof.
  intros I P. destruct (pass_given w _ _ _ _ _ _ P) as (_ & _ & _ & M2 & M3).
  destruct (power (z d)) as [p|] eqn:Pz.
  2: { left. rewrite (p_motor _ _ _ _ _ _ _ P), Pz, Hw. apply off_none. }
  right. assert (Z := p_z _ _ _ _ _ _ _ P). unfold power in Pz. rewrite Z in Pz.
  destruct (pid_payload (y2 d)) as [b|] eqn:Yb; [|discriminate]. destruct (pid_payload (y3 d)) as [q|] eqn:Yq; [|discriminate].
  unfold pid_payload in Yb, Yq. rewrite (p_y2 _ _ _ _ _ _ _ P) in Yb. rewrite (p_y3 _ _ _ _ _ _ _ P) in Yq.
  destruct (rb d) as [[ob|]|] eqn:Rb; try discriminate. destruct (rr d) as [[oq|]|] eqn:Rq; try discriminate.
  assert (Hb := p_bal _ _ _ _ _ _ _ P). assert (Hr := p_rail _ _ _ _ _ _ _ P). rewrite Rb in Hb. rewrite Rq in Hr.
  destruct (i_bal _ _ _ _ I) as [rs1 L1]. destruct (i_rail _ _ _ _ I) as [rs2 L2]. apply run_config in L1, L2. destruct L1 as [S1 C1], L2 as [S2 C2].
  assert (GA : good_angle (x0 d)) by (eapply (angle_sent w); eauto).
  split; [exact GA|]. split; [eapply (rail_sent w); eauto|].
  assert (X := p_x0 _ _ _ _ _ _ _ P). destruct GA as (a & t & E & _). rewrite E in X. apply X.
Qed.
Lemma stops mode tr m e tr' m' e' r : reaches w monitor mode tr m e ->
  run_one_iteration (bot_app mode) (bot_oracles w monitor) m e = (e', m', tr', r) -> b_dead e' = false ->
  (exists x, In x (given 2 tr') /\ ~ good_angle x) \/ (exists x, In x (given 3 tr') /\ ~ good_rail x) \/ (exists f, In (0%nat, [], Some f) (calls tr')) ->
  off (b_motor e').
Proof.
  intros R H D B. destruct (reached_iteration w monitor Hi mode _ _ _ _ _ _ _ R H D) as [(C & _)|(sl & ms & d & _ & P & I)].
  - unfold given in B. rewrite C in B. destruct B as [(x & [] & _)|[(x & [] & _)|(f & [])]].
  - destruct (pass_given w _ _ _ _ _ _ P) as (G2 & G3 & _). destruct (pass_command _ _ _ _ _ _ _ _ I P) as [F|(GA & GR & R0)]; [exact F|exfalso].
    rewrite G2, G3, (p_calls _ _ _ _ _ _ _ P), R0 in B. destruct B as [(x & [<-|[]] & B)|[(x & [<-|[]] & B)|(f & B)]]; [auto..|].
    cbn in B. intuition congruence.
Qed.
End Stops.

(** With the console monitor of the configuration and a PWM that accepts the writes: an
    iteration in which the angle could not be read, or in which a PID was given a reading out
    of its limits, without time or no reading at all, leaves no power on the motor. *)
Theorem C121_stops : forall W (w : world W) mode tr m e tr' m' e' r, pwm_ok w -> sensors_ok w -> reaches w console mode tr m e ->
  run_one_iteration (bot_app mode) (bot_oracles w console) m e = (e', m', tr', r) -> b_dead e' = false ->
  (exists x, In x (given 2 tr') /\ ~ good_angle x) \/ (exists x, In x (given 3 tr') /\ ~ good_rail x) \/ (exists f, In (0%nat, [], Some f) (calls tr')) ->
  off (b_motor e').
Proof. intros W w mode tr m e tr' m' e' r Hw Hs. apply stops; auto. intros t f. reflexivity. Qed.
Print Assumptions C121_stops.
(** Each iteration that does not panic gives one reading to each PID, and one command to the motor. *)
Theorem C121_reads : forall W (w : world W) mode tr m e tr' m' e' r, reaches w console mode tr m e ->
  run_one_iteration (bot_app mode) (bot_oracles w console) m e = (e', m', tr', r) -> b_dead e' = false -> r <> RPanic ->
  exists x y z, given 2 tr' = [x] /\ given 3 tr' = [y] /\ given 5 tr' = [z] /\
    map (fun c => fst (fst c)) (calls tr') = [0; 2; 1; 3; 4; 5]%nat.
Proof.
  intros W w mode tr m e tr' m' e' r R H D Np. destruct (reached_iteration w console (fun t f => eq_refl) mode _ _ _ _ _ _ _ R H D) as [(_ & K & _)|(sl & ms & d & _ & P & I)]; [congruence|].
  destruct (pass_given w _ _ _ _ _ _ P) as (G2 & G3 & G5 & _). exists (x0 d), (x1 d), (z d). rewrite (p_calls _ _ _ _ _ _ _ P). auto.
Qed.
Print Assumptions C121_reads.

(** A robot for the examples: the n-th reading is taken at n milliseconds, the angle is
    [ang n], the position [pos n]; the converter fails when the angle is 0; from [quit] on
    the monitor reports that the user quits. *)
Definition demo (ang : N -> N) (pos : N -> Z) (quit : N) : world N := {|
  w_angle := fun n => ((n + 1)%N, if (ang n =? 0)%N then None else Some (ang n, (n * 1000000)%N));
  w_rail := fun n => ((n + 1)%N, (pos n, (n * 1000000)%N));
  w_life := fun ph t n => (n, None);
  w_hw := fun n => (n, (true, true));
  w_now := fun n => (n, (n * 1000000)%N);
  w_report := fun l n => (n, if (quit <=? n)%N then Some FExiting else None);
  w_log := fun n l => true |}.
Lemma demo_pwm ang pos quit : pwm_ok (demo ang pos quit). Proof. intros x. reflexivity. Qed.
Lemma demo_sensors ang pos quit : (forall n, (ang n < 2 ^ 16)%N) -> (forall n, (- 2 ^ 31 <= pos n < 2 ^ 31)%Z) -> sensors_ok (demo ang pos quit).
Proof.
  intros Ha Hp. split; cbn [demo w_angle w_rail].
  - intros x y a t. destruct (ang x =? 0)%N; [discriminate|]. intros [= <- <- <-]. apply Ha.
  - intros x y z t [= <- <- <-]. apply Hp.
Qed.
(** Some iterations from the start. *)
Fixpoint iterate {W} (w : world W) monitor mode n tr m e : option (list ev * mgr (list message) * bot W) :=
  match n with
  | O => Some (tr, m, e)
  | S n => let '(e', m', tr', r) := run_one_iteration (bot_app mode) (bot_oracles w monitor) m e in
           match r with RuntimeModel.ROk => if b_dead e' then None else iterate w monitor mode n (tr ++ tr') m' e' | _ => None end
  end.
Definition go {W} (w : world W) monitor mode n x : option (list ev * mgr (list message) * bot W) :=
  let '(e, tr, r) := all_tasks (bot_app mode) (bot_oracles w monitor) Start (bot_new x) in
  match r with RuntimeModel.ROk => iterate w monitor mode n tr (mgr_new 10 bot_zero) e | _ => None end.
Lemma go_reaches {W} (w : world W) monitor mode n x tr m e : go w monitor mode n x = Some (tr, m, e) -> reaches w monitor mode tr m e.
Proof.
  unfold go. destruct (all_tasks _ _ Start (bot_new x)) as [[e0 t0] r0] eqn:S. destruct r0; try discriminate.
  assert (R : reaches w monitor mode t0 (mgr_new 10 bot_zero) e0) by (eapply started; eauto). clear S. revert t0 e0 R. generalize (mgr_new 10 bot_zero).
  induction n as [|n IH]; intros m0 t0 e0 R; cbn [iterate]; [intros [= <- <- <-]; exact R|].
  destruct (run_one_iteration _ _ m0 e0) as [[[e1 m1] t1] r] eqn:H. destruct r; try discriminate. destruct (b_dead e1) eqn:D; [discriminate|].
  intros K. eapply IH; [|exact K]. eapply iterated; eauto.
Qed.
(** A state reached in [n] iterations, and one more. *)
Definition further {W} (w : world W) monitor mode n x (P : list ev -> bot W -> list ev -> bot W -> @RuntimeModel.result fault -> Prop) : Prop :=
  match go w monitor mode n x with
  | Some (tr, m, e) => let '(e', m', tr', r) := run_one_iteration (bot_app mode) (bot_oracles w monitor) m e in b_dead e' = false /\ P tr e tr' e' r
  | None => False
  end.
Lemma further_spec {W} (w : world W) monitor mode n x P : further w monitor mode n x P ->
  exists tr m e e' m' tr' r, reaches w monitor mode tr m e /\ run_one_iteration (bot_app mode) (bot_oracles w monitor) m e = (e', m', tr', r) /\ b_dead e' = false /\ P tr e tr' e' r.
Proof.
  unfold further. destruct (go w monitor mode n x) as [[[tr m] e]|] eqn:G; [|intros []]. apply go_reaches in G.
  destruct (run_one_iteration _ _ m e) as [[[e' m'] tr'] r] eqn:H. intros [D K]. repeat eexists; eauto.
Qed.
Definition tilt (n : N) : N := if (n <? 6)%N then 3090 else if (n <? 8)%N then 3243 else if (n <? 10)%N then 3100 else 0.
(** Within the limits; then a reading one above, a good one, and a failed one. *)
Example C121_case : further (demo tilt (fun _ => 5%Z) 1000) console Checked 2 0%N (fun _ e tr e' r => (exists x y, given 2 tr = [x] /\ given 5 tr = [y] /\ good_angle x /\ power y <> None) /\ ~ off (b_motor e) /\ ~ off (b_motor e') /\ r = ROk)
  /\ further (demo tilt (fun _ => 5%Z) 1000) console Checked 3 0%N (fun _ e tr e' r => (exists x, given 2 tr = [x] /\ m_payload x = Some (VAngle 3243)) /\ ~ off (b_motor e) /\ off (b_motor e') /\ r = ROk)
  /\ further (demo tilt (fun _ => 5%Z) 1000) console Checked 5 0%N (fun _ e tr e' r => In (0%nat, [], Some FDriver) (calls tr) /\ ~ off (b_motor e) /\ off (b_motor e') /\ r = ROk).
Proof.
  vm_compute. split; [|split].
  - split; [reflexivity|]. split; [do 2 eexists; split; [reflexivity|]; split; [reflexivity|]; split; [do 2 eexists; split; [reflexivity|]; split; [reflexivity|split; discriminate]|discriminate]|].
    split; [intros []; discriminate|]. split; [intros []; discriminate|reflexivity].
  - split; [reflexivity|]. split; [eexists; split; reflexivity|]. split; [intros []; discriminate|]. split; [split; reflexivity|reflexivity].
  - split; [reflexivity|]. split; [left; reflexivity|]. split; [intros []; discriminate|]. split; [split; reflexivity|reflexivity].
Qed.
Example C121_case' : pwm_ok (demo tilt (fun _ => 5%Z) 1000) /\ sensors_ok (demo tilt (fun _ => 5%Z) 1000).
Proof.
  split; [apply demo_pwm|]. apply demo_sensors; intros n; [|lia]. unfold tilt. destruct (n <? 6)%N; [reflexivity|]. destruct (n <? 8)%N; [reflexivity|]. destruct (n <? 10)%N; reflexivity.
Qed.

(** The command of an iteration and the outputs it comes from. *)
Lemma pass_power {W} (w : world W) e e' tr' slots msgs d p : pass w e e' tr' slots msgs d -> power (z d) = Some p ->
  exists b q, p = clamp1 (fsub (o_output b) (o_output q)) /\ PidModel.process (reading (x0 d)) (b_bal e) = Ret (b_bal e', Sent (Some b)) /\
    PidModel.process (reading (x1 d)) (b_rail e) = Ret (b_rail e', Sent (Some q)).
Proof.
  intros P Pz. assert (Z := p_z _ _ _ _ _ _ _ P). unfold power in Pz. rewrite Z in Pz.
  destruct (pid_payload (y2 d)) as [b|] eqn:Yb; [|discriminate]. destruct (pid_payload (y3 d)) as [q|] eqn:Yq; [|discriminate].
  unfold pid_payload in Yb, Yq. rewrite (p_y2 _ _ _ _ _ _ _ P) in Yb. rewrite (p_y3 _ _ _ _ _ _ _ P) in Yq.
  destruct (rb d) as [[ob|]|] eqn:Rb; try discriminate. destruct (rr d) as [[oq|]|] eqn:Rq; try discriminate.
  cbn in Yb, Yq. injection Yb as ->. injection Yq as ->. injection Pz as <-.
  assert (Hb := p_bal _ _ _ _ _ _ _ P). assert (Hr := p_rail _ _ _ _ _ _ _ P). rewrite Rb in Hb. rewrite Rq in Hr. eauto 6.
Qed.
(** Nor does the first reading of a sensor. *)
Theorem C121_first : forall W (w : world W) mode tr m e tr' m' e' r, pwm_ok w -> sensors_ok w -> reaches w console mode tr m e ->
  run_one_iteration (bot_app mode) (bot_oracles w console) m e = (e', m', tr', r) -> b_dead e' = false -> r <> RPanic ->
  (forall x, In x (given 2 tr) -> m_payload x = None) \/ given 3 tr = [] -> off (b_motor e').
Proof.
  intros W w mode tr m e tr' m' e' r Hw Hs R H D Np B. destruct (reached_iteration w console (fun t f => eq_refl) mode _ _ _ _ _ _ _ R H D) as [(_ & K & _)|(sl & ms & d & _ & P & I)]; [congruence|].
  destruct (pass_command w Hw Hs _ _ _ _ _ _ _ _ I P) as [F|_]; [exact F|]. 
  destruct (power (z d)) as [p|] eqn:Pz; [exfalso|rewrite (p_motor _ _ _ _ _ _ _ P), Pz, Hw; apply off_none].
  destruct (pass_power w _ _ _ _ _ _ _ P Pz) as (b & q & -> & Pb & Pq). destruct (i_bal _ _ _ _ I) as [rs1 L1]. destruct (i_rail _ _ _ _ I) as [rs2 L2].
  assert (K : forall i t t' o, first_run t = true -> PidModel.process i t = Ret (t', Sent (Some o)) -> False).
  { intros i t t' o F. destruct i as [[f [u|]]|]; cbn [PidModel.process]; try discriminate. rewrite F. discriminate. }
  destruct B as [B|B].
  - assert (L : forall l t, (forall x, In x l -> m_payload x = None) -> exists rs, PidModel.run (life l) t = Ret (t, rs)).
    { clear. induction l as [|x l IH]; intros t Hl; [exists []; reflexivity|]. cbn [life map PidModel.run]. unfold reading. rewrite (Hl x (or_introl eq_refl)). cbn [PidModel.process obind].
      destruct (IH t) as [rs E]; [intros y Hy; apply Hl; right; exact Hy|]. unfold life, reading in E. rewrite E. eexists. reflexivity. }
    destruct (L (given 2 tr) (task_new bal_gains bal_cutoff) B) as [rs E]. rewrite L1 in E. injection E as E _. rewrite E in Pb. eapply K; [|exact Pb]. reflexivity.
  - rewrite B in L2. injection L2 as E _. rewrite <- E in Pq. eapply K; [|exact Pq]. reflexivity.
Qed.
Print Assumptions C121_first.
Example C121_first_case : further (demo tilt (fun _ => 5%Z) 1000) console Checked 0 0%N (fun tr e tr' e' r => given 2 tr = [] /\ given 3 tr = [] /\ (exists x, given 2 tr' = [x] /\ m_payload x = Some (VAngle 3090)) /\ r = ROk).
Proof. vm_compute. do 3 (split; [reflexivity|]). split; [eexists; split; reflexivity|reflexivity]. Qed.
(** Nor the first after the tasks were stopped and started again. *)
Theorem C121_restart : forall W (w : world W) mode tr m e e1 tr1 r1 e2 tr2 tr' m' e' r, pwm_ok w -> reaches w console mode tr m e ->
  all_tasks (bot_app mode) (bot_oracles w console) RuntimeModel.Stop e = (e1, tr1, r1) -> r1 = ROk ->
  all_tasks (bot_app mode) (bot_oracles w console) Start e1 = (e2, tr2, ROk) ->
  run_one_iteration (bot_app mode) (bot_oracles w console) m e2 = (e', m', tr', r) -> b_dead e' = false -> r <> RPanic -> off (b_motor e').
Proof.
  intros W w mode tr m e e1 tr1 r1 e2 tr2 tr' m' e' r Hw R S -> T H D Np.
  assert (F : first_run (b_bal e1) = true).
  { revert S. unfold all_tasks. change (seq 0 (a_tasks (bot_app mode))) with [0; 1; 2; 3; 4; 5]%nat. cbn [lifecycle].
    unfold one_call. cbn [a_sim bot_app]. unfold do_call. cbn [o_task bot_oracles bot_task].
    unfold outside at 1. destruct (w_life w RuntimeModel.Stop 1 (b_world e)) as [x [f|]]; [intros K; cbn in K; discriminate K|].
    unfold set_channels, outside. cbn [b_world set_world]. destruct (w_hw w x) as [y [[] []]]; cbn -[console]; intros K; try discriminate K. injection K as <- _. reflexivity. }
  apply start_quiet in T. destruct T as [(Hb & _) _]. rewrite <- Hb in F.
  destruct (iteration w console (fun t f => eq_refl) mode _ _ _ _ _ _ H (i_shaped _ _ _ _ (reaches_inv w console (fun t f => eq_refl) mode _ _ _ R)) D) as [(_ & K & _)|(sl & ms & d & _ & P & _)]; [congruence|].
  destruct (power (z d)) as [p|] eqn:Pz; [exfalso|rewrite (p_motor _ _ _ _ _ _ _ P), Pz, Hw; apply off_none].
  destruct (pass_power w _ _ _ _ _ _ _ P Pz) as (b & q & _ & Pb & _). destruct (reading (x0 d)) as [[f [u|]]|]; cbn [PidModel.process] in Pb; try discriminate Pb. rewrite F in Pb. discriminate Pb.
Qed.
Print Assumptions C121_restart.
Example C121_restart_case : let w := demo tilt (fun _ => 5%Z) 1000 in let o := bot_oracles w console in
  match go w console Checked 2 0%N with
  | Some (tr, m, e) => let '(e1, _, r1) := all_tasks (bot_app Checked) o RuntimeModel.Stop e in let '(e2, _, r2) := all_tasks (bot_app Checked) o Start e1 in
      let '(e', _, _, r) := run_one_iteration (bot_app Checked) o m e2 in r1 = ROk /\ r2 = ROk /\ r = ROk /\ b_dead e' = false /\ ~ off (b_motor e)
  | None => False
  end.
Proof. vm_compute. do 4 (split; [reflexivity|]). intros []; discriminate. Qed.

(** * C122: other monitors *)
(** The same with any monitor that answers Ignore to the errors of process. *)
Theorem C122_partial : forall W (w : world W) monitor mode tr m e tr' m' e' r, ignores monitor -> pwm_ok w -> sensors_ok w -> reaches w monitor mode tr m e ->
  run_one_iteration (bot_app mode) (bot_oracles w monitor) m e = (e', m', tr', r) -> b_dead e' = false ->
  (exists x, In x (given 2 tr') /\ ~ good_angle x) \/ (exists x, In x (given 3 tr') /\ ~ good_rail x) \/ (exists f, In (0%nat, [], Some f) (calls tr')) ->
  off (b_motor e').
Proof. intros W w monitor mode tr m e tr' m' e' r Hi Hw Hs. apply stops; auto. Qed.
Print Assumptions C122_partial.
Example C122_case : ignores (fun ph t f => match ph with RuntimeModel.Process => Ignore | _ => Abort end) /\ ignores console.
Proof. split; intros t f; reflexivity. Qed.
(** A monitor that answers Abort: the iteration ends before the motor's turn, which goes on
    as before, although every call returned and the reading was out of the limits. *)
Theorem C122_refuted : exists (w : world N) monitor tr m e tr' m' e' x, pwm_ok w /\ sensors_ok w /\ (forall ph t f, monitor ph t f = Abort) /\
  reaches w monitor Checked tr m e /\ run_one_iteration (bot_app Checked) (bot_oracles w monitor) m e = (e', m', tr', ROk) /\ b_dead e' = false /\
  In x (given 2 tr') /\ ~ good_angle x /\ ~ off (b_motor e').
Proof.
  exists (demo tilt (fun _ => 5%Z) 1000), (fun _ _ _ => Abort).
  assert (H : further (demo tilt (fun _ => 5%Z) 1000) (fun _ _ _ => Abort) Checked 3 0%N (fun _ e tr e' r => (exists x, given 2 tr = [x] /\ m_payload x = Some (VAngle 3243)) /\ ~ off (b_motor e') /\ r = ROk)).
  { vm_compute. split; [reflexivity|]. split; [eexists; split; reflexivity|]. split; [intros []; discriminate|reflexivity]. }
  apply further_spec in H. destruct H as (tr & m & e & e' & m' & tr' & r & R & I & D & (x & G & Px) & No & ->).
  exists tr, m, e, tr', m', e', x. destruct C121_case'. do 3 (split; [auto|]). split; [exact R|]. split; [exact I|]. split; [exact D|].
  split; [rewrite G; left; reflexivity|]. split; [|exact No]. intros (a & t & E & _ & B). rewrite Px in E. injection E as <-. lia.
Qed.
Print Assumptions C122_refuted.

(** * C123: the motor command is a number *)
Lemma timed_life (l : list message) : forall last,
  Forall (fun x => m_payload x = None \/ exists v f t, m_payload x = Some v /\ measure v = Some f /\ small 50 f /\ m_meta x = Some t) l ->
  increasing (match last with Some t => [t] | None => [] end ++ flat_map (fun x : message => match m_payload x, m_meta x with Some _, Some u => [u] | _, _ => [] end) l) ->
  timed 1 (fun m _ => small 50 m) last (life l).
Proof.
  induction l as [|x l IH]; intros last F Inc; [exact I|]. inversion F as [|? ? Hx F']; subst. cbn [life map timed flat_map] in *.
  destruct Hx as [Hx|(v & f & t & E1 & E2 & E3 & E4)].
  - unfold reading. rewrite Hx in *. apply IH; auto.
  - unfold reading. rewrite E1, E2, E4 in *. split; [|split; [exact E3|]].
    + destruct last as [u|]; [|exact I]. cbn in Inc. lia.
    + apply IH; [exact F'|]. destruct last as [u|]; cbn in Inc |- *; tauto.
Qed.
Lemma one_bits : of_bits 0x3f800000 = one. Proof. vm_compute. reflexivity. Qed.
Lemma within_one x : valid x -> fin x -> within one x -> (-1 <= val x <= 1)%R.
Proof.
  intros V F [->|[H1 H2]]; [discriminate|]. destruct one_ok as (V1 & F1 & E1).
  apply fle_split in H1, H2; auto using fopp_valid, fopp_fin. rewrite fopp_val, E1 in *. lra.
Qed.
Lemma clamp1_ok x : valid x -> valid (clamp1 x) /\ (clamp1 x = S754_nan \/ fin (clamp1 x) /\ (-1 <= val (clamp1 x) <= 1)%R) /\ (fin x -> fin (clamp1 x)).
Proof.
  intros V. destruct one_ok as (V1 & F1 & E1). assert (Vm := fopp_valid _ V1). assert (Fm := fopp_fin _ F1). assert (Em : val (fopp one) = (-1)%R) by (rewrite fopp_val, E1; lra).
  unfold clamp1. destruct (flt x (fopp one)) eqn:A1; [split; [auto|]; split; [right; split; [auto|lra]|auto]|].
  destruct (flt one x) eqn:A2; [split; [auto|]; split; [right; split; [auto|lra]|auto]|].
  split; [exact V|]. split; [|auto]. destruct x as [s|s| |s m e]; try (left; reflexivity).
  - right. split; [reflexivity|]. cbn. unfold val. cbn. lra.
  - exfalso. destruct s; discriminate.
  - right. assert (F : fin (S754_finite s m e)) by reflexivity. split; [exact F|]. rewrite flt_real in A1, A2 by auto. rewrite ?E1, ?Em in *.
    destruct (Rlt_bool_spec (val (S754_finite s m e)) (-1)); [discriminate|]. destruct (Rlt_bool_spec 1 (val (S754_finite s m e))); [discriminate|]. lra.
Qed.
Lemma pid_sent_valid g c l t rs o i t' : config_valid g -> (sampling g < 2 ^ 64)%N -> PidModel.run (life l) (task_new g c) = Ret (t, rs) -> PidModel.process (reading i) t = Ret (t', Sent (Some o)) ->
  payload_valid o /\ In (Sent (Some o)) (rs ++ [Sent (Some o)]) /\ PidModel.run (life (l ++ [i])) (task_new g c) = Ret (t', rs ++ [Sent (Some o)]).
Proof.
  intros Cv Sa R P. assert (R' := run_snoc _ _ _ _ _ _ _ R P). split; [|split; [apply in_or_app; right; left; reflexivity|unfold life; rewrite map_app; exact R']].
  apply process_sent in P. destruct P as [-> _].
  assert (V : pid_valid (t_pid t')); [|apply V].
  eapply run_valid; [| | |exact R'].
  - cbn. split; [exact Cv|]. cbn. unfold payload_valid. cbn. repeat split.
  - exact Sa.
  - apply Forall_app. split; [|constructor; [apply reading_valid|constructor]]. unfold life. apply Forall_map. apply Forall_forall. intros x _. apply reading_valid.
Qed.
Lemma bal_valid : config_valid bal_gains /\ (sampling bal_gains < 2 ^ 64)%N. Proof. vm_compute. repeat split. Qed.
Lemma rail_valid : config_valid rail_gains /\ (sampling rail_gains < 2 ^ 64)%N. Proof. vm_compute. repeat split. Qed.
Lemma numbers_bits : numbers bal_gains /\ numbers rail_gains.
Proof.
  assert (K : forall x, finite x -> match x with S754_finite s m e => (Z.pos m < 2 ^ 24 /\ e <= 0)%Z | _ => True end -> small 50 x).
  { intros x [V F] H. split; [exact V|]. split; [exact F|]. destruct x as [s|s| |s m e]; try discriminate F.
    - change (val (S754_zero s)) with 0%R. rewrite Rabs_R0. apply bpow_ge_0.
    - unfold val. cbn [SF2R]. unfold F2R. cbn [Fnum Fexp]. rewrite Rabs_mult, (Rabs_pos_eq (bpow radix2 e)) by apply bpow_ge_0.
      replace (Rabs (IZR (cond_Zopp s (Z.pos m)))) with (IZR (Z.pos m)) by (destruct s; cbn [cond_Zopp]; [change (Z.neg m) with (- Z.pos m)%Z; rewrite opp_IZR, Rabs_Ropp|]; rewrite Rabs_pos_eq; auto; apply IZR_le; lia).
      apply Rle_trans with (bpow radix2 24 * bpow radix2 0)%R.
      + apply Rmult_le_compat; [apply IZR_le; lia|apply bpow_ge_0| |apply bpow_le; lia]. change (bpow radix2 24) with (IZR (2 ^ 24)). apply IZR_le. lia.
      + change (bpow radix2 0) with 1%R. rewrite Rmult_1_r. apply bpow_le. lia. }
  assert (S1 : small 50 (setpoint bal_gains)) by (apply K; [split; reflexivity|vm_compute; split; [reflexivity|discriminate]]).
  assert (S2 : small 50 (setpoint rail_gains)) by (apply K; [split; reflexivity|exact I]).
  split; (do 3 (split; [split; reflexivity|]); split; [assumption|]; do 3 (split; [split; reflexivity|]); split; reflexivity).
Qed.
Lemma given_readings {W} (w : world W) l : sensors_ok w -> Forall (fun x => angle_msg w x \/ rail_msg w x) l ->
  Forall (fun x => m_payload x = None \/ exists v f t, m_payload x = Some v /\ measure v = Some f /\ small 50 f /\ m_meta x = Some t) l.
Proof.
  intros [Sa Sr]. apply Forall_impl. intros x [[E|(u & u' & a & t & H & E & M)]|(u & u' & n & t & H & E & M)]; [left; exact E|right..].
  - exists (VAngle a), (f32_of a), t. split; [exact E|]. split; [reflexivity|]. split; [|exact M]. eapply (measure_small (VAngle a)); [reflexivity|]. eapply Sa, H.
  - destruct (measure (VRail n)) as [f|] eqn:Ef; [|discriminate]. exists (VRail n), f, t. split; [exact E|]. split; [exact Ef|]. split; [|exact M]. eapply measure_small; [exact Ef|]. eapply Sr, H.
Qed.
(** Every power the motor is given is a number between -1 and 1, when the times of the
    readings of each sensor increase. *)
Theorem C123_number : forall W (w : world W) monitor mode tr m e tr' m' e' r z p, ignores monitor -> sensors_ok w -> reaches w monitor mode tr m e ->
  run_one_iteration (bot_app mode) (bot_oracles w monitor) m e = (e', m', tr', r) -> b_dead e' = false ->
  increasing (times 2 (tr ++ tr')) -> increasing (times 3 (tr ++ tr')) ->
  In z (given 5 tr') -> power z = Some p -> fin p /\ fle (fopp one) p = true /\ fle p one = true.
Proof.
  intros W w monitor mode tr m e tr' m' e' r z0 p Hi Hs R H D T2 T3 Hz Hp.
  destruct (reached_iteration w monitor Hi mode _ _ _ _ _ _ _ R H D) as [(C & _)|(sl & ms & d & _ & P & I)]; [unfold given in Hz; rewrite C in Hz; destruct Hz|].
  destruct (pass_given w _ _ _ _ _ _ P) as (G2 & G3 & G5 & M2 & M3). rewrite G5 in Hz. destruct Hz as [<-|[]].
  destruct (pass_power w _ _ _ _ _ _ _ P Hp) as (b & q & -> & Pb & Pq).
  destruct (i_bal _ _ _ _ I) as [rs1 L1]. destruct (i_rail _ _ _ _ I) as [rs2 L2].
  destruct bal_valid as [Vb Sb], rail_valid as [Vr Sr], numbers_bits as [Nb Nr].
  destruct (pid_sent_valid _ _ _ _ _ _ _ _ Vb Sb L1 Pb) as (Pvb & Inb & Rb). destruct (pid_sent_valid _ _ _ _ _ _ _ _ Vr Sr L2 Pq) as (Pvq & Inq & Rq).
  assert (Fb : finite_payload b).
  { eapply C62_number; [exact Nb| |exact Rb|exact Inb]. apply timed_life.
    - apply (given_readings w); [exact Hs|]. apply Forall_app. split; [eapply Forall_impl; [|apply (i_angles _ _ _ _ I)]; auto|auto].
    - unfold times in T2. rewrite given_app, G2 in T2. exact T2. }
  assert (Fq : finite_payload q).
  { eapply C62_number; [exact Nr| |exact Rq|exact Inq]. apply timed_life.
    - apply (given_readings w); [exact Hs|]. apply Forall_app. split; [eapply Forall_impl; [|apply (i_rails _ _ _ _ I)]; auto|auto].
    - unfold times in T3. rewrite given_app, G3 in T3. exact T3. }
  assert (Bb := C49_bounded _ _ _ _ _ _ Rb Inb). assert (Bq := C49_bounded _ _ _ _ _ _ Rq Inq).
  destruct Bb as (_ & _ & _ & Bb), Bq as (_ & _ & _ & Bq). destruct Fb as (_ & _ & _ & Fb), Fq as (_ & _ & _ & Fq). destruct Pvb as (_ & _ & _ & Pvb), Pvq as (_ & _ & _ & Pvq).
  change (output_limit bal_gains) with (of_bits 0x3f800000) in Bb. change (output_limit rail_gains) with (of_bits 0x3f800000) in Bq. rewrite one_bits in *.
  apply within_one in Bb; auto. apply within_one in Bq; auto.
  assert (X : (- bpow radix2 1 <= rn (val (o_output b) - val (o_output q)) <= bpow radix2 1)%R).
  { split; [rewrite <- (rn_bpow 1), <- rn_opp by lia|rewrite <- (rn_bpow 1) by lia]; apply rn_le; change (bpow radix2 1) with 2%R; lra. }
  destruct (fsub_real _ _ Pvb Pvq Fb Fq) as [Fs Es].
  { apply Rle_lt_trans with (bpow radix2 1); [apply Rabs_le; lra|]. apply bpow_big. lia. }
  destruct (clamp1_ok _ (fsub_valid _ _ Pvb Pvq)) as (Vc & Cc & Fc). specialize (Fc Fs). split; [exact Fc|].
  destruct Cc as [Cc|[_ Cc]]; [rewrite Cc in Fc; discriminate|]. destruct one_ok as (V1 & F1 & E1).
  rewrite !fle_real by auto using fopp_valid, fopp_fin. rewrite fopp_val, E1. rewrite !Rle_bool_true by lra. auto.
Qed.
Print Assumptions C123_number.
Example C123_case : further (demo tilt (fun _ => 5%Z) 1000) console Checked 4 0%N (fun tr e tr' e' r =>
  increasing (times 2 (tr ++ tr')) /\ increasing (times 3 (tr ++ tr')) /\ exists z, given 5 tr' = [z] /\ power z = Some (of_bits 0x3e9851eb)).
Proof. vm_compute. split; [reflexivity|]. split; [repeat split|]. split; [repeat split|]. eexists. split; reflexivity. Qed.

(** * C124: the time of the command *)
(** A command never has a time of validity. *)
Theorem C124_partial : forall W (w : world W) monitor mode tr m e tr' m' e' r z, ignores monitor -> reaches w monitor mode tr m e ->
  run_one_iteration (bot_app mode) (bot_oracles w monitor) m e = (e', m', tr', r) -> b_dead e' = false -> In z (given 5 tr') -> m_meta z = None.
Proof.
  intros W w monitor mode tr m e tr' m' e' r z0 Hi R H D Hz.
  destruct (reached_iteration w monitor Hi mode _ _ _ _ _ _ _ R H D) as [(C & _)|(sl & ms & d & Sh & P & I)]; [unfold given in Hz; rewrite C in Hz; destruct Hz|].
  destruct (pass_given w _ _ _ _ _ _ P) as (_ & _ & G5 & _). rewrite G5 in Hz. destruct Hz as [<-|[]].
  destruct (pass_shape w _ _ _ _ _ _ Sh P) as (a0 & a1 & a2 & a3 & a4 & a5 & E & _ & M4). rewrite (p_msgs _ _ _ _ _ _ _ P) in E. congruence.
Qed.
Print Assumptions C124_partial.
(** So it is not that of the reading of the angle. *)
Theorem C124_refuted : exists (w : world N) tr m e tr' m' e' x t z p, pwm_ok w /\ sensors_ok w /\ reaches w console Checked tr m e /\
  run_one_iteration (bot_app Checked) (bot_oracles w console) m e = (e', m', tr', ROk) /\ b_dead e' = false /\
  given 2 tr' = [x] /\ m_meta x = Some t /\ given 5 tr' = [z] /\ power z = Some p /\ m_meta z <> Some t.
Proof.
  exists (demo tilt (fun _ => 5%Z) 1000).
  assert (H : further (demo tilt (fun _ => 5%Z) 1000) console Checked 2 0%N (fun _ e tr e' r => r = ROk /\ exists x t z p, given 2 tr = [x] /\ m_meta x = Some t /\ given 5 tr = [z] /\ power z = Some p /\ m_meta z <> Some t)).
  { vm_compute. split; [reflexivity|]. split; [reflexivity|]. do 4 eexists. do 4 (split; [reflexivity|]). discriminate. }
  apply further_spec in H. destruct H as (tr & m & e & e' & m' & tr' & r & R & I & D & -> & x & t & z & p & K).
  exists tr, m, e, tr', m', e', x, t, z, p. destruct C121_case'. auto 10.
Qed.
Print Assumptions C124_refuted.
Example C124_case : further (demo tilt (fun _ => 5%Z) 1000) console Checked 4 0%N (fun _ e tr e' r => exists z, given 5 tr = [z] /\ power z <> None /\ m_meta z = None).
Proof. vm_compute. split; [reflexivity|]. eexists. split; [reflexivity|]. split; [discriminate|reflexivity]. Qed.

(** * C125: the motor is off when the program has ended *)
Lemma stop_channels {W} (w : world W) mode e e' tr : all_tasks (bot_app mode) (bot_oracles w console) RuntimeModel.Stop e = (e', tr, ROk) -> b_on e' = (false, false).
Proof.
  unfold all_tasks. change (seq 0 (a_tasks (bot_app mode))) with [0; 1; 2; 3; 4; 5]%nat. cbn [lifecycle].
  unfold one_call. cbn [a_sim bot_app]. unfold do_call. cbn [o_task bot_oracles bot_task].
  unfold outside at 1. destruct (w_life w RuntimeModel.Stop 1 (b_world e)) as [x [f|]]; [intros K; cbn in K; discriminate K|].
  unfold set_channels, outside. cbn [b_world set_world]. destruct (w_hw w x) as [y [[] []]]; cbn -[console]; intros K; try discriminate K. injection K as <- _. reflexivity.
Qed.
(** When the program ends normally, whatever happened, the two channels of the PWM are disabled. *)
Theorem C125_partial : forall W (w : world W) mode stop fuel m e e' tr, bot_main w console mode stop fuel m e = (e', tr, Ended) -> b_on e' = (false, false).
Proof.
  intros W w mode stop fuel m e e' tr. unfold bot_main. destruct (all_tasks _ _ Start e) as [[e0 t0] r]. destruct r; try discriminate.
  destruct (main_loop w console mode stop fuel m e0) as [[e1 t1] x] eqn:L. intros [= <- <- ->]. clear t0.
  revert m e0 e1 t1 L. induction fuel as [|fuel IH]; intros m e0 e1 t1; cbn [main_loop]; [discriminate|]. destruct (stop e0).
  - destruct (all_tasks _ _ RuntimeModel.Stop e0) as [[e2 t2] r2] eqn:S. destruct r2; try discriminate. intros [= <- <-]. eapply stop_channels, S.
  - destruct (run_one_iteration _ _ m e0) as [[[e2 m2] t2] r2]. destruct r2; try discriminate. destruct (b_dead e2); [discriminate|].
    destruct (main_loop w console mode stop fuel m2 e2) as [[e3 t3] x3] eqn:L. intros [= <- <- ->]. eapply IH, L.
Qed.
Print Assumptions C125_partial.
(** When the start of the motor is not called, because that of a sensor fails, the channels were
    never enabled. *)
Theorem C125_start_partial : forall W (w : world W) mode stop fuel m x e' tr y, bot_main w console mode stop fuel m (bot_new x) = (e', tr, y) ->
  (forall r, ~ In (ETask Start 5 r) tr) -> b_on e' = (false, false).
Proof.
  intros W w mode stop fuel m x e' tr y. unfold bot_main, all_tasks. change (seq 0 (a_tasks (bot_app mode))) with [0; 1; 2; 3; 4; 5]%nat. cbn [lifecycle].
  unfold one_call. cbn [a_sim bot_app]. unfold do_call. cbn [o_task bot_oracles bot_task].
  unfold outside at 1. destruct (w_life w Start 0 (b_world (bot_new x))) as [x0 [f0|]]; [cbn; intros [= <- <- _] _; reflexivity|].
  unfold outside at 1. destruct (w_life w Start 1 _) as [x1 [f1|]]; [cbn; intros [= <- <- _] _; reflexivity|].
  destruct (set_channels w true _) as [e2 r2] eqn:C. cbv beta iota zeta. intros H K. exfalso. apply (K r2).
  destruct r2 as [f2|]; cbn [app fst snd] in H.
  - cbn in H. injection H as <- <- _. cbn. auto 10.
  - cbn -[main_loop] in H. destruct (main_loop w console mode stop fuel m e2) as [[e3 t3] z3]. injection H as <- <- _. cbn. auto 10.
Qed.
Print Assumptions C125_start_partial.
Example C125_start_case : let d := demo tilt (fun _ => 5%Z) 1000 in
  let w := {| w_angle := w_angle d; w_rail := w_rail d; w_life := fun ph t n => (n, if (t =? 1)%nat then Some FDriver else None); w_hw := w_hw d;
              w_now := w_now d; w_report := w_report d; w_log := w_log d |} in
  let '(e', tr, y) := bot_main w console Checked (fun _ => false) 10 (mgr_new 10 bot_zero) (bot_new 0%N) in
  y = Crashed /\ In (EDecision Start 1 FDriver Shutdown) tr /\ forall r, ~ In (ETask Start 5 r) tr.
Proof. vm_compute. split; [reflexivity|]. split; [auto 10|]. intros r K. intuition discriminate. Qed.
Example C125_case : let '(e', tr, x) := bot_main (demo tilt (fun _ => 5%Z) 1000) console Checked (fun e => (6 <=? b_world e)%N) 10 (mgr_new 10 bot_zero) (bot_new 0%N) in
  x = Ended /\ length (given 5 tr) = 3%nat /\ ~ off (b_motor e') /\ b_on e' = (false, false).
Proof. vm_compute. split; [reflexivity|]. split; [reflexivity|]. split; [intros []; discriminate|reflexivity]. Qed.
(** When the user quits the console, the program panics and the motor goes on, its channels
    enabled. *)
Theorem C125_refuted : exists (w : world N) stop fuel e' tr, pwm_ok w /\ sensors_ok w /\
  bot_main w console Checked stop fuel (mgr_new 10 bot_zero) (bot_new 0%N) = (e', tr, Crashed) /\
  b_dead e' = false /\ b_on e' = (true, true) /\ ~ off (b_motor e').
Proof.
  exists (demo tilt (fun _ => 5%Z) 5), (fun _ => false), 10%nat. eexists _, _. split; [apply demo_pwm|].
  split; [split; apply (proj2 C121_case')|]. split; [vm_compute; reflexivity|]. vm_compute. split; [reflexivity|]. split; [reflexivity|]. intros []; discriminate.
Qed.
Print Assumptions C125_refuted.
(** After Ctrl-C too, when the write that disables the second channel, or the first, fails: that
    channel stays enabled, with the duty cycle it had. *)
Theorem C125_write_refuted : forall k : bool, exists (w : world N) stop fuel e' tr, sensors_ok w /\
  bot_main w console Checked stop fuel (mgr_new 10 bot_zero) (bot_new 0%N) = (e', tr, Crashed) /\ b_dead e' = false /\ stop e' = true /\
  (exists f, In (EDecision RuntimeModel.Stop 5 f Shutdown) tr) /\ b_on e' = (k, true) /\ ~ off (b_motor e').
Proof.
  intros k. pose (d := demo tilt (fun _ => 5%Z) 1000).
  exists {| w_angle := w_angle d; w_rail := w_rail d; w_life := w_life d; w_hw := fun n => (n, if (6 <=? n)%N then (negb k && (n <? 7)%N, false) else (true, true));
            w_now := w_now d; w_report := w_report d; w_log := w_log d |}, (fun e => (6 <=? b_world e)%N), 10%nat.
  destruct k; eexists _, _; (split; [split; apply (proj2 C121_case')|]); (split; [vm_compute; reflexivity|]); vm_compute;
    (split; [reflexivity|]); (split; [reflexivity|]); (split; [eexists; repeat (first [left; reflexivity|right])|]); (split; [reflexivity|]); intros []; discriminate.
Qed.
Print Assumptions C125_write_refuted.

(** * C126: duty cycles *)
(** Backwards at full power, with the dead zone of the configuration: 1.6 (rounded down). *)
Definition most : f32 := of_bits 0x3fcccccc.
Lemma comp_range p : valid p -> p = S754_nan \/ fin p /\ (-1 <= val p <= 1)%R -> let c := compensated bot_deadzone p in
  c = S754_nan \/ c = p /\ fin p /\ val p = 0%R \/ valid c /\ fin c /\ (0 <= val c <= 1)%R \/ valid c /\ fin c /\ (- val most <= val c <= 0)%R.
Proof.
  intros V H c. destruct H as [->|[F B]]; [left; reflexivity|]. destruct one_ok as (V1 & F1 & E1).
  assert (V0 : valid zero) by reflexivity. assert (F0 : fin zero) by reflexivity. assert (E0 : val zero = 0%R) by reflexivity.
  unfold c, compensated. destruct (fne p zero) eqn:Ne.
  2: { right. left. split; [reflexivity|]. split; [exact F|]. rewrite fne_real in Ne by auto. destruct (Req_bool_spec (val p) (val zero)); [lra|discriminate]. }
  right. right. destruct (flt zero p) eqn:Po.
  - left. assert (C := C51_forward_partial bot_deadzone p eq_refl V eq_refl eq_refl Po). unfold compensated in C. rewrite Ne, Po in C.
    assert (P1 : fle p one = true) by (rewrite fle_real, E1 by auto; apply Rle_bool_true; lra). specialize (C P1). destruct C as [C1 C2].
    set (x := fadd bot_deadzone _) in *. assert (Vx : valid x) by (apply fadd_valid; [reflexivity|apply fmul_valid; [reflexivity|exact V]]).
    assert (Fx : fin x) by (eapply fin_between; [| |exact C1|exact C2]; auto). split; [exact Vx|]. split; [exact Fx|].
    apply fle_split in C1, C2; auto. lra.
  - right. rewrite flt_real, E0 in Po by auto. destruct (Rlt_bool_spec 0 (val p)) as [?|Np]; [discriminate|].
    set (s := fadd one bot_deadzone). assert (Vs : valid s) by reflexivity. assert (Fs : fin s) by reflexivity.
    assert (Vd : valid (fopp bot_deadzone)) by reflexivity. assert (Fd : fin (fopp bot_deadzone)) by reflexivity.
    assert (Vm : valid most) by reflexivity. assert (Fm : fin most) by reflexivity.
    assert (Ps : (0 <= val s <= 2)%R). { assert (A1 : fle zero s = true) by reflexivity. assert (A2 : fle s (f32_of 2) = true) by reflexivity. apply fle_split in A1; auto. apply fle_split in A2; try reflexivity; auto using f32_of_valid. rewrite (f32_of_exact 2 eq_refl) in A2. change (IZR (Z.of_N 2)) with 2%R in A2. lra. }
    assert (Pd : (-1 <= val (fopp bot_deadzone) <= 0)%R). { assert (A1 : fle (fopp one) (fopp bot_deadzone) = true) by reflexivity. assert (A2 : fle (fopp bot_deadzone) zero = true) by reflexivity. apply fle_split in A1, A2; auto using fopp_valid, fopp_fin. rewrite fopp_val, E1 in A1. lra. }
    assert (X : (- val s <= rn (val s * val p) <= 0)%R).
    { split; [|rewrite <- rn_0; apply rn_le; nra]. rewrite <- (rn_val s Vs) at 1. rewrite <- rn_opp. apply rn_le. nra. }
    assert (B2 : (4 < big)%R) by (change 4%R with (bpow radix2 2); apply bpow_big; lia).
    destruct (fmul_real s p Vs V Fs F) as [Fx Ex]; [apply Rle_lt_trans with 2%R; [apply Rabs_le; lra|lra]|].
    assert (Vx := fmul_valid _ _ Vs V). set (x := fmul s p) in *. rewrite <- Ex in X.
    (* at full power *)
    assert (Xm : (rn (val (fopp bot_deadzone) - val s) = - val most)%R).
    { assert (E : fsub (fopp bot_deadzone) s = fopp most) by (vm_compute; reflexivity).
      destruct (fsub_real _ _ Vd Vs Fd Fs) as [_ Es].
      - assert (rn (-(4)) <= rn (val (fopp bot_deadzone) - val s) <= rn 0)%R by (split; apply rn_le; lra). rewrite rn_opp, rn_0 in H.
        replace (rn 4) with 4%R in H by (change 4%R with (bpow radix2 2); rewrite rn_bpow; [reflexivity|lia]). apply Rle_lt_trans with 4%R; [apply Rabs_le; lra|lra].
      - rewrite E, fopp_val in Es. lra. }
    assert (Y : (- val most <= rn (val (fopp bot_deadzone) + val x) <= 0)%R).
    { split; [rewrite <- Xm; apply rn_le; lra|]. rewrite <- rn_0. apply rn_le. lra. }
    assert (Hm : (0 <= val most <= 2)%R). { assert (A1 : fle zero most = true) by reflexivity. assert (A2 : fle most (f32_of 2) = true) by reflexivity. apply fle_split in A1; auto. apply fle_split in A2; try reflexivity; auto using f32_of_valid. rewrite (f32_of_exact 2 eq_refl) in A2. change (IZR (Z.of_N 2)) with 2%R in A2. lra. }
    destruct (fadd_real (fopp bot_deadzone) x Vd Vx Fd Fx) as [Fy Ey]; [apply Rle_lt_trans with 2%R; [apply Rabs_le; lra|lra]|].
    split; [apply fadd_valid; auto|]. split; [exact Fy|]. rewrite Ey. exact Y.
Qed.
Definition duties_ok (m : motor) : Prop := fle zero (duty0 m) = true /\ fle (duty0 m) one = true /\ fle zero (duty1 m) = true /\ fle (duty1 m) most = true.
Lemma set_duties_ok hw a b m : duties_ok m -> fle zero a = true -> fle a one = true -> fle zero b = true -> fle b most = true -> duties_ok (fst (set_duties hw a b m)).
Proof. intros (?&?&?&?) ? ? ? ?. unfold set_duties. destruct (fst hw), (snd hw); cbn; repeat split; auto. Qed.
Lemma process_duties x hw m : valid x -> deadzone m = bot_deadzone -> dryrun m = false -> duties_ok m -> duties_ok (fst (MotorModel.process (Some (clamp1 x)) hw m)).
Proof.
  intros V Dz Dr Ok. destruct (clamp1_ok x V) as (Vp & Rp & _). set (p := clamp1 x) in *. assert (C := comp_range p Vp Rp). cbv zeta in C.
  unfold MotorModel.process. rewrite Dr, Dz. set (c := compensated bot_deadzone p) in *. destruct (fne c (current_power m)); [|exact Ok]. cbn [current_power].
  assert (Ok' : duties_ok (Motor c bot_deadzone false (duty0 m) (duty1 m))) by exact Ok. destruct one_ok as (V1 & F1 & E1).
  assert (V0 : valid zero) by reflexivity. assert (F0 : fin zero) by reflexivity. assert (E0 : val zero = 0%R) by reflexivity. assert (Vm : valid most) by reflexivity. assert (Fm : fin most) by reflexivity.
  destruct (flt zero c) eqn:Pc.
  - apply set_duties_ok; auto; destruct C as [C|[(C & F & E)|[(Vc & Fc & B)|(Vc & Fc & B)]]].
    + rewrite C in Pc. discriminate.
    + rewrite C in Pc. rewrite flt_real, E, E0 in Pc by auto. destruct (Rlt_bool_spec 0 0); [lra|discriminate].
    + rewrite fle_real, E0 by auto. apply Rle_bool_true. lra.
    + rewrite flt_real, E0 in Pc by auto. destruct (Rlt_bool_spec 0 (val c)); [lra|discriminate].
    + rewrite C in Pc. discriminate.
    + rewrite C in Pc. rewrite flt_real, E, E0 in Pc by auto. destruct (Rlt_bool_spec 0 0); [lra|discriminate].
    + rewrite fle_real, E1 by auto. apply Rle_bool_true. lra.
    + rewrite flt_real, E0 in Pc by auto. destruct (Rlt_bool_spec 0 (val c)); [lra|discriminate].
  - destruct (flt c zero) eqn:Nc; [|apply set_duties_ok; auto].
    assert (X : valid c /\ fin c /\ (- val most <= val c <= 0)%R).
    { destruct C as [C|[(C & F & E)|[(Vc & Fc & B)|C]]]; [..|exact C].
      - rewrite C in Nc. discriminate.
      - rewrite C in Nc. rewrite flt_real, E, E0 in Nc by auto. destruct (Rlt_bool_spec 0 0); [lra|discriminate].
      - rewrite flt_real, E0 in Nc by auto. destruct (Rlt_bool_spec (val c) 0); [lra|discriminate]. }
    destruct X as (Vc & Fc & B). apply set_duties_ok; auto; rewrite fle_real, fopp_val by auto using fopp_valid, fopp_fin; apply Rle_bool_true; lra.
Qed.
(** Forwards a duty cycle is within [0, 1], backwards within [0, 1.6]; whatever the sensors,
    the clock and the PWM do. *)
Theorem C126_partial : forall W (w : world W) monitor mode tr m e, ignores monitor -> reaches w monitor mode tr m e ->
  fle zero (duty0 (b_motor e)) = true /\ fle (duty0 (b_motor e)) one = true /\ fle zero (duty1 (b_motor e)) = true /\ fle (duty1 (b_motor e)) (of_bits 0x3fcccccc) = true.
Proof.
  intros W w monitor mode tr m e Hi R. change (duties_ok (b_motor e)).
  induction R as [x e tr H|tr m e tr' m' e' R IH H D].
  - apply start_quiet in H. destruct H as [(_ & _ & -> & _) _]. repeat split.
  - destruct (reached_iteration w monitor Hi mode _ _ _ _ _ _ _ R H D) as [(_ & K & _)|(sl & ms & d & _ & P & I)]; [discriminate|].
    rewrite (p_motor _ _ _ _ _ _ _ P). destruct (power (z d)) as [p|] eqn:Pz; [|apply set_duties_ok; auto].
    destruct (pass_power w _ _ _ _ _ _ _ P Pz) as (b & q & -> & Pb & Pq).
    destruct (i_bal _ _ _ _ I) as [rs1 L1]. destruct (i_rail _ _ _ _ I) as [rs2 L2]. destruct bal_valid as [Vb Sb], rail_valid as [Vr Sr].
    destruct (pid_sent_valid _ _ _ _ _ _ _ _ Vb Sb L1 Pb) as ((_ & _ & _ & Pvb) & _). destruct (pid_sent_valid _ _ _ _ _ _ _ _ Vr Sr L2 Pq) as ((_ & _ & _ & Pvq) & _).
    apply process_duties; auto using fsub_valid; [apply (i_dz _ _ _ _ I)|apply (i_dry _ _ _ _ I)].
Qed.
Print Assumptions C126_partial.
(** The robot falls: backwards at 1.6. *)
Theorem C126_refuted : exists (w : world N) tr m e, pwm_ok w /\ sensors_ok w /\ reaches w console Checked tr m e /\
  duty1 (b_motor e) = of_bits 0x3fcccccc /\ flt one (duty1 (b_motor e)) = true.
Proof.
  set (w := demo (fun n => if (n <? 4)%N then 3080 else 3200)%N (fun _ => (-5)%Z) 1000).
  assert (H : match go w console Checked 3 0%N with Some (_, _, e) => duty1 (b_motor e) = of_bits 0x3fcccccc | None => False end) by (vm_compute; reflexivity).
  destruct (go w console Checked 3 0%N) as [[[tr m] e]|] eqn:G; [|destruct H]. exists w, tr, m, e. split; [apply demo_pwm|].
  split; [apply demo_sensors; [intros n; destruct (n <? 4)%N; reflexivity|intros; lia]|]. split; [eapply go_reaches, G|]. split; [exact H|]. rewrite H. vm_compute. reflexivity.
Qed.
Print Assumptions C126_refuted.
Example C126_case : match go (demo tilt (fun _ => 5%Z) 1000) console Checked 5 0%N with Some (_, _, e) => to_bits (duty0 (b_motor e)) = 0x3f021cac%N /\ duty1 (b_motor e) = zero | None => False end.
Proof. vm_compute. split; reflexivity. Qed.

(** * C127: the motor runs at the command *)
(** The power of the last command of a trace, with the dead zone. *)
Definition last_command (tr : list ev) : f32 :=
  fold_left (fun c x => match power x with Some p => compensated bot_deadzone p | None => c end) (given 5 tr) zero.
Lemma fne_eq c d x : fne c d = false -> fne x c = fne x d.
Proof.
  unfold fne. rewrite negb_false_iff. unfold SFeqb. destruct c as [s|[]| |[] m e], d as [s'|[]| |[] m' e']; cbn; try discriminate; auto;
  destruct (Z.compare_spec e e'); try discriminate; subst; change (Pos.compare_cont Eq m m') with (Pos.compare m m'); destruct (Pos.compare_spec m m'); try discriminate; subst; reflexivity.
Qed.
Lemma current_set hw a b m : current_power (fst (set_duties hw a b m)) = current_power m.
Proof. unfold set_duties. destruct (fst hw), (snd hw); reflexivity. Qed.
(** A command that differs from the last one is applied. *)
Theorem C127_partial : forall W (w : world W) monitor mode tr m e tr' m' e' r z p, ignores monitor -> pwm_ok w -> reaches w monitor mode tr m e ->
  run_one_iteration (bot_app mode) (bot_oracles w monitor) m e = (e', m', tr', r) -> b_dead e' = false ->
  In z (given 5 tr') -> power z = Some p -> fne (compensated bot_deadzone p) (last_command tr) = true -> runs (b_motor e') (compensated bot_deadzone p).
Proof.
  intros W w monitor mode tr m e tr' m' e' r z0 p Hi Hw R H D Hz Hp Ne.
  assert (L : forall x, fne x (last_command tr) = fne x (current_power (b_motor e))).
  { clear - R Hi. induction R as [x e tr H|tr m e tr' m' e' R IH H D]; intros y.
    - apply start_quiet in H. destruct H as [(_ & _ & -> & _) C]. unfold last_command, given. rewrite C. reflexivity.
    - destruct (reached_iteration w monitor Hi mode _ _ _ _ _ _ _ R H D) as [(_ & K & _)|(sl & ms & d & _ & P & I)]; [discriminate|].
      destruct (pass_given w _ _ _ _ _ _ P) as (_ & _ & G5 & _). unfold last_command in *. rewrite given_app, fold_left_app, G5. cbn [fold_left].
      rewrite (p_motor _ _ _ _ _ _ _ P). unfold MotorModel.process. rewrite (i_dry _ _ _ _ I), (i_dz _ _ _ _ I).
      destruct (power (z d)) as [q|]; [|cbn [fst]; rewrite current_set; apply IH]. destruct (fne (compensated bot_deadzone q) (current_power (b_motor e))) eqn:E.
      + cbn [current_power]. destruct (flt zero _); [|destruct (flt _ zero)]; rewrite current_set; reflexivity.
      + cbn [fst]. apply fne_eq, E. }
  rewrite L in Ne.
  destruct (reached_iteration w monitor Hi mode _ _ _ _ _ _ _ R H D) as [(C & _)|(sl & ms & d & _ & P & I)]; [unfold given in Hz; rewrite C in Hz; destruct Hz|].
  destruct (pass_given w _ _ _ _ _ _ P) as (_ & _ & G5 & _). rewrite G5 in Hz. destruct Hz as [<-|[]].
  rewrite (p_motor _ _ _ _ _ _ _ P), Hp, Hw. rewrite <- (i_dz _ _ _ _ I) in Ne.
  destruct (process_ok p (b_motor e) (i_dry _ _ _ _ I) (or_introl Ne)) as (m1 & E1 & R1 & _). rewrite E1. rewrite (i_dz _ _ _ _ I) in R1. exact R1.
Qed.
Print Assumptions C127_partial.
Example C127_case : further (demo tilt (fun _ => 5%Z) 1000) console Checked 4 0%N (fun tr e tr' e' r =>
  exists z, let p := of_bits 0x3e9851eb in given 5 tr' = [z] /\ power z = Some p /\ fne (compensated bot_deadzone p) (last_command tr) = true /\ off (b_motor e) /\ ~ off (b_motor e')).
Proof. vm_compute. split; [reflexivity|]. eexists. do 3 (split; [reflexivity|]). split; [split; reflexivity|intros []; discriminate]. Qed.
(** The converter fails once and then gives the same angle as before, twice: the motor is
    commanded as before the failure, but stays off. *)
Theorem C127_refuted : exists (w : world N) tr m e tr' m' e' z p, pwm_ok w /\ sensors_ok w /\ reaches w console Checked tr m e /\
  run_one_iteration (bot_app Checked) (bot_oracles w console) m e = (e', m', tr', ROk) /\ b_dead e' = false /\
  given 5 tr' = [z] /\ power z = Some p /\ flt (compensated bot_deadzone p) zero = true /\ off (b_motor e').
Proof.
  set (ang := fun n : N => if (n =? 6)%N then 0%N else 3090%N).
  exists (demo ang (fun _ => 5%Z) 1000).
  assert (H : further (demo ang (fun _ => 5%Z) 1000) console Checked 5 0%N (fun _ e tr e' r => r = ROk /\ exists z, given 5 tr = [z] /\ power z = Some (of_bits 0xbe88f5c2) /\ flt (compensated bot_deadzone (of_bits 0xbe88f5c2)) zero = true /\ off (b_motor e'))).
  { vm_compute. split; [reflexivity|]. split; [reflexivity|]. eexists. do 3 (split; [reflexivity|]). split; reflexivity. }
  apply further_spec in H. destruct H as (tr & m & e & e' & m' & tr' & r & R & I & D & -> & z & K).
  exists tr, m, e, tr', m', e', z, (of_bits 0xbe88f5c2). split; [apply demo_pwm|]. split; [apply demo_sensors; [intros n; unfold ang; destruct (n =? 6)%N; reflexivity|intros; lia]|]. auto.
Qed.
Print Assumptions C127_refuted.
