From Coq Require Import String List NArith ZArith Bool SpecFloat Lia.
From Verif Require Import Base CuListModel PlanModel RuntimeModel FloatModel PidModel MotorModel BotModel BotSpec.
Import ListNotations.

(** * Iterations of the robot *)
Lemma calls_app a b : calls (a ++ b) = calls a ++ calls b.
Proof. unfold calls. apply flat_map_app. Qed.
Lemma given_app t a b : given t (a ++ b) = given t a ++ given t b.
Proof. unfold given. rewrite calls_app. apply flat_map_app. Qed.
Lemma times_app t a b : times t (a ++ b) = times t a ++ times t b.
Proof. unfold times. rewrite given_app. apply flat_map_app. Qed.

(** The steps of the plan. *)
Definition s_bal := Step 0 Source [] (Some (0, "cu_ads7883_new::ADSReadingPayload"%string)).
Definition s_balpid := Step 2 Regular [(0, "cu_ads7883_new::ADSReadingPayload"%string)] (Some (1, "cu_pid::PIDControlOutputPayload"%string)).
Definition s_rail := Step 1 Source [] (Some (2, "cu_rp_encoder::EncoderPayload"%string)).
Definition s_railpid := Step 3 Regular [(2, "cu_rp_encoder::EncoderPayload"%string)] (Some (3, "cu_pid::PIDControlOutputPayload"%string)).
Definition s_merge := Step 4 Regular [(1, "cu_pid::PIDControlOutputPayload"%string); (3, "cu_pid::PIDControlOutputPayload"%string)] (Some (4, "cu_rp_sn754410_new::MotorPayload"%string)).
Definition s_motor := Step 5 Sink [(4, "cu_rp_sn754410_new::MotorPayload"%string)] (Some (5, "()"%string)).
Lemma bot_plan mode : a_plan (bot_app mode) = [s_bal; s_balpid; s_rail; s_railpid; s_merge; s_motor].
Proof. vm_compute. reflexivity. Qed.

Section Iteration.
Context {W : Type}.
Variable w : world W.
Variable monitor : phase -> nat -> fault -> decision.
Hypothesis Hm : ignores monitor.
Variable mode : ovf_mode.
Notation A := (bot_app mode).
Notation O := (bot_oracles w monitor).

(** Everything but the world. *)
Definition same (e e' : bot W) : Prop :=
  b_bal e' = b_bal e /\ b_rail e' = b_rail e /\ b_motor e' = b_motor e /\ b_on e' = b_on e /\ b_dead e' = b_dead e.
Lemma same_refl e : same e e. Proof. repeat split. Qed.
Lemma same_trans a b c : same a b -> same b c -> same a c.
Proof. unfold same. intros (?&?&?&?&?) (?&?&?&?&?). repeat split; congruence. Qed.
Lemma outside_same {B} (f : W -> W * B) e e' r : outside f e = (e', r) -> same e e' /\ r = snd (f (b_world e)).
Proof. unfold outside. destruct (f (b_world e)). intros [= <- <-]. repeat split. Qed.

(** A source, a task or the sink, called by the generated code. *)
Lemma do_process_regular s ins out e e' tr out' f : s_type s <> Sink -> do_process O s ins true out e = (e', tr, out', f) ->
  exists e1 e2 o1 o2 r, same e e1 /\ m_payload o1 = m_payload out /\ m_meta o1 = m_meta out /\
    bot_process w (s_node s) ins o1 e1 = (e2, o2, r) /\ same e2 e' /\ calls tr = [(s_node s, ins, r)] /\ f = PNext /\
    m_meta out' = m_meta o2 /\ m_payload out' = match r with None => m_payload o2 | Some _ => None end.
Proof.
  intros T. unfold do_process. cbn [o_now O]. destruct (outside (w_now w) e) as [e1 t0] eqn:E1. apply outside_same in E1.
  set (o1 := with_start t0 out). intros H.
  assert (X : exists e2 o2 r, bot_process w (s_node s) ins o1 e1 = (e2, o2, r)) by (destruct (bot_process w (s_node s) ins o1 e1) as [[a b] c]; eauto).
  destruct X as (e2 & o2 & r & E2).
  assert (Y : match s_type s with
       | Sink => let (env, r) := o_sink O (s_node s) ins e1 in (env, [EProcess (s_node s) ins r], o1, r)
       | _ => let '(env, out, r) := o_process O (s_node s) ins o1 e1 in (env, [EProcess (s_node s) ins r], out, r)
       end = (e2, [EProcess (s_node s) ins r], o2, r)).
  { cbn [o_process O]. rewrite E2. destruct (s_type s); [reflexivity|reflexivity|congruence]. }
  rewrite Y in H. destruct (outside (w_now w) e2) as [e3 t1] eqn:E3. apply outside_same in E3.
  exists e1, e2, o1, o2, r. split; [apply E1|]. split; [reflexivity|]. split; [reflexivity|]. split; [exact E2|].
  destruct r as [x|].
  - unfold pact in H. cbn [o_decide O] in H. rewrite Hm in H. injection H as <- <- <- <-. split; [apply E3|]. repeat split.
  - injection H as <- <- <- <-. split; [apply E3|]. repeat split.
Qed.
Lemma do_process_sink s ins out e e' tr out' f : s_type s = Sink -> do_process O s ins true out e = (e', tr, out', f) ->
  exists e1 e2 r, same e e1 /\ bot_sink w (s_node s) ins e1 = (e2, r) /\ same e2 e' /\ calls tr = [(s_node s, ins, r)] /\ f = PNext.
Proof.
  intros T. unfold do_process. cbn [o_now O]. destruct (outside (w_now w) e) as [e1 t0] eqn:E1. apply outside_same in E1. rewrite T. cbn [o_sink O].
  destruct (bot_sink w (s_node s) ins e1) as [e2 r] eqn:E2. destruct (outside (w_now w) e2) as [e3 t1] eqn:E3. apply outside_same in E3.
  intros H. exists e1, e2, r. split; [apply E1|]. split; [exact E2|]. destruct r as [x|].
  - unfold pact in H. cbn [o_decide O] in H. rewrite Hm in H. injection H as <- <- <- <-. split; [apply E3|]. repeat split.
  - injection H as <- <- <- <-. split; [apply E3|]. repeat split.
Qed.

(** What goes through one iteration. *)
Definition sent (r : result) : option value := match r with Sent p => option_map VPid p | Failed => None end.
Record thru := Thru {
  x0 : message; x1 : message; y2 : message; y3 : message; z : message; z5 : message;
  r0 : option fault; r1 : option fault; r2 : option fault; r3 : option fault; r4 : option fault; r5 : option fault;
  rb : result; rr : result; hw : W }.
Record pass (e e' : bot W) (tr : list ev) (slots msgs : list message) (d : thru) : Prop := Pass {
  p_msgs : msgs = [x0 d; y2 d; x1 d; y3 d; z d; z5 d];
  p_calls : calls tr = [(0, [], r0 d); (2, [x0 d], r2 d); (1, [], r1 d); (3, [x1 d], r3 d); (4, [y2 d; y3 d], r4 d); (5, [z d], r5 d)]%nat;
  p_x0 : match m_payload (x0 d) with
         | None => r0 d <> None
         | Some v => r0 d = None /\ exists u u' a t, w_angle w u = (u', Some (a, t)) /\ v = VAngle a /\ m_meta (x0 d) = Some t
         end;
  p_x1 : exists u u' n t, w_rail w u = (u', (n, t)) /\ m_payload (x1 d) = Some (VRail n) /\ m_meta (x1 d) = Some t;
  p_bal : PidModel.process (reading (x0 d)) (b_bal e) = Ret (b_bal e', rb d);
  p_y2 : m_payload (y2 d) = sent (rb d);
  p_y2m : option_map m_meta (nth_error slots 1) = Some (m_meta (y2 d));
  p_rail : PidModel.process (reading (x1 d)) (b_rail e) = Ret (b_rail e', rr d);
  p_y3 : m_payload (y3 d) = sent (rr d);
  p_z : m_payload (z d) = match pid_payload (y2 d), pid_payload (y3 d) with
                      | Some b, Some p => Some (VMotor (clamp1 (fsub (o_output b) (o_output p)))) | _, _ => None end;
  p_zm : m_payload (z d) <> None -> m_meta (z d) = m_meta (y2 d);
  p_zm' : m_meta (z d) = m_meta (y2 d) \/ option_map m_meta (nth_error slots 4) = Some (m_meta (z d));
  p_motor : b_motor e' = fst (MotorModel.process (power (z d)) (snd (w_hw w (hw d))) (b_motor e));
  p_on : b_on e' = b_on e;
  p_dead : b_dead e = false }.

Lemma step_eq s msgs k n out ins e : s_out s = Some (k, n) -> nth_error msgs k = Some out -> gather msgs (s_inputs s) = Some ins ->
  process_step A O s msgs e = let '(e, tr, out, f) := do_process O s ins true out e in (e, tr, upd k out msgs, f).
Proof. intros H1 H2 H3. unfold process_step. rewrite H1, H2, H3. reflexivity. Qed.

(** The steps one after the other. *)
Lemma all_steps m0 m1 m2 m3 m4 m5 e e' tr msgs f : process_all A O (a_plan A) [m0; m1; m2; m3; m4; m5] e = (e', tr, msgs, f) ->
  b_dead e' = false -> f = PNext /\ exists d, pass e e' tr [m0; m1; m2; m3; m4; m5] msgs d.
Proof.
  rewrite bot_plan. cbn [process_all].
  rewrite (step_eq s_bal _ 0 _ m0 [] e) by reflexivity.
  destruct (do_process O s_bal [] true m0 e) as [[[e1 t1] n0] f1] eqn:D1. apply do_process_regular in D1; [|discriminate].
  destruct D1 as (e1a & e1b & o1 & o1' & q1 & S1 & _ & _ & B1 & S1' & C1 & -> & Mt1 & P1). cbn [upd].
  rewrite (step_eq s_balpid _ 1 _ m1 [n0] e1) by reflexivity.
  destruct (do_process O s_balpid [n0] true m1 e1) as [[[e2 t2] n1] f2] eqn:D2. apply do_process_regular in D2; [|discriminate].
  destruct D2 as (e2a & e2b & o2 & o2' & q2 & S2 & Pa2 & Me2 & B2 & S2' & C2 & -> & Mt2 & P2). cbn [upd].
  rewrite (step_eq s_rail _ 2 _ m2 [] e2) by reflexivity.
  destruct (do_process O s_rail [] true m2 e2) as [[[e3 t3] n2] f3] eqn:D3. apply do_process_regular in D3; [|discriminate].
  destruct D3 as (e3a & e3b & o3 & o3' & q3 & S3 & _ & _ & B3 & S3' & C3 & -> & Mt3 & P3). cbn [upd].
  rewrite (step_eq s_railpid _ 3 _ m3 [n2] e3) by reflexivity.
  destruct (do_process O s_railpid [n2] true m3 e3) as [[[e4 t4] n3] f4] eqn:D4. apply do_process_regular in D4; [|discriminate].
  destruct D4 as (e4a & e4b & o4 & o4' & q4 & S4 & Pa4 & Me4 & B4 & S4' & C4 & -> & Mt4 & P4). cbn [upd].
  rewrite (step_eq s_merge _ 4 _ m4 [n1; n3] e4) by reflexivity.
  destruct (do_process O s_merge [n1; n3] true m4 e4) as [[[e5 t5] n4] f5] eqn:D5. apply do_process_regular in D5; [|discriminate].
  destruct D5 as (e5a & e5b & o5 & o5' & q5 & S5 & Pa5 & Me5 & B5 & S5' & C5 & -> & Mt5 & P5). cbn [upd].
  rewrite (step_eq s_motor _ 5 _ m5 [n4] e5) by reflexivity.
  destruct (do_process O s_motor [n4] true m5 e5) as [[[e6 t6] n5] f6] eqn:D6. apply do_process_sink in D6; [|reflexivity].
  destruct D6 as (e6a & e6b & q6 & S6 & B6 & S6' & C6 & ->). cbn [upd].
  intros H Hd. injection H as <- <- <- <-. split; [reflexivity|].
  cbn [s_node s_bal s_balpid s_rail s_railpid s_merge s_motor] in *.
  (* balpos *)
  assert (F1 : same e e1 /\ match m_payload n0 with
         | None => q1 <> None
         | Some v => q1 = None /\ exists u u' a t, w_angle w u = (u', Some (a, t)) /\ v = VAngle a /\ m_meta n0 = Some t end).
  { cbn [bot_process] in B1. destruct (outside (w_angle w) e1a) as [ex r] eqn:X. assert (X' := X). apply outside_same in X'. destruct X' as [Sx _].
    unfold outside in X. destruct (w_angle w (b_world e1a)) as [u' r'] eqn:U. injection X as _ <-.
    destruct r' as [[a t]|]; injection B1 as <- <- <-; (split; [eapply same_trans; [exact S1|]; eapply same_trans; [exact Sx|exact S1']|]); rewrite P1.
    - cbn. split; [reflexivity|]. rewrite Mt1. cbn. eauto 10.
    - discriminate. }
  destruct F1 as [F1 G1].
  (* the motor, backwards *)
  cbn [bot_sink] in B6. destruct (outside (w_hw w) e6a) as [ex hw0] eqn:X6. assert (X6' := X6). apply outside_same in X6'. destruct X6' as [Sx6 Hhw].
  destruct (MotorModel.process (power n4) hw0 (b_motor ex)) as [mo ok] eqn:Mo. injection B6 as <- <-.
  assert (F6 : b_bal e6 = b_bal e5 /\ b_rail e6 = b_rail e5 /\ b_on e6 = b_on e5 /\ b_dead e6 = b_dead e5 /\ b_motor e6 = fst (MotorModel.process (power n4) hw0 (b_motor e5))).
  { unfold same in *. cbn in S6'. replace (b_motor ex) with (b_motor e5) in Mo by (destruct S6 as (?&?&?&?&?), Sx6 as (?&?&?&?&?); congruence). rewrite Mo. cbn.
    destruct S6 as (?&?&?&?&?), Sx6 as (?&?&?&?&?), S6' as (?&?&?&?&?). repeat split; congruence. }
  (* the merger *)
  assert (F5 : same e4 e5 /\ m_payload n4 = match pid_payload n1, pid_payload n3 with
                      | Some b, Some p => Some (VMotor (clamp1 (fsub (o_output b) (o_output p)))) | _, _ => None end /\
               (m_payload n4 <> None -> m_meta n4 = m_meta n1) /\ (m_meta n4 = m_meta n1 \/ m_meta n4 = m_meta m4)).
  { cbn [bot_process merge] in B5. destruct (pid_payload n1) as [b|]; [destruct (pid_payload n3) as [p|]|]; injection B5 as <- <- <-;
      (split; [eapply same_trans; [exact S5|exact S5']|]); rewrite P5, Mt5; cbn; auto; (split; [reflexivity|]; split; [congruence|right; exact Me5]). }
  destruct F5 as (F5 & G5 & G5' & G5'').
  (* railpos *)
  assert (F3 : same e2 e3 /\ exists u u' n t, w_rail w u = (u', (n, t)) /\ m_payload n2 = Some (VRail n) /\ m_meta n2 = Some t).
  { cbn [bot_process] in B3. destruct (outside (w_rail w) e3a) as [ey r] eqn:X. assert (X' := X). apply outside_same in X'. destruct X' as [Sx _].
    unfold outside in X. destruct (w_rail w (b_world e3a)) as [u' [n t]] eqn:U. injection X as _ <-.
    injection B3 as <- <- <-. split; [eapply same_trans; [exact S3|]; eapply same_trans; [exact Sx|exact S3']|]. rewrite P3, Mt3. cbn. eauto 10. }
  destruct F3 as (F3 & G3).
  (* the PIDs *)
  assert (Dd : b_dead e4 = false /\ b_dead e2 = false).
  { assert (b_dead e4 = false). { unfold same in *. destruct F5 as (?&?&?&?&?), F6 as (?&?&?&?&?). congruence. }
    split; [auto|]. cbn [bot_process] in B4. destruct (PidModel.process (reading n2) (b_rail e4a)) as [[p r]|].
    - destruct (pid_out r o4). injection B4 as <- <- <-. unfold same in *. cbn in *. destruct S4 as (?&?&?&?&?), S4' as (?&?&?&?&?), F3 as (?&?&?&?&?). congruence.
    - injection B4 as <- <- <-. unfold same in *. cbn in *. destruct S4' as (?&?&?&?&?). congruence. }
  destruct Dd as [Dd4 Dd2].
  assert (F4 : exists r, PidModel.process (reading n2) (b_rail e3) = Ret (b_rail e4, r) /\ m_payload n3 = sent r /\ b_bal e4 = b_bal e3 /\ b_motor e4 = b_motor e3 /\ b_on e4 = b_on e3).
  { cbn [bot_process] in B4. unfold same in S4, S4'. replace (b_rail e4a) with (b_rail e3) in B4 by (destruct S4 as (?&?&?&?&?); congruence).
    destruct (PidModel.process (reading n2) (b_rail e3)) as [[p r]|]; [|injection B4 as <- <- <-; cbn in S4'; destruct S4' as (?&?&?&?&?); congruence].
    exists r. destruct r as [p0|]; cbn [pid_out] in B4; injection B4 as <- <- <-; cbn in S4'; destruct S4 as (?&?&?&?&?), S4' as (?&?&?&?&?); rewrite P4; repeat split; try congruence. }
  assert (F2 : exists r, PidModel.process (reading n0) (b_bal e1) = Ret (b_bal e2, r) /\ m_payload n1 = sent r /\ m_meta n1 = m_meta m1 /\ b_rail e2 = b_rail e1 /\ b_motor e2 = b_motor e1 /\ b_on e2 = b_on e1 /\ b_dead e1 = false).
  { cbn [bot_process] in B2. unfold same in S2, S2'. replace (b_bal e2a) with (b_bal e1) in B2 by (destruct S2 as (?&?&?&?&?); congruence).
    destruct (PidModel.process (reading n0) (b_bal e1)) as [[p r]|]; [|injection B2 as <- <- <-; cbn in S2'; destruct S2' as (?&?&?&?&?); congruence].
    exists r. destruct r as [p0|]; cbn [pid_out] in B2; injection B2 as <- <- <-; cbn in S2', Mt2; destruct S2 as (?&?&?&?&?), S2' as (?&?&?&?&?); rewrite P2; repeat split; try congruence. }
  destruct F4 as (rr0 & G4 & G4' & G4b & G4m & G4o). destruct F2 as (rb0 & G2 & G2' & G2m & G2r & G2mo & G2o & G2d).
  unfold same in F1, F3, F5.
  destruct F1 as (?&?&?&?&?), F3 as (?&?&?&?&?), F5 as (?&?&?&?&?), F6 as (?&?&?&?&F6).
  exists (Thru n0 n2 n1 n3 n4 n5 q1 q3 q2 q4 q5 (if ok then None else Some FHardware) rb0 rr0 (b_world e6a)). constructor; cbn -[calls MotorModel.process PidModel.process]; try assumption.
  - reflexivity.
  - rewrite !calls_app, C1, C2, C3, C4, C5, C6. reflexivity.
  - replace (b_bal e) with (b_bal e1) by congruence. replace (b_bal e6) with (b_bal e2) by congruence. exact G2.
  - congruence.
  - replace (b_rail e) with (b_rail e3) by congruence. replace (b_rail e6) with (b_rail e4) by congruence. exact G4.
  - destruct G5'' as [K|K]; [auto|right; congruence].
  - rewrite F6, Hhw. do 2 f_equal. congruence.
  - congruence.
  - congruence.
Qed.

Lemma pass_same e e1 e' tr1 tr slots msgs d : pass e e1 tr1 slots msgs d -> same e1 e' -> calls tr = calls tr1 -> pass e e' tr slots msgs d.
Proof.
  intros [] (Sb & Sr & Sm & So & Sd) C. constructor; auto; congruence.
Qed.

(** The copper lists keep their six messages; those of the balance PID and of the merger never
    get a time. *)
Definition shape (l : list message) : Prop :=
  exists m0 m1 m2 m3 m4 m5, l = [m0; m1; m2; m3; m4; m5] /\ m_meta m1 = None /\ m_meta m4 = None.
Definition shaped (m : mgr (list message)) : Prop := Forall (fun c => shape (cl_msgs c)) (m_data m).
Lemma Forall_upd {B} (P : B -> Prop) i x l : P x -> Forall P l -> Forall P (upd i x l).
Proof. intros Hx H. revert i. induction H as [|y l Hy H IH]; intros [|i]; cbn; auto. Qed.
Lemma create_shaped m m' i : create (a_mode A) m = Ret (Some (m', i)) -> shaped m -> shaped m'.
Proof.
  unfold create. destruct (is_full m); [discriminate|]. destruct (nth_error (m_data m) (m_ins m)) as [c|] eqn:N; [|discriminate].
  destruct (succ_u32 (a_mode A) (m_next m)); [|discriminate]. cbn. intros [= <- <-] S. unfold shaped. cbn. apply Forall_upd; [|exact S].
  cbn. eapply Forall_forall in S; [|eapply nth_error_In, N]. exact S.
Qed.
Lemma eop_fold logger id slots : forall s it nb lg out, Forall (fun c => shape (cl_msgs c)) slots -> 
  (forall it nb lg out, s = Ret (it, nb, lg, out) -> Forall (fun c : cl (list message) => shape (cl_msgs c)) out) ->
  fold_left (eop_step logger id) slots s = Ret (it, nb, lg, out) -> Forall (fun c => shape (cl_msgs c)) out.
Proof.
  induction slots as [|c slots IH]; intros s it nb lg out F I H; cbn [fold_left] in H; [eauto|].
  inversion F as [|? ? Hc F']; subst. eapply IH; [exact F'| |exact H]. intros it1 nb1 lg1 out1 E.
  unfold eop_step in E. destruct s as [[[[it0 nb0] lg0] out0]|]; [|discriminate]. cbn [obind] in E. specialize (I _ _ _ _ eq_refl).
  set (c' := if (cl_id c =? id)%N && clstate_eqb (cl_state c) Processing then change_state DoneProcessing c else c) in E.
  assert (Hc' : shape (cl_msgs c')) by (unfold c'; destruct ((cl_id c =? id)%N && clstate_eqb (cl_state c) Processing); exact Hc).
  clearbody c'. destruct (it0 && clstate_eqb (cl_state c') DoneProcessing).
  - destruct logger as [ok|]; [destruct (ok (change_state BeingSerialized c'))|]; try discriminate; injection E as <- <- <- <-; apply Forall_app; split; auto; constructor; auto.
  - injection E as <- <- <- <-. apply Forall_app; split; auto.
Qed.
Lemma pop_data n : forall (m m' : mgr (list message)), pop_n n m = Ret m' -> m_data m' = m_data m.
Proof.
  induction n as [|n IH]; intros m m' H; cbn [pop_n] in H; [congruence|]. destruct (pop m) as [[m1 c]|] eqn:P; [|discriminate]. cbn in H.
  apply IH in H. rewrite H. unfold pop in P. destruct (Nat.eqb (m_len m) 0); [congruence|]. destruct (nth_error (m_data m) (prev_ins m)); [|discriminate]. injection P as <- _. reflexivity.
Qed.
Lemma Forall_rev' {B} (P : B -> Prop) l : Forall P l -> Forall P (rev l).
Proof. rewrite !Forall_forall. intros H x Hx. apply H. apply in_rev. exact Hx. Qed.
Lemma Forall_firstn' {B} (P : B -> Prop) n l : Forall P l -> Forall P (firstn n l).
Proof. intros H. revert n. induction H; intros [|n]; cbn; auto. Qed.
Lemma Forall_skipn' {B} (P : B -> Prop) n l : Forall P l -> Forall P (skipn n l).
Proof. intros H. revert n. induction H; intros [|n]; cbn; auto. Qed.
Lemma eop_shaped logger m id m' lg : end_of_processing logger m id = Ret (m', lg) -> shaped m -> shaped m'.
Proof.
  unfold end_of_processing. intros H S. destruct (iter_mut m) as [slots|] eqn:I; [|discriminate]. cbn [obind] in H.
  destruct (fold_left (eop_step logger id) slots (Ret (true, 0%nat, [], []))) as [[[[it nb] l] out]|] eqn:F; [|discriminate]. cbn [obind] in H.
  destruct (pop_n nb (iter_mut_write m out)) as [m1|] eqn:P; [|discriminate]. injection H as <- <-. unfold shaped. rewrite (pop_data _ _ _ P). cbn.
  assert (Fs : Forall (fun c => shape (cl_msgs c)) slots).
  { unfold iter_mut in I. destruct (m_ins m <=? cap m)%nat; [|discriminate]. injection I as <-. apply Forall_app. split; apply Forall_rev'; [apply Forall_firstn'|apply Forall_skipn']; exact S. }
  eapply eop_fold in F; [|exact Fs|intros ? ? ? ? E; injection E as <- <- <- <-; constructor].
  apply Forall_app. split; apply Forall_rev'; [apply Forall_firstn'|apply Forall_skipn']; exact F.
Qed.
Lemma shaped_new : shaped (mgr_new 10 bot_zero).
Proof. unfold shaped. cbn. repeat constructor; do 6 eexists; cbn; auto. Qed.
Lemma pass_shape e e' tr slots msgs d : shape slots -> pass e e' tr slots msgs d -> shape msgs.
Proof.
  intros (m0 & m1 & m2 & m3 & m4 & m5 & -> & H1 & H4) [Hm1]. cbn in *. do 6 eexists. split; [exact Hm1|].
  assert (E1 : m_meta (y2 d) = None) by congruence. split; [exact E1|]. destruct p_zm'0 as [E|E]; congruence.
Qed.

Lemma report_quiet id m msgs e e' m' tr f : report_and_finish A O id m msgs e = (e', m', tr, f) ->
  same e e' /\ calls tr = [] /\ (f = Next -> shaped m -> shaped m') /\ f <> Return None.
Proof.
  unfold report_and_finish. destruct (collect_metadata A msgs) as [md|]; [|intros [= <- <- <- <-]; repeat split; discriminate].
  cbn [o_report O]. destruct (outside (w_report w md) e) as [e1 r] eqn:Er. apply outside_same in Er. destruct Er as [Sr _].
  destruct r as [x|]; [intros [= <- <- <- <-]; split; [exact Sr|]; repeat split; discriminate|].
  unfold finish. destruct (end_of_processing _ m id) as [[m1 lg]|] eqn:Ef; cbn [obind]; intros [= <- <- <- <-]; (split; [exact Sr|]); (split; [|split; [|discriminate]]); try discriminate; auto.
  - cbn. clear. induction lg; cbn; auto.
  - intros _ S. eapply eop_shaped; eauto.
Qed.

(** One iteration: either it panics before any task is called, or everything goes through. *)
Lemma iteration m e e' m' tr r : run_one_iteration A O m e = (e', m', tr, r) -> shaped m -> b_dead e' = false ->
  calls tr = [] /\ r = RPanic /\ same e e' \/
  exists slots msgs d, shape slots /\ pass e e' tr slots msgs d /\ (r = ROk -> shaped m').
Proof.
  intros H S D. unfold run_one_iteration in H. change (seq 0 (a_tasks A)) with [0; 1; 2; 3; 4; 5]%nat in H.
  assert (L : forall ph e, ph = Preprocess \/ ph = Postprocess -> exists tr, lifecycle A O ph [0; 1; 2; 3; 4; 5]%nat e = (e, tr, Next) /\ calls tr = []).
  { clear. intros ph e [-> | ->]; eexists; (split; [reflexivity|reflexivity]). }
  destruct (L Preprocess e (or_introl eq_refl)) as (t1 & L1 & C1). rewrite L1 in H. cbv beta iota zeta in H.
  destruct (copperlist_body A O m e) as [[[e1 m1] t2] f] eqn:B.
  assert (X : calls t2 = [] /\ f = Panicked /\ same e e1 \/ (b_dead e1 = false -> exists slots msgs d, shape slots /\ pass e e1 t2 slots msgs d) /\ (f = Next -> shaped m1) /\ f <> Return None).
  { unfold copperlist_body in B. destruct (create (a_mode A) m) as [[[m2 i]|]|] eqn:Cr; try (injection B as <- <- <- <-; left; repeat split).
    assert (S2 := create_shaped _ _ _ Cr S). destruct (nth_error (m_data m2) i) as [c|] eqn:Nc; [|injection B as <- <- <- <-; left; repeat split].
    assert (Sc : shape (cl_msgs c)) by (eapply Forall_forall in S2; [|eapply nth_error_In, Nc]; exact S2).
    assert (Sc' := Sc). destruct Sc' as (a0 & a1 & a2 & a3 & a4 & a5 & Ec & _).
    destruct (process_all A O (a_plan A) (cl_msgs c) e) as [[[e2 t3] msgs] pf] eqn:P. right. rewrite Ec in P.
    assert (Go : forall e1 t2, same e2 e1 -> calls t2 = calls t3 -> b_dead e1 = false -> pf = PNext /\ exists slots msgs' d, shape slots /\ pass e e1 t2 slots msgs' d /\ shape msgs).
    { intros e1' t2' Se Ct De. destruct (all_steps _ _ _ _ _ _ _ _ _ _ _ P) as (-> & d & Pd); [unfold same in Se; destruct Se as (?&?&?&?&?); congruence|].
      split; [reflexivity|]. do 3 eexists. split; [rewrite Ec in Sc; exact Sc|]. split; [eapply pass_same; eauto|]. eapply pass_shape; [|exact Pd]. rewrite Ec in Sc. exact Sc. }
    destruct pf.
    - destruct (match collect_metadata A msgs with Some md => e2e A md | None => Panic end).
      + destruct (report_and_finish A O _ _ msgs e2) as [[[e3 m3] t4] f4] eqn:R. injection B as <- <- <- <-. apply report_quiet in R. destruct R as (Se & Ct & Sh & Nr).
        assert (Ct' : calls (t3 ++ t4) = calls t3) by (rewrite calls_app, Ct, app_nil_r; reflexivity).
        split; [intros De; destruct (Go e3 _ Se Ct' De) as (_ & ? & ? & ? & ? & ? & _); eauto 6|]. split; [|exact Nr].
        intros Hf. apply Sh; [exact Hf|]. unfold shaped, set_slot. cbn. apply Forall_upd; [|exact S2].
        cbn. destruct (b_dead e3) eqn:De; [|destruct (Go e3 _ Se Ct' De) as (_ & ? & ? & ? & _ & _ & K); exact K].
        exfalso. rewrite Hf in H. destruct (L Postprocess e3 (or_intror eq_refl)) as (t5 & L5 & C5). rewrite L5 in H. injection H as <- <- <- <-. congruence.
      + injection B as <- <- <- <-. split; [intros De; destruct (Go e2 t3 (same_refl _) eq_refl De) as (_ & ? & ? & ? & ? & ? & _); eauto 6|]. split; discriminate.
    - destruct (report_and_finish A O _ _ msgs e2) as [[[e3 m3] t4] f4] eqn:R. injection B as <- <- <- <-. apply report_quiet in R. destruct R as (Se & Ct & Sh & Nr).
      assert (Ct' : calls (t3 ++ t4) = calls t3) by (rewrite calls_app, Ct, app_nil_r; reflexivity).
      assert (De : b_dead e3 = false). { destruct f4; cbn in H; injection H as <- <- <- <-; exact D. }
      destruct (Go e3 _ Se Ct' De) as (X & _). discriminate X.
    - injection B as <- <- <- <-. cbn in H. injection H as <- <- <- <-. destruct (Go e2 t3 (same_refl _) eq_refl D) as (X & _). discriminate X.
    - injection B as <- <- <- <-. cbn in H. injection H as <- <- <- <-. destruct (Go e2 t3 (same_refl _) eq_refl D) as (X & _). discriminate X. }
  destruct f as [|ro|].
  - destruct (L Postprocess e1 (or_intror eq_refl)) as (t5 & L5 & C5). rewrite L5 in H. injection H as <- <- <- <-.
    destruct X as [(_ & X & _)|(X & Sh & _)]; [discriminate X|]. right. destruct (X D) as (sl & ms & d & Ssl & Pd). exists sl, ms, d. split; [exact Ssl|]. split; [|auto].
    eapply pass_same; [exact Pd|apply same_refl|]. rewrite !calls_app, C1, C5, app_nil_r. reflexivity.
  - injection H as <- <- <- <-. destruct X as [(_ & X & _)|(X & _ & Nr)]; [discriminate X|]. right. destruct (X D) as (sl & ms & d & Ssl & Pd). exists sl, ms, d. split; [exact Ssl|]. split.
    + eapply pass_same; [exact Pd|apply same_refl|]. rewrite calls_app, C1. reflexivity.
    + destruct ro; [discriminate|congruence].
  - injection H as <- <- <- <-. destruct X as [(Ct & _ & Se)|(X & _ & _)].
    + left. rewrite calls_app, C1, Ct. auto.
    + right. destruct (X D) as (sl & ms & d & Ssl & Pd). exists sl, ms, d. split; [exact Ssl|]. split; [|discriminate].
      eapply pass_same; [exact Pd|apply same_refl|]. rewrite calls_app, C1. reflexivity.
Qed.

(** Starting the tasks changes the channels only. *)
Definition but_on (e e' : bot W) : Prop :=
  b_bal e' = b_bal e /\ b_rail e' = b_rail e /\ b_motor e' = b_motor e /\ b_dead e' = b_dead e.
Lemma start_task t e e' r : bot_task w Start t e = (e', r) -> but_on e e'.
Proof.
  assert (K : forall f : W -> W * option fault, outside f e = (e', r) -> but_on e e').
  { intros f H. apply outside_same in H. unfold same, but_on in *. intuition. }
  assert (K0 : (e, @None fault) = (e', r) -> but_on e e') by (intros [= <- _]; repeat split).
  destruct t as [|[|[|[|[|[|t]]]]]]; cbn [bot_task]; try exact K0; try (intros H; exact (K _ H)).
  unfold set_channels, outside. destruct (w_hw w (b_world e)) as [x [a b]]; cbn; intros K1; destruct a, b; injection K1 as <- <-; repeat split.
Qed.
Lemma start_lifecycle ts : forall e e' tr f, lifecycle A O Start ts e = (e', tr, f) -> but_on e e' /\ calls tr = [].
Proof.
  induction ts as [|t ts IH]; intros e e' tr f; cbn [lifecycle]; [intros [= <- <- <-]; repeat split|].
  unfold one_call. cbn [a_sim bot_app]. unfold do_call. cbn [o_task O]. destruct (bot_task w Start t e) as [e1 r] eqn:T. apply start_task in T.
  destruct r as [x|].
  - unfold act. cbn [o_decide O]. destruct (monitor Start t x).
    + intros [= <- <- <-]. split; [exact T|reflexivity].
    + destruct (lifecycle A O Start ts e1) as [[e2 t2] f2] eqn:L. intros [= <- <- <-]. apply IH in L. destruct L as [L C].
      split; [unfold but_on in *; intuition congruence|]. exact C.
    + intros [= <- <- <-]. split; [exact T|reflexivity].
  - destruct (lifecycle A O Start ts e1) as [[e2 t2] f2] eqn:L. intros [= <- <- <-]. apply IH in L. destruct L as [L C].
    split; [unfold but_on in *; intuition congruence|]. exact C.
Qed.
Lemma start_quiet e e' tr r : all_tasks A O Start e = (e', tr, r) -> but_on e e' /\ calls tr = [].
Proof.
  unfold all_tasks. destruct (lifecycle A O Start (seq 0 (a_tasks A)) e) as [[e1 t1] f] eqn:L. apply start_lifecycle in L. destruct L as [L C].
  destruct f; [cbn [o_monitor O]|..]; intros [= <- <- <-]; (split; [exact L|]); auto. rewrite calls_app, C. reflexivity.
Qed.

(** The messages of a PID, and its life. *)
Definition life (l : list message) : list op := map (fun x => Process (reading x)) l.
Lemma run_snoc l i : forall t t1 rs t2 r, PidModel.run l t = Ret (t1, rs) -> PidModel.process i t1 = Ret (t2, r) -> PidModel.run (l ++ [Process i]) t = Ret (t2, rs ++ [r]).
Proof.
  induction l as [|[j|] l IH]; intros t t1 rs t2 r H P; cbn [PidModel.run List.app] in *.
  - injection H as <- <-. rewrite P. reflexivity.
  - destruct (PidModel.process j t) as [[t3 r3]|]; [|discriminate]. cbn [obind] in *. destruct (PidModel.run l t3) as [[t4 rs4]|] eqn:E; [|discriminate]. cbn [obind] in H.
    injection H as <- <-. rewrite (IH _ _ _ _ _ E P). reflexivity.
  - eauto.
Qed.
Lemma process_config i t t' r : PidModel.process i t = Ret (t', r) -> t_setpoint t' = t_setpoint t /\ cutoff t' = cutoff t.
Proof.
  destruct i as [[x [tov|]]|]; cbn [PidModel.process]; try (intros [= <- <-]; auto; fail).
  destruct (first_run t); [intros [= <- <-]; auto|]. destruct (tov <? last_tov t)%N; [discriminate|]. destruct (next_control_output _ _ _) as [[p st]|]; [|discriminate].
  cbn [obind]. destruct (flt _ _); [|destruct (flt _ _)]; intros [= <- <-]; auto.
Qed.
Lemma run_config l : forall t t' rs, PidModel.run l t = Ret (t', rs) -> t_setpoint t' = t_setpoint t /\ cutoff t' = cutoff t.
Proof.
  induction l as [|[j|] l IH]; intros t t' rs H; cbn [PidModel.run] in H.
  - injection H as <- <-. auto.
  - destruct (PidModel.process j t) as [[t3 r3]|] eqn:P; [|discriminate]. cbn [obind] in *. destruct (PidModel.run l t3) as [[t4 rs4]|] eqn:E; [|discriminate]. cbn [obind] in H.
    injection H as <- <-. apply IH in E. apply process_config in P. intuition congruence.
  - apply IH in H. exact H.
Qed.

(** What the sensors send. *)
Definition angle_msg (x : message) : Prop :=
  m_payload x = None \/ exists u u' a t, w_angle w u = (u', Some (a, t)) /\ m_payload x = Some (VAngle a) /\ m_meta x = Some t.
Definition rail_msg (x : message) : Prop :=
  exists u u' n t, w_rail w u = (u', (n, t)) /\ m_payload x = Some (VRail n) /\ m_meta x = Some t.
Lemma pass_given e e' tr slots msgs d : pass e e' tr slots msgs d ->
  given 2 tr = [x0 d] /\ given 3 tr = [x1 d] /\ given 5 tr = [z d] /\ angle_msg (x0 d) /\ rail_msg (x1 d).
Proof.
  intros P. unfold given. rewrite (p_calls _ _ _ _ _ _ P). cbn. do 3 (split; [reflexivity|]). split; [|exact (p_x1 _ _ _ _ _ _ P)].
  assert (H := p_x0 _ _ _ _ _ _ P). destruct (m_payload (x0 d)) as [v|] eqn:E; [|left; exact E]. right. destruct H as (_ & u & u' & a & t & H1 & -> & H2). eauto 10.
Qed.
Record inv (tr : list ev) (m : mgr (list message)) (e : bot W) : Prop := Inv {
  i_shaped : shaped m;
  i_dead : b_dead e = false;
  i_bal : exists rs, PidModel.run (life (given 2 tr)) (task_new bal_gains bal_cutoff) = Ret (b_bal e, rs);
  i_rail : exists rs, PidModel.run (life (given 3 tr)) (task_new rail_gains rail_cutoff) = Ret (b_rail e, rs);
  i_angles : Forall angle_msg (given 2 tr);
  i_rails : Forall rail_msg (given 3 tr);
  i_dz : deadzone (b_motor e) = bot_deadzone;
  i_dry : dryrun (b_motor e) = false }.
Lemma motor_keeps i h m : dryrun (fst (MotorModel.process i h m)) = dryrun m /\ deadzone (fst (MotorModel.process i h m)) = deadzone m.
Proof.
  assert (K : forall hw a b m, dryrun (fst (set_duties hw a b m)) = dryrun m /\ deadzone (fst (set_duties hw a b m)) = deadzone m) by (intros [[] []] a b m0; split; reflexivity).
  unfold MotorModel.process. destruct i as [q|]; cbn [fst]; [|apply K]. destruct (dryrun m) eqn:D; [rewrite <- D; apply K|].
  destruct (fne _ _); [|cbn; auto]. destruct (flt zero _); [|destruct (flt _ zero)]; match goal with |- context [set_duties ?h ?a ?b ?m] => apply (K h a b m) end.
Qed.
Lemma inv_step tr m e tr' m' e' slots msgs d : inv tr m e -> pass e e' tr' slots msgs d -> shaped m' -> b_dead e' = false -> inv (tr ++ tr') m' e'.
Proof.
  intros I P Sm D. destruct (pass_given _ _ _ _ _ _ P) as (G2 & G3 & _ & M2 & M3). constructor; auto; rewrite ?given_app, ?G2, ?G3.
  - destruct (i_bal _ _ _ I) as [rs H]. unfold life in *. rewrite map_app. eexists. eapply run_snoc; [exact H|]. exact (p_bal _ _ _ _ _ _ P).
  - destruct (i_rail _ _ _ I) as [rs H]. unfold life in *. rewrite map_app. eexists. eapply run_snoc; [exact H|]. exact (p_rail _ _ _ _ _ _ P).
  - apply Forall_app. split; [apply (i_angles _ _ _ I)|auto].
  - apply Forall_app. split; [apply (i_rails _ _ _ I)|auto].
  - rewrite (p_motor _ _ _ _ _ _ P), (proj2 (motor_keeps _ _ _)). apply (i_dz _ _ _ I).
  - rewrite (p_motor _ _ _ _ _ _ P), (proj1 (motor_keeps _ _ _)). apply (i_dry _ _ _ I).
Qed.
Lemma reaches_inv tr m e : reaches w monitor mode tr m e -> inv tr m e.
Proof.
  induction 1 as [x e tr H|tr m e tr' m' e' R IH H D].
  - apply start_quiet in H. destruct H as [(Hb & Hr & Hm0 & Hd) C]. unfold bot_new in *. cbn in *.
    constructor; unfold given; rewrite ?C; cbn; auto; try (exists []; congruence); try (rewrite Hm0; reflexivity). apply shaped_new.
  - destruct (iteration _ _ _ _ _ _ H (i_shaped _ _ _ IH) D) as [(_ & X & _)|(sl & ms & d & Ssl & P & Sm)]; [discriminate X|].
    eapply inv_step; eauto.
Qed.
(** An iteration from a reached state. *)
Lemma reached_iteration tr m e tr' m' e' r : reaches w monitor mode tr m e -> run_one_iteration A O m e = (e', m', tr', r) -> b_dead e' = false ->
  calls tr' = [] /\ r = RPanic /\ same e e' \/
  exists slots msgs d, shape slots /\ pass e e' tr' slots msgs d /\ inv tr m e.
Proof.
  intros R H D. assert (I := reaches_inv _ _ _ R). destruct (iteration _ _ _ _ _ _ H (i_shaped _ _ _ I) D) as [X|(sl & ms & d & Ssl & P & _)]; [auto|].
  right. eauto 6.
Qed.
End Iteration.
