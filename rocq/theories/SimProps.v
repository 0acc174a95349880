(** The simulator of the balancing robot. *)
From Coq Require Import String List NArith ZArith Bool SpecFloat Lia.
From Verif Require Import Base CuListModel CuListSpec PlanModel RuntimeModel RuntimeSpec RuntimeProofs2 RuntimeProofs5 FloatModel PidModel MotorModel BotModel BotSpec BotProofs BotProps SimModel SimProofs.
Import ListNotations.

(** * Commands as a function of the readings *)
Definition command (p : option payload) (p' : option payload) : option f32 :=
  match p, p' with Some b, Some p => Some (clamp1 (fsub (o_output b) (o_output p))) | _, _ => None end.
Definition out_of (r : PidModel.result) : option payload := match r with Sent p => p | Failed => None end.
Notation rd := (option (f32 * option N)).
Fixpoint commands (l : list (rd * rd)) (bal rail : task) : option (task * task * list (option f32)) :=
  match l with
  | [] => Some (bal, rail, [])
  | (a, b) :: l =>
      match PidModel.process a bal, PidModel.process b rail with
      | Ret (p, r), Ret (p', r') =>
          match commands l p p' with Some (x, y, cs) => Some (x, y, command (out_of r) (out_of r') :: cs) | None => None end
      | _, _ => None
      end
  end.
Lemma commands_app l : forall bal rail l' x y cs, commands l bal rail = Some (x, y, cs) ->
  commands (l ++ l') bal rail = match commands l' x y with Some (x', y', cs') => Some (x', y', cs ++ cs') | None => None end.
Proof.
  induction l as [|[a b] l IH]; intros bal rail l' x y cs H; cbn in *.
  - injection H as <- <- <-. destruct (commands l' bal rail) as [[[? ?] ?]|]; reflexivity.
  - destruct (PidModel.process a bal) as [[p r]|]; [|discriminate]. destruct (PidModel.process b rail) as [[p' r']|]; [|discriminate].
    destruct (commands l p p') as [[[x1 y1] cs1]|] eqn:E; [|discriminate]. injection H as <- <- <-. rewrite (IH _ _ l' _ _ _ E). destruct (commands l' x1 y1) as [[[? ?] ?]|]; reflexivity.
Qed.
Definition readings (tr : list ev) : list (rd * rd) := combine (map reading (given 2 tr)) (map reading (given 3 tr)).
Lemma combine_snoc {A B} (l : list A) (l' : list B) a b : length l = length l' -> combine (l ++ [a]) (l' ++ [b]) = combine l l' ++ [(a, b)].
Proof. revert l'. induction l as [|x l IH]; intros [|y l'] H; try discriminate; [reflexivity|]. cbn. rewrite IH; [reflexivity|]. cbn in H. lia. Qed.

(** The robot. *)
Lemma pass_cmd {W} (w : world W) e e' tr slots msgs d : pass w e e' tr slots msgs d -> power (z d) = command (out_of (rb d)) (out_of (rr d)).
Proof.
  intros P. unfold power. rewrite (p_z _ _ _ _ _ _ _ P). unfold pid_payload. rewrite (p_y2 _ _ _ _ _ _ _ P), (p_y3 _ _ _ _ _ _ _ P).
  destruct (rb d) as [[?|]|], (rr d) as [[?|]|]; reflexivity.
Qed.
Lemma robot_commands {W} (w : world W) monitor mode tr m e : ignores monitor -> reaches w monitor mode tr m e ->
  length (given 2 tr) = length (given 3 tr) /\
  exists cs, commands (readings tr) (task_new bal_gains bal_cutoff) (task_new rail_gains rail_cutoff) = Some (b_bal e, b_rail e, cs) /\ map power (given 5 tr) = cs.
Proof.
  intros Hm. induction 1 as [x e tr H|tr m e tr' m' e' R IH H D].
  - apply start_quiet in H. destruct H as [(Hb & Hr & Hm0 & Hd) C]. unfold readings, given. rewrite C. split; [reflexivity|]. cbn. rewrite Hb, Hr. exists []. split; reflexivity.
  - destruct IH as (L & cs & C & G). destruct (reached_iteration w monitor Hm mode _ _ _ _ _ _ _ R H D) as [(_ & X & _)|(sl & ms & d & _ & P & _)]; [discriminate X|].
    destruct (pass_given _ _ _ _ _ _ _ P) as (G2 & G3 & G5 & _ & _). unfold readings. rewrite !given_app, G2, G3, G5, !map_app, !app_length, L. split; [reflexivity|].
    cbn [map]. rewrite combine_snoc by (rewrite !map_length; exact L). fold (readings tr). rewrite (commands_app _ _ _ _ _ _ _ C). cbn [commands].
    rewrite (p_bal _ _ _ _ _ _ _ P), (p_rail _ _ _ _ _ _ _ P). eexists. split; [reflexivity|]. rewrite G, (pass_cmd _ _ _ _ _ _ _ P). reflexivity.
Qed.

(** The simulator. *)
Lemma pid_step_ok c x p out : p_panic (pid_step c x p out) = false ->
  exists r, PidModel.process (reading x) p = Ret (p_task (pid_step c x p out), r) /\ pid_payload (p_msg (pid_step c x p out)) = out_of r.
Proof.
  unfold pid_step. destruct (PidModel.process (reading x) p) as [[p' r]|]; [|discriminate]. cbn. intros _. exists r. split; [reflexivity|].
  destruct r as [[?|]|]; reflexivity.
Qed.
Lemma merge_cmd c y y' out : power (merge_msg c y y' out) = command (pid_payload y) (pid_payload y').
Proof. unfold merge_msg, merge. destruct (pid_payload y), (pid_payload y'); reflexivity. Qed.
Lemma sim_commands mode report fs : forall m e e' m' tr, sim_loop mode report fs m e = Some (e', m', tr) ->
  sixes m -> minv [] m -> (m_next m + N.of_nat (length fs) < 2 ^ 32)%N -> b_dead e = false ->
  length (given 2 tr) = length (given 3 tr) /\ b_dead e' = false /\
  exists cs, commands (readings tr) (b_bal e) (b_rail e) = Some (b_bal e', b_rail e', cs) /\ s_forces (b_world e') = s_forces (b_world e) ++ map force cs.
Proof.
  induction fs as [|f fs IH]; intros m e e' m' tr H S I B D; cbn [sim_loop] in H.
  - injection H as <- <- <-. do 2 (split; auto). exists []. rewrite app_nil_r. auto.
  - destruct (f_cart f); [|eapply IH; eauto; cbn in B; lia].
    destruct (run_one_iteration (sim_app mode) (sim_oracles report) m (load_frame f e)) as [[[e1 m1] tr1] r] eqn:R. destruct r; try discriminate.
    destruct (b_dead e1) eqn:D1; [discriminate|]. destruct (sim_loop mode report fs m1 e1) as [[[e2 m2] tr2]|] eqn:L; [|discriminate]. injection H as <- <- <-.
    cbn [length] in B. destruct (sim_tick _ _ _ _ _ _ _ _ R S I ltac:(lia)) as (slots & msgs & T).
    destruct (IH _ _ _ _ _ L (k_six _ _ _ _ _ _ _ _ _ T) (k_minv _ _ _ _ _ _ _ _ _ T) ltac:(rewrite (k_next _ _ _ _ _ _ _ _ _ T); lia) D1) as (Ln & D2 & cs & C & F).
    destruct (k_msgs _ _ _ _ _ _ _ _ _ T) as (m0 & q1 & q2 & q3 & q4 & q5 & _ & Q). cbv zeta in Q. destruct Q as (_ & Qb & Qr & Qd & Qf & Qc & _).
    set (c := (f_time f mod 2 ^ 64)%N) in *. set (p := pid_step c (sim_angle c f m0) (b_bal e) q1) in *. set (p' := pid_step c (sim_rail c f q2) (b_rail e) q3) in *.
    rewrite D1 in Qd. symmetry in Qd. apply orb_false_iff in Qd. destruct Qd as [Pn' Qd]. apply orb_false_iff in Qd. destruct Qd as [Pn _].
    destruct (pid_step_ok _ _ _ _ Pn) as (rb & Eb & Ob). destruct (pid_step_ok _ _ _ _ Pn') as (rr & Er & Or). fold p in Eb, Ob. fold p' in Er, Or.
    unfold readings. rewrite !given_app. unfold given at 1 3 5 7. rewrite Qc. cbn [flat_map List.app Nat.eqb map length combine commands].
    fold (readings tr2). rewrite Eb, Er, <- Qb, <- Qr, C. split; [rewrite Ln; reflexivity|]. split; [exact D2|]. eexists. split; [reflexivity|].
    rewrite F, Qf, merge_cmd, Ob, Or, <- app_assoc. reflexivity.
Qed.
Lemma sim_start mode report : exists tr, all_tasks (sim_app mode) (sim_oracles report) Start sim_new = (sim_new, tr, ROk) /\ calls tr = [] /\ logged tr = [].
Proof. eexists. split; [reflexivity|]. split; reflexivity. Qed.
Lemma rerun_start mode : exists tr, all_tasks (sim_app mode) rerun_oracles Start (bot_new (Rerun 0 [])) = (bot_new (Rerun 0 []), tr, ROk) /\ logged tr = [].
Proof. eexists. split; reflexivity. Qed.
Lemma six_new : sixes (mgr_new 10 bot_zero).
Proof. unfold sixes. cbn. repeat constructor; do 6 eexists; split; reflexivity. Qed.
Lemma minv_ten : minv [] (mgr_new 10 bot_zero).
Proof. apply minv_new. lia. Qed.

(** ** C157 *)
(** The simulator applies the forces of the commands that the robot gives its motor when its
    sensors send the same readings at the same times. *)
Theorem C157_same : forall W (w : world W) monitor mode tr m e mode' report fs e' m' tr',
  ignores monitor -> reaches w monitor mode tr m e ->
  (N.of_nat (length fs) < 2 ^ 32)%N -> sim_run mode' report fs = Some (e', m', tr') ->
  map reading (given 2 tr') = map reading (given 2 tr) -> map reading (given 3 tr') = map reading (given 3 tr) ->
  s_forces (b_world e') = map (fun x => force (power x)) (given 5 tr) /\ b_bal e' = b_bal e /\ b_rail e' = b_rail e.
Proof.
  intros W w monitor mode tr m e mode' report fs e' m' tr' Hm R B H E2 E3. destruct (robot_commands w monitor mode tr m e Hm R) as (_ & cs & C & G).
  unfold sim_run in H. destruct (sim_start mode' report) as (t0 & St & K & _). rewrite St in H. destruct (sim_loop mode' report fs (mgr_new 10 bot_zero) sim_new) as [[[e1 m1] t1]|] eqn:L; [|discriminate].
  injection H as <- <- <-. destruct (sim_commands _ _ _ _ _ _ _ _ L six_new minv_ten B eq_refl) as (_ & _ & cs' & C' & F).
  assert (X : forall t, given t (t0 ++ t1) = given t t1) by (intros t; rewrite given_app; unfold given at 1; rewrite K; reflexivity). rewrite X in E2, E3.
  unfold readings in C, C'. rewrite E2, E3 in C'. cbn [b_bal b_rail sim_new bot_new] in C'. rewrite C in C'. injection C' as <- <- <-.
  split; [|auto]. rewrite F, <- G, map_map. reflexivity.
Qed.
Print Assumptions C157_same.
(** A simulation for the examples: the rod a little off the vertical and falling, the cart
    appearing at the second frame. *)
Definition film : list frame :=
  [Frame false (of_bits 0) (of_bits 0) 0; Frame true (of_bits 0x3d000000) (of_bits 0x3c000000) 1000000; Frame true (of_bits 0x3d200000) (of_bits 0x3c800000) 2000000;
   Frame true (of_bits 0x3d800000) (of_bits 0xbc800000) 3000000].
(** A robot whose sensors read the same. *)
Definition twin : world N := {|
  w_angle := fun n => (n, Some (if (n =? 1)%N then 3092 else if (n =? 2)%N then 3097 else 3112, n * 1000000)%N);
  w_rail := fun n => (n, (if (n =? 1)%N then 15 else if (n =? 2)%N then 31 else -31, (n * 1000000)%N)%Z);
  w_life := fun ph t n => (n, None);
  w_hw := fun n => (n, (true, true));
  w_now := fun n => (n, (n * 1000000)%N);
  w_report := fun l n => ((n + 1)%N, None);
  w_log := fun n l => true |}.
Example C157_case : match go twin console Checked 3 1%N, sim_run Checked (fun _ _ => None) film with
  | Some (tr, _, _), Some (e', _, tr') => map reading (given 2 tr') = map reading (given 2 tr) /\ map reading (given 3 tr') = map reading (given 3 tr) /\
      length (given 2 tr) = 3%nat /\ s_forces (b_world e') = [of_bits 0; of_bits 0xbf291c0c; of_bits 0xbfa7c138]
  | _, _ => False
  end /\ ignores console.
Proof. split; [vm_compute; repeat split|]. intros t f. reflexivity. Qed.

(** ** C158 *)
(** What the log has of a frame: the readings of the two sensors, with the time of the frame. *)
Definition of_frame (f : frame) (msgs : list message) : Prop :=
  length msgs = 6%nat /\ exists a r, nth_error msgs 0 = Some a /\ nth_error msgs 2 = Some r /\
    m_payload a = Some (VAngle (adc (f_yaw f))) /\ m_payload r = Some (VRail (rail_ticks (f_x f))) /\
    Forall (fun x => m_start x = Some (f_time f mod 2 ^ 64)%N /\ m_end x = Some (f_time f mod 2 ^ 64)%N) msgs /\
    m_meta a = Some (f_time f mod 2 ^ 64)%N /\ m_meta r = Some (f_time f mod 2 ^ 64)%N.
Lemma log_again mode report fs : forall m e e' m' tr, sim_loop mode report fs m e = Some (e', m', tr) ->
  sixes m -> minv [] m -> (m_next m + N.of_nat (length fs) < 2 ^ 32)%N -> b_dead e = false ->
  Forall2 (fun f r => of_frame f (snd r)) (filter f_cart fs) (logged tr) /\
  (forall k r, nth_error (logged tr) k = Some r -> fst r = (m_next m + N.of_nat k)%N) /\
  forall e2 : bot rerun, b_bal e2 = b_bal e -> b_rail e2 = b_rail e -> b_dead e2 = false ->
  exists e2' tr2, rerun_loop mode (map snd (logged tr)) m e2 = Some (e2', m', tr2) /\ logged tr2 = logged tr /\ b_bal e2' = b_bal e' /\ b_rail e2' = b_rail e'.
Proof.
  induction fs as [|f fs IH]; intros m e e' m' tr H S I B D; cbn [sim_loop] in H.
  - injection H as <- <- <-. split; [constructor|]. split; [intros [|k] r X; discriminate|]. intros e2 Hb Hr Hd. exists e2, []. cbn. auto.
  - cbn [filter]. destruct (f_cart f); [|eapply IH; eauto; cbn in B; lia].
    destruct (run_one_iteration (sim_app mode) (sim_oracles report) m (load_frame f e)) as [[[e1 m1] tr1] r] eqn:R. destruct r; try discriminate.
    destruct (b_dead e1) eqn:D1; [discriminate|]. destruct (sim_loop mode report fs m1 e1) as [[[e2 m2] tr2]|] eqn:L; [|discriminate]. injection H as <- <- <-.
    cbn [length] in B. destruct (sim_tick _ _ _ _ _ _ _ _ R S I ltac:(lia)) as (slots & msgs & T).
    destruct (IH _ _ _ _ _ L (k_six _ _ _ _ _ _ _ _ _ T) (k_minv _ _ _ _ _ _ _ _ _ T) ltac:(rewrite (k_next _ _ _ _ _ _ _ _ _ T); lia) D1) as (F & K & Q).
    assert (LG : logged (tr1 ++ tr2) = (m_next m, msgs) :: logged tr2).
    { unfold logged at 1. rewrite flat_map_app. fold (logged tr1). fold (logged tr2). rewrite (k_log _ _ _ _ _ _ _ _ _ T). reflexivity. }
    rewrite LG. destruct (k_msgs _ _ _ _ _ _ _ _ _ T) as (m0 & q1 & q2 & q3 & q4 & q5 & _ & Z). cbv zeta in Z. destruct Z as (Ms & _ & _ & _ & _ & _ & Oc).
    set (c := (f_time f mod 2 ^ 64)%N) in *.
    assert (OF : of_frame f msgs).
    { unfold of_frame. fold c. rewrite Ms. split; [reflexivity|]. do 2 eexists. do 2 (split; [reflexivity|]). do 2 (split; [reflexivity|]). split; [|split; reflexivity].
      assert (St : forall o, m_start (stamp c o) = Some c /\ m_end (stamp c o) = Some c) by (intros o; cbn; rewrite Oc; auto).
      assert (Af : forall (g : message -> message * option fault) o, (forall x, m_start (fst (g x)) = m_start x) -> m_start (after c (g (with_start c o))) = Some c /\ m_end (after c (g (with_start c o))) = Some c).
      { intros g o Hg. unfold after. destruct (snd (g (with_start c o))); cbn; rewrite Hg; cbn; rewrite Oc; auto. }
      assert (Pd : forall x p o, m_start (p_msg (pid_step c x p o)) = Some c /\ m_end (p_msg (pid_step c x p o)) = Some c).
      { intros x p o. unfold pid_step. destruct (PidModel.process (reading x) p) as [[p' rr]|]; cbn [p_msg]; [|apply St]. apply Af. intros y. destruct rr as [[?|]|]; reflexivity. }
      repeat (apply Forall_cons; [first [apply Pd | apply St | unfold merge_msg; apply Af; intros y; unfold merge; repeat (match goal with |- context [pid_payload ?z] => destruct (pid_payload z) end); reflexivity]|]). constructor. }
    split; [constructor; [exact OF|exact F]|]. split.
    { intros [|k] r X; cbn in X; [injection X as <-; cbn; lia|]. rewrite (K _ _ X), (k_next _ _ _ _ _ _ _ _ _ T). lia. }
    intros x Hb Hr Hd. destruct (k_rerun _ _ _ _ _ _ _ _ _ T x Hb Hr ltac:(rewrite D, Hd; reflexivity)) as (x1 & t1 & R1 & L1 & Hb1 & Hr1 & Hd1).
    destruct (Q x1 Hb1 Hr1 ltac:(rewrite Hd1; exact D1)) as (x2 & t2 & R2 & L2 & Hb2 & Hr2). cbn [map snd rerun_loop].
    assert (G : match get_output 0 msgs with Some y => m_start y | None => None end = Some c) by (rewrite get0, Ms; cbn; exact Oc). rewrite G. fold c in R1. rewrite R1, Hd1, D1, R2.
    do 2 eexists. split; [reflexivity|]. split; [|auto]. unfold logged at 1. rewrite flat_map_app. fold (logged t1). fold (logged t2). rewrite L1, L2. reflexivity.
Qed.
(** The log of a simulation has one list for each frame with a cart, in order, numbered from 0,
    with the readings and the time of the frame. *)
Theorem C158_log : forall mode report fs e m tr, (N.of_nat (length fs) < 2 ^ 32)%N -> sim_run mode report fs = Some (e, m, tr) ->
  Forall2 (fun f r => of_frame f (snd r)) (filter f_cart fs) (logged tr) /\
  map fst (logged tr) = map N.of_nat (seq 0 (length (logged tr))).
Proof.
  intros mode report fs e m tr B H. unfold sim_run in H. destruct (sim_start mode report) as (t0 & St & _ & Lg). rewrite St in H.
  destruct (sim_loop mode report fs (mgr_new 10 bot_zero) sim_new) as [[[e1 m1] t1]|] eqn:L; [|discriminate]. injection H as <- <- <-.
  destruct (log_again _ _ _ _ _ _ _ _ L six_new minv_ten B eq_refl) as (F & K & _).
  replace (logged (t0 ++ t1)) with (logged t1) by (unfold logged; rewrite flat_map_app; fold (logged t0); rewrite Lg; reflexivity).
  split; [exact F|]. apply nth_error_ext. intros k. rewrite !nth_error_map. destruct (nth_error (logged t1) k) as [r|] eqn:X.
  - assert (k < length (logged t1))%nat by (apply nth_error_Some; congruence). rewrite (nth_error_nth' _ 0%nat) by (rewrite seq_length; lia). rewrite seq_nth by lia. cbn. rewrite (K _ _ X). cbn. f_equal; lia.
  - apply nth_error_None in X. rewrite (proj2 (nth_error_None _ _)) by (rewrite seq_length; exact X). reflexivity.
Qed.
Print Assumptions C158_log.
(** Running the log of a simulation again gives the same log and leaves the controllers in the
    same states. *)
Theorem C158_rerun : forall mode report fs e m tr, (N.of_nat (length fs) < 2 ^ 32)%N -> sim_run mode report fs = Some (e, m, tr) ->
  exists e2 tr2, rerun_main mode (map snd (logged tr)) = Some (e2, m, tr2) /\ logged tr2 = logged tr /\ b_bal e2 = b_bal e /\ b_rail e2 = b_rail e.
Proof.
  intros mode report fs e m tr B H. unfold sim_run in H. destruct (sim_start mode report) as (t0 & St & _ & Lg). rewrite St in H.
  destruct (sim_loop mode report fs (mgr_new 10 bot_zero) sim_new) as [[[e1 m1] t1]|] eqn:L; [|discriminate]. injection H as <- <- <-.
  destruct (log_again _ _ _ _ _ _ _ _ L six_new minv_ten B eq_refl) as (_ & _ & Q).
  replace (logged (t0 ++ t1)) with (logged t1) by (unfold logged; rewrite flat_map_app; fold (logged t0); rewrite Lg; reflexivity).
  unfold rerun_main. destruct (rerun_start mode) as (s0 & Sr & Lr). rewrite Sr. destruct (Q (bot_new (Rerun 0 [])) eq_refl eq_refl eq_refl) as (x & t2 & R & L2 & Hb & Hr). rewrite R.
  do 2 eexists. split; [reflexivity|]. split; [|auto]. unfold logged at 1. rewrite flat_map_app. fold (logged s0). fold (logged t2). rewrite Lr, L2. reflexivity.
Qed.
Print Assumptions C158_rerun.
Example C158_case : match sim_run Checked (fun _ _ => None) film with
  | Some (e, m, tr) => length (logged tr) = 3%nat /\ (N.of_nat (length film) < 2 ^ 32)%N /\ first_run (b_bal e) = false
  | None => False
  end.
Proof. vm_compute. repeat split. Qed.

(** ** C159 *)
Lemma runs mode report fs : (forall md s, report md s = None) -> forall m e t, sixes m -> minv [] m -> (m_next m + N.of_nat (length fs) < 2 ^ 32)%N -> b_dead e = false ->
  calm bal_gains t (b_bal e) -> calm rail_gains t (b_rail e) ->
  (forall i j f f', nth_error (filter f_cart fs) i = Some f -> nth_error (filter f_cart fs) j = Some f' -> (i <= j)%nat -> (f_time f <= f_time f')%N) ->
  (forall f, In f (filter f_cart fs) -> t <= f_time f < 2 ^ 63)%N ->
  exists e' m' tr, sim_loop mode report fs m e = Some (e', m', tr) /\ length (s_forces (b_world e')) = (length (s_forces (b_world e)) + length (filter f_cart fs))%nat.
Proof.
  intros Rp. induction fs as [|f fs IH]; intros m e t S I B D Cb Cr So Ti; cbn [sim_loop].
  - do 3 eexists. split; [reflexivity|]. cbn. lia.
  - cbn [filter] in *. cbn [length] in B. destruct (f_cart f); [|eapply IH; eauto; lia].
    assert (Tf : (t <= f_time f < 2 ^ 63)%N) by (apply Ti; left; reflexivity).
    destruct (sim_forward mode report f m e S I ltac:(lia) ltac:(lia) Rp) as (e1 & m1 & tr1 & R). rewrite R.
    destruct (sim_tick _ _ _ _ _ _ _ _ R S I ltac:(lia)) as (slots & msgs & T).
    destruct (k_msgs _ _ _ _ _ _ _ _ _ T) as (m0 & q1 & q2 & q3 & q4 & q5 & _ & Q). cbv zeta in Q. destruct Q as (_ & Qb & Qr & Qd & Qf & _).
    set (c := (f_time f mod 2 ^ 64)%N) in *. assert (Ec : c = f_time f) by (apply N.mod_small; lia).
    destruct (pid_calm bal_gains c (sim_angle c f m0) _ (b_bal e) q1 t bal_tame Cb ltac:(lia) eq_refl) as [Pn Cb'].
    destruct (pid_calm rail_gains c (sim_rail c f q2) _ (b_rail e) q3 t rail_tame Cr ltac:(lia) eq_refl) as [Pn' Cr'].
    rewrite Pn, Pn', D in Qd. cbn in Qd. rewrite Qd. rewrite <- Qb in Cb'. rewrite <- Qr in Cr'. rewrite Ec in Cb', Cr'.
    destruct (IH m1 e1 (f_time f) (k_six _ _ _ _ _ _ _ _ _ T) (k_minv _ _ _ _ _ _ _ _ _ T) ltac:(rewrite (k_next _ _ _ _ _ _ _ _ _ T); lia) Qd Cb' Cr') as (e2 & m2 & tr2 & L & Fo).
    + intros i j f1 f2 H1 H2 Hij. apply (So (Datatypes.S i) (Datatypes.S j)); cbn; auto. lia.
    + intros f' Hf. split; [|apply Ti; right; exact Hf]. apply In_nth_error in Hf. destruct Hf as [j Hj]. apply (So 0%nat (Datatypes.S j)); cbn; auto. lia.
    + rewrite L. do 3 eexists. split; [reflexivity|]. rewrite Fo, Qf, app_length. cbn. lia.
Qed.
(** While the time of the physics does not go back, the simulator goes on, whatever the angles
    and positions (NaN, rod fallen, cart out of the limits), and applies one force for each
    frame with a cart. *)
Theorem C159_runs : forall mode report fs, (N.of_nat (length fs) < 2 ^ 32)%N -> (forall md s, report md s = None) ->
  (forall i j f f', nth_error (filter f_cart fs) i = Some f -> nth_error (filter f_cart fs) j = Some f' -> (i <= j)%nat -> (f_time f <= f_time f' < 2 ^ 63)%N) ->
  exists e m tr, sim_run mode report fs = Some (e, m, tr) /\ length (s_forces (b_world e)) = length (filter f_cart fs) /\ length (logged tr) = length (filter f_cart fs).
Proof.
  intros mode report fs B Rp So. assert (Cb : calm bal_gains 0 (b_bal sim_new)) by (split; [reflexivity|]; split; [reflexivity|discriminate]).
  assert (Cr : calm rail_gains 0 (b_rail sim_new)) by (split; [reflexivity|]; split; [reflexivity|discriminate]).
  destruct (runs mode report fs Rp (mgr_new 10 bot_zero) sim_new 0%N six_new minv_ten B eq_refl Cb Cr) as (e & m & tr & L & F).
  - intros i j f f' H1 H2 Hij. apply (So i j f f'); assumption.
  - intros f Hf. apply In_nth_error in Hf. destruct Hf as [j Hj]. split; [lia|]. apply (So j j f f); auto.
  - assert (H : exists tr, sim_run mode report fs = Some (e, m, tr)).
    { unfold sim_run. destruct (sim_start mode report) as (t0 & St & _ & Lg). rewrite St, L. eauto. }
    destruct H as [tr' H]. exists e, m, tr'. split; [exact H|]. split; [rewrite F; reflexivity|].
    destruct (C158_log _ _ _ _ _ _ B H) as [F2 _]. clear -F2. induction F2; cbn; congruence.
Qed.
Print Assumptions C159_runs.
(** A rod that has fallen, a rotation that is not a number, a cart far away; then the same with
    the time going back, which ends the program. *)
Definition wreck (t : N) : list frame :=
  [Frame true (of_bits 0x40000000) (of_bits 0x42c80000) 1000000; Frame true S754_nan S754_nan 2000000; Frame true (of_bits 0x7f800000) (of_bits 0xff800000) t].
Example C159_case : match sim_run Checked (fun _ _ => None) (wreck 2000000) with
  | Some (e, m, tr) => s_forces (b_world e) = [of_bits 0; of_bits 0; of_bits 0]
  | None => False
  end /\ sim_run Checked (fun _ _ => None) (wreck 1999999) = None.
Proof. vm_compute. split; reflexivity. Qed.
(** ** C160 *)
(** When the console says that the user quits, the simulator panics. *)
Theorem C160_refuted : exists mode report fs, (forall md s, report md s = None \/ report md s = Some FExiting) /\ (length fs = 2)%nat /\
  (forall i j f f', nth_error (filter f_cart fs) i = Some f -> nth_error (filter f_cart fs) j = Some f' -> (i <= j)%nat -> (f_time f <= f_time f' < 2 ^ 63)%N) /\
  sim_run mode report fs = None.
Proof.
  exists Checked, (fun _ s => if (s_clock s <? 2000000)%N then None else Some FExiting), (firstn 2 (wreck 0)). split; [intros md s; destruct (_ <? _)%N; auto|]. split; [reflexivity|].
  split; [|vm_compute; reflexivity]. intros i j f f' H1 H2 Hij. destruct i as [|[|[|]]], j as [|[|[|]]]; cbn in H1, H2; try discriminate; try lia; injection H1 as <-; injection H2 as <-; cbn; lia.
Qed.
Print Assumptions C160_refuted.

(** ** C156 *)
From Coq Require Import Reals Lra.
From Verif Require Import FloatFacts SimFloat.
(** The simulated reading is the angle of the rod, from a quarter turn on, in 4096ths of a turn,
    cut to a whole number, up to rounding, and never more than 4096. *)
Theorem C156_partial : forall yaw, valid yaw -> fin yaw -> (Rabs (val yaw) <= p32)%R ->
  exists turn, (turn = 0 \/ turn = 1)%R /\ let r := (((val yaw - p32 / 2) / (2 * p32) + turn) * 4096)%R in
  (r - 1 - 1 / 500 < IZR (Z.of_N (adc yaw)) <= r + 1 / 500)%R /\ (adc yaw <= 4096)%N.
Proof. exact adc_real. Qed.
Print Assumptions C156_partial.
Example C156_case : valid (of_bits 0x3d000000) /\ fin (of_bits 0x3d000000) /\ val (of_bits 0x3d000000) = (1 / 32)%R /\ adc (of_bits 0x3d000000) = 3092%N /\ adc (of_bits 0) = 3072%N.
Proof.
  do 2 (split; [reflexivity|]). split; [|split; reflexivity]. unfold val. replace (of_bits 0x3d000000) with (S754_finite false 8388608 (-28)) by reflexivity.
  unfold BinarySingleNaN.SF2R, Defs.F2R. cbn [BinarySingleNaN.SF2R Defs.Fnum Defs.Fexp Zaux.cond_Zopp]. change (Raux.bpow Zaux.radix2 (-28)) with (/ 268435456)%R. lra.
Qed.
Example C156_nan : adc S754_nan = 0%N /\ rail_ticks S754_nan = 0%Z /\ adc (S754_infinity false) = 65535%N /\
  rail_ticks (S754_infinity true) = (- 2147483648)%Z.
Proof. repeat split; vm_compute; reflexivity. Qed.
(** It can be 4096, which no reading of a 12-bit converter is. *)
Theorem C156_refuted : exists yaw, valid yaw /\ fin yaw /\ flt yaw half_pi = true /\ flt (of_bits 0xc0490fdb) yaw = true /\ (4095 < adc yaw)%N.
Proof. exists (of_bits 0x3fc90fda). repeat split; vm_compute; reflexivity. Qed.
Print Assumptions C156_refuted.
