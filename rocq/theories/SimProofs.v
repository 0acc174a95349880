From Coq Require Import String List NArith ZArith Bool SpecFloat Lia.
From Verif Require Import Base CuListModel CuListSpec CuListProofs PlanModel RuntimeModel RuntimeSpec RuntimeProofs2 RuntimeProofs5 ReplayProofs FloatModel PidModel MotorModel BotModel BotSpec BotProofs SimModel.
Import ListNotations.

(** * One iteration of the simulator, and of the program that runs its log again *)
(** The messages after a step at time [c]. *)
Definition stamp (c : N) (o : message) : message := with_end c (with_start c o).
Definition after (c : N) (r : message * option fault) : message :=
  match snd r with None => with_end c (fst r) | Some _ => clear_payload (with_end c (fst r)) end.
Record pstep := PStep { p_task : task; p_msg : message; p_err : option fault; p_panic : bool }.
Definition pid_step (c : N) (x : message) (p : task) (out : message) : pstep :=
  match PidModel.process (reading x) p with
  | Ret (p', r) => PStep p' (after c (pid_out r (with_start c out))) (snd (pid_out r (with_start c out))) false
  | Panic => PStep p (stamp c out) None true
  end.
Definition merge_msg (c : N) (y y' out : message) : message := after c (merge [y; y'] (with_start c out)).

Section Steps.
Context {W : Type}.
Variable w : world W.
Variable cb : nat -> list message -> message -> bot W -> bot W * message * override fault.
Variable mode : ovf_mode.
Variable time : W -> N.
Hypothesis NOW : forall x, w_now w x = (x, time x).
Definition gen_oracles : oracles value (option N) fault (bot W) :=
  let o := bot_oracles w console in
  {| o_task := o_task o; o_process := o_process o; o_sink := o_sink o;
     o_sim := fun ph t e => (e, sim_answer t);
     o_sim_process := cb;
     o_decide := o_decide o; o_report := o_report o; o_monitor := o_monitor o; o_now := o_now o; o_log := o_log o |}.
Notation O := gen_oracles.
Notation A := (sim_app mode).
Lemma now_eq e : o_now O e = (e, time (b_world e)).
Proof. cbn. unfold outside. rewrite NOW. destruct e; reflexivity. Qed.

Lemma skip_step s ins out e : do_process O s ins false out e = (e, [], stamp (time (b_world e)) out, PNext).
Proof. unfold do_process. rewrite !now_eq. reflexivity. Qed.
Lemma bal_step x out e : cb 2 [x] out e = (e, out, ExecuteByRuntime) ->
  let q := pid_step (time (b_world e)) x (b_bal e) out in exists tr,
  process_msg A O s_balpid [x] out e = (Bot (b_world e) (p_task q) (b_rail e) (b_motor e) (b_on e) (p_panic q || b_dead e), tr, p_msg q, PNext) /\
  calls tr = [(2, [x], p_err q)]%nat /\ logged tr = [].
Proof.
  intros C. cbn zeta. unfold process_msg, pid_step. cbn [a_sim sim_app s_node s_balpid o_sim_process O]. rewrite C. cbn [fst snd]. unfold do_process. rewrite now_eq.
  cbn [s_type s_balpid s_node o_process O bot_oracles bot_process].
  destruct (PidModel.process (reading x) (b_bal e)) as [[p' r]|].
  - destruct (pid_out r _) as [o f] eqn:P. cbn [p_task p_msg p_err p_panic snd]. rewrite now_eq. cbn [b_world]. destruct f as [f|]; eexists; cbn; (split; [reflexivity|split; reflexivity]).
  - cbn [p_task p_msg p_err p_panic]. rewrite now_eq. eexists. cbn. split; [reflexivity|split; reflexivity].
Qed.
Lemma rail_step x out e : cb 3 [x] out e = (e, out, ExecuteByRuntime) ->
  let q := pid_step (time (b_world e)) x (b_rail e) out in exists tr,
  process_msg A O s_railpid [x] out e = (Bot (b_world e) (b_bal e) (p_task q) (b_motor e) (b_on e) (p_panic q || b_dead e), tr, p_msg q, PNext) /\
  calls tr = [(3, [x], p_err q)]%nat /\ logged tr = [].
Proof.
  intros C. cbn zeta. unfold process_msg, pid_step. cbn [a_sim sim_app s_node s_railpid o_sim_process O]. rewrite C. cbn [fst snd]. unfold do_process. rewrite now_eq.
  cbn [s_type s_railpid s_node o_process O bot_oracles bot_process].
  destruct (PidModel.process (reading x) (b_rail e)) as [[p' r]|].
  - destruct (pid_out r _) as [o f] eqn:P. cbn [p_task p_msg p_err p_panic snd]. rewrite now_eq. cbn [b_world]. destruct f as [f|]; eexists; cbn; (split; [reflexivity|split; reflexivity]).
  - cbn [p_task p_msg p_err p_panic]. rewrite now_eq. eexists. cbn. split; [reflexivity|split; reflexivity].
Qed.
Lemma merge_step x y out e : cb 4 [x; y] out e = (e, out, ExecuteByRuntime) ->
  exists tr, process_msg A O s_merge [x; y] out e = (e, tr, merge_msg (time (b_world e)) x y out, PNext) /\
  calls tr = [(4, [x; y], snd (merge [x; y] (with_start (time (b_world e)) out)))]%nat /\ logged tr = [].
Proof.
  intros C. unfold process_msg, merge_msg. cbn [a_sim sim_app s_node s_merge o_sim_process O]. rewrite C. cbn [fst snd]. unfold do_process. rewrite now_eq.
  cbn [s_type s_merge s_node o_process O bot_oracles bot_process].
  destruct (merge [x; y] _) as [o f] eqn:P. rewrite now_eq. cbn [snd]. destruct f as [f|]; eexists; cbn; (split; [reflexivity|split; reflexivity]).
Qed.
Lemma gen_step s msgs k n out ins e : s_out s = Some (k, n) -> nth_error msgs k = Some out -> gather msgs (s_inputs s) = Some ins ->
  process_step A O s msgs e = let '(e, tr, out, f) := process_msg A O s ins out e in (e, tr, upd k out msgs, f).
Proof. intros H1 H2 H3. unfold process_step. rewrite H1, H2, H3. reflexivity. Qed.

Lemma done_step s ins out e e1 raw : cb (s_node s) ins out e = (e1, raw, ExecutedBySim) ->
  process_msg A O s ins out e = (e1, [ESim RuntimeModel.Process (s_node s) ExecutedBySim], stamp (time (b_world e1)) raw, PNext).
Proof. intros C. unfold process_msg. cbn [a_sim sim_app o_sim_process O]. rewrite C. cbn iota. rewrite skip_step. reflexivity. Qed.
Lemma error_step s ins out e e1 raw f : cb (s_node s) ins out e = (e1, raw, Errored f) ->
  exists tr, process_msg A O s ins out e = (e1, tr, stamp (time (b_world e1)) (clear_payload raw), PNext) /\ calls tr = [] /\ logged tr = [].
Proof.
  intros C. unfold process_msg. cbn [a_sim sim_app o_sim_process O]. rewrite C. unfold pact. cbn [o_decide O bot_oracles console]. cbn iota. rewrite skip_step.
  eexists. split; [reflexivity|]. split; reflexivity.
Qed.
Lemma logged_app' (a b : list ev) : logged (a ++ b) = logged a ++ logged b.
Proof. unfold logged. apply flat_map_app. Qed.

(** The whole plan, given what the callback does with the sources and with the motor. *)
Lemma gen_all m0 m1 m2 m3 m4 m5 raw0 raw2 raw5 e w6 ovr :
  let c := time (b_world e) in
  let n0 := stamp c raw0 in
  let n2 := stamp c raw2 in
  let q := pid_step c n0 (b_bal e) m1 in
  let q' := pid_step c n2 (b_rail e) m3 in
  let y := merge_msg c (p_msg q) (p_msg q') m4 in
  (forall t ins out x, (t = 2 \/ t = 3 \/ t = 4)%nat -> cb t ins out x = (x, out, ExecuteByRuntime)) ->
  (forall x, b_world x = b_world e -> cb 0 [] m0 x = (x, raw0, ExecutedBySim)) ->
  (forall x, b_world x = b_world e -> cb 1 [] m2 x = (x, raw2, ExecutedBySim)) ->
  time w6 = c ->
  (forall x, b_world x = b_world e -> cb 5 [y] m5 x = (set_world w6 x, raw5, ovr)) ->
  ovr <> ExecuteByRuntime ->
  exists tr, process_all A O (a_plan A) [m0; m1; m2; m3; m4; m5] e =
    (Bot w6 (p_task q) (p_task q') (b_motor e) (b_on e) (p_panic q' || (p_panic q || b_dead e)), tr,
     [n0; p_msg q; n2; p_msg q'; y; stamp c (match ovr with Errored _ => clear_payload raw5 | _ => raw5 end)], PNext) /\
  calls tr = [(2, [n0], p_err q); (3, [n2], p_err q'); (4, [p_msg q; p_msg q'], snd (merge [p_msg q; p_msg q'] (with_start c m4)))]%nat /\ logged tr = [].
Proof.
  intros c n0 n2 q q' y Cr C0 C1 T6 C5 No.
  change (a_plan A) with (a_plan (bot_app mode)). rewrite bot_plan. cbn [process_all].
  rewrite (gen_step s_bal _ 0 _ m0 [] e) by reflexivity. rewrite (done_step s_bal [] m0 e e raw0) by (apply C0; reflexivity). fold c. fold n0. cbn [upd].
  rewrite (gen_step s_balpid _ 1 _ m1 [n0] e) by reflexivity.
  destruct (bal_step n0 m1 e ltac:(apply Cr; auto)) as (t2 & E2 & K2 & L2). fold c q in E2, K2. rewrite E2. cbn [upd]. clear E2.
  set (e2 := Bot (b_world e) (p_task q) (b_rail e) (b_motor e) (b_on e) (p_panic q || b_dead e)).
  rewrite (gen_step s_rail _ 2 _ m2 [] e2) by reflexivity. rewrite (done_step s_rail [] m2 e2 e2 raw2) by (apply C1; reflexivity). change (time (b_world e2)) with c. fold n2. cbn [upd].
  rewrite (gen_step s_railpid _ 3 _ m3 [n2] e2) by reflexivity.
  destruct (rail_step n2 m3 e2 ltac:(apply Cr; auto)) as (t4 & E4 & K4 & L4). change (time (b_world e2)) with c in E4, K4. change (b_rail e2) with (b_rail e) in E4, K4. fold q' in E4, K4. rewrite E4. cbn [upd]. clear E4.
  match goal with |- context [process_step _ _ s_merge _ ?x] => set (e4 := x) end.
  rewrite (gen_step s_merge _ 4 _ m4 [p_msg q; p_msg q'] e4) by reflexivity.
  destruct (merge_step (p_msg q) (p_msg q') m4 e4 ltac:(apply Cr; auto)) as (t5 & E5 & K5 & L5). change (time (b_world e4)) with c in E5, K5. fold y in E5. rewrite E5. cbn [upd]. clear E5.
  rewrite (gen_step s_motor _ 5 _ m5 [y] e4) by reflexivity.
  assert (X : exists tr, process_msg A O s_motor [y] m5 e4 = (set_world w6 e4, tr, stamp c (match ovr with Errored _ => clear_payload raw5 | _ => raw5 end), PNext) /\ calls tr = [] /\ logged tr = []).
  { specialize (C5 e4 eq_refl). destruct ovr as [| |f]; [|congruence|].
    - rewrite (done_step s_motor [y] m5 e4 _ raw5 C5). cbn [b_world set_world]. rewrite T6. eexists. split; [reflexivity|]. split; reflexivity.
    - destruct (error_step s_motor [y] m5 e4 _ raw5 f C5) as (tr & E & K & L). cbn [b_world set_world] in E. rewrite T6 in E. eauto. }
  destruct X as (t6 & E6 & K6 & L6). rewrite E6. cbn [upd]. eexists. split; [reflexivity|].
  rewrite !calls_app, !logged_app', K2, K4, K5, K6, L2, L4, L5, L6. split; reflexivity.
Qed.
Variable rep : list message -> W -> option fault.
Hypothesis REP : forall md x, w_report w md x = (x, rep md x).
Hypothesis LOG : forall x c, w_log w x c = true.
Lemma report_eq md e : o_report O md e = (e, rep md (b_world e)).
Proof. cbn. unfold outside. rewrite REP. destruct e; reflexivity. Qed.
Lemma idle ph e : ph = Preprocess \/ ph = Postprocess -> exists tr, lifecycle A O ph (seq 0 (a_tasks A)) e = (e, tr, Next) /\ calls tr = [] /\ logged tr = [].
Proof. intros [-> | ->]; eexists; (split; [reflexivity|split; reflexivity]). Qed.

(** What an iteration that succeeds went through. *)
Lemma iter_inv m e e' m' tr : run_one_iteration A O m e = (e', m', tr, ROk) ->
  (forall m1 i cl, create mode m = Ret (Some (m1, i)) -> nth_error (m_data m1) i = Some cl -> exists e1 tr1 msgs, process_all A O (a_plan A) (cl_msgs cl) e = (e1, tr1, msgs, PNext)) ->
  exists m1 i cl tr1 msgs md d lg, create mode m = Ret (Some (m1, i)) /\ nth_error (m_data m1) i = Some cl /\
    process_all A O (a_plan A) (cl_msgs cl) e = (e', tr1, msgs, PNext) /\ collect_metadata A msgs = Some md /\ e2e A md = Ret d /\
    finish A O (cl_id cl) (set_slot i (mkCl (cl_id cl) Processing msgs) m1) e' = Ret (m', lg) /\
    calls tr = calls tr1 /\ logged tr = logged tr1 ++ logged lg.
Proof.
  intros H P. unfold run_one_iteration in H. destruct (idle Preprocess e (or_introl eq_refl)) as (t1 & L1 & C1 & G1). rewrite L1 in H. cbv beta iota zeta in H.
  destruct (copperlist_body A O m e) as [[[e1 m1] t2] f] eqn:B. unfold copperlist_body in B. change (a_mode A) with mode in B.
  destruct (create mode m) as [[[m2 i]|]|] eqn:Cr; try (injection B as <- <- <- <-; discriminate H).
  destruct (nth_error (m_data m2) i) as [cl|] eqn:Nc; [|injection B as <- <- <- <-; discriminate H].
  destruct (P _ _ _ eq_refl Nc) as (e2 & t3 & msgs & P'). rewrite P' in B.
  destruct (collect_metadata A msgs) as [md|] eqn:Md; [|injection B as <- <- <- <-; discriminate H].
  destruct (e2e A md) as [d|] eqn:D; [|injection B as <- <- <- <-; discriminate H].
  unfold report_and_finish in B. rewrite Md, report_eq in B. destruct (rep md (b_world e2)) as [x|]; [injection B as <- <- <- <-; discriminate H|].
  destruct (finish A O (cl_id cl) _ e2) as [[m3 lg]|] eqn:F; [|injection B as <- <- <- <-; discriminate H]. injection B as <- <- <- <-.
  destruct (idle Postprocess e2 (or_intror eq_refl)) as (t5 & L5 & C5 & G5). rewrite L5 in H. injection H as <- <- <-.
  exists m2, i, cl, t3, msgs, md, d, lg. do 6 (split; [assumption||reflexivity|]). rewrite !calls_app, !logged_app', C1, C5, G1, G5, !app_nil_r. cbn.
  assert (X : calls lg = []).
  { unfold finish in F. destruct (end_of_processing _ _ _) as [[? l]|]; [|discriminate]. injection F as _ <-. clear. induction l; cbn; auto. }
  unfold calls in X |- *. cbn. rewrite X, app_nil_r. split; reflexivity.
Qed.
Lemma iter_build m e e' m1 i cl tr1 msgs md d lg m' : create mode m = Ret (Some (m1, i)) -> nth_error (m_data m1) i = Some cl ->
    process_all A O (a_plan A) (cl_msgs cl) e = (e', tr1, msgs, PNext) -> collect_metadata A msgs = Some md -> e2e A md = Ret d ->
    finish A O (cl_id cl) (set_slot i (mkCl (cl_id cl) Processing msgs) m1) e' = Ret (m', lg) -> rep md (b_world e') = None ->
    exists tr, run_one_iteration A O m e = (e', m', tr, ROk) /\ logged tr = logged tr1 ++ logged lg.
Proof.
  intros Cr Nc P Md D F R. unfold run_one_iteration. destruct (idle Preprocess e (or_introl eq_refl)) as (t1 & L1 & C1 & G1). rewrite L1. cbv beta iota zeta.
  unfold copperlist_body. change (a_mode A) with mode. rewrite Cr, Nc, P, Md, D. unfold report_and_finish. rewrite Md, report_eq, R, F.
  destruct (idle Postprocess e' (or_intror eq_refl)) as (t5 & L5 & C5 & G5). rewrite L5. eexists. split; [reflexivity|].
  rewrite !logged_app', G1, G5, app_nil_r. reflexivity.
Qed.
(** The log of an iteration. *)
Lemma iter_log m m1 i cl msgs e m' lg : minv [] m -> (m_next m + 1 < 2 ^ 32)%N -> create mode m = Ret (Some (m1, i)) -> nth_error (m_data m1) i = Some cl ->
  finish A O (cl_id cl) (set_slot i (mkCl (cl_id cl) Processing msgs) m1) e = Ret (m', lg) ->
  lg = [ELog (m_next m) msgs] /\ minv [] m' /\ m_next m' = (m_next m + 1)%N.
Proof.
  intros I B Cr Nc F. destruct (begin_spec A [] m m1 i cl I B Cr Nc) as [Hid Hb]. destruct (Hb msgs) as [Rr Cap].
  destruct (finish_spec A O (m_next m) msgs [] _ _ e (fun x c => LOG (b_world x) c) Rr B (Forall_nil _)) as (m4 & Fi & Rr4 & _).
  rewrite Hid in F, Fi. rewrite F in Fi. injection Fi as <- ->. split; [reflexivity|].
  assert (Nx : m_next m' = (m_next m + 1)%N) by (symmetry; apply (rrel_next _ _ _ Rr4)). split; [|exact Nx]. split; [rewrite Nx; exact Rr4|constructor].
Qed.
(** Every slot keeps six messages, none for the motor's with a payload. *)
Definition six (l : list message) : Prop := exists m0 m1 m2 m3 m4 m5, l = [m0; m1; m2; m3; m4; m5] /\ m_payload m5 = None.
Definition sixes (m : mgr (list message)) : Prop := Forall six (contents m).
Lemma create_six m m1 i cl : create mode m = Ret (Some (m1, i)) -> nth_error (m_data m1) i = Some cl -> sixes m -> six (cl_msgs cl) /\ contents m1 = contents m.
Proof.
  intros Cr Nc S. destruct (create_contents A m m1 i cl Cr Nc) as [C1 C2]. split; [|exact C1]. unfold sixes in S. rewrite Forall_forall in S. apply S. eapply nth_error_In; eauto.
Qed.
Lemma finish_six m m1 i cl id msgs e m' lg : create mode m = Ret (Some (m1, i)) -> nth_error (m_data m1) i = Some cl -> sixes m -> six msgs ->
  finish A O id (set_slot i (mkCl (cl_id cl) Processing msgs) m1) e = Ret (m', lg) -> sixes m'.
Proof.
  intros Cr Nc S Sm F. destruct (create_six _ _ _ _ Cr Nc S) as [_ C1]. unfold finish in F. destruct (end_of_processing _ _ _) as [[m5 lg5]|] eqn:Ep; [|discriminate].
  cbn [obind] in F. injection F as <- _. apply eop_contents in Ep. unfold sixes. rewrite Ep. unfold contents in *. unfold set_slot. cbn [m_data].
  rewrite ReplayProofs.map_upd. cbn [cl_msgs]. apply BotProofs.Forall_upd; [exact Sm|]. rewrite C1. exact S.
Qed.
End Steps.

(** * The two programs *)
Lemma sim_gen report : sim_oracles report = gen_oracles (sim_world report) sim_callback. Proof. reflexivity. Qed.
Lemma rerun_gen : rerun_oracles = gen_oracles rerun_world rerun_callback. Proof. reflexivity. Qed.
Lemma stamp_stamp c o : stamp c (stamp c o) = stamp c o. Proof. destruct o; reflexivity. Qed.
Lemma clear_none (o : message) : m_payload o = None -> clear_payload o = o.
Proof. destruct o; cbn. intros ->. reflexivity. Qed.
Lemma get0 msgs : get_output 0 msgs = nth_error msgs 0. Proof. reflexivity. Qed.
Lemma get1 msgs : get_output 1 msgs = nth_error msgs 2. Proof. reflexivity. Qed.

(** What the sensors of the simulation send. *)
Definition sim_angle c (f : frame) (out : message) : message := stamp c (with_tov (Some c) (with_payload (Some (VAngle (adc (f_yaw f)))) out)).
Definition sim_rail c (f : frame) (out : message) : message := stamp c (with_tov (Some c) (with_payload (Some (VRail (rail_ticks (f_x f)))) out)).
(** One iteration of the simulator on a frame. *)
Record tick (mode : ovf_mode) (f : frame) (m : mgr (list message)) (e e' : bot sim) (m' : mgr (list message)) (tr : list ev) (slots msgs : list message) : Prop := Tick {
  k_slots : six slots;
  k_msgs : exists m0 m1 m2 m3 m4 m5, slots = [m0; m1; m2; m3; m4; m5] /\
    let c := (f_time f mod 2 ^ 64)%N in
    let n0 := sim_angle c f m0 in let n2 := sim_rail c f m2 in
    let q := pid_step c n0 (b_bal e) m1 in let q' := pid_step c n2 (b_rail e) m3 in
    let y := merge_msg c (p_msg q) (p_msg q') m4 in
    msgs = [n0; p_msg q; n2; p_msg q'; y; stamp c m5] /\
    b_bal e' = p_task q /\ b_rail e' = p_task q' /\ b_dead e' = (p_panic q' || (p_panic q || b_dead e)) /\
    s_forces (b_world e') = s_forces (b_world e) ++ [force (power y)] /\
    calls tr = [(2, [n0], p_err q); (3, [n2], p_err q'); (4, [p_msg q; p_msg q'], snd (merge [p_msg q; p_msg q'] (with_start c m4)))]%nat /\
    to_oct c = Some c;
  k_log : logged tr = [(m_next m, msgs)];
  k_six : sixes m';
  k_minv : minv [] m';
  k_next : m_next m' = (m_next m + 1)%N;
  k_rerun : forall e2 : bot rerun, b_bal e2 = b_bal e -> b_rail e2 = b_rail e -> b_dead e2 = b_dead e ->
    exists e2' tr2, run_one_iteration (sim_app mode) rerun_oracles m (set_world (Rerun (f_time f mod 2 ^ 64) msgs) e2) = (e2', m', tr2, ROk) /\
      logged tr2 = [(m_next m, msgs)] /\ b_bal e2' = b_bal e' /\ b_rail e2' = b_rail e' /\ b_dead e2' = b_dead e' }.
Lemma sim_tick mode report f m e e' m' tr : run_one_iteration (sim_app mode) (sim_oracles report) m (load_frame f e) = (e', m', tr, ROk) ->
  sixes m -> minv [] m -> (m_next m + 1 < 2 ^ 32)%N -> exists slots msgs, tick mode f m e e' m' tr slots msgs.
Proof.
  intros H S I B. rewrite sim_gen in H.
  set (c := (f_time f mod 2 ^ 64)%N).
  assert (P : forall slots, six slots -> exists e1 tr1 msgs, process_all (sim_app mode) (gen_oracles (sim_world report) sim_callback) (a_plan (sim_app mode)) slots (load_frame f e) = (e1, tr1, msgs, PNext) /\
    exists m0 m1 m2 m3 m4 m5, slots = [m0; m1; m2; m3; m4; m5] /\ m_payload m5 = None /\
    let n0 := sim_angle c f m0 in let n2 := sim_rail c f m2 in
    let q := pid_step c n0 (b_bal e) m1 in let q' := pid_step c n2 (b_rail e) m3 in
    let y := merge_msg c (p_msg q) (p_msg q') m4 in
    msgs = [n0; p_msg q; n2; p_msg q'; y; stamp c m5] /\
    b_bal e1 = p_task q /\ b_rail e1 = p_task q' /\ b_dead e1 = (p_panic q' || (p_panic q || b_dead e)) /\
    s_forces (b_world e1) = s_forces (b_world e) ++ [force (power y)] /\
    calls tr1 = [(2, [n0], p_err q); (3, [n2], p_err q'); (4, [p_msg q; p_msg q'], snd (merge [p_msg q; p_msg q'] (with_start c m4)))]%nat /\ logged tr1 = []).
  { intros slots (m0 & m1 & m2 & m3 & m4 & m5 & -> & N5).
    set (raw0 := with_tov (Some c) (with_payload (Some (VAngle (adc (f_yaw f)))) m0)).
    set (raw2 := with_tov (Some c) (with_payload (Some (VRail (rail_ticks (f_x f)))) m2)).
    set (y := merge_msg c (p_msg (pid_step c (stamp c raw0) (b_bal e) m1)) (p_msg (pid_step c (stamp c raw2) (b_rail e) m3)) m4).
    destruct (gen_all (sim_world report) sim_callback mode s_clock ltac:(reflexivity) m0 m1 m2 m3 m4 m5 raw0 raw2 m5 (load_frame f e)
      (push (force (power y)) (b_world (load_frame f e))) (match power y with Some _ => ExecutedBySim | None => Errored FSafety end)) as (tr1 & E & K & L).
    - intros t ins out x [-> |[-> | ->]]; destruct ins as [|? [|]]; reflexivity.
    - intros x Hx. unfold sim_callback. rewrite Hx. reflexivity.
    - intros x Hx. unfold sim_callback. rewrite Hx. reflexivity.
    - reflexivity.
    - intros x Hx. unfold sim_callback. rewrite Hx. reflexivity.
    - destruct (power y); discriminate.
    - do 3 eexists. split; [exact E|]. exists m0, m1, m2, m3, m4, m5. split; [reflexivity|]. split; [exact N5|]. cbv zeta.
      split. { change (s_clock (b_world (load_frame f e))) with c. unfold sim_angle, sim_rail. repeat f_equal. destruct (power y); [reflexivity|apply clear_none; exact N5]. }
      do 3 (split; [reflexivity|]). split; [reflexivity|]. split; [exact K|exact L]. }
  destruct (iter_inv (sim_world report) sim_callback mode (fun md s => report md s) ltac:(reflexivity) m (load_frame f e) e' m' tr H) as
    (m1 & i & cl & tr1 & msgs & md & d & lg & Cr & Nc & Pa & Md & D & F & Ca & Lo).
  { intros m1 i cl Cr Nc. destruct (create_six _ _ _ _ _ Cr Nc S) as [Sc _]. destruct (P _ Sc) as (? & ? & ? & E & _). eauto. }
  destruct (create_six _ _ _ _ _ Cr Nc S) as [Sc _]. destruct (P _ Sc) as (e1 & tr1' & msgs' & E & m0 & m1' & m2 & m3 & m4 & m5 & Es & N5 & Q).
  rewrite Pa in E. injection E as <- <- <-. cbv zeta in Q. destruct Q as (Ms & Qb & Qr & Qd & Qf & Qc & Ql).
  destruct (iter_log (sim_world report) sim_callback mode ltac:(reflexivity) m m1 i cl msgs e' m' lg I B Cr Nc F) as (-> & I' & Nx).
  assert (Oc : to_oct c = Some c).
  { rewrite Ms in Md. unfold collect_metadata in Md. change (call_order (sim_app mode)) with (map s_node (a_plan (bot_app mode))) in Md. rewrite bot_plan in Md. cbn in Md. injection Md as <-.
    unfold e2e in D. cbn [hd map] in D. destruct (last _ None); [|discriminate]. cbn in D. unfold to_oct in *. destruct (c =? _)%N; [discriminate|reflexivity]. }
  assert (Lg : logged tr = [(m_next m, msgs)]) by (rewrite Lo, Ql; reflexivity).
  assert (Sx : six msgs). { rewrite Ms. do 6 eexists. split; [reflexivity|]. cbn. exact N5. }
  exists (cl_msgs cl), msgs. constructor; auto.
  - exists m0, m1', m2, m3, m4, m5. split; [exact Es|]. cbv zeta. fold c. rewrite Ca. auto 10.
  - eapply (finish_six _ _ _ m m1 i cl); eauto.
  - intros e2 Hb Hr Hd. rewrite rerun_gen. fold c.
    set (er := set_world (Rerun c msgs) e2).
    destruct (gen_all rerun_world rerun_callback mode q_clock ltac:(reflexivity) m0 m1' m2 m3 m4 m5 (sim_angle c f m0) (sim_rail c f m2) m5 er (Rerun c msgs) ExecutedBySim) as (tr2 & E2 & _ & L2).
    + intros t ins out x [-> |[-> | ->]]; reflexivity.
    + intros x Hx. unfold rerun_callback. rewrite Hx. cbn [er b_world set_world q_msgs]. rewrite get0, Ms. reflexivity.
    + intros x Hx. unfold rerun_callback. rewrite Hx. cbn [er b_world set_world q_msgs]. rewrite get1, Ms. reflexivity.
    + reflexivity.
    + intros x Hx. unfold rerun_callback. destruct x; cbn in Hx |- *. subst. reflexivity.
    + discriminate.
    + change (q_clock (b_world er)) with c in E2. change (b_bal er) with (b_bal e2) in E2. change (b_rail er) with (b_rail e2) in E2. change (b_dead er) with (b_dead e2) in E2.
      rewrite Hb, Hr, Hd in E2. unfold sim_angle, sim_rail in E2. rewrite !stamp_stamp in E2. fold (sim_angle c f m0) in E2. fold (sim_rail c f m2) in E2. rewrite <- Ms in E2. rewrite <- Es in E2.
      eapply (iter_build rerun_world rerun_callback mode (fun _ _ => None) ltac:(reflexivity)) in E2 as (tr3 & E3 & L3); [|exact Cr|exact Nc|exact Md|exact D|exact F|reflexivity].
      do 2 eexists. split; [exact E3|]. split; [rewrite L3, L2; reflexivity|]. cbn. rewrite Qb, Qr, Qd. auto.
Qed.

(** * Iterations that succeed *)
Lemma sim_forward mode report f m e : sixes m -> minv [] m -> (m_next m + 1 < 2 ^ 32)%N -> (f_time f < 2 ^ 64 - 1)%N -> (forall md s, report md s = None) ->
  exists e' m' tr, run_one_iteration (sim_app mode) (sim_oracles report) m (load_frame f e) = (e', m', tr, ROk).
Proof.
  intros S I B T Rp. rewrite sim_gen. set (c := (f_time f mod 2 ^ 64)%N). assert (Ec : c = f_time f) by (apply N.mod_small; lia).
  assert (Oc : to_oct c = Some c) by (unfold to_oct; destruct (N.eqb_spec c (2 ^ 64 - 1)); [lia|reflexivity]).
  assert (Cr : exists m1 i, create mode m = Ret (Some (m1, i))).
  { destruct (create mode m) as [[[m1 i]|]|] eqn:C; [eauto| |]; exfalso; (assert (X : length (@nil (entry (list message))) = cap m); [apply (proj1 (create_full (sim_app mode) [] m I B)); intros m1 i; cbn; rewrite C; discriminate|];
      cbn [length] in X; destruct I as (((Wm & _ & _) & _) & _); lia). }
  destruct Cr as (m1 & i & Cr). destruct (nth_error (m_data m1) i) as [cl|] eqn:Nc.
  2:{ exfalso. pose proof I as ((Wm & _) & _). destruct (create_spec mode m Wm) as [[A X]|[A (slot & En & X)]]; rewrite X in Cr; [discriminate|].
      rewrite succ_u32_small in Cr by lia. cbn [obind] in Cr. injection Cr as <- <-. cbn in Nc. apply nth_error_None in Nc. rewrite upd_length in Nc. assert (Z : nth_error (m_data m) (m_len m) <> None) by (rewrite En; discriminate). apply nth_error_Some in Z. lia. }
  destruct (create_six _ _ _ _ _ Cr Nc S) as [(m0 & q1 & q2 & q3 & q4 & q5 & Es & N5) _].
  set (raw0 := with_tov (Some c) (with_payload (Some (VAngle (adc (f_yaw f)))) m0)).
  set (raw2 := with_tov (Some c) (with_payload (Some (VRail (rail_ticks (f_x f)))) q2)).
  set (y := merge_msg c (p_msg (pid_step c (stamp c raw0) (b_bal e) q1)) (p_msg (pid_step c (stamp c raw2) (b_rail e) q3)) q4).
  destruct (gen_all (sim_world report) sim_callback mode s_clock ltac:(reflexivity) m0 q1 q2 q3 q4 q5 raw0 raw2 q5 (load_frame f e)
      (push (force (power y)) (b_world (load_frame f e))) (match power y with Some _ => ExecutedBySim | None => Errored FSafety end)) as (tr1 & E & K & L).
  - intros t ins out x [-> |[-> | ->]]; destruct ins as [|? [|]]; reflexivity.
  - intros x Hx. unfold sim_callback. rewrite Hx. reflexivity.
  - intros x Hx. unfold sim_callback. rewrite Hx. reflexivity.
  - reflexivity.
  - intros x Hx. unfold sim_callback. rewrite Hx. reflexivity.
  - destruct (power y); discriminate.
  - rewrite <- Es in E. change (s_clock (b_world (load_frame f e))) with c in E.
    match type of E with _ = (?x, _, ?ms, _) => set (e1 := x) in *; set (msgs := ms) in * end.
    destruct (begin_spec (sim_app mode) [] m m1 i cl I B Cr Nc) as [Hid Hb]. destruct (Hb msgs) as [Rr Cap].
    destruct (finish_spec (sim_app mode) (gen_oracles (sim_world report) sim_callback) (m_next m) msgs [] _ _ e1 (fun x c => eq_refl) Rr B (Forall_nil _)) as (m4 & Fi & Rr4 & _).
    rewrite <- Hid in Fi at 1.
    eapply (iter_build (sim_world report) sim_callback mode (fun md s => report md s) ltac:(reflexivity)) in E as (tr3 & E3 & L3); [|exact Cr|exact Nc| | |exact Fi|apply Rp].
    + eauto.
    + unfold collect_metadata. change (call_order (sim_app mode)) with (map s_node (a_plan (bot_app mode))). rewrite bot_plan. unfold msgs. cbn. reflexivity.
    + unfold e2e. cbn [hd map last]. cbn. rewrite ?Oc. cbn. rewrite ?N.leb_refl. reflexivity.
Qed.

(** The controllers do not panic while time does not go back. *)
Definition calm (gn : gains) (t : N) (p : task) : Prop :=
  g (t_pid p) = gn /\ (last_tov p <= t)%N /\ (first_run p = false -> (elapsed (t_pid p) <= last_tov p + 100000000)%N).
Definition tame (gn : gains) : Prop :=
  fle (fopp (p_limit gn)) (p_limit gn) = true /\ fle (fopp (i_limit gn)) (i_limit gn) = true /\ fle (fopp (d_limit gn)) (d_limit gn) = true /\
  fle (fopp (output_limit gn)) (output_limit gn) = true /\ (sampling gn <= 100000000)%N.
Lemma clamp_ok x lo hi : fle lo hi = true -> exists y, clamp x lo hi = Ret y. Proof. intros H. unfold clamp. rewrite H. eauto. Qed.
Lemma calm_step gn p v c t : tame gn -> calm gn t p -> (t <= c < 2 ^ 63)%N -> exists p' r, PidModel.process (Some (v, Some c)) p = Ret (p', r) /\ calm gn c p'.
Proof.
  intros (T1 & T2 & T3 & T4 & T5) (G & L & E) H. unfold PidModel.process. destruct (first_run p).
  - do 2 eexists. split; [reflexivity|]. split; [exact G|]. cbn. rewrite G. split; [lia|]. intros _. lia.
  - specialize (E eq_refl). destruct (N.ltb_spec c (last_tov p)); [lia|]. unfold next_control_output.
    destruct (N.leb_spec (2 ^ 64) (elapsed (t_pid p) + (c - last_tov p))); [lia|].
    assert (X : forall s st, g s = gn -> (elapsed s <= c + 100000000)%N -> exists p' r,
      (let t := Task s false c (t_setpoint p) (cutoff p) in
       if flt (fadd (t_setpoint t) (cutoff t)) v then Ret (t, Failed) else if flt v (fsub (t_setpoint t) (cutoff t)) then Ret (t, Failed) else Ret (t, Sent (Some st))) = Ret (p', r) /\ calm gn c p').
    { intros s st Gs Es. cbv zeta. assert (Cs : calm gn c (Task s false c (t_setpoint p) (cutoff p))) by (split; [exact Gs|]; split; [apply N.le_refl|intros _; exact Es]).
      destruct (flt _ v); [eauto|]. destruct (flt v _); eauto. }
    destruct (_ <? sampling _)%N; cbn [obind]; [apply X; cbn [g elapsed]; [exact G|lia]|]. rewrite G.
    destruct (clamp_ok (fmul (kp gn) (fsub (setpoint gn) v)) _ _ T1) as [a ->]. cbn [obind].
    match goal with |- context [clamp (fmul (ki gn) ?x) _ _] => destruct (clamp_ok (fmul (ki gn) x) _ _ T2) as [b ->] end. cbn [obind].
    match goal with |- context [clamp (fmul (kd gn) ?x) _ _] => destruct (clamp_ok (fmul (kd gn) x) _ _ T3) as [d ->] end. cbn [obind].
    match goal with |- context [clamp ?x (fopp (output_limit gn)) _] => destruct (clamp_ok x _ _ T4) as [o ->] end. cbn [obind]. apply X; cbn [g elapsed]; [reflexivity|lia].
Qed.
Lemma pid_calm gn c x v p out t : tame gn -> calm gn t p -> (t <= c < 2 ^ 63)%N -> reading x = Some (v, Some c) ->
  p_panic (pid_step c x p out) = false /\ calm gn c (p_task (pid_step c x p out)).
Proof. intros T C H R. destruct (calm_step gn p v c t T C H) as (p' & r & E & C'). unfold pid_step. rewrite R, E. auto. Qed.
Lemma bal_tame : tame bal_gains. Proof. repeat split; vm_compute; try reflexivity; discriminate. Qed.
Lemma rail_tame : tame rail_gains. Proof. repeat split; vm_compute; try reflexivity; discriminate. Qed.
