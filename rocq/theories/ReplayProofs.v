(** Simulation of a recorded run by its replay, up to a view [p] of messages. *)
From Coq Require Import String List Arith NArith Bool Lia.
From Verif Require Import Base CuListModel CuListSpec PlanModel RuntimeModel RuntimeSpec RuntimeProofs RuntimeProofs2 RuntimeProofs4 RuntimeProofs5 RuntimeProofs6 ReplayModel ReplaySpec.
Import ListNotations.
Local Open Scope list_scope.
Local Open Scope nat_scope.

(** ** Copper lists under a view of their messages *)
Section View.
Context {P Q : Type}.
Variable f : P -> Q.
Definition cmap (c : cl P) : cl Q := mkCl (cl_id c) (cl_state c) (f (cl_msgs c)).
Definition mmap (m : mgr P) : mgr Q := mkMgr (map cmap (m_data m)) (m_len m) (m_ins m) (m_next m).
Definition oresult {A B} (g : A -> B) (x : outcome A) : outcome B := match x with Ret v => Ret (g v) | Panic => Panic end.

Lemma map_upd {A B} (g : A -> B) i x l : map g (upd i x l) = upd i (g x) (map g l).
Proof. revert i. induction l as [|y l IH]; intros [|i]; cbn; auto. now rewrite IH. Qed.
Lemma cap_mmap m : cap (mmap m) = cap m.
Proof. unfold cap, mmap. cbn. apply map_length. Qed.
Lemma create_mmap mode m : create mode (mmap m) =
  oresult (option_map (fun x => (mmap (fst x), snd x))) (create mode m).
Proof.
  unfold create, is_full. rewrite cap_mmap. cbn [mmap m_len m_ins m_data m_next].
  destruct (Nat.eqb (cap m) (m_len m)); cbn; auto.
  rewrite nth_error_map. destruct (nth_error (m_data m) (m_ins m)) as [c|]; cbn; auto.
  destruct (succ_u32 mode (m_next m)); cbn; auto. unfold mmap. cbn. rewrite map_upd. cbn. unfold cap. reflexivity.
Qed.
Lemma pop_n_mmap n : forall m, pop_n n (mmap m) = oresult mmap (pop_n n m).
Proof.
  induction n as [|n IH]; intros m; cbn [pop_n]; auto.
  unfold pop. cbn [mmap m_len m_data m_next]. destruct (m_len m =? 0); cbn [obind]; auto.
  replace (prev_ins (mmap m)) with (prev_ins m) by (unfold prev_ins; rewrite cap_mmap; auto).
  rewrite nth_error_map. destruct (nth_error (m_data m) (prev_ins m)) as [c|]; cbn; auto. rewrite <- IH. reflexivity.
Qed.
Lemma eop_mmap_fold lg lg' id : (forall c, lg c = true) -> (forall c, lg' c = true) -> forall slots b n l out,
  fold_left (eop_step (Some lg') id) (map cmap slots) (Ret (b, n, map cmap l, map cmap out)) =
  oresult (fun '(b, n, l, out) => (b, n, map cmap l, map cmap out))
    (fold_left (eop_step (Some lg) id) slots (Ret (b, n, l, out))).
Proof.
  intros L L'. induction slots as [|c slots IH]; intros b n l out; cbn [fold_left map]; [reflexivity|].
  unfold eop_step at 2 4. cbn [obind]. cbn [cmap cl_id cl_state].
  set (t := (cl_id c =? id)%N && clstate_eqb (cl_state c) Processing).
  assert (X : (if t then change_state DoneProcessing (cmap c) else cmap c) =
              cmap (if t then change_state DoneProcessing c else c)) by (destruct t; reflexivity).
  rewrite X. set (c1 := if t then change_state DoneProcessing c else c). cbn [cmap cl_state].
  destruct (b && clstate_eqb (cl_state c1) DoneProcessing).
  - rewrite L, L'. rewrite <- IH. rewrite !map_app. reflexivity.
  - rewrite <- IH. rewrite !map_app. reflexivity.
Qed.
Lemma end_mmap lg lg' m id : (forall c, lg c = true) -> (forall c, lg' c = true) ->
  end_of_processing (Some lg') (mmap m) id =
  oresult (fun x => (mmap (fst x), map cmap (snd x))) (end_of_processing (Some lg) m id).
Proof.
  intros L L'. unfold end_of_processing, iter_mut. rewrite cap_mmap. cbn [mmap m_ins m_data].
  destruct (m_ins m <=? cap m); cbn [obind oresult]; auto.
  rewrite firstn_map, skipn_map, <- !map_rev, <- map_app.
  set (slots := rev (firstn (m_ins m) (m_data m)) ++ rev (skipn (m_ins m) (m_data m))).
  pose proof (eop_mmap_fold lg lg' id L L' slots true 0 [] []) as F. cbn [map] in F. rewrite F.
  destruct (fold_left (eop_step (Some lg) id) slots (Ret (true, 0, [], []))) as [[[[b n] l] out]|]; cbn [oresult obind]; auto.
  replace (iter_mut_write _ (map cmap out)) with (mmap (iter_mut_write m out)).
  2:{ unfold iter_mut_write, mmap. cbn [m_data m_len m_ins m_next].
      rewrite firstn_map, skipn_map, <- !map_rev, <- map_app. reflexivity. }
  rewrite pop_n_mmap. destruct (pop_n n (iter_mut_write m out)); reflexivity.
Qed.
End View.

Lemma mmap_id {P} (m : mgr P) : mmap (fun x => x) m = m.
Proof. destruct m as [d l i n]. unfold mmap. cbn. f_equal. rewrite <- (map_id d) at 2. apply map_ext. intros [? ? ?]; reflexivity. Qed.
Lemma mmap_mmap {P Q R} (f : P -> Q) (g : Q -> R) m : mmap g (mmap f m) = mmap (fun x => g (f x)) m.
Proof. unfold mmap. cbn. rewrite map_map. reflexivity. Qed.

(** ** The simulation *)
Section Sim.
Context {V M Er St E : Type}.
Notation message := (msg V M).
Notation ev := (event V M Er).
Variable a : application.
Variable o : oracles V M Er E.
Variable kind : nat -> task_type.
Variable state : E -> nat -> St.
Variable f_task : phase -> nat -> N -> St -> St * option Er.
Variable f_process : nat -> N -> list message -> message -> St -> St * message * option Er.
Variable g_sink : nat -> list message -> message -> message.
Variable policy : phase -> nat -> Er -> decision.
(** The view of messages, what relates the environment of the recorded run to the clock
    of the replay, and what relates two readings of the clocks. *)
Variable p : message -> message.
Variable time : E -> N.
Variable ck : E -> N -> Prop.
Variable rd : N -> N -> Prop.
Notation sa := (sim_of a).
Notation ro := (replay_oracles a kind f_task f_process g_sink policy).
Notation renv := (replay St V M).
Implicit Types (env : E) (r : renv) (tr : list ev) (c : N).

Hypothesis DET : deterministic o kind state f_task f_process time.
Hypothesis REC : recorded_with a o kind g_sink.
Definition keeps env env' := forall c, ck env c -> ck env' c.
Hypothesis ck_task : forall ph t env, keeps env (fst (o_task o ph t env)).
Hypothesis ck_process : forall t ins out env, keeps env (fst (fst (o_process o t ins out env))).
Hypothesis ck_sink : forall t ins env, keeps env (fst (o_sink o t ins env)).
Hypothesis ck_sim : forall ph t env, keeps env (fst (o_sim o ph t env)).
Hypothesis ck_sim_process : forall t ins out env, keeps env (fst (fst (o_sim_process o t ins out env))).
Hypothesis ck_decide : forall ph t e env, keeps env (fst (o_decide o ph t e env)).
Hypothesis ck_report : forall md env, keeps env (fst (o_report o md env)).
Hypothesis ck_monitor : forall ph env, keeps env (fst (o_monitor o ph env)).
Hypothesis ck_now : forall env, keeps env (fst (o_now o env)).
Hypothesis ck_read : forall env c, ck env c -> rd (snd (o_now o env)) c.
Hypothesis f_task_ck : forall ph t env c x, kind t = Regular -> ck env c -> f_task ph t (time env) x = f_task ph t c x.
Hypothesis f_process_ck : forall t env c ins ins' out out' x, kind t = Regular -> ck env c ->
  map p ins = map p ins' -> p out = p out' ->
  let '(x1, y1, r1) := f_process t (time env) ins out x in
  let '(x2, y2, r2) := f_process t c ins' out' x in x1 = x2 /\ p y1 = p y2 /\ r1 = r2.
Hypothesis p_start : forall t c x x', rd t c -> p x = p x' -> p (with_start t x) = p (with_start c x').
Hypothesis p_end : forall t c x x', rd t c -> p x = p x' -> p (with_end t x) = p (with_end c x').
Hypothesis p_clear : forall x x', p x = p x' -> p (clear_payload x) = p (clear_payload x').
Hypothesis p_rec : forall x t0 t1 c, rd t0 c -> rd t1 c -> m_start x = to_oct t0 -> m_end x = to_oct t1 ->
  p (with_end c (with_start c x)) = p x.
Hypothesis p_sink : forall t ins ins' out out', map p ins = map p ins' -> p out = p out' ->
  p (g_sink t ins out) = p (g_sink t ins' out').
Hypothesis sink_payload : forall t ins out, m_payload (g_sink t ins out) = m_payload out.
Hypothesis KS : keeps_start o.
Hypothesis KF : forall t c ins out x, kind t = Regular -> m_start (snd (fst (f_process t c ins out x))) = m_start out.

Definition nod tr : Prop := forall ph t e d, In (EDecision ph t e d) tr -> d = Ignore /\ policy ph t e = Ignore.
Definition pcall (e : ev) : ev := match e with EProcess t ins r => EProcess t (map p ins) r | _ => e end.
Definition pcalls tr := map pcall (calls kind tr).
Record inv (rec : list message) (c : N) env (r : renv) : Prop := {
  i_state : forall t, kind t = Regular -> state env t = r_tasks r t;
  i_ck : ck env c; i_clock : r_clock r = c; i_rec : r_rec r = rec }.

Lemma nod_app tr1 tr2 : nod (tr1 ++ tr2) <-> nod tr1 /\ nod tr2.
Proof.
  unfold nod. split.
  - intros H. split; intros ph t e d X; apply H with (d := d); apply in_app_iff; auto.
  - intros [H1 H2] ph t e d X. apply in_app_iff in X. destruct X; eauto.
Qed.
Lemma nod_cons x tr : nod (x :: tr) <-> nod [x] /\ nod tr.
Proof. apply (nod_app [x] tr). Qed.
Lemma pcalls_app tr1 tr2 : pcalls (tr1 ++ tr2) = pcalls tr1 ++ pcalls tr2.
Proof. unfold pcalls, calls. rewrite filter_app. apply map_app. Qed.
Lemma pcalls_cons x tr : pcalls (x :: tr) = pcalls [x] ++ pcalls tr.
Proof. apply (pcalls_app [x] tr). Qed.

(** Steps of the recorded run that the regular tasks do not see. *)
Lemma inv_frame rec c env env' r : inv rec c env r -> same_states kind state None env env' -> keeps env env' -> inv rec c env' r.
Proof.
  intros [I1 I2 I3 I4] F K. split; auto. intros t R. rewrite <- I1 by auto. apply F; auto. discriminate.
Qed.
Lemma inv_set rec c env env' r t x : inv rec c env r -> state env' t = x -> same_states kind state (Some t) env env' ->
  keeps env env' -> inv rec c env' (set_task t x r).
Proof.
  intros [I1 I2 I3 I4] Sx F K. split; auto. intros u R. unfold set_task. cbn [r_tasks].
  destruct (Nat.eqb_spec u t) as [->|Ne]; auto. rewrite <- I1 by auto. apply F; auto. congruence.
Qed.

Lemma now_frame rec c env r env' t : o_now o env = (env', t) -> inv rec c env r -> inv rec c env' r /\ rd t c.
Proof.
  intros H I. pose proof (det_now _ _ _ _ _ _ DET env) as F. pose proof (ck_now env) as K. pose proof (ck_read env c (i_ck _ _ _ _ I)) as R.
  rewrite H in *. cbn in *. split; auto. eapply inv_frame; eauto.
Qed.
Lemma decide_frame rec c env r ph t e env' d : o_decide o ph t e env = (env', d) -> inv rec c env r -> inv rec c env' r.
Proof.
  intros H I. pose proof (det_decide _ _ _ _ _ _ DET ph t e env) as F. pose proof (ck_decide ph t e env) as K.
  rewrite H in *. cbn in *. eapply inv_frame; eauto.
Qed.

(** *** Lifecycle calls *)
Lemma act_frame rec c ph t e env r env' tr f : act o ph t e env = (env', tr, f) -> nod tr -> inv rec c env r ->
  f = Next /\ inv rec c env' r /\ tr = [EDecision ph t e Ignore] /\ policy ph t e = Ignore.
Proof.
  unfold act. destruct (o_decide o ph t e env) as [env1 d] eqn:D. intros H N I. injection H as <- <- <-.
  destruct (N ph t e d (or_introl eq_refl)) as [-> Po]. split; auto. split; [eapply decide_frame; eauto|auto].
Qed.
Lemma act_replay ph t e r : policy ph t e = Ignore -> act ro ph t e r = (r, [EDecision ph t e Ignore], Next).
Proof. intros H. unfold act. cbn. rewrite H. reflexivity. Qed.

Definition sim_life (rec : list message) c ph ts tr (f : flow Er) env' r : Prop :=
  f = Next /\ exists r' tr', lifecycle sa ro ph ts r = (r', tr', Next) /\ inv rec c env' r' /\
    pcalls tr = pcalls tr' /\ logged tr = [] /\ logged tr' = [] /\ nod tr'.

Lemma do_call_regular rec c ph t env r env' tr f : kind t = Regular -> do_call o ph t env = (env', tr, f) -> nod tr -> inv rec c env r ->
  f = Next /\ logged tr = [] /\ exists r' , do_call ro ph t r = (r', tr, Next) /\ inv rec c env' r'.
Proof.
  intros R H N I. unfold do_call in H. pose proof (det_task _ _ _ _ _ _ DET ph t env R) as D.
  pose proof (ck_task ph t env) as K.
  destruct (o_task o ph t env) as [env1 res] eqn:T. cbn in K. destruct D as [D F].
  rewrite (f_task_ck _ _ _ _ _ R (i_ck _ _ _ _ I)) in D.
  assert (RT : o_task ro ph t r = (set_task t (state env1 t) r, res)).
  { cbn. rewrite (i_clock _ _ _ _ I), <- (i_state _ _ _ _ I t R), D. reflexivity. }
  assert (I1 : inv rec c env1 (set_task t (state env1 t) r)) by (eapply inv_set; eauto).
  unfold do_call. rewrite RT. destruct res as [e|].
  - destruct (act o ph t e env1) as [[env2 tr2] f2] eqn:A. injection H as <- <- <-. apply nod_cons in N.
    destruct (act_frame _ _ _ _ _ _ _ _ _ _ A (proj2 N) I1) as (-> & I2 & -> & Po).
    rewrite act_replay by auto. split; auto. split; auto. eexists. split; [reflexivity|auto].
  - injection H as <- <- <-. split; auto. split; auto. eexists. split; [reflexivity|auto].
Qed.
Lemma do_call_other rec c ph t env r env' tr f : kind t <> Regular -> do_call o ph t env = (env', tr, f) -> nod tr -> inv rec c env r ->
  f = Next /\ logged tr = [] /\ pcalls tr = [] /\ inv rec c env' r.
Proof.
  intros R H N I. unfold do_call in H. pose proof (det_other_task _ _ _ _ _ _ DET ph t env R) as D.
  pose proof (ck_task ph t env) as K. assert (P : forall res, pcalls [ETask ph t res] = []) by (intros res; unfold pcalls; cbn; destruct (kind t); [auto|congruence|auto]).
  destruct (o_task o ph t env) as [env1 res] eqn:T. cbn in D, K.
  assert (I1 : inv rec c env1 r) by (eapply inv_frame; eauto). destruct res as [e|].
  - destruct (act o ph t e env1) as [[env2 tr2] f2] eqn:A. injection H as <- <- <-. apply nod_cons in N.
    destruct (act_frame _ _ _ _ _ _ _ _ _ _ A (proj2 N) I1) as (-> & I2 & -> & Po).
    rewrite pcalls_cons, P. auto.
  - injection H as <- <- <-. auto.
Qed.

Lemma one_call_sim rec c ph t env r env' tr f : one_call a o ph t env = (env', tr, f) -> nod tr -> inv rec c env r ->
  f = Next /\ exists r' tr', one_call sa ro ph t r = (r', tr', Next) /\ inv rec c env' r' /\
    pcalls tr = pcalls tr' /\ logged tr = [] /\ logged tr' = [] /\ nod tr'.
Proof.
  intros H N I. unfold one_call. cbn [sim_of a_sim]. cbn [replay_oracles o_sim]. unfold answer.
  destruct (kind t) eqn:Kt.
  all: try (assert (R : kind t <> Regular) by congruence;
    assert (X : f = Next /\ logged tr = [] /\ pcalls tr = [] /\ inv rec c env' r);
    [|destruct X as (-> & L & Pc & I'); split; auto; exists r, [ESim ph t ExecutedBySim];
      split; [reflexivity|]; split; auto; split; [rewrite Pc; reflexivity|]; split; auto; split; auto;
      intros ? ? ? ? [Y|[]]; discriminate]).
  1,3: unfold one_call in H; destruct (a_sim a); [|eapply do_call_other; eauto];
    pose proof (det_sim _ _ _ _ _ _ DET ph t env) as D; pose proof (ck_sim ph t env) as K;
    destruct (o_sim o ph t env) as [env1 ovr]; cbn in D, K;
    assert (I1 : inv rec c env1 r) by (eapply inv_frame; eauto);
    destruct ovr as [| |e];
    [injection H as <- <- <-; auto
    |destruct (do_call o ph t env1) as [[env2 tr2] f2] eqn:DC; injection H as <- <- <-; apply nod_cons in N;
     destruct (do_call_other _ _ _ _ _ _ _ _ _ R DC (proj2 N) I1) as (-> & L & Pc & I2); rewrite pcalls_cons, Pc; auto
    |destruct (act o ph t e env1) as [[env2 tr2] f2] eqn:A; injection H as <- <- <-; apply nod_cons in N;
     destruct (act_frame _ _ _ _ _ _ _ _ _ _ A (proj2 N) I1) as (-> & I2 & -> & Po); auto].
  unfold one_call in H. unfold recorded_with in REC. destruct (a_sim a).
  - destruct REC as (R1 & _ & _). specialize (R1 ph t env Kt).
    pose proof (det_sim _ _ _ _ _ _ DET ph t env) as D; pose proof (ck_sim ph t env) as K;
    destruct (o_sim o ph t env) as [env1 ovr]; cbn in D, K, R1. subst ovr.
    assert (I1 : inv rec c env1 r) by (eapply inv_frame; eauto).
    destruct (do_call o ph t env1) as [[env2 tr2] f2] eqn:DC; injection H as <- <- <-; apply nod_cons in N.
    destruct (do_call_regular _ _ _ _ _ _ _ _ _ Kt DC (proj2 N) I1) as (-> & L & r' & DR & I2). rewrite DR.
    split; auto. eexists _, _. split; [reflexivity|]. split; auto. split; auto. split; auto. split; auto.
    apply nod_cons. auto.
  - destruct (do_call_regular _ _ _ _ _ _ _ _ _ Kt H N I) as (-> & L & r' & DR & I2). rewrite DR.
    split; auto. eexists _, _. split; [reflexivity|]. split; auto. split; auto. split; auto. split; auto.
    apply nod_cons. split; auto. intros ? ? ? ? [Y|[]]; discriminate.
Qed.

Lemma life_sim rec c ph ts : forall env r env' tr f, lifecycle a o ph ts env = (env', tr, f) -> nod tr -> inv rec c env r ->
  sim_life rec c ph ts tr f env' r.
Proof.
  induction ts as [|t ts IH]; intros env r env' tr f; cbn [lifecycle].
  - intros H N I. injection H as <- <- <-. split; auto. exists r, []. repeat (split; [now auto|]). now auto.
  - destruct (one_call a o ph t env) as [[env1 tr1] f1] eqn:O. intros H N I.
    assert (N1 : nod tr1).
    { destruct f1; try (injection H as <- <- <-; auto; fail).
      destruct (lifecycle a o ph ts env1) as [[env2 tr2] f2]. injection H as <- <- <-. apply nod_app in N. tauto. }
    destruct (one_call_sim _ _ _ _ _ _ _ _ _ O N1 I) as (-> & r1 & tr1' & O1 & I1 & P1 & L1 & L1' & N1').
    destruct (lifecycle a o ph ts env1) as [[env2 tr2] f2] eqn:L. injection H as <- <- <-. apply nod_app in N.
    destruct (IH _ _ _ _ _ L (proj2 N) I1) as (-> & r2 & tr2' & O2 & I2 & P2 & L2 & L2' & N2').
    split; auto. cbn [lifecycle]. rewrite O1, O2. exists r2, (tr1' ++ tr2'). split; auto. split; auto.
    rewrite !pcalls_app, !logged_app, P1, P2, L1, L1', L2, L2'. split; auto. split; auto. split; auto. apply nod_app; auto.
Qed.

(** *** Process steps *)
Lemma pact_frame rec c t e out env r env' tr out' f : pact o t e out env = (env', tr, out', f) -> nod tr -> inv rec c env r ->
  f = PNext /\ inv rec c env' r /\ tr = [EDecision Process t e Ignore] /\ policy Process t e = Ignore /\ out' = clear_payload out.
Proof.
  unfold pact. destruct (o_decide o Process t e env) as [env1 d] eqn:D. intros H N I.
  assert (X : d = Ignore /\ policy Process t e = Ignore).
  { destruct d; injection H as <- <- <- <-; apply (N Process t e _ (or_introl eq_refl)). }
  destruct X as [-> Po]. injection H as <- <- <- <-. split; auto. split; [eapply decide_frame; eauto|auto].
Qed.
Lemma pact_replay t e out r : policy Process t e = Ignore ->
  pact ro t e out r = (r, [EDecision Process t e Ignore], clear_payload out, PNext).
Proof. intros H. unfold pact. cbn. rewrite H. reflexivity. Qed.

Lemma do_process_regular rec c s ins out env r env' tr out' f ins' out2 : kind (s_node s) = Regular -> s_type s = Regular ->
  do_process o s ins true out env = (env', tr, out', f) -> nod tr -> inv rec c env r -> map p ins = map p ins' -> p out = p out2 ->
  f = PNext /\ logged tr = [] /\ exists r' tr2 out2', do_process ro s ins' true out2 r = (r', tr2, out2', PNext) /\
    inv rec c env' r' /\ p out' = p out2' /\ pcalls tr = pcalls tr2 /\ m_start out2' = to_oct c /\ m_end out2' = to_oct c /\
    logged tr2 = [] /\ nod tr2.
Proof.
  intros R Ty H N I Hi Ho. unfold do_process in *. rewrite Ty in *. set (t := s_node s) in *.
  destruct (o_now o env) as [env1 t0] eqn:N0. destruct (now_frame _ _ _ _ _ _ N0 I) as [I1 R0]. clear N0.
  pose proof (det_process _ _ _ _ _ _ DET t ins (with_start t0 out) env1 R) as D.
  pose proof (ck_process t ins (with_start t0 out) env1) as K.
  pose proof (f_process_ck t env1 c ins ins' (with_start t0 out) (with_start c out2) (state env1 t) R (i_ck _ _ _ _ I1) Hi (p_start _ _ _ _ R0 Ho)) as FP.
  destruct (o_process o t ins (with_start t0 out) env1) as [[env2 out3] res] eqn:Op. cbn in K. destruct D as [D F].
  rewrite D in FP. pose proof (KF t c ins' (with_start c out2) (state env1 t) R) as Stt.
  destruct (f_process t c ins' (with_start c out2) (state env1 t)) as [[x2 y2] res2] eqn:Fp. destruct FP as (<- & Py & <-). cbn in Stt.
  assert (I2 : inv rec c env2 (set_task t (state env2 t) r)) by (eapply inv_set; eauto).
  destruct (o_now o env2) as [env3 t1] eqn:N1. destruct (now_frame _ _ _ _ _ _ N1 I2) as [I3 R1]. clear N1.
  assert (RO : o_process ro t ins' (with_start c out2) r = (set_task t (state env2 t) r, y2, res)).
  { cbn. rewrite (i_clock _ _ _ _ I1), <- (i_state _ _ _ _ I1 t R), Fp. reflexivity. }
  assert (RN : o_now ro r = (r, c)) by (cbn; rewrite (i_clock _ _ _ _ I1); auto).
  rewrite RN, RO. assert (RN' : o_now ro (set_task t (state env2 t) r) = (set_task t (state env2 t) r, c)) by (cbn; rewrite (i_clock _ _ _ _ I1); auto).
  rewrite RN'. pose proof (p_end _ _ _ _ R1 Py) as Pe.
  assert (PC : forall res, pcalls [EProcess t ins res] = pcalls [EProcess t ins' res])
    by (intros res'; unfold pcalls; cbn; rewrite R; cbn; rewrite Hi; auto).
  destruct res as [e|].
  - destruct (pact o t e (with_end t1 out3) env3) as [[[env4 tr4] out4] f4] eqn:Pa. injection H as <- <- <- <-.
    apply (nod_app [_]) in N. destruct N as [N1 N2].
    destruct (pact_frame _ _ _ _ _ _ _ _ _ _ _ Pa N2 I3) as (-> & I4 & -> & Po & ->).
    split; auto. split; auto. eexists _, _, _. rewrite pact_replay by auto. split; [reflexivity|]. split; auto.
    split; [apply p_clear; auto|]. split; [rewrite (pcalls_app [_]), pcalls_cons, PC; reflexivity|]. split; [exact Stt|]. split; [reflexivity|]. split; auto.
    apply (nod_app [_]). split; auto. intros ? ? ? ? [X|[]]; discriminate.
  - injection H as <- <- <- <-. split; auto. split; auto. eexists _, _, _. split; [reflexivity|]. split; auto.
    split; auto. split; [apply PC|]. split; [exact Stt|]. split; [reflexivity|]. split; auto. intros ? ? ? ? [X|[]]; discriminate.
Qed.

Lemma clear_none (x : message) : m_payload x = None -> clear_payload x = x.
Proof. destruct x; cbn; intros ->; reflexivity. Qed.

(** What the recorded run may do in the step of a source or sink. *)
Definition other_out c s doit (out out' : message) : Prop := exists t0 t1, rd t0 c /\ rd t1 c /\
  m_start out' = to_oct t0 /\ m_end out' = to_oct t1 /\
  (s_type s = Sink \/ doit = false -> m_payload out = None -> out' = with_end t1 (with_start t0 out)).
Lemma do_process_other rec c s ins doit out env r env' tr out' f : kind (s_node s) <> Regular -> 
  do_process o s ins doit out env = (env', tr, out', f) -> nod tr -> inv rec c env r ->
  f = PNext /\ logged tr = [] /\ pcalls tr = [] /\ inv rec c env' r /\ other_out c s doit out out'.
Proof.
  intros R H N I. unfold do_process in H. set (t := s_node s) in *.
  destruct (o_now o env) as [env1 t0] eqn:N0. destruct (now_frame _ _ _ _ _ _ N0 I) as [I1 R0]. clear N0.
  assert (PC : forall res, pcalls [EProcess t ins res] = []) by (intros res'; unfold pcalls; cbn; destruct (kind t); [auto|congruence|auto]).
  destruct doit.
  - set (X := match s_type s with Sink => _ | _ => _ end) in *.
    assert (HX : exists env2 out2 res, X = (env2, [EProcess t ins res], out2, res) /\ inv rec c env2 r /\
      m_start out2 = to_oct t0 /\ (s_type s = Sink -> out2 = with_start t0 out)).
    { subst X.
      assert (G : exists env2 out2 res, (let '(env, out, r) := o_process o t ins (with_start t0 out) env1 in (env, [EProcess t ins r], out, r))
                   = (env2, [EProcess t ins res], out2, res) /\ inv rec c env2 r /\ m_start out2 = to_oct t0).
      { pose proof (det_other_process _ _ _ _ _ _ DET t ins (with_start t0 out) env1 R) as D.
        pose proof (ck_process t ins (with_start t0 out) env1) as K. pose proof (KS t ins (with_start t0 out) env1) as Ks.
        destruct (o_process o t ins (with_start t0 out) env1) as [[env2 out2] res]. cbn in D, K, Ks.
        exists env2, out2, res. split; auto. split; auto. eapply inv_frame; eauto. }
      destruct (s_type s).
      - destruct G as (env2 & out2 & res & G & I2 & Ms). exists env2, out2, res. split; auto. split; auto. split; auto. discriminate.
      - destruct G as (env2 & out2 & res & G & I2 & Ms). exists env2, out2, res. split; auto. split; auto. split; auto. discriminate.
      - pose proof (det_sink _ _ _ _ _ _ DET t ins env1) as D. pose proof (ck_sink t ins env1) as K.
        destruct (o_sink o t ins env1) as [env2 res]. cbn in D, K. eexists _, _, _. split; [reflexivity|]. split; auto. eapply inv_frame; eauto. }
    destruct HX as (env2 & out2 & res & EX & I2 & Ms & Snk). clearbody X. subst X.
    destruct (o_now o env2) as [env3 t1] eqn:N1. destruct (now_frame _ _ _ _ _ _ N1 I2) as [I3 R1]. clear N1.
    destruct res as [e|].
    + destruct (pact o t e (with_end t1 out2) env3) as [[[env4 tr4] out4] f4] eqn:Pa. injection H as <- <- <- <-.
      apply (nod_app [_]) in N. destruct N as [N1 N2].
      destruct (pact_frame _ _ _ _ _ _ _ _ _ _ _ Pa N2 I3) as (-> & I4 & -> & Po & ->).
      split; auto. split; auto. split; [rewrite pcalls_cons, PC; auto|]. split; auto.
      exists t0, t1. split; auto. split; auto. split; auto. split; auto.
      intros [Sk|]; [|discriminate]. intros Pn. rewrite (Snk Sk). apply clear_none. auto.
    + injection H as <- <- <- <-. split; auto. split; auto. split; auto. split; auto.
      exists t0, t1. split; auto. split; auto. split; auto. split; auto. intros [Sk|]; [|discriminate]. rewrite (Snk Sk). auto.
  - destruct (o_now o env1) as [env3 t1] eqn:N1. destruct (now_frame _ _ _ _ _ _ N1 I1) as [I3 R1]. injection H as <- <- <- <-.
    split; auto. split; auto. split; auto. split; auto. exists t0, t1. split; auto.
Qed.
Lemma process_other rec c s ins out env r env' tr out' f : kind (s_node s) = s_type s -> s_type s <> Regular ->
  process_msg a o s ins out env = (env', tr, out', f) -> nod tr -> inv rec c env r ->
  f = PNext /\ logged tr = [] /\ pcalls tr = [] /\ inv rec c env' r /\
  exists t0 t1, rd t0 c /\ rd t1 c /\ m_start out' = to_oct t0 /\ m_end out' = to_oct t1 /\
    (s_type s = Sink -> m_payload out = None -> out' = with_end t1 (with_start t0 (g_sink (s_node s) ins out))).
Proof.
  intros Kt Ty H N I. assert (R : kind (s_node s) <> Regular) by congruence. unfold process_msg in H.
  unfold recorded_with in REC. destruct (a_sim a).
  - destruct REC as (_ & _ & R3).
    pose proof (det_sim_process _ _ _ _ _ _ DET (s_node s) ins out env) as D. pose proof (ck_sim_process (s_node s) ins out env) as K.
    assert (Sk : s_type s = Sink -> snd (fst (o_sim_process o (s_node s) ins out env)) = g_sink (s_node s) ins out) by (intros; apply R3; congruence).
    destruct (o_sim_process o (s_node s) ins out env) as [[env1 out1] ovr]. cbn in D, K, Sk.
    assert (I1 : inv rec c env1 r) by (eapply inv_frame; eauto).
    destruct ovr as [| |e].
    + destruct (do_process o s ins false out1 env1) as [[[env2 tr2] out2] f2] eqn:P. injection H as <- <- <- <-. apply nod_cons in N.
      destruct (do_process_other _ _ _ _ _ _ _ _ _ _ _ _ R P (proj2 N) I1) as (-> & L & Pc & I2 & t0 & t1 & X1 & X2 & X3 & X4 & X5).
      split; auto. split; auto. split; auto. split; auto. exists t0, t1. split; auto. split; auto. split; auto. split; auto.
      intros Sn Pn. rewrite <- (Sk Sn). apply X5; auto. rewrite (Sk Sn), sink_payload. auto.
    + destruct (do_process o s ins true out1 env1) as [[[env2 tr2] out2] f2] eqn:P. injection H as <- <- <- <-. apply nod_cons in N.
      destruct (do_process_other _ _ _ _ _ _ _ _ _ _ _ _ R P (proj2 N) I1) as (-> & L & Pc & I2 & t0 & t1 & X1 & X2 & X3 & X4 & X5).
      split; auto. split; auto. split; auto. split; auto. exists t0, t1. split; auto. split; auto. split; auto. split; auto.
      intros Sn Pn. rewrite <- (Sk Sn). apply X5; auto. rewrite (Sk Sn), sink_payload. auto.
    + destruct (pact o (s_node s) e out1 env1) as [[[env2 tr2] out2] f2] eqn:Pa.
      assert (N2 : nod tr2).
      { destruct f2; [destruct (do_process o s ins false out2 env2) as [[[env3 tr3] out3] f3]|..]; injection H as <- <- <- <-; apply nod_cons in N; destruct N as [_ N]; auto.
        apply nod_app in N. tauto. }
      destruct (pact_frame _ _ _ _ _ _ _ _ _ _ _ Pa N2 I1) as (-> & I2 & -> & Po & ->).
      destruct (do_process o s ins false (clear_payload out1) env2) as [[[env3 tr3] out3] f3] eqn:P. injection H as <- <- <- <-.
      apply nod_cons in N. destruct N as [_ N]. apply (nod_app [_]) in N. destruct N as [_ N].
      destruct (do_process_other _ _ _ _ _ _ _ _ _ _ _ _ R P N I2) as (-> & L & Pc & I3 & t0 & t1 & X1 & X2 & X3 & X4 & X5).
      split; auto. split; [exact L|]. split; [exact Pc|]. split; auto. exists t0, t1. split; auto. split; auto. split; auto. split; auto.
      intros Sn Pn. rewrite X5 by auto. rewrite clear_none; [rewrite (Sk Sn); auto|]. rewrite (Sk Sn), sink_payload. auto.
  - destruct (do_process_other _ _ _ _ _ _ _ _ _ _ _ _ R H N I) as (-> & L & Pc & I2 & t0 & t1 & X1 & X2 & X3 & X4 & X5).
    split; auto. split; auto. split; auto. split; auto. exists t0, t1. split; auto. split; auto. split; auto. split; auto.
    intros Sn Pn. rewrite REC. apply X5; auto.
Qed.

(** One step; for a source, the recorded message is the one the step left. *)
Lemma process_msg_sim rec c s ins out env r env' tr out' f ins' out2 : kind (s_node s) = s_type s ->
  process_msg a o s ins out env = (env', tr, out', f) -> nod tr -> inv rec c env r -> map p ins = map p ins' -> p out = p out2 ->
  (s_type s = Sink -> m_payload out = None) -> (s_type s = Source -> f = PNext -> recorded a (s_node s) rec = Some out') ->
  f = PNext /\ logged tr = [] /\ (s_type s = Sink -> m_payload out' = None) /\
  (s_type s = Source -> exists t0, rd t0 c /\ m_start out' = to_oct t0) /\
  exists r' tr2 out2', process_msg sa ro s ins' out2 r = (r', tr2, out2', PNext) /\
    inv rec c env' r' /\ p out' = p out2' /\ pcalls tr = pcalls tr2 /\ m_start out2' = to_oct c /\ m_end out2' = to_oct c /\
    logged tr2 = [] /\ nod tr2.
Proof.
  intros Kt H N I Hi Ho Sk So. unfold process_msg at 1. cbn [sim_of a_sim].
  destruct (s_type s) eqn:Ty.
  - destruct (process_other _ _ s _ _ _ _ _ _ _ _ ltac:(rewrite Ty; exact Kt) ltac:(rewrite Ty; discriminate) H N I) as (-> & L & Pc & I2 & t0 & t1 & X1 & X2 & X3 & X4 & _).
    split; auto. split; auto. split; [discriminate|]. split; [eauto|].
    exists r, [ESim Process (s_node s) ExecutedBySim], (with_end c (with_start c out')).
    split.
    { cbn [replay_oracles o_sim_process]. unfold callback, answer. rewrite Kt, (i_rec _ _ _ _ I), So by auto.
      unfold do_process. cbn [o_now replay_oracles]. rewrite (i_clock _ _ _ _ I). reflexivity. }
    split; auto. split; [symmetry; exact (p_rec out' t0 t1 c X1 X2 X3 X4)|]. split; [rewrite Pc; reflexivity|]. split; [reflexivity|]. split; [reflexivity|].
    split; [reflexivity|]. intros ? ? ? ? [X|[]]; discriminate.
  - unfold process_msg in H. assert (Rg : forall env1 env2 tr2 out2' f2, do_process o s ins true out env1 = (env2, tr2, out2', f2) -> nod tr2 -> inv rec c env1 r ->
      f2 = PNext /\ logged tr2 = [] /\ exists r' tr3 out3, do_process ro s ins' true out2 r = (r', tr3, out3, PNext) /\
      inv rec c env2 r' /\ p out2' = p out3 /\ pcalls tr2 = pcalls tr3 /\ m_start out3 = to_oct c /\ m_end out3 = to_oct c /\ logged tr3 = [] /\ nod tr3).
    { intros. eapply do_process_regular; eauto. }
    unfold recorded_with in REC. cbn [replay_oracles o_sim_process]. unfold callback, answer. rewrite Kt. destruct (a_sim a).
    + destruct REC as (_ & R2 & _). specialize (R2 (s_node s) ins out env Kt).
      pose proof (det_sim_process _ _ _ _ _ _ DET (s_node s) ins out env) as D. pose proof (ck_sim_process (s_node s) ins out env) as K.
      destruct (o_sim_process o (s_node s) ins out env) as [[env1 out1] ovr]. cbn in D, K, R2. destruct R2 as [-> ->].
      assert (I1 : inv rec c env1 r) by (eapply inv_frame; eauto).
      destruct (do_process o s ins true out env1) as [[[env2 tr2] out3] f2] eqn:P. injection H as <- <- <- <-. apply nod_cons in N.
      destruct (Rg _ _ _ _ _ P (proj2 N) I1) as (-> & L & r' & tr3 & out4 & Q & I2 & Pq & Pc & M1 & M2 & L3 & N3).
      rewrite Q. split; auto. split; auto. split; [discriminate|]. split; [discriminate|]. eexists _, _, _. split; [reflexivity|].
      split; auto. split; auto. split; auto. split; auto. split; auto. split; auto. apply nod_cons. tauto.
    + destruct (Rg _ _ _ _ _ H N I) as (-> & L & r' & tr3 & out4 & Q & I2 & Pq & Pc & M1 & M2 & L3 & N3).
      rewrite Q. split; auto. split; auto. split; [discriminate|]. split; [discriminate|]. eexists _, _, _. split; [reflexivity|].
      split; auto. split; auto. split; auto. split; auto. split; auto. split; auto. apply nod_cons. split; auto. intros ? ? ? ? [X|[]]; discriminate.
  - destruct (process_other _ _ s _ _ _ _ _ _ _ _ ltac:(rewrite Ty; exact Kt) ltac:(rewrite Ty; discriminate) H N I) as (-> & L & Pc & I2 & t0 & t1 & X1 & X2 & X3 & X4 & X5).
    specialize (X5 Ty (Sk eq_refl)).
    split; auto. split; auto. split; [intros _; rewrite X5; cbn; rewrite sink_payload; auto|]. split; [discriminate|].
    exists r, [ESim Process (s_node s) ExecutedBySim], (with_end c (with_start c (g_sink (s_node s) ins' out2))).
    split.
    { cbn [replay_oracles o_sim_process]. unfold callback, answer. rewrite Kt.
      unfold do_process. cbn [o_now replay_oracles]. rewrite (i_clock _ _ _ _ I). reflexivity. }
    split; auto. split; [rewrite X5; auto|]. split; [rewrite Pc; reflexivity|]. split; [reflexivity|]. split; [reflexivity|].
    split; [reflexivity|]. intros ? ? ? ? [X|[]]; discriminate.
Qed.

(** *** All steps of the plan *)
Hypothesis GP : good_plan (a_plan a).
Hypothesis KP : forall s, In s (a_plan a) -> s_type s = kind (s_node s).
Hypothesis GET : forall t k, kind t = Source -> slot_of_task (a_plan a) t k -> getter_field a t = Some k.

Definition sinks_empty (msgs : list message) : Prop :=
  forall k s x, nth_error (a_plan a) k = Some s -> s_type s = Sink -> nth_error msgs k = Some x -> m_payload x = None.

Lemma gather_map msgs1 msgs2 is ins : map p msgs1 = map p msgs2 -> gather msgs1 is = Some ins ->
  exists ins', gather msgs2 is = Some ins' /\ map p ins = map p ins'.
Proof.
  intros Hm. revert ins. induction is as [|i is IH]; intros ins; cbn.
  - intros H; injection H as <-. exists []. auto.
  - destruct (nth_error msgs1 (fst i)) as [x|] eqn:Nx; [|discriminate].
    destruct (gather msgs1 is) as [l|]; [|discriminate]. intros H; injection H as <-.
    destruct (IH _ eq_refl) as (l' & -> & Hl).
    assert (X : nth_error (map p msgs2) (fst i) = Some (p x)) by (rewrite <- Hm, nth_error_map, Nx; auto).
    rewrite nth_error_map in X. destruct (nth_error msgs2 (fst i)) as [y|]; [|discriminate]. injection X as X.
    exists (y :: l'). cbn. rewrite X, Hl. auto.
Qed.

Lemma NoDup_suffix {A} (l1 l2 : list A) : NoDup (l1 ++ l2) -> NoDup l2.
Proof. induction l1 as [|x l1 IH]; cbn; auto. intros H. inversion H; auto. Qed.
Lemma slot_not_later done s ss : a_plan a = done ++ s :: ss -> ~ In (length done) (flat_map slot_of ss).
Proof.
  intros Hp Hin. pose proof (good_slots _ GP) as G. rewrite Hp, flat_map_app in G. cbn [flat_map] in G.
  assert (Hs : nth_error (a_plan a) (length done) = Some s) by (rewrite Hp, nth_error_app2, Nat.sub_diag by lia; auto).
  destruct GP as [_ GP2]. destruct (GP2 _ _ Hs) as [(ty & So) _].
  assert (ND : NoDup (flat_map slot_of done ++ slot_of s ++ flat_map slot_of ss)) by (rewrite G; apply seq_NoDup).
  apply NoDup_suffix in ND. unfold slot_of at 1 in ND. rewrite So in ND. cbn in ND. inversion ND; auto.
Qed.

(** The recorded run of the steps [ss] that follow [done], and the replay with what it
    leaves behind as the recorded messages. *)
Lemma process_all_sim rec c : forall ss done msgs env r env' tr msgs2,
  a_plan a = done ++ ss -> process_all a o ss msgs env = (env', tr, rec, PNext) -> nod tr -> inv rec c env r ->
  map p msgs = map p msgs2 -> sinks_empty msgs ->
  logged tr = [] /\ sinks_empty rec /\ length rec = length msgs /\
  (forall k s x, length done <= k -> nth_error (a_plan a) k = Some s -> s_type s = Source -> nth_error rec k = Some x ->
     exists t0, rd t0 c /\ m_start x = to_oct t0) /\
  exists r' tr2 msgs2', process_all sa ro ss msgs2 r = (r', tr2, msgs2', PNext) /\
    inv rec c env' r' /\ map p rec = map p msgs2' /\ pcalls tr = pcalls tr2 /\
    (forall k x, length done <= k < length (a_plan a) -> nth_error msgs2' k = Some x -> m_start x = to_oct c /\ m_end x = to_oct c) /\
    logged tr2 = [] /\ nod tr2.
Proof.
  induction ss as [|s ss IH]; intros done msgs env r env' tr msgs2 Hp; cbn [process_all].
  - intros H N I Hm Se. injection H as <- <- <-. rewrite app_nil_r in Hp.
    split; auto. split; auto. split; auto.
    split. { intros k s x Hk Hs. exfalso. assert (k < length (a_plan a)) by (apply nth_error_Some; congruence). rewrite Hp in *. lia. }
    exists r, [], msgs2. split; auto. split; auto. split; auto. split; auto. split; [rewrite Hp; intros; lia|]. split; auto.
  - assert (Hs : nth_error (a_plan a) (length done) = Some s) by (rewrite Hp, nth_error_app2, Nat.sub_diag by lia; auto).
    assert (Hin : In s (a_plan a)) by (eapply nth_error_In; eauto). destruct (proj2 GP _ _ Hs) as [(ty & So) _].
    destruct (process_step a o s msgs env) as [[[env1 tr1] msgs1] f1] eqn:P. intros H N I Hm Se.
    unfold process_step in P |- *. rewrite So in *.
    destruct (nth_error msgs (length done)) as [out|] eqn:No.
    2:{ injection P as <- <- <- <-. discriminate. }
    destruct (gather msgs (s_inputs s)) as [ins|] eqn:G.
    2:{ injection P as <- <- <- <-. discriminate. }
    destruct (process_msg a o s ins out env) as [[[env2 tr2] out'] f2] eqn:Q. injection P as <- <- <- <-.
    destruct f2; try discriminate.
    destruct (gather_map _ _ _ _ Hm G) as (ins2 & G2 & Hi).
    assert (X : nth_error (map p msgs2) (length done) = Some (p out)) by (rewrite <- Hm, nth_error_map, No; auto).
    rewrite nth_error_map in X. destruct (nth_error msgs2 (length done)) as [out2|] eqn:No2; [|discriminate]. injection X as X.
    assert (Ld : length done < length msgs) by (apply nth_error_Some; congruence).
    destruct (process_all a o ss (upd (length done) out' msgs) env2) as [[[env3 tr3] msgs3] f3] eqn:Rs. injection H as <- <- <- ->.
    apply nod_app in N. destruct N as [N1 N2].
    assert (Keep : nth_error msgs3 (length done) = Some out').
    { rewrite (process_all_other a o ss (length done) (slot_not_later _ _ _ Hp) _ _ _ _ _ _ Rs). apply nth_error_upd_eq. auto. }
    assert (Fin : s_type s = Source -> PNext (Er := Er) = PNext -> recorded a (s_node s) msgs3 = Some out').
    { intros Ts _. unfold recorded. rewrite (GET (s_node s) (length done)); auto.
      - rewrite <- KP; auto.
      - exists s. auto. }
    destruct (process_msg_sim msgs3 c s ins out env r _ _ _ _ ins2 out2 (eq_sym (KP _ Hin)) Q N1 I Hi (eq_sym X)) as
      (_ & L2 & Se' & Ms & r' & tr2' & out2' & Q' & I' & Po & Pc & M1 & M2 & L2' & N2'); auto.
    { intros Ty. eapply Se; eauto. }
    assert (Hp' : a_plan a = (done ++ [s]) ++ ss) by (rewrite <- app_assoc; auto).
    assert (Hm' : map p (upd (length done) out' msgs) = map p (upd (length done) out2' msgs2)) by (rewrite !map_upd, Po, Hm; auto).
    assert (Se2 : sinks_empty (upd (length done) out' msgs)).
    { intros k s' x Hk Ty Hx. destruct (Nat.eq_dec k (length done)) as [->|Ne].
      - rewrite nth_error_upd_eq in Hx by auto. injection Hx as <-. rewrite Hs in Hk. injection Hk as <-. auto.
      - rewrite nth_error_upd_neq in Hx by auto. eapply Se; eauto. }
    destruct (IH _ _ _ _ _ _ _ Hp' Rs N2 I' Hm' Se2) as (L3 & Se3 & Le & Src & r3 & tr3' & msgs3' & Q3 & I3 & Pm & Pc3 & Tm & L3' & N3').
    rewrite app_length in Src, Tm. cbn [length] in Src, Tm.
    split; [rewrite logged_app, L2, L3; auto|]. split; auto. split; [rewrite Le, upd_length; auto|].
    split.
    { intros k s' x Hk Hk' Ty Hx. destruct (Nat.eq_dec k (length done)) as [->|Ne]; [|apply (Src k s' x); auto; lia].
      rewrite Hs in Hk'. injection Hk' as <-. rewrite Keep in Hx. injection Hx as <-. auto. }
    rewrite G2, Q', Q3. eexists _, _, _. split; [reflexivity|]. split; auto. split; auto.
    split; [rewrite !pcalls_app, Pc, Pc3; auto|].
    split.
    { intros k x Hk Hx. destruct (Nat.eq_dec k (length done)) as [->|Ne]; [|apply (Tm k x); auto; lia].
      rewrite (process_all_other sa ro ss (length done) (slot_not_later _ _ _ Hp) _ _ _ _ _ _ Q3) in Hx.
      rewrite nth_error_upd_eq in Hx by (apply nth_error_Some; congruence). injection Hx as <-. auto. }
    split; [rewrite logged_app, L2', L3'; auto|]. apply nod_app. auto.
Qed.

(** *** The copper list *)
Hypothesis LG : a_logging a = true.
Hypothesis WS : writes_succeed o.
Variable src : nat.
Variable ksrc : nat.
Hypothesis SRC : kind src = Source.
Hypothesis SLOT : slot_of_task (a_plan a) src ksrc.

Definition mrel (m m2 : mgr (list message)) : Prop := mmap (map p) m = mmap (map p) m2.
Definition settled (m : mgr (list message)) : Prop :=
  minv [] m /\ Forall (fun l => sinks_empty l /\ length l = length (a_plan a)) (contents m).

Lemma select_bound {A} (l : list A) is x : select l is = Some x -> forall i, In i is -> i < length l.
Proof.
  revert x. induction is as [|j is IH]; intros x; cbn; [tauto|].
  destruct (nth_error l j) eqn:Nj; [|discriminate]. destruct (select l is) as [y|]; [|discriminate].
  intros _ i [->|Hi]; [apply nth_error_Some; congruence|eauto].
Qed.
Lemma select_length {A B} (l : list A) (l' : list B) is x : length l = length l' -> select l is = Some x ->
  exists y, select l' is = Some y /\ length y = length is.
Proof.
  intros L H. assert (F : forall i, In i is -> i < length l') by (intros i Hi; rewrite <- L; eapply select_bound; eauto).
  clear H. induction is as [|j is IH]; cbn; [exists []; auto|].
  destruct IH as (y & -> & Ly); [intros; apply F; cbn; auto|].
  destruct (nth_error l' j) as [z|] eqn:Nz.
  - exists (z :: y). cbn. auto.
  - apply nth_error_None in Nz. specialize (F j (or_introl eq_refl)). lia.
Qed.
Lemma select_Forall {A} (P : A -> Prop) (l : list A) is x : Forall P l -> select l is = Some x -> Forall P x.
Proof.
  intros F. revert x. induction is as [|j is IH]; intros x; cbn; [intros H; injection H as <-; auto|].
  destruct (nth_error l j) as [z|] eqn:Nz; [|discriminate]. destruct (select l is) as [y|]; [|discriminate].
  intros H; injection H as <-. constructor; auto. rewrite Forall_forall in F. apply F. eapply nth_error_In; eauto.
Qed.
Lemma e2e_same c (l : list message) : l <> [] -> Forall (fun x => m_start x = Some c /\ m_end x = Some c) l -> e2e sa l = Ret 0%N.
Proof.
  intros Ne F. assert (X : last (map m_end l) None = Some c /\ hd None (map m_start l) = Some c).
  { induction F as [|x l [H1 H2] F IH]; [congruence|]. cbn [map hd]. split; auto.
    destruct l as [|y l]; [cbn; auto|]. destruct IH as [I1 _]; [discriminate|]. cbn [map] in *. exact I1. }
  unfold e2e. destruct X as [-> ->]. rewrite N.leb_refl, N.sub_diag. reflexivity.
Qed.

Lemma mrel_slot m1 m2 i id (l l' : list message) : mrel m1 m2 -> map p l = map p l' ->
  mrel (set_slot i (mkCl id Processing l) m1) (set_slot i (mkCl id Processing l') m2).
Proof.
  unfold mrel, mmap, set_slot. cbn. intros H Hl. injection H as H1 H2 H3 H4.
  rewrite !map_upd, H1, H2, H3, H4. unfold cmap at 1 3. cbn. rewrite Hl. reflexivity.
Qed.
Lemma mrel_nth m m2 i (sl : cl (list message)) : mrel m m2 -> nth_error (m_data m) i = Some sl -> exists sl2, nth_error (m_data m2) i = Some sl2 /\
  cl_id sl2 = cl_id sl /\ map p (cl_msgs sl) = map p (cl_msgs sl2).
Proof.
  intros H Hn. assert (X : nth_error (map (cmap (map p)) (m_data m2)) i = Some (cmap (map p) sl)).
  { replace (map (cmap (map p)) (m_data m2)) with (map (cmap (map p)) (m_data m)) by (unfold mrel, mmap in H; injection H; auto).
    rewrite nth_error_map, Hn. reflexivity. }
  rewrite nth_error_map in X. destruct (nth_error (m_data m2) i) as [sl2|]; [|discriminate].
  exists sl2. split; auto. unfold cmap in X. cbn in X. injection X as X1 X2 X3. auto.
Qed.
Lemma mrel_create m m2 m1 i : mrel m m2 -> create (a_mode a) m = Ret (Some (m1, i)) ->
  exists m3, create (a_mode a) m2 = Ret (Some (m3, i)) /\ mrel m1 m3.
Proof.
  intros H C. pose proof (create_mmap (map p) (a_mode a) m) as X. pose proof (create_mmap (map p) (a_mode a) m2) as Y.
  rewrite <- H, X, C in Y. cbn in Y. destruct (create (a_mode a) m2) as [[[m3 j]|]|]; cbn in Y; try discriminate.
  assert (X1 : mrel m1 m3) by (unfold mrel; congruence). assert (X2 : j = i) by congruence. subst j. exists m3. auto.
Qed.
Lemma mrel_finish m m2 id env r m' msgs : mrel m m2 -> finish a o id m env = Ret (m', [ELog id msgs]) ->
  exists m2' msgs2, finish sa ro id m2 r = Ret (m2', [ELog id msgs2]) /\ mrel m' m2' /\ map p msgs = map p msgs2.
Proof.
  intros H. unfold finish. cbn [sim_of a_logging]. rewrite LG. intros F.
  pose proof (end_mmap (map p) (o_log o env) (fun _ => true) m id ltac:(intros; apply WS) ltac:(auto)) as X.
  pose proof (end_mmap (map p) (o_log ro r) (fun _ => true) m2 id ltac:(reflexivity) ltac:(auto)) as Y.
  rewrite <- H, X in Y. destruct (end_of_processing (Some (o_log o env)) m id) as [[m1 lg]|]; [|discriminate].
  cbn [obind] in F. injection F as <- F. cbn [oresult fst snd] in Y.
  destruct (end_of_processing (Some (o_log ro r)) m2 id) as [[m3 lg3]|]; [|discriminate].
  cbn [oresult fst snd] in Y. injection Y as Y1 Y2 Y3 Y4 Y5.
  destruct lg as [|x [|]]; try discriminate. destruct lg3 as [|y [|]]; try discriminate. cbn in Y5, F.
  unfold cmap in Y5. injection Y5 as Z1 Z2 Z3. injection F as F1 F2. cbn [obind map].
  exists m3, (cl_msgs y). rewrite <- Z1, F1. split; auto. split.
  - unfold mrel, mmap. congruence.
  - congruence.
Qed.

Lemma inv_self rec c env : ck env c -> inv rec c env (Replay (state env) c rec).
Proof. intros K. split; auto. Qed.

Lemma process_next msgs env env' tr msgs' f : process_all a o (a_plan a) msgs env = (env', tr, msgs', f) -> nod tr -> f <> PPanic -> f = PNext.
Proof.
  intros P N Np. apply process_all_spec in P. destruct P as [P _]. destruct f as [| |e|]; auto.
  - destruct P as (tr' & t & e & -> & _). exfalso. apply nod_app in N. destruct (proj2 N _ _ _ _ (or_introl eq_refl)). discriminate.
  - destruct P as (tr' & t & -> & _). exfalso. apply nod_app in N. destruct (proj2 N _ _ _ _ (or_introl eq_refl)). discriminate.
  - congruence.
Qed.

Definition sim_body c (m m2 : mgr (list message)) env env' (m' : mgr (list message)) tr : Prop := exists rec, logged tr = [(m_next m, rec)] /\ settled m' /\
  m_next m' = (m_next m + 1)%N /\ (exists x t0, recorded a src rec = Some x /\ rd t0 c /\ m_start x = to_oct t0) /\
  forall c, ck env c -> to_oct c = Some c -> forall r, inv rec c env r ->
    exists r' m2' tr2 rec2, copperlist_body sa ro m2 r = (r', m2', tr2, Next) /\ inv rec c env' r' /\ mrel m' m2' /\
      pcalls tr = pcalls tr2 /\ logged tr2 = [(m_next m, rec2)] /\ map p rec = map p rec2 /\ nod tr2.

Lemma body_sim c m m2 env env' m' tr f : settled m -> mrel m m2 -> (m_next m + 1 < 2 ^ 32)%N ->
  copperlist_body a o m env = (env', m', tr, f) -> nod tr -> to_result f = ROk -> ck env c ->
  f = Next /\ sim_body c m m2 env env' m' tr.
Proof.
  intros [Mi Co] Mr B H N Ok K. unfold copperlist_body in H.
  destruct (create (a_mode a) m) as [[[m1 i]|]|] eqn:C; try (injection H as <- <- <- <-; discriminate).
  destruct (nth_error (m_data m1) i) as [cl|] eqn:Nc; try (injection H as <- <- <- <-; discriminate).
  destruct (create_contents a m m1 i cl C Nc) as [C1 C2].
  destruct (mrel_create _ _ _ _ Mr C) as (m3 & C3 & Mr3). destruct (mrel_nth _ _ _ _ Mr3 Nc) as (cl2 & Nc2 & Id2 & Pm).
  assert (Cc : sinks_empty (cl_msgs cl) /\ length (cl_msgs cl) = length (a_plan a)).
  { rewrite Forall_forall in Co. apply Co. eapply nth_error_In; eauto. }
  destruct (process_all a o (a_plan a) (cl_msgs cl) env) as [[[env1 tr1] rec] f1] eqn:P.
  assert (Nx : nod tr1 /\ f1 <> PPanic).
  { destruct f1.
    - destruct (match collect_metadata a rec with Some md => e2e a md | None => Panic end).
      + destruct (report_and_finish a o _ _ rec env1) as [[[? ?] ?] ?]. injection H as <- <- <- <-. apply nod_app in N. split; [tauto|discriminate].
      + injection H as <- <- <- <-. discriminate.
    - destruct (report_and_finish a o _ _ rec env1) as [[[? ?] ?] ?]. injection H as <- <- <- <-. apply nod_app in N. split; [tauto|discriminate].
    - injection H as <- <- <- <-. discriminate.
    - injection H as <- <- <- <-. discriminate. }
  destruct Nx as [N1 Np]. pose proof (process_next _ _ _ _ _ _ P N1 Np). subst f1.
  destruct (collect_metadata a rec) as [md|] eqn:Md; [|injection H as <- <- <- <-; discriminate].
  destruct (e2e a md) as [d|]; [|injection H as <- <- <- <-; discriminate].
  destruct (begin_spec a [] m m1 i cl Mi B C Nc) as [Hid Hb]. destruct (Hb rec) as [Rr Cap]. clear Hb.
  unfold report_and_finish in H. rewrite Md in H.
  pose proof (det_report _ _ _ _ _ _ DET md env1) as Dr. pose proof (ck_report md env1) as Kr.
  destruct (o_report o md env1) as [env2 [e|]]; [injection H as <- <- <- <-; discriminate|]. cbn in Dr, Kr.
  destruct (finish_spec a o (m_next m) rec [] _ _ env2 WS Rr ltac:(lia) (Forall_nil _)) as (m4 & Fi & Rr4 & Cap4).
  rewrite LG in Fi. rewrite Hid in H. rewrite Hid in Fi. rewrite Fi in H. injection H as <- <- <- <-. split; auto.
  destruct (process_all_sim rec c (a_plan a) [] _ _ _ _ _ (cl_msgs cl2) eq_refl P N1 (inv_self rec c env K) Pm (proj1 Cc)) as
    (L1 & Se & Le & Src & _).
  exists rec. split; [rewrite logged_app, L1; reflexivity|].
  assert (Nx4 : m_next m4 = (m_next m + 1)%N) by (symmetry; apply (rrel_next _ _ _ Rr4)).
  split.
  { split; [split; [rewrite Nx4; exact Rr4|constructor]|].
    unfold finish in Fi. destruct (end_of_processing _ _ _) as [[m5 lg5]|] eqn:Ep; [|discriminate]. cbn [obind] in Fi. injection Fi as <- _.
    apply eop_contents in Ep. rewrite Ep. unfold contents in *. unfold set_slot. cbn [m_data].
    rewrite map_upd. cbn [cl_msgs]. apply Forall_upd; [rewrite C1; auto|]. split; auto. rewrite Le. tauto. }
  split; auto.
  split.
  { destruct SLOT as (s & Hs & Hn). pose proof (GET _ _ SRC SLOT) as Ge.
    assert (Lk : ksrc < length rec) by (rewrite Le, (proj2 Cc); apply nth_error_Some; congruence).
    destruct (nth_error rec ksrc) as [x|] eqn:Nk; [|apply nth_error_None in Nk; lia].
    destruct (Src ksrc s x ltac:(cbn; lia) Hs) as (t0 & R0 & M0); auto.
    { rewrite KP by (eapply nth_error_In; eauto). rewrite Hn. auto. }
    exists x, t0. unfold recorded. rewrite Ge. auto. }
  intros c' K' Oc r I.
  destruct (process_all_sim rec c' (a_plan a) [] _ _ _ _ _ (cl_msgs cl2) eq_refl P N1 I Pm (proj1 Cc)) as
    (_ & _ & _ & _ & r' & tr2 & msgs2 & P2 & I2 & Pm2 & Pc & Tm & L2 & N2).
  assert (Lm : length msgs2 = length rec) by (rewrite <- (map_length p rec), Pm2, map_length; auto).
  destruct (select_length rec msgs2 _ _ (eq_sym Lm) Md) as (md2 & Md2 & Lmd).
  assert (Ee : e2e sa md2 = Ret 0%N).
  { apply e2e_same with (c := c').
    - destruct SLOT as (s & Hs & Hn). intros ->. unfold call_order in Lmd. rewrite map_length in Lmd. cbn in Lmd.
      assert (ksrc < length (a_plan a)) by (apply nth_error_Some; congruence). lia.
    - eapply select_Forall; [|exact Md2]. apply Forall_forall. intros x Hx. apply In_nth_error in Hx. destruct Hx as [k Hk].
      assert (k < length msgs2) by (apply nth_error_Some; congruence). rewrite <- Oc.
      apply (Tm k x); auto. cbn. lia. }
  destruct (mrel_finish _ _ _ env2 r' m4 rec (mrel_slot m1 m3 i (m_next m) rec msgs2 Mr3 Pm2) Fi) as (m2' & rec2 & Fi2 & Mr4 & Pr).
  exists r', m2', (tr2 ++ [EReport md2 None; ELog (m_next m) rec2]), rec2.
  split.
  { unfold copperlist_body. cbn [sim_of a_mode a_plan]. rewrite C3, Nc2. fold sa. rewrite P2.
    assert (Md3 : collect_metadata sa msgs2 = Some md2) by exact Md2. rewrite Md3, Ee.
    unfold report_and_finish. rewrite Md3. cbn [o_report replay_oracles]. rewrite Id2, Hid. fold ro. rewrite Fi2. reflexivity. }
  split; [eapply inv_frame; eauto|]. split; auto.
  split; [rewrite !pcalls_app, Pc; reflexivity|]. split; [rewrite logged_app, L2; reflexivity|]. split; auto.
  apply nod_app. split; auto. intros ? ? ? ? [X|[X|[]]]; discriminate.
Qed.

(** *** Iterations *)
Hypothesis CK : forall env, exists c, ck env c.
Hypothesis RDCK : forall env c t, ck env c -> rd t c -> ck env t /\ to_oct t = Some t.

Definition agree_states env (r : renv) : Prop := forall t, kind t = Regular -> state env t = r_tasks r t.

Definition sim_iter (m m2 : mgr (list message)) (r : renv) env' (m' : mgr (list message)) tr : Prop :=
  exists rec r1, logged tr = [(m_next m, rec)] /\ settled m' /\ m_next m' = (m_next m + 1)%N /\ load a src rec r = Some r1 /\
  exists r' m2' tr2 rec2, run_one_iteration sa ro m2 r1 = (r', m2', tr2, ROk) /\ agree_states env' r' /\ mrel m' m2' /\
    pcalls tr = pcalls tr2 /\ logged tr2 = [(m_next m, rec2)] /\ map p rec = map p rec2 /\ nod tr2.

Lemma life_next ph ts env env' tr f : lifecycle a o ph ts env = (env', tr, f) -> nod tr -> f = Next /\ logged tr = [] /\
  forall rec c r, inv rec c env r -> sim_life rec c ph ts tr f env' r.
Proof.
  intros H N. destruct (CK env) as [c K].
  destruct (life_sim [] c ph ts _ _ _ _ _ H N (inv_self [] c env K)) as (F & r' & tr' & _ & _ & _ & L & _).
  split; auto. split; auto. intros. eapply life_sim; eauto.
Qed.

Lemma iteration_sim m m2 env r env' m' tr : settled m -> mrel m m2 -> (m_next m + 1 < 2 ^ 32)%N ->
  run_one_iteration a o m env = (env', m', tr, ROk) -> nod tr -> agree_states env r ->
  sim_iter m m2 r env' m' tr.
Proof.
  intros Se Mr B H N A. unfold run_one_iteration in H.
  destruct (lifecycle a o Preprocess (seq 0 (a_tasks a)) env) as [[env1 tr1] f1] eqn:L1.
  assert (N1 : nod tr1).
  { destruct f1; [|injection H as <- <- <- _; auto..].
    destruct (copperlist_body a o m env1) as [[[env2 m2'] tr2] f2]. destruct f2.
    - destruct (lifecycle a o Postprocess _ env2) as [[env3 tr3] f3]. injection H as <- <- <- _. apply nod_app in N. tauto.
    - injection H as <- <- <- _. apply nod_app in N. tauto.
    - injection H as <- <- <- _. apply nod_app in N. tauto. }
  destruct (life_next _ _ _ _ _ _ L1 N1) as (-> & Lg1 & Sim1).
  destruct (CK env) as [c K].
  destruct (Sim1 [] c _ (inv_self [] c env K)) as (_ & ra & _ & _ & Ia & _).
  destruct (copperlist_body a o m env1) as [[[env2 m3] tr2] f2] eqn:Bd.
  assert (N2 : nod tr2 /\ to_result f2 = ROk).
  { destruct f2 as [|re|].
    - destruct (lifecycle a o Postprocess _ env2) as [[env3 tr3] f3]. injection H as <- <- <- _.
      apply nod_app in N. destruct N as [_ N]. apply nod_app in N. tauto.
    - injection H as <- <- <- Ok. apply nod_app in N. tauto.
    - injection H as <- <- <- Ok. discriminate. }
  destruct N2 as [N2 Ok2].
  destruct (body_sim c m m2 _ _ _ _ _ Se Mr B Bd N2 Ok2 (i_ck _ _ _ _ Ia)) as (-> & rec & Lg & Se' & Nx & (x & t0 & Rx & Rd & Ms) & Body).
  destruct (lifecycle a o Postprocess (seq 0 (a_tasks a)) env2) as [[env3 tr3] f3] eqn:L3. injection H as <- <- <- Ok3.
  apply nod_app in N. destruct N as [_ N]. apply nod_app in N. destruct N as [_ N3].
  destruct (life_next _ _ _ _ _ _ L3 N3) as (-> & Lg3 & Sim3).
  destruct (RDCK env c t0 K Rd) as [K0 Oc].
  assert (I0 : inv rec t0 env (Replay (r_tasks r) t0 rec)) by (split; auto).
  destruct (Sim1 rec t0 _ I0) as (_ & r1 & tr1' & P1 & I1 & Pc1 & _ & Lg1' & Nd1).
  destruct (Body t0 (i_ck _ _ _ _ I1) Oc r1 I1) as (r2 & m2' & tr2' & rec2 & P2 & I2 & Mr2 & Pc2 & Lg2' & Pr & Nd2).
  destruct (Sim3 rec t0 _ I2) as (_ & r3 & tr3' & P3 & I3 & Pc3 & _ & Lg3' & Nd3).
  exists rec, (Replay (r_tasks r) t0 rec). split; [rewrite !logged_app, Lg1, Lg, Lg3; reflexivity|]. split; auto. split; auto.
  split; [unfold load; rewrite Rx, Ms, Oc; reflexivity|].
  exists r3, m2', (tr1' ++ tr2' ++ tr3'), rec2.
  split; [unfold run_one_iteration; cbn [sim_of a_tasks]; fold sa; rewrite P1, P2, P3; reflexivity|].
  split; [exact (i_state _ _ _ _ I3)|]. split; auto. split; [rewrite !pcalls_app, Pc1, Pc2, Pc3; auto|].
  split; [rewrite !logged_app, Lg1', Lg2', Lg3'; reflexivity|]. split; auto.
  apply nod_app. split; auto. apply nod_app. auto.
Qed.

Definition plog (l : list (N * list message)) : list (N * list message) := map (fun x => (fst x, map p (snd x))) l.
Definition results_ok (l : list (list ev * result (Er := Er))) : Prop := Forall (fun x => snd x = ROk /\ nod (fst x)) l.

Lemma log_of_cons tr (x : result) (l : list (list ev * result (Er := Er))) : log_of ((tr, x) :: l) = logged tr ++ log_of l.
Proof. reflexivity. Qed.

Lemma driven_sim : forall between m m2 env r env' m' l, settled m -> mrel m m2 ->
  (m_next m + N.of_nat (length between) < 2 ^ 32)%N ->
  Forall (fun b => forall env, same_states kind state None env (b env)) between ->
  driven a o between m env = (env', m', l) -> results_ok l -> agree_states env r ->
  exists r' m2' l2, resim_loop a kind f_task f_process g_sink policy src (map snd (log_of l)) m2 r = (r', m2', l2) /\
    results_ok l2 /\ length l2 = length l /\ agree_states env' r' /\ plog (log_of l2) = plog (log_of l) /\
    map (fun x => pcalls (fst x)) l2 = map (fun x => pcalls (fst x)) l.
Proof.
  induction between as [|b bs IH]; intros m m2 env r env' m' l Se Mr B Fb; cbn [driven].
  - intros H R A. injection H as <- <- <-. exists r, m2, []. cbn. repeat (split; [now auto|]). now auto.
  - destruct (run_one_iteration a o m (b env)) as [[[env1 m1] tr1] r1] eqn:It.
    destruct (driven a o bs m1 env1) as [[env2 m3] l2] eqn:Dr. intros H R A. injection H as <- <- <-.
    inversion R as [|? ? [R1 N1] R2]; subst. cbn [fst snd] in R1, N1. subst r1. inversion Fb as [|? ? Fb1 Fb2]; subst.
    cbn [length] in B.
    assert (A1 : agree_states (b env) r).
    { intros t Kt. rewrite <- A by auto. apply Fb1; auto. discriminate. }
    destruct (iteration_sim m m2 (b env) r env1 m1 tr1 Se Mr ltac:(lia) It N1 A1) as
      (rec & ra & Lg & Se1 & Nx & Ld & rb & m2' & tr2 & rec2 & It2 & A2 & Mr2 & Pc & Lg2 & Pr & N2).
    destruct (IH m1 m2' env1 rb env2 m3 l2 Se1 Mr2 ltac:(lia) Fb2 Dr R2 A2) as (r' & m2'' & l2' & Rl & Ro & Le & A3 & Pl & Pcs).
    exists r', m2'', ((tr2, ROk) :: l2'). rewrite !log_of_cons, Lg, Lg2. cbn [map app snd resim_loop]. rewrite Ld, It2, Rl.
    split; auto. split; [constructor; cbn; auto|]. split; [cbn; auto|]. split; auto.
    split; [unfold plog in *; cbn [map fst snd]; rewrite Pl, Pr; auto|]. cbn [fst]. rewrite Pc, Pcs. auto.
Qed.

Lemma settled_new n zero : 0 < n -> sinks_empty zero -> length zero = length (a_plan a) -> settled (mgr_new n zero).
Proof.
  intros Hn Sz Lz. split; [apply minv_new; auto|]. rewrite contents_new. apply Forall_forall. intros l Hl.
  apply repeat_spec in Hl. subst l. auto.
Qed.

(** A whole session; the clock of the replay shows [c] when the tasks are started. *)
Lemma session_sim n zero between env c env' m' l : 0 < n -> sinks_empty zero -> length zero = length (a_plan a) ->
  (N.of_nat (length between) < 2 ^ 32)%N -> Forall (fun b => forall env, same_states kind state None env (b env)) between ->
  ck env c -> session a o between (mgr_new n zero) env = (env', m', l) -> results_ok l ->
  exists r' m2' l2, resim a kind f_task f_process g_sink policy src (map snd (log_of l)) (mgr_new n zero) (Replay (state env) c []) = (r', m2', l2) /\
    results_ok l2 /\ length l2 = length l /\ agree_states env' r' /\ plog (log_of l2) = plog (log_of l) /\
    map (fun x => pcalls (fst x)) l2 = map (fun x => pcalls (fst x)) l.
Proof.
  intros Hn Sz Lz B Fb K H R. unfold session in H. unfold all_tasks in H.
  destruct (lifecycle a o Start (seq 0 (a_tasks a)) env) as [[env1 tr1] f1] eqn:L1.
  set (X := match f1 with Next => _ | _ => _ end) in H.
  assert (HX : exists e t u, X = (e, t, u) /\ nod tr1).
  { destruct X as [[e t] u] eqn:EX. exists e, t, u. split; auto.
    destruct (driven a o between (mgr_new n zero) e) as [[e2 m2] l2]. injection H as <- <- <-.
    inversion R as [|? ? [_ R1] _]; subst. cbn [fst] in R1. subst X.
    destruct f1; [destruct (o_monitor o Start env1)|..]; injection EX as <- <- <-; auto. apply nod_app in R1. tauto. }
  destruct HX as (_ & _ & _ & _ & N1). subst X.
  destruct (life_sim [] c _ _ _ _ _ _ _ L1 N1 (inv_self [] c env K)) as (-> & r1 & tr1' & P1 & I1 & Pc1 & Lg1 & Lg1' & Nd1).
  pose proof (det_monitor _ _ _ _ _ _ DET Start env1) as Dm. pose proof (ck_monitor Start env1) as Km.
  destruct (o_monitor o Start env1) as [env2 [e|]]; cbn in Dm, Km.
  - exfalso. destruct (driven a o between (mgr_new n zero) env2) as [[e2 m2] l2]. injection H as <- <- <-.
    inversion R as [|? ? [R0 _] _]; subst. discriminate.
  - destruct (driven a o between (mgr_new n zero) env2) as [[e3 m3] l3] eqn:Dr. injection H as <- <- <-.
    inversion R as [|? ? _ R2]; subst.
    assert (I2 : inv [] c env2 r1) by (eapply inv_frame; eauto).
    destruct (driven_sim between (mgr_new n zero) (mgr_new n zero) env2 r1 e3 m3 l3 (settled_new n zero Hn Sz Lz) eq_refl ltac:(cbn; lia) Fb Dr R2 (i_state _ _ _ _ I2))
      as (r' & m2' & l2 & Rl & Ro & Le & A3 & Pl & Pcs).
    exists r', m2', ((tr1' ++ [EMonitor Start None], ROk) :: l2). rewrite !log_of_cons, !logged_app, Lg1, Lg1'.
    cbn [logged flat_map app]. split.
    { unfold resim, all_tasks. cbn [sim_of a_tasks]. fold sa. rewrite P1. cbn [o_monitor replay_oracles].
      rewrite Rl. reflexivity. }
    split.
    { constructor; auto. cbn [fst snd]. split; auto. apply nod_app. split; auto. intros ? ? ? ? [Y|[]]; discriminate. }
    split; [cbn; auto|]. split; auto. split; auto.
    cbn [map fst]. rewrite Pcs, !pcalls_app, Pc1. reflexivity.
Qed.
End Sim.
