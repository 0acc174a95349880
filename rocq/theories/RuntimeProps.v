(** Theorems about generated applications: order of calls, error decisions, copper
    lists, attribution, simulation, end to end times. *)
From Coq Require Import String List Arith NArith Bool Lia Sorted Permutation.
From Verif Require Import Base CuListModel CuListSpec CuListProofs PlanModel PlanSpec PlanProofs PlanProofs2 PlanProofs3 PlanProps RuntimeModel RuntimeSpec RuntimeProofs RuntimeProofs2 RuntimeProofs3 RuntimeProofs4 RuntimeProofs5 RuntimeProofs6.
Import ListNotations.
Local Open Scope list_scope.
Local Open Scope nat_scope.

(** ** Concrete applications used in the examples *)
(** Task 0 -> task 1 -> task 2, declared in this order. *)
Definition line : list step :=
  [Step 0 Source [] (Some (0, "A")); Step 1 Regular [(0, "A")] (Some (1, "B"));
   Step 2 Sink [(1, "B")] (Some (2, "()"))]%string.
Definition line_app (sim : bool) : application := App 3 line sim true Checked.
(** The environment is a step counter, also serving as the clock and as payload. The
    calls that fail, the decisions and the callback are parameters. *)
Definition world (fails : phase -> nat -> nat -> bool) (writes : nat -> nat -> bool)
    (dec : phase -> nat -> nat -> decision) (ovr : phase -> nat -> nat -> override nat)
    : oracles nat unit nat nat :=
  {| o_task := fun ph t env => (S env, if fails ph t env then Some env else None);
     o_process := fun t ins out env =>
       (S env, if writes t env then Msg (Some env) tt (m_start out) (m_end out) else out,
        if fails Process t env then Some env else None);
     o_sink := fun t ins env => (S env, if fails Process t env then Some env else None);
     o_sim := fun ph t env => (S env, ovr ph t env);
     o_sim_process := fun t ins out env => (S env, out, ovr Process t env);
     o_decide := fun ph t e env => (S env, dec ph t env);
     o_report := fun md env => (S env, None);
     o_monitor := fun ph env => (S env, None);
     o_now := fun env => (S env, N.of_nat env);
     o_log := fun env c => true |}.
Definition zero3 : list (msg nat unit) := repeat (Msg None tt None None) 3.
Definition never (ph : phase) (t env : nat) : bool := false.
Definition always (t env : nat) : bool := true.

(** The plans of the theorems are those the planner makes. *)
Lemma planner_good g plan : wf_graph g -> compute_plan g = Ret (Some plan) -> good_plan plan.
Proof.
  intros W E. split; [apply (C11_plan_order g plan W E)|]. intros k s K.
  pose proof (compute_plan_spec g W) as C. rewrite E in C. destruct C as [C _]. split.
  - destruct (plan_ok_nth g plan k s C K) as [_ Sk]. destruct (so_out _ _ _ Sk) as (ty & T & _).
    exists ty. rewrite T. rewrite firstn_length, Nat.min_l; auto.
    apply Nat.lt_le_incl, nth_error_Some. congruence.
  - destruct (C14_parallel_inputs g plan W E k s K) as (ins & P & F).
    apply Forall_forall. intros i Hi. apply Permutation_in with (l' := ins) in Hi; [|apply Permutation_sym; auto].
    clear -F Hi. induction F as [|x e l l' [H _] F IH]; [destruct Hi|]. destruct Hi as [<-|Hi]; auto.
Qed.
Lemma line_planned : compute_plan (Graph 3 [Edge 0 1 "A"; Edge 1 2 "B"]%string) = Ret (Some line).
Proof. vm_compute. reflexivity. Qed.
Lemma line_good : good_plan line.
Proof. eapply planner_good; [|exact line_planned]. repeat constructor. Qed.

Lemma nth_error_seq i n : i < n -> nth_error (seq 0 n) i = Some i.
Proof. intros H. rewrite (nth_error_nth' _ 0) by (rewrite seq_length; auto). rewrite seq_nth; auto. Qed.
Lemma reachable_new {V M Er E} (a : application) (o : oracles V M Er E) cap zero (env : E) :
  0 < cap -> reachable a o cap zero (mgr_new cap zero).
Proof. intros H. split; auto. exists 0, env, env, []. repeat split; auto. Qed.

(** ** C16 *)
Section Theorems.
Context {V M Er E : Type}.
Variable a : application.
Variable o : oracles V M Er E.
Implicit Types (tr : list (event V M Er)) (m : mgr (list (msg V M))).
Notation sim := (a_sim a).
Notation order := (map s_node (a_plan a)).

(** An iteration attempts an initial part of the schedule, in its order. It attempts
    all of it unless the monitor gives up, refuses the copper list, or the runtime
    panics. *)
Theorem C16_iteration_partial : forall m env env' m' tr r, run_one_iteration a o m env = (env', m', tr, r) ->
  prefix (attempts sim tr) (schedule (a_tasks a) order) /\
  (r <> RPanic -> Forall (fun e => ~ gives_up e) tr -> Forall (fun e => ~ refuses e) tr ->
   attempts sim tr = schedule (a_tasks a) order /\ r = ROk).
Proof.
  intros m env env' m' tr r H. split.
  - eapply iteration_prefix; eauto.
  - eapply iteration_full; eauto.
Qed.

(** A run is: starting tasks in order, iterations, stopping tasks in order. Iterations
    take place only when starting met no shutdown, with all tasks started unless the
    monitor gave up; an iteration with a shutdown is the last one; when the loop ended
    with an error tasks are stopped, all of them unless the monitor gives up. *)
Theorem C16_run_partial : forall fuel m env env' m' tr r, run a o fuel m env = (env', m', tr, r) ->
  exists t1 its t3, tr = t1 ++ concat its ++ t3 /\
    prefix (attempts sim t1) (map (pair Start) (seq 0 (a_tasks a))) /\
    Forall (fun it => prefix (attempts sim it) (schedule (a_tasks a) order)) its /\
    prefix (attempts sim t3) (map (pair Stop) (seq 0 (a_tasks a))) /\
    (its <> [] -> Forall (fun e => ~ shuts e) t1 /\
       (Forall (fun e => ~ gives_up e) t1 -> attempts sim t1 = map (pair Start) (seq 0 (a_tasks a)))) /\
    Forall (Forall (fun e => ~ shuts e)) (removelast its) /\
    (Exists (Exists shuts) its -> Forall (fun e => ~ gives_up e) t3 ->
       attempts sim t3 = map (pair Stop) (seq 0 (a_tasks a))) /\
    (forall e, its <> [] -> r = Some (RErr e) -> Forall (fun e => ~ gives_up e) t3 ->
       attempts sim t3 = map (pair Stop) (seq 0 (a_tasks a))) /\
    (r = None -> length its = fuel).
Proof.
  intros fuel m env env' m' tr r. unfold run.
  destruct (all_tasks a o Start env) as [[env1 tr1] r1] eqn:A1.
  destruct (all_tasks_spec _ _ _ _ _ _ _ A1) as (P1 & F1 & S1 & NP1).
  assert (Early : r1 <> ROk -> (env1, m, tr1, Some r1) = (env', m', tr, r) -> exists t1 its t3, tr = t1 ++ concat its ++ t3 /\
    prefix (attempts sim t1) (map (pair Start) (seq 0 (a_tasks a))) /\
    Forall (fun it => prefix (attempts sim it) (schedule (a_tasks a) order)) its /\
    prefix (attempts sim t3) (map (pair Stop) (seq 0 (a_tasks a))) /\
    (its <> [] -> Forall (fun e => ~ shuts e) t1 /\
       (Forall (fun e => ~ gives_up e) t1 -> attempts sim t1 = map (pair Start) (seq 0 (a_tasks a)))) /\
    Forall (Forall (fun e => ~ shuts e)) (removelast its) /\
    (Exists (Exists shuts) its -> Forall (fun e => ~ gives_up e) t3 ->
       attempts sim t3 = map (pair Stop) (seq 0 (a_tasks a))) /\
    (forall e, its <> [] -> r = Some (RErr e) -> Forall (fun e => ~ gives_up e) t3 ->
       attempts sim t3 = map (pair Stop) (seq 0 (a_tasks a))) /\
    (r = None -> length its = fuel)).
  { intros NO H; injection H as <- <- <- <-. exists tr1, [], []. rewrite app_nil_r.
    split; auto. split; auto. split; [constructor|]. split; [eexists; reflexivity|].
    split; [congruence|]. split; [constructor|]. split; [intros X; inversion X|]. split; [congruence|discriminate]. }
  destruct r1; [|apply Early; discriminate..]. clear Early.
  destruct (run_loop a o fuel m env1) as [[[env2 m2] tr2] r2] eqn:L.
  destruct (run_loop_spec _ _ _ _ _ _ _ _ _ L) as (its & -> & Le & F & NE & RL & LN & SH & NOk).
  destruct r2 as [[|e|]|].
  - congruence.
  - destruct (all_tasks a o Stop env2) as [[env3 tr3] r3] eqn:A3.
    destruct (all_tasks_spec _ _ _ _ _ _ _ A3) as (P3 & F3 & S3 & NP3).
    intros H; injection H as <- <- <- <-. exists tr1, its, tr3. repeat (split; auto). discriminate.
  - intros H; injection H as <- <- <- <-. exists tr1, its, []. rewrite app_nil_r.
    split; auto. split; auto. split; auto. split; [eexists; reflexivity|]. split; auto. split; auto.
    split; [intros X; destruct (SH X); discriminate|]. split; [discriminate|discriminate].
  - intros H; injection H as <- <- <- <-. exists tr1, its, []. rewrite app_nil_r.
    split; auto. split; auto. split; auto. split; [eexists; reflexivity|]. split; auto. split; auto.
    split; [intros X; destruct (SH X); discriminate|]. split; [discriminate|auto].
Qed.

(** ** C17 *)
(** Shutdown: nothing happens after it, and the error is returned. *)
Theorem C17_shutdown : forall m env env' m' tr r pre ph t e post,
  run_one_iteration a o m env = (env', m', tr, r) -> tr = pre ++ EDecision ph t e Shutdown :: post ->
  post = [] /\ r = RErr e.
Proof.
  intros m env env' m' tr r pre ph t e post H Et.
  destruct (iteration_stop a o _ _ _ _ _ _ pre (EDecision ph t e Shutdown) post H I Et) as (ph' & t' & e' & d & X & D).
  injection X as <- <- <- <-. exact D.
Qed.

(** Abort while processing: nothing but the report and the log of the iteration's
    copper list follows, and the iteration succeeds if the monitor takes the report. *)
Theorem C17_abort : forall cap zero m env env' m' tr r pre t e post,
  writes_succeed o -> Permutation order (seq 0 (length (a_plan a))) -> length zero = length (a_plan a) ->
  reachable a o cap zero m -> run_one_iteration a o m env = (env', m', tr, r) ->
  tr = pre ++ EDecision Process t e Abort :: post ->
  exists md rr, match rr with
    | Some e' => post = [EReport md rr] /\ r = RErr e'
    | None => r = ROk /\ exists msgs, select msgs order = Some md /\
                post = EReport md None :: (if a_logging a then [ELog (m_next m) msgs] else [])
    end.
Proof.
  intros n zero m env env' m' tr r pre t e post LO Pe Lz Re H Et.
  assert (Len : Forall (fun l => length l = length (a_plan a)) (contents m)).
  { destruct Re as (H0 & k & e0 & e1 & l & Bk & It & F).
    eapply iterations_kept; [apply kept_length|exact It|]. rewrite contents_new. apply Forall_forall.
    intros x Hx. apply repeat_spec in Hx. congruence. }
  destruct (reachable_minv _ _ _ _ _ LO Re) as (es & I & B & _).
  apply iteration_spec in H.
  destruct H as [r Em R1|Em R1 Fl|tr1 tr2 tr3 m1 i c msgs pf r R1 C N PA Etr BC].
  - exfalso. apply ran_ends in R1. destruct R1 as (tr' & t' & e' & -> & Ca & _).
    destruct (first_stop tr' [] pre post _ (EDecision Process t e Abort) Ca (Forall_nil _) Logic.I Et) as (_ & X & _). discriminate.
  - exfalso. apply ran_ends in R1. destruct R1 as [_ Ca]. eapply (no_stop tr pre post (EDecision Process t e Abort)); eauto. exact Logic.I.
  - apply ran_ends in R1. destruct R1 as [_ C1]. destruct PA as (e1 & e2 & PA). pose proof PA as PA0. apply process_all_spec in PA. destruct PA as [PA _].
    pose proof (body_spec a o es m m1 i c msgs m' tr3 pf r LO I B C N BC) as S.
    rewrite Etr in Et. clear Etr.
    assert (Calm2 : calm tr2 -> False).
    { intros C2. inversion BC; subst.
      - rewrite app_nil_r in Et. eapply (no_stop _ pre post (EDecision Process t e Abort)); [|exact Logic.I|exact Et]. apply calm_app; auto.
      - rewrite app_nil_r in Et. eapply (no_stop _ pre post (EDecision Process t e Abort)); [|exact Logic.I|exact Et]. apply calm_app; auto.
      - eapply (no_stop _ pre post (EDecision Process t e Abort)); [|exact Logic.I|exact Et]. repeat apply calm_app; auto.
        eapply quiet_calm, reports_quiet; eauto.
      - eapply (no_stop _ pre post (EDecision Process t e Abort)); [|exact Logic.I|exact Et]. repeat apply calm_app; auto.
        eapply quiet_calm, reports_quiet; eauto.
      - eapply (no_stop _ pre post (EDecision Process t e Abort)); [|exact Logic.I|exact Et]. repeat apply calm_app; auto.
        eapply quiet_calm, reports_quiet; eauto.
      - match goal with X : ran _ _ _ _ _ |- _ => apply ran_ends in X; rename X into EN end.
        assert (C3 : calm tr0) by (eapply quiet_calm, reports_quiet; eauto).
        destruct f as [|r0|]; cbn in EN.
        + destruct EN as [_ C4]. eapply (no_stop _ pre post (EDecision Process t e Abort)); [|exact Logic.I|exact Et]. repeat apply calm_app; auto.
        + destruct EN as (tr'' & t' & e' & -> & C4 & _). rewrite !app_assoc in Et.
          assert (C5 : calm (((tr1 ++ tr2) ++ tr0) ++ tr'')) by (repeat apply calm_app; auto).
          destruct (first_stop _ [] pre post _ (EDecision Process t e Abort) C5 (Forall_nil _) Logic.I Et) as (_ & X & _). discriminate.
        + exact EN. }
    destruct pf as [| |e0|]; [destruct Calm2; apply PA| | |destruct Calm2; apply PA].
    2: { exfalso. destruct PA as (tr' & t' & -> & C2 & _). assert (tr3 = []) by (inversion BC; subst; auto; destruct H0; discriminate).
         subst tr3. rewrite app_nil_r, app_assoc in Et.
         destruct (first_stop (tr1 ++ tr') [] pre post _ (EDecision Process t e Abort) (calm_app _ _ C1 C2) (Forall_nil _) Logic.I Et) as (_ & X & _). discriminate. }
    destruct PA as (tr' & t' & e' & -> & C2 & _). rewrite <- app_assoc, app_assoc in Et. cbn [app] in Et.
    assert (C3 : calm tr3).
    { inversion BC; subst; try constructor; eapply quiet_calm, reports_quiet; eauto. }
    destruct (first_stop (tr1 ++ tr') tr3 pre post _ (EDecision Process t e Abort) (calm_app _ _ C1 C2) C3 Logic.I Et) as (_ & X & <-).
    injection X as -> ->. destruct r as [|er|].
    + destruct S as (md & tr4 & Md & Hf & -> & _). exists md, None. split; auto. exists msgs. split; auto.
      destruct Hf as [[_ ->]|[X _]]; [|discriminate]. rewrite app_nil_r. auto.
    + destruct S as [([[X _]|(md & ->)] & _)|(md & tr4 & _ & _ & _ & _ & _ & _ & X)]; try discriminate.
      exists md, (Some er). auto.
    + exfalso. subst tr3. destruct (create_contents a _ _ _ _ C N) as [_ X1].
      assert (Lc : length msgs = length (a_plan a)).
      { rewrite (kept_length a o _ _ _ _ _ _ _ PA0 eq_refl). rewrite Forall_forall in Len. apply Len. eapply nth_error_In; eauto. }
      destruct (select_some msgs order) as (md & Smd).
      { intros j Hj. rewrite Lc. eapply Permutation_in in Hj; [|exact Pe]. apply in_seq in Hj. lia. }
      inversion BC; subst; [intuition discriminate|].
      match goal with X : reports _ _ _ _ _ _ _ _ |- _ => destruct X as (_ & [[_ CM]|(md' & _ & _ & CM & _)]) end; [|discriminate].
      unfold collect_metadata, call_order in CM. congruence.
Qed.

(** Ignore: the message of that task in the logged copper list is empty. (By
    C16_iteration_partial the schedule is not cut short by it.) *)
Theorem C17_ignore : forall cap zero m env env' m' tr r k s e id msgs,
  writes_succeed o -> reachable a o cap zero m -> good_plan (a_plan a) ->
  run_one_iteration a o m env = (env', m', tr, r) ->
  nth_error (a_plan a) k = Some s -> In (EDecision Process (s_node s) e Ignore) tr ->
  In (ELog id msgs) tr -> exists x, nth_error msgs k = Some x /\ m_payload x = None.
Proof.
  intros n zero m env env' m' tr r k s e id msgs0 LO Re GP H Hk HI HL.
  destruct (reachable_minv _ _ _ _ _ LO Re) as (es & I & B & _).
  apply iteration_spec in H.
  destruct H as [r Em R1|Em R1 Fl|tr1 tr2 tr3 m1 i c msgs pf r R1 C N PA -> BC].
  - exfalso. apply ran_task_only in R1. unfold task_only in R1. rewrite Forall_forall in R1. apply (R1 _ HL).
  - exfalso. apply ran_task_only in R1. unfold task_only in R1. rewrite Forall_forall in R1. apply (R1 _ HL).
  - pose proof (body_spec a o es m m1 i c msgs m' tr3 pf r LO I B C N BC) as S.
    destruct PA as (e1 & e2 & PA). pose proof (process_all_task_only a o _ _ _ _ _ _ _ PA) as T2.
    assert (Hl : In (ELog id msgs0) tr3).
    { apply ran_task_only in R1. unfold task_only in *. rewrite Forall_forall in R1, T2.
      rewrite !in_app_iff in HL. destruct HL as [HL|[HL|HL]]; auto; [destruct (R1 _ HL)|destruct (T2 _ HL)]. }
    assert (Hd : forall tr4 f, ran a o Postprocess tr4 f -> In (EDecision Process (s_node s) e Ignore) tr4 -> False).
    { intros tr4 f (x1 & x2 & L) Hx. pose proof (lifecycle_phase a o _ _ _ _ _ _ L) as F. rewrite Forall_forall in F.
      apply F in Hx. cbn in Hx. discriminate. }
    assert (Hd' : forall tr4 f, ran a o Preprocess tr4 f -> In (EDecision Process (s_node s) e Ignore) tr4 -> False).
    { intros tr4 f (x1 & x2 & L) Hx. pose proof (lifecycle_phase a o _ _ _ _ _ _ L) as F. rewrite Forall_forall in F.
      apply F in Hx. cbn in Hx. discriminate. }
    assert (Hi : In (EDecision Process (s_node s) e Ignore) tr2 /\ msgs0 = msgs).
    { rewrite !in_app_iff in HI. destruct r as [|er|].
      - destruct S as (md & tr4 & Md & Hf & -> & _). split.
        + destruct HI as [HI|[HI|HI]]; auto; [destruct (Hd' _ _ R1 HI)|]. destruct HI as [HI|HI]; [discriminate|].
          apply in_app_iff in HI. destruct HI as [HI|HI].
          * destruct (a_logging a); [destruct HI as [HI|[]]; discriminate|destruct HI].
          * destruct Hf as [[_ ->]|[_ [f Rf]]]; [destruct HI|destruct (Hd _ _ Rf HI)].
        + destruct Hl as [Hl|Hl]; [discriminate|]. apply in_app_iff in Hl. destruct Hl as [Hl|Hl].
          * destruct (a_logging a); [destruct Hl as [Hl|[]]; congruence|destruct Hl].
          * destruct Hf as [[_ ->]|[_ [f Rf]]]; [destruct Hl|]. apply ran_task_only in Rf. unfold task_only in Rf.
            rewrite Forall_forall in Rf. destruct (Rf _ Hl).
      - destruct S as [(Htr & _)|(md & tr4 & Md & Rf & -> & _)].
        + exfalso. destruct Htr as [[_ ->]|(md & ->)]; [destruct Hl|]. destruct Hl as [Hl|[]]. discriminate.
        + split.
          * destruct HI as [HI|[HI|HI]]; auto; [destruct (Hd' _ _ R1 HI)|]. destruct HI as [HI|HI]; [discriminate|].
            apply in_app_iff in HI. destruct HI as [HI|HI].
            -- destruct (a_logging a); [destruct HI as [HI|[]]; discriminate|destruct HI].
            -- destruct (Hd _ _ Rf HI).
          * destruct Hl as [Hl|Hl]; [discriminate|]. apply in_app_iff in Hl. destruct Hl as [Hl|Hl].
            -- destruct (a_logging a); [destruct Hl as [Hl|[]]; congruence|destruct Hl].
            -- apply ran_task_only in Rf. unfold task_only in Rf. rewrite Forall_forall in Rf. destruct (Rf _ Hl).
      - subst tr3. destruct Hl. }
    destruct Hi as [Hi ->].
    assert (ND : NoDup (flat_map slot_of (a_plan a))) by (rewrite good_slots by auto; apply seq_NoDup).
    destruct (process_all_ignored a o _ ND _ _ _ _ _ _ _ _ PA Hi) as (s' & k' & ty & x & Hs' & Ns & So & Nx & Px).
    assert (s' = s) by (eapply good_plan_node; eauto). subst s'.
    destruct GP as [_ GP]. destruct (GP k s Hk) as [(ty' & So') _]. assert (k' = k) by congruence. subst k'. eauto.
Qed.

(** An iteration in which every failure is ignored (and whose list the monitor takes)
    goes through the whole schedule and succeeds. *)
Theorem C17_ignore_continues : forall m env env' m' tr r,
  run_one_iteration a o m env = (env', m', tr, r) -> r <> RPanic ->
  (forall ph t e d, In (EDecision ph t e d) tr -> d = Ignore) -> (forall md e, ~ In (EReport md (Some e)) tr) ->
  attempts sim tr = schedule (a_tasks a) order /\ r = ROk.
Proof.
  intros m env env' m' tr r H NP Ig NR. apply (proj2 (C16_iteration_partial _ _ _ _ _ _ H)); auto.
  - apply Forall_forall. intros [ | | |ph t e d| | |] Hx; cbn; auto. apply Ig in Hx. subst d. auto.
  - apply Forall_forall. intros [ | | | |md [e|]| |] Hx; cbn; auto. apply NR in Hx. auto.
Qed.

(** ** C18 *)
(** From creation on, whatever the results of iterations: an iteration whose copper
    list the monitor accepted logs exactly one list, any other iteration logs none;
    the ids of logged lists strictly increase. *)
Theorem C18_one_list_partial : forall n cap zero env env' m' l,
  writes_succeed o -> a_logging a = true -> 0 < cap -> (N.of_nat n < 2 ^ 32)%N ->
  iterations a o n (mgr_new cap zero) env = (env', m', l) ->
  Forall (fun x => length (logged (fst x)) = if accepted (fst x) then 1 else 0) l /\
  StronglySorted N.lt (map fst (flat_map (fun x => logged (fst x)) l)).
Proof.
  intros n cap zero env env' m' l LO LG C B H.
  destruct (iterations_ids a o LO LG n [] _ env env' m' l (minv_new cap zero C)) as (H1 & H2 & _); auto.
Qed.

(** When processing overwrites the output message and no task is aborted, nothing
    observable depends on what earlier iterations left behind. *)
Theorem C18_content_partial : forall cap1 cap2 zero m1 m2 env env1 env2 m1' m2' tr1 tr2 r1 r2,
  writes_succeed o -> a_sim a = false -> good_plan (a_plan a) -> overwrites o ->
  length zero = length (a_plan a) -> Forall (fun x => m_payload x = None) zero ->
  reachable a o cap1 zero m1 -> reachable a o cap2 zero m2 ->
  0 < available_copper_lists m1 -> 0 < available_copper_lists m2 ->
  run_one_iteration a o m1 env = (env1, m1', tr1, r1) -> run_one_iteration a o m2 env = (env2, m2', tr2, r2) ->
  (forall t e, ~ In (EDecision Process t e Abort) tr1) ->
  env1 = env2 /\ r1 = r2 /\ map without_id tr1 = map without_id tr2.
Proof. exact (iteration_fresh a o). Qed.

(** ** C19 *)
(** An iteration takes a slot away exactly when a process step was shut down or the
    monitor refused the list; it then returns an error. *)
Theorem C19_iteration_partial : forall cap zero m env env' m' tr r,
  writes_succeed o -> reachable a o cap zero m -> run_one_iteration a o m env = (env', m', tr, r) -> r <> RPanic ->
  available_copper_lists m' = available_copper_lists m - (if abandons tr then 1 else 0) /\
  (abandons tr = true -> 0 < available_copper_lists m /\ exists e, r = RErr e).
Proof.
  intros n zero m env env' m' tr r LO Re H NP.
  destruct (reachable_minv _ _ _ _ _ LO Re) as (es & I & B & _).
  pose proof (iteration_effect a o es _ _ _ _ _ _ LO I B H) as Ef.
  destruct (effect_available _ _ _ _ _ _ Ef I NP) as (H1 & H2 & H3). auto.
Qed.

(** While the application is running all its slots are free between iterations. *)
Theorem C19_running_partial : forall fuel cap zero env env' m' tr,
  writes_succeed o -> 0 < cap -> (N.of_nat fuel < 2 ^ 32)%N ->
  run a o fuel (mgr_new cap zero) env = (env', m', tr, None) -> available_copper_lists m' = cap.
Proof.
  intros fuel cap zero env env' m' tr LO C B. unfold run.
  destruct (all_tasks a o Start env) as [[env1 tr1] r1]. destruct r1; try discriminate.
  destruct (run_loop a o fuel (mgr_new cap zero) env1) as [[[env2 m2] tr2] r2] eqn:L.
  destruct (run_loop_available a o LO fuel [] _ _ _ _ _ _ (minv_new cap zero C) B L) as [H1 _].
  destruct r2 as [[|e|]|]; try discriminate.
  - destruct (all_tasks a o Stop env2) as [[env3 tr3] r3]. discriminate.
  - intros H; injection H as <- <- <-. rewrite (H1 eq_refl). unfold available_copper_lists, CuListModel.cap. cbn. rewrite repeat_length. lia.
Qed.

(** Without a free slot an iteration whose tasks cause no trouble panics. *)
Theorem C19_exhausted_partial : forall cap zero m env env' m' tr r,
  writes_succeed o -> reachable a o cap zero m -> available_copper_lists m = 0 ->
  run_one_iteration a o m env = (env', m', tr, r) -> Forall (fun e => ~ gives_up e) tr -> r = RPanic.
Proof.
  intros n zero m env env' m' tr r LO Re A H F.
  destruct (reachable_minv _ _ _ _ _ LO Re) as (es & I & B & _).
  apply iteration_spec in H. destruct H as [r Em R1|Em R1 Fl|tr1 tr2 tr3 m1 i c msgs pf r R1 C N PA -> BC].
  - exfalso. apply ran_ends in R1. destruct R1 as (tr' & t' & e' & -> & _). eapply not_calm_end; [|exact F]. destruct r; exact Logic.I.
  - auto.
  - exfalso. pose proof (not_full _ _ _ _ _ I B C). destruct (minv_len _ _ I). unfold available_copper_lists in A. lia.
Qed.

(** ** C21 *)
(** In simulation mode the callback is asked right before each call of a task's code
    and the code is called exactly when it answers ExecuteByRuntime; an Errored answer
    goes to the monitor like the failure of a task. Without simulation mode there is
    no callback. *)
Theorem C21_simulation : forall fuel m env env' m' tr r pre x post,
  run a o fuel m env = (env', m', tr, r) -> tr = pre ++ x :: post ->
  justified sim (last_of pre) x /\ demands x (hd_error post).
Proof.
  intros fuel m env env' m' tr r pre x post H Et. apply run_linked in H.
  destruct (linked_split a None tr pre x post H Et) as [J D]. split; auto. destruct (last_of pre); auto.
Qed.
Theorem C21_iteration : forall m env env' m' tr r pre x post,
  run_one_iteration a o m env = (env', m', tr, r) -> tr = pre ++ x :: post ->
  justified sim (last_of pre) x /\ demands x (hd_error post).
Proof.
  intros m env env' m' tr r pre x post H Et. apply iteration_linked in H.
  destruct (linked_split a None tr pre x post H Et) as [J D]. split; auto. destruct (last_of pre); auto.
Qed.

(** ** C20 *)
(** The metadata an iteration reports is selected from the messages it logs. *)
Theorem C20_report_partial : forall cap zero m env env' m' tr r md rr id msgs,
  writes_succeed o -> reachable a o cap zero m -> run_one_iteration a o m env = (env', m', tr, r) ->
  In (EReport md rr) tr -> In (ELog id msgs) tr -> select msgs order = Some md.
Proof.
  intros n zero m env env' m' tr r md rr id msgs0 LO Re H HR HL.
  destruct (reachable_minv _ _ _ _ _ LO Re) as (es & I & B & _).
  assert (TO : forall (l : list (event V M Er)) x, task_only l -> In x l -> match x with ELog _ _ | EReport _ _ => False | _ => True end).
  { intros l x F Hx. unfold task_only in F. rewrite Forall_forall in F. specialize (F _ Hx). destruct x; auto. }
  apply iteration_spec in H.
  destruct H as [r Em R1|Em R1 Fl|tr1 tr2 tr3 m1 i c msgs pf r R1 C N PA -> BC].
  - exfalso. apply ran_task_only in R1. apply (TO _ _ R1 HL).
  - exfalso. apply ran_task_only in R1. apply (TO _ _ R1 HL).
  - pose proof (body_spec a o es m m1 i c msgs m' tr3 pf r LO I B C N BC) as S.
    destruct PA as (e1 & e2 & PA). pose proof (process_all_task_only a o _ _ _ _ _ _ _ PA) as T2.
    apply ran_task_only in R1. rewrite !in_app_iff in HR, HL.
    assert (HR' : In (EReport md rr) tr3) by (destruct HR as [X|[X|X]]; auto; [destruct (TO _ _ R1 X)|destruct (TO _ _ T2 X)]).
    assert (HL' : In (ELog id msgs0) tr3) by (destruct HL as [X|[X|X]]; auto; [destruct (TO _ _ R1 X)|destruct (TO _ _ T2 X)]).
    clear HR HL.
    assert (Go : forall md1 tr4, collect_metadata a msgs = Some md1 -> task_only tr4 ->
      tr3 = EReport md1 None :: (if a_logging a then [ELog (m_next m) msgs] else []) ++ tr4 -> select msgs0 order = Some md).
    { intros md1 tr4 Md T4 ->. destruct HR' as [X|X].
      - injection X as -> <-. destruct HL' as [X|X]; [discriminate|]. apply in_app_iff in X. destruct X as [X|X].
        + destruct (a_logging a); [|destruct X]. destruct X as [X|[]]. injection X as _ <-. exact Md.
        + destruct (TO _ _ T4 X).
      - apply in_app_iff in X. destruct X as [X|X]; [destruct (a_logging a); [destruct X as [X|[]]; discriminate|destruct X]|destruct (TO _ _ T4 X)]. }
    destruct r as [|er|].
    + destruct S as (md1 & tr4 & Md & Hf & -> & _). apply (Go md1 tr4); auto.
      destruct Hf as [[_ ->]|[_ [f Rf]]]; [constructor|]. eapply ran_task_only; eauto.
    + destruct S as [(Htr & _)|(md1 & tr4 & Md & Rf & -> & _)].
      * exfalso. destruct Htr as [[_ ->]|(md1 & ->)]; [destruct HL'|]. destruct HL' as [X|[]]. discriminate.
      * apply (Go md1 tr4); auto. eapply ran_task_only; eauto.
    + subst tr3. destruct HL'.
Qed.

(** The t-th metadata is the one of task t, whatever the messages, exactly when the
    call order, read as a permutation, is its own inverse. *)
Theorem C20_metadata_partial : Permutation order (seq 0 (length (a_plan a))) ->
  (forall msgs md : list nat, length msgs = length (a_plan a) -> collect_metadata a msgs = Some md ->
     forall t k, slot_of_task (a_plan a) t k -> nth_error md t = nth_error msgs k) <->
  (forall t k, nth_error order t = Some k -> nth_error order k = Some t).
Proof.
  intros Pe. set (n := length (a_plan a)) in *.
  assert (Lo : length order = n) by (rewrite map_length; auto).
  assert (ND : NoDup order) by (eapply Permutation_NoDup; [apply Permutation_sym, Pe|apply seq_NoDup]).
  assert (Bd : forall i, In i order -> i < n) by (intros i Hi; eapply Permutation_in in Hi; [|exact Pe]; apply in_seq in Hi; lia).
  assert (Sl : forall t k, slot_of_task (a_plan a) t k <-> nth_error order k = Some t).
  { intros t k. rewrite nth_error_map. unfold slot_of_task. split.
    - intros (s & -> & <-). auto.
    - destruct (nth_error (a_plan a) k) as [s|]; [|discriminate]. intros X; injection X as <-. eauto. }
  unfold collect_metadata, call_order. split.
  - intros H t k Ht.
    assert (Hn : forall i, In i order -> i < length (seq 0 n)) by (intros; rewrite seq_length; auto).
    destruct (select_some (seq 0 n) order Hn) as (md & Smd). destruct (select_nth _ _ _ Smd) as [_ Nm].
    assert (Bk : k < n) by (apply Bd; eapply nth_error_In; eauto).
    assert (Bt : t < n) by (rewrite <- Lo; apply nth_error_Some; congruence).
    assert (It : In t order) by (eapply Permutation_in; [apply Permutation_sym, Pe|apply in_seq; lia]).
    apply In_nth_error in It. destruct It as (j & Hj).
    pose proof (H _ md (seq_length _ _) Smd t j (proj2 (Sl _ _) Hj)) as X. rewrite (Nm _ _ Ht) in X.
    assert (Bj : j < n) by (rewrite <- Lo; apply nth_error_Some; congruence).
    rewrite (nth_error_seq k n Bk), (nth_error_seq j n Bj) in X.
    injection X as X. congruence.
  - intros H msgs md Lm Smd t k Sk. destruct (select_nth _ _ _ Smd) as [_ Nm]. apply Nm. apply Sl in Sk. auto.
Qed.
Theorem C20_getter_partial :
  (forall t k, slot_of_task (a_plan a) t k -> getter_field a t = Some k) <->
  (forall t k, nth_error order t = Some k -> nth_error order k = Some t).
Proof.
  assert (Sl : forall t k, slot_of_task (a_plan a) t k <-> nth_error order k = Some t).
  { intros t k. rewrite nth_error_map. unfold slot_of_task. split.
    - intros (s & -> & <-). auto.
    - destruct (nth_error (a_plan a) k) as [s|]; [|discriminate]. intros X; injection X as <-. eauto. }
  unfold getter_field, call_order. split; intros H t k Ht; apply H; apply Sl; auto.
Qed.

(** ** C56 *)
Theorem C56_no_panic_partial : forall time cap zero m env env' m' tr r first last,
  writes_succeed o -> monotone_clock o time -> keeps_start o -> good_plan (a_plan a) ->
  Permutation order (seq 0 (length (a_plan a))) -> length zero = length (a_plan a) ->
  hd_error order = Some first -> last_of order = Some last -> first <= last ->
  reachable a o cap zero m -> 0 < available_copper_lists m ->
  run_one_iteration a o m env = (env', m', tr, r) -> r <> RPanic.
Proof.
  intros time n zero m env env' m' tr r first lst LO MC KS GP Pe Lz Hf Hl Hle Re A H.
  destruct (reachable_minv a o _ _ _ LO Re) as (es & I & B & _).
  assert (Len : Forall (fun l => length l = length (a_plan a)) (contents m)).
  { destruct Re as (H0 & k & e0 & e1 & l & Bk & It & F).
    eapply iterations_kept; [apply kept_length|exact It|]. rewrite contents_new. apply Forall_forall.
    intros x Hx. apply repeat_spec in Hx. congruence. }
  destruct (create_some a _ _ I B A) as (p1 & i1 & c1 & C1 & N1).
  destruct (create_contents a _ _ _ _ C1 N1) as [_ X1].
  assert (Lc : length (cl_msgs c1) = length (a_plan a)).
  { rewrite Forall_forall in Len. apply Len. eapply nth_error_In; eauto. }
  unfold run_one_iteration in H.
  destruct (lifecycle a o Preprocess (seq 0 (a_tasks a)) env) as [[env3 tr3] f3] eqn:Lf. apply lifecycle_spec in Lf.
  destruct f3 as [|r3|]; [|injection H as <- <- <- <-; destruct r3; discriminate|destruct Lf].
  unfold copperlist_body in H. rewrite C1, N1 in H.
  destruct (process_all a o (a_plan a) (cl_msgs c1) env3) as [[[env4 tr4] ms4] f4] eqn:P1.
  destruct (process_all_times a o time MC KS (a_plan a) [] (proj2 GP) _ _ _ _ _ _ Lc ltac:(intros i j x y ? Hj; inversion Hj) P1)
    as (NP & Lm & Ti). cbn [app] in Ti.
  assert (Ord : forall i, In i order -> i < length ms4).
  { intros i Hi. rewrite Lm, Lc. eapply Permutation_in in Hi; [|exact Pe]. apply in_seq in Hi. lia. }
  assert (Rep : forall f6 env6 m6 tr6, report_and_finish a o (cl_id c1) (set_slot i1 (mkCl (cl_id c1) Processing ms4) p1) ms4 env4 = (env6, m6, tr6, f6) ->
    f6 <> Panicked).
  { intros f6 env6 m6 tr6. unfold report_and_finish, collect_metadata, call_order.
    destruct (select_some ms4 order Ord) as (md & ->). destruct (o_report o md env4) as [env7 [e|]].
    - intros X; injection X as <- <- <- <-. discriminate.
    - destruct (finish_fresh a o es m p1 i1 c1 ms4 env7 LO I B C1 N1) as (q1 & ->).
      intros X; injection X as <- <- <- <-. discriminate. }
  destruct f4 as [| |e|]; [| | |congruence].
  - destruct (select_some ms4 order Ord) as (md & Smd).
    assert (Hcm : collect_metadata a ms4 = Some md) by exact Smd. rewrite Hcm in H.
    destruct (select_nth _ _ _ Smd) as [Lmd Nmd].
    assert (He : exists d, e2e a md = Ret d).
    { assert (L0 : 0 < length order) by (destruct order; [discriminate|cbn; lia]).
      assert (O0 : nth_error order 0 = Some first) by (destruct order; [discriminate|exact Hf]).
      assert (O1 : nth_error order (length order - 1) = Some lst).
      { unfold last_of in Hl. destruct order as [|q l] eqn:Eo using rev_ind; [discriminate|].
        rewrite rev_app_distr in Hl. cbn in Hl. injection Hl as ->. rewrite app_length. cbn.
        rewrite nth_error_app2 by lia. replace (length l + 1 - 1 - length l) with 0 by lia. auto. }
      assert (Bf : first < length ms4) by (apply Ord; eapply nth_error_In; eauto).
      assert (Bl : lst < length ms4) by (apply Ord; eapply nth_error_In; eauto).
      destruct (nth_error ms4 first) as [x|] eqn:Nx; [|apply nth_error_None in Nx; lia].
      destruct (nth_error ms4 lst) as [y|] eqn:Ny; [|apply nth_error_None in Ny; lia].
      destruct (Ti eq_refl first lst x y Hle ltac:(lia) Nx Ny) as (s0 & e0 & S0 & E0 & Q & _).
      pose proof (Nmd 0 first O0) as M0. pose proof (Nmd _ lst O1) as M1. rewrite Nx in M0. rewrite Ny in M1.
      unfold e2e. replace (last (map m_end md) None) with (Some e0).
      - replace (hd None (map m_start md)) with (Some s0).
        + destruct (N.leb_spec s0 e0); [eauto|lia].
        + destruct md; [discriminate|]. cbn in M0. injection M0 as ->. cbn. auto.
      - rewrite <- Lmd in M1. clear -M1 E0. destruct md as [|q l] using rev_ind; [discriminate|].
        rewrite app_length in M1. cbn in M1. rewrite nth_error_app2 in M1 by lia.
        replace (length l + 1 - 1 - length l) with 0 in M1 by lia. injection M1 as ->.
        rewrite map_app. cbn. rewrite last_last. auto. }
    destruct He as (d & He). rewrite He in H.
    destruct (report_and_finish a o (cl_id c1) (set_slot i1 (mkCl (cl_id c1) Processing ms4) p1) ms4 env4) as [[[env6 m6] tr6] f6] eqn:R6.
    pose proof (Rep _ _ _ _ eq_refl) as NP6.
    destruct f6 as [|[e|]|]; [|injection H as <- <- <- <-; discriminate|injection H as <- <- <- <-; discriminate|congruence].
    destruct (lifecycle a o Postprocess (seq 0 (a_tasks a)) env6) as [[env7 tr7] f7] eqn:L7. apply lifecycle_spec in L7.
    injection H as <- <- <- <-. destruct f7 as [|[e|]|]; [discriminate..|destruct L7].
  - destruct (report_and_finish a o (cl_id c1) (set_slot i1 (mkCl (cl_id c1) Processing ms4) p1) ms4 env4) as [[[env6 m6] tr6] f6] eqn:R6.
    pose proof (Rep _ _ _ _ eq_refl) as NP6.
    destruct f6 as [|[e|]|]; [injection H as <- <- <- <-; discriminate..|congruence].
  - injection H as <- <- <- <-. discriminate.
Qed.
End Theorems.
Print Assumptions C16_iteration_partial.
Print Assumptions C16_run_partial.
Print Assumptions C17_shutdown.
Print Assumptions C17_abort.
Print Assumptions C17_ignore.
Print Assumptions C17_ignore_continues.
Print Assumptions C18_one_list_partial.
Print Assumptions C18_content_partial.
Print Assumptions C19_iteration_partial.
Print Assumptions C19_running_partial.
Print Assumptions C19_exhausted_partial.
Print Assumptions C20_report_partial.
Print Assumptions C20_metadata_partial.
Print Assumptions C20_getter_partial.
Print Assumptions C21_simulation.
Print Assumptions C21_iteration.
Print Assumptions C56_no_panic_partial.

(** ** Examples and counterexamples *)
Ltac pick := cbn; repeat (first [left; reflexivity | right]).
Definition fails_at (ph : phase) (t : nat) (ph' : phase) (t' env : nat) : bool :=
  match ph, ph' with
  | Start, Start | Preprocess, Preprocess | Process, Process | Postprocess, Postprocess | Stop, Stop => Nat.eqb t t'
  | _, _ => false
  end.
Definition decides (d : decision) (ph : phase) (t env : nat) : decision := d.
Definition by_runtime (ph : phase) (t env : nat) : override nat := ExecuteByRuntime.
(** Every call succeeds. *)
Definition fine : oracles nat unit nat nat := world never always (decides Ignore) by_runtime.
(** Processing by task 1 fails, and the monitor decides [d]. *)
Definition failing (d : decision) := world (fails_at Process 1) always (decides d) by_runtime.
Notation fresh := (mgr_new 10 zero3).

Example C16_iteration_ex : exists env' m' tr, run_one_iteration (line_app false) fine fresh 0 = (env', m', tr, ROk) /\
  attempts false tr = [(Preprocess, 0); (Preprocess, 1); (Preprocess, 2); (Process, 0); (Process, 1); (Process, 2);
                       (Postprocess, 0); (Postprocess, 1); (Postprocess, 2)].
Proof. eexists _, _, _. split; [vm_compute; reflexivity|]. reflexivity. Qed.
Example C16_run_ex : exists env' m' tr, run (line_app false) (failing Shutdown) 5 fresh 0 = (env', m', tr, Some (RErr 11)) /\
  attempts false tr = [(Start, 0); (Start, 1); (Start, 2); (Preprocess, 0); (Preprocess, 1); (Preprocess, 2);
                       (Process, 0); (Process, 1); (Stop, 0); (Stop, 1); (Stop, 2)].
Proof. eexists _, _, _. split; [vm_compute; reflexivity|]. reflexivity. Qed.

(** "No task is processed unless all tasks were started" is false: after an Abort
    decision for a failed start the remaining tasks are not started, the run goes on. *)
Theorem C16_started_refuted : exists (a : application) (o : oracles nat unit nat nat) env env' m' tr r t ins,
  good_plan (a_plan a) /\ writes_succeed o /\
  run a o 1 (mgr_new 10 zero3) env = (env', m', tr, r) /\
  In (EProcess t ins None) tr /\ ~ In (Start, t) (attempts (a_sim a) tr).
Proof.
  exists (line_app false), (world (fails_at Start 0) always (decides Abort) by_runtime), 0.
  eexists _, _, _, _, 1, _. split; [exact line_good|]. split; [intros e c; reflexivity|].
  split; [vm_compute; reflexivity|]. split.
  - pick.
  - cbn. intuition discriminate.
Qed.
Print Assumptions C16_started_refuted.

Example C17_shutdown_ex : exists env' m' pre post, run_one_iteration (line_app false) (failing Shutdown) fresh 0 =
  (env', m', pre ++ EDecision Process 1 7 Shutdown :: post, RErr 7).
Proof. eexists _, _, _, []. vm_compute. instantiate (1 := [_; _; _; _; _]). reflexivity. Qed.
Example C17_abort_ex : reachable (line_app false) (failing Abort) 10 zero3 fresh /\
  exists env' m' pre post, run_one_iteration (line_app false) (failing Abort) fresh 0 =
  (env', m', pre ++ EDecision Process 1 7 Abort :: post, ROk) /\ length post = 2.
Proof.
  split; [apply (reachable_new _ _ _ _ 0); lia|]. eexists _, _, [_; _; _; _; _], [_; _].
  split; [vm_compute; reflexivity|reflexivity].
Qed.
Example C17_ignore_ex : reachable (line_app false) (failing Ignore) 10 zero3 fresh /\
  exists env' m' tr id x0 x1 x2, run_one_iteration (line_app false) (failing Ignore) fresh 0 = (env', m', tr, ROk) /\
    In (EDecision Process 1 7 Ignore) tr /\ In (ELog id [x0; x1; x2]) tr /\ length (attempts false tr) = 9 /\
    m_payload x0 = Some 4 /\ m_payload x1 = None.
Proof.
  split; [apply (reachable_new _ _ _ _ 0); lia|]. eexists _, _, _, _, _, _, _.
  split; [vm_compute; reflexivity|]. split; [pick|].
  split; [pick|]. repeat split; reflexivity.
Qed.

Example C18_one_list_ex : exists env' m' l, iterations (line_app false) (failing Abort) 3 fresh 0 = (env', m', l) /\
  map fst (flat_map (fun x => logged (fst x)) l) = [0; 1; 2]%N.
Proof. eexists _, _, _. split; [vm_compute; reflexivity|]. reflexivity. Qed.

Example C18_content_ex : overwrites fine /\ exists env1 m1 tr r env2 m2 tr1 tr2,
  run_one_iteration (line_app false) fine fresh 0 = (env1, m1, tr, r) /\
  run_one_iteration (line_app false) fine fresh 50 = (env2, m2, tr1, ROk) /\
  (exists e m, run_one_iteration (line_app false) fine m1 50 = (e, m, tr2, ROk)) /\
  tr1 <> tr2 /\ map without_id tr1 = map without_id tr2.
Proof.
  split; [intros t ins out out' env H; cbn; rewrite H; repeat split|].
  eexists _, _, _, _, _, _, _, _. split; [vm_compute; reflexivity|]. split; [vm_compute; reflexivity|].
  split; [eexists _, _; vm_compute; reflexivity|]. split; [discriminate|reflexivity].
Qed.

(** "The logged messages are those produced during the iteration" is false. After an
    Abort the logged list holds messages of an earlier iteration that used the same
    slot, for tasks that were not called: here task 2 in the second iteration with one
    slot; *)
Theorem C18_abort_stale_refuted : exists (a : application) (o : oracles nat unit nat nat) m env env' m' tr r id msgs k t x v,
  good_plan (a_plan a) /\ writes_succeed o /\ overwrites o /\ reachable a o 1 zero3 m /\
  run_one_iteration a o m env = (env', m', tr, r) /\ In (ELog id msgs) tr /\
  slot_of_task (a_plan a) t k /\ (forall ins rr, ~ In (EProcess t ins rr) tr) /\
  nth_error msgs k = Some x /\ m_payload x = Some v.
Proof.
  pose (o := world (fun ph t env => match ph with Process => (t =? 0) && (20 <? env) | _ => false end) always (decides Abort) by_runtime).
  destruct (run_one_iteration (line_app false) o (mgr_new 1 zero3) 0) as [[[env m] tr] r] eqn:E1.
  assert (Re : reachable (line_app false) o 1 zero3 m).
  { split; [lia|]. exists 1, 0, env, [(tr, r)]. split; [reflexivity|]. cbn [iterations]. rewrite E1.
    vm_compute in E1. injection E1 as <- <- <- <-. split; [reflexivity|]. repeat constructor; discriminate. }
  vm_compute in E1. injection E1 as <- <- <- <-.
  eexists (line_app false), o, _, 30, _, _, _, _, _, _, 1, 1, _, _.
  split; [exact line_good|]. split; [intros e c; reflexivity|].
  split; [intros t ins out out' env H; cbn; rewrite H; repeat split|]. split; [exact Re|].
  split; [vm_compute; reflexivity|]. split; [pick|].
  split; [exists (Step 1 Regular [(0, "A")] (Some (1, "B")))%string; split; reflexivity|].
  split; [intros ins rr; cbn; intuition discriminate|]. split; reflexivity.
Qed.
Print Assumptions C18_abort_stale_refuted.
(** and when a task does not write its output in an iteration, its message of an
    earlier iteration is passed on and logged as if it were of this one: the first
    iteration writes payload 4, the second (starting at 30) writes nothing. *)
Theorem C18_silent_stale_refuted : exists (a : application) (o : oracles nat unit nat nat) m env env' m' tr id msgs x,
  good_plan (a_plan a) /\ writes_succeed o /\ reachable a o 1 zero3 m /\
  (forall t ins out e, env <= e -> snd (fst (o_process o t ins out e)) = out) /\
  run_one_iteration a o m env = (env', m', tr, ROk) /\ In (ELog id msgs) tr /\
  nth_error msgs 0 = Some x /\ m_payload x = Some 4 /\ In (EProcess 1 [x] None) tr.
Proof.
  pose (o := world never (fun t env => env <? 20) (decides Abort) by_runtime).
  destruct (run_one_iteration (line_app false) o (mgr_new 1 zero3) 0) as [[[env m] tr] r] eqn:E1.
  assert (Re : reachable (line_app false) o 1 zero3 m).
  { split; [lia|]. exists 1, 0, env, [(tr, r)]. split; [reflexivity|]. cbn [iterations]. rewrite E1.
    vm_compute in E1. injection E1 as <- <- <- <-. split; [reflexivity|]. repeat constructor; discriminate. }
  vm_compute in E1. injection E1 as <- <- <- <-.
  eexists (line_app false), o, _, 30, _, _, _, _, _, _.
  split; [exact line_good|]. split; [intros e c; reflexivity|]. split; [exact Re|].
  split. { intros t ins out e H. cbn [o world o_process fst snd]. destruct (Nat.ltb_spec e 20); [lia|auto]. }
  split; [vm_compute; reflexivity|]. split; [pick|].
  split; [reflexivity|]. split; [reflexivity|]. pick.
Qed.
Print Assumptions C18_silent_stale_refuted.

Example C19_iteration_ex : exists env' m' tr, run_one_iteration (line_app false) (failing Shutdown) fresh 0 = (env', m', tr, RErr 7) /\
  abandons tr = true /\ available_copper_lists fresh = 10 /\ available_copper_lists m' = 9.
Proof. eexists _, _, _. split; [vm_compute; reflexivity|]. repeat split. Qed.
Example C19_running_ex : exists env' m' tr, run (line_app false) (failing Ignore) 25 fresh 0 = (env', m', tr, None) /\
  length (logged tr) = 25.
Proof. eexists _, _, _. split; [vm_compute; reflexivity|]. reflexivity. Qed.

(** "The application never runs out of slots" is false: whatever the number of slots,
    after as many iterations (called one by one) that ended with a shutdown of a process
    step, the next one panics. *)
Definition ten_failures := iterations (line_app false) (failing Shutdown) 10 fresh 0.
Theorem C19_refuted : exists (a : application) (o : oracles nat unit nat nat) m env env' m' tr,
  good_plan (a_plan a) /\ writes_succeed o /\ reachable a o 10 zero3 m /\
  run_one_iteration a o m env = (env', m', tr, RPanic).
Proof.
  destruct (iterations (line_app false) (failing Shutdown) 10 fresh 0) as [[env m] l] eqn:E1.
  assert (Re : reachable (line_app false) (failing Shutdown) 10 zero3 m).
  { split; [lia|]. exists 10, 0, env, l. split; [reflexivity|]. split; [exact E1|].
    vm_compute in E1. injection E1 as <- <- <-. repeat constructor; discriminate. }
  vm_compute in E1. injection E1 as <- <- <-.
  eexists (line_app false), (failing Shutdown), _, 0, _, _, _.
  split; [exact line_good|]. split; [intros e c; reflexivity|]. split; [exact Re|]. vm_compute. reflexivity.
Qed.
Print Assumptions C19_refuted.
Example C19_exhausted_ex : exists env m l env' m' tr, ten_failures = (env, m, l) /\ available_copper_lists m = 0 /\
  run_one_iteration (line_app false) (failing Shutdown) m 0 = (env', m', tr, RPanic) /\ Forall (fun e => ~ gives_up e) tr.
Proof.
  eexists _, _, _, _, _, _. split; [vm_compute; reflexivity|]. split; [reflexivity|].
  split; [vm_compute; reflexivity|]. repeat constructor; cbn; tauto.
Qed.

(** The tasks are declared as: last, first, middle one of a line. *)
Definition tri : list step :=
  [Step 1 Source [] (Some (0, "A")); Step 2 Regular [(0, "A")] (Some (1, "B"));
   Step 0 Sink [(1, "B")] (Some (2, "()"))]%string.
Lemma tri_planned : compute_plan (Graph 3 [Edge 1 2 "A"; Edge 2 0 "B"]%string) = Ret (Some tri).
Proof. vm_compute. reflexivity. Qed.
Lemma tri_wf : wf_graph (Graph 3 [Edge 1 2 "A"; Edge 2 0 "B"]%string).
Proof. repeat constructor. Qed.
Definition tri_app : application := App 3 tri false true Wrapping.
Example C20_metadata_ex : Permutation (map s_node line) (seq 0 (length line)) /\
  (forall t k, nth_error (map s_node line) t = Some k -> nth_error (map s_node line) k = Some t).
Proof.
  split; [apply Permutation_refl|]. intros [|[|[|t]]] k; cbn; try (intros H; injection H as <-; reflexivity). destruct t; discriminate.
Qed.
(** "The t-th metadata and the getter belong to task t" is false for a graph the
    planner accepts. *)
Theorem C20_refuted : exists g plan (o : oracles nat unit nat nat) a env env' m' tr md id msgs t k,
  wf_graph g /\ compute_plan g = Ret (Some plan) /\ a_plan a = plan /\ writes_succeed o /\
  run_one_iteration a o (mgr_new 10 zero3) env = (env', m', tr, ROk) /\
  In (EReport md None) tr /\ In (ELog id msgs) tr /\
  slot_of_task plan t k /\ nth_error md t <> nth_error msgs k /\ getter_field a t <> Some k.
Proof.
  eexists _, tri, fine, tri_app, 0, _, _, _, _, _, _, 1, 0.
  split; [exact tri_wf|]. split; [exact tri_planned|]. split; [reflexivity|]. split; [intros e c; reflexivity|].
  split; [vm_compute; reflexivity|]. split; [pick|]. split; [pick|].
  split; [eexists; split; reflexivity|]. split; discriminate.
Qed.
Print Assumptions C20_refuted.

Definition mixed (ph : phase) (t env : nat) : override nat :=
  match t with 0 => ExecuteByRuntime | 1 => Errored 99 | _ => ExecutedBySim end.
Example C21_ex : exists env' m' tr, run_one_iteration (line_app true) (world never always (decides Ignore) mixed) fresh 0 = (env', m', tr, ROk) /\
  flat_map (fun e => match e with ELog _ _ | EReport _ _ => [] | _ => [e] end) tr =
  flat_map (fun ph => [ESim ph 0 ExecuteByRuntime; match ph with Process => EProcess 0 [] None | _ => ETask ph 0 None end;
                       ESim ph 1 (Errored 99); EDecision ph 1 99 Ignore; ESim ph 2 ExecutedBySim]) [Preprocess; Process; Postprocess].
Proof. eexists _, _, _. split; [vm_compute; reflexivity|]. reflexivity. Qed.

(** With overflow checks, a sink declared before its source makes the first iteration
    panic although the clock is monotone: the plan is 1 then 0, so that the end time
    of the source is subtracted the start time of the sink. *)
Definition back : list step :=
  [Step 1 Source [] (Some (0, "A")); Step 0 Sink [(0, "A")] (Some (1, "()"))]%string.
(** [world] with a clock that stops at 1000. *)
Definition slow (w : oracles nat unit nat nat) : oracles nat unit nat nat :=
  {| o_task := o_task w; o_process := o_process w; o_sink := o_sink w; o_sim := o_sim w; o_sim_process := o_sim_process w;
     o_decide := o_decide w; o_report := o_report w; o_monitor := o_monitor w;
     o_now := fun env => (S env, N.min (N.of_nat env) 1000); o_log := o_log w |}.
Lemma slow_clock fails writes dec ovr : monotone_clock (slow (world fails writes dec ovr)) (fun env => N.min (N.of_nat env) 1000).
Proof. repeat split; cbn; intros; lia. Qed.
Theorem C56_refuted : exists g (a : application) (o : oracles nat unit nat nat) time zero env env' m' tr,
  wf_graph g /\ compute_plan g = Ret (Some (a_plan a)) /\ length zero = length (a_plan a) /\
  writes_succeed o /\ monotone_clock o time /\ keeps_start o /\
  run_one_iteration a o (mgr_new 10 zero) env = (env', m', tr, RPanic).
Proof.
  exists (Graph 2 [Edge 1 0 "A"]%string), (App 2 back false true Checked), (slow fine), (fun env => N.min (N.of_nat env) 1000).
  eexists [Msg None tt None None; Msg None tt None None], 0, _, _, _.
  split; [repeat constructor|]. split; [vm_compute; reflexivity|]. split; [reflexivity|]. split; [intros e c; reflexivity|].
  split; [apply slow_clock|]. split; [intros t ins out e; reflexivity|]. vm_compute. reflexivity.
Qed.
Print Assumptions C56_refuted.
Example C56_no_panic_ex : monotone_clock (slow fine) (fun env => N.min (N.of_nat env) 1000) /\ keeps_start (slow fine) /\
  writes_succeed (slow fine) /\ hd_error (map s_node line) = Some 0 /\ last_of (map s_node line) = Some 2 /\
  exists env' m' tr, run_one_iteration (line_app false) (slow fine) fresh 0 = (env', m', tr, ROk).
Proof.
  split; [apply slow_clock|]. split; [intros t ins out e; reflexivity|]. split; [intros e c; reflexivity|].
  split; [reflexivity|]. split; [reflexivity|]. eexists _, _, _. vm_compute. reflexivity.
Qed.
