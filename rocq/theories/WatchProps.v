(** Runs with and without log, with and without simulation callback: theorems. *)
From Coq Require Import String List Arith NArith Bool Lia ZifyBool ZifyNat ZifyN.
From Verif Require Import Base CuListModel PlanModel RuntimeModel RuntimeSpec RuntimeProps ReplaySpec ReplayProps AloneProps KeepProps.
Import ListNotations.
Local Open Scope list_scope.
Local Open Scope nat_scope.

(** * Specification *)
(** A simulation callback that leaves everything to the runtime. *)
Record neutral {V M Er E : Type} (o : oracles V M Er E) : Prop := {
  ne_call : forall ph t env, o_sim o ph t env = (env, ExecuteByRuntime);
  ne_process : forall t ins out env, o_sim_process o t ins out env = (env, out, ExecuteByRuntime) }.
Definition no_log {V M Er} (e : event V M Er) : bool := match e with ELog _ _ => false | _ => true end.
Definition no_sim {V M Er} (e : event V M Er) : bool := match e with ESim _ _ _ => false | _ => true end.
(** What happened in the calls of a run, apart from some events, and how they ended. *)
Definition seen {V M Er} (keep : event V M Er -> bool) (l : list (list (event V M Er) * result (Er := Er))) : list (list (event V M Er) * result (Er := Er)) :=
  map (fun x => (filter keep (fst x), snd x)) l.

(** * Proofs *)
Section Watch.
Context {V M Er E : Type}.
Variable o : oracles V M Er E.
Variable n : nat.
Variable plan : list step.
Variable mode : ovf_mode.
Variable sim1 sim2 log1 log2 : bool.
Variable keep : event V M Er -> bool.
Notation a1 := (App n plan sim1 log1 mode).
Notation a2 := (App n plan sim2 log2 mode).
Hypothesis HS : sim1 = sim2 \/ (neutral o /\ forall ph t x, keep (ESim ph t x) = false).
Hypothesis HL : log1 = log2 \/ (writes_succeed o /\ forall id x, keep (ELog id x) = false).
Notation message := (msg V M).
Notation manager := (mgr (list message)).
Notation ev := (event V M Er).
Definition same3 {F} (x y : E * list ev * F) : Prop := let '(e1, t1, f1) := x in let '(e2, t2, f2) := y in e1 = e2 /\ filter keep t1 = filter keep t2 /\ f1 = f2.
Definition same4 {G F} (x y : E * list ev * G * F) : Prop := let '(e1, t1, g1, f1) := x in let '(e2, t2, g2, f2) := y in e1 = e2 /\ filter keep t1 = filter keep t2 /\ g1 = g2 /\ f1 = f2.
Definition same5 {G F} (x y : E * G * list ev * F) : Prop := let '(e1, g1, t1, f1) := x in let '(e2, g2, t2, f2) := y in e1 = e2 /\ filter keep t1 = filter keep t2 /\ g1 = g2 /\ f1 = f2.
Lemma same3_refl {F} (x : E * list ev * F) : same3 x x. Proof. destruct x as [[? ?] ?]. cbn. auto. Qed.
Lemma same4_refl {G F} (x : E * list ev * G * F) : same4 x x. Proof. destruct x as [[[? ?] ?] ?]. cbn. auto. Qed.

Lemma one_call_w ph t env : same3 (one_call a1 o ph t env) (one_call a2 o ph t env).
Proof.
  unfold one_call. cbn [a_sim]. destruct HS as [->|[[N1 _] K]]; [apply same3_refl|].
  destruct sim1, sim2; try apply same3_refl; rewrite N1; destruct (do_call o ph t env) as [[? ?] ?]; cbn; rewrite K; auto.
Qed.
Lemma lifecycle_w ph : forall ts env, same3 (lifecycle a1 o ph ts env) (lifecycle a2 o ph ts env).
Proof.
  induction ts as [|t ts IH]; intros env; cbn [lifecycle]; [cbn; auto|]. pose proof (one_call_w ph t env) as H.
  destruct (one_call a1 o ph t env) as [[e1 t1] f1], (one_call a2 o ph t env) as [[e2 t2] f2]. destruct H as (<- & H & <-). destruct f1; cbn; auto.
  specialize (IH e1). destruct (lifecycle a1 o ph ts e1) as [[e3 t3] f3], (lifecycle a2 o ph ts e1) as [[e4 t4] f4]. destruct IH as (<- & I & <-). cbn. rewrite !filter_app, H, I. auto.
Qed.
Lemma process_msg_w s ins out env : same4 (process_msg a1 o s ins out env) (process_msg a2 o s ins out env).
Proof.
  unfold process_msg. cbn [a_sim]. destruct HS as [->|[[_ N2] K]]; [apply same4_refl|].
  destruct sim1, sim2; try apply same4_refl; rewrite N2; destruct (do_process o s ins true out env) as [[[? ?] ?] ?]; cbn; rewrite K; auto.
Qed.
Lemma process_all_w : forall ss msgs env, same4 (process_all a1 o ss msgs env) (process_all a2 o ss msgs env).
Proof.
  induction ss as [|s ss IH]; intros msgs env; cbn [process_all]; [cbn; auto|]. unfold process_step. destruct (s_out s) as [[k ty]|]; [|cbn; auto].
  destruct (nth_error msgs k) as [out|]; [|cbn; auto]. destruct (gather msgs (s_inputs s)) as [ins|]; [|cbn; auto]. pose proof (process_msg_w s ins out env) as H.
  destruct (process_msg a1 o s ins out env) as [[[e1 t1] o1] f1], (process_msg a2 o s ins out env) as [[[e2 t2] o2] f2]. destruct H as (<- & H & <- & <-). destruct f1; cbn; auto.
  specialize (IH (upd k o1 msgs) e1). destruct (process_all a1 o ss (upd k o1 msgs) e1) as [[[e3 t3] o3] f3], (process_all a2 o ss (upd k o1 msgs) e1) as [[[e4 t4] o4] f4].
  destruct IH as (<- & I & <- & <-). cbn. rewrite !filter_app, H, I. auto.
Qed.
Lemma eop_w env id : forall (l : list (cl (list message))) b nb g1 g2 out, writes_succeed o ->
  exists b' nb' k1 k2 out', fold_left (eop_step (Some (o_log o env)) id) l (Ret (b, nb, g1, out)) = Ret (b', nb', k1, out') /\
    fold_left (eop_step None id) l (Ret (b, nb, g2, out)) = Ret (b', nb', k2, out').
Proof.
  induction l as [|c l IH]; intros b nb g1 g2 out W; cbn [fold_left]; [eauto 10|].
  assert (X : exists b' nb' k1 k2 out', eop_step (Some (o_log o env)) id (Ret (b, nb, g1, out)) c = Ret (b', nb', k1, out') /\ eop_step None id (Ret (b, nb, g2, out)) c = Ret (b', nb', k2, out')).
  { unfold eop_step. cbn [obind]. destruct (b && _); [|eauto 10]. rewrite W. unfold change_state. cbn [cl_id cl_msgs]. do 5 eexists. split; reflexivity. }
  destruct X as (b1 & nb1 & k1 & k2 & o1 & -> & ->). apply IH. exact W.
Qed.
Lemma finish_w id m env : match finish a1 o id m env, finish a2 o id m env with
  | Ret (m1, t1), Ret (m2, t2) => m1 = m2 /\ filter keep t1 = filter keep t2 | Panic, Panic => True | _, _ => False end.
Proof.
  unfold finish. cbn [a_logging]. destruct HL as [->|[W K]]; [destruct (let! _ := _ in _) as [[? ?]|]; auto|].
  assert (F : forall (g : list (cl (list message))), filter keep (map (fun c => ELog (cl_id c) (cl_msgs c)) g) = []) by (induction g as [|c g IH]; cbn; [reflexivity|now rewrite K]).
  assert (X : forall b, match end_of_processing (if b : bool then Some (o_log o env) else None) m id, end_of_processing None m id with
    | Ret (m1, _), Ret (m2, _) => m1 = m2 | Panic, Panic => True | _, _ => False end).
  { intros b. unfold end_of_processing. destruct (iter_mut m) as [slots|]; [|destruct b; cbn; auto]. cbn [obind].
    destruct (eop_w env id slots true 0 [] [] [] W) as (b' & nb' & k1 & k2 & out' & E1 & E2). destruct b; rewrite ?E1, ?E2; cbn [obind]; destruct (pop_n nb' (iter_mut_write m out')); cbn; auto. }
  pose proof (X log1) as X1. pose proof (X log2) as X2. destruct (end_of_processing None m id) as [[m0 g0]|].
  - destruct (end_of_processing (if log1 then _ else _) m id) as [[? ?]|]; [|destruct X1]. destruct (end_of_processing (if log2 then _ else _) m id) as [[? ?]|]; [|destruct X2]. subst. cbn. rewrite !F. auto.
  - destruct (end_of_processing (if log1 then _ else _) m id) as [[? ?]|]; [destruct X1|]. destruct (end_of_processing (if log2 then _ else _) m id) as [[? ?]|]; [destruct X2|]. exact I.
Qed.
Lemma report_w id m msgs env : same5 (report_and_finish a1 o id m msgs env) (report_and_finish a2 o id m msgs env).
Proof.
  unfold report_and_finish. change (collect_metadata a2 msgs) with (collect_metadata a1 msgs). destruct (collect_metadata a1 msgs) as [md|]; [|cbn; auto].
  destruct (o_report o md env) as [e1 [e|]]; [cbn; auto|]. pose proof (finish_w id m e1) as H.
  destruct (finish a1 o id m e1) as [[m1 t1]|], (finish a2 o id m e1) as [[m2 t2]|]; try destruct H; cbn; auto. subst. destruct (keep _); rewrite ?H0; auto.
Qed.
Lemma body_w m env : same5 (copperlist_body a1 o m env) (copperlist_body a2 o m env).
Proof.
  unfold copperlist_body. cbn [a_mode a_plan]. destruct (create mode m) as [[[p i]|]|]; [|cbn; auto..]. destruct (nth_error (m_data p) i) as [c|]; [|cbn; auto].
  pose proof (process_all_w plan (cl_msgs c) env) as H. destruct (process_all a1 o plan (cl_msgs c) env) as [[[e1 t1] ms1] f1], (process_all a2 o plan (cl_msgs c) env) as [[[e2 t2] ms2] f2].
  destruct H as (<- & H & <- & <-). pose proof (report_w (cl_id c) (set_slot i (mkCl (cl_id c) Processing ms1) p) ms1 e1) as R.
  destruct (report_and_finish a1 o (cl_id c) (set_slot i (mkCl (cl_id c) Processing ms1) p) ms1 e1) as [[[e3 q1] t3] f3].
  destruct (report_and_finish a2 o (cl_id c) (set_slot i (mkCl (cl_id c) Processing ms1) p) ms1 e1) as [[[e4 q2] t4] f4]. destruct R as (<- & R & <- & <-).
  destruct f1; [|cbn; rewrite ?filter_app, ?H, ?R; auto..].
  change (collect_metadata a2 ms1) with (collect_metadata a1 ms1). change (e2e a2) with (@e2e V M a1).
  destruct (match collect_metadata a1 ms1 with Some md => e2e a1 md | None => Panic end); cbn; rewrite ?filter_app, ?H, ?R; auto.
Qed.
Lemma iteration_w m env : same5 (run_one_iteration a1 o m env) (run_one_iteration a2 o m env).
Proof.
  unfold run_one_iteration. cbn [a_tasks]. pose proof (lifecycle_w Preprocess (seq 0 n) env) as H.
  destruct (lifecycle a1 o Preprocess (seq 0 n) env) as [[e1 t1] f1], (lifecycle a2 o Preprocess (seq 0 n) env) as [[e2 t2] f2]. destruct H as (<- & H & <-). destruct f1; [|cbn; auto..].
  pose proof (body_w m e1) as B. destruct (copperlist_body a1 o m e1) as [[[e3 q1] t3] f3], (copperlist_body a2 o m e1) as [[[e4 q2] t4] f4]. destruct B as (<- & B & <- & <-).
  destruct f3; [|cbn; rewrite !filter_app, H, B; auto..]. pose proof (lifecycle_w Postprocess (seq 0 n) e3) as L.
  destruct (lifecycle a1 o Postprocess (seq 0 n) e3) as [[e5 t5] f5], (lifecycle a2 o Postprocess (seq 0 n) e3) as [[e6 t6] f6]. destruct L as (<- & L & <-). cbn. rewrite !filter_app, H, B, L. auto.
Qed.
Lemma driven_w : forall between m env e1 m1 l1 e2 m2 l2, driven a1 o between m env = (e1, m1, l1) -> driven a2 o between m env = (e2, m2, l2) -> e1 = e2 /\ m1 = m2 /\ seen keep l1 = seen keep l2.
Proof.
  induction between as [|b bs IH]; intros m env e1 m1 l1 e2 m2 l2 H1 H2; cbn [driven] in H1, H2.
  - injection H1 as <- <- <-. injection H2 as <- <- <-. auto.
  - pose proof (iteration_w m (b env)) as I.
    destruct (run_one_iteration a1 o m (b env)) as [[[e3 q1] t3] r3], (run_one_iteration a2 o m (b env)) as [[[e4 q2] t4] r4]. destruct I as (<- & I & <- & <-).
    destruct (driven a1 o bs q1 e3) as [[e5 q5] l5] eqn:D1. destruct (driven a2 o bs q1 e3) as [[e6 q6] l6] eqn:D2. injection H1 as <- <- <-. injection H2 as <- <- <-.
    destruct (IH _ _ _ _ _ _ _ _ D1 D2) as (-> & -> & J). unfold seen in *. cbn [map fst snd]. rewrite I, J. auto.
Qed.
Lemma session_w between m env e1 m1 l1 e2 m2 l2 : session a1 o between m env = (e1, m1, l1) -> session a2 o between m env = (e2, m2, l2) -> e1 = e2 /\ m1 = m2 /\ seen keep l1 = seen keep l2.
Proof.
  unfold session, all_tasks. cbn [a_tasks]. pose proof (lifecycle_w Start (seq 0 n) env) as H.
  destruct (lifecycle a1 o Start (seq 0 n) env) as [[e3 t3] f3], (lifecycle a2 o Start (seq 0 n) env) as [[e4 t4] f4]. destruct H as (<- & H & <-).
  assert (G : forall e t t' r, filter keep t = filter keep t' -> (let '(env, m, l) := driven a1 o between m e in (env, m, (t, r) :: l)) = (e1, m1, l1) ->
    (let '(env, m, l) := driven a2 o between m e in (env, m, (t', r) :: l)) = (e2, m2, l2) -> e1 = e2 /\ m1 = m2 /\ seen keep l1 = seen keep l2).
  { intros e t t' r Ft X1 X2. destruct (driven a1 o between m e) as [[e5 q5] l5] eqn:D1. destruct (driven a2 o between m e) as [[e6 q6] l6] eqn:D2. injection X1 as <- <- <-. injection X2 as <- <- <-.
    destruct (driven_w _ _ _ _ _ _ _ _ _ D1 D2) as (-> & -> & J). unfold seen in *. cbn [map fst snd]. rewrite Ft, J. auto. }
  destruct f3; [|exact (G _ _ _ _ H)..]. destruct (o_monitor o Start e3) as [e5 r]. apply G. rewrite !filter_app, H. reflexivity.
Qed.
End Watch.

(** The events an application cannot show. *)
Section Quiet.
Context {V M Er E : Type}.
Variable o : oracles V M Er E.
Variable n : nat.
Variable plan : list step.
Variable mode : ovf_mode.
Variable sim logging : bool.
Variable keep : event V M Er -> bool.
Notation a := (App n plan sim logging mode).
Hypothesis KO : forall e, match e with ESim _ _ _ => sim = true -> keep e = true | ELog _ _ => logging = true -> keep e = true | _ => keep e = true end.
Notation message := (msg V M).
Notation ok := (Forall (fun e : event V M Er => keep e = true)).
Lemma act_q ph t e env : ok (snd (fst (act o ph t e env))).
Proof. unfold act. destruct (o_decide o ph t e env) as [? d]. destruct d, ph; repeat constructor; apply (KO (EDecision _ _ _ _)). Qed.
Lemma do_call_q ph t env : ok (snd (fst (do_call o ph t env))).
Proof.
  unfold do_call. destruct (o_task o ph t env) as [e1 [e|]]; [|repeat constructor; apply (KO (ETask _ _ _))].
  pose proof (act_q ph t e e1) as A. destruct (act o ph t e e1) as [[? ?] ?]. constructor; [apply (KO (ETask _ _ _))|exact A].
Qed.
Lemma one_call_q ph t env : ok (snd (fst (one_call a o ph t env))).
Proof.
  unfold one_call. destruct (a_sim a) eqn:Es; [|apply do_call_q].
  assert (S : forall x, keep (ESim ph t x) = true) by (intros x; exact (KO (ESim ph t x) Es)).
  destruct (o_sim o ph t env) as [e1 x]. destruct x as [| |e].
  - repeat constructor; apply S.
  - pose proof (do_call_q ph t e1) as A. destruct (do_call o ph t e1) as [[? ?] ?]. constructor; [apply S|exact A].
  - pose proof (act_q ph t e e1) as A. destruct (act o ph t e e1) as [[? ?] ?]. constructor; [apply S|exact A].
Qed.
Lemma lifecycle_q ph : forall ts env, ok (snd (fst (lifecycle a o ph ts env))).
Proof.
  induction ts as [|t ts IH]; intros env; cbn [lifecycle]; [constructor|]. pose proof (one_call_q ph t env) as H.
  destruct (one_call a o ph t env) as [[e1 t1] f1]. destruct f1; [|exact H..]. specialize (IH e1). destruct (lifecycle a o ph ts e1) as [[e3 t3] f3]. apply Forall_app. split; assumption.
Qed.
Lemma pact_q t e out env : ok (snd (fst (fst (pact o t e out env)))).
Proof. unfold pact. destruct (o_decide o Process t e env) as [? d]. destruct d; repeat constructor; apply (KO (EDecision _ _ _ _)). Qed.
Lemma do_process_q s ins doit out env : ok (snd (fst (fst (do_process o s ins doit out env)))).
Proof.
  unfold do_process. destruct (o_now o env) as [e1 t0].
  assert (X : ok (snd (fst (fst (if doit then match s_type s with
      | Sink => let (env, r) := o_sink o (s_node s) ins e1 in (env, [EProcess (s_node s) ins r], with_start t0 out, r)
      | _ => let '(env, out, r) := o_process o (s_node s) ins (with_start t0 out) e1 in (env, [EProcess (s_node s) ins r], out, r) end
    else (e1, [], with_start t0 out, None)))))).
  { destruct doit; [|constructor]. destruct (s_type s); [destruct (o_process _ _ _ _ _) as [[? ?] ?]..|destruct (o_sink _ _ _ _) as [? ?]]; repeat constructor; apply (KO (EProcess _ _ _)). }
  destruct (if doit then _ else _) as [[[e2 tr] out'] r]. destruct (o_now o e2) as [e3 t1]. destruct r as [e|]; [|exact X].
  pose proof (pact_q (s_node s) e (with_end t1 out') e3) as A. destruct (pact o (s_node s) e (with_end t1 out') e3) as [[[? ?] ?] ?]. apply Forall_app. split; assumption.
Qed.
Lemma process_msg_q s ins out env : ok (snd (fst (fst (process_msg a o s ins out env)))).
Proof.
  unfold process_msg. destruct (a_sim a) eqn:Es; [|apply do_process_q].
  assert (S : forall x, keep (ESim Process (s_node s) x) = true) by (intros x; exact (KO (ESim Process (s_node s) x) Es)).
  assert (D : forall b out' e1 x, ok (snd (fst (fst (let '(env, tr, out, f) := do_process o s ins b out' e1 in (env, ESim Process (s_node s) x :: tr, out, f)))))).
  { intros b out' e1 x. pose proof (do_process_q s ins b out' e1) as A. destruct (do_process o s ins b out' e1) as [[[? ?] ?] ?]. constructor; [apply S|exact A]. }
  destruct (o_sim_process o (s_node s) ins out env) as [[e1 out'] ov]. destruct ov as [| |e]; try apply D.
  pose proof (pact_q (s_node s) e out' e1) as A. destruct (pact o (s_node s) e out' e1) as [[[e2 t2] o2] f]. destruct f; try (constructor; [apply S|exact A]).
  pose proof (do_process_q s ins false o2 e2) as B. destruct (do_process o s ins false o2 e2) as [[[? ?] ?] ?]. constructor; [apply S|]. apply Forall_app. split; assumption.
Qed.
Lemma process_all_q : forall ss msgs env, ok (snd (fst (fst (process_all a o ss msgs env)))).
Proof.
  induction ss as [|s ss IH]; intros msgs env; cbn [process_all]; [constructor|]. unfold process_step. destruct (s_out s) as [[k ty]|]; [|constructor].
  destruct (nth_error msgs k) as [out|]; [|constructor]. destruct (gather msgs (s_inputs s)) as [ins|]; [|constructor]. pose proof (process_msg_q s ins out env) as H.
  destruct (process_msg a o s ins out env) as [[[e1 t1] o1] f1]. destruct f1; [|exact H..].
  specialize (IH (upd k o1 msgs) e1). destruct (process_all a o ss (upd k o1 msgs) e1) as [[[e3 t3] o3] f3]. apply Forall_app. split; assumption.
Qed.
Lemma eop_q id : forall (l : list (cl (list message))) b nb out, exists b' nb' out', fold_left (eop_step None id) l (Ret (b, nb, [], out)) = Ret (b', nb', [], out').
Proof.
  induction l as [|c l IH]; intros b nb out; cbn [fold_left]; [eauto|]. unfold eop_step at 2. cbn [obind]. destruct (b && _); apply IH.
Qed.
Lemma finish_q id m env m' tr : finish a o id m env = Ret (m', tr) -> ok tr.
Proof.
  unfold finish. cbn [a_logging]. pose proof KO as K. destruct logging.
  - destruct (end_of_processing _ m id) as [[q g]|]; cbn [obind]; [|discriminate]. intros X. injection X as <- <-. apply Forall_map. apply Forall_forall. intros c _. apply (K (ELog _ _)). reflexivity.
  - unfold end_of_processing. destruct (iter_mut m) as [slots|]; [|discriminate]. cbn [obind]. destruct (eop_q id slots true 0 []) as (b' & nb' & out' & ->). cbn [obind].
    destruct (pop_n _ _) as [q|]; cbn [obind]; [|discriminate]. intros X. injection X as <- <-. constructor.
Qed.
Lemma report_q id m msgs env : ok (snd (fst (report_and_finish a o id m msgs env))).
Proof.
  unfold report_and_finish. destruct (collect_metadata a msgs) as [md|]; [|constructor]. destruct (o_report o md env) as [e1 [e|]]; [repeat constructor; apply (KO (EReport _ _))|].
  destruct (finish a o id m e1) as [[m1 t1]|] eqn:F; [|repeat constructor; apply (KO (EReport _ _))]. constructor; [apply (KO (EReport _ _))|exact (finish_q _ _ _ _ _ F)].
Qed.
Lemma body_q m env : ok (snd (fst (copperlist_body a o m env))).
Proof.
  unfold copperlist_body. destruct (create _ m) as [[[p i]|]|]; [|constructor..]. destruct (nth_error (m_data p) i) as [c|]; [|constructor]. cbn [a_plan].
  pose proof (process_all_q plan (cl_msgs c) env) as H. destruct (process_all a o plan (cl_msgs c) env) as [[[e1 t1] ms1] f1].
  pose proof (report_q (cl_id c) (set_slot i (mkCl (cl_id c) Processing ms1) p) ms1 e1) as R.
  destruct (report_and_finish a o (cl_id c) (set_slot i (mkCl (cl_id c) Processing ms1) p) ms1 e1) as [[[e3 q1] t3] f3].
  assert (X : ok (t1 ++ t3)) by (apply Forall_app; split; assumption).
  destruct f1; try exact H; try exact X. destruct (match collect_metadata a ms1 with Some md => e2e a md | None => Panic end); [exact X|exact H].
Qed.
Lemma iteration_q m env : ok (snd (fst (run_one_iteration a o m env))).
Proof.
  unfold run_one_iteration. cbn [a_tasks]. pose proof (lifecycle_q Preprocess (seq 0 n) env) as H. destruct (lifecycle a o Preprocess (seq 0 n) env) as [[e1 t1] f1]. destruct f1; [|exact H..].
  pose proof (body_q m e1) as B. destruct (copperlist_body a o m e1) as [[[e3 q1] t3] f3]. destruct f3; [|apply Forall_app; split; assumption..].
  pose proof (lifecycle_q Postprocess (seq 0 n) e3) as L. destruct (lifecycle a o Postprocess (seq 0 n) e3) as [[e5 t5] f5]. repeat (apply Forall_app; split); assumption.
Qed.
Lemma driven_q : forall between m env, Forall (fun x => ok (fst x)) (snd (driven a o between m env)).
Proof.
  induction between as [|b bs IH]; intros m env; cbn [driven]; [constructor|]. pose proof (iteration_q m (b env)) as I. destruct (run_one_iteration a o m (b env)) as [[[e3 q1] t3] r3].
  specialize (IH q1 e3). destruct (driven a o bs q1 e3) as [[e5 q5] l5]. constructor; assumption.
Qed.
Lemma seen_all (l : list (list (event V M Er) * result (Er := Er))) : Forall (fun x => ok (fst x)) l -> seen keep l = l.
Proof.
  induction 1 as [|[t r] l H _ IH]; [reflexivity|]. unfold seen in *. cbn [map fst snd] in *. rewrite IH. do 2 f_equal. clear IH.
  induction H as [|e t K _ IHt]; [reflexivity|]. cbn [filter]. rewrite K, IHt. reflexivity.
Qed.
Lemma session_q between m env : seen keep (snd (session a o between m env)) = snd (session a o between m env).
Proof.
  apply seen_all. unfold session, all_tasks. cbn [a_tasks]. pose proof (lifecycle_q Start (seq 0 n) env) as H.
  destruct (lifecycle a o Start (seq 0 n) env) as [[e3 t3] f3].
  assert (G : forall e t r, ok t -> Forall (fun x => ok (fst x)) (snd (let '(env, m, l) := driven a o between m e in (env, m, (t, r : result (Er := Er)) :: l)))).
  { intros e t r T. pose proof (driven_q between m e) as D. destruct (driven a o between m e) as [[? ?] ?]. constructor; assumption. }
  destruct f3; [|apply G; exact H..]. destruct (o_monitor o Start e3) as [e5 r]. apply G. apply Forall_app. split; [exact H|]. repeat constructor. apply (KO (EMonitor _ _)).
Qed.
End Quiet.

(** * Theorems *)
(** Turning the logging of copper lists off changes nothing but the log, if all writes succeed. *)
Theorem C176_logging : forall (V M Er E : Type) (o : oracles V M Er E) n plan sim mode between m env e1 m1 l1 e2 m2 l2, writes_succeed o ->
  session (App n plan sim true mode) o between m env = (e1, m1, l1) -> session (App n plan sim false mode) o between m env = (e2, m2, l2) ->
  e1 = e2 /\ m1 = m2 /\ seen no_log l1 = l2.
Proof.
  intros V M Er E o n plan sim mode between m env e1 m1 l1 e2 m2 l2 W H1 H2.
  pose proof (session_q o n plan mode sim false no_log ltac:(intros []; cbn; congruence) between m env) as Q. rewrite H2 in Q. cbn [snd] in Q. rewrite <- Q. revert H1 H2.
  apply (session_w o n plan mode sim sim true false no_log); [left; reflexivity|right; split; [exact W|reflexivity]].
Qed.
Print Assumptions C176_logging.
(** An application made for simulation whose callback leaves everything to the runtime does what the application
    made for the robot does. *)
Theorem C176_simulation : forall (V M Er E : Type) (o : oracles V M Er E) n plan logging mode between m env e1 m1 l1 e2 m2 l2, neutral o ->
  session (App n plan true logging mode) o between m env = (e1, m1, l1) -> session (App n plan false logging mode) o between m env = (e2, m2, l2) ->
  e1 = e2 /\ m1 = m2 /\ seen no_sim l1 = l2.
Proof.
  intros V M Er E o n plan logging mode between m env e1 m1 l1 e2 m2 l2 W H1 H2.
  pose proof (session_q o n plan mode false logging no_sim ltac:(intros []; cbn; congruence) between m env) as Q. rewrite H2 in Q. cbn [snd] in Q. rewrite <- Q. revert H1 H2.
  apply (session_w o n plan mode true false logging logging no_sim); [right; split; [exact W|reflexivity]|left; reflexivity].
Qed.
Print Assumptions C176_simulation.
(** The robot of ReplayProps with a callback that leaves everything to the runtime; an error comes up in the first iteration. *)
Definition plain_bot (log : bool) : oracles nat unit nat bot := let o := robot line_kind true 7 0 Ignore in
  {| o_task := o_task o; o_process := o_process o; o_sink := o_sink o; o_sim := fun ph t env => (env, ExecuteByRuntime);
     o_sim_process := fun t ins out env => (env, out, ExecuteByRuntime); o_decide := fun ph t e env => (env, if e =? 5 then Shutdown else Ignore); o_report := o_report o;
     o_monitor := o_monitor o; o_now := o_now o; o_log := fun env c => log |}.
Definition ex_watch (sim logging : bool) := session (App 3 line sim logging Checked) (plain_bot true) settings (mgr_new 10 zero3) bot0.
Example C176_case : writes_succeed (plain_bot true) /\ neutral (plain_bot true) /\
  map snd (snd (ex_watch true true)) = [ROk; ROk; ROk; ROk] /\ map (fun x => length (fst x)) (snd (ex_watch true true)) = [7; 21; 20; 20] /\
  map (fun x => length (fst x)) (snd (ex_watch true false)) = [7; 20; 19; 19] /\ map (fun x => length (fst x)) (snd (ex_watch false true)) = [4; 12; 11; 11].
Proof. split; [intros ? ?; reflexivity|]. split; [constructor; reflexivity|]. repeat split; vm_compute; reflexivity. Qed.
(** Without the condition on the writes: a write that fails ends the run with a panic. *)
Theorem C176_write_refuted : exists (o : oracles nat unit nat bot) n plan sim mode between m env, neutral o /\
  map snd (snd (session (App n plan sim true mode) o between m env)) = [ROk; RPanic] /\ map snd (snd (session (App n plan sim false mode) o between m env)) = [ROk; ROk].
Proof.
  exists (plain_bot false), 3, line, false, Checked, [fun e => e], (mgr_new 10 zero3), bot0. split; [constructor; reflexivity|]. split; vm_compute; reflexivity.
Qed.
Print Assumptions C176_write_refuted.
