(** Errors that the monitor ignores: theorems. *)
From Coq Require Import String List Arith NArith Bool Lia ZifyBool ZifyNat ZifyN.
From Verif Require Import Base CuListModel PlanModel RuntimeModel RuntimeSpec RuntimeProps ReplaySpec ReplayProps RivalProps.
Import ListNotations.
Local Open Scope list_scope.
Local Open Scope nat_scope.

(** * Specification *)
(** The second robot is the first, except that where a task of the first fails, the one of the second does the same,
    reports no error and, if it was to process, sends no payload. Sinks, which send nothing, fail in both. *)
Record forgives {V M Er E : Type} (o o' : oracles V M Er E) : Prop := {
  fg_task : forall ph t env, o_task o' ph t env = (fst (o_task o ph t env), None);
  fg_process : forall t ins out env env1 out1 r, o_process o t ins out env = (env1, out1, r) ->
    o_process o' t ins out env = (env1, match r with Some _ => Msg None (m_meta out1) (m_start out1) (m_end out1) | None => out1 end, None);
  fg_sink : forall t ins env, o_sink o' t ins env = o_sink o t ins env;
  fg_sim : forall ph t env, o_sim o' ph t env = o_sim o ph t env;
  fg_sim_process : forall t ins out env, o_sim_process o' t ins out env = o_sim_process o t ins out env;
  fg_decide : forall ph t e env, o_decide o' ph t e env = o_decide o ph t e env;
  fg_report : forall md env, o_report o' md env = o_report o md env;
  fg_monitor : forall ph env, o_monitor o' ph env = o_monitor o ph env;
  fg_now : forall env, o_now o' env = o_now o env;
  fg_log : forall env c, o_log o' env c = o_log o env c }.
(** What happened, without errors of tasks and what the monitor decided about them. *)
Definition forgiven {V M Er} (e : event V M Er) : list (event V M Er) :=
  match e with
  | ETask ph t _ => [ETask ph t None]
  | EProcess t ins _ => [EProcess t ins None]
  | EDecision _ _ _ _ => []
  | _ => [e]
  end.
Definition without_errors {V M Er} (l : list (list (event V M Er) * result (Er := Er))) : list (list (event V M Er) * result (Er := Er)) :=
  map (fun x => (flat_map forgiven (fst x), snd x)) l.

(** * Proofs *)
Section Forgive.
Context {V M Er E : Type}.
Variable a : application.
Variables o o' : oracles V M Er E.
Hypothesis FG : forgives o o'.
Hypothesis IG : forall ph t e env, o_decide o ph t e env = (env, Ignore).
Notation message := (msg V M).
Notation ev := (event V M Er).
Definition fg3 {F} (x y : E * list ev * F) : Prop := let '(e1, t1, f1) := x in let '(e2, t2, f2) := y in e1 = e2 /\ flat_map forgiven t1 = flat_map forgiven t2 /\ f1 = f2.
Definition fg4 {G F} (x y : E * list ev * G * F) : Prop := let '(e1, t1, g1, f1) := x in let '(e2, t2, g2, f2) := y in e1 = e2 /\ flat_map forgiven t1 = flat_map forgiven t2 /\ g1 = g2 /\ f1 = f2.
Definition fg5 {G F} (x y : E * G * list ev * F) : Prop := let '(e1, g1, t1, f1) := x in let '(e2, g2, t2, f2) := y in e1 = e2 /\ flat_map forgiven t1 = flat_map forgiven t2 /\ g1 = g2 /\ f1 = f2.
Lemma act_f ph t e env : act o ph t e env = (env, [EDecision ph t e Ignore], Next). Proof. unfold act. rewrite IG. reflexivity. Qed.
Lemma act_f' ph t e env : act o' ph t e env = (env, [EDecision ph t e Ignore], Next). Proof. unfold act. rewrite (fg_decide _ _ FG), IG. reflexivity. Qed.
Lemma pact_f t e out env : pact o t e out env = (env, [EDecision Process t e Ignore], clear_payload out, PNext). Proof. unfold pact. rewrite IG. reflexivity. Qed.
Lemma pact_f' t e out env : pact o' t e out env = (env, [EDecision Process t e Ignore], clear_payload out, PNext). Proof. unfold pact. rewrite (fg_decide _ _ FG), IG. reflexivity. Qed.
Lemma do_call_f ph t env : fg3 (do_call o ph t env) (do_call o' ph t env).
Proof. unfold do_call. rewrite (fg_task _ _ FG). destruct (o_task o ph t env) as [e1 [e|]]; [rewrite act_f|]; cbn; auto. Qed.
Lemma one_call_f ph t env : fg3 (one_call a o ph t env) (one_call a o' ph t env).
Proof.
  unfold one_call. destruct (a_sim a); [|apply do_call_f]. rewrite (fg_sim _ _ FG). destruct (o_sim o ph t env) as [e1 x]. destruct x as [| |e]; [cbn; auto| |rewrite act_f, act_f'; cbn; auto].
  pose proof (do_call_f ph t e1) as H. destruct (do_call o ph t e1) as [[? ?] ?], (do_call o' ph t e1) as [[? ?] ?]. destruct H as (-> & H & ->). cbn. rewrite H. auto.
Qed.
Lemma lifecycle_f ph : forall ts env, fg3 (lifecycle a o ph ts env) (lifecycle a o' ph ts env).
Proof.
  induction ts as [|t ts IH]; intros env; cbn [lifecycle]; [cbn; auto|]. pose proof (one_call_f ph t env) as H.
  destruct (one_call a o ph t env) as [[e1 t1] f1], (one_call a o' ph t env) as [[e2 t2] f2]. destruct H as (<- & H & <-). destruct f1; cbn; auto.
  specialize (IH e1). destruct (lifecycle a o ph ts e1) as [[e3 t3] f3], (lifecycle a o' ph ts e1) as [[e4 t4] f4]. destruct IH as (<- & I & <-). cbn. rewrite !flat_map_app, H, I. auto.
Qed.
Lemma do_process_f s ins doit out env : fg4 (do_process o s ins doit out env) (do_process o' s ins doit out env).
Proof.
  unfold do_process. rewrite (fg_now _ _ FG). destruct (o_now o env) as [e1 t0].
  destruct doit; [destruct (s_type s)|].
  1,2: destruct (o_process o (s_node s) ins (with_start t0 out) e1) as [[e2 out2] r] eqn:P; rewrite (fg_process _ _ FG _ _ _ _ _ _ _ P), (fg_now _ _ FG);
    destruct (o_now o e2) as [e3 t1]; destruct r as [e|]; [rewrite pact_f|]; cbn; auto.
  - rewrite (fg_sink _ _ FG). destruct (o_sink o (s_node s) ins e1) as [e2 r]. rewrite (fg_now _ _ FG). destruct (o_now o e2) as [e3 t1]. destruct r as [e|]; [rewrite pact_f, pact_f'|]; cbn; auto.
  - rewrite (fg_now _ _ FG). destruct (o_now o e1) as [e3 t1]. cbn; auto.
Qed.
Lemma process_msg_f s ins out env : fg4 (process_msg a o s ins out env) (process_msg a o' s ins out env).
Proof.
  unfold process_msg. destruct (a_sim a); [|apply do_process_f]. rewrite (fg_sim_process _ _ FG). destruct (o_sim_process o (s_node s) ins out env) as [[e1 out1] x].
  assert (D : forall b out' e1 tr, fg4 (let '(env, tr', out, f) := do_process o s ins b out' e1 in (env, tr ++ tr', out, f)) (let '(env, tr', out, f) := do_process o' s ins b out' e1 in (env, tr ++ tr', out, f))).
  { intros b out' e2 tr. pose proof (do_process_f s ins b out' e2) as H. destruct (do_process o s ins b out' e2) as [[[? ?] ?] ?], (do_process o' s ins b out' e2) as [[[? ?] ?] ?].
    destruct H as (-> & H & -> & ->). cbn. rewrite !flat_map_app, H. auto. }
  destruct x as [| |e]; [apply (D false out1 e1 [ESim Process (s_node s) ExecutedBySim])|apply (D true out1 e1 [ESim Process (s_node s) ExecuteByRuntime])|].
  rewrite pact_f, pact_f'. apply (D false (clear_payload out1) e1 [ESim Process (s_node s) (Errored e); EDecision Process (s_node s) e Ignore]).
Qed.
Lemma process_all_f : forall ss msgs env, fg4 (process_all a o ss msgs env) (process_all a o' ss msgs env).
Proof.
  induction ss as [|s ss IH]; intros msgs env; cbn [process_all]; [cbn; auto|]. unfold process_step. destruct (s_out s) as [[k ty]|]; [|cbn; auto].
  destruct (nth_error msgs k) as [out|]; [|cbn; auto]. destruct (gather msgs (s_inputs s)) as [ins|]; [|cbn; auto]. pose proof (process_msg_f s ins out env) as H.
  destruct (process_msg a o s ins out env) as [[[e1 t1] o1] f1], (process_msg a o' s ins out env) as [[[e2 t2] o2] f2]. destruct H as (<- & H & <- & <-). destruct f1; cbn; auto.
  specialize (IH (upd k o1 msgs) e1). destruct (process_all a o ss (upd k o1 msgs) e1) as [[[e3 t3] o3] f3], (process_all a o' ss (upd k o1 msgs) e1) as [[[e4 t4] o4] f4].
  destruct IH as (<- & I & <- & <-). cbn. rewrite !flat_map_app, H, I. auto.
Qed.
Lemma eop_f env id : forall (l : list (cl (list message))) s, fold_left (eop_step (Some (o_log o' env)) id) l s = fold_left (eop_step (Some (o_log o env)) id) l s.
Proof.
  induction l as [|c l IH]; intros s; cbn [fold_left]; [reflexivity|]. rewrite IH. f_equal. unfold eop_step. destruct s as [[[[? ?] ?] ?]|]; [|reflexivity]. cbn [obind]. rewrite (fg_log _ _ FG). reflexivity.
Qed.
Lemma finish_f id m env : finish a o' id m env = finish a o id m env.
Proof. unfold finish, end_of_processing. destruct (a_logging a); [|reflexivity]. destruct (iter_mut m); cbn [obind]; [|reflexivity]. rewrite eop_f. reflexivity. Qed.
Lemma report_f id m msgs env : report_and_finish a o' id m msgs env = report_and_finish a o id m msgs env.
Proof. unfold report_and_finish. destruct (collect_metadata a msgs); [|reflexivity]. rewrite (fg_report _ _ FG). destruct (o_report o l env) as [e1 [e|]]; [reflexivity|]. rewrite finish_f. reflexivity. Qed.
Lemma body_f m env : fg5 (copperlist_body a o m env) (copperlist_body a o' m env).
Proof.
  unfold copperlist_body. destruct (create (a_mode a) m) as [[[p i]|]|]; [|cbn; auto..]. destruct (nth_error (m_data p) i) as [c|]; [|cbn; auto].
  pose proof (process_all_f (a_plan a) (cl_msgs c) env) as H. destruct (process_all a o (a_plan a) (cl_msgs c) env) as [[[e1 t1] ms1] f1], (process_all a o' (a_plan a) (cl_msgs c) env) as [[[e2 t2] ms2] f2].
  destruct H as (<- & H & <- & <-). rewrite report_f.
  destruct (report_and_finish a o (cl_id c) (set_slot i (mkCl (cl_id c) Processing ms1) p) ms1 e1) as [[[e3 q1] t3] f3].
  destruct f1; [|cbn; rewrite ?flat_map_app, ?H; auto..].
  destruct (match collect_metadata a ms1 with Some md => e2e a md | None => Panic end); cbn; rewrite ?flat_map_app, ?H; auto.
Qed.
Lemma iteration_f m env : fg5 (run_one_iteration a o m env) (run_one_iteration a o' m env).
Proof.
  unfold run_one_iteration. pose proof (lifecycle_f Preprocess (seq 0 (a_tasks a)) env) as H.
  destruct (lifecycle a o Preprocess (seq 0 (a_tasks a)) env) as [[e1 t1] f1], (lifecycle a o' Preprocess (seq 0 (a_tasks a)) env) as [[e2 t2] f2]. destruct H as (<- & H & <-). destruct f1; [|cbn; auto..].
  pose proof (body_f m e1) as B. destruct (copperlist_body a o m e1) as [[[e3 q1] t3] f3], (copperlist_body a o' m e1) as [[[e4 q2] t4] f4]. destruct B as (<- & B & <- & <-).
  destruct f3; [|cbn; rewrite !flat_map_app, H, B; auto..]. pose proof (lifecycle_f Postprocess (seq 0 (a_tasks a)) e3) as L.
  destruct (lifecycle a o Postprocess (seq 0 (a_tasks a)) e3) as [[e5 t5] f5], (lifecycle a o' Postprocess (seq 0 (a_tasks a)) e3) as [[e6 t6] f6]. destruct L as (<- & L & <-). cbn. rewrite !flat_map_app, H, B, L. auto.
Qed.
Lemma driven_f : forall between m env e1 m1 l1 e2 m2 l2, driven a o between m env = (e1, m1, l1) -> driven a o' between m env = (e2, m2, l2) -> e1 = e2 /\ m1 = m2 /\ without_errors l1 = without_errors l2.
Proof.
  induction between as [|b bs IH]; intros m env e1 m1 l1 e2 m2 l2 H1 H2; cbn [driven] in H1, H2.
  - injection H1 as <- <- <-. injection H2 as <- <- <-. auto.
  - pose proof (iteration_f m (b env)) as I.
    destruct (run_one_iteration a o m (b env)) as [[[e3 q1] t3] r3], (run_one_iteration a o' m (b env)) as [[[e4 q2] t4] r4]. destruct I as (<- & I & <- & <-).
    destruct (driven a o bs q1 e3) as [[e5 q5] l5] eqn:D1. destruct (driven a o' bs q1 e3) as [[e6 q6] l6] eqn:D2. injection H1 as <- <- <-. injection H2 as <- <- <-.
    destruct (IH _ _ _ _ _ _ _ _ D1 D2) as (-> & -> & J). unfold without_errors in *. cbn [map fst snd]. rewrite I, J. auto.
Qed.
Lemma session_f between m env e1 m1 l1 e2 m2 l2 : session a o between m env = (e1, m1, l1) -> session a o' between m env = (e2, m2, l2) -> e1 = e2 /\ m1 = m2 /\ without_errors l1 = without_errors l2.
Proof.
  unfold session. assert (S : fg3 (all_tasks a o Start env) (all_tasks a o' Start env)).
  { unfold all_tasks. pose proof (lifecycle_f Start (seq 0 (a_tasks a)) env) as H.
    destruct (lifecycle a o Start (seq 0 (a_tasks a)) env) as [[e3 t3] f3], (lifecycle a o' Start (seq 0 (a_tasks a)) env) as [[e4 t4] f4]. destruct H as (<- & H & <-). destruct f3; [|cbn; auto..].
    rewrite (fg_monitor _ _ FG). destruct (o_monitor o Start e3) as [e5 r]. cbn. rewrite !flat_map_app, H. auto. }
  destruct (all_tasks a o Start env) as [[e3 t3] r3], (all_tasks a o' Start env) as [[e4 t4] r4]. destruct S as (<- & S & <-).
  destruct (driven a o between m e3) as [[e5 q5] l5] eqn:D1. destruct (driven a o' between m e3) as [[e6 q6] l6] eqn:D2. intros X1 X2. injection X1 as <- <- <-. injection X2 as <- <- <-.
  destruct (driven_f _ _ _ _ _ _ _ _ _ D1 D2) as (-> & -> & J). unfold without_errors in *. cbn [map fst snd]. rewrite S, J. auto.
Qed.
End Forgive.

Lemma beside_forgives {V M Er W N : Type} (o o' : oracles V M Er W) (q : oracles V M Er N) : forgives o o' -> forgives (beside o q) (beside o' q).
Proof.
  intros F. constructor; cbn; intros.
  - rewrite (fg_task _ _ F). destruct (o_task o ph t (fst env)). reflexivity.
  - destruct (o_process o t ins out (fst env)) as [[w out'] r'] eqn:P. rewrite (fg_process _ _ F _ _ _ _ _ _ _ P). injection H as <- <- <-. reflexivity.
  - rewrite (fg_sink _ _ F). reflexivity.
  - rewrite (fg_sim _ _ F). reflexivity.
  - rewrite (fg_sim_process _ _ F). reflexivity.
  - reflexivity.
  - reflexivity.
  - reflexivity.
  - rewrite (fg_now _ _ F). reflexivity.
  - apply (fg_log _ _ F).
Qed.

(** * Theorems *)
(** Under a monitor that ignores errors and whose other answers do not depend on them, a task that fails is as good
    as one that sends nothing. *)
Theorem C178_ignored : forall (V M Er W N : Type) (eq_er : forall x y : Er, {x = y} + {x <> y}) (a : application) (o o' : oracles V M Er W) (q : oracles V M Er N) between m w n e1 m1 l1 e2 m2 l2,
  forgives o o' -> (forall ph t e x, snd (o_decide q ph t e x) = Ignore) -> (forall md x y, snd (o_report q md x) = snd (o_report q md y)) -> (forall ph x y, snd (o_monitor q ph x) = snd (o_monitor q ph y)) ->
  session a (beside o q) (map on_world between) m (w, n) = (e1, m1, l1) -> session a (beside o' q) (map on_world between) m (w, n) = (e2, m2, l2) ->
  fst e1 = fst e2 /\ m1 = m2 /\ without_errors l1 = without_errors l2.
Proof.
  intros V M Er W N eq_er a o o' q between m w n e1 m1 l1 e2 m2 l2 F D Rp Mo H1 H2.
  set (q0 := {| o_task := fun _ _ (x : unit) => (x, None); o_process := fun _ _ out x => (x, out, None); o_sink := fun _ _ x => (x, None); o_sim := fun _ _ x => (x, ExecuteByRuntime);
     o_sim_process := fun _ _ out x => (x, out, ExecuteByRuntime); o_decide := fun ph t e x => (x, Ignore); o_report := fun md x => (x, snd (o_report q md n)); o_monitor := fun ph x => (x, snd (o_monitor q ph n));
     o_now := fun x => (x, 0%N); o_log := fun x c => true |} : oracles V M Er unit).
  destruct (session a (beside o q0) (map on_world between) m (w, tt)) as [[e3 m3] l3] eqn:H3. destruct (session a (beside o' q0) (map on_world between) m (w, tt)) as [[e4 m4] l4] eqn:H4.
  destruct (C177_exchange V M Er W N unit eq_er a o q q0 between m w n tt _ _ _ _ _ _ (fun ph t e x _ => D ph t e x) (fun md x _ => Rp md x n) (fun ph x _ => Mo ph x n) H1 H3) as (-> & -> & ->).
  destruct (C177_exchange V M Er W N unit eq_er a o' q q0 between m w n tt _ _ _ _ _ _ (fun ph t e x _ => D ph t e x) (fun md x _ => Rp md x n) (fun ph x _ => Mo ph x n) H2 H4) as (-> & -> & ->).
  destruct (session_f a _ _ (beside_forgives o o' q0 F) ltac:(intros ph t e [x []]; reflexivity) _ _ _ _ _ _ _ _ _ H3 H4) as (-> & -> & J). auto.
Qed.
Print Assumptions C178_ignored.
(** The robot of ReplayProps, whose source and task fail now and then, and its forgiving twin. *)
Definition forgive (o : oracles nat unit nat bot) : oracles nat unit nat bot :=
  {| o_task := fun ph t env => (fst (o_task o ph t env), None);
     o_process := fun t ins out env => let '(env, out, r) := o_process o t ins out env in (env, match r with Some _ => Msg None (m_meta out) (m_start out) (m_end out) | None => out end, None);
     o_sink := o_sink o; o_sim := o_sim o; o_sim_process := o_sim_process o; o_decide := o_decide o; o_report := o_report o; o_monitor := o_monitor o; o_now := o_now o; o_log := o_log o |}.
Definition ex_forgive (o : oracles nat unit nat bot) := session (line_app false) (beside o (gentle 3)) (map on_world settings) (mgr_new 10 zero3) (bot0, 0).
Example C178_case : let o := robot line_kind true 7 2 Ignore in forgives o (forgive o) /\ (forall ph t e x, snd (o_decide (gentle 3) ph t e x) = Ignore) /\
  (forall md x y, snd (o_report (gentle 3) md x) = snd (o_report (gentle 3) md y)) /\ (forall ph x y, snd (o_monitor (gentle 3) ph x) = snd (o_monitor (gentle 3) ph y)) /\
  snd (fst (fst (ex_forgive o))) = 15 /\ snd (fst (fst (ex_forgive (forgive o)))) = 9 /\ snd (ex_forgive o) <> snd (ex_forgive (forgive o)) /\
  without_errors (snd (ex_forgive o)) = without_errors (snd (ex_forgive (forgive o))).
Proof.
  cbv zeta. split; [constructor; try reflexivity; intros t ins out env env1 out1 r P; cbn [forgive o_process]; rewrite P; reflexivity|].
  split; [reflexivity|]. split; [reflexivity|]. split; [reflexivity|]. split; [vm_compute; reflexivity|]. split; [vm_compute; reflexivity|].
  split; [intros X; vm_compute in X; discriminate|vm_compute; reflexivity].
Qed.
