(** Proofs about the generated run loop: neighbouring events, ignored failures, whole runs. *)
From Coq Require Import String List Arith NArith Bool Lia Sorted.
From Verif Require Import Base CuListModel CuListSpec CuListProofs PlanModel RuntimeModel RuntimeSpec RuntimeProofs RuntimeProofs2 RuntimeProofs3.
Import ListNotations.
Local Open Scope list_scope.
Local Open Scope nat_scope.

Section Proofs.
Context {V M Er E : Type}.
Variable a : application.
Variable o : oracles V M Er E.
Notation ev := (event V M Er).
Notation message := (msg V M).
Notation order := (map s_node (a_plan a)).
Implicit Types (env : E) (tr : list ev) (m : mgr (list message)).

(** ** Neighbouring events *)
Fixpoint linked (prev : option ev) (tr : list ev) : Prop :=
  match tr with
  | [] => True
  | x :: tr => justified (a_sim a) prev x /\ demands x (hd_error tr) /\ linked (Some x) tr
  end.

Lemma justified_any b p (x : ev) : justified b None x -> justified b p x.
Proof.
  destruct x; cbn; auto.
  - intros H S. discriminate (H S).
  - intros H S. discriminate (H S).
  - intros [H|(c & H & _)]; discriminate.
Qed.
Lemma demands_any n (x : ev) : demands x None -> demands x n.
Proof.
  destruct x; cbn; auto.
  - destruct r; auto. intros (d & H). discriminate.
  - destruct r; auto. intros (d & H). discriminate.
  - destruct o0; auto.
    + intros (c & r & H & _). discriminate.
    + intros (d & H). discriminate.
Qed.
Lemma linked_any p tr : linked None tr -> linked p tr.
Proof. destruct tr; cbn; auto. intros (H & R). split; auto. apply justified_any; auto. Qed.
Lemma linked_app p tr1 tr2 : linked p tr1 -> linked None tr2 -> linked p (tr1 ++ tr2).
Proof.
  revert p. induction tr1 as [|x tr1 IH]; intros p; cbn.
  - intros _. apply linked_any.
  - intros (H1 & H2 & H3) L. split; auto. split; [|auto].
    destruct tr1; cbn in *; auto. apply demands_any; auto.
Qed.
Lemma linked_free p tr : Forall (fun x => forall q, justified (a_sim a) q x /\ demands x None) tr -> linked p tr.
Proof.
  revert p. induction tr as [|x tr IH]; intros p F; cbn; auto. inversion F; subst.
  split; [apply H1|]. split; [apply demands_any; apply (H1 None)|]. auto.
Qed.

Lemma act_linked ph t e env env' tr f : act o ph t e env = (env', tr, f) ->
  exists d, tr = [EDecision ph t e d].
Proof. unfold act. destruct (o_decide o ph t e env) as [e1 d]. intros H; injection H as <- <- <-. eauto. Qed.

Lemma do_call_linked p ph t env env' tr f : ph <> Process -> do_call o ph t env = (env', tr, f) ->
  (a_sim a = true -> p = Some (ESim ph t ExecuteByRuntime)) ->
  linked p tr /\ exists r tr', tr = ETask ph t r :: tr'.
Proof.
  intros NP. unfold do_call. destruct (o_task o ph t env) as [env1 [e|]].
  - destruct (act o ph t e env1) as [[env2 tr2] f2] eqn:A. apply act_linked in A. destruct A as (d & ->).
    intros H; injection H as <- <- <-. intros S. cbn. split; [|eauto].
    split; auto. split; [eauto|]. split; auto. right. eexists. split; [reflexivity|]. destruct ph; cbn; congruence.
  - intros H; injection H as <- <- <-. intros S. cbn. split; eauto.
Qed.

Lemma one_call_linked ph t env env' tr f : ph <> Process -> one_call a o ph t env = (env', tr, f) -> linked None tr.
Proof.
  intros NP. unfold one_call. destruct (a_sim a) eqn:S.
  - destruct (o_sim o ph t env) as [env1 [| |e]].
    + intros H; injection H as <- <- <-. cbn. rewrite S. auto.
    + destruct (do_call o ph t env1) as [[env2 tr2] f2] eqn:D.
      apply (do_call_linked (Some (ESim ph t ExecuteByRuntime))) in D; auto.
      destruct D as (L & r & tr' & ->). intros H; injection H as <- <- <-.
      split; [exact S|]. split; [|exact L]. exists (ETask ph t r), r. split; auto. destruct ph; cbn; congruence.
    + destruct (act o ph t e env1) as [[env2 tr2] f2] eqn:A. apply act_linked in A. destruct A as (d & ->).
      intros H; injection H as <- <- <-. cbn. rewrite S. split; auto. split; [eauto|]. auto.
  - intros D. apply (do_call_linked None) in D; auto; [|congruence]. destruct D as (L & _). auto.
Qed.
Lemma lifecycle_linked ph ts : ph <> Process -> forall env env' tr f, lifecycle a o ph ts env = (env', tr, f) -> linked None tr.
Proof.
  intros NP. induction ts as [|t ts IH]; intros env env' tr f; cbn [lifecycle].
  - intros H; injection H as <- <- <-. exact I.
  - destruct (one_call a o ph t env) as [[env1 tr1] f1] eqn:O. apply one_call_linked in O; auto.
    destruct f1; try (intros H; injection H as <- <- <-; auto; fail).
    destruct (lifecycle a o ph ts env1) as [[env2 tr2] f2] eqn:L. apply IH in L.
    intros H; injection H as <- <- <-. apply linked_app; auto.
Qed.

Lemma pact_linked t e out env env' tr out' f : pact o t e out env = (env', tr, out', f) ->
  exists d, tr = [EDecision Process t e d].
Proof.
  unfold pact. destruct (o_decide o Process t e env) as [e1 d].
  destruct d; intros H; injection H as <- <- <- <-; eauto.
Qed.
Lemma do_process_skip s ins out env env' tr out' f : do_process o s ins false out env = (env', tr, out', f) -> tr = [].
Proof.
  unfold do_process. destruct (o_now o env) as [env0 t0]. destruct (o_now o env0) as [env2 t1].
  intros H; injection H as <- <- <- <-. auto.
Qed.
Lemma do_process_linked p s ins out env env' tr out' f : do_process o s ins true out env = (env', tr, out', f) ->
  (a_sim a = true -> p = Some (ESim Process (s_node s) ExecuteByRuntime)) ->
  linked p tr /\ exists r tr', tr = EProcess (s_node s) ins r :: tr'.
Proof.
  unfold do_process. destruct (o_now o env) as [env0 t0].
  set (X := match s_type s with Sink => _ | _ => _ end).
  assert (HX : exists e1 o1 r, X = (e1, [EProcess (s_node s) ins r], o1, r)).
  { subst X. destruct (s_type s).
    - destruct (o_process o (s_node s) ins (with_start t0 out) env0) as [[e1 o1] r1]. eauto.
    - destruct (o_process o (s_node s) ins (with_start t0 out) env0) as [[e1 o1] r1]. eauto.
    - destruct (o_sink o (s_node s) ins env0) as [e1 r1]. eauto. }
  destruct HX as (env1 & out1 & r & ->). destruct (o_now o env1) as [env2 t1].
  destruct r as [e|].
  - destruct (pact o (s_node s) e (with_end t1 out1) env2) as [[[env3 tr3] out3] f3] eqn:P.
    apply pact_linked in P. destruct P as (d & ->). intros H; injection H as <- <- <- <-. intros S. cbn.
    split; [|eauto]. split; auto. split; [eauto|]. split; auto. right. eexists. split; [reflexivity|]. eexists. reflexivity.
  - intros H; injection H as <- <- <- <-. intros S. cbn. split; eauto.
Qed.
Lemma process_step_linked s msgs env env' tr msgs' f :
  process_step a o s msgs env = (env', tr, msgs', f) -> linked None tr.
Proof.
  unfold process_step. destruct (s_out s) as [[k ty]|]; [|intros H; injection H as <- <- <- <-; exact I].
  destruct (nth_error msgs k) as [out|]; [|intros H; injection H as <- <- <- <-; exact I].
  destruct (gather msgs (s_inputs s)) as [ins|]; [|intros H; injection H as <- <- <- <-; exact I].
  unfold process_msg. destruct (a_sim a) eqn:S.
  - destruct (o_sim_process o (s_node s) ins out env) as [[env1 out1] ovr]. destruct ovr as [| |e].
    + destruct (do_process o s ins false out1 env1) as [[[env3 tr3] out3] f3] eqn:P.
      apply do_process_skip in P. subst. intros H; injection H as <- <- <- <-. cbn. rewrite S. auto.
    + destruct (do_process o s ins true out1 env1) as [[[env3 tr3] out3] f3] eqn:P.
      apply (do_process_linked (Some (ESim Process (s_node s) ExecuteByRuntime))) in P; auto.
      destruct P as (L & r & tr' & ->). intros H; injection H as <- <- <- <-.
      split; [exact S|]. split; [|exact L]. eexists _, r. split; [reflexivity|]. eexists. reflexivity.
    + destruct (pact o (s_node s) e out1 env1) as [[[env3 tr3] out3] f3] eqn:P.
      apply pact_linked in P. destruct P as (d & ->). destruct f3.
      * destruct (do_process o s ins false out3 env3) as [[[env4 tr4] out4] f4] eqn:Q.
        apply do_process_skip in Q. subst. intros H; injection H as <- <- <- <-. cbn. rewrite S. 
        split; auto. split; [eauto|]. auto.
      * intros H; injection H as <- <- <- <-. cbn. rewrite S. split; auto. split; [eauto|]. auto.
      * intros H; injection H as <- <- <- <-. cbn. rewrite S. split; auto. split; [eauto|]. auto.
      * intros H; injection H as <- <- <- <-. cbn. rewrite S. split; auto. split; [eauto|]. auto.
  - destruct (do_process o s ins true out env) as [[[env3 tr3] out3] f3] eqn:P.
    apply (do_process_linked None) in P; [|congruence]. intros H; injection H as <- <- <- <-. tauto.
Qed.
Lemma process_all_linked ss : forall msgs env env' tr msgs' f,
  process_all a o ss msgs env = (env', tr, msgs', f) -> linked None tr.
Proof.
  induction ss as [|s ss IH]; intros msgs env env' tr msgs' f; cbn [process_all].
  - intros H; injection H as <- <- <- <-. exact I.
  - destruct (process_step a o s msgs env) as [[[env1 tr1] msgs1] f1] eqn:P. apply process_step_linked in P.
    destruct f1; try (intros H; injection H as <- <- <- <-; auto; fail).
    destruct (process_all a o ss msgs1 env1) as [[[env2 tr2] msgs2] f2] eqn:Q. apply IH in Q.
    intros H; injection H as <- <- <- <-. apply linked_app; auto.
Qed.
Lemma quiet_linked p tr : quiet tr -> linked p tr.
Proof.
  intros Q. apply linked_free. eapply Forall_impl; [|exact Q]. intros x H q. destruct x; cbn in *; tauto.
Qed.
Lemma body_linked m1 m' id msgs tr pf r : body_case a o m1 m' id msgs tr pf r -> linked None tr.
Proof.
  intros B. inversion B; subst; try exact I.
  - eapply quiet_linked, reports_quiet; eauto.
  - eapply quiet_linked, reports_quiet; eauto.
  - eapply quiet_linked, reports_quiet; eauto.
  - apply linked_app; [eapply quiet_linked, reports_quiet; eauto|].
    match goal with X : ran _ _ _ _ _ |- _ => destruct X as (e1 & e2 & X); eapply lifecycle_linked; [|exact X] end. discriminate.
Qed.
Lemma iteration_linked m env env' m' tr r : run_one_iteration a o m env = (env', m', tr, r) -> linked None tr.
Proof.
  intros H. apply iteration_spec in H.
  assert (G : forall tr f, ran a o Preprocess tr f -> linked None tr).
  { clear. intros tr f (e1 & e2 & X). eapply lifecycle_linked; [|exact X]. discriminate. }
  destruct H as [r Em R1|Em R1 F|tr1 tr2 tr3 m1 i c msgs pf r R1 C N PA -> BC]; eauto.
  destruct PA as (e1 & e2 & PA). apply process_all_linked in PA. apply body_linked in BC.
  repeat apply linked_app; eauto.
Qed.
Lemma all_tasks_linked ph env env' tr r : ph <> Process -> all_tasks a o ph env = (env', tr, r) -> linked None tr.
Proof.
  intros NP. unfold all_tasks. destruct (lifecycle a o ph (seq 0 (a_tasks a)) env) as [[env1 tr1] f] eqn:L.
  apply lifecycle_linked in L; auto. destruct f.
  - destruct (o_monitor o ph env1) as [env2 r2]. intros H; injection H as <- <- <-. apply linked_app; auto. cbn. auto.
  - intros H; injection H as <- <- <-. auto.
  - intros H; injection H as <- <- <-. auto.
Qed.
Lemma run_loop_linked fuel : forall m env env' m' tr r, run_loop a o fuel m env = (env', m', tr, r) -> linked None tr.
Proof.
  induction fuel as [|n IH]; intros m env env' m' tr r; cbn [run_loop].
  - intros H; injection H as <- <- <- <-. exact I.
  - destruct (run_one_iteration a o m env) as [[[env1 m1] tr1] r1] eqn:R. apply iteration_linked in R.
    destruct r1; try (intros H; injection H as <- <- <- <-; auto; fail).
    destruct (run_loop a o n m1 env1) as [[[env2 m2] tr2] r2] eqn:L. apply IH in L.
    intros H; injection H as <- <- <- <-. apply linked_app; auto.
Qed.
Lemma run_linked fuel m env env' m' tr r : run a o fuel m env = (env', m', tr, r) -> linked None tr.
Proof.
  unfold run. destruct (all_tasks a o Start env) as [[env1 tr1] r1] eqn:A1. apply all_tasks_linked in A1; [|discriminate].
  destruct r1; try (intros H; injection H as <- <- <- <-; auto; fail).
  destruct (run_loop a o fuel m env1) as [[[env2 m2] tr2] r2] eqn:L. apply run_loop_linked in L.
  assert (L2 : linked None (tr1 ++ tr2)) by (apply linked_app; auto).
  destruct r2 as [[|e|]|]; try (intros H; injection H as <- <- <- <-; auto; fail).
  destruct (all_tasks a o Stop env2) as [[env3 tr3] r3] eqn:A3. apply all_tasks_linked in A3; [|discriminate].
  intros H; injection H as <- <- <- <-. rewrite app_assoc. apply linked_app; auto.
Qed.

Lemma linked_split p tr pre x post : linked p tr -> tr = pre ++ x :: post ->
  justified (a_sim a) (match last_of pre with None => p | y => y end) x /\ demands x (hd_error post).
Proof.
  intros L ->. revert p L. induction pre as [|y pre IH]; intros p; cbn [app linked].
  - intros (H1 & H2 & _). auto.
  - intros (_ & _ & H3). apply IH in H3. destruct H3 as [H3 H4]. split; auto.
    unfold last_of in *. cbn [rev]. destruct (rev pre) as [|z r]; cbn in *; auto.
Qed.

(** Lifecycle calls only involve their own phase. *)
Definition phase_of (x : ev) : option phase :=
  match x with ETask ph _ _ | ESim ph _ _ | EDecision ph _ _ _ => Some ph | EProcess _ _ _ => Some Process | _ => None end.
Lemma one_call_phase ph t env env' tr f : one_call a o ph t env = (env', tr, f) -> Forall (fun x => phase_of x = Some ph) tr.
Proof.
  assert (D : forall env env' tr f, do_call o ph t env = (env', tr, f) -> Forall (fun x => phase_of x = Some ph) tr).
  { clear. unfold do_call. intros env env' tr f. destruct (o_task o ph t env) as [env1 [e|]].
    - destruct (act o ph t e env1) as [[env2 tr2] f2] eqn:X. apply act_linked in X. destruct X as (d & ->).
      intros H; injection H as <- <- <-. repeat constructor.
    - intros H; injection H as <- <- <-. repeat constructor. }
  unfold one_call. destruct (a_sim a); [|apply D].
  destruct (o_sim o ph t env) as [env1 [| |e]].
  - intros H; injection H as <- <- <-. repeat constructor.
  - destruct (do_call o ph t env1) as [[env2 tr2] f2] eqn:X. apply D in X.
    intros H; injection H as <- <- <-. constructor; auto.
  - destruct (act o ph t e env1) as [[env2 tr2] f2] eqn:X. apply act_linked in X. destruct X as (d & ->).
    intros H; injection H as <- <- <-. repeat constructor.
Qed.
Lemma lifecycle_phase ph ts : forall env env' tr f, lifecycle a o ph ts env = (env', tr, f) -> Forall (fun x => phase_of x = Some ph) tr.
Proof.
  induction ts as [|t ts IH]; intros env env' tr f; cbn [lifecycle].
  - intros H; injection H as <- <- <-. constructor.
  - destruct (one_call a o ph t env) as [[env1 tr1] f1] eqn:O. apply one_call_phase in O.
    destruct f1; try (intros H; injection H as <- <- <-; auto; fail).
    destruct (lifecycle a o ph ts env1) as [[env2 tr2] f2] eqn:L. apply IH in L.
    intros H; injection H as <- <- <-. apply Forall_app; auto.
Qed.

(** ** Ignored failures *)
Lemma pact_ignored t e out env env' tr out' f t' e' : pact o t e out env = (env', tr, out', f) ->
  In (EDecision Process t' e' Ignore) tr -> t' = t /\ m_payload out' = None.
Proof.
  unfold pact. destruct (o_decide o Process t e env) as [e1 d].
  destruct d; intros H; injection H as <- <- <- <-; intros [D|[]]; try discriminate. injection D as -> _. auto.
Qed.
Lemma do_process_ignored s ins doit out env env' tr out' f t' e' :
  do_process o s ins doit out env = (env', tr, out', f) ->
  (In (EDecision Process t' e' Ignore) tr -> t' = s_node s /\ m_payload out' = None) /\
  (doit = false -> m_payload out' = m_payload out).
Proof.
  unfold do_process. destruct (o_now o env) as [env0 t0]. destruct doit.
  - split; [|discriminate].
    set (X := match s_type s with Sink => _ | _ => _ end) in *.
    assert (HX : exists e1 o1 r, X = (e1, [EProcess (s_node s) ins r], o1, r)).
    { subst X. destruct (s_type s).
      - destruct (o_process o (s_node s) ins (with_start t0 out) env0) as [[e1 o1] r1]. eauto.
      - destruct (o_process o (s_node s) ins (with_start t0 out) env0) as [[e1 o1] r1]. eauto.
      - destruct (o_sink o (s_node s) ins env0) as [e1 r1]. eauto. }
    destruct HX as (env1 & out1 & r & HX). rewrite HX in H. clear HX X. destruct (o_now o env1) as [env2 t1].
    destruct r as [e|].
    + destruct (pact o (s_node s) e (with_end t1 out1) env2) as [[[env3 tr3] out3] f3] eqn:P.
      injection H as <- <- <- <-. intros [D|D]; [discriminate|]. eapply pact_ignored; eauto.
    + injection H as <- <- <- <-. intros [D|[]]; discriminate.
  - destruct (o_now o env0) as [env2 t1]. intros H; injection H as <- <- <- <-. split; [intros []|auto].
Qed.
Lemma process_step_out s msgs env env' tr msgs' f :
  process_step a o s msgs env = (env', tr, msgs', f) ->
  tr = [] /\ msgs' = msgs /\ f = PPanic \/
  exists k ty out', s_out s = Some (k, ty) /\ k < length msgs /\ msgs' = upd k out' msgs /\
    forall t e, In (EDecision Process t e Ignore) tr -> t = s_node s /\ m_payload out' = None.
Proof.
  unfold process_step. destruct (s_out s) as [[k ty]|]; [|intros H; injection H as <- <- <- <-; auto].
  destruct (nth_error msgs k) as [out|] eqn:Nk; [|intros H; injection H as <- <- <- <-; auto].
  destruct (gather msgs (s_inputs s)) as [ins|]; [|intros H; injection H as <- <- <- <-; auto].
  destruct (process_msg a o s ins out env) as [[[env1 tr1] out1] f1] eqn:P.
  intros H; injection H as <- <- <- <-. right. exists k, ty, out1. split; auto.
  split; [apply nth_error_Some; congruence|]. split; auto. intros t e.
  unfold process_msg in P. destruct (a_sim a) eqn:S.
  - destruct (o_sim_process o (s_node s) ins out env) as [[env2 out2] ovr]. destruct ovr as [| |e0].
    + destruct (do_process o s ins false out2 env2) as [[[env3 tr3] out3] f3] eqn:Q.
      eapply do_process_ignored in Q. destruct Q as [Q _].
      injection P as <- <- <- <-. intros [D|D]; [discriminate|eauto].
    + destruct (do_process o s ins true out2 env2) as [[[env3 tr3] out3] f3] eqn:Q.
      eapply do_process_ignored in Q. destruct Q as [Q _].
      injection P as <- <- <- <-. intros [D|D]; [discriminate|eauto].
    + destruct (pact o (s_node s) e0 out2 env2) as [[[env3 tr3] out3] f3] eqn:Q.
      assert (Q' := fun t' e' => pact_ignored _ _ _ _ _ _ _ _ t' e' Q). destruct f3.
      * destruct (do_process o s ins false out3 env3) as [[[env4 tr4] out4] f4] eqn:D.
        assert (D' := do_process_skip _ _ _ _ _ _ _ _ D). apply (do_process_ignored s ins false out3 env3 env4 tr4 out4 f4 0 e0) in D.
        destruct D as [_ D]. subst tr4.
        injection P as <- <- <- <-. rewrite app_nil_r. intros [X|X]; [discriminate|]. rewrite (D eq_refl). eauto.
      * injection P as <- <- <- <-. intros [X|X]; [discriminate|eauto].
      * injection P as <- <- <- <-. intros [X|X]; [discriminate|eauto].
      * injection P as <- <- <- <-. intros [X|X]; [discriminate|eauto].
  - intros D. eapply do_process_ignored in P. destruct P as [P _]. eauto.
Qed.

Definition slot_of (s : step) : list nat := match s_out s with Some (k, _) => [k] | None => [] end.

Lemma process_all_other ss k : ~ In k (flat_map slot_of ss) -> forall msgs env env' tr msgs' f,
  process_all a o ss msgs env = (env', tr, msgs', f) -> nth_error msgs' k = nth_error msgs k.
Proof.
  induction ss as [|s ss IH]; intros NI msgs env env' tr msgs' f; cbn [process_all].
  - intros H; injection H as <- <- <- <-. auto.
  - cbn in NI. rewrite in_app_iff in NI.
    destruct (process_step a o s msgs env) as [[[env1 tr1] msgs1] f1] eqn:P. apply process_step_out in P.
    assert (X : nth_error msgs1 k = nth_error msgs k).
    { destruct P as [(_ & -> & _)|(k' & ty & out' & So & L & -> & _)]; auto.
      rewrite nth_error_upd_neq; auto. unfold slot_of in NI. rewrite So in NI. cbn in NI. tauto. }
    destruct f1; try (intros H; injection H as <- <- <- <-; auto; fail).
    destruct (process_all a o ss msgs1 env1) as [[[env2 tr2] msgs2] f2] eqn:Q. apply IH in Q; [|tauto].
    intros H; injection H as <- <- <- <-. congruence.
Qed.
Lemma process_all_ignored ss : NoDup (flat_map slot_of ss) -> forall msgs env env' tr msgs' f t e,
  process_all a o ss msgs env = (env', tr, msgs', f) -> In (EDecision Process t e Ignore) tr ->
  exists s k ty x, In s ss /\ s_node s = t /\ s_out s = Some (k, ty) /\ nth_error msgs' k = Some x /\ m_payload x = None.
Proof.
  induction ss as [|s ss IH]; intros ND msgs env env' tr msgs' f t e; cbn [process_all].
  - intros H; injection H as <- <- <- <-. intros [].
  - destruct (process_step a o s msgs env) as [[[env1 tr1] msgs1] f1] eqn:P. apply process_step_out in P.
    assert (Step : In (EDecision Process t e Ignore) tr1 -> exists k ty x, s_node s = t /\ s_out s = Some (k, ty) /\
      nth_error msgs1 k = Some x /\ m_payload x = None).
    { destruct P as [(-> & _)|(k & ty & out' & So & L & -> & D)]; [intros []|].
      intros X. apply D in X. destruct X as [-> X]. exists k, ty, out'. repeat split; auto.
      apply nth_error_upd_eq; auto. }
    assert (Stop : In (EDecision Process t e Ignore) tr1 -> exists s' k ty x, In s' (s :: ss) /\ s_node s' = t /\
      s_out s' = Some (k, ty) /\ nth_error msgs1 k = Some x /\ m_payload x = None).
    { intros X. apply Step in X. destruct X as (k & ty & x & H1 & H2 & H3). exists s, k, ty, x. cbn. tauto. }
    destruct f1; try (intros H; injection H as <- <- <- <-; auto; fail).
    destruct (process_all a o ss msgs1 env1) as [[[env2 tr2] msgs2] f2] eqn:Q.
    intros H; injection H as <- <- <- <-. rewrite in_app_iff. intros [X|X].
    + apply Step in X. destruct X as (k & ty & x & H1 & H2 & H3 & H4). exists s, k, ty, x.
      split; [left; auto|]. split; auto. split; auto. split; auto.
      assert (NI : ~ In k (flat_map slot_of ss))
        by (cbn in ND; unfold slot_of in ND at 1; rewrite H2 in ND; cbn in ND; inversion ND; auto).
      rewrite (process_all_other ss k NI _ _ _ _ _ _ Q). auto.
    + eapply IH in Q; eauto.
      * destruct Q as (s' & k & ty & x & Q). exists s', k, ty, x. cbn. tauto.
      * cbn in ND. unfold slot_of in ND at 1. destruct (s_out s) as [[? ?]|]; auto. inversion ND; auto.
Qed.

Lemma good_slots_from plan : forall n,
  (forall k s, nth_error plan k = Some s -> exists ty, s_out s = Some (n + k, ty)) ->
  flat_map slot_of plan = seq n (length plan).
Proof.
  induction plan as [|s plan IH]; intros n H; cbn; auto.
  destruct (H 0 s eq_refl) as (ty & Hs). unfold slot_of at 1. rewrite Hs, Nat.add_0_r. cbn. f_equal.
  apply IH. intros k s' Hk. destruct (H (S k) s' Hk) as (ty' & Hs'). exists ty'. rewrite Hs'. do 2 f_equal. lia.
Qed.
Lemma good_slots plan : good_plan plan -> flat_map slot_of plan = seq 0 (length plan).
Proof. intros [_ G]. apply good_slots_from. intros k s H. destruct (G k s H) as [(ty & X) _]. eauto. Qed.

Lemma good_plan_node plan k s s' : good_plan plan -> nth_error plan k = Some s -> In s' plan -> s_node s' = s_node s -> s' = s.
Proof.
  intros [ND _] H In Eq. apply In_nth_error in In. destruct In as [k' H'].
  assert (k' = k); [|congruence]. rewrite NoDup_nth_error in ND. apply ND.
  - rewrite map_length. apply nth_error_Some. congruence.
  - rewrite !nth_error_map, H, H'. cbn. congruence.
Qed.

(** ** Sequences of iterations *)
Lemma effect_minv es m m' tr r : list_effect a es m m' tr r -> minv es m -> r <> RPanic ->
  exists es', minv es' m' /\ (m_next m' <= m_next m + 1)%N.
Proof.
  intros H I NP. destruct H; subst; try congruence.
  - exists es. split; auto. lia.
  - eexists. split; [eauto|lia].
  - exists es. split; auto. lia.
Qed.

Lemma iterations_minv : log_ok o -> forall n es m env env' m' l, minv es m -> (m_next m + N.of_nat n < 2 ^ 32)%N ->
  iterations a o n m env = (env', m', l) -> Forall (fun x => snd x <> RPanic) l ->
  exists es', minv es' m' /\ (m_next m' <= m_next m + N.of_nat n)%N /\ cap m' = cap m.
Proof.
  intros LO. induction n as [|n IH]; intros es m env env' m' l I B; cbn [iterations].
  - intros H; injection H as <- <- <-. intros _. exists es. split; auto. split; [lia|auto].
  - destruct (run_one_iteration a o m env) as [[[env1 m1] tr1] r1] eqn:R.
    pose proof (iteration_effect a o es m env env1 m1 tr1 r1 LO I ltac:(lia) R) as Ef.
    assert (Hc : r1 <> RPanic -> cap m1 = cap m) by (destruct Ef; subst; congruence).
    assert (X : r1 <> RPanic -> forall env2 m2 l2, iterations a o n m1 env1 = (env2, m2, l2) ->
      (env2, m2, (tr1, r1) :: l2) = (env', m', l) -> Forall (fun x => snd x <> RPanic) l ->
      exists es', minv es' m' /\ (m_next m' <= m_next m + N.of_nat (S n))%N /\ cap m' = cap m).
    { intros NP env2 m2 l2 It H. injection H as -> -> <-. intros F. inversion F; subst.
      destruct (effect_minv _ _ _ _ _ Ef I NP) as (es1 & I1 & Nx).
      destruct (IH es1 m1 env1 env' m' l2 I1 ltac:(lia) It ltac:(auto)) as (es2 & I2 & N2 & C2).
      exists es2. split; auto. split; [lia|]. rewrite C2. auto. }
    destruct r1.
    + destruct (iterations a o n m1 env1) as [[env2 m2] l2] eqn:It. apply (X ltac:(discriminate) _ _ _ eq_refl).
    + destruct (iterations a o n m1 env1) as [[env2 m2] l2] eqn:It. apply (X ltac:(discriminate) _ _ _ eq_refl).
    + intros H; injection H as <- <- <-. intros F. inversion F; subst. cbn in *. congruence.
Qed.
Lemma reachable_minv n zero m : log_ok o -> reachable a o n zero m ->
  exists es, minv es m /\ (m_next m + 1 < 2 ^ 32)%N /\ cap m = n.
Proof.
  intros LO (H0 & k & env & env' & l & B & It & F).
  destruct (iterations_minv LO k [] _ env env' m l (minv_new n zero H0)) with (2 := It) as (es & I & Nx & C); auto.
  - cbn. lia.
  - exists es. split; auto. cbn in Nx. split; [lia|]. rewrite C. unfold cap. cbn. apply repeat_length.
Qed.

(** Accepted lists and abandoned lists. *)
Lemma accepted_iff tr : accepted tr = true <-> exists md, @In ev (EReport md None) tr.
Proof.
  unfold accepted. rewrite existsb_exists. split.
  - intros (x & Hx & H). destruct x; try discriminate. destruct r; try discriminate. eauto.
  - intros (md & H). eauto.
Qed.
Lemma abandons_iff tr : abandons tr = true <-> @Exists ev leaks tr.
Proof.
  unfold abandons. rewrite existsb_exists, Exists_exists. split; intros (x & Hx & H); exists x; split; auto.
  - destruct x; try discriminate; cbn. destruct ph, d; try discriminate; auto. destruct r; [auto|discriminate].
  - destruct x; cbn in *; try tauto. destruct ph, d; tauto. destruct r; [auto|tauto].
Qed.
Lemma abandons_false tr : Forall (fun x : ev => ~ leaks x) tr -> abandons tr = false.
Proof.
  intros F. destruct (abandons tr) eqn:A; auto. apply abandons_iff in A. apply Exists_exists in A.
  destruct A as (x & Hx & L). rewrite Forall_forall in F. destruct (F _ Hx L).
Qed.
Lemma accepted_false tr : (forall md, ~ @In ev (EReport md None) tr) -> accepted tr = false.
Proof. intros F. destruct (accepted tr) eqn:A; auto. apply accepted_iff in A. destruct A as (md & A). destruct (F _ A). Qed.

Lemma effect_ids es m m' tr r : list_effect a es m m' tr r -> minv es m -> a_logging a = true ->
  length (logged tr) = (if accepted tr then 1 else 0) /\
  (r <> RPanic -> (m_next m <= m_next m')%N) /\
  forall x, In x (map fst (logged tr)) -> x = m_next m /\ (r <> RPanic -> (x < m_next m')%N).
Proof.
  intros H I L. destruct H; subst.
  - rewrite H0, (accepted_false _ H1). cbn. split; auto. split; [lia|tauto].
  - rewrite H0, (accepted_false _ H1). cbn. split; auto. split; [congruence|tauto].
  - rewrite H, (accepted_false _ H0). cbn. split; auto. split; [congruence|tauto].
  - rewrite H2, (accepted_false _ H3). cbn. split; auto. split; [lia|tauto].
  - rewrite L in H3. rewrite H3.
    assert (A : accepted tr = true) by (apply accepted_iff; eauto). rewrite A. cbn.
    split; auto. split; [lia|]. intros x [<-|[]]. split; auto. lia.
Qed.

Lemma iterations_ids : log_ok o -> a_logging a = true -> forall n es m env env' m' l, minv es m ->
  (m_next m + N.of_nat n < 2 ^ 32)%N -> iterations a o n m env = (env', m', l) ->
  Forall (fun x => length (logged (fst x)) = if accepted (fst x) then 1 else 0) l /\
  StronglySorted N.lt (map fst (flat_map (fun x => logged (fst x)) l)) /\
  Forall (fun i => (m_next m <= i)%N) (map fst (flat_map (fun x => logged (fst x)) l)).
Proof.
  intros LO LG. induction n as [|n IH]; intros es m env env' m' l I B; cbn [iterations].
  - intros H; injection H as <- <- <-. repeat split; constructor.
  - destruct (run_one_iteration a o m env) as [[[env1 m1] tr1] r1] eqn:R.
    pose proof (iteration_effect a o es m env env1 m1 tr1 r1 LO I ltac:(lia) R) as Ef.
    destruct (effect_ids _ _ _ _ _ Ef I LG) as (E1 & E2 & E3).
    assert (X : r1 <> RPanic -> forall env2 m2 l2, iterations a o n m1 env1 = (env2, m2, l2) ->
      (env2, m2, (tr1, r1) :: l2) = (env', m', l) ->
  Forall (fun x => length (logged (fst x)) = if accepted (fst x) then 1 else 0) l /\
  StronglySorted N.lt (map fst (flat_map (fun x => logged (fst x)) l)) /\
  Forall (fun i => (m_next m <= i)%N) (map fst (flat_map (fun x => logged (fst x)) l))).
    { intros NP env2 m2 l2 It H. injection H as -> -> <-.
      destruct (effect_minv _ _ _ _ _ Ef I NP) as (es1 & I1 & Nx).
      destruct (IH es1 m1 env1 env' m' l2 I1 ltac:(lia) It) as (J1 & J2 & J3).
      specialize (E2 NP). cbn [flat_map fst]. rewrite map_app. split; [constructor; auto|]. split.
      - remember (logged tr1) as lg. destruct lg as [|x [|y lg]].
        + exact J2.
        + cbn. constructor; auto. destruct (E3 (fst x) (or_introl eq_refl)) as [Ex1 Ex2].
          specialize (Ex2 NP). eapply Forall_impl; [|exact J3]. cbn. intros i. lia.
        + cbn in E1. destruct (accepted tr1); discriminate.
      - apply Forall_app. split.
        + apply Forall_forall. intros x Hx. apply E3 in Hx. lia.
        + eapply Forall_impl; [|exact J3]. cbn. intros i. lia. }
    destruct r1.
    + destruct (iterations a o n m1 env1) as [[env2 m2] l2] eqn:It. apply (X ltac:(discriminate) _ _ _ eq_refl).
    + destruct (iterations a o n m1 env1) as [[env2 m2] l2] eqn:It. apply (X ltac:(discriminate) _ _ _ eq_refl).
    + intros H; injection H as <- <- <-. cbn [flat_map fst]. rewrite app_nil_r. split; [constructor; auto|].
      remember (logged tr1) as lg. destruct lg as [|x [|y lg]].
      * split; constructor.
      * split; [repeat constructor|]. constructor; [|constructor]. destruct (E3 (fst x) (or_introl eq_refl)). lia.
      * cbn in E1. destruct (accepted tr1); discriminate.
Qed.

(** ** Lists that are abandoned *)
Lemma effect_available es m m' tr r : list_effect a es m m' tr r -> minv es m -> r <> RPanic ->
  available_copper_lists m' = available_copper_lists m - (if abandons tr then 1 else 0) /\ (abandons tr = true -> 0 < available_copper_lists m) /\
  (abandons tr = true -> exists e, r = RErr e).
Proof.
  intros H I NP. destruct (minv_len _ _ I) as [L1 L2]. unfold available_copper_lists. destruct H; subst; try congruence.
  - rewrite (abandons_false _ H2). split; [lia|]. split; discriminate.
  - assert (A : abandons tr = true) by (apply abandons_iff; auto). rewrite A.
    destruct (minv_len _ _ H) as [L3 L4]. cbn in L3. split; [lia|]. split; eauto. lia.
  - rewrite (abandons_false _ H4). destruct (minv_len _ _ H) as [L3 L4]. split; [lia|]. split; discriminate.
Qed.
End Proofs.
