(** Proofs about the generated run loop: shape of traces. *)
From Coq Require Import String List Arith NArith Bool Lia.
From Verif Require Import Base CuListModel PlanModel RuntimeModel RuntimeSpec.
Import ListNotations.
Local Open Scope list_scope.
Local Open Scope nat_scope.

Section Proofs.
Context {V M Er E : Type}.
Variable a : application.
Variable o : oracles V M Er E.
Notation ev := (event V M Er).
Notation message := (msg V M).
Implicit Types (env : E) (tr : list ev) (m : mgr (list message)).

Definition calm (tr : list ev) : Prop := Forall (fun e => ~ gives_up e) tr.

Lemma attempts_app b tr1 tr2 : @attempts V M Er b (tr1 ++ tr2) = attempts b tr1 ++ attempts b tr2.
Proof. apply flat_map_app. Qed.

Lemma prefix_app_l {A} (l p q : list A) : prefix p q -> prefix (l ++ p) (l ++ q).
Proof. intros (r & ->). exists r. apply app_assoc. Qed.
Lemma prefix_refl {A} (l : list A) : prefix l l.
Proof. exists []. rewrite app_nil_r. auto. Qed.
Lemma prefix_app_r {A} (p q r : list A) : prefix p q -> prefix p (q ++ r).
Proof. intros (s & ->). exists (s ++ r). rewrite app_assoc. auto. Qed.

(** ** Lifecycle calls *)
Definition ends (ph : phase) (ts : list nat) (tr : list ev) (f : flow Er) : Prop :=
  match f with
  | Next => attempts (a_sim a) tr = map (pair ph) ts /\ calm tr
  | Return r => exists tr' t e, tr = tr' ++ [EDecision ph t e (match r with None => Abort | Some _ => Shutdown end)] /\
      calm tr' /\ prefix (attempts (a_sim a) tr) (map (pair ph) ts) /\ attempts (a_sim a) tr <> [] /\
      match r with None => True | Some e' => e' = e end
  | Panicked => False
  end.

Lemma act_spec ph t e env env' tr f : act o ph t e env = (env', tr, f) ->
  exists d, tr = [EDecision ph t e d] /\
    f = match d with Abort => Return None | Ignore => Next | Shutdown => Return (Some e) end.
Proof.
  unfold act. destruct (o_decide o ph t e env) as [env1 d]. intros H; injection H as _ <- <-. eauto.
Qed.

Lemma attempt_task b ph t r : @attempt V M Er b (ETask ph t r) = if b then [] else [(ph, t)].
Proof. destruct b; auto. Qed.
Lemma attempt_process b t i r : @attempt V M Er b (EProcess t i r) = if b then [] else [(Process, t)].
Proof. destruct b; auto. Qed.
Lemma attempt_sim b ph t x : @attempt V M Er b (ESim ph t x) = if b then [(ph, t)] else [].
Proof. destruct b; auto. Qed.

Lemma one_call_spec ph t env env' tr f : one_call a o ph t env = (env', tr, f) -> ends ph [t] tr f.
Proof.
  assert (A : forall e env env' tr f x, act o ph t e env = (env', tr, f) ->
    ~ gives_up x -> attempt (a_sim a) x = [(ph, t)] -> ends ph [t] (x :: tr) f).
  { intros e env0 env0' tr0 f0 x H Hx Ha. destruct (act_spec _ _ _ _ _ _ _ H) as (d & -> & ->).
    destruct d; cbn.
    - exists [x], t, e. rewrite Ha. cbn. split; auto. split; [repeat constructor; auto|].
      split; [apply prefix_refl|]. split; [discriminate|auto].
    - rewrite Ha. split; auto. repeat constructor; auto.
    - exists [x], t, e. rewrite Ha. cbn. split; auto. split; [repeat constructor; auto|].
      split; [apply prefix_refl|]. split; [discriminate|auto]. }
  unfold one_call, do_call. destruct (a_sim a) eqn:Sm.
  - destruct (o_sim o ph t env) as [env1 ovr]. destruct ovr as [| |reason].
    + intros H; injection H as <- <- <-. cbn. rewrite Sm. cbn. split; auto. repeat constructor; auto.
    + destruct (o_task o ph t env1) as [env2 [e|]].
      * destruct (act o ph t e env2) as [[env3 tr3] f3] eqn:Ea. intros H; injection H as <- <- <-.
        destruct (act_spec _ _ _ _ _ _ _ Ea) as (d & -> & ->).
        destruct d; cbn; rewrite Sm; cbn.
        -- exists [ESim ph t ExecuteByRuntime; ETask ph t (Some e)], t, e. split; auto.
           split; [repeat constructor; auto|]. split; [apply prefix_refl|]. split; [discriminate|auto].
        -- split; auto. repeat constructor; auto.
        -- exists [ESim ph t ExecuteByRuntime; ETask ph t (Some e)], t, e. split; auto.
           split; [repeat constructor; auto|]. split; [apply prefix_refl|]. split; [discriminate|auto].
      * intros H; injection H as <- <- <-. cbn. rewrite Sm. cbn. split; auto. repeat constructor; auto.
    + destruct (act o ph t reason env1) as [[env3 tr3] f3] eqn:Ea. intros H; injection H as <- <- <-.
      apply (A _ _ _ _ _ _ Ea); auto.
  - destruct (o_task o ph t env) as [env2 [e|]].
    + destruct (act o ph t e env2) as [[env3 tr3] f3] eqn:Ea. intros H; injection H as <- <- <-.
      apply (A _ _ _ _ _ _ Ea); auto.
    + intros H; injection H as <- <- <-. cbn. rewrite Sm. cbn. split; auto. repeat constructor; auto.
Qed.

Lemma calm_app tr1 tr2 : calm tr1 -> calm tr2 -> calm (tr1 ++ tr2).
Proof. intros. apply Forall_app; auto. Qed.

Lemma lifecycle_spec ph ts : forall env env' tr f, lifecycle a o ph ts env = (env', tr, f) -> ends ph ts tr f.
Proof.
  induction ts as [|t ts IH]; intros env env' tr f; cbn [lifecycle].
  - intros H; injection H as <- <- <-. cbn. split; auto. constructor.
  - destruct (one_call a o ph t env) as [[env1 tr1] f1] eqn:O. apply one_call_spec in O.
    destruct f1 as [|r|].
    + destruct (lifecycle a o ph ts env1) as [[env2 tr2] f2] eqn:L. apply IH in L.
      intros H; injection H as <- <- <-. destruct O as [O1 O2]. destruct f2 as [|r|]; cbn in *.
      * destruct L as [L1 L2]. rewrite attempts_app, O1, L1. split; auto. apply calm_app; auto.
      * destruct L as (tr' & t' & e & -> & L2 & L3 & L4 & L5).
        exists (tr1 ++ tr'), t', e. rewrite <- app_assoc. split; auto. split; [apply calm_app; auto|].
        rewrite attempts_app, O1. split; [apply (prefix_app_l [(ph, t)]); auto|]. split; [discriminate|auto].
      * auto.
    + intros H; injection H as <- <- <-. cbn in *. destruct O as (tr' & t' & e & O1 & O2 & O3 & O4 & O5).
      exists tr', t', e. repeat (split; auto). apply (prefix_app_r _ [(ph, t)]); auto.
    + destruct O.
Qed.

(** ** Process steps *)
Definition pends (ts : list nat) (tr : list ev) (f : pflow Er) : Prop :=
  match f with
  | PNext => attempts (a_sim a) tr = map (pair Process) ts /\ calm tr
  | PAbort => exists tr' t e, tr = tr' ++ [EDecision Process t e Abort] /\
      calm tr' /\ prefix (attempts (a_sim a) tr) (map (pair Process) ts)
  | PErr e => exists tr' t, tr = tr' ++ [EDecision Process t e Shutdown] /\
      calm tr' /\ prefix (attempts (a_sim a) tr) (map (pair Process) ts)
  | PPanic => calm tr /\ prefix (attempts (a_sim a) tr) (map (pair Process) ts)
  end.

Lemma pact_spec t e out env env' tr out' f : pact o t e out env = (env', tr, out', f) ->
  exists d, tr = [EDecision Process t e d] /\
    f = match d with Abort => PAbort | Ignore => PNext | Shutdown => PErr e end /\
    out' = match d with Ignore => clear_payload out | _ => out end.
Proof.
  unfold pact. destruct (o_decide o Process t e env) as [env1 d].
  destruct d; intros H; injection H as <- <- <- <-; eauto.
Qed.

(** Everything a process step can do to the outside. *)
Inductive step_trace (s : step) (ins : list message) : list ev -> pflow Er -> Prop :=
| st_silent : step_trace s ins [] PNext
| st_call : step_trace s ins [EProcess (s_node s) ins None] PNext
| st_fail e d : step_trace s ins [EProcess (s_node s) ins (Some e); EDecision Process (s_node s) e d]
    match d with Abort => PAbort | Ignore => PNext | Shutdown => PErr e end.

Lemma do_process_spec s ins doit out env env' tr out' f :
  do_process o s ins doit out env = (env', tr, out', f) ->
  step_trace s ins tr f /\ (doit = false <-> tr = []).
Proof.
  unfold do_process. destruct (o_now o env) as [env1 t0].
  destruct doit.
  - assert (G : forall env2 out2 r, (let (env3, t1) := o_now o env2 in
        match r with
        | None => (env3, [EProcess (s_node s) ins r], with_end t1 out2, PNext)
        | Some e => let '(env4, tr', out3, f0) := pact o (s_node s) e (with_end t1 out2) env3 in
            (env4, [EProcess (s_node s) ins r] ++ tr', out3, f0)
        end) = (env', tr, out', f) -> step_trace s ins tr f /\ (true = false <-> tr = [])).
    { intros env2 out2 r. destruct (o_now o env2) as [env3 t1]. destruct r as [e|].
      - destruct (pact o (s_node s) e (with_end t1 out2) env3) as [[[env4 tr'] out3] f0] eqn:Pa.
        destruct (pact_spec _ _ _ _ _ _ _ _ Pa) as (d & -> & -> & ->).
        intros H; injection H as <- <- <- <-. split; [constructor|]. split; discriminate.
      - intros H; injection H as <- <- <- <-. split; [constructor|]. split; discriminate. }
    destruct (s_type s).
    + destruct (o_process o (s_node s) ins (with_start t0 out) env1) as [[env2 out2] r]. apply G.
    + destruct (o_process o (s_node s) ins (with_start t0 out) env1) as [[env2 out2] r]. apply G.
    + destruct (o_sink o (s_node s) ins env1) as [env2 r]. apply G.
  - destruct (o_now o env1) as [env3 t1]. intros H; injection H as <- <- <- <-.
    split; [constructor|tauto].
Qed.

Lemma step_trace_sim s ins tr f : a_sim a = true -> step_trace s ins tr f ->
  attempts (a_sim a) tr = [].
Proof. intros ->. destruct 1; cbn; auto. Qed.

Lemma step_trace_nosim s ins tr f : a_sim a = false -> tr <> [] -> step_trace s ins tr f ->
  attempts (a_sim a) tr = [(Process, s_node s)].
Proof. intros -> N. destruct 1; cbn; auto; congruence. Qed.

Lemma step_trace_ends s ins tr f hd ts : step_trace s ins tr f -> calm hd ->
  attempts (a_sim a) (hd ++ tr) = map (pair Process) ts -> pends ts (hd ++ tr) f.
Proof.
  intros H C At. destruct H as [| |e d]; cbn.
  - split; auto. apply calm_app; auto. constructor.
  - split; auto. apply calm_app; auto. repeat constructor. auto.
  - destruct d; cbn.
    + exists (hd ++ [EProcess (s_node s) ins (Some e)]), (s_node s), e. rewrite <- app_assoc. split; auto.
      split; [apply calm_app; auto; repeat constructor; auto|]. rewrite At. apply prefix_refl.
    + split; auto. apply calm_app; auto. repeat constructor; auto.
    + exists (hd ++ [EProcess (s_node s) ins (Some e)]), (s_node s). rewrite <- app_assoc. split; auto.
      split; [apply calm_app; auto; repeat constructor; auto|]. rewrite At. apply prefix_refl.
Qed.

Lemma process_msg_spec s ins out env env' tr out' f :
  process_msg a o s ins out env = (env', tr, out', f) -> pends [s_node s] tr f /\ f <> PPanic.
Proof.
  assert (NP : forall tr f, step_trace s ins tr f -> f <> PPanic).
  { intros tr0 f0 H. destruct H; try discriminate. destruct d; discriminate. }
  unfold process_msg. destruct (a_sim a) eqn:Sm.
  - destruct (o_sim_process o (s_node s) ins out env) as [[env1 out1] ovr]. destruct ovr as [| |reason].
    + destruct (do_process o s ins false out1 env1) as [[[env2 tr2] out2] f2] eqn:D.
      apply do_process_spec in D. destruct D as [D _]. intros H; injection H as <- <- <- <-.
      split; [|eauto]. apply (step_trace_ends s ins tr2 f2 [_]); auto; [repeat constructor; auto|].
      rewrite attempts_app, (step_trace_sim s ins tr2 f2 Sm D), Sm. auto.
    + destruct (do_process o s ins true out1 env1) as [[[env2 tr2] out2] f2] eqn:D.
      apply do_process_spec in D. destruct D as [D _]. intros H; injection H as <- <- <- <-.
      split; [|eauto]. apply (step_trace_ends s ins tr2 f2 [_]); auto; [repeat constructor; auto|].
      rewrite attempts_app, (step_trace_sim s ins tr2 f2 Sm D), Sm. auto.
    + destruct (pact o (s_node s) reason out1 env1) as [[[env2 tr2] out2] f2] eqn:Pa.
      destruct (pact_spec _ _ _ _ _ _ _ _ Pa) as (d & -> & -> & ->). destruct d.
      * intros H; injection H as <- <- <- <-. split; [|discriminate]. cbn.
        exists [ESim Process (s_node s) (Errored reason)], (s_node s), reason. rewrite Sm. cbn.
        split; auto. split; [repeat constructor; auto|apply prefix_refl].
      * destruct (do_process o s ins false (clear_payload out1) env2) as [[[env3 tr3] out3] f3] eqn:D.
        apply do_process_spec in D. destruct D as [D _]. intros H; injection H as <- <- <- <-.
        split; [|eauto].
        apply (step_trace_ends s ins tr3 f3 [_; _]); auto; [repeat constructor; auto|].
        rewrite attempts_app, (step_trace_sim s ins tr3 f3 Sm D), Sm. auto.
      * intros H; injection H as <- <- <- <-. split; [|discriminate]. cbn.
        exists [ESim Process (s_node s) (Errored reason)], (s_node s). rewrite Sm. cbn.
        split; auto. split; [repeat constructor; auto|apply prefix_refl].
  - intros D. apply do_process_spec in D. destruct D as [D N]. split; [|eauto].
    apply (step_trace_ends s ins tr f []); auto; [constructor|]. cbn [app].
    apply (step_trace_nosim s ins tr f); auto. intros ->. destruct N as [_ N]. specialize (N eq_refl). discriminate.
Qed.

Lemma process_step_spec s msgs env env' tr msgs' f :
  process_step a o s msgs env = (env', tr, msgs', f) -> pends [s_node s] tr f /\ length msgs' = length msgs.
Proof.
  unfold process_step. intros H.
  destruct (s_out s) as [[k ty]|].
  - destruct (nth_error msgs k) as [out|]; [destruct (gather msgs (s_inputs s)) as [ins|]|].
    + destruct (process_msg a o s ins out env) as [[[env1 tr1] out1] f1] eqn:P.
      apply process_msg_spec in P. injection H as <- <- <- <-. split; [tauto|]. apply upd_length.
    + injection H as <- <- <- <-. split; auto. cbn. split; [constructor|exists [(Process, s_node s)]; auto].
    + injection H as <- <- <- <-. split; auto. cbn. split; [constructor|exists [(Process, s_node s)]; auto].
  - injection H as <- <- <- <-. split; auto. cbn. split; [constructor|exists [(Process, s_node s)]; auto].
Qed.

Lemma process_all_spec ss : forall msgs env env' tr msgs' f,
  process_all a o ss msgs env = (env', tr, msgs', f) ->
  pends (map s_node ss) tr f /\ length msgs' = length msgs.
Proof.
  induction ss as [|s ss IH]; intros msgs env env' tr msgs' f; cbn [process_all].
  - intros H; injection H as <- <- <- <-. cbn. split; auto. split; auto. constructor.
  - destruct (process_step a o s msgs env) as [[[env1 tr1] msgs1] f1] eqn:P.
    apply process_step_spec in P. destruct P as [P Lp]. destruct f1.
    + destruct (process_all a o ss msgs1 env1) as [[[env2 tr2] msgs2] f2] eqn:L. apply IH in L.
      intros H; injection H as <- <- <- <-. destruct P as [P1 P2]. destruct L as [L Ll]. split; [|congruence].
      destruct f2 as [| |e|]; cbn in *.
      * destruct L as [L1 L2]. rewrite attempts_app, P1, L1. split; auto. apply calm_app; auto.
      * destruct L as (tr' & t' & e & -> & L2 & L3).
        exists (tr1 ++ tr'), t', e. rewrite <- app_assoc. split; auto. split; [apply calm_app; auto|].
        rewrite attempts_app, P1. apply (prefix_app_l [(Process, s_node s)]); auto.
      * destruct L as (tr' & t' & -> & L2 & L3).
        exists (tr1 ++ tr'), t'. rewrite <- app_assoc. split; auto. split; [apply calm_app; auto|].
        rewrite attempts_app, P1. apply (prefix_app_l [(Process, s_node s)]); auto.
      * destruct L as [L1 L2]. split; [apply calm_app; auto|]. rewrite attempts_app, P1.
        apply (prefix_app_l [(Process, s_node s)]); auto.
    + intros H; injection H as <- <- <- <-. cbn in *. split; auto.
      destruct P as (tr' & t' & e & P1 & P2 & P3). exists tr', t', e. repeat (split; auto).
      apply (prefix_app_r _ [(Process, s_node s)]); auto.
    + intros H; injection H as <- <- <- <-. cbn in *. split; auto.
      destruct P as (tr' & t' & P1 & P2 & P3). exists tr', t'. repeat (split; auto).
      apply (prefix_app_r _ [(Process, s_node s)]); auto.
    + intros H; injection H as <- <- <- <-. cbn in *. split; auto.
      destruct P as [P1 P2]. split; auto.
      apply (prefix_app_r _ [(Process, s_node s)]); auto.
Qed.

(** ** Reporting and logging *)
Definition quiet (tr : list ev) : Prop := Forall (fun e => ~ runs_tasks e) tr.

Lemma quiet_calm tr : quiet tr -> calm tr.
Proof. apply Forall_impl. intros [] H; cbn in *; tauto. Qed.
Lemma quiet_attempts b tr : quiet tr -> attempts b tr = [].
Proof.
  unfold attempts. induction 1 as [|e tr H F IH]; cbn [flat_map]; auto. rewrite IH, app_nil_r.
  destruct e; cbn in *; try tauto; destruct b; auto.
Qed.

Lemma finish_logs id m env m' lg : finish a o id m env = Ret (m', lg) ->
  Forall (fun e => is_log e = true) lg.
Proof.
  unfold finish. destruct (end_of_processing _ m id) as [[m1 l]|]; cbn; [|discriminate].
  intros H; injection H as <- <-. apply Forall_forall. intros e He. apply in_map_iff in He.
  destruct He as (c & <- & _). auto.
Qed.

Lemma logs_quiet (lg : list ev) : Forall (fun e => is_log e = true) lg -> quiet lg.
Proof. apply Forall_impl. intros [] H; cbn in *; try discriminate; tauto. Qed.

Definition reports (id : N) (msgs : list message) (m m' : mgr (list message)) (tr : list ev) (f : flow Er) : Prop :=
  match f with
  | Next => exists md lg env', collect_metadata a msgs = Some md /\ finish a o id m env' = Ret (m', lg) /\
              tr = EReport md None :: lg
  | Return None => False
  | Return (Some e) => m' = m /\ exists md, collect_metadata a msgs = Some md /\ tr = [EReport md (Some e)]
  | Panicked => m' = m /\ (tr = [] /\ collect_metadata a msgs = None \/
      exists md env', collect_metadata a msgs = Some md /\ tr = [EReport md None] /\ finish a o id m env' = Panic)
  end.

Lemma report_spec id m msgs env env' m' tr f :
  report_and_finish a o id m msgs env = (env', m', tr, f) -> reports id msgs m m' tr f.
Proof.
  unfold report_and_finish, reports. destruct (collect_metadata a msgs) as [md|].
  - destruct (o_report o md env) as [env1 [e|]].
    + intros H; injection H as <- <- <- <-. eauto.
    + destruct (finish a o id m env1) as [[m1 lg]|] eqn:F; intros H; injection H as <- <- <- <-.
      * exists md, lg, env1. auto.
      * split; auto. right. exists md, env1. auto.
  - intros H; injection H as <- <- <- <-. auto.
Qed.

Lemma reports_quiet id msgs m m' tr f : reports id msgs m m' tr f -> quiet tr.
Proof.
  destruct f as [|[e|]|]; cbn.
  - intros (md & lg & env & _ & F & ->). constructor; [cbn; auto|]. apply logs_quiet. eapply finish_logs; eauto.
  - intros (_ & md & _ & ->). repeat constructor. auto.
  - tauto.
  - intros (_ & [(-> & _)|(md & env & _ & -> & _)]); repeat constructor. auto.
Qed.

(** ** One iteration, case by case *)
Definition ran (ph : phase) (tr : list ev) (f : flow Er) : Prop :=
  exists env env', lifecycle a o ph (seq 0 (a_tasks a)) env = (env', tr, f).
Lemma ran_ends ph tr f : ran ph tr f -> ends ph (seq 0 (a_tasks a)) tr f.
Proof. intros (env & env' & H). eapply lifecycle_spec; eauto. Qed.

Lemma ran_intro ph env env' tr f : lifecycle a o ph (seq 0 (a_tasks a)) env = (env', tr, f) -> ran ph tr f.
Proof. intros H. exists env, env'. auto. Qed.

Inductive body_case (m1 m' : mgr (list message)) : N -> list message -> list ev -> pflow Er -> result (Er := Er) -> Prop :=
| bc_panic id msgs pf : m' = m1 -> (pf = PPanic \/ pf = PNext) -> body_case m1 m' id msgs [] pf RPanic
| bc_err id msgs e : m' = m1 -> body_case m1 m' id msgs [] (PErr e) (RErr e)
| bc_report_fails id msgs tr e pf : m' = m1 -> (pf = PAbort \/ pf = PNext) ->
    reports id msgs m1 m' tr (Return (Some e)) -> body_case m1 m' id msgs tr pf (RErr e)
| bc_report_panics id msgs tr pf : (pf = PAbort \/ pf = PNext) ->
    reports id msgs m1 m' tr Panicked -> body_case m1 m' id msgs tr pf RPanic
| bc_abort id msgs tr : reports id msgs m1 m' tr Next -> body_case m1 m' id msgs tr PAbort ROk
| bc_done id msgs tr tr' f : reports id msgs m1 m' tr Next ->
    ran Postprocess tr' f -> body_case m1 m' id msgs (tr ++ tr') PNext (to_result f).

Inductive iteration_case (m m' : mgr (list message)) (tr : list ev) : result (Er := Er) -> Prop :=
| ic_preprocess r : m' = m -> ran Preprocess tr (Return r) ->
    iteration_case m m' tr (to_result (Return r))
| ic_full : m' = m -> ran Preprocess tr Next ->
    (forall m1 i, create (a_mode a) m <> Ret (Some (m1, i))) -> iteration_case m m' tr RPanic
| ic_body tr1 tr2 tr3 m1 i c msgs pf r :
    ran Preprocess tr1 Next ->
    create (a_mode a) m = Ret (Some (m1, i)) -> nth_error (m_data m1) i = Some c ->
    (exists env env', process_all a o (a_plan a) (cl_msgs c) env = (env', tr2, msgs, pf)) ->
    tr = tr1 ++ tr2 ++ tr3 ->
    body_case (set_slot i (mkCl (cl_id c) Processing msgs) m1) m' (cl_id c) msgs tr3 pf r ->
    iteration_case m m' tr r.

Lemma iteration_spec m env env' m' tr r : run_one_iteration a o m env = (env', m', tr, r) ->
  iteration_case m m' tr r.
Proof.
  unfold run_one_iteration. intros H.
  destruct (lifecycle a o Preprocess (seq 0 (a_tasks a)) env) as [[env1 tr1] f1] eqn:L1.
  apply ran_intro in L1. destruct f1 as [|r1|].
  2: { injection H as <- <- <- <-. apply ic_preprocess; auto. }
  2: { apply ran_ends in L1. destruct L1. }
  unfold copperlist_body in H.
  destruct (create (a_mode a) m) as [[[m1 i]|]|] eqn:C.
  2,3: injection H as <- <- <- <-; rewrite app_nil_r; apply ic_full; auto; congruence.
  assert (N1 : nth_error (m_data m1) i <> None).
  { unfold create in C. destruct (is_full m); [discriminate|].
    destruct (nth_error (m_data m) (m_ins m)) as [slot|] eqn:N; [|discriminate].
    destruct (succ_u32 (a_mode a) (m_next m)); cbn in C; [|discriminate]. injection C as <- <-. cbn.
    rewrite nth_error_upd_eq; [discriminate|]. apply nth_error_Some. congruence. }
  destruct (nth_error (m_data m1) i) as [c|] eqn:N; [clear N1|tauto].
  destruct (process_all a o (a_plan a) (cl_msgs c) env1) as [[[env2 tr2] msgs] pf] eqn:PA.
  set (m2 := set_slot i (mkCl (cl_id c) Processing msgs) m1) in *.
  assert (G : forall tr3 r0, (env', m', tr, r) = (env', m', tr1 ++ tr2 ++ tr3, r0) ->
    body_case m2 m' (cl_id c) msgs tr3 pf r0 -> iteration_case m m' tr r).
  { intros tr3 r0 Eq B. injection Eq as -> ->. eapply ic_body; eauto. }
  destruct pf as [| |e|].
  - destruct (match collect_metadata a msgs with Some md => e2e a md | None => Panic end) as [n|].
    + destruct (report_and_finish a o (cl_id c) m2 msgs env2) as [[[env3 m3] tr3] f3] eqn:R.
      apply report_spec in R. destruct f3 as [|[e|]|].
      * destruct (lifecycle a o Postprocess (seq 0 (a_tasks a)) env3) as [[env4 tr4] f4] eqn:L4.
        apply ran_intro in L4. injection H as <- <- <- <-.
        apply (G (tr3 ++ tr4) (to_result f4)).
        -- rewrite !app_assoc. auto.
        -- apply bc_done; auto.
      * injection H as <- <- <- <-. apply (G tr3 (RErr e)); [auto|].
        assert (m3 = m2) by (cbn in R; tauto). eapply bc_report_fails; eauto.
      * destruct R.
      * injection H as <- <- <- <-. apply (G tr3 RPanic); [auto|]. eapply bc_report_panics; eauto.
    + injection H as <- <- <- <-. apply (G [] RPanic); [rewrite app_nil_r; auto|]. apply bc_panic; auto.
  - destruct (report_and_finish a o (cl_id c) m2 msgs env2) as [[[env3 m3] tr3] f3] eqn:R.
    apply report_spec in R. destruct f3 as [|[e|]|].
    + injection H as <- <- <- <-. apply (G tr3 ROk); [auto|]. apply bc_abort; auto.
    + injection H as <- <- <- <-. apply (G tr3 (RErr e)); [auto|].
      assert (m3 = m2) by (cbn in R; tauto). eapply bc_report_fails; eauto.
    + destruct R.
    + injection H as <- <- <- <-. apply (G tr3 RPanic); [auto|]. eapply bc_report_panics; eauto.
  - injection H as <- <- <- <-. apply (G [] (RErr e)); [rewrite app_nil_r; auto|]. apply bc_err; auto.
  - injection H as <- <- <- <-. apply (G [] RPanic); [rewrite app_nil_r; auto|]. apply bc_panic; auto.
Qed.
End Proofs.
