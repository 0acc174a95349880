(** Proofs about the generated run loop: order, decisions, copper lists. *)
From Coq Require Import String List Arith NArith Bool Lia.
From Verif Require Import Base CuListModel CuListSpec CuListProofs PlanModel RuntimeModel RuntimeSpec RuntimeProofs.
Import ListNotations.
Local Open Scope list_scope.
Local Open Scope nat_scope.

Section Proofs.
Context {V M Er E : Type}.
Variable a : application.
Variable o : oracles V M Er E.
Notation ev := (event V M Er).
Notation message := (msg V M).
Notation order := (map s_node (a_plan a)).
Implicit Types (env : E) (tr : list ev) (m : mgr (list message)).

Local Ltac names :=
  try match goal with R : reports _ _ _ _ _ _ _ _ |- _ => rename R into RP end;
  try match goal with R : ran _ _ Postprocess _ _ |- _ => pose proof (ran_ends _ _ _ _ _ R) as EN end;
  try match goal with R : ?x = _ \/ ?x = _ |- _ => rename R into PF end.

Lemma not_calm_end tr x : gives_up x -> ~ calm (tr ++ [x]).
Proof. intros G C. apply Forall_app in C. destruct C as [_ C]. inversion C. auto. Qed.

(** ** Order *)
Lemma ends_prefix ph ts tr f : ends a ph ts tr f -> prefix (@attempts V M Er (a_sim a) tr) (map (pair ph) ts).
Proof.
  destruct f; cbn.
  - intros [-> _]. apply prefix_refl.
  - intros (tr' & t & e & _ & _ & P & _). exact P.
  - tauto.
Qed.
Lemma pends_prefix ts tr f : pends a ts tr f -> prefix (@attempts V M Er (a_sim a) tr) (map (pair Process) ts).
Proof.
  destruct f; cbn.
  - intros [-> _]. apply prefix_refl.
  - intros (tr' & t & e & _ & _ & P). exact P.
  - intros (tr' & t & _ & _ & P). exact P.
  - tauto.
Qed.

Lemma body_attempts m1 m' id msgs tr pf r : body_case a o m1 m' id msgs tr pf r ->
  (attempts (a_sim a) tr = [] /\ pf <> PNext) \/
  pf = PNext /\ prefix (attempts (a_sim a) tr) (map (pair Postprocess) (seq 0 (a_tasks a))).
Proof.
  intros B. inversion B; subst; names.
  - destruct PF as [->| ->]; [left; split; [auto|discriminate]|right]. split; auto. exists (map (pair Postprocess) (seq 0 (a_tasks a))). auto.
  - left. split; auto. discriminate.
  - rewrite (quiet_attempts _ tr) by (eapply reports_quiet; eauto).
    destruct PF as [->| ->]; [left; split; [auto|discriminate]|right]. split; auto. eexists. reflexivity.
  - rewrite (quiet_attempts _ tr) by (eapply reports_quiet; eauto).
    destruct PF as [->| ->]; [left; split; [auto|discriminate]|right]. split; auto. eexists. reflexivity.
  - rewrite (quiet_attempts _ tr) by (eapply reports_quiet; eauto). left. split; [auto|discriminate].
  - right. split; auto. rewrite attempts_app, (quiet_attempts _ tr0) by (eapply reports_quiet; eauto).
    cbn [app]. eapply ends_prefix; eauto.
Qed.

Lemma iteration_prefix m env env' m' tr r : run_one_iteration a o m env = (env', m', tr, r) ->
  prefix (attempts (a_sim a) tr) (schedule (a_tasks a) order).
Proof.
  intros H. apply iteration_spec in H. destruct H.
  - unfold schedule. apply prefix_app_r. eapply ends_prefix, ran_ends; eauto.
  - unfold schedule. apply prefix_app_r. eapply ends_prefix, ran_ends; eauto.
  - subst tr. destruct H2 as (e1 & e2 & PA). apply process_all_spec in PA. destruct PA as [PA _].
    rewrite !attempts_app. apply ran_ends in H. destruct H as [-> _]. unfold schedule. apply prefix_app_l.
    apply body_attempts in H4. destruct H4 as [[-> N]|[-> P]].
    + rewrite app_nil_r. apply prefix_app_r. apply pends_prefix in PA. auto.
    + destruct PA as [-> _]. apply prefix_app_l. auto.
Qed.

Lemma iteration_full m env env' m' tr r : run_one_iteration a o m env = (env', m', tr, r) ->
  r <> RPanic -> Forall (fun e => ~ gives_up e) tr -> Forall (fun e => ~ refuses e) tr ->
  attempts (a_sim a) tr = schedule (a_tasks a) order /\ r = ROk.
Proof.
  intros H NP C R. apply iteration_spec in H. destruct H as [r Em R1| |].
  - apply ran_ends in R1. destruct R1 as (tr' & t & e & -> & _). exfalso. eapply not_calm_end; [|exact C]. destruct r; exact I.
  - congruence.
  - subst tr. destruct H2 as (e1 & e2 & PA). apply process_all_spec in PA. destruct PA as [PA _].
    rewrite !Forall_app in C, R. destruct C as (C1 & C2 & C3), R as (R1 & R2 & R3).
    inversion H4; subst; names.
    + congruence.
    + destruct PA as (tr' & t & -> & _). exfalso. eapply not_calm_end; [|exact C2]. exact I.
    + destruct RP as (_ & md & _ & ->). inversion R3. cbn in *. tauto.
    + congruence.
    + destruct PA as (tr' & t & e & -> & _). exfalso. eapply not_calm_end; [|exact C2]. exact I.
    + rewrite !attempts_app. apply ran_ends in H. destruct H as [-> _], PA as [-> _].
      rewrite (quiet_attempts _ tr) by (eapply reports_quiet; eauto).
      destruct f as [|r|]; cbn in EN.
      * destruct EN as [-> _]. auto.
      * destruct EN as (tr'' & t & e & -> & _). exfalso. apply Forall_app in C3. destruct C3 as [_ C3].
        eapply not_calm_end; [|exact C3]. destruct r; exact I.
      * tauto.
Qed.

(** ** Decisions *)
Lemma first_stop (l1 l2 pre post : list ev) x y : calm l1 -> calm l2 -> gives_up y ->
  l1 ++ x :: l2 = pre ++ y :: post -> l1 = pre /\ x = y /\ l2 = post.
Proof.
  revert pre. induction l1 as [|z l1 IH]; intros pre C1 C2 G Eq; destruct pre as [|w pre]; cbn in Eq.
  - injection Eq as -> ->. auto.
  - injection Eq as -> ->. exfalso. apply Forall_app in C2. destruct C2 as [_ C2]. inversion C2; auto.
  - injection Eq as -> _. inversion C1; tauto.
  - injection Eq as -> Eq. inversion C1; subst. destruct (IH pre) as (-> & -> & ->); auto.
Qed.

Lemma no_stop (l pre post : list ev) y : calm l -> gives_up y -> l = pre ++ y :: post -> False.
Proof. intros C G ->. apply Forall_app in C. destruct C as [_ C]. inversion C; auto. Qed.

(** Where an iteration gave up. *)
Lemma iteration_stop m env env' m' tr r pre y post :
  run_one_iteration a o m env = (env', m', tr, r) -> gives_up y -> tr = pre ++ y :: post ->
  exists ph t e d, y = EDecision ph t e d /\
    match d with
    | Shutdown => post = [] /\ r = RErr e
    | Ignore => False
    | Abort => if match ph with Process => true | _ => false end then
                 post = [] /\ r = RPanic \/
                 exists md rr lg, post = EReport md rr :: lg /\ Forall (fun x => is_log x = true) lg /\
                   match rr with Some e' => r = RErr e' /\ lg = [] | None => r = ROk \/ r = RPanic end
               else post = [] /\ r = ROk
    end.
Proof.
  intros H G Eq. apply iteration_spec in H. destruct H as [r Em R1|Em Hn|tr1 tr2 tr3 m1 i c msgs pf r P1 Cr Nth PA Et B].
  - apply ran_ends in R1. destruct R1 as (tr' & t & e & -> & C & _ & _ & X). destruct (first_stop tr' [] pre post _ y C (Forall_nil _) G Eq) as (<- & <- & <-).
    exists Preprocess, t, e. destruct r as [e'|]; [exists Shutdown|exists Abort]; split; auto.
    subst e'. split; auto.
  - exfalso. apply ran_ends in Hn. destruct Hn as [_ C]. eapply no_stop; eauto.
  - rewrite Eq in Et. clear Eq. apply ran_ends in P1. destruct P1 as [_ C1]. destruct PA as (e1 & e2 & PA).
    apply process_all_spec in PA. destruct PA as [PA _]. inversion B; subst; names.
    + exfalso. destruct PF as [->| ->]; destruct PA as [PA1 PA2];
        [apply (no_stop (tr1 ++ tr2 ++ []) pre post y)|apply (no_stop (tr1 ++ tr2 ++ []) pre post y)]; auto;
        rewrite app_nil_r; apply calm_app; auto.
    + destruct PA as (tr' & t & -> & C2 & _). rewrite app_nil_r, app_assoc in Et. symmetry in Et.
      destruct (first_stop _ [] pre post _ y (calm_app _ _ C1 C2) (Forall_nil _) G Et) as (<- & <- & <-).
      exists Process, t, e, Shutdown. auto.
    + destruct PF as [->| ->].
      * destruct PA as (tr' & t & e' & -> & C2 & _).
        assert (Q := quiet_calm _ (reports_quiet _ _ _ _ _ _ _ _ RP)).
        rewrite <- app_assoc, app_assoc in Et. symmetry in Et.
        destruct (first_stop _ tr3 pre post _ y (calm_app _ _ C1 C2) Q G Et) as (<- & <- & <-).
        exists Process, t, e', Abort. split; auto. right. destruct RP as (_ & md & _ & ->).
        exists md, (Some e), []. auto.
      * exfalso. destruct PA as [_ C2].
        assert (Q := quiet_calm _ (reports_quiet _ _ _ _ _ _ _ _ RP)).
        apply (no_stop (tr1 ++ tr2 ++ tr3) pre post y); auto. apply calm_app; auto. apply calm_app; auto.
    + destruct PF as [->| ->].
      * destruct PA as (tr' & t & e' & -> & C2 & _).
        assert (Q := quiet_calm _ (reports_quiet _ _ _ _ _ _ _ _ RP)).
        rewrite <- app_assoc, app_assoc in Et. symmetry in Et.
        destruct (first_stop _ tr3 pre post _ y (calm_app _ _ C1 C2) Q G Et) as (<- & <- & <-).
        exists Process, t, e', Abort. split; auto. destruct RP as (_ & [(-> & _)|(md & env0 & _ & -> & _)]); auto.
        right. exists md, None, []. auto.
      * exfalso. destruct PA as [_ C2].
        assert (Q := quiet_calm _ (reports_quiet _ _ _ _ _ _ _ _ RP)).
        apply (no_stop (tr1 ++ tr2 ++ tr3) pre post y); auto. apply calm_app; auto. apply calm_app; auto.
    + destruct PA as (tr' & t & e' & -> & C2 & _).
      assert (Q := quiet_calm _ (reports_quiet _ _ _ _ _ _ _ _ RP)).
      rewrite <- app_assoc, app_assoc in Et. symmetry in Et.
      destruct (first_stop _ tr3 pre post _ y (calm_app _ _ C1 C2) Q G Et) as (<- & <- & <-).
      exists Process, t, e', Abort. split; auto. destruct RP as (md & lg & env0 & _ & F & ->).
      right. exists md, None, lg. split; auto. split; auto. eapply finish_logs; eauto.
    + destruct PA as [_ C2].
      assert (Q := quiet_calm _ (reports_quiet _ _ _ _ _ _ _ _ RP)).
      destruct f as [|r|].
      * exfalso. destruct EN as [_ C3]. apply (no_stop (tr1 ++ tr2 ++ tr0 ++ tr') pre post y); auto.
        repeat apply calm_app; auto.
      * destruct EN as (tr'' & t & e & -> & C3 & _ & _ & X).
        replace (tr1 ++ tr2 ++ tr0 ++ tr'' ++ [EDecision Postprocess t e match r with Some _ => Shutdown | None => Abort end])
          with ((tr1 ++ tr2 ++ tr0 ++ tr'') ++ [EDecision Postprocess t e match r with Some _ => Shutdown | None => Abort end])
          in Et by (rewrite <- !app_assoc; auto).
        symmetry in Et.
        destruct (first_stop (tr1 ++ tr2 ++ tr0 ++ tr'') [] pre post _ y
          ltac:(repeat apply calm_app; auto) (Forall_nil _) G Et) as (<- & <- & <-).
        exists Postprocess, t, e. destruct r as [e'|]; [exists Shutdown|exists Abort]; split; auto.
        subst e'. split; auto.
      * destruct EN.
Qed.

(** ** Copper lists *)
Definition log_ok : Prop := forall env c, o_log o env c = true.

(** Live lists are abandoned ones with smaller ids. *)
Definition minv (es : list (entry (list message))) (m : mgr (list message)) : Prop :=
  rrel (es, m_next m) m /\ Forall (fun e => e_done e = false /\ (e_id e < m_next m)%N) es.

Lemma minv_len es m : minv es m -> m_len m = length es /\ m_len m <= cap m.
Proof.
  intros ((W & Hst & _) & _). pose proof (stack_length m W) as L. apply Forall2_length in Hst. cbn in Hst.
  split; [congruence|]. apply W.
Qed.

Lemma rrel_next es n m : rrel (es, n) m -> n = m_next m.
Proof. intros (_ & _ & H & _). cbn in H. congruence. Qed.

Lemma minv_new n (zero : list message) : 0 < n -> minv [] (mgr_new n zero).
Proof. intros H. split; [|constructor]. apply (rrel_new n zero H). Qed.

Lemma begin_spec es m m1 i c : minv es m -> (m_next m + 1 < 2 ^ 32)%N ->
  create (a_mode a) m = Ret (Some (m1, i)) -> nth_error (m_data m1) i = Some c ->
  cl_id c = m_next m /\
  forall msgs, let m2 := set_slot i (mkCl (cl_id c) Processing msgs) m1 in
    rrel (mkEntry (m_next m) false msgs :: es, (m_next m + 1)%N) m2 /\ cap m2 = cap m.
Proof.
  intros (R & _) B C N.
  assert (G : forall msgs, cl_id c = m_next m /\
    let m2 := set_slot i (mkCl (cl_id c) Processing msgs) m1 in
    rrel (mkEntry (m_next m) false msgs :: es, (m_next m + 1)%N) m2 /\ cap m2 = cap m).
  { intros msgs. pose proof (rstep_refines (a_mode a) None m (es, m_next m) (RBegin msgs) I R) as F.
    cbn [rspec_step rstep CuListSpec.step begins_n snd] in F. rewrite C in F. cbn [obind] in F. rewrite N in F.
    cbn [obind] in F. destruct (length es <? cap m).
    - destruct (F ltac:(lia)) as (m' & lg & F1 & F2 & F3 & _). injection F1 as <- <-.
      split; [|split; auto].
      destruct (create_spec (a_mode a) m) as [[A Ec]|[A (slot & En & Ec)]]; [apply R|congruence|].
      rewrite succ_u32_small in Ec by lia. rewrite Ec in C. cbn in C. injection C as <- <-.
      cbn in N. rewrite nth_error_upd_eq in N; [injection N as <-; auto|].
      apply nth_error_Some. congruence.
    - specialize (F ltac:(lia)). discriminate. }
  destruct (G []) as [G1 _]. split; auto. intros msgs. apply G.
Qed.

Lemma create_full es m : minv es m -> (m_next m + 1 < 2 ^ 32)%N ->
  (forall m1 i, create (a_mode a) m <> Ret (Some (m1, i))) <-> length es = cap m.
Proof.
  intros I B. destruct (minv_len _ _ I) as [L1 L2]. destruct I as ((W & _) & _).
  destruct (create_spec (a_mode a) m W) as [[A ->]|[A (slot & En & ->)]].
  - split; [lia|]. intros _ m1 i. discriminate.
  - rewrite succ_u32_small by lia. cbn [obind]. split; [|lia].
    intros H. exfalso. eapply H. reflexivity.
Qed.

Lemma take_done_head es (e : entry (list message)) : e_done e = true -> Forall (fun x => e_done x = false) es ->
  take_done (e :: es) = ([e], es).
Proof.
  intros D F. cbn. rewrite D. destruct es as [|x es]; cbn; auto. inversion F; subst. rewrite H1. auto.
Qed.

Lemma finish_spec id msgs es n m env : log_ok -> rrel (mkEntry id false msgs :: es, n) m ->
  (n < 2 ^ 32)%N -> Forall (fun e => e_done e = false /\ (e_id e < id)%N) es ->
  exists m', finish a o id m env = Ret (m', if a_logging a then [ELog id msgs] else []) /\ rrel (es, n) m' /\ cap m' = cap m.
Proof.
  intros L R B F. unfold finish.
  set (logger := if a_logging a then Some (o_log o env) else None).
  assert (La : logger_accepts logger) by (unfold logger; destruct (a_logging a); cbn; auto).
  pose proof (rstep_refines (a_mode a) logger m _ (REnd id) La R) as G.
  cbn [rspec_step rstep begins_n snd map] in G.
  assert (Hm : map (mark_done id) es = es).
  { clear -F. induction F as [|e es [D L] F IH]; cbn; auto. rewrite IH. f_equal.
    unfold mark_done. destruct (N.eqb_spec (e_id e) id); [lia|auto]. }
  rewrite Hm in G. unfold mark_done in G at 1. cbn [e_id e_msgs] in G. rewrite N.eqb_refl in G.
  rewrite take_done_head in G; [|auto|eapply Forall_impl; [|exact F]; cbn; tauto].
  destruct (G ltac:(lia)) as (m' & lg & G1 & G2 & G3 & G4). exists m'. rewrite G1. cbn [obind].
  split; [|auto]. f_equal. f_equal. unfold logger in G4. cbn in G4.
  destruct (a_logging a); cbn in G4.
  - destruct lg as [|x [|]]; try discriminate. cbn in G4. unfold logged_pair in G4. injection G4 as <- <-. auto.
  - destruct lg; [auto|discriminate].
Qed.

(** What an iteration does to the copper lists. *)
Definition leaks (x : ev) : Prop :=
  match x with EDecision Process _ _ Shutdown | EReport _ (Some _) => True | _ => False end.

Inductive list_effect (es : list (entry (list message))) (m m' : mgr (list message)) (tr : list ev) : result (Er := Er) -> Prop :=
| le_none r : m' = m -> logged tr = [] -> (forall md, ~ In (EReport md None) tr) -> Forall (fun x => ~ leaks x) tr ->
    ~ (r = RPanic) -> list_effect es m m' tr r
| le_full : length es = cap m -> logged tr = [] -> (forall md, ~ In (EReport md None) tr) ->
    list_effect es m m' tr RPanic
| le_panic : logged tr = [] -> (forall md, ~ In (EReport md None) tr) -> length es < cap m -> list_effect es m m' tr RPanic
| le_leak msgs e : minv (mkEntry (m_next m) false msgs :: es) m' -> m_next m' = (m_next m + 1)%N ->
    cap m' = cap m -> logged tr = [] -> (forall md, ~ In (EReport md None) tr) -> Exists leaks tr ->
    length es < cap m -> list_effect es m m' tr (RErr e)
| le_log msgs md r : minv es m' -> m_next m' = (m_next m + 1)%N -> cap m' = cap m -> length es < cap m ->
    logged tr = (if a_logging a then [(m_next m, msgs)] else []) -> Forall (fun x => ~ leaks x) tr ->
    In (EReport md None) tr -> select msgs order = Some md -> r <> RPanic -> list_effect es m m' tr r.

Lemma logged_app tr1 tr2 : @logged V M Er (tr1 ++ tr2) = logged tr1 ++ logged tr2.
Proof. apply flat_map_app. Qed.

(** No reporting or logging by task steps. *)
Definition task_only (tr : list ev) : Prop := Forall (fun x => runs_tasks x) tr.
Lemma task_only_logged tr : task_only tr -> logged tr = [] /\ forall md r, ~ In (EReport md r) tr.
Proof.
  induction 1 as [|x tr H F [IH1 IH2]]; [split; auto|]. change (x :: tr) with ([x] ++ tr). rewrite logged_app, IH1. split.
  - destruct x; cbn in H; tauto.
  - intros md r [->|In]; [cbn in H; tauto|]. eapply IH2; eauto.
Qed.

Lemma one_call_task_only ph t env env' tr f : one_call a o ph t env = (env', tr, f) -> task_only tr.
Proof.
  assert (A : forall e env env' tr f, act o ph t e env = (env', tr, f) -> task_only tr).
  { clear. unfold act. intros e env env' tr f. destruct (o_decide o ph t e env). intros H; injection H as <- <- <-.
    repeat constructor. }
  assert (D : forall env env' tr f, do_call o ph t env = (env', tr, f) -> task_only tr).
  { clear -A. unfold do_call. intros env env' tr f. destruct (o_task o ph t env) as [env1 [e|]].
    - destruct (act o ph t e env1) as [[env2 tr2] f2] eqn:X. apply A in X.
      intros H; injection H as <- <- <-. constructor; [exact I|auto].
    - intros H; injection H as <- <- <-. repeat constructor. }
  unfold one_call. destruct (a_sim a); [|apply D].
  destruct (o_sim o ph t env) as [env1 [| |e]].
  - intros H; injection H as <- <- <-. repeat constructor.
  - destruct (do_call o ph t env1) as [[env2 tr2] f2] eqn:X. apply D in X.
    intros H; injection H as <- <- <-. constructor; [exact I|auto].
  - destruct (act o ph t e env1) as [[env2 tr2] f2] eqn:X. apply A in X.
    intros H; injection H as <- <- <-. constructor; [exact I|auto].
Qed.
Lemma lifecycle_task_only ph ts : forall env env' tr f, lifecycle a o ph ts env = (env', tr, f) -> task_only tr.
Proof.
  induction ts as [|t ts IH]; intros env env' tr f; cbn [lifecycle].
  - intros H; injection H as <- <- <-. constructor.
  - destruct (one_call a o ph t env) as [[env1 tr1] f1] eqn:O. apply one_call_task_only in O.
    destruct f1.
    + destruct (lifecycle a o ph ts env1) as [[env2 tr2] f2] eqn:L. apply IH in L.
      intros H; injection H as <- <- <-. apply Forall_app; auto.
    + intros H; injection H as <- <- <-. auto.
    + intros H; injection H as <- <- <-. auto.
Qed.

Lemma pact_task_only t e out env env' tr out' f : pact o t e out env = (env', tr, out', f) -> task_only tr.
Proof.
  unfold pact. destruct (o_decide o Process t e env) as [env1 d].
  destruct d; intros H; injection H as <- <- <- <-; repeat constructor.
Qed.
Lemma do_process_task_only s ins doit out env env' tr out' f :
  do_process o s ins doit out env = (env', tr, out', f) -> task_only tr.
Proof.
  unfold do_process. destruct (o_now o env) as [env0 t0].
  set (X := if doit then _ else _).
  assert (HX : task_only (snd (fst (fst X)))).
  { subst X. destruct doit; [|constructor]. destruct (s_type s).
    - destruct (o_process o (s_node s) ins (with_start t0 out) env0) as [[e1 o1] r1]. repeat constructor.
    - destruct (o_process o (s_node s) ins (with_start t0 out) env0) as [[e1 o1] r1]. repeat constructor.
    - destruct (o_sink o (s_node s) ins env0) as [e1 r1]. repeat constructor. }
  destruct X as [[[env1 tr1] out1] r]. cbn in HX. destruct (o_now o env1) as [env2 t1].
  destruct r as [e|].
  - destruct (pact o (s_node s) e (with_end t1 out1) env2) as [[[env3 tr3] out3] f3] eqn:P.
    apply pact_task_only in P. intros H; injection H as <- <- <- <-. apply Forall_app. auto.
  - intros H; injection H as <- <- <- <-. auto.
Qed.
Lemma process_step_task_only s msgs env env' tr msgs' f :
  process_step a o s msgs env = (env', tr, msgs', f) -> task_only tr.
Proof.
  unfold process_step. destruct (s_out s) as [[k ty]|]; [|intros H; injection H as <- <- <- <-; constructor].
  destruct (nth_error msgs k) as [out|]; [|intros H; injection H as <- <- <- <-; constructor].
  destruct (gather msgs (s_inputs s)) as [ins|]; [|intros H; injection H as <- <- <- <-; constructor].
  unfold process_msg. destruct (a_sim a).
  - destruct (o_sim_process o (s_node s) ins out env) as [[env1 out1] ovr]. destruct ovr as [| |e].
    + destruct (do_process o s ins false out1 env1) as [[[env3 tr3] out3] f3] eqn:P.
      apply do_process_task_only in P. intros H; injection H as <- <- <- <-. constructor; [exact I|auto].
    + destruct (do_process o s ins true out1 env1) as [[[env3 tr3] out3] f3] eqn:P.
      apply do_process_task_only in P. intros H; injection H as <- <- <- <-. constructor; [exact I|auto].
    + destruct (pact o (s_node s) e out1 env1) as [[[env3 tr3] out3] f3] eqn:P.
      apply pact_task_only in P. destruct f3.
      * destruct (do_process o s ins false out3 env3) as [[[env4 tr4] out4] f4] eqn:Q.
        apply do_process_task_only in Q. intros H; injection H as <- <- <- <-.
        constructor; [exact I|apply Forall_app; auto].
      * intros H; injection H as <- <- <- <-. constructor; [exact I|auto].
      * intros H; injection H as <- <- <- <-. constructor; [exact I|auto].
      * intros H; injection H as <- <- <- <-. constructor; [exact I|auto].
  - destruct (do_process o s ins true out env) as [[[env3 tr3] out3] f3] eqn:P.
    apply do_process_task_only in P. intros H; injection H as <- <- <- <-. auto.
Qed.
Lemma process_all_task_only ss : forall msgs env env' tr msgs' f,
  process_all a o ss msgs env = (env', tr, msgs', f) -> task_only tr.
Proof.
  induction ss as [|s ss IH]; intros msgs env env' tr msgs' f; cbn [process_all].
  - intros H; injection H as <- <- <- <-. constructor.
  - destruct (process_step a o s msgs env) as [[[env1 tr1] msgs1] f1] eqn:P. apply process_step_task_only in P.
    destruct f1; try (intros H; injection H as <- <- <- <-; auto; fail).
    destruct (process_all a o ss msgs1 env1) as [[[env2 tr2] msgs2] f2] eqn:Q. apply IH in Q.
    intros H; injection H as <- <- <- <-. apply Forall_app; auto.
Qed.
End Proofs.
