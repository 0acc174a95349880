(** Times of processing in the log of a run: theorems. *)
From Coq Require Import String List Arith NArith Bool Lia Sorted ZifyBool ZifyNat ZifyN.
From Verif Require Import Base CuListModel CuListProofs PlanModel RuntimeModel RuntimeSpec RuntimeProofs RuntimeProofs2 RuntimeProofs3
  RuntimeProofs4 RuntimeProofs5 RuntimeProofs6 RuntimeProps.
From Verif Require ReplaySpec.
Import ListNotations.
Local Open Scope list_scope.
Local Open Scope nat_scope.

(** * Specification *)
(** The start and the end of the processing that made each message. *)
Definition times {V M} (l : list (msg V M)) : list (option N) := flat_map (fun x => [m_start x; m_end x]) l.
(** The times in the lists of a log, in the order of the log and of the plan. *)
Definition times_of_log {V M} (l : list (N * list (msg V M))) : list (option N) := flat_map (fun r => times (snd r)) l.
(** The clock does not go back either while the monitor looks at a list. *)
Definition report_forward {V M Er E} (o : oracles V M Er E) (time : E -> N) : Prop :=
  forall md env, (time env <= time (fst (o_report o md env)))%N.

(** * Proofs *)
(** The times [l], not decreasing, between [t] and [u]. *)
Fixpoint within (t : N) (l : list N) (u : N) : Prop :=
  match l with [] => (t <= u)%N | x :: l => (t <= x)%N /\ within x l u end.
Lemma within_le l : forall t u, within t l u -> (t <= u)%N.
Proof. induction l as [|x l IH]; cbn; intros t u H; [exact H|]. destruct H as [H1 H2]. apply IH in H2. lia. Qed.
Lemma within_wider l : forall t u t' u', (t' <= t)%N -> (u <= u')%N -> within t l u -> within t' l u'.
Proof. induction l as [|x l IH]; cbn; intros t u t' u' A B H; [lia|]. destruct H as [H1 H2]. split; [lia|]. apply (IH x u); auto. lia. Qed.
Lemma within_app l k : forall t u v, within t l u -> within u k v -> within t (l ++ k) v.
Proof.
  induction l as [|x l IH]; cbn; intros t u v A B; [exact (within_wider _ _ _ _ _ A (N.le_refl v) B)|]. destruct A as [A1 A2]. split; eauto.
Qed.
Lemma within_sorted l : forall t u, within t l u -> Sorted N.le (t :: l ++ [u]).
Proof.
  induction l as [|x l IH]; intros t u H; cbn [app].
  - repeat constructor. exact H.
  - destruct H as [H1 H2]. constructor; [apply IH, H2|constructor; exact H1].
Qed.

Section Times.
Context {V M Er E : Type}.
Variable a : application.
Variable o : oracles V M Er E.
Variable time : E -> N.
Hypothesis MC : monotone_clock o time.
Hypothesis KS : keeps_start o.
Hypothesis RF : report_forward o time.
Notation message := (msg V M).

Lemma act_forward ph t e env env' tr f : act o ph t e env = (env', tr, f) -> (time env <= time env')%N.
Proof.
  unfold act. destruct (o_decide o ph t e env) as [env1 d] eqn:D. destruct MC as (_ & _ & _ & _ & _ & _ & _ & H). specialize (H ph t e env). rewrite D in H. cbn in H.
  destruct d; intros X; injection X as <- <- <-; auto.
Qed.
Lemma do_call_forward ph t env env' tr f : do_call o ph t env = (env', tr, f) -> (time env <= time env')%N.
Proof.
  unfold do_call. destruct (o_task o ph t env) as [env1 r] eqn:D. destruct MC as (_ & _ & H & _). specialize (H ph t env). rewrite D in H. cbn in H.
  destruct r as [e|]; [|intros X; injection X as <- <- <-; auto].
  destruct (act o ph t e env1) as [[e2 t2] f2] eqn:A. apply act_forward in A. intros X; injection X as <- <- <-. lia.
Qed.
Lemma one_call_forward ph t env env' tr f : one_call a o ph t env = (env', tr, f) -> (time env <= time env')%N.
Proof.
  unfold one_call. destruct (a_sim a); [|apply do_call_forward].
  destruct (o_sim o ph t env) as [env1 ovr] eqn:D. destruct MC as (_ & _ & _ & _ & _ & H & _). specialize (H ph t env). rewrite D in H. cbn in H.
  destruct ovr as [| |e].
  - intros X; injection X as <- <- <-; auto.
  - destruct (do_call o ph t env1) as [[e2 t2] f2] eqn:A. apply do_call_forward in A. intros X; injection X as <- <- <-. lia.
  - destruct (act o ph t e env1) as [[e2 t2] f2] eqn:A. apply act_forward in A. intros X; injection X as <- <- <-. lia.
Qed.
Lemma lifecycle_forward ph ts : forall env env' tr f, lifecycle a o ph ts env = (env', tr, f) -> (time env <= time env')%N.
Proof.
  induction ts as [|t ts IH]; intros env env' tr f; cbn [lifecycle].
  - intros X; injection X as <- <- <-. lia.
  - destruct (one_call a o ph t env) as [[e1 t1] f1] eqn:C. apply one_call_forward in C. destruct f1.
    + destruct (lifecycle a o ph ts e1) as [[e2 t2] f2] eqn:L. apply IH in L. intros X; injection X as <- <- <-. lia.
    + intros X; injection X as <- <- <-. lia.
    + intros X; injection X as <- <- <-. lia.
Qed.

Lemma process_msg_forward s ins out env env' tr out' f : process_msg a o s ins out env = (env', tr, out', f) -> (time env <= time env')%N.
Proof.
  assert (D0 : forall b out env env' tr out' f, do_process o s ins b out env = (env', tr, out', f) -> (time env <= time env')%N).
  { intros b x e e' tr0 x' f0 H. apply (do_process_times o time MC KS) in H. destruct H as (t0 & t1 & _ & _ & H1 & H2 & H3). lia. }
  unfold process_msg. destruct (a_sim a); [|apply D0].
  destruct (o_sim_process o (s_node s) ins out env) as [[env1 out1] ovr] eqn:S.
  assert (T1 : (time env <= time env1)%N).
  { destruct MC as (_ & _ & _ & _ & _ & _ & H & _). specialize (H (s_node s) ins out env). rewrite S in H. auto. }
  destruct ovr as [| |e].
  - destruct (do_process o s ins false out1 env1) as [[[env2 tr2] out2] f2] eqn:D. apply D0 in D. intros H; injection H as <- <- <- <-. lia.
  - destruct (do_process o s ins true out1 env1) as [[[env2 tr2] out2] f2] eqn:D. apply D0 in D. intros H; injection H as <- <- <- <-. lia.
  - destruct (pact o (s_node s) e out1 env1) as [[[env3 tr3] out3] f3] eqn:P. apply (pact_times o time MC) in P. destruct P as (P1 & _).
    destruct f3; try (intros H; injection H as <- <- <- <-; lia).
    destruct (do_process o s ins false out3 env3) as [[[env2 tr2] out2] f2] eqn:D. apply D0 in D. intros H; injection H as <- <- <- <-. lia.
Qed.

Lemma process_all_within : forall ss n,
  (forall k s, nth_error ss k = Some s -> exists ty, s_out s = Some (n + k, ty)) ->
  forall msgs env env' tr msgs' f, process_all a o ss msgs env = (env', tr, msgs', f) ->
  (time env <= time env')%N /\ length msgs' = length msgs /\ firstn n msgs' = firstn n msgs /\
  (f = PNext -> length msgs = n + length ss -> exists ts, times (skipn n msgs') = map Some ts /\ within (time env) ts (time env')).
Proof.
  induction ss as [|s ss IH]; intros n GP msgs env env' tr msgs' f; cbn [process_all].
  - intros H; injection H as <- <- <- <-. split; [lia|]. split; auto. split; auto. intros _ L. exists []. cbn [length] in L.
    rewrite skipn_all2 by lia. split; [reflexivity|cbn; lia].
  - destruct (GP 0 s eq_refl) as (ty & So). rewrite Nat.add_0_r in So. unfold process_step. rewrite So.
    destruct (nth_error msgs n) as [out|] eqn:N; [|intros H; injection H as <- <- <- <-; repeat split; auto; [lia|discriminate]].
    destruct (gather msgs (s_inputs s)) as [ins|]; [|intros H; injection H as <- <- <- <-; repeat split; auto; [lia|discriminate]].
    destruct (process_msg a o s ins out env) as [[[env1 tr1] out1] f1] eqn:P.
    pose proof (process_msg_forward _ _ _ _ _ _ _ _ P) as Fw. pose proof (process_msg_times a o time MC KS _ _ _ _ _ _ _ _ P) as PT.
    assert (Fn : firstn n (upd n out1 msgs) = firstn n msgs).
    { clear. revert n. induction msgs as [|x l IH]; intros [|n]; cbn; auto. now rewrite IH. }
    destruct f1 as [| |e|]; try (intros H; injection H as <- <- <- <-; rewrite upd_length; repeat split; auto; discriminate).
    destruct (PT eq_refl) as (t0 & t1 & D1 & D2 & D3 & D4 & D5). clear PT.
    destruct (process_all a o ss (upd n out1 msgs) env1) as [[[env2 tr2] msgs2] f2] eqn:Q.
    assert (GP' : forall k s, nth_error ss k = Some s -> exists ty, s_out s = Some (S n + k, ty)).
    { intros k s0 H. destruct (GP (S k) s0 H) as (ty0 & X). exists ty0. rewrite X. replace (S n + k) with (n + S k) by lia. reflexivity. }
    destruct (IH (S n) GP' _ _ _ _ _ _ Q) as (J1 & J2 & J3 & J4). rewrite upd_length in J2, J4.
    assert (Nn : n < length msgs) by (apply nth_error_Some; congruence).
    assert (N2 : nth_error msgs2 n = Some out1).
    { rewrite <- (firstn_skipn (S n) msgs2), J3. rewrite nth_error_app1 by (rewrite firstn_length, upd_length; lia).
      assert (X : forall (l : list message) k, nth_error (firstn (S k) l) k = nth_error l k) by (induction l as [|y l IHl]; intros [|k]; try reflexivity; exact (IHl k)).
      rewrite X. apply nth_error_upd_eq. auto. }
    intros H; injection H as <- <- <- <-. split; [lia|]. split; [exact J2|]. split.
    + rewrite <- Fn. apply (f_equal (firstn n)) in J3. rewrite !firstn_firstn in J3. replace (Nat.min n (S n)) with n in J3 by lia. exact J3.
    + intros -> L. destruct (J4 eq_refl ltac:(cbn [length] in L; lia)) as (ts & T1 & T2). exists (t0 :: t1 :: ts).
      assert (Sk : skipn n msgs2 = out1 :: skipn (S n) msgs2).
      { clear -N2. revert n N2. induction msgs2 as [|y l IHl]; intros [|n] N2; try discriminate N2; cbn in *; [congruence|]. now apply IHl. }
      rewrite Sk. cbn [times flat_map app map]. fold (times (skipn (S n) msgs2)). rewrite T1, D1, D2. split; [reflexivity|].
      cbn [within]. split; [exact D3|]. split; [exact D4|]. exact (within_wider _ _ _ _ _ D5 (N.le_refl _) T2).
Qed.

(** One iteration. *)
Lemma iteration_within es m env env' m' tr r : writes_succeed o -> good_plan (a_plan a) -> minv es m -> (m_next m + 1 < 2 ^ 32)%N ->
  Forall (fun l => length l = length (a_plan a)) (contents m) ->
  run_one_iteration a o m env = (env', m', tr, r) -> (forall t e, ~ In (EDecision Process t e Abort) tr) ->
  exists ts, times_of_log (logged tr) = map Some ts /\ within (time env) ts (time env') /\
    Forall (fun x => length (snd x) = length (a_plan a)) (logged tr).
Proof.
  intros LO GP I B Len H NA. unfold run_one_iteration in H.
  destruct (lifecycle a o Preprocess (seq 0 (a_tasks a)) env) as [[env3 tr3] f3] eqn:Lf.
  pose proof (lifecycle_forward _ _ _ _ _ _ Lf) as F3. pose proof (lifecycle_task_only a o _ _ _ _ _ _ Lf) as Q3. apply task_only_logged in Q3. destruct Q3 as [Q3 _].
  assert (None_logged : forall (tr : list (event V M Er)) e, logged tr = [] -> (time env <= time e)%N ->
    exists ts, times_of_log (logged tr) = map Some ts /\ within (time env) ts (time e) /\ Forall (fun x => length (snd x) = length (a_plan a)) (logged tr)).
  { intros tr0 e Hn Ht. rewrite Hn. exists []. split; [reflexivity|]. split; [exact Ht|constructor]. }
  destruct f3; try (injection H as <- <- <- <-; apply None_logged; auto; fail).
  unfold copperlist_body in H.
  destruct (create (a_mode a) m) as [[[p i]|]|] eqn:C; try (injection H as <- <- <- <-; apply None_logged; rewrite ?app_nil_r; auto; fail).
  destruct (nth_error (m_data p) i) as [c|] eqn:Nc; try (injection H as <- <- <- <-; apply None_logged; rewrite ?app_nil_r; auto; fail).
  destruct (create_contents a _ _ _ _ C Nc) as [_ Xc].
  assert (Lc : length (cl_msgs c) = length (a_plan a)) by (rewrite Forall_forall in Len; apply Len; eapply nth_error_In; eauto).
  destruct (process_all a o (a_plan a) (cl_msgs c) env3) as [[[env4 tr4] ms4] f4] eqn:P.
  destruct (process_all_within (a_plan a) 0 (fun k s K => proj1 (proj2 GP k s K)) _ _ _ _ _ _ P) as (F4 & L4 & _ & T4).
  pose proof (process_all_task_only a o _ _ _ _ _ _ _ P) as Q4. apply task_only_logged in Q4. destruct Q4 as [Q4 _].
  assert (Rp : forall q e6 m6 t6 f6, report_and_finish a o (cl_id c) (set_slot i (mkCl (cl_id c) Processing ms4) p) ms4 env4 = (e6, m6, t6, f6) ->
    f4 = q -> (time env4 <= time e6)%N /\ (logged t6 = [] \/ logged t6 = [(m_next m, ms4)])).
  { intros q e6 m6 t6 f6 R _. unfold report_and_finish in R. destruct (collect_metadata a ms4) as [md|]; [|injection R as <- <- <- <-; split; [lia|auto]].
    pose proof (RF md env4) as Fr. destruct (o_report o md env4) as [e5 [e|]]; cbn [fst] in Fr; [injection R as <- <- <- <-; split; auto|].
    destruct (finish_fresh a o es m p i c ms4 e5 LO I B C Nc) as (q1 & Fq). rewrite Fq in R. injection R as <- <- <- <-. split; [exact Fr|].
    destruct (a_logging a); cbn; auto. }
  destruct f4 as [| |e|].
  - destruct (T4 eq_refl ltac:(lia)) as (ts & T5 & T6). cbn [skipn] in T5.
    destruct (match collect_metadata a ms4 with Some md => e2e a md | None => Panic end) as [d|].
    2: { injection H as <- <- <- <-. apply None_logged; [rewrite logged_app, Q3, Q4; reflexivity|lia]. }
    destruct (report_and_finish a o (cl_id c) _ ms4 env4) as [[[e6 m6] t6] f6] eqn:R6. destruct (Rp _ _ _ _ _ eq_refl eq_refl) as [F6 G6].
    assert (End : forall (trx : list (event V M Er)) e7, logged trx = logged t6 -> (time e6 <= time e7)%N ->
      exists ts, times_of_log (logged trx) = map Some ts /\ within (time env) ts (time e7) /\ Forall (fun x => length (snd x) = length (a_plan a)) (logged trx)).
    { intros trx e7 -> F7. destruct G6 as [->| ->].
      - exists []. split; [reflexivity|]. split; [cbn; lia|constructor].
      - exists ts. cbn [times_of_log flat_map snd]. rewrite app_nil_r, T5. split; [reflexivity|]. split; [|repeat constructor; cbn; congruence].
        apply (within_wider _ (time env3) (time env4)); auto; lia. }
    destruct f6.
    + destruct (lifecycle a o Postprocess (seq 0 (a_tasks a)) e6) as [[e7 t7] f7] eqn:L7.
      pose proof (lifecycle_forward _ _ _ _ _ _ L7) as F7. pose proof (lifecycle_task_only a o _ _ _ _ _ _ L7) as Q7. apply task_only_logged in Q7. destruct Q7 as [Q7 _].
      injection H as <- <- <- <-. apply End; [|exact F7]. rewrite !logged_app, Q3, Q4, Q7, app_nil_r. reflexivity.
    + injection H as <- <- <- <-. apply End; [|lia]. rewrite !logged_app, Q3, Q4. reflexivity.
    + injection H as <- <- <- <-. apply End; [|lia]. rewrite !logged_app, Q3, Q4. reflexivity.
  - exfalso. pose proof (process_all_spec a o _ _ _ _ _ _ _ P) as [PS _]. destruct PS as (tr' & t & e & -> & _).
    destruct (report_and_finish _ _ _ _ _ _) as [[[? ?] tr6] ?].
    assert (In (EDecision Process t e Abort) tr); [|eapply NA; eauto].
    destruct f; injection H as <- <- <- <-; rewrite !in_app_iff; cbn; auto.
  - injection H as <- <- <- <-. apply None_logged; [rewrite logged_app, Q3, Q4; reflexivity|lia].
  - injection H as <- <- <- <-. apply None_logged; [rewrite logged_app, Q3, Q4; reflexivity|lia].
Qed.

(** ** C170 *)
Theorem C170_times : forall cap zero n env env' m' l,
  writes_succeed o -> good_plan (a_plan a) -> length zero = length (a_plan a) -> 0 < cap -> (N.of_nat n < 2 ^ 32)%N ->
  iterations a o n (mgr_new cap zero) env = (env', m', l) ->
  (forall x t e, In x l -> ~ In (EDecision Process t e Abort) (fst x)) ->
  exists ts, times_of_log (ReplaySpec.log_of l) = map Some ts /\ Sorted N.le (time env :: ts ++ [time env']) /\
    Forall (fun x => length (snd x) = length (a_plan a)) (ReplaySpec.log_of l).
Proof.
  intros cap zero n env env' m' l LO GP Lz Hc B H NA.
  assert (G : exists ts, times_of_log (ReplaySpec.log_of l) = map Some ts /\ within (time env) ts (time env') /\
    Forall (fun x => length (snd x) = length (a_plan a)) (ReplaySpec.log_of l)).
  2: { destruct G as (ts & G1 & G2 & G3). exists ts. split; [exact G1|]. split; [now apply within_sorted|exact G3]. }
  assert (Len : Forall (fun l => length l = length (a_plan a)) (contents (mgr_new cap zero))).
  { rewrite contents_new. apply Forall_forall. intros x Hx. apply repeat_spec in Hx. congruence. }
  assert (B' : (m_next (mgr_new cap zero) + N.of_nat n < 2 ^ 32)%N) by (cbn; lia).
  pose proof (minv_new cap zero Hc) as I. revert I Len B' H NA. generalize (@nil (CuListSpec.entry (list (msg V M)))) as es. generalize (mgr_new cap zero) as m. clear B Hc Lz.
  revert env l. induction n as [|n IH]; intros env l m es I Len B H NA; cbn [iterations] in H.
  - injection H as <- <- <-. exists []. split; [reflexivity|]. split; [cbn; lia|constructor].
  - destruct (run_one_iteration a o m env) as [[[env1 m1] tr1] r1] eqn:R.
    pose proof (iteration_effect a o es m env env1 m1 tr1 r1 LO I ltac:(lia) R) as Ef.
    pose proof (iteration_kept a o _ _ _ _ _ _ _ (kept_length a o (length (a_plan a))) R Len) as Len1.
    assert (X : r1 <> RPanic -> forall env2 m2 l2, iterations a o n m1 env1 = (env2, m2, l2) -> (env2, m2, (tr1, r1) :: l2) = (env', m', l) ->
      exists ts, times_of_log (ReplaySpec.log_of l) = map Some ts /\ within (time env) ts (time env') /\
        Forall (fun x => length (snd x) = length (a_plan a)) (ReplaySpec.log_of l)).
    { intros NP e2 m2 l2 It X. injection X as -> -> <-. destruct (effect_minv _ _ _ _ _ _ Ef I NP) as (es1 & I1 & Nx).
      destruct (iteration_within es m env env1 m1 tr1 r1 LO GP I ltac:(lia) Len R (fun t e => NA (tr1, r1) t e (or_introl eq_refl))) as (ts & T1 & T2 & T3).
      destruct (IH env1 l2 m1 es1 I1 Len1 ltac:(lia) It (fun x t e Hx => NA x t e (or_intror Hx))) as (ts2 & S1 & S2 & S3).
      exists (ts ++ ts2). unfold ReplaySpec.log_of, times_of_log in *. cbn [flat_map fst]. rewrite flat_map_app, T1, S1, map_app. split; [reflexivity|].
      split; [eapply within_app; eauto|]. apply Forall_app. auto. }
    destruct r1 as [|e|].
    + destruct (iterations a o n m1 env1) as [[e2 m2] l2] eqn:It. apply (X ltac:(discriminate) _ _ _ eq_refl H).
    + destruct (iterations a o n m1 env1) as [[e2 m2] l2] eqn:It. apply (X ltac:(discriminate) _ _ _ eq_refl H).
    + injection H as <- <- <-.
      destruct (iteration_within es m env env1 m1 tr1 RPanic LO GP I ltac:(lia) Len R (fun t e => NA (tr1, RPanic) t e (or_introl eq_refl))) as (ts & T1 & T2 & T3).
      exists ts. unfold ReplaySpec.log_of. cbn [flat_map fst]. rewrite app_nil_r. auto.
Qed.
End Times.
Print Assumptions C170_times.

(** Three iterations of source, task and sink: eighteen times, one more at each reading. *)
Example C170_case : exists env' m' l, iterations (line_app false) (slow fine) 3 (mgr_new 2 zero3) 0 = (env', m', l) /\
  monotone_clock (slow fine) (fun env => N.min (N.of_nat env) 1000) /\ keeps_start (slow fine) /\
  report_forward (slow fine) (fun env => N.min (N.of_nat env) 1000) /\ writes_succeed (slow fine) /\ good_plan (a_plan (line_app false)) /\
  (forall x t e, In x l -> ~ In (EDecision Process t e Abort) (fst x)) /\
  times_of_log (ReplaySpec.log_of l) = map (fun n => Some (N.of_nat n)) [3; 5; 6; 8; 9; 11; 19; 21; 22; 24; 25; 27; 35; 37; 38; 40; 41; 43].
Proof.
  eexists _, _, _. split; [vm_compute; reflexivity|]. split; [apply slow_clock|]. split; [intros t ins out e; reflexivity|]. split; [intros md e; cbn; lia|].
  split; [intros e c; reflexivity|]. split; [exact line_good|]. split; [|vm_compute; reflexivity].
  intros x t e [<-|[<-|[<-|[]]]]; cbn; intuition discriminate.
Qed.
(** The condition is needed: when the monitor aborts an iteration, the messages of the tasks that
    were not run are those of an earlier iteration, with its times. *)
Definition late := slow (world (fun ph t env => andb (fails_at Process 1 ph t env) (16 <? env)) always (decides Abort) by_runtime).
Theorem C170_aborted_refuted : exists (a : application) (o : oracles nat unit nat nat) time cap zero n env env' m' l,
  monotone_clock o time /\ keeps_start o /\ report_forward o time /\ writes_succeed o /\ good_plan (a_plan a) /\ length zero = length (a_plan a) /\ 0 < cap /\
  iterations a o n (mgr_new cap zero) env = (env', m', l) /\ Forall (fun x => snd x = ROk) l /\
  exists r i j x y s e, In r (ReplaySpec.log_of l) /\ i < j /\ nth_error (snd r) i = Some x /\ nth_error (snd r) j = Some y /\
    m_start x = Some s /\ m_end y = Some e /\ (e < s)%N.
Proof.
  exists (line_app false), late, (fun env => N.min (N.of_nat env) 1000), 1, zero3, 2, 0.
  eexists _, _, _. split; [apply slow_clock|]. split; [intros t ins out e; reflexivity|]. split; [intros md e; cbn; lia|].
  split; [intros e c; reflexivity|]. split; [exact line_good|]. split; [reflexivity|]. split; [lia|]. split; [vm_compute; reflexivity|].
  split; [repeat constructor|]. eexists _, 0, 2, _, _, _, _. split; [right; left; reflexivity|]. split; [lia|]. repeat (split; [reflexivity|]). reflexivity.
Qed.
Print Assumptions C170_aborted_refuted.
