(** Proofs about the generated run loop: what iterations do to the copper lists, sequences of iterations. *)
From Coq Require Import String List Arith NArith Bool Lia Sorted.
From Verif Require Import Base CuListModel CuListSpec CuListProofs PlanModel RuntimeModel RuntimeSpec RuntimeProofs RuntimeProofs2.
Import ListNotations.
Local Open Scope list_scope.
Local Open Scope nat_scope.

Section Proofs.
Context {V M Er E : Type}.
Variable a : application.
Variable o : oracles V M Er E.
Notation ev := (event V M Er).
Notation message := (msg V M).
Notation order := (map s_node (a_plan a)).
Implicit Types (env : E) (tr : list ev) (m : mgr (list message)).

Notation noleak := (Forall (fun x : ev => ~ leaks x)).

Lemma calm_noleak tr : calm tr -> task_only tr -> noleak tr.
Proof.
  induction 1 as [|x tr H C IH]; intros T; inversion T; subst; constructor; auto.
  destruct x; cbn in *; try tauto. destruct ph, d; cbn in *; tauto.
Qed.
Lemma logs_noleak (lg : list ev) : Forall (fun e => is_log e = true) lg -> noleak lg.
Proof. apply Forall_impl. intros []; cbn; try discriminate. auto. Qed.
Lemma logs_noreport (lg : list ev) : Forall (fun e => is_log e = true) lg -> forall md r, ~ In (EReport md r) lg.
Proof. intros F md r H. rewrite Forall_forall in F. apply F in H. discriminate. Qed.

Lemma ran_task_only ph tr f : ran a o ph tr f -> task_only tr.
Proof. intros (e1 & e2 & H). eapply lifecycle_task_only; eauto. Qed.

Lemma ends_noleak ph ts tr f : ph <> Process -> task_only tr -> ends a ph ts tr f -> noleak tr.
Proof.
  intros N T H. destruct f as [|r|]; cbn in H.
  - apply calm_noleak; tauto.
  - destruct H as (tr' & t & e & -> & C & _). apply Forall_app in T. destruct T as [T _].
    apply Forall_app. split; [apply calm_noleak; auto|]. constructor; [|constructor].
    destruct ph, r; cbn; tauto.
  - tauto.
Qed.

Lemma body_spec es m m1 i c msgs m' tr3 pf r : log_ok o -> minv es m -> (m_next m + 1 < 2 ^ 32)%N ->
  create (a_mode a) m = Ret (Some (m1, i)) -> nth_error (m_data m1) i = Some c ->
  let m2 := set_slot i (mkCl (cl_id c) Processing msgs) m1 in
  body_case a o m2 m' (cl_id c) msgs tr3 pf r ->
  match r with
  | RPanic => tr3 = []
  | RErr e => (pf = PErr e /\ tr3 = [] \/ exists md, tr3 = [EReport md (Some e)]) /\
              minv (mkEntry (m_next m) false msgs :: es) m' /\ m_next m' = (m_next m + 1)%N /\ cap m' = cap m \/
              exists md tr4, collect_metadata a msgs = Some md /\ ran a o Postprocess tr4 (Return (Some e)) /\
                tr3 = EReport md None :: (if a_logging a then [ELog (m_next m) msgs] else []) ++ tr4 /\
                minv es m' /\ m_next m' = (m_next m + 1)%N /\ cap m' = cap m /\ pf = PNext
  | ROk => exists md tr4, collect_metadata a msgs = Some md /\
             (pf = PAbort /\ tr4 = [] \/ pf = PNext /\ exists f, ran a o Postprocess tr4 f) /\
             tr3 = EReport md None :: (if a_logging a then [ELog (m_next m) msgs] else []) ++ tr4 /\
             minv es m' /\ m_next m' = (m_next m + 1)%N /\ cap m' = cap m
  end.
Proof.
  intros LO I B C N m2 H. destruct (begin_spec a es m m1 i c I B C N) as [Hid G].
  destruct (G msgs) as [R Hcap]. fold m2 in R, Hcap.
  assert (Hn : m_next m2 = (m_next m + 1)%N) by (apply rrel_next in R; auto).
  assert (F : Forall (fun e => e_done e = false /\ (e_id e < m_next m)%N) es) by apply I.
  assert (Fin : forall env, exists m3, finish a o (cl_id c) m2 env =
    Ret (m3, if a_logging a then [ELog (m_next m) msgs] else []) /\ minv es m3 /\
    m_next m3 = (m_next m + 1)%N /\ cap m3 = cap m).
  { intros env. rewrite Hid. destruct (finish_spec a o (m_next m) msgs es _ m2 env LO R ltac:(lia) F) as (m3 & H1 & H2 & H3).
    exists m3. assert (m_next m3 = (m_next m + 1)%N) by (apply rrel_next in H2; auto). split; auto.
    split; [|split; auto; congruence]. split; [congruence|].
    eapply Forall_impl; [|exact F]. cbn. intros e [D L]. split; auto. lia. }
  assert (Lk : minv (mkEntry (m_next m) false msgs :: es) m2).
  { split; [rewrite Hn; exact R|]. rewrite Hn. constructor; [split; [reflexivity|cbn [e_id]; lia]|].
    eapply Forall_impl; [|exact F]. cbn. intros e [D L]. split; auto. lia. }
  clearbody m2.
  inversion H; subst.
  - reflexivity.
  - left. split; [left; auto|]. auto.
  - match goal with X : reports _ _ _ _ _ _ _ _ |- _ => destruct X as (_ & md & _ & ->) end.
    left. split; [right; eauto|]. auto.
  - match goal with X : reports _ _ _ _ _ _ _ _ |- _ => destruct X as (_ & [[-> _]|(md & env0 & _ & _ & FX)]) end; auto.
    destruct (Fin env0) as (m3 & F3 & _). rewrite F3 in FX. discriminate.
  - match goal with X : reports _ _ _ _ _ _ _ _ |- _ => destruct X as (md & lg & env0 & Md & FX & ->) end.
    destruct (Fin env0) as (m3 & F3 & I3). rewrite F3 in FX. injection FX as <- <-.
    exists md, []. rewrite app_nil_r. tauto.
  - match goal with X : reports _ _ _ _ _ _ _ _ |- _ => destruct X as (md & lg & env0 & Md & FX & ->) end.
    destruct (Fin env0) as (m3 & F3 & I3). rewrite F3 in FX. injection FX as <- <-.
    match goal with X : ran _ _ _ _ _ |- _ => rename X into Ra end.
    destruct f as [|[e|]|]; cbn [to_result].
    + exists md, tr'. split; auto. split; [right; eauto|]. tauto.
    + right. exists md, tr'. tauto.
    + exists md, tr'. split; auto. split; [right; eauto|]. tauto.
    + apply ran_ends in Ra. destruct Ra.
Qed.

Lemma not_full es m m1 i : minv es m -> (m_next m + 1 < 2 ^ 32)%N ->
  create (a_mode a) m = Ret (Some (m1, i)) -> length es < cap m.
Proof.
  intros I B C. destruct (minv_len _ _ I) as [L1 L2].
  assert (length es <> cap m); [|lia]. intros H. exact (proj2 (create_full a es m I B) H m1 i C).
Qed.

Lemma logged_self (id : N) (msgs : list message) :
  @logged V M Er (if a_logging a then [ELog id msgs] else []) = if a_logging a then [(id, msgs)] else [].
Proof. destruct (a_logging a); auto. Qed.

Lemma iteration_effect es m env env' m' tr r : log_ok o -> minv es m -> (m_next m + 1 < 2 ^ 32)%N ->
  run_one_iteration a o m env = (env', m', tr, r) -> list_effect a es m m' tr r.
Proof.
  intros LO I B H. apply iteration_spec in H. destruct H as [r Em R1|Em R1 F|tr1 tr2 tr3 m1 i c msgs pf r R1 C N PA -> BC].
  - destruct (task_only_logged _ (ran_task_only _ _ _ R1)) as [L1 L2].
    apply le_none; auto.
    + eapply ends_noleak; [|eapply ran_task_only; eauto|eapply ran_ends; eauto]. discriminate.
    + destruct r; discriminate.
  - destruct (task_only_logged _ (ran_task_only _ _ _ R1)) as [L1 L2].
    apply le_full; auto. exact (proj1 (create_full a es m I B) F).
  - pose proof (not_full _ _ _ _ I B C) as NF.
    destruct (task_only_logged _ (ran_task_only _ _ _ R1)) as [L1 L2].
    pose proof (ran_ends _ _ _ _ _ R1) as [_ C1].
    pose proof (calm_noleak _ C1 (ran_task_only _ _ _ R1)) as N1.
    destruct PA as (e1 & e2 & PA). pose proof (process_all_task_only _ _ _ _ _ _ _ _ _ PA) as T2.
    apply process_all_spec in PA. destruct PA as [PA _]. destruct (task_only_logged _ T2) as [L3 L4].
    pose proof (body_spec es m m1 i c msgs m' tr3 pf r LO I B C N BC) as S.
    destruct r as [|e|].
    + destruct S as (md & tr4 & Md & Hf & -> & I' & Hn & Hc).
      assert (X4 : task_only tr4 /\ noleak tr4).
      { destruct Hf as [[_ ->]|[_ [f Rf]]]; [split; constructor|]. split; [eapply ran_task_only; eauto|].
        eapply ends_noleak; [|eapply ran_task_only; eauto|eapply ran_ends; eauto]. discriminate. }
      destruct X4 as [T4 N4]. destruct (task_only_logged _ T4) as [L5 L6].
      apply le_log with (msgs := msgs) (md := md); auto.
      * rewrite !logged_app.
        change (logged (EReport md None :: (if a_logging a then [ELog (m_next m) msgs] else []) ++ tr4))
          with (@logged V M Er ((if a_logging a then [ELog (m_next m) msgs] else []) ++ tr4)).
        rewrite logged_app, L1, L3, L5, app_nil_r. apply logged_self.
      * rewrite !Forall_app. split; auto. split.
        -- destruct Hf as [[-> _]|[-> _]].
           ++ destruct PA as (tr' & t & e & -> & C2 & _). apply Forall_app in T2. destruct T2 as [T2 _].
              apply Forall_app. split; [apply calm_noleak; auto|]. constructor; [cbn; tauto|constructor].
           ++ destruct PA as [_ C2]. apply calm_noleak; auto.
        -- constructor; [cbn; tauto|]. apply Forall_app. split; auto.
           destruct (a_logging a); repeat constructor. cbn; tauto.
      * rewrite !in_app_iff. right. right. left. auto.
      * discriminate.
    + destruct S as [(Htr & I' & Hn & Hc)|(md & tr4 & Md & Rf & -> & I' & Hn & Hc & ->)].
      * apply le_leak with (msgs := msgs); auto.
        -- rewrite !logged_app, L1, L3. destruct Htr as [[_ ->]|(md & ->)]; auto.
        -- intros md Hin. rewrite !in_app_iff in Hin. destruct Hin as [Hin|[Hin|Hin]]; [eapply L2; eauto|eapply L4; eauto|].
           destruct Htr as [[_ ->]|(md' & ->)]; [destruct Hin|]. destruct Hin as [Hin|[]]. discriminate.
        -- rewrite !Exists_app. destruct Htr as [[-> ->]|(md' & ->)].
           ++ destruct PA as (tr' & t & -> & _). right. left. apply Exists_app. right. constructor. exact Logic.I.
           ++ right. right. constructor. exact Logic.I.
      * assert (T4 : task_only tr4) by (eapply ran_task_only; eauto).
        assert (N4 : noleak tr4).
        { eapply ends_noleak; [|exact T4|eapply ran_ends; eauto]. discriminate. }
        destruct (task_only_logged _ T4) as [L5 L6].
        apply le_log with (msgs := msgs) (md := md); auto.
        -- rewrite !logged_app.
           change (logged (EReport md None :: (if a_logging a then [ELog (m_next m) msgs] else []) ++ tr4))
             with (@logged V M Er ((if a_logging a then [ELog (m_next m) msgs] else []) ++ tr4)).
           rewrite logged_app, L1, L3, L5, app_nil_r. apply logged_self.
        -- rewrite !Forall_app. split; auto. split.
           ++ destruct PA as [_ C2]. apply calm_noleak; auto.
           ++ constructor; [cbn; tauto|]. apply Forall_app. split; auto.
              destruct (a_logging a); repeat constructor. cbn; tauto.
        -- rewrite !in_app_iff. right. right. left. auto.
        -- discriminate.
    + subst tr3. apply le_panic; auto.
      * rewrite !logged_app, L1, L3. auto.
      * intros md Hin. rewrite !in_app_iff in Hin. destruct Hin as [Hin|[Hin|Hin]]; [eapply L2; eauto|eapply L4; eauto|destruct Hin].
Qed.
End Proofs.
