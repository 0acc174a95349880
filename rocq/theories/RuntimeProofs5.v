(** Proofs about the generated run loop: whole runs, independence from old content. *)
From Coq Require Import String List Arith NArith Bool Lia Sorted.
From Verif Require Import Base CuListModel CuListSpec CuListProofs PlanModel RuntimeModel RuntimeSpec RuntimeProofs RuntimeProofs2 RuntimeProofs3 RuntimeProofs4.
Import ListNotations.
Local Open Scope list_scope.
Local Open Scope nat_scope.

Section Proofs.
Context {V M Er E : Type}.
Variable a : application.
Variable o : oracles V M Er E.
Notation ev := (event V M Er).
Notation message := (msg V M).
Notation order := (map s_node (a_plan a)).
Implicit Types (env : E) (tr : list ev) (m : mgr (list message)).

(** ** Whole runs *)
Definition shuts (x : ev) : Prop := match x with EDecision _ _ _ Shutdown => True | _ => False end.
Notation calm := (@calm V M Er).

Lemma all_tasks_spec ph env env' tr r : all_tasks a o ph env = (env', tr, r) ->
  prefix (attempts (a_sim a) tr) (map (pair ph) (seq 0 (a_tasks a))) /\
  (Forall (fun e => ~ gives_up e) tr -> attempts (a_sim a) tr = map (pair ph) (seq 0 (a_tasks a))) /\
  (r = ROk -> Forall (fun e => ~ shuts e) tr) /\ r <> RPanic.
Proof.
  unfold all_tasks. destruct (lifecycle a o ph (seq 0 (a_tasks a)) env) as [[env1 tr1] f] eqn:L.
  apply lifecycle_spec in L. pose proof (ends_prefix _ _ _ _ _ L) as P.
  assert (CS : forall tr, calm tr -> Forall (fun e => ~ shuts e) tr).
  { intros t. apply Forall_impl. intros x H S. apply H. destruct x; cbn in *; try tauto. destruct d; tauto. }
  destruct f as [|r1|].
  - destruct L as [L C]. destruct (o_monitor o ph env1) as [env2 r2]. intros H; injection H as <- <- <-.
    rewrite attempts_app. cbn. rewrite app_nil_r. split; auto. split; auto. split.
    + intros _. apply Forall_app. split; [auto|]. constructor; [cbn; tauto|constructor].
    + destruct r2; discriminate.
  - destruct L as (tr' & t & e & -> & C & _ & _ & X). intros H; injection H as <- <- <-.
    split; auto. split; [|split].
    + intros F. exfalso. eapply not_calm_end; [|exact F]. destruct r1; exact I.
    + destruct r1; [discriminate|]. intros _. apply Forall_app. split; [auto|]. constructor; [cbn; tauto|constructor].
    + destruct r1; discriminate.
  - destruct L.
Qed.

(** A successful iteration had no shutdown. *)
Lemma iteration_ok_noshut m env env' m' tr r : run_one_iteration a o m env = (env', m', tr, r) ->
  (forall e, r <> RErr e) -> Forall (fun e => ~ shuts e) tr.
Proof.
  intros H NE. apply Forall_forall. intros x Hx S. apply in_split in Hx. destruct Hx as (pre & post & ->).
  assert (G : gives_up x) by (destruct x; cbn in *; try tauto; destruct d; tauto).
  destruct (iteration_stop a o m env env' m' _ r pre x post H G eq_refl) as (ph & t & e & d & -> & D).
  destruct d; cbn in S; try tauto. destruct D as [_ D]. eapply NE; eauto.
Qed.

Lemma run_loop_spec fuel : forall m env env' m' tr r, run_loop a o fuel m env = (env', m', tr, r) ->
  exists its, tr = concat its /\ length its <= fuel /\
    Forall (fun it => prefix (attempts (a_sim a) it) (schedule (a_tasks a) order)) its /\
    (forall e, r = Some (RErr e) -> its <> []) /\
    Forall (Forall (fun e => ~ shuts e)) (removelast its) /\
    (r = None -> length its = fuel) /\
    (Exists (Exists shuts) its -> exists e, r = Some (RErr e)) /\ r <> Some ROk.
Proof.
  induction fuel as [|n IH]; intros m env env' m' tr r; cbn [run_loop].
  - intros H; injection H as <- <- <- <-. exists []. split; auto. split; auto. split; [constructor|].
    split; [discriminate|]. split; [constructor|]. split; auto. split; [|discriminate]. intros X; inversion X.
  - destruct (run_one_iteration a o m env) as [[[env1 m1] tr1] r1] eqn:R.
    pose proof (iteration_prefix a o _ _ _ _ _ _ R) as P.
    pose proof (iteration_ok_noshut _ _ _ _ _ _ R) as NS.
    assert (Last : r1 <> ROk -> (env1, m1, tr1, Some r1) = (env', m', tr, r) -> exists its, tr = concat its /\ length its <= S n /\
    Forall (fun it => prefix (attempts (a_sim a) it) (schedule (a_tasks a) order)) its /\
    (forall e, r = Some (RErr e) -> its <> []) /\
    Forall (Forall (fun e => ~ shuts e)) (removelast its) /\
    (r = None -> length its = S n) /\
    (Exists (Exists shuts) its -> exists e, r = Some (RErr e)) /\ r <> Some ROk).
    { intros NO H; injection H as <- <- <- <-. exists [tr1]. cbn [concat length removelast]. rewrite app_nil_r.
      split; auto. split; [lia|]. split; [constructor; auto|]. split; [discriminate|]. split; [constructor|].
      split; [discriminate|]. split; [|congruence]. intros X. inversion X; subst.
      - destruct r1 as [|e|]; [congruence|eauto|]. exfalso.
        specialize (NS ltac:(discriminate)). apply Exists_exists in H0. destruct H0 as (x & Hx & Sx).
        rewrite Forall_forall in NS. apply (NS _ Hx Sx).
      - inversion H0. }
    destruct r1; [|apply Last; discriminate..].
    destruct (run_loop a o n m1 env1) as [[[env2 m2] tr2] r2] eqn:L. apply IH in L.
    destruct L as (its & -> & Le & F & NE & RL & LN & SH & NOk).
    intros H; injection H as <- <- <- <-. exists (tr1 :: its). split; auto. cbn [length]. split; [lia|].
    split; [constructor; auto|]. split; [discriminate|]. split; [|split; [|split; auto]].
    + cbn [removelast]. destruct its; [constructor|]. constructor; auto. apply NS. discriminate.
    + intros X. rewrite (LN X). auto.
    + intros X. inversion X; subst; [|auto]. exfalso.
      specialize (NS ltac:(discriminate)). apply Exists_exists in H0. destruct H0 as (x & Hx & Sx).
      rewrite Forall_forall in NS. apply (NS _ Hx Sx).
Qed.

(** ** Slots *)
Lemma run_loop_available : log_ok o -> forall fuel es m env env' m' tr r, minv es m ->
  (m_next m + N.of_nat fuel < 2 ^ 32)%N -> run_loop a o fuel m env = (env', m', tr, r) ->
  (r = None -> available_copper_lists m' = available_copper_lists m) /\
  (forall e, r = Some (RErr e) -> available_copper_lists m <= S (available_copper_lists m')).
Proof.
  intros LO. induction fuel as [|n IH]; intros es m env env' m' tr r I B; cbn [run_loop].
  - intros H; injection H as <- <- <- <-. split; [auto|discriminate].
  - destruct (run_one_iteration a o m env) as [[[env1 m1] tr1] r1] eqn:R.
    pose proof (iteration_effect a o es m env env1 m1 tr1 r1 LO I ltac:(lia) R) as Ef.
    destruct r1 as [|e|].
    + destruct (effect_minv _ _ _ _ _ _ Ef I ltac:(discriminate)) as (es1 & I1 & Nx).
      destruct (effect_available _ _ _ _ _ _ Ef I ltac:(discriminate)) as (A1 & _ & A3).
      assert (A4 : available_copper_lists m1 = available_copper_lists m).
      { destruct (abandons tr1); [|lia]. destruct (A3 eq_refl). discriminate. }
      destruct (run_loop a o n m1 env1) as [[[env2 m2] tr2] r2] eqn:L.
      eapply IH in L; eauto; [|lia]. rewrite A4 in L. intros H; injection H as <- <- <- <-. auto.
    + intros H; injection H as <- <- <- <-. split; [discriminate|].
      destruct (effect_available _ _ _ _ _ _ Ef I ltac:(discriminate)) as (A1 & _). intros _ _.
      destruct (abandons tr1); lia.
    + intros H; injection H as <- <- <- <-. split; discriminate.
Qed.

(** ** Independence from old content *)
Definition sink_agree (s : step) (x y : message) : Prop :=
  s_type s = Sink -> m_payload x = m_payload y /\ m_meta x = m_meta y.

Lemma do_process_fresh s ins out1 out2 env : overwrites o -> sink_agree s out1 out2 ->
  do_process o s ins true out1 env = do_process o s ins true out2 env.
Proof.
  intros OW SA. unfold do_process. destruct (o_now o env) as [env0 t0]. unfold sink_agree in SA.
  assert (WE : forall t1 (x y : message), m_payload x = m_payload y -> m_meta x = m_meta y -> m_start x = m_start y -> with_end t1 x = with_end t1 y).
  { intros t1 x y. unfold with_end. congruence. }
  assert (P : s_type s <> Sink ->
    (let '(env, tr, out, r) := let '(env, out, r) := o_process o (s_node s) ins (with_start t0 out1) env0 in (env, [EProcess (s_node s) ins r], out, r) in
     let (env, t1) := o_now o env in let out := with_end t1 out in
     match r with None => (env, tr, out, PNext)
     | Some e => let '(env, tr', out, f) := pact o (s_node s) e out env in (env, tr ++ tr', out, f) end) =
    (let '(env, tr, out, r) := let '(env, out, r) := o_process o (s_node s) ins (with_start t0 out2) env0 in (env, [EProcess (s_node s) ins r], out, r) in
     let (env, t1) := o_now o env in let out := with_end t1 out in
     match r with None => (env, tr, out, PNext)
     | Some e => let '(env, tr', out, f) := pact o (s_node s) e out env in (env, tr ++ tr', out, f) end)).
  { intros _. specialize (OW (s_node s) ins (with_start t0 out1) (with_start t0 out2) env0 eq_refl).
    destruct (o_process o (s_node s) ins (with_start t0 out1) env0) as [[e1 x1] r1].
    destruct (o_process o (s_node s) ins (with_start t0 out2) env0) as [[e2 x2] r2].
    destruct OW as (-> & -> & Q1 & Q2 & Q3). destruct (o_now o e2) as [env2 t1]. rewrite (WE t1 _ _ Q1 Q2 Q3). auto. }
  destruct (s_type s); [apply P; discriminate|apply P; discriminate|].
  destruct (o_sink o (s_node s) ins env0) as [env1 r]. destruct (o_now o env1) as [env2 t1].
  destruct (SA eq_refl) as [Q Mt].
  rewrite (WE t1 (with_start t0 out1) (with_start t0 out2)) by auto. auto.
Qed.

Lemma gather_ext (msgs1 msgs2 : list message) is : (forall i, In i is -> nth_error msgs1 (fst i) = nth_error msgs2 (fst i)) ->
  gather msgs1 is = gather msgs2 is.
Proof. induction is as [|i is IH]; intros H; cbn; auto. rewrite (H i), IH; auto with datatypes. Qed.

(** Two tuples that agree on the first [k] slots and on what sinks never write. *)
Definition agree (plan : list step) (k : nat) (l1 l2 : list message) : Prop :=
  length l1 = length plan /\ length l2 = length plan /\
  forall j x y, nth_error l1 j = Some x -> nth_error l2 j = Some y ->
    (j < k -> x = y) /\ forall s, nth_error plan j = Some s -> sink_agree s x y.

Lemma process_all_fresh : overwrites o -> a_sim a = false -> forall ss done,
  (forall k s, nth_error (done ++ ss) k = Some s -> (exists ty, s_out s = Some (k, ty)) /\ Forall (fun i => fst i < k) (s_inputs s)) ->
  forall l1 l2 env env1 tr1 ms1 f1 env2 tr2 ms2 f2, agree (done ++ ss) (length done) l1 l2 ->
  process_all a o ss l1 env = (env1, tr1, ms1, f1) -> process_all a o ss l2 env = (env2, tr2, ms2, f2) ->
  env1 = env2 /\ tr1 = tr2 /\ f1 = f2 /\ (f1 = PNext -> ms1 = ms2).
Proof.
  intros OW NS. induction ss as [|s ss IH]; intros done GP l1 l2 env env1 tr1 ms1 f1 env2 tr2 ms2 f2 AG; cbn [process_all].
  - intros H1 H2; injection H1 as <- <- <- <-; injection H2 as <- <- <- <-. repeat (split; auto). intros _.
    destruct AG as (L1 & L2 & AG). rewrite app_nil_r in *. apply nth_error_ext. intros j.
    destruct (nth_error l1 j) as [x|] eqn:N1; destruct (nth_error l2 j) as [y|] eqn:N2; auto.
    + f_equal. apply (AG j x y N1 N2). rewrite <- L1. apply nth_error_Some. congruence.
    + assert (j < length l1) by (apply nth_error_Some; congruence). apply nth_error_None in N2. lia.
    + assert (j < length l2) by (apply nth_error_Some; congruence). apply nth_error_None in N1. lia.
  - destruct (GP (length done) s) as ((ty & So) & Fi).
    { rewrite nth_error_app2, Nat.sub_diag by lia. auto. }
    pose proof AG as (L1 & L2 & AG').
    unfold process_step. rewrite So.
    assert (K1 : length done < length l1) by (rewrite L1, app_length; cbn; lia).
    assert (K2 : length done < length l2) by (rewrite L2, app_length; cbn; lia).
    destruct (nth_error l1 (length done)) as [out1|] eqn:N1; [|apply nth_error_None in N1; lia].
    destruct (nth_error l2 (length done)) as [out2|] eqn:N2; [|apply nth_error_None in N2; lia].
    assert (Gi : gather l1 (s_inputs s) = gather l2 (s_inputs s)).
    { apply gather_ext. intros i Hi. rewrite Forall_forall in Fi. specialize (Fi i Hi).
      destruct (nth_error l1 (fst i)) as [x|] eqn:M1; [|apply nth_error_None in M1; lia].
      destruct (nth_error l2 (fst i)) as [y|] eqn:M2; [|apply nth_error_None in M2; lia].
      f_equal. apply (AG' (fst i) x y M1 M2). auto. }
    rewrite <- Gi. destruct (gather l1 (s_inputs s)) as [ins|].
    2: { intros H1 H2; injection H1 as <- <- <- <-; injection H2 as <- <- <- <-. repeat (split; auto). discriminate. }
    unfold process_msg. rewrite NS.
    assert (SA : sink_agree s out1 out2).
    { apply (AG' (length done) out1 out2 N1 N2). rewrite nth_error_app2, Nat.sub_diag by lia. auto. }
    rewrite (do_process_fresh s ins out1 out2 env OW SA).
    destruct (do_process o s ins true out2 env) as [[[env3 tr3] out3] f3].
    destruct f3; try (intros H1 H2; injection H1 as <- <- <- <-; injection H2 as <- <- <- <-; repeat (split; auto); discriminate).
    destruct (process_all a o ss (upd (length done) out3 l1) env3) as [[[envA trA] mA] fA] eqn:PA.
    destruct (process_all a o ss (upd (length done) out3 l2) env3) as [[[envB trB] mB] fB] eqn:PB.
    intros H1 H2; injection H1 as <- <- <- <-; injection H2 as <- <- <- <-.
    assert (GP' : forall k s0, nth_error ((done ++ [s]) ++ ss) k = Some s0 ->
      (exists ty, s_out s0 = Some (k, ty)) /\ Forall (fun i => fst i < k) (s_inputs s0)) by (rewrite <- app_assoc; exact GP).
    assert (AG2 : agree ((done ++ [s]) ++ ss) (length (done ++ [s])) (upd (length done) out3 l1) (upd (length done) out3 l2)).
    { rewrite <- app_assoc. cbn [app]. unfold agree. rewrite !upd_length.
      split; auto. split; auto. intros j x y X Y. rewrite app_length. cbn [length].
      destruct (Nat.eq_dec j (length done)) as [->|Nj].
      - rewrite nth_error_upd_eq in X, Y by auto. injection X as <-; injection Y as <-. split; auto.
        intros s' _ _. auto.
      - rewrite nth_error_upd_neq in X, Y by auto. destruct (AG' j x y X Y) as [A1 A2].
        split; auto. intros Hj. apply A1. lia. }
    destruct (IH _ GP' _ _ _ _ _ _ _ _ _ _ _ AG2 PA PB) as (-> & -> & -> & X). auto.
Qed.

(** ** What ends up in the slots *)
Definition contents m : list (list message) := map cl_msgs (m_data m).

Lemma eop_fold logger id : forall (slots : list (cl (list message))) b n lg out b' n' lg' out',
  fold_left (eop_step logger id) slots (Ret (b, n, lg, out)) = Ret (b', n', lg', out') ->
  map cl_msgs out' = map cl_msgs out ++ map cl_msgs slots.
Proof.
  induction slots as [|c slots IH]; intros b n lg out b' n' lg' out'; cbn [fold_left].
  - intros H; injection H as <- <- <- <-. cbn. rewrite app_nil_r. auto.
  - unfold eop_step at 2. cbn [obind].
    set (c1 := if (cl_id c =? id)%N && clstate_eqb (cl_state c) Processing then change_state DoneProcessing c else c).
    assert (Hc : cl_msgs c1 = cl_msgs c) by (subst c1; destruct (_ && _); auto).
    assert (Pan : fold_left (eop_step logger id) slots Panic = Panic).
    { clear. induction slots as [|c slots IH]; cbn; auto. }
    destruct (b && clstate_eqb (cl_state c1) DoneProcessing).
    + destruct logger as [ok|].
      * destruct (ok (change_state BeingSerialized c1)).
        -- intros H. apply IH in H. rewrite H, map_app. cbn. rewrite Hc, <- app_assoc. auto.
        -- rewrite Pan. discriminate.
      * intros H. apply IH in H. rewrite H, map_app. cbn. rewrite Hc, <- app_assoc. auto.
    + intros H. apply IH in H. rewrite H, map_app. cbn. rewrite Hc, <- app_assoc. auto.
Qed.

Lemma pop_n_data n : forall m m', pop_n n m = Ret m' -> m_data m' = m_data m.
Proof.
  induction n as [|n IH]; intros m m'; cbn.
  - intros H; injection H as <-. auto.
  - unfold pop. destruct (m_len m =? 0).
    + cbn. apply IH.
    + destruct (nth_error (m_data m) (prev_ins m)); cbn; [|discriminate].
      intros H. apply IH in H. auto.
Qed.

Lemma eop_contents logger m id m' lg : end_of_processing logger m id = Ret (m', lg) -> contents m' = contents m.
Proof.
  unfold end_of_processing, iter_mut, contents. destruct (Nat.leb_spec (m_ins m) (cap m)) as [L|L]; cbn [obind]; [|discriminate].
  set (slots := rev (firstn (m_ins m) (m_data m)) ++ rev (skipn (m_ins m) (m_data m))).
  destruct (fold_left (eop_step logger id) slots (Ret (true, 0, [], []))) as [[[[b n] lg1] out]|] eqn:F; cbn [obind]; [|discriminate].
  apply eop_fold in F. cbn in F. destruct (pop_n n (iter_mut_write m out)) as [m1|] eqn:Pn; cbn [obind]; [|discriminate].
  intros H; injection H as <- <-. apply pop_n_data in Pn. rewrite Pn. unfold iter_mut_write. cbn [m_data].
  rewrite map_app, !map_rev, <- firstn_map, <- skipn_map, F. subst slots. rewrite map_app, !map_rev.
  unfold cap in L. rewrite <- firstn_map, <- skipn_map.
  set (d := map cl_msgs (m_data m)).
  assert (Ld : length (firstn (m_ins m) d) = m_ins m) by (rewrite firstn_length; unfold d; rewrite map_length; lia).
  rewrite firstn_app, skipn_app, !rev_length, Ld, Nat.sub_diag. cbn [firstn skipn].
  rewrite app_nil_r.
  rewrite firstn_all2 by (rewrite rev_length; lia). rewrite skipn_all2 by (rewrite rev_length; lia). cbn [app].
  rewrite !rev_involutive. apply firstn_skipn.
Qed.

Lemma create_contents m m1 i c : create (a_mode a) m = Ret (Some (m1, i)) -> nth_error (m_data m1) i = Some c ->
  contents m1 = contents m /\ nth_error (contents m) i = Some (cl_msgs c).
Proof.
  unfold create, contents. destruct (is_full m); [discriminate|].
  destruct (nth_error (m_data m) (m_ins m)) as [slot|] eqn:N; [|discriminate].
  destruct (succ_u32 (a_mode a) (m_next m)); cbn; [|discriminate]. intros H; injection H as <- <-. cbn.
  rewrite nth_error_upd_eq by (apply nth_error_Some; congruence). intros H; injection H as <-. cbn.
  rewrite nth_error_map, N. cbn. split; auto.
  apply nth_error_ext. intros j. rewrite !nth_error_map. destruct (Nat.eq_dec j (m_ins m)) as [->|Nj].
  - rewrite nth_error_upd_eq by (apply nth_error_Some; congruence). rewrite N. auto.
  - rewrite nth_error_upd_neq by auto. auto.
Qed.

(** Sinks leave their message empty. *)
Definition clean (zero msgs : list message) : Prop :=
  length msgs = length zero /\
  forall j s x z, nth_error (a_plan a) j = Some s -> s_type s = Sink -> nth_error msgs j = Some x ->
    nth_error zero j = Some z -> m_payload x = None /\ m_meta x = m_meta z.

Lemma process_step_clean zero k s msgs env env' tr msgs' f : a_sim a = false -> nth_error (a_plan a) k = Some s ->
  (exists ty, s_out s = Some (k, ty)) -> process_step a o s msgs env = (env', tr, msgs', f) ->
  clean zero msgs -> clean zero msgs'.
Proof.
  intros NS Hk (ty & So) P (L & C). unfold process_step in P. rewrite So in P.
  destruct (nth_error msgs k) as [out|] eqn:Nk; [|injection P as <- <- <- <-; split; auto].
  destruct (gather msgs (s_inputs s)) as [ins|]; [|injection P as <- <- <- <-; split; auto].
  unfold process_msg in P. rewrite NS in P.
  destruct (do_process o s ins true out env) as [[[env1 tr1] out1] f1] eqn:D. injection P as <- <- <- <-.
  assert (kl : k < length msgs) by (apply nth_error_Some; congruence).
  split; [rewrite upd_length; auto|]. intros j s' x z Hs' Ts' Hx Hz.
  destruct (Nat.eq_dec j k) as [->|Nj].
  - rewrite nth_error_upd_eq in Hx by auto. injection Hx as <-.
    assert (s' = s) by congruence. subst s'.
    destruct (C k s out z Hk Ts' Nk Hz) as [C1 C2].
    unfold do_process in D. rewrite Ts' in D. destruct (o_now o env) as [e0 t0].
    destruct (o_sink o (s_node s) ins e0) as [e1 r]. destruct (o_now o e1) as [e2 t1]. destruct r as [e|].
    + unfold pact in D. destruct (o_decide o Process (s_node s) e e2) as [e3 d].
      destruct d; injection D as <- <- <- <-; cbn; auto.
    + injection D as <- <- <- <-. cbn. auto.
  - rewrite nth_error_upd_neq in Hx by auto. eapply C; eauto.
Qed.
Lemma process_all_clean zero : a_sim a = false -> forall ss done, a_plan a = done ++ ss ->
  (forall k s, nth_error (a_plan a) k = Some s -> exists ty, s_out s = Some (k, ty)) ->
  forall msgs env env' tr msgs' f, process_all a o ss msgs env = (env', tr, msgs', f) -> clean zero msgs -> clean zero msgs'.
Proof.
  intros NS. induction ss as [|s ss IH]; intros done Hp G msgs env env' tr msgs' f; cbn [process_all].
  - intros H; injection H as <- <- <- <-. auto.
  - assert (Hk : nth_error (a_plan a) (length done) = Some s) by (rewrite Hp, nth_error_app2, Nat.sub_diag by lia; auto).
    destruct (process_step a o s msgs env) as [[[env1 tr1] msgs1] f1] eqn:P.
    pose proof (process_step_clean zero (length done) s _ _ _ _ _ _ NS Hk (G _ _ Hk) P) as C1.
    destruct f1; try (intros H; injection H as <- <- <- <-; auto; fail).
    destruct (process_all a o ss msgs1 env1) as [[[env2 tr2] msgs2] f2] eqn:Q.
    assert (Hp' : a_plan a = (done ++ [s]) ++ ss) by (rewrite <- app_assoc; auto).
    pose proof (IH _ Hp' G _ _ _ _ _ _ Q) as C2.
    intros H; injection H as <- <- <- <-. auto.
Qed.

Lemma Forall_upd {A} (P : A -> Prop) i x l : Forall P l -> P x -> Forall P (upd i x l).
Proof.
  intros F Px. revert i. induction F as [|y l Py F IH]; intros [|i]; cbn; constructor; auto.
Qed.

(** Properties of message tuples kept by process steps are kept in all slots. *)
Definition kept (P : list message -> Prop) : Prop := forall msgs env env' tr msgs' f,
  process_all a o (a_plan a) msgs env = (env', tr, msgs', f) -> P msgs -> P msgs'.

Lemma iteration_kept P m env env' m' tr r : kept P -> run_one_iteration a o m env = (env', m', tr, r) ->
  Forall P (contents m) -> Forall P (contents m').
Proof.
  intros K H F. apply iteration_spec in H.
  destruct H as [r Em R1|Em R1 Fl|tr1 tr2 tr3 m1 i c msgs pf r R1 C N PA -> BC]; [congruence..|].
  destruct (create_contents _ _ _ _ C N) as [C1 C2].
  assert (Cc : P (cl_msgs c)).
  { rewrite Forall_forall in F. apply F. eapply nth_error_In; eauto. }
  destruct PA as (e1 & e2 & PA). apply K in PA; auto.
  set (m2 := set_slot i (mkCl (cl_id c) Processing msgs) m1) in *.
  assert (F2 : Forall P (contents m2)).
  { unfold contents in *. subst m2. unfold set_slot. cbn [m_data].
    assert (X : map cl_msgs (upd i (mkCl (cl_id c) Processing msgs) (m_data m1)) = upd i msgs (map cl_msgs (m_data m1))).
    { generalize (m_data m1). clear. intros l. revert i. induction l as [|y l IH]; intros [|i]; cbn; auto. rewrite IH. auto. }
    rewrite X. apply Forall_upd; auto. rewrite C1. auto. }
  assert (Fin : forall env0 lg, finish a o (cl_id c) m2 env0 = Ret (m', lg) -> Forall P (contents m')).
  { intros env0 lg. unfold finish. destruct (end_of_processing _ m2 (cl_id c)) as [[m3 lg3]|] eqn:Ep; cbn [obind]; [|discriminate].
    intros X; injection X as <- <-. apply eop_contents in Ep. rewrite Ep. auto. }
  clearbody m2. inversion BC; subst; auto.
  - match goal with X : reports _ _ _ _ _ _ _ _ |- _ => destruct X as (-> & _) end. auto.
  - match goal with X : reports _ _ _ _ _ _ _ _ |- _ => destruct X as (md & lg & env0 & Md & FX & ->) end. eauto.
  - match goal with X : reports _ _ _ _ _ _ _ _ |- _ => destruct X as (md & lg & env0 & Md & FX & ->) end. eauto.
Qed.

Lemma iterations_kept P : kept P -> forall n m env env' m' l, iterations a o n m env = (env', m', l) ->
  Forall P (contents m) -> Forall P (contents m').
Proof.
  intros K. induction n as [|n IH]; intros m env env' m' l; cbn [iterations].
  - intros H; injection H as <- <- <-. auto.
  - destruct (run_one_iteration a o m env) as [[[env1 m1] tr1] r1] eqn:R.
    intros H F. eapply iteration_kept in R; eauto.
    destruct r1.
    + destruct (iterations a o n m1 env1) as [[env2 m2] l2] eqn:It. injection H as <- <- <-. eauto.
    + destruct (iterations a o n m1 env1) as [[env2 m2] l2] eqn:It. injection H as <- <- <-. eauto.
    + injection H as <- <- <-. auto.
Qed.
Lemma kept_length n : kept (fun l => length l = n).
Proof. intros msgs env env' tr msgs' f H <-. apply process_all_spec in H. tauto. Qed.
Lemma kept_clean zero : a_sim a = false ->
  (forall k s, nth_error (a_plan a) k = Some s -> exists ty, s_out s = Some (k, ty)) -> kept (clean zero).
Proof. intros NS G msgs env env' tr msgs' f H. exact (process_all_clean zero NS _ [] eq_refl G _ _ _ _ _ _ H). Qed.
End Proofs.
