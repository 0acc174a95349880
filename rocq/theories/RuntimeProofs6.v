(** Proofs about the generated run loop: times, and two iterations side by side. *)
From Coq Require Import String List Arith NArith Bool Lia Sorted Permutation.
From Verif Require Import Base CuListModel CuListSpec CuListProofs PlanModel RuntimeModel RuntimeSpec RuntimeProofs RuntimeProofs2 RuntimeProofs3 RuntimeProofs4 RuntimeProofs5.
Import ListNotations.
Local Open Scope list_scope.
Local Open Scope nat_scope.

Section Proofs.
Context {V M Er E : Type}.
Variable a : application.
Variable o : oracles V M Er E.
Notation ev := (event V M Er).
Notation message := (msg V M).
Notation order := (map s_node (a_plan a)).
Implicit Types (env : E) (tr : list ev) (m : mgr (list message)).

(** ** Independence *)
Lemma contents_new n (zero : list message) : contents (mgr_new n zero) = repeat zero n.
Proof. unfold contents, mgr_new. cbn. induction n; cbn; congruence. Qed.

Lemma reachable_clean n zero m : a_sim a = false -> good_plan (a_plan a) -> length zero = length (a_plan a) ->
  Forall (fun x => m_payload x = None) zero -> reachable a o n zero m -> Forall (clean a zero) (contents m).
Proof.
  intros NS [_ G] Lz Fz (H0 & k & env & env' & l & B & It & F).
  eapply iterations_kept; [|exact It|].
  - apply kept_clean; auto. intros j s Hj. destruct (G j s Hj) as [X _]. exact X.
  - rewrite contents_new. apply Forall_forall. intros x Hx. apply repeat_spec in Hx. subst x.
    split; auto. intros j s x z Hs Ts Hx Hz. assert (x = z) by congruence. subst z. split; auto.
    rewrite Forall_forall in Fz. apply Fz. eapply nth_error_In; eauto.
Qed.

Lemma clean_agree (zero l1 l2 : list message) : length zero = length (a_plan a) -> clean a zero l1 -> clean a zero l2 -> agree (a_plan a) 0 l1 l2.
Proof.
  intros Lz (L1 & C1) (L2 & C2). split; [congruence|]. split; [congruence|]. intros j x y X Y. split; [lia|].
  intros s Hs Ts. destruct (nth_error zero j) as [z|] eqn:Z.
  - destruct (C1 j s x z Hs Ts X Z), (C2 j s y z Hs Ts Y Z). split; congruence.
  - apply nth_error_None in Z. assert (j < length l1) by (apply nth_error_Some; congruence). lia.
Qed.

Lemma create_some es m : minv es m -> (m_next m + 1 < 2 ^ 32)%N -> 0 < available_copper_lists m ->
  exists m1 i c, create (a_mode a) m = Ret (Some (m1, i)) /\ nth_error (m_data m1) i = Some c.
Proof.
  intros I B A. unfold available_copper_lists in A. destruct I as ((W & _) & _).
  destruct (create_spec (a_mode a) m W) as [[A' Ec]|[A' (slot & En & Ec)]]; [lia|].
  rewrite succ_u32_small in Ec by lia. cbn [obind] in Ec. do 3 eexists. split; [exact Ec|].
  cbn. rewrite nth_error_upd_eq; [reflexivity|]. apply nth_error_Some. congruence.
Qed.

Lemma finish_fresh es m m1 i c msgs env : log_ok o -> minv es m -> (m_next m + 1 < 2 ^ 32)%N ->
  create (a_mode a) m = Ret (Some (m1, i)) -> nth_error (m_data m1) i = Some c ->
  exists m3, finish a o (cl_id c) (set_slot i (mkCl (cl_id c) Processing msgs) m1) env =
    Ret (m3, if a_logging a then [ELog (m_next m) msgs] else []).
Proof.
  intros LO I B C N. destruct (begin_spec a es m m1 i c I B C N) as [Hid G].
  destruct (G msgs) as [R Hcap]. rewrite Hid in *.
  destruct (finish_spec a o (m_next m) msgs es _ _ env LO R ltac:(lia) (proj2 I)) as (m3 & H1 & _). eauto.
Qed.

Lemma iteration_fresh n1 n2 zero m1 m2 env env1 env2 m1' m2' tr1 tr2 r1 r2 :
  writes_succeed o -> a_sim a = false -> good_plan (a_plan a) -> overwrites o ->
  length zero = length (a_plan a) -> Forall (fun x => m_payload x = None) zero ->
  reachable a o n1 zero m1 -> reachable a o n2 zero m2 ->
  0 < available_copper_lists m1 -> 0 < available_copper_lists m2 ->
  run_one_iteration a o m1 env = (env1, m1', tr1, r1) -> run_one_iteration a o m2 env = (env2, m2', tr2, r2) ->
  (forall t e, ~ In (EDecision Process t e Abort) tr1) ->
  env1 = env2 /\ r1 = r2 /\ map without_id tr1 = map without_id tr2.
Proof.
  intros LO NS GP OW Lz Fz Re1 Re2 A1 A2 H1 H2 NA.
  pose proof (reachable_clean _ _ _ NS GP Lz Fz Re1) as Cl1.
  pose proof (reachable_clean _ _ _ NS GP Lz Fz Re2) as Cl2.
  destruct (reachable_minv a o _ _ _ LO Re1) as (es1 & I1 & B1 & _).
  destruct (reachable_minv a o _ _ _ LO Re2) as (es2 & I2 & B2 & _).
  destruct (create_some _ _ I1 B1 A1) as (p1 & i1 & c1 & C1 & N1).
  destruct (create_some _ _ I2 B2 A2) as (p2 & i2 & c2 & C2 & N2).
  unfold run_one_iteration in H1, H2.
  destruct (lifecycle a o Preprocess (seq 0 (a_tasks a)) env) as [[env3 tr3] f3].
  destruct f3 as [|r3|].
  2,3: injection H1 as <- <- <- <-; injection H2 as <- <- <- <-; auto.
  unfold copperlist_body in H1, H2. rewrite C1, N1 in H1. rewrite C2, N2 in H2.
  destruct (create_contents a _ _ _ _ C1 N1) as [_ X1]. destruct (create_contents a _ _ _ _ C2 N2) as [_ X2].
  assert (AG : agree (a_plan a) 0 (cl_msgs c1) (cl_msgs c2)).
  { rewrite Forall_forall in Cl1, Cl2. apply (clean_agree zero); auto; [apply Cl1|apply Cl2]; eapply nth_error_In; eauto. }
  destruct (process_all a o (a_plan a) (cl_msgs c1) env3) as [[[env4 tr4] ms4] f4] eqn:P1.
  destruct (process_all a o (a_plan a) (cl_msgs c2) env3) as [[[env5 tr5] ms5] f5] eqn:P2.
  assert (NA' : f4 <> PAbort).
  { intros ->. pose proof (process_all_spec a o _ _ _ _ _ _ _ P1) as [PS _]. destruct PS as (tr' & t & e & -> & _).
    destruct (report_and_finish _ _ _ _ _ _) as [[[? ?] tr6] ?].
    assert (In (EDecision Process t e Abort) tr1); [|eapply NA; eauto].
    destruct f; injection H1 as <- <- <- <-; rewrite !in_app_iff; cbn; auto. }
  destruct (process_all_fresh a o OW NS (a_plan a) [] (proj2 GP) _ _ _ _ _ _ _ _ _ _ _ AG P1 P2) as (<- & <- & <- & Hm).
  destruct f4 as [| |e|].
  - rewrite <- (Hm eq_refl) in H2.
    destruct (match collect_metadata a ms4 with Some md => e2e a md | None => Panic end) as [n|].
    2: { injection H1 as <- <- <- <-; injection H2 as <- <- <- <-; auto. }
    unfold report_and_finish in H1, H2. destruct (collect_metadata a ms4) as [md|].
    2: { injection H1 as <- <- <- <-; injection H2 as <- <- <- <-; auto. }
    destruct (o_report o md env4) as [env6 [e|]].
    { injection H1 as <- <- <- <-; injection H2 as <- <- <- <-; auto. }
    destruct (finish_fresh es1 m1 p1 i1 c1 ms4 env6 LO I1 B1 C1 N1) as (q1 & F1). rewrite F1 in H1.
    destruct (finish_fresh es2 m2 p2 i2 c2 ms4 env6 LO I2 B2 C2 N2) as (q2 & F2). rewrite F2 in H2.
    destruct (lifecycle a o Postprocess (seq 0 (a_tasks a)) env6) as [[env7 tr7] f7].
    injection H1 as <- <- <- <-; injection H2 as <- <- <- <-. split; auto. split; auto.
    rewrite !map_app. cbn [map without_id]. do 3 f_equal. destruct (a_logging a); auto.
  - congruence.
  - injection H1 as <- <- <- <-; injection H2 as <- <- <- <-; auto.
  - injection H1 as <- <- <- <-; injection H2 as <- <- <- <-; auto.
Qed.

(** ** Times *)
Lemma pact_nopanic t e out env env' tr out' f : pact o t e out env = (env', tr, out', f) -> f <> PPanic.
Proof.
  unfold pact. destruct (o_decide o Process t e env) as [env1 d].
  destruct d; intros H; injection H as <- <- <- <-; discriminate.
Qed.
Lemma do_process_nopanic s ins doit out env env' tr out' f : do_process o s ins doit out env = (env', tr, out', f) -> f <> PPanic.
Proof.
  unfold do_process. destruct (o_now o env) as [env0 t0]. set (X := if doit then _ else _).
  destruct X as [[[env1 tr1] out1] r]. destruct (o_now o env1) as [env2 t1]. destruct r as [e|].
  - destruct (pact o (s_node s) e (with_end t1 out1) env2) as [[[env3 tr3] out3] f3] eqn:P.
    apply pact_nopanic in P. intros H; injection H as <- <- <- <-. auto.
  - intros H; injection H as <- <- <- <-. discriminate.
Qed.
Lemma process_msg_nopanic s ins out env env' tr out' f : process_msg a o s ins out env = (env', tr, out', f) -> f <> PPanic.
Proof.
  unfold process_msg. destruct (a_sim a); [|apply do_process_nopanic].
  destruct (o_sim_process o (s_node s) ins out env) as [[env1 out1] ovr]. destruct ovr as [| |e].
  - destruct (do_process o s ins false out1 env1) as [[[env2 tr2] out2] f2] eqn:D. apply do_process_nopanic in D.
    intros H; injection H as <- <- <- <-. auto.
  - destruct (do_process o s ins true out1 env1) as [[[env2 tr2] out2] f2] eqn:D. apply do_process_nopanic in D.
    intros H; injection H as <- <- <- <-. auto.
  - destruct (pact o (s_node s) e out1 env1) as [[[env3 tr3] out3] f3] eqn:P. apply pact_nopanic in P.
    destruct f3; try (intros H; injection H as <- <- <- <-; auto; fail).
    destruct (do_process o s ins false out3 env3) as [[[env2 tr2] out2] f2] eqn:D. apply do_process_nopanic in D.
    intros H; injection H as <- <- <- <-. auto.
Qed.

Section Times.
Variable time : E -> N.
Hypothesis MC : monotone_clock o time.
Hypothesis KS : keeps_start o.

(** The messages of the first [k] steps carry ordered times, all in the past. *)
Definition timed (k : nat) (msgs : list message) env : Prop :=
  forall i j x y, i <= j -> j < k -> nth_error msgs i = Some x -> nth_error msgs j = Some y ->
    exists s e, m_start x = Some s /\ m_end y = Some e /\ (s <= e)%N /\ (e <= time env)%N.

Lemma now_spec env env' t : o_now o env = (env', t) -> t = time env /\ (time env <= time env')%N.
Proof. destruct MC as (H & _). specialize (H env). intros X. rewrite X in H. auto. Qed.
Lemma to_oct_now env : to_oct (time env) = Some (time env).
Proof. unfold to_oct. destruct MC as (_ & H & _). specialize (H env). destruct (N.eqb_spec (time env) (2 ^ 64 - 1)); auto. lia. Qed.

Lemma pact_times t e out env env' tr out' f : pact o t e out env = (env', tr, out', f) ->
  (time env <= time env')%N /\ m_start out' = m_start out /\ m_end out' = m_end out.
Proof.
  unfold pact. destruct (o_decide o Process t e env) as [env1 d] eqn:D.
  assert (X : (time env <= time env1)%N).
  { destruct MC as (_ & _ & _ & _ & _ & _ & _ & H). specialize (H Process t e env). rewrite D in H. auto. }
  destruct d; intros H; injection H as <- <- <- <-; auto.
Qed.
Lemma do_process_times s ins doit out env env' tr out' f : do_process o s ins doit out env = (env', tr, out', f) ->
  exists t0 t1, m_start out' = Some t0 /\ m_end out' = Some t1 /\ (time env <= t0)%N /\ (t0 <= t1)%N /\ (t1 <= time env')%N.
Proof.
  unfold do_process. destruct (o_now o env) as [env0 t0] eqn:N0. apply now_spec in N0. destruct N0 as [-> N0].
  set (X := if doit then _ else _).
  assert (HX : exists e1 tr1 o1 r, X = (e1, tr1, o1, r) /\ (time env0 <= time e1)%N /\ m_start o1 = Some (time env)).
  { subst X. destruct doit.
    - destruct (s_type s).
      + destruct (o_process o (s_node s) ins (with_start (time env) out) env0) as [[e1 o1] r1] eqn:P.
        do 4 eexists. split; [reflexivity|]. destruct MC as (_ & _ & _ & H & _).
        specialize (H (s_node s) ins (with_start (time env) out) env0). specialize (KS (s_node s) ins (with_start (time env) out) env0).
        rewrite P in H, KS. cbn in H, KS. split; auto. rewrite KS. apply to_oct_now.
      + destruct (o_process o (s_node s) ins (with_start (time env) out) env0) as [[e1 o1] r1] eqn:P.
        do 4 eexists. split; [reflexivity|]. destruct MC as (_ & _ & _ & H & _).
        specialize (H (s_node s) ins (with_start (time env) out) env0). specialize (KS (s_node s) ins (with_start (time env) out) env0).
        rewrite P in H, KS. cbn in H, KS. split; auto. rewrite KS. apply to_oct_now.
      + destruct (o_sink o (s_node s) ins env0) as [e1 r1] eqn:P.
        do 4 eexists. split; [reflexivity|]. destruct MC as (_ & _ & _ & _ & H & _).
        specialize (H (s_node s) ins env0). rewrite P in H. split; auto. apply to_oct_now.
    - do 4 eexists. split; [reflexivity|]. split; [lia|]. apply to_oct_now. }
  destruct HX as (env1 & tr1 & out1 & r & -> & T1 & S1).
  destruct (o_now o env1) as [env2 t1] eqn:N1. apply now_spec in N1. destruct N1 as [-> N1].
  assert (E1 : m_end (with_end (time env1) out1) = Some (time env1)) by (apply to_oct_now).
  assert (S2 : m_start (with_end (time env1) out1) = Some (time env)) by exact S1.
  destruct r as [e|].
  - destruct (pact o (s_node s) e (with_end (time env1) out1) env2) as [[[env3 tr3] out3] f3] eqn:P.
    apply pact_times in P. destruct P as (P1 & P2 & P3). intros H; injection H as <- <- <- <-.
    exists (time env), (time env1). rewrite P2, P3. repeat (split; auto); lia.
  - intros H; injection H as <- <- <- <-. exists (time env), (time env1). repeat (split; auto); lia.
Qed.
Lemma process_msg_times s ins out env env' tr out' f : process_msg a o s ins out env = (env', tr, out', f) ->
  f = PNext -> exists t0 t1, m_start out' = Some t0 /\ m_end out' = Some t1 /\ (time env <= t0)%N /\ (t0 <= t1)%N /\ (t1 <= time env')%N.
Proof.
  unfold process_msg. destruct (a_sim a).
  2: { intros H _. eapply do_process_times; eauto. }
  destruct (o_sim_process o (s_node s) ins out env) as [[env1 out1] ovr] eqn:S.
  assert (T1 : (time env <= time env1)%N).
  { destruct MC as (_ & _ & _ & _ & _ & _ & H & _). specialize (H (s_node s) ins out env). rewrite S in H. auto. }
  destruct ovr as [| |e].
  - destruct (do_process o s ins false out1 env1) as [[[env2 tr2] out2] f2] eqn:D. apply do_process_times in D.
    destruct D as (t0 & t1 & D1 & D2 & D3 & D4 & D5). intros H _; injection H as <- <- <- <-. exists t0, t1.
    repeat (split; auto); lia.
  - destruct (do_process o s ins true out1 env1) as [[[env2 tr2] out2] f2] eqn:D. apply do_process_times in D.
    destruct D as (t0 & t1 & D1 & D2 & D3 & D4 & D5). intros H _; injection H as <- <- <- <-. exists t0, t1.
    repeat (split; auto); lia.
  - destruct (pact o (s_node s) e out1 env1) as [[[env3 tr3] out3] f3] eqn:P.
    apply pact_times in P. destruct P as (P1 & P2 & P3). destruct f3.
    + destruct (do_process o s ins false out3 env3) as [[[env2 tr2] out2] f2] eqn:D. apply do_process_times in D.
      destruct D as (t0 & t1 & D1 & D2 & D3 & D4 & D5). intros H _; injection H as <- <- <- <-. exists t0, t1.
      repeat (split; auto); lia.
    + intros H; injection H as <- <- <- <-. discriminate.
    + intros H; injection H as <- <- <- <-. discriminate.
    + intros H; injection H as <- <- <- <-. discriminate.
Qed.

Lemma process_all_times : forall ss done,
  (forall k s, nth_error (done ++ ss) k = Some s -> (exists ty, s_out s = Some (k, ty)) /\ Forall (fun i => fst i < k) (s_inputs s)) ->
  forall msgs env env' tr msgs' f, length msgs = length (done ++ ss) -> timed (length done) msgs env ->
  process_all a o ss msgs env = (env', tr, msgs', f) ->
  f <> PPanic /\ length msgs' = length msgs /\ (f = PNext -> timed (length (done ++ ss)) msgs' env').
Proof.
  induction ss as [|s ss IH]; intros done GP msgs env env' tr msgs' f L T; cbn [process_all].
  - intros H; injection H as <- <- <- <-. rewrite app_nil_r. split; [discriminate|]. auto.
  - destruct (GP (length done) s) as ((ty & So) & Fi).
    { rewrite nth_error_app2, Nat.sub_diag by lia. auto. }
    unfold process_step. rewrite So.
    assert (K : length done < length msgs) by (rewrite L, app_length; cbn; lia).
    destruct (nth_error msgs (length done)) as [out|] eqn:N; [|apply nth_error_None in N; lia].
    assert (G : exists ins, gather msgs (s_inputs s) = Some ins).
    { clear -Fi K. induction (s_inputs s) as [|i is IHi]; cbn; eauto. inversion Fi; subst.
      destruct (nth_error msgs (fst i)) eqn:X; [|apply nth_error_None in X; lia].
      destruct (IHi H2) as (ins & ->). eauto. }
    destruct G as (ins & ->).
    destruct (process_msg a o s ins out env) as [[[env1 tr1] out1] f1] eqn:P.
    pose proof (process_msg_times _ _ _ _ _ _ _ _ P) as PT.
    destruct f1 as [| |e|].
    + destruct (PT eq_refl) as (t0 & t1 & D1 & D2 & D3 & D4 & D5). clear PT.
      destruct (process_all a o ss (upd (length done) out1 msgs) env1) as [[[env2 tr2] msgs2] f2] eqn:Q.
      assert (GP' : forall k s0, nth_error ((done ++ [s]) ++ ss) k = Some s0 ->
        (exists ty, s_out s0 = Some (k, ty)) /\ Forall (fun i => fst i < k) (s_inputs s0)) by (rewrite <- app_assoc; exact GP).
      assert (L' : length (upd (length done) out1 msgs) = length ((done ++ [s]) ++ ss)) by (rewrite upd_length, <- app_assoc; auto).
      assert (T' : timed (length (done ++ [s])) (upd (length done) out1 msgs) env1).
      { intros i j x y Hij Hj X Y. rewrite app_length in Hj. cbn in Hj.
        destruct (Nat.eq_dec j (length done)) as [->|Nj].
        - rewrite nth_error_upd_eq in Y by auto. injection Y as <-.
          destruct (Nat.eq_dec i (length done)) as [->|Ni].
          + rewrite nth_error_upd_eq in X by auto. injection X as <-. exists t0, t1. repeat (split; auto); lia.
          + rewrite nth_error_upd_neq in X by auto.
            destruct (T i i x x (le_n _) ltac:(lia) X X) as (s0 & e0 & S0 & E0 & Q1 & Q2).
            exists s0, t1. repeat (split; auto); lia.
        - rewrite nth_error_upd_neq in X, Y by lia.
          destruct (T i j x y Hij ltac:(lia) X Y) as (s0 & e0 & S0 & E0 & Q1 & Q2).
          exists s0, e0. repeat (split; auto); lia. }
      destruct (IH _ GP' _ _ _ _ _ _ L' T' Q) as (J1 & J2 & J3).
      intros H; injection H as <- <- <- <-. split; auto. split; [rewrite J2, upd_length; auto|].
      rewrite <- app_assoc in J3. auto.
    + intros H; injection H as <- <- <- <-. split; [discriminate|]. rewrite upd_length. split; auto. discriminate.
    + intros H; injection H as <- <- <- <-. split; [discriminate|]. rewrite upd_length. split; auto. discriminate.
    + destruct (process_msg_nopanic _ _ _ _ _ _ _ _ P eq_refl).
Qed.
End Times.

Lemma select_some {A} (l : list A) is : (forall i, In i is -> i < length l) -> exists r, select l is = Some r.
Proof.
  induction is as [|i is IH]; intros H; cbn; eauto.
  destruct (nth_error l i) eqn:N; [|apply nth_error_None in N; specialize (H i (or_introl eq_refl)); lia].
  destruct IH as (r & ->); eauto with datatypes.
Qed.
Lemma select_nth {A} (l : list A) is r : select l is = Some r ->
  length r = length is /\ forall j i, nth_error is j = Some i -> nth_error r j = nth_error l i.
Proof.
  revert r. induction is as [|i is IH]; intros r; cbn.
  - intros H; injection H as <-. split; auto. intros [|j] i; discriminate.
  - destruct (nth_error l i) as [x|] eqn:N; [|discriminate]. destruct (select l is) as [r'|] eqn:S; [|discriminate].
    intros H; injection H as <-. destruct (IH _ eq_refl) as [L G]. split; [cbn; auto|].
    intros [|j] i'; cbn; [congruence|]. auto.
Qed.
End Proofs.
