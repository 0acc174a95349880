(** Runs of one application with two monitors: theorems. *)
From Coq Require Import String List Arith NArith Bool Lia ZifyBool ZifyNat ZifyN.
From Verif Require Import Base CuListModel PlanModel RuntimeModel RuntimeSpec RuntimeProps ReplaySpec ReplayProps.
Import ListNotations.
Local Open Scope list_scope.
Local Open Scope nat_scope.

(** * Specification *)
(** A robot whose tasks, simulation callback, clock and log belong to the first, whose monitor to the second. The
    parts share nothing: each sees and changes its own state only. *)
Definition beside {V M Er W N : Type} (o : oracles V M Er W) (q : oracles V M Er N) : oracles V M Er (W * N) :=
  {| o_task := fun ph t e => let (w, r) := o_task o ph t (fst e) in (w, snd e, r);
     o_process := fun t ins out e => let '(w, out, r) := o_process o t ins out (fst e) in (w, snd e, out, r);
     o_sink := fun t ins e => let (w, r) := o_sink o t ins (fst e) in (w, snd e, r);
     o_sim := fun ph t e => let (w, r) := o_sim o ph t (fst e) in (w, snd e, r);
     o_sim_process := fun t ins out e => let '(w, out, r) := o_sim_process o t ins out (fst e) in (w, snd e, out, r);
     o_decide := fun ph t x e => let (n, d) := o_decide q ph t x (snd e) in (fst e, n, d);
     o_report := fun md e => let (n, r) := o_report q md (snd e) in (fst e, n, r);
     o_monitor := fun ph e => let (n, r) := o_monitor q ph (snd e) in (fst e, n, r);
     o_now := fun e => let (w, t) := o_now o (fst e) in (w, snd e, t);
     o_log := fun e => o_log o (fst e) |}.
(** The same question to the monitor, answered differently. *)
Definition rival {V M Er} (x y : event V M Er) : Prop :=
  match x, y with
  | EDecision ph t e d, EDecision ph' t' e' d' => ph = ph' /\ t = t' /\ e = e' /\ d <> d'
  | EReport md r, EReport md' r' => md = md' /\ r <> r'
  | EMonitor ph r, EMonitor ph' r' => ph = ph' /\ r <> r'
  | _, _ => False
  end.
Definition on_world {W N : Type} (b : W -> W) (e : W * N) : W * N := (b (fst e), snd e).

(** * Proofs *)
Section Rival.
Context {V M Er W N1 N2 : Type}.
Variable eq_er : forall x y : Er, {x = y} + {x <> y}.
Variable a : application.
Variable o : oracles V M Er W.
Variable q1 : oracles V M Er N1.
Variable q2 : oracles V M Er N2.
Notation o1 := (beside o q1).
Notation o2 := (beside o q2).
Notation message := (msg V M).
Notation ev := (event V M Er).
(** What is known of the events in which the runs differ first. *)
Variable R : ev -> ev -> Prop.
Hypothesis RD : forall ph t e n1 n2, snd (o_decide q1 ph t e n1) <> snd (o_decide q2 ph t e n2) ->
  R (EDecision ph t e (snd (o_decide q1 ph t e n1))) (EDecision ph t e (snd (o_decide q2 ph t e n2))).
Hypothesis RR : forall md n1 n2, snd (o_report q1 md n1) <> snd (o_report q2 md n2) -> R (EReport md (snd (o_report q1 md n1))) (EReport md (snd (o_report q2 md n2))).
Hypothesis RM : forall ph n1 n2, snd (o_monitor q1 ph n1) <> snd (o_monitor q2 ph n2) -> R (EMonitor ph (snd (o_monitor q1 ph n1))) (EMonitor ph (snd (o_monitor q2 ph n2))).
Definition parted (t1 t2 : list ev) : Prop := exists p x1 x2 u1 u2, t1 = p ++ x1 :: u1 /\ t2 = p ++ x2 :: u2 /\ R x1 x2.
Lemma part_app (t1 t2 u1 u2 : list ev) : parted t1 t2 -> parted (t1 ++ u1) (t2 ++ u2).
Proof. intros (p & x1 & x2 & r1 & r2 & -> & -> & Q). exists p, x1, x2, (r1 ++ u1), (r2 ++ u2). rewrite <- !app_assoc. auto. Qed.
Lemma part_1 (t1 t2 u1 : list ev) : parted t1 t2 -> parted (t1 ++ u1) t2.
Proof. intros H. rewrite <- (app_nil_r t2). apply part_app. exact H. Qed.
Lemma part_2 (t1 t2 u2 : list ev) : parted t1 t2 -> parted t1 (t2 ++ u2).
Proof. intros H. rewrite <- (app_nil_r t1). apply part_app. exact H. Qed.
Lemma part_pre (t1 t2 u : list ev) : parted t1 t2 -> parted (u ++ t1) (u ++ t2).
Proof. intros (p & x1 & x2 & r1 & r2 & -> & -> & Q). exists (u ++ p), x1, x2, r1, r2. rewrite <- !app_assoc. auto. Qed.
Lemma part_cons (t1 t2 : list ev) x : parted t1 t2 -> parted (x :: t1) (x :: t2).
Proof. apply (part_pre t1 t2 [x]). Qed.
Lemma part_now x1 x2 (t1 t2 : list ev) : R x1 x2 -> parted (x1 :: t1) (x2 :: t2).
Proof. intros Q. exists [], x1, x2, t1, t2. auto. Qed.
Lemma part_more (t1 t2 u1 u2 : list ev) : parted t1 t2 -> (exists v, u1 = t1 ++ v) -> (exists v, u2 = t2 ++ v) -> parted u1 u2.
Proof. intros H [v ->] [v' ->]. apply part_app. exact H. Qed.
Definition par3 {F} (x : W * N1 * list ev * F) (y : W * N2 * list ev * F) : Prop :=
  let '(e1, t1, f1) := x in let '(e2, t2, f2) := y in (fst e1 = fst e2 /\ t1 = t2 /\ f1 = f2) \/ parted t1 t2.
Definition par4 {G F} (x : W * N1 * list ev * G * F) (y : W * N2 * list ev * G * F) : Prop :=
  let '(e1, t1, g1, f1) := x in let '(e2, t2, g2, f2) := y in (fst e1 = fst e2 /\ t1 = t2 /\ g1 = g2 /\ f1 = f2) \/ parted t1 t2.
Definition par5 {G F} (x : W * N1 * G * list ev * F) (y : W * N2 * G * list ev * F) : Prop :=
  let '(e1, g1, t1, f1) := x in let '(e2, g2, t2, f2) := y in (fst e1 = fst e2 /\ t1 = t2 /\ g1 = g2 /\ f1 = f2) \/ parted t1 t2.
Lemma dec_decision (x y : decision) : {x = y} + {x <> y}. Proof. decide equality. Qed.
Lemma dec_opt (x y : option Er) : {x = y} + {x <> y}. Proof. decide equality. Qed.

Lemma act_p ph t e w n1 n2 : par3 (act o1 ph t e (w, n1)) (act o2 ph t e (w, n2)).
Proof.
  unfold act. cbn. pose proof (RD ph t e n1 n2) as D. destruct (o_decide q1 ph t e n1) as [m1 d1], (o_decide q2 ph t e n2) as [m2 d2]. cbn.
  cbn in D. destruct (dec_decision d1 d2) as [->|D0]; [left; auto|right; apply part_now; cbn; auto].
Qed.
Lemma pact_p t e out w n1 n2 : par4 (pact o1 t e out (w, n1)) (pact o2 t e out (w, n2)).
Proof.
  unfold pact. cbn. pose proof (RD Process t e n1 n2) as D. destruct (o_decide q1 Process t e n1) as [m1 d1], (o_decide q2 Process t e n2) as [m2 d2]. cbn.
  cbn in D. destruct (dec_decision d1 d2) as [->|D0]; [destruct d2; left; auto|destruct d1, d2; right; apply part_now; cbn; auto].
Qed.
Lemma do_call_p ph t w n1 n2 : par3 (do_call o1 ph t (w, n1)) (do_call o2 ph t (w, n2)).
Proof.
  unfold do_call. cbn. destruct (o_task o ph t w) as [w' [e|]]; [|left; auto]. pose proof (act_p ph t e w' n1 n2) as H.
  destruct (act o1 ph t e (w', n1)) as [[? ?] ?], (act o2 ph t e (w', n2)) as [[? ?] ?]. destruct H as [(X & -> & ->)|H]; [left; auto|right; apply part_cons; exact H].
Qed.
Lemma one_call_p ph t w n1 n2 : par3 (one_call a o1 ph t (w, n1)) (one_call a o2 ph t (w, n2)).
Proof.
  unfold one_call. destruct (a_sim a); [|apply do_call_p]. cbn. destruct (o_sim o ph t w) as [w' x]. destruct x as [| |e]; [left; auto| |].
  - pose proof (do_call_p ph t w' n1 n2) as H. cbn in H. destruct (do_call o1 ph t (w', n1)) as [[? ?] ?], (do_call o2 ph t (w', n2)) as [[? ?] ?].
    destruct H as [(X & -> & ->)|H]; [left; auto|right; apply part_cons; exact H].
  - pose proof (act_p ph t e w' n1 n2) as H. destruct (act o1 ph t e (w', n1)) as [[? ?] ?], (act o2 ph t e (w', n2)) as [[? ?] ?].
    destruct H as [(X & -> & ->)|H]; [left; auto|right; apply part_cons; exact H].
Qed.
Lemma lifecycle_p ph : forall ts w n1 n2, par3 (lifecycle a o1 ph ts (w, n1)) (lifecycle a o2 ph ts (w, n2)).
Proof.
  induction ts as [|t ts IH]; intros w n1 n2; cbn [lifecycle]; [left; auto|]. pose proof (one_call_p ph t w n1 n2) as H.
  destruct (one_call a o1 ph t (w, n1)) as [[[w1 m1] t1] f1], (one_call a o2 ph t (w, n2)) as [[[w2 m2] t2] f2]. destruct H as [(X & -> & ->)|H].
  - cbn [fst] in X. subst. destruct f2; [|left; auto..]. specialize (IH w2 m1 m2).
    destruct (lifecycle a o1 ph ts (w2, m1)) as [[e3 t3] f3], (lifecycle a o2 ph ts (w2, m2)) as [[e4 t4] f4]. destruct IH as [(X & -> & ->)|I]; [left; auto|right; apply part_pre; exact I].
  - destruct (lifecycle a o1 ph ts (w1, m1)) as [[e3 t3] f3], (lifecycle a o2 ph ts (w2, m2)) as [[e4 t4] f4].
    destruct f1, f2; right; first [exact H|apply part_app; exact H|apply part_1; exact H|apply part_2; exact H].
Qed.
Lemma do_process_p s ins doit out w n1 n2 : par4 (do_process o1 s ins doit out (w, n1)) (do_process o2 s ins doit out (w, n2)).
Proof.
  unfold do_process. cbn. destruct (o_now o w) as [w0 t0]. cbn [fst snd].
  assert (G : forall w tr out r, par4 (let (env, t1) := let (w', t1) := o_now o w in (w', n1, t1) in match r with
      | None => (env, tr, with_end t1 out, PNext) | Some e => let '(env, tr', out, f) := pact o1 (s_node s) e (with_end t1 out) env in (env, tr ++ tr', out, f) end)
    (let (env, t1) := let (w', t1) := o_now o w in (w', n2, t1) in match r with
      | None => (env, tr, with_end t1 out, PNext) | Some e => let '(env, tr', out, f) := pact o2 (s_node s) e (with_end t1 out) env in (env, tr ++ tr', out, f) end)).
  { intros w3 tr out' r. destruct (o_now o w3) as [w4 t1]. destruct r as [e|]; [|left; auto]. pose proof (pact_p (s_node s) e (with_end t1 out') w4 n1 n2) as H.
    destruct (pact o1 (s_node s) e (with_end t1 out') (w4, n1)) as [[[? ?] ?] ?], (pact o2 (s_node s) e (with_end t1 out') (w4, n2)) as [[[? ?] ?] ?].
    destruct H as [(X & -> & -> & ->)|H]; [left; auto|right; apply part_pre; exact H]. }
  destruct doit; [destruct (s_type s)|].
  1,2: destruct (o_process o (s_node s) ins (with_start t0 out) w0) as [[w3 out3] r3]; cbn [fst snd]; apply G.
  - destruct (o_sink o (s_node s) ins w0) as [w3 r3]. cbn [fst snd]. apply G.
  - apply (G w0 [] (with_start t0 out) None).
Qed.
Lemma process_msg_p s ins out w n1 n2 : par4 (process_msg a o1 s ins out (w, n1)) (process_msg a o2 s ins out (w, n2)).
Proof.
  unfold process_msg. destruct (a_sim a); [|apply do_process_p].
  assert (D : forall b out' w' x, par4 (let '(env, tr, out, f) := do_process o1 s ins b out' (w', n1) in (env, ESim Process (s_node s) x :: tr, out, f))
    (let '(env, tr, out, f) := do_process o2 s ins b out' (w', n2) in (env, ESim Process (s_node s) x :: tr, out, f))).
  { intros b out' w' x. pose proof (do_process_p s ins b out' w' n1 n2) as H.
    destruct (do_process o1 s ins b out' (w', n1)) as [[[? ?] ?] ?], (do_process o2 s ins b out' (w', n2)) as [[[? ?] ?] ?]. destruct H as [(X & -> & -> & ->)|H]; [left; auto|right; apply part_cons; exact H]. }
  cbn [o_sim_process beside fst snd]. destruct (o_sim_process o (s_node s) ins out w) as [[w' out'] x]. destruct x as [| |e]; try apply D.
  pose proof (pact_p (s_node s) e out' w' n1 n2) as H. destruct (pact o1 (s_node s) e out' (w', n1)) as [[[[w1 m1] t1] g1] f1], (pact o2 (s_node s) e out' (w', n2)) as [[[[w2 m2] t2] g2] f2].
  destruct H as [(X & -> & -> & ->)|H].
  - cbn [fst] in X. subst. destruct f2; try (left; auto; fail). pose proof (do_process_p s ins false g2 w2 m1 m2) as B.
    destruct (do_process o1 s ins false g2 (w2, m1)) as [[[? ?] ?] ?], (do_process o2 s ins false g2 (w2, m2)) as [[[? ?] ?] ?]. destruct B as [(X & -> & -> & ->)|B]; [left; auto|right; apply part_cons, part_pre; exact B].
  - destruct (do_process o1 s ins false g1 (w1, m1)) as [[[? ?] ?] ?], (do_process o2 s ins false g2 (w2, m2)) as [[[? ?] ?] ?].
    destruct f1, f2; right; apply part_cons; first [exact H|apply part_app; exact H|apply part_1; exact H|apply part_2; exact H].
Qed.
Lemma process_all_p : forall ss msgs w n1 n2, par4 (process_all a o1 ss msgs (w, n1)) (process_all a o2 ss msgs (w, n2)).
Proof.
  induction ss as [|s ss IH]; intros msgs w n1 n2; cbn [process_all]; [left; auto|]. unfold process_step. destruct (s_out s) as [[k ty]|]; [|left; auto].
  destruct (nth_error msgs k) as [out|]; [|left; auto]. destruct (gather msgs (s_inputs s)) as [ins|]; [|left; auto]. pose proof (process_msg_p s ins out w n1 n2) as H.
  destruct (process_msg a o1 s ins out (w, n1)) as [[[[w1 m1] t1] g1] f1], (process_msg a o2 s ins out (w, n2)) as [[[[w2 m2] t2] g2] f2]. destruct H as [(X & -> & -> & ->)|H].
  - cbn [fst] in X. subst. destruct f2; try (left; auto; fail). specialize (IH (upd k g2 msgs) w2 m1 m2).
    destruct (process_all a o1 ss (upd k g2 msgs) (w2, m1)) as [[[? ?] ?] ?], (process_all a o2 ss (upd k g2 msgs) (w2, m2)) as [[[? ?] ?] ?].
    destruct IH as [(X & -> & -> & ->)|I]; [left; auto|right; apply part_pre; exact I].
  - destruct (process_all a o1 ss (upd k g1 msgs) (w1, m1)) as [[[? ?] ?] ?], (process_all a o2 ss (upd k g2 msgs) (w2, m2)) as [[[? ?] ?] ?].
    destruct f1, f2; right; first [exact H|apply part_app; exact H|apply part_1; exact H|apply part_2; exact H].
Qed.
Lemma report_p id m msgs w n1 n2 : par5 (report_and_finish a o1 id m msgs (w, n1)) (report_and_finish a o2 id m msgs (w, n2)).
Proof.
  unfold report_and_finish. destruct (collect_metadata a msgs) as [md|]; [|left; auto]. cbn [o_report beside fst snd].
  pose proof (RR md n1 n2) as D. destruct (o_report q1 md n1) as [m1 r1], (o_report q2 md n2) as [m2 r2]. cbn [snd] in D.
  assert (F : finish a o1 id m (w, m1) = finish a o2 id m (w, m2)) by reflexivity. rewrite F. clear F. destruct (dec_opt r1 r2) as [->|D0].
  - destruct r2; [left; auto|]. destruct (finish a o2 id m (w, m2)) as [[? ?]|]; left; auto.
  - destruct r1, r2, (finish a o2 id m (w, m2)) as [[? ?]|]; right; apply part_now; cbn; auto.
Qed.
Lemma body_p m w n1 n2 : par5 (copperlist_body a o1 m (w, n1)) (copperlist_body a o2 m (w, n2)).
Proof.
  unfold copperlist_body. destruct (create (a_mode a) m) as [[[p i]|]|]; [|left; auto..]. destruct (nth_error (m_data p) i) as [c|]; [|left; auto].
  pose proof (process_all_p (a_plan a) (cl_msgs c) w n1 n2) as H.
  destruct (process_all a o1 (a_plan a) (cl_msgs c) (w, n1)) as [[[[w1 m1] t1] g1] f1], (process_all a o2 (a_plan a) (cl_msgs c) (w, n2)) as [[[[w2 m2] t2] g2] f2]. destruct H as [(X & -> & -> & ->)|H].
  - cbn [fst] in X. subst. pose proof (report_p (cl_id c) (set_slot i (mkCl (cl_id c) Processing g2) p) g2 w2 m1 m2) as Q.
    destruct (report_and_finish a o1 (cl_id c) (set_slot i (mkCl (cl_id c) Processing g2) p) g2 (w2, m1)) as [[[? ?] ?] ?],
      (report_and_finish a o2 (cl_id c) (set_slot i (mkCl (cl_id c) Processing g2) p) g2 (w2, m2)) as [[[? ?] ?] ?].
    destruct f2; try (left; auto; fail); [destruct (match collect_metadata a g2 with Some md => e2e a md | None => Panic end); [|left; auto; fail]|].
    all: destruct Q as [(X & -> & -> & ->)|Q]; [left; auto|right; apply part_pre; exact Q].
  - destruct (report_and_finish a o1 (cl_id c) (set_slot i (mkCl (cl_id c) Processing g1) p) g1 (w1, m1)) as [[[? ?] ?] ?],
      (report_and_finish a o2 (cl_id c) (set_slot i (mkCl (cl_id c) Processing g2) p) g2 (w2, m2)) as [[[? ?] ?] ?].
    destruct (match collect_metadata a g1 with Some md => e2e a md | None => Panic end), (match collect_metadata a g2 with Some md => e2e a md | None => Panic end).
    all: destruct f1, f2; right; first [exact H|apply part_app; exact H|apply part_1; exact H|apply part_2; exact H].
Qed.
Lemma iteration_p m w n1 n2 : par5 (run_one_iteration a o1 m (w, n1)) (run_one_iteration a o2 m (w, n2)).
Proof.
  unfold run_one_iteration. pose proof (lifecycle_p Preprocess (seq 0 (a_tasks a)) w n1 n2) as H.
  destruct (lifecycle a o1 Preprocess (seq 0 (a_tasks a)) (w, n1)) as [[[w1 m1] t1] f1], (lifecycle a o2 Preprocess (seq 0 (a_tasks a)) (w, n2)) as [[[w2 m2] t2] f2].
  assert (P : forall e f (t : list ev), exists v, snd (fst (match f with Next => let '(env, m, tr2, f) := copperlist_body a o1 m e in
      match f with Next => let '(env, tr3, f) := lifecycle a o1 Postprocess (seq 0 (a_tasks a)) env in (env, m, t ++ tr2 ++ tr3, to_result f) | _ => (env, m, t ++ tr2, to_result f) end
      | _ => (e, m, t, to_result f) end)) = t ++ v).
  { intros e f t. destruct f; [|exists []; cbn; rewrite app_nil_r; reflexivity..]. destruct (copperlist_body a o1 m e) as [[[? ?] ?] f]. destruct f; [destruct (lifecycle a o1 _ _ _) as [[? ?] ?]|..]; eexists; reflexivity. }
  assert (P' : forall e f (t : list ev), exists v, snd (fst (match f with Next => let '(env, m, tr2, f) := copperlist_body a o2 m e in
      match f with Next => let '(env, tr3, f) := lifecycle a o2 Postprocess (seq 0 (a_tasks a)) env in (env, m, t ++ tr2 ++ tr3, to_result f) | _ => (env, m, t ++ tr2, to_result f) end
      | _ => (e, m, t, to_result f) end)) = t ++ v).
  { intros e f t. destruct f; [|exists []; cbn; rewrite app_nil_r; reflexivity..]. destruct (copperlist_body a o2 m e) as [[[? ?] ?] f]. destruct f; [destruct (lifecycle a o2 _ _ _) as [[? ?] ?]|..]; eexists; reflexivity. }
  destruct H as [(X & -> & ->)|H].
  - clear P P'. cbn [fst] in X. subst. destruct f2; [|left; auto..]. pose proof (body_p m w2 m1 m2) as B.
    destruct (copperlist_body a o1 m (w2, m1)) as [[[[w3 m3] k3] t3] f3], (copperlist_body a o2 m (w2, m2)) as [[[[w4 m4] k4] t4] f4]. destruct B as [(X & -> & -> & ->)|B].
    + cbn [fst] in X. subst. destruct f4; [|left; auto..]. pose proof (lifecycle_p Postprocess (seq 0 (a_tasks a)) w4 m3 m4) as L.
      destruct (lifecycle a o1 Postprocess (seq 0 (a_tasks a)) (w4, m3)) as [[? ?] ?], (lifecycle a o2 Postprocess (seq 0 (a_tasks a)) (w4, m4)) as [[? ?] ?].
      destruct L as [(X & -> & ->)|L]; [left; auto|right; apply part_pre, part_pre; exact L].
    + destruct (lifecycle a o1 Postprocess (seq 0 (a_tasks a)) (w3, m3)) as [[? ?] ?], (lifecycle a o2 Postprocess (seq 0 (a_tasks a)) (w4, m4)) as [[? ?] ?].
      destruct f3, f4; right; apply part_pre; first [exact B|apply part_app; exact B|apply part_1; exact B|apply part_2; exact B].
  - specialize (P (w1, m1) f1 t1). specialize (P' (w2, m2) f2 t2). destruct (match f1 with Next => _ | _ => _ end) as [[[? ?] u1] ?]. destruct (match f2 with Next => _ | _ => _ end) as [[[? ?] u2] ?].
    right. exact (part_more _ _ _ _ H P P').
Qed.
(** The calls of two runs up to the one in which the monitors answer differently. *)
Definition apart (l1 l2 : list (list ev * result (Er := Er))) : Prop :=
  exists l t1 r1 k1 t2 r2 k2, l1 = l ++ (t1, r1) :: k1 /\ l2 = l ++ (t2, r2) :: k2 /\ parted t1 t2.
Lemma driven_p : forall between m w n1 n2 e1 m1 l1 e2 m2 l2, driven a o1 (map on_world between) m (w, n1) = (e1, m1, l1) -> driven a o2 (map on_world between) m (w, n2) = (e2, m2, l2) ->
  (fst e1 = fst e2 /\ m1 = m2 /\ l1 = l2) \/ apart l1 l2.
Proof.
  induction between as [|b bs IH]; intros m w n1 n2 e1 m1 l1 e2 m2 l2 H1 H2; cbn [driven map] in H1, H2.
  - injection H1 as <- <- <-. injection H2 as <- <- <-. auto.
  - unfold on_world at 1 in H1. unfold on_world at 1 in H2. cbn [fst snd] in H1, H2. pose proof (iteration_p m (b w) n1 n2) as I.
    destruct (run_one_iteration a o1 m (b w, n1)) as [[[[w3 x3] k3] t3] r3], (run_one_iteration a o2 m (b w, n2)) as [[[[w4 x4] k4] t4] r4].
    destruct (driven a o1 (map on_world bs) k3 (w3, x3)) as [[e5 q5] l5] eqn:D1. destruct (driven a o2 (map on_world bs) k4 (w4, x4)) as [[e6 q6] l6] eqn:D2.
    injection H1 as <- <- <-. injection H2 as <- <- <-. destruct I as [(X & -> & -> & ->)|I].
    + cbn [fst] in X. subst. destruct (IH _ _ _ _ _ _ _ _ _ _ D1 D2) as [(A & -> & ->)|(l & t1 & r1 & k1 & t2 & r2 & k2 & -> & -> & A)]; [left; auto|right].
      exists ((t4, r4) :: l), t1, r1, k1, t2, r2, k2. auto.
    + right. exists [], t3, r3, l5, t4, r4, l6. auto.
Qed.
Lemma session_p between m w n1 n2 e1 m1 l1 e2 m2 l2 : session a o1 (map on_world between) m (w, n1) = (e1, m1, l1) -> session a o2 (map on_world between) m (w, n2) = (e2, m2, l2) ->
  (fst e1 = fst e2 /\ m1 = m2 /\ l1 = l2) \/ apart l1 l2.
Proof.
  unfold session. assert (S : par3 (all_tasks a o1 Start (w, n1)) (all_tasks a o2 Start (w, n2))).
  { unfold all_tasks. pose proof (lifecycle_p Start (seq 0 (a_tasks a)) w n1 n2) as H.
    destruct (lifecycle a o1 Start (seq 0 (a_tasks a)) (w, n1)) as [[[w1 x1] t1] f1], (lifecycle a o2 Start (seq 0 (a_tasks a)) (w, n2)) as [[[w2 x2] t2] f2].
    cbn [o_monitor beside fst snd]. pose proof (RM Start x1 x2) as D. destruct (o_monitor q1 Start x1) as [y1 r1], (o_monitor q2 Start x2) as [y2 r2]. destruct H as [(X & -> & ->)|H].
    - cbn [fst] in X. subst. destruct f2; [|left; auto..]. cbn [snd] in D. destruct (dec_opt r1 r2) as [->|D0]; [left; auto|right; apply part_pre, part_now; cbn; auto].
    - destruct f1, f2; right; first [exact H|apply part_app; exact H|apply part_1; exact H|apply part_2; exact H]. }
  destruct (all_tasks a o1 Start (w, n1)) as [[[w1 x1] t1] r1], (all_tasks a o2 Start (w, n2)) as [[[w2 x2] t2] r2].
  destruct (driven a o1 (map on_world between) m (w1, x1)) as [[e5 q5] l5] eqn:D1. destruct (driven a o2 (map on_world between) m (w2, x2)) as [[e6 q6] l6] eqn:D2.
  intros H1 H2. injection H1 as <- <- <-. injection H2 as <- <- <-. destruct S as [(X & -> & ->)|S].
  - cbn [fst] in X. subst. destruct (driven_p _ _ _ _ _ _ _ _ _ _ _ D1 D2) as [(A & -> & ->)|(l & u1 & s1 & k1 & u2 & s2 & k2 & -> & -> & A)]; [left; auto|right].
    exists ((t2, r2) :: l), u1, s1, k1, u2, s2, k2. auto.
  - right. exists [], t1, r1, l5, t2, r2, l6. auto.
Qed.
End Rival.

(** * Theorems *)
(** A monitor that shares nothing with the tasks has no influence but by its answers: with another monitor everything
    is the same up to the first question the two answer differently. *)
Theorem C177_monitor : forall (V M Er W N1 N2 : Type) (eq_er : forall x y : Er, {x = y} + {x <> y}) (a : application) (o : oracles V M Er W) (q1 : oracles V M Er N1) (q2 : oracles V M Er N2)
  between m w n1 n2 e1 m1 l1 e2 m2 l2,
  session a (beside o q1) (map on_world between) m (w, n1) = (e1, m1, l1) -> session a (beside o q2) (map on_world between) m (w, n2) = (e2, m2, l2) ->
  (fst e1 = fst e2 /\ m1 = m2 /\ l1 = l2) \/
  exists l t x1 u1 r1 k1 x2 u2 r2 k2, l1 = l ++ (t ++ x1 :: u1, r1) :: k1 /\ l2 = l ++ (t ++ x2 :: u2, r2) :: k2 /\ rival x1 x2.
Proof.
  intros V M Er W N1 N2 eq_er a o q1 q2 between m w n1 n2 e1 m1 l1 e2 m2 l2 H1 H2.
  destruct (session_p eq_er a o q1 q2 rival ltac:(cbn; auto) ltac:(cbn; auto) ltac:(cbn; auto) between m w n1 n2 e1 m1 l1 e2 m2 l2 H1 H2) as [H|(l & t1 & r1 & k1 & t2 & r2 & k2 & -> & -> & (p & x1 & x2 & u1 & u2 & -> & -> & Q))]; [left; exact H|right].
  exists l, p, x1, u1, r1, k1, x2, u2, r2, k2. auto.
Qed.
Print Assumptions C177_monitor.
(** Monitors that answer alike, whatever else they do, can be exchanged. *)
Theorem C177_exchange : forall (V M Er W N1 N2 : Type) (eq_er : forall x y : Er, {x = y} + {x <> y}) (a : application) (o : oracles V M Er W) (q1 : oracles V M Er N1) (q2 : oracles V M Er N2)
  between m w n1 n2 e1 m1 l1 e2 m2 l2,
  (forall ph t e x y, snd (o_decide q1 ph t e x) = snd (o_decide q2 ph t e y)) -> (forall md x y, snd (o_report q1 md x) = snd (o_report q2 md y)) ->
  (forall ph x y, snd (o_monitor q1 ph x) = snd (o_monitor q2 ph y)) ->
  session a (beside o q1) (map on_world between) m (w, n1) = (e1, m1, l1) -> session a (beside o q2) (map on_world between) m (w, n2) = (e2, m2, l2) ->
  fst e1 = fst e2 /\ m1 = m2 /\ l1 = l2.
Proof.
  intros V M Er W N1 N2 eq_er a o q1 q2 between m w n1 n2 e1 m1 l1 e2 m2 l2 D Rp Mo H1 H2.
  destruct (session_p eq_er a o q1 q2 (fun _ _ => False) (fun ph t e x y Q => Q (D ph t e x y)) (fun md x y Q => Q (Rp md x y)) (fun ph x y Q => Q (Mo ph x y)) between m w n1 n2 e1 m1 l1 e2 m2 l2 H1 H2)
    as [H|(l & t1 & r1 & k1 & t2 & r2 & k2 & -> & -> & (p & x1 & x2 & u1 & u2 & -> & -> & []))]. exact H.
Qed.
Print Assumptions C177_exchange.
(** The robot of ReplayProps beside a monitor that counts and gives up after [k] errors, and beside one that only counts. *)
Definition strict (k : nat) : oracles nat unit nat nat :=
  {| o_task := fun _ _ n => (n, None); o_process := fun _ _ out n => (n, out, None); o_sink := fun _ _ n => (n, None); o_sim := fun _ _ n => (n, ExecuteByRuntime);
     o_sim_process := fun _ _ out n => (n, out, ExecuteByRuntime); o_decide := fun ph t e n => (S n, if k <=? n then Shutdown else Ignore);
     o_report := fun md n => (n, None); o_monitor := fun ph n => (n, None); o_now := fun n => (n, 0%N); o_log := fun n c => true |}.
Definition ex_rival (k : nat) := session (line_app false) (beside (robot line_kind true 7 2 Ignore) (strict k)) (map on_world settings) (mgr_new 10 zero3) (bot0, 0).
Example C177_case : snd (ex_rival 1) <> snd (ex_rival 2) /\ snd (ex_rival 2) = snd (ex_rival 5) /\ snd (fst (fst (ex_rival 2))) = 2.
Proof. split; [intros X; vm_compute in X; discriminate|]. split; vm_compute; reflexivity. Qed.
(** A monitor that ignores all errors, adding [k] to its count for each and for each report. *)
Definition gentle (k : nat) : oracles nat unit nat nat :=
  {| o_task := fun _ _ n => (n, None); o_process := fun _ _ out n => (n, out, None); o_sink := fun _ _ n => (n, None); o_sim := fun _ _ n => (n, ExecuteByRuntime);
     o_sim_process := fun _ _ out n => (n, out, ExecuteByRuntime); o_decide := fun ph t e n => (k + n, Ignore);
     o_report := fun md n => (k + n, None); o_monitor := fun ph n => (n, None); o_now := fun n => (n, 0%N); o_log := fun n c => true |}.
Definition ex_gentle (k : nat) := session (line_app false) (beside (robot line_kind true 7 2 Ignore) (gentle k)) (map on_world settings) (mgr_new 10 zero3) (bot0, 0).
Example C177_exchange_case : (forall ph t e x y, snd (o_decide (gentle 0) ph t e x) = snd (o_decide (gentle 3) ph t e y)) /\ (forall md x y, snd (o_report (gentle 0) md x) = snd (o_report (gentle 3) md y)) /\
  (forall ph x y, snd (o_monitor (gentle 0) ph x) = snd (o_monitor (gentle 3) ph y)) /\ snd (fst (fst (ex_gentle 0))) = 0 /\ snd (fst (fst (ex_gentle 3))) = 15 /\ length (snd (ex_gentle 3)) = 4.
Proof. split; [reflexivity|]. split; [reflexivity|]. split; [reflexivity|]. repeat split; vm_compute; reflexivity. Qed.
