(** Runs of one application with two clocks: theorems. *)
From Coq Require Import String List Arith NArith Bool Lia ZifyBool ZifyNat ZifyN.
From Verif Require Import Base CuListModel PlanModel RuntimeModel RuntimeSpec RuntimeProps ReplaySpec ReplayProps RivalProps.
Import ListNotations.
Local Open Scope list_scope.
Local Open Scope nat_scope.

(** * Specification *)
(** A robot that reads the clock [now], with a state of its own; tasks and monitor do not reach the clock. *)
Definition timed {V M Er W C : Type} (o : oracles V M Er W) (now : C -> C * N) : oracles V M Er (W * C) :=
  {| o_task := fun ph t e => let (w, r) := o_task o ph t (fst e) in (w, snd e, r);
     o_process := fun t ins out e => let '(w, out, r) := o_process o t ins out (fst e) in (w, snd e, out, r);
     o_sink := fun t ins e => let (w, r) := o_sink o t ins (fst e) in (w, snd e, r);
     o_sim := fun ph t e => let (w, r) := o_sim o ph t (fst e) in (w, snd e, r);
     o_sim_process := fun t ins out e => let '(w, out, r) := o_sim_process o t ins out (fst e) in (w, snd e, out, r);
     o_decide := fun ph t x e => let (w, d) := o_decide o ph t x (fst e) in (w, snd e, d);
     o_report := fun md e => let (w, r) := o_report o md (fst e) in (w, snd e, r);
     o_monitor := fun ph e => let (w, r) := o_monitor o ph (fst e) in (w, snd e, r);
     o_now := fun e => let (c, t) := now (snd e) in (fst e, c, t);
     o_log := fun e => o_log o (fst e) |}.
Definition untimed_list {V M} (c : cl (list (msg V M))) : cl (list (msg V M)) := mkCl (cl_id c) (cl_state c) (map untimed (cl_msgs c)).
Definition untimed_lists {V M} (m : mgr (list (msg V M))) : mgr (list (msg V M)) := mkMgr (map untimed_list (m_data m)) (m_len m) (m_ins m) (m_next m).
(** Tasks, monitor and log writer do not look at the process times of messages. *)
Record timeless {V M Er W : Type} (o : oracles V M Er W) : Prop := {
  tl_process : forall t ins out w w1 out1 r, o_process o t ins out w = (w1, out1, r) ->
    exists out2, o_process o t (map untimed ins) (untimed out) w = (w1, out2, r) /\ untimed out2 = untimed out1;
  tl_sink : forall t ins w, o_sink o t (map untimed ins) w = o_sink o t ins w;
  tl_sim_process : forall t ins out w w1 out1 r, o_sim_process o t ins out w = (w1, out1, r) ->
    exists out2, o_sim_process o t (map untimed ins) (untimed out) w = (w1, out2, r) /\ untimed out2 = untimed out1;
  tl_report : forall md w, o_report o (map untimed md) w = o_report o md w;
  tl_log : forall w c, o_log o w (untimed_list c) = o_log o w c }.
Definition untimed_event {V M Er} (e : event V M Er) : event V M Er :=
  match e with
  | EProcess t ins r => EProcess t (map untimed ins) r
  | EReport md r => EReport (map untimed md) r
  | ELog id ms => ELog id (map untimed ms)
  | _ => e
  end.
Definition untimed_run {V M Er} (l : list (list (event V M Er) * result (Er := Er))) : list (list (event V M Er) * result (Er := Er)) :=
  map (fun x => (map untimed_event (fst x), snd x)) l.

(** * Proofs *)
Section Lists.
Context {V M : Type}.
Notation U := (@untimed_list V M).
Notation UM := (@untimed_lists V M).
Lemma upd_U {A B} (f : A -> B) : forall i x l, upd i (f x) (map f l) = map f (upd i x l).
Proof. induction i as [|i IH]; intros x [|y l]; cbn; auto. rewrite IH. reflexivity. Qed.
Lemma create_U mode m : create mode (UM m) = match create mode m with Ret (Some (p, i)) => Ret (Some (UM p, i)) | Ret None => Ret None | Panic => Panic end.
Proof.
  destruct m as [d ln ins nx]. unfold create, is_full, cap, untimed_lists. cbn [m_data m_len m_ins m_next]. rewrite map_length. destruct (length d =? ln); [reflexivity|].
  rewrite nth_error_map. destruct (nth_error d ins) as [c|]; cbn [option_map]; [|reflexivity]. destruct (succ_u32 mode nx) as [nid|]; cbn [obind]; [|reflexivity].
  cbn [m_data m_len m_ins m_next cl_state cl_msgs untimed_list]. rewrite <- upd_U. reflexivity.
Qed.
Lemma pop_n_U : forall n m, pop_n n (UM m) = match pop_n n m with Ret p => Ret (UM p) | Panic => Panic end.
Proof.
  induction n as [|n IH]; intros m; cbn [pop_n]; [reflexivity|]. destruct m as [d ln ins nx]. unfold pop, prev_ins, cap, untimed_lists. cbn [m_data m_len m_ins m_next]. rewrite map_length.
  destruct (ln =? 0); cbn [obind]; [exact (IH (mkMgr d ln ins nx))|]. set (i := if ins =? 0 then _ else _). rewrite nth_error_map. destruct (nth_error d i); cbn [option_map obind]; [|reflexivity].
  exact (IH (mkMgr d (ln - 1) i nx)).
Qed.
Lemma eop_U (lg : option (cl (list (msg V M)) -> bool)) id : (forall f c, lg = Some f -> f (U c) = f c) -> forall l b nb g out,
  fold_left (eop_step lg id) (map U l) (Ret (b, nb, map U g, map U out)) = match fold_left (eop_step lg id) l (Ret (b, nb, g, out)) with Ret (b', nb', g', out') => Ret (b', nb', map U g', map U out') | Panic => Panic end.
Proof.
  intros Hl. induction l as [|c l IH]; intros b nb g out; cbn [fold_left map]; [reflexivity|].
  assert (X : eop_step lg id (Ret (b, nb, map U g, map U out)) (U c) = match eop_step lg id (Ret (b, nb, g, out)) c with Ret (b', nb', g', out') => Ret (b', nb', map U g', map U out') | Panic => Panic end).
  { unfold eop_step. cbn [obind]. change (cl_id (U c)) with (cl_id c). change (cl_state (U c)) with (cl_state c).
    assert (K : (if (cl_id c =? id)%N && clstate_eqb (cl_state c) Processing then change_state DoneProcessing (U c) else U c) = U (if (cl_id c =? id)%N && clstate_eqb (cl_state c) Processing then change_state DoneProcessing c else c))
      by (destruct (_ && _); reflexivity). rewrite K. clear K. set (c1 := if _ && _ then change_state DoneProcessing c else c). clearbody c1. change (cl_state (U c1)) with (cl_state c1).
    destruct (b && _); [|rewrite map_app; reflexivity]. destruct lg as [f|]; [|rewrite map_app; reflexivity].
    change (change_state BeingSerialized (U c1)) with (U (change_state BeingSerialized c1)). rewrite (Hl f _ eq_refl). destruct (f (change_state BeingSerialized c1)); [|reflexivity]. rewrite !map_app. reflexivity. }
  rewrite X. destruct (eop_step lg id (Ret (b, nb, g, out)) c) as [[[[b' nb'] g'] out']|]; [apply IH|].
  assert (Z : forall l', fold_left (eop_step lg id) l' Panic = Panic) by (induction l' as [|z l' IH']; [reflexivity|exact IH']). rewrite !Z. reflexivity.
Qed.
Lemma end_U lg m id : (forall f c, lg = Some f -> f (U c) = f c) -> end_of_processing lg (UM m) id = match end_of_processing lg m id with Ret (p, g) => Ret (UM p, map U g) | Panic => Panic end.
Proof.
  intros Hl. destruct m as [d ln ins nx]. unfold end_of_processing, iter_mut, cap, untimed_lists. cbn [m_data m_len m_ins m_next]. rewrite map_length. destruct (ins <=? length d); [|reflexivity]. cbn [obind].
  rewrite firstn_map, skipn_map, <- !map_rev, <- map_app. rewrite (eop_U lg id Hl _ true 0 [] []).
  destruct (fold_left _ _ (Ret (true, 0, [], []))) as [[[[b nb] g] out]|]; cbn [obind]; [|reflexivity]. unfold iter_mut_write. cbn [m_data m_len m_ins m_next].
  rewrite firstn_map, skipn_map, <- !map_rev, <- map_app. pose proof (pop_n_U nb (mkMgr (rev (firstn ins out) ++ rev (skipn ins out)) ln ins nx)) as P. unfold untimed_lists at 1 in P. cbn [m_data m_len m_ins m_next] in P. rewrite P.
  cbn [obind]. destruct (pop_n nb (mkMgr (rev (firstn ins out) ++ rev (skipn ins out)) ln ins nx)) as [p|]; reflexivity.
Qed.
End Lists.

Section Timeless.
Context {V M Er W C1 C2 : Type}.
Variable a : application.
Variable o : oracles V M Er W.
Variable now1 : C1 -> C1 * N.
Variable now2 : C2 -> C2 * N.
Hypothesis TL : timeless o.
Notation o1 := (timed o now1).
Notation o2 := (timed o now2).
Notation message := (msg V M).
Notation ev := (event V M Er).
Notation UE := (map (@untimed_event V M Er)).
Definition tm3 {F} (x : W * C1 * list ev * F) (y : W * C2 * list ev * F) : Prop :=
  let '(e1, t1, f1) := x in let '(e2, t2, f2) := y in fst e1 = fst e2 /\ UE t1 = UE t2 /\ f1 = f2.
Definition tm4 {G H F} (u : G -> H) (x : W * C1 * list ev * G * F) (y : W * C2 * list ev * G * F) : Prop :=
  let '(e1, t1, g1, f1) := x in let '(e2, t2, g2, f2) := y in fst e1 = fst e2 /\ UE t1 = UE t2 /\ u g1 = u g2 /\ f1 = f2.
(** The same, or one of the two has panicked. *)
Definition tm5 {F} (panic : F) (x : W * C1 * mgr (list message) * list ev * F) (y : W * C2 * mgr (list message) * list ev * F) : Prop :=
  let '(e1, g1, t1, f1) := x in let '(e2, g2, t2, f2) := y in (fst e1 = fst e2 /\ UE t1 = UE t2 /\ untimed_lists g1 = untimed_lists g2 /\ f1 = f2) \/ f1 = panic \/ f2 = panic.
Lemma act_t ph t e w c1 c2 : tm3 (act o1 ph t e (w, c1)) (act o2 ph t e (w, c2)).
Proof. unfold act. cbn. destruct (o_decide o ph t e w). cbn. auto. Qed.
Lemma pact_t t e out out' w c1 c2 : untimed out = untimed out' -> tm4 untimed (pact o1 t e out (w, c1)) (pact o2 t e out' (w, c2)).
Proof.
  intros Ho. unfold pact. cbn. destruct (o_decide o Process t e w) as [w' d]. destruct d; cbn; auto.
  split; [auto|split; [auto|split; [|auto]]]. unfold untimed in *. cbn. injection Ho as _ ->. reflexivity.
Qed.
Lemma do_call_t ph t w c1 c2 : tm3 (do_call o1 ph t (w, c1)) (do_call o2 ph t (w, c2)).
Proof.
  unfold do_call. cbn. destruct (o_task o ph t w) as [w' [e|]]; [|cbn; auto]. pose proof (act_t ph t e w' c1 c2) as H.
  destruct (act o1 ph t e (w', c1)) as [[? ?] ?], (act o2 ph t e (w', c2)) as [[? ?] ?]. destruct H as (X & H & ->). cbn. rewrite H. auto.
Qed.
Lemma one_call_t ph t w c1 c2 : tm3 (one_call a o1 ph t (w, c1)) (one_call a o2 ph t (w, c2)).
Proof.
  unfold one_call. destruct (a_sim a); [|apply do_call_t]. cbn. destruct (o_sim o ph t w) as [w' x]. destruct x as [| |e]; [cbn; auto| |].
  - pose proof (do_call_t ph t w' c1 c2) as H. cbn in H. destruct (do_call o1 ph t (w', c1)) as [[? ?] ?], (do_call o2 ph t (w', c2)) as [[? ?] ?]. destruct H as (X & H & ->). cbn. rewrite H. auto.
  - pose proof (act_t ph t e w' c1 c2) as H. destruct (act o1 ph t e (w', c1)) as [[? ?] ?], (act o2 ph t e (w', c2)) as [[? ?] ?]. destruct H as (X & H & ->). cbn. rewrite H. auto.
Qed.
Lemma lifecycle_t ph : forall ts w c1 c2, tm3 (lifecycle a o1 ph ts (w, c1)) (lifecycle a o2 ph ts (w, c2)).
Proof.
  induction ts as [|t ts IH]; intros w c1 c2; cbn [lifecycle]; [cbn; auto|]. pose proof (one_call_t ph t w c1 c2) as H.
  destruct (one_call a o1 ph t (w, c1)) as [[[w1 d1] t1] f1], (one_call a o2 ph t (w, c2)) as [[[w2 d2] t2] f2]. destruct H as (X & H & <-). cbn [fst] in X. subst w2. destruct f1; cbn; auto.
  specialize (IH w1 d1 d2). destruct (lifecycle a o1 ph ts (w1, d1)) as [[e3 t3] f3], (lifecycle a o2 ph ts (w1, d2)) as [[e4 t4] f4]. destruct IH as (X & I & <-). cbn. rewrite !map_app, H, I. auto.
Qed.
Lemma start_u t (m : message) : untimed (with_start t m) = untimed m. Proof. reflexivity. Qed.
Lemma end_u t (m : message) : untimed (with_end t m) = untimed m. Proof. reflexivity. Qed.
Lemma do_process_t s ins ins' doit out out' w c1 c2 : map untimed ins = map untimed ins' -> untimed out = untimed out' ->
  tm4 untimed (do_process o1 s ins doit out (w, c1)) (do_process o2 s ins' doit out' (w, c2)).
Proof.
  intros Hi Ho. unfold do_process. cbn [o_now timed fst snd]. destruct (now1 c1) as [d1 t1], (now2 c2) as [d2 t2]. cbn [fst snd].
  assert (G : forall w tr tr' out out' r, UE tr = UE tr' -> untimed out = untimed out' -> tm4 untimed
    (let (env, t1) := let (c, t) := now1 d1 in (w, c, t) in match r with
      | None => (env, tr, with_end t1 out, PNext) | Some e => let '(env, tr', out, f) := pact o1 (s_node s) e (with_end t1 out) env in (env, tr ++ tr', out, f) end)
    (let (env, t1) := let (c, t) := now2 d2 in (w, c, t) in match r with
      | None => (env, tr', with_end t1 out', PNext) | Some e => let '(env, tr'', out, f) := pact o2 (s_node s) e (with_end t1 out') env in (env, tr' ++ tr'', out, f) end)).
  { clear Ho. intros w3 tr tr' p p' r Ht Hp. destruct (now1 d1) as [d3 t3], (now2 d2) as [d4 t4]. destruct r as [e|]; [|cbn; rewrite Ht, !end_u, Hp; auto].
    pose proof (pact_t (s_node s) e (with_end t3 p) (with_end t4 p') w3 d3 d4 Hp) as H.
    destruct (pact o1 (s_node s) e (with_end t3 p) (w3, d3)) as [[[? ?] ?] ?], (pact o2 (s_node s) e (with_end t4 p') (w3, d4)) as [[[? ?] ?] ?]. destruct H as (X & H & Y & ->). cbn. rewrite !map_app, Ht, H. auto. }
  destruct doit; [destruct (s_type s)|].
  1,2: cbn [o_process timed fst snd]; destruct (o_process o (s_node s) ins (with_start t1 out) w) as [[w3 out3] r3] eqn:P1; destruct (o_process o (s_node s) ins' (with_start t2 out') w) as [[w4 out4] r4] eqn:P2;
    destruct (tl_process _ TL _ _ _ _ _ _ _ P1) as (x1 & Q1 & E1); destruct (tl_process _ TL _ _ _ _ _ _ _ P2) as (x2 & Q2 & E2); rewrite start_u in Q1, Q2; rewrite <- Hi, <- Ho, Q1 in Q2; injection Q2 as <- <- <-;
    apply G; [cbn; rewrite Hi; reflexivity|congruence].
  - cbn [o_sink timed fst snd]. rewrite <- (tl_sink _ TL _ ins'), <- Hi, (tl_sink _ TL). destruct (o_sink o (s_node s) ins w) as [w3 r3]. apply G; [cbn; rewrite Hi; reflexivity|exact Ho].
  - apply (G w [] [] (with_start t1 out) (with_start t2 out') None eq_refl Ho).
Qed.
Lemma process_msg_t s ins ins' out out' w c1 c2 : map untimed ins = map untimed ins' -> untimed out = untimed out' ->
  tm4 untimed (process_msg a o1 s ins out (w, c1)) (process_msg a o2 s ins' out' (w, c2)).
Proof.
  intros Hi Ho. unfold process_msg. destruct (a_sim a); [|apply do_process_t; assumption]. cbn [o_sim_process timed fst snd].
  destruct (o_sim_process o (s_node s) ins out w) as [[w3 out3] r3] eqn:P1. destruct (o_sim_process o (s_node s) ins' out' w) as [[w4 out4] r4] eqn:P2.
  destruct (tl_sim_process _ TL _ _ _ _ _ _ _ P1) as (x1 & Q1 & E1). destruct (tl_sim_process _ TL _ _ _ _ _ _ _ P2) as (x2 & Q2 & E2). rewrite <- Hi, <- Ho, Q1 in Q2. injection Q2 as <- <- <-. rewrite E1 in E2. clear Ho E1 Q1 x1 P1 P2.
  assert (D : forall b p p' w d1 d2 tr tr', untimed p = untimed p' -> UE tr = UE tr' -> tm4 untimed (let '(env, tr1, out, f) := do_process o1 s ins b p (w, d1) in (env, tr ++ tr1, out, f)) (let '(env, tr1, out, f) := do_process o2 s ins' b p' (w, d2) in (env, tr' ++ tr1, out, f))).
  { intros b p p' w' d1 d2 tr tr' Hp Ht. pose proof (do_process_t s ins ins' b p p' w' d1 d2 Hi Hp) as H. destruct (do_process o1 s ins b p (w', d1)) as [[[? ?] ?] ?], (do_process o2 s ins' b p' (w', d2)) as [[[? ?] ?] ?].
    destruct H as (X & H & Y & ->). cbn. rewrite !map_app, Ht, H. auto. }
  destruct r3 as [| |e]; [apply (D false _ _ _ _ _ [_] [_] E2 eq_refl)|apply (D true _ _ _ _ _ [_] [_] E2 eq_refl)|].
  pose proof (pact_t (s_node s) e out3 out4 w3 c1 c2 E2) as H. destruct (pact o1 (s_node s) e out3 (w3, c1)) as [[[[w5 d5] t5] g5] f5], (pact o2 (s_node s) e out4 (w3, c2)) as [[[[w6 d6] t6] g6] f6].
  destruct H as (X & H & Y & <-). cbn [fst] in X. subst w6. destruct f5; try (cbn; rewrite H; auto; fail).
  apply (D false _ _ _ _ _ (_ :: t5) (_ :: t6) Y). cbn. rewrite H. reflexivity.
Qed.
Lemma gather_t : forall is (msgs msgs' : list message), map untimed msgs = map untimed msgs' ->
  match gather msgs is, gather msgs' is with Some x, Some y => map untimed x = map untimed y | None, None => True | _, _ => False end.
Proof.
  induction is as [|i is IH]; intros msgs msgs' Hm; cbn [gather]; [reflexivity|]. specialize (IH _ _ Hm).
  assert (X : option_map untimed (nth_error msgs (fst i)) = option_map untimed (nth_error msgs' (fst i))) by (rewrite <- !nth_error_map, Hm; reflexivity).
  destruct (nth_error msgs (fst i)), (nth_error msgs' (fst i)); try discriminate X; [|exact I]. injection X as X1 X2.
  destruct (gather msgs is), (gather msgs' is); try (destruct IH; fail); [|exact I]. cbn [map]. rewrite IH. unfold untimed at 1 3. rewrite X1, X2. reflexivity.
Qed.
Lemma process_all_t : forall ss msgs msgs' w c1 c2, map untimed msgs = map untimed msgs' -> tm4 (map untimed) (process_all a o1 ss msgs (w, c1)) (process_all a o2 ss msgs' (w, c2)).
Proof.
  induction ss as [|s ss IH]; intros msgs msgs' w c1 c2 Hm; cbn [process_all]; [cbn; auto|]. unfold process_step. destruct (s_out s) as [[k ty]|]; [|cbn; auto].
  assert (X : option_map untimed (nth_error msgs k) = option_map untimed (nth_error msgs' k)) by (rewrite <- !nth_error_map, Hm; reflexivity).
  destruct (nth_error msgs k) as [out|], (nth_error msgs' k) as [out'|]; try discriminate X; [|cbn; auto]. assert (Ho : untimed out = untimed out') by (injection X; unfold untimed; congruence). clear X.
  pose proof (gather_t (s_inputs s) msgs msgs' Hm) as Gt. destruct (gather msgs (s_inputs s)) as [ins|], (gather msgs' (s_inputs s)) as [ins'|]; try (destruct Gt; fail); [|cbn; auto].
  pose proof (process_msg_t s ins ins' out out' w c1 c2 Gt Ho) as H.
  destruct (process_msg a o1 s ins out (w, c1)) as [[[[w1 d1] t1] g1] f1], (process_msg a o2 s ins' out' (w, c2)) as [[[[w2 d2] t2] g2] f2]. destruct H as (X & H & Y & <-). cbn [fst] in X. subst w2.
  assert (Z : map untimed (upd k g1 msgs) = map untimed (upd k g2 msgs')) by (rewrite <- !upd_U, Y, Hm; reflexivity).
  destruct f1; [|cbn; rewrite H; auto..]. specialize (IH _ _ w1 d1 d2 Z). destruct (process_all a o1 ss (upd k g1 msgs) (w1, d1)) as [[[? ?] ?] ?], (process_all a o2 ss (upd k g2 msgs') (w1, d2)) as [[[? ?] ?] ?].
  destruct IH as (X & J & Y' & <-). cbn. rewrite !map_app, H, J. auto.
Qed.
Lemma select_t : forall is (msgs msgs' : list message), map untimed msgs = map untimed msgs' ->
  match select msgs is, select msgs' is with Some x, Some y => map untimed x = map untimed y | None, None => True | _, _ => False end.
Proof.
  induction is as [|i is IH]; intros msgs msgs' Hm; cbn [select]; [reflexivity|]. specialize (IH _ _ Hm).
  assert (X : option_map untimed (nth_error msgs i) = option_map untimed (nth_error msgs' i)) by (rewrite <- !nth_error_map, Hm; reflexivity).
  destruct (nth_error msgs i), (nth_error msgs' i); try discriminate X; [|exact I]. injection X as X1 X2.
  destruct (select msgs is), (select msgs' is); try (destruct IH; fail); [|exact I]. cbn [map]. rewrite IH. unfold untimed at 1 3. rewrite X1, X2. reflexivity.
Qed.
Lemma finish_t id m m' w c1 c2 : untimed_lists m = untimed_lists m' -> match finish a o1 id m (w, c1), finish a o2 id m' (w, c2) with
  | Ret (p, t), Ret (p', t') => untimed_lists p = untimed_lists p' /\ UE t = UE t' | Panic, Panic => True | _, _ => False end.
Proof.
  intros Hm. unfold finish. cbn [o_log timed fst]. set (lg := if a_logging a then Some (o_log o w) else None).
  assert (Hl : forall f c, lg = Some f -> f (untimed_list c) = f c) by (intros f c; unfold lg; destruct (a_logging a); [intros X; injection X as <-; apply (tl_log _ TL)|discriminate]).
  pose proof (end_U lg m id Hl) as H1. pose proof (end_U lg m' id Hl) as H2. rewrite Hm, H2 in H1.
  assert (L : forall g : list (cl (list message)), UE (map (fun c => ELog (cl_id c) (cl_msgs c)) g) = map (fun c => ELog (cl_id c) (cl_msgs c)) (map untimed_list g)) by (intros g; rewrite !map_map; reflexivity).
  destruct (end_of_processing lg m id) as [[p g]|], (end_of_processing lg m' id) as [[p' g']|]; try discriminate H1; [|exact I]. cbn [obind]. injection H1 as X1 X2 X3 X4 Y. rewrite !L, Y. split; [|reflexivity].
  unfold untimed_lists. rewrite X1, X2, X3, X4. reflexivity.
Qed.
Lemma report_t id m m' msgs msgs' w c1 c2 : untimed_lists m = untimed_lists m' -> map untimed msgs = map untimed msgs' ->
  tm5 Panicked (report_and_finish a o1 id m msgs (w, c1)) (report_and_finish a o2 id m' msgs' (w, c2)).
Proof.
  intros Hm Hs. unfold report_and_finish. pose proof (select_t (call_order a) msgs msgs' Hs) as S. unfold collect_metadata.
  destruct (select msgs (call_order a)) as [md|], (select msgs' (call_order a)) as [md'|]; try (destruct S; fail); [|right; auto].
  cbn [o_report timed fst snd]. rewrite <- (tl_report _ TL md'), <- S, (tl_report _ TL). destruct (o_report o md w) as [w1 [e|]]; [left; cbn; rewrite S; auto|].
  pose proof (finish_t id m m' w1 c1 c2 Hm) as F. destruct (finish a o1 id m (w1, c1)) as [[p t]|], (finish a o2 id m' (w1, c2)) as [[p' t']|]; try (destruct F; fail); [|right; auto].
  destruct F as [F1 F2]. left. cbn. rewrite S, F2. auto.
Qed.
Lemma body_t m m' w c1 c2 : untimed_lists m = untimed_lists m' -> tm5 Panicked (copperlist_body a o1 m (w, c1)) (copperlist_body a o2 m' (w, c2)).
Proof.
  intros Hm. unfold copperlist_body. pose proof (create_U (a_mode a) m) as K1. pose proof (create_U (a_mode a) m') as K2. rewrite Hm, K2 in K1. clear K2.
  destruct (create (a_mode a) m) as [[[p i]|]|], (create (a_mode a) m') as [[[p' i']|]|]; try discriminate K1; try (right; auto; fail). injection K1 as X1 X2 X3 X4 <-.
  assert (Hp : untimed_lists p = untimed_lists p') by (unfold untimed_lists; rewrite X1, X2, X3, X4; reflexivity).
  assert (Nt : option_map untimed_list (nth_error (m_data p) i') = option_map untimed_list (nth_error (m_data p') i')) by (rewrite <- !nth_error_map, X1; reflexivity).
  destruct (nth_error (m_data p) i') as [c|], (nth_error (m_data p') i') as [c'|]; try discriminate Nt; [|right; auto]. injection Nt as Hid _ Hms.
  pose proof (process_all_t (a_plan a) (cl_msgs c) (cl_msgs c') w c1 c2 Hms) as H.
  destruct (process_all a o1 (a_plan a) (cl_msgs c) (w, c1)) as [[[[w1 d1] t1] ms1] f1], (process_all a o2 (a_plan a) (cl_msgs c') (w, c2)) as [[[[w2 d2] t2] ms2] f2].
  destruct H as (X & H & Y & <-). cbn [fst] in X. subst w2. rewrite <- Hid.
  assert (Hs : untimed_lists (set_slot i' (mkCl (cl_id c) Processing ms1) p) = untimed_lists (set_slot i' (mkCl (cl_id c) Processing ms2) p')).
  { unfold set_slot, untimed_lists. cbn [m_data m_len m_ins m_next]. rewrite <- !upd_U, X1, X2, X3, X4. unfold untimed_list at 1 3. cbn [cl_id cl_state cl_msgs]. rewrite Y. reflexivity. }
  pose proof (report_t (cl_id c) _ _ ms1 ms2 w1 d1 d2 Hs Y) as R.
  destruct (report_and_finish a o1 (cl_id c) (set_slot i' (mkCl (cl_id c) Processing ms1) p) ms1 (w1, d1)) as [[[? ?] ?] fr], (report_and_finish a o2 (cl_id c) (set_slot i' (mkCl (cl_id c) Processing ms2) p') ms2 (w1, d2)) as [[[? ?] ?] fr'].
  destruct f1; [|destruct R as [(R1 & R2 & R3 & <-)|R]; [left; cbn; rewrite !map_app, H, R2; destruct fr; auto|right; destruct R as [-> | ->]; auto]|left; cbn; auto|right; auto].
  destruct (match collect_metadata a ms1 with Some md => e2e a md | None => Panic end), (match collect_metadata a ms2 with Some md => e2e a md | None => Panic end); [|right; auto..].
  destruct R as [(R1 & R2 & R3 & <-)|R]; [left; cbn; rewrite !map_app, H, R2; auto|right; exact R].
Qed.
Lemma iteration_t m m' w c1 c2 : untimed_lists m = untimed_lists m' -> tm5 RPanic (run_one_iteration a o1 m (w, c1)) (run_one_iteration a o2 m' (w, c2)).
Proof.
  intros Hm. unfold run_one_iteration. pose proof (lifecycle_t Preprocess (seq 0 (a_tasks a)) w c1 c2) as H.
  destruct (lifecycle a o1 Preprocess (seq 0 (a_tasks a)) (w, c1)) as [[[w1 d1] t1] f1], (lifecycle a o2 Preprocess (seq 0 (a_tasks a)) (w, c2)) as [[[w2 d2] t2] f2]. destruct H as (X & H & <-). cbn [fst] in X. subst w2.
  destruct f1; [|left; cbn; auto..]. pose proof (body_t m m' w1 d1 d2 Hm) as B.
  destruct (copperlist_body a o1 m (w1, d1)) as [[[[w3 d3] k3] t3] f3], (copperlist_body a o2 m' (w1, d2)) as [[[[w4 d4] k4] t4] f4]. destruct B as [(X & B & Y & <-)|B].
  - cbn [fst] in X. subst w4. destruct f3; [|left; cbn; rewrite !map_app, H, B; auto..]. pose proof (lifecycle_t Postprocess (seq 0 (a_tasks a)) w3 d3 d4) as L.
    destruct (lifecycle a o1 Postprocess (seq 0 (a_tasks a)) (w3, d3)) as [[? ?] ?], (lifecycle a o2 Postprocess (seq 0 (a_tasks a)) (w3, d4)) as [[? ?] ?]. destruct L as (X & L & <-). left. cbn. rewrite !map_app, H, B, L. auto.
  - destruct (lifecycle a o1 Postprocess (seq 0 (a_tasks a)) (w3, d3)) as [[? ?] ?], (lifecycle a o2 Postprocess (seq 0 (a_tasks a)) (w4, d4)) as [[? ?] ?]. destruct B as [-> | ->]; [destruct f4; right; left; reflexivity|destruct f3; right; right; reflexivity].
Qed.
(** The same calls, apart from times, up to one in which one of the two panics. *)
Definition ticked (l1 l2 : list (list ev * result (Er := Er))) : Prop :=
  exists k1 x1 u1 k2 x2 u2, l1 = k1 ++ x1 :: u1 /\ l2 = k2 ++ x2 :: u2 /\ untimed_run k1 = untimed_run k2 /\ (snd x1 = RPanic \/ snd x2 = RPanic).
Lemma driven_t : forall between m m' w c1 c2 e1 m1 l1 e2 m2 l2, untimed_lists m = untimed_lists m' ->
  driven a o1 (map on_world between) m (w, c1) = (e1, m1, l1) -> driven a o2 (map on_world between) m' (w, c2) = (e2, m2, l2) ->
  (fst e1 = fst e2 /\ untimed_lists m1 = untimed_lists m2 /\ untimed_run l1 = untimed_run l2) \/ ticked l1 l2.
Proof.
  induction between as [|b bs IH]; intros m m' w c1 c2 e1 m1 l1 e2 m2 l2 Hm H1 H2; cbn [driven map] in H1, H2.
  - injection H1 as <- <- <-. injection H2 as <- <- <-. auto.
  - unfold on_world at 1 in H1. unfold on_world at 1 in H2. cbn [fst snd] in H1, H2. pose proof (iteration_t m m' (b w) c1 c2 Hm) as I.
    destruct (run_one_iteration a o1 m (b w, c1)) as [[[[w3 x3] k3] t3] r3], (run_one_iteration a o2 m' (b w, c2)) as [[[[w4 x4] k4] t4] r4].
    destruct (driven a o1 (map on_world bs) k3 (w3, x3)) as [[e5 q5] l5] eqn:D1. destruct (driven a o2 (map on_world bs) k4 (w4, x4)) as [[e6 q6] l6] eqn:D2.
    injection H1 as <- <- <-. injection H2 as <- <- <-. destruct I as [(X & I & Y & ->)|I].
    + cbn [fst] in X. subst w4. destruct (IH _ _ _ _ _ _ _ _ _ _ _ Y D1 D2) as [(A & B & J)|(k1 & y1 & u1 & k2 & y2 & u2 & -> & -> & J & Q)].
      * left. unfold untimed_run in *. cbn [map fst snd]. rewrite I, J. auto.
      * right. exists ((t3, r4) :: k1), y1, u1, ((t4, r4) :: k2), y2, u2. unfold untimed_run in *. cbn [map fst snd]. rewrite I, J. auto.
    + right. exists [], (t3, r3), l5, [], (t4, r4), l6. auto.
Qed.
Lemma session_t between m m' w c1 c2 e1 m1 l1 e2 m2 l2 : untimed_lists m = untimed_lists m' ->
  session a o1 (map on_world between) m (w, c1) = (e1, m1, l1) -> session a o2 (map on_world between) m' (w, c2) = (e2, m2, l2) ->
  (fst e1 = fst e2 /\ untimed_lists m1 = untimed_lists m2 /\ untimed_run l1 = untimed_run l2) \/ ticked l1 l2.
Proof.
  intros Hm. unfold session. assert (S : tm3 (all_tasks a o1 Start (w, c1)) (all_tasks a o2 Start (w, c2))).
  { unfold all_tasks. pose proof (lifecycle_t Start (seq 0 (a_tasks a)) w c1 c2) as H.
    destruct (lifecycle a o1 Start (seq 0 (a_tasks a)) (w, c1)) as [[[w1 x1] t1] f1], (lifecycle a o2 Start (seq 0 (a_tasks a)) (w, c2)) as [[[w2 x2] t2] f2]. destruct H as (X & H & <-). cbn [fst] in X. subst w2. destruct f1; [|cbn; auto..].
    cbn [o_monitor timed fst snd]. destruct (o_monitor o Start w1) as [w3 r]. cbn. rewrite !map_app, H. auto. }
  destruct (all_tasks a o1 Start (w, c1)) as [[[w1 x1] t1] r1], (all_tasks a o2 Start (w, c2)) as [[[w2 x2] t2] r2]. destruct S as (X & S & <-). cbn [fst] in X. subst w2.
  destruct (driven a o1 (map on_world between) m (w1, x1)) as [[e5 q5] l5] eqn:D1. destruct (driven a o2 (map on_world between) m' (w1, x2)) as [[e6 q6] l6] eqn:D2. intros H1 H2. injection H1 as <- <- <-. injection H2 as <- <- <-.
  destruct (driven_t _ _ _ _ _ _ _ _ _ _ _ _ Hm D1 D2) as [(A & B & J)|(k1 & y1 & u1 & k2 & y2 & u2 & -> & -> & J & Q)].
  - left. unfold untimed_run in *. cbn [map fst snd]. rewrite S, J. auto.
  - right. exists ((t1, r1) :: k1), y1, u1, ((t2, r1) :: k2), y2, u2. unfold untimed_run in *. cbn [map fst snd]. rewrite S, J. auto.
Qed.
End Timeless.

(** * Theorems *)
(** What the clock shows has no influence on tasks that do not look at it: with another clock, starting with the same
    copper lists apart from times, everything but the times is the same until one of the runs panics. *)
Theorem C179_clock : forall (V M Er W C1 C2 : Type) (a : application) (o : oracles V M Er W) (now1 : C1 -> C1 * N) (now2 : C2 -> C2 * N) between m m' w c1 c2 e1 m1 l1 e2 m2 l2,
  timeless o -> untimed_lists m = untimed_lists m' ->
  session a (timed o now1) (map on_world between) m (w, c1) = (e1, m1, l1) -> session a (timed o now2) (map on_world between) m' (w, c2) = (e2, m2, l2) ->
  (fst e1 = fst e2 /\ untimed_lists m1 = untimed_lists m2 /\ untimed_run l1 = untimed_run l2) \/
  exists k1 x1 u1 k2 x2 u2, l1 = k1 ++ x1 :: u1 /\ l2 = k2 ++ x2 :: u2 /\ untimed_run k1 = untimed_run k2 /\ (snd x1 = RPanic \/ snd x2 = RPanic).
Proof. intros V M Er W C1 C2 a o now1 now2 between m m' w c1 c2 e1 m1 l1 e2 m2 l2 TL Hm. exact (session_t a o now1 now2 TL between m m' w c1 c2 e1 m1 l1 e2 m2 l2 Hm). Qed.
Print Assumptions C179_clock.
(** The robot of ReplayProps does not look at the times in messages. *)
Lemma sum_untimed reads c (ins : list (msg nat unit)) : forall x, bot_sum reads c (map untimed ins) x = bot_sum reads c ins x.
Proof.
  intros x. unfold bot_sum. f_equal. revert x. induction ins as [|i ins IH]; intros x; cbn [map fold_left]; [reflexivity|]. rewrite IH. reflexivity.
Qed.
Lemma robot_timeless kind reads tick bad dec : timeless (robot kind reads tick bad dec).
Proof.
  constructor; cbn; auto.
  - intros t ins out w w1 out1 r H. destruct (kind t).
    2: unfold bot_process in *; rewrite sum_untimed; injection H as <- <- <-; eexists; split; reflexivity.
    all: injection H as <- <- <-; eexists; split; reflexivity.
  - intros t ins out w w1 out1 r H. injection H as <- <- <-. eexists. split; reflexivity.
Qed.
Definition ticking (k : N) (c : N) : N * N := (c + k, c)%N.
Definition ex_clock (now : N -> N * N) := session (line_app false) (timed (robot line_kind true 7 2 Ignore) now) (map on_world settings) (mgr_new 10 zero3) (bot0, 100%N).
Example C179_case : timeless (robot line_kind true 7 2 Ignore) /\ untimed_lists (mgr_new 10 zero3) = untimed_lists (mgr_new 10 zero3) /\
  map snd (snd (ex_clock (ticking 3))) = [ROk; ROk; ROk; ROk] /\ map snd (snd (ex_clock (ticking 5))) = [ROk; ROk; ROk; ROk] /\
  snd (ex_clock (ticking 3)) <> snd (ex_clock (ticking 5)) /\ untimed_run (snd (ex_clock (ticking 3))) = untimed_run (snd (ex_clock (ticking 5))).
Proof.
  split; [apply robot_timeless|]. split; [reflexivity|]. split; [vm_compute; reflexivity|]. split; [vm_compute; reflexivity|]. split; [intros X; vm_compute in X; discriminate|vm_compute; reflexivity].
Qed.
(** The clock alone can make a run panic: here the clock of the second run goes back. *)
Theorem C179_back_refuted : exists (o : oracles nat unit nat bot) (now1 now2 : N -> N * N) a between m w c, timeless o /\
  map snd (snd (session a (timed o now1) (map on_world between) m (w, c))) = [ROk; ROk] /\ map snd (snd (session a (timed o now2) (map on_world between) m (w, c))) = [ROk; RPanic].
Proof.
  exists (robot line_kind true 7 2 Ignore), (ticking 3), (fun c => (c - 1, c)%N), (line_app false), [fun e => e], (mgr_new 10 zero3), bot0, 100%N.
  split; [apply robot_timeless|]. split; vm_compute; reflexivity.
Qed.
Print Assumptions C179_back_refuted.
