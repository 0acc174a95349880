(** Which tasks a task can influence: theorems. *)
From Coq Require Import String List Permutation Arith NArith Bool Lia ZifyBool ZifyNat ZifyN.
From Verif Require Import Base CuListModel PlanModel PlanSpec PlanProofs3 PlanProps RuntimeModel RuntimeSpec RuntimeProps ReplaySpec ReplayProps RivalProps.
Import ListNotations.
Local Open Scope list_scope.
Local Open Scope nat_scope.

(** * Specification *)
(** Tasks that know nothing but their own state and what they are given. *)
Record tasks (V M Er S : Type) := Tasks {
  l_task : phase -> nat -> S -> S * option Er;
  l_process : nat -> list (msg V M) -> msg V M -> S -> S * msg V M * option Er;
  l_sink : nat -> list (msg V M) -> S -> S * option Er }.
Arguments l_task {V M Er S}. Arguments l_process {V M Er S}. Arguments l_sink {V M Er S}.
(** The robot made of such tasks, with a monitor that decides by phase, task and error, a clock and a log that can be
    written. *)
Definition own {V M Er S C : Type} (d : phase -> nat -> Er -> decision) (f : tasks V M Er S) (now : C -> C * N) : oracles V M Er ((nat -> S) * C) :=
  let put (t : nat) (x : S) (w : nat -> S) := fun u => if u =? t then x else w u in
  {| o_task := fun ph t e => let (x, r) := l_task f ph t (fst e t) in (put t x (fst e), snd e, r);
     o_process := fun t ins out e => let '(x, out, r) := l_process f t ins out (fst e t) in (put t x (fst e), snd e, out, r);
     o_sink := fun t ins e => let (x, r) := l_sink f t ins (fst e t) in (put t x (fst e), snd e, r);
     o_sim := fun ph t e => (e, ExecuteByRuntime);
     o_sim_process := fun t ins out e => (e, out, ExecuteByRuntime);
     o_decide := fun ph t x e => (e, d ph t x);
     o_report := fun md e => (e, None);
     o_monitor := fun ph e => (e, None);
     o_now := fun e => let (c, t) := now (snd e) in (fst e, c, t);
     o_log := fun e c => true |}.
(** A group of tasks that gets messages of the group only; [mine] are the places of its messages in the copper list. *)
Record group (plan : list step) (K mine : nat -> bool) : Prop := {
  gr_out : forall s k ty, In s plan -> s_out s = Some (k, ty) -> mine k = K (s_node s);
  gr_in : forall s i, In s plan -> K (s_node s) = true -> In i (s_inputs s) -> mine (fst i) = true }.
Fixpoint part {A} (mine : nat -> bool) (i : nat) (l : list A) : list (option A) :=
  match l with [] => [] | x :: l => (if mine i then Some x else None) :: part mine (S i) l end.
(** What the group sees of a run: its calls, and its messages in the log. *)
Inductive sight (V M Er : Type) := Call (e : event V M Er) | Logged (id : N) (l : list (option (msg V M))).
Arguments Call {V M Er}. Arguments Logged {V M Er}.
Definition sights {V M Er} (K mine : nat -> bool) (e : event V M Er) : list (sight V M Er) :=
  match e with
  | ETask _ t _ | EProcess t _ _ | ESim _ t _ | EDecision _ t _ _ => if K t then [Call e] else []
  | EReport _ _ => []
  | ELog id ms => [Logged id (part mine 0 ms)]
  | EMonitor _ _ => [Call e]
  end.
Definition group_run {V M Er} (K mine : nat -> bool) (l : list (list (event V M Er) * result (Er := Er))) :=
  map (fun x => (flat_map (sights K mine) (fst x), snd x)) l.

(** * Proofs *)
Section Lists.
Context {P Q : Type}.
Variable u : P -> Q.
Definition via (c : cl P) : cl Q := mkCl (cl_id c) (cl_state c) (u (cl_msgs c)).
Definition vias (m : mgr P) : mgr Q := mkMgr (map via (m_data m)) (m_len m) (m_ins m) (m_next m).
Lemma upd_via {A B} (f : A -> B) : forall i x l, upd i (f x) (map f l) = map f (upd i x l).
Proof. induction i as [|i IH]; intros x [|y l]; cbn; auto. rewrite IH. reflexivity. Qed.
Lemma create_via mode m : create mode (vias m) = match create mode m with Ret (Some (p, i)) => Ret (Some (vias p, i)) | Ret None => Ret None | Panic => Panic end.
Proof.
  destruct m as [d ln ins nx]. unfold create, is_full, cap, vias. cbn [m_data m_len m_ins m_next]. rewrite map_length. destruct (length d =? ln); [reflexivity|].
  rewrite nth_error_map. destruct (nth_error d ins) as [c|]; cbn [option_map]; [|reflexivity]. destruct (succ_u32 mode nx) as [nid|]; cbn [obind]; [|reflexivity].
  cbn [m_data m_len m_ins m_next cl_state cl_msgs via]. rewrite <- upd_via. reflexivity.
Qed.
Lemma pop_n_via : forall n m, pop_n n (vias m) = match pop_n n m with Ret p => Ret (vias p) | Panic => Panic end.
Proof.
  induction n as [|n IH]; intros m; cbn [pop_n]; [reflexivity|]. destruct m as [d ln ins nx]. unfold pop, prev_ins, cap, vias. cbn [m_data m_len m_ins m_next]. rewrite map_length.
  destruct (ln =? 0); cbn [obind]; [exact (IH (mkMgr d ln ins nx))|]. set (i := if ins =? 0 then _ else _). rewrite nth_error_map. destruct (nth_error d i); cbn [option_map obind]; [|reflexivity].
  exact (IH (mkMgr d (ln - 1) i nx)).
Qed.
Variable lg : bool.
Notation lgP := (if lg then Some (fun _ : cl P => true) else None).
Notation lgQ := (if lg then Some (fun _ : cl Q => true) else None).
Lemma eop_via id : forall l b nb g out,
  fold_left (eop_step lgQ id) (map via l) (Ret (b, nb, map via g, map via out)) = match fold_left (eop_step lgP id) l (Ret (b, nb, g, out)) with Ret (b', nb', g', out') => Ret (b', nb', map via g', map via out') | Panic => Panic end.
Proof.
  induction l as [|c l IH]; intros b nb g out; cbn [fold_left map]; [reflexivity|].
  assert (X : eop_step lgQ id (Ret (b, nb, map via g, map via out)) (via c) = match eop_step lgP id (Ret (b, nb, g, out)) c with Ret (b', nb', g', out') => Ret (b', nb', map via g', map via out') | Panic => Panic end).
  { unfold eop_step. cbn [obind]. change (cl_id (via c)) with (cl_id c). change (cl_state (via c)) with (cl_state c).
    assert (K : (if (cl_id c =? id)%N && clstate_eqb (cl_state c) Processing then change_state DoneProcessing (via c) else via c) = via (if (cl_id c =? id)%N && clstate_eqb (cl_state c) Processing then change_state DoneProcessing c else c))
      by (destruct (_ && _); reflexivity). rewrite K. clear K. set (c1 := if _ && _ then change_state DoneProcessing c else c). clearbody c1. change (cl_state (via c1)) with (cl_state c1).
    destruct (b && _); [|rewrite map_app; reflexivity]. destruct lg; rewrite ?map_app; reflexivity. }
  rewrite X. destruct (eop_step lgP id (Ret (b, nb, g, out)) c) as [[[[b' nb'] g'] out']|]; [apply IH|].
  assert (Z : forall A (k : option (cl A -> bool)) l', fold_left (eop_step k id) l' Panic = Panic) by (intros A k; induction l' as [|z l' IH']; [reflexivity|exact IH']). rewrite !Z. reflexivity.
Qed.
Lemma end_via m id : end_of_processing lgQ (vias m) id = match end_of_processing lgP m id with Ret (p, g) => Ret (vias p, map via g) | Panic => Panic end.
Proof.
  destruct m as [d ln ins nx]. unfold end_of_processing, iter_mut, cap, vias. cbn [m_data m_len m_ins m_next]. rewrite map_length. destruct (ins <=? length d); [|reflexivity]. cbn [obind].
  rewrite firstn_map, skipn_map, <- !map_rev, <- map_app. pose proof (eop_via id (rev (firstn ins d) ++ rev (skipn ins d)) true 0 [] []) as E. cbn [map] in E. rewrite E. clear E.
  destruct (fold_left (eop_step lgP id) (rev (firstn ins d) ++ rev (skipn ins d)) (Ret (true, 0, [], []))) as [[[[b nb] g] out]|]; cbn [obind]; [|reflexivity]. unfold iter_mut_write. cbn [m_data m_len m_ins m_next].
  rewrite firstn_map, skipn_map, <- !map_rev, <- map_app. pose proof (pop_n_via nb (mkMgr (rev (firstn ins out) ++ rev (skipn ins out)) ln ins nx)) as P0. unfold vias at 1 in P0. cbn [m_data m_len m_ins m_next] in P0. rewrite P0.
  cbn [obind]. destruct (pop_n nb (mkMgr (rev (firstn ins out) ++ rev (skipn ins out)) ln ins nx)) as [p|]; reflexivity.
Qed.
End Lists.

Section Part.
Context {A : Type}.
Variable mine : nat -> bool.
Lemma part_nth : forall (l l' : list A) i k, part mine i l = part mine i l' -> mine (i + k) = true -> nth_error l k = nth_error l' k.
Proof.
  induction l as [|x l IH]; intros [|y l'] i k H Hk; try discriminate H; [reflexivity|]. cbn [part] in H. injection H as H1 H2. destruct k as [|k]; cbn.
  - rewrite Nat.add_0_r in Hk. rewrite Hk in H1. exact H1.
  - apply (IH _ _ _ H2). rewrite <- Hk. f_equal. lia.
Qed.
Lemma part_len : forall (l l' : list A) i, part mine i l = part mine i l' -> length l = length l'.
Proof. induction l as [|x l IH]; intros [|y l'] i H; try discriminate H; [reflexivity|]. injection H as _ H. cbn. rewrite (IH _ _ H). reflexivity. Qed.
Lemma part_in x : forall k (l l' : list A) i, part mine i l = part mine i l' -> part mine i (upd k x l) = part mine i (upd k x l').
Proof. induction k as [|k IH]; intros [|y l] [|z l'] i H; try discriminate H; auto; cbn [part upd] in *; injection H as H1 H2; [rewrite H2; reflexivity|rewrite H1, (IH _ _ _ H2); reflexivity]. Qed.
Lemma part_out x : forall k (l : list A) i, mine (i + k) = false -> part mine i (upd k x l) = part mine i l.
Proof.
  induction k as [|k IH]; intros [|y l] i H; auto; cbn [part upd].
  - rewrite Nat.add_0_r in H. rewrite H. reflexivity.
  - rewrite IH; [reflexivity|]. rewrite <- H. f_equal. lia.
Qed.
End Part.
Lemma nth_none {A : Type} (l l' : list A) k : length l = length l' -> match nth_error l k, nth_error l' k with Some _, Some _ | None, None => True | _, _ => False end.
Proof.
  intros H. destruct (nth_error l k) eqn:E1, (nth_error l' k) eqn:E2; auto.
  - apply nth_error_None in E2. assert (X : k < length l) by (apply nth_error_Some; congruence). lia.
  - apply nth_error_None in E1. assert (X : k < length l') by (apply nth_error_Some; congruence). lia.
Qed.

Section Influence.
Context {V M Er S C : Type}.
Variable a : application.
Variable d : phase -> nat -> Er -> decision.
Variables f1 f2 : tasks V M Er S.
Variable now : C -> C * N.
Variables K mine : nat -> bool.
Hypothesis SM : a_sim a = false.
Hypothesis GR : group (a_plan a) K mine.
Hypothesis FT : forall ph t x, K t = true -> l_task f1 ph t x = l_task f2 ph t x.
Hypothesis FP : forall t ins out x, K t = true -> l_process f1 t ins out x = l_process f2 t ins out x.
Hypothesis FS : forall t ins x, K t = true -> l_sink f1 t ins x = l_sink f2 t ins x.
Hypothesis DI : forall ph t x, K t = false -> d ph t x = Ignore.
Notation o1 := (own d f1 now).
Notation o2 := (own d f2 now).
Notation message := (msg V M).
Notation ev := (event V M Er).
Notation VW := (flat_map (@sights V M Er K mine)).
Notation PT := (@part message mine 0).
Notation E := ((nat -> S) * C)%type.
Definition near (e1 e2 : E) : Prop := (forall t, K t = true -> fst e1 t = fst e2 t) /\ snd e1 = snd e2.
Definition in3 {F} (x y : E * list ev * F) : Prop := let '(e1, t1, g1) := x in let '(e2, t2, g2) := y in near e1 e2 /\ VW t1 = VW t2 /\ g1 = g2.
Definition in4 {F} (x y : E * list ev * list message * F) : Prop :=
  let '(e1, t1, g1, h1) := x in let '(e2, t2, g2, h2) := y in near e1 e2 /\ VW t1 = VW t2 /\ PT g1 = PT g2 /\ h1 = h2.
Definition in5 {F} (panic : F) (x y : E * mgr (list message) * list ev * F) : Prop :=
  let '(e1, g1, t1, h1) := x in let '(e2, g2, t2, h2) := y in (near e1 e2 /\ VW t1 = VW t2 /\ vias PT g1 = vias PT g2 /\ h1 = h2) \/ h1 = panic \/ h2 = panic.
Definition put (t : nat) (x : S) (w : nat -> S) : nat -> S := fun u => if u =? t then x else w u.
Lemma near_put t x1 x2 e1 e2 c : near e1 e2 -> (K t = true -> x1 = x2) -> near (put t x1 (fst e1), c) (put t x2 (fst e2), c).
Proof. intros [N1 N2] H. split; [|reflexivity]. intros u Hu. cbn. unfold put. destruct (u =? t) eqn:B; [apply Nat.eqb_eq in B; subst; auto|auto]. Qed.
Lemma one_call_i ph t e1 e2 : near e1 e2 -> in3 (one_call a o1 ph t e1) (one_call a o2 ph t e2).
Proof.
  intros Ne. unfold one_call. rewrite SM. unfold do_call. cbn [o_task own]. destruct (l_task f1 ph t (fst e1 t)) as [x1 r1] eqn:L1. destruct (l_task f2 ph t (fst e2 t)) as [x2 r2] eqn:L2.
  assert (Eq : K t = true -> x1 = x2 /\ r1 = r2) by (intros Kt; rewrite <- (proj1 Ne t Kt), <- (FT _ _ _ Kt), L1 in L2; injection L2; auto).
  fold (put t x1 (fst e1)). fold (put t x2 (fst e2)). rewrite (proj2 Ne). pose proof (near_put t x1 x2 e1 e2 (snd e2) Ne (fun k => proj1 (Eq k))) as Np.
  destruct (K t) eqn:Kt.
  - destruct (Eq eq_refl) as [_ <-]. destruct r1 as [x|]; unfold act; cbn [o_decide own]; [destruct (d ph t x)|]; repeat split; auto; apply Np.
  - destruct r1, r2; unfold act; cbn [o_decide own]; rewrite ?(DI _ _ _ Kt); unfold in3; cbn [flat_map sights]; rewrite ?Kt; auto.
Qed.
Lemma lifecycle_i ph : forall ts e1 e2, near e1 e2 -> in3 (lifecycle a o1 ph ts e1) (lifecycle a o2 ph ts e2).
Proof.
  induction ts as [|t ts IH]; intros e1 e2 Ne; cbn [lifecycle]; [cbn; auto|]. pose proof (one_call_i ph t e1 e2 Ne) as H.
  destruct (one_call a o1 ph t e1) as [[e3 t3] g3], (one_call a o2 ph t e2) as [[e4 t4] g4]. destruct H as (N2 & H & <-). destruct g3; [|cbn; auto..].
  specialize (IH e3 e4 N2). destruct (lifecycle a o1 ph ts e3) as [[e5 t5] g5], (lifecycle a o2 ph ts e4) as [[e6 t6] g6]. destruct IH as (N3 & I & <-). cbn. rewrite !flat_map_app, H, I. auto.
Qed.
(** Processing by such a robot, in one piece. *)
Definition work (f : tasks V M Er S) (s : step) (ins : list message) (out : message) (x : S) : S * message * option Er :=
  match s_type s with Sink => let (x, r) := l_sink f (s_node s) ins x in (x, out, r) | _ => l_process f (s_node s) ins out x end.
Lemma do_process_i f s ins out (w : nat -> S) c : do_process (own d f now) s ins true out (w, c) =
  let (c1, t0) := now c in let '(x, out1, r) := work f s ins (with_start t0 out) (w (s_node s)) in let (c2, t1) := now c1 in
  (put (s_node s) x w, c2, EProcess (s_node s) ins r :: match r with Some e => [EDecision Process (s_node s) e (d Process (s_node s) e)] | None => [] end,
   match r with Some e => match d Process (s_node s) e with Ignore => clear_payload (with_end t1 out1) | _ => with_end t1 out1 end | None => with_end t1 out1 end,
   match r with Some e => match d Process (s_node s) e with RuntimeModel.Abort => PAbort | Ignore => PNext | Shutdown => PErr e end | None => PNext end).
Proof.
  unfold do_process, work. cbn [o_now own fst snd]. destruct (now c) as [c1 t0]. cbn [o_process o_sink own fst snd]. fold (put (s_node s)).
  destruct (s_type s).
  1,2: destruct (l_process f (s_node s) ins (with_start t0 out) (w (s_node s))) as [[x out1] r]; cbn [fst snd]; destruct (now c1) as [c2 t1]; destruct r as [e|]; [|reflexivity]; unfold pact; cbn [o_decide own]; destruct (d Process (s_node s) e); reflexivity.
  destruct (l_sink f (s_node s) ins (w (s_node s))) as [x r]. cbn [fst snd]. destruct (now c1) as [c2 t1]. destruct r as [e|]; [|reflexivity]. unfold pact. cbn [o_decide own]. destruct (d Process (s_node s) e); reflexivity.
Qed.
Lemma work_eq s ins out x : K (s_node s) = true -> work f1 s ins out x = work f2 s ins out x.
Proof. intros Kt. unfold work. rewrite (FS _ _ _ Kt), (FP _ _ _ _ Kt). reflexivity. Qed.
Lemma gather_in : forall is (l l' : list message), PT l = PT l' -> (forall i, In i is -> mine (fst i) = true) -> gather l is = gather l' is.
Proof.
  induction is as [|i is IH]; intros l l' H Hi; cbn [gather]; [reflexivity|]. rewrite (part_nth mine l l' 0 (fst i) H (Hi i (or_introl eq_refl))), (IH l l' H (fun j Hj => Hi j (or_intror Hj))). reflexivity.
Qed.
Lemma gather_len : forall is (l l' : list message), length l = length l' -> match gather l is, gather l' is with Some _, Some _ | None, None => True | _, _ => False end.
Proof.
  induction is as [|i is IH]; intros l l' H; cbn [gather]; [exact I|]. specialize (IH l l' H). pose proof (nth_none l l' (fst i) H) as X.
  destruct (nth_error l (fst i)), (nth_error l' (fst i)), (gather l is), (gather l' is); auto.
Qed.
Lemma select_len : forall is (l l' : list message), length l = length l' -> match select l is, select l' is with Some _, Some _ | None, None => True | _, _ => False end.
Proof.
  induction is as [|i is IH]; intros l l' H; cbn [select]; [exact I|]. specialize (IH l l' H). pose proof (nth_none l l' i H) as X.
  destruct (nth_error l i), (nth_error l' i), (select l is), (select l' is); auto.
Qed.
Lemma step_i s l l' e1 e2 : In s (a_plan a) -> PT l = PT l' -> near e1 e2 -> in4 (process_step a o1 s l e1) (process_step a o2 s l' e2).
Proof.
  intros Hs Hl Ne. unfold process_step. destruct (s_out s) as [[k ty]|] eqn:So; [|cbn; auto]. pose proof (gr_out _ _ _ GR s k ty Hs So) as Ko.
  pose proof (part_len mine l l' 0 Hl) as Len. pose proof (nth_none l l' k Len) as Nk. pose proof (gather_len (s_inputs s) l l' Len) as Ng.
  destruct e1 as [w1 c1], e2 as [w2 c2]. destruct Ne as [Nw Nc]. cbn [fst snd] in Nw, Nc. subst c2.
  destruct (K (s_node s)) eqn:Kt.
  - rewrite <- (part_nth mine l l' 0 k Hl Ko), <- (gather_in (s_inputs s) l l' Hl (fun i Hi => gr_in _ _ _ GR s i Hs Kt Hi)).
    destruct (nth_error l k) as [out|]; [|cbn; repeat split; auto]. destruct (gather l (s_inputs s)) as [ins|]; [|cbn; repeat split; auto].
    unfold process_msg. rewrite SM, !do_process_i. destruct (now c1) as [c3 t0]. rewrite <- (Nw _ Kt), <- (work_eq _ _ _ _ Kt). destruct (work f1 s ins (with_start t0 out) (w1 (s_node s))) as [[x out1] r].
    destruct (now c3) as [c4 t1]. split; [apply (near_put (s_node s) x x (w1, c1) (w2, c1) c4); [split; auto|auto]|]. split; [reflexivity|]. split; [|reflexivity]. apply part_in. exact Hl.
  - destruct (nth_error l k) as [out|], (nth_error l' k) as [out'|]; try (destruct Nk; fail); [|cbn; repeat split; auto].
    destruct (gather l (s_inputs s)) as [ins|], (gather l' (s_inputs s)) as [ins'|]; try (destruct Ng; fail); [|cbn; repeat split; auto].
    unfold process_msg. rewrite SM, !do_process_i. destruct (now c1) as [c3 t0].
    destruct (work f1 s ins (with_start t0 out) (w1 (s_node s))) as [[x1 out1] r1], (work f2 s ins' (with_start t0 out') (w2 (s_node s))) as [[x2 out2] r2]. destruct (now c3) as [c4 t1].
    split; [apply (near_put (s_node s) x1 x2 (w1, c1) (w2, c1) c4); [split; auto|congruence]|]. split; [|split; [|destruct r1, r2; rewrite ?(DI _ _ _ Kt); reflexivity]].
    + destruct r1, r2; cbn [flat_map sights app]; rewrite ?Kt; reflexivity.
    + rewrite !part_out by exact Ko. exact Hl.
Qed.
Lemma process_all_i : forall ss l l' e1 e2, incl ss (a_plan a) -> PT l = PT l' -> near e1 e2 -> in4 (process_all a o1 ss l e1) (process_all a o2 ss l' e2).
Proof.
  induction ss as [|s ss IH]; intros l l' e1 e2 Hss Hl Ne; cbn [process_all]; [cbn; auto|]. pose proof (step_i s l l' e1 e2 (Hss s (or_introl eq_refl)) Hl Ne) as H.
  destruct (process_step a o1 s l e1) as [[[e3 t3] l3] g3], (process_step a o2 s l' e2) as [[[e4 t4] l4] g4]. destruct H as (N2 & H & L & <-). destruct g3; [|cbn; auto..].
  specialize (IH l3 l4 e3 e4 (fun x Hx => Hss x (or_intror Hx)) L N2). destruct (process_all a o1 ss l3 e3) as [[[? ?] ?] ?], (process_all a o2 ss l4 e4) as [[[? ?] ?] ?]. destruct IH as (N3 & I & L3 & <-).
  cbn. rewrite !flat_map_app, H, I. auto.
Qed.
Lemma report_i id m m' l l' e1 e2 : vias PT m = vias PT m' -> PT l = PT l' -> near e1 e2 -> in5 Panicked (report_and_finish a o1 id m l e1) (report_and_finish a o2 id m' l' e2).
Proof.
  intros Hm Hl Ne. unfold report_and_finish, collect_metadata. pose proof (select_len (call_order a) l l' (part_len mine l l' 0 Hl)) as S0.
  destruct (select l (call_order a)), (select l' (call_order a)); try (destruct S0; fail); [|right; auto]. cbn [o_report own]. unfold finish. cbn [o_log own].
  pose proof (end_via PT (a_logging a) m id) as H1. pose proof (end_via PT (a_logging a) m' id) as H2. rewrite Hm, H2 in H1.
  destruct (end_of_processing _ m id) as [[p g]|], (end_of_processing _ m' id) as [[p' g']|]; try discriminate H1; cbn [obind]; [|right; auto]. injection H1 as X1 X2 X3 X4 Y. left.
  split; [exact Ne|]. split; [|split; [unfold vias; rewrite X1, X2, X3, X4; reflexivity|reflexivity]]. cbn [flat_map sights app].
  assert (L : forall g : list (cl (list message)), VW (map (fun c => ELog (cl_id c) (cl_msgs c)) g) = map (fun c => Logged (cl_id c) (cl_msgs c)) (map (via PT) g)) by (induction g0 as [|c g0 IH]; [reflexivity|cbn; rewrite IH; reflexivity]).
  rewrite !L, Y. reflexivity.
Qed.
Lemma body_i m m' e1 e2 : vias PT m = vias PT m' -> near e1 e2 -> in5 Panicked (copperlist_body a o1 m e1) (copperlist_body a o2 m' e2).
Proof.
  intros Hm Ne. unfold copperlist_body. pose proof (create_via PT (a_mode a) m) as K1. pose proof (create_via PT (a_mode a) m') as K2. rewrite Hm, K2 in K1. clear K2.
  destruct (create (a_mode a) m) as [[[p i]|]|], (create (a_mode a) m') as [[[p' i']|]|]; try discriminate K1; try (right; auto; fail). injection K1 as X1 X2 X3 X4 <-.
  assert (Nt : option_map (via PT) (nth_error (m_data p) i') = option_map (via PT) (nth_error (m_data p') i')) by (rewrite <- !nth_error_map, X1; reflexivity).
  destruct (nth_error (m_data p) i') as [c|], (nth_error (m_data p') i') as [c'|]; try discriminate Nt; [|right; auto]. injection Nt as Hid _ Hms.
  pose proof (process_all_i (a_plan a) (cl_msgs c) (cl_msgs c') e1 e2 (incl_refl _) Hms Ne) as H.
  destruct (process_all a o1 (a_plan a) (cl_msgs c) e1) as [[[e3 t3] l3] g3], (process_all a o2 (a_plan a) (cl_msgs c') e2) as [[[e4 t4] l4] g4]. destruct H as (N2 & H & Y & <-). rewrite <- Hid.
  assert (Hs : vias PT (set_slot i' (mkCl (cl_id c) Processing l3) p) = vias PT (set_slot i' (mkCl (cl_id c) Processing l4) p')).
  { unfold set_slot, vias. cbn [m_data m_len m_ins m_next]. rewrite <- !upd_via, X1, X2, X3, X4. unfold via at 1 3. cbn [cl_id cl_state cl_msgs]. rewrite Y. reflexivity. }
  pose proof (report_i (cl_id c) _ _ l3 l4 e3 e4 Hs Y N2) as R.
  destruct (report_and_finish a o1 (cl_id c) (set_slot i' (mkCl (cl_id c) Processing l3) p) l3 e3) as [[[? ?] ?] fr], (report_and_finish a o2 (cl_id c) (set_slot i' (mkCl (cl_id c) Processing l4) p') l4 e4) as [[[? ?] ?] fr'].
  destruct g3; [|destruct R as [(R1 & R2 & R3 & <-)|R]; [left; cbn; rewrite !flat_map_app, H, R2; destruct fr; auto|right; destruct R as [-> | ->]; auto]|left; cbn; auto|right; auto].
  destruct (match collect_metadata a l3 with Some md => e2e a md | None => Panic end), (match collect_metadata a l4 with Some md => e2e a md | None => Panic end); [|right; auto..].
  destruct R as [(R1 & R2 & R3 & <-)|R]; [left; cbn; rewrite !flat_map_app, H, R2; auto|right; exact R].
Qed.
Lemma iteration_i m m' e1 e2 : vias PT m = vias PT m' -> near e1 e2 -> in5 RPanic (run_one_iteration a o1 m e1) (run_one_iteration a o2 m' e2).
Proof.
  intros Hm Ne. unfold run_one_iteration. pose proof (lifecycle_i Preprocess (seq 0 (a_tasks a)) e1 e2 Ne) as H.
  destruct (lifecycle a o1 Preprocess (seq 0 (a_tasks a)) e1) as [[e3 t3] g3], (lifecycle a o2 Preprocess (seq 0 (a_tasks a)) e2) as [[e4 t4] g4]. destruct H as (N2 & H & <-).
  destruct g3; [|left; cbn; auto..]. pose proof (body_i m m' e3 e4 Hm N2) as B. destruct (copperlist_body a o1 m e3) as [[[e5 k5] t5] g5], (copperlist_body a o2 m' e4) as [[[e6 k6] t6] g6]. destruct B as [(N3 & B & Y & <-)|B].
  - destruct g5; [|left; cbn; rewrite !flat_map_app, H, B; auto..]. pose proof (lifecycle_i Postprocess (seq 0 (a_tasks a)) e5 e6 N3) as L.
    destruct (lifecycle a o1 Postprocess (seq 0 (a_tasks a)) e5) as [[? ?] ?], (lifecycle a o2 Postprocess (seq 0 (a_tasks a)) e6) as [[? ?] ?]. destruct L as (N4 & L & <-). left. cbn. rewrite !flat_map_app, H, B, L. auto.
  - destruct (lifecycle a o1 Postprocess (seq 0 (a_tasks a)) e5) as [[? ?] ?], (lifecycle a o2 Postprocess (seq 0 (a_tasks a)) e6) as [[? ?] ?].
    destruct B as [-> | ->]; [destruct g6; right; left; reflexivity|destruct g5; right; right; reflexivity].
Qed.
Definition upto (l1 l2 : list (list ev * result (Er := Er))) : Prop :=
  exists k1 x1 u1 k2 x2 u2, l1 = k1 ++ x1 :: u1 /\ l2 = k2 ++ x2 :: u2 /\ group_run K mine k1 = group_run K mine k2 /\ (snd x1 = RPanic \/ snd x2 = RPanic).
Lemma driven_i : forall n m m' e1 e2 e3 m3 l3 e4 m4 l4, vias PT m = vias PT m' -> near e1 e2 ->
  driven a o1 (repeat (fun e => e) n) m e1 = (e3, m3, l3) -> driven a o2 (repeat (fun e => e) n) m' e2 = (e4, m4, l4) ->
  (near e3 e4 /\ group_run K mine l3 = group_run K mine l4) \/ upto l3 l4.
Proof.
  induction n as [|n IH]; intros m m' e1 e2 e3 m3 l3 e4 m4 l4 Hm Ne H1 H2; cbn [driven repeat] in H1, H2.
  - injection H1 as <- <- <-. injection H2 as <- <- <-. auto.
  - pose proof (iteration_i m m' e1 e2 Hm Ne) as I. destruct (run_one_iteration a o1 m e1) as [[[e5 k5] t5] r5], (run_one_iteration a o2 m' e2) as [[[e6 k6] t6] r6].
    destruct (driven a o1 (repeat (fun e => e) n) k5 e5) as [[e7 q7] l7] eqn:D1. destruct (driven a o2 (repeat (fun e => e) n) k6 e6) as [[e8 q8] l8] eqn:D2.
    injection H1 as <- <- <-. injection H2 as <- <- <-. destruct I as [(N2 & I & Y & ->)|I].
    + destruct (IH _ _ _ _ _ _ _ _ _ _ Y N2 D1 D2) as [(A & J)|(k1 & y1 & u1 & k2 & y2 & u2 & -> & -> & J & Q)].
      * left. unfold group_run in *. cbn [map fst snd]. rewrite I, J. auto.
      * right. exists ((t5, r6) :: k1), y1, u1, ((t6, r6) :: k2), y2, u2. unfold group_run in *. cbn [map fst snd]. rewrite I, J. auto.
    + right. exists [], (t5, r5), l7, [], (t6, r6), l8. auto.
Qed.
Lemma session_i n m e1 e2 e3 m3 l3 e4 m4 l4 : near e1 e2 ->
  session a o1 (repeat (fun e => e) n) m e1 = (e3, m3, l3) -> session a o2 (repeat (fun e => e) n) m e2 = (e4, m4, l4) ->
  (near e3 e4 /\ group_run K mine l3 = group_run K mine l4) \/ upto l3 l4.
Proof.
  intros Ne. unfold session. assert (S0 : in3 (all_tasks a o1 Start e1) (all_tasks a o2 Start e2)).
  { unfold all_tasks. pose proof (lifecycle_i Start (seq 0 (a_tasks a)) e1 e2 Ne) as H.
    destruct (lifecycle a o1 Start (seq 0 (a_tasks a)) e1) as [[e5 t5] g5], (lifecycle a o2 Start (seq 0 (a_tasks a)) e2) as [[e6 t6] g6]. destruct H as (N2 & H & <-). destruct g5; [|cbn; auto..].
    cbn [o_monitor own]. unfold in3. rewrite !flat_map_app, H. auto. }
  destruct (all_tasks a o1 Start e1) as [[e5 t5] r5], (all_tasks a o2 Start e2) as [[e6 t6] r6]. destruct S0 as (N2 & S0 & <-).
  destruct (driven a o1 (repeat (fun e => e) n) m e5) as [[e7 q7] l7] eqn:D1. destruct (driven a o2 (repeat (fun e => e) n) m e6) as [[e8 q8] l8] eqn:D2. intros H1 H2. injection H1 as <- <- <-. injection H2 as <- <- <-.
  destruct (driven_i n m m e5 e6 _ _ _ _ _ _ eq_refl N2 D1 D2) as [(A & J)|(k1 & y1 & u1 & k2 & y2 & u2 & -> & -> & J & Q)].
  - left. unfold group_run in *. cbn [map fst snd]. rewrite S0, J. auto.
  - right. exists ((t5, r5) :: k1), y1, u1, ((t6, r5) :: k2), y2, u2. unfold group_run in *. cbn [map fst snd]. rewrite S0, J. auto.
Qed.
End Influence.

(** A group of tasks of a graph that is fed by the group only. *)
Lemma graph_group g plan K : wf_graph g -> compute_plan g = Ret (Some plan) -> (forall u v, feeds g u v -> K v = true -> K u = true) ->
  group plan K (fun k => match nth_error plan k with Some s => K (s_node s) | None => false end).
Proof.
  intros W Hp Cl. pose proof (planner_good g plan W Hp) as G. split.
  - intros s k ty Hs So. destruct (In_nth_error _ _ Hs) as [j Hj]. destruct (proj1 (proj2 G j s Hj)) as [ty' So']. rewrite So in So'. injection So' as -> _. rewrite Hj. reflexivity.
  - intros s i Hs Ks Hi. destruct (In_nth_error _ _ Hs) as [j Hj]. destruct (C14_parallel_inputs g plan W Hp j s Hj) as (ins & Pm & F2).
    assert (Hi' : In i ins) by (apply (Permutation_in _ (Permutation_sym Pm)); exact Hi).
    assert (X : exists e, In e (connections_into g (s_node s)) /\ exists p, nth_error plan (fst i) = Some p /\ s_node p = e_src e).
    { clear - F2 Hi'. induction F2 as [|x e ins es (H1 & p & H2 & H3 & _) _ IH]; [destruct Hi'|]. destruct Hi' as [->|Hi']; [exists e; split; [left; reflexivity|exists p; auto]|].
      destruct (IH Hi') as (e' & H4 & H5). exists e'. split; [right; exact H4|exact H5]. }
    destruct X as (e & He & p & -> & ->). apply connections_into_in in He. destruct He as [He1 He2]. apply (Cl (e_src e) (s_node s)); [|exact Ks]. exists e. auto.
Qed.

(** * Theorems *)
(** Tasks that know nothing but their own state and messages influence those they feed, directly or by others, and
    nobody else: whatever is changed in the other tasks, a group of tasks that is fed by itself only goes on as before
    until a run panics, if errors of the other tasks are ignored. *)
Theorem C180_influence : forall (V M Er S C : Type) (g : graph) (plan : list step) (tasks_n : nat) (logging : bool) (mode : ovf_mode) (d : phase -> nat -> Er -> decision) (f1 f2 : tasks V M Er S) (now : C -> C * N) (K : nat -> bool) n m w1 w2 c e1 m1 l1 e2 m2 l2,
  wf_graph g -> compute_plan g = Ret (Some plan) -> (forall u v, feeds g u v -> K v = true -> K u = true) ->
  (forall ph t x, K t = true -> l_task f1 ph t x = l_task f2 ph t x) -> (forall t ins out x, K t = true -> l_process f1 t ins out x = l_process f2 t ins out x) ->
  (forall t ins x, K t = true -> l_sink f1 t ins x = l_sink f2 t ins x) -> (forall t, K t = true -> w1 t = w2 t) -> (forall ph t x, K t = false -> d ph t x = Ignore) ->
  session (App tasks_n plan false logging mode) (own d f1 now) (repeat (fun e => e) n) m (w1, c) = (e1, m1, l1) ->
  session (App tasks_n plan false logging mode) (own d f2 now) (repeat (fun e => e) n) m (w2, c) = (e2, m2, l2) ->
  let mine k := match nth_error plan k with Some s => K (s_node s) | None => false end in
  ((forall t, K t = true -> fst e1 t = fst e2 t) /\ snd e1 = snd e2 /\ group_run K mine l1 = group_run K mine l2) \/
  exists k1 x1 u1 k2 x2 u2, l1 = k1 ++ x1 :: u1 /\ l2 = k2 ++ x2 :: u2 /\ group_run K mine k1 = group_run K mine k2 /\ (snd x1 = RPanic \/ snd x2 = RPanic).
Proof.
  intros V M Er S C g plan tasks_n logging mode d f1 f2 now K n m w1 w2 c e1 m1 l1 e2 m2 l2 W Hp Cl FT FP FS Hw DI H1 H2 mine.
  destruct (session_i (App tasks_n plan false logging mode) d f1 f2 now K mine eq_refl (graph_group g plan K W Hp Cl) FT FP FS DI n m (w1, c) (w2, c) _ _ _ _ _ _ (conj Hw eq_refl) H1 H2) as [([A B] & J)|Q]; [left; auto|right; exact Q].
Qed.
Print Assumptions C180_influence.
(** A source, a task and a sink in a row, and a further task and sink at the same source; the first robot's further
    task sends what it gets, the second's fails. The group is the row; its middle task fails in both robots at its second
    call, and then the copper list is aborted. *)
Definition fork : graph := Graph 5 [Edge 0 1 "A"; Edge 0 2 "A"; Edge 1 3 "B"; Edge 2 4 "B"]%string.
Definition fork_tasks (bad : bool) : tasks nat unit nat nat :=
  {| l_task := fun ph t x => (1 + x, None);
     l_process := fun t ins out x => let y := bot_sum false 0 ins x in (y, Msg (Some y) tt (m_start out) (m_end out), if bad && (t =? 2) || (t =? 1) && (x =? 7) then Some y else None);
     l_sink := fun t ins x => (bot_sum false 0 ins x, None) |}.
Definition row (t : nat) : bool := negb (t =? 2) && negb (t =? 4).
Definition fork_app : application := App 5 (match compute_plan fork with Ret (Some p) => p | _ => [] end) false true Checked.
Definition row_strict (ph : phase) (t x : nat) : decision := if row t then RuntimeModel.Abort else Ignore.
Definition ex_fork (bad : bool) := session fork_app (own row_strict (fork_tasks bad) (fun c => (c + 3, c)%N)) (repeat (fun e => e) 3) (mgr_new 10 (repeat (Msg None tt None None) 5)) (fun t => t, 100%N).
Example C180_case : wf_graph fork /\ (exists p, compute_plan fork = Ret (Some p) /\ map s_node p = [0; 2; 1; 4; 3] /\ fork_app = App 5 p false true Checked) /\ (forall u v, feeds fork u v -> row v = true -> row u = true) /\
  (forall ph t x, row t = true -> l_task (fork_tasks false) ph t x = l_task (fork_tasks true) ph t x) /\
  (forall t ins out x, row t = true -> l_process (fork_tasks false) t ins out x = l_process (fork_tasks true) t ins out x) /\
  (forall t ins x, row t = true -> l_sink (fork_tasks false) t ins x = l_sink (fork_tasks true) t ins x) /\ (forall ph t x, row t = false -> row_strict ph t x = Ignore) /\
  (exists x, In (EDecision Process 1 x RuntimeModel.Abort) (flat_map fst (snd (ex_fork true)))) /\
  map snd (snd (ex_fork false)) = [ROk; ROk; ROk; ROk] /\ map snd (snd (ex_fork true)) = [ROk; ROk; ROk; ROk] /\ snd (ex_fork false) <> snd (ex_fork true) /\
  map (fun t => fst (fst (fst (ex_fork false))) t) [3; 4] <> map (fun t => fst (fst (fst (ex_fork true))) t) [3; 4].
Proof.
  split; [repeat constructor|]. split; [eexists; split; [vm_compute; reflexivity|split; vm_compute; reflexivity]|].
  split; [intros u v (e & H & <- & <-); cbn in H; intuition (subst; auto; discriminate)|].
  split; [reflexivity|]. split; [intros t ins out x H; cbn; unfold row in H; destruct (t =? 2); [discriminate H|reflexivity]|]. split; [reflexivity|].
  split; [intros ph t x H; unfold row_strict; rewrite H; reflexivity|]. split; [exists 11; vm_compute; repeat (try (left; reflexivity); right)|].
  split; [vm_compute; reflexivity|]. split; [vm_compute; reflexivity|]. split; intros X; vm_compute in X; discriminate.
Qed.

(** That errors of the other tasks are ignored is needed: under a monitor that always aborts, a task that fails is felt by tasks it does not feed,
    here by those of the row, which come after it in the plan; no iteration panics. *)
Theorem C180_abort_refuted : exists (g : graph) (plan : list step) (f1 f2 : tasks nat unit nat nat) (now : N -> N * N) (K : nat -> bool) n m w c,
  let run f := session (App 5 plan false true Checked) (own (fun ph t x => RuntimeModel.Abort) f now) (repeat (fun e => e) n) m (w, c) in
  let mine k := match nth_error plan k with Some s => K (s_node s) | None => false end in
  wf_graph g /\ compute_plan g = Ret (Some plan) /\ (forall u v, feeds g u v -> K v = true -> K u = true) /\
  (forall ph t x, K t = true -> l_task f1 ph t x = l_task f2 ph t x) /\ (forall t ins out x, K t = true -> l_process f1 t ins out x = l_process f2 t ins out x) /\
  (forall t ins x, K t = true -> l_sink f1 t ins x = l_sink f2 t ins x) /\
  (forall x, In x (snd (run f1) ++ snd (run f2)) -> snd x <> RPanic) /\
  fst (fst (fst (run f1))) 3 <> fst (fst (fst (run f2))) 3 /\ K 3 = true /\ group_run K mine (snd (run f1)) <> group_run K mine (snd (run f2)).
Proof.
  destruct C180_case as (W & (p & Hp & _ & _) & Cl & HT & HP & HS & _).
  exists fork, p, (fork_tasks false), (fork_tasks true), (fun c => (c + 3, c)%N), row, 3, (mgr_new 10 (repeat (Msg None tt None None) 5)), (fun t => t), 100%N.
  intros run mine. assert (Ep : p = match compute_plan fork with Ret (Some p) => p | _ => [] end) by (rewrite Hp; reflexivity).
  split; [exact W|]. split; [exact Hp|]. split; [exact Cl|]. split; [exact HT|]. split; [exact HP|]. split; [exact HS|].
  subst run mine. rewrite Ep. clear. split; [|split; [|split; [reflexivity|]]].
  - intros x H. vm_compute in H. intuition (subst; discriminate).
  - intros X. vm_compute in X. discriminate.
  - intros X. vm_compute in X. discriminate.
Qed.
Print Assumptions C180_abort_refuted.
