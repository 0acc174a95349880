(** Replaying a recorded run. *)
From Coq Require Import String List Arith NArith Bool Lia.
From Verif Require Import Base CuListModel CuListSpec PlanModel PlanSpec PlanProps RuntimeModel RuntimeSpec RuntimeProps ReplayModel ReplaySpec ReplayProofs.
Import ListNotations.
Local Open Scope list_scope.
Local Open Scope nat_scope.

Section Theorems.
Context {V M Er S E : Type}.
Notation message := (msg V M).
Variable a : application.
Variable o : oracles V M Er E.
Variable kind : nat -> task_type.
Variable state : E -> nat -> S.
Variable f_task : phase -> nat -> N -> S -> S * option Er.
Variable f_process : nat -> N -> list message -> message -> S -> S * message * option Er.
Variable g_sink : nat -> list message -> message -> message.
Variable policy : phase -> nat -> Er -> decision.
Variable time : E -> N.

Lemma map_same {A} (l : list A) : map (fun x => x) l = l.
Proof. apply map_id. Qed.
Lemma to_oct_small t : (t < 2 ^ 64 - 1)%N -> to_oct t = Some t.
Proof. intros H. unfold to_oct. destruct (N.eqb_spec t (2 ^ 64 - 1)); [lia|auto]. Qed.
Lemma sinks_of zero : replayable a o kind f_process g_sink zero -> sinks_empty a zero.
Proof.
  intros R k s x Hk Ty Hx. apply (rp_sinks _ _ _ _ _ _ R (s_node s) k x); auto.
  - rewrite <- (rp_kind _ _ _ _ _ _ R) by (eapply nth_error_In; eauto). auto.
  - exists s. auto.
Qed.

(** ** C90 *)
(** A run whose clock stands still during an iteration, none of whose iterations was
    given up: the replay of its log succeeds, writes the same log, calls the tasks that
    are neither sources nor sinks with the same inputs and the same results, and leaves
    them in the same states. *)
Theorem C90_steady_partial n zero between env src ksrc env' m' l :
  replayable a o kind f_process g_sink zero -> getters_right a kind ->
  deterministic o kind state f_task f_process time -> steady o time -> recorded_with a o kind g_sink ->
  kind src = Source -> slot_of_task (a_plan a) src ksrc ->
  0 < n -> (N.of_nat (length between) < 2 ^ 32)%N ->
  Forall (fun b => forall e, same_states kind state None e (b e)) between ->
  session a o between (mgr_new n zero) env = (env', m', l) -> undisturbed policy l ->
  exists r m2 l2, resim a kind f_task f_process g_sink policy src (map snd (log_of l))
      (mgr_new n zero) (Replay (state env) (time env) []) = (r, m2, l2) /\
    undisturbed policy l2 /\ length l2 = length l /\ log_of l2 = log_of l /\
    map (fun x => calls kind (fst x)) l2 = map (fun x => calls kind (fst x)) l /\
    forall t, kind t = Regular -> r_tasks r t = state env' t.
Proof.
  intros R G D St Rw Ks Sl Hn B Fb H U.
  assert (T : forall e, (time e < 2 ^ 64 - 1)%N).
  { intros e. pose proof (rp_clock _ _ _ _ _ _ R e) as X. destruct (st_now _ _ St e) as [Y _]. rewrite Y in X. auto. }
  destruct (session_sim a o kind state f_task f_process g_sink policy (fun x => x) time
    (fun e c => time e = c) (fun t c => t = c /\ (c < 2 ^ 64 - 1)%N)) with (src := src) (ksrc := ksrc) (n := n) (zero := zero)
    (between := between) (env := env) (c := time env) (env' := env') (m' := m') (l := l)
    as (r & m2 & l2 & H1 & H2 & H3 & H4 & H5 & H6); auto.
  all: try (intros; intro; intros; subst; apply St).
  - intros e c <-. destruct (st_now _ _ St e) as [Y _]. rewrite Y. cbn. auto.
  - intros ph t e c x _ <-. auto.
  - intros t e c ins ins' out out' x _ <- Hi ->. rewrite !map_same in Hi. subst ins'.
    destruct (f_process t (time e) ins out' x) as [[? ?] ?]. auto.
  - intros t c x x' [-> _] ->. auto.
  - intros t c x x' [-> _] ->. auto.
  - intros x x' ->. auto.
  - intros x t0 t1 c [-> _] [-> _] Hs He. destruct x. cbn in *. unfold with_end, with_start. cbn. congruence.
  - intros t ins ins' out out' Hi ->. rewrite !map_same in Hi. subst ins'. auto.
  - apply R.
  - apply R.
  - apply R.
  - apply R.
  - apply R.
  - apply R.
  - apply R.
  - eauto.
  - intros e c t Hc [-> Hb]. split; auto. apply to_oct_small. auto.
  - apply sinks_of. auto.
  - apply R.
  - exists r, m2, l2. split; auto. split; auto. split; auto.
    assert (P : forall x : list (N * list message), plog (fun x => x) x = x).
    { intros x. unfold plog. rewrite <- (map_id x) at 2. apply map_ext. intros [? ?]. cbn. rewrite map_same. auto. }
    rewrite !P in H5. split; auto.
    assert (Q : forall tr : list (event V M Er), pcalls kind (fun x => x) tr = calls kind tr).
    { intros tr. unfold pcalls. rewrite <- (map_id (calls kind tr)) at 2. apply map_ext. intros []; cbn; auto. rewrite map_same. auto. }
    assert (Q' : forall x : list (list (event V M Er) * result (Er := Er)),
      map (fun y => pcalls kind (fun z => z) (fst y)) x = map (fun y => calls kind (fst y)) x) by (intros x; apply map_ext; auto).
    rewrite !Q' in H6. split; auto.
    intros t Kt. symmetry. auto.
Qed.

(** A run under any clock, with tasks that look neither at the clock nor at the process
    times: the same, but for the process times. *)
Theorem C90_payloads_partial n zero between env clock src ksrc env' m' l :
  replayable a o kind f_process g_sink zero -> getters_right a kind ->
  deterministic o kind state f_task f_process time -> timeless kind f_task f_process g_sink -> recorded_with a o kind g_sink ->
  kind src = Source -> slot_of_task (a_plan a) src ksrc ->
  0 < n -> (N.of_nat (length between) < 2 ^ 32)%N ->
  Forall (fun b => forall e, same_states kind state None e (b e)) between ->
  session a o between (mgr_new n zero) env = (env', m', l) -> undisturbed policy l ->
  exists r m2 l2, resim a kind f_task f_process g_sink policy src (map snd (log_of l))
      (mgr_new n zero) (Replay (state env) clock []) = (r, m2, l2) /\
    undisturbed policy l2 /\ length l2 = length l /\
    map (fun x => (fst x, map untimed (snd x))) (log_of l2) = map (fun x => (fst x, map untimed (snd x))) (log_of l) /\
    map (fun x => map untimed_call (calls kind (fst x))) l2 = map (fun x => map untimed_call (calls kind (fst x))) l /\
    forall t, kind t = Regular -> r_tasks r t = state env' t.
Proof.
  intros R G D Tl Rw Ks Sl Hn B Fb H U.
  destruct (session_sim a o kind state f_task f_process g_sink policy untimed time
    (fun e c => True) (fun t c => (t < 2 ^ 64 - 1)%N)) with (src := src) (ksrc := ksrc) (n := n) (zero := zero)
    (between := between) (env := env) (c := clock) (env' := env') (m' := m') (l := l)
    as (r & m2 & l2 & H1 & H2 & H3 & H4 & H5 & H6); auto.
  all: try (intros; intro; intros; exact I).
  - intros e c _. apply R.
  - intros ph t e c x Kt _. apply Tl. auto.
  - intros t e c ins ins' out out' x Kt _ Hi Ho. exact (tl_process _ _ _ _ Tl t (time e) c ins ins' out out' x Kt Hi Ho).
  - unfold untimed. intros x x' Hx. cbn. injection Hx as Hp Hm. rewrite Hm. auto.
  - intros t ins ins' out out' Hi Ho. apply Tl; auto.
  - apply R.
  - apply R.
  - apply R.
  - apply R.
  - apply R.
  - apply R.
  - apply R.
  - intros e. exists 0%N. auto.
  - intros e c t _ Ht. split; auto. apply to_oct_small. auto.
  - apply sinks_of. auto.
  - apply R.
  - exists r, m2, l2. split; auto. split; auto. split; auto. split; auto. split; auto.
    intros t Kt. symmetry. auto.
Qed.
End Theorems.

(** ** A robot *)
(** What the sources read next, the clock and the states of the tasks. *)
Record bot := Bot { b_read : nat; b_time : N; b_state : nat -> nat }.
(** A regular task adds its inputs to its state and sends the sum on; it fails on sums
    divisible by 5. With [reads], it also adds the time. *)
Definition bot_task (ph : phase) (t : nat) (c : N) (x : nat) : nat * option nat := (1 + x, None).
Definition bot_sum (reads : bool) (c : N) (ins : list (msg nat unit)) (x : nat) : nat :=
  fold_left (fun s i => match m_payload i with Some v => s + v | None => s end) ins x +
  (if reads then N.to_nat c else 0).
Definition bot_process (reads : bool) (t : nat) (c : N) (ins : list (msg nat unit)) (out : msg nat unit) (x : nat)
    : nat * msg nat unit * option nat :=
  let y := bot_sum reads c ins x in
  (y, Msg (Some y) tt (m_start out) (m_end out), if y mod 5 =? 0 then Some y else None).
Definition bot_time (env : bot) : N := (b_time env mod 2 ^ 63)%N.
(** The clock advances by [tick] with each reading; sources fail when they read [bad],
    and [dec] is what the monitor decides. *)
Definition robot (kind : nat -> task_type) (reads : bool) (tick : N) (bad : nat) (dec : decision) : oracles nat unit nat bot :=
  {| o_task := fun ph t env =>
       match kind t with
       | Regular => let (x, r) := bot_task ph t (bot_time env) (b_state env t) in
                    (Bot (b_read env) (b_time env) (fun u => if u =? t then x else b_state env u), r)
       | _ => (Bot (1 + b_read env) (b_time env) (b_state env), None)
       end;
     o_process := fun t ins out env =>
       match kind t with
       | Regular => let '(x, out, r) := bot_process reads t (bot_time env) ins out (b_state env t) in
                    (Bot (b_read env) (b_time env) (fun u => if u =? t then x else b_state env u), out, r)
       | _ => (Bot (1 + b_read env) (b_time env) (b_state env), Msg (Some (b_read env)) tt (m_start out) (m_end out),
               if b_read env =? bad then Some 0 else None)
       end;
     o_sink := fun t ins env => (Bot (2 + b_read env) (b_time env) (b_state env), None);
     o_sim := fun ph t env => (env, match kind t with Regular => ExecuteByRuntime | _ => ExecutedBySim end);
     o_sim_process := fun t ins out env => (env, out, match kind t with Regular => ExecuteByRuntime | _ => ExecutedBySim end);
     o_decide := fun ph t e env => (env, dec);
     o_report := fun md env => (Bot (3 + b_read env) (b_time env) (b_state env), None);
     o_monitor := fun ph env => (env, None);
     o_now := fun env => (Bot (b_read env) (b_time env + tick) (b_state env), bot_time env);
     o_log := fun env c => true |}.
Definition keep_sink (t : nat) (ins : list (msg nat unit)) (out : msg nat unit) : msg nat unit := out.
Definition ignore (ph : phase) (t e : nat) : decision := Ignore.
Definition line_kind (t : nat) : task_type := match t with 0 => Source | 1 => Regular | _ => Sink end.
(** Between iterations the clock is set. *)
Definition set_clock (c : N) (env : bot) : bot := Bot (b_read env) c (b_state env).
Definition bot0 : bot := Bot 1 5 (fun t => 10 + t).

Lemma robot_deterministic kind reads tick bad dec :
  deterministic (robot kind reads tick bad dec) kind b_state bot_task (bot_process reads) bot_time.
Proof.
  split; cbn [robot o_task o_process o_sink o_sim o_sim_process o_decide o_report o_monitor o_now fst snd].
  all: try (intros; intros u Hu Hn; reflexivity).
  - intros ph t env ->. cbn. rewrite Nat.eqb_refl. split; auto. intros u Hu Hn. cbn. destruct (Nat.eqb_spec u t); congruence.
  - intros t ins out env ->. cbn. rewrite Nat.eqb_refl. split; auto. intros u Hu Hn. cbn. destruct (Nat.eqb_spec u t); congruence.
  - intros ph t env Hk. destruct (kind t); try congruence; intros u Hu Hn; reflexivity.
  - intros t ins out env Hk. destruct (kind t); try congruence; intros u Hu Hn; reflexivity.
Qed.
Lemma robot_steady kind reads bad dec : steady (robot kind reads 0 bad dec) bot_time.
Proof.
  split; cbn [robot o_task o_process o_sink o_sim o_sim_process o_decide o_report o_monitor o_now fst snd]; try (intros; reflexivity).
  - intros env. unfold bot_time. cbn. rewrite N.add_0_r. auto.
  - intros ph t env. destruct (kind t); reflexivity.
  - intros t ins out env. destruct (kind t); reflexivity.
Qed.
Lemma robot_timeless kind : timeless kind bot_task (bot_process false) keep_sink.
Proof.
  split.
  - reflexivity.
  - intros t c c' ins ins' out out' x _ Hi Ho. unfold bot_process, bot_sum.
    assert (X : forall l l' : list (msg nat unit), map untimed l = map untimed l' -> forall y,
      fold_left (fun s i => match m_payload i with Some v => s + v | None => s end) l y =
      fold_left (fun s i => match m_payload i with Some v => s + v | None => s end) l' y).
    { induction l as [|i l IH]; intros [|i' l'] H y; try discriminate; auto. cbn [map] in H. injection H as H1 H2 H3.
      cbn [fold_left]. rewrite H1. auto. }
    rewrite (X _ _ Hi). auto.
  - intros t ins ins' out out' _ Ho. exact Ho.
Qed.
Lemma robot_clock kind reads tick bad dec env : (snd (o_now (robot kind reads tick bad dec) env) < 2 ^ 64 - 1)%N.
Proof. cbn. unfold bot_time. pose proof (N.mod_lt (b_time env) (2 ^ 63) ltac:(discriminate)). cbn in *. lia. Qed.
Lemma robot_start kind reads tick bad dec : keeps_start (robot kind reads tick bad dec).
Proof. intros t ins out env. cbn. destruct (kind t); reflexivity. Qed.
Lemma line_replayable reads tick bad dec sim : replayable (line_app sim) (robot line_kind reads tick bad dec) line_kind (bot_process reads) keep_sink zero3.
Proof.
  split; try reflexivity.
  - exact line_good.
  - intros s [<-|[<-|[<-|[]]]]; reflexivity.
  - intros t k x _ _ H. destruct k as [|[|[|k]]]; cbn in H; try (injection H as <-; reflexivity). destruct k; discriminate.
  - intros e c. reflexivity.
  - apply robot_start.
  - apply robot_clock.
Qed.
Lemma line_getters sim : getters_right (line_app sim) line_kind.
Proof.
  intros t k Hk (s & Hs & Hn). destruct k as [|[|[|k]]]; cbn in Hs; try (injection Hs as <-; cbn in Hn; subst t; reflexivity).
  destruct k; discriminate.
Qed.
Lemma line_recorded reads tick bad dec sim : recorded_with (line_app sim) (robot line_kind reads tick bad dec) line_kind keep_sink.
Proof.
  destruct sim; cbn [recorded_with line_app a_sim]; auto. split; [|split].
  - intros ph t env H. cbn. rewrite H. reflexivity.
  - intros t ins out env H. cbn. rewrite H. split; reflexivity.
  - intros; reflexivity.
Qed.


Definition ignored {V M Er} (e : event V M Er) : bool :=
  match e with EDecision _ _ _ d => match d with Ignore => true | _ => false end | _ => true end.
Lemma undisturbed_check (l : list (list (event nat unit nat) * result (Er := nat))) :
  forallb (fun x => match snd x with ROk => forallb ignored (fst x) | _ => false end) l = true -> undisturbed ignore l.
Proof.
  intros H. rewrite forallb_forall in H. apply Forall_forall. intros x Hx. specialize (H x Hx).
  destruct (snd x); try discriminate. split; auto. intros ph t e d Hd. rewrite forallb_forall in H. specialize (H _ Hd).
  cbn in H. destruct d; try discriminate. split; reflexivity.
Qed.
Definition aborted {V M Er} (e : event V M Er) : bool :=
  match e with EDecision _ _ _ d => match d with Abort => true | _ => false end | _ => true end.
Lemma aborts_check (l : list (list (event nat unit nat) * result (Er := nat))) :
  forallb (fun x => forallb aborted (fst x)) l = true ->
  forall x ph t e d, In x l -> In (EDecision ph t e d) (fst x) -> Abort = d.
Proof.
  intros H x ph t e d Hx Hd. rewrite forallb_forall in H. specialize (H x Hx).
  rewrite forallb_forall in H. specialize (H _ Hd). cbn in H. destruct d; try discriminate. reflexivity.
Qed.
Definition payloads (l : list (list (event nat unit nat) * result (Er := nat))) : list (list (option nat)) :=
  map (fun x => map m_payload (snd x)) (log_of l).

(** Three iterations; in the second one the regular task fails, which is ignored. *)
Definition settings : list (bot -> bot) := [set_clock 6; set_clock 14; set_clock 9].
Lemma settings_keep kind : Forall (fun b => forall e, same_states kind b_state None e (b e)) settings.
Proof. repeat constructor; intros e u Hu Hn; reflexivity. Qed.
Example C90_steady_ex : let o := robot line_kind true 0 0 Ignore in
  replayable (line_app false) o line_kind (bot_process true) keep_sink zero3 /\ getters_right (line_app false) line_kind /\
  deterministic o line_kind b_state bot_task (bot_process true) bot_time /\ steady o bot_time /\
  recorded_with (line_app false) o line_kind keep_sink /\ line_kind 0 = Source /\ slot_of_task line 0 0 /\
  Forall (fun b => forall e, same_states line_kind b_state None e (b e)) settings /\
  exists env' m' l, session (line_app false) o settings (mgr_new 10 zero3) bot0 = (env', m', l) /\ undisturbed ignore l /\
    payloads l = [[Some 5; Some 24; None]; [Some 15; None; None]; [Some 25; Some 91; None]].
Proof.
  cbn zeta. split; [apply line_replayable|]. split; [apply line_getters|]. split; [apply robot_deterministic|].
  split; [apply robot_steady|]. split; [apply line_recorded|]. split; auto. split; [eexists; split; reflexivity|].
  split; [apply settings_keep|].
  eexists _, _, _. split; [vm_compute; reflexivity|]. split; [apply undisturbed_check; reflexivity|].
  vm_compute. reflexivity.
Qed.
Print Assumptions C90_steady_partial.

(** The clock advances by 7 whenever it is read. *)
Example C90_payloads_ex : let o := robot line_kind false 7 0 Ignore in
  replayable (line_app true) o line_kind (bot_process false) keep_sink zero3 /\ getters_right (line_app true) line_kind /\
  deterministic o line_kind b_state bot_task (bot_process false) bot_time /\ timeless line_kind bot_task (bot_process false) keep_sink /\
  recorded_with (line_app true) o line_kind keep_sink /\ recorded_with (line_app false) o line_kind keep_sink /\
  line_kind 0 = Source /\ slot_of_task line 0 0 /\
  Forall (fun b => forall e, same_states line_kind b_state None e (b e)) settings /\
  exists env' m' l, session (line_app false) o settings (mgr_new 10 zero3) bot0 = (env', m', l) /\ undisturbed ignore l /\
    payloads l = [[Some 5; Some 18; None]; [Some 15; None; None]; [Some 25; Some 62; None]].
Proof.
  cbn zeta. split; [apply line_replayable|]. split; [apply line_getters|]. split; [apply robot_deterministic|].
  split; [apply robot_timeless|]. split; [apply line_recorded|]. split; [apply line_recorded|]. split; auto. split; [eexists; split; reflexivity|].
  split; [apply settings_keep|].
  eexists _, _, _. split; [vm_compute; reflexivity|]. split; [apply undisturbed_check; reflexivity|].
  vm_compute. reflexivity.
Qed.
Print Assumptions C90_payloads_partial.

(** Without the hypothesis on the clock: the times at which the tasks were called in an
    iteration are not in the log, and the replay gives them another one. *)
Theorem C90_clock_refuted : exists (o : oracles nat unit nat bot) f_task f_process between env src env' m' l r m2 l2,
  replayable (line_app false) o line_kind f_process keep_sink zero3 /\ getters_right (line_app false) line_kind /\
  deterministic o line_kind b_state f_task f_process bot_time /\ recorded_with (line_app false) o line_kind keep_sink /\
  line_kind src = Source /\ slot_of_task line src 0 /\
  Forall (fun b => forall e, same_states line_kind b_state None e (b e)) between /\
  session (line_app false) o between (mgr_new 10 zero3) env = (env', m', l) /\ undisturbed ignore l /\
  resim (line_app false) line_kind f_task f_process keep_sink ignore src (map snd (log_of l))
    (mgr_new 10 zero3) (Replay (b_state env) (bot_time env) []) = (r, m2, l2) /\
  undisturbed ignore l2 /\ payloads l2 <> payloads l.
Proof.
  exists (robot line_kind true 7 0 Ignore), bot_task, (bot_process true), settings, bot0, 0. eexists _, _, _, _, _, _.
  split; [apply line_replayable|]. split; [apply line_getters|]. split; [apply robot_deterministic|].
  split; [apply line_recorded|]. split; auto. split; [eexists; split; reflexivity|]. split; [apply settings_keep|].
  split; [vm_compute; reflexivity|]. split; [apply undisturbed_check; reflexivity|].
  split; [vm_compute; reflexivity|]. split; [apply undisturbed_check; reflexivity|]. vm_compute. discriminate.
Qed.
Print Assumptions C90_clock_refuted.

(** With an iteration that was given up: it is logged up to the task that failed, but
    the replay runs the tasks behind it as well. Here the source fails in the second
    iteration; the task behind it then goes on from another state. *)
Theorem C90_abort_refuted : exists (o : oracles nat unit nat bot) f_task f_process policy between env src env' m' l r m2 l2,
  replayable (line_app false) o line_kind f_process keep_sink zero3 /\ getters_right (line_app false) line_kind /\
  deterministic o line_kind b_state f_task f_process bot_time /\ steady o bot_time /\
  timeless line_kind f_task f_process keep_sink /\ recorded_with (line_app false) o line_kind keep_sink /\
  line_kind src = Source /\ slot_of_task line src 0 /\
  Forall (fun b => forall e, same_states line_kind b_state None e (b e)) between /\
  session (line_app false) o between (mgr_new 10 zero3) env = (env', m', l) /\
  Forall (fun x => snd x = ROk) l /\ (forall x ph t e d, In x l -> In (EDecision ph t e d) (fst x) -> policy ph t e = d) /\
  resim (line_app false) line_kind f_task f_process keep_sink policy src (map snd (log_of l))
    (mgr_new 10 zero3) (Replay (b_state env) (bot_time env) []) = (r, m2, l2) /\
  Forall (fun x => snd x = ROk) l2 /\ payloads l2 <> payloads l.
Proof.
  exists (robot line_kind false 0 15 Abort), bot_task, (bot_process false), (fun _ _ _ => Abort), settings, bot0, 0. eexists _, _, _, _, _, _.
  split; [apply line_replayable|]. split; [apply line_getters|]. split; [apply robot_deterministic|]. split; [apply robot_steady|].
  split; [apply robot_timeless|].
  split; [apply line_recorded|]. split; auto. split; [eexists; split; reflexivity|]. split; [apply settings_keep|].
  split; [vm_compute; reflexivity|]. split; [repeat constructor|]. split; [apply aborts_check; reflexivity|].
  split; [vm_compute; reflexivity|]. split; [repeat constructor|]. vm_compute. discriminate.
Qed.
Print Assumptions C90_abort_refuted.

(** With tasks declared in another order than they are called in: the getters give
    messages of other tasks, if these have the same type. *)
Definition quad : list step :=
  [Step 2 Source [] (Some (0, "A")); Step 0 Regular [(0, "A")] (Some (1, "A"));
   Step 1 Regular [(1, "A")] (Some (2, "A")); Step 3 Sink [(2, "A")] (Some (3, "()"))]%string.
Definition quad_graph : graph := Graph 4 [Edge 2 0 "A"; Edge 0 1 "A"; Edge 1 3 "A"]%string.
Definition quad_app : application := App 4 quad false true Checked.
Definition quad_kind (t : nat) : task_type := match t with 2 => Source | 0 | 1 => Regular | _ => Sink end.
Definition zero4 : list (msg nat unit) := repeat (Msg None tt None None) 4.
Lemma quad_planned : compute_plan quad_graph = Ret (Some quad).
Proof. vm_compute. reflexivity. Qed.
Lemma quad_wf : wf_graph quad_graph.
Proof. repeat constructor. Qed.
Lemma quad_replayable reads tick bad dec : replayable quad_app (robot quad_kind reads tick bad dec) quad_kind (bot_process reads) keep_sink zero4.
Proof.
  split; try reflexivity.
  - exact (planner_good _ _ quad_wf quad_planned).
  - intros s [<-|[<-|[<-|[<-|[]]]]]; reflexivity.
  - intros t k x _ _ H. destruct k as [|[|[|[|k]]]]; cbn in H; try (injection H as <-; reflexivity). destruct k; discriminate.
  - intros e c. reflexivity.
  - apply robot_start.
  - apply robot_clock.
Qed.
Theorem C90_getter_refuted : exists g a (o : oracles nat unit nat bot) kind zero f_task f_process between env src env' m' l r m2 l2,
  wf_graph g /\ compute_plan g = Ret (Some (a_plan a)) /\
  replayable a o kind f_process keep_sink zero /\
  deterministic o kind b_state f_task f_process bot_time /\ steady o bot_time /\
  timeless kind f_task f_process keep_sink /\ recorded_with a o kind keep_sink /\
  kind src = Source /\ slot_of_task (a_plan a) src 0 /\
  Forall (fun b => forall e, same_states kind b_state None e (b e)) between /\
  session a o between (mgr_new 10 zero) env = (env', m', l) /\ undisturbed ignore l /\
  resim a kind f_task f_process keep_sink ignore src (map snd (log_of l))
    (mgr_new 10 zero) (Replay (b_state env) (bot_time env) []) = (r, m2, l2) /\
  undisturbed ignore l2 /\ payloads l2 <> payloads l.
Proof.
  exists quad_graph, quad_app, (robot quad_kind false 0 0 Ignore), quad_kind, zero4, bot_task, (bot_process false), settings, bot0, 2. eexists _, _, _, _, _, _.
  split; [exact quad_wf|]. split; [exact quad_planned|].
  split; [apply quad_replayable|]. split; [apply robot_deterministic|]. split; [apply robot_steady|].
  split; [apply robot_timeless|].
  split; [intros t ins out; reflexivity|]. split; auto. split; [eexists; split; reflexivity|]. split; [apply settings_keep|].
  split; [vm_compute; reflexivity|]. split; [apply undisturbed_check; reflexivity|].
  split; [vm_compute; reflexivity|]. split; [apply undisturbed_check; reflexivity|]. vm_compute. discriminate.
Qed.
Print Assumptions C90_getter_refuted.
