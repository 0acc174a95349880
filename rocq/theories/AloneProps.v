(** A task in a graph and the same task alone: theorems. *)
From Coq Require Import String List Arith NArith Bool Lia ZifyBool ZifyNat ZifyN.
From Verif Require Import Base CuListModel CuListProofs PlanModel RuntimeModel RuntimeSpec RuntimeProofs RuntimeProofs2 RuntimeProofs3
  RuntimeProofs4 RuntimeProofs5 RuntimeProofs6 RuntimeProps ReplaySpec ReplayProps.
Import ListNotations.
Local Open Scope list_scope.
Local Open Scope nat_scope.

(** * Specification *)
Section Spec.
Context {V M Er S : Type}.
Notation message := (msg V M).
Variable f_task : phase -> nat -> N -> S -> S * option Er.
Variable f_process : nat -> N -> list message -> message -> S -> S * message * option Er.
(** What task [t] does, without its process times, does not depend on the clock, on process times
    nor on what its output message held before. *)
Record self_contained (t : nat) : Prop := {
  sc_task : forall ph c c' x, f_task ph t c x = f_task ph t c' x;
  sc_process : forall c c' ins ins' out out' x, map untimed ins = map untimed ins' ->
    let '(x1, y1, r1) := f_process t c ins out x in
    let '(x2, y2, r2) := f_process t c' ins' out' x in
    x1 = x2 /\ untimed y1 = untimed y2 /\ r1 = r2 }.
(** Task [t] alone: one round on given inputs, starting from an empty message; what an error leaves is emptied. *)
Variable blank : message.
Definition round (t : nat) (ins : list message) (x : S) : S * message :=
  let x := fst (f_task Preprocess t 0%N x) in
  let '(x, y, r) := f_process t 0%N ins blank x in
  (fst (f_task Postprocess t 0%N x), untimed (match r with Some _ => Msg None (m_meta y) (m_start y) (m_end y) | None => y end)).
Fixpoint rounds (t : nat) (inss : list (list message)) (x : S) : S * list message :=
  match inss with
  | [] => (x, [])
  | ins :: inss => let (x, y) := round t ins x in let (x, ys) := rounds t inss x in (x, y :: ys)
  end.
Definition alone (t : nat) (inss : list (list message)) (x : S) : S * list message := rounds t inss (fst (f_task Start t 0%N x)).
(** The inputs of a step in a copper list. *)
Definition given (s : step) (msgs : list message) : list message :=
  flat_map (fun i => match nth_error msgs (fst i) with Some m => [m] | None => [] end) (s_inputs s).
Definition only_ignored (l : list (list (event V M Er) * result (Er := Er))) : Prop :=
  Forall (fun x => snd x = ROk /\ forall ph t e d, In (EDecision ph t e d) (fst x) -> d = Ignore) l.
End Spec.

(** What the log shows of slot [k], without process times: one entry for each copper list. *)
Definition column {V M Er} (l : list (list (event V M Er) * result (Er := Er))) (k : nat) : list (option (msg V M)) :=
  map (fun r => nth_error (map untimed (snd r)) k) (log_of l).
(** What the log shows of the inputs of step [s]. *)
Definition inputs {V M Er} (l : list (list (event V M Er) * result (Er := Er))) (s : step) : list (list (msg V M)) :=
  map (fun r => given s (snd r)) (log_of l).

(** A run of an application from a fresh runtime, with whatever happens between iterations, that ends
    with no error and in which the monitor ignored every error of a task. *)
Section Run.
Context {V M Er S E : Type}.
Variable a : application.
Variable o : oracles V M Er E.
Variable kind : nat -> task_type.
Variable state : E -> nat -> S.
Variable f_task : phase -> nat -> N -> S -> S * option Er.
Variable f_process : nat -> N -> list (msg V M) -> msg V M -> S -> S * msg V M * option Er.
Variable time : E -> N.
Record ran_well (n : nat) (zero : list (msg V M)) (between : list (E -> E)) (env env' : E) m' l : Prop := {
  rw_det : deterministic o kind state f_task f_process time;
  rw_writes : writes_succeed o;
  rw_plan : good_plan (a_plan a);
  rw_logging : a_logging a = true;
  rw_slots : 0 < n;
  rw_count : (N.of_nat (length between) < 2 ^ 32)%N;
  rw_between : Forall (fun b => forall e, same_states kind state None e (b e)) between;
  rw_run : session a o between (mgr_new n zero) env = (env', m', l);
  rw_calm : only_ignored l }.
(** Regular task [t], called by step [s] for slot [k], is left to the runtime. *)
Record placed (t k : nat) (s : step) : Prop := {
  pl_kind : kind t = Regular;
  pl_type : s_type s = Regular;
  pl_node : s_node s = t;
  pl_slot : nth_error (a_plan a) k = Some s;
  pl_task : t < a_tasks a;
  pl_self : self_contained f_task f_process t;
  pl_sim : a_sim a = true -> (forall ph env, snd (o_sim o ph t env) = ExecuteByRuntime) /\
    (forall ins out env, snd (o_sim_process o t ins out env) = ExecuteByRuntime) }.
End Run.

(** * Proofs *)
Section Alone.
Context {V M Er S E : Type}.
Variable a : application.
Variable o : oracles V M Er E.
Variable kind : nat -> task_type.
Variable state : E -> nat -> S.
Variable f_task : phase -> nat -> N -> S -> S * option Er.
Variable f_process : nat -> N -> list (msg V M) -> msg V M -> S -> S * msg V M * option Er.
Variable time : E -> N.
Variable blank : msg V M.
Hypothesis D : deterministic o kind state f_task f_process time.
Notation message := (msg V M).
Notation ev := (event V M Er).
Variable t k : nat.
Variable s : step.
Hypothesis Rg : kind t = Regular.
Hypothesis Sc : self_contained f_task f_process t.
Hypothesis Sim : a_sim a = true -> (forall ph env, snd (o_sim o ph t env) = ExecuteByRuntime) /\
  (forall ins out env, snd (o_sim_process o t ins out env) = ExecuteByRuntime).
Definition nod (tr : list ev) : Prop := forall ph u e d, In (EDecision ph u e d) tr -> d = Ignore.
Lemma nod_l tr1 tr2 : nod (tr1 ++ tr2) -> nod tr1. Proof. intros H ph u e d X. eapply H, in_or_app; eauto. Qed.
Lemma nod_r tr1 tr2 : nod (tr1 ++ tr2) -> nod tr2. Proof. intros H ph u e d X. eapply H, in_or_app; eauto. Qed.
Lemma kept_t b env env' : b <> Some t -> same_states kind state b env env' -> state env' t = state env t.
Proof. intros B H. apply H; auto. Qed.

Lemma act_t ph u e env env' tr f : act o ph u e env = (env', tr, f) -> nod tr -> state env' t = state env t /\ f = Next.
Proof.
  unfold act. pose proof (det_decide _ _ _ _ _ _ D ph u e env) as H. destruct (o_decide o ph u e env) as [env1 d]. intros X Nd; injection X as <- <- <-.
  split; [apply (kept_t None); [discriminate|exact H]|]. specialize (Nd ph u e d (or_introl eq_refl)). subst d. reflexivity.
Qed.
Lemma do_call_other ph u env env' tr f : u <> t -> do_call o ph u env = (env', tr, f) -> nod tr -> state env' t = state env t /\ f = Next.
Proof.
  intros Hu. unfold do_call.
  assert (G : state (fst (o_task o ph u env)) t = state env t).
  { destruct (kind u) eqn:K.
    - apply (kept_t None); [discriminate|]. apply (det_other_task _ _ _ _ _ _ D). congruence.
    - pose proof (det_task _ _ _ _ _ _ D ph u env K) as H. destruct (o_task o ph u env) as [e1 r]. apply (kept_t (Some u)); [congruence|apply H].
    - apply (kept_t None); [discriminate|]. apply (det_other_task _ _ _ _ _ _ D). congruence. }
  destruct (o_task o ph u env) as [e1 [e|]]; cbn [fst] in G.
  - destruct (act o ph u e e1) as [[e2 t2] f2] eqn:A. intros X Nd; injection X as <- <- <-.
    destruct (act_t _ _ _ _ _ _ _ A (nod_r [_] _ Nd)) as [-> ->]. auto.
  - intros X _; injection X as <- <- <-. auto.
Qed.
Lemma do_call_t ph env env' tr f : do_call o ph t env = (env', tr, f) -> nod tr -> state env' t = fst (f_task ph t 0%N (state env t)) /\ f = Next.
Proof.
  unfold do_call. pose proof (det_task _ _ _ _ _ _ D ph t env Rg) as H. rewrite (sc_task _ _ _ Sc ph (time env) 0%N) in H.
  destruct (o_task o ph t env) as [e1 r]. destruct H as [H _]. destruct r as [e|].
  - destruct (act o ph t e e1) as [[e2 t2] f2] eqn:A. intros X Nd; injection X as <- <- <-.
    destruct (act_t _ _ _ _ _ _ _ A (nod_r [_] _ Nd)) as [-> ->]. rewrite H. auto.
  - intros X _; injection X as <- <- <-. rewrite H. auto.
Qed.
Lemma one_call_t ph u env env' tr f : one_call a o ph u env = (env', tr, f) -> nod tr ->
  state env' t = (if Nat.eqb u t then fst (f_task ph t 0%N (state env t)) else state env t) /\ f = Next.
Proof.
  unfold one_call. destruct (a_sim a) eqn:Sm.
  - pose proof (kept_t None _ _ ltac:(discriminate) (det_sim _ _ _ _ _ _ D ph u env)) as H.
    destruct (o_sim o ph u env) as [e1 ovr] eqn:Os. cbn [fst] in H. rewrite <- H. destruct (Nat.eqb_spec u t) as [->|Nu].
    + destruct (Sim eq_refl) as [Q _]. specialize (Q ph env). rewrite Os in Q. cbn in Q. subst ovr.
      destruct (do_call o ph t e1) as [[e2 t2] f2] eqn:C. intros X Nd; injection X as <- <- <-. eapply do_call_t; eauto. exact (nod_r [_] _ Nd).
    + destruct ovr as [| |e].
      * intros X _; injection X as <- <- <-. auto.
      * destruct (do_call o ph u e1) as [[e2 t2] f2] eqn:C. intros X Nd; injection X as <- <- <-. eapply do_call_other; eauto. exact (nod_r [_] _ Nd).
      * destruct (act o ph u e e1) as [[e2 t2] f2] eqn:C. intros X Nd; injection X as <- <- <-. eapply act_t; eauto. exact (nod_r [_] _ Nd).
  - destruct (Nat.eqb_spec u t) as [->|Nu]; [apply do_call_t|now apply do_call_other].
Qed.
Lemma lifecycle_t ph ts : NoDup ts -> forall env env' tr f, lifecycle a o ph ts env = (env', tr, f) -> nod tr ->
  state env' t = (if existsb (Nat.eqb t) ts then fst (f_task ph t 0%N (state env t)) else state env t) /\ f = Next.
Proof.
  induction 1 as [|u ts Hu Hd IH]; intros env env' tr f; cbn [lifecycle existsb].
  - intros X _; injection X as <- <- <-. auto.
  - destruct (one_call a o ph u env) as [[e1 t1] f1] eqn:C.
    assert (G : nod t1 -> f1 = Next) by (intros Nd; apply (one_call_t _ _ _ _ _ _ C Nd)).
    destruct f1; try (intros X Nd; injection X as <- <- <-; specialize (G Nd); discriminate G). clear G.
    destruct (lifecycle a o ph ts e1) as [[e2 t2] f2] eqn:L. intros X Nd; injection X as <- <- <-.
    destruct (one_call_t _ _ _ _ _ _ C (nod_l _ _ Nd)) as [G1 _]. destruct (IH _ _ _ _ L (nod_r _ _ Nd)) as [G2 G3]. split; [|exact G3].
    rewrite G2, G1, (Nat.eqb_sym u t). destruct (Nat.eqb_spec t u) as [<-|Nu]; [|reflexivity].
    assert (Nt : existsb (Nat.eqb t) ts = false); [|now rewrite Nt].
    destruct (existsb (Nat.eqb t) ts) eqn:Ex; [|reflexivity]. apply existsb_exists in Ex. destruct Ex as (v & Hv & Ev). apply Nat.eqb_eq in Ev. congruence.
Qed.

Lemma now_t env : state (fst (o_now o env)) t = state env t.
Proof. apply (kept_t None); [discriminate|]. apply (det_now _ _ _ _ _ _ D). Qed.
Lemma pact_t u e out env env' tr out' f : pact o u e out env = (env', tr, out', f) -> nod tr ->
  state env' t = state env t /\ f = PNext /\ out' = clear_payload out.
Proof.
  unfold pact. pose proof (det_decide _ _ _ _ _ _ D Process u e env) as H. destruct (o_decide o Process u e env) as [env1 d].
  assert (G : state env1 t = state env t) by (apply (kept_t None); [discriminate|exact H]).
  destruct d; intros X Nd; injection X as <- <- <- <-; try (specialize (Nd Process u e _ (or_introl eq_refl)); discriminate Nd). auto.
Qed.
Lemma do_process_other q ins b out env env' tr out' f : s_node q <> t -> do_process o q ins b out env = (env', tr, out', f) -> nod tr -> state env' t = state env t.
Proof.
  intros Hq. unfold do_process. pose proof (now_t env) as N0. destruct (o_now o env) as [e0 t0]. cbn [fst] in N0.
  set (X := if b then _ else _).
  assert (HX : exists e1 tr1 o1 r, X = (e1, tr1, o1, r) /\ state e1 t = state e0 t).
  { subst X. destruct b; [|do 4 eexists; split; [reflexivity|reflexivity]].
    assert (Pr : state (fst (fst (o_process o (s_node q) ins (with_start t0 out) e0))) t = state e0 t).
    { destruct (kind (s_node q)) eqn:K.
      - apply (kept_t None); [discriminate|]. apply (det_other_process _ _ _ _ _ _ D). congruence.
      - pose proof (det_process _ _ _ _ _ _ D (s_node q) ins (with_start t0 out) e0 K) as H. destruct (o_process o (s_node q) ins (with_start t0 out) e0) as [[e1 o1] r].
        apply (kept_t (Some (s_node q))); [congruence|apply H].
      - apply (kept_t None); [discriminate|]. apply (det_other_process _ _ _ _ _ _ D). congruence. }
    destruct (s_type q).
    - destruct (o_process o (s_node q) ins (with_start t0 out) e0) as [[e1 o1] r]. do 4 eexists; split; [reflexivity|exact Pr].
    - destruct (o_process o (s_node q) ins (with_start t0 out) e0) as [[e1 o1] r]. do 4 eexists; split; [reflexivity|exact Pr].
    - pose proof (kept_t None _ _ ltac:(discriminate) (det_sink _ _ _ _ _ _ D (s_node q) ins e0)) as H. destruct (o_sink o (s_node q) ins e0) as [e1 r].
      do 4 eexists; split; [reflexivity|exact H]. }
  destruct HX as (e1 & tr1 & o1 & r & -> & H1). pose proof (now_t e1) as N1. destruct (o_now o e1) as [e2 t1]. cbn [fst] in N1.
  destruct r as [e|].
  - destruct (pact o (s_node q) e (with_end t1 o1) e2) as [[[e3 tr3] o3] f3] eqn:P. intros Y Nd; injection Y as <- <- <- <-.
    destruct (pact_t _ _ _ _ _ _ _ _ P (nod_r _ _ Nd)) as (G & _). congruence.
  - intros Y _; injection Y as <- <- <- <-. congruence.
Qed.
Lemma process_msg_other q ins out env env' tr out' f : s_node q <> t -> process_msg a o q ins out env = (env', tr, out', f) -> nod tr -> state env' t = state env t.
Proof.
  intros Hq. unfold process_msg. destruct (a_sim a); [|now apply do_process_other].
  pose proof (kept_t None _ _ ltac:(discriminate) (det_sim_process _ _ _ _ _ _ D (s_node q) ins out env)) as H.
  destruct (o_sim_process o (s_node q) ins out env) as [[e1 o1] ovr]. cbn [fst] in H. rewrite <- H. destruct ovr as [| |e].
  - destruct (do_process o q ins false o1 e1) as [[[e2 t2] o2] f2] eqn:P. intros Y Nd; injection Y as <- <- <- <-. eapply do_process_other; eauto. exact (nod_r [_] _ Nd).
  - destruct (do_process o q ins true o1 e1) as [[[e2 t2] o2] f2] eqn:P. intros Y Nd; injection Y as <- <- <- <-. eapply do_process_other; eauto. exact (nod_r [_] _ Nd).
  - destruct (pact o (s_node q) e o1 e1) as [[[e3 t3] o3] f3] eqn:P. 
    assert (G : nod t3 -> state e3 t = state e1 t) by (intros Nd; apply (pact_t _ _ _ _ _ _ _ _ P Nd)).
    destruct f3; try (intros Y Nd; injection Y as <- <- <- <-; apply G; exact (nod_r [_] _ Nd)).
    destruct (do_process o q ins false o3 e3) as [[[e2 t2] o2] f2] eqn:P2. intros Y Nd; injection Y as <- <- <- <-. apply (nod_r [_]) in Nd.
    rewrite <- (G (nod_l _ _ Nd)). eapply do_process_other; eauto. exact (nod_r _ _ Nd).
Qed.
Definition made (ins : list message) (x : S) : S * message :=
  let '(x, y, r) := f_process t 0%N ins blank x in
  (x, untimed (match r with Some _ => Msg None (m_meta y) (m_start y) (m_end y) | None => y end)).
Lemma process_msg_t ins out env env' tr out' f : s_node s = t -> s_type s = Regular -> process_msg a o s ins out env = (env', tr, out', f) -> nod tr ->
  made ins (state env t) = (state env' t, untimed out') /\ f = PNext.
Proof.
  intros Hs Ht.
  assert (G : forall out env env' tr out' f, do_process o s ins true out env = (env', tr, out', f) -> nod tr -> made ins (state env t) = (state env' t, untimed out') /\ f = PNext).
  { clear - D Rg Sc Hs Ht. intros out env env' tr out' f. unfold do_process. rewrite Hs, Ht. pose proof (now_t env) as N0. destruct (o_now o env) as [e0 t0]. cbn [fst] in N0.
    pose proof (det_process _ _ _ _ _ _ D t ins (with_start t0 out) e0 Rg) as H. pose proof (sc_process _ _ _ Sc (time e0) 0%N ins ins (with_start t0 out) blank (state e0 t) eq_refl) as Q.
    destruct (o_process o t ins (with_start t0 out) e0) as [[e1 o1] r1]. destruct H as [H _]. rewrite H in Q. unfold made. rewrite N0 in Q.
    destruct (f_process t 0%N ins blank (state env t)) as [[x y] r]. destruct Q as (Q1 & Q2 & Q3). subst r1 x.
    pose proof (now_t e1) as N1. destruct (o_now o e1) as [e2 t1]. cbn [fst] in N1. rewrite <- N1. destruct r as [e|].
    - destruct (pact o t e (with_end t1 o1) e2) as [[[e3 tr3] o3] f3] eqn:P. intros Y Nd; injection Y as <- <- <- <-.
      destruct (pact_t _ _ _ _ _ _ _ _ P (nod_r [_] _ Nd)) as (G & -> & ->). rewrite G. split; [|reflexivity]. f_equal. unfold untimed in *. cbn in *. injection Q2 as _ Qm. now rewrite Qm.
    - intros Y _; injection Y as <- <- <- <-. split; [|reflexivity]. f_equal. symmetry. exact Q2. }
  unfold process_msg. destruct (a_sim a) eqn:Sm; [|apply G]. rewrite Hs.
  pose proof (kept_t None _ _ ltac:(discriminate) (det_sim_process _ _ _ _ _ _ D t ins out env)) as H.
  destruct (Sim eq_refl) as [_ Q]. specialize (Q ins out env).
  destruct (o_sim_process o t ins out env) as [[e1 o1] ovr]. cbn [fst snd] in H, Q. subst ovr. rewrite <- H.
  destruct (do_process o s ins true o1 e1) as [[[e2 t2] o2] f2] eqn:P. intros Y Nd; injection Y as <- <- <- <-. eapply G; eauto. exact (nod_r [_] _ Nd).
Qed.

Lemma gather_given (q : step) (msgs ins : list message) : gather msgs (s_inputs q) = Some ins -> ins = given q msgs.
Proof.
  unfold given. revert ins. induction (s_inputs q) as [|i is IH]; intros ins H; cbn in *; [congruence|].
  destruct (nth_error msgs (fst i)) as [m|]; [|discriminate]. destruct (gather msgs is) as [r|]; [|discriminate]. injection H as <-. cbn. now rewrite (IH r eq_refl).
Qed.
Lemma nth_firstn {A} (l : list A) : forall n i, i < n -> nth_error (firstn n l) i = nth_error l i.
Proof. induction l as [|x l IH]; intros [|n] [|i] H; try lia; try reflexivity. cbn. apply IH. lia. Qed.
Lemma given_firstn (q : step) n (msgs msgs' : list message) : Forall (fun i => fst i < n) (s_inputs q) -> firstn n msgs = firstn n msgs' -> given q msgs = given q msgs'.
Proof.
  intros F H. unfold given. induction F as [|i is Hi F IH]; cbn; [reflexivity|]. rewrite IH. f_equal.
  rewrite <- (nth_firstn msgs n), <- (nth_firstn msgs' n), H by auto. reflexivity.
Qed.
Lemma firstn_upd {A} (x : A) : forall l n, firstn n (upd n x l) = firstn n l.
Proof. induction l as [|y l IH]; intros [|n]; cbn; auto. now rewrite IH. Qed.
Lemma firstn_less {A} (l l' : list A) n m : m <= n -> firstn n l = firstn n l' -> firstn m l = firstn m l'.
Proof. intros L H. apply (f_equal (firstn m)) in H. rewrite !firstn_firstn in H. replace (Nat.min m n) with m in H by lia. exact H. Qed.

Lemma process_all_t : forall ss n,
  (forall j q, nth_error ss j = Some q -> (exists ty, s_out q = Some (n + j, ty)) /\ Forall (fun i => fst i < n + j) (s_inputs q)) ->
  NoDup (map s_node ss) -> forall msgs env env' tr msgs', process_all a o ss msgs env = (env', tr, msgs', PNext) -> nod tr ->
  firstn n msgs' = firstn n msgs /\
  (~ In t (map s_node ss) -> state env' t = state env t) /\
  (forall j, nth_error ss j = Some s -> s_node s = t -> s_type s = Regular ->
     exists y, nth_error msgs' (n + j) = Some y /\ made (given s msgs') (state env t) = (state env' t, untimed y)).
Proof.
  induction ss as [|q ss IH]; intros n GP Nd msgs env env' tr msgs'; cbn [process_all].
  - intros H _; injection H as <- <- <-. split; auto. split; auto. intros j Hj. destruct j; discriminate Hj.
  - destruct (GP 0 q eq_refl) as ((ty & So) & Fi). rewrite Nat.add_0_r in So, Fi. unfold process_step. rewrite So.
    destruct (nth_error msgs n) as [out|] eqn:N; [|discriminate].
    destruct (gather msgs (s_inputs q)) as [ins|] eqn:G; [|discriminate]. apply gather_given in G.
    destruct (process_msg a o q ins out env) as [[[env1 tr1] out1] f1] eqn:P. destruct f1; try discriminate.
    destruct (process_all a o ss (upd n out1 msgs) env1) as [[[env2 tr2] msgs2] f2] eqn:Q. intros H Nt; injection H as <- <- <- ->.
    assert (GP' : forall j q, nth_error ss j = Some q -> (exists ty, s_out q = Some (Datatypes.S n + j, ty)) /\ Forall (fun i => fst i < Datatypes.S n + j) (s_inputs q)).
    { intros j q0 H. replace (Datatypes.S n + j) with (n + Datatypes.S j) by lia. exact (GP (Datatypes.S j) q0 H). }
    cbn [map] in Nd. apply NoDup_cons_iff in Nd. destruct Nd as [Nq Nd].
    destruct (IH (Datatypes.S n) GP' Nd _ _ _ _ _ Q (nod_r _ _ Nt)) as (J1 & J2 & J3).
    assert (Nn : n < length msgs) by (apply nth_error_Some; congruence).
    assert (F0 : firstn n msgs2 = firstn n msgs) by (rewrite (firstn_less _ _ (Datatypes.S n) n (Nat.le_succ_diag_r n) J1); apply firstn_upd).
    split; [exact F0|]. split.
    + intros Hn. cbn [map In] in Hn. rewrite J2 by tauto. apply (process_msg_other _ _ _ _ _ _ _ _ ltac:(intros E1; apply Hn; left; exact E1) P (nod_l _ _ Nt)).
    + intros [|j] Hj Hs Ht; cbn [nth_error] in Hj.
      * injection Hj as ->. exists out1. rewrite Nat.add_0_r. split.
        { rewrite <- (nth_firstn msgs2 (Datatypes.S n)) by lia. rewrite J1, nth_firstn by lia. now apply nth_error_upd_eq. }
        rewrite J2 by congruence. rewrite (given_firstn s n msgs2 msgs Fi F0), <- G.
        apply (process_msg_t _ _ _ _ _ _ _ Hs Ht P (nod_l _ _ Nt)).
      * replace (n + Datatypes.S j) with (Datatypes.S n + j) by lia. rewrite <- (process_msg_other q ins out env env1 tr1 out1 PNext); [apply J3; auto| |exact P|exact (nod_l _ _ Nt)].
        intros E1. apply Nq. rewrite E1, <- Hs. apply in_map_iff. exists s. split; [reflexivity|]. eapply nth_error_In; eauto.
Qed.

(** One iteration. *)
Hypothesis LO : writes_succeed o.
Hypothesis GP : good_plan (a_plan a).
Hypothesis Lg : a_logging a = true.
Hypothesis Kd : s_type s = Regular.
Hypothesis Sn : s_node s = t.
Hypothesis Sk : nth_error (a_plan a) k = Some s.
Hypothesis Tn : t < a_tasks a.
Lemma in_tasks : existsb (Nat.eqb t) (seq 0 (a_tasks a)) = true.
Proof. apply existsb_exists. exists t. split; [apply in_seq; lia|apply Nat.eqb_refl]. Qed.

Lemma iteration_t es m env env' m' tr : minv es m -> (m_next m + 1 < 2 ^ 32)%N ->
  run_one_iteration a o m env = (env', m', tr, ROk) -> nod tr ->
  exists id msgs y, logged tr = [(id, msgs)] /\ nth_error msgs k = Some y /\ round f_task f_process blank t (given s msgs) (state env t) = (state env' t, untimed y).
Proof.
  intros I B H Nt. unfold run_one_iteration in H.
  destruct (lifecycle a o Preprocess (seq 0 (a_tasks a)) env) as [[env3 tr3] f3] eqn:Lf.
  pose proof (fun N3 => lifecycle_t _ _ (seq_NoDup _ _) _ _ _ _ Lf N3) as L3. rewrite in_tasks in L3.
  pose proof (lifecycle_task_only a o _ _ _ _ _ _ Lf) as Q3. apply task_only_logged in Q3. destruct Q3 as [Q3 _].
  assert (N3 : nod tr3).
  { destruct f3; [|injection H as <- <- <- _; exact Nt|injection H as <- <- <- _; exact Nt].
    destruct (copperlist_body a o m env3) as [[[e4 m4] t4] f4]. destruct f4; [|injection H as <- <- <- _; exact (nod_l _ _ Nt)..].
    destruct (lifecycle a o Postprocess (seq 0 (a_tasks a)) e4) as [[e5 t5] f5]. injection H as <- <- <- _. exact (nod_l _ _ Nt). }
  destruct (L3 N3) as [S3 ->]. clear L3. unfold copperlist_body in H.
  destruct (create (a_mode a) m) as [[[p i]|]|] eqn:C; try discriminate H.
  destruct (nth_error (m_data p) i) as [c|] eqn:Nc; try discriminate H.
  destruct (process_all a o (a_plan a) (cl_msgs c) env3) as [[[env4 tr4] ms4] f4] eqn:P.
  pose proof (process_all_task_only a o _ _ _ _ _ _ _ P) as Q4. apply task_only_logged in Q4. destruct Q4 as [Q4 _].
  pose proof (process_all_spec a o _ _ _ _ _ _ _ P) as [PS _].
  destruct f4 as [| |e|]; try discriminate H.
  2: { exfalso. destruct PS as (tr' & u & e & -> & _). destruct (report_and_finish _ _ _ _ _ _) as [[[? ?] tr6] ff].
       assert (X : In (EDecision Process u e Abort) tr); [|specialize (Nt _ _ _ _ X); discriminate Nt].
       destruct ff; try discriminate H; first [injection H as <- <- <- _|injection H as <- <- <-]; rewrite !in_app_iff; cbn; auto. }
  destruct (match collect_metadata a ms4 with Some md => e2e a md | None => Panic end) as [d|]; try discriminate H.
  unfold report_and_finish in H. destruct (collect_metadata a ms4) as [md|]; try discriminate H.
  pose proof (kept_t None _ _ ltac:(discriminate) (det_report _ _ _ _ _ _ D md env4)) as S5.
  destruct (o_report o md env4) as [e5 [e|]]; try discriminate H. cbn [fst] in S5.
  destruct (finish_fresh a o es m p i c ms4 e5 LO I B C Nc) as (q1 & Fq). rewrite Fq, Lg in H.
  destruct (lifecycle a o Postprocess (seq 0 (a_tasks a)) e5) as [[e7 t7] f7] eqn:L7.
  pose proof (lifecycle_task_only a o _ _ _ _ _ _ L7) as Q7. apply task_only_logged in Q7. destruct Q7 as [Q7 _].
  injection H as <- <- <- _. apply nod_r in Nt. pose proof (nod_l _ _ (nod_l _ _ Nt)) as N4. pose proof (nod_r _ _ Nt) as N7.
  destruct (lifecycle_t _ _ (seq_NoDup _ _) _ _ _ _ L7 N7) as [S7 _]. rewrite in_tasks in S7.
  destruct (process_all_t (a_plan a) 0 (fun j q K => proj2 GP j q K) (proj1 GP) _ _ _ _ _ P N4) as (_ & _ & T). destruct (T k Sk Sn Kd) as (y & Ny & My).
  exists (m_next m), ms4, y. split; [|split; [exact Ny|]].
  - rewrite !logged_app, Q3, Q4, Q7. reflexivity.
  - unfold round. rewrite <- S3. unfold made in My. destruct (f_process t 0%N (given s ms4) blank (state env3 t)) as [[x1 y1] r1]. pose proof (f_equal fst My) as X1. pose proof (f_equal snd My) as X2. cbn [fst snd] in X1, X2. rewrite <- X2, S7, S5, <- X1. reflexivity.
Qed.

Lemma driven_t : forall between es m env env' m' l, minv es m -> (m_next m + N.of_nat (length between) < 2 ^ 32)%N ->
  Forall (fun b => forall e, same_states kind state None e (b e)) between ->
  driven a o between m env = (env', m', l) -> only_ignored l ->
  exists ys, rounds f_task f_process blank t (map (fun r => given s (snd r)) (log_of l)) (state env t) = (state env' t, ys) /\
    map (fun r => nth_error (map untimed (snd r)) k) (log_of l) = map Some ys /\ length (log_of l) = length between.
Proof.
  induction between as [|b bs IH]; intros es m env env' m' l I B Fb H O; cbn [driven] in H.
  - injection H as <- <- <-. exists []. auto.
  - destruct (run_one_iteration a o m (b env)) as [[[e1 m1] tr1] r1] eqn:R. destruct (driven a o bs m1 e1) as [[e2 m2] l2] eqn:Dr. injection H as <- <- <-.
    apply Forall_cons_iff in O. destruct O as [[O1 O2] O]. cbn [fst snd] in O1, O2. subst r1. apply Forall_cons_iff in Fb. destruct Fb as [F1 Fb].
    cbn [length] in B. pose proof (iteration_effect a o es _ _ _ _ _ _ LO I ltac:(lia) R) as Ef.
    destruct (effect_minv _ _ _ _ _ _ Ef I ltac:(discriminate)) as (es1 & I1 & Nx).
    destruct (iteration_t es m (b env) e1 m1 tr1 I ltac:(lia) R O2) as (id & msgs & y & L1 & L2 & L3).
    destruct (IH es1 m1 e1 e2 m2 l2 I1 ltac:(lia) Fb Dr O) as (ys & R1 & R2 & R3).
    exists (untimed y :: ys). unfold log_of in *. cbn [flat_map fst]. rewrite L1. cbn [app map rounds snd length]. rewrite <- (kept_t None env (b env) ltac:(discriminate) (F1 env)), L3, R1, R2, R3.
    split; [reflexivity|]. split; [|reflexivity]. f_equal. rewrite nth_error_map, L2. reflexivity.
Qed.

Lemma session_t n zero between env env' m' l : 0 < n -> (N.of_nat (length between) < 2 ^ 32)%N ->
  Forall (fun b => forall e, same_states kind state None e (b e)) between ->
  session a o between (mgr_new n zero) env = (env', m', l) -> only_ignored l ->
  exists ys, alone f_task f_process blank t (map (fun r => given s (snd r)) (log_of l)) (state env t) = (state env' t, ys) /\
    map (fun r => nth_error (map untimed (snd r)) k) (log_of l) = map Some ys /\ length (log_of l) = length between.
Proof.
  intros Hn B Fb H O. unfold session in H. destruct (all_tasks a o Start env) as [[e1 t1] r1] eqn:A.
  destruct (driven a o between (mgr_new n zero) e1) as [[e2 m2] l2] eqn:Dr. injection H as <- <- <-.
  apply Forall_cons_iff in O. destruct O as [[O1 O2] O]. cbn [fst snd] in O1, O2. subst r1.
  unfold all_tasks in A. destruct (lifecycle a o Start (seq 0 (a_tasks a)) env) as [[e0 t0] f0] eqn:Lf.
  pose proof (lifecycle_task_only a o _ _ _ _ _ _ Lf) as Q3. apply task_only_logged in Q3. destruct Q3 as [Q3 _].
  assert (G : state e1 t = fst (f_task Start t 0%N (state env t)) /\ logged t1 = []).
  { destruct f0.
    - pose proof (kept_t None _ _ ltac:(discriminate) (det_monitor _ _ _ _ _ _ D Start e0)) as S1. destruct (o_monitor o Start e0) as [e3 r]. injection A as <- <- _. cbn [fst] in S1.
      destruct (lifecycle_t _ _ (seq_NoDup _ _) _ _ _ _ Lf (nod_l _ _ O2)) as [S0 _]. rewrite in_tasks in S0. rewrite S1, S0. split; [reflexivity|]. rewrite logged_app, Q3. reflexivity.
    - injection A as <- <- _. destruct (lifecycle_t _ _ (seq_NoDup _ _) _ _ _ _ Lf O2) as [S0 X]. discriminate X.
    - injection A as <- <- _. destruct (lifecycle_t _ _ (seq_NoDup _ _) _ _ _ _ Lf O2) as [S0 X]. discriminate X. }
  destruct G as [G1 G2]. destruct (driven_t between [] _ _ _ _ _ (minv_new n zero Hn) ltac:(cbn; lia) Fb Dr O) as (ys & R1 & R2 & R3).
  exists ys. unfold alone, log_of in *. cbn [flat_map fst]. rewrite G2. cbn [app]. rewrite <- G1. auto.
Qed.
End Alone.

(** * Theorems *)
Theorem C172_alone {V M Er S E : Type} a (o : oracles V M Er E) kind (state : E -> nat -> S) f_task f_process time n zero between env env' m' l t k s blank :
  ran_well a o kind state f_task f_process time n zero between env env' m' l ->
  placed a o kind f_task f_process t k s ->
  exists ys, alone f_task f_process blank t (inputs l s) (state env t) = (state env' t, ys) /\ column l k = map Some ys /\
    length ys = length between.
Proof.
  intros [D LO GP Lg Hn B Fb H O] [P1 P2 P3 P4 P5 P6 P7].
  destruct (session_t a o kind state f_task f_process time blank D t k s P1 P6 P7 LO GP Lg P2 P3 P4 P5 n zero between env env' m' l Hn B Fb H O) as (ys & R1 & R2 & R3).
  exists ys. split; [exact R1|]. split; [exact R2|]. rewrite <- R3. apply (f_equal (@length _)) in R2. rewrite !map_length in R2. auto.
Qed.
Print Assumptions C172_alone.

Section Cong.
Context {V M Er S : Type}.
Variable f g : phase -> nat -> N -> S -> S * option Er.
Variable fp gp : nat -> N -> list (msg V M) -> msg V M -> S -> S * msg V M * option Er.
Variable t u : nat.
Hypothesis Et : forall ph c x, f ph t c x = g ph u c x.
Hypothesis Ep : forall c ins out x, fp t c ins out x = gp u c ins out x.
Hypothesis Sc : self_contained f fp t.
Lemma round_cong b ins ins' x : map untimed ins = map untimed ins' -> round f fp b t ins x = round g gp b u ins' x.
Proof.
  intros H. unfold round. rewrite <- !Et, <- !Ep. pose proof (sc_process _ _ _ Sc 0%N 0%N ins ins' b b (fst (f Preprocess t 0%N x)) H) as X.
  destruct (fp t 0%N ins b (fst (f Preprocess t 0%N x))) as [[x1 y1] r1]. destruct (fp t 0%N ins' b (fst (f Preprocess t 0%N x))) as [[x2 y2] r2].
  destruct X as (-> & Hy & ->). rewrite <- Et. f_equal. destruct r2; [|exact Hy]. unfold untimed in *. cbn in *. injection Hy as _ ->. reflexivity.
Qed.
Lemma rounds_cong b : forall inss inss' x, map (map untimed) inss = map (map untimed) inss' -> rounds f fp b t inss x = rounds g gp b u inss' x.
Proof.
  induction inss as [|i is IH]; intros [|i' is'] x H; try discriminate; [reflexivity|]. cbn [map] in H. injection H as H1 H2.
  cbn [rounds]. rewrite (round_cong b i i' x H1). destruct (round g gp b u i' x) as [x1 y]. rewrite (IH is' x1 H2). reflexivity.
Qed.
End Cong.

Lemma given_columns {V M} (s s' : step) : forall (p q : list (N * list (msg V M))), length p = length q ->
  Forall2 (fun i j => map (fun r => nth_error (map untimed (snd r)) (fst i)) p = map (fun r => nth_error (map untimed (snd r)) (fst j)) q) (s_inputs s) (s_inputs s') ->
  map (map untimed) (map (fun r => given s (snd r)) p) = map (map untimed) (map (fun r => given s' (snd r)) q).
Proof.
  induction p as [|r p IH]; intros [|r' q] L F; try discriminate; [reflexivity|]. cbn [map]. f_equal.
  - unfold given. clear IH L. induction F as [|i j is js H F IHF]; [reflexivity|]. cbn [flat_map]. rewrite !map_app, IHF. f_equal.
    cbn [map] in H. injection H as H _. rewrite !nth_error_map in H. destruct (nth_error (snd r) (fst i)), (nth_error (snd r') (fst j)); cbn in *; congruence.
  - apply IH; [now injection L|]. clear -F. induction F as [|i j is js H F IHF]; constructor; auto. cbn [map] in H. now injection H.
Qed.

(** Two runs, of whatever applications, agree on slots [k1] and [k2]: these belong to the same regular task started from the same state
    with inputs they agree on, or to other tasks that sent the same. *)
Section Apart.
Context {V M Er S E1 E2 : Type}.
Variable a1 : application.
Variable o1 : oracles V M Er E1.
Variable kind1 : nat -> task_type.
Variable state1 : E1 -> nat -> S.
Variable f1 : phase -> nat -> N -> S -> S * option Er.
Variable p1 : nat -> N -> list (msg V M) -> msg V M -> S -> S * msg V M * option Er.
Variable time1 : E1 -> N.
Variable a2 : application.
Variable o2 : oracles V M Er E2.
Variable kind2 : nat -> task_type.
Variable state2 : E2 -> nat -> S.
Variable f2 : phase -> nat -> N -> S -> S * option Er.
Variable p2 : nat -> N -> list (msg V M) -> msg V M -> S -> S * msg V M * option Er.
Variable time2 : E2 -> N.
Variable env1 : E1.
Variable env2 : E2.
Variable l1 l2 : list (list (event V M Er) * result (Er := Er)).
Record same_task (t1 t2 : nat) : Prop := {
  sm_task : forall ph c x, f1 ph t1 c x = f2 ph t2 c x;
  sm_process : forall c ins out x, p1 t1 c ins out x = p2 t2 c ins out x;
  sm_start : state1 env1 t1 = state2 env2 t2 }.
(** [R] relates slots of two plans so that related slots that are not of sources, or are given from
    outside, are of the same tasks, with related inputs. *)
Definition same_part (R : nat -> nat -> Prop) : Prop := forall k1 k2, R k1 k2 ->
  column l1 k1 = column l2 k2 \/
  exists t1 t2 s1 s2, placed a1 o1 kind1 f1 p1 t1 k1 s1 /\ placed a2 o2 kind2 f2 p2 t2 k2 s2 /\ same_task t1 t2 /\
    Forall2 (fun i j => R (fst i) (fst j)) (s_inputs s1) (s_inputs s2).

Theorem C172_apart (blank : msg V M) n1 zero1 between1 env1' m1 n2 zero2 between2 env2' m2 R :
  ran_well a1 o1 kind1 state1 f1 p1 time1 n1 zero1 between1 env1 env1' m1 l1 ->
  ran_well a2 o2 kind2 state2 f2 p2 time2 n2 zero2 between2 env2 env2' m2 l2 ->
  length between1 = length between2 -> same_part R ->
  (forall k1 k2, R k1 k2 -> column l1 k1 = column l2 k2) /\
  (forall k1 k2 t1 t2 s1 s2, placed a1 o1 kind1 f1 p1 t1 k1 s1 -> placed a2 o2 kind2 f2 p2 t2 k2 s2 -> same_task t1 t2 ->
     Forall2 (fun i j => R (fst i) (fst j)) (s_inputs s1) (s_inputs s2) -> state1 env1' t1 = state2 env2' t2).
Proof.
  intros W1 W2 Lb Sp.
  assert (Core : forall k1 k2 t1 t2 s1 s2, placed a1 o1 kind1 f1 p1 t1 k1 s1 -> placed a2 o2 kind2 f2 p2 t2 k2 s2 -> same_task t1 t2 ->
    Forall2 (fun i j => column l1 (fst i) = column l2 (fst j)) (s_inputs s1) (s_inputs s2) ->
    column l1 k1 = column l2 k2 /\ state1 env1' t1 = state2 env2' t2).
  { intros k1 k2 t1 t2 s1 s2 P1 P2 [E1' E2' E3'] F.
    destruct (C172_alone _ _ _ _ _ _ _ _ _ _ _ _ _ _ _ _ _ blank W1 P1) as (y1 & A1 & B1 & L1).
    destruct (C172_alone _ _ _ _ _ _ _ _ _ _ _ _ _ _ _ _ _ blank W2 P2) as (y2 & A2 & B2 & L2).
    assert (Ll : length (log_of l1) = length (log_of l2)).
    { apply (f_equal (@length _)) in B1. apply (f_equal (@length _)) in B2. unfold column in B1, B2. rewrite !map_length in B1, B2. congruence. }
    pose proof (given_columns s1 s2 (log_of l1) (log_of l2) Ll F) as G. fold (inputs l1 s1) (inputs l2 s2) in G.
    unfold alone in A1, A2. rewrite (rounds_cong f1 f2 p1 p2 t1 t2 E1' E2' (pl_self _ _ _ _ _ _ _ _ P1) blank _ _ _ G), E3', E1', A2 in A1. injection A1 as -> ->.
    rewrite B1, B2. auto. }
  assert (Col : forall k1 k2, R k1 k2 -> column l1 k1 = column l2 k2).
  { intros k1. induction k1 as [k1 IH] using lt_wf_ind. intros k2 H. destruct (Sp k1 k2 H) as [X|(t1 & t2 & s1 & s2 & P1 & P2 & Sm & F)]; [exact X|].
    apply (Core k1 k2 t1 t2 s1 s2 P1 P2 Sm). pose proof (proj2 (proj2 (rw_plan _ _ _ _ _ _ _ _ _ _ _ _ _ _ W1) _ _ (pl_slot _ _ _ _ _ _ _ _ P1))) as Lt.
    clear -F Lt IH. induction F as [|i j is js H F IHF]; constructor; apply Forall_cons_iff in Lt; destruct Lt as [Lt1 Lt]; auto. }
  split; [exact Col|]. intros k1 k2 t1 t2 s1 s2 P1 P2 Sm F. apply (Core k1 k2 t1 t2 s1 s2 P1 P2 Sm).
  clear -F Col. induction F; constructor; auto.
Qed.
End Apart.
Print Assumptions C172_apart.

(** * Examples *)
Lemma bot_contained t : self_contained bot_task (bot_process false) t.
Proof.
  split; [reflexivity|]. intros c c' ins ins' out out' x H. unfold bot_process, bot_sum.
  assert (F : fold_left (fun s i => match m_payload i with Some v => s + v | None => s end) ins x =
              fold_left (fun s i => match m_payload i with Some v => s + v | None => s end) ins' x).
  { revert ins' x H. induction ins as [|i is IH]; intros [|i' is'] x H; try discriminate; [reflexivity|]. cbn [map fold_left] in *.
    injection H as H1 H2 H3. rewrite H1. apply IH. exact H3. }
  rewrite F. cbn. auto.
Qed.
Definition calm_b (l : list (list (event nat unit nat) * result (Er := nat))) : bool :=
  forallb (fun x => match snd x with ROk => forallb (fun e => match e with EDecision _ _ _ Ignore => true | EDecision _ _ _ _ => false | _ => true end) (fst x) | _ => false end) l.
Lemma calm_check l : calm_b l = true -> only_ignored l.
Proof.
  intros H. unfold calm_b in H. rewrite forallb_forall in H. apply Forall_forall. intros x Hx. specialize (H x Hx). destruct (snd x); try discriminate H.
  split; [reflexivity|]. rewrite forallb_forall in H. intros ph t e d Hd. specialize (H _ Hd). destruct d; auto; discriminate H.
Qed.
(** Three iterations of the line 0 -> 1 -> 2, and of the graph 2 -> 0 -> 1 -> 3 whose clock runs and in which the first task
    of the middle starts like the one of the line. *)
Definition sent {V M} (l : list (option (msg V M))) : list (option V) := map (fun x => match x with Some m => m_payload m | None => None end) l.
Definition bot1 : bot := Bot 1 5 (fun t => 11 + t).
Definition line_bot := robot line_kind false 0 0 Ignore.
Definition quad_bot := robot quad_kind false 7 0 Ignore.
Definition ex_line := session (line_app false) line_bot settings (mgr_new 10 zero3) bot0.
Definition ex_quad := session quad_app quad_bot settings (mgr_new 2 zero4) bot1.
Definition ex_line_step : step := nth 1 line (Step 0 Source [] None).
Definition ex_quad_step : step := nth 1 quad (Step 0 Source [] None).
Lemma ex_line_ran : ran_well (line_app false) line_bot line_kind b_state bot_task (bot_process false) bot_time 10 zero3
  settings bot0 (fst (fst ex_line)) (snd (fst ex_line)) (snd ex_line).
Proof.
  constructor.
  - apply robot_deterministic.
  - intros e c. reflexivity.
  - exact (rp_plan _ _ _ _ _ _ (line_replayable false 0 0 Ignore false)).
  - reflexivity.
  - lia.
  - reflexivity.
  - apply settings_keep.
  - unfold ex_line. destruct (session _ _ _ _ _) as [[? ?] ?]. reflexivity.
  - apply calm_check. vm_compute. reflexivity.
Qed.
Lemma ex_quad_ran : ran_well quad_app quad_bot quad_kind b_state bot_task (bot_process false) bot_time 2 zero4
  settings bot1 (fst (fst ex_quad)) (snd (fst ex_quad)) (snd ex_quad).
Proof.
  constructor.
  - apply robot_deterministic.
  - intros e c. reflexivity.
  - exact (rp_plan _ _ _ _ _ _ (quad_replayable false 7 0 Ignore)).
  - reflexivity.
  - lia.
  - reflexivity.
  - apply settings_keep.
  - unfold ex_quad. destruct (session _ _ _ _ _) as [[? ?] ?]. reflexivity.
  - apply calm_check. vm_compute. reflexivity.
Qed.
Lemma ex_line_placed : placed (line_app false) line_bot line_kind bot_task (bot_process false) 1 1 ex_line_step.
Proof. split; try reflexivity; [repeat constructor|apply bot_contained|discriminate]. Qed.
Lemma ex_quad_placed : placed quad_app quad_bot quad_kind bot_task (bot_process false) 0 1 ex_quad_step.
Proof. split; try reflexivity; [repeat constructor|apply bot_contained|discriminate]. Qed.

(** In the second iteration the task fails, and its message is emptied. *)
Example C172_alone_ex :
  ran_well (line_app false) line_bot line_kind b_state bot_task (bot_process false) bot_time 10 zero3
    settings bot0 (fst (fst ex_line)) (snd (fst ex_line)) (snd ex_line) /\
  placed (line_app false) line_bot line_kind bot_task (bot_process false) 1 1 ex_line_step /\
  sent (column (snd ex_line) 0) = [Some 5; Some 15; Some 25] /\ sent (column (snd ex_line) 1) = [Some 18; None; Some 62] /\
  b_state bot0 1 = 11 /\ b_state (fst (fst ex_line)) 1 = 63.
Proof. split; [exact ex_line_ran|]. split; [exact ex_line_placed|]. vm_compute. auto. Qed.

(** Slot 0 and slot 1 of both plans: in the second, tasks 2 and 0. *)
Example C172_apart_ex :
  ran_well (line_app false) line_bot line_kind b_state bot_task (bot_process false) bot_time 10 zero3
    settings bot0 (fst (fst ex_line)) (snd (fst ex_line)) (snd ex_line) /\
  ran_well quad_app quad_bot quad_kind b_state bot_task (bot_process false) bot_time 2 zero4
    settings bot1 (fst (fst ex_quad)) (snd (fst ex_quad)) (snd ex_quad) /\
  same_part (line_app false) line_bot line_kind b_state bot_task (bot_process false) quad_app quad_bot quad_kind b_state bot_task (bot_process false)
    bot0 bot1 (snd ex_line) (snd ex_quad) (fun k1 k2 => k1 = k2 /\ k1 <= 1) /\
  snd ex_line <> snd ex_quad /\ sent (column (snd ex_quad) 1) = [Some 18; None; Some 62] /\ sent (column (snd ex_quad) 2) <> sent (column (snd ex_line) 2) /\
  b_state (fst (fst ex_quad)) 0 = 63.
Proof.
  split; [exact ex_line_ran|]. split; [exact ex_quad_ran|]. split.
  { intros k1 k2 [<- H]. destruct k1 as [|[|k]]; [left; vm_compute; reflexivity| |lia].
    right. exists 1, 0, ex_line_step, ex_quad_step. split; [exact ex_line_placed|]. split; [exact ex_quad_placed|]. split; [split; reflexivity|].
    repeat constructor. }
  split; [vm_compute; discriminate|]. split; [vm_compute; reflexivity|]. split; [vm_compute; discriminate|vm_compute; reflexivity].
Qed.

(** A task that may leave its output as it found it is not as it is alone: it sends again what an earlier copper list held in its slot. *)
Definition lazy_process (t : nat) (c : N) (ins : list (msg nat unit)) (out : msg nat unit) (x : nat) : nat * msg nat unit * option nat :=
  match ins with
  | i :: _ => match m_payload i with
              | Some 0 => (x, out, None)
              | Some v => (x, Msg (Some v) tt (m_start out) (m_end out), None)
              | None => (x, out, None)
              end
  | [] => (x, out, None)
  end.
Definition lazy_bot : oracles nat unit nat bot :=
  {| o_task := fun ph t env => match line_kind t with
       | Regular => (Bot (b_read env) (b_time env) (fun u => if u =? t then fst (bot_task ph t 0%N (b_state env t)) else b_state env u), None)
       | _ => (env, None) end;
     o_process := fun t ins out env => match line_kind t with
       | Regular => (env, snd (fst (lazy_process t 0%N ins out (b_state env t))), None)
       | _ => (Bot (pred (b_read env)) (b_time env) (b_state env), Msg (Some (b_read env)) tt (m_start out) (m_end out), None) end;
     o_sink := fun t ins env => (env, None);
     o_sim := fun ph t env => (env, ExecuteByRuntime);
     o_sim_process := fun t ins out env => (env, out, ExecuteByRuntime);
     o_decide := fun ph t e env => (env, Ignore);
     o_report := fun md env => (env, None);
     o_monitor := fun ph env => (env, None);
     o_now := fun env => (env, b_time env);
     o_log := o_log line_bot |}.
Theorem C172_leftover_refuted : exists (l : list (list (event nat unit nat) * result (Er := nat))) (o : oracles nat unit nat bot) f_task f_process env env' m' t k s blank ys,
  ran_well (line_app false) o line_kind b_state f_task f_process bot_time 1 zero3 settings env env' m' l /\
  line_kind t = Regular /\ s_type s = Regular /\ s_node s = t /\ nth_error line k = Some s /\ timeless line_kind f_task f_process keep_sink /\
  m_payload blank = None /\ nth_error zero3 k = Some blank /\
  alone f_task f_process blank t (inputs l s) (b_state env t) = (b_state env' t, ys) /\
  sent (column l k) = [Some 1; Some 1; Some 1] /\ map m_payload ys = [Some 1; None; None].
Proof.
  pose (R := session (line_app false) lazy_bot settings (mgr_new 1 zero3) bot0).
  exists (snd R), lazy_bot, bot_task, lazy_process, bot0, (fst (fst R)), (snd (fst R)), 1, 1, ex_line_step, (Msg None tt None None).
  eexists. split; [|split; [reflexivity|split; [reflexivity|split; [reflexivity|split; [reflexivity|split; [|split; [reflexivity|split; [reflexivity|split; [vm_compute; reflexivity|vm_compute; auto]]]]]]]]].
  - constructor.
    + split; cbn [lazy_bot o_task o_process o_sink o_sim o_sim_process o_decide o_report o_monitor o_now fst snd].
      all: try (intros; intros u Hu Hn; reflexivity).
      * intros ph t env ->. cbn. rewrite Nat.eqb_refl. split; auto. intros u Hu Hn. cbn. destruct (Nat.eqb_spec u t); congruence.
      * intros t ins out env ->. split; [|intros u Hu Hn; reflexivity]. unfold lazy_process. destruct ins as [|i is]; [reflexivity|]. destruct (m_payload i) as [[|v]|]; reflexivity.
      * intros ph t env Hk. destruct (line_kind t); try congruence; intros u Hu Hn; reflexivity.
      * intros t ins out env Hk. destruct (line_kind t); try congruence; intros u Hu Hn; reflexivity.
    + intros e c. reflexivity.
    + exact (rp_plan _ _ _ _ _ _ (line_replayable false 0 0 Ignore false)).
    + reflexivity.
    + lia.
    + reflexivity.
    + apply settings_keep.
    + unfold R. destruct (session _ _ _ _ _) as [[? ?] ?]. reflexivity.
    + apply calm_check. vm_compute. reflexivity.
  - split; [reflexivity| |].
    + intros t c c' ins ins' out out' x _ Hi Ho. unfold lazy_process. destruct ins as [|i is], ins' as [|i' is']; try discriminate Hi; [auto|].
      cbn [map] in Hi. assert (Hp : m_payload i = m_payload i') by (apply (f_equal (fun z => match z with y :: _ => m_payload y | [] => None end)) in Hi; exact Hi).
      rewrite Hp. destruct (m_payload i') as [[|v]|]; auto.
    + intros t ins ins' out out' _ H. exact H.
Qed.
Print Assumptions C172_leftover_refuted.
