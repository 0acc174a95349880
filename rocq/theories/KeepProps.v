(** What a task finds in its output message: theorems. *)
From Coq Require Import String List Arith NArith Bool Lia ZifyBool ZifyNat ZifyN.
From Verif Require Import Base CuListModel CuListProofs PlanModel RuntimeModel RuntimeSpec RuntimeProofs RuntimeProofs2 RuntimeProofs3
  RuntimeProofs4 RuntimeProofs5 RuntimeProofs6 RuntimeProps ReplaySpec ReplayProps AloneProps.
Import ListNotations.
Local Open Scope list_scope.
Local Open Scope nat_scope.

(** * Specification *)
Section Spec.
Context {V M Er S : Type}.
Notation message := (msg V M).
Variable f_task : phase -> nat -> N -> S -> S * option Er.
Variable f_process : nat -> N -> list message -> message -> S -> S * message * option Er.
(** What task [t] does, without its process times, does not depend on the clock nor on process times; it
    may depend on what its output message held before. *)
Record clockless (t : nat) : Prop := {
  cs_task : forall ph c c' x, f_task ph t c x = f_task ph t c' x;
  cs_process : forall c c' ins ins' out out' x, map untimed ins = map untimed ins' -> untimed out = untimed out' ->
    let '(x1, y1, r1) := f_process t c ins out x in
    let '(x2, y2, r2) := f_process t c' ins' out' x in
    x1 = x2 /\ untimed y1 = untimed y2 /\ r1 = r2 }.
(** Task [t] alone: one round on given inputs, writing over message [y]; what an error leaves is emptied. *)
Definition rewrite_round (t : nat) (ins : list message) (y : message) (x : S) : S * message :=
  let x := fst (f_task Preprocess t 0%N x) in
  let '(x, y, r) := f_process t 0%N ins y x in
  (fst (f_task Postprocess t 0%N x), untimed (match r with Some _ => Msg None (m_meta y) (m_start y) (m_end y) | None => y end)).
(** Round after round, each over the message the last one left. *)
Fixpoint rewrite_rounds (t : nat) (inss : list (list message)) (y : message) (x : S) : S * list message :=
  match inss with
  | [] => (x, [])
  | ins :: inss => let (x, y) := rewrite_round t ins y x in let (x, ys) := rewrite_rounds t inss y x in (x, y :: ys)
  end.
Definition rewriting (t : nat) (inss : list (list message)) (y : message) (x : S) : S * list message := rewrite_rounds t inss y (fst (f_task Start t 0%N x)).
End Spec.

(** Regular task [t], called by step [s] for slot [k], is left to the runtime. *)
Record settled {V M Er S E : Type} (a : application) (o : oracles V M Er E) (kind : nat -> task_type)
    (f_task : phase -> nat -> N -> S -> S * option Er) (f_process : nat -> N -> list (msg V M) -> msg V M -> S -> S * msg V M * option Er) (t k : nat) (s : step) : Prop := {
  st_kind : kind t = Regular;
  st_type : s_type s = Regular;
  st_node : s_node s = t;
  st_slot : nth_error (a_plan a) k = Some s;
  st_task : t < a_tasks a;
  st_self : clockless f_task f_process t;
  st_sim : a_sim a = true -> (forall ph env, snd (o_sim o ph t env) = ExecuteByRuntime) /\
    (forall ins out env, snd (o_sim_process o t ins out env) = ExecuteByRuntime /\ snd (fst (o_sim_process o t ins out env)) = out) }.

(** * Proofs *)
Lemma nth_firstn {A} (l : list A) : forall n i, i < n -> nth_error (firstn n l) i = nth_error l i.
Proof. induction l as [|x l IH]; intros [|n] [|i] H; try lia; try reflexivity. cbn. apply IH. lia. Qed.
Lemma given_firstn {V M} (q : step) n (msgs msgs' : list (msg V M)) : Forall (fun i => fst i < n) (s_inputs q) -> firstn n msgs = firstn n msgs' -> given q msgs = given q msgs'.
Proof.
  intros F H. unfold given. induction F as [|i is Hi F IH]; cbn; [reflexivity|]. rewrite IH. f_equal.
  rewrite <- (nth_firstn msgs n), <- (nth_firstn msgs' n), H by auto. reflexivity.
Qed.
Lemma firstn_less {A} (l l' : list A) n m : m <= n -> firstn n l = firstn n l' -> firstn m l = firstn m l'.
Proof. intros L H. apply (f_equal (firstn m)) in H. rewrite !firstn_firstn in H. replace (Nat.min m n) with m in H by lia. exact H. Qed.
Section Kept.
Context {V M Er S E : Type}.
Variable a : application.
Variable o : oracles V M Er E.
Variable kind : nat -> task_type.
Variable state : E -> nat -> S.
Variable f_task : phase -> nat -> N -> S -> S * option Er.
Variable f_process : nat -> N -> list (msg V M) -> msg V M -> S -> S * msg V M * option Er.
Variable time : E -> N.
Hypothesis D : deterministic o kind state f_task f_process time.
Notation message := (msg V M).
Notation ev := (event V M Er).
Variable t k : nat.
Variable s : step.
Hypothesis Rg : kind t = Regular.
Hypothesis Sc : clockless f_task f_process t.
Hypothesis Sim : a_sim a = true -> (forall ph env, snd (o_sim o ph t env) = ExecuteByRuntime) /\
  (forall ins out env, snd (o_sim_process o t ins out env) = ExecuteByRuntime /\ snd (fst (o_sim_process o t ins out env)) = out).
Lemma kept_t b env env' : b <> Some t -> same_states kind state b env env' -> state env' t = state env t.
Proof. intros B H. apply H; auto. Qed.

Lemma act_t ph u e env env' tr f : act o ph u e env = (env', tr, f) -> nod tr -> state env' t = state env t /\ f = Next.
Proof.
  unfold act. pose proof (det_decide _ _ _ _ _ _ D ph u e env) as H. destruct (o_decide o ph u e env) as [env1 d]. intros X Nd; injection X as <- <- <-.
  split; [apply (kept_t None); [discriminate|exact H]|]. specialize (Nd ph u e d (or_introl eq_refl)). subst d. reflexivity.
Qed.
Lemma do_call_other ph u env env' tr f : u <> t -> do_call o ph u env = (env', tr, f) -> nod tr -> state env' t = state env t /\ f = Next.
Proof.
  intros Hu. unfold do_call.
  assert (G : state (fst (o_task o ph u env)) t = state env t).
  { destruct (kind u) eqn:K.
    - apply (kept_t None); [discriminate|]. apply (det_other_task _ _ _ _ _ _ D). congruence.
    - pose proof (det_task _ _ _ _ _ _ D ph u env K) as H. destruct (o_task o ph u env) as [e1 r]. apply (kept_t (Some u)); [congruence|apply H].
    - apply (kept_t None); [discriminate|]. apply (det_other_task _ _ _ _ _ _ D). congruence. }
  destruct (o_task o ph u env) as [e1 [e|]]; cbn [fst] in G.
  - destruct (act o ph u e e1) as [[e2 t2] f2] eqn:A. intros X Nd; injection X as <- <- <-.
    destruct (act_t _ _ _ _ _ _ _ A (nod_r [_] _ Nd)) as [-> ->]. auto.
  - intros X _; injection X as <- <- <-. auto.
Qed.
Lemma do_call_t ph env env' tr f : do_call o ph t env = (env', tr, f) -> nod tr -> state env' t = fst (f_task ph t 0%N (state env t)) /\ f = Next.
Proof.
  unfold do_call. pose proof (det_task _ _ _ _ _ _ D ph t env Rg) as H. rewrite (cs_task _ _ _ Sc ph (time env) 0%N) in H.
  destruct (o_task o ph t env) as [e1 r]. destruct H as [H _]. destruct r as [e|].
  - destruct (act o ph t e e1) as [[e2 t2] f2] eqn:A. intros X Nd; injection X as <- <- <-.
    destruct (act_t _ _ _ _ _ _ _ A (nod_r [_] _ Nd)) as [-> ->]. rewrite H. auto.
  - intros X _; injection X as <- <- <-. rewrite H. auto.
Qed.
Lemma one_call_t ph u env env' tr f : one_call a o ph u env = (env', tr, f) -> nod tr ->
  state env' t = (if Nat.eqb u t then fst (f_task ph t 0%N (state env t)) else state env t) /\ f = Next.
Proof.
  unfold one_call. destruct (a_sim a) eqn:Sm.
  - pose proof (kept_t None _ _ ltac:(discriminate) (det_sim _ _ _ _ _ _ D ph u env)) as H.
    destruct (o_sim o ph u env) as [e1 ovr] eqn:Os. cbn [fst] in H. rewrite <- H. destruct (Nat.eqb_spec u t) as [->|Nu].
    + destruct (Sim eq_refl) as [Q _]. specialize (Q ph env). rewrite Os in Q. cbn in Q. subst ovr.
      destruct (do_call o ph t e1) as [[e2 t2] f2] eqn:C. intros X Nd; injection X as <- <- <-. eapply do_call_t; eauto. exact (nod_r [_] _ Nd).
    + destruct ovr as [| |e].
      * intros X _; injection X as <- <- <-. auto.
      * destruct (do_call o ph u e1) as [[e2 t2] f2] eqn:C. intros X Nd; injection X as <- <- <-. eapply do_call_other; eauto. exact (nod_r [_] _ Nd).
      * destruct (act o ph u e e1) as [[e2 t2] f2] eqn:C. intros X Nd; injection X as <- <- <-. eapply act_t; eauto. exact (nod_r [_] _ Nd).
  - destruct (Nat.eqb_spec u t) as [->|Nu]; [apply do_call_t|now apply do_call_other].
Qed.
Lemma lifecycle_t ph ts : NoDup ts -> forall env env' tr f, lifecycle a o ph ts env = (env', tr, f) -> nod tr ->
  state env' t = (if existsb (Nat.eqb t) ts then fst (f_task ph t 0%N (state env t)) else state env t) /\ f = Next.
Proof.
  induction 1 as [|u ts Hu Hd IH]; intros env env' tr f; cbn [lifecycle existsb].
  - intros X _; injection X as <- <- <-. auto.
  - destruct (one_call a o ph u env) as [[e1 t1] f1] eqn:C.
    assert (G : nod t1 -> f1 = Next) by (intros Nd; apply (one_call_t _ _ _ _ _ _ C Nd)).
    destruct f1; try (intros X Nd; injection X as <- <- <-; specialize (G Nd); discriminate G). clear G.
    destruct (lifecycle a o ph ts e1) as [[e2 t2] f2] eqn:L. intros X Nd; injection X as <- <- <-.
    destruct (one_call_t _ _ _ _ _ _ C (nod_l _ _ Nd)) as [G1 _]. destruct (IH _ _ _ _ L (nod_r _ _ Nd)) as [G2 G3]. split; [|exact G3].
    rewrite G2, G1, (Nat.eqb_sym u t). destruct (Nat.eqb_spec t u) as [<-|Nu]; [|reflexivity].
    assert (Nt : existsb (Nat.eqb t) ts = false); [|now rewrite Nt].
    destruct (existsb (Nat.eqb t) ts) eqn:Ex; [|reflexivity]. apply existsb_exists in Ex. destruct Ex as (v & Hv & Ev). apply Nat.eqb_eq in Ev. congruence.
Qed.

Lemma now_t env : state (fst (o_now o env)) t = state env t.
Proof. apply (kept_t None); [discriminate|]. apply (det_now _ _ _ _ _ _ D). Qed.
Lemma pact_t u e out env env' tr out' f : pact o u e out env = (env', tr, out', f) -> nod tr ->
  state env' t = state env t /\ f = PNext /\ out' = clear_payload out.
Proof.
  unfold pact. pose proof (det_decide _ _ _ _ _ _ D Process u e env) as H. destruct (o_decide o Process u e env) as [env1 d].
  assert (G : state env1 t = state env t) by (apply (kept_t None); [discriminate|exact H]).
  destruct d; intros X Nd; injection X as <- <- <- <-; try (specialize (Nd Process u e _ (or_introl eq_refl)); discriminate Nd). auto.
Qed.
Lemma do_process_other q ins b out env env' tr out' f : s_node q <> t -> do_process o q ins b out env = (env', tr, out', f) -> nod tr -> state env' t = state env t.
Proof.
  intros Hq. unfold do_process. pose proof (now_t env) as N0. destruct (o_now o env) as [e0 t0]. cbn [fst] in N0.
  set (X := if b then _ else _).
  assert (HX : exists e1 tr1 o1 r, X = (e1, tr1, o1, r) /\ state e1 t = state e0 t).
  { subst X. destruct b; [|do 4 eexists; split; [reflexivity|reflexivity]].
    assert (Pr : state (fst (fst (o_process o (s_node q) ins (with_start t0 out) e0))) t = state e0 t).
    { destruct (kind (s_node q)) eqn:K.
      - apply (kept_t None); [discriminate|]. apply (det_other_process _ _ _ _ _ _ D). congruence.
      - pose proof (det_process _ _ _ _ _ _ D (s_node q) ins (with_start t0 out) e0 K) as H. destruct (o_process o (s_node q) ins (with_start t0 out) e0) as [[e1 o1] r].
        apply (kept_t (Some (s_node q))); [congruence|apply H].
      - apply (kept_t None); [discriminate|]. apply (det_other_process _ _ _ _ _ _ D). congruence. }
    destruct (s_type q).
    - destruct (o_process o (s_node q) ins (with_start t0 out) e0) as [[e1 o1] r]. do 4 eexists; split; [reflexivity|exact Pr].
    - destruct (o_process o (s_node q) ins (with_start t0 out) e0) as [[e1 o1] r]. do 4 eexists; split; [reflexivity|exact Pr].
    - pose proof (kept_t None _ _ ltac:(discriminate) (det_sink _ _ _ _ _ _ D (s_node q) ins e0)) as H. destruct (o_sink o (s_node q) ins e0) as [e1 r].
      do 4 eexists; split; [reflexivity|exact H]. }
  destruct HX as (e1 & tr1 & o1 & r & -> & H1). pose proof (now_t e1) as N1. destruct (o_now o e1) as [e2 t1]. cbn [fst] in N1.
  destruct r as [e|].
  - destruct (pact o (s_node q) e (with_end t1 o1) e2) as [[[e3 tr3] o3] f3] eqn:P. intros Y Nd; injection Y as <- <- <- <-.
    destruct (pact_t _ _ _ _ _ _ _ _ P (nod_r _ _ Nd)) as (G & _). congruence.
  - intros Y _; injection Y as <- <- <- <-. congruence.
Qed.
Lemma process_msg_other q ins out env env' tr out' f : s_node q <> t -> process_msg a o q ins out env = (env', tr, out', f) -> nod tr -> state env' t = state env t.
Proof.
  intros Hq. unfold process_msg. destruct (a_sim a); [|now apply do_process_other].
  pose proof (kept_t None _ _ ltac:(discriminate) (det_sim_process _ _ _ _ _ _ D (s_node q) ins out env)) as H.
  destruct (o_sim_process o (s_node q) ins out env) as [[e1 o1] ovr]. cbn [fst] in H. rewrite <- H. destruct ovr as [| |e].
  - destruct (do_process o q ins false o1 e1) as [[[e2 t2] o2] f2] eqn:P. intros Y Nd; injection Y as <- <- <- <-. eapply do_process_other; eauto. exact (nod_r [_] _ Nd).
  - destruct (do_process o q ins true o1 e1) as [[[e2 t2] o2] f2] eqn:P. intros Y Nd; injection Y as <- <- <- <-. eapply do_process_other; eauto. exact (nod_r [_] _ Nd).
  - destruct (pact o (s_node q) e o1 e1) as [[[e3 t3] o3] f3] eqn:P. 
    assert (G : nod t3 -> state e3 t = state e1 t) by (intros Nd; apply (pact_t _ _ _ _ _ _ _ _ P Nd)).
    destruct f3; try (intros Y Nd; injection Y as <- <- <- <-; apply G; exact (nod_r [_] _ Nd)).
    destruct (do_process o q ins false o3 e3) as [[[e2 t2] o2] f2] eqn:P2. intros Y Nd; injection Y as <- <- <- <-. apply (nod_r [_]) in Nd.
    rewrite <- (G (nod_l _ _ Nd)). eapply do_process_other; eauto. exact (nod_r _ _ Nd).
Qed.
Definition made (ins : list message) (out : message) (x : S) : S * message :=
  let '(x, y, r) := f_process t 0%N ins out x in
  (x, untimed (match r with Some _ => Msg None (m_meta y) (m_start y) (m_end y) | None => y end)).
Lemma process_msg_t ins out env env' tr out' f : s_node s = t -> s_type s = Regular -> process_msg a o s ins out env = (env', tr, out', f) -> nod tr ->
  made ins out (state env t) = (state env' t, untimed out') /\ f = PNext.
Proof.
  intros Hs Ht.
  assert (G : forall out env env' tr out' f, do_process o s ins true out env = (env', tr, out', f) -> nod tr -> made ins out (state env t) = (state env' t, untimed out') /\ f = PNext).
  { clear - D Rg Sc Hs Ht. intros out env env' tr out' f. unfold do_process. rewrite Hs, Ht. pose proof (now_t env) as N0. destruct (o_now o env) as [e0 t0]. cbn [fst] in N0.
    pose proof (det_process _ _ _ _ _ _ D t ins (with_start t0 out) e0 Rg) as H. pose proof (cs_process _ _ _ Sc (time e0) 0%N ins ins (with_start t0 out) out (state e0 t) eq_refl eq_refl) as Q.
    destruct (o_process o t ins (with_start t0 out) e0) as [[e1 o1] r1]. destruct H as [H _]. rewrite H in Q. unfold made. rewrite N0 in Q.
    destruct (f_process t 0%N ins out (state env t)) as [[x y] r]. destruct Q as (Q1 & Q2 & Q3). subst r1 x.
    pose proof (now_t e1) as N1. destruct (o_now o e1) as [e2 t1]. cbn [fst] in N1. rewrite <- N1. destruct r as [e|].
    - destruct (pact o t e (with_end t1 o1) e2) as [[[e3 tr3] o3] f3] eqn:P. intros Y Nd; injection Y as <- <- <- <-.
      destruct (pact_t _ _ _ _ _ _ _ _ P (nod_r [_] _ Nd)) as (G & -> & ->). rewrite G. split; [|reflexivity]. f_equal. unfold untimed in *. cbn in *. injection Q2 as _ Qm. now rewrite Qm.
    - intros Y _; injection Y as <- <- <- <-. split; [|reflexivity]. f_equal. symmetry. exact Q2. }
  unfold process_msg. destruct (a_sim a) eqn:Sm; [|apply G]. rewrite Hs.
  pose proof (kept_t None _ _ ltac:(discriminate) (det_sim_process _ _ _ _ _ _ D t ins out env)) as H.
  destruct (Sim eq_refl) as [_ Q]. specialize (Q ins out env).
  destruct (o_sim_process o t ins out env) as [[e1 o1] ovr]. cbn [fst snd] in H, Q. destruct Q as [-> ->]. rewrite <- H.
  destruct (do_process o s ins true out e1) as [[[e2 t2] o2] f2] eqn:P. intros Y Nd; injection Y as <- <- <- <-. eapply G; eauto. exact (nod_r [_] _ Nd).
Qed.

Lemma process_all_t : forall ss n,
  (forall j q, nth_error ss j = Some q -> (exists ty, s_out q = Some (n + j, ty)) /\ Forall (fun i => fst i < n + j) (s_inputs q)) ->
  NoDup (map s_node ss) -> forall msgs env env' tr msgs', process_all a o ss msgs env = (env', tr, msgs', PNext) -> nod tr ->
  firstn n msgs' = firstn n msgs /\
  (~ In t (map s_node ss) -> state env' t = state env t) /\
  (forall j, nth_error ss j = Some s -> s_node s = t -> s_type s = Regular ->
     exists y0 y, nth_error msgs (n + j) = Some y0 /\ nth_error msgs' (n + j) = Some y /\ made (given s msgs') y0 (state env t) = (state env' t, untimed y)).
Proof.
  induction ss as [|q ss IH]; intros n GP Nd msgs env env' tr msgs'; cbn [process_all].
  - intros H _; injection H as <- <- <-. split; auto. split; auto. intros j Hj. destruct j; discriminate Hj.
  - destruct (GP 0 q eq_refl) as ((ty & So) & Fi). rewrite Nat.add_0_r in So, Fi. unfold process_step. rewrite So.
    destruct (nth_error msgs n) as [out|] eqn:N; [|discriminate].
    destruct (gather msgs (s_inputs q)) as [ins|] eqn:G; [|discriminate]. apply gather_given in G.
    destruct (process_msg a o q ins out env) as [[[env1 tr1] out1] f1] eqn:P. destruct f1; try discriminate.
    destruct (process_all a o ss (upd n out1 msgs) env1) as [[[env2 tr2] msgs2] f2] eqn:Q. intros H Nt; injection H as <- <- <- ->.
    assert (GP' : forall j q, nth_error ss j = Some q -> (exists ty, s_out q = Some (Datatypes.S n + j, ty)) /\ Forall (fun i => fst i < Datatypes.S n + j) (s_inputs q)).
    { intros j q0 H. replace (Datatypes.S n + j) with (n + Datatypes.S j) by lia. exact (GP (Datatypes.S j) q0 H). }
    cbn [map] in Nd. apply NoDup_cons_iff in Nd. destruct Nd as [Nq Nd].
    destruct (IH (Datatypes.S n) GP' Nd _ _ _ _ _ Q (nod_r _ _ Nt)) as (J1 & J2 & J3).
    assert (Nn : n < length msgs) by (apply nth_error_Some; congruence).
    assert (F0 : firstn n msgs2 = firstn n msgs) by (rewrite (firstn_less _ _ (Datatypes.S n) n (Nat.le_succ_diag_r n) J1); apply firstn_upd).
    split; [exact F0|]. split.
    + intros Hn. cbn [map In] in Hn. rewrite J2 by tauto. apply (process_msg_other _ _ _ _ _ _ _ _ ltac:(intros E1; apply Hn; left; exact E1) P (nod_l _ _ Nt)).
    + intros [|j] Hj Hs Ht; cbn [nth_error] in Hj.
      * injection Hj as ->. exists out, out1. rewrite Nat.add_0_r. split; [exact N|]. split.
        { rewrite <- (nth_firstn msgs2 (Datatypes.S n)) by lia. rewrite J1, nth_firstn by lia. now apply nth_error_upd_eq. }
        rewrite J2 by congruence. rewrite (given_firstn s n msgs2 msgs Fi F0), <- G.
        apply (process_msg_t _ _ _ _ _ _ _ Hs Ht P (nod_l _ _ Nt)).
      * replace (n + Datatypes.S j) with (Datatypes.S n + j) by lia. destruct (J3 j Hj Hs Ht) as (y0 & y & K1 & K2 & K3). rewrite nth_error_upd_neq in K1 by lia. exists y0, y. split; [exact K1|]. split; [exact K2|].
        rewrite <- (process_msg_other q ins out env env1 tr1 out1 PNext); [exact K3| |exact P|exact (nod_l _ _ Nt)].
        intros E1. apply Nq. rewrite E1, <- Hs. apply in_map_iff. exists s. split; [reflexivity|]. eapply nth_error_In; eauto.
Qed.

(** One iteration. *)
Hypothesis LO : writes_succeed o.
Hypothesis GP : good_plan (a_plan a).
Hypothesis Lg : a_logging a = true.
Hypothesis Kd : s_type s = Regular.
Hypothesis Sn : s_node s = t.
Hypothesis Sk : nth_error (a_plan a) k = Some s.
Hypothesis Tn : t < a_tasks a.
Lemma in_tasks : existsb (Nat.eqb t) (seq 0 (a_tasks a)) = true.
Proof. apply existsb_exists. exists t. split; [apply in_seq; lia|apply Nat.eqb_refl]. Qed.


(** The copper list in use is the first one whenever the last one was finished. *)
Definition resting (x : list message) (m : mgr (list message)) : Prop :=
  exists id rest, m_data m = mkCl id Free x :: rest /\ m_len m = 0 /\ m_ins m = 0 /\ Forall (fun c => cl_state c = Free) rest.
Lemma eop_rest (logger : option (cl (list message) -> bool)) id : forall l b nb lg out, Forall (fun c => cl_state c = Free) l ->
  exists b', fold_left (eop_step logger id) l (Ret (b, nb, lg, out)) = Ret (b', nb, lg, out ++ l).
Proof.
  induction l as [|c l IH]; intros b nb lg out F; cbn [fold_left]; [exists b; now rewrite app_nil_r|]. apply Forall_cons_iff in F. destruct F as [F1 F].
  assert (X : eop_step logger id (Ret (b, nb, lg, out)) c = Ret (false, nb, lg, out ++ [c])).
  { unfold eop_step. cbn [obind]. rewrite F1. cbn [clstate_eqb]. rewrite andb_false_r, F1. cbn [clstate_eqb]. rewrite andb_false_r. reflexivity. }
  rewrite X. destruct (IH false nb lg (out ++ [c]) F) as (b' & H). exists b'. rewrite H, <- app_assoc. reflexivity.
Qed.
Lemma create_rest x m : resting x m -> (m_next m + 1 < 2 ^ 32)%N ->
  exists p c rest, create (a_mode a) m = Ret (Some (p, 0)) /\ nth_error (m_data p) 0 = Some c /\ cl_id c = m_next m /\ cl_msgs c = x /\ (m_next p = m_next m + 1)%N /\
    m_data p = c :: rest /\ m_len p = 1 /\ m_ins p = 1 mod Datatypes.S (length rest) /\ Forall (fun c => cl_state c = Free) rest.
Proof.
  intros (id & rest & H1 & H2 & H3 & H4) B. destruct m as [d ln ins nx]. cbn in *. subst d ln ins. unfold create, is_full, cap. cbn [m_data m_len m_ins m_next length Nat.eqb nth_error].
  unfold succ_u32. rewrite (proj2 (N.ltb_lt _ _) B). cbn [obind upd]. eexists _, _, rest. repeat split; auto.
Qed.
Lemma finish_rest p c rest msgs env : a_logging a = true -> m_data p = c :: rest -> m_len p = 1 -> m_ins p = 1 mod Datatypes.S (length rest) -> Forall (fun c => cl_state c = Free) rest ->
  exists q, finish a o (cl_id c) (set_slot 0 (mkCl (cl_id c) Processing msgs) p) env = Ret (q, [ELog (cl_id c) msgs]) /\ resting msgs q /\ m_next q = m_next p.
Proof.
  intros Lo H1 H2 H3 H4. destruct p as [d ln ins nx]. cbn in H1, H2, H3. subst d ln ins. unfold finish, set_slot. rewrite Lo. cbn [m_data m_len m_ins m_next upd].
  unfold end_of_processing, iter_mut, cap. cbn [m_data m_ins m_len length].
  set (c1 := mkCl (cl_id c) Processing msgs). set (i := 1 mod Datatypes.S (length rest)).
  assert (Hi : i <= Datatypes.S (length rest)) by (pose proof (Nat.mod_upper_bound 1 (Datatypes.S (length rest))); subst i; lia).
  rewrite (proj2 (Nat.leb_le _ _) Hi). cbn [obind].
  assert (L : rev (firstn i (c1 :: rest)) ++ rev (skipn i (c1 :: rest)) = c1 :: rev rest).
  { subst i. destruct rest as [|c2 r2]; [reflexivity|]. rewrite Nat.mod_small by (cbn; lia). reflexivity. }
  rewrite L. cbn [fold_left].
  assert (X1 : eop_step (Some (o_log o env)) (cl_id c) (Ret (true, 0, [], [])) c1 = Ret (true, 0 + 1, [mkCl (cl_id c) BeingSerialized msgs], [mkCl (cl_id c) Free msgs])).
  { unfold eop_step. cbn [obind cl_id cl_state c1]. rewrite N.eqb_refl. cbn [clstate_eqb andb change_state cl_state cl_id cl_msgs]. unfold change_state. cbn [cl_id cl_msgs]. rewrite LO. reflexivity. }
  rewrite X1.
  destruct (eop_rest (Some (o_log o env)) (cl_id c) (rev rest) true (0 + 1) [mkCl (cl_id c) BeingSerialized msgs] [mkCl (cl_id c) Free msgs]) as (b' & ->); [apply Forall_rev; exact H4|].
  cbn [obind]. unfold iter_mut_write. cbn [m_data m_ins m_len m_next].
  assert (L2 : rev (firstn i ([mkCl (cl_id c) Free msgs] ++ rev rest)) ++ rev (skipn i ([mkCl (cl_id c) Free msgs] ++ rev rest)) = mkCl (cl_id c) Free msgs :: rest).
  { subst i. destruct rest as [|c2 r2]; [reflexivity|]. rewrite Nat.mod_small by (cbn; lia). change (mkCl (cl_id c) Free msgs :: rev (rev (c2 :: r2)) = mkCl (cl_id c) Free msgs :: c2 :: r2). now rewrite rev_involutive. }
  rewrite L2. cbn [Nat.add pop_n]. unfold pop, prev_ins, cap. cbn [m_len m_data m_ins Nat.eqb length].
  assert (P : (if i =? 0 then Datatypes.S (length rest) - 1 else i - 1) = 0).
  { subst i. destruct rest as [|c2 r2]; [reflexivity|]. rewrite Nat.mod_small by (cbn; lia). reflexivity. }
  rewrite P. cbn [nth_error obind]. eexists. split; [reflexivity|]. split; [|reflexivity]. exists (cl_id c), rest. auto.
Qed.

Lemma iteration_t x m env env' m' tr y0 : resting x m -> nth_error x k = Some y0 -> (m_next m + 1 < 2 ^ 32)%N ->
  run_one_iteration a o m env = (env', m', tr, ROk) -> nod tr ->
  exists id msgs y, logged tr = [(id, msgs)] /\ nth_error msgs k = Some y /\ rewrite_round f_task f_process t (given s msgs) y0 (state env t) = (state env' t, untimed y) /\
    resting msgs m' /\ (m_next m' = m_next m + 1)%N.
Proof.
  intros I Y B H Nt. unfold run_one_iteration in H.
  destruct (lifecycle a o Preprocess (seq 0 (a_tasks a)) env) as [[env3 tr3] f3] eqn:Lf.
  pose proof (fun N3 => lifecycle_t _ _ (seq_NoDup _ _) _ _ _ _ Lf N3) as L3. rewrite in_tasks in L3.
  pose proof (lifecycle_task_only a o _ _ _ _ _ _ Lf) as Q3. apply task_only_logged in Q3. destruct Q3 as [Q3 _].
  assert (N3 : nod tr3).
  { destruct f3; [|injection H as <- <- <- _; exact Nt|injection H as <- <- <- _; exact Nt].
    destruct (copperlist_body a o m env3) as [[[e4 m4] t4] f4]. destruct f4; [|injection H as <- <- <- _; exact (nod_l _ _ Nt)..].
    destruct (lifecycle a o Postprocess (seq 0 (a_tasks a)) e4) as [[e5 t5] f5]. injection H as <- <- <- _. exact (nod_l _ _ Nt). }
  destruct (L3 N3) as [S3 ->]. clear L3. unfold copperlist_body in H.
  destruct (create_rest _ _ I B) as (p & c & rest & C & Nc & Ci & Cm & Cn & R1 & R2 & R3 & R4). rewrite C, Nc in H.
  destruct (process_all a o (a_plan a) (cl_msgs c) env3) as [[[env4 tr4] ms4] f4] eqn:P.
  pose proof (process_all_task_only a o _ _ _ _ _ _ _ P) as Q4. apply task_only_logged in Q4. destruct Q4 as [Q4 _].
  pose proof (process_all_spec a o _ _ _ _ _ _ _ P) as [PS _].
  destruct f4 as [| |e|]; try discriminate H.
  2: { exfalso. destruct PS as (tr' & u & e & -> & _). destruct (report_and_finish _ _ _ _ _ _) as [[[? ?] tr6] ff].
       assert (X : In (EDecision Process u e Abort) tr); [|specialize (Nt _ _ _ _ X); discriminate Nt].
       destruct ff; try discriminate H; first [injection H as <- <- <- _|injection H as <- <- <-]; rewrite !in_app_iff; cbn; auto. }
  destruct (match collect_metadata a ms4 with Some md => e2e a md | None => Panic end) as [d|]; try discriminate H.
  unfold report_and_finish in H. destruct (collect_metadata a ms4) as [md|]; try discriminate H.
  pose proof (kept_t None _ _ ltac:(discriminate) (det_report _ _ _ _ _ _ D md env4)) as S5.
  destruct (o_report o md env4) as [e5 [e|]]; try discriminate H. cbn [fst] in S5.
  destruct (finish_rest p c rest ms4 e5 Lg R1 R2 R3 R4) as (q1 & Fq & Rq & Nq). rewrite Fq in H.
  destruct (lifecycle a o Postprocess (seq 0 (a_tasks a)) e5) as [[e7 t7] f7] eqn:L7.
  pose proof (lifecycle_task_only a o _ _ _ _ _ _ L7) as Q7. apply task_only_logged in Q7. destruct Q7 as [Q7 _].
  injection H as <- <- <- _. apply nod_r in Nt. pose proof (nod_l _ _ (nod_l _ _ Nt)) as N4. pose proof (nod_r _ _ Nt) as N7.
  destruct (lifecycle_t _ _ (seq_NoDup _ _) _ _ _ _ L7 N7) as [S7 _]. rewrite in_tasks in S7.
  destruct (process_all_t (a_plan a) 0 (fun j q K => proj2 GP j q K) (proj1 GP) _ _ _ _ _ P N4) as (_ & _ & T). destruct (T k Sk Sn Kd) as (y1 & y & Ny1 & Ny & My).
  cbn [Nat.add] in Ny1, Ny. rewrite Cm, Y in Ny1. injection Ny1 as <-.
  exists (cl_id c), ms4, y. split; [|split; [exact Ny|split; [|split; [exact Rq|lia]]]].
  - rewrite !logged_app, Q3, Q4, Q7. reflexivity.
  - unfold rewrite_round. rewrite <- S3. unfold made in My. destruct (f_process t 0%N (given s ms4) y0 (state env3 t)) as [[x1 y1] r1]. pose proof (f_equal fst My) as X1. pose proof (f_equal snd My) as X2. cbn [fst snd] in X1, X2. rewrite <- X2, S7, S5, <- X1. reflexivity.
Qed.

Lemma round_untimed ins y x : rewrite_round f_task f_process t ins (untimed y) x = rewrite_round f_task f_process t ins y x.
Proof.
  unfold rewrite_round. pose proof (cs_process _ _ _ Sc 0%N 0%N ins ins (untimed y) y (fst (f_task Preprocess t 0%N x)) eq_refl eq_refl) as X.
  destruct (f_process t 0%N ins (untimed y) (fst (f_task Preprocess t 0%N x))) as [[x1 y1] r1]. destruct (f_process t 0%N ins y (fst (f_task Preprocess t 0%N x))) as [[x2 y2] r2].
  destruct X as (-> & Hy & ->). f_equal. destruct r2; [|exact Hy]. unfold untimed in *. cbn in *. injection Hy as _ ->. reflexivity.
Qed.
Lemma rounds_untimed inss y x : rewrite_rounds f_task f_process t inss (untimed y) x = rewrite_rounds f_task f_process t inss y x.
Proof. destruct inss; [reflexivity|]. cbn [rewrite_rounds]. rewrite round_untimed. reflexivity. Qed.

Lemma driven_t : forall between x m env env' m' l y0, resting x m -> nth_error x k = Some y0 -> (m_next m + N.of_nat (length between) < 2 ^ 32)%N ->
  Forall (fun b => forall e, same_states kind state None e (b e)) between ->
  driven a o between m env = (env', m', l) -> only_ignored l ->
  exists ys, rewrite_rounds f_task f_process t (map (fun r => given s (snd r)) (log_of l)) y0 (state env t) = (state env' t, ys) /\
    map (fun r => nth_error (map untimed (snd r)) k) (log_of l) = map Some ys /\ length (log_of l) = length between.
Proof.
  induction between as [|b bs IH]; intros x m env env' m' l y0 I Y B Fb H O; cbn [driven] in H.
  - injection H as <- <- <-. exists []. auto.
  - destruct (run_one_iteration a o m (b env)) as [[[e1 m1] tr1] r1] eqn:R. destruct (driven a o bs m1 e1) as [[e2 m2] l2] eqn:Dr. injection H as <- <- <-.
    apply Forall_cons_iff in O. destruct O as [[O1 O2] O]. cbn [fst snd] in O1, O2. subst r1. apply Forall_cons_iff in Fb. destruct Fb as [F1 Fb].
    cbn [length] in B.
    destruct (iteration_t x m (b env) e1 m1 tr1 y0 I Y ltac:(lia) R O2) as (id & msgs & y & L1 & L2 & L3 & I1 & Nx).
    destruct (IH msgs m1 e1 e2 m2 l2 y I1 L2 ltac:(lia) Fb Dr O) as (ys & R1 & R2 & R3).
    exists (untimed y :: ys). unfold log_of in *. cbn [flat_map fst]. rewrite L1. cbn [app map rewrite_rounds snd length]. rewrite <- (kept_t None env (b env) ltac:(discriminate) (F1 env)), L3, rounds_untimed, R1, R2, R3.
    split; [reflexivity|]. split; [|reflexivity]. f_equal. rewrite nth_error_map, L2. reflexivity.
Qed.

Lemma session_t n zero between env env' m' l y0 : 0 < n -> nth_error zero k = Some y0 -> (N.of_nat (length between) < 2 ^ 32)%N ->
  Forall (fun b => forall e, same_states kind state None e (b e)) between ->
  session a o between (mgr_new n zero) env = (env', m', l) -> only_ignored l ->
  exists ys, rewriting f_task f_process t (map (fun r => given s (snd r)) (log_of l)) y0 (state env t) = (state env' t, ys) /\
    map (fun r => nth_error (map untimed (snd r)) k) (log_of l) = map Some ys /\ length (log_of l) = length between.
Proof.
  intros Hn Y B Fb H O. unfold session in H. destruct (all_tasks a o Start env) as [[e1 t1] r1] eqn:A.
  destruct (driven a o between (mgr_new n zero) e1) as [[e2 m2] l2] eqn:Dr. injection H as <- <- <-.
  apply Forall_cons_iff in O. destruct O as [[O1 O2] O]. cbn [fst snd] in O1, O2. subst r1.
  unfold all_tasks in A. destruct (lifecycle a o Start (seq 0 (a_tasks a)) env) as [[e0 t0] f0] eqn:Lf.
  pose proof (lifecycle_task_only a o _ _ _ _ _ _ Lf) as Q3. apply task_only_logged in Q3. destruct Q3 as [Q3 _].
  assert (G : state e1 t = fst (f_task Start t 0%N (state env t)) /\ logged t1 = []).
  { destruct f0.
    - pose proof (kept_t None _ _ ltac:(discriminate) (det_monitor _ _ _ _ _ _ D Start e0)) as S1. destruct (o_monitor o Start e0) as [e3 r]. injection A as <- <- _. cbn [fst] in S1.
      destruct (lifecycle_t _ _ (seq_NoDup _ _) _ _ _ _ Lf (nod_l _ _ O2)) as [S0 _]. rewrite in_tasks in S0. rewrite S1, S0. split; [reflexivity|]. rewrite logged_app, Q3. reflexivity.
    - injection A as <- <- _. destruct (lifecycle_t _ _ (seq_NoDup _ _) _ _ _ _ Lf O2) as [S0 X]. discriminate X.
    - injection A as <- <- _. destruct (lifecycle_t _ _ (seq_NoDup _ _) _ _ _ _ Lf O2) as [S0 X]. discriminate X. }
  destruct G as [G1 G2].
  assert (I : resting zero (mgr_new n zero)).
  { destruct n as [|n]; [lia|]. exists 0%N, (repeat (mkCl 0 Free zero) n). repeat split. apply Forall_forall. intros z Hz. apply repeat_spec in Hz. subst z. reflexivity. }
  destruct (driven_t between _ _ _ _ _ _ y0 I Y ltac:(cbn; lia) Fb Dr O) as (ys & R1 & R2 & R3).
  exists ys. unfold rewriting, log_of in *. cbn [flat_map fst]. rewrite G2. cbn [app]. rewrite <- G1. auto.
Qed.
End Kept.

(** * Theorems *)
(** Missing: runs that go on after an iteration that returned an error (refuted below). *)
Theorem C174_kept_partial {V M Er S E : Type} a (o : oracles V M Er E) kind (state : E -> nat -> S) f_task f_process time n zero between env env' m' l t k s first :
  ran_well a o kind state f_task f_process time n zero between env env' m' l ->
  settled a o kind f_task f_process t k s -> nth_error zero k = Some first ->
  exists ys, rewriting f_task f_process t (inputs l s) first (state env t) = (state env' t, ys) /\ column l k = map Some ys /\ length ys = length between.
Proof.
  intros [D LO GP Lg Hn B Fb H O] [P1 P2 P3 P4 P5 P6 P7] Z.
  destruct (session_t a o kind state f_task f_process time D t k s P1 P6 P7 LO GP Lg P2 P3 P4 P5 n zero between env env' m' l first Hn Z B Fb H O) as (ys & R1 & R2 & R3).
  exists ys. split; [exact R1|]. split; [exact R2|]. rewrite <- R3. apply (f_equal (@length _)) in R2. rewrite !map_length in R2. auto.
Qed.
Print Assumptions C174_kept_partial.

(** A task that answers an input 0 by leaving its output as it found it, in a run whose second iteration ends with an error of
    the monitor. *)
Definition grumpy_bot : oracles nat unit nat bot :=
  {| o_task := o_task lazy_bot; o_process := o_process lazy_bot; o_sink := o_sink lazy_bot; o_sim := o_sim lazy_bot; o_sim_process := o_sim_process lazy_bot;
     o_decide := o_decide lazy_bot;
     o_report := fun md env => (Bot (b_read env) (b_time env + 1)%N (b_state env), if (b_time env =? 6)%N then Some 1 else None);
     o_monitor := o_monitor lazy_bot; o_now := o_now lazy_bot; o_log := o_log lazy_bot |}.
Lemma grumpy_deterministic : deterministic grumpy_bot line_kind b_state bot_task lazy_process bot_time.
Proof.
  split; cbn [grumpy_bot lazy_bot o_task o_process o_sink o_sim o_sim_process o_decide o_report o_monitor o_now fst snd].
  all: try (intros; intros u Hu Hn; reflexivity).
  - intros ph t env ->. cbn. rewrite Nat.eqb_refl. split; auto. intros u Hu Hn. cbn. destruct (Nat.eqb_spec u t); congruence.
  - intros t ins out env ->. split; [|intros u Hu Hn; reflexivity]. unfold lazy_process. destruct ins as [|i is]; [reflexivity|]. destruct (m_payload i) as [[|v]|]; reflexivity.
  - intros ph t env Hk. destruct (line_kind t); try congruence; intros u Hu Hn; reflexivity.
  - intros t ins out env Hk. destruct (line_kind t); try congruence; intros u Hu Hn; reflexivity.
Qed.
(** The message the task wrote over in the last iteration is not the one it had left. *)
Theorem C174_refuted : exists (l : list (list (event nat unit nat) * result (Er := nat))) (o : oracles nat unit nat bot) f_process env env' m' t k s,
  deterministic o line_kind b_state bot_task f_process bot_time /\ settled (line_app false) o line_kind bot_task f_process t k s /\
  session (line_app false) o [fun e => e; fun e => e; fun e => e] (mgr_new 2 zero3) env = (env', m', l) /\
  map snd l = [ROk; ROk; RErr 1; ROk] /\ (forall c ins out x, nth_error (map m_payload ins) 0 = Some (Some 0) -> f_process t c ins out x = (x, out, None)) /\
  flat_map (fun e => match e with EProcess 1 ins r => map m_payload ins | _ => [] end) (flat_map fst l) = [Some 1; Some 0; Some 0] /\
  sent (column l k) = [Some 1; None].
Proof.
  pose (R := session (line_app false) grumpy_bot [fun e => e; fun e => e; fun e => e] (mgr_new 2 zero3) (Bot 1 5 (fun _ => 0))).
  exists (snd R), grumpy_bot, lazy_process, (Bot 1 5 (fun _ => 0)), (fst (fst R)), (snd (fst R)), 1, 1, ex_line_step.
  split; [exact grumpy_deterministic|]. split.
  { split; try reflexivity; [repeat constructor| |discriminate]. split; [reflexivity|].
    intros c c' ins ins' out out' x Hi Ho. unfold lazy_process. destruct ins as [|i is], ins' as [|i' is']; try discriminate Hi; [auto|].
    cbn [map] in Hi. assert (Hp : m_payload i = m_payload i') by (apply (f_equal (fun z => match z with y :: _ => m_payload y | [] => None end)) in Hi; exact Hi).
    rewrite Hp. destruct (m_payload i') as [[|v]|]; auto. }
  split; [unfold R; destruct (session _ _ _ _ _) as [[? ?] ?]; reflexivity|]. split; [vm_compute; reflexivity|]. split.
  { intros c [|i ins] out x H; [discriminate H|]. cbn in H. injection H as H. unfold lazy_process. rewrite H. reflexivity. }
  split; vm_compute; reflexivity.
Qed.
Print Assumptions C174_refuted.

(** Three iterations of the line with that task and a monitor content with everything: it is asked to keep its message twice. *)
Definition ex_keep := session (line_app false) lazy_bot settings (mgr_new 4 zero3) bot0.
Example C174_case :
  ran_well (line_app false) lazy_bot line_kind b_state bot_task lazy_process bot_time 4 zero3 settings bot0 (fst (fst ex_keep)) (snd (fst ex_keep)) (snd ex_keep) /\
  settled (line_app false) lazy_bot line_kind bot_task lazy_process 1 1 ex_line_step /\ nth_error zero3 1 = Some (Msg None tt None None) /\
  sent (column (snd ex_keep) 1) = [Some 1; Some 1; Some 1].
Proof.
  split; [|split; [|split; [reflexivity|vm_compute; reflexivity]]].
  - constructor.
    + split; cbn [lazy_bot o_task o_process o_sink o_sim o_sim_process o_decide o_report o_monitor o_now fst snd].
      all: try (intros; intros u Hu Hn; reflexivity).
      * intros ph t env ->. cbn. rewrite Nat.eqb_refl. split; auto. intros u Hu Hn. cbn. destruct (Nat.eqb_spec u t); congruence.
      * intros t ins out env ->. split; [|intros u Hu Hn; reflexivity]. unfold lazy_process. destruct ins as [|i is]; [reflexivity|]. destruct (m_payload i) as [[|v]|]; reflexivity.
      * intros ph t env Hk. destruct (line_kind t); try congruence; intros u Hu Hn; reflexivity.
      * intros t ins out env Hk. destruct (line_kind t); try congruence; intros u Hu Hn; reflexivity.
    + intros e c. reflexivity.
    + exact (rp_plan _ _ _ _ _ _ (line_replayable false 0 0 Ignore false)).
    + reflexivity.
    + lia.
    + reflexivity.
    + apply settings_keep.
    + unfold ex_keep. destruct (session _ _ _ _ _) as [[? ?] ?]. reflexivity.
    + apply calm_check. vm_compute. reflexivity.
  - split; try reflexivity; [repeat constructor| |discriminate]. split; [reflexivity|].
    intros c c' ins ins' out out' x Hi Ho. unfold lazy_process. destruct ins as [|i is], ins' as [|i' is']; try discriminate Hi; [auto|].
    cbn [map] in Hi. assert (Hp : m_payload i = m_payload i') by (apply (f_equal (fun z => match z with y :: _ => m_payload y | [] => None end)) in Hi; exact Hi).
    rewrite Hp. destruct (m_payload i') as [[|v]|]; auto.
Qed.
