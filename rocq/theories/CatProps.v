(** C132: the caterpillar. *)
From Coq Require Import String List Arith NArith Bool Lia Permutation.
From Verif Require Import Base CuListModel PlanModel PlanSpec PlanProofs PlanProofs2 PlanProofs3 PlanProps RuntimeModel RuntimeSpec RuntimeProofs RuntimeProofs5 CatModel.
Import ListNotations.
Open Scope nat_scope.

(** * Specification *)
(** The tasks at the end of the connections: with a connection in and none out. *)
Definition into (g : graph) (v : nat) : bool := existsb (fun e => Nat.eqb (e_dst e) v) (g_edges g).
Definition out_of (g : graph) (v : nat) : bool := existsb (fun e => Nat.eqb (e_src e) v) (g_edges g).
Definition ends (g : graph) : list nat := filter (fun v => into g v && negb (out_of g v)) (seq 0 (g_n g)).
(** A task has one input at most, as the types of the tasks demand. *)
Definition single (g : graph) : Prop := forall v, length (connections_into g v) <= 1.
(** The level in the k-th iteration, from 0. *)
Definition blink (k : nat) : level := if Nat.even k then High else Low.

(** * Proofs *)
Section Cat.
Variable g : graph.
Variable plan : list step.
Hypothesis Wf : wf_graph g.
Hypothesis Hp : compute_plan g = Ret (Some plan).
Hypothesis Si : single g.

Lemma single_parallel : no_parallel g.
Proof.
  unfold no_parallel. revert Si. unfold single, connections_into. generalize (g_edges g). induction l as [|e l IH]; intros S; cbn [map]; constructor.
  - intros H. apply in_map_iff in H. destruct H as (f & E & F). specialize (S (e_dst e)). cbn [filter] in S. rewrite Nat.eqb_refl in S. cbn [length] in S.
    assert (X : In f (filter (fun x => e_dst x =? e_dst e) l)) by (apply filter_In; split; [exact F|]; injection E as _ ->; apply Nat.eqb_refl).
    destruct (filter (fun x => e_dst x =? e_dst e) l); [destruct X|cbn in S; lia].
  - apply IH. intros v. specialize (S v). cbn [filter] in S. destruct (e_dst e =? v); cbn [length] in S; lia.
Qed.
Lemma plan_steps k s : nth_error plan k = Some s -> (exists ty, s_out s = Some (k, ty)) /\ s_type s = task_type_of g (s_node s) /\
  match s_type s with
  | Source => s_inputs s = []
  | _ => exists j ty p, s_inputs s = [(j, ty)] /\ j < k /\ nth_error plan j = Some p /\ s_type p <> Sink
  end.
Proof.
  intros H. destruct (C14_inputs_in_order g plan Wf Hp single_parallel k s H) as [O F]. split; [exact O|].
  pose proof (compute_plan_spec g Wf) as C. rewrite Hp in C. destruct C as [C _]. destruct (plan_ok_nth g plan k s C H) as [_ Sk]. assert (T := so_type _ _ _ Sk).
  split; [exact T|]. assert (Z := Si (s_node s)).
  assert (Fe : forall e, In e (connections_into g (s_node s)) -> feeds g (e_src e) (s_node s)) by (intros e He; apply connections_into_in in He; exists e; tauto).
  assert (K : s_type s <> Source -> exists j ty p, s_inputs s = [(j, ty)] /\ j < k /\ nth_error plan j = Some p /\ s_type p <> Sink).
  { intros N. remember (connections_into g (s_node s)) as cs eqn:Ec. destruct F as [|i e li le Fi F].
    - exfalso. apply N. rewrite T. apply task_type_preds. destruct (preds g (s_node s)) as [|u l] eqn:P; [reflexivity|]. exfalso.
      assert (X : In u (preds g (s_node s))) by (rewrite P; left; reflexivity). apply in_preds in X. destruct X as (e & He & Es & Ed).
      assert (Y : In e (connections_into g (s_node s))) by (apply connections_into_in; auto). rewrite <- Ec in Y. destruct Y.
    - destruct F as [|i2 e2 li le Fi2 F]; [|cbn in Z; lia]. destruct Fi as (L & p & Np & Sp & _). destruct i as [j ty]. exists j, ty, p. split; [reflexivity|]. split; [exact L|]. split; [exact Np|].
      destruct (plan_ok_nth g plan j p C Np) as [_ Sj]. rewrite (so_type _ _ _ Sj). unfold task_type_of. destruct (length (preds g (s_node p)) =? 0); [discriminate|].
      destruct (Nat.eqb_spec (length (succs g (s_node p))) 0) as [E0|]; [|discriminate]. exfalso. apply length_zero_iff_nil in E0.
      assert (X : In (s_node s) (succs g (s_node p))) by (apply in_succs; rewrite Sp; apply Fe; left; reflexivity). rewrite E0 in X. destruct X. }
  destruct (s_type s) eqn:E; [|apply K; congruence|apply K; congruence].
  remember (connections_into g (s_node s)) as cs eqn:Ec. destruct F as [|i e li le Fi F]; [reflexivity|]. exfalso. symmetry in T. apply task_type_preds in T.
  assert (X : In (e_src e) (preds g (s_node s))) by (apply in_preds, Fe; left; reflexivity). rewrite T in X. destruct X.
Qed.
Lemma plan_nodup : NoDup (map s_node plan).
Proof. apply (C11_plan_order g plan Wf Hp). Qed.

Context {W F : Type}.
Variable w : world W F.
Variable monitor : phase -> nat -> F -> decision.
Variable mode : ovf_mode.
Notation A := (cat_app g mode).
Notation O := (cat_oracles w monitor).
Lemma cat_plan : a_plan A = plan.
Proof. unfold cat_app. rewrite Hp. reflexivity. Qed.

Definition same (e e' : cat W) : Prop := c_state e' = c_state e /\ c_pins e' = c_pins e /\ c_dead e' = c_dead e.
Lemma outside_same {B} (f : W -> W * B) e e' r : outside f e = (e', r) -> same e e'.
Proof. unfold outside. destruct (f (c_world e)). intros [= <- <-]. repeat split. Qed.
Definition is_sink (s : step) : bool := match s_type s with Sink => true | _ => false end.
Definition full (v : bool) (msgs : list message) (j : nat) : Prop := exists x, nth_error msgs j = Some x /\ m_payload x = Some v.

(** One step. *)
Lemma step_spec v k s msgs e e' tr msgs' f : nth_error plan k = Some s -> length msgs = length plan ->
  (forall j p, j < k -> nth_error plan j = Some p -> s_type p <> Sink -> full v msgs j) ->
  (s_type s = Source -> c_state e (s_node s) = negb v) ->
  process_step A O s msgs e = (e', tr, msgs', f) ->
  f = PNext /\ c_dead e' = c_dead e /\ c_pins e' = c_pins e ++ (if is_sink s then [(s_node s, level_of v)] else []) /\
  (forall u, c_state e' u = if Nat.eqb u (s_node s) && match s_type s with Source => true | _ => false end then v else c_state e u) /\
  length msgs' = length msgs /\ (s_type s <> Sink -> full v msgs' k) /\ (forall j, j <> k -> full v msgs j -> full v msgs' j).
Proof.
  intros Hk L Fu So H. destruct (plan_steps k s Hk) as ((ty & Eo) & _ & In). assert (kl : k < length msgs) by (rewrite L; apply nth_error_Some; congruence).
  unfold process_step in H. rewrite Eo in H. destruct (nth_error msgs k) as [out|] eqn:No; [|apply nth_error_None in No; lia].
  assert (G : exists ins, gather msgs (s_inputs s) = Some ins /\ match s_type s with Source => ins = [] | _ => exists x, ins = [x] /\ m_payload x = Some v end).
  { destruct (s_type s); [rewrite In; exists []; auto|..]; destruct In as (j & ty' & p & -> & Lj & Np & Tp); destruct (Fu j p Lj Np Tp) as (x & Nx & Px); cbn [gather fst]; rewrite Nx; eexists; (split; [reflexivity|]); eauto. }
  destruct G as (ins & G & I). rewrite G in H. unfold process_msg in H. change (a_sim A) with false in H. cbv iota in H.
  destruct (do_process O s ins true out e) as [[[e1 tr1] out1] f1] eqn:D. injection H as <- <- <- <-.
  assert (Up : forall j, j <> k -> full v msgs j -> full v (upd k out1 msgs) j) by (intros j Nj (x & Nx & Px); exists x; rewrite nth_error_upd_neq by auto; auto).
  unfold do_process in D. cbn [o_now O] in D. destruct (outside (w_now w) e) as [e2 t0] eqn:E2. apply outside_same in E2. destruct E2 as (Es & Ep & Ed).
  unfold is_sink. cbn [o_sink o_process O] in D. destruct (s_type s) eqn:T.
  - subst ins. cbn [cat_process] in D. match type of D with context [outside (w_now w) ?x] => destruct (outside (w_now w) x) as [e3 t1] eqn:E3 end.
    apply outside_same in E3. destruct E3 as (Es3 & Ep3 & Ed3). cbn in Es3, Ep3, Ed3. injection D as <- <- <- <-.
    split; [reflexivity|]. split; [congruence|]. split; [rewrite app_nil_r; congruence|]. split; [|split; [apply upd_length|split; [|exact Up]]].
    + intros u. rewrite Es3, Es. destruct (Nat.eqb u (s_node s)) eqn:U; cbn [andb]; [|reflexivity]. rewrite (So eq_refl), negb_involutive. reflexivity.
    + intros _. eexists. rewrite nth_error_upd_eq by exact kl. split; [reflexivity|]. cbn. rewrite Es, (So eq_refl), negb_involutive. reflexivity.
  - destruct I as (x & -> & Px). cbn [cat_process] in D. rewrite Px in D. destruct (outside (w_now w) e2) as [e3 t1] eqn:E3.
    apply outside_same in E3. destruct E3 as (Es3 & Ep3 & Ed3). injection D as <- <- <- <-.
    split; [reflexivity|]. split; [congruence|]. split; [rewrite app_nil_r; congruence|]. split; [|split; [apply upd_length|split; [|exact Up]]].
    + intros u. rewrite Es3, Es, andb_false_r. reflexivity.
    + intros _. eexists. rewrite nth_error_upd_eq by exact kl. split; reflexivity.
  - destruct I as (x & -> & Px). cbn [cat_sink] in D. rewrite Px in D. match type of D with context [outside (w_now w) ?x] => destruct (outside (w_now w) x) as [e3 t1] eqn:E3 end.
    apply outside_same in E3. destruct E3 as (Es3 & Ep3 & Ed3). cbn in Es3, Ep3, Ed3. injection D as <- <- <- <-.
    split; [reflexivity|]. split; [congruence|]. split; [congruence|]. split; [|split; [apply upd_length|split; [congruence|exact Up]]].
    intros u. rewrite Es3, Es, andb_false_r. reflexivity.
Qed.
Lemma pass v ss : forall done, plan = done ++ ss -> forall msgs e e' tr msgs' f, length msgs = length plan ->
  (forall j p, j < length done -> nth_error plan j = Some p -> s_type p <> Sink -> full v msgs j) ->
  (forall s, In s ss -> s_type s = Source -> c_state e (s_node s) = negb v) ->
  process_all A O ss msgs e = (e', tr, msgs', f) ->
  f = PNext /\ c_dead e' = c_dead e /\ c_pins e' = c_pins e ++ map (fun t => (t, level_of v)) (map s_node (filter is_sink ss)) /\
  (forall u, ~ In u (map s_node ss) -> c_state e' u = c_state e u) /\ (forall s, In s ss -> s_type s = Source -> c_state e' (s_node s) = v) /\ length msgs' = length msgs.
Proof.
  induction ss as [|s ss IH]; intros done Pd msgs e e' tr msgs' f L Fu So H; cbn [process_all] in H.
  - injection H as <- <- <- <-. cbn. rewrite app_nil_r. repeat split; auto. intros s [].
  - destruct (process_step A O s msgs e) as [[[e1 tr1] msgs1] f1] eqn:S.
    assert (Hk : nth_error plan (length done) = Some s) by (rewrite Pd, nth_error_app2, Nat.sub_diag by lia; reflexivity).
    destruct (step_spec v _ _ _ _ _ _ _ _ Hk L Fu (So s (or_introl eq_refl)) S) as (-> & D1 & P1 & S1 & L1 & F1 & F2).
    destruct (process_all A O ss msgs1 e1) as [[[e2 tr2] msgs2] f2] eqn:R. injection H as <- <- <- <-.
    assert (ND := plan_nodup). rewrite Pd, map_app in ND. cbn [map] in ND. apply NoDup_remove in ND. destruct ND as [_ ND]. rewrite in_app_iff in ND.
    destruct (IH (done ++ [s])) with (msgs := msgs1) (e := e1) (e' := e2) (tr := tr2) (msgs' := msgs2) (f := f2) as (-> & D2 & P2 & S2 & V2 & L2); auto.
    + rewrite <- app_assoc. exact Pd.
    + congruence.
    + intros j p Lj Np Tp. rewrite app_length in Lj. cbn in Lj. destruct (Nat.eq_dec j (length done)) as [->|Nj]; [apply F1; congruence|]. apply F2; [exact Nj|]. apply (Fu j p); auto; lia.
    + intros s2 I2 T2. rewrite S1. destruct (Nat.eqb_spec (s_node s2) (s_node s)) as [E|E]; cbn [andb]; [exfalso; apply ND; right; rewrite <- E; apply in_map, I2|]. apply So; [right; exact I2|exact T2].
    + split; [reflexivity|]. split; [congruence|]. split; [|split; [|split; [|congruence]]].
      * rewrite P2, P1, <- app_assoc. f_equal. cbn [filter]. destruct (is_sink s); reflexivity.
      * intros u Hu. cbn [map In] in Hu. rewrite S2 by tauto. rewrite S1. destruct (Nat.eqb_spec u (s_node s)) as [E|E]; cbn [andb]; [exfalso; apply Hu; left; congruence|reflexivity].
      * intros s2 [<-|I2] T2; [|apply V2; auto]. rewrite S2 by tauto. rewrite S1, Nat.eqb_refl, T2. reflexivity.
Qed.
(** Iterations. *)
Lemma lifecycle_quiet ph ts : forall e, exists tr, lifecycle A O ph ts e = (e, tr, Next).
Proof.
  induction ts as [|t ts IH]; intros e; cbn [lifecycle]; [eauto|]. unfold one_call. change (a_sim A) with false. cbv iota. unfold do_call. cbn [o_task O].
  destruct (IH e) as (tr & ->). eauto.
Qed.
Lemma report_same id m msgs e e' m' tr f : report_and_finish A O id m msgs e = (e', m', tr, f) -> same e e'.
Proof.
  unfold report_and_finish. destruct (collect_metadata A msgs) as [md|]; [|intros [= <- <- <- <-]; repeat split]. cbn [o_report O].
  destruct (outside (w_report w md) e) as [e1 r] eqn:E. apply outside_same in E. destruct r; [intros [= <- <- <- <-]; exact E|].
  destruct (finish A O id m e1) as [[m1 lg]|]; intros [= <- <- <- <-]; exact E.
Qed.
Definition sinks : list nat := map s_node (filter is_sink plan).
Definition states (v : bool) (e : cat W) : Prop := forall s, In s plan -> s_type s = Source -> c_state e (s_node s) = v.
Definition shaped (m : mgr (list message)) : Prop := Forall (fun l => length l = length plan) (contents m).
Lemma iteration v m e e' m' tr : shaped m -> states (negb v) e -> run_one_iteration A O m e = (e', m', tr, ROk) ->
  shaped m' /\ states v e' /\ c_dead e' = c_dead e /\ c_pins e' = c_pins e ++ map (fun t => (t, level_of v)) sinks.
Proof.
  intros Sh St H. split.
  { apply (iteration_kept A O (fun l => length l = length plan) m e e' m' tr ROk); [|exact H|exact Sh].
    intros msgs e1 e2 tr' msgs' f P L. destruct (process_all_spec A O _ _ _ _ _ _ _ P) as [_ ->]. exact L. }
  unfold run_one_iteration in H. destruct (lifecycle_quiet Preprocess (seq 0 (a_tasks A)) e) as (t1 & E1). rewrite E1 in H.
  destruct (copperlist_body A O m e) as [[[e1 m1] t2] f] eqn:B. destruct (lifecycle_quiet Postprocess (seq 0 (a_tasks A)) e1) as (t3 & E3). rewrite E3 in H.
  assert (X : match f with Next => states v e1 /\ c_dead e1 = c_dead e /\ c_pins e1 = c_pins e ++ map (fun t => (t, level_of v)) sinks | Return None => False | _ => True end).
  { unfold copperlist_body in B. destruct (create (a_mode A) m) as [[[m2 i]|]|] eqn:C; [|injection B as <- <- <- <-; exact I..].
    destruct (nth_error (m_data m2) i) as [c|] eqn:N; [|injection B as <- <- <- <-; exact I]. destruct (create_contents A _ _ _ _ C N) as [_ Nc].
    assert (Lc : length (cl_msgs c) = length plan) by (unfold shaped in Sh; rewrite Forall_forall in Sh; apply Sh; eapply nth_error_In, Nc).
    destruct (process_all A O (a_plan A) (cl_msgs c) e) as [[[e2 t4] msgs] pf] eqn:P. rewrite cat_plan in P.
    destruct (pass v plan [] eq_refl _ _ _ _ _ _ Lc ltac:(intros j p Lj; cbn in Lj; lia) St P) as (-> & D & Pi & _ & Vs & Lm).
    destruct (match collect_metadata A msgs with Some md => e2e A md | None => Panic end) as [y|]; [|injection B as <- <- <- <-; exact I].
    match type of B with context [report_and_finish A O ?a ?b ?c ?d] => destruct (report_and_finish A O a b c d) as [[[e3 m3] t5] f3] eqn:R end.
    assert (R2 := report_same _ _ _ _ _ _ _ _ R). destruct R2 as (Q1 & Q2 & Q3). injection B as <- <- <- <-. destruct f3 as [|[x|]|]; auto.
    - split; [|split; [congruence|rewrite Q2, Pi; reflexivity]]. intros s Hs Ts. rewrite Q1. apply Vs; auto.
    - exfalso. clear - R. unfold report_and_finish in R. destruct (collect_metadata A msgs); [|discriminate]. destruct (o_report O l e2) as [e4 [x|]]; [discriminate|]. destruct (finish A O _ _ e4) as [[]|]; discriminate. }
  destruct f as [|[x|]|]; try discriminate; [|destruct X]. injection H as <- <- <-. exact X.
Qed.
Lemma loop n : forall v m e e' m' tr, shaped m -> states (negb v) e -> run_loop A O n m e = (e', m', tr, None) ->
  c_dead e' = c_dead e /\ c_pins e' = c_pins e ++ flat_map (fun k => map (fun t => (t, level_of (if Nat.even k then v else negb v))) sinks) (seq 0 n).
Proof.
  induction n as [|n IH]; intros v m e e' m' tr Sh St H; cbn [run_loop] in H; [injection H as <- <- <-; cbn; rewrite app_nil_r; auto|].
  destruct (run_one_iteration A O m e) as [[[e1 m1] t1] r] eqn:R. destruct r; try discriminate.
  destruct (run_loop A O n m1 e1) as [[[e2 m2] t2] r2] eqn:L. injection H as <- <- <- ->.
  destruct (iteration v _ _ _ _ _ Sh St R) as (Sh1 & St1 & D1 & P1). rewrite <- (negb_involutive v) in St1.
  destruct (IH (negb v) _ _ _ _ _ Sh1 St1 L) as (D2 & P2). split; [congruence|]. rewrite P2, P1, <- app_assoc. f_equal. cbn [seq flat_map Nat.even]. f_equal.
  rewrite <- seq_shift, flat_map_concat_map, (flat_map_concat_map _ (map S (seq 0 n))), map_map. f_equal. apply map_ext. intros k. apply map_ext. intros t. f_equal. f_equal.
  rewrite Nat.even_succ, <- Nat.negb_even. destruct (Nat.even k); cbn; [reflexivity|apply negb_involutive].
Qed.
(** The sinks of the plan. *)
Lemma sinks_ends : acyclic g -> Permutation sinks (ends g).
Proof.
  intros Ac. apply NoDup_Permutation.
  - unfold sinks. assert (N := plan_nodup). revert N. clear. induction plan as [|s l IH]; cbn [map filter]; intros N; [constructor|]. apply NoDup_cons_iff in N. destruct N as [N1 N2].
    destruct (is_sink s); [|auto]. cbn [map]. constructor; [|auto]. intros H. apply N1. apply in_map_iff in H. destruct H as (y & E & Y). apply filter_In in Y. rewrite <- E. apply in_map, Y.
  - apply NoDup_filter, seq_NoDup.
  - intros v. unfold sinks, ends. rewrite filter_In, in_map_iff.
    assert (Ty : forall u, u < g_n g -> (task_type_of g u = Sink <-> into g u && negb (out_of g u) = true)).
    { intros u _. unfold task_type_of. assert (X1 : into g u = negb (length (preds g u) =? 0)).
      { apply eq_true_iff_eq. rewrite negb_true_iff, Nat.eqb_neq. unfold into. rewrite existsb_exists. split.
        - intros (e & He & Ed). apply Nat.eqb_eq in Ed. assert (X : In (e_src e) (preds g u)) by (apply in_preds; exists e; auto). destruct (preds g u); [destruct X|discriminate].
        - intros Nz. destruct (preds g u) as [|x l] eqn:P; [elim Nz; reflexivity|]. assert (X : In x (preds g u)) by (rewrite P; left; reflexivity). apply in_preds in X. destruct X as (e & He & _ & Ed). exists e. rewrite Nat.eqb_eq. auto. }
      assert (X2 : out_of g u = negb (length (succs g u) =? 0)).
      { apply eq_true_iff_eq. rewrite negb_true_iff, Nat.eqb_neq. unfold out_of. rewrite existsb_exists. split.
        - intros (e & He & Ed). apply Nat.eqb_eq in Ed. assert (X : In (e_dst e) (succs g u)) by (apply in_succs; exists e; auto). destruct (succs g u); [destruct X|discriminate].
        - intros Nz. destruct (succs g u) as [|x l] eqn:P; [elim Nz; reflexivity|]. assert (X : In x (succs g u)) by (rewrite P; left; reflexivity). apply in_succs in X. destruct X as (e & He & Ed & _). exists e. rewrite Nat.eqb_eq. auto. }
      rewrite X1, X2. destruct (length (preds g u) =? 0), (length (succs g u) =? 0); cbn; split; congruence. }
    pose proof (compute_plan_spec g Wf) as C. rewrite Hp in C. destruct C as [C _].
    assert (B : forall s, In s plan -> s_node s < g_n g /\ s_type s = task_type_of g (s_node s)).
    { intros s Hs. apply In_nth_error in Hs. destruct Hs as (k & Hk). destruct (plan_ok_nth g plan k s C Hk) as [_ Sk]. split; [apply (so_bound _ _ _ Sk)|apply (so_type _ _ _ Sk)]. }
    split.
    + intros (s & <- & Hs). apply filter_In in Hs. destruct Hs as [Hs T]. destruct (B s Hs) as [B1 B2]. split; [apply in_seq; lia|]. apply Ty; [exact B1|]. rewrite <- B2. unfold is_sink in T. destruct (s_type s); congruence.
    + intros [V T]. apply in_seq in V. apply Ty in T; [|lia]. destruct (C13_termination g Wf) as (_ & _ & K). specialize (K plan Hp v ltac:(lia)).
      destruct (in_dec Nat.eq_dec v (map s_node plan)) as [I|I]; [|exfalso; apply K in I; destruct I as (c & Oc & _); exact (Ac c Oc)].
      apply in_map_iff in I. destruct I as (s & E & Hs). exists s. split; [exact E|]. apply filter_In. split; [exact Hs|]. destruct (B s Hs) as [_ B2]. unfold is_sink. rewrite B2, E, T. reflexivity.
Qed.
End Cat.

(** * C132 *)
(** In every iteration every pin at the end of the connections is written exactly once, all to
    the same level, which changes from each iteration to the next; no task panics. It holds for
    any connections of sources, tasks and pins, however long the caterpillar. *)
Theorem C132_blinks : forall g (W F : Type) (w : world W F) monitor mode cap n x e m tr,
  wf_graph g -> single g -> acyclic g -> compute_plan g <> Panic ->
  run_loop (cat_app g mode) (cat_oracles w monitor) n (mgr_new cap (cat_zero g)) (cat_new x) = (e, m, tr, None) ->
  c_dead e = false /\
  exists order, Permutation order (ends g) /\ c_pins e = flat_map (fun k => map (fun t => (t, blink k)) order) (seq 0 n).
Proof.
  intros g W F w monitor mode cap n x e m tr Wf Si Ac Np H. destruct (compute_plan g) as [[plan|]|] eqn:Hp; [|elim (proj1 (C13_termination g Wf) Hp)|congruence].
  assert (Sh : shaped plan (mgr_new cap (cat_zero g))).
  { unfold shaped, contents. apply Forall_forall. intros l Hl. apply in_map_iff in Hl. destruct Hl as (c & <- & Hc). unfold mgr_new in Hc. cbn [m_data] in Hc. apply repeat_spec in Hc. subst c. cbn [cl_msgs].
    unfold cat_zero, cat_app. rewrite Hp. cbn [a_plan]. apply repeat_length. }
  destruct (loop g plan Wf Hp Si w monitor mode n false _ (cat_new x) _ _ _ Sh ltac:(intros s _ _; reflexivity) H) as [D P]. split; [exact D|].
  exists (sinks plan). split; [apply (@sinks_ends g plan Wf Hp) with (F := F); assumption|]. rewrite P. cbn [cat_new c_pins app]. rewrite !flat_map_concat_map. f_equal. apply map_ext. intros k. apply map_ext. intros t. unfold blink. destruct (Nat.even k); reflexivity.
Qed.
Print Assumptions C132_blinks.
(** The configuration of the example: eight pins, in order. *)
Definition ex_world : world N unit := World N unit (fun t => (t + 1, t)%N) (fun _ t => (t, None)) (fun _ _ => true).
Example C132_case : wf_graph caterpillar /\ single caterpillar /\ acyclic caterpillar /\ compute_plan caterpillar <> Panic /\
  ends caterpillar = [2; 4; 6; 8; 10; 12; 14; 16] /\
  exists e m tr, run_loop (cat_app caterpillar Checked) (cat_oracles ex_world (fun _ _ _ => Ignore)) 2 (mgr_new 3 (cat_zero caterpillar)) (cat_new 5%N) = (e, m, tr, None) /\
    c_pins e = [(2, High); (4, High); (6, High); (8, High); (10, High); (12, High); (14, High); (16, High);
                (2, Low); (4, Low); (6, Low); (8, Low); (10, Low); (12, Low); (14, Low); (16, Low)].
Proof.
  split; [repeat constructor|]. split.
  { intros v. do 17 (destruct v as [|v]; [vm_compute; lia|]). vm_compute. lia. }
  split; [apply increasing_acyclic; intros e He; cbn in He; repeat (destruct He as [<-|He]; [cbn; lia|]); destruct He|].
  split; [vm_compute; discriminate|]. split; [reflexivity|].
  assert (X : (fun x : cat N * mgr (list message) * list (event bool unit unit) * option (result (Er := unit)) => (snd x, c_pins (fst (fst (fst x)))))
    (run_loop (cat_app caterpillar Checked) (cat_oracles ex_world (fun _ _ _ => Ignore)) 2 (mgr_new 3 (cat_zero caterpillar)) (cat_new 5%N)) =
    (None, [(2, High); (4, High); (6, High); (8, High); (10, High); (12, High); (14, High); (16, High);
            (2, Low); (4, Low); (6, Low); (8, Low); (10, Low); (12, Low); (14, Low); (16, Low)])) by (vm_compute; reflexivity).
  destruct (run_loop _ _ 2 (mgr_new 3 (cat_zero caterpillar)) (cat_new 5%N)) as [[[e m] tr] r]. injection X as -> X.
  exists e, m, tr. split; [reflexivity|exact X].
Qed.
