(** Proofs about the execution plan: the steps of a plan, completeness, termination. *)
From Coq Require Import String List Arith Bool Relations Lia Permutation.
From Verif Require Import Base PlanModel PlanSpec PlanProofs.
Import ListNotations.
Local Open Scope list_scope.
Local Open Scope nat_scope.

Definition nodes (plan : list step) : list nat := map s_node plan.

Definition out_type (g : graph) (v : nat) (ty : string) : Prop :=
  match task_type_of g v with Sink => ty = "()"%string | _ => first_out_msg g v = Ret ty end.

(** A step appended to [plan] as the code does it. *)
Record step_ok (g : graph) (plan : list step) (s : step) : Prop := {
  so_bound : s_node s < g_n g;
  so_new : ~ In (s_node s) (nodes plan);
  so_ready : forall u, feeds g u (s_node s) -> In u (nodes plan);
  so_type : s_type s = task_type_of g (s_node s);
  so_out : exists ty, s_out s = Some (length plan, ty) /\ out_type g (s_node s) ty;
  so_ins : exists ins, parent_outputs plan (preds g (s_node s)) = Some ins /\
                       sort_inputs plan g (s_node s) ins = Ret (s_inputs s) }.

Inductive plan_ok (g : graph) : list step -> Prop :=
| po_nil : plan_ok g []
| po_snoc plan s : plan_ok g plan -> step_ok g plan s -> plan_ok g (plan ++ [s]).

Lemma nodes_app p q : nodes (p ++ q) = nodes p ++ nodes q.
Proof. apply map_app. Qed.

Lemma plan_ok_split g l : plan_ok g l -> forall p s q, l = p ++ s :: q -> plan_ok g p /\ step_ok g p s.
Proof.
  induction 1 as [|plan x H IH Hs]; intros p s q E.
  - destruct p; discriminate.
  - destruct q as [|y q] using rev_ind.
    + apply app_inj_tail in E. destruct E as [-> ->]. auto.
    + rewrite app_comm_cons, app_assoc in E. apply app_inj_tail in E. destruct E as [-> _].
      eapply IH; eauto.
Qed.

Lemma plan_ok_nth g l k s : plan_ok g l -> nth_error l k = Some s ->
  plan_ok g (firstn k l) /\ step_ok g (firstn k l) s.
Proof.
  intros H E. apply nth_error_split in E. destruct E as (p & q & -> & <-).
  rewrite firstn_app, firstn_all, Nat.sub_diag. cbn [firstn]. rewrite app_nil_r.
  eapply plan_ok_split; eauto.
Qed.

Lemma plan_ok_NoDup g l : plan_ok g l -> NoDup (nodes l).
Proof.
  induction 1; [constructor|]. rewrite nodes_app. cbn.
  apply NoDup_app; auto.
  - repeat constructor. intros [].
  - intros x Hx [<-|[]]. apply (so_new _ _ _ H0); auto.
Qed.

Lemma plan_ok_bound g l : plan_ok g l -> Forall (fun v => v < g_n g) (nodes l).
Proof.
  induction 1; [constructor|]. rewrite nodes_app. apply Forall_app. split; auto.
  repeat constructor. apply (so_bound _ _ _ H0).
Qed.

Lemma plan_ok_closed g l : plan_ok g l -> forall u v, In v (nodes l) -> feeds g u v -> In u (nodes l).
Proof.
  induction 1; intros u v Hv F; [destruct Hv|].
  rewrite nodes_app in *. apply in_app_iff in Hv. apply in_app_iff. left.
  destruct Hv as [Hv|[<-|[]]]; eauto. apply (so_ready _ _ _ H0); auto.
Qed.

Lemma plan_ok_reach g l : plan_ok g l -> forall u v, reaches g u v -> In v (nodes l) -> In u (nodes l).
Proof.
  intros H u v R. induction R; auto. intros Hz. apply (plan_ok_closed g l H x y); auto.
Qed.

Lemma planned_In v plan : planned v plan = true <-> In v (nodes plan).
Proof.
  unfold planned, nodes. rewrite existsb_exists, in_map_iff. split.
  - intros (s & H & E). apply Nat.eqb_eq in E. eauto.
  - intros (s & E & H). exists s. split; auto. apply Nat.eqb_eq; auto.
Qed.

Lemma planned_not_In v plan : planned v plan = false <-> ~ In v (nodes plan).
Proof. rewrite <- planned_In. destruct (planned v plan); split; congruence. Qed.

(** ** Looking up outputs *)
Lemma find_output_app v p q :
  find_output v (p ++ q) = if planned v p then find_output v p else find_output v q.
Proof.
  induction p as [|s p IH]; cbn; auto. fold (planned v p).
  destruct (s_node s =? v); cbn; auto.
Qed.

Lemma find_output_None v plan : ~ In v (nodes plan) -> find_output v plan = None.
Proof.
  induction plan as [|s p IH]; cbn; auto. intros H.
  destruct (Nat.eqb_spec (s_node s) v); tauto.
Qed.

Lemma find_output_Some g plan v : plan_ok g plan -> In v (nodes plan) ->
  exists k s ty, find_output v plan = Some (k, ty) /\ nth_error plan k = Some s /\ s_node s = v /\
    s_out s = Some (k, ty) /\ out_type g v ty /\ k < length plan.
Proof.
  induction 1 as [|plan x H IH Hs]; intros Hv; [destruct Hv|].
  rewrite nodes_app in Hv. rewrite find_output_app.
  destruct (planned v plan) eqn:P.
  - apply planned_In in P. destruct (IH P) as (k & s & ty & A & B & C & D & E & F).
    exists k, s, ty. rewrite nth_error_app1, app_length; auto. repeat (split; auto). lia.
  - apply planned_not_In in P. apply in_app_iff in Hv. destruct Hv as [|[E|[]]]; [tauto|].
    destruct (so_out _ _ _ Hs) as (ty & O & T).
    exists (length plan), x, ty. cbn [find_output]. rewrite E, Nat.eqb_refl.
    rewrite nth_error_app2, Nat.sub_diag, app_length by lia. rewrite <- E.
    repeat (split; auto). cbn. lia.
Qed.

Lemma parent_outputs_spec g plan ps : plan_ok g plan ->
  match parent_outputs plan ps with
  | None => exists u, In u ps /\ ~ In u (nodes plan)
  | Some ins => Forall (fun u => In u (nodes plan)) ps /\
                Forall2 (fun i u => find_output u plan = Some i) ins ps
  end.
Proof.
  intros H. induction ps as [|u ps IH]; cbn; auto.
  destruct (planned u plan) eqn:P.
  - apply planned_In in P. destruct (find_output_Some g plan u H P) as (k & s & ty & A & _).
    rewrite A. destruct (parent_outputs plan ps).
    + destruct IH. split; constructor; auto.
    + destruct IH as (w & I1 & I2). exists w. auto.
  - apply planned_not_In in P. rewrite find_output_None by auto. exists u. auto.
Qed.

(** ** Sorting the inputs never fails *)
Definition conn_key (g : graph) (u v : nat) : outcome nat :=
  match edges_connecting g u v with [] => Panic | e :: _ => Ret (fst e) end.

Lemma in_edges_connecting g u v k e :
  In (k, e) (edges_connecting g u v) <-> nth_error (g_edges g) k = Some e /\ e_src e = u /\ e_dst e = v.
Proof.
  unfold edges_connecting, out_edges. rewrite filter_In, <- in_rev, filter_In, indexed_in. cbn.
  rewrite !Nat.eqb_eq. tauto.
Qed.

Lemma conn_key_feeds g u v : feeds g u v -> exists k e, conn_key g u v = Ret k /\
  nth_error (g_edges g) k = Some e /\ e_src e = u /\ e_dst e = v.
Proof.
  intros (e & H & Hs & Hd). apply In_nth_error in H. destruct H as [k H].
  unfold conn_key. destruct (edges_connecting g u v) as [|[k' e'] l] eqn:E.
  - assert (In (k, e) (edges_connecting g u v)) by (apply in_edges_connecting; auto).
    rewrite E in *. contradiction.
  - exists k', e'. split; auto. apply in_edges_connecting. rewrite E. left; auto.
Qed.

Lemma with_keys_spec g plan v ins us : plan_ok g plan ->
  Forall2 (fun i u => find_output u plan = Some i) ins us ->
  Forall (fun u => In u (nodes plan) /\ feeds g u v) us ->
  exists l, with_keys plan g v ins = Ret l /\ map snd l = ins /\
    Forall2 (fun ki u => conn_key g u v = Ret (fst ki)) l us.
Proof.
  intros H F. induction F as [|i u ins us Hi F IH]; intros G.
  - exists []. cbn. auto.
  - inversion G as [|? ? [G1 G2] G3]; subst. destruct (IH G3) as (l & A & B & C).
    destruct (find_output_Some g plan u H G1) as (k & s & ty & D1 & D2 & D3 & _).
    rewrite Hi in D1. injection D1 as ->.
    destruct (conn_key_feeds g u v G2) as (key & e & K & _).
    exists ((key, (k, ty)) :: l). split; [|split].
    + cbn [with_keys fst]. unfold find_edge. rewrite D2, D3. fold (conn_key g u v). rewrite K. cbn [obind].
      rewrite A. reflexivity.
    + cbn. f_equal; auto.
    + constructor; auto.
Qed.

Lemma sort_inputs_total g plan v ins : plan_ok g plan ->
  parent_outputs plan (preds g v) = Some ins -> exists r, sort_inputs plan g v ins = Ret r.
Proof.
  intros H E. pose proof (parent_outputs_spec g plan (preds g v) H) as P. rewrite E in P.
  destruct P as [P1 P2]. destruct (with_keys_spec g plan v ins _ H P2) as (l & A & _).
  - rewrite Forall_forall in *. intros u Hu. split; [auto|]. apply in_preds; auto.
  - unfold sort_inputs. rewrite A. cbn. eauto.
Qed.

(** ** One visit *)
Lemma remove_step_None v plan : ~ In v (nodes plan) -> remove_step v plan = None.
Proof.
  induction plan as [|s p IH]; cbn; auto. intros H.
  destruct (Nat.eqb_spec (s_node s) v); [tauto|]. rewrite IH; auto.
Qed.

Lemma add_step_new s plan : ~ In (s_node s) (nodes plan) -> add_step s plan = plan ++ [s].
Proof. intros. unfold add_step. rewrite remove_step_None; auto. Qed.

Lemma task_type_preds g v : task_type_of g v = Source <-> preds g v = [].
Proof.
  unfold task_type_of. destruct (Nat.eqb_spec (length (preds g v)) 0) as [E|E].
  - apply length_zero_iff_nil in E. tauto.
  - destruct (length (succs g v) =? 0); split; try discriminate; intros F; rewrite F in E; cbn in E; lia.
Qed.

Lemma first_out_msg_spec g v : match first_out_msg g v with
  | Panic => succs g v = [] | Ret _ => succs g v <> [] end.
Proof.
  unfold first_out_msg, get_src_edges, succs. destruct (out_edges g v); cbn; congruence.
Qed.

Lemma isolated_iff g v : isolated g v <-> v < g_n g /\ preds g v = [] /\ succs g v = [].
Proof.
  unfold isolated. split.
  - intros [B H]. split; [auto|]. split.
    + destruct (preds g v) as [|u l] eqn:E; auto. destruct (H u) as [A _]. destruct A.
      apply in_preds. rewrite E. left; auto.
    + destruct (succs g v) as [|u l] eqn:E; auto. destruct (H u) as [_ A]. destruct A.
      apply in_succs. rewrite E. left; auto.
  - intros (B & P & S). split; auto. intros w. split; intros F.
    + apply in_preds in F. rewrite P in F. auto.
    + apply in_succs in F. rewrite S in F. auto.
Qed.

Definition ready (g : graph) (plan : list step) (v : nat) : Prop :=
  v < g_n g /\ ~ In v (nodes plan) /\ forall u, feeds g u v -> In u (nodes plan).

Lemma visit_spec g plan v : plan_ok g plan -> v < g_n g -> ~ In v (nodes plan) ->
  match visit g (length plan) v plan with
  | Panic => isolated g v
  | Ret None => ~ ready g plan v
  | Ret (Some (next, plan')) => exists s, s_node s = v /\ step_ok g plan s /\ plan' = plan ++ [s] /\
                                  next = length plan' /\ ~ isolated g v
  end.
Proof.
  intros H B N. unfold visit.
  pose proof (parent_outputs_spec g plan (preds g v) H) as P.
  pose proof (first_out_msg_spec g v) as FO.
  destruct (task_type_of g v) eqn:T.
  - assert (E := proj1 (task_type_preds g v) T).
    destruct (first_out_msg g v) as [m|] eqn:M; cbn [obind].
    + cbn [sort_inputs with_keys obind sort_key map].
      unfold sort_inputs. cbn [with_keys obind sort_key map].
      set (s := Step v Source [] (Some (length plan, m))).
      exists s. split; [auto|]. rewrite add_step_new by auto. split; [|split; [auto|split]].
      * constructor; cbn; auto.
        -- intros u F. apply in_preds in F. rewrite E in F. destruct F.
        -- exists m. split; auto. unfold out_type. rewrite T. auto.
        -- exists []. rewrite E. cbn. auto.
      * rewrite app_length. cbn. lia.
      * rewrite isolated_iff. tauto.
    + apply isolated_iff. auto.
  - destruct (parent_outputs plan (preds g v)) as [ins|] eqn:E.
    + destruct P as [P1 P2]. destruct (sort_inputs_total g plan v ins H E) as (r & R).
      destruct (first_out_msg g v) as [m|] eqn:M; cbn [obind].
      * rewrite R. cbn [obind]. set (s := Step v Regular r (Some (length plan, m))).
        exists s. split; [auto|]. rewrite add_step_new by auto. split; [|split; [auto|split]].
        -- constructor; cbn; auto.
           ++ intros u F. apply in_preds in F. rewrite Forall_forall in P1. auto.
           ++ exists m. split; auto. unfold out_type. rewrite T. auto.
           ++ exists ins. auto.
        -- rewrite app_length. cbn. lia.
        -- rewrite isolated_iff. tauto.
      * exfalso. unfold task_type_of in T. rewrite FO in T. cbn in T.
        destruct (length (preds g v) =? 0); discriminate.
    + destruct P as (u & P1 & P2). intros (_ & _ & R). apply P2, R. apply in_preds; auto.
  - destruct (parent_outputs plan (preds g v)) as [ins|] eqn:E.
    + destruct P as [P1 P2]. destruct (sort_inputs_total g plan v ins H E) as (r & R).
      rewrite R. cbn [obind]. set (s := Step v Sink r (Some (length plan, "()"%string))).
      exists s. split; [auto|]. rewrite add_step_new by auto. split; [|split; [auto|split]].
      * constructor; cbn; auto.
        -- intros u F. apply in_preds in F. rewrite Forall_forall in P1. auto.
        -- eexists. split; eauto. unfold out_type. rewrite T. auto.
        -- exists ins. auto.
      * rewrite app_length. cbn. lia.
      * rewrite isolated_iff. intros (_ & I1 & _). apply task_type_preds in I1. congruence.
    + destruct P as (u & P1 & P2). intros (_ & _ & R). apply P2, R. apply in_preds; auto.
Qed.

(** ** One branch *)
Lemma branch_go_spec g vs : forall plan handled, plan_ok g plan -> NoDup vs ->
  Forall (fun v => v < g_n g /\ ~ In v (nodes plan)) vs ->
  match branch_go g (length plan) plan handled vs with
  | Panic => exists v, isolated g v
  | Ret (next, handled', plan') => exists ext rest, plan' = plan ++ ext /\ next = length plan' /\
      plan_ok g plan' /\ vs = nodes ext ++ rest /\
      handled' = (handled || negb (length ext =? 0)) /\
      (ext = [] -> match vs with [] => True | v :: _ => ~ ready g plan v end)
  end.
Proof.
  induction vs as [|v vs IH]; intros plan handled H N F; cbn [branch_go].
  - exists [], []. rewrite app_nil_r, orb_false_r. repeat (split; auto).
  - inversion F as [|? ? [F1 F2] F3]; subst. inversion N as [|? ? N1 N2]; subst.
    pose proof (visit_spec g plan v H F1 F2) as V.
    destruct (visit g (length plan) v plan) as [[[next plan']|]|]; cbn [obind].
    + destruct V as (s & S1 & S2 & -> & -> & S3).
      specialize (IH (plan ++ [s]) true (po_snoc _ _ _ H S2) N2).
      destruct (branch_go g (length (plan ++ [s])) (plan ++ [s]) true vs) as [[[next' h'] plan']|].
      * destruct IH as (ext & rest & -> & -> & I1 & -> & I3 & _).
        { rewrite Forall_forall in *. intros x Hx. destruct (F3 x Hx) as [G1 G2]. split; auto.
          rewrite nodes_app, in_app_iff. cbn. intros [|[E|[]]]; [tauto|]. congruence. }
        exists (s :: ext), rest. rewrite <- app_assoc in *. cbn [app] in *.
        split; [auto|]. split; [auto|]. split; [auto|]. split; [cbn; rewrite S1; reflexivity|].
        split; [|discriminate]. rewrite I3. cbn. rewrite orb_true_r. auto.
      * apply IH. rewrite Forall_forall in *. intros x Hx. destruct (F3 x Hx) as [G1 G2]. split; auto.
        rewrite nodes_app, in_app_iff. cbn. intros [|[E|[]]]; [tauto|]. congruence.
    + exists [], (v :: vs). rewrite app_nil_r, orb_false_r. repeat (split; auto).
    + eauto.
Qed.

Lemma branch_spec g plan v : wf_graph g -> plan_ok g plan -> v < g_n g -> ~ In v (nodes plan) ->
  match branch g (length plan) v plan with
  | Panic => exists v, isolated g v
  | Ret (next, handled, plan') => next = length plan' /\ plan_ok g plan' /\
      exists ext, plan' = plan ++ ext /\ (forall w, In w (nodes ext) -> reaches g v w) /\
      if handled then In v (nodes ext) else ext = [] /\ ~ ready g plan v
  end.
Proof.
  intros W H B N. unfold branch. destruct (bfs_spec g v W B) as (D & (r & E) & R).
  assert (F : Forall (fun w => w < g_n g /\ ~ In w (nodes plan)) (bfs g v)).
  { apply Forall_forall. intros w Hw. apply R in Hw. split; [eapply reaches_bound; eauto|].
    intros Hp. apply N. eapply plan_ok_reach; eauto. }
  pose proof (branch_go_spec g (bfs g v) plan false H D F) as G.
  destruct (branch_go g (length plan) plan false (bfs g v)) as [[[next h] plan']|]; auto.
  destruct G as (ext & rest & -> & -> & G1 & G2 & G3 & G4).
  split; [auto|]. split; [auto|]. exists ext. split; [auto|]. split.
  - intros w Hw. apply R. rewrite G2, in_app_iff. auto.
  - rewrite G3. cbn [orb]. destruct ext as [|s ext]; cbn [length Nat.eqb negb].
    + split; auto. rewrite E in G4. auto.
    + rewrite E in G2. cbn in G2. injection G2 as -> _. left; auto.
Qed.

(** ** The whole computation *)
Definition pending (g : graph) (plan : list step) : nat :=
  length (filter (fun e => negb (planned (e_src e) plan)) (g_edges g)).

Lemma succs_length g v : length (succs g v) = length (filter (fun e => e_src e =? v) (g_edges g)).
Proof.
  unfold succs, out_edges. rewrite map_length, rev_length. unfold indexed.
  generalize 0. induction (g_edges g) as [|e l IH]; intros k; cbn; auto.
  destruct (e_src e =? v); cbn; auto.
Qed.

Lemma pending_drop g plan ext v : ~ In v (nodes plan) -> In v (nodes ext) ->
  pending g (plan ++ ext) + length (succs g v) <= pending g plan.
Proof.
  intros N H. rewrite succs_length. unfold pending.
  induction (g_edges g) as [|e l IH]; cbn; auto.
  assert (M : planned (e_src e) plan = true -> planned (e_src e) (plan ++ ext) = true).
  { rewrite !planned_In, nodes_app, in_app_iff. auto. }
  destruct (planned (e_src e) (plan ++ ext)) eqn:P1, (planned (e_src e) plan) eqn:P2; cbn;
    try (specialize (M eq_refl); discriminate); destruct (Nat.eqb_spec (e_src e) v) as [E|E]; cbn; try lia.
  - apply planned_In in P2. congruence.
  - assert (planned (e_src e) (plan ++ ext) = true).
    { apply planned_In. rewrite nodes_app, in_app_iff, E. auto. }
    congruence.
Qed.

Definition covered (g : graph) (plan : list step) (queue vs : list nat) : Prop :=
  forall n, ready g plan n -> (exists y, In y queue /\ reaches g y n) \/ In n vs.

Lemma outer_spec g : wf_graph g -> forall vs plan queue, plan_ok g plan ->
  Forall (fun v => v < g_n g) vs -> Forall (fun v => v < g_n g) queue -> covered g plan queue vs ->
  match outer g (length plan) plan queue vs with
  | Panic => exists v, isolated g v
  | Ret (next, plan', queue') => next = length plan' /\ plan_ok g plan' /\
      Forall (fun v => v < g_n g) queue' /\ covered g plan' queue' [] /\
      length queue' + pending g plan' <= length queue + pending g plan
  end.
Proof.
  intros W. induction vs as [|v vs IH]; intros plan queue H Bv Bq C; cbn [outer].
  - auto.
  - inversion Bv as [|? ? B1 B2]; subst. destruct (planned v plan) eqn:P.
    + apply IH; auto. intros n R. destruct (C n R) as [|[<-|]]; auto.
      apply planned_In in P. destruct R. tauto.
    + apply planned_not_In in P. pose proof (branch_spec g plan v W H B1 P) as S.
      destruct (branch g (length plan) v plan) as [[[next h] plan']|]; cbn [obind]; auto.
      destruct S as (-> & S1 & ext & -> & S2 & S3). destruct h.
      * specialize (IH (plan ++ ext) (queue ++ succs g v) S1 B2).
        pose proof (pending_drop g plan ext v P S3) as D.
        destruct (outer g (length (plan ++ ext)) (plan ++ ext) (queue ++ succs g v) vs)
          as [[[next plan'] queue']|].
        -- destruct IH as (I1 & I2 & I3 & I4 & I5).
           ++ apply Forall_app. split; auto. apply Forall_forall. intros w Hw.
              apply in_succs in Hw. apply (feeds_bound g v w W Hw).
           ++ intros n (R1 & R2 & R3).
              rewrite nodes_app, in_app_iff in R2.
              destruct (parent_outputs plan (preds g n)) as [ins|] eqn:E;
                pose proof (parent_outputs_spec g plan (preds g n) H) as Q; rewrite E in Q.
              ** destruct Q as [Q _]. destruct (C n) as [(y & Hy & Ry)|[->|Hn]]; auto.
                 { split; auto. split; [tauto|]. intros u F. apply in_preds in F.
                   rewrite Forall_forall in Q; auto. }
                 { left. exists y. rewrite in_app_iff. auto. }
                 { tauto. }
              ** destruct Q as (u & U1 & U2). apply in_preds in U1.
                 pose proof (R3 u U1) as U3. rewrite nodes_app, in_app_iff in U3.
                 destruct U3 as [|U3]; [tauto|]. apply S2 in U3.
                 left. inversion U3 as [|y z F R]; subst.
                 { exists n. rewrite in_app_iff, in_succs. split; auto. constructor. }
                 { exists y. rewrite in_app_iff, in_succs. split; auto.
                   eapply reaches_trans; [exact R|apply reaches_step; auto]. }
           ++ do 4 (split; [auto|]). rewrite app_length in I5. lia.
        -- apply IH.
           ++ apply Forall_app. split; auto. apply Forall_forall. intros w Hw.
              apply in_succs in Hw. apply (feeds_bound g v w W Hw).
           ++ intros n (R1 & R2 & R3).
              rewrite nodes_app, in_app_iff in R2.
              destruct (parent_outputs plan (preds g n)) as [ins|] eqn:E;
                pose proof (parent_outputs_spec g plan (preds g n) H) as Q; rewrite E in Q.
              ** destruct Q as [Q _]. destruct (C n) as [(y & Hy & Ry)|[->|Hn]]; auto.
                 { split; auto. split; [tauto|]. intros u F. apply in_preds in F.
                   rewrite Forall_forall in Q; auto. }
                 { left. exists y. rewrite in_app_iff. auto. }
                 { tauto. }
              ** destruct Q as (u & U1 & U2). apply in_preds in U1.
                 pose proof (R3 u U1) as U3. rewrite nodes_app, in_app_iff in U3.
                 destruct U3 as [|U3]; [tauto|]. apply S2 in U3.
                 left. inversion U3 as [|y z F R]; subst.
                 { exists n. rewrite in_app_iff, in_succs. split; auto. constructor. }
                 { exists y. rewrite in_app_iff, in_succs. split; auto.
                   eapply reaches_trans; [exact R|apply reaches_step; auto]. }
      * destruct S3 as [-> S3]. rewrite app_nil_r in *. apply IH; auto.
        intros n R. destruct (C n R) as [|[<-|]]; auto. contradiction.
Qed.

Lemma queue_loop_spec g : wf_graph g -> forall fuel plan queue, plan_ok g plan ->
  Forall (fun v => v < g_n g) queue -> covered g plan queue [] ->
  length queue + pending g plan <= fuel ->
  match queue_loop g fuel (length plan) plan queue with
  | Panic => exists v, isolated g v
  | Ret None => False
  | Ret (Some plan') => plan_ok g plan' /\ forall n, ~ ready g plan' n
  end.
Proof.
  intros W. induction fuel as [|fuel IH]; intros plan queue H B C L; destruct queue as [|y queue]; cbn [queue_loop].
  1,3: split; auto; intros n R; destruct (C n R) as [(z & [] & _)|[]].
  - cbn in L. lia.
  - inversion B as [|? ? B1 B2]; subst. destruct (bfs_spec g y W B1) as (D & _ & R).
    assert (S : match outer g (length plan) plan queue (bfs g y) with
      | Panic => exists v, isolated g v
      | Ret (next, plan', queue') => next = length plan' /\ plan_ok g plan' /\
          Forall (fun v => v < g_n g) queue' /\ covered g plan' queue' [] /\
          length queue' + pending g plan' <= length queue + pending g plan
      end).
    { apply outer_spec; auto.
      - apply Forall_forall. intros w Hw. apply R in Hw. eapply reaches_bound; eauto.
      - intros n Rn. destruct (C n Rn) as [(z & [<-|Hz] & Rz)|[]]; [right; apply R; auto|].
        left. eauto. }
    destruct (outer g (length plan) plan queue (bfs g y)) as [[[next plan'] queue']|]; cbn [obind]; auto.
    destruct S as (-> & S1 & S2 & S3 & S4). apply IH; auto. cbn in L. lia.
Qed.

Lemma filter_length_le {A} f (l : list A) : length (filter f l) <= length l.
Proof. induction l; cbn; auto. destruct (f a); cbn; lia. Qed.

Lemma compute_plan_spec g : wf_graph g ->
  match compute_plan g with
  | Panic => exists v, isolated g v
  | Ret None => False
  | Ret (Some plan) => plan_ok g plan /\ forall n, ~ ready g plan n
  end.
Proof.
  intros W. unfold compute_plan. apply (queue_loop_spec g W (plan_fuel g) [] (sources g)).
  - constructor.
  - apply Forall_forall. intros v Hv. apply filter_In in Hv. destruct Hv as [Hv _].
    apply in_seq in Hv. lia.
  - intros n (R1 & _ & R3). left. exists n. split; [|constructor].
    apply filter_In. split; [apply in_seq; lia|].
    destruct (preds g n) as [|u l] eqn:E.
    + rewrite (proj2 (task_type_preds g n) E). auto.
    + destruct (R3 u). apply in_preds. rewrite E. left; auto.
  - unfold plan_fuel, pending, sources.
    pose proof (filter_length_le (fun e => negb (planned (e_src e) [])) (g_edges g)).
    pose proof (filter_length_le (fun v => match task_type_of g v with Source => true | _ => false end)
                  (seq 0 (g_n g))) as L. rewrite seq_length in L. lia.
Qed.
