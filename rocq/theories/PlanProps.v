(** Properties C11-C15: the execution plan. *)
From Coq Require Import String List Arith Bool Relations Lia Permutation.
From Verif Require Import Base PlanModel PlanSpec PlanProofs PlanProofs2 PlanProofs3.
Import ListNotations.
Local Open Scope list_scope.
Local Open Scope nat_scope.

(** Two sources and a diamond. *)
Definition ex_graph : graph := Graph 5
  [Edge 0 2 "A"; Edge 1 2 "B"; Edge 2 3 "C"; Edge 1 3 "B"; Edge 3 4 "D"; Edge 2 4 "C"]%string.
Example ex_wf : wf_graph ex_graph.
Proof. repeat constructor. Qed.
Example ex_plan : exists plan, compute_plan ex_graph = Ret (Some plan) /\
  map s_node plan = [0; 1; 2; 3; 4].
Proof. eexists. split; [vm_compute; reflexivity|reflexivity]. Qed.
(** A graph with a cycle 1 -> 2 -> 1 fed by 0, and 3 behind it. *)
Definition ex_cyclic : graph := Graph 6
  [Edge 0 1 "A"; Edge 1 2 "B"; Edge 2 1 "B"; Edge 2 3 "B"; Edge 4 5 "A"; Edge 0 5 "A"]%string.

(** ** C11 *)
Theorem C11_plan_order : forall g plan, wf_graph g -> compute_plan g = Ret (Some plan) ->
  NoDup (map s_node plan) /\
  forall before s after u, plan = before ++ s :: after -> feeds g u (s_node s) ->
    In u (map s_node before).
Proof.
  intros g plan W E. pose proof (compute_plan_spec g W) as C. rewrite E in C. destruct C as [C _].
  split.
  - exact (plan_ok_NoDup g plan C).
  - intros before s after u. exact (plan_order g plan before s after u C).
Qed.
Print Assumptions C11_plan_order.

(** ** C12 *)
Theorem C12_plan_complete : forall g, wf_graph g -> acyclic g ->
  (forall v, v < g_n g -> (forall u, ~ feeds g u v) -> exists w, feeds g v w) ->
  exists plan, compute_plan g = Ret (Some plan) /\ Permutation (map s_node plan) (seq 0 (g_n g)).
Proof.
  intros g W A S. pose proof (compute_plan_spec g W) as C.
  destruct (compute_plan g) as [[plan|]|]; [|contradiction|].
  - destruct C as [C R]. exists plan. split; [reflexivity|]. apply NoDup_Permutation.
    + exact (plan_ok_NoDup g plan C).
    + apply seq_NoDup.
    + intros v. split; intros H.
      * pose proof (plan_ok_bound g plan C) as B. rewrite Forall_forall in B. specialize (B v H).
        apply in_seq. lia.
      * apply in_seq in H. destruct (in_dec Nat.eq_dec v (nodes plan)) as [|N]; [auto|].
        destruct (no_ready_cycle g plan v W C R ltac:(lia) N) as (c & _ & Hc). destruct (A c Hc).
  - destruct C as (v & B & I). destruct (S v B (fun u => proj1 (I u))) as (w & F).
    destruct (I w) as [_ N]. contradiction.
Qed.
Print Assumptions C12_plan_complete.

Lemma reaches_le g : (forall e, In e (g_edges g) -> e_src e < e_dst e) ->
  forall a b, reaches g a b -> a <= b.
Proof.
  intros H a b R. induction R as [|x y z (e & E & <- & <-)]; [lia|]. specialize (H e E). lia.
Qed.
Lemma increasing_acyclic g : (forall e, In e (g_edges g) -> e_src e < e_dst e) -> acyclic g.
Proof.
  intros H v (w & (e & E & <- & <-) & R). apply (reaches_le g H) in R. specialize (H e E). lia.
Qed.
Example ex_C12 : exists plan, compute_plan ex_graph = Ret (Some plan) /\
  Permutation (map s_node plan) (seq 0 5).
Proof.
  apply C12_plan_complete.
  - exact ex_wf.
  - apply increasing_acyclic. cbn. intros e H. repeat destruct H as [<-|H]; cbn; try lia.
  - intros v B N.
    destruct v as [|[|[|[|[|v]]]]]; [| | | | |cbn in B; lia].
    + exists 2, (Edge 0 2 "A"). cbn. auto.
    + exists 2, (Edge 1 2 "B"). cbn. auto.
    + exists 3, (Edge 2 3 "C"). cbn. auto.
    + exists 4, (Edge 3 4 "D"). cbn. auto 10.
    + destruct (N 3). exists (Edge 3 4 "D"). cbn. auto 10.
Qed.

(** ** C13 *)
(** The queue loop always ends ([Ret None] would be running out of turns); it fails
    exactly on a task without connections; what is left out is known exactly. *)
Theorem C13_termination : forall g, wf_graph g ->
  compute_plan g <> Ret None /\
  (compute_plan g = Panic <-> exists v, isolated g v) /\
  forall plan, compute_plan g = Ret (Some plan) -> forall v, v < g_n g ->
    (~ In v (map s_node plan) <-> exists c, on_cycle g c /\ reaches g c v).
Proof.
  intros g W. pose proof (compute_plan_spec g W) as C. split; [|split].
  - intros E. rewrite E in C. exact C.
  - split.
    + intros E. rewrite E in C. exact C.
    + intros (v & B & I). destruct (compute_plan g) as [[plan|]|]; [|contradiction|reflexivity].
      exfalso. destruct C as [C R]. destruct (in_dec Nat.eq_dec v (nodes plan)) as [H|H].
      * apply in_map_iff in H. destruct H as (s & Es & Hs). apply In_nth_error in Hs. destruct Hs as [k Hk].
        destruct (plan_ok_nth g plan k s C Hk) as [_ Sk].
        destruct (so_out _ _ _ Sk) as (ty & _ & T). rewrite Es in T.
        destruct (proj1 (isolated_iff g v) (conj B I)) as (_ & P1 & P2).
        unfold out_type in T. rewrite (proj2 (task_type_preds g v) P1) in T.
        pose proof (first_out_msg_spec g v) as F. rewrite T in F. contradiction.
      * apply (R v). split; [exact B|]. split; [exact H|]. intros u F. destruct (I u). contradiction.
  - intros plan E v B. rewrite E in C. destruct C as [C R]. split.
    + intros N. destruct (no_ready_cycle g plan v W C R B N) as (c & H1 & H2). exists c. auto.
    + intros (c & H1 & H2) H. exact (planned_no_cycle g plan v c C H H2 H1).
Qed.
Print Assumptions C13_termination.

Example ex_C13 : exists plan, compute_plan ex_cyclic = Ret (Some plan) /\
  map s_node plan = [0; 4; 5] /\ wf_graph ex_cyclic /\
  on_cycle ex_cyclic 1 /\ reaches ex_cyclic 1 3.
Proof.
  eexists. split; [vm_compute; reflexivity|]. split; [reflexivity|].
  assert (F : feeds ex_cyclic 1 2) by (exists (Edge 1 2 "B"); cbn; auto).
  assert (G : feeds ex_cyclic 2 1) by (exists (Edge 2 1 "B"); cbn; auto).
  split; [repeat constructor|]. split.
  - exists 2. split; [exact F|]. apply reaches_step. exact G.
  - apply (reaches_trans _ 1 2 3); apply reaches_step; [exact F|].
    exists (Edge 2 3 "B"). cbn. auto 10.
Qed.
Example ex_C13_isolated : compute_plan (Graph 3 [Edge 0 2 "A"]%string) = Panic.
Proof. vm_compute. reflexivity. Qed.

(** ** C14 *)
(** [designates plan k i u]: input [i] is the slot, written before step [k], in which
    the step of task [u] stores its message. *)
Theorem C14_inputs_in_order : forall g plan, wf_graph g -> compute_plan g = Ret (Some plan) ->
  no_parallel g -> forall k s, nth_error plan k = Some s ->
  (exists ty, s_out s = Some (k, ty)) /\
  Forall2 (fun i e => fst i < k /\ exists p, nth_error plan (fst i) = Some p /\
                      s_node p = e_src e /\ s_out p = Some i)
    (s_inputs s) (connections_into g (s_node s)).
Proof.
  intros g plan W E NP k s K. pose proof (compute_plan_spec g W) as C. rewrite E in C.
  destruct C as [C _]. split.
  - destruct (plan_ok_nth g plan k s C K) as [_ Sk]. destruct (so_out _ _ _ Sk) as (ty & T & _).
    exists ty. rewrite T. rewrite firstn_length, Nat.min_l; auto.
    apply Nat.lt_le_incl, nth_error_Some. congruence.
  - destruct (step_inputs g plan k s C K) as (ins & _ & D & _ & I). rewrite <- (I NP). exact D.
Qed.
Print Assumptions C14_inputs_in_order.

(** With parallel connections there is still one input per connection. *)
Theorem C14_parallel_inputs : forall g plan, wf_graph g -> compute_plan g = Ret (Some plan) ->
  forall k s, nth_error plan k = Some s ->
  exists ins, Permutation ins (s_inputs s) /\
  Forall2 (fun i e => fst i < k /\ exists p, nth_error plan (fst i) = Some p /\
                      s_node p = e_src e /\ s_out p = Some i)
    ins (connections_into g (s_node s)).
Proof.
  intros g plan W E k s K. pose proof (compute_plan_spec g W) as C. rewrite E in C.
  destruct C as [C _]. destruct (step_inputs g plan k s C K) as (ins & P & D & _ & _). exists ins. auto.
Qed.
Print Assumptions C14_parallel_inputs.

Example ex_C14 : no_parallel ex_graph /\ exists plan s, compute_plan ex_graph = Ret (Some plan) /\
  nth_error plan 4 = Some s /\ s_node s = 4 /\ s_inputs s = [(3, "D"); (2, "C")]%string.
Proof.
  split.
  - unfold no_parallel. cbn. repeat constructor; cbn; intuition discriminate.
  - eexists. eexists. split; [vm_compute; reflexivity|]. split; [reflexivity|]. split; reflexivity.
Qed.

(** ** C15 *)
(** The type planned for an input is that of the last connection its producer declares. *)
Theorem C15_last_declared_partial : forall g plan, wf_graph g -> compute_plan g = Ret (Some plan) ->
  no_parallel g -> forall k s, nth_error plan k = Some s ->
  Forall2 (fun i e => exists f, last_connection_from g (e_src e) f /\ snd i = e_msg f)
    (s_inputs s) (connections_into g (s_node s)).
Proof.
  intros g plan W E NP k s K. pose proof (compute_plan_spec g W) as C. rewrite E in C.
  destruct C as [C _]. destruct (step_inputs g plan k s C K) as (ins & _ & _ & T & I).
  rewrite <- (I NP).
  assert (G : forall e, In e (connections_into g (s_node s)) -> feeds g (e_src e) (s_node s)).
  { intros e He. apply connections_into_in in He. exists e. tauto. }
  clear - T G. induction T as [|i e l l' A T IH]; constructor.
  - exact (out_type_feeds g (e_src e) (s_node s) (snd i) (G e (or_introl eq_refl)) A).
  - apply IH. intros f Hf. apply G. right; auto.
Qed.
Print Assumptions C15_last_declared_partial.

(** So it is the type on the connection when each producer uses a single type. *)
Theorem C15_single_type_partial : forall g plan, wf_graph g -> compute_plan g = Ret (Some plan) ->
  no_parallel g ->
  (forall e f, In e (g_edges g) -> In f (g_edges g) -> e_src e = e_src f -> e_msg e = e_msg f) ->
  forall k s, nth_error plan k = Some s ->
  map snd (s_inputs s) = map e_msg (connections_into g (s_node s)).
Proof.
  intros g plan W E NP H k s K. pose proof (C15_last_declared_partial g plan W E NP k s K) as F.
  assert (G : forall e, In e (connections_into g (s_node s)) -> In e (g_edges g)).
  { intros e He. apply connections_into_in in He. tauto. }
  induction F as [|i e l l' (f & L & T) F IH]; [reflexivity|]. cbn. rewrite T. f_equal.
  - destruct L as (l1 & l2 & Eg & Ef & _). apply H; [|apply G; left; auto|exact Ef].
    rewrite Eg. apply in_app_iff. right; left; auto.
  - apply IH. intros x Hx. apply G. right; auto.
Qed.
Print Assumptions C15_single_type_partial.

(** It is false in general: a producer with two connections of different types. *)
Theorem C15_refuted : exists g plan k s, wf_graph g /\ no_parallel g /\ acyclic g /\
  compute_plan g = Ret (Some plan) /\ nth_error plan k = Some s /\
  map snd (s_inputs s) <> map e_msg (connections_into g (s_node s)).
Proof.
  exists (Graph 3 [Edge 0 1 "A"; Edge 0 2 "B"]%string).
  eexists. exists 2. eexists.
  split; [repeat constructor|]. split.
  { unfold no_parallel. cbn. repeat constructor; cbn; intuition discriminate. }
  split.
  { apply increasing_acyclic. cbn. intros e H. repeat destruct H as [<-|H]; cbn; try lia. }
  split; [vm_compute; reflexivity|]. split; [reflexivity|]. vm_compute. discriminate.
Qed.
Print Assumptions C15_refuted.

Example ex_C15 : exists plan s, compute_plan ex_graph = Ret (Some plan) /\ nth_error plan 3 = Some s /\
  map snd (s_inputs s) = ["C"; "B"]%string /\
  (forall e f, In e (g_edges ex_graph) -> In f (g_edges ex_graph) -> e_src e = e_src f -> e_msg e = e_msg f).
Proof.
  eexists. eexists. split; [vm_compute; reflexivity|]. split; [reflexivity|]. split; [reflexivity|].
  cbn. intros e f H1 H2.
  repeat destruct H1 as [<-|H1]; try destruct H1; repeat destruct H2 as [<-|H2]; try destruct H2;
    cbn; intros; congruence || discriminate.
Qed.
