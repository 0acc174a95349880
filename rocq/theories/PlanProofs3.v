(** Proofs about the execution plan: cycles, order and types of the inputs. *)
From Coq Require Import String List Arith Bool Relations Lia Permutation Sorted.
From Verif Require Import Base PlanModel PlanSpec PlanProofs PlanProofs2.
Import ListNotations.
Local Open Scope list_scope.
Local Open Scope nat_scope.

(** ** Order *)
Lemma plan_order g plan p s q u : plan_ok g plan -> plan = p ++ s :: q ->
  feeds g u (s_node s) -> In u (map s_node p).
Proof.
  intros H E F. destruct (plan_ok_split g plan H p s q E) as [_ S]. apply (so_ready _ _ _ S); auto.
Qed.

(** Positions decrease along connections. *)
Lemma plan_pos g plan : plan_ok g plan -> forall k s u, nth_error plan k = Some s ->
  reaches g u (s_node s) -> exists j t, nth_error plan j = Some t /\ s_node t = u /\ j <= k /\
    (u <> s_node s -> j < k).
Proof.
  intros H k s u E R. remember (s_node s) as v eqn:Ev. revert k s E Ev.
  induction R as [v|u w v F R IH]; intros k s E ->.
  - exists k, s. repeat (split; auto). tauto.
  - destruct (IH k s E eq_refl) as (j & t & J1 & J2 & J3 & J4).
    destruct (plan_ok_nth g plan j t H J1) as [P1 P2].
    subst w. apply (so_ready _ _ _ P2) in F.
    apply in_map_iff in F. destruct F as (x & X1 & X2). apply In_nth_error in X2.
    destruct X2 as [i X2].
    assert (L : i < j).
    { assert (Li : nth_error (firstn j plan) i <> None) by congruence.
      apply nth_error_Some in Li. rewrite firstn_length in Li. lia. }
    rewrite <- (firstn_skipn j plan) in E |- *. exists i, x.
    split; [rewrite nth_error_app1; auto; apply nth_error_Some; congruence|].
    split; auto. split; [lia|]. intros; lia.
Qed.

Lemma NoDup_nth_inj {A} (l : list A) i j x : NoDup l -> nth_error l i = Some x -> nth_error l j = Some x -> i = j.
Proof.
  intros N E1 E2. rewrite NoDup_nth_error in N. apply N; [apply nth_error_Some; congruence|congruence].
Qed.

Lemma planned_no_cycle g plan v c : plan_ok g plan -> In v (nodes plan) ->
  reaches g c v -> on_cycle g c -> False.
Proof.
  intros H Hv R (w & F & R').
  assert (Hc : In c (nodes plan)) by (eapply plan_ok_reach; eauto).
  apply in_map_iff in Hc. destruct Hc as (s & <- & Hs). apply In_nth_error in Hs. destruct Hs as [k E].
  destruct (plan_pos g plan H k s w E R') as (j & t & J1 & <- & J3 & _).
  destruct (plan_ok_nth g plan j t H J1) as [P1 P2].
  apply (so_ready _ _ _ P2) in F. apply in_map_iff in F. destruct F as (x & X1 & X2).
  apply In_nth_error in X2. destruct X2 as [i X2].
  assert (L : i < j).
  { assert (Li : nth_error (firstn j plan) i <> None) by congruence.
    apply nth_error_Some in Li. rewrite firstn_length in Li. lia. }
  assert (X3 : nth_error plan i = Some x).
  { rewrite <- (firstn_skipn j plan). rewrite nth_error_app1; auto. apply nth_error_Some; congruence. }
  assert (i = k).
  { apply (NoDup_nth_inj (nodes plan) i k (s_node s)).
    - apply (plan_ok_NoDup g); auto.
    - unfold nodes. rewrite (map_nth_error s_node _ _ X3). congruence.
    - unfold nodes. rewrite (map_nth_error s_node _ _ E). auto. }
  lia.
Qed.

(** A chain of connections, first node first. *)
Fixpoint chain (g : graph) (l : list nat) : Prop :=
  match l with
  | a :: (b :: _) as t => feeds g a b /\ chain g t
  | _ => True
  end.

Lemma chain_reach g l1 : forall a l2, chain g (l1 ++ a :: l2) -> forall x, In x (l1 ++ [a]) -> reaches g x a.
Proof.
  induction l1 as [|y l1 IH]; intros a l2 C x Hx; cbn in Hx.
  - destruct Hx as [<-|[]]. constructor.
  - destruct Hx as [<-|Hx].
    + destruct l1 as [|z l1]; cbn in C; destruct C as [F C].
      * econstructor; [eauto|constructor].
      * econstructor; [eauto|]. apply (IH a l2 C). left; auto.
    + assert (C' : chain g (l1 ++ a :: l2)) by (destruct l1; cbn in *; tauto).
      eapply IH; eauto.
Qed.

Lemma chain_app_r g l1 l2 : chain g (l1 ++ l2) -> chain g l2.
Proof.
  induction l1 as [|y l1 IH]; auto. intros C. apply IH. cbn in C.
  destruct (l1 ++ l2); [exact I|tauto].
Qed.

Lemma not_NoDup_split (l : list nat) : ~ NoDup l -> exists l1 c l2 l3, l = l1 ++ c :: l2 ++ c :: l3.
Proof.
  induction l as [|x l IH]; intros N.
  - destruct N. constructor.
  - destruct (in_dec Nat.eq_dec x l) as [H|H].
    + apply in_split in H. destruct H as (l2 & l3 & ->). exists [], x, l2, l3. auto.
    + destruct IH as (l1 & c & l2 & l3 & ->).
      * intros ND. apply N. constructor; auto.
      * exists (x :: l1), c, l2, l3. auto.
Qed.

Lemma no_ready_cycle g plan v : wf_graph g -> plan_ok g plan -> (forall n, ~ ready g plan n) ->
  v < g_n g -> ~ In v (nodes plan) -> exists c, reaches g c v /\ on_cycle g c.
Proof.
  intros W H R B N.
  assert (P : forall n, n < g_n g -> ~ In n (nodes plan) ->
    exists u, feeds g u n /\ u < g_n g /\ ~ In u (nodes plan)).
  { intros n Bn Nn. pose proof (parent_outputs_spec g plan (preds g n) H) as Q.
    destruct (parent_outputs plan (preds g n)).
    - destruct (R n). split; auto. split; auto. intros u F. apply in_preds in F.
      destruct Q as [Q _]. rewrite Forall_forall in Q. auto.
    - destruct Q as (u & Q1 & Q2). apply in_preds in Q1. exists u. split; auto. split; auto.
      apply (feeds_bound g u n W Q1). }
  assert (C : forall k, exists l, chain g (l ++ [v]) /\ length l = k /\
    Forall (fun n => n < g_n g /\ ~ In n (nodes plan)) (l ++ [v])).
  { induction k as [|k (l & C1 & C2 & C3)].
    - exists []. repeat constructor; auto.
    - assert (E : exists h t, l ++ [v] = h :: t) by (destruct l; cbn; eauto).
      destruct E as (h & t & E). rewrite E in *.
      inversion C3 as [|? ? [D1 D2] D3]; subst.
      destruct (P h D1 D2) as (u & U1 & U2 & U3).
      exists (u :: l). cbn [app]. rewrite E. cbn. split; [split; auto|]. split; [auto|].
      constructor; auto. }
  destruct (C (g_n g)) as (l & C1 & C2 & C3).
  assert (ND : ~ NoDup (l ++ [v])).
  { intros ND. pose proof (NoDup_bound (l ++ [v]) (g_n g) ND) as L.
    rewrite app_length in L. cbn in L. specialize (L ltac:(eapply Forall_impl; [|exact C3]; cbn; tauto)). lia. }
  destruct (not_NoDup_split _ ND) as (l1 & c & l2 & l3 & E).
  exists c. split.
  - apply (chain_reach g l v []); auto. rewrite E, in_app_iff. cbn. auto.
  - rewrite E in C1. apply chain_app_r in C1.
    destruct l2 as [|w l2]; cbn [app chain] in C1.
    + exists c. split; [tauto|constructor].
    + destruct C1 as [F C1]. exists w. split; auto.
      apply (chain_reach g (w :: l2) c l3 C1). left; auto.
Qed.

(** ** Stable sort of an already strictly ordered list given in reverse *)
Definition klt {A} (a b : nat * A) : Prop := fst a < fst b.

Lemma insert_key_perm {A} k (a : A) l : Permutation (insert_key k a l) ((k, a) :: l).
Proof.
  induction l as [|[k' a'] l IH]; cbn; auto. destruct (k <=? k'); auto.
  rewrite IH. apply perm_swap.
Qed.

Lemma sort_key_perm {A} (l : list (nat * A)) : Permutation (sort_key l) l.
Proof.
  induction l as [|[k a] l IH]; cbn; auto. rewrite insert_key_perm, IH. auto.
Qed.

Lemma insert_key_sorted {A} k (a : A) l :
  StronglySorted (fun x y => fst x <= fst y) l -> StronglySorted (fun x y => fst x <= fst y) (insert_key k a l).
Proof.
  induction 1 as [|[k' a'] l H IH F]; cbn.
  - repeat constructor.
  - destruct (Nat.leb_spec k k').
    + constructor; [constructor; auto|]. constructor; [cbn; lia|].
      eapply Forall_impl; [|exact F]. cbn. intros. lia.
    + constructor; auto. apply Forall_forall. intros x Hx.
      apply (Permutation_in x (insert_key_perm k a l)) in Hx. destruct Hx as [<-|Hx].
      * cbn. lia.
      * rewrite Forall_forall in F. auto.
Qed.

Lemma sort_key_sorted {A} (l : list (nat * A)) : StronglySorted (fun x y => fst x <= fst y) (sort_key l).
Proof.
  induction l as [|[k a] l IH]; cbn; [constructor|]. apply insert_key_sorted; auto.
Qed.

Lemma sorted_unique {A} (l1 : list (nat * A)) : forall l2,
  StronglySorted (fun x y => fst x <= fst y) l1 -> StronglySorted klt l2 ->
  Permutation l1 l2 -> l1 = l2.
Proof.
  induction l1 as [|x l1 IH]; intros l2 S1 S2 P.
  - apply Permutation_nil in P. auto.
  - destruct l2 as [|y l2]; [symmetry in P; apply Permutation_nil in P; discriminate|].
    inversion S1 as [|? ? A1 A2]; subst. inversion S2 as [|? ? B1 B2]; subst.
    assert (x = y).
    { assert (Hx : In x (y :: l2)) by (eapply Permutation_in; [exact P|left; auto]).
      assert (Hy : In y (x :: l1)) by (eapply Permutation_in; [symmetry; exact P|left; auto]).
      destruct Hx as [|Hx]; auto. destruct Hy as [|Hy]; auto.
      rewrite Forall_forall in A2, B2. specialize (A2 y Hy). specialize (B2 x Hx). unfold klt in B2. lia. }
    subst y. f_equal. apply IH; auto. eapply Permutation_cons_inv; eauto.
Qed.

(** ** The inputs of a step *)
Lemma filter_map_snd f (l : list (nat * edge)) :
  filter f (map snd l) = map snd (filter (fun x => f (snd x)) l).
Proof. induction l as [|x l IH]; cbn; auto. rewrite IH. destruct (f (snd x)); auto. Qed.

Lemma preds_connections g v : preds g v = rev (map e_src (connections_into g v)).
Proof.
  unfold preds, in_edges, connections_into. rewrite map_rev. f_equal.
  rewrite <- (indexed_edges g). rewrite filter_map_snd, map_map. reflexivity.
Qed.

Lemma combine_seq_sorted {A} (l : list A) s : StronglySorted klt (combine (seq s (length l)) l).
Proof.
  revert s; induction l as [|a l IH]; intros s; cbn; constructor; auto.
  apply Forall_forall. intros [k x] H. apply combine_seq_in in H. unfold klt. cbn. lia.
Qed.

Lemma sorted_filter {A} (R : A -> A -> Prop) f l : StronglySorted R l -> StronglySorted R (filter f l).
Proof.
  induction 1 as [|x l H IH F]; cbn; [constructor|]. destruct (f x); auto. constructor; auto.
  apply Forall_forall. intros y Hy. apply filter_In in Hy. rewrite Forall_forall in F. apply F; tauto.
Qed.

Lemma Forall2_map_r {A B C} (P : A -> C -> Prop) (f : B -> C) l1 l2 :
  Forall2 P l1 (map f l2) <-> Forall2 (fun a b => P a (f b)) l1 l2.
Proof.
  split.
  - revert l1; induction l2 as [|b l2 IH]; intros l1 H; inversion H; subst; constructor; auto.
  - induction 1; cbn; constructor; auto.
Qed.

Lemma Forall2_rev {A B} (P : A -> B -> Prop) l1 l2 : Forall2 P l1 l2 -> Forall2 P (rev l1) (rev l2).
Proof. induction 1; cbn; [constructor|]. apply Forall2_app; auto. Qed.

(** With [no_parallel], the key of a connection is its index. *)
Lemma conn_key_index g k e : no_parallel g -> nth_error (g_edges g) k = Some e ->
  conn_key g (e_src e) (e_dst e) = Ret k.
Proof.
  intros N E. destruct (conn_key_feeds g (e_src e) (e_dst e)) as (k' & e' & K & E' & S' & D').
  - exists e. split; auto. eapply nth_error_In; eauto.
  - rewrite K. f_equal. apply (NoDup_nth_inj _ k' k (e_src e, e_dst e) N).
    + rewrite (map_nth_error (fun e => (e_src e, e_dst e)) _ _ E'). congruence.
    + rewrite (map_nth_error (fun e => (e_src e, e_dst e)) _ _ E). auto.
Qed.

Lemma out_type_feeds g u v ty : feeds g u v -> out_type g u ty -> exists e, last_connection_from g u e /\ ty = e_msg e.
Proof.
  intros F T. assert (M : first_out_msg g u = Ret ty).
  { unfold out_type in T. destruct (task_type_of g u) eqn:E; auto.
    unfold task_type_of in E. apply in_succs in F. destruct (succs g u); [contradiction|].
    cbn in E. destruct (length (preds g u) =? 0); discriminate. }
  clear T. unfold first_out_msg, get_src_edges, out_edges in M.
  destruct (rev (filter (fun e => e_src (snd e) =? u) (indexed g))) as [|[k e] l] eqn:E; [discriminate|].
  injection M as <-. exists e. split; auto.
  apply (f_equal (@rev _)) in E. rewrite rev_involutive in E. cbn in E.
  assert (Hf : filter (fun e => e_src e =? u) (g_edges g) = map snd (rev l) ++ [e]).
  { rewrite <- (indexed_edges g), filter_map_snd, E, map_app. auto. }
  clear - Hf. generalize dependent (map snd (rev l)). unfold last_connection_from.
  induction (g_edges g) as [|a es IH]; intros m Hf; cbn in Hf.
  - destruct m; discriminate.
  - destruct (Nat.eqb_spec (e_src a) u) as [Ea|Ea].
    + destruct m as [|b m]; cbn in Hf; injection Hf as -> Hf.
      * exists [], es. split; auto. split; auto. apply Forall_forall. intros x Hx Ex.
        assert (In x []) as []. rewrite <- Hf. apply filter_In. split; auto. apply Nat.eqb_eq; auto.
      * destruct (IH _ Hf) as (l1 & l2 & -> & A & B). exists (b :: l1), l2. auto.
    + destruct (IH _ Hf) as (l1 & l2 & -> & A & B). exists (a :: l1), l2. auto.
Qed.

Lemma connections_into_in g v e : In e (connections_into g v) <-> In e (g_edges g) /\ e_dst e = v.
Proof. unfold connections_into. rewrite filter_In, Nat.eqb_eq. tauto. Qed.

(** The slot an input designates. *)
Definition designates (plan : list step) (k : nat) (i : nat * string) (u : nat) : Prop :=
  fst i < k /\ exists p, nth_error plan (fst i) = Some p /\ s_node p = u /\ s_out p = Some i.

Lemma find_output_designates g plan k u i : plan_ok g plan -> plan_ok g (firstn k plan) ->
  In u (nodes (firstn k plan)) -> find_output u (firstn k plan) = Some i ->
  designates plan k i u /\ out_type g u (snd i).
Proof.
  intros H Hk Hu E. destruct (find_output_Some g _ u Hk Hu) as (j & s & ty & A & B & C & D & T & L).
  rewrite E in A. injection A as ->. split; [|exact T]. split; cbn.
  - rewrite firstn_length in L. lia.
  - exists s. split; auto. rewrite <- (firstn_skipn k plan), nth_error_app1; auto.
Qed.

Lemma step_inputs g plan k s : plan_ok g plan -> nth_error plan k = Some s ->
  exists ins, Permutation ins (s_inputs s) /\
    Forall2 (fun i e => designates plan k i (e_src e)) ins (connections_into g (s_node s)) /\
    Forall2 (fun i e => out_type g (e_src e) (snd i)) ins (connections_into g (s_node s)) /\
    (no_parallel g -> ins = s_inputs s).
Proof.
  intros H E. destruct (plan_ok_nth g plan k s H E) as [Hk Hs].
  destruct (so_ins _ _ _ Hs) as (ins & I1 & I2).
  pose proof (parent_outputs_spec g _ (preds g (s_node s)) Hk) as P. rewrite I1 in P.
  destruct P as [P1 P2]. unfold sort_inputs in I2.
  destruct (with_keys_spec g _ (s_node s) ins _ Hk P2) as (l & L1 & L2 & L3).
  { rewrite Forall_forall in *. intros u Hu. split; auto. apply in_preds; auto. }
  rewrite L1 in I2. cbn in I2. injection I2 as I2.
  set (v := s_node s) in *.
  rewrite (preds_connections g v) in *.
  apply Forall2_rev in P2. rewrite rev_involutive, Forall2_map_r in P2.
  apply Forall2_rev in L3. rewrite rev_involutive, Forall2_map_r in L3.
  exists (rev ins). split; [|split; [|split]].
  - rewrite <- Permutation_rev, <- L2, <- I2. apply Permutation_map. symmetry. apply sort_key_perm.
  - assert (G : forall e, In e (connections_into g v) -> In (e_src e) (nodes (firstn k plan))).
    { intros e He. rewrite Forall_forall in P1. apply P1. apply -> in_rev. apply in_map; auto. }
    clear - P2 G H Hk. induction P2; constructor.
    + apply (find_output_designates g plan k _ _ H Hk); auto. apply G; left; auto.
    + apply IHP2. intros; apply G; right; auto.
  - assert (G : forall e, In e (connections_into g v) -> In (e_src e) (nodes (firstn k plan))).
    { intros e He. rewrite Forall_forall in P1. apply P1. apply -> in_rev. apply in_map; auto. }
    clear - P2 G H Hk. induction P2; constructor.
    + apply (find_output_designates g plan k _ _ H Hk); auto. apply G; left; auto.
    + apply IHP2. intros; apply G; right; auto.
  - intros NP. rewrite <- I2, <- L2, <- map_rev. f_equal.
    symmetry. apply sorted_unique.
    + apply sort_key_sorted.
    + set (idx := filter (fun x => e_dst (snd x) =? v) (indexed g)).
      assert (Hi : StronglySorted klt idx).
      { apply sorted_filter. apply combine_seq_sorted. }
      assert (Hc : connections_into g v = map snd idx).
      { unfold connections_into. rewrite <- (indexed_edges g) at 1. apply filter_map_snd. }
      rewrite Hc, Forall2_map_r in L3.
      assert (Hk' : map fst (rev l) = map fst idx).
      { assert (Hidx : forall x, In x idx -> nth_error (g_edges g) (fst x) = Some (snd x) /\ e_dst (snd x) = v).
        { intros [j e] Hx. apply filter_In in Hx. destruct Hx as [X1 X2]. apply indexed_in in X1.
          apply Nat.eqb_eq in X2. auto. }
        clearbody idx. clear - L3 Hidx NP. revert Hidx.
        induction L3 as [|x y l1 l2 A B IH]; intros Hidx; auto. cbn. f_equal.
        - destruct (Hidx y (or_introl eq_refl)) as [Y1 Y2].
          pose proof (conn_key_index g _ _ NP Y1) as K. rewrite Y2 in K. congruence.
        - apply IH. intros z Hz. apply Hidx. right; auto. }
      clear - Hk' Hi. revert Hk'. generalize (rev l) as m. induction Hi as [|y idx Hi IH F]; intros m E.
      * destruct m; [constructor|discriminate].
      * destruct m as [|x m]; [discriminate|]. injection E as E1 E2. constructor; auto.
        apply Forall_forall. intros z Hz. apply (in_map fst) in Hz. rewrite E2 in Hz.
        apply in_map_iff in Hz. destruct Hz as (w & W1 & W2). rewrite Forall_forall in F.
        specialize (F w W2). unfold klt in *. congruence.
    + rewrite sort_key_perm. apply Permutation_rev.
Qed.
