(** Proofs about the execution plan: breadth first traversal. *)
From Coq Require Import String List Arith Bool Relations Lia Permutation.
From Verif Require Import Base PlanModel PlanSpec.
Import ListNotations.
Local Open Scope list_scope.
Local Open Scope nat_scope.

Lemma mem_In v l : mem v l = true <-> In v l.
Proof.
  unfold mem. rewrite existsb_exists. split.
  - intros (x & H & E). apply Nat.eqb_eq in E. congruence.
  - intros H. exists v. split; auto. apply Nat.eqb_refl.
Qed.

Lemma mem_not_In v l : mem v l = false <-> ~ In v l.
Proof. rewrite <- mem_In. destruct (mem v l); split; congruence. Qed.

Lemma NoDup_app {A} (l1 l2 : list A) :
  NoDup l1 -> NoDup l2 -> (forall x, In x l1 -> ~ In x l2) -> NoDup (l1 ++ l2).
Proof.
  intros H1 H2. induction H1 as [|x l Hx H1 IH]; intros D; cbn; auto.
  constructor.
  - rewrite in_app_iff. intros [|H]; [tauto|]. apply (D x); [left; auto|auto].
  - apply IH. intros y Hy. apply D. right; auto.
Qed.

(** ** Edges *)
Lemma combine_seq_in {A} (l : list A) s k x :
  In (k, x) (combine (seq s (length l)) l) <-> s <= k /\ nth_error l (k - s) = Some x.
Proof.
  revert s; induction l as [|a l IH]; intros s; cbn.
  - split; [tauto|]. intros [_ H]. destruct (k - s); discriminate.
  - rewrite IH. split.
    + intros [E|[H1 H2]].
      * injection E as <- <-. rewrite Nat.sub_diag. auto.
      * split; [lia|]. replace (k - s) with (S (k - S s)) by lia. auto.
    + intros [H1 H2]. destruct (Nat.eq_dec k s) as [->|Hn].
      * rewrite Nat.sub_diag in H2. cbn in H2. left. congruence.
      * right. split; [lia|]. replace (k - s) with (S (k - S s)) in H2 by lia. auto.
Qed.

Lemma indexed_in g k e : In (k, e) (indexed g) <-> nth_error (g_edges g) k = Some e.
Proof.
  unfold indexed. rewrite combine_seq_in, Nat.sub_0_r. split; [tauto|]. intros; split; [lia|auto].
Qed.

Lemma indexed_edges g : map snd (indexed g) = g_edges g.
Proof.
  unfold indexed. generalize 0. induction (g_edges g) as [|e l IH]; intros s; cbn; auto. f_equal; auto.
Qed.

Lemma in_succs g v w : In w (succs g v) <-> feeds g v w.
Proof.
  unfold succs, out_edges, feeds. rewrite in_map_iff. split.
  - intros ([k e] & E & H). rewrite <- in_rev, filter_In in H. destruct H as [H1 H2].
    exists e. apply Nat.eqb_eq in H2. cbn in *. split; auto.
    apply indexed_in in H1. apply nth_error_In in H1. auto.
  - intros (e & H & Hs & Hd). apply In_nth_error in H. destruct H as [k H].
    exists (k, e). split; auto. rewrite <- in_rev, filter_In. split; [apply indexed_in; auto|].
    cbn. apply Nat.eqb_eq; auto.
Qed.

Lemma in_preds g v w : In w (preds g v) <-> feeds g w v.
Proof.
  unfold preds, in_edges, feeds. rewrite in_map_iff. split.
  - intros ([k e] & E & H). rewrite <- in_rev, filter_In in H. destruct H as [H1 H2].
    exists e. apply Nat.eqb_eq in H2. cbn in *. split; auto.
    apply indexed_in in H1. apply nth_error_In in H1. auto.
  - intros (e & H & Hs & Hd). apply In_nth_error in H. destruct H as [k H].
    exists (k, e). split; auto. rewrite <- in_rev, filter_In. split; [apply indexed_in; auto|].
    cbn. apply Nat.eqb_eq; auto.
Qed.

Lemma feeds_bound g a b : wf_graph g -> feeds g a b -> a < g_n g /\ b < g_n g.
Proof.
  intros W (e & H & <- & <-). unfold wf_graph in W. rewrite Forall_forall in W. auto.
Qed.

Lemma reaches_trans g a b c : reaches g a b -> reaches g b c -> reaches g a c.
Proof. unfold reaches. intros H; induction H; auto. intros. econstructor; eauto. Qed.

Lemma reaches_step g a b : feeds g a b -> reaches g a b.
Proof. intros. econstructor; [eauto|constructor]. Qed.

Lemma reaches_bound g a b : wf_graph g -> a < g_n g -> reaches g a b -> b < g_n g.
Proof.
  intros W Ha H. induction H; auto. apply IHclos_refl_trans_1n.
  apply (feeds_bound g _ _ W) in H. tauto.
Qed.

(** ** Breadth first traversal *)
Lemma push_new_spec ws : forall disc queue disc' queue',
  push_new ws disc queue = (disc', queue') ->
  exists new, queue' = queue ++ new /\ disc' = rev new ++ disc /\
    NoDup new /\ (forall w, In w new -> In w ws /\ ~ In w disc) /\
    (forall w, In w ws -> In w disc \/ In w new).
Proof.
  induction ws as [|w ws IH]; intros disc queue disc' queue' H; cbn in H.
  - injection H as <- <-. exists []. rewrite app_nil_r. cbn. repeat split; auto; try constructor; tauto.
  - destruct (mem w disc) eqn:M.
    + destruct (IH _ _ _ _ H) as (new & E1 & E2 & N & S1 & S2). exists new.
      do 3 (split; [auto|]). split.
      * intros x Hx. destruct (S1 x Hx). cbn; auto.
      * intros x [<-|Hx]; auto. left. apply mem_In; auto.
    + destruct (IH _ _ _ _ H) as (new & E1 & E2 & N & S1 & S2). exists (w :: new).
      split; [rewrite E1, <- app_assoc; reflexivity|].
      split; [cbn; rewrite E2, <- app_assoc; reflexivity|]. split; [|split].
      * constructor; auto. intros Hw. destruct (S1 w Hw) as [_ Hd]. apply Hd. left; auto.
      * intros x [<-|Hx]; [split; [left; auto|apply mem_not_In; auto]|].
        destruct (S1 x Hx) as [A B]. split; [right; auto|]. intros C. apply B. right; auto.
      * intros x [<-|Hx]; [right; left; auto|]. destruct (S2 x Hx) as [[->|A]|A]; auto.
        -- right; left; auto.
        -- right; right; auto.
Qed.

Lemma NoDup_bound l n : NoDup l -> Forall (fun v => v < n) l -> length l <= n.
Proof.
  intros H B. rewrite <- (seq_length n 0). apply NoDup_incl_length; auto.
  intros x Hx. rewrite Forall_forall in B. apply in_seq. specialize (B x Hx). lia.
Qed.

Lemma bfs_go_spec g : wf_graph g -> forall fuel p q disc,
  (forall v, In v disc <-> In v (p ++ q)) -> NoDup (p ++ q) ->
  Forall (fun v => v < g_n g) (p ++ q) ->
  (forall v w, In v p -> feeds g v w -> In w (p ++ q)) -> g_n g <= fuel + length p ->
  let out := bfs_go g fuel disc q in
  NoDup (p ++ out) /\ (exists r, out = q ++ r) /\
  (forall v w, In v (p ++ out) -> feeds g v w -> In w (p ++ out)) /\
  (forall w, In w out -> exists v, In v q /\ reaches g v w).
Proof.
  intros W. induction fuel as [|fuel IH]; intros p q disc Hd Hn Hb Hc Hf; cbn [bfs_go].
  - assert (q = []).
    { pose proof (NoDup_bound _ _ Hn Hb) as L. rewrite app_length in L.
      destruct q; auto. cbn in *. lia. }
    subst q. cbn. rewrite app_nil_r in *. split; [auto|]. split; [exists []; auto|]. split; [eauto|]. intros w [].
  - destruct q as [|v q].
    + cbn. rewrite app_nil_r in *. split; [auto|]. split; [exists []; auto|]. split; [eauto|]. intros w [].
    + destruct (push_new (succs g v) disc q) as [disc' q'] eqn:E.
      destruct (push_new_spec _ _ _ _ _ E) as (new & -> & -> & N & S1 & S2).
      assert (Hin : forall x, In x ((p ++ [v]) ++ q ++ new) <-> In x (p ++ v :: q) \/ In x new).
      { intros x. repeat rewrite in_app_iff; cbn; tauto. }
      specialize (IH (p ++ [v]) (q ++ new) (rev new ++ disc)).
      destruct IH as (I1 & (r & I2) & I3 & I4).
      * intros x. rewrite Hin, in_app_iff, <- in_rev, Hd. tauto.
      * rewrite app_assoc. replace ((p ++ [v]) ++ q) with (p ++ v :: q) by (rewrite <- app_assoc; auto).
        apply NoDup_app; auto.
        intros x Hx Hx'. destruct (S1 x Hx') as [_ D]. apply D, Hd; auto.
      * apply Forall_forall. intros x Hx. apply Hin in Hx. destruct Hx as [Hx|Hx].
        -- rewrite Forall_forall in Hb; auto.
        -- destruct (S1 x Hx) as [D _]. apply in_succs in D. apply (feeds_bound g v x W D).
      * intros a b Ha F. apply Hin. apply in_app_iff in Ha. destruct Ha as [Ha|[<-|[]]].
        -- left. eauto.
        -- apply in_succs in F. destruct (S2 b F) as [D|D]; auto. left. apply Hd; auto.
      * rewrite app_length. cbn. lia.
      * set (out := bfs_go g fuel (rev new ++ disc) (q ++ new)) in *.
        replace (p ++ v :: out) with ((p ++ [v]) ++ out) by (rewrite <- app_assoc; reflexivity).
        split; [auto|]. split.
        { exists (new ++ r). rewrite I2, <- app_assoc. reflexivity. }
        split; [auto|].
        intros w [<-|Hw]; [exists v; split; [left; auto|constructor]|].
        destruct (I4 w Hw) as (x & Hx & R). apply in_app_iff in Hx. destruct Hx as [Hx|Hx].
        -- exists x. split; [right; auto|auto].
        -- exists v. split; [left; auto|]. destruct (S1 x Hx) as [D _]. apply in_succs in D.
           econstructor; eauto.
Qed.

Lemma bfs_spec g start : wf_graph g -> start < g_n g ->
  NoDup (bfs g start) /\ (exists r, bfs g start = start :: r) /\
  forall w, In w (bfs g start) <-> reaches g start w.
Proof.
  intros W Hs. destruct (bfs_go_spec g W (g_n g) [] [start] [start]) as (A & (r & B) & C & D).
  - intros; reflexivity.
  - repeat constructor. intros [].
  - repeat constructor; auto.
  - intros v w [].
  - cbn. lia.
  - fold (bfs g start) in *. cbn [app] in *. split; auto. split; [exists r; auto|].
    intros w. split.
    + intros Hw. destruct (D w Hw) as (v & [<-|[]] & R). auto.
    + assert (G : forall a b, reaches g a b -> In a (bfs g start) -> In b (bfs g start)).
      { intros a b R. induction R; auto. intros. eauto. }
      intros R. apply (G start); auto. rewrite B. left; auto.
Qed.
