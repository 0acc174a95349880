From Coq Require Import List Arith NArith Bool Lia.
From Verif Require Import Base CameraModel CameraSpec.
Import ListNotations.
Local Open Scope nat_scope.

Section Proofs.
Variable size : nat.
Variable pick : cam -> nat.
Implicit Types (c : cam) (b : nat).

Lemma held_true c b : held c b = true <-> c_msg c = Some b \/ In (Some b) (c_arena c) \/ In b (c_kept c).
Proof.
  unfold held. rewrite orb_true_iff, !existsb_exists. split.
  - intros [([x|] & [E|I] & H)|(x & I & H)]; try discriminate.
    + apply Nat.eqb_eq in H. subst. auto.
    + apply Nat.eqb_eq in H. subst. auto.
    + apply Nat.eqb_eq in H. subst. auto.
  - intros [E|[I|I]].
    + left. exists (Some b). split; [now left|apply Nat.eqb_refl].
    + left. exists (Some b). split; [now right|apply Nat.eqb_refl].
    + right. exists b. split; [assumption|apply Nat.eqb_refl].
Qed.

Lemma acquire_free c b : acquire size pick c = Some b -> held c b = false.
Proof.
  unfold acquire. destruct (filter _ _) as [|x l] eqn:F; [discriminate|]. intros [= <-].
  assert (I : In (nth (pick c mod length (x :: l)) (x :: l) x) (filter (fun b => negb (held c b)) (seq 0 size))).
  { rewrite F. apply nth_In. apply Nat.mod_upper_bound. discriminate. }
  apply filter_In in I as [_ I]. now apply negb_true_iff in I.
Qed.

Lemma acquire_some c (l : list nat) : (forall b, held c b = true -> In b l) -> length l < size -> exists b, acquire size pick c = Some b.
Proof.
  intros H L. unfold acquire. destruct (filter _ _) as [|x r] eqn:F; [|eauto].
  exfalso. assert (I : incl (seq 0 size) l).
  { intros b Hb. apply H. destruct (held c b) eqn:E; [reflexivity|]. exfalso.
    assert (In b (filter (fun b => negb (held c b)) (seq 0 size))) by (apply filter_In; now rewrite E).
    rewrite F in *. auto. }
  apply NoDup_incl_length in I; [|apply seq_NoDup]. rewrite seq_length in I. lia.
Qed.

Lemma queue_inv fail i c c' ok : queue size pick fail i c = Ret (c', ok) -> exists b,
  acquire size pick c = Some b /\ i < length (c_arena c) /\
  c_mem c' = c_mem c /\ c_arena c' = upd i (Some b) (c_arena c) /\ c_last c' = c_last c /\ c_active c' = c_active c /\
  c_msg c' = c_msg c /\ c_kept c' = c_kept c /\
  (if ok then ~ In i (map fst (c_kq c)) /\ c_kq c' = c_kq c ++ [(i, b)] else c_kq c' = c_kq c /\ (fail = true \/ In i (map fst (c_kq c)))).
Proof.
  unfold queue. destruct (acquire size pick c) as [b|] eqn:A; [|discriminate].
  destruct (i <? length (c_arena c)) eqn:L; [|discriminate]. apply Nat.ltb_lt in L. cbn [c_kq].
  assert (E : existsb (fun x => fst x =? i) (c_kq c) = true <-> In i (map fst (c_kq c))).
  { rewrite existsb_exists, in_map_iff. split; intros (x & H1 & H2).
    - apply Nat.eqb_eq in H2. eauto.
    - exists x. split; [assumption|]. now apply Nat.eqb_eq. }
  destruct (fail || existsb (fun x => fst x =? i) (c_kq c)) eqn:F; intros [= <- <-]; exists b; cbn;
    (split; [reflexivity|split; [exact L|do 6 (split; [reflexivity|])]]).
  - split; [reflexivity|]. apply orb_true_iff in F as [F|F]; [now left|right; now apply E].
  - split; [|reflexivity]. apply orb_false_iff in F as [_ F]. intros H. apply E in H. congruence.
Qed.

(** *** Safety *)
Definition clean c : Prop := forall i b, In (i, b) (c_kq c) -> nth_error (c_arena c) i = Some (Some b).
Record inv (started : bool) c : Prop := {
  inv_i : NoDup (map fst (c_kq c));
  inv_b : NoDup (map snd (c_kq c));
  inv_clean : clean c \/ In (c_last c) (map fst (c_kq c));
  inv_apart : forall b, driver's c b -> ~ seen c b;
  inv_idle : started = false -> c_kq c = [] }.

Lemma nth_error_In' {A} (l : list A) i x : nth_error l i = Some x -> In x l.
Proof. apply nth_error_In. Qed.

Lemma NoDup_snoc {A} (l : list A) x : NoDup l -> ~ In x l -> NoDup (l ++ [x]).
Proof.
  intros H N. apply NoDup_rev in H. rewrite <- (rev_involutive (l ++ [x])). apply NoDup_rev.
  rewrite rev_app_distr. cbn. constructor; [|assumption]. now rewrite <- in_rev.
Qed.

(** A successful queue in a clean state. *)
Lemma queue_ok_inv started fail i c c' : inv started c -> clean c -> started = true ->
  queue size pick fail i c = Ret (c', true) -> inv true c' /\ clean c'.
Proof.
  intros I C S Q. apply queue_inv in Q as (b & A & L & E1 & E2 & E3 & E4 & E5 & E6 & N & K).
  apply acquire_free in A.
  assert (Nb : ~ (c_msg c = Some b \/ In (Some b) (c_arena c) \/ In b (c_kept c))).
  { intros H%held_true. congruence. }
  assert (C' : clean c').
  { intros j x Hj. rewrite K in Hj. rewrite E2. apply in_app_or in Hj as [Hj|[[= <- <-]|[]]].
    - assert (i <> j). { intros ->. apply N. apply in_map_iff. exists (j, x). auto. }
      rewrite nth_error_upd_neq by assumption. now apply C.
    - now apply nth_error_upd_eq. }
  split; [|assumption]. constructor.
  - rewrite K, map_app. apply NoDup_snoc; [apply I|assumption].
  - rewrite K, map_app. apply NoDup_snoc; [apply I|].
    intros H. apply in_map_iff in H as ((j & x) & E & H). cbn in E. subst x. apply C in H. apply nth_error_In' in H. tauto.
  - now left.
  - intros x (j & H). rewrite K in H. unfold seen. rewrite E5, E6. apply in_app_or in H as [H|[[= <- <-]|[]]].
    + apply (inv_apart _ _ I). now exists j.
    + tauto.
  - discriminate.
Qed.

(** A queue that fails. *)
Lemma queue_bad_inv started fail i c c' : inv started c ->
  (clean c -> ~ In i (map fst (c_kq c)) \/ i = c_last c) -> (In (c_last c) (map fst (c_kq c)) -> i = c_last c \/ clean c) ->
  queue size pick fail i c = Ret (c', false) -> inv started c'.
Proof.
  intros I H1 H2 Q. apply queue_inv in Q as (b & A & L & E1 & E2 & E3 & E4 & E5 & E6 & K & _).
  constructor.
  - rewrite K. apply I.
  - rewrite K. apply I.
  - rewrite K, E3.
    assert (D : In i (map fst (c_kq c)) \/ ~ In i (map fst (c_kq c))) by (destruct (in_dec Nat.eq_dec i (map fst (c_kq c))); auto).
    assert (Cl : clean c -> ~ In i (map fst (c_kq c)) -> clean c').
    { intros C N j x Hj. rewrite K in Hj. rewrite E2. rewrite nth_error_upd_neq; [now apply C|].
      intros ->. apply N. apply in_map_iff. exists (j, x). auto. }
    destruct (inv_clean _ _ I) as [C|Hl].
    + destruct (H1 C) as [N| ->]; [left; auto|]. destruct D; auto.
    + auto.
  - intros x (j & H). rewrite K in H. unfold seen. rewrite E5, E6. apply (inv_apart _ _ I). now exists j.
  - rewrite K. apply I.
Qed.

Lemma queue_all_inv fails l : forall c c' ok, inv true c -> clean c -> NoDup l ->
  (forall i, In i l -> ~ In i (map fst (c_kq c))) ->
  queue_all size pick fails l c = Ret (c', ok) -> inv true c' /\ clean c' /\ c_mem c' = c_mem c /\ c_msg c' = c_msg c /\ c_kept c' = c_kept c.
Proof.
  induction l as [|i l IH]; intros c c' ok I C N D.
  - cbn. intros [= <- <-]. auto.
  - cbn. destruct (queue size pick (fails i) i c) as [[c1 ok1]|] eqn:Q; cbn; [|discriminate]. intros R.
    pose proof (queue_inv _ _ _ _ _ Q) as (b & A & L & E1 & E2 & E3 & E4 & E5 & E6 & K).
    inversion N as [|? ? Ni Nl]; subst.
    destruct ok1.
    + destruct (queue_ok_inv _ _ _ _ _ I C eq_refl Q) as [I1 C1]. destruct K as [_ K].
      destruct (IH c1 c' ok I1 C1 Nl) as (J1 & J2 & J3 & J4 & J5); [|assumption|].
      * intros j Hj. rewrite K, map_app. intros Hk. apply in_app_or in Hk as [Hk|[Hk|[]]].
        -- apply (D j); [now right|assumption].
        -- cbn in Hk. congruence.
      * repeat split; auto; try congruence; apply J1.
    + injection R as <- <-.
      assert (Ni' : ~ In i (map fst (c_kq c))) by (apply D; now left).
      assert (I1 : inv true c1) by (apply (queue_bad_inv true (fails i) i c c1); auto).
      split; [assumption|]. repeat split; auto.
      intros j x Hj. destruct K as [K _]. rewrite K in Hj. rewrite E2, nth_error_upd_neq; [now apply C|].
      intros ->. apply Ni'. apply in_map_iff. exists (j, x). auto.
Qed.

Lemma in_without {A} k (l : list A) x : In x (without k l) -> In x l.
Proof.
  unfold without. intros H. apply in_app_or in H. rewrite <- (firstn_skipn k l). apply in_or_app.
  destruct H as [H|H]; [now left|right]. clear - H. revert l H. induction k as [|k IH]; intros l H.
  - destruct l; cbn in *; auto.
  - destruct l as [|y l]; cbn in *; [auto|]. now apply IH.
Qed.
Lemma without_split {A} k (l : list A) x : nth_error l k = Some x -> l = firstn k l ++ x :: skipn (S k) l.
Proof. revert l; induction k as [|k IH]; intros [|y l]; cbn; try discriminate; [now intros [= ->]|]. intros H. f_equal. now apply IH. Qed.
Lemma NoDup_without {A B} (f : A -> B) k (l : list A) x : nth_error l k = Some x -> NoDup (map f l) ->
  NoDup (map f (without k l)) /\ ~ In (f x) (map f (without k l)).
Proof.
  intros E N. rewrite (without_split _ _ _ E) in N. unfold without. rewrite map_app in *. cbn in N.
  apply NoDup_remove in N. tauto.
Qed.

Lemma inv_shrink started c m : inv started c -> (forall b, m = Some b -> seen c b) -> inv started (set_msg m c).
Proof.
  intros I H. constructor; cbn; try apply I.
  intros b D. intros [S|S].
  - cbn in S. apply (inv_apart _ _ I b D). now apply H.
  - apply (inv_apart _ _ I b D). now right.
Qed.

Lemma without_in {A} k (l : list A) x : In x (without k l) -> In x l.
Proof. apply in_without. Qed.

Lemma next_inv fail a c c' r : inv true c -> stream_next size pick fail a c = Ret (c', r) ->
  inv true c' /\ c_mem c' = c_mem c /\ c_msg c' = c_msg c /\ c_kept c' = c_kept c /\
  match r with
  | None => True
  | Some (b, e) => ~ driver's c' b /\
      exists k i b0, a = Given k e /\ nth_error (c_kq c ++ [(c_last c, b0)]) k = Some (i, b) /\
                     c_kq c' = without k (c_kq c ++ [(c_last c, b0)])
  end.
Proof.
  intros I. unfold stream_next. destruct (c_active c) eqn:Ac; [|intros [= <- <-]; auto].
  destruct (queue size pick fail (c_last c) c) as [[c1 ok]|] eqn:Q; cbn [obind]; [|discriminate].
  pose proof (queue_inv _ _ _ _ _ Q) as (b0 & A & L & E1 & E2 & E3 & E4 & E5 & E6 & K).
  destruct ok.
  - destruct K as [N K]. assert (C : clean c). { destruct (inv_clean _ _ I) as [C|C]; [assumption|contradiction]. }
    destruct (queue_ok_inv _ _ _ _ _ I C eq_refl Q) as [I1 C1].
    destruct a as [|k e]; [intros [= <- <-]; auto|].
    destruct (nth_error (c_kq c1) k) as [[i b]|] eqn:Hk; [|intros [= <- <-]; auto].
    cbn [c_arena c_mem c_last c_active c_kq c_msg c_kept].
    pose proof (C1 i b (nth_error_In _ _ Hk)) as Hb. rewrite Hb. intros [= <- <-].
    destruct (NoDup_without fst k _ _ Hk (inv_i _ _ I1)) as [N1 N2].
    destruct (NoDup_without snd k _ _ Hk (inv_b _ _ I1)) as [N3 N4].
    split; [|split; [assumption|split; [assumption|split; [assumption|split]]]].
    + constructor; cbn; auto.
      * left. intros j x Hj. cbn in *. apply C1. now apply in_without in Hj.
      * intros x (j & Hj) S. cbn in Hj. apply in_without in Hj. apply (inv_apart _ _ I1 x); [now exists j|exact S].
      * discriminate.
    + intros (j & Hj). cbn in Hj. apply N4. apply in_map_iff. exists (j, b). auto.
    + exists k, i, b0. cbn. rewrite <- K. auto.
  - intros [= <- <-]. split; [|auto]. apply (queue_bad_inv true fail (c_last c) c c1); auto.
Qed.

Lemma process_inv fail a clears c c' ok : inv true c -> process size pick fail a clears c = Ret (c', ok) -> inv true c'.
Proof.
  intros I. unfold process. destruct (stream_next size pick fail a c) as [[c1 r]|] eqn:N; cbn [obind]; [|discriminate].
  destruct (next_inv _ _ _ _ _ I N) as (I1 & _ & E1 & E2 & D).
  destruct r as [[b []]|].
  - intros [= <- <-]. assumption.
  - intros [= <- <-]. destruct D as [D _]. constructor; cbn; try apply I1.
    intros x Hx [S|S]; cbn in S.
    + injection S as ->. contradiction.
    + apply (inv_apart _ _ I1 x Hx). now right.
  - intros [= <- <-]. destruct clears; [|assumption]. apply inv_shrink; [assumption|discriminate].
Qed.

(** Before the first start and after a stop nothing is queued, so nothing can go wrong. *)
Lemma idle_process fail a clears c c' ok : c_active c = false -> process size pick fail a clears c = Ret (c', ok) ->
  c' = (if clears then set_msg None c else c) /\ ok = false.
Proof. intros A. unfold process, stream_next. rewrite A. cbn. now intros [= <- <-]. Qed.

Record good (started : bool) c : Prop := { g_inv : inv started c; g_idle : started = false -> c_active c = false }.

Definition started_after (started : bool) (x : event) (ok : bool) : bool :=
  match x with Start _ _ => true | Stop _ => if ok then false else started | _ => started end.

Lemma inv_weaken started c : inv started c -> inv true c.
Proof. intros I. constructor; try apply I. discriminate. Qed.

Lemma step_good started x c c' ok : good started c -> (match x with Start _ _ => started = false | _ => True end) ->
  step size pick x c = Ret (c', ok) -> good (started_after started x ok) c'.
Proof.
  intros [I Id] HS. destruct x as [fails onfail|fail|fail a clears| |j| |k v]; cbn [step started_after].
  - subst started. unfold stream_start.
    destruct (queue_all size pick fails (seq 1 (length (c_arena c) - 1)) c) as [[c1 ok1]|] eqn:Q; cbn [obind]; [|discriminate].
    assert (K : c_kq c = []) by now apply I.
    destruct (queue_all_inv fails (seq 1 (length (c_arena c) - 1)) c c1 ok1) as (I1 & C1 & _); auto.
    + now apply (inv_weaken false).
    + intros i b. now rewrite K.
    + apply seq_NoDup.
    + intros i _. now rewrite K.
    + destruct ok1; intros [= <- <-]; (split; [|discriminate]); auto.
      constructor; cbn; try apply I1. now left.
  - unfold stream_stop. destruct fail; intros [= <- <-]; [now split|].
    split; [|reflexivity]. constructor; cbn; try constructor; auto.
    + now intros i b [].
    + now intros b (i & []).
  - intros P. destruct started.
    + split; [|discriminate]. now apply (process_inv fail a clears c c' ok).
    + apply idle_process in P as [-> ->]; [|auto]. split; [|intros; destruct clears; cbn; auto].
      destruct clears; [|assumption]. apply inv_shrink; [assumption|discriminate].
  - intros [= <- <-]. split; [|assumption]. constructor; cbn; try apply I.
    intros b Hb [S|S]; cbn in S.
    + apply (inv_apart _ _ I b Hb). now left.
    + destruct (c_msg c) as [m|] eqn:M; [destruct S as [<-|S]|].
      * apply (inv_apart _ _ I m Hb). now left.
      * apply (inv_apart _ _ I b Hb). now right.
      * apply (inv_apart _ _ I b Hb). now right.
  - intros [= <- <-]. split; [|assumption]. constructor; cbn; try apply I.
    intros b Hb [S|S]; cbn in S.
    + apply (inv_apart _ _ I b Hb). now left.
    + apply in_without in S. apply (inv_apart _ _ I b Hb). now right.
  - intros [= <- <-]. split; [|assumption]. apply inv_shrink; [assumption|discriminate].
  - intros [= <- <-]. destruct (nth_error (c_kq c) k) as [[i b]|]; [|now split].
    split; [|assumption]. constructor; cbn; apply I.
Qed.

Lemma good_new n : good false (cam_new n).
Proof.
  split; [|reflexivity]. constructor; cbn; try constructor; auto.
  - now intros i b [].
  - now intros b (i & []).
Qed.

Lemma run_good l : forall started c c' oks, good started c -> run size pick l c = Ret (c', oks) ->
  restarts_ok started (combine l oks) -> exists s, good s c'.
Proof.
  induction l as [|x l IH]; intros started c c' oks G.
  - cbn. intros [= <- <-] _. eauto.
  - cbn [run]. destruct (step size pick x c) as [[c1 ok]|] eqn:S; cbn [obind]; [|discriminate].
    destruct (run size pick l (fst (c1, ok))) as [[c2 oks2]|] eqn:R; cbn [obind fst snd]; [|discriminate].
    intros [= <- <-] P. cbn [fst] in R. cbn [combine] in P.
    assert (H : (match x with Start _ _ => started = false | _ => True end) /\ restarts_ok (started_after started x ok) (combine l oks2)).
    { destruct x; cbn in *; auto. }
    destruct H as [H1 H2]. eapply IH; [|exact R|exact H2]. eapply step_good; eauto.
Qed.

(** Nobody but the driver changes a buffer. *)
Lemma step_mem x c c' ok b : step size pick x c = Ret (c', ok) -> (forall i, ~ In (i, b) (c_kq c)) -> c_mem c' b = c_mem c b.
Proof.
  assert (Qm : forall fail i c c' ok, queue size pick fail i c = Ret (c', ok) -> c_mem c' = c_mem c).
  { intros fail i d d' ok' Q. apply queue_inv in Q as (? & _ & _ & E & _). exact E. }
  destruct x as [fails onfail|fail|fail a clears| |j| |k v]; cbn [step]; intros S N.
  - unfold stream_start in S.
    assert (Qa : forall l c c' ok, queue_all size pick fails l c = Ret (c', ok) -> c_mem c' = c_mem c).
    { induction l as [|i l IH]; intros d d' ok'; cbn; [now intros [= <- <-]|].
      destruct (queue size pick (fails i) i d) as [[d1 [|]]|] eqn:Q; cbn; try discriminate.
      - intros R. apply IH in R. apply Qm in Q. congruence.
      - intros [= <- <-]. now apply Qm in Q. }
    destruct (queue_all size pick fails (seq 1 (length (c_arena c) - 1)) c) as [[c1 ok1]|] eqn:Q; cbn [obind] in S; [|discriminate].
    apply Qa in Q. destruct ok1; injection S as <- <-; cbn; now rewrite Q.
  - unfold stream_stop in S. destruct fail; injection S as <- <-; reflexivity.
  - unfold process, stream_next in S. destruct (c_active c); cbn [obind] in S.
    2:{ injection S as <- <-. now destruct clears. }
    destruct (queue size pick fail (c_last c) c) as [[c1 ok1]|] eqn:Q; cbn [obind] in S; [|discriminate].
    apply Qm in Q. destruct ok1.
    2:{ cbn [obind] in S. injection S as <- <-. destruct clears; cbn; now rewrite Q. }
    destruct a as [|k e]; [cbn [obind] in S; injection S as <- <-; destruct clears; cbn; now rewrite Q|].
    destruct (nth_error (c_kq c1) k) as [[i x]|]; [|cbn [obind] in S; injection S as <- <-; destruct clears; cbn; now rewrite Q].
    cbn [c_arena] in S. destruct (nth_error (c_arena c1) i) as [[y|]|]; cbn [obind] in S; try discriminate.
    destruct e; injection S as <- <-; cbn; now rewrite Q.
  - injection S as <- <-. reflexivity.
  - injection S as <- <-. reflexivity.
  - injection S as <- <-. reflexivity.
  - injection S as <- <-. destruct (nth_error (c_kq c) k) as [[i x]|] eqn:E; [|reflexivity]. cbn.
    destruct (Nat.eqb_spec b x) as [->|]; [|reflexivity]. apply nth_error_In in E. now destruct (N i).
Qed.

(** *** Supply *)
Fixpoint values (l : list (option nat)) : list nat :=
  match l with [] => [] | Some b :: l => b :: values l | None :: l => values l end.
Lemma values_in l b : In (Some b) l <-> In b (values l).
Proof.
  induction l as [|[x|] l IH]; cbn; [tauto| |].
  - rewrite <- IH. split; (intros [H|H]; [left; congruence|right; exact H]).
  - rewrite <- IH. split; [intros [H|H]; [discriminate|auto]|auto].
Qed.
Lemma values_length l : length (values l) <= length l.
Proof. induction l as [|[x|] l IH]; cbn; lia. Qed.

(** All handles are in the arena. *)
Definition homely c : Prop := c_kept c = [] /\ (forall b, c_msg c = Some b -> In (Some b) (c_arena c)).

Lemma homely_acquire c : homely c -> length (c_arena c) < size -> exists b, acquire size pick c = Some b.
Proof.
  intros [K M] L. apply (acquire_some c (values (c_arena c))).
  - intros b H%held_true. apply values_in. rewrite K in H. destruct H as [H|[H|[]]]; auto.
  - pose proof (values_length (c_arena c)). lia.
Qed.

Lemma queue_works i c : homely c -> length (c_arena c) < size -> i < length (c_arena c) -> ~ In i (map fst (c_kq c)) ->
  exists c', queue size pick false i c = Ret (c', true).
Proof.
  intros H L Hi N. destruct (homely_acquire c H L) as [b A]. unfold queue. rewrite A.
  apply Nat.ltb_lt in Hi. rewrite Hi. cbn [c_kq orb].
  destruct (existsb (fun x => fst x =? i) (c_kq c)) eqn:E; [|eauto].
  exfalso. apply N. apply existsb_exists in E as (x & Hx & E). apply Nat.eqb_eq in E. apply in_map_iff. eauto.
Qed.

Record calm (n : nat) c : Prop := {
  calm_len : length (c_arena c) = n;
  calm_kept : c_kept c = [] }.

Lemma queue_all_works l : forall c n, calm n c -> c_msg c = None -> n < size -> inv true c -> clean c -> NoDup l ->
  (forall i, In i l -> i < n /\ ~ In i (map fst (c_kq c))) ->
  exists c', queue_all size pick (fun _ => false) l c = Ret (c', true) /\ calm n c' /\ c_msg c' = None /\ inv true c' /\ clean c' /\
             map fst (c_kq c') = map fst (c_kq c) ++ l.
Proof.
  induction l as [|i l IH]; intros c n Ca M L I C N D.
  - exists c. cbn. rewrite app_nil_r. auto 10.
  - inversion N as [|? ? Ni Nl]; subst. destruct (D i (or_introl eq_refl)) as [Hi Hn].
    destruct (queue_works i c) as [c1 Q].
    + split; [apply Ca|]. congruence.
    + now rewrite (calm_len _ _ Ca).
    + now rewrite (calm_len _ _ Ca).
    + assumption.
    + pose proof (queue_inv _ _ _ _ _ Q) as (b & A & _ & E1 & E2 & E3 & E4 & E5 & E6 & _ & K).
      destruct (queue_ok_inv _ _ _ _ _ I C eq_refl Q) as [I1 C1].
      destruct (IH c1 n) as (c' & R & J); auto; try congruence.
      * constructor; [rewrite E2, upd_length; apply Ca|rewrite E6; apply Ca].
      * intros j Hj. destruct (D j (or_intror Hj)) as [D1 D2]. split; [assumption|]. rewrite K, map_app.
        intros H. apply in_app_or in H as [H|[H|[]]]; [contradiction|]. cbn in H. congruence.
      * exists c'. cbn. rewrite Q. cbn. split; [assumption|]. rewrite K, map_app, <- app_assoc in J. exact J.
Qed.

Record running (n : nat) c : Prop := {
  r_calm : calm n c; r_inv : inv true c; r_clean : clean c; r_active : c_active c = true;
  r_last : c_last c < n; r_free : ~ In (c_last c) (map fst (c_kq c)); r_len : S (length (c_kq c)) = n;
  r_msg : forall b, c_msg c = Some b -> nth_error (c_arena c) (c_last c) = Some (Some b) }.

Lemma running_process n c k clears : n < size -> running n c -> k < n ->
  exists c', process size pick false (Given k false) clears c = Ret (c', true) /\ running n c'.
Proof.
  intros Sz R Hk. assert (L : length (c_arena c) = n) by apply R.
  destruct (queue_works (c_last c) c) as [c1 Q].
  - split; [apply R|]. intros b H. apply (r_msg _ _ R) in H. now apply nth_error_In in H.
  - lia.
  - rewrite L. apply R.
  - apply R.
  - pose proof (queue_inv _ _ _ _ _ Q) as (b0 & A & _ & E1 & E2 & E3 & E4 & E5 & E6 & _ & K).
    destruct (queue_ok_inv _ _ _ _ _ (r_inv _ _ R) (r_clean _ _ R) eq_refl Q) as [I1 C1].
    assert (Lk : length (c_kq c1) = n). { rewrite K, app_length. cbn. pose proof (r_len _ _ R). lia. }
    destruct (nth_error (c_kq c1) k) as [[i b]|] eqn:Hi.
    2:{ apply nth_error_None in Hi. lia. }
    pose proof (C1 i b (nth_error_In _ _ Hi)) as Hb.
    assert (N : stream_next size pick false (Given k false) c =
                Ret (Cam (c_mem c1) (c_arena c1) i (c_active c1) (without k (c_kq c1)) (c_msg c1) (c_kept c1), Some (b, false))).
    { unfold stream_next. rewrite (r_active _ _ R), Q. cbn [obind]. rewrite Hi. cbn [c_arena]. now rewrite Hb. }
    unfold process. rewrite N. cbn [obind]. eexists. split; [reflexivity|].
    pose proof (process_inv false (Given k false) clears c) as PI. unfold process in PI. rewrite N in PI. cbn [obind] in PI.
    specialize (PI _ _ (r_inv _ _ R) eq_refl).
    destruct (NoDup_without fst k _ _ Hi (inv_i _ _ I1)) as [N1 N2].
    constructor; cbn.
    + constructor; cbn; [rewrite E2, upd_length; assumption|rewrite E6; apply R].
    + exact PI.
    + intros j x Hj. cbn in *. apply C1. now apply in_without in Hj.
    + rewrite E4. apply R.
    + rewrite <- L, <- (upd_length (c_last c) (Some b0)), <- E2. apply nth_error_Some. rewrite Hb. discriminate.
    + exact N2.
    + pose proof (f_equal (@length _) (without_split _ _ _ Hi)) as S. unfold without. rewrite app_length in *. cbn [length] in S. lia.
    + intros x [= <-]. exact Hb.
Qed.

Lemma running_body n body : n < size -> Forall (uneventful n) body -> forall c, running n c ->
  exists c' oks, run size pick body c = Ret (c', oks) /\ running n c' /\ Forall (eq true) oks.
Proof.
  intros Sz. induction 1 as [|x body U F IH]; intros c R.
  - exists c, []. auto.
  - assert (S : exists c', step size pick x c = Ret (c', true) /\ running n c').
    { destruct x as [fails onfail|fail|[] [|k []] clears| |j| |k v]; cbn in U; try contradiction; cbn [step].
      - now apply running_process.
      - eexists. split; [reflexivity|]. destruct R as [[Q1 Q2] Q3 Q4 Q5 Q6 Q7 Q8 Q9]. constructor; cbn; auto; [now constructor| |discriminate].
        apply inv_shrink; [exact Q3|discriminate].
      - destruct (nth_error (c_kq c) k) as [[i b]|]; [|eauto]. eexists. split; [reflexivity|].
        destruct R as [[Q1 Q2] Q3 Q4 Q5 Q6 Q7 Q8 Q9]. constructor; cbn; auto; [now constructor|].
        constructor; cbn; apply Q3. }
    destruct S as (c1 & S & R1). destruct (IH c1 R1) as (c' & oks & Rn & R' & Ok).
    exists c', (true :: oks). cbn. rewrite S. cbn. rewrite Rn. cbn. auto.
Qed.

Lemma run_app l m c : run size pick (l ++ m) c =
  let! r := run size pick l c in let! s := run size pick m (fst r) in Ret (fst s, snd r ++ snd s).
Proof.
  revert c; induction l as [|x l IH]; intros c.
  - cbn. now destruct (run size pick m c) as [[]|].
  - cbn [app run]. destruct (step size pick x c) as [[c1 ok]|]; cbn [obind fst snd]; [|reflexivity].
    rewrite IH. destruct (run size pick l c1) as [[c2 oks]|]; cbn [obind fst snd]; [|reflexivity].
    destruct (run size pick m c2) as [[c3 oks']|]; cbn [obind fst snd]; reflexivity.
Qed.

(** Between two sessions. *)
Record resting (n : nat) c : Prop := { rest_calm : calm n c; rest_msg : c_msg c = None; rest_kq : c_kq c = [] }.

Lemma start_works n c : 0 < n -> n < size -> resting n c ->
  exists c', step size pick (Start (fun _ => false) false) c = Ret (c', true) /\ running n c'.
Proof.
  intros Hn Sz [Ca M K].
  assert (I : inv true c).
  { constructor; rewrite ?K; cbn; try constructor; auto; try discriminate.
    - intros i b. now rewrite K.
    - intros b (i & H). now rewrite K in H. }
  destruct (queue_all_works (seq 1 (n - 1)) c n Ca M Sz I) as (c1 & Q & Ca1 & M1 & I1 & C1 & K1).
  - intros i b. now rewrite K.
  - apply seq_NoDup.
  - intros i Hi. apply in_seq in Hi. rewrite K. cbn. split; [lia|tauto].
  - eexists. split.
    { cbn [step]. unfold stream_start. rewrite (calm_len _ _ Ca), Q. reflexivity. }
    rewrite K in K1. cbn in K1.
    constructor; cbn; auto.
    + destruct Ca1. now constructor.
    + constructor; cbn; try apply I1. now left.
    + rewrite K1. rewrite in_seq. lia.
    + rewrite <- (map_length fst), K1, seq_length. lia.
    + rewrite M1. discriminate.
Qed.

Lemma session_works n body c : 0 < n -> n < size -> Forall (uneventful n) body -> resting n c ->
  exists c' oks, run size pick (session body) c = Ret (c', oks) /\ resting n c' /\ Forall (eq true) oks.
Proof.
  intros Hn Sz U Re. destruct (start_works n c Hn Sz Re) as (c2 & S & R).
  destruct (running_body n body Sz U c2 R) as (c3 & oks & Rn & R3 & Ok).
  unfold session. cbn [app]. cbn [run]. rewrite S. cbn [obind fst snd].
  rewrite run_app, Rn. cbn [obind fst snd]. cbn [run step stream_stop obind fst snd].
  eexists. eexists. split; [reflexivity|]. split.
  - destruct (r_calm _ _ R3). repeat constructor; cbn; auto.
  - constructor; [reflexivity|]. apply Forall_app. auto.
Qed.

Lemma sessions_work n bodies : 0 < n -> n < size -> Forall (Forall (uneventful n)) bodies -> forall c, resting n c ->
  exists c' oks, run size pick (flat_map session bodies) c = Ret (c', oks) /\ Forall (eq true) oks.
Proof.
  intros Hn Sz. induction 1 as [|body bodies U F IH]; intros c R.
  - exists c, []. auto.
  - cbn [flat_map]. rewrite run_app.
    destruct (session_works n body c Hn Sz U R) as (c1 & oks1 & E & R1 & O1). rewrite E. cbn [obind fst snd].
    destruct (IH c1 R1) as (c2 & oks2 & E2 & O2). rewrite E2. cbn [obind fst snd].
    eexists. eexists. split; [reflexivity|]. apply Forall_app. auto.
Qed.

Lemma resting_new n : resting n (cam_new n).
Proof. repeat constructor; cbn; auto. apply repeat_length. Qed.

(** *** A picture that did not come *)
Lemma stuck_step x c c' ok : In (c_last c) (map fst (c_kq c)) -> keeps_going x -> step size pick x c = Ret (c', ok) ->
  In (c_last c') (map fst (c_kq c')) /\ (is_process x = true -> ok = false).
Proof.
  intros H. destruct x as [fails onfail|fail|fail a clears| |j| |k v]; cbn [step keeps_going is_process]; try contradiction; intros _.
  - unfold process, stream_next. destruct (c_active c); cbn [obind].
    2:{ intros [= <- <-]. now destruct clears. }
    destruct (queue size pick fail (c_last c) c) as [[c1 ok1]|] eqn:Q; cbn [obind]; [|discriminate].
    apply queue_inv in Q as (b & _ & _ & _ & _ & E3 & _ & _ & _ & K). destruct ok1; [tauto|].
    destruct K as [K _]. cbn [obind]. intros [= <- <-]. split; [|auto]. destruct clears; cbn; now rewrite E3, K.
  - intros [= <- <-]. split; [assumption|discriminate].
  - intros [= <- <-]. split; [assumption|discriminate].
  - intros [= <- <-]. split; [assumption|discriminate].
  - intros [= <- <-]. split; [|discriminate]. now destruct (nth_error (c_kq c) k) as [[]|].
Qed.
Lemma stuck_run l : forall c c' oks, In (c_last c) (map fst (c_kq c)) -> Forall keeps_going l -> run size pick l c = Ret (c', oks) ->
  Forall (fun p => is_process (fst p) = true -> snd p = false) (combine l oks).
Proof.
  induction l as [|x l IH]; intros c c' oks H F; [constructor|].
  inversion F as [|? ? F1 F2]; subst. cbn [run].
  destruct (step size pick x c) as [[c1 ok]|] eqn:S; cbn [obind]; [|discriminate].
  destruct (stuck_step _ _ _ _ H F1 S) as [H1 H2]. cbn [fst snd].
  destruct (run size pick l c1) as [[c2 oks2]|] eqn:R; cbn [obind fst snd]; [|discriminate].
  intros [= <- <-]. cbn [combine]. constructor; [exact H2|]. eapply IH; eauto.
Qed.

Lemma timeout_sticks n c clears : n < size -> running n c ->
  exists c', process size pick false Nothing clears c = Ret (c', false) /\ In (c_last c') (map fst (c_kq c')).
Proof.
  intros Sz R. assert (L : length (c_arena c) = n) by apply R.
  destruct (queue_works (c_last c) c) as [c1 Q].
  - split; [apply R|]. intros b H. apply (r_msg _ _ R) in H. now apply nth_error_In in H.
  - lia.
  - rewrite L. apply R.
  - apply R.
  - pose proof (queue_inv _ _ _ _ _ Q) as (b0 & A & _ & E1 & E2 & E3 & E4 & E5 & E6 & _ & K).
    unfold process, stream_next. rewrite (r_active _ _ R), Q. cbn [obind]. eexists. split; [reflexivity|].
    assert (H : In (c_last c1) (map fst (c_kq c1))).
    { rewrite E3, K, map_app. apply in_or_app. right. now left. }
    destruct clears; exact H.
Qed.
End Proofs.
