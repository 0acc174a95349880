(** Proofs about memory pools. *)
From Coq Require Import List Arith Bool Lia Permutation.
From Verif Require Import Base PoolModel PoolSpec.
Import ListNotations.
Local Open Scope nat_scope.

Section PoolProofs.
Context {A : Type}.
Implicit Types (st : state A) (h : history A).

Definition busy (x : arc) : bool := a_pooled x && negb (a_count x =? 0).
Definition busy_cells (l : list arc) : list nat := map a_cell (filter busy l).
Definition own_cells (l : list arc) : list nat := map a_cell (filter (fun x => negb (a_pooled x)) l).

(** The state alone. *)
Record good st : Prop := {
  g_perm : Permutation (st_free st ++ busy_cells (st_arcs st)) (seq 0 (st_size st));
  g_cells : st_size st <= length (st_cells st);
  g_own : NoDup (own_cells (st_arcs st));
  g_own_range : forall c, In c (own_cells (st_arcs st)) -> st_size st <= c < length (st_cells st) }.
(** The state and the history. *)
Record tracks st h : Prop := {
  t_live : forall a, live h a = match nth_error (st_arcs st) a with Some x => a_count x | None => 0 end;
  t_nodup : NoDup (acquired h);
  t_pooled : forall a, In a (acquired h) -> exists x, nth_error (st_arcs st) a = Some x /\ a_pooled x = true;
  t_busy : forall a x, nth_error (st_arcs st) a = Some x -> busy x = true -> In a (acquired h) }.

Lemma filter_upd {B} (f : B -> bool) (l : list B) : forall i x y, nth_error l i = Some x -> f x = f y ->
  (f x = false -> filter f (upd i y l) = filter f l) .
Proof.
  induction l as [|z l IH]; intros i x y H E F; [destruct i; reflexivity|]. destruct i as [|i]; cbn in *.
  - injection H as ->. rewrite F, <- E, F. reflexivity.
  - rewrite (IH i x y); auto.
Qed.
Lemma map_filter_upd {B C} (f : B -> bool) (g : B -> C) (l : list B) : forall i x y, nth_error l i = Some x ->
  f x = f y -> g x = g y -> map g (filter f (upd i y l)) = map g (filter f l).
Proof.
  induction l as [|z l IH]; intros i x y H E F; [destruct i; reflexivity|]. destruct i as [|i]; cbn in *.
  - injection H as ->. rewrite <- E. destruct (f x); cbn; congruence.
  - destruct (f z); cbn; rewrite (IH i x y); auto.
Qed.
Lemma perm_filter_upd {B C} (f : B -> bool) (g : B -> C) (l : list B) : forall i x y, nth_error l i = Some x ->
  f x = true -> f y = false -> Permutation (map g (filter f l)) (g x :: map g (filter f (upd i y l))).
Proof.
  induction l as [|z l IH]; intros i x y H E F; [destruct i; discriminate|]. destruct i as [|i]; cbn in *.
  - injection H as ->. rewrite E, F. reflexivity.
  - destruct (f z); cbn; rewrite (IH i x y); auto. apply perm_swap.
Qed.

Lemma good_set st a x y : good st -> nth_error (st_arcs st) a = Some x ->
  a_cell y = a_cell x -> a_pooled y = a_pooled x -> (a_count y =? 0) = (a_count x =? 0) -> good (set_arc st a y).
Proof.
  intros [P C O R] H E1 E2 E3. constructor; cbn; auto.
  - unfold busy_cells. rewrite (map_filter_upd _ _ _ a x y); auto. unfold busy. rewrite E2, E3. reflexivity.
  - unfold own_cells. rewrite (map_filter_upd _ _ _ a x y); auto. rewrite E2. reflexivity.
  - unfold own_cells. rewrite (map_filter_upd _ _ _ a x y); auto. rewrite E2. reflexivity.
Qed.
Lemma good_drop st a x : good st -> nth_error (st_arcs st) a = Some x -> a_count x <> 0 -> good (drop_handle st a x).
Proof.
  intros G H Hc. unfold drop_handle. set (y := Arc _ _ _ _).
  destruct (Nat.eqb_spec (a_count x) 1) as [E|E]; cbn [andb].
  - destruct (a_pooled x) eqn:P.
    + destruct G as [G1 G2 G3 G4]. constructor; cbn; auto.
      * rewrite <- G1. assert (X : Permutation (busy_cells (st_arcs st)) (a_cell x :: busy_cells (upd a y (st_arcs st)))).
        { unfold busy_cells. apply perm_filter_upd; auto.
          - unfold busy. rewrite P, E. reflexivity.
          - unfold busy, y. cbn. rewrite E; cbn; rewrite ?andb_false_r; reflexivity. }
        rewrite X. apply Permutation_middle.
      * unfold own_cells. rewrite (map_filter_upd _ _ _ a x y); auto. cbn. rewrite P. reflexivity.
      * unfold own_cells. rewrite (map_filter_upd _ _ _ a x y); auto. cbn. rewrite P. reflexivity.
    + destruct G as [G1 G2 G3 G4]. constructor; cbn; auto.
      * unfold busy_cells. rewrite (map_filter_upd _ _ _ a x y); auto. unfold busy, y. cbn. rewrite P. reflexivity.
      * unfold own_cells. rewrite (map_filter_upd _ _ _ a x y); auto. cbn. rewrite P. reflexivity.
      * unfold own_cells. rewrite (map_filter_upd _ _ _ a x y); auto. cbn. rewrite P. reflexivity.
  - eapply good_set; eauto. cbn. destruct (Nat.eqb_spec (a_count x - 1) 0), (Nat.eqb_spec (a_count x) 0); auto; lia.
Qed.
Lemma good_acquire st st' r : good st -> acquire st = (st', r) -> good st' /\
  ((r = None /\ st' = st /\ st_free st = []) \/
   exists b free, st_free st = b :: free /\ r = Some (length (st_arcs st)) /\
     st' = State (st_size st) (st_cells st) free (st_arcs st ++ [Arc 1 b true false]) /\ b < st_size st /\
     ~ In b (busy_cells (st_arcs st))).
Proof.
  intros G. unfold acquire. destruct (st_free st) as [|b free] eqn:F; intros E; injection E as <- <-.
  - split; auto.
  - destruct G as [G1 G2 G3 G4]. rewrite F in G1. split.
    + constructor; cbn; auto.
      * unfold busy_cells in *. rewrite filter_app, map_app. cbn. rewrite app_assoc, <- Permutation_cons_append. exact G1.
      * unfold own_cells in *. rewrite filter_app, map_app. cbn. rewrite app_nil_r. auto.
      * unfold own_cells in *. rewrite filter_app, map_app. cbn. rewrite app_nil_r. auto.
    + right. exists b, free. repeat split; auto.
      * assert (I1 : In b (seq 0 (st_size st))) by (eapply Permutation_in; [exact G1|left; auto]). apply in_seq in I1. lia.
      * intros X. assert (N : NoDup (b :: free ++ busy_cells (st_arcs st))).
        { eapply Permutation_NoDup; [symmetry; exact G1|apply seq_NoDup]. }
        inversion N; subst. apply H1. apply in_or_app. auto.
Qed.

Lemma usable_some st a x : usable st a = Some x <-> nth_error (st_arcs st) a = Some x /\ a_count x <> 0.
Proof.
  unfold usable. destruct (nth_error (st_arcs st) a) as [y|]; [|intuition discriminate].
  destruct (a_count y) eqn:C; split; try discriminate.
  - intros [E N]. injection E as ->. congruence.
  - intros E. injection E as ->. split; auto. lia.
  - intros [E N]. auto.
Qed.
Lemma good_cells st c : good st -> st_size st <= length c -> length (st_cells st) <= length c ->
  good (State (st_size st) c (st_free st) (st_arcs st)).
Proof. intros [G1 G2 G3 G4] H1 H2. constructor; cbn; auto. intros x Hx. apply G4 in Hx. lia. Qed.
Lemma good_upd st i v : good st -> good (State (st_size st) (upd i v (st_cells st)) (st_free st) (st_arcs st)).
Proof. intros G. pose proof (g_cells _ G). apply good_cells; auto; rewrite upd_length; auto. Qed.

Lemma step_good st x : good st -> good (fst (step st x)).
Proof.
  intros G. destruct x as [|c|a|a|a|a c f|a]; cbn [step].
  - destruct (acquire st) as [st' r] eqn:E. cbn. eapply good_acquire; eauto.
  - cbn. destruct G as [G1 G2 G3 G4]. constructor; cbn.
    + unfold busy_cells in *. rewrite filter_app, map_app. cbn. rewrite app_nil_r. auto.
    + rewrite app_length. lia.
    + unfold own_cells in *. rewrite filter_app, map_app. cbn.
      apply (Permutation_NoDup (Permutation_cons_append _ _)). constructor; auto. intros X. apply G4 in X. lia.
    + unfold own_cells in *. intros d. rewrite filter_app, map_app, app_length. cbn. intros X.
      apply in_app_or in X. destruct X as [X|[<-|[]]]; [apply G4 in X|]; lia.
  - destruct (usable st a) as [x|] eqn:U; cbn; auto. apply usable_some in U. destruct U.
    eapply good_set; eauto. cbn. destruct (Nat.eqb_spec (a_count x + 1) 0), (Nat.eqb_spec (a_count x) 0); auto; lia.
  - destruct (usable st a) as [x|] eqn:U; cbn; auto. apply usable_some in U. destruct U. apply good_drop; auto.
  - destruct (usable st a) as [x|]; auto. destruct (a_poisoned x); auto.
  - destruct (usable st a) as [x|] eqn:U; cbn; auto. destruct (a_poisoned x); auto.
    apply usable_some in U. destruct U. destruct f; cbn; [|apply good_upd; auto].
    eapply good_set; eauto using good_upd; auto.
  - destruct (usable st a) as [x|] eqn:U; cbn; auto. apply usable_some in U. destruct U as [U1 U2].
    unfold copy_from. destruct (acquire st) as [st1 r] eqn:E. destruct (good_acquire _ _ _ G E) as (G1 & C).
    destruct C as [(-> & -> & _)|(b & free & F & -> & -> & Hb & Nb)]; cbn; auto.
    rewrite nth_error_app2, Nat.sub_diag by lia. cbn.
    assert (HN : nth_error (st_arcs st ++ [Arc 1 b true false]) (length (st_arcs st)) = Some (Arc 1 b true false)).
    { rewrite nth_error_app2, Nat.sub_diag by lia. reflexivity. }
    set (st1 := State _ _ _ _) in *.
    assert (GD : good (drop_handle st1 (length (st_arcs st)) (Arc 1 b true false))).
    { apply good_drop; auto. cbn. discriminate. }
    destruct (a_poisoned x); auto. destruct (nth_error (st_cells st) (a_cell x)); auto.
    destruct (nth_error (st_cells st) b); auto. destruct (_ =? _); cbn.
    + apply (good_upd st1). auto.
    + eapply (good_set _ a x); eauto. cbn. rewrite nth_error_upd_neq.
      * rewrite nth_error_app1; auto. apply nth_error_Some. congruence.
      * assert (a < length (st_arcs st)) by (apply nth_error_Some; congruence). lia.
Qed.

(** ** The history *)
Lemma live_snoc h x a : live (h ++ [x]) a = count_step a (live h a) x.
Proof. unfold live. rewrite fold_left_app. reflexivity. Qed.
Lemma acquired_snoc h x : acquired (h ++ [x]) = acquired h ++ acquired [x].
Proof. unfold acquired. rewrite flat_map_app. reflexivity. Qed.

Lemma tracks_keep st st' h x : tracks st h -> acquired [x] = [] ->
  (forall a, match nth_error (st_arcs st') a with Some y => a_count y | None => 0 end =
             count_step a (match nth_error (st_arcs st) a with Some y => a_count y | None => 0 end) x) ->
  (forall a y, nth_error (st_arcs st) a = Some y -> exists z, nth_error (st_arcs st') a = Some z /\ a_pooled z = a_pooled y) ->
  (forall a z, nth_error (st_arcs st') a = Some z -> busy z = true -> exists y, nth_error (st_arcs st) a = Some y /\ busy y = true) ->
  tracks st' (h ++ [x]).
Proof.
  intros [T1 T2 T3 T4] E H1 H2 H3. constructor.
  - intros a. rewrite live_snoc, T1, H1. reflexivity.
  - rewrite acquired_snoc, E, app_nil_r. auto.
  - intros a. rewrite acquired_snoc, E, app_nil_r. intros I1. destruct (T3 a I1) as (y & Y1 & Y2).
    destruct (H2 a y Y1) as (z & Z1 & Z2). exists z. split; congruence.
  - intros a z Z1 Z2. rewrite acquired_snoc, E, app_nil_r. destruct (H3 a z Z1 Z2) as (y & Y1 & Y2). eauto.
Qed.
Lemma nth_error_upd {B} (l : list B) i j y : nth_error (upd i y l) j = if i =? j then option_map (fun _ => y) (nth_error l i) else nth_error l j.
Proof.
  destruct (Nat.eqb_spec i j) as [<-|N]; [|apply nth_error_upd_neq; auto].
  destruct (nth_error l i) eqn:E; cbn.
  - apply nth_error_upd_eq. apply nth_error_Some. congruence.
  - apply nth_error_None. rewrite upd_length. apply nth_error_None. auto.
Qed.
Lemma tracks_set st st' h x a y z : tracks st h -> nth_error (st_arcs st) a = Some y -> acquired [x] = [] ->
  st_arcs st' = upd a z (st_arcs st) -> a_pooled z = a_pooled y ->
  (busy z = true -> busy y = true) ->
  (forall b n, count_step b n x = if a =? b then count_step a n x else n) ->
  a_count z = count_step a (a_count y) x -> tracks st' (h ++ [x]).
Proof.
  intros T H E Ha Hp Hb Hc Hd. apply (tracks_keep st); auto; rewrite Ha.
  - intros b. rewrite nth_error_upd, Hc. destruct (Nat.eqb_spec a b) as [<-|N]; auto. rewrite H. cbn. auto.
  - intros b w. rewrite nth_error_upd. destruct (Nat.eqb_spec a b) as [<-|N]; [|eauto]. rewrite H. cbn.
    intros X. injection X as <-. eauto.
  - intros b w. rewrite nth_error_upd. destruct (Nat.eqb_spec a b) as [<-|N]; [|eauto]. rewrite H. cbn.
    intros X. injection X as <-. eauto.
Qed.
(** A new allocation. *)
Lemma tracks_new st st' h x y : tracks st h -> st_arcs st' = st_arcs st ++ [y] ->
  (forall b n, count_step b n x = if b =? length (st_arcs st) then 1 else n) -> a_count y = 1 ->
  acquired [x] = (if a_pooled y then [length (st_arcs st)] else []) -> tracks st' (h ++ [x]).
Proof.
  intros [T1 T2 T3 T4] Ha Hc H1 Hq.
  assert (N : forall b, nth_error (st_arcs st') b = if b =? length (st_arcs st) then Some y else nth_error (st_arcs st) b).
  { intros b. rewrite Ha. destruct (Nat.eqb_spec b (length (st_arcs st))) as [->|N].
    - rewrite nth_error_app2, Nat.sub_diag by lia. reflexivity.
    - destruct (Nat.lt_ge_cases b (length (st_arcs st))).
      + apply nth_error_app1. auto.
      + rewrite (proj2 (nth_error_None (st_arcs st) b)) by auto. apply nth_error_None. rewrite app_length. cbn. lia. }
  constructor.
  - intros b. rewrite live_snoc, Hc, N. destruct (b =? _); auto.
  - rewrite acquired_snoc, Hq. destruct (a_pooled y); [|rewrite app_nil_r; auto].
    apply (Permutation_NoDup (Permutation_cons_append _ _)). constructor; auto.
    intros X. apply T3 in X. destruct X as (z & Z & _). assert (length (st_arcs st) < length (st_arcs st)) by (apply nth_error_Some; congruence). lia.
  - intros b. rewrite acquired_snoc, Hq. intros I1. apply in_app_or in I1. rewrite N. destruct I1 as [I1|I1].
    + apply T3 in I1. destruct I1 as (z & Z1 & Z2). destruct (Nat.eqb_spec b (length (st_arcs st))) as [->|]; eauto.
      assert (length (st_arcs st) < length (st_arcs st)) by (apply nth_error_Some; congruence). lia.
    + destruct (a_pooled y) eqn:P; [|destruct I1]. destruct I1 as [<-|[]]. rewrite Nat.eqb_refl. eauto.
  - intros b z. rewrite N, acquired_snoc, Hq. destruct (Nat.eqb_spec b (length (st_arcs st))) as [->|].
    + intros E B. injection E as <-. unfold busy in B. destruct (a_pooled y); [|discriminate]. apply in_or_app. right. left. auto.
    + intros E B. apply in_or_app. left. eauto.
Qed.

Lemma step_tracks st h x : good st -> tracks st h -> tracks (fst (step st x)) (h ++ [(x, snd (step st x))]).
Proof.
  intros G T.
  assert (Same : forall y, acquired [y] = [] -> (forall b n, count_step b n y = n) -> tracks st (h ++ [y])).
  { intros y Hq Hc. apply (tracks_keep st); try assumption; [intros; rewrite Hc; reflexivity|eauto|eauto]. }
  assert (SameA : forall st' y, st_arcs st' = st_arcs st -> acquired [y] = [] -> (forall b n, count_step b n y = n) -> tracks st' (h ++ [y])).
  { intros st' y Ea Hq Hc. apply (tracks_keep st); try assumption; rewrite Ea; [intros; rewrite Hc; reflexivity|eauto|eauto]. }
  destruct x as [|c|a|a|a|a c f|a]; cbn [step].
  - destruct (acquire st) as [st' r] eqn:E. destruct (good_acquire _ _ _ G E) as (G1 & C).
    destruct C as [(-> & -> & _)|(b & free & F & -> & -> & Hb & Nb)]; cbn; [apply Same; auto|].
    eapply tracks_new; [exact T|reflexivity|reflexivity|reflexivity|reflexivity].
  - cbn. eapply tracks_new; [exact T|reflexivity|reflexivity|reflexivity|reflexivity].
  - destruct (usable st a) as [x|] eqn:U; cbn.
    + apply usable_some in U. destruct U as [U1 U2]. eapply (tracks_set st _ h _ a x); [exact T|exact U1|reflexivity|reflexivity|reflexivity|..].
      * unfold busy. cbn. destruct (a_pooled x); auto. destruct (Nat.eqb_spec (a_count x) 0); auto.
      * intros b n. cbn. rewrite Nat.eqb_refl, (Nat.eqb_sym b a). destruct (a =? b); auto.
      * cbn. rewrite Nat.eqb_refl. destruct (Nat.eqb_spec (a_count x) 0); [congruence|reflexivity].
    + apply (tracks_keep st); auto; try (intros; eauto; fail). intros b. cbn.
      destruct (Nat.eqb_spec b a) as [->|]; auto. unfold usable in U.
      destruct (nth_error (st_arcs st) a) as [y|]; auto. destruct (a_count y); auto. discriminate.
  - destruct (usable st a) as [x|] eqn:U; cbn.
    + apply usable_some in U. destruct U as [U1 U2]. eapply (tracks_set st _ h _ a x); [exact T|exact U1|reflexivity|..].
      * unfold drop_handle. destruct (_ && _); reflexivity.
      * reflexivity.
      * unfold busy. cbn. destruct (a_pooled x); auto. destruct (Nat.eqb_spec (a_count x) 0); auto.
      * intros b n. cbn. rewrite Nat.eqb_refl, (Nat.eqb_sym b a). destruct (a =? b); auto.
      * cbn. rewrite Nat.eqb_refl. reflexivity.
    + apply (tracks_keep st); auto; try (intros; eauto; fail). intros b. cbn.
      destruct (Nat.eqb_spec b a) as [->|]; auto. unfold usable in U.
      destruct (nth_error (st_arcs st) a) as [y|]; auto. destruct (a_count y); auto. discriminate.
  - destruct (usable st a) as [x|]; [destruct (a_poisoned x); [|destruct (nth_error _ _)]|]; apply Same; auto.
  - destruct (usable st a) as [x|] eqn:U; [|apply Same; auto]. destruct (a_poisoned x); [apply Same; auto|].
    apply usable_some in U. destruct U as [U1 U2]. destruct f; cbn [fst snd].
    + eapply (tracks_set st _ h _ a x); [exact T|exact U1|reflexivity|reflexivity|reflexivity|auto| |reflexivity]. intros b n. cbn. destruct (a =? b); auto.
    + apply SameA; auto.
  - destruct (usable st a) as [x|] eqn:U; [|apply Same; auto]. apply usable_some in U. destruct U as [U1 U2].
    unfold copy_from. destruct (acquire st) as [st1 r] eqn:E. destruct (good_acquire _ _ _ G E) as (G1 & C).
    destruct C as [(-> & -> & _)|(b & free & F & -> & -> & Hb & Nb)]; cbn [fst snd]; [apply Same; auto|].
    cbn [st_arcs st_cells]. rewrite nth_error_app2, Nat.sub_diag by lia. cbn [nth_error a_cell].
    assert (D : forall st' y, acquired [y] = [] -> (forall b n, count_step b n y = n) ->
      length (st_arcs st') = S (length (st_arcs st)) ->
      (forall i, i < length (st_arcs st) -> exists z z', nth_error (st_arcs st) i = Some z /\ nth_error (st_arcs st') i = Some z' /\
          a_count z' = a_count z /\ a_pooled z' = a_pooled z) ->
      (exists z, nth_error (st_arcs st') (length (st_arcs st)) = Some z /\ a_count z = 0) -> tracks st' (h ++ [y])).
    { intros st' y Hq Hc Hl Ho (z0 & Z0 & Z0').
      assert (K : forall i z', nth_error (st_arcs st') i = Some z' -> i <= length (st_arcs st)).
      { intros i z' Hi. assert (i < length (st_arcs st')) by (apply nth_error_Some; congruence). lia. }
      apply (tracks_keep st); auto.
      - intros i. rewrite Hc. destruct (Nat.lt_trichotomy i (length (st_arcs st))) as [L|[->|L]].
        + destruct (Ho i L) as (z & z' & H1 & H2 & H3 & _). rewrite H1, H2. auto.
        + rewrite Z0, Z0', (proj2 (nth_error_None _ _)); auto.
        + rewrite !(proj2 (nth_error_None _ _)); auto; lia.
      - intros i z Hi. destruct (Ho i) as (w & w' & H1 & H2 & H3 & H4); [apply nth_error_Some; congruence|].
        exists w'. split; congruence.
      - intros i z Hi B. apply K in Hi as Ki. destruct (Nat.eq_dec i (length (st_arcs st))) as [->|N].
        + rewrite Z0 in Hi. injection Hi as ->. unfold busy in B. rewrite Z0' in B. rewrite andb_false_r in B. discriminate.
        + destruct (Ho i) as (w & w' & H1 & H2 & H3 & H4); [lia|]. exists w. split; auto.
          rewrite H2 in Hi. injection Hi as ->. unfold busy in *. congruence. }
    assert (Old : forall i z, i < length (st_arcs st) -> nth_error (upd (length (st_arcs st)) z (st_arcs st ++ [Arc 1 b true false])) i = nth_error (st_arcs st) i).
    { intros i z L. rewrite nth_error_upd_neq by lia. apply nth_error_app1. auto. }
    assert (New : forall z, nth_error (upd (length (st_arcs st)) z (st_arcs st ++ [Arc 1 b true false])) (length (st_arcs st)) = Some z).
    { intros z. apply nth_error_upd_eq. rewrite app_length. cbn. lia. }
    assert (La : a < length (st_arcs st)) by (apply nth_error_Some; congruence).
    destruct (a_poisoned x).
    { cbn. apply D; auto; cbn.
      - rewrite upd_length, app_length. cbn. lia.
      - intros i L. rewrite Old by auto. destruct (nth_error (st_arcs st) i) as [z|] eqn:Z; [eauto 10|].
        apply nth_error_None in Z. lia.
      - rewrite New. eauto. }
    assert (Cx : exists src, nth_error (st_cells st) (a_cell x) = Some src).
    { destruct (nth_error (st_cells st) (a_cell x)) eqn:Z; eauto. exfalso. apply nth_error_None in Z.
      destruct G as [P1 P2 P3 P4]. destruct (a_pooled x) eqn:Px.
      - assert (I1 : In (a_cell x) (busy_cells (st_arcs st))).
        { unfold busy_cells. apply in_map. apply filter_In. split; [eapply nth_error_In; eauto|].
          unfold busy. rewrite Px. destruct (Nat.eqb_spec (a_count x) 0); auto. }
        assert (I2 : In (a_cell x) (seq 0 (st_size st))) by (eapply Permutation_in; [exact P1|apply in_or_app; auto]).
        apply in_seq in I2. lia.
      - assert (I1 : In (a_cell x) (own_cells (st_arcs st))).
        { unfold own_cells. apply in_map. apply filter_In. split; [eapply nth_error_In; eauto|]. rewrite Px. auto. }
        apply P4 in I1. lia. }
    destruct Cx as (src & ->).
    assert (Cb : exists dst, nth_error (st_cells st) b = Some dst).
    { destruct (nth_error (st_cells st) b) eqn:Z; eauto. apply nth_error_None in Z. pose proof (g_cells _ G). lia. }
    destruct Cb as (dst & ->).
    destruct (length src =? length dst); cbn [fst snd].
    + eapply (tracks_new st _ h); [exact T|reflexivity|reflexivity|reflexivity|reflexivity].
    + apply D; auto; cbn.
      * rewrite !upd_length, app_length. cbn. lia.
      * intros i L. rewrite nth_error_upd. destruct (Nat.eqb_spec a i) as [<-|N].
        -- rewrite Old, U1 by auto. cbn. exists x. eauto 10.
        -- rewrite Old by auto. destruct (nth_error (st_arcs st) i) as [z|] eqn:Z; [eauto 10|]. apply nth_error_None in Z. lia.
      * rewrite nth_error_upd_neq by lia. rewrite New. eauto.
Qed.

Lemma pool_new_good size init st : @pool_new A size init = Ret st -> good st /\ tracks st [] /\ st_size st = size.
Proof.
  unfold pool_new. destruct size as [|n]; [discriminate|]. intros E. injection E as <-. split; [|split]; auto.
  - constructor; cbn [st_free st_arcs st_size st_cells].
    + change (busy_cells []) with (@nil nat). rewrite app_nil_r. symmetry. apply Permutation_rev.
    + cbn. rewrite ?map_length, ?seq_length. apply le_n.
    + constructor.
    + intros c [].
  - constructor; cbn.
    + intros a. destruct a; reflexivity.
    + constructor.
    + intros a [].
    + intros a x. destruct a; discriminate.
Qed.
Lemma size_step st x : st_size (fst (step st x)) = st_size st.
Proof.
  assert (D : forall st a x, st_size (drop_handle st a x) = st_size st) by (intros; unfold drop_handle; destruct (_ && _); reflexivity).
  destruct x as [|c|a|a|a|a c f|a]; cbn [step].
  - unfold acquire. destruct (st_free st); reflexivity.
  - reflexivity.
  - destruct (usable st a); reflexivity.
  - destruct (usable st a); cbn; auto.
  - destruct (usable st a) as [x|]; [destruct (a_poisoned x)|]; reflexivity.
  - destruct (usable st a) as [x|]; [destruct (a_poisoned x); [|destruct f]|]; reflexivity.
  - destruct (usable st a) as [x|]; [|reflexivity]. unfold copy_from, acquire. destruct (st_free st); [reflexivity|].
    destruct (nth_error _ _); [|reflexivity]. destruct (a_poisoned x); [cbn; rewrite D; reflexivity|].
    destruct (nth_error _ _) as [s1|]; [|reflexivity]. destruct (nth_error _ _); [|reflexivity]. destruct (_ =? _); cbn; rewrite ?D; reflexivity.
Qed.
Lemma steps_inv l : forall st h st' outs, good st -> tracks st h -> steps st l = (st', outs) ->
  good st' /\ tracks st' (h ++ combine l outs) /\ st_size st' = st_size st.
Proof.
  induction l as [|x l IH]; intros st h st' outs G T; cbn.
  - intros E. injection E as <- <-. rewrite app_nil_r. auto.
  - destruct (step st x) as [st1 o] eqn:E1. destruct (steps st1 l) as [st2 os] eqn:E2. intros E. injection E as <- <-.
    pose proof (step_good st x G) as G1. pose proof (step_tracks st h x G T) as T1. pose proof (size_step st x) as S1.
    rewrite E1 in *. cbn in *. destruct (IH _ _ _ _ G1 T1 E2) as (H1 & H2 & H3). rewrite <- app_assoc in H2. split; auto. split; auto. congruence.
Qed.
Lemma runs_inv size init st l h st' : pool_new size init = Ret st -> runs st l h st' ->
  good st' /\ tracks st' h /\ st_size st' = size.
Proof.
  intros N (outs & E & ->). destruct (pool_new_good _ _ _ N) as (G & T & <-). apply (steps_inv _ _ [] _ _ G T E).
Qed.

Lemma indexes {B} (f : B -> bool) (l : list B) : forall k,
  length (filter (fun i => match nth_error l (i - k) with Some x => f x | None => false end) (seq k (length l))) = length (filter f l).
Proof.
  induction l as [|x l IH]; intros k; auto. cbn [length seq filter]. rewrite Nat.sub_diag. cbn [nth_error].
  assert (E : length (filter (fun i => match nth_error (x :: l) (i - k) with Some y => f y | None => false end) (seq (S k) (length l))) =
              length (filter f l)).
  { rewrite <- (IH (S k)). f_equal. apply filter_ext_in. intros i Hi. apply in_seq in Hi. replace (i - k) with (S (i - S k)) by lia. reflexivity. }
  destruct (f x); cbn [length]; rewrite E; reflexivity.
Qed.
Lemma in_use_busy st h : tracks st h -> forall a, In a (in_use h) <->
  exists x, nth_error (st_arcs st) a = Some x /\ busy x = true.
Proof.
  intros [T1 T2 T3 T4] a. unfold in_use. rewrite filter_In, T1. split.
  - intros [I1 L]. destruct (T3 a I1) as (x & X1 & X2). exists x. split; auto. rewrite X1 in L. unfold busy. rewrite X2. auto.
  - intros (x & X1 & X2). split; eauto. rewrite X1. unfold busy in X2. apply andb_prop in X2. tauto.
Qed.
Lemma space_in_use st h : good st -> tracks st h -> space_left st + length (in_use h) = st_size st.
Proof.
  intros G T. pose proof (Permutation_length (g_perm _ G)) as P. rewrite app_length, seq_length in P.
  rewrite <- P. unfold space_left. f_equal. unfold busy_cells. rewrite map_length.
  rewrite <- (indexes busy (st_arcs st) 0). apply Permutation_length. apply NoDup_Permutation.
  - unfold in_use. apply NoDup_filter. apply (t_nodup _ _ T).
  - apply NoDup_filter. apply seq_NoDup.
  - intros a. rewrite (in_use_busy _ _ T), filter_In, in_seq, Nat.sub_0_r. split.
    + intros (x & X1 & X2). rewrite X1. split; auto. split; [lia|]. apply nth_error_Some. congruence.
    + intros [_ H]. destruct (nth_error (st_arcs st) a); [eauto|discriminate].
Qed.

Lemma map_filter_inj {B} (f : B -> bool) (g : B -> nat) l : NoDup (map g (filter f l)) ->
  forall i j x y, nth_error l i = Some x -> nth_error l j = Some y -> f x = true -> f y = true -> g x = g y -> i = j.
Proof.
  induction l as [|z l IH]; intros N i j x y H1 H2 F1 F2 E; [destruct i; discriminate|].
  assert (M : forall k w, nth_error l k = Some w -> f w = true -> In (g w) (map g (filter f l))).
  { intros k w K F. apply in_map. apply filter_In. split; auto. eapply nth_error_In; eauto. }
  destruct i as [|i], j as [|j]; cbn in H1, H2; auto.
  - injection H1 as ->. cbn in N. rewrite F1 in N. apply NoDup_cons_iff in N. exfalso. apply (proj1 N). rewrite E. eauto.
  - injection H2 as ->. cbn in N. rewrite F2 in N. apply NoDup_cons_iff in N. exfalso. apply (proj1 N). rewrite <- E. eauto.
  - f_equal. apply (IH) with x y; auto. cbn in N. destruct (f z); auto. inversion N; auto.
Qed.
Lemma cell_range st a x : good st -> nth_error (st_arcs st) a = Some x -> a_count x <> 0 ->
  (if a_pooled x then a_cell x < st_size st /\ ~ In (a_cell x) (st_free st) else st_size st <= a_cell x) /\ a_cell x < length (st_cells st).
Proof.
  intros [P1 P2 P3 P4] H C. destruct (a_pooled x) eqn:Px.
  - assert (I1 : In (a_cell x) (busy_cells (st_arcs st))).
    { unfold busy_cells. apply in_map. apply filter_In. split; [eapply nth_error_In; eauto|].
      unfold busy. rewrite Px. destruct (Nat.eqb_spec (a_count x) 0); auto. }
    assert (I2 : In (a_cell x) (seq 0 (st_size st))) by (eapply Permutation_in; [exact P1|apply in_or_app; auto]).
    apply in_seq in I2. split; [|lia]. split; [lia|]. intros X.
    assert (N : NoDup (st_free st ++ busy_cells (st_arcs st))) by (eapply Permutation_NoDup; [symmetry; exact P1|apply seq_NoDup]).
    clear -N X I1. induction (st_free st) as [|f l IH]; cbn in *; auto. inversion N; subst.
    destruct X as [->|X]; auto. apply H1. apply in_or_app. auto.
  - assert (I1 : In (a_cell x) (own_cells (st_arcs st))).
    { unfold own_cells. apply in_map. apply filter_In. split; [eapply nth_error_In; eauto|]. rewrite Px. auto. }
    apply P4 in I1. lia.
Qed.
Lemma cells_apart st a b x y : good st -> nth_error (st_arcs st) a = Some x -> nth_error (st_arcs st) b = Some y ->
  a_count x <> 0 -> a_count y <> 0 -> a <> b -> a_cell x <> a_cell y.
Proof.
  intros G H1 H2 C1 C2 N E. pose proof (cell_range _ _ _ G H1 C1) as R1. pose proof (cell_range _ _ _ G H2 C2) as R2.
  destruct G as [P1 P2 P3 P4]. destruct (a_pooled x) eqn:Px, (a_pooled y) eqn:Py.
  - apply N. eapply (map_filter_inj busy a_cell (st_arcs st)); eauto.
    + assert (X : NoDup (st_free st ++ busy_cells (st_arcs st))) by (eapply Permutation_NoDup; [symmetry; exact P1|apply seq_NoDup]).
      unfold busy_cells in X. clear -X. induction (st_free st) as [|f l IH]; auto. inversion X; auto.
    + unfold busy. rewrite Px. destruct (Nat.eqb_spec (a_count x) 0); auto.
    + unfold busy. rewrite Py. destruct (Nat.eqb_spec (a_count y) 0); auto.
  - lia.
  - lia.
  - apply N. eapply (map_filter_inj _ a_cell (st_arcs st)); eauto; cbn; rewrite ?Px, ?Py; auto.
Qed.

(** ** What a handle shows *)
Lemma read_contents st b c : snd (step st (Read b)) = Contents c <->
  exists y, nth_error (st_arcs st) b = Some y /\ a_count y <> 0 /\ a_poisoned y = false /\ nth_error (st_cells st) (a_cell y) = Some c.
Proof.
  cbn [step]. destruct (usable st b) as [y|] eqn:U.
  - apply usable_some in U. destruct U as [U1 U2]. split.
    + destruct (a_poisoned y) eqn:P; [discriminate|]. destruct (nth_error (st_cells st) (a_cell y)) as [d|] eqn:D; [|discriminate].
      cbn. intros E. injection E as <-. eauto 10.
    + intros (z & Z1 & Z2 & Z3 & Z4). rewrite U1 in Z1. injection Z1 as <-. rewrite Z3, Z4. reflexivity.
  - split; [discriminate|]. intros (z & Z1 & Z2 & Z3 & Z4). exfalso.
    assert (X : usable st b = Some z) by (apply usable_some; auto). congruence.
Qed.
Lemma read_poisoned st b y : nth_error (st_arcs st) b = Some y -> a_count y <> 0 -> a_poisoned y = true -> snd (step st (Read b)) = Panicked.
Proof. intros H C P. cbn [step]. rewrite (proj2 (usable_some st b y)); auto. rewrite P. reflexivity. Qed.

Lemma nth_error_snoc {B} (l : list B) x b y : nth_error l b = Some y -> nth_error (l ++ [x]) b = Some y.
Proof. intros H. rewrite nth_error_app1; auto. apply nth_error_Some. congruence. Qed.

Lemma frame st h b c x : good st -> tracks st h -> snd (step st (Read b)) = Contents c ->
  (forall c' f, x <> Write b c' f) -> live (h ++ [(x, snd (step st x))]) b <> 0 ->
  snd (step (fst (step st x)) (Read b)) = Contents c \/
  (x = CopyFrom b /\ snd (step st x) = Panicked /\ snd (step (fst (step st x)) (Read b)) = Panicked).
Proof.
  intros G T R NW L. apply read_contents in R. destruct R as (y & Y1 & Y2 & Y3 & Y4).
  assert (Stay : snd (step st (Read b)) = Contents c) by (apply read_contents; eauto 10).
  assert (Lb : b < length (st_arcs st)) by (apply nth_error_Some; congruence).
  destruct x as [|d|a|a|a|a d f|a]; cbn [step].
  - left. apply read_contents. destruct (acquire st) as [st1 r] eqn:E. destruct (good_acquire _ _ _ G E) as (G1 & C).
    destruct C as [(-> & -> & _)|(b' & free & F & -> & -> & Hb & Nb)]; cbn [fst st_arcs st_cells]; exists y; repeat split; auto using nth_error_snoc.
  - left. apply read_contents. cbn. exists y. repeat split; auto using nth_error_snoc.
  - left. destruct (usable st a) as [x|] eqn:U; [|exact Stay]. apply usable_some in U. destruct U as [U1 U2].
    apply read_contents. cbn [fst set_arc st_arcs st_cells]. rewrite nth_error_upd. destruct (Nat.eqb_spec a b) as [->|N]; [|eauto 10].
    rewrite Y1 in *. injection U1 as ->. cbn. eexists. split; [reflexivity|]. cbn. split; [lia|auto].
  - left. destruct (usable st a) as [x|] eqn:U; [|exact Stay]. apply usable_some in U. destruct U as [U1 U2].
    apply read_contents. cbn [fst].
    assert (E1 : st_arcs (drop_handle st a x) = upd a (Arc (a_count x - 1) (a_cell x) (a_pooled x) (a_poisoned x)) (st_arcs st)).
    { unfold drop_handle. destruct (_ && _); reflexivity. }
    assert (E2 : st_cells (drop_handle st a x) = st_cells st) by (unfold drop_handle; destruct (_ && _); reflexivity).
    rewrite E1, E2, nth_error_upd. destruct (Nat.eqb_spec a b) as [->|N]; [|eauto 10].
    rewrite Y1 in *. injection U1 as ->. cbn. eexists. split; [reflexivity|]. cbn. split; [|auto].
    rewrite live_snoc, (t_live _ _ T), Y1 in L. cbn in L. rewrite Nat.eqb_refl in L. auto.
  - left. destruct (usable st a) as [x|]; [destruct (a_poisoned x)|]; exact Stay.
  - left. destruct (usable st a) as [x|] eqn:U; [|exact Stay]. destruct (a_poisoned x); [exact Stay|].
    apply usable_some in U. destruct U as [U1 U2]. assert (N : a <> b) by (intros ->; eapply NW; reflexivity).
    assert (CA : a_cell x <> a_cell y) by (eapply cells_apart; eauto). apply read_contents. exists y.
    destruct f; cbn [fst set_arc st_arcs st_cells]; rewrite ?nth_error_upd_neq by auto; auto.
  - destruct (usable st a) as [x|] eqn:U; [|left; exact Stay]. apply usable_some in U. destruct U as [U1 U2].
    unfold copy_from. destruct (acquire st) as [st1 r] eqn:E. destruct (good_acquire _ _ _ G E) as (G1 & C).
    destruct C as [(-> & -> & _)|(b' & free & F & -> & -> & Hb & Nb)]; cbn [fst snd]; [left; exact Stay|].
    cbn [st_arcs st_cells]. rewrite nth_error_app2, Nat.sub_diag by lia. cbn [nth_error a_cell].
    assert (Old : forall z, nth_error (upd (length (st_arcs st)) z (st_arcs st ++ [Arc 1 b' true false])) b = Some y).
    { intros z. rewrite nth_error_upd_neq by lia. apply nth_error_snoc. auto. }
    assert (Cb : a_cell y <> b').
    { intros X. pose proof (cell_range _ _ _ G Y1 Y2) as Rg. rewrite X, F in Rg. cbn in Rg. destruct (a_pooled y); [tauto|lia]. }
    destruct (a_poisoned x) eqn:Px.
    { left. apply read_contents. exists y. cbn. auto. }
    destruct (nth_error (st_cells st) (a_cell x)) as [src|]; [|left; apply read_contents; cbn; exists y; repeat split; auto using nth_error_snoc].
    destruct (nth_error (st_cells st) b') as [dst|]; [|left; apply read_contents; cbn; exists y; repeat split; auto using nth_error_snoc].
    destruct (length src =? length dst); cbn [fst snd].
    + left. apply read_contents. cbn. exists y. rewrite nth_error_upd_neq by auto. repeat split; auto using nth_error_snoc.
    + destruct (Nat.eq_dec a b) as [->|N].
      * right. split; auto. split; auto. rewrite Y1 in U1. injection U1 as <-.
        apply (read_poisoned _ _ (Arc (a_count y) (a_cell y) (a_pooled y) true)); [|exact Y2|reflexivity]. cbn. rewrite nth_error_upd_eq; [reflexivity|]. rewrite upd_length, app_length. lia.
      * left. apply read_contents. exists y. cbn. rewrite nth_error_upd_neq by auto. auto.
Qed.
End PoolProofs.
