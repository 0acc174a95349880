(** C45, C46 and C61: alignment of messages in time. *)
From Coq Require Import List Arith NArith Bool Lia.
From Verif Require Import Base AlignerModel.
Import ListNotations.
Local Open Scope N_scope.

(** *** Specification *)
Section Spec.
Context {A : Type}.
(** The time at which a message's data is complete. *)
Definition ends (m : msg A) (t : N) : Prop := match m_tov m with TTime u => t = u | TRange _ u => t = u | TNone => False end.
(** The message lies within a window. *)
Definition inside (start stop : N) (m : msg A) : Prop :=
  match m_tov m with TTime t => start <= t <= stop | TRange s e => start <= s /\ e <= stop | TNone => False end.
(** [l'] consists of the elements of [l] that satisfy [P], in order. *)
Inductive picks {X} (P : X -> Prop) : list X -> list X -> Prop :=
| picks_nil : picks P [] []
| picks_take x l l' : P x -> picks P l l' -> picks P (x :: l) (x :: l')
| picks_skip x l l' : ~ P x -> picks P l l' -> picks P (x :: l) l'.
(** At time [t] the input already has data. *)
Definition has_data (t : N) (l : list (msg A)) : Prop := exists m u, In m l /\ ends m u /\ t <= u.
(** The latest time for which every input has data. *)
Definition latest_common (ls : list (list (msg A))) (t : N) : Prop :=
  Forall (has_data t) ls /\ forall u, Forall (has_data u) ls -> u <= t.
Definition timed (l : list (msg A)) : Prop := forall m, In m l -> exists t, ends m t.
(** What happens to one buffer, and what it should then hold: the messages not followed by
    [cap] others and not older than a later horizon. *)
Inductive event := Pushed (m : msg A) | Purged (horizon : N).
Definition pushes (evs : list event) : nat := length (filter (fun e => match e with Pushed _ => true | _ => false end) evs).
Definition fresh (m : msg A) (evs : list event) : Prop := forall h t, In (Purged h) evs -> ends m t -> h <= t.
Inductive expected (cap : nat) : list event -> list (msg A) -> Prop :=
| ex_nil : expected cap [] []
| ex_purge h evs l : expected cap evs l -> expected cap (Purged h :: evs) l
| ex_keep m evs l : expected cap evs l -> (pushes evs < cap)%nat -> fresh m evs -> expected cap (Pushed m :: evs) (m :: l)
| ex_drop m evs l : expected cap evs l -> ~ ((pushes evs < cap)%nat /\ fresh m evs) -> expected cap (Pushed m :: evs) l.
(** The messages pushed are timed and ordered by the ends of their times. *)
Fixpoint ordered (from : N) (evs : list event) : Prop :=
  match evs with
  | [] => True
  | Pushed m :: evs => exists t, ends m t /\ from <= t /\ ordered t evs
  | Purged _ :: evs => ordered from evs
  end.
Definition handle (b : buffer A) (e : event) : buffer A :=
  match e with Pushed m => push b m | Purged h => purge b h end.
End Spec.
Arguments event : clear implicits.

(** *** Lemmas *)
Section Lemmas.
Context {A : Type}.
Implicit Types (m : msg A) (l : list (msg A)) (b : buffer A).
Lemma ends_right m t : ends m t <-> tov_right (m_tov m) = Some t.
Proof. unfold ends, tov_right. destruct (m_tov m); split; try congruence; tauto. Qed.
Lemma ends_fun m t u : ends m t -> ends m u -> t = u.
Proof. rewrite !ends_right. congruence. Qed.
Lemma window_picks b start stop : picks (inside start stop) (b_msgs b) (iter_window b start stop).
Proof.
  unfold iter_window. induction (b_msgs b) as [|m l IH]; cbn; [constructor|].
  destruct (m_tov m) eqn:E.
  - apply picks_skip; auto. unfold inside. rewrite E. auto.
  - destruct (N.leb_spec start t), (N.leb_spec t stop); cbn; [apply picks_take|apply picks_skip..]; auto; unfold inside; rewrite E; lia.
  - destruct (N.leb_spec start start0), (N.leb_spec stop0 stop); cbn; [apply picks_take|apply picks_skip..]; auto; unfold inside; rewrite E; lia.
Qed.
Lemma recent_max l : timed l -> forall acc, exists r, recent acc l = Some r /\
  (r = None <-> acc = None /\ l = []) /\
  (forall t, r = Some t -> (acc = Some t \/ exists m, In m l /\ ends m t) /\ (forall u, acc = Some u -> u <= t) /\ forall m u, In m l -> ends m u -> u <= t).
Proof.
  induction l as [|m l IH]; intros T acc; cbn [recent].
  - exists acc. split; [reflexivity|]. split; [tauto|]. intros t ->. split; [auto|]. split; [intros u [= ->]; lia|intros ? ? []].
  - destruct (T m (or_introl eq_refl)) as (u & Hu). rewrite (proj1 (ends_right m u) Hu).
    destruct (IH (fun x Hx => T x (or_intror Hx)) (Some (match acc with None => u | Some c => N.max c u end))) as (r & E & Hn & Hs).
    exists r. split; [exact E|]. split.
    + split; [intros X; apply Hn in X; destruct X; discriminate|intros [_ X]; discriminate].
    + intros t Ht. destruct (Hs t Ht) as (H1 & H2 & H3). split; [|split].
      * destruct H1 as [H1|(m0 & H4 & H5)]; [|right; exists m0; split; [right|]; auto].
        injection H1 as H1. destruct acc as [c|]; [|right; exists m; subst; split; [left|]; auto].
        destruct (N.max_spec c u) as [[_ X]|[_ X]]; rewrite X in H1; subst; [right; exists m; split; [left|]; auto|left; auto].
      * intros v ->. specialize (H2 _ eq_refl). lia.
      * intros m0 v [<-|H4] H5; [|eapply H3; eauto]. rewrite (ends_fun _ _ _ H5 Hu) in *. specialize (H2 _ eq_refl). destruct acc; lia.
Qed.
Lemma least_spec (ts : list N) : match least ts with None => ts = [] | Some t => In t ts /\ forall u, In u ts -> t <= u end.
Proof.
  induction ts as [|t ts IH]; cbn; [reflexivity|]. destruct (least ts) as [u|].
  - destruct IH as [H1 H2]. destruct (N.min_spec t u) as [[L ->]|[L ->]].
    + split; [auto|]. intros v [<-|Hv]; [lia|apply H2 in Hv; lia].
    + split; [auto|]. intros v [<-|Hv]; [lia|apply H2 in Hv; lia].
  - subst ts. split; [auto|]. intros v [<-|[]]. lia.
Qed.
(** With timed data in every buffer, the code finds the latest common time. *)
Lemma times_common (bs : list (buffer A)) : bs <> [] -> Forall (fun b => b_msgs b <> [] /\ timed (b_msgs b)) bs ->
  exists t, least (times bs) = Some t /\ latest_common (map b_msgs bs) t.
Proof.
  intros NE F.
  assert (X : Forall2 (fun b t => has_data t (b_msgs b) /\ forall u, has_data u (b_msgs b) -> u <= t) bs (times bs)).
  { clear NE. induction F as [|b bs [H1 H2] F IH]; cbn [times]; [constructor|].
    destruct (recent_max _ H2 None) as (r & E & Hn & Hs). unfold most_recent_time. rewrite E. destruct r as [t|].
    - constructor; [|exact IH]. destruct (Hs t eq_refl) as ([?|(m & Hm & Ht)] & _ & H3); [discriminate|]. split.
      + exists m, t. repeat split; auto. lia.
      + intros u (m0 & v & Hm0 & Hv & L). specialize (H3 _ _ Hm0 Hv). lia.
    - exfalso. apply H1. apply Hn. reflexivity. }
  clear F. pose proof (least_spec (times bs)) as L. destruct (least (times bs)) as [t|] eqn:E.
  - exists t. split; [reflexivity|]. destruct L as [Lin L]. split.
    + apply Forall_forall. intros l Hl. apply in_map_iff in Hl. destruct Hl as (b & <- & Hb).
      assert (Y : exists u, In u (times bs) /\ has_data u (b_msgs b)).
      { clear - X Hb. induction X as [|b' u bs ts H X IH]; [destruct Hb|]. destruct Hb as [<-|Hb]; [exists u; split; [left; auto|apply H]|].
        destruct (IH Hb) as (v & H1 & H2). exists v. split; [right|]; auto. }
      destruct Y as (u & Hu & (m & v & H1 & H2 & H3)). exists m, v. repeat split; auto. specialize (L u Hu). lia.
    + intros u Hu. assert (Y : exists b, In b bs /\ forall u, has_data u (b_msgs b) -> u <= t).
      { clear - X Lin. induction X as [|b' u bs ts H X IH]; [destruct Lin|]. destruct Lin as [->|Hb]; [exists b'; split; [left; auto|apply H]|].
        destruct (IH Hb) as (v & H1 & H2). exists v. split; [right|]; auto. }
      destruct Y as (b & Hb & Hm). apply Hm. rewrite Forall_forall in Hu. apply Hu. apply in_map. exact Hb.
  - exfalso. rewrite L in X. inversion X. subst. congruence.
Qed.

(** Time ordered lists. *)
Fixpoint sorted (from : N) l : Prop := match l with [] => True | m :: l => exists t, ends m t /\ from <= t /\ sorted t l end.
Lemma position_purge l : forall from h, sorted from l ->
  skipn (position (fun m => match m_tov m with TTime t => h <=? t | TRange _ e => h <=? e | TNone => false end) l) l =
  filter (fun m => match tov_right (m_tov m) with Some t => h <=? t | None => false end) l /\
  (h <= from -> filter (fun m => match tov_right (m_tov m) with Some t => h <=? t | None => false end) l = l).
Proof.
  induction l as [|m l IH]; intros from h S0; cbn; [auto|]. destruct S0 as (t & Ht & L & S0).
  assert (X : (match m_tov m with TTime t => h <=? t | TRange _ e => h <=? e | TNone => false end) = (h <=? t)).
  { unfold ends in Ht. destruct (m_tov m); [contradiction|subst; auto..]. }
  rewrite X. apply ends_right in Ht. rewrite Ht. destruct (IH t h S0) as [I1 I2]. destruct (N.leb_spec h t).
  - cbn [skipn]. rewrite I2 by lia. auto.
  - cbn [skipn]. rewrite I1. split; [reflexivity|lia].
Qed.
Lemma sorted_weaken l from from' : from' <= from -> sorted from l -> sorted from' l.
Proof. destruct l as [|m l]; cbn; auto. intros L (t & H1 & H2 & H3). exists t. repeat split; auto. lia. Qed.
Lemma sorted_in l : forall from m t, sorted from l -> In m l -> ends m t -> from <= t.
Proof.
  induction l as [|x l IH]; intros from m t S0 I0 E; [destruct I0|]. destruct S0 as (u & Hu & L & S0). destruct I0 as [<-|I0].
  - rewrite (ends_fun _ _ _ E Hu). auto.
  - specialize (IH _ _ _ S0 I0 E). lia.
Qed.

Implicit Types (evs : list (event A)).
Lemma ordered_weaken evs : forall from from', from' <= from -> ordered from evs -> ordered from' evs.
Proof.
  induction evs as [|[m|h] evs IH]; cbn; intros from from' L; auto; [|apply IH; auto].
  intros (t & H1 & H2 & H3). exists t. repeat split; auto. lia.
Qed.
Lemma ordered_tl m evs from : ordered from (Pushed m :: evs) -> ordered from evs.
Proof. cbn. intros (t & _ & L & H). eapply ordered_weaken; eauto. Qed.
Lemma ordered_sorted l : forall from evs, ordered from (map Pushed l ++ evs) -> sorted from l.
Proof.
  induction l as [|m l IH]; intros from evs H; cbn in *; auto. destruct H as (t & H1 & H2 & H3). exists t. repeat split; auto. eauto.
Qed.
Lemma pushes_map l evs : pushes (map Pushed l ++ evs) = (length l + pushes evs)%nat.
Proof. unfold pushes. rewrite filter_app, app_length. f_equal. induction l; cbn; auto. Qed.
Lemma expected_all cap l : (length l <= cap)%nat -> expected cap (map Pushed l) l.
Proof.
  induction l as [|m l IH]; cbn; intros H; [constructor|]. apply ex_keep; [apply IH; lia| |].
  - pose proof (pushes_map l []) as P. rewrite app_nil_r in P. rewrite P. cbn. lia.
  - intros h t Hh. apply in_map_iff in Hh. destruct Hh as (x & X & _). discriminate.
Qed.
(** A purge that none of the messages before it is older than. *)
Lemma expected_insert cap h l : (forall m t, In m l -> ends m t -> h <= t) -> forall evs X, expected cap (map Pushed l ++ evs) X ->
  expected cap (map Pushed l ++ Purged h :: evs) X.
Proof.
  induction l as [|m l IH]; cbn [map app]; intros F evs X E; [constructor; auto|].
  assert (Fr : fresh m (map Pushed l ++ Purged h :: evs) <-> fresh m (map Pushed l ++ evs)).
  { unfold fresh. split; intros Q h0 t Hh Ht.
    - apply (Q h0 t); auto. apply in_app_or in Hh. apply in_or_app. destruct Hh; [left|right; right]; auto.
    - apply in_app_or in Hh. destruct Hh as [Hh|[Hh|Hh]].
      + apply (Q h0 t); auto. apply in_or_app. auto.
      + injection Hh as <-. eapply F; [left|]; eauto.
      + apply (Q h0 t); auto. apply in_or_app. auto. }
  assert (P : pushes (map Pushed l ++ Purged h :: evs) = pushes (map Pushed l ++ evs)) by (rewrite !pushes_map; reflexivity).
  assert (F' : forall m t, In m l -> ends m t -> h <= t) by (intros; eapply F; [right|]; eauto).
  inversion E; subst.
  - apply ex_keep; [apply IH; auto|rewrite P; auto|apply Fr; auto].
  - apply ex_drop; [apply IH; auto|]. rewrite P, Fr. auto.
Qed.
Lemma expected_purge cap h l : forall from evs X, ordered from (map Pushed l ++ evs) ->
  expected cap (map Pushed (filter (fun m => match tov_right (m_tov m) with Some t => h <=? t | None => false end) l) ++ evs) X ->
  expected cap (map Pushed l ++ Purged h :: evs) X.
Proof.
  induction l as [|m l IH]; intros from evs X O E; [constructor; exact E|].
  cbn [map app] in O. pose proof O as O'. destruct O' as (t & Ht & L & O1). cbn [filter] in E.
  rewrite (proj1 (ends_right m t) Ht) in E. destruct (N.leb_spec h t).
  - assert (S0 : sorted t l) by (eapply ordered_sorted; eauto). rewrite (proj2 (position_purge l t h S0)) in E by auto.
    change (expected cap (map Pushed (m :: l) ++ Purged h :: evs) X). apply expected_insert; auto.
    intros m0 u [<-|Hm] Hu; [rewrite (ends_fun _ _ _ Hu Ht); auto|]. pose proof (sorted_in _ _ _ _ S0 Hm Hu). lia.
  - cbn [map app]. apply ex_drop; [eapply IH; eauto|]. intros [_ Fr]. specialize (Fr h t). apply N.le_ngt in Fr; auto.
    apply in_or_app. right. left. reflexivity.
Qed.
Lemma handle_expected cap evs : forall l from, (length l <= cap)%nat -> ordered from (map Pushed l ++ evs) ->
  expected cap (map Pushed l ++ evs) (b_msgs (fold_left handle evs (Buffer cap l))).
Proof.
  induction evs as [|[m|h] evs IH]; intros l from L O; cbn [fold_left handle].
  - rewrite app_nil_r. cbn [b_msgs]. apply expected_all. auto.
  - assert (S1 : map Pushed (l ++ [m]) ++ evs = map Pushed l ++ Pushed m :: evs) by (rewrite map_app, <- app_assoc; reflexivity).
    unfold push. cbn [b_cap b_msgs]. destruct (Nat.eqb_spec cap 0) as [->|].
    + destruct l; [|cbn in L; lia]. cbn [map app] in *. apply ex_drop; [apply (IH [] from); [lia|]; eapply ordered_tl; eauto|]. lia.
    + destruct (Nat.leb_spec cap (length l)).
      * destruct l as [|x l]; [cbn in *; lia|]. cbn [tl]. cbn [map app] in O |- *.
        assert (S2 : map Pushed (l ++ [m]) ++ evs = map Pushed l ++ Pushed m :: evs) by (rewrite map_app, <- app_assoc; reflexivity).
        apply ex_drop.
        -- rewrite <- S2. apply (IH _ from); [rewrite app_length; cbn in *; lia|]. rewrite S2. eapply ordered_tl; eauto.
        -- rewrite <- S2, pushes_map, app_length. cbn in *. lia.
      * rewrite <- S1. apply (IH _ from); [rewrite app_length; cbn; lia|]. rewrite S1. auto.
  - unfold purge. cbn [b_cap b_msgs].
    assert (O' : ordered from (map Pushed l ++ evs)).
    { clear - O. revert from O. induction l as [|m l IH]; intros from O; cbn in *; auto.
      destruct O as (t & H1 & H2 & H3). exists t. auto. }
    rewrite (proj1 (position_purge l from h (ordered_sorted _ _ _ O))).
    set (f := fun m => match tov_right (m_tov m) with Some t => h <=? t | None => false end).
    eapply expected_purge; [exact O'|]. fold f. apply (IH _ from).
    + clear - L. induction l as [|m l IHl]; cbn in *; [auto|]. destruct (f m); cbn; [|lia]. assert (length (filter f l) <= length l)%nat; [|lia].
      clear. induction l; cbn; [lia|]. destruct (f a); cbn; lia.
    + clear - O'. revert from O'. induction l as [|m l IHl]; intros from O; cbn in *; auto. destruct O as (t & H1 & H2 & H3).
      destruct (f m); cbn; [exists t; auto|]. apply IHl. eapply ordered_weaken; eauto.
Qed.
Lemma fill_spec mos (l : list (msg A)) vs : Forall2 (fun m v => m_payload m = Some v) l vs -> fill mos l = Ret (firstn mos vs).
Proof.
  intros F. revert mos. induction F as [|m v l vs E F IH]; intros [|mos]; cbn; auto. rewrite E, IH. reflexivity.
Qed.
End Lemmas.

(** *** Theorems *)
(** With timed data in every input, the aligned data are, for each input and in arrival
    order, exactly the buffered messages in the window that ends at the latest time for which
    every input has data. Missing for C45 as stated: inputs without data (refuted below). *)
Theorem C45_window_partial : forall {A} (a : aligner A), a_buffers a <> [] ->
  Forall (fun b => b_msgs b <> [] /\ timed (b_msgs b)) (a_buffers a) ->
  exists t, latest_common (map b_msgs (a_buffers a)) t /\
    (a_window a <= t -> exists ls, latest a = Ret (Some ls) /\
       Forall2 (fun b l => picks (inside (t - a_window a) t) (b_msgs b) l) (a_buffers a) ls).
Proof.
  intros A a NE F. destruct (times_common _ NE F) as (t & E & LC). exists t. split; [exact LC|]. intros W.
  unfold latest. rewrite E. unfold time_sub. rewrite (proj2 (N.ltb_ge _ _)) by auto. cbn [obind]. eexists. split; [reflexivity|].
  clear. induction (a_buffers a) as [|b bs IH]; cbn; constructor; auto. apply window_picks.
Qed.
Print Assumptions C45_window_partial.

(** For time ordered inputs, a buffer holds exactly the messages not followed by a full buffer
    of others and not older than a horizon of a later purge. *)
Theorem C45_buffer_partial : forall {A} cap (evs : list (event A)), ordered 0 evs ->
  expected cap evs (b_msgs (fold_left handle evs (buffer_new cap))).
Proof. intros A cap evs O. apply (handle_expected cap evs [] 0); [cbn; lia|exact O]. Qed.
Print Assumptions C45_buffer_partial.

Example C45_case : let m t := Msg (TTime t) (Some t) in
  let evs := [Pushed (m 1); Pushed (m 5); Purged 3; Pushed (Msg (TRange 6 8) None); Purged 7; Pushed (m 9); Pushed (m 9)] in
  ordered 0 evs /\ b_msgs (fold_left handle evs (buffer_new 2)) = [m 9; m 9] /\
  b_msgs (fold_left handle evs (buffer_new 4)) = [Msg (TRange 6 8) None; m 9; m 9] /\
  latest (Aligner 2 100 [Buffer 4 [m 6; m 7; m 9]; Buffer 4 [m 5; m 8]]) = Ret (Some [[m 6; m 7]; [m 8]]).
Proof.
  cbn zeta. split; [|repeat split]. cbn. eexists. split; [reflexivity|]. split; [lia|]. eexists. split; [reflexivity|]. split; [lia|].
  eexists. split; [reflexivity|]. split; [lia|]. eexists. split; [reflexivity|]. split; [lia|]. eexists. split; [reflexivity|]. split; [lia|exact Logic.I].
Qed.

(** An input without data, or with one message without a time, does not hold back the
    others: data are handed out although there is no time for which every input has data. *)
Theorem C45_refuted : exists (a : aligner N) ls, latest a = Ret (Some ls) /\ concat ls <> [] /\ forall t, ~ Forall (has_data t) (map b_msgs (a_buffers a)).
Proof.
  exists (Aligner 2 100 [Buffer 4 [Msg (TTime 7) (Some 1)]; Buffer 4 []]). eexists. split; [reflexivity|]. split; [discriminate|].
  intros t F. inversion F; subst. inversion H2; subst. destruct H3 as (m & u & [] & _).
Qed.
Print Assumptions C45_refuted.
Theorem C45_untimed_refuted : exists (a : aligner N) ls m, latest a = Ret (Some ls) /\ In m (concat ls) /\ ends m 50 /\
  latest_common (map b_msgs (a_buffers a)) 7.
Proof.
  exists (Aligner 2 100 [Buffer 4 [Msg (TTime 50) (Some 1)]; Buffer 4 [Msg (TTime 7) (Some 2); Msg TNone (Some 3)]]).
  eexists. exists (Msg (TTime 50) (Some 1)). split; [reflexivity|]. split; [left; reflexivity|]. split; [reflexivity|]. split.
  - repeat constructor; [exists (Msg (TTime 50) (Some 1)), 50|exists (Msg (TTime 7) (Some 2)), 7]; cbn; repeat split; auto; lia.
  - intros u F. inversion F; subst. inversion H2; subst. destruct H3 as (m & v & [<-|[<-|[]]] & E & L); cbn in E; [lia|contradiction].
Qed.
Print Assumptions C45_untimed_refuted.

(** The horizon or the window reaching back before the start of the clock: a panic. *)
Theorem C46_refuted : forall {A} (a : aligner A) now, now < a_horizon a -> aligner_purge a now = Panic.
Proof. intros A a now H. unfold aligner_purge, time_sub. rewrite (proj2 (N.ltb_lt _ _)) by auto. reflexivity. Qed.
Print Assumptions C46_refuted.
Theorem C46_window_refuted : forall {A} (a : aligner A) t, a_buffers a <> [] -> Forall (fun b => b_msgs b <> [] /\ timed (b_msgs b)) (a_buffers a) ->
  latest_common (map b_msgs (a_buffers a)) t -> t < a_window a -> latest a = Panic.
Proof.
  intros A a t NE F (H1 & H2) L. destruct (times_common _ NE F) as (u & E & (H3 & H4)). unfold latest. rewrite E.
  specialize (H4 _ H1). specialize (H2 _ H3). unfold time_sub. rewrite (proj2 (N.ltb_lt _ _)) by lia. reflexivity.
Qed.
Print Assumptions C46_window_refuted.
(** Later on, purging never panics and purges each buffer at the horizon. Missing for C46 as
    stated: the first instants (refuted above). *)
Theorem C46_later_partial : forall {A} (a : aligner A) now, a_horizon a <= now -> exists a', aligner_purge a now = Ret a' /\
  a_window a' = a_window a /\ a_horizon a' = a_horizon a /\
  Forall2 (fun b b' => b_cap b' = b_cap b /\ forall from, sorted from (b_msgs b) ->
    picks (fun m => exists t, ends m t /\ now <= t + a_horizon a) (b_msgs b) (b_msgs b')) (a_buffers a) (a_buffers a').
Proof.
  intros A a now H. unfold aligner_purge, time_sub. rewrite (proj2 (N.ltb_ge _ _)) by auto. cbn [obind]. eexists. split; [reflexivity|].
  cbn [a_window a_horizon a_buffers]. repeat split. induction (a_buffers a) as [|b bs IH]; cbn; constructor; auto. split; [reflexivity|].
  intros from S0. unfold purge. cbn [b_msgs]. rewrite (proj1 (position_purge _ from _ S0)). clear S0. induction (b_msgs b) as [|m l IHl]; cbn; [constructor|].
  destruct (tov_right (m_tov m)) as [t|] eqn:E.
  - apply ends_right in E. destruct (N.leb_spec (now - a_horizon a) t); [apply picks_take|apply picks_skip]; auto.
    + exists t. split; [auto|lia].
    + intros (u & Hu & L). rewrite (ends_fun _ _ _ Hu E) in L. lia.
  - apply picks_skip; auto. intros (t & Ht & _). apply ends_right in Ht. congruence.
Qed.
Print Assumptions C46_later_partial.
Example C46_case : let a := Aligner 2 5 [Buffer 3 [Msg (TTime 1) (Some 1); Msg (TTime 8) (Some 2)]] in
  aligner_purge a 3 = Panic /\ exists a', aligner_purge a 10 = Ret a' /\ map b_msgs (a_buffers a') = [[Msg (TTime 8) (Some 2)]].
Proof. split; [reflexivity|]. eexists. split; reflexivity. Qed.

(** The task: an output message that has no payload yet makes every call panic that finds
    aligned data. *)
Theorem C61_refuted : forall {A} mos (a : aligner A) input ls,
  latest (Aligner (a_window a) (a_horizon a) (push_all (a_buffers a) input)) = Ret (Some ls) -> process mos a input None = Panic.
Proof. intros A mos a input ls E. unfold process. rewrite E. reflexivity. Qed.
Print Assumptions C61_refuted.
(** With a payload in the output message and in the aligned messages, the output holds the
    first payloads of the aligned messages of each input, up to its size. Missing for C61 as
    stated: messages without payload (refuted). *)
Theorem C61_output_partial : forall {A} mos (a : aligner A) input out ls vss,
  latest (Aligner (a_window a) (a_horizon a) (push_all (a_buffers a) input)) = Ret (Some ls) ->
  Forall2 (Forall2 (fun m v => m_payload m = Some v)) ls vss -> length mos = length ls ->
  process mos a input (Some out) = Ret (Aligner (a_window a) (a_horizon a) (push_all (a_buffers a) input),
    Some (map (fun x => firstn (fst x) (snd x)) (combine mos vss))).
Proof.
  intros A mos a input out ls vss E F L. unfold process. rewrite E. cbn [obind].
  assert (X : fill_all mos ls = Ret (map (fun x => firstn (fst x) (snd x)) (combine mos vss))).
  { clear E. revert mos L. induction F as [|l vs ls vss Fl F IH]; intros [|n mos] L; cbn in *; try discriminate; auto.
    rewrite (fill_spec n _ _ Fl), IH by lia. reflexivity. }
  rewrite X. reflexivity.
Qed.
Print Assumptions C61_output_partial.
Example C61_case : exists a', process [1%nat; 5%nat] (Aligner 2 100 [Buffer 4 []; Buffer 4 [Msg (TTime 6) (Some 3)]]) [Msg (TTime 7) (Some 1); Msg (TTime 7) (Some 2)] (Some [])
  = Ret (a', Some [[1]; [3; 2]]) /\
  process [1%nat; 5%nat] (Aligner 2 100 [Buffer 4 []; Buffer 4 []]) [Msg (TTime 7) (Some 1); Msg (TTime 7) (Some 2)] None = Panic.
Proof. eexists. split; reflexivity. Qed.
