(** Proofs about interned strings. *)
From Coq Require Import String List Arith NArith ZArith Bool Lia Permutation.
From Verif Require Import Base BincodeModel CodecModel ValueModel LogModel LogSpec LogProofs.
Import ListNotations.
Local Open Scope list_scope.
Local Open Scope N_scope.

(** ** The table *)
Lemma resize_nth (all : list txt) i j s : nth_error all j = Some s ->
  nth_error (if Nat.leb (length all) i then all ++ repeat [] (i + 1 - length all) else all) j = Some s.
Proof.
  intros H. destruct (Nat.leb _ _); auto. rewrite nth_error_app1; auto.
  apply nth_error_Some. congruence.
Qed.
Lemma put_same all i s : nth_error (put_string all (i, s)) (N.to_nat i) = Some s.
Proof.
  unfold put_string. cbn [fst snd]. apply nth_error_upd_eq.
  destruct (Nat.leb_spec (length all) (N.to_nat i)); auto. rewrite app_length, repeat_length. lia.
Qed.
Lemma put_other all i s j t : i <> j -> nth_error all (N.to_nat j) = Some t ->
  nth_error (put_string all (i, s)) (N.to_nat j) = Some t.
Proof.
  intros H1 H2. unfold put_string. cbn [fst snd]. rewrite nth_error_upd_neq by lia. apply resize_nth. auto.
Qed.
Lemma fold_put entries : forall all, NoDup (map fst entries) ->
  (forall i s, In (i, s) entries -> nth_error (fold_left put_string entries all) (N.to_nat i) = Some s) /\
  (forall i s, ~ In i (map fst entries) -> nth_error all (N.to_nat i) = Some s ->
     nth_error (fold_left put_string entries all) (N.to_nat i) = Some s).
Proof.
  induction entries as [|[i s] es IH]; intros all N; cbn [fold_left map fst In]; [split; tauto|].
  inversion N; subst. destruct (IH (put_string all (i, s))) as [I1 I2]; auto. split.
  - intros j t [E|E]; [|auto]. injection E as -> ->. apply I2; auto. apply put_same.
  - intros j t Hn Hj. apply I2; [tauto|]. apply put_other; auto.
Qed.

(** ** The stores *)
Record ok (st : stores) : Prop := {
  ok_nodup : NoDup (map fst (i2s st));
  ok_range : forall i s, In (i, s) (i2s st) -> 1 <= i <= counter st;
  ok_both : forall s i, In (s, i) (s2i st) <-> In (i, s) (i2s st) }.
Definition grows (a b : stores) : Prop := forall i s, In (i, s) (i2s a) -> In (i, s) (i2s b).

Lemma ok_empty : ok no_strings.
Proof. constructor; cbn; try tauto. constructor. Qed.
Lemma filter_all {A} (f : A -> bool) l : (forall x, In x l -> f x = true) -> filter f l = l.
Proof.
  induction l as [|x l IH]; cbn; auto. intros H. rewrite (H x) by auto. f_equal. auto.
Qed.
Lemma insert_ok storable mode st s st' i : ok st -> counter st + 1 < 2 ^ 32 \/ mode = Checked ->
  intern_insert storable mode st s = Ret (st', i) ->
  ok st' /\ i = counter st + 1 /\ counter st' = counter st + 1 /\
  i2s st' = (i, s) :: i2s st /\ s2i st' = (s, i) :: s2i st.
Proof.
  intros [H1 H2 H3] Hw E. unfold intern_insert in E.
  assert (E1 : (if counter st + 1 <? 2 ^ 32 then Ret (counter st + 1) else match mode with Checked => Panic | Wrapping => Ret 0 end)
               = Ret (counter st + 1) \/
               (if counter st + 1 <? 2 ^ 32 then Ret (counter st + 1) else match mode with Checked => Panic | Wrapping => Ret 0 end)
               = Panic).
  { destruct (N.ltb_spec (counter st + 1) (2 ^ 32)); auto. destruct Hw; [lia|]. subst. auto. }
  destruct E1 as [E1|E1]; rewrite E1 in E; cbn [obind] in E; [|discriminate]. clear E1.
  destruct (storable s); [|discriminate].
  rewrite filter_all in E.
  2: { intros [j t] Hj. cbn. apply H2 in Hj. destruct (N.eqb_spec j (counter st + 1)); auto. lia. }
  injection E as <- <-. cbn. repeat split; auto; cbn.
  - constructor; auto. intros X. apply in_map_iff in X. destruct X as ([j t] & Ej & Hj). cbn in Ej. apply H2 in Hj. lia.
  - destruct H as [H|H]; [injection H; lia|]. apply H2 in H. lia.
  - destruct H as [H|H]; [injection H; lia|]. apply H2 in H. lia.
  - intros [X|X]; [left; congruence|right; apply H3; auto].
  - intros [X|X]; [left; congruence|right; apply H3; auto].
Qed.
Lemma insert_ret storable mode st s : storable s = true -> counter st + 1 < 2 ^ 32 ->
  exists st', intern_insert storable mode st s = Ret (st', counter st + 1).
Proof.
  intros H1 H2. unfold intern_insert. destruct (N.ltb_spec (counter st + 1) (2 ^ 32)); [|lia].
  cbn [obind]. rewrite H1. eauto.
Qed.

(** *** One request after the other *)
Definition single (st : stores) : Prop := NoDup (map fst (s2i st)).
Lemma request_ok storable mode st s st' i : ok st -> single st -> counter st + 1 < 2 ^ 32 \/ mode = Checked ->
  intern_string storable mode st s = Ret (st', i) ->
  ok st' /\ single st' /\ grows st st' /\ In (i, s) (i2s st') /\ counter st' <= counter st + 1.
Proof.
  intros O S1 Hw. unfold intern_string, intern_lookup. destruct (lookup (s2i st) s) as [j|] eqn:L.
  - intros E. injection E as <- <-. apply lookup_some in L. split; [auto|]. split; [auto|]. split; [intros ? ?; auto|]. split; [|lia].
    apply (ok_both _ O). auto.
  - intros E. apply insert_ok in E; auto. destruct E as (O' & -> & C & E1 & E2). split; [auto|]. split; [|split; [|split]].
    + unfold single. rewrite E2. cbn. constructor; auto. intros X. apply in_map_iff in X. destruct X as ([t j] & Et & Ht). cbn in Et.
      subst t. rewrite (lookup_in _ _ _ S1 Ht) in L. discriminate.
    + intros j t H. rewrite E1. right. auto.
    + rewrite E1. left. auto.
    + lia.
Qed.
Lemma requests_ok storable mode l : forall st st' ans, ok st -> single st ->
  counter st + N.of_nat (length l) < 2 ^ 32 \/ mode = Checked ->
  requests storable mode st l = (st', ans) ->
  ok st' /\ single st' /\ grows st st' /\ Forall (fun a => In (snd a, fst a) (i2s st')) ans.
Proof.
  induction l as [|s l IH]; intros st st' ans O S1 Hw; cbn [requests].
  - intros E. injection E as <- <-. split; [auto|]. split; [auto|]. split; [intros ? ?; auto|constructor].
  - destruct (intern_string storable mode st s) as [[st1 i]|] eqn:E.
    + apply request_ok in E; auto. 2: { destruct Hw as [Hw|Hw]; auto. left. cbn [length] in Hw. lia. }
      destruct E as (O1 & S2 & G & I1 & C).
      destruct (requests storable mode st1 l) as [st2 ans2] eqn:R. intros X. injection X as <- <-.
      apply IH in R; auto. 2: { destruct Hw as [Hw|Hw]; auto. left. cbn [length] in Hw. lia. }
      destruct R as (O2 & S3 & G2 & F). split; [auto|]. split; [auto|]. split.
      * intros j t H. apply G2, G. auto.
      * constructor; [cbn; apply G2|]; auto.
    + intros R. apply IH in R; auto. destruct Hw as [Hw|Hw]; auto. left. cbn [length] in Hw. lia.
Qed.
Lemma requests_served storable mode l : forall st st' ans, ok st -> single st ->
  counter st + N.of_nat (length l) < 2 ^ 32 ->
  requests storable mode st l = (st', ans) -> forall s, In s l -> storable s = true -> exists i, In (s, i) ans.
Proof.
  induction l as [|s l IH]; intros st st' ans O S1 Hw; cbn [requests]; [intros _ ? []|].
  cbn [length] in Hw.
  destruct (intern_string storable mode st s) as [[st1 i]|] eqn:E.
  - apply request_ok in E; auto. 2: left; lia.
    destruct E as (O1 & S2 & G & I1 & C). destruct (requests storable mode st1 l) as [st2 ans2] eqn:R.
    intros X. injection X as <- <-. intros t [->|H] St; [exists i; left; auto|].
    destruct (IH _ _ _ O1 S2 ltac:(lia) R t H St) as (j & Hj). exists j. right. auto.
  - intros R t [->|H] St.
    + exfalso. unfold intern_string in E. destruct (intern_lookup st t); [discriminate|].
      destruct (insert_ret storable mode st t St) as (st1 & E1); [lia|]. congruence.
    + eapply IH; eauto. lia.
Qed.

(** *** Any interleaving *)
Definition wok (w : world) : Prop := ok (w_st w) /\ Forall (fun a => In (snd a, fst a) (i2s (w_st w))) (w_answers w).
Lemma wstep_ok storable mode w a : wok w -> counter (w_st w) + 1 < 2 ^ 32 \/ mode = Checked ->
  wok (wstep storable mode w a) /\ grows (w_st w) (w_st (wstep storable mode w a)) /\
  counter (w_st (wstep storable mode w a)) <= counter (w_st w) + 1.
Proof.
  intros [O F] Hw. destruct a as [p s|p]; cbn [wstep].
  - unfold intern_lookup. destruct (lookup (s2i (w_st w)) s) as [i|] eqn:L; cbn.
    + split; [|split; [intros ? ?; auto|lia]]. split; cbn; auto. apply Forall_app. split; auto.
      constructor; auto. cbn. apply (ok_both _ O), lookup_some. auto.
    + split; [split; auto|split; [intros ? ?; auto|lia]].
  - destruct (waiting (w_wait w) p) as [s|]; [|split; [split; auto|split; [intros ? ?; auto|lia]]].
    destruct (intern_insert storable mode (w_st w) s) as [[st i]|] eqn:E; [|split; [split; auto|split; [intros ? ?; auto|lia]]].
    apply insert_ok in E; auto. destruct E as (O' & -> & C & E1 & E2). cbn.
    assert (G : grows (w_st w) st) by (intros j t H; rewrite E1; right; auto).
    split; [|split; [auto|lia]]. split; cbn; auto. apply Forall_app. split.
    + eapply Forall_impl; [|exact F]. intros [t j] H. cbn in *. auto.
    + constructor; auto. cbn. rewrite E1. left. auto.
Qed.
Lemma wsteps_ok storable mode acts : forall w, wok w -> counter (w_st w) + N.of_nat (length acts) < 2 ^ 32 \/ mode = Checked ->
  wok (fold_left (wstep storable mode) acts w) /\ grows (w_st w) (w_st (fold_left (wstep storable mode) acts w)).
Proof.
  induction acts as [|a acts IH]; intros w O Hw; cbn [fold_left].
  - split; auto. intros ? ?; auto.
  - cbn [length] in Hw. destruct (wstep_ok storable mode w a O) as (O1 & G & C).
    { destruct Hw; auto. left. lia. }
    destruct (IH _ O1) as (O2 & G2). { destruct Hw; auto. left. lia. }
    split; auto. intros i s H. auto.
Qed.
