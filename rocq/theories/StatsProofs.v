(** Proofs about duration statistics. *)
From Coq Require Import List NArith Bool Lia.
From Verif Require Import Base StatsModel StatsSpec.
Import ListNotations.
Local Open Scope N_scope.

Lemma bucket_max v : bucket v = N.max (N.log2 v) 10 - 10.
Proof. unfold bucket. rewrite N.log2_lor. reflexivity. Qed.
(** The width of the bucket: 1, or at most a 1024th of the value. *)
Lemma width v : let w := 2 ^ bucket v in (v < 2048 /\ w = 1 \/ 2048 <= v /\ 1024 * w <= v) /\ 1 <= w /\
  lowest v = v / w * w /\ highest v = lowest v + (w - 1) /\ median v = lowest v + w / 2.
Proof.
  cbv zeta. split; [|split; [|split; [|split]]].
  - rewrite bucket_max. destruct (N.lt_ge_cases v 2048) as [H|H]; [left|right]; split; auto.
    + destruct (N.eq_dec v 0) as [->|Z]; [reflexivity|]. assert (N.log2 v < 11) by (apply N.log2_lt_pow2; [lia|exact H]).
      rewrite N.max_r by lia. reflexivity.
    + assert (11 <= N.log2 v) by (apply N.log2_le_pow2; [lia|exact H]). rewrite N.max_l by lia.
      change 1024 with (2 ^ 10). rewrite <- N.pow_add_r. replace (10 + (N.log2 v - 10)) with (N.log2 v) by lia.
      apply (N.log2_spec v). lia.
  - assert (2 ^ bucket v <> 0) by (apply N.pow_nonzero; discriminate). lia.
  - unfold lowest. rewrite N.shiftl_mul_pow2, N.shiftr_div_pow2. reflexivity.
  - unfold highest. rewrite N.shiftl_1_l. reflexivity.
  - unfold median. rewrite N.shiftl_1_l, N.shiftr_div_pow2. reflexivity.
Qed.
Lemma lowest_below v : below (lowest v) v.
Proof.
  destruct (width v) as (C & W & -> & _ & _). set (w := 2 ^ bucket v) in *. clearbody w.
  pose proof (N.div_mod v w ltac:(lia)). pose proof (N.mod_lt v w ltac:(lia)).
  rewrite (N.mul_comm (v / w)). set (q := w * (v / w)) in *. unfold below.
  destruct C as [[C ->]|[C C']]; [|lia]. split; [|split]; lia.
Qed.
Lemma highest_above v : above (highest v) v.
Proof.
  destruct (width v) as (C & W & E & -> & _). rewrite E. set (w := 2 ^ bucket v) in *. clearbody w.
  pose proof (N.div_mod v w ltac:(lia)). pose proof (N.mod_lt v w ltac:(lia)).
  rewrite (N.mul_comm (v / w)). set (q := w * (v / w)) in *. unfold above.
  destruct C as [[C ->]|[C C']]; [|lia]. split; [|split]; lia.
Qed.
Lemma median_near v : 2048 * (median v - v) <= v /\ 2048 * (v - median v) <= v /\ (v < 2048 -> median v = v).
Proof.
  destruct (width v) as (C & W & E & _ & ->). rewrite E. set (w := 2 ^ bucket v) in *.
  assert (Ev : w = 1 \/ w mod 2 = 0).
  { unfold w. destruct (N.eq_dec (bucket v) 0) as [->|Z]; [left; reflexivity|right].
    replace (bucket v) with (N.succ (bucket v - 1)) by lia. rewrite N.pow_succ_r', N.mul_comm. apply N.mod_mul. discriminate. }
  clearbody w. pose proof (N.div_mod v w ltac:(lia)). pose proof (N.mod_lt v w ltac:(lia)).
  rewrite (N.mul_comm (v / w)). set (q := w * (v / w)) in *. clearbody q.
  destruct C as [[C ->]|[C C']].
  - change (1 / 2) with 0. lia.
  - destruct Ev as [->|Ev]; [change (1 / 2) with 0; lia|]. assert (w = 2 * (w / 2)) by lia. lia.
Qed.

(** ** Histograms *)
Record holds (h : hist) (l : list N) : Prop := {
  o_total : h_total h = N.of_nat (length l);
  o_zeros : h_zeros h <> 0 <-> In 0 l;
  o_max : (l = [] -> h_max h = 0) /\ (l <> [] -> is_max (h_max h) l);
  o_min : (h_min h = U64_MAX /\ (forall x, In x l -> x = 0 \/ U64_MAX <= x)) \/ (In (h_min h) l /\ h_min h < U64_MAX /\ 0 < h_min h /\ forall x, In x l -> x <> 0 -> h_min h <= x);
  o_sum : h_sum h = total (map median l);
  o_lim : forall x, In x l -> x < h_limit h }.

Lemma holds_new m h : hist_new m = Ret h -> holds h [] /\ h_limit h = cover 53 2048 m.
Proof.
  unfold hist_new. destruct (m <? 2); [discriminate|]. intros E. injection E as <-. split; [|reflexivity].
  constructor; cbn.
  - reflexivity.
  - split; intros X; [lia|destruct X].
  - split; auto. congruence.
  - left. split; auto. intros x [].
  - reflexivity.
  - intros ? [].
Qed.
Lemma holds_reset h l : holds h l -> holds (hist_reset h) [].
Proof.
  intros _. constructor; cbn.
  - reflexivity.
  - split; intros X; [lia|destruct X].
  - split; auto. congruence.
  - left. split; auto. intros x [].
  - reflexivity.
  - intros ? [].
Qed.
Lemma total_app l v : total (l ++ [v]) = total l + v.
Proof. induction l as [|x l IH]; cbn; [lia|]. unfold total in IH. rewrite IH. lia. Qed.
Lemma holds_record h l v h' : holds h l -> hist_record h v = Some h' -> holds h' (l ++ [v]) /\ h_limit h' = h_limit h.
Proof.
  intros [T Z [M1 M2] Mi S0 L]. unfold hist_record. destruct (N.leb_spec (h_limit h) v) as [|Lv]; [discriminate|].
  intros E. injection E as <-. split; [|reflexivity]. constructor; cbn.
  - rewrite app_length. cbn. lia.
  - rewrite in_app_iff. cbn. destruct (N.eqb_spec v 0) as [->|N0].
    + split; [auto|lia].
    + rewrite Z. split; [auto|]. intros [H|[H|[]]]; auto. congruence.
  - split; [intros X; destruct l; discriminate|]. intros _. destruct l as [|a l].
    + rewrite M1 by auto. cbn. destruct (N.ltb_spec 0 v) as [|Hv].
      * split; cbn; auto. intros x [->|[]]. lia.
      * assert (v = 0) as -> by lia. split; cbn; auto. intros x [->|[]]. lia.
    + destruct M2 as [I1 I2]; [discriminate|]. destruct (N.ltb_spec (h_max h) v) as [Hv|Hv]; split.
      * apply in_or_app. right. left. auto.
      * intros x Hx. apply in_app_or in Hx. destruct Hx as [Hx|[->|[]]]; [apply I2 in Hx|]; lia.
      * apply in_or_app. auto.
      * intros x Hx. apply in_app_or in Hx. destruct Hx as [Hx|[->|[]]]; [apply I2 in Hx|]; lia.
  - destruct (N.eqb_spec v 0) as [->|N0]; cbn [negb andb].
    + destruct Mi as [[A B]|(A & B & C & D)]; [left|right].
      * split; auto. intros x Hx. apply in_app_or in Hx. destruct Hx as [Hx|[<-|[]]]; auto.
      * split; [apply in_or_app; auto|]. split; auto. split; auto. intros x Hx X. apply in_app_or in Hx. destruct Hx as [Hx|[<-|[]]]; auto. congruence.
    + destruct Mi as [[A B]|(A & B & C & D)].
      * rewrite A. destruct (N.ltb_spec v U64_MAX) as [Hv|Hv].
        -- right. split; [apply in_or_app; right; left; auto|]. split; auto. split; [lia|]. intros x Hx X. apply in_app_or in Hx. destruct Hx as [Hx|[<-|[]]]; [|lia].
           destruct (B x Hx); lia.
        -- left. split; auto. intros x Hx. apply in_app_or in Hx. destruct Hx as [Hx|[<-|[]]]; auto.
      * right. destruct (N.ltb_spec v (h_min h)) as [Hv|Hv].
        -- split; [apply in_or_app; right; left; auto|]. split; [lia|]. split; [lia|]. intros x Hx X. apply in_app_or in Hx. destruct Hx as [Hx|[<-|[]]]; [|lia].
           specialize (D x Hx X). lia.
        -- split; [apply in_or_app; auto|]. split; auto. split; auto. intros x Hx X. apply in_app_or in Hx. destruct Hx as [Hx|[<-|[]]]; auto.
  - rewrite map_app; change (map median [v]) with [median v]; rewrite total_app, S0. reflexivity.
  - intros x Hx. apply in_app_or in Hx. destruct Hx as [Hx|[<-|[]]]; auto.
Qed.
Lemma hist_record_some h v : hist_record h v = None <-> h_limit h <= v.
Proof. unfold hist_record. destruct (N.leb_spec (h_limit h) v); split; intros; auto; try discriminate. lia. Qed.

Lemma medians_near l : 2048 * (total (map median l) - total l) <= total l /\ 2048 * (total l - total (map median l)) <= total l /\
  ((forall x, In x l -> x < 2048) -> total (map median l) = total l).
Proof.
  induction l as [|x l (IH1 & IH2 & IH3)]; cbn; [lia|]. fold (total (map median l)) (total l).
  destruct (median_near x) as (A & B & C). split; [lia|]. split; [lia|].
  intros H. rewrite C, IH3; auto.
Qed.
Lemma holds_describes h l : holds h l -> h_limit h <= 2 ^ 64 -> describes (h_total h) (hist_min h) (hist_max h) (hist_mean h) l.
Proof.
  intros [T Z [M1 M2] Mi S0 L] HL. unfold describes. split; [auto|]. split; [|split; [|split]].
  - intros ->. cbn in *. unfold hist_min, hist_max, hist_mean. rewrite T, M1; auto.
  - intros m [I1 I2]. unfold hist_min. assert (TP : h_total h <> 0) by (rewrite T; destruct l; cbn; [destruct I1|lia]).
    destruct (N.eqb_spec (h_total h) 0); [congruence|]. cbn [orb].
    destruct (N.eqb_spec (h_zeros h) 0) as [Z0|Z0]; cbn [negb].
    + assert (NZ : ~ In 0 l) by (rewrite <- Z; lia).
      destruct Mi as [[A B]|(A & B & C & D)].
      * destruct (B m I1) as [->|X]; [destruct (NZ I1)|]. specialize (L m I1). rewrite A, N.eqb_refl.
        assert (m = U64_MAX) as -> by (unfold U64_MAX in *; lia). unfold below. lia.
      * assert (m = h_min h).
        { apply N.le_antisymm; [auto|]. apply D; auto. intros ->. auto. }
        subst m. destruct (N.eqb_spec (h_min h) U64_MAX); [lia|]. apply lowest_below.
    + assert (I0 : In 0 l) by (apply Z; auto). assert (m = 0) as -> by (specialize (I2 0 I0); lia). unfold below. lia.
  - intros m [I1 I2]. assert (LN : l <> []) by (intros ->; destruct I1). destruct (M2 LN) as [J1 J2].
    assert (m = h_max h) as -> by (apply N.le_antisymm; auto). unfold hist_max.
    destruct (N.eqb_spec (h_max h) 0) as [->|]; [unfold above; lia|]. apply highest_above.
  - intros LN. unfold hist_mean. destruct (N.eqb_spec (h_total h) 0) as [X|X].
    + rewrite T in X. destruct l; [congruence|]. cbn in X. lia.
    + unfold near_mean. cbn [fst snd]. split; auto. rewrite S0. apply medians_near.
Qed.

(** ** The limit *)
Lemma cover_spec fuel : forall lim m, lim * 2 ^ N.of_nat fuel <= 2 ^ 64 -> m < lim * 2 ^ N.of_nat fuel ->
  m < cover fuel lim m /\ cover fuel lim m <= N.max lim (2 * m) /\ cover fuel lim m <= 2 ^ 64.
Proof.
  induction fuel as [|f IH]; intros lim m H1 H2.
  - cbn [cover]. change (2 ^ N.of_nat 0) with 1 in *. lia.
  - cbn [cover]. rewrite Nnat.Nat2N.inj_succ, N.pow_succ_r' in *.
    destruct (N.ltb_spec m lim).
    + assert (1 <= 2 ^ N.of_nat f) by (assert (2 ^ N.of_nat f <> 0) by (apply N.pow_nonzero; discriminate); lia). split; [auto|]. split; [lia|]. nia.
    + destruct (IH (2 * lim) m) as (A & B & C); [lia|lia|]. split; auto. split; [lia|auto].
Qed.
Lemma hist_new_limit m h : hist_new m = Ret h -> m < 2 ^ 64 -> m < h_limit h /\ h_limit h <= N.max 2048 (2 * m) /\ h_limit h <= 2 ^ 64.
Proof.
  intros H Hm. destruct (holds_new _ _ H) as [_ ->]. apply cover_spec; change (2048 * 2 ^ N.of_nat 53) with (2 ^ 64); lia.
Qed.

(** ** Both histograms *)
Lemma gaps_snoc l x y : gaps (l ++ [x; y]) = gaps (l ++ [x]) ++ [N.max x y - N.min x y].
Proof.
  induction l as [|a l IH]; auto. destruct l as [|b l]; auto.
  change ((a :: b :: l) ++ [x; y]) with (a :: b :: (l ++ [x; y])). change ((a :: b :: l) ++ [x]) with (a :: b :: (l ++ [x])).
  cbn [gaps app] in *. rewrite IH. reflexivity.
Qed.
Lemma abs_diff_gap x y : abs_diff y x = N.max x y - N.min x y.
Proof. unfold abs_diff. destruct (N.ltb_spec y x); lia. Qed.

Record keeps (lim : N) (s : stats) (l : list N) : Prop := {
  k_bare : holds (s_bare s) l; k_jit : holds (s_jitter s) (gaps l);
  k_last : forall l' x, l = l' ++ [x] -> s_last s = x;
  k_lim : h_limit (s_bare s) = lim; k_lim' : h_limit (s_jitter s) = lim }.
Lemma keeps_record lim s l v : keeps lim s l ->
  (v < lim -> exists s', stats_record s v = Ret s' /\ keeps lim s' (l ++ [v])) /\ (lim <= v -> stats_record s v = Panic).
Proof.
  intros [B J La L1 L2]. unfold stats_record. split.
  - intros Hv. destruct (hist_record (s_bare s) v) as [b|] eqn:EB; [|apply hist_record_some in EB; lia].
    destruct (holds_record _ _ _ _ B EB) as [B' Lb]. destruct (N.eqb_spec (h_total (s_bare s)) 0) as [E|E].
    + eexists. split; [reflexivity|]. assert (l = []) as -> by (rewrite (o_total _ _ B) in E; destruct l; auto; cbn in E; lia).
      constructor; cbn; auto; [|congruence]. intros l' x X. destruct l' as [|a [|]]; try discriminate. injection X as ->. auto.
    + destruct l as [|z0 l0] eqn:El; [rewrite (o_total _ _ B) in E; cbn in E; lia|]. rewrite <- El in *.
      destruct (@exists_last _ l) as (l' & x & ->); [congruence|]. rewrite (La l' x eq_refl).
      assert (G : abs_diff v x < lim).
      { rewrite abs_diff_gap. assert (x < lim) by (rewrite <- L1; apply (o_lim _ _ B); apply in_or_app; right; left; auto). lia. }
      destruct (hist_record (s_jitter s) (abs_diff v x)) as [j|] eqn:EJ; [|apply hist_record_some in EJ; lia].
      destruct (holds_record _ _ _ _ J EJ) as [J' Lj]. eexists. split; [reflexivity|]. constructor; cbn; auto; try congruence.
      * rewrite <- app_assoc. cbn. rewrite gaps_snoc, <- abs_diff_gap. exact J'.
      * intros l2 y X. apply app_inj_tail in X. tauto.
  - intros Hv. rewrite (proj2 (hist_record_some (s_bare s) v)) by lia. destruct (_ =? _); reflexivity.
Qed.
Lemma keeps_reset lim s l : keeps lim s l -> keeps lim (stats_reset s) [].
Proof.
  intros [B J La L1 L2]. constructor; cbn; auto; try (eapply holds_reset; eauto).
  intros l' x X. destruct l'; discriminate.
Qed.
Lemma keeps_new m s : stats_new m = Ret s -> keeps (cover 53 2048 m) s [].
Proof.
  unfold stats_new. destruct (hist_new m) as [h|] eqn:E; cbn; [|discriminate]. intros X. injection X as <-.
  destruct (holds_new _ _ E). constructor; cbn; auto. intros l' x X. destruct l'; discriminate.
Qed.
Fixpoint in_range (lim : N) (l : list event) : Prop :=
  match l with [] => True | Record_ v :: l => v < lim /\ in_range lim l | Reset_ :: l => in_range lim l end.
Lemma keeps_run lim evs : forall s l, keeps lim s l ->
  (in_range lim evs -> exists s', stats_run s evs = Ret s' /\ keeps lim s' (since evs l)) /\
  (forall s', stats_run s evs = Ret s' -> in_range lim evs).
Proof.
  induction evs as [|e evs IH]; intros s l K; cbn.
  - split; [eauto|auto].
  - destruct e as [v|].
    + destruct (keeps_record _ _ _ v K) as [R1 R2]. split.
      * intros [H1 H2]. destruct (R1 H1) as (s1 & -> & K1). cbn. apply (IH _ _ K1). auto.
      * intros s' E. destruct (N.lt_ge_cases v lim) as [H|H].
        -- split; auto. destruct (R1 H) as (s1 & E1 & K1). rewrite E1 in E. cbn in E. apply (proj2 (IH _ _ K1) _ E).
        -- rewrite R2 in E by auto. discriminate.
    + apply IH. eapply keeps_reset; eauto.
Qed.
Lemma in_range_iff lim evs : in_range lim evs <-> forall v, In (Record_ v) evs -> v < lim.
Proof.
  induction evs as [|e evs IH]; cbn; [tauto|]. destruct e as [v|]; rewrite IH.
  - split; [intros [A B] w [X|X]; [injection X as <-; auto|auto]|]. intros H. split; auto.
  - split; [intros H w [X|X]; [discriminate|auto]|]. intros H. auto.
Qed.
