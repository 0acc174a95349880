(** C85 to C89: durations and clocks. *)
From Coq Require Import String List Arith NArith ZArith Bool Lia DecimalN.
From Verif Require Import Base LogModel ClockModel ClockSpec ClockProofs.
Import ListNotations.
Local Open Scope list_scope.
Local Open Scope N_scope.

(** ** C85 *)
Definition u64 (n : N) : Prop := n < 2 ^ 64.

Lemma in_u64_exact z : exact (in_u64 Checked z) z.
Proof.
  unfold in_u64. destruct ((0 <=? z) && (z <? 2 ^ 64))%Z eqn:E; cbn [exact].
  - apply andb_true_iff in E as [A B]. apply Z.leb_le in A. lia.
  - intros [A B]. rewrite (proj2 (Z.leb_le _ _) A), (proj2 (Z.ltb_lt _ _) B) in E. discriminate.
Qed.

(** In a build with overflow checks sums, differences and products (by unsigned factors, and
    by signed ones that are not negative) are exact, or the robot stops. Missing for C85 as
    stated: negative factors, and the conversion from std's durations (refuted below). *)
Theorem C85_partial : forall a b, u64 a -> u64 b ->
  exact (dur_add Checked a b) (Z.of_N a + Z.of_N b) /\
  exact (dur_sub Checked a b) (Z.of_N a - Z.of_N b) /\
  exact (dur_mul Checked a b) (Z.of_N a * Z.of_N b) /\
  (forall k, (0 <= k < 2 ^ 31)%Z -> exact (i32_mul Checked k a) (k * Z.of_N a)).
Proof.
  intros a b _ _. repeat split; try apply in_u64_exact.
  intros k K. unfold i32_mul, dur_mul. rewrite Z.mod_small, Z2N.id by lia. apply in_u64_exact.
Qed.
Print Assumptions C85_partial.
(** Division rounds down, and stops on a zero divisor only. *)
Theorem C85_div_partial : forall a b,
  match dur_div a b with
  | Ret q => b * q <= a < b * (q + 1)
  | Panic => b = 0
  end.
Proof.
  intros a b. unfold dur_div. destruct (N.eqb_spec b 0) as [->|N]; [reflexivity|].
  pose proof (N.div_mod a b N). pose proof (N.mod_lt a b N). nia.
Qed.
Print Assumptions C85_div_partial.
(** Without overflow checks everything is right modulo 2^64: sums and differences of
    durations whose end result is a duration are right, whatever happened on the way. *)
Fixpoint chain (mode : ovf_mode) (a : N) (l : list (bool * N)) : outcome N :=
  match l with
  | [] => Ret a
  | (true, b) :: l => let! a := dur_add mode a b in chain mode a l
  | (false, b) :: l => let! a := dur_sub mode a b in chain mode a l
  end.
Fixpoint total (z : Z) (l : list (bool * N)) : Z :=
  match l with
  | [] => z
  | (plus, b) :: l => total (if plus then z + Z.of_N b else z - Z.of_N b)%Z l
  end.
Lemma wrap_in z : exists r, in_u64 Wrapping z = Ret r /\ (Z.of_N r = z mod 2 ^ 64)%Z.
Proof.
  unfold in_u64. destruct ((0 <=? z) && (z <? 2 ^ 64))%Z eqn:E.
  - apply andb_true_iff in E as [A B]. apply Z.leb_le in A. apply Z.ltb_lt in B. eexists. split; [reflexivity|].
    rewrite Z.mod_small; lia.
  - eexists. split; [reflexivity|]. rewrite Z2N.id; [reflexivity|]. apply Z.mod_pos_bound. reflexivity.
Qed.
Lemma total_add l : forall z y, (total (z + y) l = total z l + y)%Z.
Proof.
  induction l as [|[[] b] l IH]; intros z y; cbn [total]; [reflexivity| |].
  - replace (z + y + Z.of_N b)%Z with (z + Z.of_N b + y)%Z by lia. apply IH.
  - replace (z + y - Z.of_N b)%Z with (z - Z.of_N b + y)%Z by lia. apply IH.
Qed.
Lemma total_mod l z y : (z mod 2 ^ 64 = y mod 2 ^ 64 -> total z l mod 2 ^ 64 = total y l mod 2 ^ 64)%Z.
Proof.
  intros H. pose proof (total_add l 0 z) as A. pose proof (total_add l 0 y) as B. rewrite Z.add_0_l in A, B. rewrite A, B.
  rewrite Z.add_mod, H, <- Z.add_mod by discriminate. reflexivity.
Qed.
Theorem C85_wrapping_partial : forall a l, u64 a -> (0 <= total (Z.of_N a) l < 2 ^ 64)%Z ->
  chain Wrapping a l = Ret (Z.to_N (total (Z.of_N a) l)).
Proof.
  intros a l A T.
  assert (G : forall l a, u64 a -> exists r, chain Wrapping a l = Ret r /\ u64 r /\ (Z.of_N r mod 2 ^ 64 = total (Z.of_N a) l mod 2 ^ 64)%Z).
  { clear. induction l as [|[[] b] l IH]; intros a A; cbn [chain total].
    - exists a. auto.
    - destruct (wrap_in (Z.of_N a + Z.of_N b)) as (r & E & R). unfold dur_add. rewrite E. cbn [obind].
      destruct (IH r) as (r' & E' & U & R'); [unfold u64; lia|]. exists r'. split; [exact E'|]. split; [exact U|].
      rewrite R'. apply total_mod. rewrite R. apply Z.mod_mod. discriminate.
    - destruct (wrap_in (Z.of_N a - Z.of_N b)) as (r & E & R). unfold dur_sub. rewrite E. cbn [obind].
      destruct (IH r) as (r' & E' & U & R'); [unfold u64; lia|]. exists r'. split; [exact E'|]. split; [exact U|].
      rewrite R'. apply total_mod. rewrite R. apply Z.mod_mod. discriminate. }
  destruct (G l a A) as (r & E & U & R). rewrite E. f_equal. unfold u64 in U.
  rewrite !Z.mod_small in R by lia. lia.
Qed.
Print Assumptions C85_wrapping_partial.
(** The chain with checks gives the same, or stops: a difference that is negative on the way
    stops it, although the end result is a duration. *)
Example C85_case :
  exact (dur_sub Checked 5 7) (-2) /\ chain Checked 5 [(false, 7); (true, 10)] = Panic /\
  chain Wrapping 5 [(false, 7); (true, 10)] = Ret 8 /\ dur_mul Checked 3 7 = Ret 21 /\ i32_mul Checked 3 7 = Ret 21 /\
  dur_add Checked (2 ^ 64 - 1) 1 = Panic /\ dur_div 7 2 = Ret 3 /\ dur_div 7 0 = Panic.
Proof. split; [apply in_u64_exact|]. repeat split. Qed.
(** A signed factor that is negative gives a huge duration: for one nanosecond without any
    overflow, in either build. The factor -1 gives the mark of an absent time. *)
Theorem C85_refuted : forall mode k, (- 2 ^ 31 <= k < 0)%Z ->
  exists r, i32_mul mode k 1 = Ret r /\ ~ exact (Ret r) (k * Z.of_N 1) /\ 2 ^ 63 < r /\ ((k = -1)%Z -> r = 2 ^ 64 - 1).
Proof.
  intros mode k K. unfold i32_mul, dur_mul, in_u64.
  assert (E : (k mod 2 ^ 64 = k + 2 ^ 64)%Z) by lia. rewrite E.
  exists (Z.to_N (k + 2 ^ 64)). replace (Z.of_N (Z.to_N (k + 2 ^ 64)) * Z.of_N 1)%Z with (k + 2 ^ 64)%Z by lia.
  rewrite (proj2 (Z.leb_le _ _)), (proj2 (Z.ltb_lt _ _)) by lia. cbn [andb exact]. split; [reflexivity|]. lia.
Qed.
Print Assumptions C85_refuted.
(** A std duration of 2^64 nanoseconds or more (585 years; the largest ones stand for "for
    ever") loses its high bits silently. *)
Theorem C85_conversion_refuted : exists ns, ns < 2 ^ 64 * 10 ^ 9 /\ of_duration ns <> ns.
Proof. exists (2 ^ 64). split; [reflexivity|discriminate]. Qed.
Print Assumptions C85_conversion_refuted.
Theorem C85_conversion_partial : forall ns, (u64 ns -> of_duration ns = ns) /\ (u64 ns -> of_duration (to_duration ns) = ns).
Proof. intros ns. split; intros H; apply N.mod_small; exact H. Qed.
Print Assumptions C85_conversion_partial.

(** ** C86 *)
(** The time the holders of the mock want. *)
Fixpoint wanted (t : Z) (l : list mock_op) : Z :=
  match l with
  | [] => t
  | Increment ns :: l => wanted (t + Z.of_N ns) l
  | Decrement ns :: l => wanted (t - Z.of_N ns) l
  | SetValue v :: l => wanted (Z.of_N v) l
  end.
Definition op_ok (o : mock_op) : Prop := match o with SetValue v => u64 v | _ => True end.
Lemma mock_step_mod v o : u64 v -> op_ok o ->
  u64 (mock_step v o) /\ (Z.of_N (mock_step v o) = wanted (Z.of_N v) [o] mod 2 ^ 64)%Z.
Proof.
  intros V O. unfold u64 in *. destruct o as [ns|ns|x]; cbn [mock_step wanted op_ok] in *.
  - unfold mock_increment. split; [apply N.mod_lt; discriminate|lia].
  - unfold mock_decrement. split; [apply N.mod_lt; discriminate|lia].
  - unfold mock_set, mock_increment, mock_decrement. unfold u64 in O. destruct (N.ltb_spec v x); lia.
Qed.
(** However the mock's value is moved by its holders, one call at a time, the clock and its
    clones read the time wanted, as long as this is a time at the end. *)
Theorem C86_wanted : forall l, Forall op_ok l -> (0 <= wanted 0 l < 2 ^ 64)%Z ->
  Z.of_N (mock_now (mock_run 0 l)) = wanted 0 l.
Proof.
  intros l O W.
  assert (G : forall l v, u64 v -> Forall op_ok l -> u64 (mock_run v l) /\ (Z.of_N (mock_run v l) = wanted (Z.of_N v) l mod 2 ^ 64)%Z).
  { clear. induction l as [|o l IH]; intros v V O; cbn [mock_run fold_left].
    - split; [exact V|]. cbn [wanted]. unfold u64 in V. lia.
    - inversion O; subst. destruct (mock_step_mod v o V) as [A B]; auto. destruct (IH (mock_step v o) A) as [C D]; auto.
      unfold mock_run in *. split; [exact C|]. rewrite D.
      assert (M : forall l z y, (z mod 2 ^ 64 = y mod 2 ^ 64 -> wanted z l mod 2 ^ 64 = wanted y l mod 2 ^ 64)%Z).
      { clear. induction l as [|[ns|ns|x] l IH]; intros z y H; cbn [wanted]; auto; apply IH.
        - rewrite (Z.add_mod z), H, <- Z.add_mod by discriminate. reflexivity.
        - rewrite (Zminus_mod z), H, <- Zminus_mod. reflexivity. }
      destruct o; cbn [wanted] in *; apply M; rewrite B; apply Z.mod_mod; discriminate. }
  destruct (G l 0 ltac:(reflexivity) O) as [A B]. unfold mock_now, clock_now, of_duration, mock_ref.
  rewrite N.sub_0_r, N.mod_small by exact A. rewrite B. change (Z.of_N 0) with 0%Z. apply Z.mod_small. exact W.
Qed.
Print Assumptions C86_wanted.
(** In particular a value set is read, whatever happened before. *)
Theorem C86_set : forall l v, Forall op_ok l -> u64 v -> mock_now (mock_run 0 (l ++ [SetValue v])) = v.
Proof.
  intros l v O V.
  assert (W : forall l t, wanted t (l ++ [SetValue v]) = Z.of_N v) by (clear; induction l as [|[] l IH]; intros t; cbn; auto).
  assert (E : Z.of_N (mock_now (mock_run 0 (l ++ [SetValue v]))) = Z.of_N v); [|lia].
  rewrite <- (W l 0%Z). apply C86_wanted.
  - apply Forall_app. split; [exact O|]. repeat constructor. exact V.
  - rewrite W. unfold u64 in V. lia.
Qed.
Print Assumptions C86_set.
Example C86_case :
  let l := [Increment 1000; Decrement 1001; SetValue 5; Increment 7; SetValue 3; Decrement 1] in
  Forall op_ok l /\ wanted 0 l = 2%Z /\ mock_now (mock_run 0 l) = 2 /\
  (* decremented below zero, a clock is at the end of times *)
  mock_now (mock_run 0 [Decrement 1]) = 2 ^ 64 - 1.
Proof. split; [repeat constructor|]. repeat split. Qed.

(** ** C87 *)
(** Two threads setting the mock at the same time may leave it at a time neither of them set. *)
Theorem C87_refuted : exists a b l v, u64 a /\ u64 b /\ settings 0 (Starting a) (Starting b) l = (v, Finished, Finished) /\
  v <> a /\ v <> b.
Proof. exists 10, 20, [true; false; true; false], 30. repeat split; discriminate. Qed.
Print Assumptions C87_refuted.
(** When the first thread is done before the second one starts, the clock ends at the time
    the second one set. Missing for C87 as stated: the other interleavings. *)
Theorem C87_partial : forall v a b l, u64 v -> u64 a -> u64 b ->
  snd (fst (settings v (Starting a) (Starting b) l)) = Finished -> snd (settings v (Starting a) (Starting b) l) = Finished ->
  (exists l1 l2, l = l1 ++ l2 /\ Forall (eq true) l1 /\ (2 <= length l1)%nat) ->
  fst (fst (settings v (Starting a) (Starting b) l)) = b.
Proof.
  intros v a b l V A B F1 F2 (l1 & l2 & -> & T & L).
  destruct T as [|? l1 <- T]; [cbn in L; lia|]. destruct T as [|? l1 <- T]; [cbn in L; lia|].
  cbn [app settings setting_step] in *. set (w := if v <? a then _ else _) in *.
  assert (W : u64 w) by (subst w; destruct (v <? a); apply N.mod_lt; discriminate).
  clearbody w. clear L.
  revert w W F1 F2. induction T as [|? l1 <- T IH]; intros w W F1 F2; [|cbn [app settings setting_step] in *; now apply IH].
  cbn [app] in *. revert F1 F2. induction l2 as [|[] l2 IH]; intros F1 F2; cbn [settings setting_step] in *; try discriminate; auto.
  clear IH. set (x := Loaded b w) in *. revert F1 F2. induction l2 as [|[] l2 IH]; intros F1 F2; cbn [settings] in *; subst x; try discriminate.
  - cbn [setting_step] in *. auto.
  - cbn [setting_step] in *. set (r := if w <? b then _ else _) in *.
    assert (R : r = b). { subst r. pose proof (mock_step_mod w (SetValue b) W B) as [_ M]. cbn [mock_step wanted] in M. unfold mock_set in M.
      unfold u64 in B. rewrite Z.mod_small in M by lia. lia. }
    clearbody r. clear - R. subst r. induction l2 as [|[] l2 IH]; cbn [settings setting_step]; auto.
Qed.
Print Assumptions C87_partial.
Example C87_case : settings 7 (Starting 10) (Starting 4) [true; true; false; false] = (4, Finished, Finished).
Proof. reflexivity. Qed.

(** ** C88 *)
(** A new clock starts at zero, and one built from a reference time at that time; both then
    go exactly as the machine's clock, and so never back when it does not. Missing for C88 as
    stated: a reference time before the machine's zero (refuted below). *)
Theorem C88_partial : forall t0 r ref, u64 t0 -> clock_from_ref t0 r = Ret ref ->
  clock_now ref t0 = r /\
  forall t, t0 <= t -> u64 t -> clock_now ref t = r + (t - t0) /\ forall t', t <= t' -> u64 t' -> clock_now ref t <= clock_now ref t'.
Proof.
  intros t0 r ref T E. unfold clock_from_ref in E. destruct (N.ltb_spec t0 r) as [|R]; [discriminate|]. injection E as <-.
  unfold clock_now, of_duration, u64 in *. split; [rewrite N.mod_small; lia|].
  intros t L Tt. split; [rewrite N.mod_small; lia|]. intros t' L' T'. rewrite !N.mod_small; lia.
Qed.
Print Assumptions C88_partial.
Theorem C88_new_partial : forall t0 t, t0 <= t -> u64 t -> clock_now (clock_new t0) t = t - t0.
Proof. intros t0 t L T. unfold clock_now, clock_new, of_duration, u64 in *. rewrite N.mod_small; lia. Qed.
Print Assumptions C88_new_partial.
Example C88_case : exists ref, clock_from_ref 1000 400 = Ret ref /\ clock_now ref 1000 = 400 /\ clock_now ref 1600 = 1000.
Proof. exists 600. repeat split. Qed.
(** A machine that was started less than the reference time ago cannot build the clock. *)
Theorem C88_refuted : forall t0 r, u64 r -> t0 < r -> clock_from_ref t0 r = Panic.
Proof. intros t0 r _ L. unfold clock_from_ref. now rewrite (proj2 (N.ltb_lt _ _) L). Qed.
Print Assumptions C88_refuted.

(** ** C89 *)
Lemma fold_digits u : forall acc, fold_left (fun acc c => 10 * acc + (c - 48)) (digits u) (N.pos acc) = N.pos (Pos.of_uint_acc u acc).
Proof.
  induction u as [|u IH|u IH|u IH|u IH|u IH|u IH|u IH|u IH|u IH|u IH]; intros acc; [reflexivity|..];
    (cbn [digits fold_left Pos.of_uint_acc]; rewrite <- IH; f_equal; lia).
Qed.
Lemma fold_digits0 u : fold_left (fun acc c => 10 * acc + (c - 48)) (digits u) 0 = Pos.of_uint u.
Proof.
  induction u as [|u IH|u IH|u IH|u IH|u IH|u IH|u IH|u IH|u IH|u IH]; [reflexivity|exact IH|..]; apply fold_digits.
Qed.
Lemma show_N_reads n : reads (show_N n) n.
Proof.
  unfold reads, show_N. split; [|split].
  - destruct n as [|p]; [discriminate|]. cbn. unfold Pos.to_uint.
    pose proof (DecimalPos.Unsigned.to_uint_nonnil p) as H. unfold Pos.to_uint in H.
    destruct (Decimal.rev (Pos.to_little_uint p)); [congruence|..]; discriminate.
  - generalize (N.to_uint n). induction u; cbn; constructor; auto; lia.
  - rewrite fold_digits0. change (N.of_uint (N.to_uint n) = n). apply DecimalN.Unsigned.of_to.
Qed.
Lemma show_thousandths_reads k : reads3 (show_thousandths k) k.
Proof.
  destruct (show_N_reads (k / 1000)) as (A & B & C).
  exists (show_N (k / 1000)), [48 + k / 100 mod 10; 48 + k / 10 mod 10; 48 + k mod 10].
  split; [reflexivity|]. split; [reflexivity|]. split; [exact A|]. split; [destruct (show_N (k / 1000)); discriminate|]. split.
  - apply Forall_app. split; [exact B|]. repeat constructor; lia.
  - rewrite fold_left_app, C. cbn [fold_left]. lia.
Qed.

(** A duration is printed in the largest unit that is not longer than it, and the number read
    back is the duration up to half of the last digit (and two roundings of 53 bits); below a
    microsecond it is printed exactly. *)
Theorem C89_close : forall n, u64 n ->
  (n < 1000 -> exists t, show_duration n = t ++ lit " ns" /\ reads t n) /\
  (1000 <= n -> exists t unit name k, show_duration n = t ++ lit " " ++ name /\ unit_for n unit name /\ reads3 t k /\ close n unit k).
Proof.
  intros n U. unfold show_duration. split.
  - intros L. rewrite !(proj2 (N.leb_gt _ _)) by lia. exists (show_N n). split; [reflexivity|apply show_N_reads].
  - intros L.
    assert (G : forall unit name, unit_for n unit name -> unit <= 2 ^ 53 -> exists t u' n' k,
      show_thousandths (thousandths (f64_div (f64_of n) (f64_of unit))) ++ 32 :: name = t ++ lit " " ++ n' /\ unit_for n u' n' /\ reads3 t k /\ close n u' k).
    { intros unit name H B. eexists. exists unit, name. eexists. split; [reflexivity|]. split; [exact H|].
      split; [apply show_thousandths_reads|]. destruct H as (I & Un & _). apply close_thousandths; auto.
      split; [|exact B]. cbn in I. destruct I as [I|[I|[I|[I|[I|[I|[]]]]]]]; injection I as <- _; lia. }
    assert (W : forall u s, In (u, s) units -> u = 1000 \/ u = 1000000 \/ u = 1000000000 \/ u = 60000000000 \/ u = 3600000000000 \/ u = 86400000000000).
    { intros u s I. cbn in I. destruct I as [I|[I|[I|[I|[I|[I|[]]]]]]]; injection I as <- _; auto 10. }
    cbv zeta.
    destruct (N.leb_spec 86400000000000 n); [apply G; [|lia]; split; [cbn; auto 10|]; split; [lia|intros u s I Lu; apply W in I; lia]|].
    destruct (N.leb_spec 3600000000000 n); [apply G; [|lia]; split; [cbn; auto 10|]; split; [lia|intros u s I Lu; apply W in I; lia]|].
    destruct (N.leb_spec 60000000000 n); [apply G; [|lia]; split; [cbn; auto 10|]; split; [lia|intros u s I Lu; apply W in I; lia]|].
    destruct (N.leb_spec 1000000000 n); [apply G; [|lia]; split; [cbn; auto 10|]; split; [lia|intros u s I Lu; apply W in I; lia]|].
    destruct (N.leb_spec 1000000 n); [apply G; [|lia]; split; [cbn; auto 10|]; split; [lia|intros u s I Lu; apply W in I; lia]|].
    destruct (N.leb_spec 1000 n); [|lia]. apply G; [|lia]; split; [cbn; auto 10|]; split; [lia|intros u s I Lu; apply W in I; lia].
Qed.
Print Assumptions C89_close.
(** So a duration that is a whole number of thousandths of its unit is printed exactly, and so
    is every duration below a millisecond. *)
Theorem C89_exact : forall n k unit name, u64 n -> unit_for n unit name -> 1000 * n = k * unit ->
  exists t, show_duration n = t ++ lit " " ++ name /\ reads3 t k.
Proof.
  intros n k unit name U F E. destruct (C89_close n U) as [_ H].
  assert (W : forall u s, In (u, s) units -> 1000 <= u /\ (u = 1000 /\ s = [181; 115] \/ u = 1000000 /\ s = lit "ms" \/ u = 1000000000 /\ s = lit "s" \/ u = 60000000000 /\ s = lit "m" \/
     u = 3600000000000 /\ s = lit "h" \/ u = 86400000000000 /\ s = lit "d")).
  { intros u s I. cbn in I. destruct I as [I|[I|[I|[I|[I|[I|[]]]]]]]; injection I as <- <-; (split; [lia|]); cbn; auto 10. }
  destruct F as (I & Un & M). destruct (W _ _ I) as [L1 Q].
  destruct H as (t & u' & s' & k' & S & (I' & Un' & M') & R & C); [lia|].
  assert (unit = u') by (apply N.le_antisymm; eauto). subst u'.
  assert (name = s'). { destruct (W _ _ I') as [_ Q']. destruct Q as [[? ?]|[[? ?]|[[? ?]|[[? ?]|[[? ?]|[? ?]]]]]], Q' as [[? ?]|[[? ?]|[[? ?]|[[? ?]|[[? ?]|[? ?]]]]]]; subst; congruence || lia. }
  subst s'. exists t. split; [exact S|]. replace k with k'; [exact R|].
  unfold close in C. replace (1000 * Z.of_N n)%Z with (Z.of_N k * Z.of_N unit)%Z in C by lia.
  assert (B : (2000 * Z.of_N n < 2 ^ 51 * Z.of_N unit)%Z).
  { unfold u64 in U. destruct (N.lt_ge_cases n 86400000000000) as [Ln|Ln]; [lia|].
    assert (86400000000000 <= unit) by (apply (M 86400000000000 (lit "d")); [cbn; auto 10|exact Ln]). lia. }
  assert (A : (Z.abs (Z.of_N k' * Z.of_N unit - Z.of_N k * Z.of_N unit) < Z.of_N unit)%Z) by lia.
  rewrite <- Z.mul_sub_distr_r, Z.abs_mul in A.
  assert (Z.abs (Z.of_N k' - Z.of_N k) < 1)%Z by nia. lia.
Qed.
Print Assumptions C89_exact.
Example C89_case :
  show_duration 999 = lit "999 ns" /\ show_duration 1234567 = lit "1.235 ms" /\ show_duration 90000000000 = lit "1.500 m" /\
  unit_for 90000000000 (60 * (1000 * 1000 * 1000)) (lit "m") /\ reads3 (lit "1.500") 1500 /\ close 1234567 1000000 1235.
Proof.
  split; [reflexivity|]. split; [vm_compute; reflexivity|]. split; [vm_compute; reflexivity|]. split.
  - split; [cbn; auto 10|]. split; [lia|]. intros u s I L. cbn in I.
    destruct I as [I|[I|[I|[I|[I|[I|[]]]]]]]; injection I as <- _; lia.
  - split; [|unfold close; lia]. exists [49], [53; 48; 48]. split; [reflexivity|]. split; [reflexivity|]. split; [discriminate|].
    split; [discriminate|]. split; [repeat constructor; lia|reflexivity].
Qed.
(** The number printed may be that of the next unit: 1000 ms and 60 s are printed. *)
Example C89_next_unit : show_duration 999999500 = lit "1000.000 ms" /\ show_duration 59999999999 = lit "60.000 s".
Proof. split; vm_compute; reflexivity. Qed.
(** An absent time is printed as None, and no other is. *)
Theorem C89_option : forall n, u64 n -> (show_option n = lit "None" <-> n = 2 ^ 64 - 1).
Proof.
  intros n U. unfold show_option. destruct (N.eqb_spec n (2 ^ 64 - 1)) as [E|N]; [split; auto|].
  split; [|contradiction]. intros S. exfalso. destruct (C89_close n U) as [A B].
  assert (D : forall t k rest, reads t k -> t ++ rest <> lit "None").
  { intros [|c t] k rest (X & Y & _); [congruence|]. intros [= Ec _]. inversion Y; subst. lia. }
  destruct (N.lt_ge_cases n 1000) as [L|L].
  - destruct (A L) as (t & E & R). rewrite E in S. eapply D; eauto.
  - destruct (B L) as (t & u & s & k & E & _ & (i & d & -> & _ & Ni & X & Y & _) & _). rewrite E in S.
    destruct i as [|c i]; [congruence|]. injection S as Ec _. inversion Y; subst. lia.
Qed.
Print Assumptions C89_option.
