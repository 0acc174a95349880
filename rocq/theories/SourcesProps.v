(** C52, C63, C64 and C65: sources. *)
From Coq Require Import List Arith NArith ZArith Bool Lia.
From Verif Require Import Base CodecModel SourcesModel.
Import ListNotations.

(** * C52: camera time stamps *)
Local Open Scope Z_scope.
(** A frame captured at monotonic time [t], when the robot clock showed [r0] at monotonic time
    [m0] and both clocks run at the same rate. *)
Definition robot_time (r0 m0 t : N) : Z := Z.of_N r0 + (Z.of_N t - Z.of_N m0).
Definition small (x : N) : Prop := (x < 2 ^ 62)%N.
Lemma pow62 : (2 ^ 62)%N = 4611686018427387904%N. Proof. reflexivity. Qed.
Lemma as_i64_small x : small x -> as_i64 (Z.of_N x) = Z.of_N x.
Proof. unfold small, as_i64. rewrite pow62. intros H. change (2 ^ 64) with 18446744073709551616. change (2 ^ 63) with 9223372036854775808. rewrite Z.mod_small by lia. destruct (Z.ltb_spec (Z.of_N x) 9223372036854775808); lia. Qed.
Lemma checked_small z : - 2 ^ 63 <= z < 2 ^ 63 -> checked_i64 z = Ret z.
Proof. intros H. unfold checked_i64. destruct (Z.leb_spec (- 2 ^ 63) z), (Z.ltb_spec z (2 ^ 63)); try lia; reflexivity. Qed.
Lemma start_small rb mono : small rb -> small mono -> v4l_start rb mono = Ret (Z.of_N mono - Z.of_N rb).
Proof. intros H1 H2. unfold v4l_start. rewrite as_i64_small by auto. unfold small in *. rewrite pow62 in *. rewrite checked_small by (change (2 ^ 63) with 9223372036854775808; lia). cbn [obind]. apply checked_small. change (2 ^ 63) with 9223372036854775808; lia. Qed.
(** The time put on a frame is off by twice the difference of the clocks (146 years being
    2^62 ns). *)
Lemma time_small r0 m0 t : small r0 -> small m0 -> small t -> Z.of_N t + (Z.of_N m0 - Z.of_N r0) < 2 ^ 63 ->
  0 <= Z.of_N t + (Z.of_N m0 - Z.of_N r0) ->
  v4l_time (Z.of_N m0 - Z.of_N r0) t = Ret (Z.to_N (robot_time r0 m0 t + 2 * (Z.of_N m0 - Z.of_N r0))).
Proof.
  intros H1 H2 H3 H4 H5. unfold v4l_time. rewrite as_i64_small by auto. rewrite checked_small by (split; [lia|auto]). cbn [obind]. do 2 f_equal.
  rewrite Z.mod_small by (change (2 ^ 64) with 18446744073709551616; change (2 ^ 63) with 9223372036854775808 in *; lia). unfold robot_time. lia.
Qed.
(** Whatever the clocks show (below 146 years), the task starts; the frames of a camera
    then keep their distances. *)
Theorem C52_distance_partial : forall r0 m0, small r0 -> small m0 -> exists o, v4l_start r0 m0 = Ret o /\
  forall t1 t2 s1 s2, small t1 -> small t2 -> 0 <= Z.of_N t1 + o -> 0 <= Z.of_N t2 + o -> v4l_time o t1 = Ret s1 -> v4l_time o t2 = Ret s2 ->
    Z.of_N s2 - Z.of_N s1 = Z.of_N t2 - Z.of_N t1.
Proof.
  intros r0 m0 Hr Hm. exists (Z.of_N m0 - Z.of_N r0). split; [apply start_small; auto|].
  assert (D : forall t s, small t -> 0 <= Z.of_N t + (Z.of_N m0 - Z.of_N r0) -> v4l_time (Z.of_N m0 - Z.of_N r0) t = Ret s -> Z.of_N s = Z.of_N t + (Z.of_N m0 - Z.of_N r0)).
  { intros t s Ht H0 E. unfold v4l_time in E. rewrite as_i64_small in E by auto. destruct (checked_i64 _) as [z|] eqn:Ec; [|discriminate]. cbn [obind] in E. injection E as <-. unfold checked_i64 in Ec.
    destruct (Z.leb_spec (- 2 ^ 63) (Z.of_N t + (Z.of_N m0 - Z.of_N r0))), (Z.ltb_spec (Z.of_N t + (Z.of_N m0 - Z.of_N r0)) (2 ^ 63)); try discriminate. injection Ec as <-.
    rewrite Z.mod_small by (change (2 ^ 64) with 18446744073709551616; change (2 ^ 63) with 9223372036854775808 in *; lia). lia. }
  intros t1 t2 s1 s2 H1 H2 P1 P2 E1 E2. rewrite (D _ _ H1 P1 E1), (D _ _ H2 P2 E2). lia.
Qed.
Print Assumptions C52_distance_partial.
(** The time is the robot time of the capture exactly when the two clocks agreed. Missing for
    C52 as stated: all other offsets (refuted below). *)
Theorem C52_iff_partial : forall r0 m0 t, small r0 -> small m0 -> small t -> 0 <= Z.of_N t + (Z.of_N m0 - Z.of_N r0) -> Z.of_N t + (Z.of_N m0 - Z.of_N r0) < 2 ^ 63 ->
  exists o s, v4l_start r0 m0 = Ret o /\ v4l_time o t = Ret s /\ (Z.of_N s = robot_time r0 m0 t <-> r0 = m0) /\
    Z.of_N s - robot_time r0 m0 t = 2 * (Z.of_N m0 - Z.of_N r0).
Proof.
  intros r0 m0 t Hr Hm Ht P U. exists (Z.of_N m0 - Z.of_N r0). eexists. split; [apply start_small; auto|]. split; [apply time_small; auto|].
  unfold robot_time in *. rewrite Z2N.id by lia. split; [|lia]. split; intros; lia.
Qed.
Print Assumptions C52_iff_partial.
(** The robot starts one hour after its computer; a frame captured one second later is
    stamped two hours in the future. *)
Theorem C52_refuted : exists r0 m0 t o (f : frame nat) m m' s, v4l_start r0 m0 = Ret o /\ f_time f = t /\ v4l_process o (Some f) m = Ret (Done m') /\ m_tov m' = TovTime s /\
  Z.of_N s <> robot_time r0 m0 t /\ robot_time r0 m0 t = 1000000000 /\ s = 7201000000000%N.
Proof.
  exists 0%N, 3600000000000%N, 3601000000000%N. eexists. exists (Frame 100 3601000000000 7%nat), (Msg None TovNone). eexists. eexists. split; [vm_compute; reflexivity|]. split; [reflexivity|]. split; [vm_compute; reflexivity|].
  split; [reflexivity|]. split; [vm_compute; discriminate|]. split; reflexivity.
Qed.
Print Assumptions C52_refuted.
(** For all numbers, not only below 146 years: a stamp stands for the number between -2^63 and 2^63 that is the same to 64 bits;
    the offset is added to it, and the task panics when the sum is out of this range. *)
Theorem C52_cast_partial : forall o t z k, - 2 ^ 63 <= z < 2 ^ 63 -> Z.of_N t = z + k * 2 ^ 64 ->
  (- 2 ^ 63 <= z + o < 2 ^ 63 -> exists s j, v4l_time o t = Ret s /\ Z.of_N s = z + o + j * 2 ^ 64 /\ Z.of_N s < 2 ^ 64) /\
  (~ (- 2 ^ 63 <= z + o < 2 ^ 63) -> v4l_time o t = Panic).
Proof.
  intros o t z k Hz E.
  assert (A : as_i64 (Z.of_N t) = z).
  { unfold as_i64. rewrite E, Z.mod_add by (vm_compute; discriminate). change (2 ^ 64) with 18446744073709551616. change (2 ^ 63) with 9223372036854775808 in *.
    destruct (Z.neg_nonneg_cases z) as [L|L].
    - assert (M : z mod 18446744073709551616 = z + 18446744073709551616) by (symmetry; apply (Z.mod_unique _ _ (-1)); lia). rewrite M.
      destruct (Z.ltb_spec (z + 18446744073709551616) 9223372036854775808); lia.
    - rewrite Z.mod_small by lia. destruct (Z.ltb_spec z 9223372036854775808); lia. }
  unfold v4l_time. rewrite A. split; intros H.
  - rewrite checked_small by exact H. cbn [obind]. exists (Z.to_N ((z + o) mod 2 ^ 64)), (- ((z + o) / 2 ^ 64)). split; [reflexivity|].
    pose proof (Z.mod_pos_bound (z + o) (2 ^ 64) ltac:(reflexivity)) as B. rewrite Z2N.id by lia. split; [|lia]. rewrite (Z.mod_eq (z + o) (2 ^ 64)) by (vm_compute; discriminate). ring.
  - unfold checked_i64. destruct (Z.leb_spec (- 2 ^ 63) (z + o)), (Z.ltb_spec (z + o) (2 ^ 63)); cbn; try reflexivity. elim H. split; assumption.
Qed.
Print Assumptions C52_cast_partial.
Example C52_cast_case : Z.of_N 18446744073709551606 = -10 + 1 * 2 ^ 64 /\ v4l_time 25 18446744073709551606 = Ret 15%N /\ v4l_time (- 2 ^ 63) 18446744073709551606 = Panic.
Proof. vm_compute. auto. Qed.
Example C52_case : small 3600000000000 /\ small 3601000000000 /\ v4l_start 3600000000000 3600000000000 = Ret 0 /\ v4l_time 0 3601000000000 = Ret 3601000000000%N /\ robot_time 3600000000000 3600000000000 3601000000000 = 3601000000000.
Proof. vm_compute. auto. Qed.

(** * C63: nothing received, nothing sent *)
(** The shared memory and the camera source send the previous payload again. *)
Theorem C63_refuted : exists (m : msg nat) p, m_payload m = Some p /\ ice_process None m = Done m /\
  forall o t i, v4l_process o (Some (Frame 0 t i)) m = Ret (Done m).
Proof. exists (Msg (Some 7%nat) (TovTime 3%N)), 7%nat. split; [reflexivity|]. split; [reflexivity|]. intros o t i. reflexivity. Qed.
Print Assumptions C63_refuted.
(** They send nothing then exactly when the message had nothing before. *)
Theorem C63_empty_partial : forall P (m : msg P) o t i m', ice_process None m = Done m' \/ v4l_process o (Some (Frame 0 t i)) m = Ret (Done m') ->
  (m_payload m' = None <-> m_payload m = None).
Proof. intros P m o t i m' [E|E]; cbn in E; injection E as <-; tauto. Qed.
Print Assumptions C63_empty_partial.
(** The pipeline source sends a payload exactly when it has a buffer, whatever was in the message. *)
Theorem C63_gstreamer_partial : forall P now (q : list P) m q' m', gst_process now q m = (q', m') -> (m_payload m' = None <-> q = []) /\ (forall p, m_payload m' = Some p -> In p q /\ m_tov m' = TovTime now).
Proof.
  intros P now q m q' m' E. destruct q as [|b q]; cbn in E; injection E as <- <-; cbn; split; try tauto; try discriminate.
  - split; intros X; discriminate.
  - intros p X. injection X as <-. auto.
Qed.
Print Assumptions C63_gstreamer_partial.
(** A received message is passed on with its time. *)
Theorem C63_received : forall P (r m : msg P) p, m_payload r = Some p -> exists m', ice_process (Some r) m = Done m' /\ m_payload m' = Some p /\ m_tov m' = m_tov r.
Proof. intros P r m p E. cbn. rewrite E. eexists. split; [reflexivity|]. auto. Qed.
Print Assumptions C63_received.
Example C63_case : gst_process 5%N [1; 2]%nat (Msg (Some 9%nat) TovNone) = ([2%nat], Msg (Some 1%nat) (TovTime 5%N)) /\
  gst_process 6%N (@nil nat) (Msg (Some 9%nat) (TovTime 5%N)) = ([], Msg None (TovTime 5%N)) /\ ice_process (Some (Msg (Some 4%nat) (TovTime 1%N))) (Msg None TovNone) = Done (Msg (Some 4%nat) (TovTime 1%N)).
Proof. auto. Qed.

(** * C64: buffers of a pipeline *)
Local Open Scope nat_scope.
(** The payloads expected: [arr] the buffers that arrived since the last start, [next] the
    number of those that were sent or skipped. A call of process sends the earliest one that
    is neither, nor older than the [n] latest. *)
Fixpoint expected {P} (n : nat) (l : list (gst_event P)) (arr : list P) (next : nat) : list (option P) :=
  match l with
  | [] => []
  | Arrive p :: l => expected n l (arr ++ [p]) next
  | Take _ _ :: l => let i := Nat.max next (length arr - n) in
                     nth_error arr i :: expected n l arr (if i <? length arr then i + 1 else next)
  | Clear :: l => expected n l [] 0
  end.
Lemma skipn_nth {A} (l : list A) : forall i, match skipn i l with [] => nth_error l i = None | x :: r => nth_error l i = Some x /\ r = skipn (S i) l end.
Proof. induction l as [|a l IH]; intros [|i]; cbn; auto. apply IH. Qed.
Lemma skipn_tl {A} (l : list A) : forall i, tl (skipn i l) = skipn (S i) l.
Proof. induction l as [|a l IH]; intros [|i]; auto. cbn [skipn] in *. rewrite IH. reflexivity. Qed.
Lemma gst_ok {P} n (l : list (gst_event P)) : 0 < n -> forall arr next, next <= length arr ->
  map m_payload (fst (gst_run n l (skipn (Nat.max next (length arr - n)) arr))) = expected n l arr next.
Proof.
  intros Hn. induction l as [|e l IH]; intros arr next Hx; [reflexivity|]. destruct e as [p|now m|]; cbn [gst_run expected].
  - rewrite <- IH by (rewrite app_length; cbn; lia). do 3 f_equal. unfold push_back. destruct (Nat.eqb_spec n 0); [lia|]. rewrite skipn_length, app_length. cbn [length].
    destruct (Nat.ltb_spec (length arr - Nat.max next (length arr - n)) n) as [H|H].
    + replace (Nat.max next (length arr + 1 - n)) with (Nat.max next (length arr - n)) by lia. rewrite skipn_app. replace (Nat.max next (length arr - n) - length arr) with 0 by lia. reflexivity.
    + rewrite skipn_tl. replace (Nat.max next (length arr + 1 - n)) with (S (Nat.max next (length arr - n))) by lia. rewrite skipn_app. replace (S (Nat.max next (length arr - n)) - length arr) with 0 by lia. reflexivity.
  - pose proof (skipn_nth arr (Nat.max next (length arr - n))) as S0. destruct (skipn (Nat.max next (length arr - n)) arr) as [|b q] eqn:Eq; cbn [gst_process].
    + destruct (gst_run n l []) as [ms q] eqn:Er. cbn [fst map m_payload]. rewrite S0. f_equal.
      assert (L : length arr <= Nat.max next (length arr - n)) by (apply nth_error_None; auto). destruct (Nat.ltb_spec (Nat.max next (length arr - n)) (length arr)); [lia|].
      rewrite <- IH by lia. rewrite Eq, Er. reflexivity.
    + destruct S0 as [S1 ->]. assert (L : Nat.max next (length arr - n) < length arr) by (apply nth_error_Some; congruence). destruct (Nat.ltb_spec (Nat.max next (length arr - n)) (length arr)); [|lia].
      destruct (gst_run n l (skipn (S (Nat.max next (length arr - n))) arr)) as [ms q] eqn:Er. cbn [fst map m_payload]. rewrite S1. f_equal.
      rewrite <- IH by lia. replace (Nat.max (Nat.max next (length arr - n) + 1) (length arr - n)) with (S (Nat.max next (length arr - n))) by lia. rewrite Er. reflexivity.
  - rewrite <- (IH [] 0) by (cbn; lia). reflexivity.
Qed.
(** Over every interleaving of arrivals, calls, starts and stops: each call sends the oldest
    buffer not sent yet among the [n] latest, and none when there is none. *)
Theorem C64_fifo : forall P n (l : list (gst_event P)), 0 < n -> map m_payload (fst (gst_run n l [])) = expected n l [] 0.
Proof. intros P n l Hn. rewrite <- (gst_ok n l Hn [] 0) by (cbn; lia). reflexivity. Qed.
Print Assumptions C64_fifo.
(** No buffer is lost, repeated or reordered as long as no more than [n] wait. *)
Definition arrivals {P} (l : list (gst_event P)) : list P := flat_map (fun e => match e with Arrive p => [p] | _ => [] end) l.
Definition sent {P} (ms : list (msg P)) : list P := flat_map (fun m => match m_payload m with Some p => [p] | None => [] end) ms.
Theorem C64_lossless : forall P n (l : list (gst_event P)), (forall e, In e l -> e <> Clear) ->
  (forall l1 l2, l = l1 ++ l2 -> length (arrivals l1) <= n + length (sent (fst (gst_run n l1 [])))) ->
  sent (fst (gst_run n l [])) ++ snd (gst_run n l []) = arrivals l.
Proof.
  intros P n l. assert (G : forall q, length q <= n -> (forall e, In e l -> e <> Clear) -> (forall l1 l2, l = l1 ++ l2 -> length q + length (arrivals l1) <= n + length (sent (fst (gst_run n l1 q)))) ->
     sent (fst (gst_run n l q)) ++ snd (gst_run n l q) = q ++ arrivals l).
  { induction l as [|e l IH]; intros q Lq C H; [cbn; rewrite app_nil_r; reflexivity|]. destruct e as [p|now m|]; cbn [gst_run].
    - pose proof (H [Arrive p] l eq_refl) as H1. cbn [arrivals flat_map app length gst_run fst sent] in H1.
      assert (Ep : push_back n p q = q ++ [p]) by (unfold push_back; destruct (Nat.eqb_spec n 0); [lia|]; destruct (Nat.ltb_spec (length q) n); [reflexivity|lia]).
      rewrite Ep, IH; [rewrite <- app_assoc; reflexivity|rewrite app_length; cbn; lia|intros e He; apply C; right; auto|].
      intros l1 l2 ->. specialize (H (Arrive p :: l1) l2 eq_refl). cbn [gst_run] in H. rewrite Ep in H. rewrite app_length. cbn [arrivals flat_map app length] in *. unfold arrivals in *. lia.
    - assert (T : forall l', gst_run n (Take now m :: l') q = match q with [] => (Msg None (m_tov m) :: fst (gst_run n l' []), snd (gst_run n l' [])) | b :: q' => (Msg (Some b) (TovTime now) :: fst (gst_run n l' q'), snd (gst_run n l' q')) end).
      { intros l'. cbn [gst_run]. destruct q as [|b q']; cbn [gst_process]; destruct (gst_run n l' _); reflexivity. }
      specialize (T l) as Tl. cbn [gst_run] in Tl. rewrite Tl. destruct q as [|b q']; cbn [fst snd sent flat_map m_payload app].
      + apply IH; [auto|intros e He; apply C; right; auto|]. intros l1 l2 ->. specialize (H (Take now m :: l1) l2 eq_refl). rewrite T in H. exact H.
      + fold (sent (fst (gst_run n l q'))). f_equal. apply IH; [cbn in Lq; lia|intros e He; apply C; right; auto|]. intros l1 l2 ->. specialize (H (Take now m :: l1) l2 eq_refl). rewrite T in H. cbn [fst sent flat_map m_payload app length arrivals] in H. unfold sent, arrivals in *. lia.
    - elim (C Clear (or_introl eq_refl)). reflexivity. }
  intros C H. apply (G []); auto; cbn; lia.
Qed.
Print Assumptions C64_lossless.
Example C64_case : let t := Take 1%N (Msg (Some 0) TovNone) in let l := [Arrive 1; Arrive 2; t; Arrive 3; Arrive 4; Arrive 5; t; t; t; t; Clear; t] in
  map m_payload (fst (gst_run 3 l [])) = [Some 1; Some 3; Some 4; Some 5; None; None] /\ sent (fst (gst_run 2 [Arrive 1; Arrive 2; t; Arrive 3; t; t] [])) = [1; 2; 3].
Proof. vm_compute. auto. Qed.

(** * C65: encoder *)
Local Open Scope Z_scope.
(** Net number of falling edges with the data line high. *)
Fixpoint net (l : list enc_event) : Z :=
  match l with [] => 0 | Edge_ true :: l => 1 + net l | Edge_ false :: l => net l - 1 | Sample _ :: l => net l end.
Fixpoint samples (before l : list enc_event) : list (Z * cutime) :=
  match l with [] => [] | Sample now :: l => (net before, now) :: samples before l | e :: l => samples (before ++ [e]) l end.
Lemma net_app a b : net (a ++ b) = net a + net b.
Proof. induction a as [|[[|]|] a IH]; cbn [net app]; lia. Qed.
Lemma enc_ok l : forall before, (forall l1 l2, l = l1 ++ l2 -> - 2 ^ 31 <= net before + net l1 < 2 ^ 31) ->
  enc_run l (net before) = Ret (map (fun p => Msg (Some (fst p)) (TovTime (snd p))) (samples before l)).
Proof.
  induction l as [|e l IH]; intros before H; [reflexivity|]. assert (He : forall l1 l2, l = l1 ++ l2 -> - 2 ^ 31 <= net before + net ([e] ++ l1) < 2 ^ 31) by (intros l1 l2 ->; apply (H ([e] ++ l1) l2); reflexivity).
  destruct e as [hi|now]; cbn [enc_run samples].
  - assert (En : (if hi then net before + 1 else net before - 1) = net (before ++ [Edge_ hi])) by (rewrite net_app; destruct hi; cbn [net]; lia). rewrite En.
    specialize (He [] l eq_refl) as H0. rewrite app_nil_r, <- net_app in H0. unfold checked_i32. destruct (Z.leb_spec (- 2 ^ 31) (net (before ++ [Edge_ hi]))), (Z.ltb_spec (net (before ++ [Edge_ hi])) (2 ^ 31)); try lia. cbn [andb obind].
    apply IH. intros l1 l2 E0. specialize (He l1 l2 E0). rewrite net_app in He. rewrite net_app. lia.
  - rewrite IH; [reflexivity|]. intros l1 l2 E0. specialize (He l1 l2 E0). rewrite net_app in He. cbn [net] in He. lia.
Qed.
(** Over every interleaving of edges and calls whose net count stays in the 32 bit range,
    each message has the net count at that moment and the time of the call. *)
Theorem C65_count : forall l, (forall l1 l2, l = l1 ++ l2 -> - 2 ^ 31 <= net l1 < 2 ^ 31) ->
  enc_run l 0 = Ret (map (fun p => Msg (Some (fst p)) (TovTime (snd p))) (samples [] l)).
Proof. intros l H. apply (enc_ok l []). cbn [net]. intros l1 l2 E. specialize (H l1 l2 E). lia. Qed.
Print Assumptions C65_count.
Example C65_case : enc_run [Edge_ true; Edge_ true; Sample 4%N; Edge_ false; Edge_ false; Edge_ false; Sample 9%N] 0 = Ret [Msg (Some 2) (TovTime 4%N); Msg (Some (-1)) (TovTime 9%N)].
Proof. reflexivity. Qed.
