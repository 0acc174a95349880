(** C141, C142: replaying captures; C143, C144, C145: the Velodyne source. *)
From Coq Require Import String.
From Coq Require Import List Arith NArith ZArith Bool Lia SpecFloat.
From Verif Require Import Base FloatModel CloudModel CodecModel SourcesModel LidarModel VeloModel.
Import ListNotations.
Local Open Scope nat_scope.

(** ** C141 *)
(** The datagram for a packet: its bytes from the 43rd on, [ps] of them. *)
Definition datagram_of (ps : nat) (data payload : list N) : Prop :=
  length payload = ps /\ forall j, j < ps -> nth_error payload j = nth_error data (42 + j).
(** What the [i]th call has to give for the [i]th record of a capture. *)
Definition faithful (ps : nat) (record : option (option capt)) (x : replayed) : Prop :=
  match record with
  | Some (Some p) =>
      (42 + ps <= length (k_data p) /\ exists at_ payload, x = Sent at_ payload /\ datagram_of ps (k_data p) payload)
      \/ (length (k_data p) < 42 + ps /\ x = TooShort)
  | Some None => x = Ended
  | None => x = Ended
  end.
(** Microseconds below a million. *)
Definition regular (r : option capt) : Prop := match r with Some p => (0 <= k_usec p < 1000000)%Z | None => True end.

Lemma nth_skipn {A} (l : list A) n i : nth_error (skipn n l) i = nth_error l (n + i).
Proof. revert l. induction n; intros [|a l]; cbn; auto. destruct i; reflexivity. Qed.
Lemma nth_firstn {A} (l : list A) n i : i < n -> nth_error (firstn n l) i = nth_error l i.
Proof. revert l i. induction n; intros [|a l] [|i] H; cbn; auto; try lia. apply IHn. lia. Qed.
Lemma payload_is ps data : 42 + ps <= length data -> datagram_of ps data (firstn ps (skipn 42 data)).
Proof.
  intros H. split. { rewrite firstn_length, skipn_length. lia. }
  intros j Hj. rewrite nth_firstn by assumption. apply nth_skipn.
Qed.
Lemma regular_time mode p : regular (Some p) -> exists n, packet_time mode p = Ret n /\ n = (Z.to_N (k_sec p mod 2 ^ 64) * 1000000000 + Z.to_N (k_usec p) * 1000)%N.
Proof.
  cbn. intros H. unfold packet_time. rewrite (Z.mod_small (k_usec p)) by lia.
  assert (Z.to_N (k_usec p) < 1000000)%N by lia.
  assert (0 <= k_sec p mod 2 ^ 64 < 2 ^ 64)%Z by (apply Z.mod_pos_bound; reflexivity).
  assert (E : forall n, (n < 1000000000)%N -> (n / 1000000000 = 0)%N) by (intros; apply N.div_small; assumption).
  destruct mode.
  - destruct (N.ltb_spec (Z.to_N (k_usec p) * 1000) (2 ^ 32)); [|lia]. cbn [obind]. rewrite E by lia.
    destruct (N.ltb_spec (Z.to_N (k_sec p mod 2 ^ 64) + 0) (2 ^ 64)); [|lia]. eauto.
  - rewrite (N.mod_small (Z.to_N (k_usec p) * 1000) (2 ^ 32)) by lia. cbn [obind]. rewrite E by lia.
    destruct (N.ltb_spec (Z.to_N (k_sec p mod 2 ^ 64) + 0) (2 ^ 64)); [|lia]. eauto.
Qed.
(** What one call does to the capture, and what it gives. *)
Lemma send_next_capture mode ps now late s s' x : send_next mode ps now late true s = Ret (s', x) ->
  s_capture s' = tl (s_capture s) /\ s_start s' = s_start s /\ faithful ps (hd_error (s_capture s)) x.
Proof.
  unfold send_next, faithful. destruct (s_capture s) as [|[p|] l] eqn:E; cbn [hd_error tl].
  - intros H. injection H as <- <-. rewrite E. auto.
  - destruct (Nat.ltb_spec (length (k_data p)) (42 + ps)) as [H|H].
    + intros E'. injection E' as <- <-. cbn. auto 6.
    + destruct (packet_time mode p) as [ts|] eqn:Et; cbn [obind]; [|discriminate]. intros E'. injection E' as <- <-. cbn [s_capture s_start].
      split; [reflexivity|]. split; [reflexivity|]. left. split; [lia|]. do 2 eexists. split; [reflexivity|].
      exact (payload_is ps (k_data p) H).
  - intros H. injection H as <- <-. auto.
Qed.
(** The state from which the remaining calls go on. *)
Lemma replay_cons mode ps t pause late calls s results : replay mode ps t ((pause, late) :: calls) s = Ret results ->
  exists s' x l, send_next mode ps (t + pause) late true s = Ret (s', x) /\ results = x :: l
    /\ replay mode ps (match x with Sent at_ _ => at_ | _ => (t + pause)%N end) calls s' = Ret l.
Proof.
  cbn [replay]. intros H. destruct (send_next mode ps (t + pause) late true s) as [[s' x]|]; cbn [obind] in H; [|discriminate H].
  destruct (replay mode ps _ calls s') as [l|] eqn:E; cbn [obind] in H; [|discriminate H]. injection H as <-. eauto 8.
Qed.
Lemma replay_faithful mode ps calls : forall t s results, replay mode ps t calls s = Ret results ->
  length results = length calls /\ forall i x, nth_error results i = Some x -> faithful ps (nth_error (s_capture s) i) x.
Proof.
  induction calls as [|[pause late] calls IH]; intros t s results R.
  - cbn in R. injection R as <-. split; [reflexivity|]. intros [|i] x H; discriminate.
  - destruct (replay_cons _ _ _ _ _ _ _ _ R) as (s' & x0 & l & E & -> & E2).
    destruct (send_next_capture _ _ _ _ _ _ _ E) as (C & _ & F). destruct (IH _ _ _ E2) as [L A].
    split. { cbn. rewrite L. reflexivity. }
    intros [|i] x H.
    + injection H as <-. destruct (s_capture s); exact F.
    + specialize (A i x H). rewrite C in A. destruct (s_capture s); cbn in A |- *; [destruct i; exact A|exact A].
Qed.
(** C141: whatever the pauses, the calls give the packets of the capture one by one, in order,
    without their headers; too short ones are refused, and the end is told from then on. *)
Theorem C141 : forall mode ps capture created t calls results,
  replay mode ps t calls (streamer_new capture created) = Ret results ->
  length results = length calls /\ forall i x, nth_error results i = Some x -> faithful ps (nth_error capture i) x.
Proof.
  intros mode ps capture created t calls results R. exact (replay_faithful mode ps calls t _ _ R).
Qed.
Print Assumptions C141.
(** With regular time stamps and a socket that sends, no call panics. *)
Theorem C141_safe : forall mode ps capture created t calls, Forall regular capture ->
  exists results, replay mode ps t calls (streamer_new capture created) = Ret results.
Proof.
  intros mode ps capture created t calls R. set (s := streamer_new capture created).
  change (Forall regular (s_capture s)) in R. clearbody s. revert t s R.
  induction calls as [|[pause late] calls IH]; intros t s R; cbn [replay]; [eauto|].
  assert (exists s' x, send_next mode ps (t + pause) late true s = Ret (s', x)) as (s' & x & E).
  { unfold send_next. destruct (s_capture s) as [|[p|] l]; eauto. destruct (Nat.ltb _ _); eauto.
    inversion R as [|? ? R1 R2]; subst. destruct (regular_time mode p R1) as (n & -> & _). cbn [obind]. eauto. }
  rewrite E. cbn [obind]. destruct (send_next_capture _ _ _ _ _ _ _ E) as (C & _ & _).
  destruct (IH (match x with Sent at_ _ => at_ | _ => (t + pause)%N end) s') as [l ->].
  { rewrite C. destruct (s_capture s); [constructor|inversion R; assumption]. }
  cbn. eauto.
Qed.
Print Assumptions C141_safe.
(** The end is told only once there is no packet left, or at a record that cannot be read. *)
Theorem C141_end : forall mode ps capture created t calls results i,
  replay mode ps t calls (streamer_new (map Some capture) created) = Ret results ->
  nth_error results i = Some Ended -> length capture <= i.
Proof.
  intros mode ps capture created t calls results i H E. destruct (C141 _ _ _ _ _ _ _ H) as [_ A]. specialize (A _ _ E).
  destruct (Nat.le_gt_cases (length capture) i) as [|Hi]; [assumption|].
  destruct (nth_error capture i) as [p|] eqn:Ep; [|apply nth_error_None in Ep; lia].
  rewrite (map_nth_error Some _ _ Ep) in A. cbn in A. destruct A as [(_ & a & b & A & _)|[_ A]]; discriminate.
Qed.
Print Assumptions C141_end.
(** A packet that the socket refuses is not reported as sent. *)
Theorem C141_refused : forall mode ps now late s s' x, send_next mode ps now late false s = Ret (s', x) -> forall at_ payload, x <> Sent at_ payload.
Proof.
  intros mode ps now late s s' x H at_ payload ->. unfold send_next in H. destruct (s_capture s) as [|[p|] l]; try discriminate.
  destruct (Nat.ltb _ _); [discriminate|]. destruct (packet_time mode p); discriminate.
Qed.
Print Assumptions C141_refused.
(** A capture of one packet with four more bytes at its end, one too short and one good packet,
    replayed by four calls; payloads of three bytes. *)
Definition demo : list (option capt) :=
  [Some (Capt (repeat 9%N 42 ++ [1; 2; 3; 7; 7; 7; 7]%N) 10 999999); Some (Capt [1; 2; 3]%N 11 0); Some (Capt (repeat 9%N 42 ++ [4; 5; 6]%N) 11 0)].
Example C141_case : Forall regular demo /\
  replay Checked 3 1000 [(0, 0); (5, 0); (5, 7); (1, 0)]%N (streamer_new demo 1000)
  = Ret [Sent 1000 [1; 2; 3]%N; TooShort; Sent 2007 [4; 5; 6]%N; Ended]
  /\ replay Checked 0 0 [(0, 0)]%N (streamer_new [Some (Capt (repeat 9%N 42) 0 4294968)] 0) = Panic.
Proof. split; [|split; vm_compute; reflexivity]. repeat constructor; cbn; lia. Qed.

(** ** C142 *)
(** The captured time of a packet, in nanoseconds, of a capture with regular time stamps. *)
Definition captured (p : capt) : Z := (k_sec p * 1000000000 + k_usec p * 1000)%Z.
(** A regular packet whose time is a date after 1970. *)
Definition dated (r : option capt) : Prop := match r with Some p => (0 <= k_usec p < 1000000 /\ 0 <= k_sec p < 2 ^ 63)%Z | None => True end.
(** The [i]th and [j]th calls send datagrams at times [a] and [b], the calls between do not; [p]
    and [q] are the packets. *)
Definition successive (capture : list (option capt)) (results : list replayed) (i j : nat) (a b : N) (p q : capt) : Prop :=
  i < j /\ (exists x, nth_error results i = Some (Sent a x)) /\ (exists y, nth_error results j = Some (Sent b y))
  /\ (forall k c z, i < k < j -> nth_error results k <> Some (Sent c z))
  /\ nth_error capture i = Some (Some p) /\ nth_error capture j = Some (Some q).

(** The natural claim - datagrams are sent at least as far apart as they were captured - fails:
    of three packets captured 100 ms apart the last two are sent at the same instant. *)
Theorem C142_refuted : exists capture results a b p q, Forall dated capture
  /\ replay Checked 1 0 [(0, 0); (0, 0); (0, 0)]%N (streamer_new capture 0) = Ret results
  /\ successive capture results 1 2 a b p q /\ (captured q - captured p = 100000000)%Z /\ a = b.
Proof.
  set (k := fun us => Capt (repeat 0%N 43) 0 us).
  exists [Some (k 0%Z); Some (k 100000%Z); Some (k 200000%Z)], [Sent 0 [0%N]; Sent 100000000 [0%N]; Sent 100000000 [0%N]], 100000000%N, 100000000%N, (k 100000%Z), (k 200000%Z).
  split. { repeat constructor; cbn; lia. }
  split. { vm_compute. reflexivity. }
  split. { unfold successive. repeat split; cbn; eauto. intros n c z H. lia. }
  split; [vm_compute; reflexivity|reflexivity].
Qed.
Print Assumptions C142_refuted.

Lemma dated_time mode p : dated (Some p) -> exists n, packet_time mode p = Ret n /\ Z.of_N n = captured p.
Proof.
  intros H. cbn in H. destruct (regular_time mode p ltac:(cbn; lia)) as (n & E & En). exists n. split; [exact E|].
  rewrite Z.mod_small in En by lia. unfold captured. lia.
Qed.
(** One call: when it sends, and the state after it. *)
Lemma send_next_time mode ps now late s s' x : dated (match s_capture s with r :: _ => r | [] => None end) -> send_next mode ps now late true s = Ret (s', x) ->
  match x with
  | Sent a _ => exists p, hd_error (s_capture s) = Some (Some p) /\ (exists n, s_last s' = Some n /\ Z.of_N n = captured p) /\ (now <= a)%N
      /\ forall last, s_last s = Some last -> (s_start s <= now)%N ->
           (Z.of_N (s_start s) + (captured p - Z.of_N last) <= Z.of_N a)%Z
           /\ (Z.of_N a <= Z.max (Z.of_N now) (Z.of_N (s_start s) + (captured p - Z.of_N last) + Z.of_N late))%Z
  | _ => s_last s' = s_last s
  end /\ (s_last s = None -> match x with Sent a _ => a = now | _ => True end).
Proof.
  unfold send_next. destruct (s_capture s) as [|[p|] l] eqn:Ec.
  - intros _ H. injection H as <- <-. auto.
  - intros D. destruct (Nat.ltb _ _). { intros H. injection H as <- <-. auto. }
    destruct (dated_time mode p D) as (n & -> & En). cbn [obind]. intros H. injection H as <- <-. split.
    + exists p. split; [reflexivity|]. split; [eexists; split; [reflexivity|exact En]|].
      destruct (s_last s) as [last|].
      * destruct (N.ltb_spec last n).
        -- destruct (N.ltb_spec (now - s_start s) (n - last)); (split; [lia|]); intros l0 Hl0 S0; injection Hl0 as <-; split; lia.
        -- split; [lia|]. intros l0 Hl0 S0. injection Hl0 as <-. split; lia.
      * split; [lia|]. discriminate.
    + intros ->. reflexivity.
  - intros _ H. injection H as <- <-. auto.
Qed.
Lemma dated_hd s : Forall dated (s_capture s) -> dated (match s_capture s with r :: _ => r | [] => None end).
Proof. intros H. destruct H; [exact I|assumption]. Qed.
Lemma dated_tl s : Forall dated (s_capture s) -> Forall dated (tl (s_capture s)).
Proof. intros H. destruct H; [constructor|assumption]. Qed.
Lemma nth_tl {A} (l : list A) i : nth_error (tl l) i = nth_error l (S i).
Proof. destruct l; [destruct i; reflexivity|reflexivity]. Qed.
(** The next datagram sent, from a state that remembers a packet. *)
Lemma next_sent mode ps calls : forall t s results last, Forall dated (s_capture s) -> (s_start s <= t)%N -> s_last s = Some last ->
  replay mode ps t calls s = Ret results ->
  forall j b y q, nth_error results j = Some (Sent b y) -> (forall k c z, k < j -> nth_error results k <> Some (Sent c z)) -> nth_error (s_capture s) j = Some (Some q) ->
  (t <= b)%N /\ (Z.of_N (s_start s) + (captured q - Z.of_N last) <= Z.of_N b)%Z
  /\ (Forall (fun c => c = (0, 0)%N) calls -> (Z.of_N b <= Z.max (Z.of_N t) (Z.of_N (s_start s) + (captured q - Z.of_N last)))%Z).
Proof.
  induction calls as [|[pause late] calls IH]; intros t s results last D S0 L R j b y q B Between Q.
  - cbn in R. injection R as <-. destruct j; discriminate.
  - destruct (replay_cons _ _ _ _ _ _ _ _ R) as (s' & x & l & E & -> & R').
    destruct (send_next_capture _ _ _ _ _ _ _ E) as (C & St & _).
    destruct (send_next_time _ _ _ _ _ _ _ (dated_hd s D) E) as [T _].
    destruct j as [|j].
    + injection B as ->. destruct T as (p & Hp & _ & Now & T). specialize (T _ L ltac:(lia)).
      assert (p = q) as -> by (destruct (s_capture s); cbn in Hp, Q; congruence).
      split; [lia|]. split; [lia|]. intros Z0. inversion Z0 as [|? ? Z1 Z2]; subst. injection Z1 as -> ->. lia.
    + destruct x as [a x|  | ].
      * exfalso. apply (Between 0 a x); [lia|reflexivity].
      * rewrite <- St. destruct (IH (t + pause)%N s' l last) with (j := j) (b := b) (y := y) (q := q) as (A1 & A2 & A3); auto.
        { rewrite C. apply dated_tl, D. } { lia. } { congruence. }
        { intros k c z Hk. apply (Between (S k)). lia. } { rewrite C, nth_tl. exact Q. }
        split; [lia|]. split; [exact A2|]. intros Z0. inversion Z0 as [|? ? Z1 Z2]; subst. injection Z1 as -> ->. specialize (A3 Z2). lia.
      * rewrite <- St. destruct (IH (t + pause)%N s' l last) with (j := j) (b := b) (y := y) (q := q) as (A1 & A2 & A3); auto.
        { rewrite C. apply dated_tl, D. } { lia. } { congruence. }
        { intros k c z Hk. apply (Between (S k)). lia. } { rewrite C, nth_tl. exact Q. }
        split; [lia|]. split; [exact A2|]. intros Z0. inversion Z0 as [|? ? Z1 Z2]; subst. injection Z1 as -> ->. specialize (A3 Z2). lia.
Qed.
Lemma pair_sent mode ps calls : forall t s results, Forall dated (s_capture s) -> (s_start s <= t)%N ->
  replay mode ps t calls s = Ret results ->
  forall i j a b p q, successive (s_capture s) results i j a b p q ->
  (t <= a <= b)%N /\ (Z.of_N (s_start s) + (captured q - captured p) <= Z.of_N b)%Z
  /\ (Forall (fun c => c = (0, 0)%N) calls -> (Z.of_N b <= Z.max (Z.of_N a) (Z.of_N (s_start s) + (captured q - captured p)))%Z).
Proof.
  induction calls as [|[pause late] calls IH]; intros t s results D S0 R i j a b p q (Lt & (x1 & A) & (y1 & B) & Between & P & Q).
  - cbn in R. injection R as <-. destruct i; discriminate.
  - destruct (replay_cons _ _ _ _ _ _ _ _ R) as (s' & x & l & E & -> & R').
    destruct (send_next_capture _ _ _ _ _ _ _ E) as (C & St & _).
    destruct (send_next_time _ _ _ _ _ _ _ (dated_hd s D) E) as [T _].
    destruct j as [|j]; [lia|].
    assert (D' : Forall dated (s_capture s')) by (rewrite C; apply dated_tl, D).
    assert (Q' : nth_error (s_capture s') j = Some (Some q)) by (rewrite C, nth_tl; exact Q).
    destruct i as [|i].
    + injection A as ->. destruct T as (p' & Hp & (n & Ln & En) & Now & _).
      assert (p' = p) as -> by (destruct (s_capture s); cbn in Hp, P; congruence).
      destruct (next_sent mode ps calls a s' l n D') with (j := j) (b := b) (y := y1) (q := q) as (A1 & A2 & A3); auto.
      { rewrite St. lia. } { intros k c z Hk. apply (Between (S k)). lia. }
      rewrite <- En, <- St. split; [lia|]. split; [exact A2|]. intros Z0. inversion Z0; subst. auto.
    + assert (St' : (s_start s' <= match x with Sent at_ _ => at_ | _ => t + pause end)%N).
      { rewrite St. destruct x; [destruct T as (? & _ & _ & Now & _); lia|lia|lia]. }
      destruct (IH _ s' l D' St' R' i j a b p q) as (A1 & A2 & A3).
      { repeat split; auto; try lia; eauto. - intros k c z Hk. apply (Between (S k)). lia. - rewrite C, nth_tl. exact P. }
      rewrite <- St. split. { destruct x; [destruct T as (? & _ & _ & Now & _); lia|lia|lia]. }
      split; [exact A2|]. intros Z0. inversion Z0; subst. auto.
Qed.
(** What holds of C142: datagrams are sent in the order of the capture and none is sent before
    the creation of the replayer plus the gap to the packet before it. *)
Theorem C142_partial : forall mode ps capture created t calls results i j a b p q,
  Forall dated capture -> (created <= t)%N -> replay mode ps t calls (streamer_new capture created) = Ret results ->
  successive capture results i j a b p q -> (t <= a <= b)%N /\ (Z.of_N created + (captured q - captured p) <= Z.of_N b)%Z.
Proof.
  intros mode ps capture created t calls results i j a b p q D S0 R Suc.
  destruct (pair_sent mode ps calls t (streamer_new capture created) results D S0 R i j a b p q Suc) as (A1 & A2 & _). auto.
Qed.
Print Assumptions C142_partial.
Lemma first_sent mode ps calls : forall t s results, Forall dated (s_capture s) -> s_last s = None -> Forall (fun c => c = (0, 0)%N) calls ->
  replay mode ps t calls s = Ret results -> forall i a x, nth_error results i = Some (Sent a x) -> (forall k c z, k < i -> nth_error results k <> Some (Sent c z)) -> a = t.
Proof.
  induction calls as [|[pause late] calls IH]; intros t s results D L Z0 R i a x A Before.
  - cbn in R. injection R as <-. destruct i; discriminate.
  - destruct (replay_cons _ _ _ _ _ _ _ _ R) as (s' & x0 & l & E & -> & R').
    destruct (send_next_capture _ _ _ _ _ _ _ E) as (C & St & _).
    destruct (send_next_time _ _ _ _ _ _ _ (dated_hd s D) E) as [T F]. specialize (F L).
    inversion Z0 as [|? ? Z1 Z2]; subst. injection Z1 as -> ->. rewrite N.add_0_r in *.
    destruct i as [|i]. { injection A as ->. exact F. }
    destruct x0 as [a0 x0| |]. { exfalso. apply (Before 0 a0 x0); [lia|reflexivity]. }
    + apply (IH t s' l) with (i := i) (x := x); auto; [rewrite C; apply dated_tl, D|congruence|]. intros k c z Hk. apply (Before (S k)). lia.
    + apply (IH t s' l) with (i := i) (x := x); auto; [rewrite C; apply dated_tl, D|congruence|]. intros k c z Hk. apply (Before (S k)). lia.
Qed.
(** How far from C142 it is: called in a loop, with exact sleeps, the replayer is through with the
    whole capture, however long, once the longest gap between two packets has passed. *)
Theorem C142_rush_partial : forall mode ps capture created calls results gap,
  Forall dated capture -> Forall (fun c => c = (0, 0)%N) calls -> replay mode ps created calls (streamer_new capture created) = Ret results ->
  (0 <= gap)%Z -> (forall i j a b p q, successive capture results i j a b p q -> captured q - captured p <= gap)%Z ->
  forall i a x, nth_error results i = Some (Sent a x) -> (Z.of_N created <= Z.of_N a <= Z.of_N created + gap)%Z.
Proof.
  intros mode ps capture created calls results gap D Z0 R G0 G i. induction i as [i IH] using lt_wf_ind. intros a x A.
  destruct (C141 _ _ _ _ _ _ _ R) as [_ F].
  assert (dec : forall m, m <= i -> (exists k c z, k < m /\ nth_error results k = Some (Sent c z) /\ forall k' c' z', k < k' < m -> nth_error results k' <> Some (Sent c' z'))
                       \/ (forall k c z, k < m -> nth_error results k <> Some (Sent c z))).
  { induction m as [|m IHm]; intros Hm. { right. intros; lia. }
    destruct (nth_error results m) as [[c z| |]|] eqn:Em.
    - left. exists m, c, z. split; [lia|]. split; [exact Em|]. intros; lia.
    - destruct (IHm ltac:(lia)) as [(k & c & z & Hk & E & B)|B].
      + left. exists k, c, z. split; [lia|]. split; [exact E|]. intros k' c' z' H. destruct (Nat.eq_dec k' m) as [->|]; [congruence|]. apply B. lia.
      + right. intros k c z H. destruct (Nat.eq_dec k m) as [->|]; [congruence|]. apply B. lia.
    - destruct (IHm ltac:(lia)) as [(k & c & z & Hk & E & B)|B].
      + left. exists k, c, z. split; [lia|]. split; [exact E|]. intros k' c' z' H. destruct (Nat.eq_dec k' m) as [->|]; [congruence|]. apply B. lia.
      + right. intros k c z H. destruct (Nat.eq_dec k m) as [->|]; [congruence|]. apply B. lia.
    - exfalso. apply nth_error_None in Em. assert (i < length results) by (apply nth_error_Some; congruence). lia. }
  destruct (dec i (le_n i)) as [(k & c & z & Hk & E & B)|B].
  - destruct (IH k Hk c z E) as [C1 C2].
    assert (exists p, nth_error capture k = Some (Some p)) as [p Hp].
    { specialize (F _ _ E). destruct (nth_error capture k) as [[p|]|]; cbn in F; eauto; discriminate. }
    assert (exists q, nth_error capture i = Some (Some q)) as [q Hq].
    { specialize (F _ _ A). destruct (nth_error capture i) as [[q|]|]; cbn in F; eauto; discriminate. }
    assert (Suc : successive capture results k i c a p q) by (unfold successive; eauto 12).
    destruct (pair_sent mode ps calls created (streamer_new capture created) results D (N.le_refl _) R k i c a p q Suc) as (A1 & _ & A3).
    specialize (A3 Z0). specialize (G _ _ _ _ _ _ Suc). cbn [s_start streamer_new] in A3. lia.
  - rewrite (first_sent mode ps calls created (streamer_new capture created) results D eq_refl Z0 R i a x A B). lia.
Qed.
Print Assumptions C142_rush_partial.
Example C142_case : Forall dated demo
  /\ successive demo [Sent 1000 [1; 2; 3]%N; TooShort; Sent 2007 [4; 5; 6]%N; Ended] 0 2 1000 2007 (Capt (repeat 9%N 42 ++ [1; 2; 3; 7; 7; 7; 7]%N) 10 999999) (Capt (repeat 9%N 42 ++ [4; 5; 6]%N) 11 0).
Proof.
  split. { repeat constructor; cbn; lia. }
  unfold successive. split; [lia|]. split; [eexists; reflexivity|]. split; [eexists; reflexivity|].
  split. { intros k c z H. assert (k = 1) as -> by lia. discriminate. } split; reflexivity.
Qed.

(** ** C143 *)
(** A cloud that has the measurements of the echoes in order, one each. *)
Definition point_of (e : echo) (p : pt) : Prop :=
  exists m, e = One m /\ p_tov p = (e_toh m mod 2 ^ 64)%N /\ p_x p = e_x m /\ p_y p = e_y m /\ p_z p = e_z m /\ p_order p = 0%N.
(** The driver can use what it received: it was started, a datagram came, the library reads its
    first 1206 bytes and makes a frame of them, with no point of two measurements and at most
    10000 points. *)
Definition usable {P} (parse : list N -> option P) (frames : velo_mode -> P -> option (list (option (list (list echo))))) (v : velo) (r : received) (firings : list (list echo)) : Prop :=
  v_socket v = true /\ (exists d p rest, r = Datagram d /\ parse (firstn (6 * 201) d) = Some p /\ frames (v_mode v) p = Some (Some firings :: rest))
  /\ (forall f e, In f firings -> In e f -> exists m, e = One m) /\ (N.of_nat (length (concat firings)) <= 10000)%N.

Lemma pushed c l : forall out cloud, push_points c l out = Ret cloud ->
  exists new, cloud = out ++ new /\ Forall2 point_of l new /\ (N.of_nat (length out) <= 10000 -> N.of_nat (length cloud) <= 10000)%N.
Proof.
  induction l as [|[m|s t] l IH]; cbn [push_points]; intros out cloud H.
  - injection H as <-. exists []. rewrite app_nil_r. auto.
  - destruct (N.ltb_spec (N.of_nat (length out)) 10000) as [L|L]; [|discriminate].
    destruct (IH _ _ H) as (new & -> & F & B). exists (velo_point c m :: new). split. { rewrite <- app_assoc. reflexivity. }
    split. { constructor; [|exact F]. exists m. repeat split; reflexivity. }
    intros _. apply B. rewrite app_length. cbn. lia.
  - discriminate.
Qed.
Lemma can_push c l : forall out, (forall e, In e l -> exists m, e = One m) -> (N.of_nat (length out + length l) <= 10000)%N -> exists cloud, push_points c l out = Ret cloud.
Proof.
  induction l as [|e l IH]; cbn [push_points length]; intros out S1 L; [eauto|].
  destruct (S1 e (or_introl eq_refl)) as [m ->]. destruct (N.ltb_spec (N.of_nat (length out)) 10000); [|lia].
  apply IH. { intros e He. apply S1. right. exact He. } rewrite app_length. cbn. lia.
Qed.
Lemma point_of_all l new : Forall2 point_of l new -> (forall e, In e l -> exists m, e = One m) /\ length l = length new.
Proof.
  induction 1 as [|e p l new (m & -> & _) F [A B]]. { split; [intros e []|reflexivity]. }
  split; [|cbn; congruence]. intros e [<-|H]; eauto.
Qed.
(** The natural claim - every call takes a datagram, or gives an error, or sends nothing - fails:
    whatever the library, the driver panics when there is nothing to read, *)
Theorem C143_refuted : forall P (parse : list N -> option P) frames c v m, velo_process P parse frames c v WouldBlock m = Panic /\ velo_process P parse frames c v IoError m = Panic.
Proof. intros. unfold velo_process. destruct (v_socket v); auto. Qed.
Print Assumptions C143_refuted.
(** and when a datagram is not one of the lidar's, so anyone who can reach the port stops the
    robot, *)
Theorem C143_datagram_refuted : forall P (parse : list N -> option P) frames c v d m, parse (firstn (6 * 201) d) = None -> velo_process P parse frames c v (Datagram d) m = Panic.
Proof. intros P parse frames c v d m H. unfold velo_process. rewrite H. destruct (v_socket v); reflexivity. Qed.
Print Assumptions C143_datagram_refuted.
Lemma two_panics : forall P (parse : list N -> option P) frames c v d p firings rest f a b m,
  parse (firstn (6 * 201) d) = Some p -> frames (v_mode v) p = Some (Some firings :: rest) -> In f firings -> In (Two a b) f ->
  velo_process P parse frames c v (Datagram d) m = Panic.
Proof.
  intros P parse frames c v d p firings rest f a b m Hp Hf I1 I2. unfold velo_process. rewrite Hp, Hf.
  destruct (v_socket v); [|reflexivity]. destruct (push_points c (concat firings) []) as [cloud|] eqn:E; [|reflexivity].
  destruct (pushed _ _ _ _ E) as (new & _ & F & _). destruct (point_of_all _ _ F) as [A _].
  destruct (A (Two a b)) as [x Hx]; [|discriminate]. apply in_concat. eauto.
Qed.
(** and, although the return type "dual" can be configured, on any frame with a point that has two
    returns. *)
Theorem C143_dual_refuted : exists v, velo_new (Some (Absent, Text "dual", Absent)) = Ret (Some v) /\
  forall P (parse : list N -> option P) frames c v' d p firings rest f a b m, velo_start true v = Ret v' ->
    parse (firstn (6 * 201) d) = Some p -> frames Dual p = Some (Some firings :: rest) -> In f firings -> In (Two a b) f ->
    velo_process P parse frames c v' (Datagram d) m = Panic.
Proof.
  exists (Velo Dual "0.0.0.0:2368" false). split; [reflexivity|].
  intros P parse frames c v' d p firings rest f a b m H. injection H as <-. intros Hp Hf I1 I2.
  apply (two_panics P parse frames c (Velo Dual "0.0.0.0:2368" true) d p firings rest f a b m Hp Hf I1 I2).
Qed.
Print Assumptions C143_dual_refuted.
(** What holds of C143: the calls that return are exactly those with a usable datagram; they
    replace the payload by the points of the frame, and leave the time of validity as it was. *)
Theorem C143_partial : forall P (parse : list N -> option P) frames c v r m,
  (forall x, velo_process P parse frames c v r m = Ret x ->
     exists firings cloud, usable parse frames v r firings /\ x = Done (Msg (Some cloud) (m_tov m)) /\ Forall2 point_of (concat firings) cloud)
  /\ (forall firings, usable parse frames v r firings -> exists x, velo_process P parse frames c v r m = Ret x).
Proof.
  intros P parse frames c v r m. split.
  - intros x H. unfold velo_process in H. destruct (v_socket v) eqn:Es; [|discriminate H]. destruct r as [d| |]; try discriminate H.
    destruct (parse (firstn (6 * 201) d)) as [p|] eqn:Ep; [|discriminate H].
    destruct (frames (v_mode v) p) as [[|[firings|] rest]|] eqn:Ef; try discriminate H.
    destruct (push_points c (concat firings) []) as [cloud|] eqn:E; cbn [obind] in H; [|discriminate H]. injection H as <-.
    destruct (pushed _ _ _ _ E) as (new & -> & F & B). cbn [app] in *. destruct (point_of_all _ _ F) as [A L].
    exists firings, new. split; [|auto]. split; [exact Es|]. split; [eauto 8|]. split.
    + intros f e I1 I2. apply A. apply in_concat. eauto.
    + rewrite L. apply B. cbn. lia.
  - intros firings (Es & (d & p & rest & -> & Ep & Ef) & One1 & L). unfold velo_process. rewrite Es, Ep, Ef.
    destruct (can_push c (concat firings) []) as [cloud ->]; [|cbn; exact L|cbn; eauto].
    intros e He. apply in_concat in He as (f & I1 & I2). eauto.
Qed.
Print Assumptions C143_partial.
(** The frames of a library that reads two bytes as two firings, and a datagram. *)
Definition demo_parse (d : list N) : option (N * N) := match d with [a; b] => Some (a, b) | _ => None end.
Definition demo_frames (mode : velo_mode) (p : N * N) : option (list (option (list (list echo)))) :=
  Some [Some [[One (Meas 5 1 2 3 (fst p))]; [One (Meas 6 4 5 6 (snd p))]]].
Example C143_case : usable demo_parse demo_frames (Velo Last "" true) (Datagram [10; 20]%N) [[One (Meas 5 1 2 3 10)]; [One (Meas 6 4 5 6 20)]]
  /\ (exists a b, velo_process _ demo_parse demo_frames ByDivision (Velo Last "" true) (Datagram [10; 20]%N) (Msg None TovNone) = Ret (Done (Msg (Some [a; b]) TovNone)) /\ p_tov a = 5%N /\ p_tov b = 6%N /\ p_y b = 5%N)
  /\ velo_process _ demo_parse demo_frames ByDivision (Velo Last "" true) (Datagram [10]%N) (Msg None TovNone) = Panic.
Proof.
  split; [|split].
  - split; [reflexivity|]. split. { exists [10; 20]%N, (10, 20)%N, []. repeat split; reflexivity. } split; [|cbn; lia].
    intros f e [<-|[<-|[]]] [<-|[]]; eauto.
  - do 2 eexists. split; [reflexivity|]. repeat split; reflexivity.
  - reflexivity.
Qed.

(** ** C144 *)
(** The order of positive f32 numbers is that of their bits. *)
Lemma flt_bits a b : (a < b < 0x7F800000)%N -> flt (of_bits a) (of_bits b) = true.
Proof.
  intros [H1 H2].
  assert (K : forall x, (0 <= x < 0x7F800000)%Z -> exists e m, (x = e * 2 ^ 23 + m /\ 0 <= e < 255 /\ 0 <= m < 2 ^ 23)%Z /\
     of_bits (Z.to_N x) = if (e =? 0)%Z then (match m with Zpos p => S754_finite false p (-149) | _ => S754_zero false end)
                   else (match (m + 2 ^ 23)%Z with Zpos p => S754_finite false p (e - 150) | _ => S754_nan end)).
  { intros x Hx. exists (x / 2 ^ 23)%Z, (x mod 2 ^ 23)%Z.
    assert (E : (x = x / 2 ^ 23 * 2 ^ 23 + x mod 2 ^ 23)%Z) by (rewrite Z.mul_comm; apply Z.div_mod; lia).
    assert (M : (0 <= x mod 2 ^ 23 < 2 ^ 23)%Z) by (apply Z.mod_pos_bound; lia).
    assert (D : (0 <= x / 2 ^ 23 < 255)%Z) by (change (2 ^ 23)%Z with 8388608%Z in *; lia).
    split; [lia|]. unfold of_bits. rewrite Z2N.id by lia. rewrite (Z.mod_small (x / 2 ^ 23) 256) by lia.
    replace (Z.testbit x 31) with false.
    - destruct (Z.eqb_spec (x / 2 ^ 23) 255); [lia|reflexivity].
    - symmetry. destruct (Z.eq_dec x 0) as [->|]; [reflexivity|]. apply Z.bits_above_log2; [lia|]. apply Z.log2_lt_pow2; lia. }
  destruct (K (Z.of_N a) ltac:(lia)) as (e & m & A & Ea). destruct (K (Z.of_N b) ltac:(lia)) as (e' & m' & B & Eb).
  rewrite N2Z.id in Ea, Eb. rewrite Ea, Eb. clear K Ea Eb. change (2 ^ 23)%Z with 8388608%Z in *.
  assert (C : (e < e' \/ e = e' /\ m < m')%Z) by lia. unfold flt, SFltb.
  destruct (Z.eqb_spec e 0) as [->|].
  - destruct (Z.eqb_spec e' 0) as [->|].
    + destruct m as [|p|p], m' as [|q|q]; try lia; cbn [SFcompare]; [reflexivity|].
      rewrite Z.compare_refl. change (Pcompare p q Eq) with (p ?= q)%positive. assert (p < q)%positive as -> by lia. reflexivity.
    + destruct (m' + 8388608)%Z as [|q|q] eqn:Hq; try lia. destruct m as [|p|p]; try lia; cbn [SFcompare]; [reflexivity|].
      destruct (Z.compare_spec (-149) (e' - 150)) as [X|X|X]; [|reflexivity|lia].
      change (Pcompare p q Eq) with (p ?= q)%positive. assert (p < q)%positive as -> by lia. reflexivity.
  - destruct (Z.eqb_spec e' 0); [lia|]. destruct (m + 8388608)%Z as [|p|p] eqn:Ep; try lia. destruct (m' + 8388608)%Z as [|q|q] eqn:Hq; try lia. cbn [SFcompare].
    destruct (Z.compare_spec (e - 150) (e' - 150)) as [X|X|X]; [|reflexivity|lia].
    change (Pcompare p q Eq) with (p ?= q)%positive. assert (p < q)%positive as -> by lia. reflexivity.
Qed.
Definition bytes256 : list N := map N.of_nat (seq 0 256).
Lemma all_bytes n : (n < 256)%N -> In n bytes256.
Proof. intros H. unfold bytes256. apply in_map_iff. exists (N.to_nat n). split; [lia|]. apply in_seq. lia. Qed.
(** A function of bytes to bits of positive numbers that grows from each byte to the next. *)
Lemma grows (f : N -> N) : forallb (fun n => implb (n <? 255)%N (f n <? f (n + 1))%N) bytes256 = true -> (f 255 < 0x7F800000)%N ->
  forall a b, (a < b < 256)%N -> flt (of_bits (f a)) (of_bits (f b)) = true.
Proof.
  intros A L. rewrite forallb_forall in A.
  assert (St : forall n, (n < 255)%N -> (f n < f (n + 1))%N).
  { intros n H. specialize (A n (all_bytes n ltac:(lia))). destruct (N.ltb_spec n 255); [|lia]. apply N.ltb_lt. exact A. }
  assert (M : forall k a, (a + N.of_nat k < 255)%N -> (f a < f (a + N.of_nat k + 1))%N).
  { induction k as [|k IH]; intros a H. { replace (a + N.of_nat 0)%N with a by lia. apply St. lia. }
    specialize (IH a ltac:(lia)). specialize (St (a + N.of_nat k + 1)%N ltac:(lia)).
    replace (a + N.of_nat (S k) + 1)%N with (a + N.of_nat k + 1 + 1)%N by lia. lia. }
  assert (M' : forall a b, (a < b < 256)%N -> (f a < f b)%N).
  { intros a b H. specialize (M (N.to_nat (b - a - 1)) a ltac:(lia)). replace (a + N.of_nat (N.to_nat (b - a - 1)) + 1)%N with b in M by lia. exact M. }
  intros a b H. apply flt_bits. split; [apply M'; exact H|]. destruct (N.eq_dec b 255) as [->|]; [exact L|]. specialize (M' b 255%N ltac:(lia)). lia.
Qed.
(** Hesai and Livox: 0 is nothing, 255 is all, and a brighter point has a larger ratio. *)
Theorem C144_partial : ratio_255 0 = 0%N /\ of_bits (ratio_255 255) = f32_of 1
  /\ forall a b, (a < b < 256)%N -> flt (of_bits (ratio_255 a)) (of_bits (ratio_255 b)) = true.
Proof.
  split; [vm_compute; reflexivity|]. split; [vm_compute; reflexivity|]. apply grows; vm_compute; reflexivity.
Qed.
Print Assumptions C144_partial.
(** The natural claim - the sources agree on the ratio of a reflectivity - fails for every
    reflectivity but 0: the Velodyne source stores a ratio below 2 percent of the others'. *)
Theorem C144_refuted : forall c m, (0 < e_intensity m < 256)%N ->
  p_i (velo_point c m) <> ratio_255 (e_intensity m)
  /\ flt (fmul (f32_of 50) (of_bits (p_i (velo_point c m)))) (of_bits (ratio_255 (e_intensity m))) = true.
Proof.
  intros c m H. unfold velo_point. cbn [p_i]. generalize dependent (e_intensity m). clear m. intros n H.
  assert (A : forallb (fun n => implb (0 <? n)%N (negb (percent c (to_bits (intensity n)) =? ratio_255 n)%N && flt (fmul (f32_of 50) (of_bits (percent c (to_bits (intensity n))))) (of_bits (ratio_255 n)))) bytes256 = true)
    by (destruct c; vm_compute; reflexivity).
  rewrite forallb_forall in A. specialize (A n (all_bytes n ltac:(lia))). destruct (N.ltb_spec 0 n); [|lia]. cbn [implb] in A.
  apply andb_prop in A as [A1 A2]. split; [|exact A2]. apply negb_true_iff, N.eqb_neq in A1. exact A1.
Qed.
Print Assumptions C144_refuted.
(** Among its own points the Velodyne source keeps the order of the intensities. *)
Theorem C144_order_partial : forall c m m', (e_intensity m < e_intensity m' < 256)%N -> flt (of_bits (p_i (velo_point c m))) (of_bits (p_i (velo_point c m'))) = true.
Proof.
  intros c m m' H. unfold velo_point. cbn [p_i]. generalize dependent (e_intensity m). generalize dependent (e_intensity m'). intros b a [H1 H2].
  apply (grows (fun n => percent c (to_bits (intensity n)))); [destruct c; vm_compute; reflexivity|destruct c; vm_compute; reflexivity|lia].
Qed.
Print Assumptions C144_order_partial.
Example C144_case : (0 < e_intensity (Meas 0 0 0 0 255) < 256)%N /\ ratio_255 255 = 0x3F800000%N /\ p_i (velo_point ByDivision (Meas 0 0 0 0 255)) = 0x3C23D70A%N.
Proof. vm_compute. repeat split; reflexivity. Qed.

(** ** C145 *)
(** The return types that the documentation of the driver names. *)
Definition return_types : list string := ["strongest"; "last"; "dual"]%string.
(** What holds of C145: with a configuration all of whose parameters are texts, creation never
    panics, it fails exactly on an unknown return type, and the address is the one given. *)
Theorem C145_partial : forall a r t, a <> OtherValue -> r <> OtherValue -> t <> OtherValue ->
  match velo_new (Some (a, r, t)) with
  | Panic => False
  | Ret None => exists s, r = Text s /\ ~ In s return_types
  | Ret (Some v) => (r = Absent \/ exists s, r = Text s /\ In s return_types) /\ v_socket v = false /\ (forall s, a = Text s -> v_addr v = s)
  end.
Proof.
  intros a r t Ha Hr Ht. unfold velo_new. destruct a as [|a|]; [| |congruence]; (destruct r as [|r|]; [| |congruence]); (destruct t as [|t|]; [| |congruence]); cbn [text_or obind];
  try (cbn; split; [auto|split; [reflexivity|congruence]]);
  (destruct (String.eqb_spec r "strongest") as [->|N1]; [cbn; split; [right; eexists; split; [reflexivity|cbn; auto]|split; [reflexivity|congruence]]|]);
  (destruct (String.eqb_spec r "last") as [->|N2]; [cbn; split; [right; eexists; split; [reflexivity|cbn; auto]|split; [reflexivity|congruence]]|]);
  (destruct (String.eqb_spec r "dual") as [->|N3]; [cbn; split; [right; eexists; split; [reflexivity|cbn; auto]|split; [reflexivity|congruence]]|]);
  exists r; (split; [reflexivity|]); intros [H|[H|[H|[]]]]; congruence.
Qed.
Print Assumptions C145_partial.
(** The natural claim - a wrong configuration is reported - fails: creation panics without a
    configuration, and when the flag test_mode is given as a boolean. *)
Theorem C145_refuted : velo_new None = Panic /\ velo_new (Some (Absent, Absent, OtherValue)) = Panic.
Proof. split; reflexivity. Qed.
Print Assumptions C145_refuted.
(** The driver works from a start to the next stop and panics outside. *)
Theorem C145_stopped_partial : forall P (parse : list N -> option P) frames c v r m cfg w,
  velo_process P parse frames c (velo_stop v) r m = Panic
  /\ (velo_new cfg = Ret (Some w) -> velo_process P parse frames c w r m = Panic)
  /\ (forall v', velo_start true v = Ret v' -> v_mode v' = v_mode v /\ v_addr v' = v_addr v /\ v_socket v' = true)
  /\ velo_start false v = Panic.
Proof.
  intros P parse frames c v r m cfg w. split; [reflexivity|]. split; [|split; [|reflexivity]].
  - intros H. assert (v_socket w = false); [|unfold velo_process; rewrite H0; reflexivity].
    destruct cfg as [[[a r0] t]|]; [|discriminate]. unfold velo_new in H.
    destruct (text_or "0.0.0.0:2368" a) as [addr|]; [|discriminate]. destruct (text_or "last" r0) as [ret|]; [|discriminate]. destruct (text_or "false" t); [|discriminate]. cbn [obind] in H.
    repeat destruct (String.eqb ret _); try discriminate H; injection H as <-; reflexivity.
  - intros v' H. injection H as <-. auto.
Qed.
Print Assumptions C145_stopped_partial.
Example C145_case : velo_new (Some (Text "127.0.0.1:9", Text "strongest", Absent)) = Ret (Some (Velo Strongest "127.0.0.1:9" false))
  /\ velo_new (Some (Absent, Text "all", Absent)) = Ret None.
Proof. split; reflexivity. Qed.
