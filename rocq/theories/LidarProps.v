(** C63 (lidars) and C66 to C72: the lidar sources. *)
From Coq Require Import List Arith NArith ZArith Bool Lia.
From Verif Require Import Base CodecModel SourcesModel LidarModel LidarSpec LidarProofs.
Import ListNotations.
Local Open Scope N_scope.
Definition is_bytes (d : list N) : Prop := Forall (fun b => b < 256) d.

(** A scan used in the examples: distances and reflectivities differ everywhere. *)
Definition ex_scan (returns : N) : scan :=
  Scan [1; 2; 3; 4] 0 returns
    (map (fun k => Firing (100 * N.of_nat k + 7) (map (fun j => Echo (1000 * N.of_nat k + 10 * N.of_nat j + 3) (N.of_nat k + N.of_nat j) 9) (seq 0 32))) (seq 0 8))
    [0; 0; 0; 0; 0; 0; 0; 0; 0; 0] 0x37 600 [124; 9; 17; 15; 24; 50] 123456 0x42.
Lemma ex_scan_wf returns : returns < 256 -> wf_scan (ex_scan returns).
Proof.
  intros H. unfold wf_scan, ex_scan. cbn [s_version s_first s_returns s_firings s_reserved s_mode s_speed s_date s_micros s_factory].
  assert (F : Forall wf_firing (map (fun k => Firing (100 * N.of_nat k + 7) (map (fun j => Echo (1000 * N.of_nat k + 10 * N.of_nat j + 3) (N.of_nat k + N.of_nat j) 9) (seq 0 32))) (seq 0 8))).
  { apply Forall_forall. intros f Hf. apply in_map_iff in Hf as (k & <- & Hk). apply in_seq in Hk. unfold wf_firing. cbn [f_azimuth f_echoes].
    split; [lia|]. split; [reflexivity|]. apply Forall_forall. intros e He. apply in_map_iff in He as (j & <- & Hj). apply in_seq in Hj.
    unfold wf_echo. cbn [e_dist e_refl e_res]. lia. }
  unfold bytes. repeat (split; [repeat split; auto; repeat constructor; lia|]). lia.
Qed.
Definition ex_shot : shot :=
  Shot 1 1 0 0 0 123456789 (map (fun k => Spot (Z.of_nat k * 1000 - 50000) (Z.of_nat k) (-1) (N.of_nat k) 0) (seq 0 96)).
Lemma ex_shot_wf : wf_shot ex_shot.
Proof.
  unfold wf_shot, ex_shot. cbn [g_slot g_id g_res g_status g_kind g_time g_spots]. repeat (split; [lia|]). split; [reflexivity|].
  apply Forall_forall. intros p Hp. apply in_map_iff in Hp as (k & <- & Hk). apply in_seq in Hk. unfold wf_spot, i32. cbn [p_x p_y p_z p_refl p_tag]. change (2 ^ 31)%Z with 2147483648%Z. lia.
Qed.

(** * C63: no datagram, no payload *)
Theorem C63_lidars_partial : forall utc mode ref (m : msg (list point)) (m2 : msg (list (N * lpoint))),
  (exists m', hesai_process utc mode ref WouldBlock m = Ret (Done m') /\ m_payload m' = None) /\
  (exists m', livox_process WouldBlock m2 = Ret (Done m') /\ m_payload m' = None).
Proof. intros. split; eexists; split; reflexivity. Qed.
Print Assumptions C63_lidars_partial.
(** A failed process call may leave an empty cloud, never the points of an earlier one. *)
Theorem C63_failed_lidars_partial : forall utc mode ref r (m m' : msg (list point)), hesai_process utc mode ref r m = Ret (Failed m') -> m_payload m' = Some [].
Proof.
  intros utc mode ref r m m' E. destruct r as [d| |]; cbn in E; try discriminate E; [|injection E as <-; reflexivity].
  destruct (parse_packet _) as [[p|]|]; cbn in E; try discriminate E; [|injection E as <-; reflexivity].
  destruct (block_ts _ _ _ _) as [[ts|]|]; cbn in E; try discriminate E; [|injection E as <-; reflexivity].
  destruct (blocks_loop _ _ _ _) as [[[ps lo] hi]|]; cbn in E; discriminate E.
Qed.
Print Assumptions C63_failed_lidars_partial.
Theorem C63_failed_livox_partial : forall r (m m' : msg (list (N * lpoint))), livox_process r m = Ret (Failed m') -> m_payload m' = Some [].
Proof.
  intros r m m' E. destruct r as [d| |]; cbn in E; try discriminate E; [|injection E as <-; reflexivity].
  destruct (parse_frame _) as [[p|]|]; cbn in E; try discriminate E; injection E as <-; reflexivity.
Qed.
Print Assumptions C63_failed_livox_partial.
Example C63_lidars_case : hesai_process (fun _ => None) Checked (0%Z, 0) WouldBlock (Msg (Some [Point 1 2 3 4 5]) TovNone) = Ret (Done (Msg None TovNone)) /\
  hesai_process (fun _ => None) Checked (0%Z, 0) (Datagram (enc_scan (ex_scan 1))) (Msg (Some [Point 1 2 3 4 5]) TovNone) = Ret (Failed (Msg (Some []) TovNone)).
Proof. split; vm_compute; reflexivity. Qed.

(** * C66: any datagram is accepted or refused, and just the well formed ones are accepted *)
Theorem C66_refuted : exists d1 d2, is_bytes d1 /\ is_bytes d2 /\ parse_packet d1 = Panic /\ parse_frame d2 = Panic /\
  (forall utc mode ref m, hesai_process utc mode ref (Datagram d1) m = Panic) /\ (forall m, livox_process (Datagram d2) m = Panic).
Proof. exists [0xEE], []. repeat split; try reflexivity; repeat constructor. Qed.
Print Assumptions C66_refuted.
Theorem C66_hesai_partial : forall d, is_bytes d -> (2 <= length d)%nat ->
  exists r, parse_packet d = Ret r /\ (r <> None <-> exists s, wf_scan s /\ enc_scan s = d).
Proof.
  intros d B L. destruct (parse_total d L) as (r & E). exists r. split; [exact E|]. split.
  - intros Hr. destruct r as [p|]; [|congruence]. destruct (parse_inv d p B E) as (s & W & Es & _). eauto.
  - intros (s & W & Es). subst d. rewrite parse_scan in E by exact W. congruence.
Qed.
Print Assumptions C66_hesai_partial.
Theorem C66_livox_partial : forall d, is_bytes d -> (1 <= length d)%nat ->
  exists r, parse_frame d = Ret r /\ (r <> None <-> exists g, wf_shot g /\ enc_shot g = d).
Proof.
  intros d B L. destruct (parse_frame d) as [r|] eqn:E.
  - exists r. split; [reflexivity|]. split.
    + intros Hr. destruct r as [p|]; [|congruence]. destruct (parse_frame_inv d p B E) as (g & W & Eg & _). eauto.
    + intros (g & W & Eg). subst d. rewrite parse_shot in E by exact W. congruence.
  - exfalso. destruct d as [|b d]; [cbn in L; lia|]. unfold parse_frame in E. destruct (negb _); [discriminate|]. destruct (Nat.ltb _ _); [discriminate|]. destruct (Nat.ltb _ _); discriminate.
Qed.
Print Assumptions C66_livox_partial.
Example C66_case : parse_packet [0xEE; 0xFE] = Ret None /\ parse_packet (enc_scan (ex_scan 2) ++ [0]) = Ret None /\ parse_packet (removelast (enc_scan (ex_scan 2))) = Ret None /\
  (exists p, parse_packet (enc_scan (ex_scan 2)) = Ret (Some p)) /\ parse_frame (enc_shot ex_shot ++ [0]) = Ret None /\ (exists f, parse_frame (enc_shot ex_shot) = Ret (Some f)).
Proof. repeat split; try (vm_compute; reflexivity); eexists; vm_compute; reflexivity. Qed.

(** * C67: the packet and the points are those the Hesai lidar sent *)
Theorem C67_decode : forall s, wf_scan s -> exists p, parse_packet (enc_scan s) = Ret (Some p) /\
  pk_return_number p = s_returns s /\ pk_date_time p = s_date s /\ pk_timestamp p = s_micros s /\ length (pk_blocks p) = 8%nat /\
  forall k f, nth_error (s_firings s) k = Some f -> exists b, nth_error (pk_blocks p) k = Some b /\ bk_azimuth b = f_azimuth f /\ length (bk_channels b) = 32%nat /\
  forall i e, nth_error (f_echoes f) i = Some e -> exists c, nth_error (bk_channels b) i = Some c /\ ch_distance c = e_dist e /\ ch_reflectivity c = e_refl e.
Proof.
  intros s W. exists (packet_for s). split; [apply parse_scan, W|]. cbn [packet_for pk_return_number pk_date_time pk_timestamp pk_blocks]. repeat (split; [reflexivity|]).
  destruct W as (_ & _ & _ & (L & F) & _). split; [rewrite map_length; exact L|]. intros k f Hk. eexists. split; [apply map_nth_error, Hk|]. cbn [bk_azimuth bk_channels]. split; [reflexivity|].
  split; [rewrite map_length; apply nth_error_In in Hk; eapply Forall_forall in F; [|exact Hk]; apply F|].
  intros i e Hi. eexists. split; [apply map_nth_error, Hi|]. split; reflexivity.
Qed.
Print Assumptions C67_decode.
Lemma firstn_scan s : wf_scan s -> firstn 1500 (enc_scan s) = enc_scan s.
Proof. intros W. apply firstn_all2. rewrite len_scan by (apply wf_sized; exact W). unfold PACKET_SIZE. lia. Qed.
Lemma blocks_for s : wf_scan s -> Forall (fun b => length (bk_channels b) = 32%nat) (pk_blocks (packet_for s)) /\ length (pk_blocks (packet_for s)) = 8%nat.
Proof.
  intros (_ & _ & _ & (L & F) & _). cbn [packet_for pk_blocks]. split; [|rewrite map_length; exact L]. apply Forall_forall. intros b Hb. apply in_map_iff in Hb as (f & <- & Hf).
  eapply Forall_forall in F; [|exact Hf]. cbn [bk_channels]. rewrite map_length. apply F.
Qed.
(** What a successful call leaves, in terms of the time of block 6. *)
Lemma process_done utc mode ref s m m' : wf_scan s -> hesai_process utc mode ref (Datagram (enc_scan s)) m = Ret (Done m') ->
  exists ts, block_ts utc mode ref (packet_for s) = Ret (Some ts) /\ times_ok mode (nth 5 ts 0) 32 /\
  m' = Msg (Some (pts_of_blocks mode (nth 5 ts 0) (pk_blocks (packet_for s))))
           (TovRange (TimeRange (fst (bounds_of mode (nth 5 ts 0) (pk_blocks (packet_for s)) (NONE_VALUE - 1, 0))) (snd (bounds_of mode (nth 5 ts 0) (pk_blocks (packet_for s)) (NONE_VALUE - 1, 0))))).
Proof.
  intros W E. unfold hesai_process in E. rewrite firstn_scan, parse_scan in E by exact W. cbn [obind] in E.
  destruct (block_ts utc mode ref (packet_for s)) as [[ts|]|] eqn:Et; cbn [obind] in E; try discriminate E. exists ts. split; [reflexivity|].
  destruct (blocks_for s W) as [F L]. assert (T : times_ok mode (nth 5 ts 0) 32).
  { destruct (pk_blocks (packet_for s)) as [|b bs] eqn:Eb; [discriminate L|]. destruct (blocks_loop mode (nth 5 ts 0) (b :: bs) _) as [st|] eqn:El; [|discriminate E].
    eapply blocks_loop_inv; [|exact El]. inversion F; auto. }
  split; [exact T|]. rewrite blocks_loop_ok in E by auto. cbn [obind app] in E. injection E as <-. reflexivity.
Qed.
Lemma point_at mode t6 s k i f e : wf_scan s -> nth_error (s_firings s) k = Some f -> nth_error (f_echoes f) i = Some e ->
  nth_error (pts_of_blocks mode t6 (pk_blocks (packet_for s))) (32 * k + i) = Some (Point (ct mode t6 i) (f_azimuth f) i (e_dist e) (e_refl e)).
Proof.
  intros W Hk Hi. destruct (blocks_for s W) as [F L]. unfold pts_of_blocks.
  assert (Hi' : (i < 32)%nat). { destruct W as (_ & _ & _ & (_ & F') & _). apply nth_error_In in Hk. eapply Forall_forall in F'; [|exact Hk]. destruct F' as (_ & L' & _). rewrite <- L'. apply nth_error_Some. congruence. }
  rewrite (nth_error_flat_map _ 32 _ k i (Block (f_azimuth f) (map chan (f_echoes f)))); [|..|exact Hi'].
  - cbn [bk_azimuth bk_channels]. unfold pts_of.
    pose proof (nth_error_combine_seq _ 0 i (chan e) (map_nth_error chan i (f_echoes f) Hi)) as X. rewrite (map_nth_error _ _ _ X). reflexivity.
  - eapply Forall_impl; [|exact F]. intros b Hb. unfold pts_of. rewrite map_length, combine_length, seq_length. cbv beta in Hb. lia.
  - cbn [packet_for pk_blocks]. apply (map_nth_error (fun f => Block (f_azimuth f) (map chan (f_echoes f)))), Hk.
Qed.
Lemma points_len mode t6 : forall bs, Forall (fun b => length (bk_channels b) = 32%nat) bs -> length (pts_of_blocks mode t6 bs) = (32 * length bs)%nat.
Proof.
  induction 1 as [|b bs Hb Hbs IH]; [reflexivity|]. unfold pts_of_blocks in *. cbn [flat_map length]. rewrite app_length, IH. unfold pts_of.
  rewrite map_length, combine_length, seq_length. lia.
Qed.
(** The message of a successful call has one point per echo, in the order of the packet. *)
Theorem C67_points : forall utc mode ref s m m', wf_scan s -> hesai_process utc mode ref (Datagram (enc_scan s)) m = Ret (Done m') ->
  exists ps, m_payload m' = Some ps /\ length ps = 256%nat /\
  forall k i f e, nth_error (s_firings s) k = Some f -> nth_error (f_echoes f) i = Some e ->
    exists p, nth_error ps (32 * k + i) = Some p /\ pt_azimuth p = f_azimuth f /\ pt_channel p = i /\ pt_distance p = e_dist e /\ pt_reflectivity p = e_refl e.
Proof.
  intros utc mode ref s m m' W E. destruct (process_done _ _ _ _ _ _ W E) as (ts & _ & _ & ->). eexists. split; [reflexivity|]. split.
  - destruct (blocks_for s W) as [F L]. rewrite points_len by exact F. rewrite L. reflexivity.
  - intros k i f e Hk Hi. eexists. split; [apply point_at; eauto|]. repeat split.
Qed.
Print Assumptions C67_points.
(** Nothing else makes points. *)
Theorem C67_only : forall utc mode ref r m m', (forall d, r = Datagram d -> is_bytes d) -> hesai_process utc mode ref r m = Ret (Done m') -> m_payload m' <> None ->
  exists s d, wf_scan s /\ r = Datagram d /\ firstn 1500 d = enc_scan s.
Proof.
  intros utc mode ref r m m' B E Hp. destruct r as [d| |]; unfold hesai_process in E; [|injection E as <-; exfalso; apply Hp; reflexivity|discriminate E].
  destruct (parse_packet (firstn 1500 d)) as [[p|]|] eqn:Ep; cbn [obind] in E; try discriminate E.
  assert (B' : is_bytes (firstn 1500 d)). { specialize (B d eq_refl). unfold is_bytes in *. rewrite <- (firstn_skipn 1500 d) in B. apply Forall_app in B. tauto. }
  destruct (parse_inv _ _ B' Ep) as (s & W & Es & _). exists s, d. symmetry in Es. auto.
Qed.
Print Assumptions C67_only.
Definition ex_utc (d : list N) : option Z := match d with [124; 9; 17; 15; 24; 50] => Some 1726586690000000000%Z | _ => None end.
Definition ex_ref : Z * N := (1726586680000000000%Z, 5000000000).
Example C67_case : exists ps lo hi, hesai_process ex_utc Checked ex_ref (Datagram (enc_scan (ex_scan 2))) (Msg None TovNone) = Ret (Done (Msg (Some ps) (TovRange (TimeRange lo hi)))) /\
  nth_error ps 100 = Some (Point 15123366448 307 4 3043 7).
Proof. eexists _, _, _. split; vm_compute; reflexivity. Qed.

(** * C68: the points of the message are those the Livox lidar sent *)
Theorem C68_points : forall g m, wf_shot g -> exists m', livox_process (Datagram (enc_shot g)) m = Ret (Done m') /\
  m_payload m' = Some (map (fun p => (g_time g, LPoint (p_x p) (p_y p) (p_z p) (p_refl p))) (g_spots g)).
Proof.
  intros g m W. unfold livox_process. rewrite firstn_all2 by (destruct W as (_ & _ & _ & _ & _ & _ & L & _); rewrite len_shot by exact L; unfold FRAME_SIZE; lia).
  rewrite parse_shot by exact W. cbn [obind]. eexists. split; [reflexivity|]. cbn [m_payload frame_for lf_timestamp lf_points]. rewrite map_map. reflexivity.
Qed.
Print Assumptions C68_points.
Theorem C68_only : forall r m m', (forall d, r = Datagram d -> is_bytes d) -> livox_process r m = Ret (Done m') -> m_payload m' <> None ->
  exists g d, wf_shot g /\ r = Datagram d /\ firstn 1500 d = enc_shot g.
Proof.
  intros r m m' B E Hp. destruct r as [d| |]; unfold livox_process in E; [|injection E as <-; exfalso; apply Hp; reflexivity|discriminate E].
  destruct (parse_frame (firstn 1500 d)) as [[p|]|] eqn:Ep; cbn [obind] in E; try discriminate E.
  assert (B' : is_bytes (firstn 1500 d)). { specialize (B d eq_refl). unfold is_bytes in *. rewrite <- (firstn_skipn 1500 d) in B. apply Forall_app in B. tauto. }
  destruct (parse_frame_inv _ _ B' Ep) as (g & W & Eg & _). exists g, d. symmetry in Eg. auto.
Qed.
Print Assumptions C68_only.
Example C68_case : exists ps, livox_process (Datagram (enc_shot ex_shot)) (Msg None TovNone) = Ret (Done (Msg (Some ps) TovNone)) /\
  nth_error ps 20 = Some (123456789, LPoint (-30000) 20 (-1) 20).
Proof. eexists. split; vm_compute; reflexivity. Qed.

(** * C69: start times of the blocks *)
Local Open Scope Z_scope.
(** The packet was sent between the last synchronization and 292 years later. *)
Definition after_sync (ref : Z * N) (u : Z) (us : N) : Prop := 0 <= u + 1000 * Z.of_N us - fst ref < 2 ^ 63.
Theorem C69_refuted : exists s ref utc u p ts, wf_scan s /\ utc (s_date s) = Some u /\ after_sync ref u (s_micros s) /\ s_returns s = 1%N /\
  parse_packet (enc_scan s) = Ret (Some p) /\ block_ts utc Checked ref p = Ret (Some ts) /\
  Z.of_N (nth 0 ts 0%N) <> manual_start (s_returns s) (robot_t0 ref u (s_micros s)) 1.
Proof.
  exists (ex_scan 1), ex_ref, ex_utc, 1726586690000000000, (packet_for (ex_scan 1)), [15123311632; 15123311632; 15123361632; 15123361632; 15123411632; 15123411632; 15123461632; 15123461632]%N.
  split; [apply ex_scan_wf; lia|]. split; [reflexivity|]. split; [split; vm_compute; congruence|]. split; [reflexivity|]. split; [apply parse_scan, ex_scan_wf; lia|].
  split; [vm_compute; reflexivity|]. vm_compute. congruence.
Qed.
Print Assumptions C69_refuted.
Lemma start_of (dual : bool) t0 n : (350000 <= t0 + 5632)%N -> (1 <= n <= 8)%nat ->
  Z.of_N (nth (n - 1) (map (fun o => t0 + 5632 - o * 50000)%N (offsets dual)) 0%N) = manual_start (if dual then 2 else 1)%N (Z.of_N t0) n.
Proof.
  intros Ht Hn. assert (Hc : (n = 1 \/ n = 2 \/ n = 3 \/ n = 4 \/ n = 5 \/ n = 6 \/ n = 7 \/ n = 8)%nat) by lia.
  destruct Hc as [->|[->|[->|[->|[->|[->|[->| ->]]]]]]]; destruct dual; unfold manual_start, offsets; cbn [map nth Nat.sub]; change (2 =? 2)%N with true; change (1 =? 2)%N with false; cbv iota; lia.
Qed.
Lemma block_ts_scan utc mode ref s u : wf_scan s -> utc (s_date s) = Some u -> after_sync ref u (s_micros s) -> 344368 <= robot_t0 ref u (s_micros s) < 2 ^ 64 - 5632 ->
  block_ts utc mode ref (packet_for s) = Ret (Some (map (fun o => (Z.to_N (robot_t0 ref u (s_micros s)) + 5632 - o * 50000)%N) (offsets (s_returns s =? 1)%N))).
Proof.
  intros W Hu Ha Hr. rewrite (block_ts_ok _ _ _ _ (Z.to_N (robot_t0 ref u (s_micros s)))).
  - reflexivity.
  - apply packet_tov_ok; auto. lia.
  - change (2 ^ 64)%N with 18446744073709551616%N. change (2 ^ 64) with 18446744073709551616 in Hr. lia.
Qed.
(** The tables of the manual are followed with the two modes exchanged. *)
Theorem C69_exchanged_partial : forall utc mode ref s u, wf_scan s -> utc (s_date s) = Some u -> after_sync ref u (s_micros s) -> 344368 <= robot_t0 ref u (s_micros s) < 2 ^ 64 - 5632 ->
  exists p ts, parse_packet (enc_scan s) = Ret (Some p) /\ block_ts utc mode ref p = Ret (Some ts) /\ length ts = 8%nat /\
  forall n, (1 <= n <= 8)%nat -> Z.of_N (nth (n - 1) ts 0%N) = manual_start (if (s_returns s =? 1)%N then 2 else 1) (robot_t0 ref u (s_micros s)) n.
Proof.
  intros utc mode ref s u W Hu Ha Hr. eexists _, _. split; [apply parse_scan, W|]. split; [apply (block_ts_scan utc mode ref s u); auto|]. split; [destruct (s_returns s =? 1)%N; reflexivity|].
  intros n Hn. rewrite start_of by lia. rewrite Z2N.id by lia. reflexivity.
Qed.
Print Assumptions C69_exchanged_partial.
(** So the last block is right in both modes. *)
Theorem C69_last_partial : forall utc mode ref s u, wf_scan s -> utc (s_date s) = Some u -> after_sync ref u (s_micros s) -> 344368 <= robot_t0 ref u (s_micros s) < 2 ^ 64 - 5632 ->
  exists p ts, parse_packet (enc_scan s) = Ret (Some p) /\ block_ts utc mode ref p = Ret (Some ts) /\ Z.of_N (nth 7 ts 0%N) = manual_start (s_returns s) (robot_t0 ref u (s_micros s)) 8.
Proof.
  intros utc mode ref s u W Hu Ha Hr. destruct (C69_exchanged_partial utc mode ref s u W Hu Ha Hr) as (p & ts & E1 & E2 & _ & H). exists p, ts. split; [exact E1|]. split; [exact E2|].
  specialize (H 8%nat ltac:(lia)). change (8 - 1)%nat with 7%nat in H. rewrite H. unfold manual_start. destruct (s_returns s =? 1)%N, (s_returns s =? 2)%N; reflexivity.
Qed.
Print Assumptions C69_last_partial.
Example C69_case : wf_scan (ex_scan 2) /\ ex_utc (s_date (ex_scan 2)) = Some 1726586690000000000 /\ after_sync ex_ref 1726586690000000000 123456 /\ robot_t0 ex_ref 1726586690000000000 123456 = 15123456000 /\
  block_ts ex_utc Checked ex_ref (packet_for (ex_scan 2)) = Ret (Some [15123111632; 15123161632; 15123211632; 15123261632; 15123311632; 15123361632; 15123411632; 15123461632]%N) /\
  manual_start 2 15123456000 1 = 15123311632.
Proof. split; [apply ex_scan_wf; lia|]. split; [reflexivity|]. split; [split; vm_compute; congruence|]. repeat split; vm_compute; reflexivity. Qed.

Lemma add64_wraps a b : add64 Wrapping a b = Ret (Z.to_N ((Z.of_N a + Z.of_N b) mod 2 ^ 64)).
Proof.
  unfold add64. destruct (N.ltb_spec (a + b) (2 ^ 64)); f_equal.
  - rewrite Z.mod_small by lia. lia.
  - rewrite <- N2Z.inj_add. change (2 ^ 64) with (Z.of_N (2 ^ 64)). rewrite <- N2Z.inj_mod. now rewrite N2Z.id.
Qed.
Lemma sub64_wraps a b : (a < 2 ^ 64)%N -> (b < 2 ^ 64)%N -> sub64 Wrapping a b = Ret (Z.to_N ((Z.of_N a - Z.of_N b) mod 2 ^ 64)).
Proof.
  intros Ha Hb. unfold sub64. destruct (N.leb_spec b a); f_equal.
  - rewrite Z.mod_small by lia. lia.
  - rewrite N.mod_small by lia. rewrite <- (Z.mod_add (Z.of_N a - Z.of_N b) 1 (2 ^ 64)) by lia. rewrite Z.mod_small by lia. lia.
Qed.
Lemma starts_wraps t : (t < 2 ^ 64)%N -> forall l, Forall (fun o => (o < 8)%N) l ->
  starts Wrapping t l = Ret (map (fun o => Z.to_N ((Z.of_N t - 50000 * Z.of_N o) mod 2 ^ 64)) l).
Proof.
  intros Ht l H. induction H as [|o l Ho Hl IH]; [reflexivity|]. cbn [starts]. rewrite sub64_wraps by lia. cbn [obind]. rewrite IH. cbn [obind map]. repeat f_equal. lia.
Qed.
Lemma mod_chain r d o M : (((r + d mod M) mod M + 5632) mod M - o) mod M = (r + d + 5632 - o) mod M.
Proof.
  rewrite Zminus_mod_idemp_l. replace ((r + d mod M) mod M + 5632 - o) with ((r + d mod M) mod M + (5632 - o)) by lia. rewrite Zplus_mod_idemp_l.
  replace (r + d mod M + (5632 - o)) with (d mod M + (r + (5632 - o))) by lia. rewrite Zplus_mod_idemp_l. f_equal. lia.
Qed.
(** Builds without overflow checks always answer, and the times are those of the table of the
    other mode, up to multiples of 2^64 ns. *)
Theorem C69_release_partial : forall utc ref s u, wf_scan s -> utc (s_date s) = Some u -> - 2 ^ 63 <= u + 1000 * Z.of_N (s_micros s) - fst ref < 2 ^ 63 ->
  exists p ts, parse_packet (enc_scan s) = Ret (Some p) /\ block_ts utc Wrapping ref p = Ret (Some ts) /\ length ts = 8%nat /\
  forall n, (1 <= n <= 8)%nat -> Z.of_N (nth (n - 1) ts 0%N) = manual_start (if (s_returns s =? 1)%N then 2 else 1) (robot_t0 ref u (s_micros s)) n mod 2 ^ 64.
Proof.
  intros utc ref s u W Hu He. exists (packet_for s).
  assert (Et : block_ts utc Wrapping ref (packet_for s) = Ret (Some (map (fun o => Z.to_N ((robot_t0 ref u (s_micros s) + 5632 - 50000 * Z.of_N o) mod 2 ^ 64)) (offsets (s_returns s =? 1)%N)))).
  { unfold block_ts, packet_tov, utc_tov. cbn [packet_for pk_date_time pk_timestamp]. rewrite Hu. cbv zeta.
    destruct (Z.ltb_spec (u + 1000 * Z.of_N (s_micros s) - fst ref) (- 2 ^ 63)); [lia|].
    destruct (Z.leb_spec (2 ^ 63) (u + 1000 * Z.of_N (s_micros s) - fst ref)); [lia|]. cbn [orb].
    assert (P : 0 < 2 ^ 64) by lia.
    rewrite add64_wraps. cbn [obind]. rewrite add64_wraps. cbn [obind].
    rewrite starts_wraps.
    - cbn [obind]. do 2 f_equal. change (is_dual_return _) with (s_returns s =? 1)%N. apply map_ext. intros o. f_equal.
      pose proof (Z.mod_pos_bound (u + 1000 * Z.of_N (s_micros s) - fst ref) _ P). set (d := u + 1000 * Z.of_N (s_micros s) - fst ref) in *.
      pose proof (Z.mod_pos_bound (Z.of_N (snd ref) + Z.of_N (Z.to_N (d mod 2 ^ 64))) _ P) as B1.
      pose proof (Z.mod_pos_bound (Z.of_N (Z.to_N ((Z.of_N (snd ref) + Z.of_N (Z.to_N (d mod 2 ^ 64))) mod 2 ^ 64)) + Z.of_N 5632) _ P) as B2.
      rewrite !Z2N.id by lia. unfold robot_t0. fold d. change (Z.of_N 5632) with 5632. apply mod_chain.
    - match goal with |- (Z.to_N ?e < _)%N => pose proof (Z.mod_pos_bound (Z.of_N (Z.to_N ((Z.of_N (snd ref) + Z.of_N (Z.to_N ((u + 1000 * Z.of_N (s_micros s) - fst ref) mod 2 ^ 64))) mod 2 ^ 64)) + Z.of_N 5632) _ P) as B2 end. lia.
    - change (is_dual_return _) with (s_returns s =? 1)%N. destruct (s_returns s =? 1)%N; repeat constructor; lia. }
  eexists. split; [apply parse_scan, W|]. split; [exact Et|]. split; [rewrite map_length; destruct (s_returns s =? 1)%N; reflexivity|].
  intros n Hn. assert (P : 0 < 2 ^ 64) by lia. assert (Hc : (n = 1 \/ n = 2 \/ n = 3 \/ n = 4 \/ n = 5 \/ n = 6 \/ n = 7 \/ n = 8)%nat) by lia. set (t0 := robot_t0 ref u (s_micros s)).
  assert (Q : forall o x, t0 + 5632 - 50000 * Z.of_N o = x -> Z.of_N (Z.to_N ((t0 + 5632 - 50000 * Z.of_N o) mod 2 ^ 64)) = x mod 2 ^ 64).
  { intros o x <-. rewrite Z2N.id; [reflexivity|]. apply Z.mod_pos_bound, P. }
  destruct Hc as [->|[->|[->|[->|[->|[->|[->| ->]]]]]]]; destruct (s_returns s =? 1)%N; unfold manual_start, offsets; cbn [map nth Nat.sub]; change (2 =? 2)%N with true; change (1 =? 2)%N with false; cbv iota; apply Q; lia.
Qed.
Print Assumptions C69_release_partial.
(** Just after a synchronization at time 0 the first blocks wrap around. *)
Example C69_release_case : block_ts ex_utc Wrapping (1726586690123456000, 0%N) (packet_for (ex_scan 2)) =
  Ret (Some [18446744073709207248; 18446744073709257248; 18446744073709307248; 18446744073709357248; 18446744073709407248; 18446744073709457248; 18446744073709507248; 5632]%N).
Proof. vm_compute. reflexivity. Qed.

(** * C70: firing times of the points *)
(** Each call succeeds and times the points of all blocks as if they were fired in block 6 (of
    the table of the other mode), by a laser before their own. *)
Theorem C70_times_partial : forall utc mode ref s u m, wf_scan s -> utc (s_date s) = Some u -> after_sync ref u (s_micros s) -> 344368 <= robot_t0 ref u (s_micros s) < 2 ^ 63 ->
  exists m' ps, hesai_process utc mode ref (Datagram (enc_scan s)) m = Ret (Done m') /\ m_payload m' = Some ps /\ length ps = 256%nat /\
  forall k i, (k < 8)%nat -> (i < 32)%nat -> exists p, nth_error ps (32 * k + i) = Some p /\
    Z.of_N (pt_tov p) = manual_fire (manual_start (if (s_returns s =? 1)%N then 2 else 1) (robot_t0 ref u (s_micros s)) 6) (i + 1) - 1512.
Proof.
  intros utc mode ref s u m W Hu Ha Hr. change (2 ^ 63) with 9223372036854775808 in Hr.
  pose proof (block_ts_scan utc mode ref s u W Hu Ha ltac:(change (2 ^ 64) with 18446744073709551616; lia)) as Et.
  set (t6 := nth 5 (map (fun o => (Z.to_N (robot_t0 ref u (s_micros s)) + 5632 - o * 50000)%N) (offsets (s_returns s =? 1)%N)) 0%N).
  assert (H6 : Z.of_N t6 = manual_start (if (s_returns s =? 1)%N then 2 else 1) (robot_t0 ref u (s_micros s)) 6).
  { unfold t6. rewrite (start_of (s_returns s =? 1)%N _ 6) by lia. rewrite Z2N.id by lia. reflexivity. }
  assert (B6 : (1512 <= t6)%N /\ (t6 + 50000 < 2 ^ 64)%N).
  { change (2 ^ 64)%N with 18446744073709551616%N. unfold manual_start in H6. destruct (s_returns s =? 1)%N; [change (2 =? 2)%N with true in H6|change (1 =? 2)%N with false in H6]; cbv iota in H6; lia. }
  assert (T : times_ok mode t6 32) by (intros i Hi; destruct (ct_ok mode t6 i) as [X _]; [tauto|tauto|exact Hi|eauto]).
  assert (E : exists m', hesai_process utc mode ref (Datagram (enc_scan s)) m = Ret (Done m')).
  { unfold hesai_process. rewrite firstn_scan, parse_scan by exact W. cbn [obind]. rewrite Et. cbn [obind]. fold t6. rewrite blocks_loop_ok by (try exact T; apply blocks_for, W). cbn [obind]. eauto. }
  destruct E as (m' & E). destruct (process_done _ _ _ _ _ _ W E) as (ts & Ets & _ & ->). rewrite Et in Ets. injection Ets as <-. fold t6 in E. fold t6.
  eexists _, _. split; [exact E|]. split; [reflexivity|]. split. { destruct (blocks_for s W) as [F L]. rewrite points_len by exact F. rewrite L. reflexivity. }
  intros k i Hk Hi. destruct (nth_error (s_firings s) k) as [f|] eqn:Ef. 2:{ apply nth_error_None in Ef. destruct W as (_ & _ & _ & (L & _) & _). lia. }
  destruct (nth_error (f_echoes f) i) as [e|] eqn:Ee. 2:{ apply nth_error_None in Ee. destruct W as (_ & _ & _ & (_ & F) & _). apply nth_error_In in Ef. eapply Forall_forall in F; [|exact Ef]. destruct F as (_ & L & _). lia. }
  eexists. split; [eapply point_at; eauto|]. cbn [pt_tov]. destruct (ct_ok mode t6 i) as [_ X]; [tauto|tauto|exact Hi|]. rewrite X, H6. unfold manual_fire. lia.
Qed.
Print Assumptions C70_times_partial.
(** How far from the manual: up to 0.3 ms. *)
Theorem C70_error_partial : forall utc mode ref s u m, wf_scan s -> utc (s_date s) = Some u -> after_sync ref u (s_micros s) -> 344368 <= robot_t0 ref u (s_micros s) < 2 ^ 63 ->
  (s_returns s = 1 \/ s_returns s = 2)%N ->
  exists m' ps, hesai_process utc mode ref (Datagram (enc_scan s)) m = Ret (Done m') /\ m_payload m' = Some ps /\
  forall k i, (k < 8)%nat -> (i < 32)%nat -> exists p, nth_error ps (32 * k + i) = Some p /\
    let right := manual_fire (manual_start (s_returns s) (robot_t0 ref u (s_micros s)) (k + 1)) (i + 1) in
    if (s_returns s =? 1)%N then -51512 <= Z.of_N (pt_tov p) - right <= 298488 else -101512 <= Z.of_N (pt_tov p) - right <= 48488.
Proof.
  intros utc mode ref s u m W Hu Ha Hr H12. destruct (C70_times_partial utc mode ref s u m W Hu Ha Hr) as (m' & ps & E & Ep & _ & H). exists m', ps. split; [exact E|]. split; [exact Ep|].
  intros k i Hk Hi. destruct (H k i Hk Hi) as (p & Hp & Ht). exists p. split; [exact Hp|]. cbv zeta. rewrite Ht. unfold manual_fire, manual_start.
  destruct H12 as [-> | ->]; change (1 =? 1)%N with true; change (2 =? 1)%N with false; cbv iota; change (2 =? 2)%N with true; change (1 =? 2)%N with false; cbv iota; lia.
Qed.
Print Assumptions C70_error_partial.
Theorem C70_refuted : forall returns, (returns = 1 \/ returns = 2)%N -> exists s ref utc u m' ps p, wf_scan s /\ s_returns s = returns /\ utc (s_date s) = Some u /\ after_sync ref u (s_micros s) /\
  hesai_process utc Checked ref (Datagram (enc_scan s)) (Msg None TovNone) = Ret (Done m') /\ m_payload m' = Some ps /\ nth_error ps (32 * 5 + 10) = Some p /\
  Z.of_N (pt_tov p) <> manual_fire (manual_start (s_returns s) (robot_t0 ref u (s_micros s)) 6) 11.
Proof.
  intros r Hr. destruct (C70_times_partial ex_utc Checked ex_ref (ex_scan r) 1726586690000000000 (Msg None TovNone)) as (m' & ps & E & Ep & _ & H).
  { apply ex_scan_wf. lia. } { reflexivity. } { split; vm_compute; congruence. } { split; vm_compute; congruence. }
  destruct (H 5%nat 10%nat ltac:(lia) ltac:(lia)) as (p & Hp & Ht). exists (ex_scan r), ex_ref, ex_utc, 1726586690000000000, m', ps, p.
  split; [apply ex_scan_wf; lia|]. split; [reflexivity|]. split; [reflexivity|]. split; [split; vm_compute; congruence|]. split; [exact E|]. split; [exact Ep|]. split; [exact Hp|].
  rewrite Ht. destruct Hr as [-> | ->]; vm_compute; congruence.
Qed.
Print Assumptions C70_refuted.
Example C70_case : robot_t0 ex_ref 1726586690000000000 (s_micros (ex_scan 1)) = 15123456000 /\
  (exists ps t, hesai_process ex_utc Wrapping ex_ref (Datagram (enc_scan (ex_scan 1))) (Msg None TovNone) = Ret (Done (Msg (Some ps) t)) /\ nth_error ps 0 = Some (Point 15123410400 7 0 3 0)) /\
  manual_fire (manual_start 1 15123456000 1) 1 = 15123111912.
Proof. split; [reflexivity|]. split; [|reflexivity]. eexists _, _. split; vm_compute; reflexivity. Qed.

(** * C71: the time of validity of a cloud covers its points *)
Theorem C71_hesai_partial : forall utc mode ref s m m', wf_scan s -> hesai_process utc mode ref (Datagram (enc_scan s)) m = Ret (Done m') ->
  exists ps lo hi, m_payload m' = Some ps /\ m_tov m' = TovRange (TimeRange lo hi) /\ forall p, In p ps -> (lo <= pt_tov p <= hi)%N.
Proof.
  intros utc mode ref s m m' W E. destruct (process_done _ _ _ _ _ _ W E) as (ts & _ & T & ->). eexists _, _, _. split; [reflexivity|]. split; [reflexivity|].
  intros p Hp. destruct (blocks_for s W) as [F L]. unfold pts_of_blocks in Hp. apply in_flat_map in Hp as (b & Hb & Hp). unfold pts_of in Hp. apply in_map_iff in Hp as ([i c] & <- & Hi). cbn [pt_tov].
  apply in_combine_l in Hi. apply in_seq in Hi. eapply Forall_forall in F; [|exact Hb]. rewrite F in Hi.
  destruct (pk_blocks (packet_for s)) as [|b1 [|b2 bs]]; try discriminate L. destruct (bounds_of mode (nth 5 ts 0%N) (b1 :: b2 :: bs) (NONE_VALUE - 1, 0)%N) as [lo hi] eqn:Eb.
  cbn [fst snd]. eapply (bounds_cover utc mode _ b1 b2 bs); [exact Eb|lia].
Qed.
Print Assumptions C71_hesai_partial.
(** And no more than them. *)
Theorem C71_hesai_tight_partial : forall utc mode ref s u m m', wf_scan s -> utc (s_date s) = Some u -> after_sync ref u (s_micros s) -> 344368 <= robot_t0 ref u (s_micros s) < 2 ^ 63 ->
  hesai_process utc mode ref (Datagram (enc_scan s)) m = Ret (Done m') ->
  exists ps lo hi, m_payload m' = Some ps /\ m_tov m' = TovRange (TimeRange lo hi) /\ (exists p, In p ps /\ pt_tov p = lo) /\ (exists p, In p ps /\ pt_tov p = hi).
Proof.
  intros utc mode ref s u m m' W Hu Ha Hr E. destruct (C70_times_partial utc mode ref s u m W Hu Ha Hr) as (m1 & ps1 & E1 & Ep1 & _ & HT). rewrite E in E1. injection E1 as <-.
  destruct (process_done _ _ _ _ _ _ W E) as (ts & _ & T & Em). assert (Eps : ps1 = pts_of_blocks mode (nth 5 ts 0%N) (pk_blocks (packet_for s))) by (rewrite Em in Ep1; cbn [m_payload] in Ep1; congruence).
  set (t6 := nth 5 ts 0%N) in *. assert (HP : forall i, (i < 32)%nat -> exists p, In p ps1 /\ pt_tov p = ct mode t6 i /\ Z.of_N (pt_tov p) = manual_fire (manual_start (if (s_returns s =? 1)%N then 2 else 1) (robot_t0 ref u (s_micros s)) 6) (i + 1) - 1512).
  { intros i Hi. destruct (HT 0%nat i ltac:(lia) Hi) as (p & Hp & Hv). exists p. split; [apply nth_error_In in Hp; exact Hp|]. split; [|exact Hv].
    destruct (nth_error (s_firings s) 0) as [f|] eqn:Ef. 2:{ apply nth_error_None in Ef. destruct W as (_ & _ & _ & (L & _) & _). lia. }
    destruct (nth_error (f_echoes f) i) as [e|] eqn:Ee. 2:{ apply nth_error_None in Ee. destruct W as (_ & _ & _ & (_ & F) & _). apply nth_error_In in Ef. eapply Forall_forall in F; [|exact Ef]. destruct F as (_ & L & _). lia. }
    pose proof (point_at mode t6 s 0 i f e W Ef Ee) as X. rewrite <- Eps in X. rewrite X in Hp. injection Hp as <-. reflexivity. }
  destruct (blocks_for s W) as [F L]. destruct (pk_blocks (packet_for s)) as [|b1 [|b2 bs]] eqn:Ebs; try discriminate L.
  destruct (bounds_of mode t6 (b1 :: b2 :: bs) (NONE_VALUE - 1, 0)%N) as [lo hi] eqn:Eb. pose proof (bounds_cover utc mode _ b1 b2 bs lo hi Eb) as Hc.
  destruct (HP 0%nat ltac:(lia)) as (p0 & _ & H0 & V0).
  assert (V : (0 < ct mode t6 0 < NONE_VALUE - 1)%N).
  { rewrite <- H0. unfold manual_fire, manual_start in V0. unfold NONE_VALUE. change (2 ^ 63) with 9223372036854775808 in Hr. destruct (s_returns s =? 1)%N; [change (2 =? 2)%N with true in V0|change (1 =? 2)%N with false in V0]; cbv iota in V0; lia. }
  destruct (bounds_attained utc mode t6 b1 (b2 :: bs) lo hi Eb) as [(i1 & Hi1 & ->) (i2 & Hi2 & ->)]; [exists 0%nat; split; [lia|tauto]|exists 0%nat; split; [lia|tauto]|exact Hc|].
  exists ps1, (ct mode t6 i1), (ct mode t6 i2). split; [exact Ep1|]. split; [rewrite Em; reflexivity|].
  destruct (HP i1 Hi1) as (q1 & I1 & Q1 & _). destruct (HP i2 Hi2) as (q2 & I2 & Q2 & _). split; eauto.
Qed.
Print Assumptions C71_hesai_tight_partial.
(** The Livox source never sets it: the message has the one it had before. *)
Theorem C71_refuted : exists g (m : msg (list (N * lpoint))) ps lo hi, wf_shot g /\ livox_process (Datagram (enc_shot g)) m = Ret (Done (Msg (Some ps) (TovRange (TimeRange lo hi)))) /\
  forall p, In p ps -> ~ (lo <= fst p <= hi)%N.
Proof.
  destruct (C68_points ex_shot (Msg None (TovRange (TimeRange 5%N 7%N))) ex_shot_wf) as (m' & E & Ep). exists ex_shot, (Msg None (TovRange (TimeRange 5%N 7%N))),
    (map (fun p => (g_time ex_shot, LPoint (p_x p) (p_y p) (p_z p) (p_refl p))) (g_spots ex_shot)), 5%N, 7%N.
  split; [apply ex_shot_wf|]. split; [|].
  - assert (Et : m_tov m' = TovRange (TimeRange 5%N 7%N)).
    { unfold livox_process in E. destruct (parse_frame _) as [[f|]|]; cbn [obind] in E; try discriminate E. injection E as <-. reflexivity. }
    rewrite E. destruct m' as [pl tv]. cbn [m_payload m_tov] in Ep, Et. rewrite Ep, Et. reflexivity.
  - intros p Hp. apply in_map_iff in Hp as (q & <- & _). cbn [fst]. change (g_time ex_shot) with 123456789%N. lia.
Qed.
Print Assumptions C71_refuted.
Theorem C71_livox_partial : forall r (m m' : msg (list (N * lpoint))), livox_process r m = Ret (Done m') \/ livox_process r m = Ret (Failed m') -> m_tov m' = m_tov m.
Proof.
  intros r m m' H. destruct r as [d| |]; cbn in H; [|destruct H as [H|H]; try discriminate H; injection H as <-; reflexivity..].
  destruct (parse_frame _) as [[f|]|]; cbn in H; destruct H as [H|H]; try discriminate H; injection H as <-; reflexivity.
Qed.
Print Assumptions C71_livox_partial.
Example C71_case : exists ps, hesai_process ex_utc Checked ex_ref (Datagram (enc_scan (ex_scan 2))) (Msg None TovNone) = Ret (Done (Msg (Some ps) (TovRange (TimeRange 15123360400%N 15123407272%N)))).
Proof. eexists. vm_compute. reflexivity. Qed.

(** * C72: conversion of the lidar's date to robot time *)
Theorem C72_conversion_partial : forall utc mode ref s u, wf_scan s -> utc (s_date s) = Some u -> after_sync ref u (s_micros s) -> robot_t0 ref u (s_micros s) < 2 ^ 64 ->
  exists p t, parse_packet (enc_scan s) = Ret (Some p) /\ packet_tov utc mode ref p = Ret (Some t) /\ Z.of_N t = robot_t0 ref u (s_micros s).
Proof.
  intros utc mode ref s u W Hu Ha Hr. eexists _, _. split; [apply parse_scan, W|]. split; [apply (packet_tov_ok utc mode ref s u); auto|]. unfold after_sync in Ha. apply Z2N.id. unfold robot_t0. lia.
Qed.
Print Assumptions C72_conversion_partial.
(** Packets from before the synchronization: right without overflow checks. *)
Theorem C72_before_partial : forall utc ref s u, wf_scan s -> utc (s_date s) = Some u -> - 2 ^ 63 <= u + 1000 * Z.of_N (s_micros s) - fst ref < 0 ->
  (snd ref < 2 ^ 64)%N -> 0 <= robot_t0 ref u (s_micros s) ->
  exists p t, parse_packet (enc_scan s) = Ret (Some p) /\ packet_tov utc Wrapping ref p = Ret (Some t) /\ Z.of_N t = robot_t0 ref u (s_micros s).
Proof.
  intros utc ref s u W Hu Ha Hs Hr. eexists _, _. split; [apply parse_scan, W|]. unfold packet_tov, utc_tov. cbn [packet_for pk_date_time pk_timestamp]. rewrite Hu. cbv zeta.
  unfold robot_t0 in *. change (2 ^ 63) with 9223372036854775808 in *. change (2 ^ 64) with 18446744073709551616 in *. change (2 ^ 64)%N with 18446744073709551616%N in *.
  set (e := u + 1000 * Z.of_N (s_micros s) - fst ref) in *.
  destruct (Z.ltb_spec e (Z.opp 9223372036854775808)); [lia|]. destruct (Z.leb_spec 9223372036854775808 e); [lia|]. cbn [orb].
  assert (Em : e mod 18446744073709551616 = e + 18446744073709551616) by lia. rewrite Em.
  unfold add64. change (2 ^ 64)%N with 18446744073709551616%N.
  destruct (N.ltb_spec (snd ref + Z.to_N (e + 18446744073709551616)) 18446744073709551616); [lia|]. cbn [obind]. split; [reflexivity|].
  lia.
Qed.
Print Assumptions C72_before_partial.
(** They abort a build with overflow checks, at any robot time at which they could be right. *)
Theorem C72_refuted : exists utc s u, wf_scan s /\ utc (s_date s) = Some u /\ forall back now m, 0 < back <= Z.of_N now -> (now < 2 ^ 63)%N ->
  hesai_process utc Checked (u + 1000 * Z.of_N (s_micros s) + back, now) (Datagram (enc_scan s)) m = Panic.
Proof.
  exists ex_utc, (ex_scan 1), 1726586690000000000. split; [apply ex_scan_wf; lia|]. split; [reflexivity|]. intros back now m Hb Hn.
  unfold hesai_process. rewrite firstn_scan, parse_scan by (apply ex_scan_wf; lia). cbn [obind]. unfold block_ts, packet_tov, utc_tov. cbn [packet_for pk_date_time pk_timestamp].
  change (ex_utc (s_date (ex_scan 1))) with (Some 1726586690000000000). cbv iota zeta. cbn [fst snd]. change (2 ^ 63)%N with 9223372036854775808%N in Hn. change (2 ^ 63) with 9223372036854775808. change (2 ^ 64) with 18446744073709551616.
  set (us := 1000 * Z.of_N (s_micros (ex_scan 1))). replace (1726586690000000000 + us - (1726586690000000000 + us + back)) with (- back) by lia.
  destruct (Z.ltb_spec (- back) (Z.opp 9223372036854775808)); [lia|]. destruct (Z.leb_spec 9223372036854775808 (- back)); [lia|]. cbn [orb].
  assert (Em : (- back) mod 18446744073709551616 = 18446744073709551616 - back) by lia. rewrite Em. unfold add64. change (2 ^ 64)%N with 18446744073709551616%N.
  destruct (N.ltb_spec (now + Z.to_N (18446744073709551616 - back)) 18446744073709551616); [lia|]. reflexivity.
Qed.
Print Assumptions C72_refuted.
Example C72_case : packet_tov ex_utc Checked ex_ref (packet_for (ex_scan 1)) = Ret (Some 15123456000%N) /\
  packet_tov ex_utc Wrapping (1726586690124456000, 5000000000%N) (packet_for (ex_scan 1)) = Ret (Some 4999000000%N) /\
  packet_tov ex_utc Checked (1726586690124456000, 5000000000%N) (packet_for (ex_scan 1)) = Panic.
Proof. repeat split; vm_compute; reflexivity. Qed.
