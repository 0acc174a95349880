(** Lemmas on the lidar datagrams. *)
From Coq Require Import List Arith NArith ZArith Bool Lia.
From Verif Require Import Base CodecModel SourcesModel LidarModel LidarSpec.
Import ListNotations.
Local Open Scope N_scope.

(** ** Lists of records of the same size *)
Lemma nth_flat_map {A} (f : A -> list N) w (d0 : A) : forall l k r, Forall (fun x => length (f x) = w) l -> (k < length l)%nat -> (r < w)%nat ->
  forall rest, nth (w * k + r) (flat_map f l ++ rest) 0 = nth r (f (nth k l d0)) 0.
Proof.
  induction l as [|a l IH]; intros k r Hl Hk Hr rest; [cbn in Hk; lia|]. inversion Hl as [|? ? Ha Hl']; subst.
  cbn [flat_map]. rewrite <- app_assoc. destruct k as [|k].
  - rewrite Nat.mul_0_r. cbn [Nat.add nth]. apply app_nth1. lia.
  - rewrite app_nth2 by nia. replace (length (f a) * S k + r - length (f a))%nat with (length (f a) * k + r)%nat by nia.
    cbn [nth]. apply IH; auto. cbn in Hk. lia.
Qed.
Lemma flat_map_len {A} (f : A -> list N) w l : Forall (fun x => length (f x) = w) l -> length (flat_map f l) = (w * length l)%nat.
Proof. induction 1 as [|a l Ha Hl IH]; cbn; [lia|]. rewrite app_length, IH, Ha. lia. Qed.
Lemma map_seq_nth {A B} (g : A -> B) (d0 : A) : forall l f s, (forall i, (i < length l)%nat -> f (s + i)%nat = g (nth i l d0)) -> map f (seq s (length l)) = map g l.
Proof.
  induction l as [|a l IH]; intros f s H; [reflexivity|]. cbn [length seq map]. f_equal.
  - specialize (H 0%nat ltac:(cbn; lia)). rewrite Nat.add_0_r in H. exact H.
  - apply IH. intros i Hi. specialize (H (S i) ltac:(cbn; lia)). rewrite <- plus_n_Sm in H. exact H.
Qed.
(** A list of [n * w] bytes is made of [n] records of [w] bytes. *)
Lemma chunks {A} (f : A -> list N) w (P : A -> Prop) :
  (forall c, bytes w c -> exists x, P x /\ f x = c) ->
  forall n d, bytes (w * n) d -> exists l, length l = n /\ Forall P l /\ flat_map f l = d.
Proof.
  intros Hf. induction n as [|n IH]; intros d [L B].
  - exists []. repeat split; auto. destruct d; [reflexivity|]. rewrite Nat.mul_0_r in L. discriminate.
  - assert (L' : (w <= length d)%nat) by nia.
    destruct (Hf (firstn w d)) as (x & Px & Ex).
    { split; [rewrite firstn_length; lia|]. rewrite <- (firstn_skipn w d) in B. apply Forall_app in B. tauto. }
    destruct (IH (skipn w d)) as (l & L1 & P1 & E1).
    { split; [rewrite skipn_length; nia|]. rewrite <- (firstn_skipn w d) in B. apply Forall_app in B. tauto. }
    exists (x :: l). cbn. rewrite L1, Ex, E1, firstn_skipn. auto.
Qed.

(** ** Numbers *)
Lemma le16_inv a b : a < 256 -> b < 256 -> exists v, v < 65536 /\ le16 v = [a; b].
Proof. intros Ha Hb. exists (a + 256 * b). split; [lia|]. unfold le16. f_equal; [lia|f_equal; lia]. Qed.
Lemma le16_rt v : v < 65536 -> v mod 256 + 256 * (v / 256) = v. Proof. lia. Qed.
Lemma le32_inv a b c d : a < 256 -> b < 256 -> c < 256 -> d < 256 -> exists v, v < 4294967296 /\ le32 v = [a; b; c; d].
Proof.
  intros Ha Hb Hc Hd. exists ((a + 256 * b) + 65536 * (c + 256 * d)). split; [lia|]. unfold le32, le16. cbn [app].
  repeat (f_equal; try lia).
Qed.
Lemma le64_inv a b c d e f g h : a < 256 -> b < 256 -> c < 256 -> d < 256 -> e < 256 -> f < 256 -> g < 256 -> h < 256 ->
  exists v, v < 2 ^ 64 /\ le64 v = [a; b; c; d; e; f; g; h].
Proof.
  intros. destruct (le32_inv a b c d) as (u & Hu & Eu); auto. destruct (le32_inv e f g h) as (v & Hv & Ev); auto.
  exists (u + 4294967296 * v). change (2 ^ 64) with 18446744073709551616. split; [lia|]. unfold le64.
  replace ((u + 4294967296 * v) mod 4294967296) with u by lia. replace ((u + 4294967296 * v) / 4294967296) with v by lia.
  rewrite Eu, Ev. reflexivity.
Qed.
Lemma u16_rt v : v mod 256 + 256 * (v / 256) = v. Proof. lia. Qed.
Lemma two_compl_rt z : i32 z -> (let v := two_compl z in if v <? 2 ^ 31 then Z.of_N v else (Z.of_N v - 2 ^ 32)%Z) = z.
Proof.
  unfold i32, two_compl. intros H. cbv zeta. change (2 ^ 31) with 2147483648. change (2 ^ 32)%Z with 4294967296%Z. change (2 ^ 31)%Z with 2147483648%Z in *.
  destruct (Z.ltb_spec z 0).
  - destruct (N.ltb_spec (Z.to_N (z + 4294967296)) 2147483648); lia.
  - destruct (N.ltb_spec (Z.to_N z) 2147483648); lia.
Qed.
Lemma two_compl_lt z : i32 z -> two_compl z < 4294967296.
Proof. unfold i32, two_compl. change (2 ^ 31)%Z with 2147483648%Z. change (2 ^ 32)%Z with 4294967296%Z. intros H. destruct (Z.ltb_spec z 0); lia. Qed.
Lemma two_compl_inv v : v < 4294967296 -> exists z, i32 z /\ two_compl z = v.
Proof.
  intros H. exists (if (v <? 2147483648)%N then Z.of_N v else (Z.of_N v - 4294967296)%Z). unfold i32, two_compl.
  change (2 ^ 31)%Z with 2147483648%Z. change (2 ^ 32)%Z with 4294967296%Z.
  destruct (N.ltb_spec v 2147483648).
  - split; [lia|]. destruct (Z.ltb_spec (Z.of_N v) 0); lia.
  - split; [lia|]. destruct (Z.ltb_spec (Z.of_N v - 4294967296) 0); lia.
Qed.

(** ** Hesai *)
Definition d_echo := Echo 0 0 0.
Definition d_firing := Firing 0 [].
Lemma len_echo e : length (enc_echo e) = 4%nat. Proof. reflexivity. Qed.
Definition full (f : firing) : Prop := length (f_echoes f) = 32%nat.
Definition sized (s : scan) : Prop :=
  length (s_version s) = 4%nat /\ (length (s_firings s) = 8%nat /\ Forall full (s_firings s)) /\ length (s_reserved s) = 10%nat /\ length (s_date s) = 6%nat.
Lemma wf_sized s : wf_scan s -> sized s.
Proof.
  intros ((L1 & _) & _ & _ & (L2 & F) & (L3 & _) & _ & _ & (L4 & _) & _). unfold sized. repeat split; auto.
  eapply Forall_impl; [|exact F]. intros f (_ & L & _). exact L.
Qed.
Lemma len_firing f : full f -> length (enc_firing f) = 130%nat.
Proof. intros L. unfold full in L. unfold enc_firing. rewrite app_length, (flat_map_len _ 4) by (apply Forall_forall; intros; apply len_echo). rewrite L. reflexivity. Qed.
(** The packet a scan stands for. *)
Definition chan (e : echo) : channel := Channel (e_dist e) (e_refl e).
Definition packet_for (s : scan) : packet :=
  Packet 32 8 4 (s_returns s) 1 (map (fun f => Block (f_azimuth f) (map chan (f_echoes f))) (s_firings s)) (s_date s) (s_micros s).
Ltac len_of L := match type of L with length ?l = _ => repeat (destruct l as [|? l]; [discriminate L|]; cbn [length] in L; injection L as L); destruct l; [|discriminate L]; clear L end.

Lemma byte_skip n a d i : length a = n -> byte (a ++ d) (n + i) = byte d i.
Proof. intros <-. unfold byte. rewrite app_nth2 by lia. f_equal. lia. Qed.
Lemma firing_field rest s k r pre : length pre = 12%nat -> sized s -> (k < 8)%nat -> (r < 130)%nat ->
  byte (pre ++ flat_map enc_firing (s_firings s) ++ rest) (12 + (130 * k + r)) = nth r (enc_firing (nth k (s_firings s) d_firing)) 0.
Proof.
  intros Hp W Hk Hr. rewrite (byte_skip 12) by exact Hp. destruct W as (_ & (L & F) & _). unfold byte. apply nth_flat_map; [|lia|lia].
  eapply Forall_impl; [|exact F]. exact len_firing.
Qed.
Lemma echo_field f j r : full f -> (j < 32)%nat -> (r < 4)%nat -> nth (2 + (4 * j + r)) (enc_firing f) 0 = nth r (enc_echo (nth j (f_echoes f) d_echo)) 0.
Proof.
  intros L Hj Hr. unfold full in L. unfold enc_firing, le16. cbn [app]. change (2 + (4 * j + r))%nat with (S (S (4 * j + r))). cbn [nth].
  rewrite <- (app_nil_r (flat_map _ _)). apply nth_flat_map; [apply Forall_forall; intros; apply len_echo|lia|lia].
Qed.
Lemma block_for s k pre rest : length pre = 12%nat -> sized s -> (k < 8)%nat ->
  block_at (pre ++ flat_map enc_firing (s_firings s) ++ rest) k = (fun f => Block (f_azimuth f) (map chan (f_echoes f))) (nth k (s_firings s) d_firing).
Proof.
  intros Hp W Hk. unfold block_at. set (f := nth k (s_firings s) d_firing).
  assert (Wf : full f). { destruct W as (_ & (L & F) & _). eapply Forall_forall in F; [exact F|]. apply nth_In. lia. }
  assert (F : forall r, (r < 130)%nat -> byte (pre ++ flat_map enc_firing (s_firings s) ++ rest) (12 + 130 * k + r) = nth r (enc_firing f) 0).
  { intros r Hr. rewrite <- Nat.add_assoc. apply firing_field; auto. }
  f_equal.
  - unfold u16_at. rewrite (F 1%nat) by lia. specialize (F 0%nat). rewrite Nat.add_0_r in F. rewrite F by lia. unfold enc_firing, le16. cbn [app nth]. apply u16_rt.
  - assert (L : length (f_echoes f) = 32%nat) by exact Wf. replace (seq 0 32) with (seq 0 (length (f_echoes f))) by (rewrite L; reflexivity). apply (map_seq_nth _ d_echo). intros j Hj. rewrite Nat.add_0_l. rewrite L in Hj.
    assert (G : forall r, (r < 4)%nat -> byte (pre ++ flat_map enc_firing (s_firings s) ++ rest) (14 + 130 * k + 4 * j + r) = nth r (enc_echo (nth j (f_echoes f) d_echo)) 0).
    { intros r Hr. replace (14 + 130 * k + 4 * j + r)%nat with (12 + 130 * k + (2 + (4 * j + r)))%nat by lia. rewrite F by lia. apply echo_field; auto. }
    unfold chan. f_equal.
    + unfold u16_at. rewrite (G 1%nat) by lia. specialize (G 0%nat). rewrite Nat.add_0_r in G. rewrite G by lia.
      unfold enc_echo, le16. cbn [app nth]. apply u16_rt.
    + replace (16 + 130 * k + 4 * j)%nat with (14 + 130 * k + 4 * j + 2)%nat by lia. rewrite G by lia. reflexivity.
Qed.

Lemma len_scan s : sized s -> length (enc_scan s) = PACKET_SIZE.
Proof.
  intros (L1 & (L2 & F) & L3 & L4). unfold enc_scan, le32, le16. rewrite !app_length.
  rewrite (flat_map_len _ 130) by (eapply Forall_impl; [exact len_firing|exact F]). rewrite L1, L2, L3, L4. reflexivity.
Qed.
Lemma packet_of_scan s : sized s -> packet_of (enc_scan s) = packet_for s.
Proof.
  intros W. pose proof W as (L1 & (L2 & F) & L3 & L4).
  set (rest := s_reserved s ++ [s_mode s] ++ le16 (s_speed s) ++ s_date s ++ le32 (s_micros s) ++ [s_factory s]).
  set (pre := [0xEE; 0xFF] ++ s_version s ++ [32; 8; s_first s; 4; s_returns s; 1]).
  assert (Lp : length pre = 12%nat) by (unfold pre; rewrite !app_length, L1; reflexivity).
  assert (Lb : length (flat_map enc_firing (s_firings s)) = 1040%nat) by (rewrite (flat_map_len _ 130) by (eapply Forall_impl; [exact len_firing|exact F]); rewrite L2; reflexivity).
  replace (enc_scan s) with (pre ++ flat_map enc_firing (s_firings s) ++ rest) by (unfold pre, enc_scan, rest; rewrite <- !app_assoc; reflexivity).
  assert (Hd : forall i, byte (pre ++ flat_map enc_firing (s_firings s) ++ rest) (1052 + i) = byte rest i).
  { intros i. rewrite app_assoc. apply byte_skip. rewrite app_length, Lp, Lb. reflexivity. }
  assert (Hh : forall i, (i < 12)%nat -> byte (pre ++ flat_map enc_firing (s_firings s) ++ rest) i = byte pre i).
  { intros i Hi. unfold byte. apply app_nth1. lia. }
  unfold packet_of, packet_for.
  rewrite !Hh by lia. f_equal.
  1-5: unfold pre; destruct (s_version s) as [|v1 [|v2 [|v3 [|v4 [|]]]]]; try discriminate L1; reflexivity.
  - replace (seq 0 8) with (seq 0 (length (s_firings s))) by (rewrite L2; reflexivity).
    apply (map_seq_nth _ d_firing). intros k Hk. rewrite Nat.add_0_l. apply block_for; auto. lia.
  - transitivity (map (fun j => byte rest (13 + j)) (seq 0 6)).
    { apply map_ext. intros j. rewrite <- Hd. f_equal. }
    unfold rest, le16. destruct (s_reserved s) as [|r1 [|r2 [|r3 [|r4 [|r5 [|r6 [|r7 [|r8 [|r9 [|r10 [|]]]]]]]]]]]; try discriminate L3.
    destruct (s_date s) as [|t1 [|t2 [|t3 [|t4 [|t5 [|t6 [|]]]]]]]; try discriminate L4. reflexivity.
  - unfold u32_at, u16_at. change 1071%nat with (1052 + 19)%nat. rewrite <- !Nat.add_assoc, !Hd.
    unfold rest, le32, le16. destruct (s_reserved s) as [|r1 [|r2 [|r3 [|r4 [|r5 [|r6 [|r7 [|r8 [|r9 [|r10 [|]]]]]]]]]]]; try discriminate L3.
    destruct (s_date s) as [|t1 [|t2 [|t3 [|t4 [|t5 [|t6 [|]]]]]]]; try discriminate L4. unfold byte. cbn [app nth Nat.add]. lia.
Qed.
Lemma check_for s : wf_scan s -> check_invariants (packet_for s) = true.
Proof.
  intros (_ & _ & _ & (_ & F) & _). unfold check_invariants, packet_for. cbn [pk_laser_num pk_block_num pk_dis_unit pk_udp_seq pk_blocks N.eqb Pos.eqb andb].
  apply forallb_forall. intros b Hb. apply in_map_iff in Hb as (f & <- & Hf). eapply Forall_forall in F; [|exact Hf]. cbn. apply N.leb_le, F.
Qed.
Lemma parse_scan s : wf_scan s -> parse_packet (enc_scan s) = Ret (Some (packet_for s)).
Proof.
  intros W. pose proof (len_scan s (wf_sized s W)) as L. pose proof (packet_of_scan s (wf_sized s W)) as P. unfold enc_scan in *. cbn [app] in *. unfold parse_packet.
  cbn [N.eqb Pos.eqb negb orb]. rewrite L, Nat.ltb_irrefl, P. cbv zeta. rewrite check_for by auto. reflexivity.
Qed.
Lemma echo_inv c : bytes 4 c -> exists e, wf_echo e /\ enc_echo e = c.
Proof.
  intros [L B]. len_of L. repeat match goal with H : Forall _ (_ :: _) |- _ => inversion H; clear H; subst end.
  destruct (le16_inv n n0) as (v & Hv & Ev); auto. exists (Echo v n1 n2). unfold wf_echo, enc_echo. cbn [e_dist e_refl e_res]. rewrite Ev. auto.
Qed.
Definition wf_firing0 (f : firing) : Prop := f_azimuth f < 65536 /\ length (f_echoes f) = 32%nat /\ Forall wf_echo (f_echoes f).
Lemma firing_inv c : bytes 130 c -> exists f, wf_firing0 f /\ enc_firing f = c.
Proof.
  intros [L B]. destruct c as [|a [|b c]]; try discriminate L. inversion B as [|? ? Ha B1]; subst. inversion B1 as [|? ? Hb B2]; subst.
  destruct (le16_inv a b Ha Hb) as (v & Hv & Ev).
  destruct (chunks enc_echo 4 wf_echo echo_inv 32 c) as (l & L' & P & E').
  { split; auto. cbn [length] in L. change (4 * 32)%nat with 128%nat. injection L as L. exact L. }
  exists (Firing v l). unfold wf_firing0, enc_firing. cbn [f_azimuth f_echoes]. rewrite Ev, E'. auto.
Qed.

Lemma scan_inv c : bytes 1040 c -> exists l, length l = 8%nat /\ Forall wf_firing0 l /\ flat_map enc_firing l = c.
Proof. intros B. apply (chunks enc_firing 130 wf_firing0 firing_inv 8). exact B. Qed.
Lemma bytes_split n m d : bytes (n + m) d -> exists a b, d = a ++ b /\ bytes n a /\ bytes m b.
Proof.
  intros [L B]. exists (firstn n d), (skipn n d). rewrite <- (firstn_skipn n d) in B. apply Forall_app in B as [B1 B2].
  rewrite firstn_skipn. repeat split; auto; [rewrite firstn_length; lia|rewrite skipn_length; lia].
Qed.
Lemma parse_inv d p : Forall (fun b => b < 256) d -> parse_packet d = Ret (Some p) -> exists s, wf_scan s /\ enc_scan s = d /\ p = packet_for s.
Proof.
  intros B E. destruct d as [|b0 [|b1 d]]; try discriminate E. unfold parse_packet in E.
  destruct (N.eqb_spec b0 0xEE) as [->|]; [|discriminate E]. destruct (N.eqb_spec b1 0xFF) as [->|]; [|discriminate E]. cbn [negb orb] in E.
  destruct (Nat.ltb_spec (length (238 :: 255 :: d)) PACKET_SIZE) as [|L1]; [discriminate E|]. destruct (Nat.ltb_spec PACKET_SIZE (length (238 :: 255 :: d))) as [|L2]; [discriminate E|].
  assert (L : length (238 :: 255 :: d) = PACKET_SIZE) by lia. clear L1 L2.
  inversion B as [|? ? _ B1]; subst. inversion B1 as [|? ? _ B2]; subst. clear B1.
  assert (Bd : bytes (4 + (6 + (1040 + 24))) d) by (split; [injection L as L; exact L|exact B2]).
  apply bytes_split in Bd as (ver & d1 & -> & Bv & Bd). apply bytes_split in Bd as (hdr & d2 & -> & Bh & Bd). apply bytes_split in Bd as (bl & tl & -> & Bb & Bt).
  apply scan_inv in Bb as (fs & Lf & Ff & <-).
  assert (Bt' : bytes (10 + (1 + (2 + (6 + 5)))) tl) by exact Bt. clear Bt.
  apply bytes_split in Bt' as (res & t1 & -> & Br & Bt). apply bytes_split in Bt as (md & t2 & -> & Bm & Bt). apply bytes_split in Bt as (sp & t3 & -> & Bs & Bt).
  apply bytes_split in Bt as (dt & t4 & -> & Bdt & Bt). destruct Bm as [Lm Bm], Bs as [Ls Bs], Bt as [Lt Bt], Bh as [Lh Bh].
  destruct md as [|md [|]]; try discriminate Lm. destruct sp as [|s1 [|s2 [|]]]; try discriminate Ls. destruct t4 as [|u1 [|u2 [|u3 [|u4 [|u5 [|]]]]]]; try discriminate Lt.
  destruct hdr as [|h1 [|h2 [|h3 [|h4 [|h5 [|h6 [|]]]]]]]; try discriminate Lh.
  repeat match goal with H : Forall _ (_ :: _) |- _ => apply Forall_cons_iff in H; destruct H end.
  destruct (le16_inv s1 s2) as (spd & Hspd & Espd); auto. destruct (le32_inv u1 u2 u3 u4) as (us & Hus & Eus); auto.
  match type of E with context [packet_of ?D] => set (D0 := D) in * end. cbv zeta in E.
  destruct (check_invariants (packet_of D0)) eqn:C; [|discriminate E]. injection E as <-.
  pose proof C as C'. unfold check_invariants in C'. repeat (apply andb_true_iff in C'; destruct C' as [C' ?]).
  destruct Bv as [Lv Bv]. assert (Hd : h1 = 32 /\ h2 = 8 /\ h4 = 4 /\ h6 = 1).
  { clear C. subst D0. destruct ver as [|v1 [|v2 [|v3 [|v4 [|]]]]]; try discriminate Lv. cbn [pk_laser_num pk_block_num pk_dis_unit pk_udp_seq packet_of byte nth app] in *.
    repeat match goal with H : (_ =? _) = true |- _ => apply N.eqb_eq in H end. auto. }
  destruct Hd as (-> & -> & -> & ->).
  set (s := Scan ver h3 h5 fs res md spd dt us u5).
  assert (Es : enc_scan s = D0). { unfold enc_scan, s, D0. cbn [s_version s_first s_returns s_firings s_reserved s_mode s_speed s_date s_micros s_factory]. rewrite Espd, Eus. reflexivity. }
  assert (Ss : sized s). { unfold sized, s. cbn [s_version s_firings s_reserved s_date]. repeat split; auto; try apply Br; try apply Bdt. eapply Forall_impl; [|exact Ff]. intros f (_ & Lx & _). exact Lx. }
  rewrite <- Es in *. exists s. rewrite packet_of_scan in * by exact Ss. split; [|auto].
  unfold wf_scan, s. cbn [s_version s_first s_returns s_firings s_reserved s_mode s_speed s_date s_micros s_factory].
  assert (Fz : Forall wf_firing fs).
  { apply Forall_forall. intros f Hf. apply (proj1 (Forall_forall _ _) Ff) in Hf as Wf. destruct Wf as (Z1 & Z2 & Z3).
    unfold wf_firing. split; [|auto]. apply N.leb_le.
    match goal with H : forallb _ _ = true |- _ => pose proof (proj1 (forallb_forall _ _) H (Block (f_azimuth f) (map chan (f_echoes f)))) as Q end.
    apply Q. unfold packet_for, s. cbn [pk_blocks s_firings]. apply in_map_iff. eauto. }
  split; [split; auto|]. do 2 (split; [auto|]). split; [auto|]. split; [auto|]. auto 10.
Qed.
Lemma parse_total d : (2 <= length d)%nat -> exists r, parse_packet d = Ret r.
Proof.
  destruct d as [|b0 [|b1 d]]; cbn [length]; intros H; try lia. unfold parse_packet. cbv zeta.
  destruct (_ || _); [eauto|]. destruct (Nat.ltb _ _); [eauto|]. destruct (Nat.ltb _ _); eauto.
Qed.

(** ** Times *)
Section Times.
Context (utc : list N -> option Z) (mode : ovf_mode).
Local Open Scope Z_scope.
Lemma add64_ok a b : (a + b < 2 ^ 64)%N -> add64 mode a b = Ret (a + b)%N.
Proof. intros H. unfold add64. apply N.ltb_lt in H. rewrite H. reflexivity. Qed.
Lemma sub64_ok a b : (b <= a)%N -> sub64 mode a b = Ret (a - b)%N.
Proof. intros H. unfold sub64. apply N.leb_le in H. rewrite H. reflexivity. Qed.
Lemma packet_tov_ok ref s u : utc (s_date s) = Some u -> 0 <= u + 1000 * Z.of_N (s_micros s) - fst ref < 2 ^ 63 ->
  robot_t0 ref u (s_micros s) < 2 ^ 64 -> packet_tov utc mode ref (packet_for s) = Ret (Some (Z.to_N (robot_t0 ref u (s_micros s)))).
Proof.
  intros Hu He Hr. unfold packet_tov, utc_tov. cbn [packet_for pk_date_time pk_timestamp]. rewrite Hu. cbv zeta.
  change (2 ^ 63) with 9223372036854775808 in *. change (2 ^ 64) with 18446744073709551616 in *. unfold robot_t0 in *.
  destruct (Z.ltb_spec (u + 1000 * Z.of_N (s_micros s) - fst ref) (Z.opp 9223372036854775808)); [lia|].
  destruct (Z.leb_spec 9223372036854775808 (u + 1000 * Z.of_N (s_micros s) - fst ref)); [lia|]. cbn [orb].
  rewrite Z.mod_small by lia. rewrite add64_ok by (change (2 ^ 64)%N with 18446744073709551616%N; lia). cbn [obind]. rewrite Z2N.inj_add, N2Z.id by lia. reflexivity.
Qed.
Lemma starts_ok t : forall l, Forall (fun o => (o * 50000 <= t)%N) l -> starts mode t l = Ret (map (fun o => (t - o * 50000)%N) l).
Proof. induction 1 as [|o l Ho Hl IH]; [reflexivity|]. cbn [starts]. rewrite sub64_ok by auto. cbn [obind]. rewrite IH. reflexivity. Qed.
Lemma block_ts_ok ref p t0 : packet_tov utc mode ref p = Ret (Some t0) -> (350000 <= t0 + 5632 < 2 ^ 64)%N ->
  block_ts utc mode ref p = Ret (Some (map (fun o => (t0 + 5632 - o * 50000)%N) (offsets (is_dual_return p)))).
Proof.
  intros E H. unfold block_ts. rewrite E. cbn [obind]. rewrite add64_ok by lia. cbn [obind]. rewrite starts_ok; [reflexivity|].
  destruct (is_dual_return p); cbn [offsets]; repeat constructor; lia.
Qed.
(** In builds with overflow checks, whatever is returned obeys the formula. *)
Lemma add64_checked a b c : add64 Checked a b = Ret c -> c = (a + b)%N /\ (a + b < 2 ^ 64)%N.
Proof. unfold add64. destruct (N.ltb_spec (a + b) (2 ^ 64)); [|discriminate]. intros X. injection X as <-. auto. Qed.
Lemma sub64_checked a b c : sub64 Checked a b = Ret c -> (b <= a)%N /\ c = (a - b)%N.
Proof. unfold sub64. destruct (N.leb_spec b a); [|discriminate]. intros X. injection X as <-. auto. Qed.

(** The time of a channel. *)
Definition ct (t6 : N) (i : nat) : N := match channel_time mode t6 i with Ret t => t | Panic => 0%N end.
Definition bound (b : N * N) (t : N) : N * N := let '(lo, hi) := b in if (t <? lo)%N then (t, hi) else if (hi <? t)%N then (lo, t) else (lo, hi).
Definition pts_of (t6 az : N) (i : nat) (cs : list channel) : list point :=
  map (fun '(i, c) => Point (ct t6 i) az i (ch_distance c) (ch_reflectivity c)) (combine (seq i (length cs)) cs).
Definition times_ok (t6 : N) (n : nat) : Prop := forall i, (i < n)%nat -> exists t, channel_time mode t6 i = Ret t.
Lemma channels_loop_ok t6 az : forall cs i ps lo hi, (forall j, (i <= j < i + length cs)%nat -> exists t, channel_time mode t6 j = Ret t) ->
  channels_loop mode t6 az i cs (ps, lo, hi) = Ret (ps ++ pts_of t6 az i cs, fst (fold_left bound (map (ct t6) (seq i (length cs))) (lo, hi)), snd (fold_left bound (map (ct t6) (seq i (length cs))) (lo, hi))).
Proof.
  induction cs as [|c cs IH]; intros i ps lo hi H; cbn [channels_loop].
  - unfold pts_of. cbn. rewrite app_nil_r. reflexivity.
  - destruct (H i ltac:(cbn; lia)) as (t & Et). rewrite Et. cbn [obind]. assert (Ec : ct t6 i = t) by (unfold ct; rewrite Et; reflexivity).
    cbn [length seq map fold_left]. rewrite Ec. unfold pts_of. cbn [length seq combine map]. rewrite Ec.
    set (b' := bound (lo, hi) t). change (if (t <? lo)%N then (t, hi) else if (hi <? t)%N then (lo, t) else (lo, hi)) with b'.
    destruct b' as [lo' hi'] eqn:Eb. rewrite IH by (intros j Hj; apply H; cbn; lia). rewrite <- app_assoc. reflexivity.
Qed.
Lemma channels_loop_inv t6 az : forall cs i st st', channels_loop mode t6 az i cs st = Ret st' -> forall j, (i <= j < i + length cs)%nat -> exists t, channel_time mode t6 j = Ret t.
Proof.
  induction cs as [|c cs IH]; intros i [[ps lo] hi] st' E j Hj; cbn in Hj; [lia|]. cbn [channels_loop] in E.
  destruct (channel_time mode t6 i) as [t|] eqn:Et; [|discriminate E]. cbn [obind] in E.
  destruct (if (t <? lo)%N then _ else _) as [lo' hi'] in E. destruct (Nat.eq_dec j i) as [->|]; [eauto|]. eapply IH; [exact E|lia].
Qed.
Definition pts_of_blocks (t6 : N) (bs : list block) : list point := flat_map (fun b => pts_of t6 (bk_azimuth b) 0 (bk_channels b)) bs.
Definition bounds_of (t6 : N) (bs : list block) (b : N * N) : N * N := fold_left (fun b _ => fold_left bound (map (ct t6) (seq 0 32)) b) bs b.
Lemma blocks_loop_ok t6 : forall bs ps lo hi, times_ok t6 32 -> Forall (fun b => length (bk_channels b) = 32%nat) bs ->
  blocks_loop mode t6 bs (ps, lo, hi) = Ret (ps ++ pts_of_blocks t6 bs, fst (bounds_of t6 bs (lo, hi)), snd (bounds_of t6 bs (lo, hi))).
Proof.
  induction bs as [|b bs IH]; intros ps lo hi H Hb; cbn [blocks_loop].
  - cbn. rewrite app_nil_r. reflexivity.
  - inversion Hb as [|? ? L Hb']; subst. rewrite channels_loop_ok by (intros j Hj; apply H; lia). cbn [obind]. rewrite L.
    rewrite IH by auto. cbn [pts_of_blocks flat_map bounds_of fold_left]. rewrite <- app_assoc. rewrite <- surjective_pairing. reflexivity.
Qed.
Lemma blocks_loop_inv t6 b bs st st' : length (bk_channels b) = 32%nat -> blocks_loop mode t6 (b :: bs) st = Ret st' -> times_ok t6 32.
Proof.
  intros L E. cbn [blocks_loop] in E. destruct (channels_loop mode t6 (bk_azimuth b) 0 (bk_channels b) st) as [st1|] eqn:E1; [|discriminate E].
  intros i Hi. eapply channels_loop_inv; [exact E1|lia].
Qed.
(** The bounds found. *)
Lemma fold_bound : forall l lo hi lo' hi', fold_left bound l (lo, hi) = (lo', hi') ->
  (lo' <= lo)%N /\ (hi <= hi')%N /\ (forall t, In t l -> (lo' <= t)%N) /\ ((forall t, In t l -> (lo <= t)%N) -> forall t, In t l -> (t <= hi')%N) /\
  (lo' = lo \/ In lo' l) /\ (hi' = hi \/ In hi' l).
Proof.
  induction l as [|a l IH]; intros lo hi lo' hi' E.
  - injection E as <- <-. cbn. repeat split; auto; try lia; tauto.
  - cbn [fold_left] in E. destruct (bound (lo, hi) a) as [lo1 hi1] eqn:Eb. specialize (IH _ _ _ _ E) as (A & B & C & D & F & G).
    assert (X : (lo1 <= lo)%N /\ (lo1 <= a)%N /\ (hi <= hi1)%N /\ ((lo <= a)%N -> lo1 = lo /\ (a <= hi1)%N) /\ (lo1 = lo \/ lo1 = a) /\ (hi1 = hi \/ hi1 = a)).
    { unfold bound in Eb. destruct (N.ltb_spec a lo); [injection Eb as <- <-; repeat split; try tauto; lia|].
      destruct (N.ltb_spec hi a); injection Eb as <- <-; repeat split; try tauto; lia. }
    destruct X as (X1 & X2 & X3 & X4 & X5 & X6). repeat split.
    + lia. + lia.
    + intros t [<-|Ht]; [lia|auto].
    + intros Hl t [<-|Ht].
      * specialize (X4 (Hl a (or_introl eq_refl))). lia.
      * destruct (X4 (Hl a (or_introl eq_refl))) as [-> _]. apply D; auto. intros t' Ht'. apply Hl. right. exact Ht'.
    + destruct F as [->|F]; [destruct X5 as [->| ->]; cbn; auto|cbn; auto].
    + destruct G as [->|G]; [destruct X6 as [->| ->]; cbn; auto|cbn; auto].
Qed.
Lemma bounds_cover t6 b1 b2 bs lo hi : bounds_of t6 (b1 :: b2 :: bs) (NONE_VALUE - 1, 0)%N = (lo, hi) -> forall i, (i < 32)%nat -> (lo <= ct t6 i <= hi)%N.
Proof.
  intros E i Hi. cbn [bounds_of fold_left] in E. set (l := map (ct t6) (seq 0 32)) in *.
  destruct (fold_left bound l (NONE_VALUE - 1, 0)%N) as [lo1 hi1] eqn:E1. destruct (fold_left bound l (lo1, hi1)) as [lo2 hi2] eqn:E2.
  assert (Hin : In (ct t6 i) l) by (apply in_map, in_seq; lia).
  destruct (fold_bound _ _ _ _ _ E1) as (_ & _ & C1 & _). destruct (fold_bound _ _ _ _ _ E2) as (_ & _ & C2 & D2 & _).
  specialize (C2 _ Hin). specialize (D2 C1 _ Hin). fold (bounds_of t6 bs (lo2, hi2)) in E.
  assert (G : forall bs lo2 hi2, bounds_of t6 bs (lo2, hi2) = (lo, hi) -> (lo <= lo2)%N /\ (hi2 <= hi)%N).
  { clear - utc mode. induction bs as [|b bs IH]; intros lo2 hi2 E; cbn [bounds_of fold_left] in E; [injection E as <- <-; lia|].
    destruct (fold_left bound (map (ct t6) (seq 0 32)) (lo2, hi2)) as [lo3 hi3] eqn:E3. destruct (fold_bound _ _ _ _ _ E3) as (A & B & _). apply IH in E. lia. }
  apply G in E. lia.
Qed.
Lemma bounds_attained t6 b bs lo hi : bounds_of t6 (b :: bs) (NONE_VALUE - 1, 0)%N = (lo, hi) -> (exists i, (i < 32)%nat /\ (ct t6 i < NONE_VALUE - 1)%N) -> (exists i, (i < 32)%nat /\ (0 < ct t6 i)%N) ->
  (forall i, (i < 32)%nat -> (lo <= ct t6 i <= hi)%N) ->
  (exists i, (i < 32)%nat /\ lo = ct t6 i) /\ (exists i, (i < 32)%nat /\ hi = ct t6 i).
Proof.
  intros E (i0 & Hi0 & H0) (i1 & Hi1 & H1) Hc.
  assert (G : forall bs lo2 hi2, bounds_of t6 bs (lo2, hi2) = (lo, hi) -> (lo = lo2 \/ In lo (map (ct t6) (seq 0 32))) /\ (hi = hi2 \/ In hi (map (ct t6) (seq 0 32)))).
  { clear - utc mode. induction bs as [|b bs IH]; intros lo2 hi2 E; cbn [bounds_of fold_left] in E; [injection E as <- <-; auto|].
    destruct (fold_left bound (map (ct t6) (seq 0 32)) (lo2, hi2)) as [lo3 hi3] eqn:E3. destruct (fold_bound _ _ _ _ _ E3) as (_ & _ & _ & _ & A & B). apply IH in E.
    destruct E as [[->|E1] [->|E2]]; auto. }
  apply G in E as [A B]. pose proof (Hc i0 Hi0). pose proof (Hc i1 Hi1). split.
  - destruct A as [->|A]; [lia|]. apply in_map_iff in A as (i & <- & Hi). apply in_seq in Hi. exists i. split; [lia|auto].
  - destruct B as [->|B]; [lia|]. apply in_map_iff in B as (i & <- & Hi). apply in_seq in Hi. exists i. split; [lia|auto].
Qed.
Lemma ct_ok t6 i : (1512 <= t6)%N -> (t6 + 50000 < 2 ^ 64)%N -> (i < 32)%nat ->
  channel_time mode t6 i = Ret (Z.to_N (Z.of_N t6 + 1512 * (Z.of_nat i - 1) + 280)) /\ Z.of_N (ct t6 i) = Z.of_N t6 + 1512 * (Z.of_nat i - 1) + 280.
Proof.
  intros H1 H2 Hi. assert (E : channel_time mode t6 i = Ret (Z.to_N (Z.of_N t6 + 1512 * (Z.of_nat i - 1) + 280))).
  { unfold channel_time. destruct i as [|i].
    - rewrite sub64_ok by lia. cbn [obind]. rewrite add64_ok by lia. f_equal. lia.
    - rewrite add64_ok by lia. cbn [obind]. rewrite add64_ok by lia. f_equal. lia. }
  split; [exact E|]. unfold ct. rewrite E. lia.
Qed.
End Times.

Lemma nth_error_flat_map {A B} (f : A -> list B) w : forall l k r x, Forall (fun x => length (f x) = w) l -> nth_error l k = Some x -> (r < w)%nat ->
  nth_error (flat_map f l) (w * k + r) = nth_error (f x) r.
Proof.
  induction l as [|a l IH]; intros k r x Hl Hk Hr; [destruct k; discriminate Hk|]. inversion Hl as [|? ? Ha Hl']; subst. cbn [flat_map]. destruct k as [|k].
  - injection Hk as ->. rewrite Nat.mul_0_r. cbn [Nat.add]. apply nth_error_app1. lia.
  - rewrite nth_error_app2 by nia. replace (length (f a) * S k + r - length (f a))%nat with (length (f a) * k + r)%nat by nia. apply IH; auto.
Qed.
Lemma nth_error_combine_seq {B} : forall (l : list B) s i x, nth_error l i = Some x -> nth_error (combine (seq s (length l)) l) i = Some ((s + i)%nat, x).
Proof.
  induction l as [|b l IH]; intros s i x H; [destruct i; discriminate H|]. destruct i as [|i]; cbn [length seq combine nth_error] in *.
  - injection H as ->. rewrite Nat.add_0_r. reflexivity.
  - rewrite (IH (S s) i x H). rewrite <- plus_n_Sm. reflexivity.
Qed.

(** ** Livox *)
Definition d_spot := Spot 0 0 0 0 0.
Definition lp (p : spot) : lpoint := LPoint (p_x p) (p_y p) (p_z p) (p_refl p).
Definition frame_for (g : shot) : lframe := LFrame 2 (g_time g) (map lp (g_spots g)).
Lemma len_spot p : length (enc_spot p) = 14%nat. Proof. reflexivity. Qed.
Lemma len_shot g : length (g_spots g) = 96%nat -> length (enc_shot g) = FRAME_SIZE.
Proof.
  intros L. unfold enc_shot. rewrite !app_length, (flat_map_len _ 14) by (apply Forall_forall; intros; apply len_spot). rewrite L. reflexivity.
Qed.
Lemma u32_rt d i v : byte d i = (v mod 65536) mod 256 -> byte d (i + 1) = (v mod 65536) / 256 -> byte d (i + 2) = (v / 65536) mod 256 -> byte d (i + 2 + 1) = (v / 65536) / 256 -> v < 4294967296 -> u32_at d i = v.
Proof. intros A B C D H. unfold u32_at, u16_at. rewrite A, B, C, D. lia. Qed.
Lemma i32_rt d i z : byte d i = (two_compl z mod 65536) mod 256 -> byte d (i + 1) = (two_compl z mod 65536) / 256 -> byte d (i + 2) = (two_compl z / 65536) mod 256 -> byte d (i + 2 + 1) = (two_compl z / 65536) / 256 -> i32 z -> i32_at d i = z.
Proof. intros A B C D H. unfold i32_at. rewrite (u32_rt d i (two_compl z)) by auto using two_compl_lt. apply two_compl_rt. exact H. Qed.
Lemma frame_of_shot g : wf_shot g -> frame_of (enc_shot g) = frame_for g.
Proof.
  intros (_ & _ & _ & _ & _ & Ht & (L & F)). unfold frame_of, frame_for. f_equal.
  - unfold enc_shot, le32, le64, le16, u64_at. set (h := g_time g) in *.
    change (2 ^ 64) with 18446744073709551616 in Ht.
    rewrite (u32_rt _ 10 (h mod 4294967296)) by (try reflexivity; lia). rewrite (u32_rt _ (10 + 4) (h / 4294967296)) by (try reflexivity; lia). lia.
  - replace (seq 0 96) with (seq 0 (length (g_spots g))) by (rewrite L; reflexivity). apply (map_seq_nth _ d_spot). intros k Hk. rewrite Nat.add_0_l.
    set (p := nth k (g_spots g) d_spot).
    assert (W : wf_spot p) by (eapply Forall_forall in F; [exact F|apply nth_In; lia]). destruct W as (Wx & Wy & Wz & _ & _).
    assert (G : forall r, (r < 14)%nat -> byte (enc_shot g) (18 + 14 * k + r) = nth r (enc_spot p) 0).
    { intros r Hr. unfold enc_shot. rewrite !app_assoc. rewrite <- Nat.add_assoc, byte_skip by reflexivity. unfold byte. rewrite <- (app_nil_r (flat_map _ _)).
      apply nth_flat_map; [apply Forall_forall; intros; apply len_spot|lia|exact Hr]. }
    assert (G' : forall j r, (18 + 14 * k + r = j)%nat -> (r < 14)%nat -> byte (enc_shot g) j = nth r (enc_spot p) 0) by (intros j r <-; apply G).
    unfold lp. f_equal.
    + apply i32_rt; auto; [rewrite (G' _ 0%nat)|rewrite (G' _ 1%nat)|rewrite (G' _ 2%nat)|rewrite (G' _ 3%nat)]; try lia; reflexivity.
    + apply i32_rt; auto; [rewrite (G' _ 4%nat)|rewrite (G' _ 5%nat)|rewrite (G' _ 6%nat)|rewrite (G' _ 7%nat)]; try lia; reflexivity.
    + apply i32_rt; auto; [rewrite (G' _ 8%nat)|rewrite (G' _ 9%nat)|rewrite (G' _ 10%nat)|rewrite (G' _ 11%nat)]; try lia; reflexivity.
    + rewrite (G' _ 12%nat) by lia. reflexivity.
Qed.
Lemma parse_shot g : wf_shot g -> parse_frame (enc_shot g) = Ret (Some (frame_for g)).
Proof.
  intros W. pose proof (len_shot g) as L. pose proof (frame_of_shot g W) as P. destruct W as (_ & _ & _ & _ & _ & _ & (Lp & _)). specialize (L Lp).
  unfold enc_shot in *. cbn [app] in *. unfold parse_frame. cbn [N.eqb Pos.eqb negb]. rewrite L, Nat.ltb_irrefl, P. reflexivity.
Qed.
Lemma spot_inv c : bytes 14 c -> exists p, wf_spot p /\ enc_spot p = c.
Proof.
  intros [L B]. destruct c as [|a1 [|a2 [|a3 [|a4 [|b1 [|b2 [|b3 [|b4 [|c1 [|c2 [|c3 [|c4 [|r [|t [|]]]]]]]]]]]]]]]; try discriminate L.
  repeat match goal with H : Forall _ (_ :: _) |- _ => apply Forall_cons_iff in H; destruct H end.
  destruct (le32_inv a1 a2 a3 a4) as (x & Hx & Ex); auto. destruct (le32_inv b1 b2 b3 b4) as (y & Hy & Ey); auto. destruct (le32_inv c1 c2 c3 c4) as (z & Hz & Ez); auto.
  destruct (two_compl_inv x Hx) as (zx & Ix & <-). destruct (two_compl_inv y Hy) as (zy & Iy & <-). destruct (two_compl_inv z Hz) as (zz & Iz & <-).
  exists (Spot zx zy zz r t). unfold wf_spot, enc_spot. cbn [p_x p_y p_z p_refl p_tag]. rewrite Ex, Ey, Ez. auto 10.
Qed.
Lemma parse_frame_inv d f : Forall (fun b => b < 256) d -> parse_frame d = Ret (Some f) -> exists g, wf_shot g /\ enc_shot g = d /\ f = frame_for g.
Proof.
  intros B E. destruct d as [|b0 d]; [discriminate E|]. pose proof E as E0. unfold parse_frame in E.
  destruct (N.eqb_spec b0 5) as [->|]; [|discriminate E]. cbn [negb] in E.
  destruct (Nat.ltb_spec (length (5 :: d)) FRAME_SIZE) as [|L1]; [discriminate E|]. destruct (Nat.ltb_spec FRAME_SIZE (length (5 :: d))) as [|L2]; [discriminate E|].
  assert (L : length (5 :: d) = FRAME_SIZE) by lia. clear L1 L2. cbv zeta in E.
  destruct (N.eqb_spec (lf_data_type (frame_of (5 :: d))) 2) as [C|]; [|discriminate E]. clear E.
  apply Forall_cons_iff in B as [_ B].
  assert (Bd : bytes (17 + 14 * 96) d) by (split; [injection L as L; exact L|exact B]).
  apply bytes_split in Bd as (h & ps & -> & [Lh Bh] & Bp). apply (chunks enc_spot 14 wf_spot spot_inv) in Bp as (l & Ll & Fl & <-).
  destruct h as [|h1 [|h2 [|h3 [|h4 [|h5 [|h6 [|h7 [|h8 [|h9 [|t1 [|t2 [|t3 [|t4 [|t5 [|t6 [|t7 [|t8 [|]]]]]]]]]]]]]]]]]]; try discriminate Lh.
  repeat match goal with H : Forall _ (_ :: _) |- _ => apply Forall_cons_iff in H; destruct H end.
  destruct (le32_inv h4 h5 h6 h7) as (st & Hst & Est); auto. destruct (le64_inv t1 t2 t3 t4 t5 t6 t7 t8) as (ts & Hts & Ets); auto.
  cbn in C. subst h9.
  set (g := Shot h1 h2 h3 st h8 ts l). assert (W : wf_shot g) by (unfold wf_shot, g; cbn [g_slot g_id g_res g_status g_kind g_time g_spots]; auto 10).
  assert (Eg : enc_shot g = (5 :: [h1; h2; h3; h4; h5; h6; h7; h8; 2; t1; t2; t3; t4; t5; t6; t7; t8] ++ flat_map enc_spot l)).
  { unfold enc_shot, g. cbn [g_slot g_id g_res g_status g_kind g_time g_spots]. rewrite Est, Ets. reflexivity. }
  exists g. split; [exact W|]. split; [exact Eg|]. rewrite <- Eg in E0. rewrite parse_shot in E0 by exact W. injection E0 as <-. reflexivity.
Qed.
