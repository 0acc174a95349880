(** C163: the readings of servos. *)
From Coq Require Import List Arith NArith ZArith Bool Reals Psatz SpecFloat Lia.
From Flocq Require Import Core BinarySingleNaN.
From Verif Require Import Base FloatModel FloatFacts PayloadModel ServoModel ServoProps ServoReadModel SimFloat.
Import ListNotations.
Local Open Scope N_scope.

(** *** Specification *)
(** What a servo knows about itself; positions in thousandths of 240 degrees, voltages in
    millivolts, as in the protocol document. *)
Record servo := Servo { v_pos : Z; v_mv : N; v_temp : N; v_low : Z; v_high : Z }.
Definition sensible (s : servo) : Prop :=
  (-32768 <= v_pos s < 32768)%Z /\ v_mv s < 65536 /\ v_temp s < 256 /\ (-32768 <= v_low s < 32768)%Z /\ (-32768 <= v_high s < 32768)%Z.
Definition two_bytes (z : Z) : list N := [Z.to_N (z mod 256); Z.to_N (z / 256 mod 256)].
(** The data of its answer to what it is asked. *)
Definition answer_data (a : ask) (s : servo) : list N :=
  match a with
  | Reassign _ => []
  | AskPosition => two_bytes (v_pos s)
  | AskVoltage => two_bytes (Z.of_N (v_mv s))
  | AskTemperature => [v_temp s]
  | AskLimits => two_bytes (v_low s) ++ two_bytes (v_high s)
  end.
(** An angle in degrees as the number closest to it among those the type has, and so within
    1/4096 of a degree. *)
Definition angle_ok (raw : Z) (x : f32) : Prop :=
  fin x /\ (val x = rn (IZR raw * 240 / 1000) /\ Rabs (val x - IZR raw * 240 / 1000) <= / 4096)%R.
Definition voltage_ok (mv : N) (x : f32) : Prop :=
  fin x /\ (val x = rn (IZR (Z.of_N mv) / 1000) /\ Rabs (val x - IZR (Z.of_N mv) / 1000) <= / 262144)%R.
(** A reading that tells what the servo knows. *)
Definition tells (a : ask) (s : servo) (r : reading + io_error) : Prop :=
  match a, r with
  | Reassign _, inl Done => True
  | AskPosition, inl (Degrees x) => angle_ok (v_pos s) x
  | AskVoltage, inl (Volts x) => voltage_ok (v_mv s) x
  | AskTemperature, inl (Celsius t) => t = v_temp s
  | AskLimits, inl (Limits l h) => angle_ok (v_low s) l /\ angle_ok (v_high s) h
  | _, _ => False
  end.
(** The numbers of the protocol document. *)
Definition code (a : ask) : N :=
  match a with Reassign _ => 13 | AskPosition => 28 | AskVoltage => 27 | AskTemperature => 26 | AskLimits => 21 end.
(** A request with the servo it is meant for and the frame of the answer. *)
Record asked := Asked { q_id : N; q_ask : ask; q_servo : servo; q_frame : list N }.
Definition answers (q : asked) : Prop :=
  byte (q_id q) /\ sensible (q_servo q) /\ frame (q_id q) (code (q_ask q)) (answer_data (q_ask q) (q_servo q)) (q_frame q).

(** *** Lemmas *)
Local Open Scope R_scope.
Lemma rn_whole z : (Z.abs z <= 2 ^ 24)%Z -> rn (IZR z) = IZR z.
Proof.
  intros H. apply round_generic; [apply valid_rnd_N|].
  destruct (Z.eq_dec (Z.abs z) (2 ^ 24)) as [E|E].
  - destruct (Z.abs_eq_or_opp z) as [A|A]; rewrite A in E.
    + rewrite E. change (IZR (2 ^ 24)) with (bpow radix2 24). apply generic_format_bpow. unfold SpecFloat.fexp, SpecFloat.emin. lia.
    + replace z with (- 2 ^ 24)%Z by lia. rewrite opp_IZR. apply generic_format_opp. change (IZR (2 ^ 24)) with (bpow radix2 24). apply generic_format_bpow. unfold SpecFloat.fexp, SpecFloat.emin. lia.
  - replace (IZR z) with (F2R (Float radix2 z 0)) by (unfold F2R; cbn; lra).
    apply generic_format_F2R. intros Nz. cbn [Defs.Fexp Defs.Fnum]. unfold cexp.
    assert (M : (mag radix2 (F2R (Float radix2 z 0)) <= 24)%Z).
    { apply mag_le_bpow; [unfold F2R; cbn; rewrite Rmult_1_r; apply IZR_neq; exact Nz|]. unfold F2R. cbn [Defs.Fexp Defs.Fnum]. rewrite Rmult_1_r, <- abs_IZR. change (bpow radix2 24) with (IZR (2 ^ 24)). apply IZR_lt. lia. }
    unfold SpecFloat.fexp, SpecFloat.emin. lia.
Qed.
Lemma of_z_real z : (Z.abs z <= 2 ^ 24)%Z -> valid (f32_of_z z) /\ fin (f32_of_z z) /\ val (f32_of_z z) = IZR z.
Proof.
  intros H. unfold f32_of_z. rewrite binary_normalize_equiv. split; [apply valid_b|].
  pose proof (binary_normalize_correct 24 128 prec_ok emax_ok mode_NE z 0 false) as C. cbv zeta in C.
  assert (E : F2R (Float radix2 z 0) = IZR z) by (unfold F2R; cbn; lra).
  assert (R : rn (IZR z) = IZR z) by (apply rn_whole; exact H).
  rewrite E in C. change (round radix2 (SpecFloat.fexp 24 128) (round_mode mode_NE) (IZR z)) with (rn (IZR z)) in C. rewrite R in C.
  rewrite Rlt_bool_true in C.
  - destruct C as (V & F & _). split; [unfold fin; rewrite is_finite_SF_B2SF; exact F|rewrite val_b; exact V].
  - apply Rle_lt_trans with (bpow radix2 24); [|apply bpow_lt; lia]. rewrite <- abs_IZR. change (bpow radix2 24) with (IZR (2 ^ 24)). apply IZR_le. exact H.
Qed.
Lemma f32_whole n : (n <= 16777216)%N -> valid (f32_of n) /\ fin (f32_of n) /\ val (f32_of n) = IZR (Z.of_N n).
Proof. intros H. apply (of_z_real (Z.of_N n)). change (2 ^ 24)%Z with 16777216%Z. lia. Qed.
Lemma degrees_ok raw : (-32768 <= raw < 32768)%Z -> angle_ok raw (degrees raw).
Proof.
  intros H. unfold degrees.
  destruct (of_z_real raw ltac:(lia)) as (V1 & F1 & E1). destruct (f32_whole 240 ltac:(lia)) as (V2 & F2 & E2). destruct (f32_whole 1000 ltac:(lia)) as (V3 & F3 & E3).
  cbn [Z.of_N] in E2, E3.
  assert (P : rn (val (f32_of_z raw) * val (f32_of 240)) = IZR raw * 240).
  { rewrite E1, E2, <- mult_IZR. apply rn_whole. lia. }
  assert (A : Rabs (IZR raw * 240) <= bpow radix2 23).
  { change 240 with (IZR 240). rewrite <- mult_IZR, <- abs_IZR. change (bpow radix2 23) with (IZR (2 ^ 23)). apply IZR_le. lia. }
  destruct (fmul_real _ _ V1 V2 F1 F2) as (F4 & E4). { rewrite P. apply Rle_lt_trans with (bpow radix2 23); [exact A|apply bpow_big; lia]. }
  rewrite P in E4. pose proof (fmul_valid _ _ V1 V2) as V4.
  assert (B : Rabs (IZR raw * 240 / 1000) < bpow radix2 13).
  { unfold Rdiv. rewrite Rabs_mult, (Rabs_pos_eq (/ 1000)) by lra. change 240 with (IZR 240). rewrite <- mult_IZR, <- abs_IZR. change (bpow radix2 13) with 8192.
    assert (IZR (Z.abs (raw * 240)) <= 7864320) by (apply IZR_le; lia). lra. }
  destruct (fdiv_real _ _ V4 V3 F4 F3) as (F5 & E5).
  { rewrite E3. lra. } { rewrite E3, E4. apply small_big with 13%Z; [lia|lra]. }
  rewrite E3, E4 in E5. split; [exact F5|]. split; [exact E5|]. rewrite E5.
  eapply Rle_trans; [apply (rn_near 13); [lia|exact B]|]. change (bpow radix2 (13 - 25)) with (/ 4096). lra.
Qed.
Lemma volts_ok mv : (mv < 65536)%N -> voltage_ok mv (volts mv).
Proof.
  intros H. unfold volts.
  destruct (f32_whole mv ltac:(lia)) as (V1 & F1 & E1). destruct (f32_whole 1000 ltac:(lia)) as (V3 & F3 & E3). cbn [Z.of_N] in E3.
  assert (B : Rabs (IZR (Z.of_N mv) / 1000) < bpow radix2 7).
  { unfold Rdiv. rewrite Rabs_mult, (Rabs_pos_eq (/ 1000)), <- abs_IZR by lra. change (bpow radix2 7) with 128.
    assert (IZR (Z.abs (Z.of_N mv)) <= 65536) by (apply IZR_le; lia). lra. }
  destruct (fdiv_real _ _ V1 V3 F1 F3) as (F5 & E5).
  { rewrite E3. lra. } { rewrite E3, E1. apply small_big with 7%Z; [lia|lra]. }
  rewrite E3, E1 in E5. split; [exact F5|]. split; [exact E5|]. rewrite E5.
  eapply Rle_trans; [apply (rn_near 7); [lia|exact B]|]. change (bpow radix2 (7 - 25)) with (/ 262144). lra.
Qed.
Local Close Scope R_scope.
Lemma two_bytes_i16 z : (-32768 <= z < 32768)%Z ->
  (let u := Z.of_N (Z.to_N (z mod 256)) + 256 * Z.of_N (Z.to_N (z / 256 mod 256)) in if u <? 32768 then u else u - 65536)%Z = z.
Proof. intros H. cbv zeta. rewrite !Z2N.id by (apply Z.mod_pos_bound; lia). destruct (Z.ltb_spec (z mod 256 + 256 * (z / 256 mod 256)) 32768); lia. Qed.
Lemma two_bytes_u16 v : v < 65536 -> Z.to_N (Z.of_N v mod 256) + 256 * Z.to_N (Z.of_N v / 256 mod 256) = v.
Proof. intros H. lia. Qed.
Lemma reading_tells a s : sensible s -> exists x, reading_of a (answer_data a s) = Ret x /\ tells a s (inl x).
Proof.
  intros (H1 & H2 & H3 & H4 & H5). destruct a; cbn [reading_of answer_data two_bytes app get_i16 nth_error obind].
  - exists Done. split; [reflexivity|exact I].
  - rewrite two_bytes_i16 by exact H1. eexists. split; [reflexivity|]. apply degrees_ok. exact H1.
  - rewrite two_bytes_u16 by exact H2. eexists. split; [reflexivity|]. apply volts_ok. exact H2.
  - eexists. split; reflexivity.
  - cbv zeta. pose proof (two_bytes_i16 _ H4) as E4. pose proof (two_bytes_i16 _ H5) as E5. cbv zeta in E4, E5. rewrite E4, E5. eexists. split; [reflexivity|]. split; apply degrees_ok; assumption.
Qed.
Lemma ask_sent id a : exists l, send_packet id (ask_command a) (ask_data a) = Ret l.
Proof. destruct a; cbn; eexists; reflexivity. Qed.
Lemma answer_short a s : N.of_nat (length (answer_data a s)) <= 252.
Proof. destruct a; cbn; lia. Qed.
(** The reader takes the first whole frame that arrived, whoever sent it and whatever was asked. *)
Lemma read_first id a id' command' data f port arriving rest : N.of_nat (length data) <= 252 -> frame id' command' data f -> port ++ arriving = f ++ rest ->
  exists sent, servo_read id a port arriving = (let! x := reading_of a data in Ret (inl x, sent, rest)).
Proof.
  intros L (chk & -> & B & Hs) E. unfold servo_read. destruct (ask_sent id a) as (l & ->). exists l. cbn [obind]. rewrite E, <- !app_assoc.
  rewrite read_frame by exact L. rewrite checksum_sum, sum_app. cbn [sum fold_right] in *. fold (sum data) in *.
  match goal with |- context [?a =? chk] => destruct (N.eqb_spec a chk) as [_|Ne] end; cbn [obind]; [reflexivity|]. exfalso. apply Ne. unfold byte in B. lia.
Qed.

(** A reading with a whole frame of an answer first in the port. *)
Lemma read_asked id a g port arriving rest : answers g -> q_ask g = a -> port ++ arriving = q_frame g ++ rest ->
  exists sent x, servo_read id a port arriving = Ret (inl x, sent, rest) /\ tells a (q_servo g) (inl x).
Proof.
  intros (B & Se & Fr) <- E. destruct (read_first id (q_ask g) _ _ _ _ port arriving rest (answer_short _ _) Fr E) as (sent & R).
  destruct (reading_tells (q_ask g) (q_servo g) Se) as (y & Ey & T). rewrite Ey in R. exists sent, y. auto.
Qed.
Definition prompt (q : asked) : N * ask * list N := (q_id q, q_ask q, q_frame q).
(** With the answer to an earlier request still in the port. *)
Lemma session_behind : forall qs p, Forall answers (p :: qs) -> Forall (fun q => q_ask q = q_ask p) qs -> exists rs,
  servo_session (map prompt qs) (q_frame p) = Ret (rs, q_frame (last qs p)) /\
  Forall2 (fun g r => tells (q_ask p) (q_servo g) r) (firstn (length qs) (p :: qs)) rs.
Proof.
  induction qs as [|q qs IH]; intros p H A; [exists []; split; [reflexivity|constructor]|].
  apply Forall_cons_iff in H as [Hp H]. apply Forall_cons_iff in A as [Aq A].
  destruct (read_asked (q_id q) (q_ask q) p (q_frame p) (q_frame q) (q_frame q) Hp (eq_sym Aq) eq_refl) as (sent & x & R & T).
  destruct (IH q H) as (rs & E & F). { rewrite Aq. exact A. }
  exists (inl x :: rs). cbn [map prompt servo_session]. rewrite R. cbn [obind]. fold prompt. rewrite E. cbn [obind]. split.
  - do 2 f_equal. clear. destruct qs as [|a qs]; [reflexivity|]. change (last (q :: a :: qs) p) with (last (a :: qs) p). f_equal. generalize a. induction qs as [|b qs IH]; intros c; [reflexivity|]. exact (IH b).
  - cbn [length firstn]. rewrite Aq in F, T. constructor; assumption.
Qed.

(** *** Theorems *)
(** When every servo answers each request before the next one is made, every reading tells what
    the servo it was addressed to knows, and no byte is left in the port. *)
Theorem C163_partial : forall qs, Forall answers qs -> exists rs,
  servo_session (map prompt qs) [] = Ret (rs, []) /\ Forall2 (fun q r => tells (q_ask q) (q_servo q) r) qs rs.
Proof.
  induction qs as [|q qs IH]; intros H; [exists []; split; [reflexivity|constructor]|].
  apply Forall_cons_iff in H as [Hq H]. destruct (IH H) as (rs & E & F).
  destruct (read_asked (q_id q) (q_ask q) q [] (q_frame q) [] Hq eq_refl) as (sent & x & R & T); [rewrite app_nil_r; reflexivity|].
  exists (inl x :: rs). cbn [map prompt servo_session]. rewrite R. cbn [obind]. fold prompt. rewrite E. split; [reflexivity|]. constructor; assumption.
Qed.
Print Assumptions C163_partial.
Definition s1 := Servo (-125) 11100 36 0 1000.
Definition s2 := Servo 500 7400 41 (-3) 999.
Example C163_case : Forall answers [Asked 1 AskPosition s1 [0x55; 0x55; 1; 5; 28; 131; 255; 91]; Asked 2 AskTemperature s2 [0x55; 0x55; 2; 4; 26; 41; 182]] /\
  match servo_session [(1, AskPosition, [0x55; 0x55; 1; 5; 28; 131; 255; 91]); (2, AskTemperature, [0x55; 0x55; 2; 4; 26; 41; 182])] [] with
  | Ret ([inl (Degrees x); inl (Celsius t)], []) => to_bits x = 0xc1f00000 /\ t = 41 | _ => False end.
Proof.
  split; [|vm_compute; split; reflexivity].
  repeat constructor; cbn; try lia; eexists; (split; [reflexivity|split; reflexivity]).
Qed.

(** What is sent is one frame for the servo asked, whatever arrives. *)
Theorem C163_sent_partial : forall id a port arriving r sent left, byte id -> (forall n, a = Reassign n -> byte n) ->
  servo_read id a port arriving = Ret (r, sent, left) -> frame id (code a) (match a with Reassign n => [n] | _ => [] end) sent.
Proof.
  intros id a port arriving r sent left B Bn H. unfold servo_read in H.
  assert (X : exists chk, send_packet id (ask_command a) (ask_data a) = Ret ([0x55; 0x55; id; N.of_nat (length (match a with Reassign n => [n] | _ => [] end)) + 3; code a] ++ (match a with Reassign n => [n] | _ => [] end) ++ [chk]) /\
    chk = checksum ([id; N.of_nat (length (match a with Reassign n => [n] | _ => [] end)) + 3; code a] ++ match a with Reassign n => [n] | _ => [] end))
    by (destruct a; eexists; split; reflexivity).
  destruct X as (chk & E & C). rewrite E in H. cbn [obind] in H.
  assert (sent = [0x55; 0x55; id; N.of_nat (length (match a with Reassign n => [n] | _ => [] end)) + 3; code a] ++ (match a with Reassign n => [n] | _ => [] end) ++ [chk]) as ->.
  { destruct (read_response (port ++ arriving)) as [[[[[i c] d]|e] p]|]; cbn [obind] in H; try discriminate; [destruct (reading_of a d); cbn [obind] in H; try discriminate|]; inversion H; reflexivity. }
  exists chk. split; [reflexivity|]. subst chk. rewrite checksum_sum, sum_app. unfold byte. cbn [sum fold_right].
  lia.
Qed.
Print Assumptions C163_sent_partial.
Example C163_sent_case : servo_read 7 (Reassign 9) [] [] = Ret (inr UnexpectedEof, [0x55; 0x55; 7; 4; 13; 9; 222], []).
Proof. reflexivity. Qed.

(** After one answer that came too late, every later reading is the one the servo asked before
    gave: nothing in the answer is compared with the request. The port stays one answer behind. *)
Theorem C163_late_refuted : forall q q' qs, Forall answers (q :: q' :: qs) -> Forall (fun p => q_ask p = q_ask q) (q' :: qs) -> exists rs,
  servo_session ((q_id q, q_ask q, []) :: (q_id q', q_ask q', q_frame q ++ q_frame q') :: map prompt qs) []
    = Ret (inr UnexpectedEof :: rs, q_frame (last (q' :: qs) q)) /\
  Forall2 (fun p r => tells (q_ask q) (q_servo p) r) (firstn (length (q' :: qs)) (q :: q' :: qs)) rs.
Proof.
  intros q q' qs H A.
  destruct (session_behind (q' :: qs) q H A) as (rs & E & F). exists rs. split; [|exact F].
  cbn [map] in E. unfold prompt at 1 in E. cbn [servo_session] in *.
  assert (R0 : exists sent, servo_read (q_id q) (q_ask q) [] [] = Ret (inr UnexpectedEof, sent, [])).
  { unfold servo_read. destruct (ask_sent (q_id q) (q_ask q)) as (l & ->). exists l. reflexivity. }
  destruct R0 as (sent & ->). cbn [obind].
  change (servo_read (q_id q') (q_ask q') [] (q_frame q ++ q_frame q')) with (servo_read (q_id q') (q_ask q') (q_frame q) (q_frame q')).
  rewrite E. reflexivity.
Qed.
Print Assumptions C163_late_refuted.
Definition f1 : list N := [0x55; 0x55; 1; 5; 28; 131; 255; 91].
Definition f2 : list N := [0x55; 0x55; 2; 5; 28; 244; 1; 231].
(** Servo 2 is said to be where servo 1 is, at -30 degrees instead of 120. *)
Example C163_late_case : Forall answers [Asked 1 AskPosition s1 f1; Asked 2 AskPosition s2 f2] /\
  match servo_session [(1, AskPosition, []); (2, AskPosition, f1 ++ f2)] [] with
  | Ret ([inr UnexpectedEof; inl (Degrees x)], l) => to_bits x = 0xc1f00000 /\ degrees 500 = of_bits 0x42f00000 /\ l = f2 | _ => False end.
Proof.
  split; [|vm_compute; repeat split; reflexivity].
  repeat constructor; cbn; try lia; eexists; (split; [reflexivity|split; reflexivity]).
Qed.

(** A valid frame with fewer bytes of data than the reading needs makes the program panic. *)
Definition needs (a : ask) : nat := match a with Reassign _ => 0 | AskTemperature => 1 | AskLimits => 4 | _ => 2 end.
Theorem C163_short_refuted : forall id a id' command' data f rest, (length data < needs a)%nat -> frame id' command' data f ->
  servo_read id a [] (f ++ rest) = Panic.
Proof.
  intros id a id' command' data f rest H F.
  destruct (read_first id a id' command' data f [] (f ++ rest) rest) as (sent & ->); [destruct a; cbn [needs] in H; lia|exact F|reflexivity|].
  destruct a; cbn [needs] in H; try (cbn in H; lia); destruct data as [|d0 [|d1 [|d2 [|d3 data]]]]; cbn [length] in H; try lia; reflexivity.
Qed.
Print Assumptions C163_short_refuted.
(** Such a frame is the answer to a request of a servo's temperature. *)
Example C163_short_case : frame 2 26 [41] [0x55; 0x55; 2; 4; 26; 41; 182] /\ servo_read 1 AskPosition [] [0x55; 0x55; 2; 4; 26; 41; 182] = Panic.
Proof. split; [eexists; split; [reflexivity|split; reflexivity]|reflexivity]. Qed.
(** Different positions never read the same. *)
Theorem C163_distinct_partial : forall a b, (-32768 <= a < b)%Z -> (b < 32768)%Z -> flt (degrees a) (degrees b) = true.
Proof.
  intros a b H1 H2. destruct (degrees_ok a ltac:(lia)) as (Fa & Ea & Na). destruct (degrees_ok b ltac:(lia)) as (Fb & Eb & Nb).
  assert (V : forall z, (-32768 <= z < 32768)%Z -> valid (degrees z)).
  { intros z Hz. unfold degrees. apply fdiv_valid; [apply fmul_valid|]; [|apply f32_of_valid|apply f32_of_valid]. apply of_z_real. lia. }
  rewrite flt_real by (auto; apply V; lia). apply Rlt_bool_true.
  assert (IZR a + 1 <= IZR b)%R by (rewrite <- plus_IZR; apply IZR_le; lia).
  apply Rabs_le_inv in Na, Nb. lra.
Qed.
Print Assumptions C163_distinct_partial.
Example C163_distinct_case : flt (degrees 999) (degrees 1000) = true /\ degrees 1000 = f32_of 240.
Proof. split; vm_compute; reflexivity. Qed.
