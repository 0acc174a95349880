(** C79 to C84: the messages of the MSP protocol. *)
From Coq Require Import List Arith NArith ZArith Bool Lia.
From Verif Require Import Base BincodeModel BincodeSpec BincodeProofs MspModel MspSpec MspProofs
  MspMsgModel MspMsgSpec MspMsgProofs.
Import ListNotations.
Local Open Scope N_scope.

(** ** C79 *)

(** A packet becomes a response exactly when it has a meaning, and then the response is what
    it says; every other packet panics. Missing for C79 as stated: packets without a meaning
    must not panic (refuted below). *)
Theorem C79_meaning_partial : forall odd p, Forall byte (k_data p) ->
  (forall r, response_of odd p = Ret r <-> meaning odd p r) /\
  (response_of odd p = Panic <-> ~ exists r, meaning odd p r).
Proof.
  intros odd p B. split; [intros r; now apply response_iff|]. split.
  - intros E [r M]. apply response_iff in M; auto. congruence.
  - intros E. destruct (response_of odd p) as [r|] eqn:R; [|reflexivity].
    destruct E. exists r. now apply response_iff.
Qed.
Print Assumptions C79_meaning_partial.

Lemma bytes_of_ints n zs : Forall byte (flat_map (le_z n) zs).
Proof. induction zs; cbn; [constructor|]. apply Forall_app. split; [apply le_z_bytes|easy]. Qed.
Lemma ints_message (signed : bool) n zs : Forall (fun z => if signed then (- 256 ^ Z.of_nat n <= 2 * z < 256 ^ Z.of_nat n)%Z
    else (0 <= z < 256 ^ Z.of_nat n)%Z) zs ->
  message_of (repeat (if signed then FI n else FU n) (length zs)) (flat_map (le_z n) zs) (map VInt zs).
Proof.
  induction 1 as [|z zs Hz Hzs IH]; cbn; [constructor|]. constructor; [|easy].
  destruct signed; now constructor.
Qed.

(** The messages of a flight, by their numbers and the order of their fields on the wire:
    RAW_IMU is nine, ATTITUDE three signed 16 bit numbers; RC is sixteen, MOTOR and SERVO are
    eight unsigned ones. Data after the fields is ignored. *)
Theorem C79_i16_partial : forall odd d cmd k zs extra,
  In (cmd, k, length zs) [(102, MspRawImu, 9%nat); (108, MspAttitude, 3%nat)] ->
  Forall (fun z => (-32768 <= z < 32768)%Z) zs -> Forall byte extra ->
  response_of odd (Packet cmd d (flat_map (le_z 2) zs ++ extra)) = Ret (Resp k (map VInt zs)).
Proof.
  intros odd d cmd k zs extra I F X. apply response_iff.
  { cbn [k_data]. apply Forall_app. split; [apply bytes_of_ints|easy]. }
  assert (M : message_of (repeat (FI 2) (length zs)) (flat_map (le_z 2) zs) (map VInt zs)).
  { apply (ints_message true). eapply Forall_impl; [|exact F]. cbn. lia. }
  cbn [In] in I. destruct I as [I|[I|[]]]; injection I as <- <- L; rewrite <- L in M;
    (eapply meaning_resp; [split; discriminate|reflexivity|reflexivity|exact M]).
Qed.
Print Assumptions C79_i16_partial.
Theorem C79_u16_partial : forall odd d cmd k zs extra,
  In (cmd, k, length zs) [(105, MspRc, 16%nat); (104, MspMotor, 8%nat); (103, MspServos, 8%nat)] ->
  Forall (fun z => (0 <= z < 65536)%Z) zs -> Forall byte extra ->
  response_of odd (Packet cmd d (flat_map (le_z 2) zs ++ extra)) = Ret (Resp k (map VInt zs)).
Proof.
  intros odd d cmd k zs extra I F X. apply response_iff.
  { cbn [k_data]. apply Forall_app. split; [apply bytes_of_ints|easy]. }
  assert (M : message_of (repeat (FU 2) (length zs)) (flat_map (le_z 2) zs) (map VInt zs)).
  { apply (ints_message false). eapply Forall_impl; [|exact F]. cbn. lia. }
  cbn [In] in I. destruct I as [I|[I|[I|[]]]]; injection I as <- <- L; rewrite <- L in M;
    (eapply meaning_resp; [split; discriminate|reflexivity|reflexivity|exact M]).
Qed.
Print Assumptions C79_u16_partial.

Example C79_imu : forall odd,
  response_of odd (Packet 102 FromFC [255; 255; 0; 128; 1; 2; 0; 0; 0; 0; 0; 0; 0; 0; 0; 0; 232; 3; 99]) =
  Ret (Resp MspRawImu (map VInt [-1; -32768; 513; 0; 0; 0; 0; 0; 1000]%Z)).
Proof.
  intros odd. apply (C79_i16_partial odd FromFC 102 MspRawImu [-1; -32768; 513; 0; 0; 0; 0; 0; 1000]%Z [99]); [now left| |].
  - repeat (constructor; [lia|]). constructor.
  - repeat constructor.
Qed.

Ltac fields := repeat (apply message_cons; [constructor; cbn; lia|]); constructor.

(** BATTERY_STATE, ALTITUDE and ANALOG. *)
Theorem C79_battery_partial : forall odd d cells cap volts drawn amps alerts extra,
  (0 <= cells < 256)%Z -> (0 <= cap < 65536)%Z -> (0 <= volts < 256)%Z -> (0 <= drawn < 65536)%Z ->
  (-32768 <= amps < 32768)%Z -> (0 <= alerts < 256)%Z -> Forall byte extra ->
  response_of odd (Packet 130 d (le_z 1 cells ++ le_z 2 cap ++ le_z 1 volts ++ le_z 2 drawn ++ le_z 2 amps ++ le_z 1 alerts ++ extra)) =
  Ret (Resp MspBatteryState (map VInt [cells; cap; volts; drawn; amps; alerts])).
Proof.
  intros. apply response_iff; [cbn [k_data]; repeat (apply Forall_app; split; [apply le_z_bytes|]); easy|].
  apply meaning_resp with (bs := le_z 1 cells ++ le_z 2 cap ++ le_z 1 volts ++ le_z 2 drawn ++ le_z 2 amps ++ le_z 1 alerts ++ []) (extra := extra);
    [split; discriminate|reflexivity|cbn [k_data]; now rewrite app_nil_r, <- !app_assoc|].
  cbn [layout map]. fields.
Qed.
Print Assumptions C79_battery_partial.
Theorem C79_altitude_partial : forall odd d h v extra,
  (-2147483648 <= h < 2147483648)%Z -> (-32768 <= v < 32768)%Z -> Forall byte extra ->
  response_of odd (Packet 109 d (le_z 4 h ++ le_z 2 v ++ extra)) = Ret (Resp MspAltitude (map VInt [h; v])).
Proof.
  intros. apply response_iff; [cbn [k_data]; repeat (apply Forall_app; split; [apply le_z_bytes|]); easy|].
  apply meaning_resp with (bs := le_z 4 h ++ le_z 2 v ++ []) (extra := extra);
    [split; discriminate|reflexivity|cbn [k_data]; now rewrite app_nil_r, <- !app_assoc|].
  cbn [layout map]. fields.
Qed.
Print Assumptions C79_altitude_partial.
Theorem C79_analog_partial : forall odd d volts drawn rssi amps extra,
  (0 <= volts < 256)%Z -> (0 <= drawn < 65536)%Z -> (0 <= rssi < 65536)%Z -> (-32768 <= amps < 32768)%Z -> Forall byte extra ->
  response_of odd (Packet 110 d (le_z 1 volts ++ le_z 2 drawn ++ le_z 2 rssi ++ le_z 2 amps ++ extra)) =
  Ret (Resp MspAnalog (map VInt [volts; drawn; rssi; amps])).
Proof.
  intros. apply response_iff; [cbn [k_data]; repeat (apply Forall_app; split; [apply le_z_bytes|]); easy|].
  apply meaning_resp with (bs := le_z 1 volts ++ le_z 2 drawn ++ le_z 2 rssi ++ le_z 2 amps ++ []) (extra := extra);
    [split; discriminate|reflexivity|cbn [k_data]; now rewrite app_nil_r, <- !app_assoc|].
  cbn [layout map]. fields.
Qed.
Print Assumptions C79_analog_partial.
(** FEATURE_CONFIG: 32 flags, four bytes of eight, those of a byte from its highest bit down. *)
Theorem C79_features_partial : forall odd d b0 b1 b2 b3 extra, Forall byte [b0; b1; b2; b3] -> Forall byte extra ->
  response_of odd (Packet 36 d (b0 :: b1 :: b2 :: b3 :: extra)) =
  Ret (Resp MspFeatures (map (fun b => VFlags (map (fun i => N.odd (b / 2 ^ i)) [7; 6; 5; 4; 3; 2; 1; 0])) [b0; b1; b2; b3])).
Proof.
  intros odd d b0 b1 b2 b3 extra B X. apply response_iff; [cbn [k_data]; apply (Forall_app _ [b0; b1; b2; b3]); auto|].
  apply meaning_resp with (bs := [b0] ++ [b1] ++ [b2] ++ [b3] ++ []) (extra := extra);
    [split; discriminate|reflexivity|reflexivity|].
  inversion B as [|? ? B0 T0]; inversion T0 as [|? ? B1 T1]; inversion T1 as [|? ? B2 T2]; inversion T2 as [|? ? B3 T3]; subst.
  cbn [layout repeat map].
  repeat (apply message_cons; [apply (carries_flags [0; 1; 2; 3; 4; 5; 6; 7]%nat); assumption|]). constructor.
Qed.
Print Assumptions C79_features_partial.

Example C79_battery : forall odd,
  response_of odd (Packet 130 FromFC [4; 20; 5; 160; 1; 0; 246; 255; 0]) =
  Ret (Resp MspBatteryState (map VInt [4; 1300; 160; 1; -10; 0]%Z)).
Proof. intros odd. apply (C79_battery_partial odd FromFC 4 1300 160 1 (-10) 0 []); try lia. constructor. Qed.
Example C79_altitude : forall odd, response_of odd (Packet 109 FromFC [156; 255; 255; 255; 5; 0]) = Ret (Resp MspAltitude (map VInt [-100; 5]%Z)).
Proof. intros odd. apply (C79_altitude_partial odd FromFC (-100) 5 []); try lia. constructor. Qed.

(** Fields of one byte (the numbers of an enum among them): a value that is none of the
    enum's panics, although the packet is well formed. *)
Theorem C79_enum_partial : forall odd d b extra, byte b -> Forall byte extra ->
  response_of odd (Packet 42 d (b :: extra)) =
  (if ((1 <=? b) && (b <=? 11))%bool then Ret (Resp MspMixerConfig [VInt (Z.of_N b)]) else Panic).
Proof.
  intros odd d b extra B X.
  assert (G : response_of odd (Packet 42 d (b :: extra)) =
              if existsb (N.eqb b) MixerMode then Ret (Resp MspMixerConfig [VInt (Z.of_N b)]) else Panic).
  { unfold response_of, decode_as. cbn -[N.eqb MixerMode]. rewrite N.mul_0_r, N.add_0_r. unfold MspMsgModel.unpack_field.
    destruct (existsb (N.eqb b) MixerMode); reflexivity. }
  rewrite G. clear G.
  destruct (((1 <=? b) && (b <=? 11))%bool) eqn:E.
  - assert (K : existsb (N.eqb b) MixerMode = true); [|now rewrite K].
    apply existsb_exists. exists b. split; [|apply N.eqb_refl]. unfold MixerMode. cbn. lia.
  - assert (K : existsb (N.eqb b) MixerMode = false); [|now rewrite K].
    destruct (existsb (N.eqb b) MixerMode) eqn:K; [|reflexivity]. apply existsb_exists in K.
    destruct K as (x & I & Ex). apply N.eqb_eq in Ex. subst x. unfold MixerMode in I. cbn in I. lia.
Qed.
Print Assumptions C79_enum_partial.
(** The port of a serial setting: none (255), a USART (0 to 7), USB (20) or a soft serial (30, 31). *)
Theorem C79_serial_partial : forall odd d b extra, byte b -> Forall byte extra ->
  response_of odd (Packet 4106 d (b :: repeat 0 8 ++ extra)) =
  (if ((b =? 255) || (b <=? 7) || (b =? 20) || (b =? 30) || (b =? 31))%bool then Ret (Resp MspSerialSetting (VInt (Z.of_N b) :: repeat (VInt 0) 5)) else Panic).
Proof.
  intros odd d b extra B X.
  assert (G : response_of odd (Packet 4106 d (b :: repeat 0 8 ++ extra)) =
              if existsb (N.eqb b) SerialIdentifier then Ret (Resp MspSerialSetting (VInt (Z.of_N b) :: repeat (VInt 0) 5)) else Panic).
  { unfold response_of, decode_as. cbn -[N.eqb SerialIdentifier]. rewrite N.mul_0_r, N.add_0_r. unfold MspMsgModel.unpack_field.
    destruct (existsb (N.eqb b) SerialIdentifier); reflexivity. }
  rewrite G. clear G.
  match goal with |- _ = if ?e then _ else _ => destruct e eqn:E end.
  - assert (K : existsb (N.eqb b) SerialIdentifier = true); [|now rewrite K].
    apply existsb_exists. exists b. split; [|apply N.eqb_refl]. unfold SerialIdentifier. cbn. lia.
  - assert (K : existsb (N.eqb b) SerialIdentifier = false); [|now rewrite K].
    destruct (existsb (N.eqb b) SerialIdentifier) eqn:K; [|reflexivity]. apply existsb_exists in K.
    destruct K as (x & I & Q). apply N.eqb_eq in Q. subst x. unfold SerialIdentifier in I. cbn in I. lia.
Qed.
Print Assumptions C79_serial_partial.
Example C79_serial_example : response_of (fun _ => []) (Packet 4106 FromFC (255 :: repeat 0 8)) = Ret (Resp MspSerialSetting (VInt 255 :: repeat (VInt 0) 5)) /\
  response_of (fun _ => []) (Packet 4106 FromFC (8 :: repeat 0 8)) = Panic.
Proof. split; reflexivity. Qed.

(** The source: with fewer than [max] packets in a read, all of them with a meaning, it
    hands on these meanings in order. *)
Lemma responses_few odd max l : forall p batch p' rs xs, feed p l = Ret (p', rs) ->
  Forall2 (fun k x => response_of odd k = Ret x) (delivered rs) xs -> (length (batch ++ xs) < max)%nat ->
  response_loop odd max p batch l = Ret (p', batch ++ xs).
Proof.
  induction l as [|b l IH]; intros p batch p' rs xs E F L; cbn [feed response_loop] in *.
  - injection E as <- <-. inversion F; subst. rewrite app_nil_r. reflexivity.
  - destruct (parse p b) as [[p1 r]|]; cbn [obind] in *; [|discriminate].
    destruct (feed p1 l) as [[p2 rs2]|] eqn:E2; cbn [obind] in E; [|discriminate]. injection E as <- <-.
    destruct r as [|k| | |]; try (cbn in F; apply (IH p1 batch p2 rs2); auto).
    change (delivered (Delivered k :: rs2)) with (k :: delivered rs2) in F.
    inversion F as [|? x ? xs' R F']; subst. rewrite R. cbn [obind]. cbv zeta.
    change (x :: xs') with ([x] ++ xs') in *. rewrite app_assoc in *.
    rewrite (proj2 (Nat.leb_gt _ _)); [|rewrite app_length in L; lia].
    now apply (IH p1 (batch ++ [x]) p2 rs2).
Qed.
Theorem C79_source_partial : forall odd max ks xs, Forall fits ks -> Forall2 (meaning odd) (map snd ks) xs ->
  (length ks < max)%nat ->
  exists p, response_loop odd max parser_new [] (flat_map bytes_of ks) = Ret (p, xs).
Proof.
  intros odd max ks xs F M L.
  destruct (frames ks parser_new inv_new eq_refl F) as (p & rs & E & D & _). exists p.
  assert (LL : length xs = length ks).
  { rewrite <- (map_length snd ks). clear - M. induction M; cbn; auto. }
  change xs with ([] ++ xs). eapply responses_few; [exact E| |cbn [app]; lia].
  rewrite D. clear - F M. revert xs M. induction F as [|[v k] ks Fk F IH]; intros xs M; inversion M; subst; constructor; auto.
  apply response_iff; auto. cbn. destruct v; cbn in Fk; apply Fk.
Qed.
Print Assumptions C79_source_partial.

(** However many packets a read completes, the responses are the meanings of the packets the
    source takes (those of C42), and its parser goes on from the same state. *)
Theorem C79_batches_partial : forall odd max l p p' ks xs, batch_loop max p [] l = Ret (p', ks) ->
  Forall2 (fun k x => response_of odd k = Ret x) ks xs -> response_loop odd max p [] l = Ret (p', xs).
Proof.
  intros odd max l p p' ks xs E F.
  assert (G : forall l p ks0 xs0 ks xs, batch_loop max p ks0 l = Ret (p', ks) -> length xs0 = length ks0 ->
     Forall2 (fun k x => response_of odd k = Ret x) ks (xs0 ++ xs) -> (length ks0 <= length ks)%nat ->
     response_loop odd max p xs0 l = Ret (p', xs0 ++ xs)).
  { clear. induction l as [|b l IH]; intros p ks0 xs0 ks xs E L F Le; cbn [batch_loop response_loop] in *.
    - injection E as <- <-. assert (X : length (xs0 ++ xs) = length ks0) by (clear - F; induction F; cbn; auto).
      rewrite app_length in X. destruct xs; [now rewrite app_nil_r|cbn in X; lia].
    - destruct (parse p b) as [[p1 r]|]; cbn [obind] in *; [|discriminate].
      destruct r as [|k| | |]; try (eapply IH; eauto; fail). cbv zeta in *.
      assert (P : exists more, ks = ks0 ++ k :: more).
      { destruct (Nat.leb max (length (ks0 ++ [k]))); [injection E as <- <-; now exists []|].
        clear - E. assert (Q : forall l p b0 ks, batch_loop max p b0 l = Ret (p', ks) -> exists more, ks = b0 ++ more).
        { clear. induction l as [|b l IH]; intros p b0 ks E; cbn [batch_loop] in E.
          - injection E as <- <-. exists []. now rewrite app_nil_r.
          - destruct (parse p b) as [[p1 r]|]; cbn [obind] in E; [|discriminate].
            destruct r as [|k| | |]; eauto. cbv zeta in E. destruct (Nat.leb max _).
            + injection E as <- <-. eauto.
            + destruct (IH _ _ _ E) as [m ->]. exists (k :: m). now rewrite <- app_assoc. }
        destruct (Q _ _ _ _ E) as [m ->]. exists m. now rewrite <- app_assoc. }
      destruct P as [more ->].
      apply Forall2_app_inv_l in F as (y0 & y1 & F0 & F1 & Ey). inversion F1 as [|? x ? y2 R F2]; subst.
      assert (L0 : length y0 = length ks0) by (clear - F0; induction F0; cbn; auto).
      assert (y0 = xs0 /\ xs = x :: y2) as [-> ->].
      { clear - Ey L0 L. assert (length xs0 = length y0) as H by congruence. clear L L0.
        revert y0 Ey H. induction xs0 as [|a xs0 IH]; intros [|b y0] Ey H; cbn in *; try discriminate; auto.
        injection Ey as -> Ey. injection H as H. destruct (IH _ Ey H) as [-> ->]. auto. }
      rewrite R. cbn [obind]. cbv zeta. rewrite !app_length, L in *. cbn [length] in *.
      destruct (Nat.leb max (length ks0 + 1)).
      + injection E as <- Ek. apply (f_equal (@length packet)) in Ek. rewrite !app_length in Ek. cbn in Ek.
        destruct more; [|cbn in Ek; lia]. inversion F2; subst. reflexivity.
      + rewrite (IH p1 (ks0 ++ [k]) (xs0 ++ [x]) (ks0 ++ k :: more) y2); auto.
        * now rewrite <- app_assoc.
        * rewrite !app_length, L. reflexivity.
        * rewrite <- app_assoc. apply Forall2_app; auto.
        * rewrite !app_length. cbn. lia. }
  exact (G l p [] [] ks xs E eq_refl F (Nat.le_0_l _)).
Qed.
Print Assumptions C79_batches_partial.

Example C79_source_case : forall odd,
  exists p, response_loop odd 16 parser_new [] (serialize (Packet 108 FromFC [1; 0; 2; 0; 255; 255]) ++ serialize (Packet 3 FromFC [1])) =
    Ret (p, [Resp MspAttitude (map VInt [1; 2; -1]%Z); Unknown]).
Proof.
  intros odd. apply (C79_source_partial odd 16 [(false, Packet 108 FromFC [1; 0; 2; 0; 255; 255]); (false, Packet 3 FromFC [1])]).
  - repeat constructor.
  - constructor; [|constructor; [|constructor]]; apply response_iff; try reflexivity; repeat constructor.
  - cbn. lia.
Qed.

(** A well formed frame of seven bytes, with a command number the library does not know,
    ends the task with a panic; so does a frame of a known command that is one byte short, and
    so it does for any two-byte command. *)
Theorem C79_refuted : exists k, fits (false, k) /\ forall odd p batch, inv p -> between p = true ->
  response_loop odd 16 p batch (serialize k) = Panic.
Proof.
  exists (Packet 6 FromFC [0]). split; [repeat constructor|]. intros odd p batch I B.
  destruct (frames [(false, Packet 6 FromFC [0])] p I B ltac:(repeat constructor)) as (p' & rs & E & D & _).
  cbn [flat_map bytes_of app] in E. rewrite app_nil_r in E. cbn [map snd] in D.
  assert (G : forall l p batch p' rs, feed p l = Ret (p', rs) -> delivered rs = [Packet 6 FromFC [0]] ->
            response_loop odd 16 p batch l = Panic).
  { clear. induction l as [|b l IH]; intros p batch p' rs E D; cbn [feed response_loop] in *.
    - injection E as <- <-. discriminate.
    - destruct (parse p b) as [[p1 r]|]; cbn [obind] in *; [|discriminate].
      destruct (feed p1 l) as [[p2 rs2]|] eqn:E2; cbn [obind] in E; [|discriminate]. injection E as <- <-.
      destruct r as [|k| | |]; try (eapply IH; eauto; fail). cbn in D. injection D as -> D. reflexivity. }
  eapply G; eauto.
Qed.
Print Assumptions C79_refuted.
Theorem C79_short_refuted : forall odd p batch, inv p -> between p = true ->
  response_loop odd 16 p batch (serialize (Packet 108 FromFC [1; 0; 2; 0; 3])) = Panic.
Proof.
  intros odd p batch I B.
  destruct (frames [(false, Packet 108 FromFC [1; 0; 2; 0; 3])] p I B ltac:(repeat constructor)) as (p' & rs & E & D & _).
  cbn [flat_map bytes_of app] in E. rewrite app_nil_r in E. cbn [map snd] in D.
  assert (G : forall l p batch p' rs, feed p l = Ret (p', rs) -> delivered rs = [Packet 108 FromFC [1; 0; 2; 0; 3]] ->
            response_loop odd 16 p batch l = Panic).
  { clear. induction l as [|b l IH]; intros p batch p' rs E D; cbn [feed response_loop] in *.
    - injection E as <- <-. discriminate.
    - destruct (parse p b) as [[p1 r]|]; cbn [obind] in *; [|discriminate].
      destruct (feed p1 l) as [[p2 rs2]|] eqn:E2; cbn [obind] in E; [|discriminate]. injection E as <- <-.
      destruct r as [|k| | |]; try (eapply IH; eauto; fail). cbn in D. injection D as -> D. reflexivity. }
  eapply G; eauto.
Qed.
Print Assumptions C79_short_refuted.

(** ** C80 *)

(** No response at all can be turned into a packet (of the six structs left open it is only
    assumed that they are not empty). *)
Theorem C80_refuted : forall odd, (forall k, size (odd k) <> O) -> forall r, packet_of_response odd r = Panic.
Proof.
  intros odd O [|k vs]; [reflexivity|]. unfold packet_of_response, to_bytes.
  now rewrite (proj2 (Nat.eqb_neq _ _) (layout_size odd O k)).
Qed.
Print Assumptions C80_refuted.

(** The bytes of the packed struct, sent under the command of the response, are read back as
    the same response. Missing for C80 as stated: that the conversion to a packet hands out
    these bytes (it panics, above). *)
Theorem C80_partial : forall odd k vs d extra, received_kind k -> Forall sound (layout odd k) ->
  Forall2 typed (layout odd k) vs -> Forall byte extra ->
  response_of odd (Packet (code k) d (pack (layout odd k) vs ++ extra)) = Ret (Resp k vs).
Proof.
  intros odd k vs d extra R S T X. pose proof (pack_message _ _ S T) as M. apply response_iff.
  - cbn [k_data]. apply Forall_app. split; [|easy]. clear - M. induction M; [constructor|]. apply Forall_app.
    split; [eapply carries_bytes; eauto|easy].
  - apply meaning_resp with (bs := pack (layout odd k) vs) (extra := extra); auto.
Qed.
Print Assumptions C80_partial.
(** All fields of the structs that are not left open are sound. *)
Theorem C80_sound_partial : forall odd k, (forall k, Forall sound (odd k)) -> Forall sound (layout odd k).
Proof.
  intros odd k O. destruct k; cbn [layout]; try apply O; repeat constructor;
    cbn; intuition (try discriminate; try lia).
Qed.
Print Assumptions C80_sound_partial.
(** The command a response is read from is its own, and different responses have different
    commands but for the two pairs of C79. *)
Theorem C80_code_partial : forall k k', received_kind k -> received_kind k' -> code k = code k' -> k = k'.
Proof.
  intros k k' R R' E. pose proof (code_decoded k R) as D. rewrite E in D.
  rewrite (code_decoded k' R') in D. congruence.
Qed.
Print Assumptions C80_code_partial.

Example C80_case : forall odd,
  let vs := [VInt 1000; VInt 0; VFlags [true; false; false; true; true]; VInt 0; VInt 3; VInt 1; VInt 12]%Z in
  pack (layout odd MspStatus) vs = [232; 3; 0; 0; 35; 0; 3; 0; 0; 0; 1; 12; 0] /\
  response_of odd (Packet 101 FromFC (pack (layout odd MspStatus) vs ++ [7])) = Ret (Resp MspStatus vs).
Proof.
  intros odd vs. split; [reflexivity|]. apply (C80_partial odd MspStatus vs FromFC [7]).
  - split; discriminate.
  - repeat constructor; cbn; intuition (try discriminate; try lia).
  - repeat constructor; cbn; lia.
  - repeat constructor.
Qed.

(** ** C81 *)

(** Without a failed write, the flight controller receives one packet for each request, in
    order, and nothing else; each asks for what its request says. *)
Theorem C81_sent : forall port batch, Forall request_ok batch -> snd (sink_process port batch) = true ->
  exists p rs, feed parser_new (fst (sink_process port batch)) = Ret (p, rs) /\ Forall2 asks batch (delivered rs) /\
    Forall (fun r => ~ is_error r) rs /\ between p = true.
Proof.
  intros port batch O S. rewrite (sink_ok batch port S).
  assert (F : Forall fits (map (fun r => (false, packet_of_request r)) batch)).
  { apply Forall_map. eapply Forall_impl; [|exact O]. intros r H. cbn. eapply asks_fits; eauto. now apply request_asks. }
  destruct (frames _ parser_new inv_new eq_refl F) as (p & rs & E & D & N & _ & B).
  exists p, rs. rewrite flat_map_concat_map, map_map, <- flat_map_concat_map in E. split; [exact E|]. split; [|auto].
  rewrite D, map_map. clear - O. cbn [snd]. induction O; cbn; constructor; auto. now apply request_asks.
Qed.
Print Assumptions C81_sent.
(** With a failed write the task reports the failure, and what is on the line is a beginning
    of what would have been sent. *)
Theorem C81_failed : forall port batch, exists rest, fst (sink_process [] batch) = fst (sink_process port batch) ++ rest.
Proof. intros port batch. rewrite sink_all. cbn [fst]. apply sink_prefix. Qed.
Print Assumptions C81_failed.
Theorem C81_reported : forall port batch, snd (sink_process port batch) = true <->
  Forall (fun w => w = None) (firstn (length batch) port).
Proof.
  intros port batch. revert port. induction batch as [|r batch IH]; intros port; cbn [sink_process length].
  - cbn. split; auto.
  - destruct port as [|[n|] port]; cbn [firstn].
    + specialize (IH []). cbn [tl]. destruct (sink_process [] batch) as [rest ok]. cbn [snd] in *.
      rewrite firstn_nil in IH. rewrite IH. split; auto.
    + cbn [snd]. split; [discriminate|]. intros H. inversion H. discriminate.
    + specialize (IH port). cbn [tl]. destruct (sink_process port batch) as [rest ok]. cbn [snd] in *. rewrite IH.
      split; intros H; [now constructor|now inversion H].
Qed.
Print Assumptions C81_reported.
(** The command a request names is the one it is sent as. *)
Theorem C81_code : forall r, k_cmd (packet_of_request r) = request_code r.
Proof. intros []; reflexivity. Qed.
Print Assumptions C81_code.

Example C81_case :
  let ch := [1500; 1500; 1000; 1500; 2000; 0; 0; 0; 0; 0; 0; 0; 0; 0; 0; 0] in
  let batch := [RBatteryState; RSetRawRc ch; RRawImu] in
  Forall request_ok batch /\ snd (sink_process [None; None] batch) = true /\
  exists p rs, feed parser_new (fst (sink_process [None; None] batch)) = Ret (p, rs) /\
    delivered rs = [Packet 130 ToFC []; Packet 200 ToFC (flat_map (fun c => [c mod 256; c / 256]) ch); Packet 102 ToFC []] /\
  snd (sink_process [None; Some 4%nat] batch) = false.
Proof.
  cbv zeta. split; [repeat constructor|]. split; [reflexivity|]. eexists. eexists.
  split; [vm_compute; reflexivity|]. split; reflexivity.
Qed.

(** ** C82 *)

(** Roll, pitch and the auxiliary channels: the setter writes the channel of that name, and no
    other. Missing for C82 as stated: throttle and yaw (refuted below). *)
Theorem C82_partial : forall s v ch, s <> SThrottle -> s <> SYaw -> length ch = 16%nat ->
  sets (channel_number s) v ch (set_channel s v ch).
Proof.
  intros s v ch A B L. unfold sets, set_channel. rewrite upd_length.
  destruct s; try congruence; (split; [reflexivity|]; split; [apply nth_error_upd_eq; cbn; lia|intros j J; apply nth_error_upd_neq; auto]).
Qed.
Print Assumptions C82_partial.
(** Every setter writes one channel, and different setters different channels. *)
Theorem C82_distinct_partial : forall s s' v v' ch, s <> s' -> length ch = 16%nat ->
  (exists i, (i < 16)%nat /\ forall w, sets i w ch (set_channel s w ch)) /\
  set_channel s v (set_channel s' v' ch) = set_channel s' v' (set_channel s v ch).
Proof.
  intros s s' v v' ch N L. split.
  - unfold sets, set_channel. exists (match s with SRoll => 0 | SPitch => 1 | SThrottle => 2 | SYaw => 3
      | SAux1 => 4 | SAux2 => 5 | SAux3 => 6 | SAux4 => 7 end)%nat. split; [destruct s; cbn; lia|]. intros w. rewrite upd_length.
    split; [reflexivity|]. split; [apply nth_error_upd_eq; destruct s; cbn; lia|intros j J; apply nth_error_upd_neq; auto].
  - do 16 (destruct ch as [|? ch]; [discriminate|]). destruct ch; [|discriminate].
    destruct s, s'; try congruence; reflexivity.
Qed.
Print Assumptions C82_distinct_partial.
(** The throttle goes to the channel that MspRcChannel numbers as yaw, and the other way round. *)
Theorem C82_refuted : forall v ch, length ch = 16%nat ->
  sets (channel_number SYaw) v ch (set_channel SThrottle v ch) /\ sets (channel_number SThrottle) v ch (set_channel SYaw v ch).
Proof.
  intros v ch L. unfold sets, set_channel. rewrite !upd_length. cbn [channel_number].
  split; (split; [reflexivity|]; split; [apply nth_error_upd_eq; lia|intros j J; apply nth_error_upd_neq; auto]).
Qed.
Print Assumptions C82_refuted.
Example C82_case : set_channel SThrottle 1000 rc_new = [0; 0; 1000; 0; 0; 0; 0; 0; 0; 0; 0; 0; 0; 0; 0; 0] /\
  nth_error (set_channel SAux2 1000 rc_new) 5 = Some 1000.
Proof. split; reflexivity. Qed.

(** ** C83 *)

(** A batch of requests logged is read back as it was. *)
Theorem C83_batch : lossless (fun l => Forall request_ok l /\ ubits 64 (N.of_nat (length l))) enc_batch dec_batch.
Proof. apply vec_lossless. apply request_lossless. Qed.
Print Assumptions C83_batch.
Example C83_case : let l := [RRc; RSetRawRc (repeat 1500 16); RUnknown] in
  (Forall request_ok l /\ ubits 64 (N.of_nat (length l))) /\ dec_batch (enc_batch l ++ [9; 9]) = Some (l, [9; 9]).
Proof. split; [split; [repeat constructor|reflexivity]|vm_compute; reflexivity]. Qed.

(** ** C84 *)

(** Up to 25 cells the voltage is divided by ten times their number. Missing for C84 as
    stated: more cells (and none at all), refuted below. *)
Theorem C84_partial : forall mode cells, cells <= 25 -> cell_divisor mode cells = Ret (10 * cells).
Proof.
  intros mode cells H. unfold cell_divisor. cbv zeta. rewrite (proj2 (N.ltb_lt _ _)); [reflexivity|lia].
Qed.
Print Assumptions C84_partial.
(** From 26 cells on: a panic, or another divisor; 128 cells divide by zero. *)
Theorem C84_refuted : forall cells, 26 <= cells < 256 ->
  cell_divisor Checked cells = Panic /\ exists d, cell_divisor Wrapping cells = Ret d /\ d <> 10 * cells.
Proof.
  intros cells H. unfold cell_divisor. cbv zeta. rewrite (proj2 (N.ltb_ge _ _)) by lia.
  split; [reflexivity|]. eexists. split; [reflexivity|]. pose proof (N.mod_lt (10 * cells) 256). lia.
Qed.
Print Assumptions C84_refuted.
Example C84_case : cell_divisor Checked 4 = Ret 40 /\ cell_divisor Wrapping 26 = Ret 4 /\ cell_divisor Wrapping 128 = Ret 0.
Proof. repeat split. Qed.
