(** C39 to C42: MSP packets on a serial line. *)
From Coq Require Import List Arith NArith Bool Lia.
From Verif Require Import Base MspModel MspSpec MspProofs.
Import ListNotations.
Local Open Scope N_scope.

(** Serialized packets, in both formats mixed in any order, are parsed to exactly these
    packets; no error is reported on the way. *)
Theorem C39_round_trip : forall ks : list (bool * packet), Forall fits ks ->
  exists p rs, feed parser_new (flat_map bytes_of ks) = Ret (p, rs) /\ delivered rs = map snd ks /\
    Forall (fun r => ~ is_error r) rs /\ between p = true.
Proof.
  intros ks F. destruct (frames ks parser_new inv_new eq_refl F) as (p & rs & H1 & H2 & H3 & _ & H4). eauto 10.
Qed.
Print Assumptions C39_round_trip.

(** The bytes may arrive in any chunks. *)
Theorem C39_chunks : forall a b p, feed p (a ++ b) =
  let! (p1, r1) := feed p a in let! (p2, r2) := feed p1 b in Ret (p2, r1 ++ r2).
Proof. intros. apply feed_app. Qed.
Print Assumptions C39_chunks.

Example C39_case : let ks := [(false, Packet 100 FromFC [1; 2; 36]); (true, Packet 5000 ToFC []); (true, Packet 1 Unsupported [77; 36])] in
  Forall fits ks /\ exists p rs, feed parser_new (flat_map bytes_of ks) = Ret (p, rs) /\ delivered rs = map snd ks /\ length rs = 29%nat.
Proof.
  split; [repeat constructor|]. eexists. eexists. split; [vm_compute; reflexivity|]. split; reflexivity.
Qed.

(** The limits are needed: the first format drops the high byte of a command without notice. *)
Theorem C39_command_refuted : exists k, k_cmd k < 65536 /\ exists p rs k', feed parser_new (serialize k) = Ret (p, rs) /\ delivered rs = [k'] /\
  k_data k' = k_data k /\ k_dir k' = k_dir k /\ k_cmd k' <> k_cmd k.
Proof.
  exists (Packet 300 FromFC [7]). split; [reflexivity|]. eexists. eexists. exists (Packet 44 FromFC [7]).
  split; [vm_compute; reflexivity|]. repeat split. discriminate.
Qed.
Print Assumptions C39_command_refuted.

(** The checksum of the second format is the standard's. *)
Theorem C39_crc_standard : forall l, Forall byte l -> digest 0 l < 256 /\ multiple dvb_s2 (N.lxor (256 * message l) (digest 0 l)).
Proof. exact crc_standard. Qed.
Print Assumptions C39_crc_standard.
(** And only one number is. *)
Theorem C39_crc_unique : forall m c c', c < 256 -> c' < 256 -> multiple dvb_s2 (N.lxor m c) -> multiple dvb_s2 (N.lxor m c') -> c = c'.
Proof. exact crc_unique. Qed.
Print Assumptions C39_crc_unique.
Example C39_crc_case : digest 0 [49; 50; 51; 52; 53; 54; 55; 56; 57] = 0xBC.
Proof. reflexivity. Qed.

(** One wrong byte after the length of a packet in the first format: a checksum error at the
    last byte, nothing before, no packet, and the parser is between packets. *)
Theorem C40_v1 : forall k tail, fits_v1 k -> one_byte (skipn 4 (serialize k)) tail ->
  exists p e c, feed parser_new (firstn 4 (serialize k) ++ tail) = Ret (p, repeat Nothing (5 + length (k_data k)) ++ [CrcMismatch e c]) /\
    between p = true.
Proof. intros. apply corrupt_v1; auto using inv_new. Qed.
Print Assumptions C40_v1.

(** One wrong byte in the flag, the command, the payload or the checksum of a packet in the
    second format. *)
Theorem C40_v2 : forall k head' tail', fits_v2 k ->
  let s := serialize_v2 k in let head := firstn 3 (skipn 3 s) in let tail := skipn 8 s in
  (one_byte head head' /\ tail' = tail) \/ (head' = head /\ one_byte tail tail') ->
  exists p e c, feed parser_new (firstn 3 s ++ head' ++ firstn 2 (skipn 6 s) ++ tail') =
    Ret (p, repeat Nothing (8 + length (k_data k)) ++ [CrcMismatch e c]) /\ between p = true.
Proof. intros. apply corrupt_v2; auto using inv_new. Qed.
Print Assumptions C40_v2.

Example C40_case : fits_v1 (Packet 100 FromFC [1; 2]) /\ one_byte (skipn 4 (serialize (Packet 100 FromFC [1; 2]))) [100; 1; 66; 101] /\
  fits_v2 (Packet 300 ToFC [9]) /\ one_byte (firstn 3 (skipn 3 (serialize_v2 (Packet 300 ToFC [9])))) [0; 44; 3].
Proof.
  split; [repeat constructor|]. split; [exists [100; 1], 2, 66, [101]; repeat split; discriminate|].
  split; [repeat constructor|]. exists [0; 44], 1, 3, []. repeat split; discriminate.
Qed.

(** No stream of bytes makes the parser panic, and it is between packets after every error
    and every packet. *)
Theorem C41_total : forall l, exists p rs, feed parser_new l = Ret (p, rs).
Proof. intros l. destruct (feed_inv l parser_new inv_new) as (p & rs & H & _). eauto. Qed.
Print Assumptions C41_total.
Theorem C41_after : forall l b p rs p' r, feed parser_new l = Ret (p, rs) -> parse p b = Ret (p', r) -> r <> Nothing -> between p' = true.
Proof.
  intros l b p rs p' r E E1 N0. destruct (feed_inv l parser_new inv_new) as (q & rs' & E2 & Iq & _). rewrite E in E2. injection E2 as <- <-.
  destruct (parse_inv p b Iq) as (q' & r' & E3 & _ & H). rewrite E1 in E3. injection E3 as <- <-. rewrite (H N0). reflexivity.
Qed.
Print Assumptions C41_after.

(** After any garbage that leaves the parser between packets, the packets that follow are
    delivered. Missing for C41 as stated: garbage that ends with a start byte or inside a
    packet (refuted below). *)
Theorem C41_resume_partial : forall l p rs ks, feed parser_new l = Ret (p, rs) -> between p = true -> Forall fits ks ->
  exists p' rs', feed p (flat_map bytes_of ks) = Ret (p', rs') /\ delivered rs' = map snd ks /\ between p' = true.
Proof.
  intros l p rs ks E B F. destruct (feed_inv l parser_new inv_new) as (q & rs1 & E2 & Iq & _). rewrite E in E2. injection E2 as <- <-.
  destruct (frames ks p Iq B F) as (p' & rs' & H1 & H2 & _ & _ & H4). eauto 10.
Qed.
Print Assumptions C41_resume_partial.

(** However the stream begins, the parser is between packets again within 65543 bytes. *)
Theorem C41_recovers_partial : forall l p rs l', Forall byte l -> feed parser_new l = Ret (p, rs) -> Forall byte l' ->
  65543 <= N.of_nat (length l') ->
  exists l1 l2 p' rs', l' = l1 ++ l2 /\ feed p l1 = Ret (p', rs') /\ between p' = true.
Proof.
  intros l p rs l' F E F' L. destruct (feed_bound l parser_new p rs inv_new F) as (Ip & Fd & R); auto.
  - constructor.
  - discriminate.
  - apply back; auto. lia.
Qed.
Print Assumptions C41_recovers_partial.

Example C41_case : exists p rs, feed parser_new [1; 36; 2; 36; 77; 60; 0; 5; 9] = Ret (p, rs) /\ between p = true /\
  rs = [Nothing; Nothing; InvalidHeader2; Nothing; Nothing; Nothing; Nothing; Nothing; CrcMismatch 9 5].
Proof. eexists. eexists. split; [vm_compute; reflexivity|]. split; reflexivity. Qed.

(** A stray start byte hides the packet that follows: the second start byte is taken for a
    wrong second header byte and dropped. *)
Theorem C41_stray_refuted : exists k, fits_v1 k /\ exists p rs, feed parser_new (36 :: serialize k) = Ret (p, rs) /\ delivered rs = [].
Proof.
  exists (Packet 100 FromFC [1; 2]). split; [repeat constructor|]. eexists. eexists. split; vm_compute; reflexivity.
Qed.
Print Assumptions C41_stray_refuted.

(** With fewer than [max] packets completed by each read, the batches hold exactly the packets
    of the whole stream, in order, wherever the reads cut it. Missing for C42 as stated: reads
    that complete more (refuted below). *)
Theorem C42_few_partial : forall max reads, few max parser_new reads ->
  exists os p rs, src_run max parser_new reads = Ret os /\ feed parser_new (stream reads) = Ret (p, rs) /\ batches os = delivered rs.
Proof. intros. apply src_few; auto. Qed.
Print Assumptions C42_few_partial.

Example C42_case : let s := serialize (Packet 100 FromFC [1; 2]) ++ serialize_v2 (Packet 300 FromFC [3]) in
  few 16 parser_new [Some (firstn 3 s); None; Some (skipn 3 s)] /\
  src_run 16 parser_new [Some (firstn 3 s); None; Some (skipn 3 s)] = Ret [Some []; None; Some [Packet 100 FromFC [1; 2]; Packet 300 FromFC [3]]].
Proof.
  split; [|vm_compute; reflexivity]. cbn [few]. eexists. eexists. split; [vm_compute; reflexivity|]. split; [vm_compute; lia|].
  eexists. eexists. split; [vm_compute; reflexivity|]. split; [vm_compute; lia|]. exact Logic.I.
Qed.

(** Seventeen packets in one read of 102 bytes: the last one is never delivered. *)
Theorem C42_refuted : exists l, (length l <= 512)%nat /\ exists os p rs, feed parser_new l = Ret (p, rs) /\
  src_run 16 parser_new [Some l; Some []] = Ret os /\ length (delivered rs) = 17%nat /\ length (batches os) = 16%nat.
Proof.
  exists (flat_map (fun k => serialize (Packet k FromFC [])) [1; 2; 3; 4; 5; 6; 7; 8; 9; 10; 11; 12; 13; 14; 15; 16; 17]).
  split; [vm_compute; lia|]. eexists. eexists. eexists. split; [vm_compute; reflexivity|]. split; [vm_compute; reflexivity|].
  split; reflexivity.
Qed.
Print Assumptions C42_refuted.
