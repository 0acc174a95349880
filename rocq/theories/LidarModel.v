(** The lidar sources components/sources/cu_hesai (XT32) and components/sources/cu_livox
    (Tele-15), on a little endian machine. A byte is an [N] below 256. The socket is an input;
    coordinates are left as the measured angles, channels and distances (Hesai) or millimeters
    (Livox), before their conversion to f32. *)
From Coq Require Import List Arith NArith ZArith Bool.
From Verif Require Import Base CodecModel SourcesModel.
Import ListNotations.
Local Open Scope N_scope.

(** The byte at an offset of a packed struct, read in place by bytemuck
    (components/sources/cu_hesai/src/parser.rs:488). *)
Definition byte (d : list N) (i : nat) : N := nth i d 0.
(** A u16 in a packed struct (components/sources/cu_hesai/src/parser.rs:166, 217). *)
Definition u16_at (d : list N) (i : nat) : N := byte d i + 256 * byte d (i + 1).
(** A u32 in a packed struct (components/sources/cu_hesai/src/parser.rs:294). *)
Definition u32_at (d : list N) (i : nat) : N := u16_at d i + 65536 * u16_at d (i + 2).
(** A u64 in a packed struct (components/sources/cu_livox/src/parser.rs:150). *)
Definition u64_at (d : list N) (i : nat) : N := u32_at d i + 4294967296 * u32_at d (i + 4).
(** An i32 in a packed struct (components/sources/cu_livox/src/parser.rs:178-180). *)
Definition i32_at (d : list N) (i : nat) : Z :=
  let v := u32_at d i in if v <? 2 ^ 31 then Z.of_N v else (Z.of_N v - 2 ^ 32)%Z.

(** ** Hesai XT32 *)
(** components/sources/cu_hesai/src/parser.rs:216-220 (Channel). *)
Record channel := Channel { ch_distance : N; ch_reflectivity : N }.
(** components/sources/cu_hesai/src/parser.rs:165-168 (Block). *)
Record block := Block { bk_azimuth : N; bk_channels : list channel }.
(** components/sources/cu_hesai/src/parser.rs:408-413 (Packet), with the fields read: those of
    the header (83-90) and the tail (270-298: date_time and timestamp). *)
Record packet := Packet {
  pk_laser_num : N; pk_block_num : N; pk_dis_unit : N; pk_return_number : N; pk_udp_seq : N;
  pk_blocks : list block; pk_date_time : list N; pk_timestamp : N }.
(** size_of::<Packet>() (components/sources/cu_hesai/src/parser.rs:474): 6 + 6 + 8 * 130 + 24. *)
Definition PACKET_SIZE : nat := 1076.
(** The view of the bytes as a Block, [k]-th of the packet (components/sources/cu_hesai/src/parser.rs:163-168,
    214-220, 411). *)
Definition block_at (d : list N) (k : nat) : block :=
  Block (u16_at d (12 + 130 * k))
        (map (fun j => Channel (u16_at d (14 + 130 * k + 4 * j)) (byte d (16 + 130 * k + 4 * j))) (seq 0 32)).
(** The view of the bytes as a Packet (bytemuck::from_bytes, components/sources/cu_hesai/src/parser.rs:488). *)
Definition packet_of (d : list N) : packet :=
  Packet (byte d 6) (byte d 7) (byte d 9) (byte d 10) (byte d 11)
         (map (block_at d) (seq 0 8)) (map (fun j => byte d (1065 + j)) (seq 0 6)) (u32_at d 1071).
(** components/sources/cu_hesai/src/parser.rs:101-127, 176-187 and 457-463 (check_invariants). *)
Definition check_invariants (p : packet) : bool :=
  (pk_laser_num p =? 0x20) && (pk_block_num p =? 0x08) && (pk_dis_unit p =? 0x04) && (pk_udp_seq p =? 0x01) &&
  forallb (fun b => bk_azimuth b <=? 36000) (pk_blocks p).
(** components/sources/cu_hesai/src/parser.rs:466-491 (parse_packet); [None] is an error. The
    indexing at 467 and 470 panics on fewer than two bytes. *)
Definition parse_packet (d : list N) : outcome (option packet) :=
  match d with
  | b0 :: b1 :: _ =>
      if negb (b0 =? 0xEE) || negb (b1 =? 0xFF) then Ret None
      else if Nat.ltb (length d) PACKET_SIZE then Ret None
      else if Nat.ltb PACKET_SIZE (length d) then Ret None
      else let p := packet_of d in Ret (if check_invariants p then Some p else None)
  | _ => Panic
  end.
(** components/sources/cu_hesai/src/parser.rs:93-95 (is_dual_return). *)
Definition is_dual_return (p : packet) : bool := pk_return_number p =? 1.

(** Addition of u64 (core/cu29_clock/src/lib.rs:85-93). *)
Definition add64 (mode : ovf_mode) (a b : N) : outcome N :=
  if a + b <? 2 ^ 64 then Ret (a + b) else match mode with Checked => Panic | Wrapping => Ret ((a + b) mod 2 ^ 64) end.
(** Subtraction of u64 (core/cu29_clock/src/lib.rs:75-83). *)
Definition sub64 (mode : ovf_mode) (a b : N) : outcome N :=
  if b <=? a then Ret (a - b) else match mode with Checked => Panic | Wrapping => Ret ((a + 2 ^ 64 - b) mod 2 ^ 64) end.

Section Hesai.
(** chrono's with_ymd_and_hms (external): the UTC nanoseconds of a date, if it exists
    (components/sources/cu_hesai/src/parser.rs:331-339). *)
Context (utc : list N -> option Z) (mode : ovf_mode).
(** components/sources/cu_hesai/src/parser.rs:330-348 (utc_tov). *)
Definition utc_tov (p : packet) : option Z :=
  match utc (pk_date_time p) with
  | None => None
  | Some t => Some (t + 1000 * Z.of_N (pk_timestamp p))%Z
  end.
(** components/sources/cu_hesai/src/parser.rs:354-367 (tov); [ref] is the UTC time (ns) and robot
    time of the last synchronization. num_nanoseconds is none out of 64 bits, [as u64] wraps. *)
Definition packet_tov (ref : Z * N) (p : packet) : outcome (option N) :=
  match utc_tov p with
  | None => Ret None
  | Some t =>
      let elapsed := (t - fst ref)%Z in
      if ((elapsed <? - 2 ^ 63) || (2 ^ 63 <=? elapsed))%Z then Panic
      else let! c := add64 mode (snd ref) (Z.to_N (elapsed mod 2 ^ 64)%Z) in Ret (Some c)
  end.
(** components/sources/cu_hesai/src/parser.rs:417-418 (DUAL_RETURN_OFFSETS and
    SINGLE_RETURN_OFFSETS). *)
Definition offsets (dual : bool) : list N := if dual then [3; 3; 2; 2; 1; 1; 0; 0] else [7; 6; 5; 4; 3; 2; 1; 0].
(** The map at components/sources/cu_hesai/src/parser.rs:453. *)
Fixpoint starts (t : N) (l : list N) : outcome (list N) :=
  match l with
  | [] => Ret []
  | o :: l => let! s := sub64 mode t (o * 50000) in let! ss := starts t l in Ret (s :: ss)
  end.
(** components/sources/cu_hesai/src/parser.rs:446-455 (block_ts). *)
Definition block_ts (ref : Z * N) (p : packet) : outcome (option (list N)) :=
  let! t := packet_tov ref p in
  match t with
  | None => Ret None
  | Some t => let! t := add64 mode t 5632 in let! ts := starts t (offsets (is_dual_return p)) in Ret (Some ts)
  end.
(** components/sources/cu_hesai/src/lib.rs:53-59 (channel_time). *)
Definition channel_time (t6 : N) (i : nat) : outcome N :=
  match i with
  | O => let! t := sub64 mode t6 1512 in add64 mode t 280
  | S i => let! t := add64 mode t6 (1512 * N.of_nat i) in add64 mode t 280
  end.
(** A point pushed at components/sources/cu_hesai/src/lib.rs:122: its time, and the azimuth,
    channel, distance and reflectivity from which the coordinates are computed (108-114). *)
Record point := Point { pt_tov : N; pt_azimuth : N; pt_channel : nat; pt_distance : N; pt_reflectivity : N }.
(** components/sources/cu_hesai/src/lib.rs:109-123: the channels of a block from number [i] on;
    the points and the bounds so far. *)
Fixpoint channels_loop (t6 azimuth : N) (i : nat) (cs : list channel) (st : list point * N * N) : outcome (list point * N * N) :=
  match cs with
  | [] => Ret st
  | c :: cs =>
      let '(ps, lo, hi) := st in
      let! t := channel_time t6 i in
      let '(lo, hi) := if t <? lo then (t, hi) else if hi <? t then (lo, t) else (lo, hi) in
      channels_loop t6 azimuth (S i) cs (ps ++ [Point t azimuth i (ch_distance c) (ch_reflectivity c)], lo, hi)
  end.
(** components/sources/cu_hesai/src/lib.rs:107-124: the blocks. There is room for 320 points
    (44), enough for the 8 * 32 of a packet. *)
Fixpoint blocks_loop (t6 : N) (bs : list block) (st : list point * N * N) : outcome (list point * N * N) :=
  match bs with
  | [] => Ret st
  | b :: bs => let! st := channels_loop t6 (bk_azimuth b) 0 (bk_channels b) st in blocks_loop t6 bs st
  end.
(** What reading the socket gives (components/sources/cu_hesai/src/lib.rs:94-95, 132, 137). *)
Inductive received := Datagram (d : list N) | WouldBlock | IoError.
(** components/sources/cu_hesai/src/lib.rs:91-140 (process). A datagram is cut to 1500 bytes
    (93). CuTime::MAX and MIN start the bounds (core/cu29_clock/src/lib.rs:27-29). *)
Definition hesai_process (ref : Z * N) (r : received) (m : msg (list point)) : outcome (processed (list point)) :=
  match r with
  | WouldBlock => Ret (Done (Msg None (m_tov m)))
  | IoError => Ret (Failed (Msg (Some []) (m_tov m)))
  | Datagram d =>
      let! p := parse_packet (firstn 1500 d) in
      match p with
      | None => Ret (Failed (Msg (Some []) (m_tov m)))
      | Some p =>
          let! ts := block_ts ref p in
          match ts with
          | None => Ret (Failed (Msg (Some []) (m_tov m)))
          | Some ts =>
              let! st := blocks_loop (nth 5 ts 0) (pk_blocks p) ([], NONE_VALUE - 1, 0) in
              let '(ps, lo, hi) := st in
              Ret (Done (Msg (Some ps) (TovRange (TimeRange lo hi))))
          end
      end
  end.
End Hesai.

(** ** Livox Tele-15 *)
(** components/sources/cu_livox/src/parser.rs:177-183 (PointType2), without the tag. *)
Record lpoint := LPoint { lp_x : Z; lp_y : Z; lp_z : Z; lp_reflectivity : N }.
(** components/sources/cu_livox/src/parser.rs:258-261 (LidarFrame), with the fields of the header
    that are read (148-150). *)
Record lframe := LFrame { lf_data_type : N; lf_timestamp : N; lf_points : list lpoint }.
(** DATA_FRAME_TYPE2_SIZE (components/sources/cu_livox/src/parser.rs:254): 18 + 96 * 14. *)
Definition FRAME_SIZE : nat := 1362.
(** The view of the bytes as a LidarFrame (components/sources/cu_livox/src/parser.rs:140-151,
    175-183, 256-261, 300). *)
Definition frame_of (d : list N) : lframe :=
  LFrame (byte d 9) (u64_at d 10)
    (map (fun k => LPoint (i32_at d (18 + 14 * k)) (i32_at d (22 + 14 * k)) (i32_at d (26 + 14 * k)) (byte d (30 + 14 * k))) (seq 0 96)).
(** components/sources/cu_livox/src/parser.rs:276-308 (parse_frame); [None] is an error. The
    indexing at 277 panics without any byte. *)
Definition parse_frame (d : list N) : outcome (option lframe) :=
  match d with
  | [] => Panic
  | b0 :: _ =>
      if negb (b0 =? 5) then Ret None
      else if Nat.ltb (length d) FRAME_SIZE then Ret None
      else if Nat.ltb FRAME_SIZE (length d) then Ret None
      else let f := frame_of d in Ret (if negb (lf_data_type f =? 2) then None else Some f)
  end.
(** components/sources/cu_livox/src/lib.rs:59-87 (process). A point is pushed with the time of the
    frame; there is room for 100 points (26), enough for the 96 of a frame. *)
Definition livox_process (r : received) (m : msg (list (N * lpoint))) : outcome (processed (list (N * lpoint))) :=
  match r with
  | WouldBlock => Ret (Done (Msg None (m_tov m)))
  | IoError => Ret (Failed (Msg (Some []) (m_tov m)))
  | Datagram d =>
      let! f := parse_frame (firstn 1500 d) in
      match f with
      | None => Ret (Failed (Msg (Some []) (m_tov m)))
      | Some f => Ret (Done (Msg (Some (map (fun p => (lf_timestamp f, p)) (lf_points f))) (m_tov m)))
      end
  end.
