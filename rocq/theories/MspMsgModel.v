(** The messages of the MSP protocol: what a received packet is taken for, what a
    request is sent as (components/common/cu_msp_lib/src/structs.rs and commands.rs), and
    the tasks that do so (components/sinks/cu_msp_sink, components/sources/cu_msp_src). *)
From Coq Require Import List Arith NArith ZArith Bool.
From Verif Require Import Base BincodeModel MspModel.
Import ListNotations.
Local Open Scope N_scope.

(** The kinds of fields of the packed structs of components/common/cu_msp_lib/src/structs.rs:14-902
    (packed_struct, external): an integer of some bytes, least significant first, signed or
    not; an enum of one byte, by its numbers; a byte holding booleans at bit positions
    counted from the most significant bit. An array is its elements, a nested struct its fields. *)
Inductive field := FU (n : nat) | FI (n : nat) | FEnum (codes : list N) | FFlags (ps : list nat).
(** The value of a field: a number (an enum's is its number), or the booleans of a byte
    (components/common/cu_msp_lib/src/structs.rs:14-902). *)
Inductive fvalue := VInt (z : Z) | VFlags (l : list bool).

(** How many bytes a field takes (components/common/cu_msp_lib/src/structs.rs:14-902). *)
Definition width (f : field) : nat := match f with FU n | FI n => n | FEnum _ | FFlags _ => 1 end.
(** size_of ByteArray (components/common/cu_msp_lib/src/lib.rs:417). *)
Definition size (l : list field) : nat := list_sum (map width l).
(** One field unpacked from its bytes (PackedStruct::unpack, called at
    components/common/cu_msp_lib/src/lib.rs:428); [None] is a PackingError. *)
Definition unpack_field (f : field) (b : list N) : option fvalue :=
  match f with
  | FU _ => Some (VInt (Z.of_N (of_le b)))
  | FI n => let v := Z.of_N (of_le b) in
            Some (VInt (if (2 * v <? 256 ^ Z.of_nat n)%Z then v else v - 256 ^ Z.of_nat n)%Z)
  | FEnum codes => if existsb (N.eqb (of_le b)) codes then Some (VInt (Z.of_N (of_le b))) else None
  | FFlags ps => Some (VFlags (map (fun p => N.testbit (of_le b) (N.of_nat (7 - p))) ps))
  end.
(** All fields, one after the other (components/common/cu_msp_lib/src/lib.rs:428). *)
Fixpoint unpack (l : list field) (b : list N) : option (list fvalue) :=
  match l with
  | [] => Some []
  | f :: l => match unpack_field f (firstn (width f) b), unpack l (skipn (width f) b) with
              | Some v, Some vs => Some (v :: vs)
              | _, _ => None
              end
  end.
(** One field packed (PackedStruct::pack, called at components/common/cu_msp_lib/src/structs.rs:982
    and 1019). The remaining bits of a byte of booleans are zero. *)
Definition pack_field (f : field) (v : fvalue) : list N :=
  match f, v with
  | FU n, VInt z => le_bytes n (Z.to_N z)
  | FI n, VInt z => le_bytes n (Z.to_N (z mod 256 ^ Z.of_nat n))
  | FEnum _, VInt z => [Z.to_N z]
  | FFlags ps, VFlags l =>
      [fold_left (fun acc pb => if snd pb : bool then N.lor acc (2 ^ N.of_nat (7 - fst pb)) else acc)
                 (combine ps l) 0]
  | _, _ => []
  end.
(** All fields packed (components/common/cu_msp_lib/src/structs.rs:982, 1019). *)
Fixpoint pack (l : list field) (vs : list fvalue) : list N :=
  match l, vs with f :: l, v :: vs => pack_field f v ++ pack l vs | _, _ => [] end.

(** The numbers of components/common/cu_msp_lib/src/structs.rs:338-363 (MspRcChannel). *)
Definition MspRcChannel : list N := [0; 1; 2; 3; 4; 5; 6; 7; 8; 9; 10; 11; 12; 13; 14; 15; 16; 17; 18; 19].
(** The numbers of components/common/cu_msp_lib/src/structs.rs:540-553 (MixerMode). *)
Definition MixerMode : list N := [1; 2; 3; 4; 5; 6; 7; 8; 9; 10; 11].
(** The numbers of components/common/cu_msp_lib/src/structs.rs:642-656 (SerialIdentifier). *)
Definition SerialIdentifier : list N := [255; 0; 1; 2; 3; 4; 5; 6; 7; 20; 30; 31].
(** The numbers of components/common/cu_msp_lib/src/structs.rs:684-703 (Baudrate). *)
Definition Baudrate : list N := [0; 1; 2; 3; 4; 5; 6; 7; 8; 9; 10; 11; 12; 13; 14; 15; 16].
(** The numbers of components/common/cu_msp_lib/src/structs.rs:844-848 (SettingMode). *)
Definition SettingMode : list N := [0; 64].
(** The numbers of components/common/cu_msp_lib/src/structs.rs:852-862 (SettingType). *)
Definition SettingType : list N := [0; 1; 2; 3; 4; 5; 6; 7].

(** The variants of MspResponse (components/common/cu_msp_lib/src/structs.rs:1038-1088) but Unknown. *)
Inductive kind :=
| MspApiVersion | MspFlightControllerVariant | MspStatus | MspStatusEx | MspBfConfig | MspRawImu 
| MspDataFlashSummaryReply | MspDataFlashReply | MspDataFlashRead | MspAccTrim | MspIdent 
| MspMisc | MspAttitude | MspAltitude | MspBatteryConfig | MspAnalog | MspRssiConfig | MspVoltageMeter 
| MspCurrentMeter | MspBatteryState | MspRcTuning | MspRxConfig | MspRcChannelValue | MspRcMappedChannel 
| MspFeatures | MspMotor | MspMotor3DConfig | MspMotorConfig | MspRcDeadband | MspSensorAlignment 
| MspAdvancedConfig | MspFilterConfig | MspPidAdvanced | MspSensorConfig | MspServos | MspMixerConfig 
| MspModeRange | MspSetModeRange | MspOsdConfig | MspSetGetOsdConfig | MspSetOsdLayout 
| MspSetOsdLayoutItem | MspOsdLayouts | MspSerialSetting | MspSettingInfoRequest | MspSettingInfo 
| MspRc.

(** components/common/cu_msp_lib/src/structs.rs:1091-1143 (command_code), with the numbers of
    components/common/cu_msp_lib/src/commands.rs:7-189. *)
Definition code (k : kind) : N :=
  match k with
  | MspApiVersion => 1 | MspFlightControllerVariant => 2 | MspStatus => 101 | MspStatusEx => 150
  | MspBfConfig => 66 | MspRawImu => 102 | MspDataFlashSummaryReply => 70 | MspDataFlashReply => 71
  | MspDataFlashRead => 71 | MspAccTrim => 240 | MspIdent => 100 | MspMisc => 114 | MspAttitude => 108
  | MspAltitude => 109 | MspBatteryConfig => 32 | MspAnalog => 110 | MspRssiConfig => 50
  | MspVoltageMeter => 128 | MspCurrentMeter => 40 | MspBatteryState => 130 | MspRcTuning => 111
  | MspRxConfig => 44 | MspRcChannelValue => 64 | MspRcMappedChannel => 65 | MspFeatures => 36
  | MspMotor => 104 | MspMotor3DConfig => 124 | MspMotorConfig => 131 | MspRcDeadband => 125
  | MspSensorAlignment => 38 | MspAdvancedConfig => 90 | MspFilterConfig => 92 | MspPidAdvanced => 94
  | MspSensorConfig => 96 | MspServos => 103 | MspMixerConfig => 42 | MspModeRange => 34
  | MspSetModeRange => 35 | MspOsdConfig => 84 | MspSetGetOsdConfig => 84 | MspSetOsdLayout => 184
  | MspSetOsdLayoutItem => 8211 | MspOsdLayouts => 8210 | MspSerialSetting => 4106 | MspSettingInfoRequest => 4099
  | MspSettingInfo => 4103 | MspRc => 105
  end.

(** All command codes (components/common/cu_msp_lib/src/commands.rs:7-189, MspCommandCode). *)
Definition command_codes : list N :=
  [1; 2; 3; 4; 5; 32; 33; 34; 35; 36; 37; 38; 39; 40; 41; 42; 43; 44; 45; 46; 47; 48; 49; 50;
   51; 52; 53; 54; 55; 56; 57; 58; 59; 60; 61; 62; 70; 71; 72; 73; 74; 75; 76; 77; 78; 79; 80;
   81; 82; 83; 84; 85; 86; 87; 127; 221; 128; 129; 130; 131; 180; 181; 182; 183; 184; 185; 100;
   101; 102; 103; 104; 105; 106; 107; 108; 109; 110; 111; 112; 113; 114; 115; 116; 117; 118;
   119; 120; 124; 125; 126; 200; 201; 202; 203; 204; 205; 206; 207; 208; 209; 210; 211; 212;
   214; 217; 218; 219; 220; 241; 242; 250; 253; 254; 66; 160; 150; 240; 239; 164; 64; 65; 68;
   69; 90; 91; 92; 93; 94; 95; 96; 97; 4099; 4100; 4101; 4102; 4103; 4104; 4105; 4106; 8210;
   8211; 8212; 8213; 8214; 8215; 8224; 8225].

(** The variant a packet of a command becomes (components/common/cu_msp_lib/src/structs.rs:1216-1355,
    From<MspPacket>); [None] is Unknown. *)
Definition decoded_kind (c : N) : option kind :=
  match c with
  | 1 => Some MspApiVersion | 2 => Some MspFlightControllerVariant | 101 => Some MspStatus
  | 150 => Some MspStatusEx | 66 => Some MspBfConfig | 102 => Some MspRawImu | 70 => Some MspDataFlashSummaryReply
  | 71 => Some MspDataFlashReply | 240 => Some MspAccTrim | 100 => Some MspIdent | 114 => Some MspMisc
  | 108 => Some MspAttitude | 109 => Some MspAltitude | 32 => Some MspBatteryConfig | 110 => Some MspAnalog
  | 50 => Some MspRssiConfig | 128 => Some MspVoltageMeter | 40 => Some MspCurrentMeter
  | 130 => Some MspBatteryState | 111 => Some MspRcTuning | 44 => Some MspRxConfig | 64 => Some MspRcChannelValue
  | 65 => Some MspRcMappedChannel | 36 => Some MspFeatures | 104 => Some MspMotor | 124 => Some MspMotor3DConfig
  | 131 => Some MspMotorConfig | 125 => Some MspRcDeadband | 38 => Some MspSensorAlignment
  | 90 => Some MspAdvancedConfig | 92 => Some MspFilterConfig | 94 => Some MspPidAdvanced
  | 96 => Some MspSensorConfig | 103 => Some MspServos | 42 => Some MspMixerConfig | 34 => Some MspModeRange
  | 35 => Some MspSetModeRange | 84 => Some MspOsdConfig | 184 => Some MspSetOsdLayout
  | 8211 => Some MspSetOsdLayoutItem | 8210 => Some MspOsdLayouts | 4106 => Some MspSerialSetting
  | 4099 => Some MspSettingInfoRequest | 4103 => Some MspSettingInfo | 105 => Some MspRc
  | _ => None
  end.

Section Odd.
Variable odd : kind -> list field.

(** The structs of components/common/cu_msp_lib/src/structs.rs:14-902, field by field; the
    struct of each kind starts at the line given. Six structs announce fewer bytes than
    their fields take ([bytes = ..] at 136, 149, 590, 607, 617 and 866): what the crate makes
    of them is left open ([odd]). *)
Definition layout (k : kind) : list field :=
  match k with
  | MspApiVersion => [FU 1; FU 1; FU 1] (* 16 *)
  | MspFlightControllerVariant => repeat (FU 1) 4 (* 24 *)
  | MspStatus => [FU 2; FU 2; FFlags [2;4;5;6;7]%nat; FU 1; FU 4; FU 1; FU 2] (* 78 *)
  | MspStatusEx => [FU 2; FU 2; FFlags [2;4;5;6;7]%nat; FU 1; FU 4; FU 1; FU 2; FU 1; FU 1] (* 92 *)
  | MspBfConfig => [FU 1; FU 4; FU 1] ++ repeat (FI 2) 5 (* 108 *)
  | MspRawImu => repeat (FI 2) 9 (* 122 *)
  | MspDataFlashSummaryReply => odd MspDataFlashSummaryReply (* 137 *)
  | MspDataFlashReply => odd MspDataFlashReply (* 150 *)
  | MspDataFlashRead => [FU 4; FU 2] (* 158 *)
  | MspAccTrim => [FU 2; FU 2] (* 166 *)
  | MspIdent => [FU 1; FU 1; FU 1; FU 4] (* 174 *)
  | MspMisc => repeat (FU 2) 5 ++ repeat (FU 1) 6 ++ [FU 2] (* 184 *)
  | MspAttitude => [FI 2; FI 2; FI 2] (* 205 *)
  | MspAltitude => [FI 4; FI 2] (* 214 *)
  | MspBatteryConfig => [FU 1; FU 1; FU 1; FU 2; FU 1; FU 1] (* 224 *)
  | MspAnalog => [FU 1; FU 2; FU 2; FI 2] (* 236 *)
  | MspRssiConfig => [FU 1] (* 247 *)
  | MspVoltageMeter => [FU 1; FU 1] (* 253 *)
  | MspCurrentMeter => [FU 1; FU 2; FU 2] (* 261 *)
  | MspBatteryState => [FU 1; FU 2; FU 1; FU 2; FI 2; FU 1] (* 271 *)
  | MspRcTuning => repeat (FU 1) 8 ++ [FU 2; FU 1; FU 1] (* 293 *)
  | MspRxConfig => [FU 1; FU 2; FU 2; FU 2; FU 1; FU 2; FU 2; FU 1; FU 1; FU 2; FU 1; FU 4; FU 1; FU 1] (* 312 *)
  | MspRcChannelValue => [FU 2] (* 332 *)
  | MspRcMappedChannel => [FEnum MspRcChannel] (* 367 *)
  | MspFeatures => repeat (FFlags [0;1;2;3;4;5;6;7]%nat) 4 (* 374 *)
  | MspMotor => repeat (FU 2) 8 (* 381 *)
  | MspMotor3DConfig => [FU 2; FU 2; FU 2] (* 388 *)
  | MspMotorConfig => [FU 2; FU 2; FU 2] (* 397 *)
  | MspRcDeadband => [FU 1; FU 1; FU 1; FU 2] (* 406 *)
  | MspSensorAlignment => [FU 1; FU 1; FU 1] (* 416 *)
  | MspAdvancedConfig => repeat (FU 1) 4 ++ [FU 2; FU 2; FU 1; FU 1] (* 425 *)
  | MspFilterConfig => [FU 1] ++ repeat (FU 2) 8 (* 439 *)
  | MspPidAdvanced => [FU 2; FU 2; FU 2] ++ repeat (FU 1) 7 ++ [FU 2; FU 2; FU 1; FU 1] (* 454 *)
  | MspSensorConfig => [FU 1; FU 1; FU 1] (* 474 *)
  | MspServos => repeat (FU 2) 8 (* 483 *)
  | MspMixerConfig => [FEnum MixerMode] (* 513 *)
  | MspModeRange => [FU 1; FEnum MspRcChannel; FU 1; FU 1] (* 521 *)
  | MspSetModeRange => [FU 1; FU 1; FEnum MspRcChannel; FU 1; FU 1] (* 532 *)
  | MspOsdConfig => [FU 1; FU 1; FU 1] ++ repeat (FU 2) 5 (* 577 *)
  | MspSetGetOsdConfig => odd MspSetGetOsdConfig (* 591 *)
  | MspSetOsdLayout => odd MspSetOsdLayout (* 608 *)
  | MspSetOsdLayoutItem => odd MspSetOsdLayoutItem (* 618 *)
  | MspOsdLayouts => [FU 1; FU 1] (* 635 *)
  | MspSerialSetting => [FEnum SerialIdentifier; FU 4] ++ repeat (FEnum Baudrate) 4 (* 762 *)
  | MspSettingInfoRequest => [FU 1; FU 2] (* 837 *)
  | MspSettingInfo => odd MspSettingInfo (* 867 *)
  | MspRc => repeat (FU 2) 16 (* 899 *)
  end.

(** components/common/cu_msp_lib/src/structs.rs:1038-1088 (MspResponse): a variant with the
    values of its struct. *)
Inductive response := Unknown | Resp (k : kind) (vs : list fvalue).
(** components/common/cu_msp_lib/src/lib.rs:416-429 (decode_as); [None] is a PackingError. *)
Definition decode_as (k : kind) (p : packet) : option (list fvalue) :=
  if Nat.ltb (length (k_data p)) (size (layout k)) then None
  else unpack (layout k) (k_data p).
(** components/common/cu_msp_lib/src/structs.rs:1216-1355 (From<MspPacket> for MspResponse), with
    components/common/cu_msp_lib/src/commands.rs:191-195 (From<u16>): an unknown code and a failed
    decoding panic. *)
Definition response_of (p : packet) : outcome response :=
  if existsb (N.eqb (k_cmd p)) command_codes then
    match decoded_kind (k_cmd p) with
    | Some k => match decode_as k p with Some vs => Ret (Resp k vs) | None => Panic end
    | None => Ret Unknown
    end
  else Panic.
(** components/common/cu_msp_lib/src/structs.rs:1145-1204 (to_bytes). pack_to_slice refuses a slice
    that has not the size of the struct; the slice given is that of a new, empty vector.
    [None] is a PackingError. *)
Definition to_bytes (r : response) : option (list N) :=
  match r with
  | Resp k vs => if Nat.eqb (size (layout k)) 0 then Some (pack (layout k) vs) else None
  | Unknown => None
  end.
(** components/common/cu_msp_lib/src/structs.rs:1207-1215 (From<MspResponse> for MspPacket). *)
Definition packet_of_response (r : response) : outcome packet :=
  let c := match r with Resp k _ => code k | Unknown => 1 end in
  match to_bytes r with Some d => Ret (Packet c FromFC d) | None => Panic end.

(** components/sources/cu_msp_src/src/lib.rs:127-139, with the conversion of each packet
    ([response_of]), stopping when the batch holds [max] responses. *)
Fixpoint response_loop (max : nat) (p : parser) (batch : list response) (l : list N)
    : outcome (parser * list response) :=
  match l with
  | [] => Ret (p, batch)
  | b :: l => let! (p, r) := parse p b in
              match r with
              | Delivered k => let! x := response_of k in
                               let batch := batch ++ [x] in
                               if Nat.leb max (length batch) then Ret (p, batch)
                               else response_loop max p batch l
              | _ => response_loop max p batch l
              end
  end.
End Odd.

(** components/common/cu_msp_lib/src/structs.rs:947-954 (MspRequest); the channels of MspRc (899-901). *)
Inductive request := RUnknown | RBatteryState | RRc | RSetRawRc (channels : list N) | RRawImu.
(** components/common/cu_msp_lib/src/structs.rs:957-965 (MspRequest::command_code), with the numbers of
    components/common/cu_msp_lib/src/commands.rs. *)
Definition request_code (r : request) : N :=
  match r with RBatteryState => 130 | RRc => 105 | RSetRawRc _ => 200 | RRawImu => 102 | RUnknown => 1 end.
(** components/common/cu_msp_lib/src/structs.rs:1003-1033 (From<&MspRequest> for MspPacket; 968-1001 does
    the same for a request by value). *)
Definition packet_of_request (r : request) : packet :=
  match r with
  | RBatteryState => Packet 130 ToFC []
  | RRc => Packet 105 ToFC []
  | RSetRawRc ch => Packet 200 ToFC (pack (repeat (FU 2) 16) (map (fun c => VInt (Z.of_N c)) ch))
  | RRawImu => Packet 102 ToFC []
  | RUnknown => Packet 1 ToFC []
  end.

(** components/common/cu_msp_lib/src/structs.rs:910-912 (MspRc::new). *)
Definition rc_new : list N := repeat 0 16.
(** The setters of components/common/cu_msp_lib/src/structs.rs:914-941: the index each writes. *)
Inductive setter := SRoll | SPitch | SThrottle | SYaw | SAux1 | SAux2 | SAux3 | SAux4.
(** components/common/cu_msp_lib/src/structs.rs:914-941 (set_roll to set_aux4). *)
Definition set_channel (s : setter) (v : N) (ch : list N) : list N :=
  upd (match s with SRoll => 0 | SPitch => 1 | SThrottle => 2 | SYaw => 3
                  | SAux1 => 4 | SAux2 => 5 | SAux3 => 6 | SAux4 => 7 end)%nat v ch.

(** components/sinks/cu_msp_sink/src/lib.rs:91-113 (process), for a batch of requests. Each
    element of [port] tells how a write_all ends: [None] well, [Some n] with an error after
    [n] bytes; missing ones end well. The bytes on the line and whether the call succeeded. *)
Fixpoint sink_process (port : list (option nat)) (batch : list request) : list N * bool :=
  match batch with
  | [] => ([], true)
  | r :: batch =>
      let bytes := serialize (packet_of_request r) in
      match port with
      | Some n :: _ => (firstn n bytes, false)
      | _ => let (rest, ok) := sink_process (tl port) batch in (bytes ++ rest, ok)
      end
  end.

(** Derived Encode of MspRequest (components/common/cu_msp_lib/src/structs.rs:945) and MspRc (896): the
    variant as u32, an array without its length. *)
Definition enc_request (r : request) : bytes :=
  match r with
  | RUnknown => enc_u32 0 | RBatteryState => enc_u32 1 | RRc => enc_u32 2
  | RSetRawRc ch => enc_u32 3 ++ enc_all enc_u16 ch
  | RRawImu => enc_u32 4
  end.
(** Derived Decode of MspRequest (components/common/cu_msp_lib/src/structs.rs:945). *)
Definition dec_request : decoder request :=
  let? v := dec_u32 in
  if v =? 0 then dret RUnknown else if v =? 1 then dret RBatteryState
  else if v =? 2 then dret RRc
  else if v =? 3 then let? ch := dec_n dec_u16 16 in dret (RSetRawRc ch)
  else if v =? 4 then dret RRawImu else dfail.
(** components/sinks/cu_msp_sink/src/lib.rs:34-38 (Encode for MspRequestBatch). *)
Definition enc_batch (l : list request) : bytes := enc_vec enc_request l.
(** components/sinks/cu_msp_sink/src/lib.rs:40-45 (Decode for MspRequestBatch). *)
Definition dec_batch : decoder (list request) := dec_vec dec_request.

(** components/common/cu_msp_lib/src/structs.rs:285-287 (cell_voltage): the divisor, [10 * cells] in
    u8; the division is in f32. *)
Definition cell_divisor (mode : ovf_mode) (cells : N) : outcome N :=
  let d := 10 * cells in
  if d <? 256 then Ret d
  else match mode with Checked => Panic | Wrapping => Ret (d mod 256) end.
