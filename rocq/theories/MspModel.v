(** The MSP protocol: serializer, parser (components/common/cu_msp_lib/src/lib.rs) and the
    source task (components/sources/cu_msp_src/src/lib.rs). A byte is an [N] below 256. The
    CRC of the crc_any crate (crc8dvb_s2) is transcribed from its parameters. *)
From Coq Require Import List Arith NArith Bool.
From Verif Require Import Base.
Import ListNotations.
Local Open Scope N_scope.

(** components/common/cu_msp_lib/src/lib.rs:91-98 (MspPacketDirection). *)
Inductive direction := ToFC | FromFC | Unsupported.
(** components/common/cu_msp_lib/src/lib.rs:102-109 (to_byte). *)
Definition to_byte (d : direction) : N := match d with ToFC => 60 | FromFC => 62 | Unsupported => 33 end.
(** components/common/cu_msp_lib/src/lib.rs:114-120 (MspPacket). *)
Record packet := Packet { k_cmd : N; k_dir : direction; k_data : list N }.

(** CRC8/DVB-S2 of the crc_any crate (polynomial 0xD5, start 0, not reflected), used at
    components/common/cu_msp_lib/src/lib.rs:407-409: one bit. *)
Definition crc_bit (c : N) : N :=
  if N.testbit c 7 then N.lxor ((2 * c) mod 256) 0xD5 else (2 * c) mod 256.
(** The same, eight bits (components/common/cu_msp_lib/src/lib.rs:408). *)
Definition crc_table (c : N) : N :=
  crc_bit (crc_bit (crc_bit (crc_bit (crc_bit (crc_bit (crc_bit (crc_bit c))))))).
(** CRCu8::digest (components/common/cu_msp_lib/src/lib.rs:223, 235, 250, 311, 408). *)
Definition digest (c : N) (l : list N) : N := fold_left (fun c b => crc_table (N.lxor c b)) l c.

(** components/common/cu_msp_lib/src/lib.rs:366-389 (serialize) into a buffer of the right
    size; [as u8] drops the high bits. *)
Definition serialize (p : packet) : list N :=
  let len := N.of_nat (length (k_data p)) mod 256 in
  let cmd := k_cmd p mod 256 in
  [36; 77; to_byte (k_dir p); len; cmd] ++ k_data p ++ [fold_left N.lxor (k_data p) (N.lxor len cmd)].
(** components/common/cu_msp_lib/src/lib.rs:392-414 (serialize_v2) into a buffer of the right
    size. *)
Definition serialize_v2 (p : packet) : list N :=
  let len := N.of_nat (length (k_data p)) mod 65536 in
  let body := [0; k_cmd p mod 256; k_cmd p / 256; len mod 256; len / 256] ++ k_data p in
  [36; 88; to_byte (k_dir p)] ++ body ++ [digest 0 body].

(** components/common/cu_msp_lib/src/lib.rs:123-135 (MspParserState). *)
Inductive pstate := Header1 | Header2 | Direction | FlagV2 | DataLength | DataLengthV2 | Command | CommandV2 | Data | DataV2 | Crc.
(** components/common/cu_msp_lib/src/lib.rs:145-154 (MspParser); the version is V2 or not. *)
Record parser := Parser { p_state : pstate; p_v2 : bool; p_dir : direction; p_cmd : N; p_rem : N;
                          p_data : list N; p_crc : N; p_crc2 : N }.
(** components/common/cu_msp_lib/src/lib.rs:158-169 (new). *)
Definition parser_new : parser := Parser Header1 false ToFC 0 0 [] 0 0.
(** components/common/cu_msp_lib/src/lib.rs:334-343 (reset). *)
Definition reset (p : parser) : parser := Parser Header1 (p_v2 p) ToFC 0 0 [] 0 0.
(** components/common/cu_msp_lib/src/lib.rs:172-174 (state_is_between_packets). *)
Definition between (p : parser) : bool := match p_state p with Header1 => true | _ => false end.
(** The result of components/common/cu_msp_lib/src/lib.rs:178 (errors: 57-65). *)
Inductive result := Nothing | Delivered (k : packet) | InvalidHeader2 | InvalidDirection | CrcMismatch (expected calculated : N).
(** Assignment of the state field in components/common/cu_msp_lib/src/lib.rs:178-332. *)
Definition goto (p : parser) (s : pstate) : parser :=
  Parser s (p_v2 p) (p_dir p) (p_cmd p) (p_rem p) (p_data p) (p_crc p) (p_crc2 p).
(** components/common/cu_msp_lib/src/lib.rs:178-332 (parse). [remaining -= 1] at 0 panics. *)
Definition parse (p : parser) (b : N) : outcome (parser * result) :=
  match p_state p with
  | Header1 => Ret (if b =? 36 then goto p Header2 else reset p, Nothing)
  | Header2 =>
      if b =? 77 then Ret (Parser Direction false (p_dir p) (p_cmd p) (p_rem p) (p_data p) (p_crc p) (p_crc2 p), Nothing)
      else if b =? 88 then Ret (Parser Direction true (p_dir p) (p_cmd p) (p_rem p) (p_data p) (p_crc p) (p_crc2 p), Nothing)
      else Ret (reset p, InvalidHeader2)
  | Direction =>
      let next d := Parser (if p_v2 p then FlagV2 else DataLength) (p_v2 p) d (p_cmd p) (p_rem p) (p_data p) (p_crc p) (p_crc2 p) in
      if b =? 60 then Ret (next ToFC, Nothing) else if b =? 62 then Ret (next FromFC, Nothing)
      else if b =? 33 then Ret (next Unsupported, Nothing) else Ret (reset p, InvalidDirection)
  | FlagV2 => Ret (Parser CommandV2 (p_v2 p) (p_dir p) (p_cmd p) (p_rem p) [] (p_crc p) (digest (p_crc2 p) [b]), Nothing)
  | CommandV2 =>
      let d := p_data p ++ [b] in
      match d with
      | [lo; hi] => Ret (Parser DataLengthV2 (p_v2 p) (p_dir p) (lo + 256 * hi) (p_rem p) [] (p_crc p) (digest (p_crc2 p) d), Nothing)
      | _ => Ret (Parser CommandV2 (p_v2 p) (p_dir p) (p_cmd p) (p_rem p) d (p_crc p) (p_crc2 p), Nothing)
      end
  | DataLengthV2 =>
      let d := p_data p ++ [b] in
      match d with
      | [lo; hi] => let rem := lo + 256 * hi in
          Ret (Parser (if rem =? 0 then Crc else DataV2) (p_v2 p) (p_dir p) (p_cmd p) rem [] (p_crc p) (digest (p_crc2 p) d), Nothing)
      | _ => Ret (Parser DataLengthV2 (p_v2 p) (p_dir p) (p_cmd p) (p_rem p) d (p_crc p) (p_crc2 p), Nothing)
      end
  | DataV2 =>
      if p_rem p =? 0 then Panic
      else Ret (Parser (if p_rem p - 1 =? 0 then Crc else DataV2) (p_v2 p) (p_dir p) (p_cmd p) (p_rem p - 1)
                  (p_data p ++ [b]) (p_crc p) (p_crc2 p), Nothing)
  | DataLength => Ret (Parser Command (p_v2 p) (p_dir p) (p_cmd p) b [] (N.lxor (p_crc p) b) (p_crc2 p), Nothing)
  | Command => Ret (Parser (if p_rem p =? 0 then Crc else Data) (p_v2 p) (p_dir p) b (p_rem p) (p_data p)
                      (N.lxor (p_crc p) b) (p_crc2 p), Nothing)
  | Data =>
      if p_rem p =? 0 then Panic
      else Ret (Parser (if p_rem p - 1 =? 0 then Crc else Data) (p_v2 p) (p_dir p) (p_cmd p) (p_rem p - 1)
                  (p_data p ++ [b]) (N.lxor (p_crc p) b) (p_crc2 p), Nothing)
  | Crc =>
      let crc := if p_v2 p then digest (p_crc2 p) (p_data p) else p_crc p in
      if negb (b =? crc) then Ret (reset p, CrcMismatch b crc)
      else Ret (reset p, Delivered (Packet (p_cmd p) (p_dir p) (p_data p)))
  end.
(** A stream of bytes (components/common/cu_msp_lib/src/lib.rs:178, called for each byte):
    the parser afterwards and the result for each byte. *)
Fixpoint feed (p : parser) (l : list N) : outcome (parser * list result) :=
  match l with
  | [] => Ret (p, [])
  | b :: l => let! (p, r) := parse p b in let! (p, rs) := feed p l in Ret (p, r :: rs)
  end.

(** components/sources/cu_msp_src/src/lib.rs:127-139: the loop over the bytes read, which
    stops when the batch holds [max] packets (MAX_MSG_SIZE = 16, line 19). *)
Fixpoint batch_loop (max : nat) (p : parser) (batch : list packet) (l : list N) : outcome (parser * list packet) :=
  match l with
  | [] => Ret (p, batch)
  | b :: l => let! (p, r) := parse p b in
              match r with
              | Delivered k => let batch := batch ++ [k] in
                               if (Nat.leb max (length batch)) then Ret (p, batch) else batch_loop max p batch l
              | _ => batch_loop max p batch l
              end
  end.
(** components/sources/cu_msp_src/src/lib.rs:108-146 (process); [None]: the read failed and
    the output is not set. A response is represented by its packet. *)
Definition src_process (max : nat) (p : parser) (read : option (list N)) : outcome (parser * option (list packet)) :=
  match read with
  | None => Ret (p, None)
  | Some l => let! (p, batch) := batch_loop max p [] l in Ret (p, Some batch)
  end.
(** Successive calls of components/sources/cu_msp_src/src/lib.rs:108-146. *)
Fixpoint src_run (max : nat) (p : parser) (reads : list (option (list N))) : outcome (list (option (list packet))) :=
  match reads with
  | [] => Ret []
  | r :: reads => let! (p, o) := src_process max p r in let! os := src_run max p reads in Ret (o :: os)
  end.
