(** The packet replayer components/testing/cu_udp_inject and the lidar source
    components/sources/cu_vlp16. Reading captures (crate pcap) and packets (crate velodyne-lidar),
    sockets and clocks are inputs. Times are in nanoseconds. *)
From Coq Require Import String.
From Coq Require Import List Arith NArith ZArith Bool.
From Verif Require Import Base FloatModel CloudModel CodecModel SourcesModel LidarModel.
Import ListNotations.

(** ** The replayer *)
(** A packet of a capture (crate pcap, used at components/testing/cu_udp_inject/src/lib.rs:37-38,
    43, 51-52): its bytes, seconds and microseconds (of type i64). *)
Record capt := Capt { k_data : list N; k_sec : Z; k_usec : Z }.
(** components/testing/cu_udp_inject/src/lib.rs:9-15 (PcapStreamer): what is left of the capture
    ([None]: a record that cannot be read), the time of the last packet, the time of creation.
    The socket and the address do not change. *)
Record streamer := Streamer { s_capture : list (option capt); s_last : option N; s_start : N }.
(** components/testing/cu_udp_inject/src/lib.rs:18-28 (new) at time [now], of a file that can be
    opened. *)
Definition streamer_new (capture : list (option capt)) (now : N) : streamer := Streamer capture None now.
(** What a call gives (components/testing/cu_udp_inject/src/lib.rs:39, 45, 67): a datagram sent at
    some time and [Ok(true)], an error, or [Ok(false)]. *)
Inductive replayed := Sent (at_ : N) (payload : list N) | TooShort | Ended.
(** components/testing/cu_udp_inject/src/lib.rs:52: the time of a packet. The multiplication of
    u32 numbers is checked or wraps; Duration::new carries the seconds and panics when they
    overflow. *)
Definition packet_time (mode : ovf_mode) (p : capt) : outcome N :=
  let sec := Z.to_N (k_sec p mod 2 ^ 64) in
  let us := Z.to_N (k_usec p mod 2 ^ 32) in
  let! nanos := (let n := (us * 1000)%N in
                 match mode with
                 | Checked => if (n <? 2 ^ 32)%N then Ret n else Panic
                 | Wrapping => Ret (n mod 2 ^ 32)%N
                 end) in
  if (sec + nanos / 1000000000 <? 2 ^ 64)%N then Ret (sec * 1000000000 + nanos)%N else Panic.
(** components/testing/cu_udp_inject/src/lib.rs:33-68 (send_next) for payloads of [ps] bytes. The
    clock shows [now]; a sleep is [late] longer than asked for; [up] tells whether the socket
    sends (63-66). *)
Definition send_next (mode : ovf_mode) (ps : nat) (now late : N) (up : bool) (s : streamer) : outcome (streamer * replayed) :=
  match s_capture s with
  | [] => Ret (s, Ended)
  | None :: l => Ret (Streamer l (s_last s) (s_start s), Ended)
  | Some p :: l =>
      if Nat.ltb (length (k_data p)) (42 + ps) then Ret (Streamer l (s_last s) (s_start s), TooShort)
      else
        let payload := firstn ps (skipn 42 (k_data p)) in
        let! ts := packet_time mode p in
        let at_ := match s_last s with
                   | None => now
                   | Some last =>
                       let elapsed := (now - s_start s)%N in
                       if (last <? ts)%N then
                         let wait := (ts - last)%N in
                         if (elapsed <? wait)%N then (now + (wait - elapsed) + late)%N else now
                       else now
                   end in
        if up then Ret (Streamer l (Some ts) (s_start s), Sent at_ payload) else Panic
  end.
(** Successive calls of components/testing/cu_udp_inject/src/lib.rs:33 from time [t] on, each with
    the time the caller lets pass before it and the lateness of its sleep. *)
Fixpoint replay (mode : ovf_mode) (ps : nat) (t : N) (calls : list (N * N)) (s : streamer) : outcome (list replayed) :=
  match calls with
  | [] => Ret []
  | (pause, late) :: calls =>
      let! r := send_next mode ps (t + pause) late true s in
      let '(s, x) := r in
      let t := match x with Sent at_ _ => at_ | _ => (t + pause)%N end in
      let! l := replay mode ps t calls s in
      Ret (x :: l)
  end.

(** ** The Velodyne source *)
(** A parameter of the configuration (core/cu29_runtime/src/config.rs:54-57, get): absent, a text,
    or a value of another type, whose conversion to String panics (162-170). *)
Inductive param := Absent | Text (s : string) | OtherValue.
(** components/sources/cu_vlp16/src/lib.rs:32-36: a parameter or its default. *)
Definition text_or (d : string) (p : param) : outcome string :=
  match p with Absent => Ret d | Text s => Ret s | OtherValue => Panic end.
(** The configurations of the library (components/sources/cu_vlp16/src/lib.rs:38-40). *)
Inductive velo_mode := Strongest | Last | Dual.
(** components/sources/cu_vlp16/src/lib.rs:14-20 (Vlp16), without the flag that is not read: the
    mode, the address and whether there is a socket. *)
Record velo := Velo { v_mode : velo_mode; v_addr : string; v_socket : bool }.
(** components/sources/cu_vlp16/src/lib.rs:27-51 (new); [None] is an error. The parameters are
    listen_addr, return_type and test_mode. *)
Definition velo_new (config : option (param * param * param)) : outcome (option velo) :=
  match config with
  | None => Panic
  | Some (a, r, t) =>
      let! addr := text_or "0.0.0.0:2368" a in
      let! ret := text_or "last" r in
      let! _ := text_or "false" t in
      if String.eqb ret "strongest" then Ret (Some (Velo Strongest addr false))
      else if String.eqb ret "last" then Ret (Some (Velo Last addr false))
      else if String.eqb ret "dual" then Ret (Some (Velo Dual addr false))
      else Ret None
  end.
(** components/sources/cu_vlp16/src/lib.rs:53-60 (start); [bound] tells whether the address can be
    bound, a failure panics (54). *)
Definition velo_start (bound : bool) (v : velo) : outcome velo :=
  if bound then Ret (Velo (v_mode v) (v_addr v) true) else Panic.
(** components/sources/cu_vlp16/src/lib.rs:91-94 (stop). *)
Definition velo_stop (v : velo) : velo := Velo (v_mode v) (v_addr v) false.

(** A measurement of the library (components/sources/cu_vlp16/src/lib.rs:79-83): the time within
    the hour, the coordinates in meters cast to f32 (their bits), the intensity. *)
Record meas := Meas { e_toh : N; e_x : N; e_y : N; e_z : N; e_intensity : N }.
(** A point of a firing (components/sources/cu_vlp16/src/lib.rs:76-78): one measurement or two. *)
Inductive echo := One (m : meas) | Two (strongest last : meas).
(** components/sources/cu_vlp16/src/lib.rs:83: the intensity as a f32 between 0 and 1. *)
Definition intensity (n : N) : f32 := fdiv (f32_of n) (f32_of 255).
(** components/sources/cu_vlp16/src/lib.rs:84 with PointCloud::new
    (components/payloads/cu_sensor_payloads/src/pointcloud.rs:121-130). *)
Definition velo_point (c : conversion) (m : meas) : pt :=
  Pt (e_toh m mod 2 ^ 64)%N (e_x m) (e_y m) (e_z m) (percent c (to_bits (intensity (e_intensity m)))) 0.
Section Process.
(** Packet::from_slice (components/sources/cu_vlp16/src/lib.rs:68): the library's reading of the
    bytes; [None] is an error. *)
Variable P : Type.
Variable parse : list N -> option P.
(** try_packet_to_frame_xyz of one packet (components/sources/cu_vlp16/src/lib.rs:70-74): an error,
    or frames each of which may be an error; a frame is a list of firings. *)
Variable frames : velo_mode -> P -> option (list (option (list (list echo)))).
(** components/sources/cu_vlp16/src/lib.rs:77-85: the points pushed on a cloud with room for
    10000 points (75); a point with two measurements and a full cloud panic. *)
Fixpoint push_points (c : conversion) (l : list echo) (out : list pt) : outcome (list pt) :=
  match l with
  | [] => Ret out
  | Two _ _ :: _ => Panic
  | One m :: l => if (N.of_nat (length out) <? 10000)%N then push_points c l (out ++ [velo_point c m]) else Panic
  end.
(** components/sources/cu_vlp16/src/lib.rs:62-90 (process). A datagram is cut to 1206 bytes (64);
    a read error, among them 100 ms without a datagram (56), panics (65). The time of validity of
    the message is not set. *)
Definition velo_process (c : conversion) (v : velo) (r : received) (m : msg (list pt)) : outcome (processed (list pt)) :=
  if v_socket v then
    match r with
    | WouldBlock => Panic
    | IoError => Panic
    | Datagram d =>
        match parse (firstn (6 * 201) d) with
        | None => Panic
        | Some p =>
            match frames (v_mode v) p with
            | Some (Some firings :: _) => let! out := push_points c (concat firings) [] in Ret (Done (Msg (Some out) (m_tov m)))
            | _ => Panic
            end
        end
    end
  else Panic.
End Process.

(** ** Reflectivities *)
(** The ratio stored by the Hesai source (components/sources/cu_hesai/src/parser.rs:226-228) and by
    the Livox source (components/sources/cu_livox/src/parser.rs:195-197), as bits. *)
Definition ratio_255 (n : N) : N := to_bits (fdiv (f32_of n) (f32_of 255)).
