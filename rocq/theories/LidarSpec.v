(** The datagrams of the two lidars as their manuals lay them out (the tables in the comments of
    components/sources/cu_hesai/src/parser.rs and components/sources/cu_livox/src/parser.rs):
    fields one after the other, little endian. *)
From Coq Require Import List Arith NArith ZArith Bool.
Import ListNotations.
Local Open Scope N_scope.

Definition le16 (v : N) : list N := [v mod 256; v / 256].
Definition le32 (v : N) : list N := le16 (v mod 65536) ++ le16 (v / 65536).
Definition le64 (v : N) : list N := le32 (v mod 4294967296) ++ le32 (v / 4294967296).

(** ** Hesai XT32 *)
(** One echo: distance in units of 4 mm, reflectivity, a reserved byte. *)
Record echo := Echo { e_dist : N; e_refl : N; e_res : N }.
(** One firing of the 32 lasers at an azimuth in hundredths of a degree. *)
Record firing := Firing { f_azimuth : N; f_echoes : list echo }.
Record scan := Scan {
  s_version : list N;      (* 4 bytes *)
  s_first : N;             (* which return comes first *)
  s_returns : N;           (* 1: single return mode, 2: dual *)
  s_firings : list firing;
  s_reserved : list N;     (* 10 bytes *)
  s_mode : N; s_speed : N;
  s_date : list N;         (* year - 1900, month, day, hour, minute, second *)
  s_micros : N; s_factory : N }.
Definition enc_echo (e : echo) : list N := le16 (e_dist e) ++ [e_refl e; e_res e].
Definition enc_firing (f : firing) : list N := le16 (f_azimuth f) ++ flat_map enc_echo (f_echoes f).
Definition enc_scan (s : scan) : list N :=
  [0xEE; 0xFF] ++ s_version s ++
  [32; 8; s_first s; 4; s_returns s; 1] ++
  flat_map enc_firing (s_firings s) ++
  s_reserved s ++ [s_mode s] ++ le16 (s_speed s) ++ s_date s ++ le32 (s_micros s) ++ [s_factory s].
Definition bytes (n : nat) (l : list N) : Prop := length l = n /\ Forall (fun b => b < 256) l.
Definition wf_echo (e : echo) : Prop := e_dist e < 65536 /\ e_refl e < 256 /\ e_res e < 256.
Definition wf_firing (f : firing) : Prop := f_azimuth f <= 36000 /\ length (f_echoes f) = 32%nat /\ Forall wf_echo (f_echoes f).
Definition wf_scan (s : scan) : Prop :=
  bytes 4 (s_version s) /\ s_first s < 256 /\ s_returns s < 256 /\
  (length (s_firings s) = 8%nat /\ Forall wf_firing (s_firings s)) /\
  bytes 10 (s_reserved s) /\ s_mode s < 256 /\ s_speed s < 65536 /\ bytes 6 (s_date s) /\
  s_micros s < 4294967296 /\ s_factory s < 256.

(** Start of block [n] (1 to 8) of a packet of absolute time [t0]: manual, "Start time of each
    block". *)
Definition manual_start (returns : N) (t0 : Z) (n : nat) : Z :=
  (t0 + 5632 - 50000 * (if (returns =? 2)%N then (8 - Z.of_nat n) / 2 else 8 - Z.of_nat n))%Z.
(** Firing time of channel [i] (1 to 32) in a block that starts at [t]. *)
Definition manual_fire (t : Z) (i : nat) : Z := (t + 1512 * (Z.of_nat i - 1) + 280)%Z.

(** Robot time of a packet of date [u], [us] microseconds later, both clocks running alike since
    [ref], a UTC time (ns) and the robot time then. *)
Definition robot_t0 (ref : Z * N) (u : Z) (us : N) : Z := (Z.of_N (snd ref) + (u + 1000 * Z.of_N us - fst ref))%Z.

(** ** Livox Tele-15 *)
(** One point: coordinates in millimeters, reflectivity, tag. *)
Record spot := Spot { p_x : Z; p_y : Z; p_z : Z; p_refl : N; p_tag : N }.
Record shot := Shot { g_slot : N; g_id : N; g_res : N; g_status : N; g_kind : N; g_time : N; g_spots : list spot }.
Definition i32 (z : Z) : Prop := (- 2 ^ 31 <= z < 2 ^ 31)%Z.
Definition two_compl (z : Z) : N := Z.to_N (if z <? 0 then z + 2 ^ 32 else z)%Z.
Definition enc_spot (p : spot) : list N :=
  le32 (two_compl (p_x p)) ++ le32 (two_compl (p_y p)) ++ le32 (two_compl (p_z p)) ++ [p_refl p; p_tag p].
Definition enc_shot (g : shot) : list N :=
  [5; g_slot g; g_id g; g_res g] ++ le32 (g_status g) ++ [g_kind g; 2] ++ le64 (g_time g) ++ flat_map enc_spot (g_spots g).
Definition wf_spot (p : spot) : Prop := i32 (p_x p) /\ i32 (p_y p) /\ i32 (p_z p) /\ p_refl p < 256 /\ p_tag p < 256.
Definition wf_shot (g : shot) : Prop :=
  g_slot g < 256 /\ g_id g < 256 /\ g_res g < 256 /\ g_status g < 4294967296 /\ g_kind g < 256 /\
  g_time g < 2 ^ 64 /\ (length (g_spots g) = 96%nat /\ Forall wf_spot (g_spots g)).
