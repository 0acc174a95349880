(** C150 to C153: the creation of tasks from their configurations. *)
From Coq Require Import String.
From Coq Require Import List Arith NArith ZArith Bool Lia.
From Verif Require Import Base ConfigModel ConfigProofs MakeModel.
Import ListNotations.
Local Open Scope string_scope.
Local Open Scope list_scope.
Local Open Scope Z_scope.

(** What the documentation of a task says of a parameter: an integer below a bound, a text, a
    boolean or a number. *)
Inductive kind := Whole (bound : Z) | Words | YesNo | Real.
(** The value of a parameter in a configuration, when it has one, is of its kind. *)
Definition suits (kd : kind) (v : option cvalue) : Prop :=
  match kd, v with
  | _, None => True
  | Whole b, Some (CInt z) => 0 <= z < b
  | Words, Some (CStr _) => True
  | YesNo, Some (CBool _) => True
  | Real, Some (CInt _) => True
  | Real, Some (CFloat _) => True
  | _, _ => False
  end.
Definition correct (schema : list (string * kind)) (m : params) : Prop := forall k kd, In (k, kd) schema -> suits kd (map_get m k).
Definition present (m : params) (k : string) : Prop := map_get m k <> None.
Definition byte := Whole 256.
Definition word := Whole (2 ^ 32).

(** The value used is the one configured, or the default without one. *)
Definition int_used (m : params) (k : string) (d x : Z) : Prop :=
  match map_get m k with None => x = d | Some v => v = CInt x end.
Definition text_used (m : params) (k : string) (d x : string) : Prop :=
  match map_get m k with None => x = d | Some v => v = CStr x end.
Definition bool_used (m : params) (k : string) (d x : bool) : Prop :=
  match map_get m k with None => x = d | Some v => v = CBool x end.

Definition real_used {F} (of_int : Z -> F) (of_float : N -> F) (m : params) (k : string) (d x : F) : Prop :=
  match map_get m k with None => x = d | Some (CInt z) => x = of_int z | Some (CFloat b) => x = of_float b | _ => False end.

Lemma cast_u8 z : 0 <= z < 256 -> cast U8 z = z.
Proof. intros H. apply cast_fits. cbn. lia. Qed.
Lemma cast_u32 z : 0 <= z < 2 ^ 32 -> cast U32 z = z.
Proof. intros H. apply cast_fits. cbn. lia. Qed.
Lemma get_u8 m k : suits byte (map_get m k) -> (map_get m k = None /\ cget (int_of U8) m k = Ret None) \/ (exists z, map_get m k = Some (CInt z) /\ cget (int_of U8) m k = Ret (Some z)).
Proof.
  unfold cget. destruct (map_get m k) as [[z|b|b|s|n]|]; cbn [suits byte]; try contradiction; [|auto].
  intros H. cbn [int_of obind]. rewrite (cast_u8 z H). eauto.
Qed.
Lemma get_u32 m k : suits word (map_get m k) -> (map_get m k = None /\ cget (int_of U32) m k = Ret None) \/ (exists z, map_get m k = Some (CInt z) /\ cget (int_of U32) m k = Ret (Some z)).
Proof.
  unfold cget. destruct (map_get m k) as [[z|b|b|s|n]|]; cbn [suits word]; try contradiction; [|auto].
  intros H. cbn [int_of obind]. rewrite (cast_u32 z H). eauto.
Qed.
Lemma get_text m k : suits Words (map_get m k) -> (map_get m k = None /\ cget string_of m k = Ret None) \/ (exists s, map_get m k = Some (CStr s) /\ cget string_of m k = Ret (Some s)).
Proof. unfold cget. destruct (map_get m k) as [[z|b|b|s|n]|]; cbn; try contradiction; eauto. Qed.
Lemma get_bool m k : suits YesNo (map_get m k) -> (map_get m k = None /\ cget bool_of m k = Ret None) \/ (exists b, map_get m k = Some (CBool b) /\ cget bool_of m k = Ret (Some b)).
Proof. unfold cget. destruct (map_get m k) as [[z|b|b|s|n]|]; cbn; try contradiction; eauto. Qed.
Lemma get_real {F} of_int of_float m k : suits Real (map_get m k) -> (map_get m k = None /\ cget (f64_of F of_int of_float) m k = Ret None) \/
  (exists x, map_get m k <> None /\ (forall d, real_used of_int of_float m k d x) /\ cget (f64_of F of_int of_float) m k = Ret (Some x)).
Proof.
  unfold cget, real_used. destruct (map_get m k) as [[z|b|b|s|n]|]; cbn; try contradiction; auto.
  - intros _. right. exists (of_int z). split; [discriminate|]. auto.
  - intros _. right. exists (of_float b). split; [discriminate|]. auto.
Qed.
Lemma or_u32 m k d : suits word (map_get m k) -> exists x, int_used m k d x /\ forall B (f : Z -> outcome B), default d (cget (int_of U32) m k) f = f x.
Proof. intros H. unfold int_used, default. destruct (get_u32 m k H) as [[-> ->]|(z & -> & ->)]; cbn; eauto. Qed.
Lemma or_text m k d : suits Words (map_get m k) -> exists x, text_used m k d x /\ forall B (f : string -> outcome B), default d (cget string_of m k) f = f x.
Proof. intros H. unfold text_used, default. destruct (get_text m k H) as [[-> ->]|(z & -> & ->)]; cbn; eauto. Qed.
Lemma or_bool m k d : suits YesNo (map_get m k) -> exists x, bool_used m k d x /\ forall B (f : bool -> outcome B), default d (cget bool_of m k) f = f x.
Proof. intros H. unfold bool_used, default. destruct (get_bool m k H) as [[-> ->]|(z & -> & ->)]; cbn; eauto. Qed.
Lemma or_real {F} (of_int : Z -> F) of_float m k d : suits Real (map_get m k) -> exists x, real_used of_int of_float m k d x /\ forall B (f : F -> outcome B), default d (cget (f64_of F of_int of_float) m k) f = f x.
Proof.
  intros H. unfold default. destruct (get_real of_int of_float m k H) as [[E ->]|(z & _ & U & ->)]; cbn.
  - exists d. unfold real_used. rewrite E. auto.
  - exists z. split; [apply U|reflexivity].
Qed.
(** Takes one parameter. *)
Ltac hyp C := apply C; cbn; tauto.
Ltac absent := exists None; split; [reflexivity|]; auto 8.

(** * C150 *)
(** The encoder: with correct numbers of pins, it gets these pins, or there is an error because one
    is not configured or not there. *)
Theorem C150_encoder_partial : forall pin m, correct [("clk_pin", byte); ("dat_pin", byte)] m -> exists r, encoder_new true pin (Some m) = Ret r /\
  match r with
  | Some (clk, dat) => map_get m "clk_pin" = Some (CInt clk) /\ map_get m "dat_pin" = Some (CInt dat) /\ pin clk = true /\ pin dat = true
  | None => map_get m "clk_pin" = None \/ map_get m "dat_pin" = None \/
      exists clk dat, map_get m "clk_pin" = Some (CInt clk) /\ map_get m "dat_pin" = Some (CInt dat) /\ (pin clk = false \/ pin dat = false)
  end.
Proof.
  intros pin m C. unfold encoder_new, needed.
  destruct (get_u8 m "clk_pin") as [[E ->]|(clk & E & ->)]; [hyp C|absent|]. destruct (get_u8 m "dat_pin") as [[E' ->]|(dat & E' & ->)]; [hyp C|absent|].
  cbn [obind]. eexists. split; [reflexivity|]. destruct (pin clk) eqn:A; destruct (pin dat) eqn:B; cbn [andb]; auto; right; right; exists clk, dat; auto.
Qed.
Print Assumptions C150_encoder_partial.
(** A pin of the caterpillar. *)
Theorem C150_gpio_partial : forall pin m, correct [("pin", byte)] m -> map_get m "pin" <> None -> exists r, gpio_new pin (Some m) = Ret r /\
  exists n, map_get m "pin" = Some (CInt n) /\ r = if pin n then Some n else None.
Proof.
  intros pin m C P. unfold gpio_new, expected. destruct (get_u8 m "pin") as [[E ->]|(n & E & ->)]; [hyp C|contradiction|]. cbn [obind]. eauto.
Qed.
Print Assumptions C150_gpio_partial.
(** The converter: it is opened with the device and speed configured. *)
Theorem C150_adc_partial : forall spi m, correct [("spi_dev", Words); ("max_speed_hz", word)] m -> exists dev speed,
  text_used m "spi_dev" "/dev/spidev0.0" dev /\ int_used m "max_speed_hz" 48000000 speed /\
  adc_new spi (Some m) = Ret (if spi dev speed then Some (dev, speed) else None).
Proof.
  intros spi m C. unfold adc_new. destruct (or_text m "spi_dev" "/dev/spidev0.0") as (dev & U & ->); [hyp C|]. destruct (or_u32 m "max_speed_hz" 48000000) as (sp & U' & ->); [hyp C|]. eauto.
Qed.
Print Assumptions C150_adc_partial.
(** The aligner: both times are needed; they are taken in milliseconds. *)
Theorem C150_aligner_partial : forall m, correct [("target_alignment_window_ms", word); ("stale_data_horizon_ms", word)] m -> exists r, aligner_new (Some m) = Ret r /\
  match r with
  | None => map_get m "target_alignment_window_ms" = None \/ map_get m "stale_data_horizon_ms" = None
  | Some (w, h) => exists w' h', map_get m "target_alignment_window_ms" = Some (CInt w') /\ map_get m "stale_data_horizon_ms" = Some (CInt h') /\ w = w' * 1000000 /\ h = h' * 1000000
  end.
Proof.
  intros m C. unfold aligner_new, needed.
  destruct (get_u32 m "target_alignment_window_ms") as [[E ->]|(w & E & ->)]; [hyp C|absent|]. destruct (get_u32 m "stale_data_horizon_ms") as [[E' ->]|(h & E' & ->)]; [hyp C|absent|].
  cbn [obind]. eexists. split; [reflexivity|]. cbn. eauto 8.
Qed.
Print Assumptions C150_aligner_partial.
(** The two lidars with a socket: with an address that can be bound they listen to it. *)
Theorem C150_lidar_partial : forall valid bind d m, correct [("socket_addr", Words)] m -> (forall a, text_used m "socket_addr" d a -> valid a = true /\ bind a = true) ->
  exists a, text_used m "socket_addr" d a /\ lidar_new valid bind d (Some m) = Ret (Some a).
Proof.
  intros valid bind d m C V. unfold lidar_new. destruct (or_text m "socket_addr" d) as (a & U & ->); [hyp C|]. exists a. split; [exact U|]. destruct (V a U) as [-> ->]. reflexivity.
Qed.
Print Assumptions C150_lidar_partial.
(** The two tasks of flight controllers: with a device that can be opened they use it. *)
Theorem C150_msp_partial : forall tty m, correct [("device", Words); ("baudrate", word)] m ->
  (forall dev speed, text_used m "device" "/dev/ttyUSB0" dev -> int_used m "baudrate" 115200 speed -> tty dev speed = true) ->
  exists dev speed, text_used m "device" "/dev/ttyUSB0" dev /\ int_used m "baudrate" 115200 speed /\ msp_new tty (Some m) = Ret (Some (dev, speed)).
Proof.
  intros tty m C V. unfold msp_new. destruct (or_text m "device" "/dev/ttyUSB0") as (dev & U & ->); [hyp C|]. destruct (or_u32 m "baudrate" 115200) as (sp & U' & ->); [hyp C|].
  exists dev, sp. rewrite (V _ _ U U'). auto.
Qed.
Print Assumptions C150_msp_partial.
(** The threshold: all three parameters given, with a debug build or an image of less than 2^32
    pixels with its border, the buffers have a place for each pixel. *)
Theorem C150_threshold_partial : forall mode m w h r, map_get m "width" = Some (CInt w) -> map_get m "height" = Some (CInt h) -> map_get m "block_radius" = Some (CInt r) ->
  0 <= w -> 0 <= h -> 0 <= r < 2 ^ 32 -> (w + 1) * (h + 1) < 2 ^ 32 -> threshold_new mode (Some m) = Ret (Some (w, h, r, w * h, (w + 1) * (h + 1))).
Proof.
  intros mode m w h r W H R w0 h0 r0 L. unfold threshold_new, expected, cget. rewrite W, H, R. cbn [int_of obind].
  assert (w < 2 ^ 32 /\ h < 2 ^ 32 /\ w + 1 < 2 ^ 32 /\ h + 1 < 2 ^ 32 \/ w + 1 = 2 ^ 32 \/ h + 1 = 2 ^ 32) as X by nia.
  destruct (Z.eq_dec (w + 1) (2 ^ 32)) as [e|_]; [nia|]. destruct (Z.eq_dec (h + 1) (2 ^ 32)) as [e|_]; [nia|].
  assert (w < 2 ^ 32 - 1 /\ h < 2 ^ 32 - 1 /\ w * h < 2 ^ 32) as (L1 & L2 & L3) by nia.
  rewrite !cast_u32 by lia. unfold u32_op.
  rewrite (proj2 (Z.ltb_lt (w * h) _)) by lia. rewrite (proj2 (Z.ltb_lt (w + 1) _)) by lia. rewrite (proj2 (Z.ltb_lt (h + 1) _)) by lia. cbn [obind].
  rewrite (proj2 (Z.ltb_lt ((w + 1) * (h + 1)) _)) by lia. reflexivity.
Qed.
Print Assumptions C150_threshold_partial.
(** The motor. *)
Theorem C150_motor_partial : forall F of_int of_float (zero : F) pwm m, correct [("deadzone", Real); ("dryrun", YesNo)] m -> exists d r,
  real_used of_int of_float m "deadzone" zero d /\ bool_used m "dryrun" false r /\ motor_new F of_int of_float zero pwm (Some m) = Ret (if pwm then Some (d, r) else None).
Proof.
  intros F of_int of_float zero pwm m C. unfold motor_new. destruct (or_real of_int of_float m "deadzone" zero) as (d & U & ->); [hyp C|]. destruct (or_bool m "dryrun" false) as (r & U' & ->); [hyp C|]. eauto.
Qed.
Print Assumptions C150_motor_partial.
(** The controller: setpoint, cutoff and kp are needed; everything else has a default. *)
Theorem C150_pid_partial : forall F of_int of_float (lit : Z -> F) m,
  correct [("setpoint", Real); ("cutoff", Real); ("kp", Real); ("pl", Real); ("ki", Real); ("il", Real); ("kd", Real); ("dl", Real); ("ol", Real); ("sampling_ms", word)] m ->
  let used := real_used of_int of_float m in
  exists r, pid_new F of_int of_float lit (Some m) = Ret r /\
  match r with
  | None => map_get m "setpoint" = None \/ map_get m "cutoff" = None \/ map_get m "kp" = None
  | Some p => map_get m "setpoint" <> None /\ map_get m "cutoff" <> None /\ map_get m "kp" <> None /\
      used "setpoint" (lit 0) (p_setpoint _ p) /\ used "cutoff" (lit 0) (p_cutoff _ p) /\ used "kp" (lit 0) (p_kp _ p) /\
      used "pl" (lit 2) (p_pl _ p) /\ used "ki" (lit 0) (p_ki _ p) /\ used "il" (lit 1) (p_il _ p) /\ used "kd" (lit 0) (p_kd _ p) /\
      used "dl" (lit 2) (p_dl _ p) /\ used "ol" (lit 1) (p_ol _ p) /\ exists ms, int_used m "sampling_ms" 0 ms /\ p_sampling _ p = ms * 1000000
  end.
Proof.
  intros F of_int of_float lit m C used. unfold pid_new, needed.
  destruct (get_real of_int of_float m "setpoint") as [[E ->]|(x1 & P1 & U1 & ->)]; [hyp C|absent|].
  destruct (get_real of_int of_float m "cutoff") as [[E ->]|(x2 & P2 & U2 & ->)]; [hyp C|absent|].
  destruct (get_real of_int of_float m "kp") as [[E ->]|(x3 & P3 & U3 & ->)]; [hyp C|absent|]. cbn [obind].
  destruct (or_real of_int of_float m "pl" (lit 2)) as (x4 & U4 & ->); [hyp C|]. destruct (or_real of_int of_float m "ki" (lit 0)) as (x5 & U5 & ->); [hyp C|].
  destruct (or_real of_int of_float m "il" (lit 1)) as (x6 & U6 & ->); [hyp C|]. destruct (or_real of_int of_float m "kd" (lit 0)) as (x7 & U7 & ->); [hyp C|].
  destruct (or_real of_int of_float m "dl" (lit 2)) as (x8 & U8 & ->); [hyp C|]. destruct (or_real of_int of_float m "ol" (lit 1)) as (x9 & U9 & ->); [hyp C|].
  destruct (or_u32 m "sampling_ms" 0) as (ms & U10 & ->); [hyp C|]. eexists. split; [reflexivity|].
  cbn [p_setpoint p_cutoff p_kp p_pl p_ki p_il p_kd p_dl p_ol p_sampling]. repeat (split; [first [assumption|apply U1|apply U2|apply U3]|]). eauto.
Qed.
Print Assumptions C150_pid_partial.
(** The detector of tags, for families the library knows. *)
Theorem C150_tags_partial : forall F of_int of_float family (lit : string -> F) m,
  correct [("family", Words); ("bits_corrected", word); ("tag_size", Real); ("fx", Real); ("fy", Real); ("cx", Real); ("cy", Real)] m ->
  (forall f, text_used m "family" "tag16h5" f -> family f = true) ->
  exists f bits l, tags_new F of_int of_float family lit (Some m) = Ret (Some (f, bits, l)) /\ text_used m "family" "tag16h5" f /\ int_used m "bits_corrected" 1 bits /\
  Forall2 (fun k x => real_used of_int of_float m k (lit k) x) ["tag_size"; "fx"; "fy"; "cx"; "cy"] l.
Proof.
  intros F of_int of_float family lit m C V. unfold tags_new. destruct (or_text m "family" "tag16h5") as (f & U & ->); [hyp C|]. rewrite (V f U).
  destruct (or_u32 m "bits_corrected" 1) as (b & U0 & ->); [hyp C|]. destruct (or_real of_int of_float m "tag_size" (lit "tag_size")) as (x1 & U1 & ->); [hyp C|].
  destruct (or_real of_int of_float m "fx" (lit "fx")) as (x2 & U2 & ->); [hyp C|]. destruct (or_real of_int of_float m "fy" (lit "fy")) as (x3 & U3 & ->); [hyp C|].
  destruct (or_real of_int of_float m "cx" (lit "cx")) as (x4 & U4 & ->); [hyp C|]. destruct (or_real of_int of_float m "cy" (lit "cy")) as (x5 & U5 & ->); [hyp C|].
  exists f, b, [x1; x2; x3; x4; x5]. split; [reflexivity|]. auto 10.
Qed.
Print Assumptions C150_tags_partial.
(** The pipeline source: pipeline and caps are needed. *)
Theorem C150_gst_partial : forall init launch sink caps m, correct [("pipeline", Words); ("caps", Words)] m -> exists r, gst_new init launch sink caps (Some m) = Ret r /\
  match r with
  | Some (p, c) => map_get m "pipeline" = Some (CStr p) /\ map_get m "caps" = Some (CStr c) /\ init = true /\ launch p = true /\ sink p = true /\ caps c = true
  | None => init = false \/ map_get m "pipeline" = None \/ map_get m "caps" = None \/
      (exists p, map_get m "pipeline" = Some (CStr p) /\ (launch p = false \/ sink p = false)) \/ (exists c, map_get m "caps" = Some (CStr c) /\ caps c = false)
  end.
Proof.
  intros init launch sink caps m C. unfold gst_new, needed. destruct init; [|absent].
  destruct (get_text m "pipeline") as [[E ->]|(p & E & ->)]; [hyp C|absent|]. cbn [obind].
  destruct (launch p) eqn:L; [|exists None; split; [reflexivity|]; right; right; right; left; eauto].
  destruct (get_text m "caps") as [[E' ->]|(c & E' & ->)]; [hyp C|absent|]. cbn [obind]. eexists. split; [reflexivity|].
  destruct (sink p) eqn:A; destruct (caps c) eqn:B; cbn [andb]; auto 8; right; right; right; [right|left|left]; eauto.
Qed.
Print Assumptions C150_gst_partial.

(** The full claim - with a wrong configuration the creation fails with an error - does not hold.
    A parameter of another type than supposed panics in every task that reads one, *)
Theorem C150_types_refuted : forall b, let n := COther 0 in
  gpio_new b (Some [("pin", n)]) = Panic /\ encoder_new true b (Some [("clk_pin", n); ("dat_pin", CInt 1)]) = Panic /\
  adc_new (fun _ _ => true) (Some [("spi_dev", n)]) = Panic /\ aligner_new (Some [("target_alignment_window_ms", CFloat 0)]) = Panic /\
  lidar_new (fun _ => true) (fun _ => true) "0.0.0.0:2368" (Some [("socket_addr", n)]) = Panic /\ msp_new (fun _ _ => true) (Some [("baudrate", CStr "115200")]) = Panic /\
  servo_new (fun _ => true) (Some [("serial_dev", CStr "/dev/ttyS0"); ("servo0", CStr "1")]) = Panic /\
  pid_new Z id Z.of_N id (Some [("setpoint", CStr "1.0")]) = Panic /\ motor_new Z id Z.of_N 0 true (Some [("dryrun", CInt 1)]) = Panic /\
  gst_new true (fun _ => true) (fun _ => true) (fun _ => true) (Some [("pipeline", n)]) = Panic /\ tags_new Z id Z.of_N (fun _ => true) (fun _ => 0) (Some [("fx", n)]) = Panic.
Proof. intros b n. repeat split. Qed.
Print Assumptions C150_types_refuted.
(** and so do, in some tasks, a parameter that is missing, a configuration that is missing, and
    values that no device or library takes. *)
Theorem C150_refuted :
  gpio_new (fun _ => true) (Some []) = Panic /\ servo_new (fun _ => true) (Some [("servo0", CInt 1)]) = Panic /\
  threshold_new Checked None = Panic /\ threshold_new Checked (Some [("width", CInt 640); ("height", CInt 480)]) = Panic /\
  (forall d, lidar_new (fun _ => false) (fun _ => true) d (Some [("socket_addr", CStr "somewhere")]) = Panic) /\
  (forall d, lidar_new (fun _ => true) (fun _ => false) d None = Panic) /\ msp_new (fun _ _ => false) (Some []) = Panic /\
  encoder_new false (fun _ => true) (Some [("clk_pin", CInt 1); ("dat_pin", CInt 2)]) = Panic /\ imu_new false None = Panic /\
  tags_new Z id Z.of_N (fun _ => false) (fun _ => 0) (Some [("family", CStr "tag17")]) = Panic.
Proof. repeat split. Qed.
Print Assumptions C150_refuted.
(** Nor is every task that is created created with the parameters configured: numbers are cut to
    the width of their type, the product of width and height to 32 bits. *)
Theorem C150_cut_refuted :
  gpio_new (fun _ => true) (Some [("pin", CInt 273)]) = Ret (Some 17) /\
  adc_new (fun _ _ => true) (Some [("max_speed_hz", CInt (-1))]) = Ret (Some ("/dev/spidev0.0", 4294967295)) /\
  threshold_new Wrapping (Some [("width", CInt 65536); ("height", CInt 65536); ("block_radius", CInt 5)]) = Ret (Some (65536, 65536, 5, 0, 131073)) /\
  threshold_new Checked (Some [("width", CInt 65536); ("height", CInt 65536); ("block_radius", CInt 5)]) = Panic.
Proof. repeat split. Qed.
Print Assumptions C150_cut_refuted.
(** Without a configuration: a component with defaults for all its parameters is created as with
    an empty one; the others give an error, except the threshold, see [C150_refuted]. *)
Theorem C150_none_partial : forall F of_int of_float (zero : F) lit lit' spi valid bind d pwm family bus tty gpio pin init launch sink caps dev,
  adc_new spi None = Ret (if spi "/dev/spidev0.0" 48000000 then Some ("/dev/spidev0.0", 48000000) else None) /\
  (valid d = true -> bind d = true -> lidar_new valid bind d None = Ret (Some d)) /\
  motor_new F of_int of_float zero pwm None = Ret (if pwm then Some (zero, false) else None) /\
  (family "tag16h5" = true -> tags_new F of_int of_float family lit None = Ret (Some ("tag16h5", 1, [lit "tag_size"; lit "fx"; lit "fy"; lit "cx"; lit "cy"]))) /\
  camera_new dev None = camera_new dev (Some []) /\ (bus = true -> imu_new bus None = Ret (Some tt)) /\
  encoder_new gpio pin None = Ret None /\ gpio_new pin None = Ret None /\ aligner_new None = Ret None /\ msp_new spi None = Ret None /\ servo_new tty None = Ret None /\
  pid_new F of_int of_float lit' None = Ret None /\ gst_new init launch sink caps None = Ret None.
Proof.
  intros. split; [reflexivity|]. split; [intros V B; unfold lidar_new; rewrite V, B; reflexivity|]. split; [reflexivity|]. split; [intros H; unfold tags_new; rewrite H; reflexivity|].
  split; [reflexivity|]. split; [intros ->; reflexivity|]. do 6 (split; [reflexivity|]). destruct init; reflexivity.
Qed.
Print Assumptions C150_none_partial.
Example C150_case :
  let bot := [("kp", CFloat 5); ("setpoint", CInt 2048); ("cutoff", CInt 120); ("sampling_ms", CInt 10)] in
  correct [("setpoint", Real); ("cutoff", Real); ("kp", Real); ("pl", Real); ("ki", Real); ("il", Real); ("kd", Real); ("dl", Real); ("ol", Real); ("sampling_ms", word)] bot /\
  (exists p, pid_new Z id Z.of_N id (Some bot) = Ret (Some p) /\ p_sampling _ p = 10000000 /\ p_setpoint _ p = 2048) /\
  correct [("clk_pin", byte); ("dat_pin", byte)] [("clk_pin", CInt 17); ("dat_pin", CInt 18)] /\
  encoder_new true (fun n => n <? 28) (Some [("clk_pin", CInt 17); ("dat_pin", CInt 18)]) = Ret (Some (17, 18)).
Proof.
  cbv zeta. assert (H : forall schema m, Forall (fun x => suits (snd x) (map_get m (fst x))) schema -> correct schema m).
  { intros schema m H k kd I. rewrite Forall_forall in H. exact (H _ I). }
  split; [apply H; repeat constructor; cbn; try lia; auto|]. split; [eexists; split; [reflexivity|]; split; reflexivity|].
  split; [apply H; repeat constructor; cbn; lia|]. reflexivity.
Qed.

(** * C151: the camera delivers what was asked for *)
(** The listed sizes contain this one, before any range. *)
Inductive offered (w h : Z) : list frame_size -> Prop :=
| offered_here : forall l, offered w h (Discrete w h :: l)
| offered_later : forall a b l, offered w h l -> offered w h (Discrete a b :: l).
Lemma listed_offered w h l : offered w h l -> listed w h l = Ret (w, h).
Proof.
  induction 1 as [l|a b l H IH]; cbn [listed]; [rewrite !Z.eqb_refl; reflexivity|].
  destruct (Z.eqb_spec a w); destruct (Z.eqb_spec b h); subst; cbn [andb]; auto.
Qed.
Definition camera_schema : list (string * kind) :=
  [("device", word); ("width", word); ("height", word); ("fps", word); ("fourcc", Words); ("buffers", word); ("timeout_ms", Whole (2 ^ 31))].
(** What was read of a correct configuration. *)
Lemma camera_read dev m : correct camera_schema m -> exists d n t, int_used m "device" 0 d /\ int_used m "buffers" 4 n /\ int_used m "timeout_ms" 500 t /\ 0 <= t < 2 ^ 31 /\
  exists w h fps code, cget (int_of U32) m "width" = Ret w /\ cget (int_of U32) m "height" = Ret h /\ cget (int_of U32) m "fps" = Ret fps /\ cget string_of m "fourcc" = Ret code /\
  (forall x, w = Some x <-> map_get m "width" = Some (CInt x)) /\ (forall x, h = Some x <-> map_get m "height" = Some (CInt x)) /\
  (forall x, fps = Some x <-> map_get m "fps" = Some (CInt x)) /\ (forall x, code = Some x <-> map_get m "fourcc" = Some (CStr x)) /\
  camera_new dev (Some m) =
    let c := dev d in
    if v_opens c then
      match v_codes c with
      | None => Ret None
      | Some [] => Ret None
      | Some (first :: rest) =>
          match (match code with None => Some first | Some s => if Nat.eqb (String.length s) 4 then Some s else None end) with
          | None => Ret None
          | Some code =>
              if existsb (String.eqb code) (first :: rest) then
                match v_sizes c code with
                | None => Ret None
                | Some sizes =>
                    let! (w, h) := choose w h sizes in
                    match v_set c w h code with
                    | None => Ret None
                    | Some f =>
                        if match fps with None => true | Some r => v_rate c r end then
                          if v_stream c n (f_size f) then
                            if t <? 2 ^ 31 then Ret (Some (Opened f t (w, h))) else Panic
                          else Ret None
                        else Ret None
                    end
                end
              else Ret None
          end
      end
    else Ret None.
Proof.
  intros C. unfold camera_new.
  assert (T : suits word (map_get m "timeout_ms")).
  { assert (X : suits (Whole (2 ^ 31)) (map_get m "timeout_ms")) by hyp C. destruct (map_get m "timeout_ms") as [[]|]; cbn [suits word] in *; auto. lia. }
  destruct (or_u32 m "device" 0) as (d & Ud & Ed); [hyp C|]. destruct (or_u32 m "buffers" 4) as (n & Un & En); [hyp C|]. destruct (or_u32 m "timeout_ms" 500) as (t & Ut & Et); [exact T|].
  exists d, n, t. split; [exact Ud|]. split; [exact Un|]. split; [exact Ut|].
  split. { assert (X : suits (Whole (2 ^ 31)) (map_get m "timeout_ms")) by hyp C. unfold int_used in Ut. destruct (map_get m "timeout_ms"); [|lia]. subst. exact X. }
  assert (G : forall k, suits word (map_get m k) -> exists v, cget (int_of U32) m k = Ret v /\ forall x, v = Some x <-> map_get m k = Some (CInt x)).
  { intros k S. destruct (get_u32 m k S) as [[E ->]|(z & E & ->)]; eexists; (split; [reflexivity|]); rewrite E; intros x; split; congruence. }
  destruct (G "width") as (w & Ew & Uw); [hyp C|]. destruct (G "height") as (h & Eh & Uh); [hyp C|]. destruct (G "fps") as (fps & Ef & Uf); [hyp C|].
  assert (exists v, cget string_of m "fourcc" = Ret v /\ forall x, v = Some x <-> map_get m "fourcc" = Some (CStr x)) as (code & Ec & Uc).
  { destruct (get_text m "fourcc") as [[E ->]|(z & E & ->)]; [hyp C| |]; eexists; (split; [reflexivity|]); rewrite E; intros x; split; congruence. }
  exists w, h, fps, code. do 8 (split; [assumption|]). rewrite Ed, Ew, Eh, Ef, Ec. cbn [obind]. rewrite En, Et. cbn [obind]. reflexivity.
Qed.
(** What holds: when width and height are configured and the camera offers that size for the code
    in use, the camera is told this size, and the images have the format it answers; otherwise
    there is an error. The images of a camera that does as told are those asked for. *)
Theorem C151_partial : forall dev m w h, correct camera_schema m -> map_get m "width" = Some (CInt w) -> map_get m "height" = Some (CInt h) ->
  (forall d code sizes, v_sizes (dev d) code = Some sizes -> offered w h sizes) ->
  exists d r, int_used m "device" 0 d /\ camera_new dev (Some m) = Ret r /\
  forall o, r = Some o -> o_asked o = (w, h) /\ exists code codes, v_codes (dev d) = Some codes /\ In code codes /\ v_set (dev d) w h code = Some (o_format o)
    /\ (forall s, map_get m "fourcc" = Some (CStr s) -> code = s) /\ (map_get m "fourcc" = None -> hd_error codes = Some code) /\ int_used m "timeout_ms" 500 (o_timeout o).
Proof.
  intros dev m w h C W H O. destruct (camera_read dev m C) as (d & n & t & Ud & Un & Ut & T & w' & h' & fps & code & _ & _ & _ & _ & Uw & Uh & _ & Uc & ->).
  rewrite <- Uw in W. rewrite <- Uh in H. subst w' h'. exists d. cbv zeta. set (c := dev d) in *. 
  assert (X : forall x : option opened, (forall o, x = Some o -> o_asked o = (w, h) /\ exists code codes, v_codes c = Some codes /\ In code codes /\ v_set c w h code = Some (o_format o)
    /\ (forall s, map_get m "fourcc" = Some (CStr s) -> code = s) /\ (map_get m "fourcc" = None -> hd_error codes = Some code) /\ int_used m "timeout_ms" 500 (o_timeout o)) ->
    exists r, int_used m "device" 0 d /\ Ret x = Ret r /\ forall o, r = Some o -> o_asked o = (w, h) /\ exists code codes, v_codes c = Some codes /\ In code codes /\ v_set c w h code = Some (o_format o)
    /\ (forall s, map_get m "fourcc" = Some (CStr s) -> code = s) /\ (map_get m "fourcc" = None -> hd_error codes = Some code) /\ int_used m "timeout_ms" 500 (o_timeout o)).
  { intros x Hx. exists x. auto. }
  destruct (v_opens c); [|apply X; discriminate]. destruct (v_codes c) as [[|first rest]|] eqn:Ec; try (apply X; discriminate).
  destruct (match code with None => Some first | Some s => if Nat.eqb (String.length s) 4 then Some s else None end) as [cd|] eqn:Ecd; [|apply X; discriminate].
  destruct (existsb (String.eqb cd) (first :: rest)) eqn:Ex; [|apply X; discriminate].
  destruct (v_sizes c cd) as [sizes|] eqn:Es; [|apply X; discriminate]. unfold choose. rewrite (listed_offered _ _ _ (O _ _ _ Es)). cbn [obind].
  destruct (v_set c w h cd) as [f|] eqn:Ef; [|apply X; discriminate]. destruct (match fps with None => true | Some r => v_rate c r end); [|apply X; discriminate].
  destruct (v_stream c n (f_size f)); [|apply X; discriminate]. rewrite (proj2 (Z.ltb_lt t _)) by lia. apply X. intros o Ho. injection Ho as <-. cbn [o_asked o_format o_timeout].
  split; [reflexivity|]. exists cd, (first :: rest). split; [reflexivity|]. split.
  { apply existsb_exists in Ex as (y & I & E). apply String.eqb_eq in E. subst y. exact I. }
  split; [exact Ef|]. split; [|split; [|exact Ut]].
  - intros s Hs. apply Uc in Hs. subst code. destruct (Nat.eqb (String.length s) 4); [congruence|discriminate].
  - intros N. destruct code as [s|]; [|cbn; congruence]. destruct (Uc s) as [Z1 _]. rewrite N in Z1. specialize (Z1 eq_refl). discriminate.
Qed.
Print Assumptions C151_partial.
(** The full claim - the images have the size asked for, or there is an error - fails even for
    cameras that do as told whenever they can and answer with a size of theirs otherwise: a size
    that is not offered is replaced by 0 x 0, a width without a height is not looked at. *)
Definition obliging (c : camera) : Prop := forall w h code, exists f, v_set c w h code = Some f /\
  forall sizes, v_sizes c code = Some sizes -> In (Discrete (f_width f) (f_height f)) sizes /\ (In (Discrete w h) sizes -> f_width f = w /\ f_height f = h).
Definition webcam : camera :=
  Camera true (Some ["YUYV"]) (fun _ => Some [Discrete 640 480; Discrete 1280 720])
    (fun w h c => Some (if (w =? 1280) && (h =? 720) then ImageFormat 1280 720 2560 c 1843200 else ImageFormat 640 480 1280 c 614400)) (fun _ => true) (fun _ _ => true).
Theorem C151_refuted : exists dev m o, correct camera_schema m /\ (forall d, obliging (dev d)) /\ map_get m "width" = Some (CInt 1920) /\ map_get m "height" = Some (CInt 1080) /\
  camera_new dev (Some m) = Ret (Some o) /\ f_width (o_format o) = 640 /\ f_height (o_format o) = 480 /\ o_asked o = (0, 0).
Proof.
  exists (fun _ => webcam), [("width", CInt 1920); ("height", CInt 1080)]. eexists. split.
  { intros k kd I. cbn in I. repeat destruct I as [I|I]; try contradiction; injection I as <- <-; cbn; lia. }
  split. { intros d w h code. cbn [webcam v_set v_sizes]. destruct (Z.eqb_spec w 1280) as [->|]; destruct (Z.eqb_spec h 720) as [->|]; cbn [andb]; (eexists; split; [reflexivity|]; intros sizes E; injection E as <-; cbn [f_width f_height]; split; [cbn; tauto|]);
    cbn; intros [E|[E|[]]]; inversion E; subst; auto; congruence. }
  do 2 (split; [reflexivity|]). split; [reflexivity|]. auto.
Qed.
Print Assumptions C151_refuted.
Theorem C151_width_refuted : exists o, camera_new (fun _ => webcam) (Some [("width", CInt 1280)]) = Ret (Some o) /\ f_width (o_format o) = 640 /\ o_asked o = (640, 480).
Proof. eexists. split; [reflexivity|]. split; reflexivity. Qed.
Print Assumptions C151_width_refuted.
(** And the creation can panic: cameras with ranges of sizes, without sizes, long times to wait. *)
Theorem C151_panics_refuted :
  camera_new (fun _ => Camera true (Some ["YUYV"]) (fun _ => Some [Stepwise]) (fun _ _ _ => None) (fun _ => true) (fun _ _ => true)) None = Panic /\
  camera_new (fun _ => Camera true (Some ["YUYV"]) (fun _ => Some []) (fun _ _ _ => None) (fun _ => true) (fun _ _ => true)) None = Panic /\
  camera_new (fun _ => webcam) (Some [("timeout_ms", CInt (2 ^ 31))]) = Panic.
Proof. repeat split. Qed.
Print Assumptions C151_panics_refuted.
Example C151_case : let m := [("width", CInt 1280); ("height", CInt 720); ("fourcc", CStr "YUYV"); ("fps", CInt 30)] in
  correct camera_schema m /\ offered 1280 720 [Discrete 640 480; Discrete 1280 720] /\
  exists o, camera_new (fun _ => webcam) (Some m) = Ret (Some o) /\ o_asked o = (1280, 720) /\ f_width (o_format o) = 1280 /\ o_timeout o = 500.
Proof.
  cbv zeta. split. { intros k kd I. cbn in I. repeat destruct I as [I|I]; try contradiction; injection I as <- <-; cbn; try lia; auto. }
  split; [apply offered_later, offered_here|]. eexists. split; [reflexivity|]. auto.
Qed.

(** * C152: every servo that is configured is addressed *)
(** The servos of a configuration. *)
Definition servo_at (m : params) (i : nat) (id : Z) : Prop := exists k, nth_error servo_names i = Some k /\ map_get m k = Some (CInt id).
Lemma servo_ids_spec m names : (forall k, In k names -> suits byte (map_get m k)) -> exists ids, servo_ids m names = Ret ids /\ length ids = length names /\
  forall i, (forall j k, (j <= i)%nat -> nth_error names j = Some k -> map_get m k <> None) -> forall k, nth_error names i = Some k -> exists id, nth_error ids i = Some id /\ map_get m k = Some (CInt id).
Proof.
  induction names as [|k names IH]; intros C; cbn [servo_ids].
  - exists []. split; [reflexivity|]. split; [reflexivity|]. intros i _ k H. destruct i; discriminate.
  - destruct (get_u8 m k) as [[E ->]|(z & E & ->)]; [apply C; left; reflexivity| |]; cbn [obind].
    + exists (repeat 0 (S (length names))). split; [reflexivity|]. split; [apply repeat_length|]. intros i P. exfalso. apply (P 0%nat k); [lia|reflexivity|exact E].
    + destruct IH as (ids & -> & L & Sp); [intros k' H; apply C; right; exact H|]. cbn [obind]. exists (z :: ids). split; [reflexivity|]. split; [cbn; congruence|].
      intros [|i] P k' H; cbn in H |- *. { injection H as <-. eauto. } apply Sp; [|exact H]. intros j k'' Hj H'. apply (P (S j) k''); [lia|exact H'].
Qed.
(** What holds: with eight servos at most, numbered from 0 without a gap, all have their places. *)
Theorem C152_partial : forall tty m ids, (forall k, In k servo_names -> suits byte (map_get m k)) -> (exists dev, map_get m "serial_dev" = Some (CStr dev)) ->
  servo_new tty (Some m) = Ret (Some ids) -> length ids = 8%nat /\
  forall i id, servo_at m i id -> (forall j, (j < i)%nat -> exists id', servo_at m j id') -> nth_error ids i = Some id.
Proof.
  intros tty m ids C [dev D] H. unfold servo_new, expected, cget in H. rewrite D in H. cbn [string_of obind] in H. destruct (map_get m "servo0"); [|discriminate].
  destruct (servo_ids_spec m servo_names C) as (ids' & E & L & S). rewrite E in H. cbn [obind] in H. destruct (tty dev); [|discriminate]. injection H as <-.
  split; [exact L|]. intros i id (k & Hk & Hm) B. destruct (S i) with (k := k) as (id' & N & M); [|exact Hk|congruence].
  intros j k' Hj Hk' X. destruct (Nat.eq_dec j i) as [->|]. { assert (k' = k) by congruence. subst. congruence. }
  destruct (B j) as (id' & k'' & Hk'' & Hm''); [lia|]. assert (k'' = k') by congruence. subst. congruence.
Qed.
Print Assumptions C152_partial.
(** The full claim fails: after a gap, and for a ninth servo, nothing is addressed and no error
    is given; the unused places address servo 0. *)
Theorem C152_refuted : exists m ids, servo_at m 2 7 /\ servo_new (fun _ => true) (Some m) = Ret (Some ids) /\ ~ In 7 ids.
Proof.
  exists [("serial_dev", CStr "/dev/ttyS0"); ("servo0", CInt 5); ("servo2", CInt 7)], [5; 0; 0; 0; 0; 0; 0; 0]. split; [exists "servo2"; split; reflexivity|]. split; [reflexivity|]. cbn. intuition discriminate.
Qed.
Print Assumptions C152_refuted.
Theorem C152_ninth_refuted : exists m ids, map_get m "servo8" = Some (CInt 9) /\ (forall k, In k servo_names -> map_get m k <> None) /\ servo_new (fun _ => true) (Some m) = Ret (Some ids) /\ ~ In 9 ids.
Proof.
  exists (("serial_dev", CStr "/dev/ttyS0") :: ("servo8", CInt 9) :: map (fun k => (k, CInt 1)) servo_names), [1; 1; 1; 1; 1; 1; 1; 1]. split; [reflexivity|].
  split. { intros k I. cbn in I. repeat destruct I as [<-|I]; try discriminate. contradiction. }
  split; [reflexivity|]. cbn. intuition discriminate.
Qed.
Print Assumptions C152_ninth_refuted.
Example C152_case : servo_new (fun _ => true) (Some [("servo1", CInt 4); ("serial_dev", CStr "/dev/ttyS0"); ("servo0", CInt 3)]) = Ret (Some [3; 4; 0; 0; 0; 0; 0; 0]).
Proof. reflexivity. Qed.
