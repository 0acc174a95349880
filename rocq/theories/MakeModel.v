(** How the components of the repository are created from their configurations (the functions
    new of the tasks). Devices, sockets and libraries are inputs. An outcome [Ret None] is an
    error that new returns, [Panic] a panic. Parameters of type f64 are of a type [F] with the
    conversions of ron ([of_int], [of_float]); their values are not computed with. *)
From Coq Require Import String Ascii.
From Coq Require Import List Arith NArith ZArith Bool.
From Verif Require Import Base ConfigModel.
Import ListNotations.
Local Open Scope string_scope.
Local Open Scope list_scope.
Local Open Scope Z_scope.

(** core/cu29_runtime/src/config.rs:54-57 (ComponentConfig::get). *)
Definition cget {A} (conv : cvalue -> outcome A) (m : params) (k : string) : outcome (option A) :=
  match map_get m k with
  | None => Ret None
  | Some v => let! a := conv v in Ret (Some a)
  end.
(** The operator ? after ok_or (as in components/sources/cu_rp_encoder/src/lib.rs:68, 70): without
    a value an error. *)
Definition needed {A B} (x : outcome (option A)) (f : A -> outcome (option B)) : outcome (option B) :=
  let! v := x in match v with Some a => f a | None => Ret None end.
(** Option::expect and unwrap (as in components/sinks/cu_rp_gpio/src/lib.rs:73): without a value a
    panic. *)
Definition expected {A B} (x : outcome (option A)) (f : A -> outcome B) : outcome B :=
  let! v := x in match v with Some a => f a | None => Panic end.
(** Option::unwrap_or (as in components/sinks/cu_rp_sn754410/src/lib.rs:140). *)
Definition default {A B} (d : A) (x : outcome (option A)) (f : A -> outcome B) : outcome B :=
  let! v := x in f (match v with Some a => a | None => d end).

(** components/sinks/cu_rp_gpio/src/lib.rs:64-85 (RPGpio::new): the number of the pin. [pin] tells
    which pins there are. *)
Definition gpio_new (pin : Z -> bool) (config : option params) : outcome (option Z) :=
  match config with
  | None => Ret None
  | Some m => expected (cget (int_of U8) m "pin") (fun n => Ret (if pin n then Some n else None))
  end.
(** components/sources/cu_rp_encoder/src/lib.rs:28-36, 63-87 (get_pin, Encoder::new): the pins of
    clock and data. [gpio] tells whether there are pins at all. *)
Definition encoder_new (gpio : bool) (pin : Z -> bool) (config : option params) : outcome (option (Z * Z)) :=
  match config with
  | None => Ret None
  | Some m =>
      needed (cget (int_of U8) m "clk_pin") (fun clk =>
      needed (cget (int_of U8) m "dat_pin") (fun dat =>
      if gpio then Ret (if pin clk && pin dat then Some (clk, dat) else None) else Panic))
  end.
(** components/sources/cu_ads7883/src/lib.rs:26-37, 95-133 (open_spi, ADS7883::new): the device and
    the speed. [spi] tells whether it can be opened so. *)
Definition adc_new (spi : string -> Z -> bool) (config : option params) : outcome (option (string * Z)) :=
  let open dev speed := Ret (if spi dev speed then Some (dev, speed) else None) in
  match config with
  | None => open "/dev/spidev0.0" 48000000
  | Some m =>
      default "/dev/spidev0.0" (cget string_of m "spi_dev") (fun dev =>
      default 48000000 (cget (int_of U32) m "max_speed_hz") (fun speed => open dev speed))
  end.
(** components/tasks/cu_aligner/src/lib.rs:32-45 (new): the window and the horizon in nanoseconds. *)
Definition aligner_new (config : option params) : outcome (option (Z * Z)) :=
  match config with
  | None => Ret None
  | Some m =>
      needed (cget (int_of U32) m "target_alignment_window_ms") (fun w =>
      needed (cget (int_of U32) m "stale_data_horizon_ms") (fun h =>
      Ret (Some (w * 1000000, h * 1000000))))
  end.
(** components/sources/cu_hesai/src/lib.rs:63-85 and components/sources/cu_livox/src/lib.rs:33-55
    (new) with their default address [d] (14 and 10): the address. [valid] tells which texts are
    addresses, [bind] which can be bound. *)
Definition lidar_new (valid bind : string -> bool) (d : string) (config : option params) : outcome (option string) :=
  let open a := if valid a then if bind a then Ret (Some a) else Panic else Panic in
  match config with
  | None => open d
  | Some m => default d (cget string_of m "socket_addr") open
  end.
(** components/sources/cu_msp_src/src/lib.rs:70-106 and components/sinks/cu_msp_sink/src/lib.rs:56-88
    (new): the device and its speed. [tty] tells whether it can be opened so. *)
Definition msp_new (tty : string -> Z -> bool) (config : option params) : outcome (option (string * Z)) :=
  match config with
  | None => Ret None
  | Some m =>
      default "/dev/ttyUSB0" (cget string_of m "device") (fun dev =>
      default 115200 (cget (int_of U32) m "baudrate") (fun speed =>
      if tty dev speed then Ret (Some (dev, speed)) else Panic))
  end.
(** components/sources/cu_wt901/src/lib.rs:219-231 (WT901::new); [bus] tells whether the bus opens. *)
Definition imu_new (bus : bool) (config : option params) : outcome (option unit) :=
  if bus then Ret (Some tt) else Panic.
(** components/tasks/cu_dynthreshold/src/cu_dynthreshold_impl.rs:121-141 (new): width, height, radius,
    the length of the buffers and that of the integral image. Products and sums of u32 numbers are
    checked or wrap. *)
Definition u32_op (mode : ovf_mode) (z : Z) : outcome Z :=
  if z <? 2 ^ 32 then Ret z else match mode with Checked => Panic | Wrapping => Ret (z mod 2 ^ 32) end.
(** components/tasks/cu_dynthreshold/src/cu_dynthreshold_impl.rs:121-141 (new). *)
Definition threshold_new (mode : ovf_mode) (config : option params) : outcome (option (Z * Z * Z * Z * Z)) :=
  match config with
  | None => Panic
  | Some m =>
      expected (cget (int_of U32) m "width") (fun w =>
      expected (cget (int_of U32) m "height") (fun h =>
      expected (cget (int_of U32) m "block_radius") (fun r =>
      let! buffer := u32_op mode (w * h) in
      let! w1 := u32_op mode (w + 1) in
      let! h1 := u32_op mode (h + 1) in
      let! integral := u32_op mode (w1 * h1) in
      Ret (Some (w, h, r, buffer, integral)))))
  end.

(** The names of servos, format!("servo{}", i) (components/sinks/cu_lewansoul/src/lib.rs:221) for
    the 8 places of the array. *)
Definition servo_names : list string :=
  ["servo0"; "servo1"; "servo2"; "servo3"; "servo4"; "servo5"; "servo6"; "servo7"].
(** components/sinks/cu_lewansoul/src/lib.rs:219-232: the ids, up to the first that is missing; the
    places after it stay 0. *)
Fixpoint servo_ids (m : params) (names : list string) : outcome (list Z) :=
  match names with
  | [] => Ret []
  | k :: names =>
      let! v := cget (int_of U8) m k in
      match v with
      | None => Ret (repeat 0 (S (length names)))
      | Some id => let! ids := servo_ids m names in Ret (id :: ids)
      end
  end.
(** components/sinks/cu_lewansoul/src/lib.rs:204-244 (new): the ids of the servos. [tty] tells which
    devices can be opened. *)
Definition servo_new (tty : string -> bool) (config : option params) : outcome (option (list Z)) :=
  match config with
  | None => Ret None
  | Some m =>
      expected (cget string_of m "serial_dev") (fun dev =>
      match map_get m "servo0" with
      | None => Ret None
      | Some _ => let! ids := servo_ids m servo_names in Ret (if tty dev then Some ids else None)
      end)
  end.

Section Floats.
Variable F : Type.
Variable of_int : Z -> F.
Variable of_float : N -> F.
(** core/cu29_runtime/src/config.rs:146-154 (From<Value> for f64). *)
Definition f64_of (v : cvalue) : outcome F :=
  match v with CInt z => Ret (of_int z) | CFloat b => Ret (of_float b) | _ => Panic end.
(** components/sinks/cu_rp_sn754410/src/lib.rs:134-164 (new): dead zone and dry run. [pwm] tells
    whether the two channels can be opened; [zero] is 0.0. *)
Definition motor_new (zero : F) (pwm : bool) (config : option params) : outcome (option (F * bool)) :=
  let open d r := Ret (if pwm then Some (d, r) else None) in
  match config with
  | None => open zero false
  | Some m =>
      default zero (cget f64_of m "deadzone") (fun d =>
      default false (cget bool_of m "dryrun") (fun r => open d r))
  end.
(** The parameters of a controller (components/tasks/cu_pid/src/lib.rs:153-182); the cast to f32 is
    left out. The last is the sampling time in nanoseconds. *)
Record pid_params := PidParams {
  p_setpoint : F; p_cutoff : F; p_kp : F; p_pl : F; p_ki : F; p_il : F; p_kd : F; p_dl : F; p_ol : F; p_sampling : Z }.
(** components/tasks/cu_pid/src/lib.rs:146-205 (new) with getcfg; [lit] gives the numbers written
    in the program. *)
Definition pid_new (lit : Z -> F) (config : option params) : outcome (option pid_params) :=
  match config with
  | None => Ret None
  | Some m =>
      needed (cget f64_of m "setpoint") (fun setpoint =>
      needed (cget f64_of m "cutoff") (fun cutoff =>
      needed (cget f64_of m "kp") (fun kp =>
      default (lit 2) (cget f64_of m "pl") (fun pl =>
      default (lit 0) (cget f64_of m "ki") (fun ki =>
      default (lit 1) (cget f64_of m "il") (fun il =>
      default (lit 0) (cget f64_of m "kd") (fun kd =>
      default (lit 2) (cget f64_of m "dl") (fun dl =>
      default (lit 1) (cget f64_of m "ol") (fun ol =>
      default 0 (cget (int_of U32) m "sampling_ms") (fun ms =>
      Ret (Some (PidParams setpoint cutoff kp pl ki il kd dl ol (ms * 1000000)))))))))))))
  end.
(** components/tasks/cu_apriltag/src/lib.rs:259-302 (new): family, bits corrected, tag size, focal
    lengths and center. [family] tells which texts are families; [lit] gives the constants of lines
    27-35 by name. The detector library does not fail. *)
Definition tags_new (family : string -> bool) (lit : string -> F) (config : option params) : outcome (option (string * Z * list F)) :=
  let make f bits l := if family f then Ret (Some (f, bits, l)) else Panic in
  match config with
  | None => make "tag16h5" 1 [lit "tag_size"; lit "fx"; lit "fy"; lit "cx"; lit "cy"]
  | Some m =>
      default "tag16h5" (cget string_of m "family") (fun f =>
      if family f then
        default 1 (cget (int_of U32) m "bits_corrected") (fun bits =>
        default (lit "tag_size") (cget f64_of m "tag_size") (fun s =>
        default (lit "fx") (cget f64_of m "fx") (fun fx =>
        default (lit "fy") (cget f64_of m "fy") (fun fy =>
        default (lit "cx") (cget f64_of m "cx") (fun cx =>
        default (lit "cy") (cget f64_of m "cy") (fun cy =>
        make f bits [s; fx; fy; cx; cy]))))))
      else Panic)
  end.
End Floats.

(** components/sources/cu_gstreamer/src/cu_gstreamer_impl.rs:67-140 (new): pipeline and caps.
    [init], [launch], [sink] and [caps] tell whether the library starts, makes the pipeline, finds
    its appsink called copper and understands the caps. *)
Definition gst_new (init : bool) (launch sink caps : string -> bool) (config : option params) : outcome (option (string * string)) :=
  if init then
    match config with
    | None => Ret None
    | Some m =>
        needed (cget string_of m "pipeline") (fun p =>
        if launch p then
          needed (cget string_of m "caps") (fun c => Ret (if sink p && caps c then Some (p, c) else None))
        else Ret None)
    end
  else Ret None.

(** ** Cameras *)
(** A size of frames (components/sources/cu_v4l/src/lib.rs:139-146): a discrete one or a range. *)
Inductive frame_size := Discrete (w h : Z) | Stepwise.
(** A format (components/sources/cu_v4l/src/lib.rs:158, 206-211): width, height, stride, the code
    of four bytes, the bytes of an image. *)
Record image_format := ImageFormat { f_width : Z; f_height : Z; f_stride : Z; f_code : string; f_size : Z }.
(** A camera of the library v4l (components/sources/cu_v4l/src/lib.rs:107-184): whether it opens
    (107), the codes it has (111), the sizes for a code (132), its answer to a format set (159),
    whether it takes a rate (166) and whether a stream with a number of buffers is made (186-202). *)
Record camera := Camera {
  v_opens : bool; v_codes : option (list string); v_sizes : string -> option (list frame_size);
  v_set : Z -> Z -> string -> option image_format; v_rate : Z -> bool; v_stream : Z -> Z -> bool }.
(** components/sources/cu_v4l/src/lib.rs:138-146: the size asked for when it is listed before any
    range. *)
Fixpoint listed (w h : Z) (l : list frame_size) : outcome (Z * Z) :=
  match l with
  | [] => Ret (0, 0)
  | Stepwise :: _ => Panic
  | Discrete a b :: l => if (a =? w) && (b =? h) then Ret (a, b) else listed w h l
  end.
(** components/sources/cu_v4l/src/lib.rs:135-155: the size that will be set. *)
Definition choose (w h : option Z) (l : list frame_size) : outcome (Z * Z) :=
  match w, h with
  | Some w, Some h => listed w h l
  | _, _ => match l with Discrete a b :: _ => Ret (a, b) | _ => Panic end
  end.
(** A configured camera (components/sources/cu_v4l/src/lib.rs:55-59, 213-217): the format of its
    images and the milliseconds it waits for one; with it the size that was set. *)
Record opened := Opened { o_format : image_format; o_timeout : Z; o_asked : Z * Z }.
(** components/sources/cu_v4l/src/lib.rs:71-218 (new) with set_timeout
    (components/sources/cu_v4l/src/v4lstream.rs:83-85). [dev] gives the camera with a number. *)
Definition camera_new (dev : Z -> camera) (config : option params) : outcome (option opened) :=
  let read := match config with
              | None => Ret (0, None, None, None, None, 4, 500)
              | Some m =>
                  default 0 (cget (int_of U32) m "device") (fun d =>
                  let! w := cget (int_of U32) m "width" in
                  let! h := cget (int_of U32) m "height" in
                  let! fps := cget (int_of U32) m "fps" in
                  let! code := cget string_of m "fourcc" in
                  default 4 (cget (int_of U32) m "buffers") (fun n =>
                  default 500 (cget (int_of U32) m "timeout_ms") (fun t =>
                  Ret (d, w, h, fps, code, n, t))))
              end in
  let! (d, w, h, fps, code, n, t) := read in
  let c := dev d in
  if v_opens c then
    match v_codes c with
    | None => Ret None
    | Some [] => Ret None
    | Some (first :: rest) =>
        match (match code with None => Some first | Some s => if Nat.eqb (String.length s) 4 then Some s else None end) with
        | None => Ret None
        | Some code =>
            if existsb (String.eqb code) (first :: rest) then
              match v_sizes c code with
              | None => Ret None
              | Some sizes =>
                  let! (w, h) := choose w h sizes in
                  match v_set c w h code with
                  | None => Ret None
                  | Some f =>
                      if match fps with None => true | Some r => v_rate c r end then
                        if v_stream c n (f_size f) then
                          if t <? 2 ^ 31 then Ret (Some (Opened f t (w, h))) else Panic
                        else Ret None
                      else Ret None
                  end
              end
            else Ret None
        end
    end
  else Ret None.
