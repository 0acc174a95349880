(** Binary codec used for everything Copper stores: the part of bincode 2.0
    configured with [bincode::config::standard()] (little endian, variable
    length integers) that the repository relies on
    (core/cu29_unifiedlog/src/lib.rs:11, 92, 308, 346, 572, 674;
     core/cu29_export/src/lib.rs:93, 124). bincode itself is an external crate:
    these definitions transcribe its documented format and are part of the
    trusted base. A byte is an [N] below 256; an encoder returns the bytes it
    writes; a decoder consumes a prefix of its input or fails ([None]). *)
From Coq Require Import List Arith NArith ZArith Bool.
From Verif Require Import Base.
Import ListNotations.
Open Scope N_scope.

(** The bytes of a slice, as written to at core/cu29_unifiedlog/src/lib.rs:92 and read from at core/cu29_unifiedlog/src/lib.rs:674. *)
Definition bytes := list N.

(** A bincode decoder over a slice (core/cu29_unifiedlog/src/lib.rs:674
    [decode_from_slice]). *)
Definition decoder (A : Type) := bytes -> option (A * bytes).

(** A decoder that reads nothing (the Ok of core/cu29_value/src/bdec.rs:27). *)
Definition dret {A} (a : A) : decoder A := fun b => Some (a, b).
(** Decoding one after the other, with the ? operator (core/cu29_value/src/bdec.rs:13-33). *)
Definition dbind {A B} (d : decoder A) (f : A -> decoder B) : decoder B :=
  fun b => match d b with Some (a, b') => f a b' | None => None end.
(** A decoding error (core/cu29_value/src/bdec.rs:34-37). *)
Definition dfail {A} : decoder A := fun _ => None.
Notation "'let?' x ':=' d 'in' e" := (dbind d (fun x => e))
  (at level 200, x pattern, right associativity).

(** Little endian bytes of an integer ([to_le_bytes]). Part of bincode as used at core/cu29_unifiedlog/src/lib.rs:92. *)
Fixpoint le_bytes (n : nat) (v : N) : bytes :=
  match n with O => [] | S n => (v mod 256) :: le_bytes n (v / 256) end.

(** [from_le_bytes]. Part of bincode as used at core/cu29_unifiedlog/src/lib.rs:674. *)
Fixpoint of_le (bs : bytes) : N :=
  match bs with [] => 0 | b :: t => b + 256 * of_le t end.

(** Read exactly [n] raw bytes. Part of bincode as used at core/cu29_unifiedlog/src/lib.rs:674. *)
Fixpoint take_bytes (n : nat) (b : bytes) : option (bytes * bytes) :=
  match n with
  | O => Some ([], b)
  | S n => match b with
           | [] => None
           | x :: b => match take_bytes n b with Some (h, t) => Some (x :: h, t) | None => None end
           end
  end.

(** u8: one raw byte. As used at core/cu29_value/src/benc.rs:12. *)
Definition enc_u8 (v : N) : bytes := [v].
(** u8, as used at core/cu29_value/src/bdec.rs:15. *)
Definition dec_u8 : decoder N := fun b => match b with [] => None | x :: b => Some (x, b) end.

(** [n] raw bytes as a little endian integer. Part of bincode as used at core/cu29_value/src/bdec.rs:23-24. *)
Definition dec_fixed (n : nat) : decoder N :=
  fun b => match take_bytes n b with Some (h, t) => Some (of_le h, t) | None => None end.

(** Variable length unsigned integers: the value itself below 251, else a
    marker (251: 16 bit, 252: 32 bit, 253: 64 bit, 254: 128 bit). As used at core/cu29_value/src/benc.rs:13-15. *)
Definition enc_var (v : N) : bytes :=
  if v <? 251 then [v]
  else if v <? 2 ^ 16 then 251 :: le_bytes 2 v
  else if v <? 2 ^ 32 then 252 :: le_bytes 4 v
  else if v <? 2 ^ 64 then 253 :: le_bytes 8 v
  else 254 :: le_bytes 16 v.

(** Decoding at a width of [w] bytes (2, 4, 8 or 16): a marker for a wider
    integer is an error. As used at core/cu29_value/src/bdec.rs:16-18. *)
Definition dec_var (w : nat) : decoder N :=
  let? m := dec_u8 in
  if m <? 251 then dret m
  else if m =? 251 then dec_fixed 2
  else if (m =? 252) && (4 <=? w)%nat then dec_fixed 4
  else if (m =? 253) && (8 <=? w)%nat then dec_fixed 8
  else if (m =? 254) && (16 <=? w)%nat then dec_fixed 16
  else dfail.

(** u16, as used at core/cu29_value/src/benc.rs:13. *)
Definition enc_u16 := enc_var.
(** u16, as used at core/cu29_value/src/bdec.rs:16. *)
Definition dec_u16 := dec_var 2.
(** u32, as used at core/cu29_value/src/benc.rs:14. *)
Definition enc_u32 := enc_var.
(** u32, as used at core/cu29_value/src/bdec.rs:17. *)
Definition dec_u32 := dec_var 4.
(** u64, as used at core/cu29_value/src/benc.rs:15. *)
Definition enc_u64 := enc_var.
(** u64, as used at core/cu29_value/src/bdec.rs:18. *)
Definition dec_u64 := dec_var 8.

(** Signed integers: zigzag, then variable length. As used at core/cu29_value/src/benc.rs:17-19. *)
Definition zigzag (z : Z) : N :=
  (if z <? 0 then Z.to_N (- z * 2 - 1) else Z.to_N (z * 2))%Z.
(** The inverse, as used at core/cu29_value/src/bdec.rs:20-22. *)
Definition unzigzag (n : N) : Z :=
  if N.even n then Z.of_N (n / 2) else (- Z.of_N (n / 2) - 1)%Z.
(** i16, i32 and i64, as used at core/cu29_value/src/benc.rs:17-19. *)
Definition enc_signed (z : Z) : bytes := enc_var (zigzag z).
(** i16, i32 and i64, as used at core/cu29_value/src/bdec.rs:20-22. *)
Definition dec_signed (w : nat) : decoder Z := let? n := dec_var w in dret (unzigzag n).

(** i8: one raw byte, two's complement. As used at core/cu29_value/src/benc.rs:16. *)
Definition enc_i8 (z : Z) : bytes := [Z.to_N (z mod 256)].
(** i8, as used at core/cu29_value/src/bdec.rs:19. *)
Definition dec_i8 : decoder Z :=
  let? b := dec_u8 in dret (if b <? 128 then Z.of_N b else (Z.of_N b - 256)%Z).

(** bool: one byte, 0 or 1. As used at core/cu29_value/src/benc.rs:22. *)
Definition enc_bool (b : bool) : bytes := [if b then 1 else 0].
(** bool, as used at core/cu29_value/src/bdec.rs:14. *)
Definition dec_bool : decoder bool :=
  let? x := dec_u8 in
  if x =? 0 then dret false else if x =? 1 then dret true else dfail.

(** f32 and f64: the bits as 4 or 8 little endian bytes. A float is modelled by
    its bit pattern. As used at core/cu29_value/src/benc.rs:20. *)
Definition enc_f32 (bits : N) : bytes := le_bytes 4 bits.
(** f32, as used at core/cu29_value/src/bdec.rs:23. *)
Definition dec_f32 : decoder N := dec_fixed 4.
(** f64, as used at core/cu29_value/src/benc.rs:21. *)
Definition enc_f64 (bits : N) : bytes := le_bytes 8 bits.
(** f64, as used at core/cu29_value/src/bdec.rs:24. *)
Definition dec_f64 : decoder N := dec_fixed 8.

(** Option: a tag byte, then the value. As used at core/cu29_value/src/benc.rs:29. *)
Definition enc_option {A} (e : A -> bytes) (o : option A) : bytes :=
  match o with None => [0] | Some a => 1 :: e a end.
(** Option, as used at core/cu29_value/src/bdec.rs:28. *)
Definition dec_option {A} (d : decoder A) : decoder (option A) :=
  let? t := dec_u8 in
  if t =? 0 then dret None
  else if t =? 1 then let? a := d in dret (Some a)
  else dfail.

(** [n] values one after the other, without a length. As in core/cu29_log/src/lib.rs:45-52. *)
Definition enc_all {A} (e : A -> bytes) (l : list A) : bytes := flat_map e l.
(** The same, as in core/cu29_log/src/lib.rs:66-76. *)
Fixpoint dec_n {A} (d : decoder A) (n : nat) : decoder (list A) :=
  match n with
  | O => dret []
  | S n => let? a := d in let? t := dec_n d n in dret (a :: t)
  end.

(** Vec and slices: length as u64, then the elements. As used at core/cu29_value/src/benc.rs:25, 27. *)
Definition enc_vec {A} (e : A -> bytes) (l : list A) : bytes :=
  enc_u64 (N.of_nat (length l)) ++ enc_all e l.
(** Vec, as used at core/cu29_value/src/bdec.rs:30, 32. *)
Definition dec_vec {A} (d : decoder A) : decoder (list A) :=
  let? n := dec_u64 in dec_n d (N.to_nat n).

(** Pairs (and fields of a struct): one after the other. As in the entries of a map, core/cu29_value/src/benc.rs:28. *)
Definition enc_pair {A B} (ea : A -> bytes) (eb : B -> bytes) (p : A * B) : bytes :=
  ea (fst p) ++ eb (snd p).
(** The same, as used at core/cu29_value/src/bdec.rs:31. *)
Definition dec_pair {A B} (da : decoder A) (db : decoder B) : decoder (A * B) :=
  let? a := da in let? b := db in dret (a, b).

(** char: UTF-8. A char is modelled by its code point. As used at core/cu29_value/src/benc.rs:23. *)
Definition enc_char (c : N) : bytes :=
  if c <? 0x80 then [c]
  else if c <? 0x800 then [0xC0 + c / 64; 0x80 + c mod 64]
  else if c <? 0x10000 then [0xE0 + c / 4096; 0x80 + (c / 64) mod 64; 0x80 + c mod 64]
  else [0xF0 + c / 262144; 0x80 + (c / 4096) mod 64; 0x80 + (c / 64) mod 64; 0x80 + c mod 64].

(** Unicode scalar values. A char, as at core/cu29_value/src/bdec.rs:25. *)
Definition is_char (c : N) : bool := (c <? 0xD800) || (0xE000 <=? c) && (c <? 0x110000).

(** A continuation byte of UTF-8 (std, through core/cu29_value/src/bdec.rs:25-26). *)
Definition cont (b : N) : bool := (0x80 <=? b) && (b <? 0xC0).

(** Strict UTF-8 decoding of one char (overlong forms and surrogates rejected). As used at core/cu29_value/src/bdec.rs:25. *)
Definition dec_char : decoder N := fun b =>
  match b with
  | [] => None
  | b0 :: r0 =>
    if b0 <? 0x80 then Some (b0, r0)
    else if b0 <? 0xC0 then None
    else if b0 <? 0xE0 then
      match r0 with
      | b1 :: r1 =>
          let c := (b0 - 0xC0) * 64 + (b1 - 0x80) in
          if cont b1 && (0x80 <=? c) then Some (c, r1) else None
      | _ => None
      end
    else if b0 <? 0xF0 then
      match r0 with
      | b1 :: b2 :: r2 =>
          let c := (b0 - 0xE0) * 4096 + (b1 - 0x80) * 64 + (b2 - 0x80) in
          if cont b1 && cont b2 && (0x800 <=? c) && is_char c then Some (c, r2) else None
      | _ => None
      end
    else if b0 <? 0xF8 then
      match r0 with
      | b1 :: b2 :: b3 :: r3 =>
          let c := (b0 - 0xF0) * 262144 + (b1 - 0x80) * 4096 + (b2 - 0x80) * 64 + (b3 - 0x80) in
          if cont b1 && cont b2 && cont b3 && (0x10000 <=? c) && is_char c
          then Some (c, r3) else None
      | _ => None
      end
    else None
  end.

(** Strings: length in bytes as u64, then UTF-8; decoding validates. A string is
    modelled by its list of code points. As used at core/cu29_value/src/bdec.rs:26. *)
Fixpoint utf8_chars (fuel : nat) (b : bytes) : option (list N) :=
  match b with
  | [] => Some []
  | _ => match fuel with
         | O => None
         | S fuel => match dec_char b with
                     | None => None
                     | Some (c, b') => match utf8_chars fuel b' with
                                       | None => None | Some cs => Some (c :: cs) end
                     end
         end
  end.
(** String, as used at core/cu29_value/src/benc.rs:24. *)
Definition enc_string (s : list N) : bytes := enc_vec enc_u8 (enc_all enc_char s).
(** String, as used at core/cu29_value/src/bdec.rs:26. *)
Definition dec_string : decoder (list N) :=
  let? b := dec_vec dec_u8 in
  match utf8_chars (length b) b with None => dfail | Some cs => dret cs end.
