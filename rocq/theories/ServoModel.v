(** The bus of LewanSoul servos (components/sinks/cu_lewansoul/src/lib.rs). A byte is an [N]
    below 256. The serial port is the list of the bytes that arrive; [read_exact] fails when
    fewer arrive. Overflow checks are on, as in a debug build. *)
From Coq Require Import List Arith NArith Bool.
From Verif Require Import Base.
Import ListNotations.
Local Open Scope N_scope.

(** components/sinks/cu_lewansoul/src/lib.rs:59-65 (compute_checksum). *)
Definition checksum (l : list N) : N := 255 - fold_left (fun c b => (c + b) mod 256) l 0.
(** components/sinks/cu_lewansoul/src/lib.rs:83-92 (send_packet), the bytes written;
    [data.len() as u8 + 3] overflows from 253. *)
Definition send_packet (id command : N) (data : list N) : outcome (list N) :=
  let len := N.of_nat (length data) mod 256 in
  if 256 <=? len + 3 then Panic
  else let body := [id; len + 3; command] ++ data in Ret ([0x55; 0x55] ++ body ++ [checksum body]).
(** The io::Error values of components/sinks/cu_lewansoul/src/lib.rs:153-174. *)
Inductive io_error := UnexpectedEof | InvalidHeader | InvalidChecksum.
(** std's read_exact (components/sinks/cu_lewansoul/src/lib.rs:155, 163): the bytes read and
    the bytes left. *)
Definition read_exact (n : nat) (port : list N) : option (list N * list N) :=
  if Nat.leb n (length port) then Some (firstn n port, skipn n port) else None.
(** components/sinks/cu_lewansoul/src/lib.rs:153-174 (read_response) with the bytes left in
    the port. [length as usize - 2] and [remaining.len() - 1] panic below 0. *)
Definition read_response (port : list N) : outcome ((N * N * list N + io_error) * list N) :=
  match read_exact 5 port with
  | Some ([h0; h1; id; len; command], port) =>
      if negb (h0 =? 0x55) || negb (h1 =? 0x55) then Ret (inr InvalidHeader, port)
      else if len <? 2 then Panic
      else match read_exact (N.to_nat (len - 2)) port with
           | None => Ret (inr UnexpectedEof, [])
           | Some (remaining, port) =>
               if Nat.eqb (length remaining) 0 then Panic
               else let data := firstn (length remaining - 1) remaining in
                    if negb (checksum ([id; len; command] ++ data) =? last remaining 0)
                    then Ret (inr InvalidChecksum, port)
                    else Ret (inl (id, command, data), port)
           end
  | _ => Ret (inr UnexpectedEof, [])
  end.
(** components/sinks/cu_lewansoul/src/lib.rs:134-151 (ping): [Ret true] if the servo answers
    with its id, [Ret false] for an error; [response.2[0]] panics without data. *)
Definition ping_answer (id : N) (port : list N) : outcome bool :=
  let! (r, _) := read_response port in
  match r with
  | inl (_, _, d0 :: _) => Ret (d0 =? id)
  | inl (_, _, []) => Panic
  | inr _ => Ret false
  end.
