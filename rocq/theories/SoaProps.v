(** C33 and C34: structures of arrays. *)
From Coq Require Import List Arith Bool NArith Lia.
From Verif Require Import Base BincodeModel BincodeSpec BincodeProofs CodecModel SoaModel SoaSpec SoaProofs.
Import ListNotations.
Local Open Scope nat_scope.

(** Every sequence of calls on a new container gives the results of the same calls on a
    list of records bounded by the capacity (a refused push or an index out of bounds
    panics and changes nothing). *)
Theorem C33_bounded_list : forall (V S : Type) n (default : list V) (os : list (op V S)),
  Forall (typed (length default)) os ->
  snd (steps n (soa_new n default) os) = snd (list_steps n [] os).
Proof. intros V S n default os T. apply (steps_sim n (length default)); auto. apply sim_new. Qed.
Print Assumptions C33_bounded_list.
Example C33_case :
  let f := fun s r => (s + 1, map (fun v => v + s) r) in
  let os := [Push [1; 2]; Push [3; 4]; Push [5; 6]; Set_ 0 [7; 8]; Apply 10 f; Iter; Pop; Get 1; Get 0; Len] in
  Forall (typed (V := nat) 2) os /\
  snd (steps 2 (soa_new 2 [0; 0]) os) =
  [Unit; Unit; Panicked; Unit; After 12; Rows [[17; 18]; [14; 15]]; Row [14; 15]; Panicked; Row [17; 18]; Count 1].
Proof.
  cbv zeta. split; [|reflexivity]. repeat (constructor; cbn; auto). intros s r E. rewrite map_length. auto.
Qed.

(** A container is never read back from a stream: whenever decoding its encoding succeeds,
    either the elements differ or the bytes that follow are not left as they were. For
    fields whose decoder accepts only the encoding of its result (bytes, booleans, chars,
    floats). *)
Theorem C34_never_read_back : forall (V S : Type) n (cs : list (codec V)) default (os : list (op V S)) x rest x' rest',
  cs <> [] -> length default = length cs -> Forall (typed (length cs)) os -> x = fst (steps n (soa_new n default) os) ->
  (N.of_nat n < 2 ^ 64)%N -> Forall (fun c => strict (c_enc c) (c_dec c)) cs ->
  Forall (fun y => (y < 256)%N) (enc_soa cs x ++ rest) ->
  dec_soa n cs (enc_soa cs x ++ rest) = DOk x' rest' -> ~ (rows x' = rows x /\ rest' = rest).
Proof.
  intros V S n cs default os x rest x' rest' NE K T -> HN S0 F D.
  rewrite <- K in T. destruct (steps_sim n (length default) os _ _ (sim_new n default) T) as [M _]. rewrite K in M.
  exact (proj2 (never cs n _ _ _ _ _ M NE HN S0 F D)).
Qed.
Print Assumptions C34_never_read_back.

(** What does survive: the number of elements. *)
Theorem C34_length_partial : forall (V S : Type) n (cs : list (codec V)) default (os : list (op V S)) x rest x' rest',
  cs <> [] -> length default = length cs -> Forall (typed (length cs)) os -> x = fst (steps n (soa_new n default) os) ->
  (N.of_nat n < 2 ^ 64)%N -> Forall (fun c => strict (c_enc c) (c_dec c)) cs ->
  Forall (fun y => (y < 256)%N) (enc_soa cs x ++ rest) ->
  dec_soa n cs (enc_soa cs x ++ rest) = DOk x' rest' -> length (rows x') = length (rows x).
Proof.
  intros V S n cs default os x rest x' rest' NE K T -> HN S0 F D.
  rewrite <- K in T. destruct (steps_sim n (length default) os _ _ (sim_new n default) T) as [M _]. rewrite K in M.
  unfold rows. rewrite !map_length, !seq_length. exact (proj1 (never cs n _ _ _ _ _ M NE HN S0 F D)).
Qed.
Print Assumptions C34_length_partial.

Definition byte_field : codec N := Codec enc_u8 dec_u8 0%N.
Lemma byte_field_strict : strict (c_enc byte_field) (c_dec byte_field).
Proof. intros b v r _ E. apply dec_u8_inv in E. exact E. Qed.
(** One element 7 is read back as 1, and its byte is left in the stream. *)
Theorem C34_refuted : exists (os : list (op N unit)) x x' rest,
  Forall (typed 1) os /\ x = fst (steps 4 (soa_new 4 [0%N]) os) /\ rows x = [Some [7%N]] /\
  dec_soa 4 [byte_field] (enc_soa [byte_field] x) = DOk x' rest /\ rows x' = [Some [1%N]] /\ rest = [7%N].
Proof.
  exists [Push [7%N]]. do 3 eexists. split; [repeat constructor|]. split; [reflexivity|]. split; [reflexivity|].
  split; [reflexivity|]. split; reflexivity.
Qed.
Print Assumptions C34_refuted.
(** A length above the capacity is not refused but panics. *)
Theorem C34_capacity_refuted : exists b, dec_soa 1 [byte_field] b = DPanic.
Proof. exists [2%N; 5%N; 6%N]. reflexivity. Qed.
Print Assumptions C34_capacity_refuted.
