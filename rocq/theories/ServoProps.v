(** C43: frames on the servo bus. *)
From Coq Require Import List Arith NArith Bool Lia.
From Verif Require Import Base ServoModel.
Import ListNotations.
Local Open Scope N_scope.

(** *** Specification *)
Definition byte (b : N) : Prop := b < 256.
Definition sum (l : list N) : N := fold_right N.add 0 l.
(** What the protocol document asks of a frame: two start bytes, the id, the length of what
    follows it (without the id), the command, the data, and a last byte that makes the sum
    255 modulo 256. *)
Definition frame (id command : N) (data l : list N) : Prop :=
  exists chk, l = [0x55; 0x55; id; N.of_nat (length data) + 3; command] ++ data ++ [chk] /\ byte chk /\
    (id + (N.of_nat (length data) + 3) + command + sum data + chk) mod 256 = 255.
(** Two sequences that differ in one byte. *)
Definition one_byte (l l' : list N) : Prop := exists pre b b' post, l = pre ++ b :: post /\ l' = pre ++ b' :: post /\ b <> b' /\ byte b'.

(** *** Lemmas *)
Lemma fold_sum l : forall c, c < 256 -> fold_left (fun c b => (c + b) mod 256) l c = (c + sum l) mod 256.
Proof.
  induction l as [|b l IH]; intros c H; cbn.
  - rewrite N.add_0_r, N.mod_small by lia. reflexivity.
  - rewrite IH by lia. fold (sum l). rewrite N.add_mod_idemp_l by lia. f_equal. lia.
Qed.
Lemma checksum_sum l : checksum l = 255 - sum l mod 256.
Proof. unfold checksum. rewrite fold_sum by lia. reflexivity. Qed.
Lemma sum_app a b : sum (a ++ b) = sum a + sum b.
Proof. induction a; cbn; [reflexivity|]. fold (sum (a0 ++ b)) (sum a0). rewrite IHa. lia. Qed.
Lemma read_exact_app a b : read_exact (length a) (a ++ b) = Some (a, b).
Proof.
  unfold read_exact. rewrite (proj2 (Nat.leb_le _ _)) by (rewrite app_length; lia).
  rewrite firstn_app, Nat.sub_diag, firstn_all, skipn_app, Nat.sub_diag, skipn_all. cbn. rewrite app_nil_r. reflexivity.
Qed.
(** What the reader does with a whole frame, whatever its checksum byte. *)
Lemma read_frame id command data chk rest : N.of_nat (length data) <= 252 ->
  read_response ([0x55; 0x55; id; N.of_nat (length data) + 3; command] ++ data ++ [chk] ++ rest) =
  Ret (if checksum ([id; N.of_nat (length data) + 3; command] ++ data) =? chk then inl (id, command, data) else inr InvalidChecksum, rest).
Proof.
  intros L. unfold read_response. change [0x55; 0x55; id; N.of_nat (length data) + 3; command] with ([0x55; 0x55; id; N.of_nat (length data) + 3; command]).
  assert (X : read_exact 5 ([0x55; 0x55; id; N.of_nat (length data) + 3; command] ++ data ++ [chk] ++ rest) =
    Some ([0x55; 0x55; id; N.of_nat (length data) + 3; command], data ++ [chk] ++ rest)) by apply (read_exact_app [_; _; _; _; _]).
  rewrite X. change (0x55 =? 0x55) with true. cbn [negb orb].
  rewrite (proj2 (N.ltb_ge _ _)) by lia.
  replace (N.to_nat (N.of_nat (length data) + 3 - 2)) with (length (data ++ [chk])) by (rewrite app_length; cbn [length]; lia).
  rewrite app_assoc, read_exact_app. rewrite app_length. cbn [length].
  rewrite (proj2 (Nat.eqb_neq _ _)) by lia. replace (length data + 1 - 1)%nat with (length data) by lia.
  rewrite firstn_app, Nat.sub_diag, firstn_all. cbn [firstn]. rewrite app_nil_r, last_last. cbv zeta.
  destruct (_ =? chk); reflexivity.
Qed.

(** *** Theorems *)
(** What is sent is a frame of the protocol, and the reader gives back its id, command and
    data and leaves what follows. *)
Theorem C43_round_trip_partial : forall id command data rest, byte id -> byte command -> Forall byte data -> N.of_nat (length data) <= 252 ->
  exists l, send_packet id command data = Ret l /\ frame id command data l /\ read_response (l ++ rest) = Ret (inl (id, command, data), rest).
Proof.
  intros id command data rest Hi Hc Hd L. unfold send_packet. rewrite N.mod_small by lia. rewrite (proj2 (N.leb_gt _ _)) by lia.
  eexists. split; [reflexivity|]. split.
  - exists (checksum ([id; N.of_nat (length data) + 3; command] ++ data)). split; [reflexivity|]. rewrite checksum_sum, sum_app.
    unfold byte. split; [lia|]. change (sum [id; N.of_nat (length data) + 3; command]) with (id + (N.of_nat (length data) + 3 + (command + 0))).
    lia.
  - set (chk := checksum _). pose proof (read_frame id command data chk rest L) as H. cbn [app] in H |- *. rewrite <- app_assoc. cbn [app].
    rewrite H. unfold chk. cbn [app]. rewrite N.eqb_refl. reflexivity.
Qed.
Print Assumptions C43_round_trip_partial.

(** One wrong byte in the id, the command, the data or the checksum of a frame: rejected by
    the checksum. *)
Theorem C43_corruption_partial : forall id command data chk id' command' tail' rest, frame id command data ([0x55; 0x55; id; N.of_nat (length data) + 3; command] ++ data ++ [chk]) ->
  byte id -> byte command -> Forall byte data -> N.of_nat (length data) <= 252 ->
  one_byte (id :: command :: data ++ [chk]) (id' :: command' :: tail') ->
  read_response ([0x55; 0x55; id'; N.of_nat (length data) + 3; command'] ++ tail' ++ rest) = Ret (inr InvalidChecksum, rest).
Proof.
  intros id command data chk id' command' tail' rest (chk0 & E & Hk & S0) Hi Hc Hd L (pre & b & b' & post & E1 & E2 & N0 & Hb').
  apply app_inv_head in E. apply app_inj_tail in E. destruct E as [_ <-].
  assert (SS : sum (id :: command :: data ++ [chk]) + b' = sum (id' :: command' :: tail') + b).
  { rewrite E1, E2, !sum_app. cbn. fold (sum post). lia. }
  assert (Bb : b < 256).
  { assert (F : Forall byte (id :: command :: data ++ [chk])) by (repeat constructor; auto; apply Forall_app; auto).
    rewrite E1 in F. apply Forall_app in F. destruct F as [_ F]. inversion F; auto. }
  assert (LT : length tail' = S (length data)).
  { apply (f_equal (@length N)) in E1. apply (f_equal (@length N)) in E2. cbn in E1, E2. rewrite ?app_length in *. cbn in *. lia. }
  destruct (@exists_last _ tail') as (d & k & ->); [destruct tail'; [discriminate|congruence]|].
  assert (Ld : length d = length data) by (rewrite app_length in LT; cbn in LT; lia).
  rewrite <- Ld. pose proof (read_frame id' command' d k rest) as H. rewrite <- app_assoc. cbn [app] in H |- *. rewrite H by lia.
  destruct (N.eqb_spec (checksum (id' :: N.of_nat (length d) + 3 :: command' :: d)) k) as [X|]; [|reflexivity]. exfalso.
  rewrite checksum_sum in X. cbn [sum fold_right] in X, SS. fold (sum d) in X. fold (sum (d ++ [k])) in SS. fold (sum (data ++ [chk])) in SS.
  rewrite !sum_app in SS. cbn [sum fold_right] in SS. rewrite Ld in X. unfold byte in *.
  set (a := id + (N.of_nat (length data) + 3) + command + sum data + chk) in *.
  set (a' := id' + (N.of_nat (length data) + 3 + (command' + sum d))) in *.
  assert (a + b' = a' + k + b) by (unfold a, a'; lia). assert ((a' + k) mod 256 = 255) by lia. lia.
Qed.
Print Assumptions C43_corruption_partial.

Example C43_case : exists l, send_packet 3 28 [1; 2; 255] = Ret l /\ l = [0x55; 0x55; 3; 6; 28; 1; 2; 255; 216] /\
  read_response (l ++ [9]) = Ret (inl (3, 28, [1; 2; 255]), [9]) /\
  one_byte (3 :: 28 :: [1; 2; 255] ++ [216]) [3; 29; 1; 2; 255; 216].
Proof. eexists. repeat split. exists [3], 28, 29, [1; 2; 255; 216]. repeat split. discriminate. Qed.

(** The claim as stated is false: received bytes can crash the task. Any frame that announces
    a length below 3 does, whatever its other bytes. *)
Theorem C43_crash_refuted : forall id len command rest, len < 3 -> read_response ([0x55; 0x55; id; len; command] ++ rest) = Panic.
Proof.
  intros id len command rest H. unfold read_response.
  assert (X : read_exact 5 ([0x55; 0x55; id; len; command] ++ rest) = Some ([0x55; 0x55; id; len; command], rest)) by apply (read_exact_app [_; _; _; _; _]).
  rewrite X. change (0x55 =? 0x55) with true. cbn [negb orb]. destruct (N.ltb_spec len 2); [reflexivity|]. replace len with 2 by lia. reflexivity.
Qed.
Print Assumptions C43_crash_refuted.

(** These are the only crashes of the reader. *)
Theorem C43_only_crash_partial : forall port, read_response port = Panic -> exists id len command rest,
  port = [0x55; 0x55; id; len; command] ++ rest /\ len < 3.
Proof.
  intros port H. unfold read_response in H. destruct (read_exact 5 port) as [[h rest]|] eqn:E; [|discriminate].
  assert (P : port = h ++ rest).
  { unfold read_exact in E. destruct (Nat.leb 5 (length port)); [|discriminate]. injection E as <- <-. symmetry. apply (firstn_skipn 5). }
  destruct h as [|h0 [|h1 [|id [|len [|command [|]]]]]]; try discriminate H.
  destruct (N.eqb_spec h0 0x55), (N.eqb_spec h1 0x55); cbn [negb orb] in H; try discriminate H. subst h0 h1.
  exists id, len, command, rest. split; auto. destruct (N.ltb_spec len 2); [lia|].
  destruct (read_exact (N.to_nat (len - 2)) rest) as [[rem p]|] eqn:E2; [|discriminate].
  destruct (Nat.eqb_spec (length rem) 0) as [Z0|]; [|destruct (negb _) in H; discriminate].
  unfold read_exact in E2. destruct (Nat.leb_spec (N.to_nat (len - 2)) (length rest)); [|discriminate]. injection E2 as <- <-.
  rewrite firstn_length in Z0. lia.
Qed.
Print Assumptions C43_only_crash_partial.

(** What the reader gives back was in a frame of the protocol, at the start of the port. *)
Theorem C43_sound_partial : forall port id command data rest, Forall byte port -> read_response port = Ret (inl (id, command, data), rest) ->
  exists l, port = l ++ rest /\ frame id command data l.
Proof.
  intros port id command data rest B H. unfold read_response in H. destruct (read_exact 5 port) as [[h p]|] eqn:E1; [|discriminate H].
  unfold read_exact in E1. destruct (Nat.leb_spec 5 (length port)) as [L|]; [|discriminate E1]. injection E1 as <- <-.
  destruct port as [|h0 [|h1 [|i [|len [|c q]]]]]; cbn [length] in L; try lia. cbn [firstn skipn] in H.
  destruct (N.eqb_spec h0 0x55) as [->|]; [|discriminate H]. destruct (N.eqb_spec h1 0x55) as [->|]; [|discriminate H]. cbn [negb orb] in H.
  destruct (N.ltb_spec len 2); [discriminate H|]. destruct (read_exact (N.to_nat (len - 2)) q) as [[rem p]|] eqn:E2; [|discriminate H].
  unfold read_exact in E2. destruct (Nat.leb_spec (N.to_nat (len - 2)) (length q)) as [L2|]; [|discriminate E2]. injection E2 as E2 <-.
  assert (Lr : length rem = N.to_nat (len - 2)) by (rewrite <- E2, firstn_length; lia).
  destruct (Nat.eqb_spec (length rem) 0) as [|Nz]; [discriminate H|]. cbv zeta in H.
  destruct (N.eqb_spec (checksum ([i; len; c] ++ firstn (length rem - 1) rem)) (last rem 0)) as [Ck|]; [|discriminate H]. cbn [negb] in H. injection H as <- <- <- <-.
  assert (Er : rem = firstn (length rem - 1) rem ++ [last rem 0]).
  { destruct rem as [|r0 rem'] using rev_ind; [cbn in Nz; lia|]. rewrite last_last, app_length. cbn [length]. replace (length rem' + 1 - 1)%nat with (length rem' + 0)%nat by lia. rewrite firstn_app_2. cbn. rewrite app_nil_r. reflexivity. }
  set (dt := firstn (length rem - 1) rem) in *. assert (Ld : N.of_nat (length dt) + 3 = len). { assert (length rem = length dt + 1)%nat by (rewrite Er, app_length; reflexivity). lia. }
  assert (Bl : byte (last rem 0)). { assert (Bq : Forall byte q) by (repeat match goal with X : Forall byte (_ :: _) |- _ => apply Forall_cons_iff in X; destruct X end; assumption).
    rewrite <- (firstn_skipn (N.to_nat (len - 2)) q), E2 in Bq. apply Forall_app in Bq as [Bq _]. rewrite Er in Bq. apply Forall_app in Bq as [_ Bq]. inversion Bq; auto. }
  exists ([0x55; 0x55; i; len; c] ++ dt ++ [last rem 0]). split.
  - rewrite <- app_assoc. cbn [app]. do 5 f_equal. rewrite <- Er, <- E2. symmetry. apply firstn_skipn.
  - exists (last rem 0). rewrite Ld. split; [reflexivity|]. split; [exact Bl|]. rewrite <- Ck, checksum_sum, sum_app. cbn [sum fold_right]. unfold byte in *. clear - Ck. lia.
Qed.
Print Assumptions C43_sound_partial.
(** A ping succeeds just when such a frame arrives with the id as its first byte of data. *)
Theorem C43_ping_partial : forall id port, Forall byte port -> ping_answer id port = Ret true <->
  exists id' command data rest l, N.of_nat (length data) <= 252 /\ port = l ++ rest /\ frame id' command (id :: data) l.
Proof.
  intros id port B. split.
  - intros H. unfold ping_answer in H. destruct (read_response port) as [[r rest]|] eqn:E; [|discriminate H]. cbn [obind] in H.
    destruct r as [[[id' command] data]|]; [|discriminate H]. destruct data as [|d0 data]; [discriminate H|]. injection H as H. apply N.eqb_eq in H as ->.
    destruct (C43_sound_partial _ _ _ _ _ B E) as (l & El & F). exists id', command, data, rest, l. split; [|auto].
    destruct F as (chk & Fl & _ & _). subst l port. rewrite <- app_assoc in B. repeat (apply Forall_cons_iff in B; destruct B as [? B]). unfold byte in *. cbn [length] in *. lia.
  - intros (id' & command & data & rest & l & L & -> & chk & -> & Bc & Hs). unfold ping_answer. rewrite <- !app_assoc.
    destruct (N.leb_spec (N.of_nat (length (id :: data))) 252) as [L'|L'].
    + rewrite read_frame by exact L'. rewrite checksum_sum, sum_app. cbn [sum fold_right] in *. fold (sum data) in *.
      match goal with |- context [?a =? chk] => destruct (N.eqb_spec a chk) as [_|Ne] end; cbn [obind]; [rewrite N.eqb_refl; reflexivity|]. exfalso. apply Ne. unfold byte in Bc. cbn [length] in *. lia.
    + exfalso. rewrite <- app_assoc in B. repeat (apply Forall_cons_iff in B; destruct B as [? B]). unfold byte in *. cbn [length] in *. lia.
Qed.
Print Assumptions C43_ping_partial.
Example C43_ping_case : ping_answer 1 [0x55; 0x55; 1; 4; 14; 1; 235; 9] = Ret true /\ ping_answer 2 [0x55; 0x55; 1; 4; 14; 1; 235; 9] = Ret false.
Proof. split; reflexivity. Qed.

(** A valid answer without data crashes the ping; sending 253 bytes of data crashes too. *)
Theorem C43_ping_refuted : exists id port, frame id 14 [] port /\ ping_answer id port = Panic.
Proof. exists 1, [0x55; 0x55; 1; 3; 14; 237]. split; [exists 237; repeat split|reflexivity]. Qed.
Print Assumptions C43_ping_refuted.
Theorem C43_long_refuted : exists data, length data = 253%nat /\ send_packet 1 1 data = Panic.
Proof. exists (repeat 0 253). split; reflexivity. Qed.
Print Assumptions C43_long_refuted.
