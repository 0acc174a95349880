(** Proofs about the MSP protocol. *)
From Coq Require Import List Arith NArith Bool Lia.
From Verif Require Import Base MspModel MspSpec.
Import ListNotations.
Local Open Scope N_scope.

(** ** CRC *)
Definition below_256 : list N := map N.of_nat (seq 0 256).
Lemma in_below v : v < 256 -> In v below_256.
Proof.
  intros H. unfold below_256. apply in_map_iff. exists (N.to_nat v). split; [apply Nnat.N2Nat.id|]. apply in_seq. lia.
Qed.
Lemma table_byte v : v < 256 -> crc_table v < 256.
Proof.
  intros H. assert (C : forallb (fun v => crc_table v <? 256) below_256 = true) by (vm_compute; reflexivity).
  rewrite forallb_forall in C. specialize (C v (in_below v H)). apply N.ltb_lt in C. auto.
Qed.
Lemma table_inj a b : a < 256 -> b < 256 -> crc_table a = crc_table b -> a = b.
Proof.
  intros Ha Hb E.
  assert (C : forallb (fun a => forallb (fun b => negb (crc_table a =? crc_table b) || (a =? b)) below_256) below_256 = true)
    by (vm_compute; reflexivity).
  rewrite forallb_forall in C. specialize (C a (in_below a Ha)). rewrite forallb_forall in C. specialize (C b (in_below b Hb)).
  apply orb_prop in C. destruct C as [C|C]; [|apply N.eqb_eq; auto]. rewrite E, N.eqb_refl in C. discriminate.
Qed.
Lemma lxor_byte a b : a < 256 -> b < 256 -> N.lxor a b < 256.
Proof.
  intros Ha Hb. destruct (N.eq_dec (N.lxor a b) 0) as [->|N0]; [reflexivity|].
  change 256 with (2 ^ 8). apply N.log2_lt_pow2; [lia|].
  assert (N.log2 (N.lxor a b) <= N.max (N.log2 a) (N.log2 b)) by apply N.log2_lxor.
  assert (N.log2 a < 8) by (destruct (N.eq_dec a 0) as [->|]; [reflexivity|apply N.log2_lt_pow2; [lia|exact Ha]]).
  assert (N.log2 b < 8) by (destruct (N.eq_dec b 0) as [->|]; [reflexivity|apply N.log2_lt_pow2; [lia|exact Hb]]). lia.
Qed.
Lemma lxor_inj_l a b c : N.lxor a c = N.lxor b c -> a = b.
Proof. intros H. apply (f_equal (fun x => N.lxor x c)) in H. rewrite !N.lxor_assoc, N.lxor_nilpotent, !N.lxor_0_r in H. auto. Qed.
Lemma lxor_inj_r a b c : N.lxor c a = N.lxor c b -> a = b.
Proof. rewrite !(N.lxor_comm c). apply lxor_inj_l. Qed.
Lemma digest_app c l1 l2 : digest c (l1 ++ l2) = digest (digest c l1) l2.
Proof. unfold digest. apply fold_left_app. Qed.
Lemma digest_byte l : forall c, c < 256 -> Forall byte l -> digest c l < 256.
Proof.
  induction l as [|b l IH]; intros c Hc F; cbn; auto. inversion F; subst. apply IH; auto. apply table_byte. apply lxor_byte; auto.
Qed.
Lemma digest_state_inj l : forall c c', c < 256 -> c' < 256 -> Forall byte l -> digest c l = digest c' l -> c = c'.
Proof.
  induction l as [|b l IH]; intros c c' Hc Hc' F E; cbn in *; auto. inversion F; subst.
  apply IH in E; auto using table_byte, lxor_byte. apply table_inj in E; auto using lxor_byte. eapply lxor_inj_l; eauto.
Qed.
Lemma digest_one c l l' : c < 256 -> Forall byte l -> one_byte l l' -> digest c l <> digest c l'.
Proof.
  intros Hc F (pre & b & b' & post & -> & -> & N & Hb') E. apply Forall_app in F. destruct F as [F1 F2]. inversion F2; subst.
  rewrite !digest_app in E. cbn in E. assert (D : digest c pre < 256) by (apply digest_byte; auto).
  apply digest_state_inj in E; auto using table_byte, lxor_byte. apply table_inj in E; auto using lxor_byte.
  apply lxor_inj_r in E. auto.
Qed.
Lemma xor_app c l1 l2 : fold_left N.lxor (l1 ++ l2) c = fold_left N.lxor l2 (fold_left N.lxor l1 c).
Proof. apply fold_left_app. Qed.
Lemma xor_state_inj l : forall c c', fold_left N.lxor l c = fold_left N.lxor l c' -> c = c'.
Proof. induction l as [|b l IH]; intros c c' E; cbn in *; auto. apply IH in E. eapply lxor_inj_l; eauto. Qed.
Lemma xor_one c l l' : one_byte l l' -> fold_left N.lxor l c <> fold_left N.lxor l' c.
Proof.
  intros (pre & b & b' & post & -> & -> & N & _) E. rewrite !xor_app in E. cbn in E. apply xor_state_inj in E. apply lxor_inj_r in E. auto.
Qed.

(** ** The parser *)
(** What holds in every state. *)
Definition inv (p : parser) : Prop :=
  match p_state p with
  | Header1 | Header2 => p_dir p = ToFC /\ p_cmd p = 0 /\ p_rem p = 0 /\ p_data p = [] /\ p_crc p = 0 /\ p_crc2 p = 0
  | Direction => p_cmd p = 0 /\ p_rem p = 0 /\ p_data p = [] /\ p_crc p = 0 /\ p_crc2 p = 0
  | Data | DataV2 => p_rem p <> 0
  | CommandV2 | DataLengthV2 => (length (p_data p) <= 1)%nat
  | _ => True
  end.
Lemma inv_new : inv parser_new. Proof. cbn. auto 10. Qed.
Lemma inv_reset p : inv (reset p). Proof. cbn. auto 10. Qed.
Lemma parse_inv p b : inv p -> exists p' r, parse p b = Ret (p', r) /\ inv p' /\ (r <> Nothing -> p' = reset p).
Proof.
  unfold inv, parse. destruct (p_state p) eqn:E; intros I0.
  - destruct (b =? 36); eexists; eexists; (split; [reflexivity|split; [|congruence]]); cbn; [auto|auto 10].
  - destruct (b =? 77); [|destruct (b =? 88)]; eexists; eexists; (split; [reflexivity|split; [|auto; try congruence]]); cbn; tauto.
  - destruct (b =? 60); [|destruct (b =? 62); [|destruct (b =? 33)]]; eexists; eexists; (split; [reflexivity|split; [|auto; try congruence]]);
      cbn; try (destruct (p_v2 p); tauto); auto 10.
  - eexists; eexists; (split; [reflexivity|split; [|congruence]]). cbn. lia.
  - eexists; eexists; (split; [reflexivity|split; [|congruence]]). cbn. auto.
  - destruct (p_data p) as [|x [|y t]] eqn:D; cbn in I0; [| |lia]; cbn [app].
    + eexists; eexists; (split; [reflexivity|split; [|congruence]]). cbn. auto.
    + eexists; eexists; (split; [reflexivity|split; [|congruence]]). cbn [p_state]. destruct (N.eqb_spec (x + 256 * b) 0); cbn; auto.
  - eexists; eexists; (split; [reflexivity|split; [|congruence]]). cbn [p_state]. destruct (N.eqb_spec (p_rem p) 0); cbn; auto.
  - destruct (p_data p) as [|x [|y t]] eqn:D; cbn in I0; [| |lia]; cbn [app].
    + eexists; eexists; (split; [reflexivity|split; [|congruence]]). cbn. auto.
    + eexists; eexists; (split; [reflexivity|split; [|congruence]]). cbn. lia.
  - destruct (N.eqb_spec (p_rem p) 0); [congruence|]. eexists; eexists; (split; [reflexivity|split; [|congruence]]).
    cbn [p_state]. destruct (N.eqb_spec (p_rem p - 1) 0); cbn; auto.
  - destruct (N.eqb_spec (p_rem p) 0); [congruence|]. eexists; eexists; (split; [reflexivity|split; [|congruence]]).
    cbn [p_state]. destruct (N.eqb_spec (p_rem p - 1) 0); cbn; auto.
  - destruct (negb _); eexists; eexists; (split; [reflexivity|split; [|auto]]); apply inv_reset.
Qed.
Lemma feed_inv l : forall p, inv p -> exists p' rs, feed p l = Ret (p', rs) /\ inv p' /\ length rs = length l.
Proof.
  induction l as [|b l IH]; intros p I0; cbn [feed].
  - eauto.
  - destruct (parse_inv p b I0) as (p1 & r & -> & I1 & _). cbn [obind]. destruct (IH p1 I1) as (p2 & rs & -> & I2 & L). cbn.
    eexists. eexists. split; [reflexivity|]. cbn. auto.
Qed.
Lemma feed_app l1 : forall p l2, feed p (l1 ++ l2) = obind (feed p l1) (fun '(p, rs) => let! (p, rs') := feed p l2 in Ret (p, rs ++ rs')).
Proof.
  induction l1 as [|b l1 IH]; intros p l2; cbn [feed app].
  - cbn. destruct (feed p l2) as [[p' rs]|]; reflexivity.
  - destruct (parse p b) as [[p1 r]|]; cbn [obind]; [|reflexivity]. rewrite IH. destruct (feed p1 l1) as [[p2 rs]|]; cbn [obind]; [|reflexivity].
    destruct (feed p2 l2) as [[p3 rs']|]; reflexivity.
Qed.
(** Between packets the parser is as new, but for the version of the last packet. *)
Lemma between_new p : inv p -> between p = true -> p = Parser Header1 (p_v2 p) ToFC 0 0 [] 0 0.
Proof.
  unfold inv, between. destruct p as [s v d c r dt c1 c2]. cbn. destruct s; try discriminate. intros (-> & -> & -> & -> & -> & ->) _. reflexivity.
Qed.

(** The data of a packet. *)
Lemma data_v1 v d c e : forall l pre, l <> [] ->
  feed (Parser Data v d c (N.of_nat (length l)) pre e 0) l =
  Ret (Parser Crc v d c 0 (pre ++ l) (fold_left N.lxor l e) 0, repeat Nothing (length l)).
Proof.
  intros l. revert e. induction l as [|b l IH]; intros e pre N; [congruence|]. cbn [feed]. unfold parse. cbn [p_state p_rem].
  destruct (N.eqb_spec (N.of_nat (length (b :: l))) 0) as [E|_]; [cbn [length] in E; lia|]. cbn [obind p_v2 p_dir p_cmd p_data p_crc p_crc2].
  replace (N.of_nat (length (b :: l)) - 1) with (N.of_nat (length l)) by (cbn [length]; lia). destruct l as [|b' l].
  - cbn. reflexivity.
  - destruct (N.eqb_spec (N.of_nat (length (b' :: l))) 0) as [E|_]; [cbn [length] in E; lia|].
    rewrite IH by discriminate. cbn [obind repeat length]. rewrite <- app_assoc. reflexivity.
Qed.
Lemma data_v2 v d c e : forall l pre, l <> [] ->
  feed (Parser DataV2 v d c (N.of_nat (length l)) pre 0 e) l =
  Ret (Parser Crc v d c 0 (pre ++ l) 0 e, repeat Nothing (length l)).
Proof.
  induction l as [|b l IH]; intros pre N; [congruence|]. cbn [feed]. unfold parse. cbn [p_state p_rem].
  destruct (N.eqb_spec (N.of_nat (length (b :: l))) 0) as [E|_]; [cbn [length] in E; lia|]. cbn [obind p_v2 p_dir p_cmd p_data p_crc p_crc2].
  replace (N.of_nat (length (b :: l)) - 1) with (N.of_nat (length l)) by (cbn [length]; lia). destruct l as [|b' l].
  - cbn. reflexivity.
  - destruct (N.eqb_spec (N.of_nat (length (b' :: l))) 0) as [E|_]; [cbn [length] in E; lia|].
    rewrite IH by discriminate. cbn [obind repeat length]. rewrite <- app_assoc. reflexivity.
Qed.
Lemma dir_byte_neq d : exists p, (p = to_byte d) /\ (p = 60 \/ p = 62 \/ p = 33). Proof. destruct d; cbn; eauto 10. Qed.

(** A frame of the first version, with any checksum byte. *)
Lemma frame_v1 p d cmd data crc : inv p -> between p = true -> N.of_nat (length data) < 256 ->
  exists p', feed p ([36; 77; to_byte d; N.of_nat (length data); cmd] ++ data ++ [crc]) =
    Ret (p', repeat Nothing (5 + length data) ++
             [if crc =? fold_left N.lxor data (N.lxor (N.of_nat (length data)) cmd) then Delivered (Packet cmd d data)
              else CrcMismatch crc (fold_left N.lxor data (N.lxor (N.of_nat (length data)) cmd))]) /\
    inv p' /\ between p' = true.
Proof.
  intros I0 B L. rewrite (between_new _ I0 B). set (n := N.of_nat (length data)) in *.
  assert (H : feed (Parser Header1 (p_v2 p) ToFC 0 0 [] 0 0) [36; 77; to_byte d; n; cmd] =
    Ret (Parser (if n =? 0 then Crc else Data) false d cmd n [] (N.lxor n cmd) 0, repeat Nothing 5)).
  { destruct d; reflexivity. }
  rewrite feed_app, H. cbn [obind]. rewrite feed_app.
  assert (H2 : feed (Parser (if n =? 0 then Crc else Data) false d cmd n [] (N.lxor n cmd) 0) data =
    Ret (Parser Crc false d cmd 0 data (fold_left N.lxor data (N.lxor n cmd)) 0, repeat Nothing (length data))).
  { destruct data as [|b data]; [reflexivity|]. destruct (N.eqb_spec n 0) as [E|_]; [unfold n in E; cbn [length] in E; lia|].
    unfold n. rewrite data_v1 by discriminate. reflexivity. }
  rewrite H2. cbn [obind feed]. unfold parse. cbn [p_state p_v2 p_crc p_cmd p_dir p_data].
  set (x := fold_left N.lxor data (N.lxor n cmd)).
  destruct (crc =? x); cbn [negb obind]; (eexists; split; [cbn [app]; rewrite repeat_app, <- app_assoc; reflexivity|split; [apply inv_reset|reflexivity]]).
Qed.
(** A frame of the second version, with any checksum byte. *)
Lemma frame_v2 p d flag c0 c1 data crc : inv p -> between p = true -> N.of_nat (length data) < 65536 ->
  let n := N.of_nat (length data) in
  let x := digest 0 ([flag; c0; c1; n mod 256; n / 256] ++ data) in
  exists p', feed p ([36; 88; to_byte d; flag; c0; c1; n mod 256; n / 256] ++ data ++ [crc]) =
    Ret (p', repeat Nothing (8 + length data) ++
             [if crc =? x then Delivered (Packet (c0 + 256 * c1) d data) else CrcMismatch crc x]) /\
    inv p' /\ between p' = true.
Proof.
  intros I0 B L n x. rewrite (between_new _ I0 B).
  assert (En : n mod 256 + 256 * (n / 256) = n) by lia.
  set (x0 := digest (digest (digest 0 [flag]) [c0; c1]) [n mod 256; n / 256]).
  assert (H : feed (Parser Header1 (p_v2 p) ToFC 0 0 [] 0 0) [36; 88; to_byte d; flag; c0; c1; n mod 256; n / 256] =
    Ret (Parser (if n =? 0 then Crc else DataV2) true d (c0 + 256 * c1) n [] 0 x0, repeat Nothing 8)).
  { assert (G : forall u v, u + 256 * v = n -> feed (Parser Header1 (p_v2 p) ToFC 0 0 [] 0 0) [36; 88; to_byte d; flag; c0; c1; u; v] =
      Ret (Parser (if n =? 0 then Crc else DataV2) true d (c0 + 256 * c1) n [] 0 (digest (digest (digest 0 [flag]) [c0; c1]) [u; v]), repeat Nothing 8)).
    { intros u v <-. destruct d; reflexivity. }
    apply G. exact En. }
  rewrite feed_app, H. cbn [obind]. rewrite feed_app.
  assert (H2 : feed (Parser (if n =? 0 then Crc else DataV2) true d (c0 + 256 * c1) n [] 0 x0) data =
    Ret (Parser Crc true d (c0 + 256 * c1) 0 data 0 x0, repeat Nothing (length data))).
  { destruct data as [|b data]; [reflexivity|]. destruct (N.eqb_spec n 0) as [E|_]; [unfold n in E; cbn [length] in E; lia|].
    unfold n. rewrite data_v2 by discriminate. reflexivity. }
  rewrite H2. cbn [obind feed]. unfold parse. cbn [p_state p_v2 p_crc p_crc2 p_cmd p_dir p_data].
  assert (X : digest x0 data = x).
  { unfold x, x0. rewrite <- !digest_app. reflexivity. }
  rewrite X.
  destruct (crc =? x); cbn [negb obind]; (eexists; split; [cbn [app]; rewrite repeat_app, <- app_assoc; reflexivity|split; [apply inv_reset|reflexivity]]).
Qed.

Lemma parse_v1 p k : inv p -> between p = true -> fits_v1 k ->
  exists p', feed p (serialize k) = Ret (p', repeat Nothing (5 + length (k_data k)) ++ [Delivered k]) /\ inv p' /\ between p' = true.
Proof.
  intros I0 B (F1 & F2 & F3). unfold serialize. rewrite !N.mod_small by auto.
  destruct (frame_v1 p (k_dir k) (k_cmd k) (k_data k) (fold_left N.lxor (k_data k) (N.lxor (N.of_nat (length (k_data k))) (k_cmd k))) I0 B F2) as (p' & H & H2).
  exists p'. rewrite H, N.eqb_refl. destruct k. split; auto.
Qed.
Lemma parse_v2 p k : inv p -> between p = true -> fits_v2 k ->
  exists p', feed p (serialize_v2 k) = Ret (p', repeat Nothing (8 + length (k_data k)) ++ [Delivered k]) /\ inv p' /\ between p' = true.
Proof.
  intros I0 B (F1 & F2 & F3). unfold serialize_v2. rewrite (N.mod_small _ 65536) by auto.
  set (n := N.of_nat (length (k_data k))) in *.
  destruct (frame_v2 p (k_dir k) 0 (k_cmd k mod 256) (k_cmd k / 256) (k_data k)
    (digest 0 ([0; k_cmd k mod 256; k_cmd k / 256; n mod 256; n / 256] ++ k_data k)) I0 B F2) as (p' & H & H2).
  exists p'. cbn [app] in *. fold n in H. rewrite H, N.eqb_refl. replace (k_cmd k mod 256 + 256 * (k_cmd k / 256)) with (k_cmd k) by lia.
  destruct k. split; auto.
Qed.

Lemma delivered_app a b : delivered (a ++ b) = delivered a ++ delivered b.
Proof. unfold delivered. apply flat_map_app. Qed.
Lemma delivered_nothing n : delivered (repeat Nothing n) = [].
Proof. induction n; cbn; auto. Qed.
Lemma frames l : forall p, inv p -> between p = true -> Forall fits l ->
  exists p' rs, feed p (flat_map bytes_of l) = Ret (p', rs) /\ delivered rs = map snd l /\ Forall (fun r => ~ is_error r) rs /\
    inv p' /\ between p' = true.
Proof.
  induction l as [|[v k] l IH]; intros p I0 B F; cbn [flat_map].
  - exists p, []. cbn. auto 10.
  - inversion F; subst.
    assert (X : exists p1 n, feed p (bytes_of (v, k)) = Ret (p1, repeat Nothing n ++ [Delivered k]) /\ inv p1 /\ between p1 = true).
    { unfold bytes_of, fits in *. cbn [fst snd] in *. destruct v.
      - destruct (parse_v2 p k I0 B H1) as (p1 & E & H). eauto.
      - destruct (parse_v1 p k I0 B H1) as (p1 & E & H). eauto. }
    destruct X as (p1 & n & E & I1 & B1). destruct (IH p1 I1 B1 H2) as (p2 & rs & E2 & D & NE & I2 & B2).
    rewrite feed_app, E. cbn [obind]. rewrite E2. cbn [obind]. eexists. eexists. split; [reflexivity|].
    rewrite delivered_app, D, delivered_app, delivered_nothing. cbn. split; auto. split; [|auto].
    apply Forall_app. split; auto. apply Forall_app. split; [|repeat constructor; cbn; auto].
    apply Forall_forall. intros r Hr. apply repeat_spec in Hr. subst r. cbn. auto.
Qed.

(** ** Corruption *)
Lemma one_byte_cons a l l' : one_byte (a :: l) l' -> exists b t, l' = b :: t /\ ((a <> b /\ t = l /\ byte b) \/ (a = b /\ one_byte l t)).
Proof.
  intros (pre & b & b' & post & E1 & E2 & N & Hb). destruct pre as [|x pre]; cbn in *.
  - injection E1 as -> ->. subst l'. eauto 10.
  - injection E1 as -> ->. subst l'. exists x. eexists. split; [reflexivity|]. right. split; auto. exists pre, b, b', post. auto.
Qed.
Lemma one_byte_snoc l a l' : one_byte (l ++ [a]) l' -> exists t b, l' = t ++ [b] /\ length t = length l /\ ((a <> b /\ t = l) \/ (a = b /\ one_byte l t)).
Proof.
  intros (pre & b & b' & post & E1 & E2 & N & Hb). destruct (@exists_last _ (b :: post)) as (u & z & Ez); [discriminate|].
  destruct post as [|y post].
  - apply app_inj_tail in E1. destruct E1 as [-> ->]. exists pre, b'. subst l'. split; auto.
  - destruct (@exists_last _ (y :: post)) as (w & q & Eq); [discriminate|]. rewrite Eq in *.
    change (pre ++ b :: w ++ [q]) with (pre ++ (b :: w) ++ [q]) in E1. rewrite app_assoc in E1. apply app_inj_tail in E1. destruct E1 as [-> ->].
    exists (pre ++ b' :: w), q. subst l'. split; [rewrite <- app_assoc; reflexivity|]. split; [rewrite !app_length; reflexivity|].
    right. split; auto. exists pre, b, b', w. auto.
Qed.
Lemma corrupt_v1 p k tail' : inv p -> between p = true -> fits_v1 k -> one_byte (skipn 4 (serialize k)) tail' ->
  exists p' e c, feed p (firstn 4 (serialize k) ++ tail') = Ret (p', repeat Nothing (5 + length (k_data k)) ++ [CrcMismatch e c]) /\ between p' = true.
Proof.
  intros I0 B (F1 & F2 & F3) O. unfold serialize in *. rewrite !N.mod_small in * by auto.
  set (n := N.of_nat (length (k_data k))) in *. set (x := fold_left N.lxor (k_data k) (N.lxor n (k_cmd k))) in *.
  cbn [app firstn skipn] in *.
  assert (G : forall cmd data crc, length data = length (k_data k) -> crc <> fold_left N.lxor data (N.lxor n cmd) ->
    exists p' e c, feed p (36 :: 77 :: to_byte (k_dir k) :: n :: cmd :: data ++ [crc]) = Ret (p', repeat Nothing (5 + length (k_data k)) ++ [CrcMismatch e c]) /\ between p' = true).
  { intros cmd data crc L N0. assert (Ln : N.of_nat (length data) < 256) by (rewrite L; auto).
    destruct (frame_v1 p (k_dir k) cmd data crc I0 B Ln) as (p' & H & _ & B'). rewrite L in H. fold n in H.
    destruct (N.eqb_spec crc (fold_left N.lxor data (N.lxor n cmd))); [congruence|]. cbn [app] in H. exists p'. eauto. }
  apply one_byte_cons in O. destruct O as (cmd & t & -> & [(N0 & -> & _)|(<- & O)]).
  - apply G; auto. intros E. unfold x in E. apply xor_state_inj in E. apply lxor_inj_r in E. auto.
  - apply one_byte_snoc in O. destruct O as (data & crc & -> & L & [(N0 & ->)|(<- & O)]).
    + apply G; auto.
    + apply G; auto. unfold x. apply xor_one. auto.
Qed.
Lemma corrupt_core (P : list N -> Prop) h f a b l0 l1 data head' tail' :
  Forall byte ([f; a; b; l0; l1] ++ data) ->
  (forall f a b data' crc, length data' = length data -> crc <> digest 0 ([f; a; b; l0; l1] ++ data') -> P (h ++ [f; a; b] ++ [l0; l1] ++ data' ++ [crc])) ->
  let tail := data ++ [digest 0 ([f; a; b; l0; l1] ++ data)] in
  (one_byte [f; a; b] head' /\ tail' = tail) \/ (head' = [f; a; b] /\ one_byte tail tail') ->
  P (h ++ head' ++ [l0; l1] ++ tail').
Proof.
  intros Hb G tail O. unfold tail in O. clear tail. destruct O as [[O ->]|[-> O]].
  - assert (L3 : exists f a b, head' = [f; a; b]).
    { destruct O as (pre & u & u' & post & E1 & E2 & _). apply (f_equal (@length N)) in E1. apply (f_equal (@length N)) in E2.
      rewrite app_length in *. cbn in *. assert (length head' = 3%nat) by lia. destruct head' as [|? [|? [|? [|]]]]; try discriminate. eauto. }
    destruct L3 as (f' & a' & b' & ->). apply G; auto. apply digest_one; auto; [lia|].
    destruct O as (pre & u & u' & post & E1 & E2 & N0 & Hu). exists pre, u, u', (post ++ l0 :: l1 :: data).
    split; [|split; [|auto]].
    + change ([f; a; b; l0; l1] ++ data) with ([f; a; b] ++ l0 :: l1 :: data). rewrite E1, <- app_assoc. reflexivity.
    + change ([f'; a'; b'; l0; l1] ++ data) with ([f'; a'; b'] ++ l0 :: l1 :: data). rewrite E2, <- app_assoc. reflexivity.
  - apply one_byte_snoc in O. destruct O as (data' & crc & -> & L & [(N0 & ->)|(<- & O)]).
    + apply G; auto.
    + apply G; auto. apply digest_one; auto; [lia|]. destruct O as (pre & u & u' & post & E1 & E2 & N0 & Hu).
      exists ([f; a; b; l0; l1] ++ pre), u, u', post. rewrite E1, E2, <- !app_assoc. auto.
Qed.
Lemma serialize_v2_parts k : let n := N.of_nat (length (k_data k)) in n < 65536 ->
  serialize_v2 k = [36; 88; to_byte (k_dir k)] ++ [0; k_cmd k mod 256; k_cmd k / 256] ++ [n mod 256; n / 256] ++ k_data k ++
    [digest 0 ([0; k_cmd k mod 256; k_cmd k / 256; n mod 256; n / 256] ++ k_data k)].
Proof. intros n H. unfold serialize_v2. fold n. rewrite (N.mod_small n) by auto. cbn [app]. reflexivity. Qed.
Lemma split_parts (h a l t : list N) : length h = 3%nat -> length a = 3%nat -> length l = 2%nat -> let s := h ++ a ++ l ++ t in
  firstn 3 s = h /\ firstn 3 (skipn 3 s) = a /\ firstn 2 (skipn 6 s) = l /\ skipn 8 s = t.
Proof.
  destruct h as [|? [|? [|? [|]]]]; try discriminate. destruct a as [|? [|? [|? [|]]]]; try discriminate.
  destruct l as [|? [|? [|]]]; try discriminate. cbn. auto.
Qed.
Lemma corrupt_v2 p k head' tail' : inv p -> between p = true -> fits_v2 k ->
  let s := serialize_v2 k in let head := firstn 3 (skipn 3 s) in let tail := skipn 8 s in
  (one_byte head head' /\ tail' = tail) \/ (head' = head /\ one_byte tail tail') ->
  exists p' e c, feed p (firstn 3 s ++ head' ++ firstn 2 (skipn 6 s) ++ tail') = Ret (p', repeat Nothing (8 + length (k_data k)) ++ [CrcMismatch e c]) /\ between p' = true.
Proof.
  intros I0 B (F1 & F2 & F3). cbv zeta. rewrite (serialize_v2_parts k F2).
  match goal with |- context [firstn 3 (?h ++ ?a ++ ?l ++ ?t)] => destruct (split_parts h a l t) as (-> & -> & -> & ->); try reflexivity end.
  apply (corrupt_core (fun l => exists p' e c, feed p l = Ret (p', repeat Nothing (8 + length (k_data k)) ++ [CrcMismatch e c]) /\ between p' = true)).
  - unfold byte. repeat (constructor; [lia|]). exact F3.
  - intros f a b data crc L N0. assert (Ln : N.of_nat (length data) < 65536) by (rewrite L; auto).
    destruct (frame_v2 p (k_dir k) f a b data crc I0 B Ln) as (p' & H & _ & B'). rewrite L in H.
    destruct (N.eqb_spec crc (digest 0 ([f; a; b; N.of_nat (length (k_data k)) mod 256; N.of_nat (length (k_data k)) / 256] ++ data))); [congruence|].
    exists p'. eexists. eexists. split; [|exact B']. rewrite <- H. reflexivity.
Qed.

(** ** Back between packets *)
Definition rank (p : parser) : N :=
  match p_state p with
  | Header1 => 0 | Crc => 1 | Data | DataV2 => p_rem p + 1 | Command => p_rem p + 2 | DataLength => 258
  | DataLengthV2 => 65538 - N.of_nat (length (p_data p)) | CommandV2 => 65540 - N.of_nat (length (p_data p))
  | FlagV2 => 65541 | Direction => 65542 | Header2 => 65543
  end.
Local Opaque digest.
Lemma rank_step p b p' r : inv p -> byte b -> Forall byte (p_data p) -> between p = false -> parse p b = Ret (p', r) ->
  Forall byte (p_data p') /\ (between p' = true \/ rank p' < rank p).
Proof.
  unfold inv, parse, rank, between, byte. destruct (p_state p) eqn:E; intros I0 Hb F NB; try discriminate.
  - destruct (b =? 77); [|destruct (b =? 88)]; intros X; injection X as <- <-; cbn [p_state p_data p_rem length reset goto]; auto; (split; [auto|right; lia]).
  - destruct (b =? 60); [|destruct (b =? 62); [|destruct (b =? 33)]]; intros X; injection X as <- <-; cbn [p_state p_data p_rem length reset goto]; auto;
      (split; [auto|right; destruct (p_v2 p); lia]).
  - intros X; injection X as <- <-; cbn [p_state p_data p_rem length]. split; [auto|right; lia].
  - intros X; injection X as <- <-; cbn [p_state p_data p_rem length]. split; [auto|right; lia].
  - destruct (p_data p) as [|x [|y t]] eqn:D; cbn in I0; [| |lia]; cbn [app]; intros X; injection X as <- <-; cbn [p_state p_data p_rem length].
    + split; [repeat constructor; auto|right; lia].
    + split; [auto|right]. inversion F; subst. destruct (x + 256 * b =? 0); lia.
  - intros X; injection X as <- <-; cbn [p_state p_data p_rem]. split; [auto|right; destruct (p_rem p =? 0); lia].
  - destruct (p_data p) as [|x [|y t]] eqn:D; cbn in I0; [| |lia]; cbn [app]; intros X; injection X as <- <-; cbn [p_state p_data p_rem length].
    + split; [repeat constructor; auto|right; lia].
    + split; [auto|right; lia].
  - destruct (N.eqb_spec (p_rem p) 0); [congruence|]. intros X; injection X as <- <-; cbn [p_state p_data p_rem].
    split; [apply Forall_app; split; auto|right]. destruct (p_rem p - 1 =? 0); lia.
  - destruct (N.eqb_spec (p_rem p) 0); [congruence|]. intros X; injection X as <- <-; cbn [p_state p_data p_rem].
    split; [apply Forall_app; split; auto|right]. destruct (p_rem p - 1 =? 0); lia.
  - destruct (negb _); intros X; injection X as <- <-; cbn [p_state p_data p_rem length reset goto]; auto.
Qed.
Lemma back l : forall p, inv p -> Forall byte (p_data p) -> Forall byte l -> rank p <= N.of_nat (length l) ->
  exists l1 l2 p' rs, l = l1 ++ l2 /\ feed p l1 = Ret (p', rs) /\ between p' = true.
Proof.
  induction l as [|b l IH]; intros p I0 F Fl R.
  - destruct (between p) eqn:B; [exists [], [], p, []; auto|]. exfalso. unfold rank, between, inv in *. cbn in R.
    destruct (p_state p); try discriminate; lia.
  - destruct (between p) eqn:B; [exists [], (b :: l), p, []; auto|]. inversion Fl; subst.
    destruct (parse_inv p b I0) as (p1 & r & E & I1 & _). destruct (rank_step p b p1 r I0 H1 F B E) as (F1 & [B1|R1]).
    + exists [b], l, p1, [r]. cbn. rewrite E. auto.
    + cbn [length] in R. destruct (IH p1 I1 F1 H2 ltac:(lia)) as (l1 & l2 & p' & rs & -> & E2 & B2).
      exists (b :: l1), l2, p', (r :: rs). cbn [feed app]. rewrite E. cbn [obind]. rewrite E2. auto.
Qed.
Lemma rank_bound p b p' r : inv p -> byte b -> Forall byte (p_data p) -> rank p <= 65543 -> parse p b = Ret (p', r) ->
  Forall byte (p_data p') /\ rank p' <= 65543.
Proof.
  intros I0 Hb F R E. destruct (between p) eqn:B.
  - rewrite (between_new _ I0 B) in E. unfold parse in E. cbn [p_state] in E. injection E as <- <-. destruct (b =? 36); cbn; split; auto; lia.
  - destruct (rank_step p b p' r I0 Hb F B E) as (F1 & [B1|R1]); split; auto; [|lia].
    unfold between, rank in *. destruct (p_state p'); try discriminate; lia.
Qed.
Lemma feed_bound l : forall p p' rs, inv p -> Forall byte l -> Forall byte (p_data p) -> rank p <= 65543 -> feed p l = Ret (p', rs) ->
  inv p' /\ Forall byte (p_data p') /\ rank p' <= 65543.
Proof.
  induction l as [|b l IH]; intros p p' rs I0 Fl F R E; cbn [feed] in E.
  - injection E as <- <-. auto.
  - destruct (parse_inv p b I0) as (p1 & r & E1 & I1 & _). rewrite E1 in E. cbn [obind] in E. inversion Fl; subst.
    destruct (rank_bound p b p1 r I0 H1 F R E1) as (F1 & R1).
    destruct (feed p1 l) as [[p2 rs2]|] eqn:E2; cbn in E; [|discriminate]. injection E as <- <-. eapply IH; eauto.
Qed.

(** ** The source *)
Lemma batch_few max l : forall p batch p' rs, feed p l = Ret (p', rs) -> (length (batch ++ delivered rs) < max)%nat ->
  batch_loop max p batch l = Ret (p', batch ++ delivered rs).
Proof.
  induction l as [|b l IH]; intros p batch p' rs E L; cbn [feed batch_loop] in *.
  - injection E as <- <-. cbn. rewrite app_nil_r. reflexivity.
  - destruct (parse p b) as [[p1 r]|]; cbn [obind] in *; [|discriminate].
    destruct (feed p1 l) as [[p2 rs2]|] eqn:E2; cbn [obind] in E; [|discriminate]. injection E as <- <-.
    destruct r as [|k| | |]; try (cbn in L |- *; apply (IH p1 batch p2 rs2); auto).
    change (delivered (Delivered k :: rs2)) with ([k] ++ delivered rs2) in *. rewrite app_assoc in L |- *.
    cbv zeta. rewrite (proj2 (Nat.leb_gt _ _)); [|rewrite app_length in L; lia].
    apply (IH p1 (batch ++ [k]) p2 rs2); auto.
Qed.
Lemma src_few max reads : forall p, few max p reads -> exists os p' rs, src_run max p reads = Ret os /\ feed p (stream reads) = Ret (p', rs) /\
  batches os = delivered rs.
Proof.
  induction reads as [|[l|] reads IH]; intros p F; cbn [src_run].
  - exists [], p, []. auto.
  - cbn in F. destruct F as (p1 & rs & E & L & F). unfold src_process. rewrite (batch_few max l p [] p1 rs E L). cbn [obind].
    destruct (IH p1 F) as (os & p' & rs' & E1 & E2 & E3). rewrite E1. cbn [obind]. eexists. exists p', (rs ++ rs'). split; [reflexivity|].
    cbn [stream flat_map]. fold (stream reads). rewrite feed_app, E. cbn [obind]. rewrite E2. split; auto.
    cbn. rewrite delivered_app. f_equal. exact E3.
  - cbn in F. destruct (IH p F) as (os & p' & rs' & E1 & E2 & E3). cbn [src_process obind]. rewrite E1. cbn [obind].
    exists (None :: os), p', rs'. auto.
Qed.

(** ** The CRC is the standard's *)
Fixpoint clmulp (q : positive) (g : N) : N :=
  match q with xH => g | xO q => 2 * clmulp q g | xI q => N.lxor (2 * clmulp q g) g end.
Definition clmul (q g : N) : N := match q with 0 => 0 | Npos q => clmulp q g end.
Lemma lxor_double a b : N.lxor (2 * a) (2 * b) = 2 * N.lxor a b.
Proof. destruct a, b; reflexivity. Qed.
Lemma clmul_div2 q g : clmul q g = N.lxor (2 * clmul (N.div2 q) g) (if N.odd q then g else 0).
Proof. destruct q as [|[q|q|]]; cbn [clmul clmulp N.div2 N.odd]; rewrite ?N.lxor_0_r; try reflexivity. Qed.
Lemma div2_lxor a b : N.div2 (N.lxor a b) = N.lxor (N.div2 a) (N.div2 b).
Proof. rewrite !N.div2_spec. apply N.shiftr_lxor. Qed.
Lemma odd_lxor a b : N.odd (N.lxor a b) = xorb (N.odd a) (N.odd b).
Proof. rewrite <- !N.bit0_odd. apply N.lxor_spec. Qed.
Lemma clmul_lxor g : forall n a b, a < 2 ^ N.of_nat n -> b < 2 ^ N.of_nat n -> clmul (N.lxor a b) g = N.lxor (clmul a g) (clmul b g).
Proof.
  induction n as [|n IH]; intros a b Ha Hb.
  - assert (a = 0 /\ b = 0) as [-> ->] by (cbn in *; lia). reflexivity.
  - rewrite (clmul_div2 (N.lxor a b)), (clmul_div2 a), (clmul_div2 b), div2_lxor, odd_lxor.
    assert (D : forall x, x < 2 ^ N.of_nat (S n) -> N.div2 x < 2 ^ N.of_nat n).
    { intros x Hx. rewrite Nat2N.inj_succ, N.pow_succ_r' in Hx. rewrite N.div2_div. apply N.div_lt_upper_bound; lia. }
    rewrite IH by auto. rewrite <- lxor_double. set (x := 2 * clmul (N.div2 a) g). set (y := 2 * clmul (N.div2 b) g).
    destruct (N.odd a), (N.odd b); cbn [xorb]; rewrite ?N.lxor_0_r; try reflexivity; try (rewrite !N.lxor_assoc; reflexivity).
    + rewrite (N.lxor_assoc x g), (N.lxor_comm y g), <- (N.lxor_assoc g g), N.lxor_nilpotent, N.lxor_0_l. reflexivity.
    + rewrite !N.lxor_assoc, (N.lxor_comm y g). reflexivity.
Qed.
Lemma multiple_iff g a : multiple g a <-> exists q, a = clmul q g.
Proof.
  split.
  - induction 1 as [|a _ (q & ->)|a _ (q & ->)].
    + exists 0. reflexivity.
    + exists (2 * q). destruct q; reflexivity.
    + exists (N.lxor q 1). rewrite (clmul_lxor g (N.to_nat (N.succ (N.log2 q)))).
      * reflexivity.
      * rewrite N2Nat.id. destruct (N.eq_dec q 0) as [->|]; [reflexivity|]. apply N.log2_lt_pow2; lia.
      * rewrite N2Nat.id. apply N.pow_gt_1; lia.
  - intros (q & ->). destruct q as [|q]; [constructor|]. cbn [clmul]. induction q as [q IH|q IH|]; cbn [clmulp].
    + apply multiple_add, multiple_x, IH.
    + apply multiple_x, IH.
    + rewrite <- (N.lxor_0_l g) at 2. apply multiple_add, multiple_0.
Qed.
Lemma multiple_lxor g a b : multiple g a -> multiple g b -> multiple g (N.lxor a b).
Proof.
  rewrite !multiple_iff. intros (p & ->) (q & ->). exists (N.lxor p q). symmetry. apply (clmul_lxor g (N.to_nat (N.succ (N.log2 (N.max p q))))).
  - rewrite N2Nat.id. destruct (N.eq_dec p 0) as [->|]; [apply N.neq_0_lt_0, N.pow_nonzero; lia|]. apply N.log2_lt_pow2; [lia|]. apply N.lt_succ_r, N.log2_le_mono. lia.
  - rewrite N2Nat.id. destruct (N.eq_dec q 0) as [->|]; [apply N.neq_0_lt_0, N.pow_nonzero; lia|]. apply N.log2_lt_pow2; [lia|]. apply N.lt_succ_r, N.log2_le_mono. lia.
Qed.
Lemma multiple_256 g a : multiple g a -> multiple g (256 * a).
Proof. intros H. replace (256 * a) with (2 * (2 * (2 * (2 * (2 * (2 * (2 * (2 * a)))))))) by lia. repeat apply multiple_x. exact H. Qed.
Lemma clmulp_high q : N.testbit (clmulp q dvb_s2) (N.log2 (Npos q) + 8) = true.
Proof.
  induction q as [q IH|q IH|]; cbn [clmulp].
  - change (Npos q~1) with (2 * Npos q + 1). rewrite N.log2_succ_double by lia. rewrite N.lxor_spec, N.add_succ_l, N.testbit_even_succ by lia. rewrite IH.
    replace (N.testbit dvb_s2 _) with false; [reflexivity|]. symmetry. apply N.bits_above_log2. change (N.log2 dvb_s2) with 8. lia.
  - change (Npos q~0) with (2 * Npos q). rewrite N.log2_double by lia. rewrite N.add_succ_l, N.testbit_even_succ by lia. exact IH.
  - reflexivity.
Qed.
Lemma multiple_small a : multiple dvb_s2 a -> a < 256 -> a = 0.
Proof.
  rewrite multiple_iff. intros ([|q] & ->) H; [reflexivity|]. exfalso. cbn [clmul] in H. pose proof (clmulp_high q) as B.
  destruct (N.eq_dec (clmulp q dvb_s2) 0) as [Z|Z]; [rewrite Z, N.bits_0 in B; discriminate|].
  rewrite N.bits_above_log2 in B; [discriminate|].
  assert (N.log2 (clmulp q dvb_s2) < 8) by (apply N.log2_lt_pow2; [lia|exact H]). lia.
Qed.
Lemma crc_unique m c c' : c < 256 -> c' < 256 -> multiple dvb_s2 (N.lxor m c) -> multiple dvb_s2 (N.lxor m c') -> c = c'.
Proof.
  intros Hc Hc' A B. pose proof (multiple_lxor _ _ _ A B) as X.
  replace (N.lxor (N.lxor m c) (N.lxor m c')) with (N.lxor c c') in X.
  2:{ rewrite (N.lxor_comm m c), N.lxor_assoc, <- (N.lxor_assoc m m), N.lxor_nilpotent, N.lxor_0_l. reflexivity. }
  apply multiple_small in X; [|apply lxor_byte; auto]. apply N.lxor_eq. exact X.
Qed.
Lemma crc_bit_mult v : v < 256 -> multiple dvb_s2 (N.lxor (2 * v) (crc_bit v)).
Proof.
  intros H. assert (C : forallb (fun v => (N.lxor (2 * v) (crc_bit v) =? 0) || (N.lxor (2 * v) (crc_bit v) =? dvb_s2)) below_256 = true) by (vm_compute; reflexivity).
  rewrite forallb_forall in C. specialize (C v (in_below v H)). apply orb_prop in C. destruct C as [C|C]; apply N.eqb_eq in C; rewrite C.
  - constructor.
  - rewrite <- (N.lxor_0_l dvb_s2) at 2. apply multiple_add, multiple_0.
Qed.
Lemma crc_bit_byte v : v < 256 -> crc_bit v < 256.
Proof.
  intros H. assert (C : forallb (fun v => crc_bit v <? 256) below_256 = true) by (vm_compute; reflexivity).
  rewrite forallb_forall in C. specialize (C v (in_below v H)). apply N.ltb_lt in C. auto.
Qed.
(** Sharing a remainder. *)
Definition same (a b : N) : Prop := multiple dvb_s2 (N.lxor a b).
Lemma same_trans a b c : same a b -> same b c -> same a c.
Proof.
  unfold same. intros A B. pose proof (multiple_lxor _ _ _ A B) as X. replace (N.lxor (N.lxor a b) (N.lxor b c)) with (N.lxor a c) in X; [exact X|].
  rewrite N.lxor_assoc, <- (N.lxor_assoc b b), N.lxor_nilpotent, N.lxor_0_l. reflexivity.
Qed.
Lemma same_double a b : same a b -> same (2 * a) (2 * b).
Proof. unfold same. rewrite lxor_double. apply multiple_x. Qed.
Lemma same_bits n : forall v, v < 256 -> same (2 ^ N.of_nat n * v) (Nat.iter n crc_bit v) /\ Nat.iter n crc_bit v < 256.
Proof.
  induction n as [|n IH]; intros v H.
  - change (2 ^ N.of_nat 0) with 1. rewrite N.mul_1_l. split; [|exact H]. unfold same. rewrite N.lxor_nilpotent. constructor.
  - destruct (IH v H) as [A B]. cbn [Nat.iter]. split; [|apply crc_bit_byte, B]. rewrite Nat2N.inj_succ, N.pow_succ_r', <- N.mul_assoc.
    eapply same_trans; [apply same_double, A|]. apply crc_bit_mult, B.
Qed.
Lemma crc_table_same v : v < 256 -> same (256 * v) (crc_table v).
Proof. intros H. destruct (same_bits 8 v H) as [A _]. exact A. Qed.
Lemma shift_add v b : b < 256 -> 256 * v + b = N.lxor (256 * v) b.
Proof.
  intros Hb. symmetry. change 256 with (2 ^ 8). apply N.bits_inj. intros k. rewrite N.lxor_spec. rewrite (N.mul_comm (2 ^ 8)).
  destruct (N.lt_ge_cases k 8) as [K|K].
  - rewrite N.mul_pow2_bits_low by exact K. rewrite Bool.xorb_false_l. rewrite <- (N.mod_pow2_bits_low b 8 k K), <- (N.mod_pow2_bits_low (v * 2 ^ 8 + b) 8 k K). f_equal.
    rewrite N.add_comm, N.mod_add by discriminate. reflexivity.
  - assert (Z : N.testbit b k = false). { destruct (N.eq_dec b 0) as [->|]; [apply N.bits_0|]. apply N.bits_above_log2. assert (N.log2 b < 8) by (apply N.log2_lt_pow2; [lia|exact Hb]). lia. }
    rewrite Z, Bool.xorb_false_r. replace k with (k - 8 + 8) by lia. rewrite N.mul_pow2_bits_add, <- N.div_pow2_bits. f_equal.
    rewrite N.add_comm, N.div_add by discriminate. rewrite N.div_small by exact Hb. reflexivity.
Qed.
Lemma crc_standard l : Forall byte l -> digest 0 l < 256 /\ multiple dvb_s2 (N.lxor (256 * message l) (digest 0 l)).
Proof.
  induction l as [|b l IH] using rev_ind; intros F.
  - split; [reflexivity|constructor].
  - apply Forall_app in F as [Fl Fb]. inversion Fb as [|? ? Hb _]; subst. destruct (IH Fl) as [A B].
    rewrite digest_app. unfold message. rewrite fold_left_app. fold (message l). cbn [fold_left digest].
    assert (Hx : N.lxor (digest 0 l) b < 256) by (apply lxor_byte; auto). split; [apply table_byte, Hx|].
    fold (same (256 * message l) (digest 0 l)) in B. fold (same (256 * (256 * message l + b)) (crc_table (N.lxor (digest 0 l) b))).
    eapply same_trans; [|apply crc_table_same, Hx]. rewrite shift_add by exact Hb.
    assert (B' : same (N.lxor (256 * message l) b) (N.lxor (digest 0 l) b)).
    { unfold same in *. replace (N.lxor (N.lxor (256 * message l) b) (N.lxor (digest 0 l) b)) with (N.lxor (256 * message l) (digest 0 l)); [exact B|].
      rewrite (N.lxor_comm (digest 0 l) b), N.lxor_assoc, <- (N.lxor_assoc b b), N.lxor_nilpotent, N.lxor_0_l. reflexivity. }
    replace 256 with (2 * (2 * (2 * (2 * (2 * (2 * (2 * 2))))))) by reflexivity. rewrite <- !N.mul_assoc. change (2 * (2 * (2 * (2 * (2 * (2 * (2 * (2 * message l)))))))) with (2 * (2 * (2 * (2 * (2 * (2 * (2 * (2 * message l)))))))).
    repeat apply same_double.
    replace (2 * (2 * (2 * (2 * (2 * (2 * (2 * (2 * message l)))))))) with (256 * message l) by lia. exact B'.
Qed.
