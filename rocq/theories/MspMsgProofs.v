From Coq Require Import List Arith NArith ZArith Bool Lia ZifyBool ZifyNat ZifyN.
From Verif Require Import Base BincodeModel BincodeSpec BincodeProofs MspModel MspSpec MspProofs MspMsgModel MspMsgSpec.
Import ListNotations.
Local Open Scope N_scope.

Lemma le_z_length n z : length (le_z n z) = n.
Proof. unfold le_z. now rewrite map_length, seq_length. Qed.
Lemma le_z_S n z : le_z (S n) z = Z.to_N (z mod 256) :: le_z n (z / 256).
Proof.
  unfold le_z. cbn [seq map]. f_equal; [f_equal; f_equal; apply Z.div_1_r|].
  rewrite <- seq_shift, map_map. apply map_ext. intros i. do 2 f_equal.
  rewrite Nat2Z.inj_succ, Z.pow_succ_r, Zdiv.Zdiv_Zdiv; lia.
Qed.
Lemma le_z_bytes n : forall z, Forall byte (le_z n z).
Proof.
  induction n as [|n IH]; intros z; [constructor|]. rewrite le_z_S. constructor; [|apply IH].
  unfold byte. lia.
Qed.
Lemma le_z_le_bytes n : forall v, le_bytes n v = le_z n (Z.of_N v).
Proof.
  induction n as [|n IH]; intros v; [reflexivity|]. rewrite le_z_S. cbn [le_bytes].
  rewrite IH. f_equal; [lia|f_equal; lia].
Qed.
Lemma le_z_period n : forall z, le_z n (z + 256 ^ Z.of_nat n) = le_z n z.
Proof.
  induction n as [|n IH]; intros z; [reflexivity|]. rewrite !le_z_S.
  rewrite Nat2Z.inj_succ, Z.pow_succ_r by lia.
  replace (z + 256 * 256 ^ Z.of_nat n)%Z with (z + (256 ^ Z.of_nat n) * 256)%Z by lia.
  rewrite Z.mod_add, Z.div_add by lia. now rewrite IH.
Qed.
Lemma of_le_z b : Forall byte b -> le_z (length b) (Z.of_N (of_le b)) = b.
Proof.
  induction 1 as [|x b Hx Hb IH]; [reflexivity|]. cbn [length of_le]. rewrite le_z_S.
  unfold byte in *.
  replace (Z.of_N (x + 256 * of_le b) / 256)%Z with (Z.of_N (of_le b)) by lia.
  rewrite IH. f_equal. lia.
Qed.
Lemma of_le_range b : Forall byte b -> (0 <= Z.of_N (of_le b) < 256 ^ Z.of_nat (length b))%Z.
Proof.
  intros H. pose proof (of_le_bound b H) as B. split; [lia|].
  rewrite <- nat_N_Z. change 256%Z with (Z.of_N 256). rewrite <- N2Z.inj_pow. lia.
Qed.
Lemma le_z_of_le n z : (0 <= z < 256 ^ Z.of_nat n)%Z -> Z.of_N (of_le (le_z n z)) = z.
Proof.
  intros H. rewrite <- (Z2N.id z) by lia. rewrite <- le_z_le_bytes, of_le_bytes; [lia|].
  assert (Z.of_N (Z.to_N z) < Z.of_N (256 ^ N.of_nat n))%Z; [|lia].
  rewrite N2Z.inj_pow, nat_N_Z. lia.
Qed.

Lemma testbit_odd b i : N.testbit b i = N.odd (b / 2 ^ i).
Proof. rewrite N.testbit_odd, N.shiftr_div_pow2. reflexivity. Qed.

Lemma unpack_field_iff f b v : Forall byte b -> length b = width f ->
  (unpack_field f b = Some v <-> carries f b v).
Proof.
  intros B L. split.
  - destruct f as [n|n|codes|ps]; cbn [unpack_field width] in *.
    + intros [= <-]. pose proof (of_le_range b B) as R. rewrite L in R.
      pose proof (of_le_z b B) as E. rewrite L in E. rewrite <- E at 1. now constructor.
    + intros [= <-]. pose proof (of_le_range b B) as R. rewrite L in R.
      pose proof (of_le_z b B) as E. rewrite L in E.
      set (z := Z.of_N (of_le b)) in *. set (m := (256 ^ Z.of_nat n)%Z) in *.
      destruct (2 * z <? m)%Z eqn:T.
      * rewrite <- E at 1. constructor. fold m. lia.
      * assert (Q : b = le_z n (z - m)%Z).
        { rewrite <- E. rewrite <- (le_z_period n (z - m)). fold m. f_equal. lia. }
        rewrite Q at 1. constructor. fold m. lia.
    + destruct (existsb (N.eqb (of_le b)) codes) eqn:E; [|discriminate]. intros [= <-].
      apply existsb_exists in E. destruct E as (x & I & X). apply N.eqb_eq in X.
      destruct b as [|x0 [|]]; try discriminate. cbn [of_le] in *. inversion B; subst.
      replace (x0 + 256 * 0) with x0 in * by lia. now constructor.
    + intros [= <-]. destruct b as [|x0 [|]]; try discriminate. cbn [of_le]. inversion B; subst.
      replace (x0 + 256 * 0) with x0 by lia.
      erewrite map_ext; [now constructor|]. intros p. apply testbit_odd.
  - intros C. destruct C as [n z R|n z R|codes x I X|ps x X]; cbn [unpack_field].
    + now rewrite le_z_of_le.
    + set (m := (256 ^ Z.of_nat n)%Z) in *.
      assert (P : (0 < m)%Z) by (apply Z.pow_pos_nonneg; lia).
      destruct (Z_lt_le_dec z 0) as [N|N].
      * rewrite <- (le_z_period n z). fold m. rewrite le_z_of_le by (fold m; lia).
        destruct (Z.ltb_spec (2 * (z + m)) m); [lia|]. do 2 f_equal. lia.
      * rewrite le_z_of_le by (fold m; lia). destruct (Z.ltb_spec (2 * z) m); [reflexivity|lia].
    + cbn [of_le]. replace (x + 256 * 0) with x by lia.
      replace (existsb (N.eqb x) codes) with true; [reflexivity|].
      symmetry. apply existsb_exists. exists x. split; [easy|apply N.eqb_refl].
    + cbn [of_le]. replace (x + 256 * 0) with x by lia. do 2 f_equal.
      apply map_ext. intros p. apply testbit_odd.
Qed.

Lemma carries_length f b v : carries f b v -> length b = width f.
Proof. destruct 1; cbn; auto using le_z_length. Qed.
Lemma carries_bytes f b v : carries f b v -> Forall byte b.
Proof. destruct 1; auto using le_z_bytes. Qed.
Lemma message_length l bs vs : message_of l bs vs -> length bs = size l.
Proof.
  induction 1 as [|f l b bs v vs C M IH]; [reflexivity|]. unfold size in *. cbn.
  rewrite app_length, IH, (carries_length _ _ _ C). reflexivity.
Qed.
Lemma Forall_app_l {A} (P : A -> Prop) l1 l2 : Forall P (l1 ++ l2) -> Forall P l1.
Proof. intros H. apply Forall_app in H. apply H. Qed.
Lemma Forall_firstn_byte n (l : list N) : Forall byte l -> Forall byte (firstn n l).
Proof. intros H. rewrite <- (firstn_skipn n l) in H. now apply Forall_app in H. Qed.
Lemma Forall_skipn_byte n (l : list N) : Forall byte l -> Forall byte (skipn n l).
Proof. intros H. rewrite <- (firstn_skipn n l) in H. now apply Forall_app in H. Qed.

Lemma unpack_iff l : forall d vs, Forall byte d -> (size l <= length d)%nat ->
  (unpack l d = Some vs <-> exists bs extra, d = bs ++ extra /\ message_of l bs vs).
Proof.
  induction l as [|f l IH]; intros d vs B L; cbn [unpack].
  - split.
    + intros [= <-]. exists [], d. split; [reflexivity|constructor].
    + intros (bs & extra & -> & M). inversion M; subst. reflexivity.
  - change (size (f :: l)) with (width f + size l)%nat in L.
    assert (L1 : length (firstn (width f) d) = width f) by (rewrite firstn_length; lia).
    assert (L2 : (size l <= length (skipn (width f) d))%nat) by (rewrite skipn_length; lia).
    pose proof (IH (skipn (width f) d)) as IH'. specialize (fun vs => IH' vs (Forall_skipn_byte _ _ B) L2).
    split.
    + destruct (unpack_field f (firstn (width f) d)) as [v|] eqn:E1; [|discriminate].
      destruct (unpack l (skipn (width f) d)) as [ws|] eqn:E2; [|discriminate].
      intros [= <-]. pose proof (proj1 (IH' ws) eq_refl) as E3. destruct E3 as (bs & extra & E3 & M).
      apply unpack_field_iff in E1; [|now apply Forall_firstn_byte|easy].
      exists (firstn (width f) d ++ bs), extra. split; [|now constructor].
      rewrite <- app_assoc, <- E3. symmetry. apply firstn_skipn.
    + intros (bs & extra & -> & M). inversion M as [|? ? b bs' v vs' C M']; subst.
      pose proof (carries_length _ _ _ C) as Lb. rewrite <- app_assoc in *.
      rewrite <- Lb in *.
      rewrite firstn_app, firstn_all, Nat.sub_diag, firstn_O, app_nil_r in *.
      rewrite skipn_app, skipn_all, Nat.sub_diag, skipn_O in *. cbn [app] in *.
      apply unpack_field_iff in C; [|eapply carries_bytes; eauto|easy]. rewrite C.
      replace (unpack l (bs' ++ extra)) with (Some vs'); [reflexivity|].
      symmetry. apply IH'. eauto.
Qed.

Lemma decoded_code c k : decoded_kind c = Some k -> c = code k /\ received_kind k.
Proof.
  unfold decoded_kind. intros H.
  repeat match type of H with
         | match ?x with _ => _ end = _ => destruct x; try discriminate H
         end; injection H as <-; (split; [reflexivity|split; discriminate]).
Qed.
Lemma code_decoded k : received_kind k -> decoded_kind (code k) = Some k.
Proof. intros [A B]. destruct k; try reflexivity; congruence. Qed.
Lemma code_command k : existsb (N.eqb (code k)) command_codes = true.
Proof. destruct k; reflexivity. Qed.
Lemma other_code k : exists k', received_kind k' /\ code k' = code k.
Proof.
  destruct k; try (eexists; split; [|reflexivity]; split; discriminate).
  - exists MspDataFlashReply. split; [split; discriminate|reflexivity].
  - exists MspOsdConfig. split; [split; discriminate|reflexivity].
Qed.

Lemma response_iff odd p : Forall byte (k_data p) -> forall r,
  response_of odd p = Ret r <-> meaning odd p r.
Proof.
  intros B r. unfold response_of. split.
  - destruct (existsb (N.eqb (k_cmd p)) command_codes) eqn:E; [|discriminate].
    destruct (decoded_kind (k_cmd p)) as [k|] eqn:K.
    + apply decoded_code in K. destruct K as [K R]. unfold decode_as.
      destruct (Nat.ltb_spec (length (k_data p)) (size (layout odd k))) as [L|L]; [discriminate|].
      destruct (unpack (layout odd k) (k_data p)) as [vs|] eqn:U; [|discriminate].
      intros [= <-]. apply unpack_iff in U; [|easy|easy]. destruct U as (bs & extra & U & M).
      now apply (meaning_resp odd p k bs extra vs).
    + intros [= <-]. apply existsb_exists in E. destruct E as (x & I & X). apply N.eqb_eq in X. subst x.
      constructor; [easy|]. intros k C. destruct (other_code k) as (k' & R & C').
      rewrite C, <- C', code_decoded in K by easy. discriminate.
  - intros [I N|k bs extra vs R C D M].
    + replace (existsb _ _) with true;
        [|symmetry; apply existsb_exists; exists (k_cmd p); split; [easy|apply N.eqb_refl]].
      destruct (decoded_kind (k_cmd p)) as [k|] eqn:K; [|reflexivity].
      apply decoded_code in K. now destruct (N k).
    + rewrite C, code_command, code_decoded by easy. unfold decode_as.
      assert (L : (size (layout odd k) <= length (k_data p))%nat).
      { rewrite D, app_length, (message_length _ _ _ M). lia. }
      destruct (Nat.ltb_spec (length (k_data p)) (size (layout odd k))); [lia|].
      replace (unpack _ _) with (Some vs); [reflexivity|]. symmetry.
      apply unpack_iff; eauto.
Qed.

Lemma layout_size odd : (forall k, size (odd k) <> O) -> forall k, size (layout odd k) <> O.
Proof. intros O k. destruct k; cbn [layout]; try apply O; cbn; discriminate. Qed.

(** Packing. *)
Fixpoint flag_byte (ps : list nat) (l : list bool) (acc : N) : N :=
  match ps, l with
  | p :: ps, b :: l => flag_byte ps l (if b : bool then N.lor acc (2 ^ N.of_nat (7 - p)) else acc)
  | _, _ => acc
  end.
Lemma flag_byte_fold ps : forall l acc,
  fold_left (fun acc pb => if snd pb : bool then N.lor acc (2 ^ N.of_nat (7 - fst pb)) else acc)
            (combine ps l) acc = flag_byte ps l acc.
Proof. induction ps as [|p ps IH]; intros [|b l] acc; cbn; auto. Qed.
Lemma lor_byte a b : a < 256 -> b < 256 -> N.lor a b < 256.
Proof.
  intros A B. destruct (N.eq_dec (N.lor a b) 0) as [->|Z]; [lia|].
  change 256 with (2 ^ 8). apply N.log2_lt_pow2; [lia|].
  rewrite N.log2_lor.
  assert (L : forall x, x < 256 -> N.log2 x < 8).
  { intros x X. destruct (N.eq_dec x 0) as [->|]; [reflexivity|].
    apply N.log2_lt_pow2; [lia|]. change (2 ^ 8) with 256. easy. }
  apply N.max_lub_lt; auto.
Qed.
Lemma pow_flag p : 2 ^ N.of_nat (7 - p) < 256.
Proof. change 256 with (2 ^ 8). apply N.pow_lt_mono_r; lia. Qed.
Lemma flag_byte_byte ps : forall l acc, acc < 256 -> flag_byte ps l acc < 256.
Proof.
  induction ps as [|p ps IH]; intros [|b l] acc A; cbn [flag_byte]; try exact A. apply IH.
  destruct b; [|easy]. apply lor_byte; [easy|apply pow_flag].
Qed.
Lemma flag_byte_out ps : forall l acc q, ~ In q ps -> Forall (fun p => p < 8)%nat ps -> (q < 8)%nat ->
  N.testbit (flag_byte ps l acc) (N.of_nat (7 - q)) = N.testbit acc (N.of_nat (7 - q)).
Proof.
  induction ps as [|p ps IH]; intros [|b l] acc q I F Q; cbn [flag_byte]; auto.
  inversion F; subst. rewrite IH by (cbn in I; tauto || easy). destruct b; [|easy].
  rewrite N.lor_spec, N.pow2_bits_false; [apply orb_false_r|]. cbn in I.
  assert (p <> q) by tauto. lia.
Qed.
Lemma flag_byte_in ps : forall l acc, NoDup ps -> Forall (fun p => p < 8)%nat ps -> length l = length ps ->
  (forall q, In q ps -> N.testbit acc (N.of_nat (7 - q)) = false) ->
  map (fun p => N.testbit (flag_byte ps l acc) (N.of_nat (7 - p))) ps = l.
Proof.
  induction ps as [|p ps IH]; intros [|b l] acc D F L A; try discriminate; [reflexivity|].
  cbn [flag_byte map length] in *.
  inversion D; subst. inversion F; subst. f_equal.
  - rewrite flag_byte_out by easy. destruct b; [|now apply A; left].
    rewrite N.lor_spec, N.pow2_bits_true. apply orb_true_r.
  - apply IH; [easy|easy|lia|]. intros q I. destruct b; [|now apply A; right].
    rewrite N.lor_spec, A by now right. apply N.pow2_bits_false.
    pose proof (proj1 (Forall_forall _ _) H4 q I) as Q. cbn in Q.
    assert (p <> q) by (intros ->; tauto). lia.
Qed.

Lemma pack_field_carries f v : sound f -> typed f v -> carries f (pack_field f v) v.
Proof.
  destruct f as [n|n|codes|ps], v as [z|l]; cbn [typed pack_field sound]; try easy; intros S T.
  - rewrite le_z_le_bytes, Z2N.id by lia. now constructor.
  - set (m := (256 ^ Z.of_nat n)%Z) in *.
    assert (P : (0 < m)%Z) by (apply Z.pow_pos_nonneg; lia).
    pose proof (Z.mod_pos_bound z m P). rewrite le_z_le_bytes, Z2N.id by lia.
    replace (le_z n (z mod m)) with (le_z n z); [now constructor|].
    destruct (Z_lt_le_dec z 0) as [N|N].
    + rewrite <- (le_z_period n z). fold m. f_equal.
      rewrite <- (Z.mod_small (z + m) m) by lia.
      replace (z + m)%Z with (z + 1 * m)%Z by lia. apply Z.mod_add. lia.
    + f_equal. symmetry. apply Z.mod_small. lia.
  - replace (VInt z) with (VInt (Z.of_N (Z.to_N z))) by (f_equal; lia).
    constructor; [easy|]. unfold byte. lia.
  - rewrite flag_byte_fold. set (b := flag_byte ps l 0).
    assert (B : b < 256) by (apply flag_byte_byte; lia).
    replace (VFlags l) with (VFlags (map (fun p => N.odd (b / 2 ^ N.of_nat (7 - p))) ps));
      [now constructor|]. f_equal.
    transitivity (map (fun p => N.testbit b (N.of_nat (7 - p))) ps).
    + apply map_ext. intros p. symmetry. apply testbit_odd.
    + apply flag_byte_in; try easy; try apply S; try apply T.
Qed.
Lemma pack_message l : forall vs, Forall sound l -> Forall2 typed l vs -> message_of l (pack l vs) vs.
Proof.
  induction l as [|f l IH]; intros vs S T; inversion T; subst; cbn [pack]; [constructor|].
  inversion S; subst. constructor; [now apply pack_field_carries|now apply IH].
Qed.

(** The sink. *)
Lemma pack_channels ch : forall n, length ch = n -> Forall (fun c => c < 65536) ch ->
  pack (repeat (FU 2) n) (map (fun c => VInt (Z.of_N c)) ch) = flat_map (fun c => [c mod 256; c / 256]) ch.
Proof.
  induction ch as [|c ch IH]; intros [|n] L B; cbn in *; try discriminate; auto.
  inversion B; subst. rewrite IH by (auto; lia). cbn [app]. f_equal; [|f_equal]; lia.
Qed.
Lemma request_asks r : request_ok r -> asks r (packet_of_request r).
Proof.
  unfold asks. destruct r as [| | |ch|]; intros O; try (repeat split; fail).
  destruct O as [L B]. repeat split. cbn [packet_of_request k_data]. now apply pack_channels.
Qed.
Lemma flat_map_bytes ch : Forall (fun c => c < 65536) ch -> Forall byte (flat_map (fun c => [c mod 256; c / 256]) ch).
Proof. induction 1; cbn; constructor; [|constructor]; auto; unfold byte; lia. Qed.
Lemma flat_map_length2 ch : length (flat_map (fun c => [c mod 256; c / 256]) ch) = (2 * length ch)%nat.
Proof. induction ch as [|c ch IH]; cbn in *; [reflexivity|rewrite IH; lia]. Qed.
Lemma asks_fits r k : request_ok r -> asks r k -> fits_v1 k.
Proof.
  unfold fits_v1. destruct r as [| | |ch|]; cbn; intros O (D & C & E); rewrite C, E; cbn;
    try (repeat split; try lia; constructor).
  destruct O as [L B]. rewrite flat_map_length2, L. split; [reflexivity|]. split; [reflexivity|]. now apply flat_map_bytes.
Qed.
Lemma sink_all batch : sink_process [] batch = (flat_map (fun r => serialize (packet_of_request r)) batch, true).
Proof. induction batch as [|r batch IH]; cbn; [reflexivity|]. now rewrite IH. Qed.
Lemma sink_prefix batch : forall port, exists rest,
  flat_map (fun r => serialize (packet_of_request r)) batch = fst (sink_process port batch) ++ rest.
Proof.
  induction batch as [|r batch IH]; intros port; cbn [flat_map sink_process]; [now exists []|].
  destruct port as [|[n|] port]; cbn [tl].
  - destruct (IH []) as [t E]. destruct (sink_process [] batch) as [s o]. exists t. cbn in *.
    now rewrite E, app_assoc.
  - exists (skipn n (serialize (packet_of_request r)) ++ flat_map (fun r => serialize (packet_of_request r)) batch).
    cbn [fst]. rewrite app_assoc, firstn_skipn. reflexivity.
  - destruct (IH port) as [t E]. destruct (sink_process port batch) as [s o]. exists t. cbn in *.
    now rewrite E, app_assoc.
Qed.
Lemma sink_ok batch : forall port, snd (sink_process port batch) = true ->
  fst (sink_process port batch) = flat_map (fun r => serialize (packet_of_request r)) batch.
Proof.
  induction batch as [|r batch IH]; intros port; cbn [flat_map sink_process]; [reflexivity|].
  destruct port as [|[n|] port]; cbn [tl].
  - specialize (IH []). destruct (sink_process [] batch) as [s o]. cbn in *. intros ->. now rewrite IH.
  - discriminate.
  - specialize (IH port). destruct (sink_process port batch) as [s o]. cbn in *. intros ->. now rewrite IH.
Qed.

(** Batches in a log. *)
Lemma request_lossless : lossless request_ok enc_request dec_request.
Proof.
  assert (V : forall n rest, n < 2 ^ 32 -> dec_u32 (enc_u32 n ++ rest) = Some (n, rest)).
  { intros n rest H. now apply u32_lossless. }
  intros r rest O. unfold dec_request, dbind.
  destruct r as [| | |ch|]; cbn [enc_request]; rewrite <- ?app_assoc, V by reflexivity; try reflexivity.
  destruct O as [L B]. change (3 =? 0) with false. change (3 =? 1) with false. change (3 =? 2) with false.
  change (3 =? 3) with true. cbn iota.
  rewrite <- L, (dec_n_rt _ _ _ u16_lossless); [reflexivity|].
  eapply Forall_impl; [|exact B]. intros c C. exact C.
Qed.
