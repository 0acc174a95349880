(** Memory, alignment and header lemmas for the unified log. *)
From Coq Require Import List Arith NArith ZArith Bool Lia ZifyBool ZifyNat ZifyN.
From Verif Require Import Base BincodeModel BincodeSpec BincodeProofs ULogModel ULogSpec.
Import ListNotations.
Open Scope N_scope.

#[global] Arguments N.ldiff : simpl never.
#[global] Arguments N.min : simpl never.

(** ** Memory *)
Definition bytes_at (m : N -> N) (off : N) (bs : bytes) : Prop :=
  forall i, (i < length bs)%nat -> m (off + N.of_nat i) = nth i bs 0.

Lemma blen_app a b : blen (a ++ b) = blen a + blen b.
Proof. unfold blen. rewrite app_length. lia. Qed.

Lemma blen_cons x b : blen (x :: b) = 1 + blen b.
Proof. unfold blen. cbn [length]. lia. Qed.

Lemma bytes_at_nil m o : bytes_at m o [].
Proof. intros i H; cbn in H; lia. Qed.

Lemma wr_other m off bs a : a < off \/ off + blen bs <= a -> wr m off bs a = m a.
Proof.
  intros H. unfold wr. destruct (N.leb_spec off a), (N.ltb_spec a (off + blen bs)); cbn; auto; lia.
Qed.

Lemma wr_same m off bs : bytes_at (wr m off bs) off bs.
Proof.
  intros i H. unfold wr, blen.
  destruct (N.leb_spec off (off + N.of_nat i)), (N.ltb_spec (off + N.of_nat i) (off + N.of_nat (length bs)));
    cbn; try lia.
  f_equal. lia.
Qed.

Lemma bytes_at_wr m off bs o b : o + blen b <= off \/ off + blen bs <= o ->
  bytes_at m o b -> bytes_at (wr m off bs) o b.
Proof.
  intros D H i Hi. rewrite wr_other; auto. unfold blen in *. lia.
Qed.

Lemma bytes_at_app m o a b : bytes_at m o (a ++ b) <-> bytes_at m o a /\ bytes_at m (o + blen a) b.
Proof.
  split.
  - intros H. split; intros i Hi.
    + rewrite H by (rewrite app_length; lia). now rewrite app_nth1.
    + specialize (H (length a + i)%nat). rewrite app_length in H.
      rewrite app_nth2 in H by lia. replace (length a + i - length a)%nat with i in H by lia.
      rewrite <- H by lia. f_equal. unfold blen. lia.
  - intros [H1 H2] i Hi. rewrite app_length in Hi.
    destruct (Nat.lt_ge_cases i (length a)).
    + rewrite app_nth1 by auto. now apply H1.
    + rewrite app_nth2 by lia. rewrite <- H2 by lia. f_equal. unfold blen. lia.
Qed.

Lemma slice_length m o n : length (slice m o n) = N.to_nat n.
Proof. unfold slice. now rewrite map_length, seq_length. Qed.

Lemma map_seq_shift {A} (f : nat -> A) s n : map f (seq s n) = map (fun i => f (s + i)%nat) (seq 0 n).
Proof.
  revert s f; induction n as [|n IH]; intros s f; cbn; auto.
  rewrite Nat.add_0_r. f_equal. rewrite (IH (S s)), (IH 1%nat). apply map_ext.
  intros i. f_equal. lia.
Qed.

Lemma slice_app m o n1 n2 : slice m o (n1 + n2) = slice m o n1 ++ slice m (o + n1) n2.
Proof.
  unfold slice. rewrite N2Nat.inj_add, seq_app, map_app. f_equal.
  rewrite map_seq_shift. apply map_ext. intros i. f_equal. lia.
Qed.

Lemma slice_bytes_at m o b : bytes_at m o b -> slice m o (blen b) = b.
Proof.
  intros H. apply (nth_ext _ _ 0 0).
  - rewrite slice_length. unfold blen. lia.
  - intros i Hi. rewrite slice_length in Hi. unfold blen in Hi. rewrite Nat2N.id in Hi.
    assert (E : nth_error (slice m o (blen b)) i = Some (nth i b 0)).
    { unfold slice. rewrite nth_error_map, nth_error_nth' with (d := 0%nat)
        by (rewrite seq_length; unfold blen; lia).
      rewrite seq_nth by (unfold blen; lia). cbn. now rewrite H. }
    now apply nth_error_nth with (d := 0) in E.
Qed.

Lemma slice_prefix m o b n : bytes_at m o b -> blen b <= n ->
  slice m o n = b ++ slice m (o + blen b) (n - blen b).
Proof.
  intros H L. replace n with (blen b + (n - blen b)) at 1 by lia.
  rewrite slice_app. now rewrite slice_bytes_at.
Qed.

(** ** Alignment *)
Section Align.
Context (ps : N) (Hps : page_ok ps).

Definition aligned (p : N) : Prop := exists q, p = q * ps.

Lemma ps_pos : 0 < ps. Proof. destruct Hps as [_ ?]. lia. Qed.

Lemma align_eq p : align ps p = (p + ps - 1) / ps * ps.
Proof.
  destruct Hps as [[k ->] H]. unfold align.
  replace (2 ^ k - 1) with (N.ones k) by (unfold N.ones; rewrite N.shiftl_1_l; lia).
  rewrite N.ldiff_ones_r, N.shiftr_div_pow2, N.shiftl_mul_pow2. f_equal.
Qed.

Lemma align_aligned p : aligned (align ps p).
Proof. rewrite align_eq. eexists. reflexivity. Qed.

Lemma align_bounds p : p <= align ps p < p + ps.
Proof.
  rewrite align_eq. pose proof ps_pos.
  pose proof (N.div_mod (p + ps - 1) ps). pose proof (N.mod_lt (p + ps - 1) ps). nia.
Qed.

Lemma aligned_unique a p : aligned a -> p <= a < p + ps -> align ps p = a.
Proof.
  intros [q ->] H. destruct (align_aligned p) as [r Hr]. pose proof (align_bounds p).
  rewrite Hr in *. pose proof ps_pos. assert (q = r) by nia. now subst.
Qed.

Lemma aligned_align a : aligned a -> align ps a = a.
Proof. intros H. apply aligned_unique; auto. pose proof ps_pos. lia. Qed.

Lemma align_add a r : aligned a -> align ps (a + r) = a + align ps r.
Proof.
  intros [q ->]. apply aligned_unique.
  - destruct (align_aligned r) as [x ->]. exists (q + x). lia.
  - pose proof (align_bounds r). lia.
Qed.

Lemma aligned_add a b : aligned a -> aligned b -> aligned (a + b).
Proof. intros [q ->] [r ->]. exists (q + r). lia. Qed.
End Align.

(** ** Headers *)
Lemma enc_logtype_length t : length (enc_logtype t) = 1%nat.
Proof. destruct t; reflexivity. Qed.

Lemma dec_logtype_rt t rest : dec_logtype (enc_logtype t ++ rest) = Some (t, rest).
Proof. destruct t; reflexivity. Qed.

Definition wf_header (h : header) : Prop :=
  length (h_magic h) = 2%nat /\ h_size h < 2 ^ 32 /\ h_filled h < 2 ^ 32.

Lemma header_lossless : lossless wf_header enc_header dec_header.
Proof.
  intros [m t s f] rest (Hm & Hs & Hf). unfold enc_header, dec_header, dbind.
  cbn [h_magic h_type h_size h_filled] in *.
  rewrite <- !app_assoc, take_bytes_app, dec_logtype_rt by auto.
  rewrite (u32_lossless s), (u32_lossless f) by auto. reflexivity.
Qed.

Lemma enc_u32_length v : v < 2 ^ 32 -> (length (enc_u32 v) <= 5)%nat.
Proof.
  intros H. pose proof (enc_var_length v). unfold enc_u32.
  destruct (N.ltb_spec v (2 ^ 16)), (N.ltb_spec v (2 ^ 32)); lia.
Qed.

Lemma enc_header_bound h : wf_header h -> blen (enc_header h) <= 13.
Proof.
  intros (Hm & Hs & Hf). unfold enc_header, blen. rewrite !app_length, enc_logtype_length.
  apply enc_u32_length in Hs, Hf. lia.
Qed.

Lemma enc_header_lower h : wf_header h -> 5 <= blen (enc_header h).
Proof.
  intros (Hm & Hs & Hf). unfold enc_header, blen. rewrite !app_length, enc_logtype_length.
  unfold enc_u32.
  pose proof (enc_var_nonempty (h_size h)). pose proof (enc_var_nonempty (h_filled h)).
  destruct (enc_var (h_size h)), (enc_var (h_filled h)); cbn [length] in *; try congruence; lia.
Qed.

Definition wf_main (h : main_header) : Prop :=
  length (mh_magic h) = 4%nat /\ mh_first h < 2 ^ 16 /\ mh_page h < 2 ^ 16.

Lemma main_lossless : lossless wf_main enc_main dec_main.
Proof.
  intros [m f p] rest (Hm & Hs & Hf). unfold enc_main, dec_main, dbind.
  cbn [mh_magic mh_first mh_page] in *.
  rewrite <- !app_assoc, take_bytes_app by auto.
  rewrite (u16_lossless f), (u16_lossless p) by auto. reflexivity.
Qed.

Lemma enc_main_bound h : wf_main h -> blen (enc_main h) <= 10.
Proof.
  intros (Hm & Hs & Hf). unfold enc_main, blen. rewrite !app_length. unfold enc_u16.
  pose proof (enc_var_length (mh_first h)) as H1. pose proof (enc_var_length (mh_page h)) as H2.
  destruct (N.ltb_spec (mh_first h) (2 ^ 16)), (N.ltb_spec (mh_page h) (2 ^ 16)); lia.
Qed.

Lemma logtype_eqb_eq a b : logtype_eqb a b = true <-> a = b.
Proof. destruct a, b; cbn; split; congruence. Qed.

Lemma logtype_eqb_refl a : logtype_eqb a a = true.
Proof. now apply logtype_eqb_eq. Qed.

(** ** Files *)
Lemma modify_file_length k f fs : length (modify_file k f fs) = length fs.
Proof. unfold modify_file. destruct (nth_error fs k); auto. apply upd_length. Qed.

Lemma modify_file_same k f fs x : nth_error fs k = Some x ->
  nth_error (modify_file k f fs) k = Some (f x).
Proof.
  intros H. unfold modify_file. rewrite H. apply nth_error_upd_eq.
  apply nth_error_Some. congruence.
Qed.

Lemma modify_file_other k j f fs : k <> j -> nth_error (modify_file k f fs) j = nth_error fs j.
Proof.
  intros H. unfold modify_file. destruct (nth_error fs k); auto. now apply nth_error_upd_neq.
Qed.

Lemma replay_snoc evs e : replay (evs ++ [e]) = apply_ev e (replay evs).
Proof. unfold replay. now rewrite fold_left_app. Qed.
