(** Structured values continued: the fuel of the decoder is immaterial, log
    entries, and the borrowing decoder. *)
From Coq Require Import List Arith NArith ZArith Bool Lia Sorted.
From Verif Require Import Base BincodeModel BincodeSpec BincodeProofs CodecModel ValueModel
  CodecSpec CodecProofs ValueProofs.
Import ListNotations.
Open Scope N_scope.

Lemma streaming_map d : streaming d -> streaming (dec_map d).
Proof.
  intros H. unfold dec_map. apply streaming_bind; [apply streaming_u64|]. intros n.
  generalize (N.to_nat n) as k, (@nil (value * value)) as m. clear n. induction k as [|k IH]; intros m; cbn.
  - apply streaming_ret.
  - apply streaming_bind; [auto|]. intros a. apply streaming_bind; [auto|]. auto.
Qed.

Ltac stream_leaf :=
  repeat match goal with |- streaming (match ?p with _ => _ end) => destruct p end;
  try apply streaming_fail; try apply streaming_ret;
  try (apply streaming_bind; [|intro; apply streaming_ret]);
  auto using streaming_bool, streaming_u8, streaming_u16, streaming_u32, streaming_u64,
    streaming_i8, streaming_signed, streaming_fixed, streaming_char, streaming_string,
    streaming_option, streaming_vec, streaming_map, streaming_time.

Lemma streaming_val fuel : streaming (dec_val fuel).
Proof.
  induction fuel as [|fuel IH]; cbn [dec_val]; [apply streaming_fail|].
  apply streaming_bind; [apply streaming_u8|]. intros t. stream_leaf;
  unfold dec_f32, dec_f64; apply streaming_fixed.
Qed.

Lemma streaming_shrinks {A} (d : decoder A) b a r : streaming d -> d b = Some (a, r) ->
  (length r <= length b)%nat.
Proof. intros Hs H. destruct (Hs _ _ _ H) as (p & -> & _). rewrite app_length. lia. Qed.

(** Two decoders agreeing on inputs of at most [n] bytes. *)
Definition agree {A} (n : nat) (d d' : decoder A) : Prop :=
  forall b, (length b <= n)%nat -> d b = d' b.

Lemma agree_bind {A B} n (d d' : decoder A) (f f' : A -> decoder B) :
  streaming d -> agree n d d' -> (forall a, agree n (f a) (f' a)) ->
  agree n (dbind d f) (dbind d' f').
Proof.
  intros Hs Hd Hf b Hb. unfold dbind. rewrite <- Hd by auto.
  destruct (d b) as [[a r]|] eqn:E; auto. apply Hf.
  pose proof (streaming_shrinks _ _ _ _ Hs E). lia.
Qed.

Lemma agree_refl {A} n (d : decoder A) : agree n d d.
Proof. intros b _. reflexivity. Qed.

Lemma agree_n {A} n (d d' : decoder A) k : streaming d -> agree n d d' ->
  agree n (dec_n d k) (dec_n d' k).
Proof.
  intros Hs Hd. induction k as [|k IH]; cbn; [apply agree_refl|].
  apply agree_bind; auto. intros a. apply agree_bind; auto using streaming_n, agree_refl.
Qed.

Lemma agree_vec {A} n (d d' : decoder A) : streaming d -> agree n d d' ->
  agree n (dec_vec d) (dec_vec d').
Proof.
  intros Hs Hd. apply agree_bind; auto using streaming_u64, agree_refl, agree_n.
Qed.

Lemma agree_map n d d' : streaming d -> agree n d d' -> agree n (dec_map d) (dec_map d').
Proof.
  intros Hs Hd. apply agree_bind; auto using streaming_u64, agree_refl. intros k.
  generalize (N.to_nat k) as j, (@nil (value * value)) as m. clear k. induction j as [|j IH]; intros m; cbn.
  - apply agree_refl.
  - apply agree_bind; auto. intros a. apply agree_bind; auto.
Qed.

Lemma agree_option {A} n (d d' : decoder A) : streaming d -> agree n d d' ->
  agree n (dec_option d) (dec_option d').
Proof.
  intros Hs Hd. apply agree_bind; auto using streaming_u8, agree_refl. intros t.
  destruct (t =? 0); auto using agree_refl. destruct (t =? 1); auto using agree_refl.
  apply agree_bind; auto using agree_refl.
Qed.

Lemma dbind_u8 {B} (f : N -> decoder B) t b : dbind dec_u8 f (t :: b) = f t b.
Proof. reflexivity. Qed.

Lemma dec_val_fuel n : forall f f' b, (length b <= n)%nat -> (n < f)%nat -> (n < f')%nat ->
  dec_val f b = dec_val f' b.
Proof.
  induction n as [|n IH]; intros f f' b Hb Hf Hf'.
  - destruct b; cbn in Hb; [|lia]. destruct f, f'; try lia. reflexivity.
  - destruct f as [|f], f' as [|f']; try lia. cbn [dec_val].
    destruct b as [|t b]; [reflexivity|]. cbn in Hb. rewrite !dbind_u8.
    assert (A : agree n (dec_val f) (dec_val f')) by (intros c Hc; apply IH; lia).
    assert (Hb' : (length b <= n)%nat) by lia.
    assert (S1 := streaming_val f).
    repeat match goal with |- match ?p with _ => _ end _ = _ => destruct p end; try reflexivity;
      (eapply agree_bind; [| |intros; apply agree_refl|exact Hb'];
       first [assumption|apply agree_refl|apply agree_option|apply agree_vec|apply agree_map
             |apply streaming_option|apply streaming_vec|apply streaming_map|idtac]; auto).
Qed.

Lemma dec_value_fuel b fuel : (length b < fuel)%nat -> dec_val fuel b = dec_value b.
Proof. intros H. unfold dec_value. apply dec_val_fuel with (n := length b); lia. Qed.

Lemma streaming_value : streaming dec_value.
Proof.
  intros b a r H. destruct (streaming_val _ _ _ _ H) as (p & -> & Hp). exists p.
  split; auto. intros s.
  set (f := S (length (p ++ r) + length (p ++ s))).
  rewrite <- (dec_value_fuel (p ++ s) f) by (unfold f; lia).
  rewrite <- (dec_value_fuel (p ++ r) f) in H by (unfold f; lia).
  destruct (streaming_val _ _ _ _ H) as (q & Eq & Hq).
  apply app_inv_tail in Eq. subst q. apply Hq.
Qed.

(** ** Log entries *)
Lemma entry_lossless : lossless entry_ok enc_entry dec_entry.
Proof.
  intros [t m ns ps] rest (Ht & Hm & Hn & Hn' & Hp & Hp'). unfold enc_entry, dec_entry, dbind.
  cbn [le_time le_msg le_names le_params] in *. rewrite <- !app_assoc.
  rewrite time_lossless by auto. rewrite u32_lossless by auto. rewrite u64_lossless by auto.
  rewrite Nat2N.id. rewrite (dec_n_rt (ubits 32)) by (auto; apply u32_lossless).
  rewrite u64_lossless by auto.
  rewrite Nat2N.id. rewrite (dec_n_rt wf_value) by (auto; apply value_lossless).
  reflexivity.
Qed.

Lemma streaming_entry : streaming dec_entry.
Proof.
  unfold dec_entry.
  repeat (apply streaming_bind; [auto using streaming_time, streaming_u32, streaming_u64,
    streaming_n, streaming_value|intro]). apply streaming_ret.
Qed.

(** ** Borrowed decoding *)
Definition kind_agrees (v : value) : bool :=
  match v with VChar _ | VString _ => true | _ => false end.

Lemma borrow_agrees v rest : wf_value v ->
  borrow_dec_value (enc_value v ++ rest) = Some (v, rest) <-> kind_agrees v = true.
Proof.
  intros W. unfold borrow_dec_value. generalize (length (enc_value v ++ rest)) as f. intros f.
  split.
  - destruct v; try reflexivity; cbn [enc_value discriminant]; rewrite <- ?app_assoc;
      cbn [app enc_u8 bdec_val dbind dec_u8]; unfold dbind, dfail;
      repeat match goal with
      | |- context [match ?d with Some _ => _ | None => None end] => destruct d as [[? ?]|]
      end; intros H; try discriminate H; unfold dret in H; injection H; intros; discriminate.
  - destruct v; try discriminate; intros _; inversion W; subst; cbn [enc_value discriminant];
      rewrite <- app_assoc; cbn [app enc_u8 bdec_val dbind dec_u8]; unfold dbind.
    + rewrite char_lossless; auto.
    + rewrite string_lossless; auto.
Qed.
