From Coq Require Import List Arith NArith ZArith Bool Lia ZifyBool ZifyNat ZifyN.
From Verif Require Import Base BincodeModel BincodeSpec.
Import ListNotations.
Open Scope N_scope.

Lemma lossless_prefix_free {A} (wf : A -> Prop) enc dec :
  lossless wf enc dec -> prefix_free wf enc.
Proof.
  intros L v w r1 r2 Hv Hw E. pose proof (L v r1 Hv) as H1. rewrite E, (L w r2 Hw) in H1.
  injection H1 as -> ->. auto.
Qed.

Lemma le_bytes_length n v : length (le_bytes n v) = n.
Proof. revert v; induction n; cbn; auto. Qed.

Lemma le_bytes_bytes n v : Forall (fun b => b < 256) (le_bytes n v).
Proof. revert v; induction n; intros; cbn; constructor; auto. apply N.mod_lt; lia. Qed.

Lemma of_le_bytes n v : v < 256 ^ N.of_nat n -> of_le (le_bytes n v) = v.
Proof.
  revert v; induction n as [|n IH]; intros v H; cbn [le_bytes of_le].
  - change (256 ^ N.of_nat 0) with 1 in H. lia.
  - rewrite IH.
    + symmetry. rewrite N.add_comm. apply N.div_mod. lia.
    + apply N.div_lt_upper_bound; [lia|]. rewrite Nat2N.inj_succ, N.pow_succ_r' in H. lia.
Qed.

Lemma take_bytes_app n h t : length h = n -> take_bytes n (h ++ t) = Some (h, t).
Proof. revert h; induction n; intros [|x h] E; cbn in *; try discriminate; auto.
  injection E as E. now rewrite IHn. Qed.

Lemma dec_fixed_rt n v rest : v < 256 ^ N.of_nat n ->
  dec_fixed n (le_bytes n v ++ rest) = Some (v, rest).
Proof.
  intros H. unfold dec_fixed. rewrite take_bytes_app by apply le_bytes_length.
  now rewrite of_le_bytes.
Qed.

Lemma u8_lossless : lossless (ubits 8) enc_u8 dec_u8.
Proof. intros v rest _. reflexivity. Qed.

Lemma var_lossless (w : nat) : (w = 2 \/ w = 4 \/ w = 8 \/ w = 16)%nat ->
  lossless (fun v => v < 256 ^ N.of_nat w) enc_var (dec_var w).
Proof.
  intros Hw v rest Hv. unfold enc_var, dec_var.
  destruct (N.ltb_spec v 251); [cbn; unfold dbind; cbn; destruct (N.ltb_spec v 251); [reflexivity|lia]|].
  destruct (N.ltb_spec v (2^16)).
  { cbn [app]. unfold dbind, dec_u8. cbn -[dec_fixed le_bytes]. apply dec_fixed_rt.
    change (256 ^ N.of_nat 2) with (2^16). auto. }
  destruct (N.ltb_spec v (2^32)).
  { cbn [app]. unfold dbind, dec_u8. cbn -[dec_fixed le_bytes].
    destruct (Nat.leb_spec 4 w); cbn -[dec_fixed le_bytes].
    - apply dec_fixed_rt. change (256 ^ N.of_nat 4) with (2^32). auto.
    - assert (w = 2%nat) as -> by lia. change (256 ^ N.of_nat 2) with (2^16) in Hv. lia. }
  destruct (N.ltb_spec v (2^64)).
  { cbn [app]. unfold dbind, dec_u8. cbn -[dec_fixed le_bytes].
    destruct (Nat.leb_spec 8 w); cbn -[dec_fixed le_bytes].
    - apply dec_fixed_rt. change (256 ^ N.of_nat 8) with (2^64). auto.
    - destruct Hw as [->|[->|?]];
        [change (256 ^ N.of_nat 2) with (2^16) in Hv
        |change (256 ^ N.of_nat 4) with (2^32) in Hv|]; lia. }
  cbn [app]. unfold dbind, dec_u8. cbn -[dec_fixed le_bytes].
  destruct Hw as [->|[->|[-> | ->]]].
  - change (256 ^ N.of_nat 2) with (2^16) in Hv. lia.
  - change (256 ^ N.of_nat 4) with (2^32) in Hv. lia.
  - change (256 ^ N.of_nat 8) with (2^64) in Hv. lia.
  - cbn -[dec_fixed le_bytes]. now apply dec_fixed_rt.
Qed.

Lemma u16_lossless : lossless (ubits 16) enc_u16 dec_u16.
Proof. intros v r H. apply (var_lossless 2); auto. Qed.
Lemma u32_lossless : lossless (ubits 32) enc_u32 dec_u32.
Proof. intros v r H. apply (var_lossless 4); auto. Qed.
Lemma u64_lossless : lossless (ubits 64) enc_u64 dec_u64.
Proof. intros v r H. apply (var_lossless 8); auto. Qed.

Lemma enc_var_bytes v : Forall (fun b => b < 256) (enc_var v).
Proof.
  unfold enc_var.
  destruct (N.ltb_spec v 251); [repeat constructor; lia|].
  repeat (match goal with |- context [if ?c then _ else _] => destruct c end;
    [constructor; [lia|apply le_bytes_bytes]|]).
  constructor; [lia|apply le_bytes_bytes].
Qed.

Lemma enc_var_length v :
  (length (enc_var v) <= (if (v <? 2^16)%N then 3 else if (v <? 2^32)%N then 5
                          else if (v <? 2^64)%N then 9 else 17))%nat.
Proof.
  unfold enc_var. destruct (N.ltb_spec v 251).
  - cbn [length]. repeat match goal with |- context [if ?c then _ else _] => destruct c end; lia.
  - repeat match goal with |- context [if ?c then _ else _] => destruct c end;
      cbn [length]; rewrite le_bytes_length; lia.
Qed.

Lemma enc_var_nonempty v : enc_var v <> [].
Proof.
  unfold enc_var.
  repeat match goal with |- context [if ?c then _ else _] => destruct c end; discriminate.
Qed.

Lemma unzigzag_zigzag z : unzigzag (zigzag z) = z.
Proof.
  unfold zigzag, unzigzag. destruct (Z.ltb_spec z 0).
  - assert (E : Z.to_N (- z * 2 - 1) = 2 * Z.to_N (- z - 1) + 1) by lia.
    rewrite E, N.even_add, N.even_mul. cbn [N.even orb Bool.eqb negb].
    rewrite N.mul_comm, N.div_add_l by lia. change (1 / 2) with 0. lia.
  - assert (E : Z.to_N (z * 2) = 2 * Z.to_N z) by lia. rewrite E, N.even_mul.
    cbn [N.even orb]. rewrite N.mul_comm, N.div_mul by lia. lia.
Qed.

Lemma zigzag_bound n z : (0 < n)%Z -> sbits n z -> zigzag z < 2 ^ Z.to_N n.
Proof.
  intros Hn [H1 H2]. unfold zigzag.
  assert (E : Z.of_N (2 ^ Z.to_N n) = (2 * 2 ^ (n - 1))%Z).
  { rewrite N2Z.inj_pow, Z2N.id by lia. change (Z.of_N 2) with 2%Z.
    replace n with (Z.succ (n - 1)) at 1 by lia. rewrite Z.pow_succ_r by lia. lia. }
  destruct (Z.ltb_spec z 0); lia.
Qed.

Lemma signed_lossless (w : nat) (n : Z) :
  (w = 2 \/ w = 4 \/ w = 8 \/ w = 16)%nat -> n = (8 * Z.of_nat w)%Z ->
  lossless (sbits n) enc_signed (dec_signed w).
Proof.
  intros Hw -> z rest Hz. unfold enc_signed, dec_signed, dbind.
  rewrite (var_lossless w Hw).
  - cbn. now rewrite unzigzag_zigzag.
  - apply zigzag_bound in Hz; [|lia].
    replace (256 ^ N.of_nat w) with (2 ^ Z.to_N (8 * Z.of_nat w)); auto.
    change 256 with (2 ^ 8). rewrite <- N.pow_mul_r. f_equal. lia.
Qed.

Lemma i8_lossless : lossless (sbits 8) enc_i8 dec_i8.
Proof.
  intros z rest [H1 H2]. change (2 ^ (8 - 1))%Z with 128%Z in *.
  unfold dec_i8, enc_i8, dbind, dec_u8, dret. cbn [app].
  do 2 f_equal. destruct (N.ltb_spec (Z.to_N (z mod 256)) 128); lia.
Qed.

Lemma bool_lossless : lossless (fun _ => True) enc_bool dec_bool.
Proof. intros [] rest _; reflexivity. Qed.

Lemma f32_lossless : lossless (ubits 32) enc_f32 dec_f32.
Proof. intros v r H. apply dec_fixed_rt. exact H. Qed.
Lemma f64_lossless : lossless (ubits 64) enc_f64 dec_f64.
Proof. intros v r H. apply dec_fixed_rt. exact H. Qed.

Lemma option_lossless {A} (wf : A -> Prop) e d : lossless wf e d ->
  lossless (fun o => match o with None => True | Some a => wf a end) (enc_option e) (dec_option d).
Proof.
  intros L [a|] rest H; [|reflexivity]. unfold dec_option, enc_option, dbind, dec_u8. cbn [app].
  change (1 =? 0) with false. change (1 =? 1) with true. cbn beta iota. now rewrite L.
Qed.

Lemma dec_n_rt {A} (wf : A -> Prop) e d : lossless wf e d ->
  forall l rest, Forall wf l -> dec_n d (length l) (enc_all e l ++ rest) = Some (l, rest).
Proof.
  intros L l. induction l as [|a l IH]; intros rest H; cbn; auto.
  inversion H; subst. unfold dbind. rewrite <- app_assoc. rewrite L by auto.
  now rewrite IH.
Qed.

Lemma vec_lossless {A} (wf : A -> Prop) e d : lossless wf e d ->
  lossless (fun l => Forall wf l /\ ubits 64 (N.of_nat (length l))) (enc_vec e) (dec_vec d).
Proof.
  intros L l rest [H Hn]. unfold enc_vec, dec_vec, dbind. rewrite <- app_assoc.
  rewrite u64_lossless by auto. rewrite Nat2N.id. eapply dec_n_rt; eauto.
Qed.

Lemma pair_lossless {A B} (wa : A -> Prop) (wb : B -> Prop) ea da eb db :
  lossless wa ea da -> lossless wb eb db ->
  lossless (fun p => wa (fst p) /\ wb (snd p)) (enc_pair ea eb) (dec_pair da db).
Proof.
  intros La Lb [a b] rest [Ha Hb]. unfold enc_pair, dec_pair, dbind. cbn in *.
  now rewrite <- app_assoc, La, Lb.
Qed.

Lemma is_char_scalar c : is_char c = true <-> scalar c.
Proof. unfold is_char, scalar. lia. Qed.

Lemma char_lossless : lossless scalar enc_char dec_char.
Proof.
  intros c rest H. unfold enc_char.
  destruct (N.ltb_spec c 0x80).
  { cbn. destruct (N.ltb_spec c 128); [reflexivity|lia]. }
  destruct (N.ltb_spec c 0x800).
  { cbn [app dec_char].
    destruct (N.ltb_spec (0xC0 + c / 64) 0x80); [lia|].
    destruct (N.ltb_spec (0xC0 + c / 64) 0xC0); [lia|].
    destruct (N.ltb_spec (0xC0 + c / 64) 0xE0); [|lia].
    replace ((0xC0 + c / 64 - 0xC0) * 64 + (0x80 + c mod 64 - 0x80)) with c by lia.
    unfold cont. replace (_ && _) with true by lia. reflexivity. }
  destruct (N.ltb_spec c 0x10000).
  { cbn [app dec_char].
    destruct (N.ltb_spec (0xE0 + c / 4096) 0x80); [lia|].
    destruct (N.ltb_spec (0xE0 + c / 4096) 0xC0); [lia|].
    destruct (N.ltb_spec (0xE0 + c / 4096) 0xE0); [lia|].
    destruct (N.ltb_spec (0xE0 + c / 4096) 0xF0); [|lia].
    replace ((0xE0 + c / 4096 - 0xE0) * 4096 + (0x80 + (c / 64) mod 64 - 0x80) * 64 +
             (0x80 + c mod 64 - 0x80)) with c by lia.
    apply is_char_scalar in H. rewrite H. unfold cont. replace (_ && true) with true by lia.
    reflexivity. }
  cbn [app dec_char].
  assert (c < 0x110000) by (unfold scalar in H; lia).
  destruct (N.ltb_spec (0xF0 + c / 262144) 0x80); [lia|].
  destruct (N.ltb_spec (0xF0 + c / 262144) 0xC0); [lia|].
  destruct (N.ltb_spec (0xF0 + c / 262144) 0xE0); [lia|].
  destruct (N.ltb_spec (0xF0 + c / 262144) 0xF0); [lia|].
  destruct (N.ltb_spec (0xF0 + c / 262144) 0xF8); [|lia].
  replace ((0xF0 + c / 262144 - 0xF0) * 262144 + (0x80 + (c / 4096) mod 64 - 0x80) * 4096 +
           (0x80 + (c / 64) mod 64 - 0x80) * 64 + (0x80 + c mod 64 - 0x80)) with c by lia.
  apply is_char_scalar in H. rewrite H. unfold cont. replace (_ && true) with true by lia.
  reflexivity.
Qed.

Lemma enc_char_length c : (1 <= length (enc_char c) <= 4)%nat.
Proof.
  unfold enc_char.
  repeat match goal with |- context [if ?c then _ else _] => destruct c end; cbn; lia.
Qed.

Lemma enc_char_bytes c : scalar c -> Forall (fun b => b < 256) (enc_char c).
Proof.
  intros H. unfold enc_char, scalar in *.
  destruct (N.ltb_spec c 0x80); [repeat constructor; lia|].
  destruct (N.ltb_spec c 0x800); [repeat constructor; lia|].
  destruct (N.ltb_spec c 0x10000); repeat constructor; lia.
Qed.

Lemma utf8_chars_rt s fuel : Forall scalar s -> (length s <= fuel)%nat ->
  utf8_chars fuel (enc_all enc_char s) = Some s.
Proof.
  revert fuel; induction s as [|c s IH]; intros fuel H Hf; cbn.
  - destruct fuel; reflexivity.
  - inversion H; subst. cbn in Hf. destruct fuel as [|fuel]; [lia|].
    pose proof (char_lossless c (flat_map enc_char s)) as Hd.
    pose proof (enc_char_length c).
    destruct (enc_char c ++ flat_map enc_char s) eqn:E.
    { destruct (enc_char c); cbn in *; [lia|discriminate]. }
    cbn [utf8_chars]. rewrite Hd by auto. unfold enc_all in IH. rewrite IH by (auto; lia).
    reflexivity.
Qed.

Lemma enc_all_char_length s : (length s <= length (enc_all enc_char s))%nat.
Proof.
  induction s as [|c s IH]; cbn; auto. rewrite app_length. unfold enc_all in IH.
  pose proof (enc_char_length c). lia.
Qed.

Definition wf_string (s : list N) : Prop :=
  Forall scalar s /\ ubits 64 (N.of_nat (length (enc_all enc_char s))).

Lemma string_lossless : lossless wf_string enc_string dec_string.
Proof.
  intros s rest [H Hn]. unfold enc_string, dec_string, dbind.
  rewrite (vec_lossless (fun b => True) enc_u8 dec_u8).
  - rewrite utf8_chars_rt; auto. apply enc_all_char_length.
  - intros v r _; reflexivity.
  - split; auto. clear. induction (enc_all enc_char s); auto.
Qed.

(** ** What decoders can return *)
Lemma take_bytes_spec n : forall b h t, take_bytes n b = Some (h, t) -> b = h ++ t /\ length h = n.
Proof.
  induction n as [|n IH]; intros b h t; cbn.
  - intros H. injection H as <- <-. auto.
  - destruct b as [|x b]; [discriminate|]. destruct (take_bytes n b) as [[h' t']|] eqn:E; [|discriminate].
    intros H. injection H as <- <-. apply IH in E. destruct E as [-> E]. cbn. auto.
Qed.
Lemma of_le_bound bs : Forall (fun x => x < 256) bs -> of_le bs < 256 ^ N.of_nat (length bs).
Proof.
  induction 1 as [|x bs Hx H IH]; cbn [of_le length].
  - cbn. lia.
  - rewrite Nat2N.inj_succ, N.pow_succ_r'. lia.
Qed.
Lemma fixed_bound n b v r : Forall (fun x => x < 256) b -> dec_fixed n b = Some (v, r) -> v < 256 ^ N.of_nat n.
Proof.
  intros F. unfold dec_fixed. destruct (take_bytes n b) as [[h t]|] eqn:E; [|discriminate].
  intros H. injection H as <- <-. apply take_bytes_spec in E. destruct E as [-> <-].
  apply Forall_app in F. apply of_le_bound. tauto.
Qed.
Lemma pow_256 n : 256 ^ n = 2 ^ (8 * n).
Proof. rewrite N.pow_mul_r. reflexivity. Qed.
Lemma ranged_fixed n : ranged (ubits (8 * N.of_nat n)) (dec_fixed n).
Proof. intros b v r F H. unfold ubits. rewrite <- pow_256. eapply fixed_bound; eauto. Qed.
Lemma ranged_u8 : ranged (ubits 8) dec_u8.
Proof. intros b v r F H. destruct b; [discriminate|]. injection H as <- <-. inversion F; auto. Qed.
Lemma var_bound w b v r : (2 <= w)%nat -> Forall (fun x => x < 256) b -> dec_var w b = Some (v, r) -> v < 256 ^ N.of_nat w.
Proof.
  intros Hw F. unfold dec_var, dbind, dec_u8. destruct b as [|m b]; [discriminate|]. inversion F; subst.
  assert (M : forall k, (k <= w)%nat -> 256 ^ N.of_nat k <= 256 ^ N.of_nat w) by (intros; apply N.pow_le_mono_r; lia).
  assert (D : forall k, (k <= w)%nat -> dec_fixed k b = Some (v, r) -> v < 256 ^ N.of_nat w).
  { intros k Hk E. eapply N.lt_le_trans; [eapply fixed_bound; eauto|auto]. }
  destruct (N.ltb_spec m 251).
  { intros E. injection E as <- <-. eapply N.lt_le_trans; [|apply (M 2%nat); auto]. cbn. lia. }
  destruct (m =? 251); [intros E; apply (D 2%nat); auto|].
  destruct (m =? 252); cbn [andb].
  { destruct (Nat.leb_spec 4 w); [intros E; apply (D 4%nat); auto|].
    destruct (N.eqb_spec m 253), (N.eqb_spec m 254); cbn [andb]; try lia.
    - destruct (Nat.leb_spec 8 w); [lia|discriminate].
    - destruct (Nat.leb_spec 16 w); [lia|discriminate].
    - discriminate. }
  destruct (m =? 253); cbn [andb].
  { destruct (Nat.leb_spec 8 w); [intros E; apply (D 8%nat); auto|].
    destruct (N.eqb_spec m 254); cbn [andb]; try discriminate. destruct (Nat.leb_spec 16 w); [lia|discriminate]. }
  destruct (m =? 254); cbn [andb]; [|discriminate].
  destruct (Nat.leb_spec 16 w); [intros E; apply (D 16%nat); auto|discriminate].
Qed.
Lemma ranged_var w : (2 <= w)%nat -> ranged (ubits (8 * N.of_nat w)) (dec_var w).
Proof. intros Hw b v r F H. unfold ubits. rewrite <- pow_256. eapply var_bound; eauto. Qed.
Lemma ranged_u16 : ranged (ubits 16) dec_u16. Proof. apply (ranged_var 2). lia. Qed.
Lemma ranged_u32 : ranged (ubits 32) dec_u32. Proof. apply (ranged_var 4). lia. Qed.
Lemma ranged_u64 : ranged (ubits 64) dec_u64. Proof. apply (ranged_var 8). lia. Qed.
Lemma unzigzag_bound k n : 1 <= k -> n < 2 ^ k -> sbits (Z.of_N k) (unzigzag n).
Proof.
  intros Hk H. unfold sbits, unzigzag.
  assert (E : (2 * 2 ^ (Z.of_N k - 1) = Z.of_N (2 ^ k))%Z).
  { rewrite N2Z.inj_pow, <- Z.pow_succ_r by lia. f_equal. lia. }
  destruct (N.even n); lia.
Qed.
Lemma ranged_signed k w : ranged (ubits k) (dec_var w) -> 1 <= k -> ranged (sbits (Z.of_N k)) (dec_signed w).
Proof.
  intros R Hk b v r F. unfold dec_signed, dbind. destruct (dec_var w b) as [[n b']|] eqn:E; [|discriminate].
  intros H. injection H as <- <-. apply unzigzag_bound; auto. eapply R; eauto.
Qed.
Lemma ranged_i8 : ranged (sbits 8) dec_i8.
Proof.
  intros b v r F. unfold dec_i8, dbind, dec_u8, dret. destruct b as [|x b]; [discriminate|]. inversion F; subst.
  intros H. injection H as <- <-. unfold sbits. cbn. destruct (N.ltb_spec x 128); lia.
Qed.
Lemma ranged_char : ranged scalar dec_char.
Proof.
  intros b v r F. unfold dec_char. destruct b as [|b0 r0]; [discriminate|]. inversion F; subst.
  destruct (N.ltb_spec b0 0x80). { intros E. injection E as <- <-. left. lia. }
  destruct (N.ltb_spec b0 0xC0); [discriminate|].
  destruct (N.ltb_spec b0 0xE0).
  { destruct r0 as [|b1 r1]; [discriminate|]. destruct (cont b1 && _) eqn:C; [|discriminate].
    intros E. injection E as <- <-. left. unfold cont in C. rewrite !andb_true_iff, !N.leb_le, N.ltb_lt in C. lia. }
  destruct (N.ltb_spec b0 0xF0).
  { destruct r0 as [|b1 [|b2 r2]]; try discriminate. destruct (_ && _ && _ && _) eqn:C; [|discriminate].
    intros E. injection E as <- <-. apply is_char_scalar. rewrite !andb_true_iff in C. tauto. }
  destruct (N.ltb_spec b0 0xF8); [|discriminate].
  destruct r0 as [|b1 [|b2 [|b3 r3]]]; try discriminate. destruct (_ && _ && _ && _ && _) eqn:C; [|discriminate].
  intros E. injection E as <- <-. apply is_char_scalar. rewrite !andb_true_iff in C. tauto.
Qed.

(** ** Strictness *)
Lemma dec_u8_inv b v r : dec_u8 b = Some (v, r) -> b = v :: r.
Proof. destruct b as [|x b]; cbn; [discriminate|]. intros E. injection E as <- <-. reflexivity. Qed.
Lemma strict_bool : strict enc_bool dec_bool.
Proof.
  intros b v r F. unfold dec_bool. destruct (dec_u8 b) as [[x b']|] eqn:E; cbn; unfold dbind; rewrite E; [|discriminate].
  apply dec_u8_inv in E. subst b. destruct (N.eqb_spec x 0) as [->|]; [|destruct (N.eqb_spec x 1) as [->|]; [|discriminate]];
  intros X; injection X as <- <-; reflexivity.
Qed.
Lemma strict_option {A} (e : A -> bytes) d : strict e d -> strict (enc_option e) (dec_option d).
Proof.
  intros S0 b v r F. unfold dec_option, dbind. destruct (dec_u8 b) as [[x b']|] eqn:E; [|discriminate].
  apply dec_u8_inv in E. subst b. inversion F; subst. destruct (N.eqb_spec x 0) as [->|].
  - intros X; injection X as <- <-; reflexivity.
  - destruct (N.eqb_spec x 1) as [->|]; [|discriminate]. destruct (d b') as [[a b2]|] eqn:D; [|discriminate].
    intros X; injection X as <- <-. cbn. f_equal. apply S0; auto.
Qed.
Lemma strict_char : strict enc_char dec_char.
Proof.
  intros b v r F. unfold dec_char. destruct b as [|b0 r0]; [discriminate|]. inversion F; subst. unfold enc_char.
  destruct (N.ltb_spec b0 0x80). { intros E. injection E as <- <-. destruct (N.ltb_spec b0 128); [reflexivity|lia]. }
  destruct (N.ltb_spec b0 0xC0); [discriminate|].
  destruct (N.ltb_spec b0 0xE0).
  { destruct r0 as [|b1 r1]; [discriminate|]. destruct (cont b1 && _) eqn:C; [|discriminate].
    intros E. injection E as <- <-. unfold cont in C. rewrite !andb_true_iff, !N.leb_le, N.ltb_lt in C.
    set (c := (b0 - 192) * 64 + (b1 - 128)) in *.
    destruct (N.ltb_spec c 0x80); [lia|]. destruct (N.ltb_spec c 0x800); [|lia]. cbn. repeat f_equal; lia. }
  destruct (N.ltb_spec b0 0xF0).
  { destruct r0 as [|b1 [|b2 r2]]; try discriminate. destruct (_ && _ && _ && _) eqn:C; [|discriminate].
    intros E. injection E as <- <-. unfold cont in C. rewrite !andb_true_iff, !N.leb_le, !N.ltb_lt in C.
    set (c := (b0 - 224) * 4096 + (b1 - 128) * 64 + (b2 - 128)) in *.
    destruct (N.ltb_spec c 0x80); [lia|]. destruct (N.ltb_spec c 0x800); [lia|]. destruct (N.ltb_spec c 0x10000); [|lia].
    cbn. repeat f_equal; lia. }
  destruct (N.ltb_spec b0 0xF8); [|discriminate].
  destruct r0 as [|b1 [|b2 [|b3 r3]]]; try discriminate. destruct (_ && _ && _ && _ && _) eqn:C; [|discriminate].
  intros E. injection E as <- <-. unfold cont in C. rewrite !andb_true_iff, !N.leb_le, !N.ltb_lt in C.
  set (c := (b0 - 240) * 262144 + (b1 - 128) * 4096 + (b2 - 128) * 64 + (b3 - 128)) in *.
  destruct (N.ltb_spec c 0x80); [lia|]. destruct (N.ltb_spec c 0x800); [lia|]. destruct (N.ltb_spec c 0x10000); [lia|].
  cbn. repeat f_equal; lia.
Qed.
