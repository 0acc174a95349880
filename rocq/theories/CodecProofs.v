(** Proofs about the message and copper list codecs. *)
From Coq Require Import List Arith NArith ZArith Bool Lia Permutation.
From Verif Require Import Base BincodeModel BincodeSpec BincodeProofs CodecModel ValueModel CodecSpec.
Import ListNotations.
Open Scope N_scope.

(** ** Streaming decoders *)
Lemma streaming_ret {A} (a : A) : streaming (dret a).
Proof. intros b x r H. unfold dret in *. injection H as <- <-. exists []. auto. Qed.

Lemma streaming_fail {A} : streaming (@dfail A).
Proof. intros b x r H. discriminate. Qed.

Lemma streaming_bind {A B} (d : decoder A) (f : A -> decoder B) :
  streaming d -> (forall a, streaming (f a)) -> streaming (dbind d f).
Proof.
  intros Hd Hf b x r H. unfold dbind in *. destruct (d b) as [[a b']|] eqn:E; [|discriminate].
  destruct (Hd _ _ _ E) as (p & -> & Hp). destruct (Hf a _ _ _ H) as (q & -> & Hq).
  exists (p ++ q). split; [rewrite <- app_assoc; reflexivity|].
  intros s. rewrite <- app_assoc, Hp. apply Hq.
Qed.

Lemma streaming_u8 : streaming dec_u8.
Proof.
  intros [|x b] a r H; cbn in *; [discriminate|]. injection H as <- <-.
  exists [x]. auto.
Qed.

Lemma take_bytes_app_inv n b h t : take_bytes n b = Some (h, t) -> b = h ++ t /\ length h = n.
Proof.
  revert b h t; induction n as [|n IH]; intros b h t H; cbn in *.
  - injection H as <- <-. auto.
  - destruct b as [|x b]; [discriminate|].
    destruct (take_bytes n b) as [[h' t']|] eqn:E; [|discriminate].
    destruct (IH _ _ _ E) as [-> <-]. injection H as <- <-. auto.
Qed.

Lemma streaming_fixed n : streaming (dec_fixed n).
Proof.
  intros b a r H. unfold dec_fixed in *.
  destruct (take_bytes n b) as [[h t]|] eqn:E; [|discriminate].
  destruct (take_bytes_app_inv _ _ _ _ E) as [-> Hn]. injection H as <- <-.
  exists h. split; auto. intros s. rewrite take_bytes_app; auto.
Qed.

Ltac streams := repeat
  match goal with
  | |- forall _, streaming _ => intro
  | |- streaming (dbind _ _) => apply streaming_bind
  | |- streaming (dret _) => apply streaming_ret
  | |- streaming dfail => apply streaming_fail
  | |- streaming dec_u8 => apply streaming_u8
  | |- streaming (dec_fixed _) => apply streaming_fixed
  | |- streaming (if ?c then _ else _) => destruct c
  | _ => assumption
  end.

Lemma streaming_var w : streaming (dec_var w).
Proof. unfold dec_var. streams. Qed.
Lemma streaming_u16 : streaming dec_u16. Proof. apply streaming_var. Qed.
Lemma streaming_u32 : streaming dec_u32. Proof. apply streaming_var. Qed.
Lemma streaming_u64 : streaming dec_u64. Proof. apply streaming_var. Qed.
Lemma streaming_signed w : streaming (dec_signed w).
Proof. unfold dec_signed. apply streaming_bind; [apply streaming_var|]. streams. Qed.
Lemma streaming_i8 : streaming dec_i8.
Proof. unfold dec_i8. streams. Qed.
Lemma streaming_bool : streaming dec_bool.
Proof. unfold dec_bool. streams. Qed.
Lemma streaming_option {A} (d : decoder A) : streaming d -> streaming (dec_option d).
Proof. intros H. unfold dec_option. streams. Qed.
Lemma streaming_n {A} (d : decoder A) n : streaming d -> streaming (dec_n d n).
Proof.
  intros H. induction n as [|n IH]; cbn; [apply streaming_ret|].
  apply streaming_bind; [auto|]. intros a. apply streaming_bind; [auto|]. intros. apply streaming_ret.
Qed.
Lemma streaming_vec {A} (d : decoder A) : streaming d -> streaming (dec_vec d).
Proof.
  intros H. unfold dec_vec. apply streaming_bind; [apply streaming_u64|].
  intros n. apply streaming_n; auto.
Qed.
Lemma streaming_pair {A B} (da : decoder A) (db : decoder B) :
  streaming da -> streaming db -> streaming (dec_pair da db).
Proof. intros Ha Hb. unfold dec_pair. streams. Qed.
Lemma streaming_string : streaming dec_string.
Proof.
  unfold dec_string. apply streaming_bind; [apply streaming_vec, streaming_u8|].
  intros b. destruct (utf8_chars _ _); [apply streaming_ret|apply streaming_fail].
Qed.
Lemma streaming_char : streaming dec_char.
Proof.
  intros [|b0 b] a r H; cbn [dec_char] in H; [discriminate|].
  destruct (b0 <? 0x80) eqn:E0; [injection H as <- <-; exists [b0]; split; auto; intros s;
    cbn [app dec_char]; rewrite E0; reflexivity|].
  destruct (b0 <? 0xC0) eqn:E1; [discriminate|].
  destruct (b0 <? 0xE0) eqn:E2.
  { destruct b as [|b1 b]; [discriminate|].
    destruct (_ && _) eqn:E3 in H; [|discriminate]. injection H as <- <-. exists [b0; b1].
    split; auto. intros s. cbn [app dec_char]. rewrite E0, E1, E2, E3. reflexivity. }
  destruct (b0 <? 0xF0) eqn:E3.
  { destruct b as [|b1 [|b2 b]]; try discriminate.
    destruct (_ && _) eqn:E4 in H; [|discriminate]. injection H as <- <-. exists [b0; b1; b2].
    split; auto. intros s. cbn [app dec_char]. rewrite E0, E1, E2, E3, E4. reflexivity. }
  destruct (b0 <? 0xF8) eqn:E4; [|discriminate].
  destruct b as [|b1 [|b2 [|b3 b]]]; try discriminate.
  destruct (_ && _) eqn:E5 in H; [|discriminate]. injection H as <- <-. exists [b0; b1; b2; b3].
  split; auto. intros s. cbn [app dec_char]. rewrite E0, E1, E2, E3, E4, E5. reflexivity.
Qed.

Lemma streaming_time : streaming dec_time. Proof. apply streaming_u64. Qed.
Lemma streaming_oct : streaming dec_oct.
Proof. unfold dec_oct. apply streaming_bind; [apply streaming_time|]. streams. Qed.
Lemma streaming_range : streaming dec_range.
Proof.
  unfold dec_range. apply streaming_bind; [apply streaming_time|]. intros.
  apply streaming_bind; [apply streaming_time|]. streams.
Qed.
Lemma streaming_partial : streaming dec_partial.
Proof.
  unfold dec_partial. apply streaming_bind; [apply streaming_oct|]. intros.
  apply streaming_bind; [apply streaming_oct|]. streams.
Qed.
Lemma streaming_tov : streaming dec_tov.
Proof.
  unfold dec_tov. apply streaming_bind; [apply streaming_u32|]. intros k.
  destruct k as [|[[|[]|]|[|[]|]|]]; streams; first [apply streaming_time|apply streaming_range].
Qed.
Lemma streaming_metadata : streaming dec_metadata.
Proof.
  unfold dec_metadata. apply streaming_bind; [apply streaming_partial|]. intros.
  apply streaming_bind; [apply streaming_tov|]. intros.
  apply streaming_bind; [apply streaming_string|]. streams.
Qed.
Lemma streaming_msg {T} (d : decoder T) : streaming d -> streaming (dec_msg d).
Proof.
  intros H. unfold dec_msg. apply streaming_bind; [apply streaming_option; auto|]. intros.
  apply streaming_bind; [apply streaming_metadata|]. streams.
Qed.
Lemma streaming_tuple W ps : payloads_ok W ps -> streaming (dec_tuple ps).
Proof.
  induction ps as [|p ps IH]; cbn; intros H; [apply streaming_ret|]. inversion H; subst.
  apply streaming_bind; [apply streaming_msg; tauto|]. intros.
  apply streaming_bind; [apply IH; auto|]. streams.
Qed.
Lemma streaming_state : streaming dec_state.
Proof.
  unfold dec_state. apply streaming_bind; [apply streaming_u32|]. intros k.
  destruct k as [|[[|[]|]|[[]|[]|]|]]; streams.
Qed.
Lemma streaming_cl W ps : payloads_ok W ps -> streaming (@dec_cl ps).
Proof.
  intros H. unfold dec_cl. apply streaming_bind; [apply streaming_u32|]. intros.
  apply streaming_bind; [apply streaming_state|]. intros.
  apply streaming_bind; [eapply streaming_tuple; eauto|]. streams.
Qed.

(** ** Losslessness *)
Lemma time_lossless : lossless time_ok enc_time dec_time.
Proof. exact u64_lossless. Qed.

Lemma oct_lossless : lossless oct_ok enc_oct dec_oct.
Proof.
  intros [t] rest H. unfold enc_oct, dec_oct, dbind. cbn [oct_raw].
  rewrite time_lossless; auto.
Qed.

Lemma range_lossless : lossless range_ok enc_range dec_range.
Proof.
  intros [a b] rest [Ha Hb]. unfold enc_range, dec_range, dbind. cbn [tr_start tr_end] in *.
  rewrite <- app_assoc, time_lossless, time_lossless; auto.
Qed.

Lemma partial_lossless : lossless partial_ok enc_partial dec_partial.
Proof.
  intros [a b] rest [Ha Hb]. unfold enc_partial, dec_partial, dbind. cbn [pr_start pr_end] in *.
  rewrite <- app_assoc, oct_lossless, oct_lossless; auto.
Qed.

Lemma u32_small k rest : k < 251 -> dec_u32 (enc_u32 k ++ rest) = Some (k, rest).
Proof. intros. apply u32_lossless. unfold ubits. lia. Qed.

Lemma tov_lossless : lossless tov_ok enc_tov dec_tov.
Proof.
  intros [|t|r] rest H; unfold enc_tov, dec_tov, dbind.
  - rewrite u32_small by lia. reflexivity.
  - rewrite <- app_assoc, u32_small by lia. cbv beta iota. rewrite time_lossless; auto.
  - rewrite <- app_assoc, u32_small by lia. cbv beta iota. rewrite range_lossless; auto.
Qed.

Lemma text_wf s : text s <-> wf_string s.
Proof. reflexivity. Qed.

Lemma metadata_lossless : lossless metadata_ok enc_metadata dec_metadata.
Proof.
  intros [p t s] rest (Hp & Ht & Hs). unfold enc_metadata, dec_metadata, dbind.
  cbn [md_process md_tov md_status] in *.
  rewrite <- !app_assoc, partial_lossless by auto. rewrite tov_lossless by auto.
  rewrite string_lossless by (apply text_wf; auto). reflexivity.
Qed.

Lemma msg_lossless {T} (W : T -> Prop) e d : lossless W e d ->
  lossless (msg_ok W) (enc_msg e) (dec_msg d).
Proof.
  intros Hl [p m] rest [Hp Hm]. unfold enc_msg, dec_msg, dbind. cbn [msg_payload msg_meta] in *.
  rewrite <- app_assoc.
  rewrite (option_lossless W e d Hl) by (destruct p; [apply Hp; reflexivity|exact Logic.I]).
  rewrite metadata_lossless by auto. reflexivity.
Qed.

Lemma tuple_lossless W ps : payloads_ok W ps ->
  lossless (tuple_ok W ps) (enc_tuple ps) (dec_tuple ps).
Proof.
  induction ps as [|p ps IH]; intros H t rest Ht; cbn in *.
  - destruct t. reflexivity.
  - inversion H as [|? ? [Hp _] Hps]; subst. destruct t as [m t]. cbn [fst snd] in *.
    destruct Ht as [Hm Ht]. unfold dbind. rewrite <- app_assoc.
    rewrite (msg_lossless (W p)) by auto. rewrite IH by auto. reflexivity.
Qed.

Lemma state_lossless : lossless (fun _ => True) enc_state dec_state.
Proof. intros [] rest _; reflexivity. Qed.

Lemma cl_lossless W ps : payloads_ok W ps ->
  lossless (@copperlist_ok W ps) enc_cl dec_cl.
Proof.
  intros H [i s m] rest [Hi Hm]. unfold enc_cl, dec_cl, dbind. cbn [cl_id cl_st cl_msgs] in *.
  rewrite <- !app_assoc, u32_lossless by auto. rewrite state_lossless by exact Logic.I.
  rewrite (tuple_lossless W) by auto. reflexivity.
Qed.

(** ** Sequences of encoded values *)
Lemma prefix_rejected {A} (wf : A -> Prop) enc dec : lossless wf enc dec -> streaming dec ->
  forall v p, wf v -> proper_prefix p (enc v) -> dec p = None.
Proof.
  intros Hl Hs v p Hv (t & Ht & E). destruct (dec p) as [[a r]|] eqn:D; auto.
  destruct (Hs _ _ _ D) as (q & -> & Hq). pose proof (Hl v [] Hv) as D2.
  rewrite app_nil_r, E, <- app_assoc, Hq in D2. injection D2 as _ D2.
  destruct r; destruct t; cbn in *; congruence.
Qed.

Lemma dump_n_all {A} (wf : A -> Prop) enc dec l b fuel :
  lossless wf enc dec -> Forall wf l -> (length l < fuel)%nat -> dec b = None ->
  dump_n dec fuel (flat_map enc l ++ b) = l.
Proof.
  intros Hl. revert fuel; induction l as [|a l IH]; intros fuel H Hf Hb; cbn in *.
  - destruct fuel; [lia|]. cbn. rewrite Hb. reflexivity.
  - destruct fuel; [lia|]. cbn. inversion H; subst. rewrite <- app_assoc, Hl by auto.
    rewrite IH; auto. lia.
Qed.

Lemma flat_map_length_ge {A} (enc : A -> list N) l : (forall a, enc a <> []) ->
  (length l <= length (flat_map enc l))%nat.
Proof.
  intros H. induction l as [|a l IH]; cbn; auto. rewrite app_length.
  pose proof (H a). destruct (enc a); [congruence|cbn; lia].
Qed.

Lemma enc_cl_nonempty {ps} (c : copperlist ps) : enc_cl c <> [].
Proof.
  unfold enc_cl. pose proof (enc_var_nonempty (cl_id c)).
  unfold enc_u32. destruct (enc_var (cl_id c)); [congruence|discriminate].
Qed.

Lemma dump_sequence W ps : payloads_ok W ps -> forall cls b,
  Forall (@copperlist_ok W ps) cls ->
  @dec_cl ps b = None -> copperlists_dump (flat_map enc_cl cls ++ b) = cls.
Proof.
  intros Hp cls b H Hb. unfold copperlists_dump.
  apply (dump_n_all (@copperlist_ok W ps)); auto.
  - apply cl_lossless; auto.
  - rewrite app_length. pose proof (flat_map_length_ge (@enc_cl ps) cls enc_cl_nonempty). lia.
Qed.

Lemma dec_cl_nil {ps} : @dec_cl ps [] = None.
Proof. reflexivity. Qed.

(** ** Arrays *)
Lemma av_push_all_ok {T} n (a l : list T) : (length a + length l <= n)%nat ->
  av_push_all n a l = Ret (a ++ l).
Proof.
  revert a; induction l as [|x l IH]; intros a H; cbn in *.
  - rewrite app_nil_r. reflexivity.
  - unfold av_push, obind. destruct (Nat.ltb_spec (length a) n); [|lia].
    rewrite IH by (rewrite app_length; cbn; lia). rewrite <- app_assoc. reflexivity.
Qed.

Lemma cuarray_fill_ok {T} n (old items : list T) :
  cuarray_fill n old items = Ret (firstn n items).
Proof.
  unfold cuarray_fill. rewrite av_push_all_ok; [reflexivity|].
  cbn. rewrite firstn_length. lia.
Qed.

Lemma dec_pushes_rt {T} (W : T -> Prop) e d n : lossless W e d -> forall l a rest,
  Forall W l -> (length a + length l <= n)%nat ->
  dec_pushes d n (length l) a (enc_all e l ++ rest) = DOk (a ++ l) rest.
Proof.
  intros Hl. induction l as [|x l IH]; intros a rest H Hn; cbn in *.
  - rewrite app_nil_r. reflexivity.
  - inversion H; subst. rewrite <- app_assoc, Hl by auto. unfold av_push.
    destruct (Nat.ltb_spec (length a) n); [|lia].
    unfold enc_all in IH. rewrite IH; auto.
    + rewrite <- app_assoc. reflexivity.
    + rewrite app_length. cbn. lia.
Qed.

Lemma cuarray_rt {T} (W : T -> Prop) e d n : lossless W e d -> forall a rest,
  Forall W a -> (length a <= n)%nat -> N.of_nat (length a) < 2 ^ 32 ->
  dec_cuarray d n (enc_cuarray e a ++ rest) = DOk a rest.
Proof.
  intros Hl a rest H Hn Hb. unfold dec_cuarray, enc_cuarray. rewrite N.mod_small by auto.
  rewrite <- app_assoc, u32_lossless by auto.
  destruct (N.ltb_spec (N.of_nat n) (N.of_nat (length a))); [lia|].
  rewrite Nat2N.id. apply (dec_pushes_rt W); auto.
Qed.

Lemma dec_pushes_safe {T} (d : decoder T) n k a b : (length a + k <= n)%nat ->
  match dec_pushes d n k a b with
  | DOk a' _ => length a' = (length a + k)%nat | DErr => True | DPanic => False end.
Proof.
  revert a b; induction k as [|k IH]; intros a b H; cbn; [lia|].
  destruct (d b) as [[x b']|]; auto. unfold av_push.
  destruct (Nat.ltb_spec (length a) n); [|lia].
  specialize (IH (a ++ [x]) b'). rewrite app_length in IH. cbn in IH.
  destruct dec_pushes; [rewrite IH; lia|auto|apply IH; lia].
Qed.

Lemma cuarray_bounded {T} (d : decoder T) n b :
  match dec_cuarray d n b with
  | DOk a' _ => (length a' <= n)%nat | DErr => True | DPanic => False end.
Proof.
  unfold dec_cuarray. destruct (dec_u32 b) as [[len b']|]; auto.
  destruct (N.ltb_spec (N.of_nat n) len); auto.
  pose proof (dec_pushes_safe d n (N.to_nat len) [] b'). cbn in H0.
  destruct dec_pushes; [rewrite H0; lia|auto|apply H0; lia].
Qed.

Lemma cuarray_reject {T} (d : decoder T) n len b : N.of_nat n < len -> len < 2 ^ 32 ->
  dec_cuarray d n (enc_u32 len ++ b) = DErr.
Proof.
  intros H Hl. unfold dec_cuarray. rewrite u32_lossless by auto.
  destruct (N.ltb_spec (N.of_nat n) len); [reflexivity|lia].
Qed.

(** ** Ranges of slices *)
Lemma fold_min_spec l t : let m := fold_left N.min l t in
  In m (t :: l) /\ forall x, In x (t :: l) -> m <= x.
Proof.
  revert t; induction l as [|x l IH]; intros t; cbn.
  - split; auto. intros y [->|[]]. lia.
  - destruct (IH (N.min t x)) as [I1 I2]. split.
    + destruct I1 as [I1|I1]; auto. rewrite <- I1.
      destruct (N.min_spec t x) as [[_ ->]|[_ ->]]; auto.
    + intros y [->|[->|Hy]].
      * pose proof (I2 (N.min y x) (or_introl eq_refl)). lia.
      * pose proof (I2 (N.min t y) (or_introl eq_refl)). lia.
      * apply I2. right; auto.
Qed.

Lemma fold_max_spec l t : let m := fold_left N.max l t in
  In m (t :: l) /\ forall x, In x (t :: l) -> x <= m.
Proof.
  revert t; induction l as [|x l IH]; intros t; cbn.
  - split; auto. intros y [->|[]]. lia.
  - destruct (IH (N.max t x)) as [I1 I2]. split.
    + destruct I1 as [I1|I1]; auto. rewrite <- I1.
      destruct (N.max_spec t x) as [[_ ->]|[_ ->]]; auto.
    + intros y [->|[->|Hy]].
      * pose proof (I2 (N.max y x) (or_introl eq_refl)). lia.
      * pose proof (I2 (N.max t y) (or_introl eq_refl)). lia.
      * apply I2. right; auto.
Qed.

Lemma range_of_slice_spec l :
  match range_of_slice l with
  | Panic => l = []
  | Ret r => In (tr_start r) l /\ In (tr_end r) l /\ Forall (fun t => tr_start r <= t <= tr_end r) l
  end.
Proof.
  destruct l as [|t l]; cbn; auto. pose proof (fold_min_spec l t) as [A B]. pose proof (fold_max_spec l t) as [C D].
  cbn in *. do 2 (split; [auto|]). apply Forall_forall. intros x Hx.
  specialize (B x Hx). specialize (D x Hx). lia.
Qed.

Lemma range_of_slice_perm l l' : Permutation l l' -> range_of_slice l = range_of_slice l'.
Proof.
  intros P. pose proof (range_of_slice_spec l) as A. pose proof (range_of_slice_spec l') as B.
  destruct (range_of_slice l) as [[a b]|] eqn:E.
  - destruct (range_of_slice l') as [[a' b']|] eqn:E'.
    + cbn in *. destruct A as (A1 & A2 & A3), B as (B1 & B2 & B3). rewrite Forall_forall in A3, B3.
      pose proof (A3 a' (Permutation_in a' (Permutation_sym P) B1)).
      pose proof (A3 b' (Permutation_in b' (Permutation_sym P) B2)).
      pose proof (B3 a (Permutation_in a P A1)). pose proof (B3 b (Permutation_in b P A2)).
      f_equal. f_equal; lia.
    + subst l'. apply Permutation_sym, Permutation_nil in P. subst l. discriminate.
  - subst l. apply Permutation_nil in P. subst l'. reflexivity.
Qed.
