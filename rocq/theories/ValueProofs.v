(** Proofs about structured values: induction, order, codec. *)
From Coq Require Import List Arith NArith ZArith Bool Lia Sorted.
From Verif Require Import Base BincodeModel BincodeSpec BincodeProofs CodecModel ValueModel
  CodecSpec CodecProofs.
Import ListNotations.
Open Scope N_scope.

(** ** Induction over nested values *)
Section Ind.
  Variable P : value -> Prop.
  Hypothesis Hleaf : forall v, (forall o, v <> VOption o) -> (forall w, v <> VNewtype w) ->
    (forall l, v <> VSeq l) -> (forall m, v <> VMap m) -> P v.
  Hypothesis Hnone : P (VOption None).
  Hypothesis Hsome : forall v, P v -> P (VOption (Some v)).
  Hypothesis Hnew : forall v, P v -> P (VNewtype v).
  Hypothesis Hseq : forall l, Forall P l -> P (VSeq l).
  Hypothesis Hmap : forall m, Forall (fun e => P (fst e) /\ P (snd e)) m -> P (VMap m).

  Fixpoint value_ind2 (v : value) : P v.
  Proof.
    destruct v; try (apply Hleaf; intros; discriminate).
    - destruct o as [v|]; [apply Hsome, value_ind2|apply Hnone].
    - apply Hnew, value_ind2.
    - apply Hseq. induction l; constructor; [apply value_ind2|auto].
    - apply Hmap. induction m as [|[k x] m IH]; constructor; [split; apply value_ind2|auto].
  Defined.
End Ind.

(** ** Unfolding the nested recursions *)
Definition cmp_pair (e f : value * value) : comparison :=
  match cmp_value (fst e) (fst f) with Eq => cmp_value (snd e) (snd f) | o => o end.

Lemma cmp_seq a b : cmp_value (VSeq a) (VSeq b) = cmp_list cmp_value a b.
Proof.
  cbn [cmp_value]. revert b. induction a as [|x a IH]; intros [|y b]; cbn; auto.
  destruct (cmp_value x y); auto.
Qed.

Lemma cmp_map a b : cmp_value (VMap a) (VMap b) = cmp_list cmp_pair a b.
Proof.
  cbn [cmp_value]. revert b. induction a as [|[k x] a IH]; intros [|[k' y] b]; cbn; auto.
  unfold cmp_pair; cbn. destruct (cmp_value k k'); auto. destruct (cmp_value x y); auto.
Qed.

Lemma cmp_diff v w : discriminant v <> discriminant w ->
  cmp_value v w = N.compare (discriminant v) (discriminant w).
Proof. destruct v, w; cbn; intros H; try reflexivity; congruence. Qed.

(** ** Lexicographic orders *)
Lemma cmp_list_opp {A} (c : A -> A -> comparison) l l' :
  Forall (fun x => forall y, c y x = CompOpp (c x y)) l ->
  cmp_list c l' l = CompOpp (cmp_list c l l').
Proof.
  intros H; revert l'; induction H as [|x l Hx Hl IH]; intros [|y l']; cbn; auto.
  rewrite Hx. destruct (c x y); cbn; auto.
Qed.

Lemma cmp_list_eq {A} (c : A -> A -> comparison) l l' l'' :
  Forall (fun x => forall y z, c x y = Eq -> c x z = c y z) l ->
  cmp_list c l l' = Eq -> cmp_list c l l'' = cmp_list c l' l''.
Proof.
  intros H; revert l' l''; induction H as [|x l Hx Hl IH]; intros [|y l'] l'' E; cbn in *;
    try discriminate; auto.
  destruct (c x y) eqn:Exy; try discriminate.
  destruct l'' as [|z l'']; auto. rewrite (Hx _ z Exy). destruct (c y z); auto.
Qed.

Lemma cmp_list_trans {A} (c : A -> A -> comparison) l l' l'' :
  Forall (fun x => forall y z, c x y = Lt -> c y z = Lt -> c x z = Lt) l ->
  Forall (fun x => forall y z, c x y = Eq -> c x z = c y z) l ->
  (forall y z, Forall (fun x => c x y = Lt -> c y z = Eq -> c x z = Lt) l) ->
  cmp_list c l l' = Lt -> cmp_list c l' l'' = Lt -> cmp_list c l l'' = Lt.
Proof.
  intros H H1 H2; revert l' l'' H1 H2.
  induction H as [|x l Hx Hl IH]; intros [|y l'] [|z l''] H1 H2 E E'; cbn in *;
    try discriminate; auto.
  inversion H1 as [|? ? Hx1 Hl1]; subst.
  destruct (c x y) eqn:Exy; try discriminate.
  - rewrite (Hx1 _ z Exy). destruct (c y z) eqn:Eyz; try discriminate; auto.
    apply (IH l' l''); auto. intros y' z'. specialize (H2 y' z'). inversion H2; auto.
  - destruct (c y z) eqn:Eyz; try discriminate.
    + specialize (H2 y z). inversion H2 as [|? ? Hq Hq']; subst. rewrite Hq; auto.
    + rewrite (Hx y z); auto.
Qed.

(** ** The order on values *)
Lemma cmp_opp : forall v w, cmp_value w v = CompOpp (cmp_value v w).
Proof.
  induction v as [v H1 H2 H3 H4| |v IH|v IH|l IH|m IH] using value_ind2; intros w.
  - destruct (N.eq_dec (discriminant v) (discriminant w)) as [E|E].
    + destruct v; try (exfalso; eapply H1; reflexivity); try (exfalso; eapply H2; reflexivity);
        try (exfalso; eapply H3; reflexivity); try (exfalso; eapply H4; reflexivity);
        destruct w; try discriminate E; cbn;
        try apply N.compare_antisym; try apply Z.compare_antisym; auto;
        try (apply cmp_list_opp; apply Forall_forall; intros; apply N.compare_antisym).
      destruct b, b0; reflexivity.
    + rewrite !cmp_diff by congruence. apply N.compare_antisym.
  - destruct w; try reflexivity. destruct o; reflexivity.
  - destruct w; try reflexivity. destruct o; cbn; auto.
  - destruct w; try reflexivity. cbn; auto.
  - destruct w; try reflexivity. rewrite !cmp_seq. apply cmp_list_opp; auto.
  - destruct w; try reflexivity. rewrite !cmp_map. apply cmp_list_opp.
    eapply Forall_impl; [|exact IH]. intros [k x] [Hk Hx] [k' y]; cbn in *. unfold cmp_pair; cbn.
    rewrite Hk. destruct (cmp_value k k'); cbn; auto.
Qed.

Lemma cmp_eq_disc v w : cmp_value v w = Eq -> discriminant v = discriminant w.
Proof.
  intros H. destruct (N.eq_dec (discriminant v) (discriminant w)) as [E|E]; auto.
  rewrite cmp_diff in H by auto. apply N.compare_eq in H. auto.
Qed.

Lemma cmp_Eq : forall v w z, cmp_value v w = Eq -> cmp_value v z = cmp_value w z.
Proof.
  induction v as [v H1 H2 H3 H4| |v IH|v IH|l IH|m IH] using value_ind2; intros w z E;
    pose proof (cmp_eq_disc _ _ E) as D.
  - destruct (N.eq_dec (discriminant v) (discriminant z)) as [E2|E2].
    2: { rewrite !cmp_diff by congruence. congruence. }
    destruct v; try (exfalso; eapply H1; reflexivity); try (exfalso; eapply H2; reflexivity);
      try (exfalso; eapply H3; reflexivity); try (exfalso; eapply H4; reflexivity);
      destruct w; try discriminate D; destruct z; try discriminate E2; cbn in *;
      try (apply N.compare_eq in E; congruence); try (apply Z.compare_eq in E; congruence);
      try reflexivity;
      try (apply cmp_list_eq; [|exact E]; apply Forall_forall; intros x _ y y' Hy;
           apply N.compare_eq in Hy; congruence).
    destruct b, b0; cbn in *; congruence.
  - destruct w; try discriminate. destruct o; try discriminate. auto.
  - destruct w; try discriminate. destruct o; try discriminate. cbn in E.
    destruct z; try reflexivity. destruct o; cbn; auto.
  - destruct w; try discriminate. cbn in E. destruct z; try reflexivity. cbn; auto.
  - destruct w; try discriminate. rewrite cmp_seq in E. destruct z; try reflexivity.
    rewrite !cmp_seq. apply cmp_list_eq; auto.
  - destruct w; try discriminate. rewrite cmp_map in E. destruct z; try reflexivity.
    rewrite !cmp_map. apply cmp_list_eq; auto.
    eapply Forall_impl; [|exact IH]. intros [k x] [Hk Hx] [k' y] [k'' y'] H; cbn in *.
    unfold cmp_pair in *; cbn in *. destruct (cmp_value k k') eqn:Ek; try discriminate.
    rewrite (Hk _ k'' Ek). destruct (cmp_value k' k''); auto.
Qed.

Lemma cmp_Eq_r v w z : cmp_value w z = Eq -> cmp_value v w = cmp_value v z.
Proof.
  intros H. rewrite (cmp_opp w v), (cmp_opp z v). f_equal. apply cmp_Eq; auto.
Qed.

Lemma cmp_Lt : forall v w z, cmp_value v w = Lt -> cmp_value w z = Lt -> cmp_value v z = Lt.
Proof.
  assert (Hd : forall v w, cmp_value v w = Lt -> discriminant v <= discriminant w).
  { intros v w H. destruct (N.eq_dec (discriminant v) (discriminant w)) as [E|E]; [lia|].
    rewrite cmp_diff in H by auto. change (discriminant v < discriminant w) in H. lia. }
  induction v as [v H1 H2 H3 H4| |v IH|v IH|l IH|m IH] using value_ind2; intros w z E E';
    pose proof (Hd _ _ E) as D; pose proof (Hd _ _ E') as D';
    (match goal with |- cmp_value ?v ?z = Lt =>
      destruct (N.eq_dec (discriminant v) (discriminant z)) as [Q|Q];
      [assert (Q' : discriminant v = discriminant w) by lia; clear D D'
      |rewrite cmp_diff by auto; apply N.compare_lt_iff; lia] end).
  - destruct v; try (exfalso; eapply H1; reflexivity); try (exfalso; eapply H2; reflexivity);
      try (exfalso; eapply H3; reflexivity); try (exfalso; eapply H4; reflexivity);
      destruct w; try discriminate Q'; destruct z; try discriminate Q; cbn in *;
      try (rewrite N.compare_lt_iff in *; lia); try (rewrite Z.compare_lt_iff in *; lia);
      try discriminate;
      try (eapply cmp_list_trans; [| | |exact E|exact E'];
           [apply Forall_forall; intros x _ y y' Hy Hy'; rewrite N.compare_lt_iff in *; lia
           |apply Forall_forall; intros x _ y y' Hy; apply N.compare_eq in Hy; congruence
           |intros y y'; apply Forall_forall; intros x _ Hy Hy'; apply N.compare_eq in Hy'; congruence]).
    destruct b, b0; cbn in *; try discriminate; destruct b1; cbn in *; congruence.
  - destruct w; try discriminate Q'. destruct z; try discriminate Q.
    destruct o, o0; cbn in *; try discriminate; auto.
  - destruct w; try discriminate Q'. destruct z; try discriminate Q.
    destruct o, o0; cbn in *; try discriminate; eauto.
  - destruct w; try discriminate Q'. destruct z; try discriminate Q. cbn in *; eauto.
  - destruct w; try discriminate Q'. destruct z; try discriminate Q. rewrite !cmp_seq in *.
    eapply cmp_list_trans; [exact IH| | |exact E|exact E'].
    + apply Forall_forall. intros; apply cmp_Eq; auto.
    + intros; apply Forall_forall. intros. erewrite <- cmp_Eq_r; eauto.
  - destruct w; try discriminate Q'. destruct z; try discriminate Q. rewrite !cmp_map in *.
    eapply cmp_list_trans; [| | |exact E|exact E'].
    + eapply Forall_impl; [|exact IH]. clear. intros [k x] [Hk Hx] [k' y] [k'' y']; unfold cmp_pair; cbn in *.
      destruct (cmp_value k k') eqn:Ek; try discriminate.
      * rewrite (cmp_Eq _ _ k'' Ek). destruct (cmp_value k' k''); try discriminate; eauto.
      * intros _. destruct (cmp_value k' k'') eqn:Ek'; try discriminate.
        -- rewrite <- (cmp_Eq_r k _ _ Ek'), Ek. auto.
        -- rewrite (Hk _ _ Ek Ek'). auto.
    + apply Forall_forall. clear. intros [k x] _ [k' y] [k'' y']; unfold cmp_pair; cbn.
      destruct (cmp_value k k') eqn:Ek; try discriminate. intros E.
      rewrite (cmp_Eq _ _ k'' Ek). destruct (cmp_value k' k''); auto. apply cmp_Eq; auto.
    + intros [k' y] [k'' y']. apply Forall_forall. clear. intros [k x] _; unfold cmp_pair; cbn.
      destruct (cmp_value k' k'') eqn:Ek; try discriminate.
      rewrite (cmp_Eq_r k _ _ Ek). destruct (cmp_value k k''); try discriminate; auto.
      intros ? ?. erewrite <- cmp_Eq_r; eauto.
Qed.

Lemma cmp_total : total_order cmp_value.
Proof. split; [intros; apply cmp_opp|exact cmp_Lt|exact cmp_Eq]. Qed.

(** ** Maps *)
Lemma map_insert_hd k v m k' : cmp_value k' k = Lt ->
  HdRel (fun a b => cmp_value (fst a) (fst b) = Lt) (k', v) m ->
  forall v', HdRel (fun a b => cmp_value (fst a) (fst b) = Lt) (k', v') (map_insert k v m).
Proof.
  intros H Hm v'. destruct m as [|[k2 v2] m]; cbn; [constructor; auto|].
  inversion Hm; subst. destruct (cmp_value k k2); constructor; auto.
Qed.

Lemma map_insert_sorted k v m : ascending m -> ascending (map_insert k v m).
Proof.
  unfold ascending. induction m as [|[k' v'] m IH]; intros H; cbn; [repeat constructor|].
  inversion H; subst. destruct (cmp_value k k') eqn:E.
  - constructor; auto. inversion H3; constructor; auto.
  - repeat constructor; auto.
  - constructor; auto. assert (Hlt : cmp_value k' k = Lt) by (rewrite cmp_opp, E; reflexivity).
    destruct m as [|[k2 v2] m]; cbn; [constructor; auto|].
    inversion H3; subst. destruct (cmp_value k k2); constructor; auto.
Qed.

Lemma map_insert_last k v m : ascending (m ++ [(k, v)]) -> map_insert k v m = m ++ [(k, v)].
Proof.
  unfold ascending. induction m as [|[k' v'] m IH]; intros H; cbn in *; auto.
  assert (E : cmp_value k' k = Lt).
  { clear IH. apply Sorted_StronglySorted in H.
    - apply StronglySorted_inv in H. destruct H as [_ H]. rewrite Forall_forall in H.
      apply (H (k, v)). apply in_or_app. right; left; reflexivity.
    - intros a b c. apply cmp_Lt. }
  rewrite cmp_opp, E. cbn. rewrite IH; auto. inversion H; auto.
Qed.

(** ** Round trip *)
Lemma enc_value_seq l : enc_value (VSeq l) = enc_u8 16 ++ enc_u64 (N.of_nat (length l)) ++ flat_map enc_value l.
Proof. reflexivity. Qed.

Definition enc_entry_kv (e : value * value) : bytes := enc_value (fst e) ++ enc_value (snd e).
Lemma enc_value_map m : enc_value (VMap m) =
  enc_u8 17 ++ enc_u64 (N.of_nat (length m)) ++ flat_map enc_entry_kv m.
Proof.
  cbn [enc_value discriminant]. do 2 f_equal. induction m as [|[k x] m IH]; cbn; auto.
  unfold enc_entry_kv at 1; cbn. rewrite <- app_assoc. do 2 f_equal; auto.
Qed.

Fixpoint depth (v : value) : nat :=
  match v with
  | VOption (Some v) => S (depth v)
  | VNewtype v => S (depth v)
  | VSeq l => S (fold_right (fun v d => Nat.max (depth v) d) O l)
  | VMap m => S (fold_right (fun e d => Nat.max (Nat.max (depth (fst e)) (depth (snd e))) d) O m)
  | _ => 1%nat
  end.

Lemma depth_seq l v : In v l -> (depth v < depth (VSeq l))%nat.
Proof.
  cbn [depth]. induction l as [|x l IH]; intros []; cbn; [subst; lia|]. specialize (IH H). lia.
Qed.
Lemma depth_map m e : In e m ->
  (depth (fst e) < depth (VMap m) /\ depth (snd e) < depth (VMap m))%nat.
Proof.
  cbn [depth]. induction m as [|x l IH]; intros []; cbn; [subst; lia|]. specialize (IH H). lia.
Qed.

Lemma dec_n_list (d : decoder value) l rest :
  Forall (fun v => forall r, d (enc_value v ++ r) = Some (v, r)) l ->
  dec_n d (length l) (flat_map enc_value l ++ rest) = Some (l, rest).
Proof.
  intros H; induction H as [|v l Hv Hl IH]; cbn; auto. unfold dbind.
  rewrite <- app_assoc, Hv, IH. reflexivity.
Qed.

Lemma dec_entries_list (d : decoder value) m acc rest :
  Forall (fun e => forall r, d (enc_value (fst e) ++ r) = Some (fst e, r)) m ->
  Forall (fun e => forall r, d (enc_value (snd e) ++ r) = Some (snd e, r)) m ->
  ascending (acc ++ m) ->
  dec_entries d (length m) acc (flat_map enc_entry_kv m ++ rest) = Some (acc ++ m, rest).
Proof.
  revert acc; induction m as [|[k x] m IH]; intros acc H1 H2 Ha; cbn.
  - rewrite app_nil_r. reflexivity.
  - inversion H1; inversion H2; subst. unfold dbind, enc_entry_kv at 1. cbn [fst snd] in *.
    rewrite <- !app_assoc, H3, H7, map_insert_last.
    + rewrite IH; auto; rewrite <- app_assoc; cbn; auto.
    + unfold ascending in *. change ((k, x) :: m) with ([(k, x)] ++ m) in Ha.
      rewrite app_assoc in Ha. clear -Ha.
      induction (acc ++ [(k, x)]) as [|e l IH]; [constructor|].
      inversion Ha; subst. constructor; auto. destruct l; [constructor|].
      inversion H2; subst. constructor; auto.
Qed.

Ltac tag := cbn [app enc_u8 dec_val dbind dec_u8].

Lemma dec_val_rt : forall v, wf_value v -> forall fuel rest, (depth v <= fuel)%nat ->
  dec_val fuel (enc_value v ++ rest) = Some (v, rest).
Proof.
  induction v as [v H1 H2 H3 H4| |v IH|v IH|l IH|m IH] using value_ind2;
    intros W fuel rest F; (destruct fuel as [|fuel]; [exfalso; revert F; clear; intros F; cbn in F; try lia|]).
  - destruct v; try destruct o; cbn in F; lia.
  - destruct v; try (exfalso; eapply H1; reflexivity); try (exfalso; eapply H2; reflexivity);
      try (exfalso; eapply H3; reflexivity); try (exfalso; eapply H4; reflexivity);
      inversion W; subst; clear F H1 H2 H3 H4; cbn [enc_value discriminant];
      rewrite <- app_assoc; tag; unfold dbind.
    + rewrite bool_lossless; auto.
    + reflexivity.
    + rewrite u16_lossless; auto.
    + rewrite u32_lossless; auto.
    + rewrite u64_lossless; auto.
    + rewrite i8_lossless; auto.
    + rewrite (signed_lossless 2 16); auto.
    + rewrite (signed_lossless 4 32); auto.
    + rewrite (signed_lossless 8 64); auto.
    + rewrite f32_lossless; auto.
    + rewrite f64_lossless; auto.
    + rewrite char_lossless; auto.
    + rewrite string_lossless; auto.
    + reflexivity.
    + rewrite (vec_lossless (ubits 8)); [auto|apply u8_lossless|split; auto].
    + rewrite time_lossless; auto.
  - reflexivity.
  - inversion W; subst. cbn [enc_value discriminant]. cbn [depth] in F.
    rewrite <- app_assoc. tag. unfold dbind, dec_option, dbind. cbn [dec_u8].
    change (1 =? 0) with false. change (1 =? 1) with true. cbv iota beta.
    rewrite IH by (auto; lia). reflexivity.
  - inversion W; subst. cbn [enc_value discriminant]. cbn [depth] in F.
    rewrite <- app_assoc. tag. unfold dbind. rewrite IH by (auto; lia). reflexivity.
  - inversion W; subst. rewrite enc_value_seq. rewrite <- !app_assoc. tag. unfold dbind, dec_vec, dbind.
    rewrite u64_lossless by auto. rewrite Nat2N.id, dec_n_list; [reflexivity|].
    rewrite Forall_forall in *. intros v Hv r. apply IH; auto.
    pose proof (depth_seq _ _ Hv). lia.
  - inversion W; subst. rewrite enc_value_map. rewrite <- !app_assoc. tag. unfold dbind, dec_map, dbind.
    rewrite u64_lossless by auto. rewrite Nat2N.id, dec_entries_list; [reflexivity| | |auto];
    rewrite Forall_forall in *; intros e He r; apply IH; auto;
    pose proof (depth_map _ _ He); lia.
Qed.

Lemma depth_le_length v : (depth v <= length (enc_value v))%nat.
Proof.
  induction v as [v H1 H2 H3 H4| |v IH|v IH|l IH|m IH] using value_ind2.
  - destruct v; try (exfalso; eapply H1; reflexivity); try (exfalso; eapply H2; reflexivity);
      try (exfalso; eapply H3; reflexivity); try (exfalso; eapply H4; reflexivity);
      cbn [depth enc_value enc_u8 app length]; lia.
  - cbn; lia.
  - cbn [depth enc_value enc_u8 app length]. lia.
  - cbn [depth enc_value enc_u8 app length]. lia.
  - rewrite enc_value_seq. cbn [depth enc_u8 app length]. rewrite app_length.
    apply le_n_S. cut (fold_right (fun v d => Nat.max (depth v) d) O l <= length (flat_map enc_value l))%nat; [lia|].
    induction IH as [|x l Hx Hl IH]; cbn; [lia|]. rewrite app_length. lia.
  - rewrite enc_value_map. cbn [depth enc_u8 app length]. rewrite app_length.
    apply le_n_S. cut (fold_right (fun e d => Nat.max (Nat.max (depth (fst e)) (depth (snd e))) d) O m
                       <= length (flat_map enc_entry_kv m))%nat; [lia|].
    induction IH as [|x l Hx Hl IH]; cbn; [lia|].
    unfold enc_entry_kv at 1. rewrite !app_length. lia.
Qed.

Lemma value_lossless : lossless wf_value enc_value dec_value.
Proof.
  intros v rest W. unfold dec_value. apply dec_val_rt; auto.
  rewrite app_length. pose proof (depth_le_length v). lia.
Qed.
