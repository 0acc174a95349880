(** Proofs about the Python view of a log. *)
From Coq Require Import List Arith NArith ZArith Bool Lia SpecFloat Sorted.
From Verif Require Import Base BincodeModel BincodeSpec CodecModel ValueModel CodecSpec ValueProofs ValueProofs2
  FloatModel PyModel PySpec.
Import ListNotations.
Local Open Scope N_scope.

(** ** The iterator *)
Lemma enc_entry_nonempty e : enc_entry e <> [].
Proof.
  intros H. assert (L : dec_entry [] = None) by reflexivity.
  assert (D : dec_entry (enc_entry e) = None) by (rewrite H; exact L). revert D. clear L.
  unfold enc_entry in H. apply app_eq_nil in H. destruct H as [_ H]. apply app_eq_nil in H. destruct H as [H _].
  unfold enc_u32, enc_var in H. repeat (destruct (_ <? _) in H || discriminate); discriminate.
Qed.

Lemma prefix_fails e b : entry_ok e -> proper_prefix b (enc_entry e) -> dec_entry b = None.
Proof.
  intros Ok (t & Ht & E). destruct (dec_entry b) as [[x r]|] eqn:D; [|reflexivity]. exfalso.
  destruct (streaming_entry _ _ _ D) as (p & -> & S).
  pose proof (entry_lossless e [] Ok) as L. rewrite app_nil_r, E, <- app_assoc, S in L.
  injection L as _ L. destruct r; [|discriminate L]. apply Ht. exact L.
Qed.

Lemma tail_stops cut t : honest cut -> tail_of_log t -> exists r, py_next cut t = Stopped r.
Proof.
  intros Hc [b e Ok P|e r Ok M]; unfold py_next.
  - rewrite (prefix_fails _ _ Ok P). destruct P as (s & Hs & E).
    rewrite (Hc b s e []); [eexists; reflexivity| |].
    + apply (prefix_fails e); [exact Ok|]. exists s. auto.
    + rewrite <- E. rewrite <- (app_nil_r (enc_entry e)). apply entry_lossless. exact Ok.
  - rewrite (entry_lossless e r Ok), M. eexists; reflexivity.
Qed.

Lemma py_for_all cut t es : honest cut -> tail_of_log t -> Forall entry_ok es -> Forall (fun e => le_msg e <> 0) es ->
  forall fuel, (length es < fuel)%nat -> py_for cut fuel (flat_map enc_entry es ++ t) = (es, Done).
Proof.
  intros Hc Ht. induction es as [|e es IH]; intros H1 H2 [|fuel] F; cbn [length] in F; try lia; cbn [py_for flat_map app].
  - destruct (tail_stops _ _ Hc Ht) as [r ->]. reflexivity.
  - inversion H1; inversion H2; subst. unfold py_next. rewrite <- app_assoc, (entry_lossless e) by auto.
    destruct (N.eqb_spec (le_msg e) 0); [congruence|].
    rewrite IH by (auto; lia). reflexivity.
Qed.

Lemma flat_map_len es : (length es <= length (flat_map enc_entry es))%nat.
Proof.
  induction es as [|e es IH]; cbn [flat_map length]; [lia|]. rewrite app_length.
  pose proof (enc_entry_nonempty e). destruct (enc_entry e); [congruence|]. cbn [length]. lia.
Qed.

Lemma py_loop_all cut t es : honest cut -> tail_of_log t -> Forall entry_ok es -> Forall (fun e => le_msg e <> 0) es ->
  py_loop cut (flat_map enc_entry es ++ t) = (es, Done).
Proof.
  intros. apply py_for_all; auto. rewrite app_length. pose proof (flat_map_len es). lia.
Qed.

Lemma dec_entry_consumes b e r : dec_entry b = Some (e, r) -> (length r < length b)%nat.
Proof.
  intros D. destruct (streaming_entry _ _ _ D) as (p & -> & S). rewrite app_length.
  destruct p; cbn [length]; [|lia]. specialize (S []). discriminate S.
Qed.

Lemma py_for_fed cut fuel : forall b, (length b < fuel)%nat -> snd (py_for cut fuel b) <> Starved.
Proof.
  induction fuel as [|fuel IH]; intros b F; [lia|]. cbn [py_for]. unfold py_next.
  destruct (dec_entry b) as [[e r]|] eqn:D.
  - apply dec_entry_consumes in D. destruct (le_msg e =? 0); [discriminate|].
    specialize (IH r ltac:(lia)). destruct (py_for cut fuel r). exact IH.
  - destruct (cut b); discriminate.
Qed.

(** ** Floats *)
Lemma testbit_top (b : Z) k : (0 <= k)%Z -> (0 <= b < 2 ^ (k + 1))%Z -> Z.testbit b k = (2 ^ k <=? b)%Z.
Proof.
  intros K B.
  destruct (Z.leb_spec (2 ^ k) b) as [L|L].
  - apply Z.testbit_true; [exact K|]. assert (b / 2 ^ k = 1)%Z as ->; [|reflexivity].
    rewrite Z.pow_add_r, Z.pow_1_r in B by lia. symmetry. apply Z.div_unique with (b - 2 ^ k)%Z; lia.
  - apply Z.testbit_false; [exact K|]. rewrite Z.div_small by lia. reflexivity.
Qed.

Lemma ieee_at mw ew b b' f f' : ieee mw ew b' f' -> b = b' -> f = f' -> ieee mw ew b f.
Proof. intros H -> ->. exact H. Qed.

Ltac to_ieee :=
  match goal with |- ieee _ _ _ (if (?e =? ?k)%Z then _ else _) => destruct (Z.eqb_spec e k) end;
  [match goal with |- ieee _ _ _ (if (?m =? 0)%Z then _ else _) => destruct (Z.eqb_spec m 0) end|
   match goal with |- ieee _ _ _ (if (?e =? 0)%Z then _ else _) => destruct (Z.eqb_spec e 0) end].

Lemma of_bits_ieee b : b < 2 ^ 32 -> ieee 23 8 b (of_bits b).
Proof.
  intros B. unfold of_bits. rewrite testbit_top by (cbn; lia).
  change (2 ^ 31)%Z with 2147483648%Z. change (2 ^ 23)%Z with 8388608%Z. change (2 ^ 32) with 4294967296 in B.
  set (s := (2147483648 <=? Z.of_N b)%Z).
  set (e := ((Z.of_N b / 8388608) mod 256)%Z). set (m := (Z.of_N b mod 8388608)%Z).
  assert (Rm : (0 <= m < 8388608)%Z) by (subst m; lia). assert (Re : (0 <= e < 256)%Z) by (subst e; lia).
  assert (D : (Z.of_N b = Z.b2z s * 2147483648 + e * 8388608 + m)%Z).
  { subst s e m. destruct (Z.leb_spec 2147483648 (Z.of_N b)); cbn [Z.b2z]; lia. }
  clearbody s e m. assert (Eb : b = N.b2n s * 2147483648 + Z.to_N e * 8388608 + Z.to_N m)
    by (destruct s; cbn [Z.b2z N.b2n] in *; lia). clear D B.
  to_ieee.
  - eapply ieee_at; [apply ieee_inf|rewrite Eb|reflexivity]. change (23 + 8) with 31. change (2 ^ 31) with 2147483648.
    change ((2 ^ 8 - 1) * 2 ^ 23) with 2139095040. lia.
  - eapply ieee_at; [apply (ieee_nan 23 8 s (Z.to_N m)); [lia|change (2 ^ 23) with 8388608; lia]|rewrite Eb|reflexivity].
    change (23 + 8) with 31. change (2 ^ 31) with 2147483648.
    change ((2 ^ 8 - 1) * 2 ^ 23) with 2139095040. lia.
  - destruct m as [|p|p]; [|  |lia].
    + eapply ieee_at; [apply ieee_zero|rewrite Eb|reflexivity].
      change (23 + 8) with 31. change (2 ^ 31) with 2147483648. lia.
    + eapply ieee_at; [apply (ieee_sub 23 8 s p); change (2 ^ 23) with 8388608; lia|rewrite Eb|reflexivity].
      change (23 + 8) with 31. change (2 ^ 31) with 2147483648. lia.
  - destruct (m + 8388608)%Z as [|p|p] eqn:P; [lia| |lia].
    eapply ieee_at; [apply (ieee_norm 23 8 s (Z.to_N e) (Z.to_N m) p); change (2 ^ 8 - 1) with 255; change (2 ^ 23) with 8388608; lia
      |rewrite Eb; reflexivity|].
    f_equal. change (2 ^ (Z.of_N 8 - 1))%Z with 128%Z. lia.
Qed.

Lemma of_bits64_ieee b : b < 2 ^ 64 -> ieee 52 11 b (of_bits64 b).
Proof.
  intros B. unfold of_bits64. rewrite testbit_top by (cbn; lia).
  change (2 ^ 63)%Z with 9223372036854775808%Z. change (2 ^ 52)%Z with 4503599627370496%Z.
  change (2 ^ 64) with 18446744073709551616 in B.
  set (s := (9223372036854775808 <=? Z.of_N b)%Z).
  set (e := ((Z.of_N b / 4503599627370496) mod 2048)%Z). set (m := (Z.of_N b mod 4503599627370496)%Z).
  assert (Rm : (0 <= m < 4503599627370496)%Z) by (subst m; lia). assert (Re : (0 <= e < 2048)%Z) by (subst e; lia).
  assert (D : (Z.of_N b = Z.b2z s * 9223372036854775808 + e * 4503599627370496 + m)%Z).
  { subst s e m. destruct (Z.leb_spec 9223372036854775808 (Z.of_N b)); cbn [Z.b2z]; lia. }
  clearbody s e m. assert (Eb : b = N.b2n s * 9223372036854775808 + Z.to_N e * 4503599627370496 + Z.to_N m)
    by (destruct s; cbn [Z.b2z N.b2n] in *; lia). clear D B.
  to_ieee.
  - eapply ieee_at; [apply ieee_inf|rewrite Eb|reflexivity]. change (52 + 11) with 63. change (2 ^ 63) with 9223372036854775808.
    change ((2 ^ 11 - 1) * 2 ^ 52) with (2047 * 4503599627370496). lia.
  - eapply ieee_at; [apply (ieee_nan 52 11 s (Z.to_N m)); [lia|change (2 ^ 52) with 4503599627370496; lia]|rewrite Eb|reflexivity].
    change (52 + 11) with 63. change (2 ^ 63) with 9223372036854775808.
    change ((2 ^ 11 - 1) * 2 ^ 52) with (2047 * 4503599627370496). lia.
  - destruct m as [|p|p]; [|  |lia].
    + eapply ieee_at; [apply ieee_zero|rewrite Eb|reflexivity].
      change (52 + 11) with 63. change (2 ^ 63) with 9223372036854775808. lia.
    + eapply ieee_at; [apply (ieee_sub 52 11 s p); change (2 ^ 52) with 4503599627370496; lia|rewrite Eb|reflexivity].
      change (52 + 11) with 63. change (2 ^ 63) with 9223372036854775808. lia.
  - destruct (m + 4503599627370496)%Z as [|p|p] eqn:P; [lia| |lia].
    eapply ieee_at; [apply (ieee_norm 52 11 s (Z.to_N e) (Z.to_N m) p); change (2 ^ 11 - 1) with 2047; change (2 ^ 52) with 4503599627370496; lia
      |rewrite Eb; reflexivity|].
    f_equal. change (2 ^ (Z.of_N 11 - 1))%Z with 1024%Z. lia.
Qed.

(** A finite number in the form [ieee] gives it has one mantissa and exponent. *)
Definition canon (M emin m E : Z) : Prop :=
  (E = emin /\ 0 < m < M \/ emin <= E /\ M <= m < 2 * M)%Z.

Lemma canon_lt M emin m E m' E' : (0 < M)%Z -> canon M emin m E -> canon M emin m' E' -> (E < E')%Z ->
  (m < m' * 2 ^ (E' - E))%Z.
Proof.
  intros HM C C' L. assert (m < 2 * M)%Z by (unfold canon in C; lia).
  assert (M <= m')%Z by (unfold canon in C, C'; lia).
  replace (2 ^ (E' - E))%Z with (2 * 2 ^ (E' - E - 1))%Z by (rewrite <- Z.pow_succ_r by lia; f_equal; lia).
  assert (1 <= 2 ^ (E' - E - 1))%Z by (apply (Z.pow_le_mono_r 2 0); lia). nia.
Qed.

Lemma canon_unique M emin m E m' E' : (0 < M)%Z -> canon M emin m E -> canon M emin m' E' ->
  (m * 2 ^ (E - Z.min E E') = m' * 2 ^ (E' - Z.min E E'))%Z -> m = m' /\ E = E'.
Proof.
  intros HM C C' Eq. destruct (Z.lt_trichotomy E E') as [L|[-> |L]].
  - rewrite Z.min_l in Eq by lia. rewrite Z.sub_diag, Z.pow_0_r, Z.mul_1_r in Eq.
    pose proof (canon_lt _ _ _ _ _ _ HM C C' L). lia.
  - rewrite Z.min_id, Z.sub_diag, Z.pow_0_r in Eq. split; lia.
  - rewrite Z.min_r in Eq by lia. rewrite Z.sub_diag, Z.pow_0_r, Z.mul_1_r in Eq.
    pose proof (canon_lt _ _ _ _ _ _ HM C' C L). lia.
Qed.

Lemma ieee_canon mw ew b s m E : ieee mw ew b (S754_finite s m E) ->
  canon (2 ^ Z.of_N mw) (2 - 2 ^ (Z.of_N ew - 1) - Z.of_N mw) (Zpos m) E.
Proof.
  intros H. assert (P : (Z.of_N (2 ^ mw) = 2 ^ Z.of_N mw)%Z) by apply N2Z.inj_pow.
  inversion H; subst; unfold canon; rewrite <- P; lia.
Qed.

Lemma ieee_inj mw ew b b' s m E : ieee mw ew b (S754_finite s m E) -> ieee mw ew b' (S754_finite s m E) -> b = b'.
Proof.
  intros H H'. inversion H; inversion H'; subst; try lia.
Qed.

Lemma float_eq_bits mw ew a b f g : ieee mw ew a f -> ieee mw ew b g ->
  py_eq (PyFloat f) (PyFloat g) = true ->
  a = b \/ exists s s', a = N.b2n s * 2 ^ (mw + ew) /\ b = N.b2n s' * 2 ^ (mw + ew).
Proof.
  intros A B. destruct f as [s|s| |s m E]; destruct g as [s'|s'| |s' m' E']; unfold py_eq; cbn [number];
    try discriminate.
  - intros _. right. exists s, s'. inversion A; inversion B; subst. auto.
  - intros Q. exfalso. apply Z.eqb_eq in Q. rewrite Z.mul_0_l in Q.
    pose proof (Z.pow_pos_nonneg 2 (E' - Z.min 0 E') eq_refl ltac:(lia)). destruct s'; nia.
  - intros Q. apply Bool.eqb_prop in Q. subst s'. left. inversion A; inversion B; subst. reflexivity.
  - intros Q. exfalso. apply Z.eqb_eq in Q. rewrite Z.mul_0_l in Q.
    pose proof (Z.pow_pos_nonneg 2 (E - Z.min E 0) eq_refl ltac:(lia)). destruct s; nia.
  - intros Q. apply Z.eqb_eq in Q. left.
    pose proof (Z.pow_pos_nonneg 2 (E - Z.min E E') eq_refl ltac:(lia)) as P1.
    pose proof (Z.pow_pos_nonneg 2 (E' - Z.min E E') eq_refl ltac:(lia)) as P2.
    assert (PM : (0 < 2 ^ Z.of_N mw)%Z) by (apply Z.pow_pos_nonneg; lia).
    assert (X : s = s' /\ (Zpos m * 2 ^ (E - Z.min E E') = Zpos m' * 2 ^ (E' - Z.min E E'))%Z).
    { destruct s, s'; (split; [try reflexivity|]); nia. }
    destruct X as [<- X].
    destruct (canon_unique _ _ _ _ _ _ PM (ieee_canon _ _ _ _ _ _ A) (ieee_canon _ _ _ _ _ _ B) X) as [U <-].
    injection U as <-. apply (ieee_inj _ _ _ _ _ _ _ A B).
Qed.

Lemma f32_eq_key a b : a < 2 ^ 32 -> b < 2 ^ 32 ->
  py_eq (PyFloat (of_bits a)) (PyFloat (of_bits b)) = true -> f32_key a = f32_key b.
Proof.
  intros A B Q. destruct (float_eq_bits _ _ _ _ _ _ (of_bits_ieee a A) (of_bits_ieee b B) Q) as [-> |(s & s' & -> & ->)];
    [reflexivity|]. destruct s, s'; reflexivity.
Qed.
Lemma f64_eq_key a b : a < 2 ^ 64 -> b < 2 ^ 64 ->
  py_eq (PyFloat (of_bits64 a)) (PyFloat (of_bits64 b)) = true -> f64_key a = f64_key b.
Proof.
  intros A B Q. destruct (float_eq_bits _ _ _ _ _ _ (of_bits64_ieee a A) (of_bits64_ieee b B) Q) as [-> |(s & s' & -> & ->)];
    [reflexivity|]. destruct s, s'; reflexivity.
Qed.

(** ** Keys *)
Lemma cmp_refl v : cmp_value v v = Eq.
Proof. pose proof (cmp_opp v v) as H. destruct (cmp_value v v); [reflexivity|discriminate H|discriminate H]. Qed.

Lemma int_eq z z' : py_eq (PyInt z) (PyInt z') = true -> z = z'.
Proof. unfold py_eq; cbn. intros H. apply Z.eqb_eq in H. lia. Qed.
Lemma bool_eq b b' : py_eq (PyBool b) (PyBool b') = true -> b = b'.
Proof. destruct b, b'; try reflexivity; intros H; vm_compute in H; discriminate H. Qed.
Lemma str_eq b b' : py_eq (PyStr b) (PyStr b') = true -> b = b'.
Proof. unfold py_eq; cbn [number]. destruct (list_eq_dec _ _ _); congruence. Qed.
Lemma bytes_eq b b' : py_eq (PyBytes b) (PyBytes b') = true -> b = b'.
Proof. unfold py_eq; cbn [number]. destruct (list_eq_dec _ _ _); congruence. Qed.

(** A scalar is converted to a hashable object that shows it. *)
Lemma scalar_converts v : wf_value v -> same_scalar v v ->
  exists p, value_to_py v = Ret p /\ shows v p /\ hashable p = true.
Proof.
  intros W S. destruct v; try contradiction S; inversion W; subst; cbn [value_to_py];
    (eexists; split; [reflexivity|split; [|reflexivity]]); constructor; try reflexivity.
  - apply of_bits_ieee. assumption.
  - apply of_bits64_ieee. assumption.
Qed.

Lemma distinct_keys v w p q : wf_value v -> wf_value w -> same_scalar v w -> value_to_py v = Ret p -> value_to_py w = Ret q ->
  py_eq p q = true -> cmp_value v w = Eq.
Proof.
  intros V W S P Q E.
  destruct v, w; try contradiction S; cbn [value_to_py] in P, Q; injection P as <-; injection Q as <-;
    try (apply int_eq in E; try apply N2Z.inj in E; subst; apply cmp_refl);
    try (apply bool_eq in E; subst; apply cmp_refl);
    try (apply bytes_eq in E; subst; apply cmp_refl);
    try (apply str_eq in E; try injection E as E; subst; apply cmp_refl).
  - inversion V; inversion W; subst. apply f32_eq_key in E; auto. cbn [cmp_value]. rewrite E. apply Z.compare_refl.
  - inversion V; inversion W; subst. apply f64_eq_key in E; auto. cbn [cmp_value]. rewrite E. apply Z.compare_refl.
Qed.

(** ** The conversion *)
Definition conv_all : list value -> outcome (list pyobj) :=
  fix conv (l : list value) :=
    match l with
    | [] => Ret []
    | v :: l => let! p := value_to_py v in let! r := conv l in Ret (p :: r)
    end.
Definition fill_all : list (value * value) -> list (pyobj * pyobj) -> outcome (list (pyobj * pyobj)) :=
  fix fill (m : list (value * value)) (d : list (pyobj * pyobj)) :=
    match m with
    | [] => Ret d
    | (k, v) :: m =>
        let! pk := value_to_py k in
        let! pv := value_to_py v in
        if hashable pk then fill m (set_item pk pv d) else Panic
    end.
Lemma to_py_seq l : value_to_py (VSeq l) = let! l := conv_all l in Ret (PyList l).
Proof. reflexivity. Qed.
Lemma to_py_map m : value_to_py (VMap m) = let! d := fill_all m [] in Ret (PyDict d).
Proof. reflexivity. Qed.

Lemma set_item_new k v d : Forall (fun e => py_eq (fst e) k = false) d -> set_item k v d = d ++ [(k, v)].
Proof.
  induction d as [|[k' v'] d IH]; intros H; [reflexivity|]. inversion H; subst. cbn [set_item app fst] in *.
  rewrite H2, IH by assumption. reflexivity.
Qed.

Lemma same_scalar_sym v w : same_scalar v w -> same_scalar w v.
Proof. destruct v, w; cbn; auto. Qed.

Lemma ascending_strong m : ascending m -> StronglySorted (fun a b => cmp_value (fst a) (fst b) = Lt) m.
Proof. apply Sorted_StronglySorted. intros a b c H1 H2. eapply cmp_Lt; eauto. Qed.

(** The loop over a map, after the entries [done] have been put in the dict [d]. *)
Lemma fill_shows m : forall done d,
  Forall (fun e => (wf_value (fst e)) /\ (exists p, value_to_py (snd e) = Ret p /\ shows (snd e) p)) m ->
  Forall (fun e => wf_value (fst e)) done ->
  StronglySorted (fun a b => cmp_value (fst a) (fst b) = Lt) (done ++ m) ->
  (forall e f, In e (done ++ m) -> In f (done ++ m) -> same_scalar (fst e) (fst f)) ->
  Forall2 (fun e x => value_to_py (fst e) = Ret (fst x) /\ shows (fst e) (fst x) /\ shows (snd e) (snd x)) done d ->
  exists d', fill_all m d = Ret d' /\
    Forall2 (fun e x => shows (fst e) (fst x) /\ shows (snd e) (snd x)) (done ++ m) d'.
Proof.
  induction m as [|[k v] m IH]; intros done d H W S K D.
  - exists d. split; [reflexivity|]. rewrite app_nil_r.
    induction D as [|e x done d [_ X] D IHD]; constructor; [exact X|].
    apply IHD.
    + inversion W; assumption.
    + rewrite app_nil_r in *. inversion S; assumption.
    + rewrite app_nil_r in *. intros e' f' He Hf. apply K; right; assumption.
  - inversion H as [|? ? [Wk (pv & Ev & Sv)] H']; subst. cbn [fst snd] in *.
    assert (Ik : In (k, v) (done ++ (k, v) :: m)) by (apply in_or_app; right; left; reflexivity).
    destruct (scalar_converts k Wk (K _ _ Ik Ik)) as (pk & Ek & Sk & Hk).
    change (fill_all ((k, v) :: m) d) with
      (let! pk := value_to_py k in let! pv := value_to_py v in
       if hashable pk then fill_all m (set_item pk pv d) else Panic).
    rewrite Ek, Ev. cbn [obind]. rewrite Hk, set_item_new.
    + replace (done ++ (k, v) :: m) with ((done ++ [(k, v)]) ++ m) in * by (rewrite <- app_assoc; reflexivity).
      apply IH; auto.
      * apply Forall_app. split; [exact W|]. constructor; [exact Wk|constructor].
      * apply Forall2_app; [exact D|]. constructor; [|constructor]. cbn [fst snd]. auto.
    + rewrite Forall_forall. intros [pk' pv'] I. cbn [fst].
      destruct (py_eq pk' pk) eqn:Q; [exfalso|reflexivity].
      assert (X : exists e, In e done /\ value_to_py (fst e) = Ret pk').
      { clear -D I. induction D as [|e x done d [X _] D IHD]; [contradiction I|].
        destruct I as [-> |I]; [exists e; split; [left; reflexivity|exact X]|].
        destruct (IHD I) as (e' & I' & E'). exists e'. split; [right; exact I'|exact E']. }
      destruct X as (e & Ie & Ee).
      assert (Lt_ : cmp_value (fst e) k = Lt).
      { clear -S Ie. induction done as [|x done IHd]; [contradiction Ie|]. cbn [app] in S. inversion S; subst.
        destruct Ie as [-> |Ie].
        - rewrite Forall_forall in H2. apply (H2 (k, v)). apply in_or_app. right. left. reflexivity.
        - apply IHd; assumption. }
      rewrite (distinct_keys (fst e) k pk' pk) in Lt_; auto; [discriminate Lt_| |].
      * rewrite Forall_forall in W. apply W. exact Ie.
      * apply (K e (k, v)); [apply in_or_app; left; exact Ie|exact Ik].
Qed.

Lemma pairs_split {A B C D} (R : A -> C -> Prop) (Q : B -> D -> Prop) (l : list (A * B)) (l' : list (C * D)) :
  Forall2 (fun e x => R (fst e) (fst x) /\ Q (snd e) (snd x)) l l' ->
  Forall2 R (map fst l) (map fst l') /\ Forall2 Q (map snd l) (map snd l').
Proof. induction 1 as [|e x l l' [H1 H2] _ [IH1 IH2]]; split; constructor; auto. Qed.

Lemma converts v : wf_value v -> plain_keys v -> exists p, value_to_py v = Ret p /\ shows v p.
Proof.
  induction v as [v H1 H2 H3 H4| |v IH|v IH|l IH|m IH] using value_ind2; intros W K.
  - destruct v as [ | | | | | | | | | | | | | |o|w|l|m| | ];
      try (destruct (scalar_converts _ W I) as (p & P & S & _); exists p; split; assumption).
    + exists PyNone. split; [reflexivity|constructor].
    + exfalso. exact (H1 o eq_refl).
    + exfalso. exact (H2 w eq_refl).
    + exfalso. exact (H3 l eq_refl).
    + exfalso. exact (H4 m eq_refl).
  - exists PyNone. split; [reflexivity|constructor].
  - inversion W; subst. destruct (IH ltac:(assumption) K) as (p & P & S). exists p. split; [exact P|constructor; exact S].
  - inversion W; subst. destruct (IH ltac:(assumption) K) as (p & P & S). exists p. split; [exact P|constructor; exact S].
  - inversion W as [ | | | | | | | | | | | | | | | | |? WL _| | | ]; subst. rewrite to_py_seq.
    assert (X : exists ps, conv_all l = Ret ps /\ Forall2 shows l ps).
    { clear W. induction l as [|v l IHl]; [exists []; split; [reflexivity|constructor]|].
      inversion IH; subst. inversion WL; subst. cbn [plain_keys fold_right] in K. destruct K as [K K'].
      destruct (H1 H3 K) as (p & P & S). destruct (IHl H2 K' H4) as (ps & P' & S').
      exists (p :: ps). split; [|constructor; assumption].
      change (conv_all (v :: l)) with (let! p := value_to_py v in let! r := conv_all l in Ret (p :: r)).
      rewrite P, P'. reflexivity. }
    destruct X as (ps & P & S). exists (PyList ps). rewrite P. split; [reflexivity|constructor; exact S].
  - inversion W as [ | | | | | | | | | | | | | | | | | |? WK WV A _| | ]; subst. rewrite to_py_map.
    destruct K as [K K'].
    destruct (fill_shows m [] []) as (d & P & S).
    + rewrite Forall_forall in *. intros e Ie. split; [apply WK; exact Ie|].
      apply IH; [exact Ie|apply WV; exact Ie|]. clear -K' Ie.
      induction m as [|x m IHm]; [contradiction Ie|]. destruct K' as [K1 K2].
      destruct Ie as [-> |Ie]; [exact K1|apply IHm; assumption].
    + constructor.
    + apply ascending_strong. exact A.
    + exact K.
    + constructor.
    + rewrite P. exists (PyDict d). split; [reflexivity|]. apply pairs_split in S. cbn [app] in S. constructor; apply S.
Qed.
