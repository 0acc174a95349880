(** Proofs about structures of arrays. *)
From Coq Require Import List Arith Bool NArith Lia.
From Verif Require Import Base BincodeModel BincodeSpec BincodeProofs CodecModel SoaModel SoaSpec.
Import ListNotations.
Local Open Scope nat_scope.

Section SoaProofs.
Context {V St : Type}.
Implicit Types (cols : list (list V)) (x : soa V).

Lemma row_total cols n i : Forall (fun c => length c = n) cols -> i < n -> exists r, row i cols = Some r /\ length r = length cols.
Proof.
  induction 1 as [|c cols H F IH]; intros L; cbn; [eauto|]. destruct (nth_error c i) eqn:E; [|apply nth_error_None in E; lia].
  destruct (IH L) as (r & -> & Hr). eexists. split; [reflexivity|]. cbn. auto.
Qed.
Lemma put_row_length i r : forall cols, length (put_row i r cols) = length cols.
Proof. induction r as [|v r IH]; intros [|c cols]; cbn; auto. Qed.
Lemma put_row_shape n i r : forall cols, Forall (fun c => length c = n) cols -> Forall (fun c => length c = n) (put_row i r cols).
Proof.
  induction r as [|v r IH]; intros [|c cols] F; cbn; auto. inversion F; subst. constructor; auto. apply upd_length.
Qed.
Lemma row_put_same n i r : forall cols, Forall (fun c => length c = n) cols -> i < n -> length r = length cols ->
  row i (put_row i r cols) = Some r.
Proof.
  induction r as [|v r IH]; intros [|c cols] F L E; cbn in *; try discriminate; auto. inversion F; subst.
  rewrite nth_error_upd_eq, IH; auto.
Qed.
Lemma row_put_other i j r : forall cols, i <> j -> row j (put_row i r cols) = row j cols.
Proof.
  induction r as [|v r IH]; intros [|c cols] N; cbn; auto. rewrite nth_error_upd_neq, IH; auto.
Qed.

(** The records of the container are the list. *)
Record sim (n k : nat) x (l : list (list V)) : Prop := {
  m_len : s_len x = length l; m_cap : length l <= n;
  m_shape : Forall (fun c => length c = n) (s_cols x); m_k : length (s_cols x) = k;
  m_rows : forall i, i < length l -> row i (s_cols x) = nth_error l i;
  m_width : Forall (fun r => length r = k) l }.
Lemma sim_new n default : sim n (length default) (soa_new n default) [].
Proof.
  constructor; cbn; auto; try lia.
  - apply Forall_forall. intros c Hc. apply in_map_iff in Hc. destruct Hc as (d & <- & _). apply repeat_length.
  - apply map_length.
Qed.
Lemma nth_set {A} (l : list A) i j r : i < length l -> nth_error (firstn i l ++ r :: skipn (i + 1) l) j = if j =? i then Some r else nth_error l j.
Proof.
  intros L. assert (F : length (firstn i l) = i) by (rewrite firstn_length; lia). destruct (Nat.eqb_spec j i) as [->|N].
  - rewrite nth_error_app2, F, Nat.sub_diag by lia. reflexivity.
  - destruct (Nat.lt_ge_cases j i).
    + rewrite nth_error_app1 by lia. rewrite <- (firstn_skipn i l) at 2. rewrite nth_error_app1 by lia. reflexivity.
    + rewrite nth_error_app2, F by lia. replace (j - i) with (S (j - i - 1)) by lia. cbn.
      rewrite <- (firstn_skipn (i + 1) l) at 2. rewrite nth_error_app2; rewrite firstn_length, Nat.min_l by lia; [|lia].
      f_equal. lia.
Qed.
Lemma set_length {A} (l : list A) i r : i < length l -> length (firstn i l ++ r :: skipn (i + 1) l) = length l.
Proof. intros. rewrite app_length. cbn. rewrite firstn_length, skipn_length. lia. Qed.

Lemma apply_sim n k (f : St -> list V -> St * list V) (Hf : forall s r, length r = k -> length (snd (f s r)) = k) : forall todo done cols s,
  Forall (fun c => length c = n) cols -> length cols = k -> length done + length todo <= n ->
  Forall (fun r => length r = k) (done ++ todo) ->
  (forall i, i < length (done ++ todo) -> row i cols = nth_error (done ++ todo) i) ->
  exists cols', apply_go (length todo) (length done) s f cols = (cols', After (fst (map_state f s todo))) /\
    Forall (fun c => length c = n) cols' /\ length cols' = k /\ length (snd (map_state f s todo)) = length todo /\
    Forall (fun r => length r = k) (done ++ snd (map_state f s todo)) /\
    (forall i, i < length (done ++ todo) -> row i cols' = nth_error (done ++ snd (map_state f s todo)) i).
Proof.
  induction todo as [|r todo IH]; intros done cols s F K C W R; cbn [apply_go length map_state].
  - exists cols. cbn. auto 10.
  - assert (Rr : row (length done) cols = Some r).
    { rewrite R by (rewrite app_length; cbn; lia). rewrite nth_error_app2, Nat.sub_diag by lia. reflexivity. }
    rewrite Rr. destruct (f s r) as [s' r'] eqn:E. cbn [length] in C.
    assert (Wr : length r' = k).
    { replace r' with (snd (f s r)) by (rewrite E; auto). apply Hf. apply Forall_app in W. destruct W as [_ W]. inversion W; auto. }
    destruct (IH (done ++ [r']) (put_row (length done) r' cols) s') as (cols' & H1 & H2 & H3 & H4 & H5 & H6).
    + apply put_row_shape. auto.
    + rewrite put_row_length. auto.
    + rewrite app_length. cbn. lia.
    + apply Forall_app in W. destruct W as [W1 W2]. inversion W2; subst. apply Forall_app. split; [apply Forall_app; split; auto|auto].
    + intros i Hi. rewrite !app_length in Hi. cbn in Hi. destruct (Nat.eq_dec i (length done)) as [->|N].
      * rewrite (row_put_same n); auto; [|lia|congruence]. rewrite <- app_assoc, nth_error_app2, Nat.sub_diag by lia. reflexivity.
      * rewrite row_put_other by auto. rewrite R by (rewrite app_length; cbn; lia). rewrite <- app_assoc. cbn.
        destruct (Nat.lt_ge_cases i (length done)).
        -- rewrite !nth_error_app1 by lia. reflexivity.
        -- rewrite !nth_error_app2 by lia. replace (i - length done) with (S (i - length done - 1)) by lia. reflexivity.
    + rewrite app_length in H1. cbn in H1. destruct (map_state f s' todo) as [s2 l2] eqn:E2. cbn in *.
      exists cols'. split; [exact H1|]. split; [auto|]. split; [auto|]. split; [lia|]. rewrite <- app_assoc in H5. split; [auto|].
      intros i Hi. rewrite H6 by (rewrite !app_length in *; cbn in *; lia). rewrite <- app_assoc. reflexivity.
Qed.
Lemma iter_sim n k x l : sim n k x l -> forall t d i, length l = i + d -> d < t -> iter_go (S := St) t i x = Some (skipn i l).
Proof.
  intros M. induction t as [|t IH]; intros d i E Hd; [lia|]. cbn [iter_go]. rewrite (m_len _ _ _ _ M).
  destruct (Nat.ltb_spec i (length l)).
  - unfold get. rewrite (m_len _ _ _ _ M), (m_rows _ _ _ _ M) by auto. destruct (Nat.ltb_spec i (length l)); [|lia].
    destruct (nth_error l i) as [r|] eqn:N; [|apply nth_error_None in N; lia].
    rewrite (IH (d - 1)) by lia. f_equal. clear -N. replace (i + 1) with (S i) by lia. revert i N.
    induction l as [|a l IHl]; intros [|i] N; cbn in *; try discriminate; [injection N as ->; auto|]. apply IHl. auto.
  - rewrite skipn_all2; auto; lia.
Qed.
Lemma step_sim n k x l (o : op V St) : sim n k x l -> typed k o ->
  sim n k (fst (step n x o)) (fst (list_step n l o)) /\ snd (step n x o) = snd (list_step n l o).
Proof.
  intros M T. destruct o as [r| |i r|i|s f| |]; cbn [step list_step].
  - unfold push. rewrite (m_len _ _ _ _ M). destruct (Nat.ltb_spec (length l) n); [|split; auto]. cbn. split; auto.
    destruct M as [A B C D E F]. constructor; cbn; auto.
    + rewrite app_length. cbn. lia.
    + rewrite app_length. cbn. lia.
    + apply put_row_shape. auto.
    + rewrite put_row_length. auto.
    + intros i Hi. rewrite app_length in Hi. cbn in Hi. destruct (Nat.eq_dec i (length l)) as [->|N].
      * rewrite (row_put_same n); auto; [|cbn in T; congruence]. rewrite nth_error_app2, Nat.sub_diag by lia. reflexivity.
      * rewrite row_put_other by auto. rewrite nth_error_app1 by lia. apply E. lia.
    + apply Forall_app. split; auto.
  - unfold pop. rewrite (m_len _ _ _ _ M). destruct (rev l) as [|r t] eqn:E.
    + assert (l = []) as -> by (rewrite <- (rev_involutive l), E; reflexivity). auto.
    + assert (l = rev t ++ [r]) as -> by (rewrite <- (rev_involutive l), E; reflexivity).
      destruct M as [A B C D F G]. rewrite app_length in *. cbn [length] in *. rewrite Nat.add_1_r in *. cbn. split.
      * apply Forall_app in G. constructor; cbn; auto; try tauto; try lia. intros i Hi. rewrite F by lia. apply nth_error_app1. auto.
      * rewrite F by lia. rewrite nth_error_app2, Nat.sub_diag by lia. reflexivity.
  - unfold set. rewrite (m_len _ _ _ _ M). destruct (Nat.ltb_spec i (length l)); [|split; auto]. cbn. split; auto.
    destruct M as [A B C D E F]. constructor; cbn.
    + rewrite set_length; auto.
    + rewrite set_length; auto.
    + apply put_row_shape. auto.
    + rewrite put_row_length. auto.
    + intros j Hj. rewrite set_length in Hj by auto. rewrite nth_set by auto. destruct (Nat.eqb_spec j i) as [->|N].
      * apply (row_put_same n); auto; [lia|cbn in T; congruence].
      * rewrite row_put_other; auto.
    + apply Forall_app. split; [|constructor; auto]; apply Forall_forall; intros y Hy; rewrite Forall_forall in F; apply F.
      * rewrite <- (firstn_skipn i l). apply in_or_app. auto.
      * rewrite <- (firstn_skipn (i + 1) l). apply in_or_app. auto.
  - split; auto. unfold get. cbn. rewrite (m_len _ _ _ _ M). destruct (Nat.ltb_spec i (length l)) as [L|L].
    + rewrite (m_rows _ _ _ _ M) by auto. destruct (nth_error l i) eqn:E; auto.
    + rewrite (proj2 (nth_error_None l i)) by lia. reflexivity.
  - destruct M as [A B C D E F]. destruct (apply_sim n k f T l [] (s_cols x) s) as (cols' & H1 & H2 & H3 & H4 & H5 & H6); cbn; auto.
    rewrite A. cbn in H1. rewrite H1. destruct (map_state f s l) as [s' l'] eqn:E2. cbn in *. split; auto.
    constructor; cbn; auto; [lia|]. intros i Hi. apply H6. congruence.
  - split; auto. rewrite (iter_sim n k x l M _ (length l) 0); auto. rewrite (m_len _ _ _ _ M). lia.
  - split; auto. cbn. rewrite (m_len _ _ _ _ M). auto.
Qed.
Lemma steps_sim n k os : forall x l, sim n k x l -> Forall (@typed V St k) os ->
  sim n k (fst (steps n x os)) (fst (list_steps n l os)) /\ snd (steps n x os) = snd (list_steps n l os).
Proof.
  induction os as [|o os IH]; intros x l M T; cbn; [auto|]. inversion T; subst.
  destruct (step_sim n k x l o M H1) as [M1 E1].
  destruct (step n x o) as [x1 r1]. destruct (list_step n l o) as [l1 r1']. cbn in *. subst r1'.
  destruct (IH x1 l1 M1 H2) as [M2 E2]. destruct (steps n x1 os), (list_steps n l1 os). cbn in *. split; congruence.
Qed.

(** ** Encoding *)
(** Decoding one column consumes the encodings of what it stored. *)
Lemma dec_col_spec (c : codec V) : strict (c_enc c) (c_dec c) -> forall k i col b col' r,
  Forall (fun y => (y < 256)%N) b -> dec_col c k i col b = DOk col' r ->
  length col' = length col /\ firstn i col' = firstn i col /\ (k = 0 \/ i + k <= length col) /\ Forall (fun y => (y < 256)%N) r /\
  b = enc_all (c_enc c) (firstn k (skipn i col')) ++ r.
Proof.
  intros S0. induction k as [|k IH]; intros i col b col' r F; cbn [dec_col].
  - intros E. injection E as <- <-. auto 10.
  - destruct (c_dec c b) as [[v b']|] eqn:D; [|discriminate]. pose proof (S0 _ _ _ F D) as ->.
    apply Forall_app in F. destruct F as [F1 F2]. destruct (Nat.ltb_spec i (length col)); [|discriminate].
    intros E. destruct (IH _ _ _ _ _ F2 E) as (H1 & H2 & H3 & H4 & H5). rewrite upd_length in *.
    split; [auto|]. assert (N : nth_error col' i = Some v).
    { rewrite <- (firstn_skipn (i + 1) col'), H2. rewrite nth_error_app1.
      - rewrite Nat.add_1_r, firstn_S_upd by auto. rewrite nth_error_app2; rewrite firstn_length, Nat.min_l by lia; [|lia]. rewrite Nat.sub_diag. reflexivity.
      - rewrite firstn_length, upd_length. lia. }
    split; [|split; [lia|split; [auto|]]].
    + apply (f_equal (firstn i)) in H2. rewrite !firstn_firstn, !Nat.min_l in H2 by lia. rewrite H2. apply firstn_upd_ge. lia.
    + rewrite H5. assert (X : skipn i col' = v :: skipn (i + 1) col').
      { clear -N. rewrite Nat.add_1_r. revert i N. induction col' as [|a l IHl]; intros [|i] N; cbn in *; try discriminate; [congruence|]. apply IHl. auto. }
      rewrite X. cbn. rewrite <- app_assoc. reflexivity.
Qed.
Lemma dec_cols_spec n len : forall cs b cols r, Forall (fun c => strict (@c_enc V c) (c_dec c)) cs ->
  Forall (fun y => (y < 256)%N) b -> dec_cols n len cs b = DOk cols r ->
  length cols = length cs /\ Forall (fun c => length c = n) cols /\ (len <= n \/ cs = []) /\
  b = flat_map (fun p => enc_all (c_enc (fst p)) (firstn len (snd p))) (combine cs cols) ++ r.
Proof.
  induction cs as [|c cs IH]; intros b cols r S0 F; cbn [dec_cols].
  - intros E. injection E as <- <-. auto.
  - inversion S0; subst. destruct (dec_col c len 0 (repeat (c_default c) n) b) as [col b'| |] eqn:D; try discriminate.
    destruct (dec_col_spec c H1 _ _ _ _ _ _ F D) as (A1 & A2 & A3 & A4 & A5). rewrite repeat_length in *.
    destruct (dec_cols n len cs b') as [cols' b2| |] eqn:D2; try discriminate. intros E. injection E as <- <-.
    destruct (IH _ _ _ H2 A4 D2) as (B1 & B2 & B3 & B4). cbn [length combine flat_map fst snd skipn] in *.
    split; [lia|]. split; [constructor; auto|]. split; [lia|]. rewrite A5, B4, <- app_assoc. reflexivity.
Qed.
Lemma enc_cols_length cs : forall cols len, length cols = length cs -> Forall (fun c => len <= length c) cols ->
  length (enc_cols len cs cols) >= length cs + length (flat_map (fun p => enc_all (c_enc (fst p)) (firstn len (snd p))) (combine cs cols)).
Proof.
  induction cs as [|c cs IH]; intros [|col cols] len K F; cbn in K |- *; try discriminate; [lia|].
  inversion F; subst. specialize (IH cols len ltac:(lia) H2). rewrite !app_length. unfold enc_vec. rewrite app_length.
  assert (1 <= length (enc_u64 (N.of_nat (length (firstn len col))))).
  { unfold enc_u64, enc_var. repeat (destruct (_ <? _)%N; [cbn; lia|]). cbn. lia. }
  lia.
Qed.

Lemma row_cons_inv i c cols r : row i (c :: cols) = Some r -> exists v t, nth_error c i = Some v /\ row i cols = Some t /\ r = v :: t.
Proof. cbn. destruct (nth_error c i), (row i cols); try discriminate. intros E. injection E as <-. eauto. Qed.
Lemma rows_cols n len : len <= n -> forall cols cols', Forall (fun c => length c = n) cols -> Forall (fun c => length c = n) cols' ->
  length cols = length cols' -> (forall i, i < len -> row i cols = row i cols') -> map (firstn len) cols = map (firstn len) cols'.
Proof.
  intros L. induction cols as [|c cols IH]; intros [|c' cols'] F F' K R; cbn in K; try discriminate; auto.
  inversion F; subst. inversion F'; subst. cbn.
  assert (X : forall i, i < len -> nth_error c i = nth_error c' i /\ row i cols = row i cols').
  { intros i Hi. specialize (R i Hi). destruct (row_total (c :: cols) (length c) i F ltac:(lia)) as (r & E & _).
    rewrite E in R. symmetry in R. apply row_cons_inv in E. apply row_cons_inv in R.
    destruct E as (v & t & E1 & E2 & ->). destruct R as (v' & t' & R1 & R2 & R3). injection R3 as <- <-. split; congruence. }
  f_equal; [|apply IH; auto; intros i Hi; apply X; auto].
  apply nth_error_ext. intros i. destruct (Nat.lt_ge_cases i len) as [Hi|Hi].
  - destruct (X i Hi) as [Y _]. rewrite <- (firstn_skipn len c), <- (firstn_skipn len c') in Y. rewrite !nth_error_app1 in Y; auto; rewrite firstn_length; lia.
  - rewrite !(proj2 (nth_error_None _ i)); auto; rewrite firstn_length; lia.
Qed.
Lemma flat_firstn len (cs : list (codec V)) : forall cols cols', map (firstn len) cols = map (firstn len) cols' ->
  flat_map (fun p => enc_all (c_enc (fst p)) (firstn len (snd p))) (combine cs cols) =
  flat_map (fun p => enc_all (c_enc (fst p)) (firstn len (snd p))) (combine cs cols').
Proof.
  induction cs as [|c cs IH]; intros [|a cols] [|b cols'] E; cbn in *; try discriminate; auto.
  injection E as E1 E2. rewrite E1, (IH cols cols'); auto.
Qed.
Lemma never (cs : list (codec V)) n l x rest x' rest' : sim n (length cs) x l -> cs <> [] -> (N.of_nat n < 2 ^ 64)%N ->
  Forall (fun c => strict (c_enc c) (c_dec c)) cs -> Forall (fun y => (y < 256)%N) (enc_soa cs x ++ rest) ->
  dec_soa n cs (enc_soa cs x ++ rest) = DOk x' rest' -> s_len x' = s_len x /\ ~ (rows x' = rows x /\ rest' = rest).
Proof.
  intros [A B C D E F] NE HN S0 FB. unfold dec_soa, enc_soa. rewrite <- app_assoc.
  assert (FB2 : Forall (fun y => (y < 256)%N) (enc_cols (s_len x) cs (s_cols x) ++ rest)).
  { unfold enc_soa in FB. rewrite <- app_assoc in FB. apply Forall_app in FB. tauto. }
  assert (LU : lossless (ubits 64) enc_u64 dec_u64) by exact u64_lossless.
  rewrite LU by (unfold ubits; lia). rewrite Nnat.Nat2N.id.
  destruct (dec_cols n (s_len x) cs (enc_cols (s_len x) cs (s_cols x) ++ rest)) as [cols b| |] eqn:Dc; try discriminate.
  intros X. injection X as <- <-. cbn [s_len s_cols]. split; auto. intros [R ->].
  destruct (dec_cols_spec _ _ _ _ _ _ S0 FB2 Dc) as (G1 & G2 & G3 & G4).
  assert (M : map (firstn (s_len x)) cols = map (firstn (s_len x)) (s_cols x)).
  { apply (rows_cols n); auto; [lia|congruence|]. intros i Hi. unfold rows in R. cbn [s_len s_cols] in R.
    apply (f_equal (fun l => nth_error l i)) in R. rewrite !nth_error_map in R. rewrite nth_error_nth' with (d := 0) in R by (rewrite seq_length; auto).
    rewrite seq_nth in R by auto. cbn in R. congruence. }
  rewrite (flat_firstn _ cs _ _ M) in G4. apply (f_equal (@length N)) in G4. rewrite !app_length in G4.
  assert (G5 : length (enc_cols (s_len x) cs (s_cols x)) >= length cs + length (flat_map (fun p => enc_all (c_enc (fst p)) (firstn (s_len x) (snd p))) (combine cs (s_cols x)))).
  { apply enc_cols_length; auto. eapply Forall_impl; [|exact C]. cbn. intros c Hc. lia. }
  destruct cs; [congruence|]. cbn [length] in *. lia.
Qed.
End SoaProofs.
