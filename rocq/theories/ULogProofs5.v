(** Streams refine the abstract list of sections. *)
From Coq Require Import List Arith NArith ZArith Bool Lia Sorted ZifyBool ZifyNat ZifyN.
From Verif Require Import Base BincodeModel BincodeSpec BincodeProofs ULogModel ULogSpec
  ULogProofs1 ULogProofs2 ULogProofs3 ULogProofs4.
Import ListNotations.
Open Scope N_scope.

Section Streams.
Context (ps slab_size : N) (Hps : page_ok ps).
Notation core := (core ps slab_size).
Notation img := (img ps slab_size).
Notation ext := (ext ps slab_size).
Notation sec_ok := (sec_ok ps).
Notation slab_img := (slab_img ps slab_size).
Notation matches := (matches ps).
Notation size_ok := (size_ok ps slab_size).

Definition abs (s : gsec) : asec := mkA (g_owner s) (g_type s) (g_req s) (g_objs s) (g_open s).

Lemma usable_spec min : min + ps <= 2 ^ 32 -> usable ps slab_size min = true <-> size_ok min.
Proof.
  intros H. unfold usable, ULogProofs4.size_ok. rewrite <- align_eq by auto.
  pose proof (align_bounds ps Hps min). rewrite andb_true_iff, !N.leb_le. lia.
Qed.

Lemma img_size_ok fs G1 s G2 : img fs (G1 ++ s :: G2) -> size_ok (g_req s).
Proof.
  intros I. destruct (img_sec_ok _ _ _ _ _ _ I) as (f & Hf & [K1 K2 K3 K4 K5]).
  destruct (im_slabs _ _ _ _ I _ _ Hf) as (e & [A1 A2 A3 A4] & _).
  rewrite on_split, Nat.eqb_refl in A4. apply Forall_app in A4. destruct A4 as [_ A4].
  inversion A4; subst. unfold ULogProofs4.size_ok, g_size in *. lia.
Qed.

(** ** Disjointness *)
Lemma nth_error_split2 {A} (l : list A) i j x y : (i < j)%nat ->
  nth_error l i = Some x -> nth_error l j = Some y ->
  exists l1 l2 l3, l = l1 ++ x :: l2 ++ y :: l3.
Proof.
  intros Hij Hi Hj. destruct (nth_error_split l i Hi) as (l1 & l2 & -> & Hl).
  rewrite nth_error_app2 in Hj by lia.
  destruct (j - length l1)%nat as [|m] eqn:E; [lia|]. cbn in Hj.
  destruct (nth_error_split l2 m Hj) as (l3 & l4 & -> & _). eauto.
Qed.

Lemma on_split2 k G1 x G2 y G3 : g_slab x = k -> g_slab y = k ->
  on k (G1 ++ x :: G2 ++ y :: G3) = on k G1 ++ x :: on k G2 ++ y :: on k G3.
Proof.
  intros Hx Hy. rewrite on_split, Hx, Nat.eqb_refl. f_equal. cbn. f_equal.
  now rewrite on_split, Hy, Nat.eqb_refl.
Qed.

Lemma img_disjoint fs G i j x y k a : img fs G -> nth_error G i = Some x ->
  nth_error G j = Some y -> within x k a -> within y k a -> i = j.
Proof.
  intros I Hi Hj.
  assert (Hlt : forall i j x y, (i < j)%nat -> nth_error G i = Some x -> nth_error G j = Some y ->
                within x k a -> within y k a -> False).
  { clear i j x y Hi Hj. intros i j x y Hij Hi Hj [Ex Hx] [Ey Hy].
    destruct (nth_error_split2 _ _ _ _ _ Hij Hi Hj) as (G1 & G2 & G3 & EG).
    pose proof (im_range _ _ _ _ I) as R. rewrite Forall_forall in R.
    specialize (R x (nth_error_In _ _ Hi)).
    destruct (nth_error fs (g_slab x)) as [f|] eqn:Ef; [|apply nth_error_None in Ef; lia].
    destruct (im_slabs _ _ _ _ I _ _ Ef) as (e & [A1 _ _ _] & _).
    rewrite EG, on_split2 in A1 by congruence.
    apply chain_app in A1. destruct A1 as (c & A1 & A2 & A3). 
    apply chain_app in A3. destruct A3 as (c' & A3 & A4 & A5).
    apply chain_le in A3. pose proof (g_size_req ps Hps x). lia. }
  intros Hx Hy. destruct (Nat.lt_trichotomy i j) as [H|[H|H]]; auto; exfalso; eauto.
Qed.

(** ** Logging into a section *)
Definition used_ok (s : gsec) (o : obj) : bool :=
  15 + blen (g_data s) + blen (obytes o) <=? g_req s.

Lemma encode_user_spec lg G1 s G2 h o : core lg (G1 ++ s :: G2) -> g_open s = true -> matches h s ->
  exists es r, encode_user h o = Ret (es, r) /\
    core (emits es lg) (G1 ++ s :: G2) /\
    ext lg (emits es lg) (fun G => G = G1 ++ s :: G2) /\
    wrote lg (emits es lg) (within s) /\
    lg_front (emits es lg) = lg_front lg /\ lg_suffix (emits es lg) = lg_suffix lg /\
    if used_ok s o
    then core (emits es lg) (G1 ++ grow s (obytes o) :: G2) /\
         r = if o_ok o then EncOk (blen (obytes o)) else EncOther
    else r = EncEnd.
Proof.
  intros C O (M1 & M2 & M3 & M4 & M5).
  destruct (img_sec_ok _ _ _ _ _ _ (c_img _ _ _ _ C)) as (f & Hf & Hok).
  pose proof Hok as [K1 K2 K3 K4 K5].
  unfold encode_user, MAX_HEADER_SIZE. rewrite M1, M2, M3, M4.
  destruct (N.ltb_spec (g_req s) (15 + blen (g_data s))); [lia|].
  pose proof (encode_into_spec ps slab_size Hps (o_ok o) (o_chunks o) lg G1 s G2
    (g_off s + 15 + blen (g_data s)) (g_req s - (15 + blen (g_data s))) C O) as H1.
  destruct (encode_into _ _ _ _ _) as [es r]. fold (obytes o) in H1.
  destruct H1 as (IC & IE & IW & IF & IS & IM & IR); try lia.
  exists es, r. split; [reflexivity|]. split; [exact IC|]. split; [exact IE|].
  split; [exact IW|]. split; [exact IF|]. split; [exact IS|].
  unfold used_ok. destruct (N.leb_spec (15 + blen (g_data s) + blen (obytes o)) (g_req s)).
  - destruct (N.ltb_spec (g_req s - (15 + blen (g_data s))) (blen (obytes o))); [lia|].
    split; auto. destruct (IM _ Hf) as (f' & Hf' & _ & Hb).
    eapply core_grow; eauto; try lia.
  - destruct (N.ltb_spec (g_req s - (15 + blen (g_data s))) (blen (obytes o))); [auto|lia].
Qed.

Lemma bump_spec h s o : matches h s -> used_ok s o = true -> g_req s < 2 ^ 32 ->
  exists h', bump h (blen (obytes o)) = Ret h' /\ matches h' (grow s (obytes o)).
Proof.
  intros (M1 & M2 & M3 & M4 & M5) U R. unfold used_ok in U. apply N.leb_le in U.
  unfold bump. rewrite N.mod_small by lia. rewrite M4.
  destruct (N.ltb_spec (blen (g_data s) + blen (obytes o)) (2 ^ 32)); [|lia].
  eexists. split; [reflexivity|]. repeat split; cbn [hd_slab hd_off hd_len hd_used hd_hdr]; auto. now rewrite grow_data, blen_app.
Qed.

Definition fits_new (s : gsec) (o : obj) : bool := o_ok o && (15 + blen (obytes o) <=? g_req s).

Lemma stream_log_spec lg G1 s G2 st o : core lg (G1 ++ s :: G2) -> frontpos lg ->
  g_open s = true -> matches (st_h st) s -> st_type st = g_type s -> st_min st = g_req s ->
  let gclosed := G1 ++ closed s :: G2 in
  if used_ok s o
  then exists st' lg', stream_log ps slab_size o st lg = Ret (st', lg', o_ok o) /\
    let s' := if o_ok o then grow s (obytes o) else s in
    core lg' (G1 ++ s' :: G2) /\ frontpos lg' /\
    ext lg lg' (fun G => G = G1 ++ s :: G2) /\ wrote lg lg' (within s) /\
    matches (st_h st') s' /\ st_type st' = g_type s /\ st_min st' = g_req s
  else if fits_new s o
  then exists st' lg' k off, stream_log ps slab_size o st lg = Ret (st', lg', true) /\
    let f := fresh k off (g_req s) (g_owner s) (g_type s) in
    core lg' (gclosed ++ [grow f (obytes o)]) /\ frontpos lg' /\
    ext lg lg' (fun G => G = G1 ++ s :: G2 \/ G = gclosed \/ G = gclosed ++ [f]) /\
    wrote lg lg' (fun k a => within s k a \/ within f k a) /\
    matches (st_h st') (grow f (obytes o)) /\ st_type st' = g_type s /\ st_min st' = g_req s
  else stream_log ps slab_size o st lg = Panic.
Proof.
  intros C FP O M Et Em gclosed. pose proof (img_size_ok _ _ _ _ (c_img _ _ _ _ C)) as SZ.
  assert (R32 : g_req s < 2 ^ 32).
  { destruct SZ as (_ & _ & SZ). pose proof (align_bounds ps Hps (g_req s)). lia. }
  unfold stream_log.
  destruct (encode_user_spec lg G1 s G2 (st_h st) o C O M) as (es & r & E & C1 & X1 & W1 & F1 & S1 & U).
  rewrite E. cbn [obind].
  assert (FP1 : frontpos (emits es lg)) by (unfold frontpos in *; now rewrite F1).
  destruct (used_ok s o) eqn:Hu.
  - destruct U as [C2 ->]. destruct (o_ok o) eqn:Ho.
    + destruct (bump_spec _ _ _ M Hu R32) as (h' & Eb & Mb). rewrite Eb. cbn [obind].
      eexists _, _. split; [reflexivity|]. cbn zeta.
      split; [exact C2|]. split; [exact FP1|]. split; [exact X1|]. split; [exact W1|].
      split; [exact Mb|]. auto.
    + eexists _, _. split; [reflexivity|]. cbn zeta.
      split; [exact C1|]. split; [exact FP1|]. split; [exact X1|]. split; [exact W1|]. auto.
  - subst r.
    destruct (flush_section_spec ps slab_size Hps _ _ _ _ _ C1 O M) as (lg2 & E2 & C2 & X2 & S2 & P2 & W2).
    rewrite E2. cbn [obind]. rewrite Et, Em.
    assert (FP2 : frontpos lg2) by (unfold frontpos in *; now rewrite P2).
    destruct (add_section_spec ps slab_size Hps lg2 gclosed (g_type s) (g_req s) (g_owner s) C2 FP2 SZ)
      as (lg3 & h & k & off & E3 & C3 & FP3 & X3 & W3 & M3 & _).
    rewrite E3. cbn [obind]. set (f := fresh k off (g_req s) (g_owner s) (g_type s)) in *.
    destruct (encode_user_spec lg3 gclosed f [] h o C3 eq_refl M3)
      as (es4 & r4 & E4 & C4 & X4 & W4 & F4 & S4 & U4).
    rewrite E4. cbn [obind].
    assert (Uf : used_ok f o = (15 + blen (obytes o) <=? g_req s)).
    { unfold used_ok. cbn [f fresh g_req]. change (blen (g_data f)) with 0. now f_equal. }
    unfold fits_new. rewrite Uf in U4.
    destruct (15 + blen (obytes o) <=? g_req s) eqn:H15.
    + destruct U4 as [C5 ->]. destruct (o_ok o) eqn:Ho; cbn [andb]; [|reflexivity].
      destruct (bump_spec h f o M3) as (h' & Eb & Mb); [rewrite Uf; auto|exact R32|].
      rewrite Eb. cbn [obind]. exists (mkStream (g_type s) h' (g_req s)), (emits es4 lg3), k, off.
      rewrite <- ?Et, <- ?Em. split; [reflexivity|]. rewrite ?Et, ?Em. cbn zeta. fold f.
      split; [exact C5|]. split; [unfold frontpos in *; now rewrite F4|].
      split.
      { eapply ext_trans; [eapply ext_weaken; [|exact X1]; auto|].
        eapply ext_trans; [eapply ext_weaken; [|exact X2]; auto|].
        eapply ext_trans; [eapply ext_weaken; [|exact X3]; cbn; tauto|].
        eapply ext_weaken; [|exact X4]; auto. }
      split.
      { eapply wrote_trans; [eapply wrote_weaken; [|exact W1]; auto|].
        eapply wrote_trans; [eapply wrote_weaken; [|exact W2]; auto|].
        eapply wrote_trans; [eapply wrote_weaken; [|exact W3]; auto|].
        eapply wrote_weaken; [|exact W4]; auto. }
      split; [exact Mb|]. auto.
    + subst r4. rewrite andb_false_r. reflexivity.
Qed.

(** ** System invariant *)
Record srel (strs : list (option stream)) (G : list gsec) : Prop := {
  sv_open : forall p s, nth_error G p = Some s -> g_open s = true ->
     exists st, nth_error strs (g_owner s) = Some (Some st) /\
       matches (st_h st) s /\ st_type st = g_type s /\ st_min st = g_req s;
  sv_stream : forall i st, nth_error strs i = Some (Some st) ->
     exists p s, nth_error G p = Some s /\ g_open s = true /\ g_owner s = i;
  sv_one : forall p q s t, nth_error G p = Some s -> nth_error G q = Some t ->
     g_open s = true -> g_open t = true -> g_owner s = g_owner t -> p = q;
  sv_owner : Forall (fun s => (g_owner s < length strs)%nat) G }.

Record sinv (sy : sys) (G : list gsec) : Prop := {
  sv_core : core (sy_lg sy) G;
  sv_front : frontpos (sy_lg sy);
  sv_rel : srel (sy_streams sy) G }.

Definition gevolves (s s' : gsec) : Prop :=
  same_place s s' /\ (exists l, g_objs s' = g_objs s ++ l) /\ (g_open s = false -> s' = s).
Definition gprogress (G G' : list gsec) : Prop :=
  exists G1 G2, G' = G1 ++ G2 /\ Forall2 gevolves G G1.

Lemma gevolves_refl s : gevolves s s.
Proof. repeat split; auto. exists []. now rewrite app_nil_r. Qed.

Lemma gevolves_trans a b c : gevolves a b -> gevolves b c -> gevolves a c.
Proof.
  intros ((A1 & A2 & A3 & A4 & A5) & (l & A6) & A7) ((B1 & B2 & B3 & B4 & B5) & (l' & B6) & B7).
  split; [repeat split; congruence|]. split.
  - exists (l ++ l'). now rewrite B6, A6, app_assoc.
  - intros H. specialize (A7 H). subst b. auto.
Qed.

Lemma gevolves_grow s o : g_open s = true -> gevolves s (grow s o).
Proof. intros O. repeat split; cbn; eauto. congruence. Qed.

Lemma gevolves_closed s : g_open s = true -> gevolves s (closed s).
Proof. intros O. repeat split; cbn; [exists []; now rewrite app_nil_r|congruence]. Qed.

Lemma Forall2_refl {A} (R : A -> A -> Prop) l : (forall x, R x x) -> Forall2 R l l.
Proof. intros H. induction l; auto. Qed.

Lemma gprogress_refl G : gprogress G G.
Proof. exists G, []. rewrite app_nil_r. split; auto. apply Forall2_refl, gevolves_refl. Qed.

Lemma gprogress_trans A B C : gprogress A B -> gprogress B C -> gprogress A C.
Proof.
  intros (B1 & B2 & -> & H1) (C1 & C2 & -> & H2).
  apply Forall2_app_inv_l in H2. destruct H2 as (D1 & D2 & H2 & H3 & ->).
  exists D1, (D2 ++ C2). rewrite app_assoc. split; auto.
  clear -H1 H2. revert D1 H2. induction H1 as [|a b l l' H _ IH]; intros D1 H2; inversion H2; subst; auto.
  constructor; eauto using gevolves_trans.
Qed.

Lemma gprogress_mid G1 s s' G2 : gevolves s s' -> gprogress (G1 ++ s :: G2) (G1 ++ s' :: G2).
Proof.
  intros H. exists (G1 ++ s' :: G2), []. rewrite app_nil_r. split; auto.
  apply Forall2_app; [apply Forall2_refl, gevolves_refl|].
  constructor; auto. apply Forall2_refl, gevolves_refl.
Qed.

Lemma gprogress_app G G2 : gprogress G (G ++ G2).
Proof. exists G, G2. split; auto. apply Forall2_refl, gevolves_refl. Qed.

Lemma gprogress_nth G G' p s : gprogress G G' -> nth_error G p = Some s ->
  exists s', nth_error G' p = Some s' /\ gevolves s s'.
Proof.
  intros (G1 & G2 & -> & H) Hp.
  assert (H2 : exists s', nth_error G1 p = Some s' /\ gevolves s s').
  { clear -H Hp. revert p Hp. induction H; intros [|p] Hp; cbn in *; try discriminate.
    - injection Hp as <-. eauto.
    - eauto. }
  destruct H2 as (s' & H2 & H3). exists s'. split; auto.
  rewrite nth_error_app1; auto. apply nth_error_Some. congruence.
Qed.

Lemma gprogress_abs G G' : gprogress G G' -> progress (map abs G) (map abs G').
Proof.
  intros (G1 & G2 & -> & H). exists (map abs G1), (map abs G2). rewrite map_app. split; auto.
  induction H as [|x y l l' ((A1 & A2 & A3 & A4 & A5) & (l0 & A6) & A7) _ IH]; cbn; auto.
  constructor; auto. repeat split; cbn; eauto. intros O. cbn in O. now rewrite A7.
Qed.

(** ** Focus *)
Lemma focus_split i G1 s G2 : g_open s = true -> g_owner s = i ->
  Forall (fun x => g_open x = true -> g_owner x <> i) G1 ->
  focus i (map abs (G1 ++ s :: G2)) = Some (map abs G1, abs s, map abs G2).
Proof.
  intros O E. induction 1 as [|x G1 H _ IH]; cbn.
  - rewrite O, E, Nat.eqb_refl. reflexivity.
  - cbn in IH. rewrite IH. destruct (g_open x); cbn; auto.
    destruct (Nat.eqb_spec (g_owner x) i); auto. exfalso. apply H; auto.
Qed.

Lemma focus_none i G : Forall (fun x => g_open x = true -> g_owner x <> i) G ->
  focus i (map abs G) = None.
Proof.
  induction 1 as [|x G1 H _ IH]; cbn; auto. rewrite IH. destruct (g_open x); cbn; auto.
  destruct (Nat.eqb_spec (g_owner x) i); auto. exfalso. apply H; auto.
Qed.

Lemma stream_section strs G i st : srel strs G -> nth_error strs i = Some (Some st) ->
  exists G1 s G2, G = G1 ++ s :: G2 /\ g_open s = true /\ g_owner s = i /\
    matches (st_h st) s /\ st_type st = g_type s /\ st_min st = g_req s /\
    focus i (map abs G) = Some (map abs G1, abs s, map abs G2) /\
    Forall (fun x => g_open x = true -> g_owner x <> i) (G1 ++ G2).
Proof.
  intros I H. destruct (sv_stream _ _ I _ _ H) as (p & s & Hp & O & E).
  destruct (sv_open _ _ I _ _ Hp O) as (st' & H' & M & Ty & Mi). rewrite E, H in H'.
  injection H' as <-. destruct (nth_error_split G p Hp) as (G1 & G2 & EG & Lp).
  assert (Hoth : Forall (fun x => g_open x = true -> g_owner x <> i) (G1 ++ G2)).
  { apply Forall_forall. intros x Hx Ox Ex.
    assert (Hq : exists q, nth_error G q = Some x /\ q <> p).
    { apply in_app_or in Hx. destruct Hx as [Hx|Hx]; apply In_nth_error in Hx; destruct Hx as (q & Hq).
      - exists q. assert (q < length G1)%nat by (apply nth_error_Some; congruence).
        rewrite EG, nth_error_app1 by auto. split; auto. lia.
      - exists (length G1 + S q)%nat. rewrite EG, nth_error_app2 by lia.
        replace (length G1 + S q - length G1)%nat with (S q) by lia. split; auto. lia. }
    destruct Hq as (q & Hq & Hn). apply Hn. eapply (sv_one _ _ I); eauto. congruence. }
  exists G1, s, G2. do 6 (split; [auto|]).
  split; [|exact Hoth].
  apply Forall_app in Hoth. rewrite EG. apply focus_split; tauto.
Qed.

Lemma no_stream_focus strs G i : srel strs G ->
  (forall st, nth_error strs i <> Some (Some st)) -> focus i (map abs G) = None.
Proof.
  intros I H. apply focus_none, Forall_forall. intros x Hx O E.
  apply In_nth_error in Hx. destruct Hx as (p & Hp).
  destruct (sv_open _ _ I _ _ Hp O) as (st & Hst & _). rewrite E in Hst. apply (H st Hst).
Qed.

(** ** Maintaining the invariant *)
Lemma nth_error_mid {A} (l1 : list A) x l2 q y : nth_error (l1 ++ x :: l2) q = Some y ->
  (q = length l1 /\ y = x) \/ (q <> length l1 /\ In y (l1 ++ l2) /\
     forall x', nth_error (l1 ++ x' :: l2) q = Some y).
Proof.
  intros H. destruct (Nat.lt_trichotomy q (length l1)) as [L|[L|L]].
  - right. rewrite nth_error_app1 in H by auto. split; [lia|]. split.
    + apply in_or_app. left. eapply nth_error_In; eauto.
    + intros x'. now rewrite nth_error_app1.
  - left. subst q. rewrite nth_error_app2, Nat.sub_diag in H by lia. cbn in H. split; congruence.
  - right. rewrite nth_error_app2 in H by lia.
    destruct (q - length l1)%nat as [|m] eqn:E; [lia|]. cbn in H. split; [lia|]. split.
    + apply in_or_app. right. eapply nth_error_In; eauto.
    + intros x'. rewrite nth_error_app2, E by lia. auto.
Qed.

Lemma nth_error_here {A} (l1 : list A) x l2 : nth_error (l1 ++ x :: l2) (length l1) = Some x.
Proof. rewrite nth_error_app2, Nat.sub_diag by lia. reflexivity. Qed.

(** Replace the section of stream [i] by a later stage of it, still open. *)
Lemma srel_update strs G1 s s' G2 st i : srel strs (G1 ++ s :: G2) ->
  g_open s = true -> g_owner s = i -> g_open s' = true -> same_place s s' ->
  matches (st_h st) s' -> st_type st = g_type s -> st_min st = g_req s ->
  srel (upd i (Some st) strs) (G1 ++ s' :: G2).
Proof.
  intros I O E O' (P1 & P2 & P3 & P4 & P5) M Ty Mi.
  assert (Hi : (i < length strs)%nat).
  { destruct (sv_open _ _ I _ _ (nth_error_here G1 s G2) O) as (st0 & H & _).
    apply nth_error_Some. rewrite <- E. congruence. }
  constructor; auto.
  - intros q x Hq Ox. apply nth_error_mid in Hq.
    destruct Hq as [[-> ->]|(Hn & Hin & Hq)].
    + exists st. rewrite P4, E. rewrite nth_error_upd_eq by auto. repeat (split; [auto; congruence|]). congruence.
    + specialize (Hq s). destruct (sv_open _ _ I _ _ Hq Ox) as (st0 & H0 & H1).
      exists st0. split; auto. rewrite nth_error_upd_neq; auto.
      intros Heq. apply Hn. eapply (sv_one _ _ I); eauto using nth_error_here. congruence.
  - intros j st0 Hj. destruct (Nat.eq_dec j i) as [->|Hn].
    + exists (length G1), s'. rewrite nth_error_here. repeat split; auto. congruence.
    + rewrite nth_error_upd_neq in Hj by auto. destruct (sv_stream _ _ I _ _ Hj) as (q & x & Hq & Ox & Ex).
      apply nth_error_mid in Hq. destruct Hq as [[-> ->]|(_ & _ & Hq)]; [congruence|].
      exists q, x. auto.
  - assert (T : forall q x, nth_error (G1 ++ s' :: G2) q = Some x -> g_open x = true ->
       exists x', nth_error (G1 ++ s :: G2) q = Some x' /\ g_open x' = true /\ g_owner x' = g_owner x).
    { intros q x Hq Ox. apply nth_error_mid in Hq. destruct Hq as [[-> ->]|(_ & _ & Hq)].
      - exists s. rewrite nth_error_here. repeat split; auto.
      - exists x. auto. }
    intros p q x y Hp Hq Ox Oy Exy. destruct (T _ _ Hp Ox) as (x' & A1 & A2 & A3).
    destruct (T _ _ Hq Oy) as (y' & B1 & B2 & B3). eapply (sv_one _ _ I); eauto. congruence.
  - rewrite upd_length. pose proof (sv_owner _ _ I) as F.
    apply Forall_app in F. destruct F as [F1 F2]. inversion F2; subst.
    apply Forall_app. split; auto. constructor; auto. rewrite P4. auto.
Qed.

(** Close the section of stream [i]. *)
Lemma srel_close strs G1 s G2 i : srel strs (G1 ++ s :: G2) ->
  g_open s = true -> g_owner s = i ->
  srel (upd i None strs) (G1 ++ closed s :: G2).
Proof.
  intros I O E.
  assert (Hi : (i < length strs)%nat).
  { destruct (sv_open _ _ I _ _ (nth_error_here G1 s G2) O) as (st0 & H & _).
    apply nth_error_Some. rewrite <- E. congruence. }
  constructor; auto.
  - intros q x Hq Ox. apply nth_error_mid in Hq.
    destruct Hq as [[-> ->]|(Hn & Hin & Hq)]; [discriminate|].
    specialize (Hq s). destruct (sv_open _ _ I _ _ Hq Ox) as (st0 & H0 & H1).
    exists st0. split; auto. rewrite nth_error_upd_neq; auto.
    intros Heq. apply Hn. eapply (sv_one _ _ I); eauto using nth_error_here. congruence.
  - intros j st0 Hj. destruct (Nat.eq_dec j i) as [->|Hn].
    + rewrite nth_error_upd_eq in Hj by auto. discriminate.
    + rewrite nth_error_upd_neq in Hj by auto. destruct (sv_stream _ _ I _ _ Hj) as (q & x & Hq & Ox & Ex).
      apply nth_error_mid in Hq. destruct Hq as [[-> ->]|(_ & _ & Hq)]; [congruence|].
      exists q, x. auto.
  - assert (T : forall q x, nth_error (G1 ++ closed s :: G2) q = Some x -> g_open x = true ->
       nth_error (G1 ++ s :: G2) q = Some x).
    { intros q x Hq Ox. apply nth_error_mid in Hq. destruct Hq as [[-> ->]|(_ & _ & Hq)]; [discriminate|auto]. }
    intros p q x y Hp Hq Ox Oy Exy. eapply (sv_one _ _ I); eauto.
  - rewrite upd_length. pose proof (sv_owner _ _ I) as F.
    apply Forall_app in F. destruct F as [F1 F2]. inversion F2; subst.
    apply Forall_app. split; auto. 
Qed.

(** Append a section for stream [i], which has none. *)
Lemma srel_snoc strs G f st i : srel strs G ->
  Forall (fun x => g_open x = true -> g_owner x <> i) G ->
  g_open f = true -> g_owner f = i ->
  matches (st_h st) f -> st_type st = g_type f -> st_min st = g_req f ->
  forall strs', (forall j, j <> i -> nth_error strs' j = nth_error strs j) ->
    nth_error strs' i = Some (Some st) ->
  srel strs' (G ++ [f]).
Proof.
  intros I N O E M Ty Mi strs' Hj Hi. constructor; auto.
  - intros q x Hq Ox. apply nth_error_snoc in Hq. destruct Hq as [[-> ->]|Hq].
    + exists st. rewrite E. auto.
    + destruct (sv_open _ _ I _ _ Hq Ox) as (st0 & H0 & H1). exists st0. split; auto.
      rewrite Hj; auto. rewrite Forall_forall in N.
      apply N; auto. eapply nth_error_In; eauto.
  - intros j st0 H. destruct (Nat.eq_dec j i) as [->|Hn].
    + exists (length G), f. rewrite nth_error_here. auto.
    + rewrite Hj in H by auto. destruct (sv_stream _ _ I _ _ H) as (q & x & Hq & Ox & Ex).
      exists q, x. split; auto. rewrite nth_error_app1; auto. apply nth_error_Some. congruence.
  - intros p q x y Hp Hq Ox Oy Exy. rewrite Forall_forall in N.
    apply nth_error_snoc in Hp. apply nth_error_snoc in Hq.
    destruct Hp as [[-> ->]|Hp], Hq as [[-> ->]|Hq]; auto.
    + exfalso. apply (N y); auto; [eapply nth_error_In; eauto|congruence].
    + exfalso. apply (N x); auto; [eapply nth_error_In; eauto|congruence].
    + eapply (sv_one _ _ I); eauto.
  - pose proof (sv_owner _ _ I) as F.
    assert (Hlen : (length strs <= length strs')%nat /\ (i < length strs')%nat).
    { assert (Hl : (i < length strs')%nat) by (apply nth_error_Some; congruence). split; auto.
      destruct (Nat.le_gt_cases (length strs) (length strs')) as [|H]; auto. exfalso.
      assert (Hx : nth_error strs' (length strs') = None) by (apply nth_error_None; auto).
      rewrite Hj in Hx by lia. apply nth_error_None in Hx. lia. }
    apply Forall_app. split; [|constructor; auto; lia].
    eapply Forall_impl; [|exact F]. cbn. lia.
Qed.

(** ** One step *)
(** Where an operation may write: nowhere in an existing section, except the
    open section of the stream it acts on. *)
Definition may_write (G : list gsec) (op : lop) (k : nat) (a : N) : Prop :=
  forall p x, nth_error G p = Some x -> within x k a -> g_open x = true /\ actor op = Some (g_owner x).

Lemma within_place s s' k a : same_place s s' -> within s k a <-> within s' k a.
Proof. intros (P1 & P2 & P3 & _). unfold within. rewrite P1, P2, P3. tauto. Qed.

Lemma may_write_self fs G1 s G2 op : img fs (G1 ++ s :: G2) -> g_open s = true ->
  actor op = Some (g_owner s) ->
  forall k a, within s k a -> may_write (G1 ++ s :: G2) op k a.
Proof.
  intros I O A k a W p x Hp Wx.
  assert (p = length G1) as -> by (eapply img_disjoint; eauto using nth_error_here).
  rewrite nth_error_here in Hp. injection Hp as <-. auto.
Qed.

Lemma may_write_new fs G G' f op : img fs (G' ++ [f]) -> gprogress G G' ->
  forall k a, within f k a -> may_write G op k a.
Proof.
  intros I P k a W p x Hp Wx. exfalso.
  destruct (gprogress_nth _ _ _ _ P Hp) as (x' & Hx' & Ev & _).
  assert (Hlt : (p < length G')%nat) by (apply nth_error_Some; congruence).
  assert (p = length G').
  { eapply img_disjoint; [exact I| |apply nth_error_here| |exact W].
    - rewrite nth_error_app1 by auto. exact Hx'.
    - apply (within_place _ _ _ _ Ev). exact Wx. }
  lia.
Qed.

Definition op_ok (op : lop) : Prop :=
  match op with LOpen _ min => min + ps <= 2 ^ 32 | _ => True end.

Lemma step_spec sy G op : sinv sy G -> op_ok op ->
  match lstep ps slab_size sy op with
  | Ret sy' => exists G', sinv sy' G' /\ gprogress G G' /\
      astep ps slab_size (length (sy_streams sy), map abs G) op =
        Some (length (sy_streams sy'), map abs G') /\
      ext (sy_lg sy) (sy_lg sy') (fun X => gprogress G X /\ gprogress X G') /\
      wrote (sy_lg sy) (sy_lg sy') (may_write G op)
  | Panic => astep ps slab_size (length (sy_streams sy), map abs G) op = None
  end.
Proof.
  intros I Hop. destruct I as [C FP I].
  destruct op as [t min|i o|i]; cbn [lstep astep].
  - (* open *)
    cbn in Hop. unfold stream_new. pose proof (align_bounds ps Hps min) as AB.
    destruct (usable ps slab_size min) eqn:U.
    + apply usable_spec in U; auto.
      destruct (add_section_spec ps slab_size Hps _ G t min (length (sy_streams sy)) C FP U)
        as (lg' & h & k & off & E & C' & FP' & X & W & M & _).
      rewrite E. cbn [obind]. set (f := fresh k off min (length (sy_streams sy)) t) in *.
      exists (G ++ [f]). split; [|split; [apply gprogress_app|split; [|split]]].
      * constructor; [exact C'|exact FP'|].
        eapply (srel_snoc _ G f (mkStream t h min) (length (sy_streams sy)) I); auto.
        -- eapply Forall_impl; [|apply (sv_owner _ _ I)]. cbn. lia.
        -- intros j Hj. cbn [sy_streams]. destruct (Nat.lt_ge_cases j (length (sy_streams sy))).
           ++ now rewrite nth_error_app1.
           ++ rewrite nth_error_app2 by auto. 
              destruct (j - length (sy_streams sy))%nat as [|m] eqn:Em; [lia|].
              symmetry. cbn. rewrite (proj2 (nth_error_None _ _) H). destruct m; auto.
        -- apply nth_error_here.
      * cbn [sy_streams]. rewrite map_app, app_length. cbn [length map]. do 2 f_equal. lia.
      * eapply ext_weaken; [|exact X]. intros X' [-> | ->].
        -- split; [apply gprogress_refl|apply gprogress_app].
        -- split; [apply gprogress_app|apply gprogress_refl].
      * eapply wrote_weaken; [|exact W]. intros k0 a0 H0.
        eapply may_write_new; eauto using gprogress_refl. apply C'.
    + rewrite (add_section_panics ps slab_size Hps _ _ _ _ C); [reflexivity|lia|].
      intros H. apply usable_spec in H; auto. congruence.
  - (* log *)
    destruct (nth_error (sy_streams sy) i) as [[st|]|] eqn:Hst.
    2,3: rewrite (no_stream_focus _ _ _ I); [reflexivity|congruence].
    destruct (stream_section _ _ _ _ I Hst) as (G1 & s & G2 & -> & O & Ow & M & Ty & Mi & F & N).
    rewrite F. cbn [a_min abs a_type]. change (a_used (abs s)) with (blen (g_data s)).
    pose proof (stream_log_spec _ _ _ _ st o C FP O M Ty Mi) as H. cbn zeta in H.
    fold (used_ok s o). destruct (used_ok s o) eqn:U.
    + destruct H as (st' & lg' & E & C' & FP' & X & W & M' & Ty' & Mi'). rewrite E. cbn [obind].
      assert (Hs' : g_open (if o_ok o then grow s (obytes o) else s) = true /\
                    same_place s (if o_ok o then grow s (obytes o) else s) /\
                    gevolves s (if o_ok o then grow s (obytes o) else s)).
      { destruct (o_ok o); split; auto; split; auto using gevolves_refl, gevolves_grow; repeat split. }
      destruct Hs' as (O' & SP & GE).
      exists (G1 ++ (if o_ok o then grow s (obytes o) else s) :: G2).
      split; [|split; [|split; [|split]]].
      * constructor; [exact C'|exact FP'|]. eapply srel_update; eauto.
      * now apply gprogress_mid.
      * cbn [sy_streams]. rewrite upd_length. do 2 f_equal. 
        destruct (o_ok o); rewrite !map_app; reflexivity.
      * eapply ext_weaken; [|exact X]. intros X' ->. split; [apply gprogress_refl|now apply gprogress_mid].
      * eapply wrote_weaken; [|exact W]. intros k0 a0 H0. eapply may_write_self; eauto; [apply C|].
        cbn. now rewrite Ow.
    + fold (fits_new s o). destruct (fits_new s o) eqn:U2.
      * destruct H as (st' & lg' & k & off & E & C' & FP' & X & W & M' & Ty' & Mi').
        rewrite E. cbn [obind]. rewrite <- Ow.
        set (f := fresh k off (g_req s) (g_owner s) (g_type s)) in *.
        assert (P1 : gprogress (G1 ++ s :: G2) (G1 ++ closed s :: G2))
          by (apply gprogress_mid, gevolves_closed; auto).
        assert (P2 : gprogress (G1 ++ closed s :: G2) ((G1 ++ closed s :: G2) ++ [grow f (obytes o)]))
          by apply gprogress_app.
        assert (P3 : gprogress ((G1 ++ closed s :: G2) ++ [f]) ((G1 ++ closed s :: G2) ++ [grow f (obytes o)]))
          by (apply gprogress_mid, gevolves_grow; auto).
        exists ((G1 ++ closed s :: G2) ++ [grow f (obytes o)]).
        split; [|split; [|split; [|split]]].
        -- assert (Hi : (i < length (sy_streams sy))%nat) by (apply nth_error_Some; congruence).
           constructor; [exact C'|exact FP'|]. cbn [sy_streams].
           assert (I0 := srel_close _ G1 s G2 i I O Ow).
           eapply (srel_snoc _ _ (grow f (obytes o)) st' i I0); auto.
           ++ apply Forall_app in N. destruct N as [N1 N2].
              apply Forall_app. split; auto. constructor; auto. cbn. congruence.
           ++ intros j Hj. rewrite !nth_error_upd_neq by congruence. auto.
           ++ rewrite Ow. now apply nth_error_upd_eq.
        -- eapply gprogress_trans; eauto.
        -- cbn [sy_streams]. rewrite upd_length. do 2 f_equal.
           rewrite !map_app. cbn [map]. rewrite <- app_assoc. reflexivity.
        -- eapply ext_weaken; [|exact X]. intros X' [-> | [-> | ->]].
           ++ split; [apply gprogress_refl|eapply gprogress_trans; eauto].
           ++ auto.
           ++ split; auto. eapply gprogress_trans; [exact P1|apply gprogress_app].
        -- eapply wrote_weaken; [|exact W]. intros k0 a0 [H0|H0].
           ++ eapply may_write_self; eauto. apply C.
           ++ eapply may_write_new; [apply C'|exact P1|exact H0].
      * rewrite H. reflexivity.
  - (* close *)
    destruct (nth_error (sy_streams sy) i) as [[st|]|] eqn:Hst.
    2,3: rewrite (no_stream_focus _ _ _ I); [reflexivity|congruence].
    destruct (stream_section _ _ _ _ I Hst) as (G1 & s & G2 & -> & O & Ow & M & Ty & Mi & F & N).
    rewrite F. unfold stream_drop.
    destruct (flush_section_spec ps slab_size Hps _ _ _ _ _ C O M) as (lg' & E & C' & X & S' & P' & W).
    rewrite E. cbn [obind].
    assert (P1 : gprogress (G1 ++ s :: G2) (G1 ++ closed s :: G2))
      by (apply gprogress_mid, gevolves_closed; auto).
    exists (G1 ++ closed s :: G2). split; [|split; [|split; [|split]]]; auto.
    + constructor; auto.
      * unfold frontpos in *. cbn [sy_lg]. now rewrite P'.
      * cbn [sy_streams]. now apply srel_close.
    + cbn [sy_streams]. rewrite upd_length, !map_app. reflexivity.
    + eapply ext_weaken; [|exact X]. intros X' ->. split; auto using gprogress_refl.
    + eapply wrote_weaken; [|exact W]. intros k0 a0 H0. eapply may_write_self; eauto; [apply C|].
      cbn. now rewrite Ow.
Qed.
End Streams.
