(** Each writer operation preserves the invariant. *)
From Coq Require Import List Arith NArith ZArith Bool Lia Sorted ZifyBool ZifyNat ZifyN.
From Verif Require Import Base BincodeModel BincodeSpec BincodeProofs ULogModel ULogSpec
  ULogProofs1 ULogProofs2.
Import ListNotations.
Open Scope N_scope.

Section Ops.
Context (ps slab_size : N) (Hps : page_ok ps).
Notation core := (core ps slab_size).
Notation img := (img ps slab_size).
Notation ext := (ext ps slab_size).
Notation live := (live ps).
Notation sec_ok := (sec_ok ps).
Notation slab_img := (slab_img ps slab_size).

Lemma core_img_e lg G k f : core lg G -> nth_error (lg_files lg) k = Some f ->
  exists e, slab_img k f G e.
Proof.
  intros C Hf. destruct (im_slabs _ _ _ _ (c_img _ _ _ _ C) _ _ Hf) as (e & H & _). eauto.
Qed.

Lemma slab_img_unique k f f' G e e' : slab_img k f G e -> slab_img k f' G e' -> e = e'.
Proof. intros [H _ _ _] [H' _ _ _]. eapply chain_unique; eauto. Qed.

Lemma open_status lg G1 s G2 : core lg (G1 ++ s :: G2) -> g_open s = true ->
  exists sl, status lg (g_slab s) = Some sl.
Proof.
  intros C O. destruct (img_sec_ok ps slab_size _ _ _ _ (c_img _ _ _ _ C)) as (f & Hf & _).
  destruct (core_img_e _ _ _ _ C Hf) as (e & SI).
  pose proof (c_slabs _ _ _ _ C _ _ _ Hf SI) as H.
  destruct (status lg (g_slab s)) as [sl|]; eauto.
  exfalso. eapply trimmed_no_open; eauto.
Qed.

(** Main preservation lemma: an open section is redescribed. *)
Lemma core_update lg lg' G1 s s' G2 :
  core lg (G1 ++ s :: G2) -> g_open s = true -> same_place s s' ->
  change_in s (lg_files lg) (lg_files lg') ->
  (forall f', nth_error (lg_files lg') (g_slab s) = Some f' -> sec_ok (f_mem f') s') ->
  lg_suffix lg' = lg_suffix lg ->
  map fst (lg_back lg') = map fst (lg_back lg) ->
  Forall (fun p => 0 < sl_pos (snd p)) (lg_back lg') ->
  replay (lg_evs lg') = lg_files lg' ->
  (forall k, k <> g_slab s -> status lg' k = status lg k) ->
  (forall sl e, status lg (g_slab s) = Some sl -> live (g_slab s) sl (G1 ++ s :: G2) e ->
     exists sl', status lg' (g_slab s) = Some sl' /\ live (g_slab s) sl' (G1 ++ s' :: G2) e) ->
  core lg' (G1 ++ s' :: G2).
Proof.
  intros C O SP CI Hs' Hsu Hb Hbp Hre Hst Hlive.
  pose proof CI as [CL CF].
  constructor; auto.
  - eapply img_update; eauto. apply C.
  - rewrite CL, Hsu. apply C.
  - intros k f' e Hf' SI'.
    destruct (CF _ _ Hf') as (f & Hf & El & Em).
    destruct (core_img_e _ _ _ _ C Hf) as (e0 & SI).
    assert (e0 = e) as ->.
    { destruct SI as [H _ _ _], SI' as [H' _ _ _]. rewrite on_split in *.
      destruct SP as (S1 & SP). rewrite S1 in H'.
      destruct (Nat.eqb (g_slab s) k); cbn [app] in *.
      - eapply chain_replace in H; [|split; [exact S1|exact SP]]. eapply chain_unique; eauto.
      - eapply chain_unique; eauto. }
    pose proof (c_slabs _ _ _ _ C _ _ _ Hf SI) as H.
    destruct (Nat.eq_dec k (g_slab s)) as [->|Hk].
    + destruct (open_status _ _ _ _ C O) as (sl & Esl). rewrite Esl in H. destruct H as [Hl HL].
      destruct (Hlive _ _ Esl HL) as (sl' & -> & HL'). split; auto. congruence.
    + rewrite Hst by auto. destruct (status lg k) as [sl|].
      * destruct H as [Hl [L1 L2 L3 L4 L5 L6]]. split; [congruence|].
        destruct SP as (S1 & _). rewrite on_split in *.
        constructor; rewrite ?on_split, ?S1; destruct (Nat.eqb_spec (g_slab s) k); try congruence; auto.
      * eapply trimmed_update; eauto.
  - rewrite Hsu. pose proof (c_back _ _ _ _ C) as B.
    rewrite Forall_forall in *. intros p Hp.
    assert (Hin : In (fst p) (map fst (lg_back lg'))) by now apply in_map.
    rewrite Hb in Hin. apply in_map_iff in Hin. destruct Hin as (q & <- & Hq). auto.
  - rewrite Hb. apply C.
Qed.

Lemma live_same_open k sl G1 s s' G2 e : same_place s s' -> g_open s' = g_open s ->
  live k sl (G1 ++ s :: G2) e -> live k sl (G1 ++ s' :: G2) e.
Proof.
  intros (S1 & S2 & S3 & _) O [L1 L2 L3 L4 L5 L6].
  constructor; auto; rewrite on_split in *; rewrite S1.
  - apply Forall_app in L3. destruct L3 as [A B]. apply Forall_app. split; auto.
    destruct (Nat.eqb (g_slab s) k); cbn [app] in *; auto. inversion B; subst.
    constructor; auto. rewrite S2, S3. auto.
  - rewrite L4. rewrite !filter_app, !map_app. f_equal.
    destruct (Nat.eqb (g_slab s) k); cbn [app filter]; auto. rewrite O.
    destruct (g_open s); cbn [map app]; rewrite ?S2; auto.
Qed.

Lemma emit_files e lg : lg_files (emit e lg) = apply_ev e (lg_files lg).
Proof. reflexivity. Qed.
Lemma emit_status e lg k : status (emit e lg) k = status lg k.
Proof. reflexivity. Qed.
Lemma emit_replay e lg : replay (lg_evs lg) = lg_files lg ->
  replay (lg_evs (emit e lg)) = lg_files (emit e lg).
Proof. intros H. cbn [emit lg_evs lg_files]. now rewrite replay_snoc, H. Qed.

(** A write in the unused part of an open section changes no description. *)
Lemma core_write_free lg G1 s G2 off bs :
  core lg (G1 ++ s :: G2) -> g_open s = true ->
  g_off s + 15 + blen (g_data s) <= off -> off + blen bs <= g_off s + g_req s ->
  core (emit (EvWrite (g_slab s) off bs) lg) (G1 ++ s :: G2).
Proof.
  intros C O H1 H2.
  destruct (img_sec_ok ps slab_size _ _ _ _ (c_img _ _ _ _ C)) as (f & Hf & Hok).
  eapply core_update; eauto; try reflexivity; try apply C.
  - repeat split; auto.
  - apply change_in_write; lia.
  - intros f' Hf'. rewrite emit_files in Hf'. cbn [apply_ev] in Hf'.
    rewrite (modify_file_same _ _ _ _ Hf) in Hf'. injection Hf' as <-. cbn [f_mem].
    pose proof (g_hdr_len ps Hps _ _ Hok) as Hl. destruct Hok as [K1 K2 K3 K4 K5].
    constructor; auto; apply bytes_at_wr; auto; lia.
  - apply emit_replay, C.
Qed.

Definition grow (s : gsec) (o : bytes) : gsec :=
  mkG (g_slab s) (g_off s) (g_req s) (g_owner s) (g_type s) (g_objs s ++ [o]) (g_open s).

Lemma grow_data s o : g_data (grow s o) = g_data s ++ o.
Proof. unfold g_data. cbn. rewrite concat_app. cbn. now rewrite app_nil_r. Qed.

Lemma core_grow lg G1 s G2 o f :
  core lg (G1 ++ s :: G2) -> g_open s = true ->
  15 + blen (g_data s) + blen o <= g_req s ->
  nth_error (lg_files lg) (g_slab s) = Some f ->
  bytes_at (f_mem f) (g_off s + 15 + blen (g_data s)) o ->
  core lg (G1 ++ grow s o :: G2).
Proof.
  intros C O Hfit Hf Hb.
  destruct (img_sec_ok ps slab_size _ _ _ _ (c_img _ _ _ _ C)) as (f0 & Hf0 & Hok).
  rewrite Hf in Hf0. injection Hf0 as <-.
  eapply core_update; eauto; try reflexivity; try apply C.
  - repeat split; auto.
  - apply change_in_refl.
  - intros f' Hf'. rewrite Hf in Hf'. injection Hf' as <-. destruct Hok as [K1 K2 K3 K4 K5].
    constructor; auto.
    + unfold g_hdr, g_filled in *. cbn [grow g_open g_type g_size g_req]. rewrite O in *. exact K1.
    + rewrite grow_data. apply bytes_at_app. split; auto.
    + rewrite grow_data, blen_app. cbn [grow g_req]. lia.
  - intros sl e Hs HL. exists sl. split; auto. eapply live_same_open; [| |exact HL]; auto.
    repeat split; auto.
Qed.

(** [encode_into] *)
Lemma emits_app es1 es2 lg : emits (es1 ++ es2) lg = emits es2 (emits es1 lg).
Proof. unfold emits. now rewrite fold_left_app. Qed.

Lemma encode_into_spec ok : forall cs lg G1 s G2 off room,
  core lg (G1 ++ s :: G2) -> g_open s = true ->
  g_off s + 15 + blen (g_data s) <= off -> off + room = g_off s + g_req s ->
  let '(es, r) := encode_into (g_slab s) off room cs ok in
  core (emits es lg) (G1 ++ s :: G2) /\
  ext lg (emits es lg) (fun G => G = G1 ++ s :: G2) /\
  wrote lg (emits es lg) (within s) /\
  lg_front (emits es lg) = lg_front lg /\ lg_suffix (emits es lg) = lg_suffix lg /\
  (forall f, nth_error (lg_files lg) (g_slab s) = Some f ->
     exists f', nth_error (lg_files (emits es lg)) (g_slab s) = Some f' /\
       (forall a, a < off -> f_mem f' a = f_mem f a) /\
       (blen (concat cs) <= room -> bytes_at (f_mem f') off (concat cs))) /\
  r = if room <? blen (concat cs) then EncEnd
      else if ok then EncOk (blen (concat cs)) else EncOther.
Proof.
  induction cs as [|c cs IH]; intros lg G1 s G2 off room C O H1 H2; cbn [encode_into].
  - cbn [emits fold_left concat]. refine (conj C (conj _ (conj _ (conj eq_refl (conj eq_refl (conj _ _)))))).
    + apply ext_refl.
    + now apply wrote_same.
    + intros f Hf. exists f. repeat split; auto. intros _. apply bytes_at_nil.
    + change (blen []) with 0. destruct (N.ltb_spec room 0); [lia|]. reflexivity.
  - cbn [concat]. rewrite blen_app. destruct (N.ltb_spec room (blen c)) as [Hr|Hr].
    + cbn [emits fold_left]. refine (conj C (conj _ (conj _ (conj eq_refl (conj eq_refl (conj _ _)))))).
      * apply ext_refl.
      * now apply wrote_same.
      * intros f Hf. exists f. repeat split; auto. intros Hle. lia.
      * destruct (N.ltb_spec room (blen c + blen (concat cs))); [reflexivity|lia].
    + assert (C1 : core (emit (EvWrite (g_slab s) off c) lg) (G1 ++ s :: G2))
        by (apply core_write_free; auto; lia).
      specialize (IH _ G1 s G2 (off + blen c) (room - blen c) C1 O).
      destruct (encode_into (g_slab s) (off + blen c) (room - blen c) cs ok) as [es r].
      cbn [emits fold_left]. fold (emits es (emit (EvWrite (g_slab s) off c) lg)).
      destruct IH as (IC & IE & IW & IF & IS & IM & IR); try lia.
      refine (conj IC (conj _ (conj _ (conj IF (conj IS (conj _ _)))))).
      * eapply ext_trans; [|exact IE]. eapply ext_emit; [apply C|reflexivity|]. apply C1.
      * eapply wrote_trans; [|exact IW]. apply wrote_emit. intros a Ha. split; [auto|lia].
      * intros f Hf.
        assert (Hf1 : nth_error (lg_files (emit (EvWrite (g_slab s) off c) lg)) (g_slab s) =
                      Some (mkFile (wr (f_mem f) off c) (f_len f))).
        { rewrite emit_files. cbn [apply_ev]. now rewrite (modify_file_same _ _ _ _ Hf). }
        destruct (IM _ Hf1) as (f' & Hf' & M1 & M2). exists f'. repeat split; auto.
        -- intros a Ha. rewrite M1 by lia. cbn [f_mem]. apply wr_other. lia.
        -- intros Hle. apply bytes_at_app. split; [|apply M2; lia].
           intros i Hi. rewrite M1 by (unfold blen; lia). cbn [f_mem]. now apply wr_same.
      * subst r.
        destruct (N.ltb_spec (room - blen c) (blen (concat cs))),
          (N.ltb_spec room (blen c + blen (concat cs))); try lia; auto.
        destruct ok; auto.
Qed.

(** ** Closing a section *)
Definition closed (s : gsec) : gsec :=
  mkG (g_slab s) (g_off s) (g_req s) (g_owner s) (g_type s) (g_objs s) false.

Definition matches (h : handle) (s : gsec) : Prop :=
  hd_slab h = g_slab s /\ hd_off h = g_off s /\ hd_len h = g_req s /\
  hd_used h = blen (g_data s) /\
  hd_hdr h = mkHdr section_magic (g_type s) (g_size ps s) 0.

Lemma chain_offsets_distinct b l1 s l2 e : chain ps b (l1 ++ s :: l2) e ->
  Forall (fun x => 15 <= g_req x) (l1 ++ s :: l2) ->
  Forall (fun x => g_off x < g_off s) l1 /\ Forall (fun x => g_off s < g_off x) l2.
Proof.
  intros H F. apply (chain_split ps) in H. destruct H as (_ & _ & A & B).
  apply Forall_app in F. destruct F as [F1 F2]. inversion F2; subst.
  split.
  - rewrite Forall_forall in *. intros x Hx. specialize (A x Hx). specialize (F1 x Hx).
    pose proof (g_size_req ps Hps x). cbn in F1. lia.
  - rewrite Forall_forall in *. intros x Hx. specialize (B x Hx).
    pose proof (g_size_req ps Hps s). lia.
Qed.

Lemma filter_offs_lt l o : Forall (fun x => g_off x <> o) l ->
  filter (fun x => negb (x =? o)) (map g_off (filter g_open l)) = map g_off (filter g_open l).
Proof.
  induction 1 as [|x l Hx _ IH]; cbn; auto. destruct (g_open x); cbn; auto.
  destruct (N.eqb_spec (g_off x) o); [congruence|]. cbn. now rewrite IH.
Qed.

Lemma inflight_closed k G1 s G2 m e b : g_slab s = k ->
  chain ps b (on k (G1 ++ s :: G2)) e -> Forall (sec_ok m) (on k (G1 ++ s :: G2)) ->
  filter (fun x => negb (x =? g_off s)) (map g_off (filter g_open (on k (G1 ++ s :: G2)))) =
  map g_off (filter g_open (on k (G1 ++ closed s :: G2))).
Proof.
  intros Ek Hc Hok. rewrite !on_split in *. cbn [closed g_slab] in *.
  rewrite Ek, Nat.eqb_refl in *. cbn [app] in *.
  apply chain_offsets_distinct in Hc.
  2:{ eapply Forall_impl; [|exact Hok]. intros x [? ? ? ? ?]; auto. }
  destruct Hc as [A B].
  rewrite !filter_app, !map_app, !filter_app. f_equal.
  - apply filter_offs_lt. eapply Forall_impl; [|exact A]. cbn. lia.
  - cbn [filter closed g_open]. 
    assert (E : filter (fun x => negb (x =? g_off s)) (map g_off (filter g_open (on k G2))) =
                map g_off (filter g_open (on k G2))).
    { apply filter_offs_lt. eapply Forall_impl; [|exact B]. cbn. lia. }
    destruct (g_open s); cbn [map filter]; auto. rewrite N.eqb_refl. cbn. auto.
Qed.

Lemma open_offs_sorted k b e m G : chain ps b (on k G) e -> Forall (sec_ok m) (on k G) ->
  StronglySorted N.lt (map g_off (filter g_open (on k G))).
Proof.
  generalize (on k G). intros l. revert b. induction l as [|s l IH]; intros b Hc Hok; cbn.
  - constructor.
  - assert (Hd := chain_offsets_distinct b [] s l e Hc).
    destruct Hc as [_ Hc]. inversion Hok as [|? ? K1 K2]; subst.
    destruct (g_open s); [|eapply IH; eauto]. cbn. constructor; [eapply IH; eauto|].
    destruct Hd as [_ Hd].
    { cbn. eapply Forall_impl; [|exact Hok]. intros x [? ? ? ? ?]; auto. }
    apply Forall_forall. intros o Ho. apply in_map_iff in Ho. destruct Ho as (x & <- & Hx).
    apply filter_In in Hx. rewrite Forall_forall in Hd. apply Hd. tauto.
Qed.

Lemma assoc_in k b s : assoc k b = Some s -> In (k, s) b.
Proof.
  induction b as [|[j t] b IH]; cbn; [discriminate|].
  destruct (Nat.eqb_spec j k); [intros [= ->]; subst; auto|auto].
Qed.

Lemma assoc_none k b : assoc k b = None <-> ~ In k (map fst b).
Proof.
  induction b as [|[j t] b IH]; cbn; [tauto|].
  destruct (Nat.eqb_spec j k); [split; [discriminate|tauto]|]. rewrite IH. tauto.
Qed.

Lemma in_assoc k b s : NoDup (map fst b) -> In (k, s) b -> assoc k b = Some s.
Proof.
  induction b as [|[j t] b IH]; cbn; [tauto|]. intros N [H|H].
  - injection H as -> ->. now rewrite Nat.eqb_refl.
  - inversion N; subst. destruct (Nat.eqb_spec j k) as [->|]; auto.
    exfalso. apply (in_map fst) in H. contradiction.
Qed.

Fixpoint assoc_set (k : nat) (s : slab) (b : list (nat * slab)) : list (nat * slab) :=
  match b with
  | [] => []
  | (j, t) :: b => if Nat.eqb j k then (j, s) :: b else (j, t) :: assoc_set k s b
  end.

Lemma assoc_set_fst k s b : map fst (assoc_set k s b) = map fst b.
Proof. induction b as [|[j t] b IH]; cbn; auto. destruct (Nat.eqb j k); cbn; congruence. Qed.

Lemma assoc_set_same k s b : In k (map fst b) -> assoc k (assoc_set k s b) = Some s.
Proof.
  induction b as [|[j t] b IH]; cbn; [tauto|]. intros H.
  destruct (Nat.eqb j k) eqn:E; cbn; rewrite E; auto. apply IH.
  destruct H; auto. apply Nat.eqb_neq in E. congruence.
Qed.

Lemma assoc_set_other k k' s b : k' <> k -> assoc k' (assoc_set k s b) = assoc k' b.
Proof.
  intros H. induction b as [|[j t] b IH]; cbn; auto.
  destruct (Nat.eqb_spec j k); cbn; destruct (Nat.eqb_spec j k'); auto; congruence.
Qed.

Lemma assoc_set_pos k s b : 0 < sl_pos s -> Forall (fun p => 0 < sl_pos (snd p)) b ->
  Forall (fun p => 0 < sl_pos (snd p)) (assoc_set k s b).
Proof.
  intros H. induction 1 as [|[j t] b Hx Hb IH]; cbn; auto.
  destruct (Nat.eqb j k); constructor; auto.
Qed.

(** What [slab_flush_section] computes. *)
Lemma slab_flush_spec h sl lg G1 s G2 e m : matches h s -> g_open s = true ->
  chain ps (base ps (g_slab s)) (on (g_slab s) (G1 ++ s :: G2)) e ->
  Forall (sec_ok m) (on (g_slab s) (G1 ++ s :: G2)) ->
  live (g_slab s) sl (G1 ++ s :: G2) e ->
  exists sl',
    slab_flush_section h sl lg =
      Ret (sl', emit (EvWrite (g_slab s) (g_off s) (enc_header (g_hdr ps (closed s)))) lg) /\
    live (g_slab s) sl' (G1 ++ closed s :: G2) e /\ sl_pos sl' = sl_pos sl /\
    (sl_inflight sl' = [] -> sl_flushed sl' = sl_pos sl' \/ sl_pos sl' = 0).
Proof.
  intros (M1 & M2 & M3 & M4 & M5) O Hc Hok [L1 L2 L3 L4 L5 L6].
  assert (Hs : sec_ok m s).
  { rewrite on_split, Nat.eqb_refl in Hok. apply Forall_app in Hok. destruct Hok as [_ Hok].
    now inversion Hok. }
  assert (Hs' : wf_header (g_hdr ps (closed s))).
  { destruct Hs as [? ? ? Hf Hsz]. repeat split; auto. cbn [g_hdr h_filled]. unfold g_filled.
    pose proof (g_size_req ps Hps s). cbn [closed g_open g_type orb].
    change (g_data (closed s)) with (g_data s).
    destruct (logtype_eqb _ _); [reflexivity|]. lia. }
  assert (Hu : hd_hdr (update_header h) = g_hdr ps (closed s) /\
               hd_slab (update_header h) = g_slab s /\ hd_off (update_header h) = g_off s /\
               hd_len (update_header h) = g_req s).
  { unfold update_header. rewrite M5, M4. cbn [h_type h_magic h_size].
    unfold g_hdr, g_filled. cbn [closed g_open g_type orb].
    change (g_data (closed s)) with (g_data s). change (g_size ps (closed s)) with (g_size ps s).
    destruct (logtype_eqb (g_type s) TEmpty); cbn [orb]; auto.
    destruct (N.eqb_spec (blen (g_data s)) 0) as [E|E]; cbn [hd_hdr hd_slab hd_off hd_len]; auto.
    rewrite E. auto. }
  destruct Hu as (U1 & U2 & U3 & U4).
  unfold slab_flush_section. rewrite U1, U2, U3, U4.
  destruct (N.ltb_spec (g_req s) (blen (enc_header (g_hdr ps (closed s))))) as [Hlt|_].
  { apply enc_header_bound in Hs'. destruct Hs. lia. }
  cbn [sl_inflight sl_pos sl_flushed].
  rewrite L4, (inflight_closed (g_slab s) G1 s G2 m e (base ps (g_slab s))) by auto.
  set (infl := map g_off (filter g_open (on (g_slab s) (G1 ++ closed s :: G2)))).
  assert (Hinfl : Forall (fun x => sl_flushed sl <= x) infl).
  { subst infl. rewrite <- (inflight_closed (g_slab s) G1 s G2 m e (base ps (g_slab s))) by auto.
    rewrite <- L4. apply Forall_forall. intros x Hx. apply filter_In in Hx.
    rewrite Forall_forall in L5. apply L5. tauto. }
  assert (Hsec : Forall (fun x => g_off x + g_req x <= sl_pos sl) (on (g_slab s) (G1 ++ closed s :: G2))).
  { rewrite on_split in *. cbn [closed g_slab]. apply Forall_app in L3. destruct L3 as [A B].
    rewrite Nat.eqb_refl in *. apply Forall_app. split; auto. cbn [app] in *. inversion B; subst.
    constructor; auto. }
  assert (Hsrt : StronglySorted N.lt infl /\ Forall (fun x => x <= sl_pos sl) infl).
  { split.
    - subst infl. rewrite <- (inflight_closed (g_slab s) G1 s G2 m e (base ps (g_slab s))) by auto.
      pose proof (open_offs_sorted _ _ _ _ _ Hc Hok) as S. clear -S.
      induction S as [|x l S IH F]; cbn; [constructor|]. destruct (negb _); auto.
      constructor; auto. apply Forall_forall. intros y Hy. apply filter_In in Hy.
      rewrite Forall_forall in F. apply F; tauto.
    - subst infl. apply Forall_forall. intros x Hx. apply in_map_iff in Hx.
      destruct Hx as (y & <- & Hy). apply filter_In in Hy. rewrite Forall_forall in Hsec.
      destruct Hy as [Hy _]. specialize (Hsec y Hy). cbn in Hsec. lia. }
  destruct Hsrt as [Hsrt Hle].
  assert (LV : forall fl, fl <= sl_pos sl -> Forall (fun x => fl <= x) infl ->
     live (g_slab s) (mkSlab (sl_pos sl) infl fl) (G1 ++ closed s :: G2) e).
  { intros fl F1 F2. constructor; cbn [sl_pos sl_inflight sl_flushed]; auto. }
  destruct infl as [|x infl'] eqn:Ei.
  - unfold flush_until. cbn [sl_flushed sl_pos sl_inflight].
    destruct (N.eqb_spec (sl_flushed sl) (sl_pos sl)) as [E1|E1]; cbn [orb obind].
    { eexists. split; [reflexivity|]. cbn [sl_inflight sl_flushed sl_pos]. auto. }
    destruct (N.eqb_spec (sl_pos sl) 0) as [E2|E2]; cbn [orb obind].
    { eexists. split; [reflexivity|]. cbn [sl_inflight sl_flushed sl_pos]. auto. }
    destruct (N.ltb_spec (sl_pos sl) (sl_flushed sl)); [lia|]. cbn [obind].
    eexists. split; [reflexivity|]. cbn [sl_inflight sl_flushed sl_pos].
    split; [apply LV; auto; lia|auto].
  - cbn [sl_flushed]. destruct (N.ltb_spec (sl_flushed sl) x) as [Hx|Hx].
    + unfold flush_until. cbn [sl_flushed sl_pos sl_inflight].
      destruct (N.eqb_spec (sl_flushed sl) x); [lia|]. destruct (N.eqb_spec x 0); [lia|].
      cbn [orb]. destruct (N.ltb_spec x (sl_flushed sl)); [lia|]. cbn [obind].
      eexists. split; [reflexivity|]. cbn [sl_inflight sl_flushed sl_pos].
      split; [|split; [reflexivity|discriminate]].
      inversion Hle; subst. inversion Hsrt as [|? ? S F]; subst. apply LV; auto.
      constructor; [lia|]. eapply Forall_impl; [|exact F]. cbn. lia.
    + cbn [obind]. eexists. split; [reflexivity|]. cbn [sl_inflight sl_flushed sl_pos].
      split; [|split; [reflexivity|discriminate]]. apply LV; auto.
Qed.

Lemma flush_back_spec h lg sl sl' lg' : forall b,
  assoc (hd_slab h) b = Some sl -> slab_flush_section h sl lg = Ret (sl', lg') ->
  flush_back h b lg = Ret (Some (assoc_set (hd_slab h) sl' b, lg')).
Proof.
  induction b as [|[j t] b IH]; cbn; [discriminate|]. intros A F.
  destruct (Nat.eqb j (hd_slab h)).
  - injection A as ->. rewrite F. reflexivity.
  - rewrite IH by auto. reflexivity.
Qed.

Lemma flush_back_none h lg : forall b, assoc (hd_slab h) b = None -> flush_back h b lg = Ret None.
Proof.
  induction b as [|[j t] b IH]; cbn; auto. destruct (Nat.eqb j (hd_slab h)); [discriminate|].
  intros A. now rewrite IH.
Qed.

Lemma status_back lg G k : core lg G -> (k < lg_suffix lg)%nat -> status lg k = assoc k (lg_back lg).
Proof. intros C H. unfold status. destruct (Nat.eqb_spec k (lg_suffix lg)); [lia|auto]. Qed.

Lemma front_not_back lg G : core lg G -> assoc (lg_suffix lg) (lg_back lg) = None.
Proof.
  intros C. apply assoc_none. intros H. apply in_map_iff in H. destruct H as (p & E & Hp).
  pose proof (c_back _ _ _ _ C) as B. rewrite Forall_forall in B. specialize (B p Hp). lia.
Qed.

Lemma closed_ok m s : sec_ok m s ->
  forall m', (forall a, ~ (g_off s <= a < g_off s + 15) -> m' a = m a) ->
  bytes_at m' (g_off s) (enc_header (g_hdr ps (closed s))) -> sec_ok m' (closed s).
Proof.
  intros [K1 K2 K3 K4 K5] m' E H. constructor; auto.
  intros i Hi. cbn [closed g_off]. rewrite E by lia. now apply K2.
Qed.

Lemma closed_same s : same_place s (closed s).
Proof. repeat split. Qed.

Definition frontpos (lg : logger) : Prop := 0 < sl_pos (lg_front lg).

Lemma flush_section_spec h lg G1 s G2 :
  core lg (G1 ++ s :: G2) -> g_open s = true -> matches h s ->
  exists lg', flush_section h lg = Ret lg' /\ core lg' (G1 ++ closed s :: G2) /\
    ext lg lg' (fun G => G = G1 ++ closed s :: G2) /\
    lg_suffix lg' = lg_suffix lg /\ sl_pos (lg_front lg') = sl_pos (lg_front lg) /\
    wrote lg lg' (within s).
Proof.
  intros C O M. pose proof M as (M1 & M2 & M3 & M4 & M5).
  destruct (img_sec_ok ps slab_size _ _ _ _ (c_img _ _ _ _ C)) as (f & Hf & Hok).
  destruct (core_img_e _ _ _ _ C Hf) as (e & SI).
  pose proof (c_slabs _ _ _ _ C _ _ _ Hf SI) as HL.
  destruct (open_status _ _ _ _ C O) as (sl & Esl). rewrite Esl in HL. destruct HL as [Hlen HL].
  destruct (slab_flush_spec h sl lg G1 s G2 e (f_mem f) M O) as (sl' & Ef & HL' & Hpos & _); auto;
    try apply SI.
  set (ev := EvWrite (g_slab s) (g_off s) (enc_header (g_hdr ps (closed s)))) in *.
  assert (Hwf : wf_header (g_hdr ps (closed s))).
  { destruct Hok as [? ? ? Hft Hsz]. repeat split; auto. cbn [g_hdr h_filled]. unfold g_filled.
    pose proof (g_size_req ps Hps s). cbn [closed g_open g_type orb].
    change (g_data (closed s)) with (g_data s). destruct (logtype_eqb _ _); [reflexivity|]. lia. }
  assert (Hhl := enc_header_bound _ Hwf).
  assert (CI : change_in s (lg_files lg) (lg_files (emit ev lg))).
  { apply change_in_write; [lia|]. destruct Hok. lia. }
  assert (Hs' : forall f', nth_error (lg_files (emit ev lg)) (g_slab s) = Some f' ->
                sec_ok (f_mem f') (closed s)).
  { intros f' Hf'. rewrite emit_files in Hf'. cbn [apply_ev ev] in Hf'.
    rewrite (modify_file_same _ _ _ _ Hf) in Hf'. injection Hf' as <-. cbn [f_mem].
    eapply closed_ok; eauto.
    - intros a Ha. apply wr_other. lia.
    - apply wr_same. }
  assert (He : forall lg', lg_evs lg' = lg_evs (emit ev lg) ->
     core lg' (G1 ++ closed s :: G2) -> lg_files lg' = lg_files (emit ev lg) ->
     ext lg lg' (fun G => G = G1 ++ closed s :: G2)).
  { intros lg' E1 C1 E2. exists [ev]. split; [exact E1|].
    intros [|x [|y es1]] es2 E N; try congruence; [|discriminate].
    injection E as <- _. exists (G1 ++ closed s :: G2). split; auto.
    rewrite replay_snoc, (c_replay _ _ _ _ C). change (img (lg_files (emit ev lg)) (G1 ++ closed s :: G2)).
    rewrite <- E2. apply C1. }
  unfold flush_section. destruct (Nat.eqb_spec (g_slab s) (lg_suffix lg)) as [Es|Es].
  - assert (sl = lg_front lg) as ->.
    { unfold status in Esl. rewrite Es, Nat.eqb_refl in Esl. congruence. }
    rewrite flush_back_none by (rewrite M1, Es; eapply front_not_back; eauto). cbn [obind].
    rewrite M1, Es, Nat.eqb_refl, Ef. cbn [obind].
    assert (C' : core (set_front sl' (emit ev lg)) (G1 ++ closed s :: G2)).
    { eapply core_update; eauto using closed_same; try reflexivity; try apply C.
      - apply emit_replay, C.
      - intros k Hk. unfold status. cbn. destruct (Nat.eqb_spec k (lg_suffix lg)); [lia|auto].
      - intros sl0 e0 S0 L0. exists sl'. rewrite S0 in Esl. injection Esl as ->.
        split; [unfold status; cbn; now rewrite Es, Nat.eqb_refl|].
        assert (e0 = e) as -> by (destruct L0, HL; congruence). exact HL'. }
    eexists. split; [reflexivity|]. split; [exact C'|]. repeat split; auto; try (apply He; auto).
    exists [ev]. split; [reflexivity|]. constructor; [|constructor].
    intros a Ha. split; [auto|]. destruct Hok. lia.
  - assert (Ha : assoc (g_slab s) (lg_back lg) = Some sl).
    { unfold status in Esl. destruct (Nat.eqb_spec (g_slab s) (lg_suffix lg)); [congruence|auto]. }
    rewrite <- M1 in Ha. rewrite (flush_back_spec _ _ _ _ _ _ Ha Ef). cbn [obind].
    rewrite M1 in *.
    assert (C' : core (set_back (assoc_set (g_slab s) sl' (lg_back lg)) (emit ev lg)) (G1 ++ closed s :: G2)).
    { eapply core_update; eauto using closed_same; try reflexivity; try apply C.
      - cbn. apply assoc_set_fst.
      - cbn. apply assoc_set_pos; [|apply C]. rewrite Hpos.
        pose proof (c_pos _ _ _ _ C) as P. rewrite Forall_forall in P.
        apply (P (g_slab s, sl)). now apply assoc_in.
      - apply emit_replay, C.
      - intros k Hk. unfold status. cbn. destruct (Nat.eqb k (lg_suffix lg)); auto.
        now apply assoc_set_other.
      - intros sl0 e0 S0 L0. exists sl'. rewrite S0 in Esl. injection Esl as ->.
        assert (e0 = e) as -> by (destruct L0, HL; congruence).
        split; [|exact HL']. unfold status. cbn.
        destruct (Nat.eqb_spec (g_slab s) (lg_suffix lg)); [congruence|].
        apply assoc_set_same. apply assoc_in in Ha. now apply (in_map fst) in Ha. }
    eexists. split; [reflexivity|]. split; [exact C'|]. repeat split; auto; try (apply He; auto).
    exists [ev]. split; [reflexivity|]. constructor; [|constructor].
    intros a Ha'. split; [auto|]. destruct Hok. lia.
Qed.
End Ops.
