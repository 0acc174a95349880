(** Allocation of sections and slabs. *)
From Coq Require Import List Arith NArith ZArith Bool Lia Sorted ZifyBool ZifyNat ZifyN.
From Verif Require Import Base BincodeModel BincodeSpec BincodeProofs ULogModel ULogSpec
  ULogProofs1 ULogProofs2 ULogProofs3.
Import ListNotations.
Open Scope N_scope.

Section Alloc.
Context (ps slab_size : N) (Hps : page_ok ps).
Notation core := (core ps slab_size).
Notation img := (img ps slab_size).
Notation ext := (ext ps slab_size).
Notation live := (live ps).
Notation sec_ok := (sec_ok ps).
Notation slab_img := (slab_img ps slab_size).
Notation matches := (matches ps).

(** ** Trimming *)
Lemma map_nil_inv {A B} (f : A -> B) l : map f l = [] -> l = [].
Proof. destruct l; [auto|discriminate]. Qed.

Lemma live_trimmed k sl G e f m : live k sl G e -> sl_inflight sl = [] -> 0 < sl_pos sl ->
  f = mkFile m (sl_pos sl) -> trimmed ps k f G e.
Proof.
  intros [L1 L2 L3 L4 L5 L6] E P ->. constructor; cbn [f_len]; auto.
  rewrite E in L4. symmetry in L4. apply map_nil_inv in L4.
  rewrite Forall_forall in *. intros s Hs. split; [auto|].
  destruct (g_open s) eqn:O; auto. exfalso.
  assert (Hin : In s (filter g_open (on k G))) by (apply filter_In; auto).
  rewrite L4 in Hin. destruct Hin.
Qed.

Lemma slab_img_mem k f f' G e : (forall a, f_mem f' a = f_mem f a) -> slab_img k f G e ->
  slab_img k f' G e.
Proof.
  intros E [H1 H2 H3 H4]. constructor; auto.
  - eapply Forall_impl; [|exact H2]. intros s Hs. eapply sec_ok_frame; eauto.
  - intros a Ha. rewrite E. auto.
Qed.

Lemma slab_img_mem' k f f' G e : (forall a, f_mem f' a = f_mem f a) -> slab_img k f' G e ->
  slab_img k f G e.
Proof. intros E. apply slab_img_mem. auto. Qed.

Lemma status_set_back_app b1 k (sl : slab) b2 j : NoDup (map fst (b1 ++ (k, sl) :: b2)) ->
  j <> k -> assoc j (b1 ++ (k, sl) :: b2) = assoc j (b1 ++ b2).
Proof.
  intros N Hj. induction b1 as [|[i t] b1 IH]; cbn.
  - destruct (Nat.eqb_spec k j); [congruence|auto].
  - inversion N; subst. destruct (Nat.eqb i j); auto.
Qed.

Lemma core_trim lg G b1 k sl b2 :
  core (set_back (b1 ++ (k, sl) :: b2) lg) G -> sl_inflight sl = [] ->
  core (set_back (b1 ++ b2) (emit (EvTrim k (sl_pos sl)) lg)) G /\
  ext lg (emit (EvTrim k (sl_pos sl)) lg) (fun G' => G' = G).
Proof.
  intros C E.
  assert (Hin : In (k, sl) (b1 ++ (k, sl) :: b2)) by (apply in_or_app; right; left; auto).
  assert (Hk : (k < lg_suffix lg)%nat).
  { pose proof (c_back _ _ _ _ C) as B. rewrite Forall_forall in B. apply (B (k, sl)). exact Hin. }
  assert (Hpos : 0 < sl_pos sl).
  { pose proof (c_pos _ _ _ _ C) as B. rewrite Forall_forall in B. apply (B (k, sl)). exact Hin. }
  pose proof (c_nodup _ _ _ _ C) as ND. cbn [set_back lg_back] in ND.
  assert (Hst : status (set_back (b1 ++ (k, sl) :: b2) lg) k = Some sl).
  { unfold status. cbn [set_back lg_back lg_suffix].
    destruct (Nat.eqb_spec k (lg_suffix lg)); [lia|]. now apply in_assoc. }
  assert (ND' : NoDup (map fst (b1 ++ b2))).
  { rewrite map_app in *. cbn in ND. now apply NoDup_remove_1 in ND. }
  assert (Hstk : status (set_back (b1 ++ b2) (emit (EvTrim k (sl_pos sl)) lg)) k = None).
  { unfold status. cbn [set_back lg_back lg_suffix emit].
    destruct (Nat.eqb_spec k (lg_suffix lg)); [lia|]. apply assoc_none.
    rewrite map_app in *. cbn in ND. now apply NoDup_remove_2 in ND. }
  assert (Hoth : forall j, j <> k -> status (set_back (b1 ++ b2) (emit (EvTrim k (sl_pos sl)) lg)) j =
                 status (set_back (b1 ++ (k, sl) :: b2) lg) j).
  { intros j Hj. unfold status. cbn [set_back lg_back lg_suffix emit].
    destruct (Nat.eqb j (lg_suffix lg)); auto. symmetry. now apply status_set_back_app. }
  assert (Hfiles : forall j f', nth_error (apply_ev (EvTrim k (sl_pos sl)) (lg_files lg)) j = Some f' ->
     exists f, nth_error (lg_files lg) j = Some f /\ (forall a, f_mem f' a = f_mem f a) /\
       f_len f' = if Nat.eqb j k then sl_pos sl else f_len f).
  { intros j f' Hf'. cbn [apply_ev] in Hf'. destruct (Nat.eqb_spec j k) as [->|Hj].
    - destruct (nth_error (lg_files lg) k) as [f|] eqn:Ef.
      + rewrite (modify_file_same _ _ _ _ Ef) in Hf'. injection Hf' as <-. exists f. auto.
      + unfold modify_file in Hf'. rewrite Ef in Hf'. congruence.
    - rewrite modify_file_other in Hf' by auto. exists f'. auto. }
  assert (Htr : forall f' e, nth_error (apply_ev (EvTrim k (sl_pos sl)) (lg_files lg)) k = Some f' ->
     slab_img k f' G e -> trimmed ps k f' G e).
  { intros f' e Hf' SI. destruct (Hfiles _ _ Hf') as (f & Hf & Em & El).
    rewrite Nat.eqb_refl in El. assert (SI0 : slab_img k f G e) by (eapply slab_img_mem'; eauto).
    pose proof (c_slabs _ _ _ _ C k f e Hf SI0) as HH. rewrite Hst in HH.
    destruct HH as [_ HL]. eapply live_trimmed with (m := f_mem f'); eauto.
    destruct f'; cbn in *. congruence. }
  assert (I' : img (apply_ev (EvTrim k (sl_pos sl)) (lg_files lg)) G).
  { destruct (c_img _ _ _ _ C) as [I1 I2 I3 I4 I5]. cbn [set_back lg_files] in *. constructor; auto.
    - intros j f' Hf'. destruct (Hfiles _ _ Hf') as (f & Hf & Em & El).
      destruct (I1 _ _ Hf) as (e & SI & Hl). exists e.
      assert (SI' : slab_img j f' G e) by (eapply slab_img_mem; eauto).
      split; auto. destruct (Nat.eqb_spec j k) as [->|Hj].
      + right. eauto.
      + destruct Hl as [Hl|Hl]; [left; congruence|right].
        destruct Hl as [T1 T2 T3 T4]. constructor; rewrite ?El; auto.
    - intros f' Hf'. destruct (Hfiles _ _ Hf') as (f & Hf & Em & El).
      intros i Hi. rewrite Em. now apply I2.
    - cbn [apply_ev]. now rewrite modify_file_length. }
  split.
  - constructor; auto.
    + cbn [set_back lg_files emit lg_suffix apply_ev]. rewrite modify_file_length. apply C.
    + intros j f' e Hf' SI. cbn [set_back lg_files emit] in Hf'.
      destruct (Nat.eq_dec j k) as [->|Hj].
      * rewrite Hstk. eauto.
      * rewrite Hoth by auto. destruct (Hfiles _ _ Hf') as (f & Hf & Em & El).
        destruct (Nat.eqb_spec j k); [congruence|].
        assert (SI0 : slab_img j f G e) by (eapply slab_img_mem'; eauto).
        pose proof (c_slabs _ _ _ _ C j f e Hf SI0) as HH.
        destruct (status _ j); [rewrite El; auto|].
        destruct HH as [T1 T2 T3 T4]. constructor; rewrite ?El; auto.
    + pose proof (c_back _ _ _ _ C) as B. cbn [set_back lg_back lg_suffix emit] in *.
      apply Forall_app in B. destruct B as [B1 B2]. inversion B2; subst. apply Forall_app; auto.
    + pose proof (c_pos _ _ _ _ C) as B. cbn [set_back lg_back lg_suffix emit] in *.
      apply Forall_app in B. destruct B as [B1 B2]. inversion B2; subst. apply Forall_app; auto.
    + cbn [set_back lg_evs lg_files]. apply emit_replay. apply (c_replay _ _ _ _ C).
  - eapply ext_emit; [apply (c_replay _ _ _ _ C)|reflexivity|exact I'].
Qed.

Lemma drop_slab_ok k sl lg G e : live k sl G e ->
  drop_slab k sl lg = Ret (emit (EvTrim k (sl_pos sl)) lg).
Proof.
  intros [L1 L2 L3 L4 L5 L6]. unfold drop_slab, flush_until.
  destruct (N.eqb_spec (sl_flushed sl) (sl_pos sl)); cbn [orb obind]; auto.
  destruct (N.eqb_spec (sl_pos sl) 0); cbn [orb obind]; auto.
  destruct (N.ltb_spec (sl_pos sl) (sl_flushed sl)); [lia|]. reflexivity.
Qed.

Lemma core_status_live lg G k sl : core lg G -> status lg k = Some sl -> (k <= lg_suffix lg)%nat ->
  exists f e, nth_error (lg_files lg) k = Some f /\ slab_img k f G e /\ f_len f = slab_size /\
              live k sl G e.
Proof.
  intros C Hs Hk. destruct (nth_error (lg_files lg) k) as [f|] eqn:Ef.
  - destruct (core_img_e ps slab_size _ _ _ _ C Ef) as (e & SI).
    pose proof (c_slabs _ _ _ _ C _ _ _ Ef SI) as H. rewrite Hs in H. exists f, e. tauto.
  - apply nth_error_None in Ef. pose proof (c_len _ _ _ _ C). lia.
Qed.

Lemma gc_list_spec G : forall b d lg, core (set_back (d ++ b) lg) G ->
  exists b' lg', gc_list b lg = Ret (b', lg') /\ core (set_back (d ++ b') lg') G /\
    ext lg lg' (fun G' => G' = G) /\ wrote lg lg' (fun _ _ => False) /\
    lg_front lg' = lg_front lg /\ lg_suffix lg' = lg_suffix lg /\
    Forall (fun p => sl_inflight (snd p) <> []) b'.
Proof.
  induction b as [|[k sl] b IH]; intros d lg C; cbn [gc_list].
  - exists [], lg. repeat (split; [auto using ext_refl, wrote_same|]). auto.
  - destruct (sl_inflight sl) as [|x infl] eqn:Ei.
    + destruct (core_trim _ _ _ _ _ _ C Ei) as [C' E'].
      assert (Hin : In (k, sl) (d ++ (k, sl) :: b)) by (apply in_or_app; right; left; auto).
      pose proof (c_nodup _ _ _ _ C) as ND. pose proof (c_back _ _ _ _ C) as B.
      cbn [set_back lg_back lg_suffix] in ND, B. rewrite Forall_forall in B.
      specialize (B _ Hin). cbn [fst] in B.
      assert (Hst : status (set_back (d ++ (k, sl) :: b) lg) k = Some sl).
      { unfold status. cbn [set_back lg_back lg_suffix].
        destruct (Nat.eqb_spec k (lg_suffix lg)); [lia|]. now apply in_assoc. }
      destruct (core_status_live _ _ _ _ C Hst) as (f & e & _ & _ & _ & HL); [cbn; lia|].
      rewrite (drop_slab_ok _ _ _ _ _ HL). cbn [obind].
      destruct (IH d _ C') as (b' & lg' & E1 & C1 & X1 & W1 & F1 & S1 & P1).
      exists b', lg'. split; [exact E1|]. split; [exact C1|].
      split; [eapply ext_trans; eauto|].
      split; [eapply wrote_trans; [apply (wrote_emit lg (EvTrim k (sl_pos sl))); exact I|exact W1]|].
      auto.
    + replace (d ++ (k, sl) :: b) with ((d ++ [(k, sl)]) ++ b) in C by (rewrite <- app_assoc; auto).
      destruct (IH _ _ C) as (b' & lg' & E1 & C1 & X1 & W1 & F1 & S1 & P1).
      rewrite E1. cbn [obind]. exists ((k, sl) :: b'), lg'.
      rewrite <- app_assoc in C1. cbn [app] in C1.
      split; [reflexivity|]. repeat (split; [auto|]). constructor; auto.
      cbn. rewrite Ei. discriminate.
Qed.

Lemma gc_spec lg G : core lg G ->
  exists lg', gc lg = Ret lg' /\ core lg' G /\ ext lg lg' (fun G' => G' = G) /\
    wrote lg lg' (fun _ _ => False) /\
    lg_front lg' = lg_front lg /\ lg_suffix lg' = lg_suffix lg /\
    Forall (fun p => sl_inflight (snd p) <> []) (lg_back lg').
Proof.
  intros C. unfold gc.
  assert (C0 : core (set_back ([] ++ lg_back lg) lg) G) by (destruct lg; exact C).
  destruct (gc_list_spec G _ _ _ C0) as (b' & lg' & E & C' & X & W & F & S & P).
  rewrite E. cbn [obind]. eexists. split; [reflexivity|].
  split; [exact C'|]. split; [destruct X as (es & E1 & E2); exists es; auto|].
  split; [destruct W as (es & E1 & E2); exists es; auto|].
  split; [exact F|]. split; [exact S|]. exact P.
Qed.

(** ** New section in the front slab *)
Definition fresh (k : nat) (off req : N) (i : nat) (t : logtype) : gsec :=
  mkG k off req i t [] true.

Lemma on_snoc_same k G s : g_slab s = k -> on k (G ++ [s]) = on k G ++ [s].
Proof. intros E. rewrite on_app. f_equal. unfold on. cbn. now rewrite E, Nat.eqb_refl. Qed.

Lemma on_snoc_other k G s : g_slab s <> k -> on k (G ++ [s]) = on k G.
Proof.
  intros E. rewrite on_app. unfold on at 2. cbn. destruct (Nat.eqb_spec (g_slab s) k); [congruence|].
  now rewrite app_nil_r.
Qed.

Lemma slab_add_spec lg G t req i : core lg G -> 15 <= req -> align ps req < 2 ^ 32 ->
  let k := lg_suffix lg in
  let pos := align ps (sl_pos (lg_front lg)) in
  if slab_size <? pos + align ps req
  then exists sl, slab_add_section ps slab_size k t req (lg_front lg) lg = Ret (sl, lg, None) /\
       core (set_front sl lg) G /\ sl_pos sl = pos
  else exists sl lg' h, slab_add_section ps slab_size k t req (lg_front lg) lg = Ret (sl, lg', Some h) /\
       core (set_front sl lg') (G ++ [fresh k pos req i t]) /\
       ext lg lg' (fun G' => G' = G ++ [fresh k pos req i t]) /\
       wrote lg lg' (within (fresh k pos req i t)) /\
       matches h (fresh k pos req i t) /\
       0 < sl_pos sl /\ lg_suffix lg' = lg_suffix lg /\ lg_back lg' = lg_back lg /\
       (forall f, nth_error (lg_files lg) k = Some f -> forall a, pos <= a -> f_mem f a = 0).
Proof.
  intros C Hreq Hsz k pos.
  assert (Hst : status lg k = Some (lg_front lg)) by (unfold status, k; now rewrite Nat.eqb_refl).
  destruct (core_status_live _ _ _ _ C Hst) as (f & e & Hf & SI & Hlen & HL); [unfold k; lia|].
  pose proof HL as [L1 L2 L3 L4 L5 L6].
  assert (Hpos : pos = e) by exact L1.
  pose proof (align_bounds ps Hps (sl_pos (lg_front lg))) as AB. fold pos in AB.
  pose proof (align_bounds ps Hps req) as AR.
  unfold slab_add_section. fold pos. rewrite N.mod_small by auto.
  cbn [sl_inflight sl_flushed sl_pos].
  destruct (N.ltb_spec slab_size (pos + align ps req)) as [Hno|Hyes].
  - eexists. split; [reflexivity|]. split; [|reflexivity].
    constructor; cbn [set_front lg_files lg_suffix lg_back lg_evs]; try apply C.
    intros j f0 e0 Hf0 SI0. pose proof (c_slabs _ _ _ _ C _ _ _ Hf0 SI0) as H.
    unfold status in *. cbn [set_front lg_front lg_suffix lg_back] in *.
    destruct (Nat.eqb_spec j (lg_suffix lg)) as [->|Hj]; auto.
    destruct H as [H1 [A1 A2 A3 A4 A5 A6]]. split; auto.
    constructor; cbn [sl_pos sl_inflight sl_flushed]; auto.
    + rewrite <- A1. fold pos. apply aligned_align; auto. apply align_aligned; auto.
    + lia.
    + eapply Forall_impl; [|exact A3]. cbn. lia.
    + lia.
  - set (s := fresh k pos req i t).
    assert (Hhdr : mkHdr section_magic t (align ps req) 0 = g_hdr ps s) by reflexivity.
    rewrite Hhdr. set (e0 := enc_header (g_hdr ps s)).
    assert (Hwf : wf_header (g_hdr ps s)).
    { repeat split; cbn; auto; lia. }
    pose proof (enc_header_bound _ Hwf) as Hb. pose proof (enc_header_lower _ Hwf) as Hb5.
    fold e0 in Hb, Hb5. pose proof Hps as [_ Hp16].
    destruct (N.ltb_spec (slab_size - pos) (blen e0)); [lia|]. cbn [orb].
    destruct (N.ltb_spec (blen e0) ps); [|lia]. cbn [negb orb].
    destruct (N.ltb_spec slab_size (pos + req)); [lia|].
    set (ev := EvWrite k pos e0).
    assert (Hf' : nth_error (lg_files (emit ev lg)) k = Some (mkFile (wr (f_mem f) pos e0) (f_len f))).
    { rewrite emit_files. cbn [apply_ev ev]. now rewrite (modify_file_same _ _ _ _ Hf). }
    rewrite Hf'. cbn [f_mem].
    assert (W : bytes_at (wr (f_mem f) pos e0) pos e0) by apply wr_same.
    assert (Hm0 : wr (f_mem f) pos e0 pos = 0xFA).
    { pose proof (W 0%nat) as W0. rewrite N.add_0_r in W0.
      rewrite W0 by (unfold blen in Hb5; lia). reflexivity. }
    assert (Hm1 : wr (f_mem f) pos e0 (pos + 1) = 0x57).
    { pose proof (W 1%nat) as W0. change (N.of_nat 1) with 1 in W0.
      rewrite W0 by (unfold blen in Hb5; lia). reflexivity. }
    rewrite Hm0, Hm1. change (0xFA =? 0xFA) with true. change (0x57 =? 0x57) with true.
    unfold MAX_HEADER_SIZE.
    destruct (N.ltb_spec req 2); [lia|]. destruct (N.ltb_spec req 15); [lia|]. cbn [negb orb].
    do 3 eexists. split; [reflexivity|].
    assert (Hso : sec_ok (wr (f_mem f) pos e0) s).
    { constructor; cbn; auto.
      apply bytes_at_nil. }
    assert (Hzero : forall a, pos <= a -> f_mem f a = 0).
    { intros a Ha. apply (si_zero _ _ _ _ _ _ SI). lia. }
    assert (Hslab : forall j fj ej, nth_error (lg_files (emit ev lg)) j = Some fj ->
       slab_img j fj (G ++ [s]) ej -> exists fj0 ej0, nth_error (lg_files lg) j = Some fj0 /\
         f_len fj = f_len fj0 /\ slab_img j fj0 G ej0 /\ (j <> k -> ej = ej0) /\
         (j = k -> ej = ej0 + align ps req)).
    { intros j fj ej Hfj SIj. destruct (Nat.eq_dec j k) as [->|Hj].
      - rewrite Hf' in Hfj. injection Hfj as <-. exists f, e. split; [auto|]. split; [auto|].
        split; [auto|]. split; [congruence|]. intros _.
        destruct SIj as [Hc _ _ _]. rewrite on_snoc_same in Hc by reflexivity.
        apply chain_app in Hc. destruct Hc as (c & Hc1 & Hc2 & Hc3).
        destruct SI as [Hc _ _ _]. rewrite (chain_unique _ _ _ _ _ Hc Hc1). cbn in Hc3. auto.
      - rewrite emit_files in Hfj. cbn [apply_ev ev] in Hfj. rewrite modify_file_other in Hfj by auto.
        exists fj, ej.
        assert (SIj' : slab_img j fj G ej).
        { destruct SIj as [A1 A2 A3 A4]. rewrite (on_snoc_other j G s) in * by (cbn; auto). constructor; auto. }
        repeat (split; [auto|]). congruence. }
    assert (SIk : slab_img k (mkFile (wr (f_mem f) pos e0) (f_len f)) (G ++ [s]) (e + align ps req)).
    { destruct SI as [A1 A2 A3 A4].
      pose proof (chain_bounds _ _ _ _ A1) as CB.
      constructor; rewrite ?on_snoc_same by reflexivity.
      - apply chain_app. exists e. split; auto. cbn. auto.
      - apply Forall_app. split; [|constructor; auto].
        rewrite Forall_forall in *. intros x Hx. eapply sec_ok_frame; eauto.
        intros a Ha. cbn [f_mem]. apply wr_other. specialize (CB x Hx).
        pose proof (g_size_req ps Hps x). lia.
      - intros a Ha. cbn [f_mem]. rewrite wr_other by lia. apply A3. lia.
      - apply Forall_app. split; auto. }
    assert (Iimg : img (lg_files (emit ev lg)) (G ++ [s])).
    { destruct (c_img _ _ _ _ C) as [I1 I2 I3 I4 I5]. constructor; auto.
      - intros j fj Hfj. destruct (Nat.eq_dec j k) as [->|Hj].
        + rewrite Hf' in Hfj. injection Hfj as <-. exists (e + align ps req). split; auto.
        + rewrite emit_files in Hfj. cbn [apply_ev ev] in Hfj. rewrite modify_file_other in Hfj by auto.
          destruct (I1 _ _ Hfj) as (ej & [A1 A2 A3 A4] & Hl). exists ej. split.
          * constructor; rewrite ?on_snoc_other by (cbn; auto); auto.
          * destruct Hl as [Hl|[T1 T2 T3 T4]]; [auto|right].
            constructor; rewrite ?on_snoc_other by (cbn; auto); auto.
      - intros f0 Hf0. destruct (Nat.eq_dec k 0) as [Ek|Ek].
        + rewrite Ek in Hf'. rewrite Hf' in Hf0. injection Hf0 as <-. cbn [f_mem].
          apply bytes_at_wr; [|apply I2; congruence]. left.
          assert (blen (main_bytes ps) <= 10).
          { apply enc_main_bound. repeat split; cbn; apply N.mod_lt; lia. }
          rewrite Ek in L2. cbn in L2. lia.
        + rewrite emit_files in Hf0. cbn [apply_ev ev] in Hf0. rewrite modify_file_other in Hf0 by auto.
          auto.
      - cbn [emit lg_files apply_ev ev]. rewrite modify_file_length. apply Forall_app. split; auto.
        constructor; auto. cbn. rewrite (c_len _ _ _ _ C). unfold k. lia.
      - apply Forall_forall with (P := fun x => (g_slab x < length (lg_files lg))%nat) in I4 || idtac.
        rewrite (c_len _ _ _ _ C) in I4. clear -I4 I5. unfold k in *.
        induction I5 as [|x l S IH F]; cbn; [constructor; constructor|].
        inversion I4; subst. constructor; auto. apply Forall_app. split; auto.
        constructor; auto. cbn. lia. }
    split; [constructor|].
    + exact Iimg.
    + cbn [set_front lg_files emit lg_suffix apply_ev ev]. rewrite modify_file_length. apply C.
    + intros j fj ej Hfj SIj. cbn [set_front lg_files] in Hfj.
      destruct (Hslab _ _ _ Hfj SIj) as (fj0 & ej0 & Hfj0 & El & SIj0 & E1 & E2).
      pose proof (c_slabs _ _ _ _ C _ _ _ Hfj0 SIj0) as HH.
      unfold status in HH |- *. cbn [set_front lg_front lg_suffix lg_back emit] in HH |- *. fold k in HH |- *.
      destruct (Nat.eqb_spec j k) as [->|Hj].
      * specialize (E2 eq_refl). subst ej. destruct HH as [HH [A1 A2 A3 A4 A5 A6]].
        split; [congruence|].
        constructor; cbn [sl_pos sl_inflight sl_flushed]; rewrite ?on_snoc_same by reflexivity.
        -- rewrite align_add by (auto; apply align_aligned; auto). now rewrite <- A1.
        -- lia.
        -- apply Forall_app. split; [eapply Forall_impl; [|exact A3]; cbn; lia|].
           constructor; auto. cbn. lia.
        -- rewrite filter_app, map_app, A4. reflexivity.
        -- apply Forall_app. split; auto. constructor; auto. lia.
        -- lia.
      * specialize (E1 Hj). subst ej. destruct (assoc j (lg_back lg)) as [sl|].
        -- destruct HH as [HH [A1 A2 A3 A4 A5 A6]]. split; [congruence|].
           constructor; rewrite ?on_snoc_other by (cbn; auto); auto.
        -- destruct HH as [A1 A2 A3 A4]. constructor; rewrite ?El, ?on_snoc_other by (cbn; auto); auto.
    + apply C.
    + apply C.
    + apply C.
    + apply emit_replay, C.
    + split; [eapply ext_emit; [apply C|reflexivity|exact Iimg]|].
      split; [apply wrote_emit; intros a Ha; split; cbn; [auto|lia]|].
      split; [repeat split|].
      cbn [sl_pos]. split; [lia|]. split; [reflexivity|]. split; [reflexivity|].
      intros f0 Hf0. rewrite Hf in Hf0. injection Hf0 as <-. auto.
Qed.

(** ** New slab *)
Lemma nth_error_snoc {A} (l : list A) x k y : nth_error (l ++ [x]) k = Some y ->
  (k = length l /\ y = x) \/ nth_error l k = Some y.
Proof.
  intros H. destruct (Nat.lt_ge_cases k (length l)).
  - right. rewrite nth_error_app1 in H; auto.
  - left. rewrite nth_error_app2 in H by auto. destruct (k - length l)%nat as [|n] eqn:E.
    + cbn in H. injection H as <-. split; [lia|auto].
    + destruct n; discriminate.
Qed.

Lemma on_fresh_slab G n : Forall (fun s => (g_slab s < n)%nat) G -> on n G = [].
Proof.
  induction 1 as [|s G H _ IH]; cbn; auto. destruct (Nat.eqb_spec (g_slab s) n); [lia|auto].
Qed.

Lemma new_slab_spec lg G : core lg G -> 0 < sl_pos (lg_front lg) ->
  let lg' := mkLogger (mkSlab 0 [] 0) (lg_back lg ++ [(lg_suffix lg, lg_front lg)])
       (S (lg_suffix lg)) (lg_files (emit (EvCreate slab_size) lg))
       (lg_evs (emit (EvCreate slab_size) lg)) in
  core lg' G /\ ext lg lg' (fun G' => G' = G) /\ wrote lg lg' (fun _ _ => False).
Proof.
  intros C Hp lg'. pose proof (c_len _ _ _ _ C) as Hl.
  pose proof (c_img _ _ _ _ C) as [I1 I2 I3 I4 I5].
  set (n := S (lg_suffix lg)) in *.
  assert (On : on n G = []) by (apply on_fresh_slab; rewrite <- Hl; auto).
  assert (SIn : slab_img n (mkFile (fun _ => 0) slab_size) G 0).
  { constructor; rewrite ?On; cbn; auto. }
  assert (I' : img (lg_files lg ++ [mkFile (fun _ => 0) slab_size]) G).
  { constructor; auto.
    - intros k f Hf. apply nth_error_snoc in Hf. destruct Hf as [[-> ->]|Hf]; auto.
      exists 0. rewrite Hl. split; auto.
    - intros f Hf. apply nth_error_snoc in Hf. destruct Hf as [[E ->]|Hf]; auto.
      rewrite Hl in E. discriminate.
    - eapply Forall_impl; [|exact I4]. cbn. rewrite app_length. intros. lia. }
  split; [constructor|split].
  - exact I'.
  - cbn [lg' lg_files emit apply_ev lg_suffix]. rewrite app_length, Hl. cbn. lia.
  - intros k f e Hf SI. cbn [lg' lg_files emit apply_ev] in Hf. apply nth_error_snoc in Hf.
    unfold status. cbn [lg' lg_suffix lg_front lg_back].
    destruct Hf as [[-> ->]|Hf].
    + rewrite Hl, Nat.eqb_refl. cbn. split; auto.
      assert (e = 0) as -> by (eapply slab_img_unique; eauto; rewrite <- Hl; eauto; rewrite Hl; eauto).
      constructor; rewrite ?On; cbn; auto; try lia.
      apply aligned_unique; auto; [exists 0; lia|]. pose proof (ps_pos ps Hps). lia.
    + assert (Hk : (k < n)%nat) by (rewrite <- Hl; apply nth_error_Some; congruence).
      destruct (Nat.eqb_spec k n); [lia|].
      pose proof (c_slabs _ _ _ _ C _ _ _ Hf SI) as H. unfold status in H.
      assert (Ea : assoc k (lg_back lg ++ [(lg_suffix lg, lg_front lg)]) =
                   if Nat.eqb k (lg_suffix lg) then Some (lg_front lg) else assoc k (lg_back lg)).
      { pose proof (front_not_back ps slab_size _ _ C) as FN. clear -FN.
        induction (lg_back lg) as [|[j t] b IH]; cbn in *.
        - rewrite Nat.eqb_sym. destruct (Nat.eqb k (lg_suffix lg)); auto.
        - destruct (Nat.eqb_spec j (lg_suffix lg)); [discriminate|].
          destruct (Nat.eqb_spec j k) as [->|]; auto.
          destruct (Nat.eqb_spec k (lg_suffix lg)); [congruence|auto]. }
      rewrite Ea. exact H.
  - cbn [lg' lg_back lg_suffix]. apply Forall_app. split; [|constructor; cbn; auto].
    eapply Forall_impl; [|apply (c_back _ _ _ _ C)]. cbn. unfold n. lia.
  - cbn [lg' lg_back]. rewrite map_app. cbn.
    pose proof (front_not_back ps slab_size _ _ C) as FN. apply assoc_none in FN.
    pose proof (c_nodup _ _ _ _ C) as ND. clear -FN ND.
    induction (map fst (lg_back lg)) as [|x l IH]; cbn in *.
    + constructor; auto.
    + inversion ND; subst. constructor.
      * intros H. apply in_app_or in H. destruct H as [H|[H|[]]]; auto.
      * apply IH; auto.
  - cbn [lg' lg_back]. apply Forall_app. split; [apply C|]. constructor; auto.
  - cbn [lg' lg_evs lg_files]. apply emit_replay, C.
  - exists [EvCreate slab_size]. split; [reflexivity|].
    intros [|x [|y es1]] es2 E N; try congruence; [|discriminate].
    injection E as <- _. exists G. split; auto.
    rewrite replay_snoc, (c_replay _ _ _ _ C). exact I'.
  - exists [EvCreate slab_size]. split; [reflexivity|]. constructor; [exact I|constructor].
Qed.

(** ** add_section *)
Definition size_ok (req : N) : Prop := 15 <= req /\ align ps req <= slab_size /\ align ps req < 2 ^ 32.

Lemma add_section_spec lg G t req i : core lg G -> frontpos lg -> size_ok req ->
  exists lg' h k off, add_section ps slab_size t req lg = Ret (lg', h) /\
    core lg' (G ++ [fresh k off req i t]) /\ frontpos lg' /\
    ext lg lg' (fun G' => G' = G \/ G' = G ++ [fresh k off req i t]) /\
    wrote lg lg' (within (fresh k off req i t)) /\
    matches h (fresh k off req i t) /\ k = lg_suffix lg'.
Proof.
  intros C FP (R1 & R2 & R3). unfold add_section.
  destruct (gc_spec _ _ C) as (lg1 & E1 & C1 & X1 & W1 & F1 & S1 & _). rewrite E1. cbn [obind].
  pose proof (slab_add_spec lg1 G t req i C1 R1 R3) as H. cbn zeta in H.
  destruct (N.ltb_spec slab_size (align ps (sl_pos (lg_front lg1)) + align ps req)).
  - destruct H as (sl & E2 & C2 & P2). rewrite E2. cbn [obind].
    destruct (new_slab_spec _ _ C2) as (C3 & X3 & W3).
    { cbn [set_front lg_front]. rewrite P2. pose proof (align_bounds ps Hps (sl_pos (lg_front lg1))).
      unfold frontpos in FP. rewrite F1 in *. lia. }
    cbn [set_front emit lg_front lg_back lg_suffix lg_files lg_evs] in C3, X3, W3 |- *.
    match type of C3 with ULogProofs2.core _ _ ?l _ => set (lg3 := l) in * end.
    pose proof (slab_add_spec lg3 G t req i C3 R1 R3) as H4. cbn zeta in H4.
    assert (A0 : align ps (sl_pos (lg_front lg3)) = 0).
    { cbn. apply aligned_unique; auto; [exists 0; lia|]. pose proof (ps_pos ps Hps). lia. }
    rewrite A0 in H4. destruct (N.ltb_spec slab_size (0 + align ps req)); [lia|].
    destruct H4 as (sl' & lg' & h & E4 & C4 & X4 & W4 & M4 & P4 & S4 & B4 & _).
    change (S (lg_suffix lg1)) with (lg_suffix lg3).
    change (slab_add_section ps slab_size (lg_suffix lg3) t req (mkSlab 0 [] 0) lg3) with (slab_add_section ps slab_size (lg_suffix lg3) t req (lg_front lg3) lg3). rewrite E4. cbn [obind].
    eexists _, h, _, _. split; [reflexivity|]. split; [exact C4|]. split; [exact P4|].
    assert (X3' : ext lg1 lg3 (fun G' => G' = G)) by exact X3.
    split.
    { eapply ext_trans; [eapply ext_weaken; [|exact X1]; auto|].
      eapply ext_trans; [eapply ext_weaken; [|exact X3']; auto|].
      destruct X4 as (es & Ee & He). exists es. split; [exact Ee|].
      intros es1 es2 A B. destruct (He es1 es2 A B) as (G' & -> & I'). eauto. }
    split.
    { eapply wrote_trans; [eapply wrote_weaken; [|exact W1]; cbn; intros ? ? []|].
      eapply wrote_trans with (lg2 := lg3); [eapply wrote_weaken; [|exact W3]; cbn; intros ? ? []|].
      exact W4. }
    split; [exact M4|]. cbn [set_front lg_suffix]. congruence.
  - destruct H as (sl & lg' & h & E2 & C2 & X2 & W2 & M2 & P2 & S2 & B2 & _).
    rewrite E2. cbn [obind]. eexists _, h, _, _. split; [reflexivity|]. split; [exact C2|].
    split; [exact P2|]. split.
    { eapply ext_trans; [eapply ext_weaken; [|exact X1]; auto|].
      destruct X2 as (es & Ee & He). exists es. split; [exact Ee|].
      intros es1 es2 A B. destruct (He es1 es2 A B) as (G' & -> & I'). eauto. }
    split.
    { eapply wrote_trans; [eapply wrote_weaken; [|exact W1]; cbn; intros ? ? []|]. exact W2. }
    split; [exact M2|]. cbn [set_front lg_suffix]. congruence.
Qed.

Lemma add_section_panics lg G t req : core lg G -> align ps req < 2 ^ 32 ->
  ~ size_ok req -> add_section ps slab_size t req lg = Panic.
Proof.
  intros C R3 Hn. unfold add_section.
  destruct (gc_spec _ _ C) as (lg1 & E1 & C1 & _). rewrite E1. cbn [obind].
  assert (Hbad : req < 15 \/ slab_size < align ps req) by (unfold size_ok in Hn; lia).
  assert (Hadd : forall k s lg, slab_add_section ps slab_size k t req s lg = Panic \/
     exists s', slab_add_section ps slab_size k t req s lg = Ret (s', lg, None)).
  { intros k s lg0. unfold slab_add_section. rewrite N.mod_small by auto.
    destruct (N.ltb_spec slab_size (align ps (sl_pos s) + align ps req)); [right; eauto|left].
    destruct (_ || _); auto. destruct (nth_error _ k); auto.
    unfold MAX_HEADER_SIZE. destruct (N.ltb_spec req 15); [|lia].
    now rewrite !orb_true_r. }
  destruct (Hadd (lg_suffix lg1) (lg_front lg1) lg1) as [E|[s' E]]; rewrite E; cbn [obind]; auto.
  cbn [lg_suffix lg_front].
  match goal with |- context [slab_add_section ps slab_size ?k t req ?s ?l] =>
    destruct (Hadd k s l) as [E'|[s2 E']]; rewrite E'; cbn [obind]; auto end.
Qed.

(** ** Construction *)
Lemma logger_new_spec : 
  if slab_size <? blen (main_bytes ps) then logger_new ps slab_size = Panic
  else exists lg, logger_new ps slab_size = Ret lg /\ core lg [] /\ frontpos lg /\
    lg_evs lg = [EvCreate slab_size; EvWrite 0 0 (main_bytes ps)].
Proof.
  assert (Hb : blen (main_bytes ps) <= 10).
  { apply enc_main_bound. repeat split; cbn; apply N.mod_lt; lia. }
  unfold logger_new. fold (main_bytes ps). pose proof Hps as [_ Hp16].
  destruct (N.ltb_spec slab_size (blen (main_bytes ps))); [reflexivity|]. cbn [orb].
  destruct (N.ltb_spec (blen (main_bytes ps)) ps); [|lia]. cbn [negb].
  eexists. split; [reflexivity|].
  assert (SI : slab_img 0 (mkFile (wr (fun _ => 0) 0 (main_bytes ps)) slab_size) [] ps).
  { constructor; try (cbn; auto; fail). intros a Ha. cbn [f_mem]. rewrite wr_other by lia. auto. }
  split; [constructor|].
  - constructor; auto.
    + intros [|k] f Hf; cbn in Hf; [|destruct k; discriminate]. injection Hf as <-.
      exists ps. split; auto.
    + intros f Hf. cbn in Hf. injection Hf as <-. cbn [f_mem]. apply wr_same.
    + constructor.
  - reflexivity.
  - intros [|k] f e Hf SI'; cbn in Hf; [|destruct k; discriminate]. injection Hf as <-.
    cbn. split; auto. rewrite (slab_img_unique _ _ _ _ _ _ _ _ SI' SI).
    constructor; cbn; auto; try lia. apply aligned_align; auto. exists 1. lia.
  - constructor.
  - constructor.
  - constructor.
  - reflexivity.
  - split; [unfold frontpos; cbn; lia|reflexivity].
Qed.
End Alloc.
