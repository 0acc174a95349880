(** Whole sessions, shutdown, and reading back. *)
From Coq Require Import List Arith NArith ZArith Bool Lia Sorted ZifyBool ZifyNat ZifyN.
From Verif Require Import Base BincodeModel BincodeSpec BincodeProofs ULogModel ULogSpec
  ULogProofs1 ULogProofs2 ULogProofs3 ULogProofs4 ULogProofs5.
Import ListNotations.
Open Scope N_scope.

Section Sessions.
Context (ps slab_size : N) (Hps : page_ok ps).
Notation core := (core ps slab_size).
Notation img := (img ps slab_size).
Notation ext := (ext ps slab_size).
Notation sec_ok := (sec_ok ps).
Notation slab_img := (slab_img ps slab_size).
Notation matches := (matches ps).
Notation size_ok := (size_ok ps slab_size).
Notation sinv := (sinv ps slab_size).

Lemma steps_spec ops : forall sy G, sinv sy G -> Forall (op_ok ps) ops ->
  match lsteps ps slab_size sy ops with
  | Ret sy' => exists G', sinv sy' G' /\ gprogress G G' /\
      asteps ps slab_size (length (sy_streams sy), map abs G) ops =
        Some (length (sy_streams sy'), map abs G')
  | Panic => asteps ps slab_size (length (sy_streams sy), map abs G) ops = None
  end.
Proof.
  induction ops as [|op ops IH]; intros sy G I F; cbn [lsteps asteps].
  - exists G. split; auto. split; [apply gprogress_refl|reflexivity].
  - inversion F as [|? ? Hop F']; subst.
    pose proof (step_spec ps slab_size Hps sy G op I Hop) as H.
    destruct (lstep ps slab_size sy op) as [sy1|]; cbn [obind].
    + destruct H as (G1 & I1 & P1 & A1 & _). rewrite A1. specialize (IH sy1 G1 I1 F').
      destruct (lsteps ps slab_size sy1 ops) as [sy2|]; auto.
      destruct IH as (G2 & I2 & P2 & A2). exists G2. split; auto. split; auto.
      eapply gprogress_trans; eauto.
    + now rewrite H.
Qed.

Lemma sizes_ok_ops ops : sizes_ok ps ops -> Forall (op_ok ps) ops.
Proof. intros H. apply Forall_forall. intros [t min|i o|i] Hin; cbn; eauto. Qed.

Lemma sinv_new lg : logger_new ps slab_size = Ret lg -> sinv (mkSys lg []) [].
Proof.
  intros E. pose proof (logger_new_spec ps slab_size Hps) as H.
  destruct (slab_size <? _).
  - congruence.
  - destruct H as (lg' & E' & C & FP & _). rewrite E in E'. injection E' as <-.
    constructor; auto. constructor; cbn; auto.
    + intros [|p] s H; discriminate.
    + intros [|i] st H; discriminate.
    + intros [|p] q s t H; discriminate.
Qed.

Lemma session_spec ops : sizes_ok ps ops ->
  match session ps slab_size ops with
  | Ret sy => exists G, sinv sy G /\
      asteps ps slab_size (0%nat, []) ops = Some (length (sy_streams sy), map abs G)
  | Panic => slab_size < blen (main_bytes ps) \/ asteps ps slab_size (0%nat, []) ops = None
  end.
Proof.
  intros S. unfold session. pose proof (logger_new_spec ps slab_size Hps) as H.
  destruct (N.ltb_spec slab_size (blen (main_bytes ps))).
  - rewrite H. cbn [obind]. auto.
  - destruct H as (lg & E & C & FP & _). rewrite E. cbn [obind].
    pose proof (steps_spec ops _ _ (sinv_new _ E) (sizes_ok_ops _ S)) as H.
    destruct (lsteps _ _ _ _) as [sy|]; [|right; exact H].
    destruct H as (G & I & P & A). exists G. split; [exact I|]. exact A.
Qed.

(** ** Shutdown *)
Lemma img_trim fs G k sl : img fs G ->
  (forall f e, nth_error fs k = Some f -> slab_img k f G e -> live ps k sl G e) ->
  sl_inflight sl = [] -> 0 < sl_pos sl ->
  img (apply_ev (EvTrim k (sl_pos sl)) fs) G /\
  (forall f' e, nth_error (apply_ev (EvTrim k (sl_pos sl)) fs) k = Some f' ->
     slab_img k f' G e -> trimmed ps k f' G e).
Proof.
  intros [I1 I2 I3 I4 I5] HL E Hpos.
  assert (Hfiles : forall j f', nth_error (apply_ev (EvTrim k (sl_pos sl)) fs) j = Some f' ->
     exists f, nth_error fs j = Some f /\ (forall a, f_mem f' a = f_mem f a) /\
       f_len f' = if Nat.eqb j k then sl_pos sl else f_len f).
  { intros j f' Hf'. cbn [apply_ev] in Hf'. destruct (Nat.eqb_spec j k) as [->|Hj].
    - destruct (nth_error fs k) as [f|] eqn:Ef.
      + rewrite (modify_file_same _ _ _ _ Ef) in Hf'. injection Hf' as <-. exists f. auto.
      + unfold modify_file in Hf'. rewrite Ef in Hf'. congruence.
    - rewrite modify_file_other in Hf' by auto. exists f'. auto. }
  assert (Htr : forall f' e, nth_error (apply_ev (EvTrim k (sl_pos sl)) fs) k = Some f' ->
     slab_img k f' G e -> trimmed ps k f' G e).
  { intros f' e Hf' SI. destruct (Hfiles _ _ Hf') as (f & Hf & Em & El).
    rewrite Nat.eqb_refl in El.
    assert (SI0 : slab_img k f G e) by (eapply slab_img_mem'; eauto).
    pose proof (HL _ _ Hf SI0) as HH.
    eapply live_trimmed with (m := f_mem f'); eauto. destruct f'; cbn in *. congruence. }
  split; auto. constructor; auto.
  - intros j f' Hf'. destruct (Hfiles _ _ Hf') as (f & Hf & Em & El).
    destruct (I1 _ _ Hf) as (e & SI & Hl). exists e.
    assert (SI' : slab_img j f' G e) by (eapply slab_img_mem; eauto).
    split; auto. destruct (Nat.eqb_spec j k) as [->|Hj].
    + right. eauto.
    + destruct Hl as [Hl|Hl]; [left; congruence|right].
      destruct Hl as [T1 T2 T3 T4]. constructor; rewrite ?El; auto.
  - intros f' Hf'. destruct (Hfiles _ _ Hf') as (f & Hf & Em & El).
    intros i Hi. rewrite Em. now apply I2.
  - cbn [apply_ev]. now rewrite modify_file_length.
Qed.

Lemma flush_front lg G h : core lg G -> hd_slab h = lg_suffix lg ->
  flush_section h lg =
  let! (s, lg') := slab_flush_section h (lg_front lg) lg in Ret (set_front s lg').
Proof.
  intros C E. unfold flush_section.
  rewrite flush_back_none by (rewrite E; eapply front_not_back; eauto). cbn [obind].
  now rewrite E, Nat.eqb_refl.
Qed.

Definition all_trimmed (fs : list file) (G : list gsec) : Prop :=
  forall k f e, nth_error fs k = Some f -> slab_img k f G e -> trimmed ps k f G e.

Lemma closed_inflight k sl G e : live ps k sl G e -> Forall (fun s => g_open s = false) G ->
  sl_inflight sl = [].
Proof.
  intros [L1 L2 L3 L4 L5 L6] H. rewrite L4.
  replace (filter g_open (on k G)) with (@nil gsec); auto. symmetry. unfold on.
  clear -H. induction H as [|x l Hx _ IH]; cbn; auto.
  destruct (Nat.eqb (g_slab x) k); cbn; rewrite ?Hx; auto.
Qed.

Lemma all_closed_G sy G : sinv sy G -> all_closed sy -> Forall (fun s => g_open s = false) G.
Proof.
  intros [_ _ I] H. apply Forall_forall. intros s Hs. apply In_nth_error in Hs. destruct Hs as (p & Hp).
  destruct (g_open s) eqn:O; auto. destruct (sv_open _ _ _ I _ _ Hp O) as (st & Hst & _).
  unfold all_closed in H. rewrite Forall_forall in H. apply nth_error_In in Hst. apply H in Hst. discriminate.
Qed.

Lemma drop_spec sy G i : sinv sy G -> all_closed sy -> size_ok 80 ->
  exists lg' k off, logger_drop ps slab_size (sy_lg sy) = Ret lg' /\
    let f := fresh k off 80 i TLast in
    let G' := G ++ [closed f] in
    img (lg_files lg') G' /\ all_trimmed (lg_files lg') G' /\
    replay (lg_evs lg') = lg_files lg' /\ g_slab f = pred (length (lg_files lg')) /\
    ext (sy_lg sy) lg' (fun X => X = G \/ X = G ++ [f] \/ X = G').
Proof.
  intros I Hcl SZ. pose proof (all_closed_G _ _ I Hcl) as HG. destruct I as [C FP _].
  unfold logger_drop.
  destruct (add_section_spec ps slab_size Hps _ _ TLast 80 i C FP SZ)
    as (lg1 & h & k & off & E1 & C1 & FP1 & X1 & W1 & M1 & Ek).
  rewrite E1. cbn [obind]. set (f := fresh k off 80 i TLast) in *.
  assert (Hh : hd_slab h = lg_suffix lg1) by (destruct M1 as (-> & _); exact Ek).
  destruct (flush_section_spec ps slab_size Hps h lg1 G f [] C1 eq_refl M1)
    as (lg2 & E2 & C2 & X2 & S2 & P2 & _).
  rewrite (flush_front _ _ _ C1 Hh) in E2.
  destruct (slab_flush_section h (lg_front lg1) lg1) as [[s2 lg2']|]; [|discriminate].
  cbn [obind] in *. injection E2 as <-.
  destruct (gc_spec ps slab_size Hps _ _ C2) as (lg3 & E3 & C3 & X3 & W3 & F3 & S3 & P3).
  rewrite E3. cbn [obind].
  set (G' := G ++ [closed f]) in *.
  assert (HG' : Forall (fun s => g_open s = false) G').
  { apply Forall_app. split; auto. }
  assert (B3 : lg_back lg3 = []).
  { destruct (lg_back lg3) as [|[j sl] b] eqn:Eb; auto. exfalso.
    assert (Hst : status lg3 j = Some sl).
    { unfold status. pose proof (c_back _ _ _ _ C3) as B. rewrite Eb in B |- *.
      inversion B as [|? ? Hj _]; subst. cbn in Hj. destruct (Nat.eqb_spec j (lg_suffix lg3)); [lia|].
      cbn. now rewrite Nat.eqb_refl. }
    assert (Hj : (j <= lg_suffix lg3)%nat).
    { pose proof (c_back _ _ _ _ C3) as B. rewrite Eb in B. inversion B as [|? ? Hj _]; subst. cbn in Hj. lia. }
    destruct (core_status_live ps slab_size _ _ _ _ C3 Hst Hj) as (f0 & e0 & _ & _ & _ & HL).
    inversion P3 as [|? ? Hx _]; subst. apply Hx. cbn [snd]. eapply closed_inflight; eauto. }
  assert (Hst : status lg3 (lg_suffix lg3) = Some (lg_front lg3)) by (unfold status; now rewrite Nat.eqb_refl).
  destruct (core_status_live ps slab_size _ _ _ _ C3 Hst (Nat.le_refl _)) as (f0 & e0 & Hf0 & SI0 & _ & HL0).
  rewrite (drop_slab_ok ps _ _ _ _ _ HL0). cbn [obind emit lg_back]. rewrite B3. cbn [drop_all].
  destruct (img_trim _ _ (lg_suffix lg3) (lg_front lg3) (c_img _ _ _ _ C3)) as (I4 & T4).
  { intros f1 e1 Hf1 SI1. pose proof (c_slabs _ _ _ _ C3 _ _ _ Hf1 SI1) as H. rewrite Hst in H. tauto. }
  { eapply closed_inflight; eauto. }
  { rewrite F3, P2. exact FP1. }
  eexists _, k, off. split; [reflexivity|]. cbn zeta. fold f. fold G'.
  split; [exact I4|]. split; [|split; [|split]].
  - intros j fj ej Hfj SIj. destruct (Nat.eq_dec j (lg_suffix lg3)) as [->|Hj]; [eauto|].
    cbn [emit lg_files apply_ev] in Hfj. rewrite modify_file_other in Hfj by auto.
    pose proof (c_slabs _ _ _ _ C3 _ _ _ Hfj SIj) as H. unfold status in H. rewrite B3 in H.
    destruct (Nat.eqb_spec j (lg_suffix lg3)); [congruence|]. exact H.
  - apply emit_replay with (lg := lg3), C3.
  - cbn [emit lg_files apply_ev]. rewrite modify_file_length, (c_len _ _ _ _ C3). cbn.
    rewrite S3, S2. exact Ek.
  - eapply ext_trans; [eapply ext_weaken; [|exact X1]; cbn; tauto|].
    eapply ext_trans; [eapply ext_weaken; [|exact X2]; cbn; tauto|].
    eapply ext_trans; [eapply ext_weaken; [|exact X3]; cbn; tauto|].
    eapply ext_emit; [apply C3|right; right; reflexivity|exact I4].
Qed.

(** ** Reading *)
Definition r_at (k : nat) (f : file) (p : N) : reader := mkReader k f p.

(** Room for a section in a file. *)
Definition sec_in (f : file) (s : gsec) : Prop := g_off s + g_req s <= f_len f.

Lemma g_filled_le m s : sec_ok m s -> 15 + g_filled s <= g_req s.
Proof.
  intros [K1 K2 K3 K4 K5]. unfold g_filled. destruct (_ || _); lia.
Qed.

Lemma slice_drop m o n k : k <= n -> slice m o n = slice m o k ++ slice m (o + k) (n - k).
Proof. intros H. replace n with (k + (n - k)) at 1 by lia. apply slice_app. Qed.

Lemma read_header_at k f s : sec_ok (f_mem f) s -> sec_in f s ->
  read_section_header (mkReader k f (g_off s)) = ROk (g_hdr ps s).
Proof.
  intros Hs Hin. pose proof (wf_g_hdr ps slab_size Hps _ _ Hs) as Hwf || pose proof (wf_g_hdr ps Hps _ _ Hs) as Hwf.
  pose proof (enc_header_bound _ Hwf) as Hb. unfold sec_in in Hin.
  pose proof (so_min _ _ _ Hs) as Hmin.
  unfold read_section_header. cbn [rd_file rd_pos].
  destruct (N.ltb_spec (f_len f) (g_off s)); [lia|].
  rewrite (slice_drop _ _ _ (blen (enc_header (g_hdr ps s)))) by lia.
  rewrite (slice_bytes_at _ _ _ (so_hdr _ _ _ Hs)).
  rewrite (header_lossless _ _ Hwf). cbn [g_hdr h_magic].
  destruct (list_eq_dec N.eq_dec section_magic section_magic); congruence.
Qed.

Lemma read_content_at k f s : sec_ok (f_mem f) s -> sec_in f s ->
  read_section_content (g_hdr ps s) (mkReader k f (g_off s)) =
    ROk (if g_open s || logtype_eqb (g_type s) TEmpty then [] else g_data s).
Proof.
  intros Hs Hin. pose proof (g_filled_le _ _ Hs). unfold sec_in in Hin.
  unfold read_section_content, MAX_HEADER_SIZE. cbn [rd_file rd_pos g_hdr h_filled].
  destruct (N.ltb_spec (f_len f) (g_off s + 15 + g_filled s)); [lia|].
  unfold g_filled. destruct (_ || _); [reflexivity|].
  now rewrite (slice_bytes_at _ _ _ (so_data _ _ _ Hs)).
Qed.

(** What reading a section of type [t] contributes. *)
Definition content (s : gsec) : bytes :=
  if g_open s || logtype_eqb (g_type s) TEmpty then [] else g_data s.
Definition contents (t : logtype) (l : list gsec) : list bytes :=
  map content (filter (fun s => logtype_eqb (g_type s) t) l).

Lemma contents_app t l1 l2 : contents t (l1 ++ l2) = contents t l1 ++ contents t l2.
Proof. unfold contents. now rewrite filter_app, map_app. Qed.

Lemma read_next_at fs fuel t k f s : sec_ok (f_mem f) s -> sec_in f s ->
  g_type s <> TLast ->
  read_next fs (S fuel) t (mkReader k f (g_off s)) =
    if logtype_eqb (g_type s) t
    then ROk (mkReader k f (g_off s + g_size ps s), Some (content s))
    else read_next fs fuel t (mkReader k f (g_off s + g_size ps s)).
Proof.
  intros Hs Hin Ht. cbn [read_next rd_file rd_pos].
  destruct (N.leb_spec (f_len f) (g_off s)).
  { unfold sec_in in Hin. pose proof (so_min _ _ _ Hs). lia. }
  cbn [rbind]. rewrite (read_header_at _ _ _ Hs Hin). cbn [rbind g_hdr h_type h_size].
  destruct (logtype_eqb (g_type s) TLast) eqn:E; [apply logtype_eqb_eq in E; congruence|].
  cbn [rd_slab rd_file rd_pos]. destruct (logtype_eqb (g_type s) t); auto.
  rewrite (read_content_at k f s Hs Hin). reflexivity.
Qed.

Lemma reads_from_skip fs t r r' cs e :
  (forall fuel, exists fuel', read_next fs fuel' t r = read_next fs fuel t r') ->
  reads_from fs t r' cs e -> reads_from fs t r cs e.
Proof.
  intros H R. inversion R as [? ? fuel E|? fuel E|? ? fuel c cs' ? E R']; subst.
  - destruct (H fuel) as (fuel' & E'). eapply reads_end. rewrite E'; eauto.
  - destruct (H fuel) as (fuel' & E'). eapply reads_err. rewrite E'; eauto.
  - destruct (H fuel) as (fuel' & E'). eapply reads_more; eauto. rewrite E'; eauto.
Qed.

Lemma reads_chain fs t k f : forall l b e cs end_,
  chain ps b l e -> Forall (sec_ok (f_mem f)) l -> Forall (sec_in f) l ->
  Forall (fun s => g_type s <> TLast) l ->
  reads_from fs t (mkReader k f e) cs end_ ->
  reads_from fs t (mkReader k f b) (contents t l ++ cs) end_.
Proof.
  induction l as [|s l IH]; intros b e cs end_ Hc Ho Hi Ht R; cbn [chain] in Hc.
  - subst. exact R.
  - destruct Hc as [<- Hc]. inversion Ho; inversion Hi; inversion Ht; subst.
    assert (R' := IH _ _ cs end_ Hc H2 H6 H10 R).
    pose proof (fun fuel => read_next_at fs fuel t k f s H1 H5 H9) as Hn.
    unfold contents. cbn [filter]. destruct (logtype_eqb (g_type s) t); cbn [map app].
    + eapply reads_more; [apply (Hn 0%nat)|]. exact R'.
    + eapply reads_from_skip; [|exact R']. intros fuel. exists (S fuel). apply Hn.
Qed.

(** At the end of a slab: either the next one, or an error. *)
Lemma read_next_slab fs t k f f' e fuel : f_len f <= e -> nth_error fs (S k) = Some f' -> 0 < f_len f' ->
  read_next fs fuel t (mkReader k f e) = read_next fs fuel t (mkReader (S k) f' 0).
Proof.
  intros H E P. destruct fuel as [|fuel]; [reflexivity|]. cbn [read_next rd_file rd_pos].
  destruct (N.leb_spec (f_len f) e); [|lia]. destruct (N.leb_spec (f_len f') 0); [lia|].
  unfold next_slab, open_slab_index. cbn [rd_slab]. rewrite E. reflexivity.
Qed.

Lemma read_next_none fs t k f e : f_len f <= e -> nth_error fs (S k) = None ->
  read_next fs 1 t (mkReader k f e) = RErr.
Proof.
  intros H E. cbn [read_next rd_file rd_pos]. destruct (N.leb_spec (f_len f) e); [|lia].
  unfold next_slab, open_slab_index. cbn [rd_slab]. now rewrite E.
Qed.

Lemma slice_zero m o n : (forall a, o <= a -> m a = 0) -> slice m o n = repeat 0 (N.to_nat n).
Proof.
  intros H. unfold slice. apply nth_error_ext. intros i.
  destruct (Nat.lt_ge_cases i (N.to_nat n)) as [L|L].
  -
    rewrite nth_error_map. rewrite (nth_error_nth' _ 0%nat) by (now rewrite seq_length).
    rewrite seq_nth by auto. cbn. rewrite H by lia.
    symmetry. rewrite (nth_error_nth' _ 0) by (now rewrite repeat_length). now rewrite nth_repeat.
  - rewrite (proj2 (nth_error_None _ _)) by (now rewrite map_length, seq_length).
    symmetry. apply nth_error_None. now rewrite repeat_length.
Qed.

Lemma dec_header_zeros n : (5 <= n)%nat ->
  exists rest, dec_header (repeat 0 n) = Some (mkHdr [0; 0] TEmpty 0 0, rest).
Proof.
  intros H. do 5 (destruct n as [|n]; [lia|]). eexists. reflexivity.
Qed.

Lemma read_zero fs t k f e : e + 5 <= f_len f -> (forall a, e <= a -> f_mem f a = 0) ->
  read_next fs 1 t (mkReader k f e) = RErr.
Proof.
  intros H Z. cbn [read_next rd_file rd_pos]. destruct (N.leb_spec (f_len f) e); [lia|].
  cbn [rbind]. unfold read_section_header. cbn [rd_file rd_pos].
  destruct (N.ltb_spec (f_len f) e); [lia|]. rewrite slice_zero by auto.
  destruct (dec_header_zeros (N.to_nat (f_len f - e))) as (rest & ->); [lia|].
  cbn [h_magic]. destruct (list_eq_dec N.eq_dec [0; 0] section_magic); [discriminate|reflexivity].
Qed.

(** Opening the log. *)
Lemma reader_new_spec fs f : nth_error fs 0 = Some f -> bytes_at (f_mem f) 0 (main_bytes ps) ->
  blen (main_bytes ps) <= f_len f -> reader_new fs = ROk (mkReader 0 f ps).
Proof.
  intros E B L. unfold reader_new, open_slab_index. rewrite E.
  rewrite (slice_drop _ _ _ (blen (main_bytes ps))) by auto. rewrite (slice_bytes_at _ _ _ B).
  assert (Hwf : wf_main (mkMain main_magic (ps mod 2 ^ 16) (ps mod 2 ^ 16))).
  { repeat split; cbn; apply N.mod_lt; lia. }
  unfold main_bytes. rewrite (main_lossless _ _ Hwf). cbn [mh_magic mh_first].
  destruct (list_eq_dec N.eq_dec main_magic main_magic); [|congruence]. cbn [rbind].
  rewrite N.mod_small by (destruct Hps as [_ ?]; lia). reflexivity.
Qed.

(** Sections of a file lie inside it. *)
Lemma img_sec_in fs G k f e : img fs G -> nth_error fs k = Some f -> slab_img k f G e ->
  Forall (sec_in f) (on k G).
Proof.
  intros I E SI. destruct (im_slabs _ _ _ _ I _ _ E) as (e' & SI' & [L|[T1 T2 T3 T4]]).
  - eapply Forall_impl; [|apply (si_fits _ _ _ _ _ _ SI)].
    intros s H. cbn beta in H. unfold sec_in. pose proof (g_size_req ps Hps s). lia.
  - eapply Forall_impl; [|exact T4]. unfold sec_in. cbn. tauto.
Qed.

Fixpoint slabs_from (k n : nat) (G : list gsec) : list gsec :=
  match n with O => [] | S n => on k G ++ slabs_from (S k) n G end.

Lemma slabs_from_lt G : StronglySorted (fun a b => (g_slab a <= g_slab b)%nat) G ->
  forall n k, Forall (fun s => (k <= g_slab s < k + n)%nat) G -> slabs_from k n G = G.
Proof.
  intros HS n. revert G HS. induction n as [|n IH]; intros G HS k H; cbn.
  - destruct G as [|s G]; auto. inversion H; subst. lia.
  - assert (Hsp : exists A B, G = A ++ B /\ Forall (fun s => g_slab s = k) A /\
                   Forall (fun s => (S k <= g_slab s < S k + n)%nat) B).
    { clear IH. induction HS as [|x l HS IHl F]; [exists [], []; auto|].
      inversion H; subst. destruct (Nat.eq_dec (g_slab x) k) as [Ex|Ex].
      - destruct (IHl H3) as (A & B & -> & HA & HB). exists (x :: A), B. auto.
      - exists [], (x :: l). split; auto. split; auto. constructor; [lia|].
        rewrite Forall_forall in *. intros y Hy. specialize (F y Hy). specialize (H3 y Hy). lia. }
    destruct Hsp as (A & B & -> & HA & HB).
    assert (EA : on k (A ++ B) = A).
    { rewrite on_app. assert (on k B = []) as ->.
      { clear -HB. induction HB as [|x l Hx _ IH]; cbn; auto. destruct (Nat.eqb_spec (g_slab x) k); [lia|auto]. }
      rewrite app_nil_r. clear -HA. induction HA as [|x l Hx _ IH]; cbn; auto.
      rewrite Hx, Nat.eqb_refl. now f_equal. }
    rewrite EA. f_equal.
    assert (Hm : forall m j, (k < j)%nat -> slabs_from j m (A ++ B) = slabs_from j m B).
    { induction m as [|m IHm]; intros j Hj; cbn; auto. rewrite IHm by lia. f_equal.
      rewrite on_app. assert (on j A = []) as ->; auto.
      clear -HA Hj. induction HA as [|x l Hx _ IH]; cbn; auto. destruct (Nat.eqb_spec (g_slab x) j); [lia|auto]. }
    rewrite Hm by lia. apply IH; auto.
    clear -HS. induction A as [|x A IHA]; cbn in *; auto. inversion HS; auto.
Qed.

(** Reading slabs [k, k+1, ...] after a clean shutdown, up to the last section. *)
Lemma reads_slabs_clean fs G last t : img fs (G ++ [last]) -> all_trimmed fs (G ++ [last]) ->
  g_type last = TLast -> Forall (fun s => g_type s <> TLast) G ->
  S (g_slab last) = length fs ->
  forall n k f, (k + S n = length fs)%nat -> nth_error fs k = Some f ->
  reads_from fs t (mkReader k f (base ps k)) (contents t (slabs_from k (S n) G)) (ROk tt).
Proof.
  intros I T Hl HG Hlast. induction n as [|n IH]; intros k f Hk Hf.
  - cbn [slabs_from]. rewrite app_nil_r.
    destruct (im_slabs _ _ _ _ I _ _ Hf) as (e & SI & _). pose proof (T _ _ _ Hf SI) as [T1 T2 T3 T4].
    destruct SI as [A1 A2 A3 A4]. assert (Ek : g_slab last = k) by lia.
    rewrite on_snoc_same in * by auto. apply chain_app in A1. destruct A1 as (c & A1 & A1' & A1'').
    apply Forall_app in A2. destruct A2 as [A2 A2']. apply Forall_app in T4. destruct T4 as [T4 T4'].
    rewrite <- (app_nil_r (contents t (on k G))). eapply reads_chain; eauto.
    + eapply Forall_impl; [|exact T4]. cbn. tauto.
    + apply Forall_forall. intros s Hs. rewrite Forall_forall in HG. apply HG.
      unfold on in Hs. apply filter_In in Hs. tauto.
    + inversion A2'; inversion T4'; subst. eapply reads_end with (fuel := 1%nat).
      cbn [read_next rd_file rd_pos]. pose proof (so_min _ _ _ H1). unfold sec_in in *.
      destruct (N.leb_spec (f_len f) (g_off last)); [lia|]. cbn [rbind].
      rewrite (read_header_at _ _ _ H1) by (unfold sec_in; tauto). cbn [rbind g_hdr h_type].
      rewrite Hl. reflexivity.
  - destruct (nth_error fs (S k)) as [f'|] eqn:Ef'; [|apply nth_error_None in Ef'; lia].
    assert (R := IH (S k) f' ltac:(lia) Ef').
    cbn [slabs_from]. rewrite contents_app.
    destruct (im_slabs _ _ _ _ I _ _ Hf) as (e & SI & _). pose proof (T _ _ _ Hf SI) as [T1 T2 T3 T4].
    destruct SI as [A1 A2 A3 A4]. rewrite on_snoc_other in * by lia.
    eapply reads_chain; eauto.
    + eapply Forall_impl; [|exact T4]. cbn. tauto.
    + apply Forall_forall. intros s Hs. rewrite Forall_forall in HG. apply HG.
      unfold on in Hs. apply filter_In in Hs. tauto.
    + eapply reads_from_skip; [|exact R]. intros fuel. exists fuel.
      apply read_next_slab; auto.
      * rewrite <- T1. apply align_bounds; auto.
      * destruct (im_slabs _ _ _ _ I _ _ Ef') as (e' & SI' & _). apply (T _ _ _ Ef' SI').
Qed.

Lemma reads_clean fs G last t : img fs (G ++ [last]) -> all_trimmed fs (G ++ [last]) ->
  g_type last = TLast -> Forall (fun s => g_type s <> TLast) G ->
  S (g_slab last) = length fs ->
  reads fs t (contents t G) (ROk tt).
Proof.
  intros I T Hl HG Hlast. destruct (nth_error fs 0) as [f|] eqn:Ef; [|apply nth_error_None in Ef; lia].
  exists (mkReader 0 f ps). destruct (im_slabs _ _ _ _ I _ _ Ef) as (e & SI & _).
  pose proof (T _ _ _ Ef SI) as [T1 T2 T3 T4]. split.
  - apply reader_new_spec; auto; [apply I; auto|].
    assert (blen (main_bytes ps) <= 10).
    { apply enc_main_bound. repeat split; cbn; apply N.mod_lt; lia. }
    destruct Hps as [_ ?]. cbn in T2. lia.
  - destruct (length fs) as [|n] eqn:El; [lia|].
    rewrite <- (slabs_from_lt G) with (n := S n) (k := 0%nat) at 1.
    + change ps with (base ps 0) at 1. eapply reads_slabs_clean; eauto. lia.
    + pose proof (im_sorted _ _ _ _ I) as HS. clear -HS. induction G as [|x G IH]; cbn in *; [constructor|].
      inversion HS as [|? ? ? HF]; subst. constructor; auto. now apply Forall_app in HF.
    + pose proof (im_range _ _ _ _ I) as R. apply Forall_app in R. destruct R as [R _].
      rewrite El in R. eapply Forall_impl; [|exact R]. cbn. lia.
Qed.

(** ** Reading is deterministic *)
Lemma read_next_fuel fs t : forall fuel r fuel', read_next fs fuel t r <> RFuel -> (fuel <= fuel')%nat ->
  read_next fs fuel' t r = read_next fs fuel t r.
Proof.
  induction fuel as [|fuel IH]; intros r fuel' H L; [cbn in H; congruence|].
  destruct fuel' as [|fuel']; [lia|]. cbn [read_next] in *.
  destruct (if f_len (rd_file r) <=? rd_pos r then next_slab fs r else ROk r) as [r1| | |]; cbn [rbind] in *; auto.
  destruct (read_section_header r1) as [h| | |]; cbn [rbind] in *; auto.
  destruct (logtype_eqb (h_type h) TLast); auto. destruct (logtype_eqb (h_type h) t); auto.
  apply IH; auto. lia.
Qed.

Lemma read_next_unique fs t r f1 f2 x y : read_next fs f1 t r = x -> read_next fs f2 t r = y ->
  x <> RFuel -> y <> RFuel -> x = y.
Proof.
  intros H1 H2 N1 N2. destruct (Nat.le_ge_cases f1 f2) as [L|L].
  - rewrite <- H1, <- H2. symmetry. apply read_next_fuel; congruence.
  - rewrite <- H1, <- H2. apply read_next_fuel; congruence.
Qed.

Lemma reads_from_unique fs t : forall r cs e, reads_from fs t r cs e ->
  forall cs' e', reads_from fs t r cs' e' -> cs' = cs /\ e' = e.
Proof.
  induction 1 as [r r' fuel E|r fuel E|r r' fuel c cs e E R IH]; intros cs' e' R'; inversion R'; subst;
    match goal with H : read_next _ _ _ r = _ |- _ =>
      pose proof (read_next_unique _ _ _ _ _ _ _ E H ltac:(discriminate) ltac:(discriminate)) as HH end;
    try discriminate; auto.
  injection HH as <- <-. destruct (IH _ _ H0) as [-> ->]. auto.
Qed.

Lemma reads_unique fs t cs e cs' e' : reads fs t cs e -> reads fs t cs' e' -> cs' = cs /\ e' = e.
Proof.
  intros (r & E & R) (r' & E' & R'). rewrite E in E'. injection E' as <-. eapply reads_from_unique; eauto.
Qed.
End Sessions.
