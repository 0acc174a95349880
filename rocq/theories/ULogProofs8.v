(** The Read adapter; flushing; page sizes. *)
From Coq Require Import List Arith NArith ZArith Bool Lia Sorted ZifyBool ZifyNat ZifyN.
From Verif Require Import Base BincodeModel BincodeSpec BincodeProofs ULogModel ULogSpec
  ULogProofs1 ULogProofs2 ULogProofs3 ULogProofs4 ULogProofs5 ULogProofs6 ULogProofs7.
Import ListNotations.
Open Scope N_scope.

Lemma skipn_skipn {A} (n m : nat) (l : list A) : skipn n (skipn m l) = skipn (n + m) l.
Proof.
  revert l. induction m as [|m IH]; intros l; [now rewrite Nat.add_0_r|].
  destruct l; [now rewrite !skipn_nil|]. rewrite Nat.add_succ_r. cbn. apply IH.
Qed.

(** ** C05 *)
Section IO.
Context (fs : list file) (t : logtype).

Lemma dec_header_nil : dec_header [] = None.
Proof. reflexivity. Qed.

Lemma read_next_again : forall F r r', read_next fs F t r = ROk (r', None) ->
  read_next fs F t r' = ROk (r', None).
Proof.
  induction F as [|F IH]; intros r r'; cbn [read_next]; [discriminate|].
  destruct (if f_len (rd_file r) <=? rd_pos r then next_slab fs r else ROk r) as [r1| | |] eqn:E1;
    cbn [rbind]; try discriminate.
  destruct (read_section_header r1) as [h| | |] eqn:E2; cbn [rbind]; try discriminate.
  destruct (logtype_eqb (h_type h) TLast) eqn:E3.
  - intros [= <-].
    assert (L : rd_pos r1 < f_len (rd_file r1)).
    { unfold read_section_header in E2. destruct (N.ltb_spec (f_len (rd_file r1)) (rd_pos r1)); [discriminate|].
      destruct (N.eq_dec (f_len (rd_file r1)) (rd_pos r1)) as [E|]; [|lia].
      rewrite E, N.sub_diag in E2. cbn in E2. discriminate. }
    destruct (N.leb_spec (f_len (rd_file r1)) (rd_pos r1)); [lia|]. cbn [rbind].
    rewrite E2. cbn [rbind]. rewrite E3. reflexivity.
  - destruct (logtype_eqb (h_type h) t).
    + destruct (read_section_content h r1); cbn [rbind]; discriminate.
    + intros H. apply IH in H.
      change (read_next fs (S F) t r' = ROk (r', None)).
      rewrite (read_next_fuel fs t F r' (S F)); [auto|congruence|lia].
Qed.

Fixpoint rfu (F : nat) (r : reader) (cs : list bytes) : Prop :=
  match cs with
  | [] => exists r', read_next fs F t r = ROk (r', None)
  | c :: cs => exists r', read_next fs F t r = ROk (r', Some c) /\ rfu F r' cs
  end.

Lemma rfu_mono F F' : (F <= F')%nat -> forall cs r, rfu F r cs -> rfu F' r cs.
Proof.
  intros L. induction cs as [|c cs IH]; intros r; cbn; intros (r' & H).
  - exists r'. rewrite (read_next_fuel fs t F r F'); auto; congruence.
  - destruct H as [H H']. exists r'. split; auto.
    rewrite (read_next_fuel fs t F r F'); auto; congruence.
Qed.

Lemma reads_rfu r cs e : reads_from fs t r cs e -> e = ROk tt -> exists F, rfu F r cs.
Proof.
  induction 1 as [r r' fuel H|r fuel H|r r' fuel c cs e H HR IH]; intros E; try discriminate.
  - exists fuel. cbn. eauto.
  - destruct (IH E) as (F & HF). exists (Nat.max fuel F). cbn. exists r'. split.
    + rewrite (read_next_fuel fs t fuel r); auto; [congruence|lia].
    + eapply rfu_mono; [|exact HF]. lia.
Qed.

Definition left_of (io : ioreader) (cs : list bytes) : bytes :=
  skipn (N.to_nat (io_pos io)) (io_buf io) ++ concat cs.

Lemma io_read_spec F n io cs : rfu F (io_rd io) cs ->
  exists io' out cs', io_read fs F t n io = ROk (io', out) /\ rfu F (io_rd io') cs' /\
    left_of io cs = out ++ left_of io' cs' /\
    (Forall (fun c => c <> []) cs -> Forall (fun c => c <> []) cs' /\
       (out = [] -> 0 < n -> left_of io cs = [])).
Proof.
  assert (Copy : forall rd buf pos cs', rfu F rd cs' -> pos < blen buf ->
    let len := N.min n (blen buf - pos) in
    let out := firstn (N.to_nat len) (skipn (N.to_nat pos) buf) in
    left_of (mkIO rd buf pos) cs' = out ++ left_of (mkIO rd buf (pos + len)) cs' /\
    (out = [] -> 0 < n -> False)).
  { intros rd buf pos cs' HR L len out. split.
    - unfold left_of, out. cbn [io_pos io_buf]. rewrite app_assoc. f_equal.
      replace (N.to_nat (pos + len)) with (N.to_nat len + N.to_nat pos)%nat by lia.
      rewrite <- (firstn_skipn (N.to_nat len) (skipn (N.to_nat pos) buf)) at 1. f_equal.
      rewrite skipn_skipn. reflexivity.
    - intros E Hn. apply (f_equal (@length _)) in E. unfold out in E.
      rewrite firstn_length, skipn_length in E. unfold blen in *. cbn in E. lia. }
  intros HR. unfold io_read. destruct (N.leb_spec (blen (io_buf io)) (io_pos io)) as [L|L].
  - assert (El : forall cs, left_of io cs = concat cs).
    { intros cs0. unfold left_of. rewrite skipn_all2 by (unfold blen in L; lia). reflexivity. }
    destruct cs as [|c cs]; cbn in HR; destruct HR as (r' & HR).
    + rewrite HR. cbn [rbind]. exists (mkIO r' (io_buf io) (io_pos io)), [], [].
      split; [reflexivity|]. split; [|split].
      * cbn [io_rd rfu]. exists r'. eapply read_next_again; eauto.
      * rewrite El. cbn [app]. unfold left_of. cbn [io_pos io_buf].
        now rewrite skipn_all2 by (unfold blen in L; lia).
      * intros _. split; auto. intros _ _. rewrite El. reflexivity.
    + destruct HR as [HR HR']. rewrite HR. cbn [rbind io_buf io_pos].
      destruct (N.leb_spec (blen c) 0) as [Lc|Lc].
      * assert (c = []) as -> by (destruct c; [auto|unfold blen in Lc; cbn in Lc; lia]).
        eexists _, _, cs. split; [reflexivity|]. split; [exact HR'|]. split.
        -- rewrite El. reflexivity.
        -- intros H. inversion H. congruence.
      * destruct (Copy r' c 0 cs HR' Lc) as [C1 C2].
        eexists _, _, cs. split; [reflexivity|]. split; [exact HR'|]. split.
        -- rewrite El. cbn [io_pos io_buf io_rd]. rewrite <- C1. unfold left_of. cbn. reflexivity.
        -- intros H. inversion H; subst. split; auto. intros E Hn. exfalso. apply C2; auto.
  - destruct io as [rd buf pos]. cbn [io_buf io_pos io_rd] in *.
    destruct (Copy rd buf pos cs HR L) as [C1 C2].
    destruct (N.leb_spec (blen buf) pos); [lia|].
    eexists _, _, cs. split; [reflexivity|]. split; [exact HR|]. split; [exact C1|].
    intros Hne. split; auto. intros E Hn. exfalso. apply C2; auto.
Qed.

Lemma io_reads_spec F : forall ns io cs, rfu F (io_rd io) cs ->
  exists outs rest, io_reads fs F t ns io = ROk outs /\ left_of io cs = concat outs ++ rest /\
    length outs = length ns /\
    (Forall (fun c => c <> []) cs -> forall k n, nth_error ns k = Some n -> 0 < n ->
       nth_error outs k = Some [] -> concat (firstn k outs) = left_of io cs).
Proof.
  induction ns as [|n ns IH]; intros io cs HR.
  - exists [], (left_of io cs). cbn. do 3 (split; [auto|]). intros _ k n' Hk. destruct k; discriminate.
  - destruct (io_read_spec F n io cs HR) as (io' & out & cs' & E & HR' & L & Hne).
    destruct (IH io' cs' HR') as (outs & rest & E2 & L2 & Len & H2).
    exists (out :: outs), rest. cbn [io_reads]. rewrite E. cbn [rbind]. rewrite E2. cbn [rbind].
    split; [reflexivity|]. split; [cbn; rewrite <- app_assoc, <- L2; auto|]. split; [cbn; auto|].
    intros Hc k n' Hk Hn Hk'. destruct (Hne Hc) as [Hc' H0]. destruct k as [|k]; cbn in *.
    + injection Hk as ->. injection Hk' as ->. symmetry. apply H0; auto.
    + rewrite (H2 Hc' k n' Hk Hn Hk'). auto.
Qed.

Lemma io_complete cs : reads fs t cs (ROk tt) -> Forall (fun c => c <> []) cs ->
  exists r F, reader_new fs = ROk r /\ forall ns, exists outs rest,
    io_reads fs F t ns (mkIO r [] 0) = ROk outs /\ concat cs = concat outs ++ rest /\
    forall k n, nth_error ns k = Some n -> 0 < n -> nth_error outs k = Some [] ->
      concat (firstn k outs) = concat cs.
Proof.
  intros (r & E & HR) Hne. destruct (reads_rfu _ _ _ HR eq_refl) as (F & HF).
  exists r, F. split; auto. intros ns.
  destruct (io_reads_spec F ns (mkIO r [] 0) cs HF) as (outs & rest & E2 & L & _ & H).
  exists outs, rest. split; auto. split; [exact L|]. intros k n Hk Hn Hk'. apply (H Hne k n Hk Hn Hk').
Qed.
End IO.

(** ** C06 *)
Section Flush.
Context (ps slab_size : N) (Hps : page_ok ps).

Definition settled (p : nat * slab) : Prop :=
  sl_inflight (snd p) = [] -> sl_pos (snd p) <= align ps (sl_flushed (snd p)) \/
                              sl_pos (snd p) = first_pos ps (fst p).
Definition all_settled (lg : logger) : Prop := Forall settled (slabs lg).

Lemma flush_until_settled until s s' : flush_until until s = Ret s' ->
  sl_pos s' = sl_pos s /\ sl_inflight s' = sl_inflight s /\ (until <> 0 -> sl_flushed s' = until).
Proof.
  unfold flush_until. destruct (N.eqb_spec (sl_flushed s) until); cbn [orb].
  - intros [= <-]. auto.
  - destruct (N.eqb_spec until 0); [intros [= <-]; repeat split; auto; congruence|].
    destruct (N.ltb_spec until (sl_flushed s)); [discriminate|]. intros [= <-]. cbn. auto.
Qed.

Lemma slab_flush_settled h s lg s' lg' k : slab_flush_section h s lg = Ret (s', lg') ->
  settled (k, s') /\ lg' = emit (EvWrite (hd_slab h) (hd_off h) (enc_header (hd_hdr (update_header h)))) lg.
Proof.
  unfold slab_flush_section. destruct (N.ltb_spec (hd_len (update_header h)) (blen (enc_header (hd_hdr (update_header h))))); [discriminate|].
  assert (Eh : hd_slab (update_header h) = hd_slab h /\ hd_off (update_header h) = hd_off h)
    by (unfold update_header; destruct (_ || _); auto).
  destruct Eh as [-> ->]. cbn [sl_inflight sl_pos sl_flushed].
  destruct (filter _ (sl_inflight s)) as [|x l] eqn:EF.
  - destruct (flush_until _ _) as [s1|] eqn:E; cbn [obind]; [|discriminate]. intros [= <- <-].
    split; auto. apply flush_until_settled in E. cbn in E. destruct E as (E1 & E2 & E3).
    intros _. cbn [snd]. left. rewrite E1. destruct (N.eq_dec (sl_pos s) 0) as [->|]; [lia|].
    rewrite (E3 n). apply align_bounds; auto.
  - destruct (sl_flushed s <? x).
    + destruct (flush_until _ _) as [s1|] eqn:E; cbn [obind]; [|discriminate]. intros [= <- <-].
      split; auto. apply flush_until_settled in E. cbn in E. destruct E as (_ & E2 & _).
      intros H'. cbn [snd] in H'. congruence.
    + intros [= <- <-]. split; auto. intros H'. discriminate.
Qed.

Lemma slab_add_settled k t req s lg s' lg' r : settled (k, s) ->
  slab_add_section ps slab_size k t req s lg = Ret (s', lg', r) ->
  settled (k, s') /\ lg_front lg' = lg_front lg /\ lg_back lg' = lg_back lg /\ lg_suffix lg' = lg_suffix lg.
Proof.
  intros S. unfold slab_add_section. destruct (slab_size <? _).
  - intros [= <- <- <-]. split; auto. intros H. specialize (S H). cbn [snd fst sl_pos sl_flushed] in *.
    destruct S as [L| ->].
    + left. pose proof (align_aligned ps Hps (sl_flushed s)) as [q Hq].
      destruct (N.le_gt_cases (align ps (sl_pos s)) (align ps (sl_flushed s))) as [|G]; auto. exfalso.
      pose proof (align_aligned ps Hps (sl_pos s)) as [q' Hq'].
      pose proof (align_bounds ps Hps (sl_pos s)).
      assert (q < q') by (apply (N.mul_lt_mono_pos_r ps); [destruct Hps; lia|lia]). nia.
    + right. apply aligned_align; auto. apply (base_aligned ps k).
  - destruct (_ || _ || _); [discriminate|]. destruct (nth_error _ k); [|discriminate].
    destruct (_ || _); [discriminate|]. intros [= <- <- <-]. split; [|auto].
    intros H. cbn in H. now apply app_eq_nil in H.
Qed.

Lemma gc_list_settled : forall b lg b' lg', gc_list b lg = Ret (b', lg') ->
  Forall settled b -> Forall settled b' /\ lg_front lg' = lg_front lg /\ lg_suffix lg' = lg_suffix lg.
Proof.
  induction b as [|[k s] b IH]; intros lg b' lg'; cbn [gc_list]; [intros [= <- <-]; auto|].
  intros H F. inversion F; subst. destruct (sl_inflight s).
  - unfold drop_slab in H. destruct (flush_until _ _); cbn [obind] in H; [|discriminate].
    apply IH in H; auto.
  - destruct (gc_list b lg) as [[b1 lg1]|] eqn:E; cbn [obind] in H; [|discriminate].
    injection H as <- <-. apply IH in E; auto. destruct E as (E1 & E2 & E3). auto.
Qed.

Lemma gc_settled lg lg' : gc lg = Ret lg' -> all_settled lg -> all_settled lg'.
Proof.
  unfold gc. destruct (gc_list (lg_back lg) lg) as [[b lg1]|] eqn:E; cbn [obind]; [|discriminate].
  intros [= <-] A. inversion A; subst. apply gc_list_settled in E; auto. destruct E as (E1 & E2 & E3).
  unfold all_settled, slabs. cbn. rewrite E2, E3. auto.
Qed.

Lemma add_section_settled t req lg lg' h : add_section ps slab_size t req lg = Ret (lg', h) ->
  all_settled lg -> all_settled lg'.
Proof.
  unfold add_section. destruct (gc lg) as [lg1|] eqn:E; cbn [obind]; [|discriminate].
  intros H A. apply gc_settled in E; auto. inversion E as [|? ? A1 A2]; subst.
  destruct (slab_add_section _ _ _ _ _ _ lg1) as [[[s lg2] r]|] eqn:E2; cbn [obind] in H; [|discriminate].
  apply slab_add_settled in E2; auto. destruct E2 as (S1 & S2 & S3 & S4). destruct r as [h1|].
  - injection H as <- <-. unfold all_settled, slabs. cbn. rewrite S3, S4. auto.
  - match type of H with context [slab_add_section ps slab_size ?k t req ?s ?l] =>
      destruct (slab_add_section ps slab_size k t req s l) as [[[s3 lg3] r3]|] eqn:E3 end;
      cbn [obind] in H; [|discriminate].
    apply slab_add_settled in E3; [|intros _; right; reflexivity]. cbn [lg_suffix lg_back lg_front emit] in E3.
    destruct E3 as (T1 & T2 & T3 & T4). destruct r3; [|discriminate]. injection H as <- <-.
    unfold all_settled, slabs. cbn. rewrite T3, T4, S3, S4. constructor; auto.
    rewrite S4 in T1. auto. apply Forall_app. auto.
Qed.

Lemma flush_back_settled h : forall b lg b' lg', flush_back h b lg = Ret (Some (b', lg')) ->
  Forall settled b -> Forall settled b' /\ lg_front lg' = lg_front lg /\ lg_suffix lg' = lg_suffix lg.
Proof.
  induction b as [|[k s] b IH]; intros lg b' lg'; cbn [flush_back]; [discriminate|].
  intros H F. inversion F; subst. destruct (Nat.eqb_spec k (hd_slab h)).
  - destruct (slab_flush_section h s lg) as [[s1 lg1]|] eqn:E; cbn [obind] in H; [|discriminate].
    injection H as <- <-. apply slab_flush_settled with (k := k) in E. destruct E as [E1 ->]. auto.
  - destruct (flush_back h b lg) as [[[b1 lg1]|]|] eqn:E; cbn [obind] in H; try discriminate.
    injection H as <- <-. apply IH in E; auto. destruct E as (E1 & E2 & E3). auto.
Qed.

Lemma flush_settled h lg lg' : flush_section h lg = Ret lg' -> all_settled lg -> all_settled lg'.
Proof.
  unfold flush_section. intros H A. inversion A as [|? ? A1 A2]; subst.
  destruct (flush_back h (lg_back lg) lg) as [[[b lg1]|]|] eqn:E; cbn [obind] in H; try discriminate.
  - injection H as <-. apply flush_back_settled in E; auto. destruct E as (E1 & E2 & E3).
    unfold all_settled, slabs. cbn. rewrite E2, E3. auto.
  - destruct (Nat.eqb_spec (lg_suffix lg) (hd_slab h)); [|discriminate].
    destruct (slab_flush_section h (lg_front lg) lg) as [[s lg1]|] eqn:E2; cbn [obind] in H; [|discriminate].
    injection H as <-. apply slab_flush_settled with (k := lg_suffix lg) in E2. destruct E2 as [E2 ->].
    unfold all_settled, slabs. cbn. auto.
Qed.

Lemma emits_settled es : forall lg, all_settled lg -> all_settled (emits es lg).
Proof. induction es as [|e es IH]; intros lg A; cbn; auto. Qed.

Lemma step_settled sy op sy' : lstep ps slab_size sy op = Ret sy' ->
  all_settled (sy_lg sy) -> all_settled (sy_lg sy').
Proof.
  destruct op as [t min|i o|i]; cbn [lstep]; intros H A.
  - unfold stream_new in H. destruct (add_section _ _ _ _ _) as [[lg h]|] eqn:E; cbn [obind] in H; [|discriminate].
    injection H as <-. eapply add_section_settled; eauto.
  - destruct (nth_error (sy_streams sy) i) as [[st|]|]; try discriminate. unfold stream_log in H.
    destruct (encode_user (st_h st) o) as [[es r]|]; cbn [obind] in H; [|discriminate].
    pose proof (emits_settled es _ A) as A'. destruct r as [n| |].
    + destruct (bump (st_h st) n); cbn [obind] in H; [|discriminate]. injection H as <-. exact A'.
    + destruct (flush_section (st_h st) (emits es (sy_lg sy))) as [lg1|] eqn:E1; cbn [obind] in H; [|discriminate].
      apply flush_settled in E1; auto.
      destruct (add_section _ _ _ _ lg1) as [[lg2 h]|] eqn:E2; cbn [obind] in H; [|discriminate].
      apply add_section_settled in E2; auto.
      destruct (encode_user h o) as [[es2 r]|]; cbn [obind] in H; [|discriminate].
      pose proof (emits_settled es2 _ E2) as A2. destruct r; try discriminate.
      destruct (bump h n); cbn [obind] in H; [|discriminate]. injection H as <-. exact A2.
    + injection H as <-. exact A'.
  - destruct (nth_error (sy_streams sy) i) as [[st|]|]; try discriminate. unfold stream_drop in H.
    destruct (flush_section (st_h st) (sy_lg sy)) as [lg1|] eqn:E1; cbn [obind] in H; [|discriminate].
    injection H as <-. eapply flush_settled; eauto.
Qed.

Lemma session_settled ops sy : session ps slab_size ops = Ret sy -> all_settled (sy_lg sy).
Proof.
  unfold session, logger_new. destruct (_ || _); cbn [obind]; [discriminate|].
  assert (A : forall ops sy0, all_settled (sy_lg sy0) -> lsteps ps slab_size sy0 ops = Ret sy ->
              all_settled (sy_lg sy)).
  { clear ops. induction ops as [|op ops IH]; intros sy0 A; cbn [lsteps]; [intros [= <-]; auto|].
    destruct (lstep ps slab_size sy0 op) as [sy1|] eqn:E; cbn [obind]; [|discriminate].
    intros H. apply (IH sy1); auto. eapply step_settled; eauto. }
  apply A. constructor; [|constructor]. intros _. right. reflexivity.
Qed.

Lemma slabs_status lg G k s : core ps slab_size lg G -> In (k, s) (slabs lg) ->
  status lg k = Some s /\ (k <= lg_suffix lg)%nat.
Proof.
  intros C [H|H].
  - injection H as <- <-. unfold status. rewrite Nat.eqb_refl. auto.
  - pose proof (c_back _ _ _ _ C) as B. rewrite Forall_forall in B. specialize (B _ H). cbn in B.
    split; [|lia]. rewrite (status_back _ _ _ _ _ C B). apply in_assoc; auto. apply (c_nodup _ _ _ _ C).
Qed.

Lemma flushing ops sy k s : sizes_ok ps ops -> session ps slab_size ops = Ret sy ->
  In (k, s) (slabs (sy_lg sy)) ->
  StronglySorted N.lt (sl_inflight s) /\
  Forall (fun x => sl_flushed s <= x) (sl_inflight s) /\
  sl_flushed s <= sl_pos s /\
  (forall off, In off (sl_inflight s) <->
     exists i st, nth_error (sy_streams sy) i = Some (Some st) /\
                  hd_slab (st_h st) = k /\ hd_off (st_h st) = off) /\
  (sl_inflight s = [] -> sl_pos s <= align ps (sl_flushed s) \/ sl_pos s = first_pos ps k).
Proof.
  intros S E Hin. destruct (session_inv ps slab_size Hps _ _ S E) as (G & I).
  pose proof (sv_core _ _ _ _ I) as C. destruct (slabs_status _ _ _ _ C Hin) as [St Lk].
  pose proof (c_len _ _ _ _ C) as Len.
  destruct (nth_error (lg_files (sy_lg sy)) k) as [f|] eqn:Ef; [|apply nth_error_None in Ef; lia].
  destruct (im_slabs _ _ _ _ (c_img _ _ _ _ C) _ _ Ef) as (e & SI & _).
  pose proof (c_slabs _ _ _ _ C _ _ _ Ef SI) as H. rewrite St in H. destruct H as [_ [L1 L2 L3 L4 L5 L6]].
  split; [|split; [auto|split; [auto|split]]].
  - rewrite L4. eapply open_offs_sorted; [exact Hps| |]; apply SI.
  - intros off. rewrite L4. split.
    + intros H. apply in_map_iff in H. destruct H as (x & <- & H). apply filter_In in H.
      destruct H as [H O]. unfold on in H. apply filter_In in H. destruct H as [H Hk].
      apply Nat.eqb_eq in Hk. apply In_nth_error in H. destruct H as (p & Hp).
      destruct (sv_open _ _ _ (sv_rel _ _ _ _ I) _ _ Hp O) as (st & Hst & (M1 & M2 & _) & _).
      exists (g_owner x), st. split; auto. split; congruence.
    + intros (i & st & Hst & Hk & Ho).
      destruct (sv_stream _ _ _ (sv_rel _ _ _ _ I) _ _ Hst) as (p & x & Hp & O & Ow).
      destruct (sv_open _ _ _ (sv_rel _ _ _ _ I) _ _ Hp O) as (st' & Hst' & (M1 & M2 & _) & _).
      rewrite Ow, Hst in Hst'. injection Hst' as <-.
      apply in_map_iff. exists x. split; [congruence|]. apply filter_In. split; auto.
      unfold on. apply filter_In. split; [eapply nth_error_In; eauto|]. apply Nat.eqb_eq. congruence.
  - pose proof (session_settled _ _ E) as A. unfold all_settled in A. rewrite Forall_forall in A.
    exact (A _ Hin).
Qed.
End Flush.

(** ** Final forms *)
Lemma middle_of slab_size fs : multi_full slab_size fs 0 -> middle_full slab_size fs.
Proof. intros (j & f & _ & H). exists j, f. exact H. Qed.

Lemma session_refines ps slab_size ops : page_ok ps -> sizes_ok ps ops ->
  match session ps slab_size ops with
  | Ret sy => exists l, asteps ps slab_size (0%nat, []) ops = Some (length (sy_streams sy), l)
  | Panic => slab_size < 10 \/ asteps ps slab_size (0%nat, []) ops = None
  end.
Proof.
  intros Hps S. pose proof (session_spec ps slab_size Hps ops S) as H.
  destruct (session ps slab_size ops).
  - destruct H as (G & _ & A). eauto.
  - destruct H as [H|H]; auto. left.
    assert (blen (main_bytes ps) <= 10).
    { apply enc_main_bound. repeat split; cbn; apply N.mod_lt; lia. }
    lia.
Qed.

Lemma log_round_trip ps slab_size ops sy lg :
  page_ok ps -> sizes_ok ps ops -> no_last ops ->
  session ps slab_size ops = Ret sy -> all_closed sy ->
  logger_drop ps slab_size (sy_lg sy) = Ret lg ->
  exists l,
    asteps ps slab_size (0%nat, []) ops = Some (length (opened ops), l) /\
    (forall i, values_of i l = logged i ops) /\
    Forall (fun s => nth_error (opened ops) (a_owner s) = Some (a_type s)) l /\
    forall t, t <> TEmpty -> forall cs e,
      reads (lg_files lg) t cs e <-> cs = map a_bytes (of_type t l) /\ e = ROk tt.
Proof.
  intros Hps S NL E Hc Ed.
  destruct (round_trip ps slab_size Hps ops sy lg S NL E Hc Ed) as (n & l & A & _ & R).
  destruct (ainv_steps _ _ _ _ _ A) as [A1 A2 A3 _ _]. subst n.
  exists l. do 3 (split; [auto|]). intros t Ht cs e. specialize (R t Ht). split.
  - intros H. exact (reads_unique _ _ _ _ _ _ R H).
  - intros [-> ->]. exact R.
Qed.

Lemma shutdown_succeeds ps slab_size ops sy :
  page_ok ps -> sizes_ok ps ops -> session ps slab_size ops = Ret sy -> all_closed sy ->
  (80 + ps - 1) / ps * ps <= slab_size ->
  exists lg, logger_drop ps slab_size (sy_lg sy) = Ret lg.
Proof.
  intros Hps S E Hc L. destruct (session_inv ps slab_size Hps _ _ S E) as (G & I).
  assert (SZ : size_ok ps slab_size 80).
  { unfold size_ok. rewrite (align_eq ps Hps). pose proof (align_bounds ps Hps 80) as B.
    rewrite (align_eq ps Hps) in B. pose proof Hps as [_ ?]. lia. }
  destruct (drop_spec ps slab_size Hps _ _ 0%nat I Hc SZ) as (lg & k & off & E' & _). eauto.
Qed.

Lemma crash ps slab_size ops op sy sy' es es2 n l n' l' :
  page_ok ps -> (ps | slab_size) -> sizes_ok ps (ops ++ [op]) -> no_last (ops ++ [op]) ->
  session ps slab_size ops = Ret sy -> lstep ps slab_size sy op = Ret sy' ->
  lg_evs (sy_lg sy') = lg_evs (sy_lg sy) ++ es ++ es2 ->
  asteps ps slab_size (0%nat, []) ops = Some (n, l) ->
  asteps ps slab_size (0%nat, []) (ops ++ [op]) = Some (n', l') ->
  let fs := replay (lg_evs (sy_lg sy) ++ es) in
  exists x, progress l x /\ progress x l' /\
    forall t, t <> TEmpty -> exists p,
      reads fs t (map a_content (of_type t (firstn p x))) RErr /\
      (p = length x \/ middle_full slab_size fs).
Proof.
  intros Hps HA HS NL E1 E2 Ev A1 A2 fs.
  destruct (crash_step ps slab_size Hps ops op sy sy' es es2 n l n' l' HA HS NL E1 E2 Ev A1 A2)
    as (x & P1 & P2 & H).
  exists x. split; auto. split; auto. intros t Ht. destruct (H t Ht) as (p & R & [Hp|Hp]); exists p; auto.
  split; auto. right. now apply middle_of.
Qed.

Lemma crash_at_shutdown ps slab_size ops sy lg es es2 n l :
  page_ok ps -> (ps | slab_size) -> sizes_ok ps ops -> no_last ops ->
  session ps slab_size ops = Ret sy -> all_closed sy ->
  logger_drop ps slab_size (sy_lg sy) = Ret lg ->
  lg_evs lg = lg_evs (sy_lg sy) ++ es ++ es2 ->
  asteps ps slab_size (0%nat, []) ops = Some (n, l) ->
  let fs := replay (lg_evs (sy_lg sy) ++ es) in
  forall t, t <> TEmpty -> exists p e,
    reads fs t (map a_bytes (of_type t (firstn p l))) e /\
    (e = RErr \/ e = ROk tt) /\ (p = length l \/ middle_full slab_size fs).
Proof.
  intros Hps HA HS NL E1 Hc Ed Ev A1 fs t Ht.
  destruct (crash_shutdown ps slab_size Hps ops sy lg es es2 n l HA HS NL E1 Hc Ed Ev A1 t Ht)
    as (p & e & R & He & [Hp|Hp]); exists p, e; auto.
  split; auto. split; auto. right. now apply middle_of.
Qed.

Lemma at_rest ps slab_size ops sy :
  page_ok ps -> (ps | slab_size) -> sizes_ok ps ops -> no_last ops ->
  session ps slab_size ops = Ret sy ->
  exists n l, asteps ps slab_size (0%nat, []) ops = Some (n, l) /\
  forall t, t <> TEmpty -> exists p,
    reads (lg_files (sy_lg sy)) t (map a_content (of_type t (firstn p l))) RErr /\
    (p = length l \/ middle_full slab_size (lg_files (sy_lg sy))).
Proof.
  intros Hps HA HS NL E1.
  pose proof (session_spec ps slab_size Hps ops HS) as H. rewrite E1 in H. destruct H as (G & I & A).
  pose proof (sv_core _ _ _ _ I) as C.
  eexists _, _. split; [exact A|]. intros t Ht.
  destruct (reads_any ps slab_size Hps (lg_files (sy_lg sy)) G []) with (t := t) as (p & e & R & He & Hl & Hp); auto.
  - rewrite app_nil_r. apply C.
  - pose proof (c_len _ _ _ _ C) as L. destruct (lg_files (sy_lg sy)); [discriminate|congruence].
  - eapply no_last_G; eauto.
  - exists p. rewrite (Hl eq_refl) in R. rewrite <- firstn_map_abs, <- contents_abs, map_length by auto.
    split; auto. destruct Hp; auto. right. now apply middle_of.
Qed.

Lemma log_whole ps slab_size ops i o sy sy' :
  page_ok ps -> sizes_ok ps ops -> o_ok o = true ->
  session ps slab_size ops = Ret sy -> lstep ps slab_size sy (LLog i o) = Ret sy' ->
  exists n a s b l',
    asteps ps slab_size (0%nat, []) ops = Some (n, a ++ s :: b) /\
    a_owner s = i /\ a_open s = true /\
    asteps ps slab_size (0%nat, []) (ops ++ [LLog i o]) = Some (n, l') /\
    ((15 + a_used s + blen (obytes o) <= a_min s /\ l' = a ++ a_put (obytes o) s :: b) \/
     (a_min s < 15 + a_used s + blen (obytes o) /\
      l' = a ++ a_close s :: b ++ [mkA i (a_type s) (a_min s) [obytes o] true])).
Proof.
  intros Hps S Ok E E2.
  pose proof (session_spec ps slab_size Hps ops S) as H. rewrite E in H. destruct H as (G & I & A).
  pose proof (step_spec ps slab_size Hps _ _ (LLog i o) I) as H. rewrite E2 in H.
  destruct H as (G' & _ & _ & A' & _); [exact Logic.I|]. set (n := length (sy_streams sy)) in *.
  cbn [astep] in A'. destruct (focus i (map abs G)) as [[[a s] b]|] eqn:F; [|discriminate].
  destruct (focus_some _ _ _ _ _ F) as (El & O & Ow).
  rewrite El in A. rewrite Ok in A'. cbn [andb] in A'.
  destruct (N.leb_spec (15 + a_used s + blen (obytes o)) (a_min s)).
  - injection A' as E3 E4. exists n, a, s, b, (a ++ a_put (obytes o) s :: b).
    do 3 (split; [auto|]). split; [|left; auto]. rewrite asteps_app, A. cbn [asteps astep].
    rewrite <- El, F, Ok. destruct (N.leb_spec (15 + a_used s + blen (obytes o)) (a_min s)); [auto|lia].
  - destruct (N.leb_spec (15 + blen (obytes o)) (a_min s)); [|discriminate].
    injection A' as E3 E4. eexists n, a, s, b, _.
    do 3 (split; [auto|]). split; [|right; auto]. rewrite asteps_app, A. cbn [asteps astep].
    rewrite <- El, F, Ok. destruct (N.leb_spec (15 + a_used s + blen (obytes o)) (a_min s)); [lia|].
    cbn [andb]. destruct (N.leb_spec (15 + blen (obytes o)) (a_min s)); [auto|lia].
Qed.

(** ** Computing with examples *)
(** Everything the reader answers for a type. *)
Fixpoint read_all (fs : list file) (fuel : nat) (t : logtype) (r : reader) : option (list bytes * bool) :=
  match fuel with
  | O => None
  | S fuel =>
      match read_next fs 10 t r with
      | ROk (r', Some c) => match read_all fs fuel t r' with
                            | Some (cs, e) => Some (c :: cs, e) | None => None end
      | ROk (_, None) => Some ([], true)
      | RErr => Some ([], false)
      | _ => None
      end
  end.
Definition read_log (fs : list file) (t : logtype) : option (list bytes * bool) :=
  match reader_new fs with ROk r => read_all fs 10 t r | _ => None end.

Lemma read_log_sound fs t cs e : read_log fs t = Some (cs, e) -> reads fs t cs (if e then ROk tt else RErr).
Proof.
  unfold read_log. destruct (reader_new fs) as [r| | |] eqn:E; try discriminate. intros H.
  exists r. split; auto. clear E. revert r cs H. generalize 10%nat. intros F.
  induction F as [|F IH]; intros r cs; cbn [read_all]; [discriminate|].
  destruct (read_next fs 10 t r) as [[r' [c|]]| | |] eqn:E; try discriminate.
  - destruct (read_all fs F t r') as [[cs' e']|] eqn:E2; [|discriminate]. intros [= <- <-].
    eapply reads_more; eauto.
  - intros [= <- <-]. eapply reads_end; eauto.
  - intros [= <- <-]. eapply reads_err; eauto.
Qed.

Lemma session_run {A} ps slab_size ops (f : sys -> A) v :
  match session ps slab_size ops with Ret sy => Some (f sy) | Panic => None end = Some v ->
  exists sy, session ps slab_size ops = Ret sy /\ f sy = v.
Proof. destruct (session ps slab_size ops); [|discriminate]. intros [= <-]. eauto. Qed.

Lemma full_run {A} ps slab_size ops (f : sys -> logger -> A) v :
  match session ps slab_size ops with
  | Ret sy => match logger_drop ps slab_size (sy_lg sy) with Ret lg => Some (f sy lg) | Panic => None end
  | Panic => None end = Some v ->
  exists sy lg, session ps slab_size ops = Ret sy /\ logger_drop ps slab_size (sy_lg sy) = Ret lg /\
    f sy lg = v.
Proof.
  destruct (session ps slab_size ops) as [sy|]; [|discriminate].
  destruct (logger_drop ps slab_size (sy_lg sy)) as [lg|] eqn:E; [|discriminate]. intros [= <-]. eauto.
Qed.

Definition none_left (sy : sys) : bool :=
  forallb (fun s : option stream => match s with None => true | _ => false end) (sy_streams sy).
Lemma none_left_spec sy : none_left sy = true -> all_closed sy.
Proof.
  unfold none_left, all_closed. rewrite forallb_forall, Forall_forall. intros H s Hs.
  specialize (H s Hs). destruct s; [discriminate|auto].
Qed.

Lemma step_evs ps slab_size ops op sy sy' : page_ok ps -> sizes_ok ps (ops ++ [op]) ->
  session ps slab_size ops = Ret sy -> lstep ps slab_size sy op = Ret sy' ->
  lg_evs (sy_lg sy') = lg_evs (sy_lg sy) ++ skipn (length (lg_evs (sy_lg sy))) (lg_evs (sy_lg sy')).
Proof.
  intros Hps S E E2. assert (S1 : sizes_ok ps ops) by (intros t m Hin; apply (S t m), in_or_app; auto).
  pose proof (sizes_ok_ops ps _ S) as F. apply Forall_app in F. destruct F as [_ F]. inversion F; subst.
  destruct (session_inv ps slab_size Hps _ _ S1 E) as (G & I).
  pose proof (step_spec ps slab_size Hps _ _ op I H1) as H. rewrite E2 in H.
  destruct H as (G' & _ & _ & _ & _ & (es & Ee & _)). rewrite Ee at 2.
  rewrite skipn_app, skipn_all, Nat.sub_diag. exact Ee.
Qed.

(** ** Pages of 64 KiB *)
Lemma page_64k_unreadable : exists sy lg,
  session (2 ^ 16) (2 ^ 18) [] = Ret sy /\ all_closed sy /\
  logger_drop (2 ^ 16) (2 ^ 18) (sy_lg sy) = Ret lg /\
  forall t cs e, ~ reads (lg_files lg) t cs e.
Proof.
  set (main := [0xB4; 0xA5; 0x50; 0xFF; 0; 0]).
  destruct (@full_run (list (N * list N)) (2 ^ 16) (2 ^ 18) []
      (fun sy lg => map (fun f => (f_len f, slice (f_mem f) 0 6)) (lg_files lg))
      [(65616, main)]) as (sy & lg & E1 & E2 & H).
  { vm_compute. reflexivity. }
  exists sy, lg. split; auto. split; [injection E1 as <-; constructor|]. split; auto.
  destruct (lg_files lg) as [|f [|]]; try discriminate. 
  cbn [map] in H. assert (Hp : (f_len f, slice (f_mem f) 0 6) = (65616, main)) by congruence.
  apply pair_equal_spec in Hp. destruct Hp as [Hl Hm].
  intros t cs e (r & Hr & HR).
  assert (Hs : forall n, 6 <= n -> exists rest, slice (f_mem f) 0 n = main ++ rest).
  { intros n Hn. exists (slice (f_mem f) 6 (n - 6)). rewrite <- Hm.
    replace n with (6 + (n - 6)) at 1 by lia. apply slice_app. }
  assert (Er : r = mkReader 0 f 0).
  { unfold reader_new, open_slab_index in Hr. cbn [nth_error] in Hr.
    destruct (Hs (f_len f)) as (rest & Es); [lia|]. rewrite Es in Hr. unfold main in Hr. vm_compute in Hr. congruence. }
  subst r.
  assert (Hbad : forall fuel, read_next [f] fuel t (mkReader 0 f 0) = RFuel \/
                              read_next [f] fuel t (mkReader 0 f 0) = RPanic).
  { intros [|fuel]; [auto|right]. cbn [read_next rd_file rd_pos].
    destruct (N.leb_spec (f_len f) 0); [lia|]. cbn [rbind].
    unfold read_section_header. cbn [rd_file rd_pos]. destruct (N.ltb_spec (f_len f) 0); [lia|].
    destruct (Hs (f_len f - 0)) as (rest & Es); [lia|]. rewrite Es. unfold main. vm_compute. reflexivity. }
  inversion HR as [? ? fuel H1|? fuel H1|? ? fuel ? ? ? H1]; subst;
    destruct (Hbad fuel) as [Hb|Hb]; rewrite Hb in H1; discriminate.
Qed.
