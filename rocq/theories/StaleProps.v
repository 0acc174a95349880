(** C128: a log written under the name of an older one. *)
From Coq Require Import List Arith NArith Bool Lia.
From Verif Require Import Base BincodeModel ULogModel ULogSpec ULogProofs6 ULogProofs8 ULogProps StaleModel.
Import ListNotations.
Open Scope N_scope.

(** * Proofs *)
Lemma over_fold evs : forall c o, fold_left over evs (c, o) =
  (fold_left (fun fs e => apply_ev e fs) evs c, skipn (length (fold_left (fun fs e => apply_ev e fs) evs c) - length c) o) /\
  (length c <= length (fold_left (fun fs e => apply_ev e fs) evs c))%nat.
Proof.
  induction evs as [|e evs IH]; intros c o; cbn [fold_left]; [rewrite Nat.sub_diag; split; auto|].
  unfold over at 2. cbn [fst snd]. destruct (IH (apply_ev e c) (match e with EvCreate _ => tl o | _ => o end)) as [E L]. rewrite E. clear E.
  assert (M : forall k g, length (modify_file k g c) = length c) by (intros k g; unfold modify_file; destruct (nth_error c k); [apply upd_length|reflexivity]).
  destruct e as [len|k off bs|k len]; cbn [apply_ev] in *; rewrite ?M in *; auto. rewrite app_length in *. cbn [length] in *. split; [|lia]. f_equal.
  set (n := length (fold_left _ evs _)) in *. replace (n - length c)%nat with (S (n - (length c + 1)))%nat by lia.
  destruct o as [|x o]; [rewrite !skipn_nil; reflexivity|reflexivity].
Qed.
Lemma disk_eq old evs : disk old evs = replay evs ++ skipn (length (replay evs)) old.
Proof. unfold disk. destruct (over_fold evs [] old) as [E _]. rewrite E. cbn [fst snd]. unfold replay. cbn [length]. rewrite Nat.sub_0_r. reflexivity. Qed.

(** More files change nothing as long as reading succeeds. *)
Lemma nth_more {A} (l m : list A) k x : nth_error l k = Some x -> nth_error (l ++ m) k = Some x.
Proof. intros H. rewrite nth_error_app1; auto. apply nth_error_Some. congruence. Qed.
Lemma open_more fs more k x : open_slab_index fs k = ROk x -> open_slab_index (fs ++ more) k = ROk x.
Proof. unfold open_slab_index. destruct (nth_error fs k) as [f|] eqn:E; [|discriminate]. rewrite (nth_more _ more _ _ E). auto. Qed.
Lemma new_more fs more x : reader_new fs = ROk x -> reader_new (fs ++ more) = ROk x.
Proof. unfold reader_new. destruct (open_slab_index fs 0) as [y| | |] eqn:E; try discriminate. rewrite (open_more _ more _ _ E). auto. Qed.
Lemma next_more fs more fuel t : forall r x, read_next fs fuel t r = ROk x -> read_next (fs ++ more) fuel t r = ROk x.
Proof.
  induction fuel as [|fuel IH]; intros r x; cbn [read_next]; [discriminate|].
  destruct (f_len (rd_file r) <=? rd_pos r).
  - unfold next_slab. destruct (open_slab_index fs (S (rd_slab r))) as [y| | |] eqn:E; try discriminate. rewrite (open_more _ more _ _ E). cbn [rbind]. destruct y as [f p].
    cbn [rbind]. destruct (read_section_header _) as [h| | |]; cbn [rbind]; try discriminate. destruct (logtype_eqb (h_type h) TLast); auto. destruct (logtype_eqb (h_type h) t); auto.
  - cbn [rbind]. destruct (read_section_header r) as [h| | |]; cbn [rbind]; try discriminate. destruct (logtype_eqb (h_type h) TLast); auto. destruct (logtype_eqb (h_type h) t); auto.
Qed.
Lemma reads_more fs more t : forall r cs e, reads_from fs t r cs e -> forall cs' e', reads_from (fs ++ more) t r cs' e' ->
  (exists l, cs' = cs ++ l) /\ (e = ROk tt -> cs' = cs /\ e' = ROk tt).
Proof.
  induction 1 as [r r' fuel E|r fuel E|r r' fuel c cs e E R IH]; intros cs' e' R'.
  - apply (next_more _ more) in E. apply (reads_end (fs ++ more)) in E. destruct (reads_from_unique _ _ _ _ _ E _ _ R') as [-> ->]. split; [exists []; reflexivity|auto].
  - split; [exists cs'; reflexivity|discriminate].
  - apply (next_more _ more) in E. inversion R' as [? ? f2 E2|? f2 E2|? r2 f2 c2 cs2 e2 E2 R2]; subst;
      assert (HH := read_next_unique _ _ _ _ _ _ _ E E2 ltac:(discriminate) ltac:(discriminate)); try discriminate.
    injection HH as <- <-. destruct (IH _ _ R2) as [(l & ->) K]. split; [exists l; reflexivity|]. intros He. destruct (K He) as [K1 K2]. split; congruence.
Qed.
Lemma reads_more_end fs more t r cs : reads_from fs t r cs (ROk tt) -> reads_from (fs ++ more) t r cs (ROk tt).
Proof.
  intros H. remember (ROk tt) as e eqn:He. induction H as [r r' fuel E|r fuel E|r r' fuel c cs e E R IH]; [|discriminate|].
  - eapply reads_end. apply next_more, E.
  - eapply ULogSpec.reads_more; [apply next_more, E|auto].
Qed.

(** The effects of a writer are the whole story of its files. *)
Definition told (lg : logger) : Prop := replay (lg_evs lg) = lg_files lg.
Lemma told_emit e lg : told lg -> told (emit e lg).
Proof. unfold told. intros H. cbn. unfold replay in *. rewrite fold_left_app, H. reflexivity. Qed.
Lemma told_emits es : forall lg, told lg -> told (emits es lg).
Proof. unfold emits. induction es as [|e es IH]; intros lg H; cbn [fold_left]; auto using told_emit. Qed.
Lemma told_drop k s lg lg' : drop_slab k s lg = Ret lg' -> told lg -> told lg'.
Proof. unfold drop_slab. destruct (flush_until _ s); cbn; [|discriminate]. intros [= <-]. apply told_emit. Qed.
Lemma told_flush h s lg s' lg' : slab_flush_section h s lg = Ret (s', lg') -> told lg -> told lg'.
Proof.
  unfold slab_flush_section. destruct (_ <? _); [discriminate|]. destruct (sl_inflight _) as [|x l].
  - destruct (flush_until _ _); cbn; [|discriminate]. intros [= <- <-]. apply told_emit.
  - destruct (_ <? x); [|intros [= <- <-]; apply told_emit]. destruct (flush_until _ _); cbn; [|discriminate]. intros [= <- <-]. apply told_emit.
Qed.
Lemma told_gc_list b : forall lg b' lg', gc_list b lg = Ret (b', lg') -> told lg -> told lg'.
Proof.
  induction b as [|[k s] b IH]; intros lg b' lg'; cbn [gc_list]; [intros [= <- <-]; auto|]. destruct (sl_inflight s).
  - destruct (drop_slab k s lg) as [lg1|] eqn:E; cbn [obind]; [|discriminate]. intros H T. eapply IH; eauto using told_drop.
  - destruct (gc_list b lg) as [[b1 lg1]|] eqn:E; cbn [obind]; [|discriminate]. intros [= <- <-]. eauto.
Qed.
Lemma told_gc lg lg' : gc lg = Ret lg' -> told lg -> told lg'.
Proof. unfold gc. destruct (gc_list _ lg) as [[b lg1]|] eqn:E; cbn [obind]; [|discriminate]. intros [= <-] T. exact (told_gc_list _ _ _ _ E T). Qed.
Lemma told_slab_add ps sz k t req s lg s' lg' h : slab_add_section ps sz k t req s lg = Ret (s', lg', h) -> told lg -> told lg'.
Proof.
  unfold slab_add_section. destruct (sz <? _); [intros [= <- <- <-]; auto|]. destruct (_ || _); [discriminate|].
  destruct (nth_error _ k); [|discriminate]. destruct (_ || _); [discriminate|]. intros [= <- <- <-]. apply told_emit.
Qed.
Lemma told_add ps sz t req lg lg' h : add_section ps sz t req lg = Ret (lg', h) -> told lg -> told lg'.
Proof.
  unfold add_section. destruct (gc lg) as [lg1|] eqn:G; cbn [obind]; [|discriminate]. intros H T. apply (told_gc _ _ G) in T.
  destruct (slab_add_section ps sz _ t req _ lg1) as [[[s2 lg2] r2]|] eqn:A; cbn [obind] in H; [|discriminate]. apply (told_slab_add _ _ _ _ _ _ _ _ _ _ A) in T.
  destruct r2; [injection H as <- <-; exact T|]. apply (told_emit (EvCreate sz)) in T.
  destruct (slab_add_section ps sz _ t req _ _) as [[[s3 lg3] r3]|] eqn:A2 in H; cbn [obind] in H; [|discriminate]. destruct r3; [|discriminate]. injection H as <- <-.
  change (told lg3). eapply told_slab_add; [exact A2|exact T].
Qed.
Lemma told_flush_back h b : forall lg b' lg', flush_back h b lg = Ret (Some (b', lg')) -> told lg -> told lg'.
Proof.
  induction b as [|[k s] b IH]; intros lg b' lg'; cbn [flush_back]; [discriminate|]. destruct (Nat.eqb k (hd_slab h)).
  - destruct (slab_flush_section h s lg) as [[s1 lg1]|] eqn:E; cbn [obind]; [|discriminate]. intros [= <- <-]. eapply told_flush, E.
  - destruct (flush_back h b lg) as [[[b1 lg1]|]|] eqn:E; cbn [obind]; try discriminate. intros [= <- <-]. eauto.
Qed.
Lemma told_flush_section h lg lg' : flush_section h lg = Ret lg' -> told lg -> told lg'.
Proof.
  unfold flush_section. destruct (flush_back h (lg_back lg) lg) as [[[b lg1]|]|] eqn:E; cbn [obind]; try discriminate.
  - intros [= <-] T. exact (told_flush_back _ _ _ _ _ E T).
  - destruct (Nat.eqb _ _); [|discriminate]. destruct (slab_flush_section h (lg_front lg) lg) as [[s1 lg1]|] eqn:F; cbn [obind]; [|discriminate]. intros [= <-] T. exact (told_flush _ _ _ _ _ F T).
Qed.
Lemma told_log ps sz o st lg st' lg' b : stream_log ps sz o st lg = Ret (st', lg', b) -> told lg -> told lg'.
Proof.
  unfold stream_log. destruct (encode_user (st_h st) o) as [[es r]|]; cbn [obind]; [|discriminate]. intros H T. apply (told_emits es) in T.
  destruct r as [n| |].
  - destruct (bump _ n); cbn [obind] in H; [|discriminate]. injection H as <- <- <-. exact T.
  - destruct (flush_section _ _) as [lg1|] eqn:F in H; cbn [obind] in H; [|discriminate]. apply (told_flush_section _ _ _ F) in T.
    destruct (add_section _ _ _ _ lg1) as [[lg2 h]|] eqn:A in H; cbn [obind] in H; [|discriminate]. apply (told_add _ _ _ _ _ _ _ A) in T.
    destruct (encode_user h o) as [[es2 r2]|]; cbn [obind] in H; [|discriminate]. destruct r2; try discriminate. destruct (bump h n); cbn [obind] in H; [|discriminate]. injection H as <- <- <-. apply told_emits, T.
  - injection H as <- <- <-. exact T.
Qed.
Lemma told_session ps sz ops sy : session ps sz ops = Ret sy -> told (sy_lg sy).
Proof.
  unfold session. destruct (logger_new ps sz) as [lg|] eqn:N; cbn [obind]; [|discriminate].
  assert (T : told lg). { unfold logger_new in N. destruct (_ || _); [discriminate|]. injection N as <-. apply told_emit, told_emit. reflexivity. }
  change lg with (sy_lg (mkSys lg [])) in T. revert T. generalize (mkSys lg []). clear N lg.
  induction ops as [|op ops IH]; intros sy0 T; cbn [lsteps]; [intros [= <-]; exact T|]. destruct (lstep ps sz sy0 op) as [sy1|] eqn:S; cbn [obind]; [|discriminate]. apply IH.
  destruct op as [t min|i o|i]; cbn [lstep] in S.
  - unfold stream_new in S. destruct (add_section ps sz t min (sy_lg sy0)) as [[lg h]|] eqn:A; cbn [obind] in S; [|discriminate]. injection S as <-. exact (told_add _ _ _ _ _ _ _ A T).
  - destruct (nth_error (sy_streams sy0) i) as [[st|]|]; try discriminate. destruct (stream_log ps sz o st (sy_lg sy0)) as [[[st' lg] b]|] eqn:L; cbn [obind] in S; [|discriminate]. injection S as <-. exact (told_log _ _ _ _ _ _ _ _ L T).
  - destruct (nth_error (sy_streams sy0) i) as [[st|]|]; try discriminate. unfold stream_drop in S. destruct (flush_section _ _) as [lg|] eqn:F in S; cbn [obind] in S; [|discriminate]. injection S as <-. exact (told_flush_section _ _ _ F T).
Qed.
Lemma told_drop_all b : forall lg lg', drop_all b lg = Ret lg' -> told lg -> told lg'.
Proof. induction b as [|[k s] b IH]; intros lg lg'; cbn [drop_all]; [intros [= <-]; auto|]. destruct (drop_slab k s lg) as [lg1|] eqn:E; cbn [obind]; [|discriminate]. intros H T. eapply IH; eauto using told_drop. Qed.
Lemma told_end ps sz lg lg' : logger_drop ps sz lg = Ret lg' -> told lg -> told lg'.
Proof.
  unfold logger_drop. destruct (add_section ps sz TLast 80 lg) as [[lg1 h]|] eqn:A; cbn [obind]; [|discriminate]. intros H T. apply (told_add _ _ _ _ _ _ _ A) in T.
  destruct (slab_flush_section h (lg_front lg1) lg1) as [[s lg2]|] eqn:F; cbn [obind] in H; [|discriminate]. apply (told_flush _ _ _ _ _ F) in T.
  destruct (gc (set_front s lg2)) as [lg3|] eqn:G; cbn [obind] in H; [|discriminate]. apply (told_gc _ _ G) in T.
  destruct (drop_slab (lg_suffix lg3) (lg_front lg3) lg3) as [lg4|] eqn:D; cbn [obind] in H; [|discriminate]. apply (told_drop _ _ _ _ D) in T. exact (told_drop_all _ _ _ H T).
Qed.

(** * C128 *)
(** A log shut down cleanly is read as if there had been no older log: the reader returns the
    sections of the new log, all of them, and the end. *)
Theorem C128_closed_partial : forall old ps slab_size ops sy lg,
  page_ok ps -> sizes_ok ps ops -> no_last ops ->
  session ps slab_size ops = Ret sy -> all_closed sy -> logger_drop ps slab_size (sy_lg sy) = Ret lg ->
  exists l, asteps ps slab_size (0%nat, []) ops = Some (length (opened ops), l) /\
    forall t, t <> TEmpty -> forall cs e, reads (disk old (lg_evs lg)) t cs e <-> cs = map a_bytes (of_type t l) /\ e = ROk tt.
Proof.
  intros old ps slab_size ops sy lg Hp Hs Hn H C D. destruct (C01_round_trip ps slab_size ops sy lg Hp Hs Hn H C D) as (l & A & _ & _ & R).
  exists l. split; [exact A|]. intros t Ht cs e. assert (T := told_end _ _ _ _ D (told_session _ _ _ _ H)). rewrite disk_eq, T.
  assert (R1 : reads (lg_files lg) t (map a_bytes (of_type t l)) (ROk tt)) by (apply R; auto).
  assert (R2 : reads (lg_files lg ++ skipn (length (lg_files lg)) old) t (map a_bytes (of_type t l)) (ROk tt)).
  { destruct R1 as (r & N & R1). exists r. split; [apply new_more, N|apply reads_more_end, R1]. }
  split; [intros R3; exact (reads_unique _ _ _ _ _ _ R2 R3)|intros [-> ->]; exact R2].
Qed.
Print Assumptions C128_closed_partial.
(** After an interruption at any moment, what can be read of the new log comes first and is
    right; something may follow it. Nothing follows if the new log got an end, or if the older
    log did not have more files. *)
Theorem C128_crash_partial : forall old evs t cs e cs' e',
  reads (replay evs) t cs e -> reads (disk old evs) t cs' e' ->
  (exists l, cs' = cs ++ l) /\ (e = ROk tt \/ (length old <= length (replay evs))%nat -> cs' = cs /\ e' = e).
Proof.
  intros old evs t cs e cs' e' R R'. rewrite disk_eq in R'.
  assert (U : (length old <= length (replay evs))%nat -> cs' = cs /\ e' = e).
  { intros L. rewrite skipn_all2, app_nil_r in R' by exact L. exact (reads_unique _ _ _ _ _ _ R R'). }
  destruct R as (r & N & R), R' as (r' & N' & R'). rewrite (new_more _ _ _ N) in N'. injection N' as <-. destruct (reads_more _ _ _ _ _ _ R _ _ R') as [K1 K2].
  split; [exact K1|]. intros [He|L]; [|auto]. destruct (K2 He). split; congruence.
Qed.
Print Assumptions C128_crash_partial.
(** An older log of three files, and a newer one with one full file, interrupted before shutdown. *)
Definition old_ops : list lop := [LOpen TCopperList 64; LLog 0 (ex_obj [101; 102]); LClose 0; LOpen TCopperList 60; LLog 1 (ex_obj [103]); LClose 1].
Definition new_ops : list lop := [LOpen TCopperList 64; LLog 0 (ex_obj [1; 2; 3]); LClose 0].
(** The natural claim fails: the reader goes from the new log into a file of the older one, gives
    its sections as if they were the new log's, and ends as if the log had been shut down. *)
Theorem C128_refuted : exists ps slab_size sy0 old sy cs cs',
  page_ok ps /\ sizes_ok ps old_ops /\ sizes_ok ps new_ops /\
  session ps slab_size old_ops = Ret sy0 /\ all_closed sy0 /\ logger_drop ps slab_size (sy_lg sy0) = Ret old /\
  session ps slab_size new_ops = Ret sy /\
  reads (replay (lg_evs (sy_lg sy))) TCopperList cs RErr /\
  reads (disk (replay (lg_evs old)) (lg_evs (sy_lg sy))) TCopperList (cs ++ cs') (ROk tt) /\ cs' = [[103]].
Proof.
  destruct (full_run 16 80 old_ops (fun sy0 old => (none_left sy0,
    match session 16 80 new_ops with
    | Ret sy => (read_log (replay (lg_evs (sy_lg sy))) TCopperList, read_log (disk (replay (lg_evs old)) (lg_evs (sy_lg sy))) TCopperList)
    | Panic => (None, None) end)) (true, (Some ([[1; 2; 3]], false), Some ([[1; 2; 3]; [103]], true)))) as (sy0 & old & E1 & E2 & H); [vm_compute; reflexivity|].
  destruct (session 16 80 new_ops) as [sy|] eqn:E; [|discriminate]. injection H as H1 H2 H3.
  exists 16, 80, sy0, old, sy, [[1; 2; 3]], [[103]]. split; [exact ex_page|]. split; [sizes|]. split; [sizes|]. split; [exact E1|]. split; [now apply none_left_spec|].
  split; [exact E2|]. split; [exact E|]. split; [exact (read_log_sound _ _ _ _ H2)|]. split; [exact (read_log_sound _ _ _ _ H3)|reflexivity].
Qed.
Print Assumptions C128_refuted.
(** The same two logs, the newer one shut down: three files of the older one, two of the newer,
    and the third still there. *)
Example C128_case : exists sy0 old sy lg,
  session 16 80 old_ops = Ret sy0 /\ logger_drop 16 80 (sy_lg sy0) = Ret old /\
  page_ok 16 /\ sizes_ok 16 new_ops /\ no_last new_ops /\ session 16 80 new_ops = Ret sy /\ all_closed sy /\ logger_drop 16 80 (sy_lg sy) = Ret lg /\
  length (replay (lg_evs old)) = 3%nat /\ length (replay (lg_evs lg)) = 2%nat /\ length (disk (replay (lg_evs old)) (lg_evs lg)) = 3%nat /\
  reads (replay (lg_evs lg)) TCopperList [[1; 2; 3]] (ROk tt) /\ reads (disk (replay (lg_evs old)) (lg_evs lg)) TCopperList [[1; 2; 3]] (ROk tt).
Proof.
  destruct (full_run 16 80 old_ops (fun _ old => match session 16 80 new_ops with
    | Ret sy => match logger_drop 16 80 (sy_lg sy) with
      | Ret lg => (none_left sy, length (replay (lg_evs old)), length (replay (lg_evs lg)), length (disk (replay (lg_evs old)) (lg_evs lg)),
          read_log (replay (lg_evs lg)) TCopperList, read_log (disk (replay (lg_evs old)) (lg_evs lg)) TCopperList)
      | Panic => (false, 0%nat, 0%nat, 0%nat, None, None) end
    | Panic => (false, 0%nat, 0%nat, 0%nat, None, None) end) (true, 3%nat, 2%nat, 3%nat, Some ([[1; 2; 3]], true), Some ([[1; 2; 3]], true)))
    as (sy0 & old & E1 & E2 & H); [vm_compute; reflexivity|].
  destruct (session 16 80 new_ops) as [sy|] eqn:E; [|discriminate]. destruct (logger_drop 16 80 (sy_lg sy)) as [lg|] eqn:D; [|discriminate].
  injection H as H1 H2 H3 H4 H5 H6. exists sy0, old, sy, lg. split; [exact E1|]. split; [exact E2|]. split; [exact ex_page|]. split; [sizes|]. split; [nolast|].
  split; [first [exact E|reflexivity]|]. split; [now apply none_left_spec|]. split; [first [exact D|reflexivity]|]. repeat (split; [assumption|]).
  split; [exact (read_log_sound _ _ _ _ H5)|exact (read_log_sound _ _ _ _ H6)].
Qed.
(** An interrupted log over an older log with no more files: only what it wrote is read. *)
Example C128_crash_case : exists sy0 sy, session 16 80 (firstn 3 old_ops) = Ret sy0 /\ session 16 80 new_ops = Ret sy /\
  length (replay (lg_evs (sy_lg sy0))) = 1%nat /\
  reads (replay (lg_evs (sy_lg sy0))) TCopperList [[101; 102]] RErr /\
  reads (replay (lg_evs (sy_lg sy))) TCopperList [[1; 2; 3]] RErr /\
  reads (disk (replay (lg_evs (sy_lg sy0))) (lg_evs (sy_lg sy))) TCopperList [[1; 2; 3]] RErr.
Proof.
  destruct (session_run 16 80 new_ops (fun sy => match session 16 80 (firstn 3 old_ops) with
    | Ret sy0 => (length (replay (lg_evs (sy_lg sy0))), read_log (replay (lg_evs (sy_lg sy0))) TCopperList, read_log (replay (lg_evs (sy_lg sy))) TCopperList,
        read_log (disk (replay (lg_evs (sy_lg sy0))) (lg_evs (sy_lg sy))) TCopperList)
    | Panic => (0%nat, None, None, None) end) (1%nat, Some ([[101; 102]], false), Some ([[1; 2; 3]], false), Some ([[1; 2; 3]], false))) as (sy & E & H); [vm_compute; reflexivity|].
  destruct (session 16 80 (firstn 3 old_ops)) as [sy0|] eqn:E0; [|discriminate]. injection H as H1 H2 H3 H4. exists sy0, sy. split; [first [exact E0|reflexivity]|]. split; [exact E|]. split; [exact H1|].
  split; [exact (read_log_sound _ _ _ _ H2)|]. split; [exact (read_log_sound _ _ _ _ H3)|exact (read_log_sound _ _ _ _ H4)].
Qed.
