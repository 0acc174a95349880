(** Properties C01-C06: the unified log. *)
From Coq Require Import List Arith NArith Bool Lia Sorted.
From Verif Require Import Base BincodeModel ULogModel ULogSpec ULogProofs7 ULogProofs8.
Import ListNotations.
Open Scope N_scope.

(** ** Data of the examples: pages of 16 bytes, slabs of 4 or 5 pages *)
Definition ex_obj (bs : bytes) : obj := mkObj (map (fun b => [b]) bs) true.
Definition ex_ops : list lop :=
  [LOpen TCopperList 20; LOpen TStructured 30; LLog 0 (ex_obj [1; 2; 3]);
   LLog 1 (ex_obj [4; 5]); LLog 0 (ex_obj [6; 7; 8]); LLog 1 (ex_obj [9]);
   LLog 0 (ex_obj [10]); LClose 0; LLog 1 (ex_obj [11; 12]); LClose 1].

Lemma ex_page : page_ok 16.
Proof. split; [exists 4; reflexivity|lia]. Qed.
Ltac sizes := let H := fresh in intros ? ? H; cbn in H;
  repeat (destruct H as [H|H]; [inversion H; subst; lia|]); destruct H.
Ltac nolast := let H := fresh in intros ? H; cbn in H;
  repeat (destruct H as [H|H]; [discriminate|]); destruct H.

(** ** C01 *)
(** The writer refines an abstract log, a list of sections holding whole values:
    it panics exactly when the abstract log does (or the first slab cannot hold the
    main header). *)
Theorem C01_refines_sections : forall ps slab_size ops,
  page_ok ps -> sizes_ok ps ops ->
  match session ps slab_size ops with
  | Ret sy => exists l, asteps ps slab_size (0%nat, []) ops = Some (length (sy_streams sy), l)
  | Panic => slab_size < 10 \/ asteps ps slab_size (0%nat, []) ops = None
  end.
Proof. exact session_refines. Qed.
Print Assumptions C01_refines_sections.

(** After a clean shutdown the reader returns, for each type, the sections of that
    type in allocation order, and nothing else; the sections of each stream hold
    the values logged through it, in order; each section belongs to a stream of its
    type. *)
Theorem C01_round_trip : forall ps slab_size ops sy lg,
  page_ok ps -> sizes_ok ps ops -> no_last ops ->
  session ps slab_size ops = Ret sy -> all_closed sy ->
  logger_drop ps slab_size (sy_lg sy) = Ret lg ->
  exists l,
    asteps ps slab_size (0%nat, []) ops = Some (length (opened ops), l) /\
    (forall i, values_of i l = logged i ops) /\
    Forall (fun s => nth_error (opened ops) (a_owner s) = Some (a_type s)) l /\
    forall t, t <> TEmpty -> forall cs e,
      reads (lg_files lg) t cs e <-> cs = map a_bytes (of_type t l) /\ e = ROk tt.
Proof. exact log_round_trip. Qed.
Print Assumptions C01_round_trip.

(** Shutting down succeeds whenever a slab can hold the end marker. *)
Theorem C01_shutdown : forall ps slab_size ops sy,
  page_ok ps -> sizes_ok ps ops -> session ps slab_size ops = Ret sy -> all_closed sy ->
  (80 + ps - 1) / ps * ps <= slab_size ->
  exists lg, logger_drop ps slab_size (sy_lg sy) = Ret lg.
Proof. exact shutdown_succeeds. Qed.
Print Assumptions C01_shutdown.

Example C01_case :
  page_ok 16 /\ sizes_ok 16 ex_ops /\ no_last ex_ops /\ (80 + 16 - 1) / 16 * 16 <= 80 /\
  exists sy lg, session 16 80 ex_ops = Ret sy /\ all_closed sy /\
    logger_drop 16 80 (sy_lg sy) = Ret lg /\ length (lg_files lg) = 3%nat /\
    reads (lg_files lg) TCopperList [[1; 2; 3]; [6; 7; 8; 10]] (ROk tt) /\
    reads (lg_files lg) TStructured [[4; 5; 9; 11; 12]] (ROk tt).
Proof.
  split; [exact ex_page|]. split; [sizes|]. split; [nolast|]. split; [discriminate|].
  destruct (full_run 16 80 ex_ops (fun sy lg => (none_left sy, length (lg_files lg),
      read_log (lg_files lg) TCopperList, read_log (lg_files lg) TStructured))
    (true, 3%nat, Some ([[1; 2; 3]; [6; 7; 8; 10]], true), Some ([[4; 5; 9; 11; 12]], true)))
    as (sy & lg & E1 & E2 & H); [vm_compute; reflexivity|].
  injection H as H1 H2 H3 H4. exists sy, lg. split; auto. split; [now apply none_left_spec|].
  split; auto. split; auto. split; [exact (read_log_sound _ _ _ _ H3)|exact (read_log_sound _ _ _ _ H4)].
Qed.

(** With pages of 65536 bytes the u16 fields of the main header overflow: even an
    empty log that was shut down cleanly cannot be read (the reader panics). *)
Theorem C01_page_64k_refuted : exists sy lg,
  session (2 ^ 16) (2 ^ 18) [] = Ret sy /\ all_closed sy /\
  logger_drop (2 ^ 16) (2 ^ 18) (sy_lg sy) = Ret lg /\
  forall t cs e, ~ reads (lg_files lg) t cs e.
Proof. exact page_64k_unreadable. Qed.
Print Assumptions C01_page_64k_refuted.

(** ** C02 *)
(** Take the byte range a stream holds at some moment. Whatever happens next, a
    later operation leaves all its bytes alone, unless that operation is performed
    through this very stream while it still holds this very range. *)
Theorem C02_isolation : forall ps slab_size ops1 ops2 op sy1 sy2 sy3 i st,
  page_ok ps -> sizes_ok ps (ops1 ++ ops2 ++ [op]) ->
  session ps slab_size ops1 = Ret sy1 -> nth_error (sy_streams sy1) i = Some (Some st) ->
  lsteps ps slab_size sy1 ops2 = Ret sy2 -> lstep ps slab_size sy2 op = Ret sy3 ->
  (forall st2, actor op = Some i -> nth_error (sy_streams sy2) i = Some (Some st2) ->
     range_of st2 <> range_of st) ->
  forall k a, in_range (range_of st) k a ->
  byte_of (lg_files (sy_lg sy3)) k a = byte_of (lg_files (sy_lg sy2)) k a.
Proof. exact (fun ps sz o1 o2 op s1 s2 s3 i st Hp => isolation ps sz Hp o1 o2 op s1 s2 s3 i st). Qed.
Print Assumptions C02_isolation.

(** Ranges held by streams, at the same or at different moments, overlap only if
    they are the same range of the same stream. *)
Theorem C02_disjoint : forall ps slab_size ops1 ops2 sy1 sy2 i j st1 st2,
  page_ok ps -> sizes_ok ps (ops1 ++ ops2) ->
  session ps slab_size ops1 = Ret sy1 -> nth_error (sy_streams sy1) i = Some (Some st1) ->
  lsteps ps slab_size sy1 ops2 = Ret sy2 -> nth_error (sy_streams sy2) j = Some (Some st2) ->
  (exists k a, in_range (range_of st1) k a /\ in_range (range_of st2) k a) ->
  i = j /\ range_of st1 = range_of st2.
Proof. exact (fun ps sz o1 o2 s1 s2 i j t1 t2 Hp => ranges_disjoint ps sz Hp o1 o2 s1 s2 i j t1 t2). Qed.
Print Assumptions C02_disjoint.

(** Stream 0 holds bytes 16 to 36 of slab 0 (its header and [1; 2; 3]); stream 1,
    opened and used afterwards, holds bytes 48 to 78. *)
Example C02_case : exists sy1 sy2 sy3 st st2,
  session 16 80 (firstn 3 ex_ops) = Ret sy1 /\ nth_error (sy_streams sy1) 0 = Some (Some st) /\
  lsteps 16 80 sy1 [nth 3 ex_ops (LClose 0)] = Ret sy2 /\ lstep 16 80 sy2 (LClose 1) = Ret sy3 /\
  actor (LClose 1) <> Some 0%nat /\ range_of st = (0%nat, 16, 20) /\
  nth_error (sy_streams sy2) 1 = Some (Some st2) /\ range_of st2 = (0%nat, 48, 30) /\
  byte_of (lg_files (sy_lg sy3)) 0 32 = Some 2.
Proof.
  destruct (session_run 16 80 (firstn 3 ex_ops) (fun sy1 =>
    match nth_error (sy_streams sy1) 0, lsteps 16 80 sy1 [nth 3 ex_ops (LClose 0)] with
    | Some (Some st), Ret sy2 =>
        match lstep 16 80 sy2 (LClose 1), nth_error (sy_streams sy2) 1 with
        | Ret sy3, Some (Some st2) => Some (range_of st, range_of st2, byte_of (lg_files (sy_lg sy3)) 0 32)
        | _, _ => None end
    | _, _ => None end) (Some ((0%nat, 16, 20), (0%nat, 48, 30), Some 2))) as (sy1 & E & H);
    [vm_compute; reflexivity|].
  destruct (nth_error (sy_streams sy1) 0) as [[st|]|] eqn:E1; try discriminate.
  destruct (lsteps 16 80 sy1 _) as [sy2|] eqn:E2; try discriminate.
  destruct (lstep 16 80 sy2 (LClose 1)) as [sy3|] eqn:E3; try discriminate.
  destruct (nth_error (sy_streams sy2) 1) as [[st2|]|] eqn:E4; try discriminate.
  injection H as H1 H2 H3 H4 H5 H6 H7. exists sy1, sy2, sy3, st, st2. do 4 (split; [auto|]).
  split; [discriminate|]. unfold range_of. rewrite H1, H2, H3, H4, H5, H6. auto.
Qed.

(** ** C03 *)
(** The process dies during operation [op], after any prefix [es] of its effects
    on the files. The sections in the files are then an intermediate stage [x]
    between those before and after the operation; the reader returns a prefix of
    them, closed ones with their exact contents and open ones as empty, then an
    error; all of them unless a slab other than the last one has not been cut to
    size. *)
Theorem C03_crash_partial : forall ps slab_size ops op sy sy' es es2 n l n' l',
  page_ok ps -> (ps | slab_size) -> sizes_ok ps (ops ++ [op]) -> no_last (ops ++ [op]) ->
  session ps slab_size ops = Ret sy -> lstep ps slab_size sy op = Ret sy' ->
  lg_evs (sy_lg sy') = lg_evs (sy_lg sy) ++ es ++ es2 ->
  asteps ps slab_size (0%nat, []) ops = Some (n, l) ->
  asteps ps slab_size (0%nat, []) (ops ++ [op]) = Some (n', l') ->
  let fs := replay (lg_evs (sy_lg sy) ++ es) in
  exists x, progress l x /\ progress x l' /\
    forall t, t <> TEmpty -> exists p,
      reads fs t (map a_content (of_type t (firstn p x))) RErr /\
      (p = length x \/ middle_full slab_size fs).
Proof. exact crash. Qed.
Print Assumptions C03_crash_partial.

(** The same for a crash during the shutdown of the logger. *)
Theorem C03_crash_at_shutdown_partial : forall ps slab_size ops sy lg es es2 n l,
  page_ok ps -> (ps | slab_size) -> sizes_ok ps ops -> no_last ops ->
  session ps slab_size ops = Ret sy -> all_closed sy ->
  logger_drop ps slab_size (sy_lg sy) = Ret lg ->
  lg_evs lg = lg_evs (sy_lg sy) ++ es ++ es2 ->
  asteps ps slab_size (0%nat, []) ops = Some (n, l) ->
  let fs := replay (lg_evs (sy_lg sy) ++ es) in
  forall t, t <> TEmpty -> exists p e,
    reads fs t (map a_bytes (of_type t (firstn p l))) e /\
    (e = RErr \/ e = ROk tt) /\ (p = length l \/ middle_full slab_size fs).
Proof. exact crash_at_shutdown. Qed.
Print Assumptions C03_crash_at_shutdown_partial.

(** The file system is what the effects say: the image left by a crash after the
    last effect is the content of the files. *)
Example C03_case :
  let ops := firstn 4 ex_ops in let op := nth 4 ex_ops (LClose 0) in
  page_ok 16 /\ (16 | 80) /\ sizes_ok 16 (ops ++ [op]) /\ no_last (ops ++ [op]) /\
  exists sy sy' n l n' l' es es2,
    session 16 80 ops = Ret sy /\ lstep 16 80 sy op = Ret sy' /\
    asteps 16 80 (0%nat, []) ops = Some (n, l) /\ asteps 16 80 (0%nat, []) (ops ++ [op]) = Some (n', l') /\
    lg_evs (sy_lg sy') = lg_evs (sy_lg sy) ++ es ++ es2 /\ length es = 3%nat /\ length es2 = 5%nat /\
    reads (replay (lg_evs (sy_lg sy) ++ es)) TCopperList [[1; 2; 3]] RErr /\
    reads (replay (lg_evs (sy_lg sy) ++ es)) TStructured [[]] RErr.
Proof.
  cbv zeta. split; [exact ex_page|]. split; [exists 5; reflexivity|].
  assert (S : sizes_ok 16 (firstn 4 ex_ops ++ [nth 4 ex_ops (LClose 0)])) by sizes.
  split; [exact S|]. split; [nolast|].
  destruct (session_run 16 80 (firstn 4 ex_ops) (fun sy =>
    match lstep 16 80 sy (nth 4 ex_ops (LClose 0)) with
    | Ret sy' =>
       let es := skipn (length (lg_evs (sy_lg sy))) (lg_evs (sy_lg sy')) in
       let im := replay (lg_evs (sy_lg sy) ++ firstn 3 es) in
       Some (length es, read_log im TCopperList, read_log im TStructured)
    | Panic => None end)
    (Some (8%nat, Some ([[1; 2; 3]], false), Some ([[]], false)))) as (sy & E & H);
    [vm_compute; reflexivity|].
  destruct (lstep 16 80 sy _) as [sy'|] eqn:E2; [|discriminate].
  pose proof (step_evs _ _ _ _ _ _ ex_page S E E2) as Ee. cbv zeta in H.
  set (es := skipn (length (lg_evs (sy_lg sy))) (lg_evs (sy_lg sy'))) in *.
  injection H as H1 H2 H3.
  exists sy, sy'. do 4 eexists. exists (firstn 3 es), (skipn 3 es).
  split; [exact E|]. split; [exact E2|]. split; [vm_compute; reflexivity|]. split; [vm_compute; reflexivity|].
  split; [rewrite firstn_skipn; exact Ee|]. split; [rewrite firstn_length, H1; reflexivity|].
  split; [rewrite skipn_length, H1; reflexivity|].
  split; [exact (read_log_sound _ _ _ _ H2)|exact (read_log_sound _ _ _ _ H3)].
Qed.

(** Across slabs the property fails: stream 0 keeps slab 0 from being cut to size,
    stream 1 writes to slab 1 and is closed; after a crash the reader stops at the
    unused end of slab 0 and what stream 1 wrote cannot be read. *)
Theorem C03_multi_slab_refuted : exists ps slab_size ops sy n l s,
  page_ok ps /\ (ps | slab_size) /\ sizes_ok ps ops /\ no_last ops /\
  session ps slab_size ops = Ret sy /\ asteps ps slab_size (0%nat, []) ops = Some (n, l) /\
  In s l /\ a_open s = false /\ a_type s = TCopperList /\ a_bytes s = [7] /\
  reads (lg_files (sy_lg sy)) TCopperList [[]] RErr.
Proof.
  exists 16, 64, [LOpen TCopperList 20; LOpen TCopperList 20; LLog 1 (ex_obj [7]); LClose 1].
  destruct (session_run 16 64 [LOpen TCopperList 20; LOpen TCopperList 20; LLog 1 (ex_obj [7]); LClose 1]
    (fun sy => read_log (lg_files (sy_lg sy)) TCopperList) (Some ([[]], false))) as (sy & E & H);
    [vm_compute; reflexivity|].
  exists sy, 2%nat, [mkA 0 TCopperList 20 [] true; mkA 1 TCopperList 20 [[7]] false],
         (mkA 1 TCopperList 20 [[7]] false).
  split; [exact ex_page|]. split; [exists 4; reflexivity|]. split; [sizes|]. split; [nolast|].
  split; auto. split; [reflexivity|]. split; [cbn; auto|]. do 3 (split; [reflexivity|]).
  exact (read_log_sound _ _ _ _ H).
Qed.
Print Assumptions C03_multi_slab_refuted.

(** ** C04 *)
(** One call to log: the whole value is added to the current section if it fits,
    otherwise the current section is closed as it was and the whole value starts a
    new section; *)
Theorem C04_log_whole : forall ps slab_size ops i o sy sy',
  page_ok ps -> sizes_ok ps ops -> o_ok o = true ->
  session ps slab_size ops = Ret sy -> lstep ps slab_size sy (LLog i o) = Ret sy' ->
  exists n a s b l',
    asteps ps slab_size (0%nat, []) ops = Some (n, a ++ s :: b) /\
    a_owner s = i /\ a_open s = true /\
    asteps ps slab_size (0%nat, []) (ops ++ [LLog i o]) = Some (n, l') /\
    ((15 + a_used s + blen (obytes o) <= a_min s /\ l' = a ++ a_put (obytes o) s :: b) \/
     (a_min s < 15 + a_used s + blen (obytes o) /\
      l' = a ++ a_close s :: b ++ [mkA i (a_type s) (a_min s) [obytes o] true])).
Proof. exact log_whole. Qed.
Print Assumptions C04_log_whole.

(** and at any moment the files hold those sections, each closed one with exactly
    the concatenation of its whole values (subject to the limit of C03 on reading
    past slabs not cut to size). *)
Theorem C04_files_hold_sections : forall ps slab_size ops sy,
  page_ok ps -> (ps | slab_size) -> sizes_ok ps ops -> no_last ops ->
  session ps slab_size ops = Ret sy ->
  exists n l, asteps ps slab_size (0%nat, []) ops = Some (n, l) /\
  forall t, t <> TEmpty -> exists p,
    reads (lg_files (sy_lg sy)) t (map a_content (of_type t (firstn p l))) RErr /\
    (p = length l \/ middle_full slab_size (lg_files (sy_lg sy))).
Proof. exact at_rest. Qed.
Print Assumptions C04_files_hold_sections.

(** The second value of stream 0 is written byte by byte; two of its bytes fit the
    section. The section is closed with [1; 2; 3] only. *)
Example C04_case :
  let o := ex_obj [6; 7; 8] in
  page_ok 16 /\ (16 | 80) /\ sizes_ok 16 (firstn 5 ex_ops) /\ no_last (firstn 5 ex_ops) /\
  exists sy sy' n s b, session 16 80 (firstn 4 ex_ops) = Ret sy /\
    lstep 16 80 sy (LLog 0 o) = Ret sy' /\
    asteps 16 80 (0%nat, []) (firstn 4 ex_ops) = Some (n, s :: b) /\
    15 + a_used s + 2 <= a_min s < 15 + a_used s + blen (obytes o) /\
    reads (lg_files (sy_lg sy')) TCopperList [[1; 2; 3]; []] RErr.
Proof.
  cbv zeta. split; [exact ex_page|]. split; [exists 5; reflexivity|]. split; [sizes|]. split; [nolast|].
  destruct (session_run 16 80 (firstn 4 ex_ops) (fun sy =>
    match lstep 16 80 sy (LLog 0 (ex_obj [6; 7; 8])) with
    | Ret sy' => read_log (lg_files (sy_lg sy')) TCopperList
    | Panic => None end) (Some ([[1; 2; 3]; []], false))) as (sy & E & H); [vm_compute; reflexivity|].
  destruct (lstep 16 80 sy _) as [sy'|] eqn:E2; [|discriminate].
  exists sy, sy'. do 3 eexists. split; auto. split; auto. split; [vm_compute; reflexivity|].
  split; [vm_compute; split; [discriminate|reflexivity]|]. exact (read_log_sound _ _ _ _ H).
Qed.

(** ** C05 *)
(** When no section of the type is empty, successive reads deliver the sections'
    bytes in order, and a read into a non-empty buffer returns nothing only once
    everything has been delivered. *)
Theorem C05_end_of_data_partial : forall fs t cs,
  reads fs t cs (ROk tt) -> Forall (fun c => c <> []) cs ->
  exists r F, reader_new fs = ROk r /\ forall ns, exists outs rest,
    io_reads fs F t ns (mkIO r [] 0) = ROk outs /\ concat cs = concat outs ++ rest /\
    forall k n, nth_error ns k = Some n -> 0 < n -> nth_error outs k = Some [] ->
      concat (firstn k outs) = concat cs.
Proof. exact io_complete. Qed.
Print Assumptions C05_end_of_data_partial.

Example C05_case : exists sy lg cs,
  session 16 80 ex_ops = Ret sy /\ logger_drop 16 80 (sy_lg sy) = Ret lg /\
  reads (lg_files lg) TCopperList cs (ROk tt) /\ Forall (fun c => c <> []) cs /\
  (match reader_new (lg_files lg) with
   | ROk r => io_reads (lg_files lg) 10 TCopperList [2; 2; 2; 9; 9] (mkIO r [] 0) | _ => RErr end
   = ROk [[1; 2]; [3]; [6; 7]; [8; 10]; []]).
Proof.
  destruct (full_run 16 80 ex_ops (fun sy lg => (read_log (lg_files lg) TCopperList,
     match reader_new (lg_files lg) with
     | ROk r => io_reads (lg_files lg) 10 TCopperList [2; 2; 2; 9; 9] (mkIO r [] 0) | _ => RErr end))
     (Some ([[1; 2; 3]; [6; 7; 8; 10]], true), ROk [[1; 2]; [3]; [6; 7]; [8; 10]; []]))
    as (sy & lg & E1 & E2 & H); [vm_compute; reflexivity|].
  injection H as H1 H2. exists sy, lg, [[1; 2; 3]; [6; 7; 8; 10]]. do 2 (split; [auto|]).
  split; [exact (read_log_sound _ _ _ _ H1)|]. split; [repeat constructor; discriminate|auto].
Qed.

(** A stream closed before anything was logged leaves an empty section, at which
    the adapter reports the end of the data although more follows. *)
Theorem C05_empty_section_refuted : exists ps slab_size ops sy lg r,
  page_ok ps /\ sizes_ok ps ops /\ no_last ops /\
  session ps slab_size ops = Ret sy /\ all_closed sy /\
  logger_drop ps slab_size (sy_lg sy) = Ret lg /\ reader_new (lg_files lg) = ROk r /\
  io_reads (lg_files lg) 10 TCopperList [8; 8] (mkIO r [] 0) = ROk [[]; [7]].
Proof.
  set (ops := [LOpen TCopperList 20; LOpen TCopperList 20; LLog 1 (ex_obj [7]); LClose 0; LClose 1]).
  destruct (full_run 16 80 ops (fun sy lg => (none_left sy,
     match reader_new (lg_files lg) with
     | ROk r => io_reads (lg_files lg) 10 TCopperList [8; 8] (mkIO r [] 0) | _ => RErr end))
     (true, ROk [[]; [7]])) as (sy & lg & E1 & E2 & H); [vm_compute; reflexivity|].
  injection H as H1 H2. exists 16, 80, ops, sy, lg.
  destruct (reader_new (lg_files lg)) as [r| | |] eqn:Er; try discriminate. exists r.
  split; [exact ex_page|]. split; [sizes|]. split; [nolast|]. split; auto.
  split; [now apply none_left_spec|]. auto.
Qed.
Print Assumptions C05_empty_section_refuted.

(** ** C06 *)
(** In every reachable state, for every slab the logger keeps mapped: the open
    sections are recorded in increasing order, without duplicates, and are exactly
    those held by streams; the flushed prefix ends before all of them; when none is
    open, everything up to the end of the page of the write position is flushed,
    unless no section was ever allocated in the slab. *)
Theorem C06_flushing : forall ps slab_size ops sy k s,
  page_ok ps -> sizes_ok ps ops -> session ps slab_size ops = Ret sy ->
  In (k, s) (slabs (sy_lg sy)) ->
  StronglySorted N.lt (sl_inflight s) /\
  Forall (fun x => sl_flushed s <= x) (sl_inflight s) /\
  sl_flushed s <= sl_pos s /\
  (forall off, In off (sl_inflight s) <->
     exists i st, nth_error (sy_streams sy) i = Some (Some st) /\
                  hd_slab (st_h st) = k /\ hd_off (st_h st) = off) /\
  (sl_inflight s = [] -> sl_pos s <= align ps (sl_flushed s) \/ sl_pos s = first_pos ps k).
Proof. exact (fun ps sz ops sy k s Hp => flushing ps sz Hp ops sy k s). Qed.
Print Assumptions C06_flushing.

Example C06_case : exists sy,
  sizes_ok 16 (firstn 6 ex_ops) /\ session 16 80 (firstn 6 ex_ops) = Ret sy /\
  map (fun p => (fst p, sl_inflight (snd p), sl_flushed (snd p), sl_pos (snd p))) (slabs (sy_lg sy)) =
  [(1%nat, [0], 0, 20); (0%nat, [48], 48, 80)].
Proof.
  destruct (session_run 16 80 (firstn 6 ex_ops) (fun sy => map (fun p => (fst p, sl_inflight (snd p),
    sl_flushed (snd p), sl_pos (snd p))) (slabs (sy_lg sy)))
    [(1%nat, [0], 0, 20); (0%nat, [48], 48, 80)]) as (sy & E & H); [vm_compute; reflexivity|].
  exists sy. split; [sizes|auto].
Qed.
