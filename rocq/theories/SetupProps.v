(** Properties C117-C120: where and how a log is set up. *)
From Coq Require Import String List Arith NArith Bool Lia.
From Verif Require Import Base BincodeModel LogModel ULogModel ULogSpec ConfigModel AppModel SetupModel SetupSpec SetupProofs.
Import ListNotations.
Local Open Scope list_scope.
Local Open Scope N_scope.

(** ** C117 *)
(** The log named stem.ext is written to stem_0.ext, stem_1.ext, … *)
Theorem C117_partial : forall name stem ext k, parts name stem ext ->
  slab_name (Name name) k = Ret (stem ++ lit "_" ++ show_N k ++ lit "." ++ ext).
Proof. intros name stem ext k H. exact (slab_name_parts name stem ext k H). Qed.
Print Assumptions C117_partial.

(** Logs of names with a dot never share a file, nor do two slabs of one log. *)
Theorem C117_distinct_partial : forall n n' k k', In 46 n -> In 46 n' ->
  slab_name (Name n) k = slab_name (Name n') k' -> n = n' /\ k = k'.
Proof.
  intros n n' k k' H H'. destruct (has_parts n H) as (s & e & P). destruct (has_parts n' H') as (s' & e' & P').
  exact (slab_names_differ n s e n' s' e' k k' P P').
Qed.
Print Assumptions C117_distinct_partial.

Example C117_ex : parts (lit "toto.v1.copper") (lit "toto.v1") (lit "copper") /\
  slab_name (Name (lit "toto.v1.copper")) 12 = Ret (lit "toto.v1_12.copper") /\
  In 46 (lit "a_1.b") /\ slab_name (Name (lit "a_1.b")) 0 = Ret (lit "a_1_0.b") /\
  slab_name (Name (lit "a.b")) 10 = Ret (lit "a_10.b").
Proof.
  split; [split; [reflexivity|cbn; intuition discriminate]|]. split; [reflexivity|]. split; [cbn; auto 10|]. split; reflexivity.
Qed.

(** Without a dot the name becomes the extension: the logs foo and .foo share their files. *)
Theorem C117_refuted : exists n n' k, n <> n' /\ slab_name (Name n) k = slab_name (Name n') k /\
  slab_name (Name n) k = Ret (lit "_0.foo").
Proof. exists (lit "foo"), (lit ".foo"), 0. split; [discriminate|]. split; reflexivity. Qed.
Print Assumptions C117_refuted.
(** A path whose last component is no name, or no text, panics. *)
Theorem C117_path_refuted : exists p, slab_name p 0 = Panic.
Proof. exists NotText. reflexivity. Qed.
Print Assumptions C117_path_refuted.

(** ** C118 *)
(** The files of a log set up by basic_copper_setup have the size given by the program, else
    ten MiB. *)
Theorem C118_partial : forall ps slab mode culist c lg st, page_ok ps ->
  section_wanted culist c + ps <= 2 ^ 32 -> culist < 2 ^ 58 ->
  start_log ps slab mode culist c = Ret (lg, st) ->
  exists f, file_in_use lg = Some f /\ f_len f = match slab with Some n => n | None => 10 * 1048576 end.
Proof.
  intros ps slab mode culist c lg st Hps B K S.
  exact (start_size ps Hps slab mode culist c lg st _ (wanted mode culist c ps B K) B (start_shape ps Hps _ _ _ _ _ S) S).
Qed.
Print Assumptions C118_partial.

(** A configuration that asks for slabs of one GiB, with sections of one MiB. *)
Definition ex_gib : config := Config [] [] None (Some (LoggingConfig (Some 1024) (Some 1) true)).
Lemma page_4096 : page_ok 4096.
Proof. split; [exists 12; reflexivity|split; [discriminate|reflexivity]]. Qed.
Example C118_ex : exists lg st, start_log 4096 None Checked 100 ex_gib = Ret (lg, st).
Proof.
  destruct (proj2 (start_iff 4096 page_4096 None Checked 100 ex_gib 1048576 eq_refl ltac:(discriminate))) as [[lg st] E].
  - repeat split; discriminate.
  - eauto.
Qed.

(** The size in the configuration is not used. *)
Theorem C118_refuted : exists c asked lg st f, validate c = true /\ slab_asked c = Some asked /\
  start_log 4096 None Checked 100 c = Ret (lg, st) /\ file_in_use lg = Some f /\ f_len f <> asked.
Proof.
  destruct C118_ex as (lg & st & E).
  destruct (C118_partial 4096 None Checked 100 ex_gib lg st page_4096 ltac:(discriminate) ltac:(reflexivity) E) as (f & F & L).
  exists ex_gib, 1073741824, lg, st, f. split; [reflexivity|]. split; [reflexivity|]. split; [exact E|]. split; [exact F|].
  rewrite L. discriminate.
Qed.
Print Assumptions C118_refuted.

(** ** C119 *)
(** The application gets its log exactly when the slabs hold, in whole pages, ten pages of
    4096 bytes for the log lines and one section of copper lists, itself of fifteen bytes at
    least. *)
Theorem C119_partial : forall ps slab mode culist c, page_ok ps ->
  section_wanted culist c + ps <= 2 ^ 32 -> culist < 2 ^ 58 ->
  let size := match slab with Some n => n | None => 10 * 1048576 end in
  ((exists r, start_log ps slab mode culist c = Ret r) <->
   in_pages ps 40960 <= size /\ 15 <= section_wanted culist c /\ in_pages ps (section_wanted culist c) <= size).
Proof.
  intros ps slab mode culist c Hps B K. cbv zeta. exact (start_iff ps Hps slab mode culist c _ (wanted mode culist c ps B K) B).
Qed.
Print Assumptions C119_partial.

(** A configuration with slabs of one GiB and sections of a hundred MiB. *)
Definition ex_sections : config := Config [] [] None (Some (LoggingConfig (Some 1024) (Some 100) true)).
Example C119_ex : section_wanted 100 ex_sections + 4096 <= 2 ^ 32 /\ in_pages 4096 40960 <= 1073741824 /\
  in_pages 4096 (section_wanted 100 ex_sections) <= 1073741824.
Proof. repeat split; discriminate. Qed.

(** A valid configuration makes the application panic. *)
Theorem C119_refuted : exists c, validate c = true /\ start_log 4096 None Checked 100 c = Panic.
Proof.
  exists ex_sections. split; [reflexivity|].
  destruct (start_log 4096 None Checked 100 ex_sections) as [r|] eqn:E; [exfalso|reflexivity].
  destruct (proj1 (C119_partial 4096 None Checked 100 ex_sections page_4096 ltac:(discriminate) ltac:(reflexivity)) (ex_intro _ _ E)) as (_ & _ & H).
  revert H. vm_compute. intuition congruence.
Qed.
Print Assumptions C119_refuted.

(** ** C120 *)
(** Whatever the order of the calls, the last one of each kind counts: with write and create
    the log is created under the name and with the size given, else the existing log of that
    name is read; without a name that is an error. *)
Theorem C120_partial : forall P (l : list (setter P)),
  (write_asked l -> create_asked l -> forall p n, base_given l = Some p -> size_given l = Some n ->
     build (fold_left set l builder_new) = Ret (Writes p n)) /\
  (~ (write_asked l /\ create_asked l) -> forall p, base_given l = Some p ->
     build (fold_left set l builder_new) = Ret (Reads p)) /\
  (~ (write_asked l /\ create_asked l) -> base_given l = None ->
     build (fold_left set l builder_new) = Ret BuildError).
Proof.
  intros P l. destruct (built_state l) as (H1 & H2 & H3 & H4). unfold build. rewrite H1, H2.
  split; [|split].
  - intros W C p n E E'. apply H3 in W. apply H4 in C. rewrite W, C, E, E'. reflexivity.
  - intros N p E. rewrite E. destruct (b_write _) eqn:W, (b_create _) eqn:C; try reflexivity.
    exfalso. apply N. split; [apply H3|apply H4]; exact eq_refl || assumption.
  - intros N E. rewrite E. destruct (b_write _) eqn:W, (b_create _) eqn:C; try reflexivity.
    exfalso. apply N. split; [apply H3|apply H4]; exact eq_refl || assumption.
Qed.
Print Assumptions C120_partial.

Example C120_ex : let l := [SetWrite true; SetBase 7; SetSize 100; SetCreate true; SetBase 8] in
  write_asked l /\ create_asked l /\ base_given l = Some 8 /\ size_given l = Some 100 /\
  build (fold_left set l builder_new) = Ret (Writes 8 100).
Proof. repeat split. Qed.

(** Asking to write without create gives a reader; asking for both without a name, or without
    a size, panics. *)
Theorem C120_refuted :
  (exists l : list (setter N), write_asked l /\ build (fold_left set l builder_new) = Ret (Reads 1)) /\
  (exists l : list (setter N), base_given l = None /\ build (fold_left set l builder_new) = Panic) /\
  (exists l : list (setter N), size_given l = None /\ build (fold_left set l builder_new) = Panic).
Proof.
  split; [|split].
  - exists [SetBase 1; SetSize 2; SetWrite true]. split; reflexivity.
  - exists [SetSize 2; SetWrite true; SetCreate true]. split; reflexivity.
  - exists [SetBase 1; SetWrite true; SetCreate true]. split; reflexivity.
Qed.
Print Assumptions C120_refuted.
