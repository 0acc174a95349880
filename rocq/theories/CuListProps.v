(** Properties C07-C10: copper list manager and end of processing. *)
From Coq Require Import List Arith NArith Bool Sorted Permutation.
From Verif Require Import Base CuListModel CuListSpec CuListProofs CuListProofs2.
Import ListNotations.

(** C07. Every history behaves as on a bounded stack, without panic. *)
Theorem C07_bounded_stack : forall P mode n (zero : P) ops,
  0 < n -> (N.of_nat (creates ops) < 2 ^ 32)%N ->
  exists m, run mode (mgr_new n zero) ops = Ret (m, snd (spec_run n ([], 0%N) ops)).
Proof. exact @mgr_is_bounded_stack. Qed.
Print Assumptions C07_bounded_stack.

Example C07_case :
  let ops := [OCreate Processing 5; OCreate Processing 6; OCreate Processing 7; OPop; OPeek;
              OCreate Processing 8; OIsFull; ODropLast; OPop; OPop] in
  (N.of_nat (creates ops) < 2 ^ 32)%N /\
  snd (spec_run 2 ([], 0%N) ops) =
  [ObCreated (Some 0%N); ObCreated (Some 1%N); ObCreated None;
   ObList (Some (mkCl 1%N Processing 6)); ObList (Some (mkCl 0%N Processing 5));
   ObCreated (Some 2%N); ObBool true; ObUnit; ObList (Some (mkCl 0%N Processing 5)); ObList None].
Proof. split; reflexivity. Qed.

(** C08. Ids handed out strictly increase in builds with overflow checks,
    whatever the length of the history; *)
Theorem C08_ids_increasing_checked_partial : forall P n (zero : P) ops m bs,
  0 < n -> run Checked (mgr_new n zero) ops = Ret (m, bs) ->
  StronglySorted N.lt (created_ids bs).
Proof. exact @ids_increasing_checked. Qed.
Print Assumptions C08_ids_increasing_checked_partial.

(** in builds without overflow checks as long as fewer than 2^32 lists are created; *)
Theorem C08_ids_increasing_bounded_partial : forall P mode n (zero : P) ops m bs,
  0 < n -> (N.of_nat (creates ops) < 2 ^ 32)%N ->
  run mode (mgr_new n zero) ops = Ret (m, bs) ->
  StronglySorted N.lt (created_ids bs).
Proof. exact @ids_increasing_bounded. Qed.
Print Assumptions C08_ids_increasing_bounded_partial.

(** and are reused after 2^32 creations otherwise. *)
Theorem C08_ids_wrap_refuted : forall P n (p : P), 0 < n ->
  exists ops m bs, run Wrapping (mgr_new n p) ops = Ret (m, bs) /\ ~ NoDup (created_ids bs).
Proof. exact @ids_wrap_refuted. Qed.
Print Assumptions C08_ids_wrap_refuted.

Example C08_case : exists m bs,
  run Checked (mgr_new 2 0) [OCreate Processing 5; OPop; OCreate Processing 6; OClear;
                             OCreate Processing 7] = Ret (m, bs) /\
  created_ids bs = [0; 1; 2]%N.
Proof. do 2 eexists. split; vm_compute; reflexivity. Qed.

(** C09. [iter] visits exactly the live lists, newest first. *)
Theorem C09_iter_live_partial : forall P mode n (zero : P) ops m bs,
  0 < n -> (N.of_nat (creates ops) < 2 ^ 32)%N ->
  run mode (mgr_new n zero) ops = Ret (m, bs) ->
  iter m = Ret (fst (fst (spec_run n ([], 0%N) ops))).
Proof. exact @iter_visits_live. Qed.
Print Assumptions C09_iter_live_partial.

(** The other iterators visit the live lists in the right order, but also one
    stale slot per unused place: after the live ones for [iter_mut], before them
    for [asc_iter]. *)
Theorem C09_other_iterators_partial : forall P mode n (zero : P) ops m bs,
  0 < n -> (N.of_nat (creates ops) < 2 ^ 32)%N ->
  run mode (mgr_new n zero) ops = Ret (m, bs) ->
  let live := fst (fst (spec_run n ([], 0%N) ops)) in
  (exists stale, length stale = n - length live /\ iter_mut m = Ret (live ++ stale)) /\
  (exists stale, length stale = n - length live /\ asc_iter m = Ret (stale ++ rev live)).
Proof. exact @other_iters_visit. Qed.
Print Assumptions C09_other_iterators_partial.

Theorem C09_other_iterators_refuted : forall P (zero p : P), exists ops m bs,
  run Checked (mgr_new 2 zero) ops = Ret (m, bs) /\
  asc_iter m <> Ret (rev (fst (fst (spec_run 2 ([], 0%N) ops)))) /\
  iter_mut m <> Ret (fst (fst (spec_run 2 ([], 0%N) ops))).
Proof. exact @asc_iter_refuted. Qed.
Print Assumptions C09_other_iterators_refuted.

Example C09_case : exists m bs,
  run Checked (mgr_new 3 0) [OCreate Processing 5; OCreate Processing 6] = Ret (m, bs) /\
  iter m = Ret [mkCl 1%N Processing 6; mkCl 0%N Processing 5] /\
  iter_mut m = Ret [mkCl 1%N Processing 6; mkCl 0%N Processing 5; mkCl 0%N Free 0].
Proof. do 2 eexists. repeat split; vm_compute; reflexivity. Qed.

(** C10. What is logged: at most once per list, only lists whose end was
    reported, with the messages they were begun with. *)
Theorem C10_logged_at_most_once : forall P mode ok n (zero : P) ops m lgs,
  (forall c, ok c = true) -> 0 < n -> (N.of_nat (length (begins ops)) < 2 ^ 32)%N ->
  rrun mode (Some ok) (mgr_new n zero) ops = Ret (m, lgs) ->
  NoDup (map cl_id (concat lgs)) /\
  (forall c, In c (concat lgs) -> In (cl_id c, cl_msgs c) (number 0 (begins ops)) /\
                                  ended (cl_id c) ops).
Proof. exact @logged_at_most_once. Qed.
Print Assumptions C10_logged_at_most_once.

(** A list is logged as soon as it and every newer list have ended. *)
Theorem C10_logged_promptly : forall P mode ok n (zero : P) ops m lgs k p,
  (forall c, ok c = true) -> 0 < n -> (N.of_nat (length (begins ops)) < 2 ^ 32)%N ->
  rrun mode (Some ok) (mgr_new n zero) ops = Ret (m, lgs) ->
  In (k, p) (number 0 (begins ops)) ->
  (forall k', (k <= k' < N.of_nat (length (begins ops)))%N -> ended k' ops) ->
  exists c, In c (concat lgs) /\ cl_id c = k /\ cl_msgs c = p.
Proof. exact @logged_promptly. Qed.
Print Assumptions C10_logged_promptly.

(** When all lists have ended, all slots are available and the log holds each
    list exactly once. *)
Theorem C10_all_logged : forall P mode ok n (zero : P) ops m lgs,
  (forall c, ok c = true) -> 0 < n -> (N.of_nat (length (begins ops)) < 2 ^ 32)%N ->
  rrun mode (Some ok) (mgr_new n zero) ops = Ret (m, lgs) ->
  (forall k, (k < N.of_nat (length (begins ops)))%N -> ended k ops) ->
  available_copper_lists m = n /\
  Permutation (map (fun c => (cl_id c, cl_msgs c)) (concat lgs)) (number 0 (begins ops)).
Proof. exact @all_ended_all_free. Qed.
Print Assumptions C10_all_logged.

(** Beginning a list succeeds exactly when a slot is available. *)
Theorem C10_begin_succeeds : forall P mode ok n (zero : P) ops m lgs p,
  (forall c, ok c = true) -> 0 < n -> (N.of_nat (S (length (begins ops))) < 2 ^ 32)%N ->
  rrun mode (Some ok) (mgr_new n zero) ops = Ret (m, lgs) ->
  (exists m', rstep mode (Some ok) m (RBegin p) = Ret (m', [])) <->
  (0 < available_copper_lists m).
Proof. exact @begin_succeeds. Qed.
Print Assumptions C10_begin_succeeds.

(** The whole protocol, with or without logging, panics included. *)
Theorem C10_refinement : forall P mode logger n (zero : P) ops,
  logger_accepts logger -> 0 < n -> (N.of_nat (length (begins ops)) < 2 ^ 32)%N ->
  match rspec_run n ([], 0%N) ops with
  | Panic => rrun mode logger (mgr_new n zero) ops = Panic
  | Ret (s', ls) => exists m lgs, rrun mode logger (mgr_new n zero) ops = Ret (m, lgs) /\
       available_copper_lists m = n - length (fst s') /\
       map (map logged_pair) lgs = map (pairs_of logger) ls
  end.
Proof. exact @runtime_refines. Qed.
Print Assumptions C10_refinement.

(** Two lists finishing out of order: the older waits for the newer. *)
Example C10_case :
  let ops := [RBegin 5; RBegin 6; REnd 0%N; RBegin 7; REnd 1%N; REnd 2%N] in
  exists m lgs,
  rrun Checked (Some (fun _ => true)) (mgr_new 3 0) ops = Ret (m, lgs) /\
  map (map (fun c => (cl_id c, cl_msgs c))) lgs = [[]; []; []; []; []; [(2%N, 7); (1%N, 6); (0%N, 5)]] /\
  available_copper_lists m = 3 /\ ended 0 ops /\ ended 1 ops /\ ended 2 ops.
Proof.
  do 2 eexists. split; [vm_compute; reflexivity|]. repeat split; try (vm_compute; reflexivity).
  - exists [RBegin 5; RBegin 6]. eexists. split; [reflexivity|]. reflexivity.
  - exists [RBegin 5; RBegin 6; REnd 0%N; RBegin 7]. eexists. split; [reflexivity|]. reflexivity.
  - exists [RBegin 5; RBegin 6; REnd 0%N; RBegin 7; REnd 1%N]. eexists. split; reflexivity.
Qed.
