(** The pool statistics, the console's table of pools, aligned buffers: C133 to C136. *)
From Coq Require Import List Arith NArith ZArith Lia Bool Permutation.
From Verif Require Import Base FloatModel PoolModel PoolSpec PoolProofs RegModel RegSpec RegProofs RegRate.
Import ListNotations.
Local Open Scope nat_scope.

(** C133. In full: at any time the statistics have one entry for each pool made, with its number
    of buffers, the bytes of a buffer and how many of them nobody uses. It fails when two pools
    have the same id: the older one disappears though the program goes on using it. *)
Definition C133_full : Prop := forall (A : Type) l h (d : desk A) ord, Forall fair l -> reaches l h d -> (forall x, Permutation (ord x) x) ->
  forall k id n b, nth_error (made h) k = Some (id, n, b) ->
    In (Stat id (n - length (in_use (done k h))) n b) (pools_statistics ord (fst d)).
(** With the entries of the newest pool of each id it holds: every id once, no others. *)
Theorem C133_newest_partial : forall (A : Type) l h (d : desk A) ord, Forall fair l -> reaches l h d -> (forall x, Permutation (ord x) x) ->
  let s := pools_statistics ord (fst d) in
  NoDup (map s_id s) /\
  forall e, In e s <-> exists k n b, newest h (s_id e) k /\ nth_error (made h) k = Some (s_id e, n, b) /\
    length (in_use (done k h)) <= n /\ e = Stat (s_id e) (n - length (in_use (done k h))) n b.
Proof.
  intros A l h d ord F R O s. destruct (reaches_ok _ _ _ F R) as [W _]. destruct (stats_ok h (fst d) ord W O) as (N & S1 & S2).
  split; auto. intros e. split.
  - intros I. destruct (S1 e I) as (k & K & S). exists k, (s_total e), (s_buffer e). pose proof (so_left _ _ _ S) as L. split; auto. split; [apply (so_made _ _ _ S)|].
    split; [lia|]. destruct e; cbn in *. f_equal; lia.
  - intros (k & n & b & K & M & L & E). destruct (S2 _ _ K) as (e' & I & Ei & S). replace e with e'; auto. rewrite E.
    pose proof (so_made _ _ _ S) as M'. pose proof (so_left _ _ _ S) as L'. destruct e' as [i lft t bf]. cbn in *. subst i. rewrite M in M'. injection M' as <- <-. f_equal. lia.
Qed.
Print Assumptions C133_newest_partial.
(** With different ids it holds in full. *)
Theorem C133_distinct_partial : forall (A : Type) l h (d : desk A) ord, Forall fair l -> reaches l h d -> (forall x, Permutation (ord x) x) ->
  NoDup (map (fun x => fst (fst x)) (made h)) ->
  length (pools_statistics ord (fst d)) = length (made h) /\
  forall k id n b, nth_error (made h) k = Some (id, n, b) ->
    In (Stat id (n - length (in_use (done k h))) n b) (pools_statistics ord (fst d)).
Proof.
  intros A l h d ord F R O D. destruct (C133_newest_partial A l h d ord F R O) as [N S]. cbv zeta in *.
  assert (New : forall k id n b, nth_error (made h) k = Some (id, n, b) -> newest h id k).
  { intros k id n b H. split; eauto. intros j n' b' J X. 
    assert (k = j); [|lia]. eapply NoDup_nth_error; [exact D|rewrite map_length; apply nth_error_Some; congruence|].
    rewrite (map_nth_error _ _ _ X), (map_nth_error _ _ _ H). reflexivity. }
  assert (In_ : forall k id n b, nth_error (made h) k = Some (id, n, b) -> In (Stat id (n - length (in_use (done k h))) n b) (pools_statistics ord (fst d))).
  { intros k id n b H. apply S. cbn. exists k, n, b. split; [eauto|split; [auto|split; auto]].
    destruct (reaches_ok _ _ _ F R) as [W _]. destruct (stats_ok h (fst d) ord W O) as (_ & _ & S2). destruct (S2 _ _ (New _ _ _ _ H)) as (e & _ & Ei & So).
    pose proof (so_made _ _ _ So) as M. pose proof (so_left _ _ _ So). rewrite Ei, H in M. injection M as -> _. lia. }
  split; auto. apply Nat.le_antisymm.
  - rewrite <- (map_length s_id). rewrite <- (map_length (fun x => fst (fst x)) (made h)). apply NoDup_incl_length; auto.
    intros id I. apply in_map_iff in I. destruct I as (e & <- & I). apply S in I. destruct I as (k & n & b & _ & M & _).
    apply in_map_iff. exists (s_id e, n, b). split; auto. apply (nth_error_In _ k). auto.
  - rewrite <- (map_length (fun x => fst (fst x)) (made h)), <- (map_length s_id). apply NoDup_incl_length; auto.
    intros id I. apply in_map_iff in I. destruct I as ([[i n] b] & <- & I). cbn. apply In_nth_error in I. destruct I as [k K].
    apply in_map_iff. eexists. split; [|apply (In_ k i n b K)]. reflexivity.
Qed.
Print Assumptions C133_distinct_partial.

(** Two cameras, say, each with a pool of the id "c", of two buffers of 4 bytes and of one of 8;
    both buffers of the first are in use. *)
Definition same_order : list (pid * nat) -> list (pid * nat) := fun x => x.
Definition two_pools : list (event nat) :=
  [Op (Create [99%N] 2 4 (fun _ => [0])); Op (Use 0 Acquire); Op (Use 0 Acquire); Update same_order (fun _ => 0%N);
   Op (Create [99%N] 1 8 (fun _ => [0])); Update same_order (fun _ => 5%N)].
Lemma two_pools_run : exists h d, reaches two_pools h d /\ Forall fair two_pools /\
  made h = [([99%N], 2, 4); ([99%N], 1, 8)] /\ length (in_use (done 0 h)) = 2 /\ length (in_use (done 1 h)) = 0 /\
  pools_statistics same_order (fst d) = [Stat [99%N] 1 1 8] /\ snd d = [Row [99%N] 1 1 4 0 0 0].
Proof.
  assert (X : exists d os, erun (world0, []) two_pools = Ret (d, os) /\ made (combine two_pools os) = [([99%N], 2, 4); ([99%N], 1, 8)] /\
     length (in_use (done 0 (combine two_pools os))) = 2 /\ length (in_use (done 1 (combine two_pools os))) = 0 /\
     pools_statistics same_order (fst d) = [Stat [99%N] 1 1 8] /\ snd d = [Row [99%N] 1 1 4 0 0 0]).
  { eexists _, _. split; [vm_compute; reflexivity|]. repeat split. }
  destruct X as (d & os & E & X). exists (combine two_pools os), d. split; [exists os; auto|]. split; [|exact X].
  repeat constructor; cbn; auto.
Qed.
Theorem C133_refuted : ~ C133_full.
Proof.
  intros C. destruct two_pools_run as (h & d & R & F & M & U & _ & S & _).
  specialize (C nat two_pools h d same_order F R (fun x => Permutation_refl x) 0 [99%N] 2 4). rewrite M, U, S in C.
  destruct (C eq_refl) as [X|[]]. discriminate.
Qed.
Print Assumptions C133_refuted.

(** C134. In full: whatever the program does with its pools and whenever the console looks, its
    table can be drawn, and after an update it has one row for each id, with the numbers of the
    newest pool of that id: the buffers in use, all buffers and the bytes of one. The last fails
    for an id used again: the bytes stay those of an older pool. *)
Definition C134_full : Prop := forall (A : Type) l h (d : desk A), Forall fair l -> reaches l h d ->
  forall ord now, (forall x, Permutation (ord x) x) -> exists rows, estep d (Update ord now) = Ret ((fst d, rows), None) /\
  NoDup (map r_id rows) /\ (forall id, In id (map r_id rows) <-> In id (map (fun x => fst (fst x)) (made h))) /\
  forall r, In r rows -> exists k, newest h (r_id r) k /\ nth_error (made h) k = Some (r_id r, r_total r, r_buffer r) /\
    r_in_use r = length (in_use (done k h)) /\ drawn_used r = Ret (r_in_use r).
(** All but the bytes holds, and the bytes are those of a pool of that id. *)
Theorem C134_table_partial : forall (A : Type) l h (d : desk A), Forall fair l -> reaches l h d ->
  forall ord now, (forall x, Permutation (ord x) x) -> exists rows, estep d (Update ord now) = Ret ((fst d, rows), None) /\
  NoDup (map r_id rows) /\ (forall id, In id (map r_id rows) <-> In id (map (fun x => fst (fst x)) (made h))) /\
  forall r, In r rows -> exists k b, newest h (r_id r) k /\ nth_error (made h) k = Some (r_id r, r_total r, b) /\
    r_in_use r = length (in_use (done k h)) /\ drawn_used r = Ret (r_in_use r) /\
    exists j n, nth_error (made h) j = Some (r_id r, n, r_buffer r).
Proof.
  intros A l h d F R ord now O. destruct (reaches_ok _ _ _ F R) as [W T]. destruct (update_ok h (fst d) (snd d) ord now W T O) as (rows & E & [N Tr] & I & Rw).
  exists rows. cbn [estep]. rewrite E. split; [reflexivity|]. split; auto. split.
  - intros id. rewrite I, in_map_iff. split.
    + intros (k & n & b & H). exists (id, n, b). split; auto. apply (nth_error_In _ k). auto.
    + intros ([[i n] b] & <- & H). apply In_nth_error in H. destruct H as [k H]. eauto.
  - intros r Hr. destruct (Rw r Hr) as (k & b & K1 & K2 & K3). destruct (Tr r Hr) as (L & j & n & J). exists k, b.
    split; auto. split; auto. split; auto. split; [|eauto]. unfold drawn_used, sub. destruct (Nat.leb_spec (r_left r) (r_total r)); [|lia]. f_equal. lia.
Qed.
Print Assumptions C134_table_partial.
(** In full for ids used once. *)
Theorem C134_distinct_partial : forall (A : Type) l h (d : desk A), Forall fair l -> reaches l h d ->
  NoDup (map (fun x => fst (fst x)) (made h)) ->
  forall ord now, (forall x, Permutation (ord x) x) -> exists rows, estep d (Update ord now) = Ret ((fst d, rows), None) /\
  length rows = length (made h) /\
  forall k id n b, nth_error (made h) k = Some (id, n, b) -> exists r, In r rows /\ r_id r = id /\ r_total r = n /\ r_buffer r = b /\
    r_in_use r = length (in_use (done k h)) /\ drawn_used r = Ret (r_in_use r).
Proof.
  intros A l h d F R D ord now O. destruct (C134_table_partial A l h d F R ord now O) as (rows & E & N & I & Rw). exists rows. split; auto. split.
  - rewrite <- (map_length r_id), <- (map_length (fun x => fst (fst x)) (made h)).
    apply Nat.le_antisymm; apply NoDup_incl_length; auto; intros id; apply I.
  - intros k id n b H.
    assert (Same : forall i j x n1 b1 n2 b2, nth_error (made h) i = Some (x, n1, b1) -> nth_error (made h) j = Some (x, n2, b2) -> i = j).
    { intros i j x n1 b1 n2 b2 X Y. eapply NoDup_nth_error; [exact D|rewrite map_length; apply nth_error_Some; congruence|].
      rewrite (map_nth_error _ _ _ X), (map_nth_error _ _ _ Y). reflexivity. }
    assert (J : In id (map r_id rows)) by (apply I, in_map_iff; exists (id, n, b); split; auto; apply (nth_error_In _ k); auto).
    apply in_map_iff in J. destruct J as (r & <- & J). exists r. destruct (Rw r J) as (k' & b' & _ & K & U & Dr & j & n' & K').
    pose proof (Same _ _ _ _ _ _ _ K H) as ->. pose proof (Same _ _ _ _ _ _ _ K' H) as ->. rewrite H in K, K'. injection K as <- <-. injection K' as <- <-. auto 10.
Qed.
Print Assumptions C134_distinct_partial.
Theorem C134_refuted : ~ C134_full.
Proof.
  intros C. destruct two_pools_run as (h & d & R & F & M & _ & _ & _ & S).
  destruct (C nat two_pools h d F R same_order (fun _ => 9%N) (fun x => Permutation_refl x)) as (rows & E & _ & I & Rw).
  destruct (C134_table_partial nat two_pools h d F R same_order (fun _ => 9%N) (fun x => Permutation_refl x)) as (rows' & E' & _).
  assert (B : forall r, In r rows -> r_buffer r = 4).
  { cbn [estep] in E. destruct two_pools_run as (h2 & d2 & R2 & _ & _ & _ & _ & P2 & S2).
    assert (d2 = d). { destruct R as (os & R & _), R2 as (os2 & R2 & _). rewrite R in R2. congruence. } subst d2.
    rewrite P2, S in E. cbn in E. injection E as <-. intros r [<-|[]]. reflexivity. }
  assert (J : In [99%N] (map r_id rows)) by (apply I; rewrite M; left; reflexivity).
  apply in_map_iff in J. destruct J as (r & Er & J). destruct (Rw r J) as (k & K1 & K2 & _). rewrite Er, (B r J), M in K2.
  destruct K1 as [_ K1]. rewrite Er, M in K1. destruct k as [|[|[|k]]]; try discriminate. apply (K1 1 1 8); auto.
Qed.
Print Assumptions C134_refuted.

(** A case of C133 and C134: two pools of different ids, one buffer each in use. *)
Example C134_case : exists h d, reaches
    [Op (Create [97%N] 2 4 (fun _ => [0; 0])); Op (Create [98%N] 3 1 (fun _ => [7])); Op (Use 0 Acquire);
     Update (@rev _) (fun _ => 3%N); Op (Use 1 Acquire); Op (Use 0 (Clone 0)); Op (Use 0 (Drop 0)); Update (@rev _) (fun _ => 4%N)] h d /\
  NoDup (map (fun x => fst (fst x)) (made h)) /\ made h = [([97%N], 2, 8); ([98%N], 3, 1)] /\
  pools_statistics same_order (fst d) = [Stat [98%N] 2 3 1; Stat [97%N] 1 2 8] /\
  snd d = [Row [97%N] 1 2 8 1 0 3; Row [98%N] 2 3 1 1 0 3].
Proof.
  eexists _, _. split; [eexists; split; [vm_compute; reflexivity|reflexivity]|]. cbn. split; [|auto].
  constructor; [cbn; intros [X|[]]; discriminate|]. constructor; [intros []|constructor].
Qed.

(** Which pools are made: those whose id has at most 64 bytes; a refused pool changes nothing. *)
Theorem C133_ids_partial : forall (A : Type) (w w' : world A) id size esize init x, create w id size esize init = (w', x) -> x <> Crashed ->
  (x = Created <-> length id <= 64) /\ (x = Refused <-> 64 < length id) /\ (x = Refused -> w' = w).
Proof.
  intros A w w' id size esize init x. unfold create. destruct (pool_new size init) as [st|]; [|intros X; injection X as <- <-; congruence].
  unfold id_fits. destruct (Nat.leb_spec (length id) 64); intros X N; injection X as <- <-; repeat split; try discriminate; try lia; auto.
Qed.
Print Assumptions C133_ids_partial.
Example C133_ids_case : snd (create (world0 (A := nat)) (repeat 97%N 64) 1 4 (fun _ => [0])) = Created /\ snd (create (world0 (A := nat)) (repeat 97%N 65) 1 4 (fun _ => [0])) = Refused.
Proof. split; reflexivity. Qed.

(** C135. In full: when the console has measured the rate of a pool over a second or more, it is
    how much the number of handles in use has changed in that time. It is not: ten handles are
    taken in one second, one in each tenth, and the rate shown is one; the difference is that to
    the update before, not to the last measurement. *)
Definition tenth (k : nat) : list (event nat) :=
  [Op (Use 0 Acquire); Update same_order (fun _ => (N.of_nat k * 100000000)%N)].
Definition one_second : list (event nat) :=
  [Op (Create [99%N] 20 4 (fun _ => [0])); Update same_order (fun _ => 0%N)] ++ flat_map tenth (seq 1 10).
Theorem C135_refuted : exists h d r, reaches one_second h d /\ snd d = [r] /\
  (* in the second from 0 to 1000000000 ns *) r_last r = 1000000000%N /\
  (* handles in use: none at the start, ten at the end *) length (in_use (done 0 (firstn 2 h))) = 0 /\ length (in_use (done 0 h)) = 10 /\
  r_in_use r = 10 /\ r_rate r = 1%N.
Proof.
  eexists _, _, _. split; [eexists; split; [vm_compute; reflexivity|reflexivity]|]. cbn [snd]. split; [reflexivity|]. vm_compute. auto 10.
Qed.
Print Assumptions C135_refuted.
(** What holds: the rate is never more than the buffers of the largest pool. *)
Theorem C135_bound_partial : forall (A : Type) M l h (d : desk A), (N.of_nat M <= 2 ^ 24)%N -> Forall fair l -> reaches l h d ->
  (forall id n b, In (id, n, b) (made h) -> n <= M) -> forall r, In r (snd d) -> (r_rate r <= N.of_nat M)%N.
Proof.
  intros A M l h d S F (os & E & ->) Z r I.
  assert (R : rates M (snd d)).
  { exact (erun_rates M S l [] (world0, []) d os world0_ok table0_ok F (fun q H => match H with end) E Z). }
  apply (R r I).
Qed.
Print Assumptions C135_bound_partial.
Example C135_case : exists h d, Forall fair one_second /\ reaches one_second h d /\ made h = [([99%N], 20, 4)].
Proof.
  eexists _, _. split; [|split; [eexists; split; [vm_compute; reflexivity|reflexivity]|reflexivity]].
  repeat constructor; cbn; auto.
Qed.

(** A pool that loses handles in use is shown with the same rate as one that gains as many. *)
Theorem C135_symmetric_partial : forall now last total up down before r1 r2, up <= total -> down <= total ->
  row_update now (Stat [] (total - up) total 0) (Row [] before total 0 down 0%N last) = Ret r1 ->
  row_update now (Stat [] (total - down) total 0) (Row [] before total 0 up 0%N last) = Ret r2 ->
  r_rate r1 = r_rate r2 /\ r_in_use r1 = up /\ r_in_use r2 = down.
Proof.
  intros now last total up down before r1 r2 U D. unfold row_update, sub. cbn [s_total s_left r_last r_in_use r_rate].
  assert (A : total - (total - up) = up) by lia. assert (B : total - (total - down) = down) by lia.
  destruct (Nat.leb_spec (total - up) total); [|lia]. destruct (Nat.leb_spec (total - down) total); [|lia]. cbn [obind]. rewrite A, B.
  intros X Y. injection X as <-. injection Y as <-. cbn [r_rate r_in_use]. replace (abs_diff down up) with (abs_diff up down) by (unfold abs_diff; lia). auto.
Qed.
Print Assumptions C135_symmetric_partial.
Example C135_falling : exists r, row_update 4000000000 (Stat [] 17 20 0) (Row [] 9 20 0 11 0%N 0) = Ret r /\ r_in_use r = 3 /\ r_rate r = 2%N.
Proof. eexists. split; [reflexivity|]. split; vm_compute; reflexivity. Qed.

(** C136. In full: the elements of an aligned buffer lie in its memory, where elements may lie.
    The allocator gives memory at a multiple of the alignment asked for. *)
Definition honest (alloc : layout -> N) : Prop := forall l, (alloc l mod l_align l = 0)%N.
Definition C136_full : Prop := forall m alloc esize ealign num align b, honest alloc -> (0 < ealign)%N -> (esize mod ealign = 0)%N ->
  abuf_new m alloc esize num align = Ret b -> sound b esize ealign.
(** With numbers whose product fits in 64 bits, or in a debug build, and an alignment that suits
    the elements, it holds; the memory given back is the memory that was got. *)
Theorem C136_sound_partial : forall m alloc esize ealign num align b, honest alloc -> (0 < ealign)%N -> (esize mod ealign = 0)%N ->
  abuf_new m alloc esize num align = Ret b -> m = Checked \/ (num * esize < 2 ^ 64)%N -> (align mod ealign = 0)%N ->
  sound b esize ealign /\ b_len b = num /\ b_layout b = Layout (num * esize) align /\ abuf_drop b = Some (alloc (b_layout b), b_layout b).
Proof.
  intros m alloc esize ealign num align b Ho P Me. unfold abuf_new. intros E Fit Al.
  assert (X : (num * esize < 2 ^ 64)%N /\ from_size_align (num * esize) align = Some (b_layout b) /\ b = ABuf (alloc (b_layout b)) num (b_layout b) /\ alloc (b_layout b) <> 0%N).
  { destruct (N.ltb_spec (num * esize) (2 ^ 64)) as [L|L].
    - cbn [obind] in E. destruct (from_size_align (num * esize) align) as [la|]; [|discriminate]. destruct (N.eqb_spec (alloc la) 0); [discriminate|]. injection E as <-. cbn. auto.
    - destruct m; [discriminate|]. destruct Fit as [|Fit]; [discriminate|lia]. }
  destruct X as (L & La & Eb & Nz). clear E.
  assert (El : b_layout b = Layout (num * esize) align).
  { unfold from_size_align in La. destruct (_ && _)%bool; [congruence|discriminate]. }
  split; [|split; [rewrite Eb; reflexivity|split; [auto|]]].
  - intros i Hi. rewrite Eb in Hi |- *. unfold element. cbn [b_ptr b_len b_layout] in *. rewrite El. cbn [l_size].
    split; [lia|]. split; [nia|].
    assert (Pa : (alloc (Layout (num * esize) align) mod ealign = 0)%N).
    { pose proof (Ho (Layout (num * esize) align)) as Q. cbn [l_align] in Q. apply N.mod_divide; [lia|]. apply N.mod_divide in Al; [|lia].
      destruct (N.eq_dec align 0) as [->|Na]; [|apply N.mod_divide in Q; [|auto]; etransitivity; eauto].
      exfalso. unfold from_size_align in La. cbn in La. discriminate. }
    apply N.mod_divide in Pa; [|lia]. apply N.mod_divide in Me; [|lia]. apply N.mod_divide; [lia|].
    apply N.divide_add_r; auto. apply N.divide_mul_r. auto.
  - rewrite Eb. unfold abuf_drop. cbn. destruct (N.eqb_spec (alloc (b_layout b)) 0); [contradiction|reflexivity].
Qed.
Print Assumptions C136_sound_partial.
Example C136_case : exists b, abuf_new Wrapping (fun l => 16 * l_align l)%N 4 1000 64 = Ret b /\ honest (fun l => 16 * l_align l)%N /\ b_len b = 1000%N.
Proof. eexists. split; [vm_compute; reflexivity|]. split; [|reflexivity]. intros l. destruct (l_align l); [reflexivity|apply N.mod_mul; discriminate]. Qed.
(** In a release build the number of bytes wraps: 2^61 + 1 elements of 8 bytes get 8 bytes. *)
Theorem C136_refuted : ~ C136_full.
Proof.
  intros C. specialize (C Wrapping (fun l => 16 * l_align l)%N 8%N 8%N (2 ^ 61 + 1)%N 8%N (ABuf 128 (2 ^ 61 + 1) (Layout 8 8))).
  destruct (C) with (i := 1%N) as (_ & X & _); try reflexivity.
  - intros l. destruct (l_align l); [reflexivity|apply N.mod_mul; discriminate].
  - vm_compute in X. apply X. reflexivity.
Qed.
Print Assumptions C136_refuted.
(** In any build elements of 8 bytes may be put at odd addresses, when the alignment asked for is
    less than theirs. *)
Theorem C136_alignment_refuted : exists alloc b, honest alloc /\ abuf_new Checked alloc 8 4 1 = Ret b /\ ~ sound b 8 8.
Proof.
  exists (fun l => if (l_align l =? 1)%N then 129%N else (16 * l_align l)%N), (ABuf 129 4 (Layout 32 1)). split; [|split].
  - intros l. destruct (N.eqb_spec (l_align l) 1) as [->|]; [reflexivity|]. destruct (l_align l); [reflexivity|apply N.mod_mul; discriminate].
  - reflexivity.
  - intros S. destruct (S 0%N) as (_ & _ & X); [reflexivity|]. discriminate.
Qed.
Print Assumptions C136_alignment_refuted.
(** And a buffer without elements asks for no bytes, which alloc forbids. *)
Theorem C136_empty_refuted : forall m alloc esize, alloc (Layout 0 1) <> 0%N ->
  exists b, abuf_new m alloc esize 0 1 = Ret b /\ l_size (b_layout b) = 0%N.
Proof.
  intros m alloc esize H. exists (ABuf (alloc (Layout 0 1)) 0 (Layout 0 1)). unfold abuf_new. rewrite N.mul_0_l. change (from_size_align 0 1) with (Some (Layout 0 1)). cbn [obind N.ltb N.compare N.pow]. change (0 <? 2 ^ 64)%N with true. cbn [obind]. change (from_size_align 0 1) with (Some (Layout 0 1)). cbv iota. destruct (N.eqb_spec (alloc (Layout 0 1)) 0); [contradiction|]. split; reflexivity.
Qed.
Print Assumptions C136_empty_refuted.

(** When a buffer is made in a debug build: the alignment is a power of two, the bytes rounded up
    to it fit in half the address space, and there is memory. *)
Theorem C136_exact_partial : forall alloc esize num align, (align < 2 ^ 64)%N ->
  (exists b, abuf_new Checked alloc esize num align = Ret b) <->
  (exists k, align = 2 ^ k)%N /\ (num * esize + align <= 2 ^ 63)%N /\ alloc (Layout (num * esize) align) <> 0%N.
Proof.
  intros alloc esize num align L. unfold abuf_new. split.
  - intros [b H]. destruct (N.ltb_spec (num * esize) (2 ^ 64)); [|discriminate]. cbn [obind] in H. unfold from_size_align in H.
    destruct (0 <? align)%N eqn:E1; [|discriminate]. destruct (align =? 2 ^ N.log2 align)%N eqn:E2; [|discriminate].
    destruct (num * esize <=? 2 ^ 63 - align)%N eqn:E3; [|discriminate]. cbn [andb] in H.
    apply N.ltb_lt in E1. apply N.eqb_eq in E2. apply N.leb_le in E3. split; [eauto|].
    destruct (N.eqb_spec (alloc (Layout (num * esize) align)) 0); [discriminate|]. split; [|assumption].
    assert (N.log2 align < 64)%N. { apply (N.pow_lt_mono_r_iff 2); [lia|]. rewrite <- E2. exact L. }
    assert (align <= 2 ^ 63)%N. { rewrite E2. apply N.pow_le_mono_r; lia. } lia.
  - intros ([k ->] & B & A). assert (0 < 2 ^ k)%N by (apply N.neq_0_lt_0, N.pow_nonzero; lia).
    destruct (N.ltb_spec (num * esize) (2 ^ 64)) as [|X]. 2: { exfalso. change (2 ^ 64)%N with (2 * 2 ^ 63)%N in X. lia. }
    cbn [obind]. unfold from_size_align. rewrite (proj2 (N.ltb_lt _ _)) by assumption. rewrite N.log2_pow2 by lia. rewrite N.eqb_refl.
    rewrite (proj2 (N.leb_le _ _)) by lia. cbn [andb]. destruct (N.eqb_spec (alloc (Layout (num * esize) (2 ^ k))) 0); [contradiction|]. eauto.
Qed.
Print Assumptions C136_exact_partial.
Example C136_exact_case : (exists b, abuf_new Checked (fun _ => 4096%N) 4 100 64 = Ret b) /\ abuf_new Checked (fun _ => 4096%N) 4 100 48 = Panic.
Proof. split; [eexists|]; reflexivity. Qed.
