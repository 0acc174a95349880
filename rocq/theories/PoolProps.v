(** C31: a buffer of a memory pool has one user at a time and comes back. *)
From Coq Require Import List Arith Bool Lia.
From Verif Require Import Base PoolModel PoolSpec PoolProofs.
Import ListNotations.
Local Open Scope nat_scope.

(** After any program: the buffers handed out and not given back are exactly the
    acquisitions with a live clone, there are at most as many as the pool has, the pool
    reports the rest as free, and acquire fails exactly when none is left. *)
Theorem C31_accounting : forall (A : Type) size init (st : state A) l h st',
  pool_new size init = Ret st -> runs st l h st' ->
  NoDup (in_use h) /\ length (in_use h) <= size /\ total_size st' = size /\
  space_left st' = size - length (in_use h) /\
  (snd (step st' Acquire) = NoBuffer <-> length (in_use h) = size).
Proof.
  intros A size init st l h st' N R. destruct (runs_inv _ _ _ _ _ _ N R) as (G & T & Z).
  pose proof (space_in_use _ _ G T) as P. rewrite Z in P. split; [|split; [lia|split; [exact Z|split; [lia|]]]].
  - unfold in_use. apply NoDup_filter. apply (t_nodup _ _ T).
  - unfold space_left in P. cbn. unfold acquire. destruct (st_free st') as [|b free]; cbn in *; split; auto; try discriminate; lia.
Qed.
Print Assumptions C31_accounting.

(** A buffer goes back when the last clone of its handle is dropped, and at no other time. *)
Theorem C31_returned : forall (A : Type) size init (st : state A) l h st' x,
  pool_new size init = Ret st -> runs st l h st' ->
  (space_left (fst (step st' x)) = S (space_left st') <-> exists a, x = Drop a /\ In a (acquired h) /\ live h a = 1).
Proof.
  intros A size init st l h st' x N R. destruct (runs_inv _ _ _ _ _ _ N R) as (G & T & Z).
  assert (NS : forall n, n <> S n) by (intros; lia).
  destruct x as [|c|a|a|a|a c f|a]; cbn [step]; try (split; [|intros (b & X & _); discriminate]).
  - unfold acquire, space_left. destruct (st_free st') eqn:F; cbn; rewrite ?F; cbn; intros X; lia.
  - unfold space_left. cbn. lia.
  - destruct (usable st' a) as [x|]; unfold space_left; cbn; lia.
  - split.
    + destruct (usable st' a) as [x|] eqn:U; [|unfold space_left; cbn; lia]. apply usable_some in U. destruct U as [U1 U2].
      unfold drop_handle, space_left. destruct (Nat.eqb_spec (a_count x) 1) as [C|C], (a_pooled x) eqn:P; cbn; try lia.
      intros _. exists a. split; auto. rewrite (t_live _ _ T), U1. split; auto.
      apply (t_busy _ _ T a x); auto. unfold busy. rewrite P, C. reflexivity.
    + intros (b & X & I1 & L). injection X as <-. destruct (t_pooled _ _ T a I1) as (x & X1 & X2).
      rewrite (t_live _ _ T), X1 in L. rewrite (proj2 (usable_some st' a x)) by (split; auto; lia).
      unfold drop_handle, space_left. rewrite L, X2. reflexivity.
  - destruct (usable st' a) as [x|]; [destruct (a_poisoned x)|]; unfold space_left; cbn; lia.
  - destruct (usable st' a) as [x|]; [destruct (a_poisoned x); [|destruct f]|]; unfold space_left; cbn; lia.
  - destruct (usable st' a) as [x|]; [|unfold space_left; cbn; lia]. unfold copy_from, acquire.
    destruct (st_free st') as [|b free] eqn:F; [unfold space_left; cbn; lia|]. cbn [st_arcs st_cells].
    rewrite nth_error_app2, Nat.sub_diag by lia. cbn [nth_error a_cell].
    destruct (a_poisoned x); [unfold space_left; cbn; rewrite F; cbn; lia|].
    destruct (nth_error _ _) as [s1|]; [|unfold space_left; cbn; rewrite F; cbn; lia].
    destruct (nth_error _ _) as [s2|]; [|unfold space_left; cbn; rewrite F; cbn; lia].
    destruct (_ =? _); unfold space_left; cbn; rewrite F; cbn; lia.
Qed.
Print Assumptions C31_returned.

(** What a live handle shows changes only by writing through that handle (any of its
    clones): nothing done with other handles or with the pool is ever seen. The one other
    event is a copy of this very handle to a pool whose buffers have another length: it
    panics and from then on the handle panics as well. *)
Theorem C31_exclusive : forall (A : Type) size init (st : state A) l h st' b c x,
  pool_new size init = Ret st -> runs st l h st' ->
  snd (step st' (Read b)) = Contents c -> (forall c' f, x <> Write b c' f) ->
  live (h ++ [(x, snd (step st' x))]) b <> 0 ->
  snd (step (fst (step st' x)) (Read b)) = Contents c \/
  (x = CopyFrom b /\ snd (step st' x) = Panicked /\ snd (step (fst (step st' x)) (Read b)) = Panicked).
Proof.
  intros A size init st l h st' b c x N R. destruct (runs_inv _ _ _ _ _ _ N R) as (G & T & Z). apply frame; auto.
Qed.
Print Assumptions C31_exclusive.

(** What is written is what is read back, through every clone; a copy starts with the
    source's contents; every live handle that no panic has poisoned can be read. *)
Theorem C31_contents : forall (A : Type) size init (st : state A) l h st',
  pool_new size init = Ret st -> runs st l h st' ->
  (forall a c, snd (step st' (Write a c false)) = Done -> live h a <> 0 ->
     snd (step (fst (step st' (Write a c false))) (Read a)) = Contents c) /\
  (forall a b c, snd (step st' (CopyFrom a)) = Handle b -> snd (step st' (Read a)) = Contents c ->
     a <> b /\ live h b = 0 /\ snd (step (fst (step st' (CopyFrom a))) (Read b)) = Contents c) /\
  (forall a b c, snd (step st' (Detached c)) = Handle b -> snd (step (fst (step st' (Detached c))) (Read b)) = Contents c /\
     (live h a <> 0 -> a <> b)) /\
  (forall b, snd (step st' Acquire) = Handle b -> live h b = 0 /\
     exists c, snd (step (fst (step st' Acquire)) (Read b)) = Contents c).
Proof.
  intros A size init st l h st' N R. destruct (runs_inv _ _ _ _ _ _ N R) as (G & T & Z).
  assert (New : live h (length (st_arcs st')) = 0).
  { rewrite (t_live _ _ T). rewrite (proj2 (nth_error_None _ _)); auto. }
  split; [|split; [|split]].
  - intros a c D L. rewrite (t_live _ _ T) in L. destruct (nth_error (st_arcs st') a) as [x|] eqn:X; [|congruence].
    assert (U : usable st' a = Some x) by (apply usable_some; auto). cbn [step] in D |- *. rewrite U in *.
    destruct (a_poisoned x) eqn:P; [discriminate|]. cbn [fst]. apply read_contents. exists x. cbn. repeat split; auto.
    apply nth_error_upd_eq. apply (cell_range _ _ _ G X L).
  - intros a b c D Rd. apply read_contents in Rd. destruct Rd as (x & X1 & X2 & X3 & X4).
    assert (U : usable st' a = Some x) by (apply usable_some; auto). cbn [step] in D |- *. rewrite U in *.
    assert (La : a < length (st_arcs st')) by (apply nth_error_Some; congruence).
    unfold copy_from in *. destruct (acquire st') as [st1 r] eqn:E. destruct (good_acquire _ _ _ G E) as (G1 & C).
    destruct C as [(-> & -> & _)|(b' & free & F & -> & -> & Hb & Nb)]; [discriminate|].
    cbn [st_arcs st_cells] in *. rewrite nth_error_app2, Nat.sub_diag in * by lia. cbn [nth_error a_cell] in *.
    rewrite X3, X4 in *. destruct (nth_error (st_cells st') b') as [dst|] eqn:Db; [|discriminate].
    destruct (length c =? length dst); [|discriminate]. cbn [fst snd] in *. injection D as <-.
    split; [lia|]. split; [auto|]. apply read_contents. cbn.
    exists (Arc 1 b' true false). rewrite nth_error_app2, Nat.sub_diag by lia. repeat split; cbn; auto.
    apply nth_error_upd_eq. apply nth_error_Some. congruence.
  - intros a b c D. cbn in D. injection D as <-. split.
    + apply read_contents. cbn. exists (Arc 1 (length (st_cells st')) false false).
      rewrite !nth_error_app2, !Nat.sub_diag by lia. cbn. split; [reflexivity|]. split; [discriminate|]. split; [reflexivity|]. rewrite nth_error_app2, Nat.sub_diag by lia. reflexivity.
    + intros L ->. congruence.
  - intros b. cbn [step]. destruct (acquire st') as [st1 r] eqn:E. destruct (good_acquire _ _ _ G E) as (G1 & C).
    destruct C as [(-> & -> & _)|(b' & free & F & -> & -> & Hb & Nb)]; [discriminate|]. cbn [snd fst].
    intros X. injection X as <-. split; auto. destruct (nth_error (st_cells st') b') as [c|] eqn:Cb.
    + exists c. apply read_contents. cbn. exists (Arc 1 b' true false). rewrite nth_error_app2, Nat.sub_diag by lia. cbn. auto.
    + apply nth_error_None in Cb. pose proof (g_cells _ G). lia.
Qed.
Print Assumptions C31_contents.

(** Two buffers; a handle is cloned, written through one clone and dropped; a copy is made;
    acquiring fails while both are in use and works again after the last drop. *)
Example C31_case :
  exists st st', pool_new 2 (fun _ => [0; 0]) = Ret st /\
  let l := [Acquire; Clone 0; Write 0 [7; 8] false; Drop 0; CopyFrom 0; Write 0 [9; 9] false; Read 1; Acquire; Drop 0; Acquire; Read 2] in
  let h := combine l [Handle 0; Done; Done; Done; Handle 1; Done; Contents [7; 8]; NoBuffer; Done; Handle 2; Contents [9; 9]] in
  runs st l h st' /\ in_use h = [1; 2] /\ live h 0 = 0 /\ space_left st' = 0.
Proof. eexists. eexists. split; [reflexivity|]. cbn. split; [eexists; split; reflexivity|repeat split]. Qed.
