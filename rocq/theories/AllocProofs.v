From Coq Require Import List Arith NArith Bool Lia.
From Verif Require Import Base AllocModel AllocSpec.
Import ListNotations.
Local Open Scope list_scope.
Local Open Scope N_scope.

Lemma bytes_app f a b : bytes f (a ++ b) = bytes f a + bytes f b.
Proof. induction a as [|x a IH]; cbn; [reflexivity|]. rewrite IH. lia. Qed.

Lemma bytes_move f : forall bs i b p, nth_error bs i = Some b ->
  bytes f (move bs i p) + (if f b then k_size b else 0) =
  bytes f bs + (if f (Block (k_size b) (k_thread b) p) then k_size b else 0).
Proof.
  intros bs i b p H. unfold move. rewrite H. revert i H.
  induction bs as [|x bs IH]; intros [|i] H; cbn in H; try discriminate.
  - injection H as ->. cbn. destruct (f b), (f _); lia.
  - cbn. specialize (IH _ H). destruct (f x); lia.
Qed.

(** What an action does to the sums. *)
Definition zero_or (a a' n : N) : Prop := (n = 0 /\ a' = a) \/ a' = fetch_add a n.

Lemma act_sums s a s' : act s a = Some s' -> a <> ResetA -> a <> ResetD ->
  exists da dd, zero_or (allocated s) (allocated s') da /\ zero_or (deallocated s) (deallocated s') dd /\
    bytes handed (blocks s') = bytes handed (blocks s) + da /\
    bytes freed (blocks s') = bytes freed (blocks s) + dd.
Proof.
  intros H NA ND. destruct a as [t n ok|i|i|i| |]; cbn in H; try contradiction.
  - injection H as <-. exists 0, 0. destruct ok; cbn; [rewrite !bytes_app; cbn|]; repeat split; try (left; auto); lia.
  - destruct (nth_error (blocks s) i) as [[n t []]|] eqn:B; try discriminate. injection H as <-.
    exists n, 0. cbn. pose proof (bytes_move handed _ _ _ Live B). pose proof (bytes_move freed _ _ _ Live B).
    cbn in *. repeat split; try (left; split; reflexivity); try (right; reflexivity); lia.
  - destruct (nth_error (blocks s) i) as [[n t []]|] eqn:B; try discriminate. injection H as <-.
    exists 0, 0. cbn. pose proof (bytes_move handed _ _ _ Returned B). pose proof (bytes_move freed _ _ _ Returned B).
    cbn in *. repeat split; try (left; split; reflexivity); lia.
  - destruct (nth_error (blocks s) i) as [[n t []]|] eqn:B; try discriminate. injection H as <-.
    exists 0, n. cbn. pose proof (bytes_move handed _ _ _ Gone B). pose proof (bytes_move freed _ _ _ Gone B).
    cbn in *. repeat split; try (left; split; reflexivity); try (right; reflexivity); lia.
Qed.

Lemma zero_or_add a a' n : zero_or a a' n -> a + n < 2 ^ 64 -> a' = a + n.
Proof. intros [[-> ->]| ->] H; [lia|]. unfold fetch_add. apply N.mod_small. exact H. Qed.

Lemma freed_handed bs : bytes freed bs <= bytes handed bs.
Proof.
  induction bs as [|b bs IH]; cbn; [lia|]. unfold freed, handed in *. destruct (k_phase b); lia.
Qed.

Lemma run_app s l l' : run s (l ++ l') = match run s l with None => None | Some s => run s l' end.
Proof. revert s; induction l as [|a l IH]; intros s; cbn; [reflexivity|]. destruct (act s a); auto. Qed.

(** The sums grow. *)
Lemma act_grows s a s' : act s a = Some s' ->
  bytes handed (blocks s) <= bytes handed (blocks s') /\ bytes freed (blocks s) <= bytes freed (blocks s').
Proof.
  intros H. assert (D : (a = ResetA \/ a = ResetD) \/ (a <> ResetA /\ a <> ResetD)).
  { destruct a; auto; right; split; discriminate. }
  destruct D as [[->| ->]|[A B]].
  - injection H as <-. cbn. lia.
  - injection H as <-. cbn. lia.
  - destruct (act_sums s a s' H A B) as (da & dd & _ & _ & E1 & E2). lia.
Qed.
Lemma run_grows l : forall s s', run s l = Some s' ->
  bytes handed (blocks s) <= bytes handed (blocks s') /\ bytes freed (blocks s) <= bytes freed (blocks s').
Proof.
  induction l as [|a l IH]; intros s s' H; cbn in H; [injection H as <-; lia|].
  destruct (act s a) as [s1|] eqn:A; [|discriminate]. pose proof (act_grows _ _ _ A).
  specialize (IH _ _ H). lia.
Qed.

(** With resets, the counters are at most the sums. *)
Lemma run_below l : forall s s', run s l = Some s' -> bytes handed (blocks s') < 2 ^ 64 ->
  allocated s <= bytes handed (blocks s) -> deallocated s <= bytes freed (blocks s) ->
  allocated s' <= bytes handed (blocks s') /\ deallocated s' <= bytes freed (blocks s').
Proof.
  induction l as [|a l IH]; intros s s' H B Ha Hd; cbn in H; [injection H as <-; auto|].
  destruct (act s a) as [s1|] eqn:A; [|discriminate].
  pose proof (run_grows _ _ _ H) as [G1 G2]. pose proof (freed_handed (blocks s')) as FH.
  apply (IH s1); [exact H|exact B| |].
  - assert (D : (a = ResetA \/ a = ResetD) \/ (a <> ResetA /\ a <> ResetD)).
    { destruct a; auto; right; split; discriminate. }
    destruct D as [[->| ->]|[NA ND]]; [injection A as <-; cbn; lia|injection A as <-; cbn in *; lia|].
    destruct (act_sums s a s1 A NA ND) as (da & dd & Z1 & Z2 & E1 & E2).
    rewrite (zero_or_add _ _ _ Z1); lia.
  - assert (D : (a = ResetA \/ a = ResetD) \/ (a <> ResetA /\ a <> ResetD)).
    { destruct a; auto; right; split; discriminate. }
    destruct D as [[->| ->]|[NA ND]]; [injection A as <-; cbn in *; lia|injection A as <-; cbn in *; lia|].
    destruct (act_sums s a s1 A NA ND) as (da & dd & Z1 & Z2 & E1 & E2).
    rewrite (zero_or_add _ _ _ Z2); lia.
Qed.

(** Without resets, they grow alike. *)
Lemma run_counts l : forall s s', run s l = Some s' -> no_reset l -> bytes handed (blocks s') < 2 ^ 64 ->
  allocated s <= bytes handed (blocks s) -> deallocated s <= bytes freed (blocks s) ->
  allocated s' + bytes handed (blocks s) = allocated s + bytes handed (blocks s') /\
  deallocated s' + bytes freed (blocks s) = deallocated s + bytes freed (blocks s').
Proof.
  induction l as [|a l IH]; intros s s' H [NA ND] B Ha Hd; cbn in H; [injection H as <-; auto|].
  destruct (act s a) as [s1|] eqn:A; [|discriminate].
  pose proof (run_grows _ _ _ H) as [G1 G2]. pose proof (freed_handed (blocks s')) as FH.
  destruct (act_sums s a s1 A) as (da & dd & Z1 & Z2 & E1 & E2).
  { intros ->. apply NA. left. reflexivity. }
  { intros ->. apply ND. left. reflexivity. }
  pose proof (zero_or_add _ _ _ Z1 ltac:(lia)) as Q1. pose proof (zero_or_add _ _ _ Z2 ltac:(lia)) as Q2.
  destruct (IH s1 s' H) as [I1 I2]; [|exact B|lia|lia|lia].
  split; [intros X; apply NA; right; exact X|intros X; apply ND; right; exact X].
Qed.

Lemma quiet_live bs : Forall (fun b => k_phase b = Live \/ k_phase b = Gone) bs ->
  bytes handed bs = bytes freed bs + bytes live bs.
Proof.
  induction 1 as [|b bs H F IH]; cbn; [reflexivity|]. unfold handed, freed, live in *.
  destruct H as [->| ->]; lia.
Qed.
Lemma live_le bs : bytes freed bs + bytes live bs <= bytes handed bs.
Proof.
  induction bs as [|b bs IH]; cbn; [lia|]. unfold handed, freed, live in *. destruct (k_phase b); lia.
Qed.
