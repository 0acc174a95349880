(** Proofs about sorting point clouds. *)
From Coq Require Import List Arith NArith Bool Lia Permutation FinFun.
From Verif Require Import Base CloudModel.
Import ListNotations.
Local Open Scope nat_scope.

Section Proofs.
Context {V : Type} (d : V) (n : nat).
Implicit Types c : cloud V.
(** The arrays have room for [n] points. *)
Definition room c : Prop :=
  length (c_tov c) = n /\ length (c_x c) = n /\ length (c_y c) = n /\ length (c_z c) = n /\ length (c_i c) = n /\ length (c_order c) = n.
Definition at_ c (k : nat) := fst (point d c k).
Definition key c (k : nat) : N := fst (at_ c k).

(** [c'] is [c] with the points between [lo] and [hi] permuted, except for their order of
    return. *)
Definition moved (lo hi : nat) c c' : Prop :=
  room c' /\ c_order c' = c_order c /\ c_len c' = c_len c /\
  exists f, (forall k, k < n -> f k < n) /\ (forall k l, k < n -> l < n -> f k = f l -> k = l) /\
    (forall k, lo <= k <= hi -> lo <= f k <= hi) /\ (forall k, ~ (lo <= k <= hi) -> f k = k) /\
    forall k, k < n -> at_ c' k = at_ c (f k).
Lemma moved_refl lo hi c : room c -> moved lo hi c c.
Proof. intros R. split; [auto|]. split; [auto|]. split; [auto|]. exists (fun k => k). repeat split; auto; lia. Qed.
Lemma moved_trans lo hi a b c : moved lo hi a b -> moved lo hi b c -> moved lo hi a c.
Proof.
  intros (R1 & O1 & L1 & f & F1 & I1 & B1 & U1 & E1) (R2 & O2 & L2 & g & F2 & I2 & B2 & U2 & E2).
  split; [auto|]. split; [congruence|]. split; [congruence|]. exists (fun k => f (g k)). split; [auto|]. split; [auto|]. split; [auto|]. split.
  - intros k Hk. rewrite (U2 k Hk). auto.
  - intros k Hk. rewrite E2, E1; auto.
Qed.
Lemma moved_wider lo hi lo' hi' a b : lo' <= lo -> hi <= hi' -> moved lo hi a b -> moved lo' hi' a b.
Proof.
  intros H1 H2 (R1 & O1 & L1 & f & F1 & I1 & B1 & U1 & E1). split; [auto|]. split; [auto|]. split; [auto|]. exists f. split; [auto|]. split; [auto|]. split; [|split; [|auto]].
  - intros k Hk. destruct (le_lt_dec lo k), (le_lt_dec k hi); try (rewrite U1 by lia; lia). specialize (B1 k ltac:(lia)). lia.
  - intros k Hk. apply U1. lia.
Qed.
Lemma slice_swap_ok {X} a b (l : list X) (e : X) : a < length l -> b < length l -> exists l', slice_swap a b l = Ret l' /\ length l' = length l /\
  forall k, nth k l' e = nth (if k =? a then b else if k =? b then a else k) l e.
Proof.
  intros Ha Hb. unfold slice_swap. rewrite (nth_error_nth' l e Ha), (nth_error_nth' l e Hb). eexists. split; [reflexivity|].
  assert (N0 : forall (l : list X) i j v, j < length l -> nth i (upd j v l) e = if i =? j then v else nth i l e).
  { clear. induction l as [|x l IH]; intros [|i] [|j] v H; cbn in *; auto; try lia. apply IH. lia. }
  split; [rewrite !upd_length; reflexivity|]. intros k. rewrite N0 by (rewrite upd_length; auto). rewrite N0 by auto.
  destruct (Nat.eqb_spec k b), (Nat.eqb_spec k a); subst; auto. 
Qed.
Lemma swap_ok lo hi a b c : room c -> a < n -> b < n -> lo <= a <= hi -> lo <= b <= hi -> exists c', swap a b c = Ret c' /\ moved lo hi c c' /\
  forall k, at_ c' k = at_ c (if k =? a then b else if k =? b then a else k).
Proof.
  intros R Ha Hb Ra Rb. destruct R as (L1 & L2 & L3 & L4 & L5 & L6). unfold swap.
  destruct (slice_swap_ok a b (c_tov c) 0%N) as (t & Et & Lt & Nt); try lia. rewrite Et. cbn [obind].
  destruct (slice_swap_ok a b (c_x c) d) as (x & Ex & Lx & Nx); try lia. rewrite Ex. cbn [obind].
  destruct (slice_swap_ok a b (c_y c) d) as (y & Ey & Ly & Ny); try lia. rewrite Ey. cbn [obind].
  destruct (slice_swap_ok a b (c_z c) d) as (z & Ez & Lz & Nz); try lia. rewrite Ez. cbn [obind].
  destruct (slice_swap_ok a b (c_i c) d) as (i & Ei & Li & Ni); try lia. rewrite Ei. cbn [obind].
  eexists. split; [reflexivity|].
  assert (P : forall k, at_ (Cloud t x y z i (c_order c) (c_len c)) k = at_ c (if k =? a then b else if k =? b then a else k)).
  { intros k. unfold at_, point. cbn [c_tov c_x c_y c_z c_i fst]. rewrite Nt, Nx, Ny, Nz, Ni. reflexivity. }
  split; [|exact P]. split; [|split; [reflexivity|split; [reflexivity|]]].
  - unfold room. cbn. repeat split; lia.
  - exists (fun k => if k =? a then b else if k =? b then a else k). split; [|split; [|split; [|split]]].
    + intros k Hk. destruct (k =? a), (k =? b); auto.
    + intros k l Hk Hl. destruct (Nat.eqb_spec k a), (Nat.eqb_spec k b), (Nat.eqb_spec l a), (Nat.eqb_spec l b); subst; intros; auto; try congruence.
    + intros k Hk. destruct (k =? a), (k =? b); auto.
    + intros k Hk. destruct (Nat.eqb_spec k a), (Nat.eqb_spec k b); subst; auto; lia.
    + intros k _. apply P.
Qed.
Lemma tov_key c k : room c -> k < n -> nth_error (c_tov c) k = Some (key c k).
Proof. intros (L & _) H. rewrite (nth_error_nth' _ 0%N) by lia. reflexivity. Qed.
Lemma partition_loop_ok m pivot lo hi : forall j i c, room c -> j + m = hi -> hi < n -> lo <= i <= j ->
  (forall k, lo <= k < i -> (key c k <= pivot)%N) -> (forall k, i <= k < j -> (pivot < key c k)%N) -> key c hi = pivot ->
  exists i' c', partition_loop m pivot j i c = Ret (i', c') /\ moved lo hi c c' /\ lo <= i' <= hi /\
    (forall k, lo <= k < i' -> (key c' k <= pivot)%N) /\ (forall k, i' <= k < hi -> (pivot < key c' k)%N) /\ key c' hi = pivot.
Proof.
  induction m as [|m IH]; intros j i c R E H Hi A B K; cbn [partition_loop].
  - exists i, c. replace hi with j by lia. split; [reflexivity|]. split; [apply moved_refl; auto|]. repeat split; auto; try lia. replace j with hi by lia. auto.
  - rewrite (tov_key c j R) by lia. destruct (N.leb_spec (key c j) pivot).
    + destruct (swap_ok lo hi i j c R) as (c1 & E1 & M1 & P1); try lia. rewrite E1. cbn [obind].
      assert (R1 : room c1) by apply M1.
      destruct (IH (j + 1) (i + 1) c1) as (i' & c' & E2 & M2 & Hi' & A' & B' & K'); auto; try lia.
      * intros k Hk. unfold key. rewrite P1. destruct (Nat.eqb_spec k i); [fold (key c j); auto|]. destruct (Nat.eqb_spec k j); [lia|]. apply A. lia.
      * intros k Hk. unfold key. rewrite P1. destruct (Nat.eqb_spec k i); [lia|]. destruct (Nat.eqb_spec k j); [apply B; lia|apply B; lia].
      * unfold key. rewrite P1. destruct (Nat.eqb_spec hi i); [lia|]. destruct (Nat.eqb_spec hi j); [lia|]. exact K.
      * exists i', c'. split; [exact E2|]. split; [eapply moved_trans; eauto|]. auto.
    + destruct (IH (j + 1) i c) as (i' & c' & E2 & M2 & Hi' & A' & B' & K'); auto; try lia.
      * intros k Hk. destruct (Nat.eq_dec k j); [subst; auto|apply B; lia].
      * exists i', c'. auto 10.
Qed.
Lemma partition_ok lo hi c : room c -> lo < hi -> hi < n -> exists p c', partition lo hi c = Ret (p, c') /\ moved lo hi c c' /\ lo <= p <= hi /\
  (forall k, lo <= k < p -> (key c' k <= key c' p)%N) /\ (forall k, p < k <= hi -> (key c' p < key c' k)%N).
Proof.
  intros R L H. unfold partition. rewrite (tov_key c hi R H).
  destruct (partition_loop_ok (hi - lo) (key c hi) lo hi lo lo c R) as (p & c1 & E & M & Hp & A & B & K); try lia; auto.
  rewrite E. cbn [obind]. assert (R1 : room c1) by apply M. destruct (swap_ok lo hi p hi c1 R1) as (c2 & E2 & M2 & P2); try lia.
  rewrite E2. cbn [obind]. exists p, c2. split; [reflexivity|]. split; [eapply moved_trans; eauto|]. split; [lia|].
  assert (Kp : key c2 p = key c hi) by (unfold key; rewrite P2, Nat.eqb_refl; exact K).
  split; intros k Hk; rewrite Kp; unfold key; rewrite P2.
  - destruct (Nat.eqb_spec k p); [lia|]. destruct (Nat.eqb_spec k hi); [lia|]. apply A. lia.
  - destruct (Nat.eqb_spec k p); [lia|]. destruct (Nat.eqb_spec k hi); [apply B; lia|apply B; lia].
Qed.
Definition sorted (lo hi : nat) c : Prop := forall k l, lo <= k -> k <= l -> l <= hi -> (key c k <= key c l)%N.
Lemma moved_key lo hi c c' (P : N -> Prop) : hi < n -> moved lo hi c c' -> (forall k, lo <= k <= hi -> P (key c k)) -> forall k, lo <= k <= hi -> P (key c' k).
Proof.
  intros Hn (_ & _ & _ & f & F & I0 & B & U & E) H k Hk. unfold key. rewrite E by lia. apply H. apply B. auto.
Qed.
Lemma moved_out lo hi c c' k : moved lo hi c c' -> ~ (lo <= k <= hi) -> k < n -> key c' k = key c k.
Proof. intros (_ & _ & _ & f & F & I0 & B & U & E) H Hk. unfold key. rewrite E, U; auto. Qed.
Lemma quicksort_ok fuel : forall lo hi c, room c -> hi < n -> hi - lo < fuel -> exists c', quicksort fuel lo hi c = Some (Ret c') /\
  moved lo hi c c' /\ sorted lo hi c'.
Proof.
  induction fuel as [|fuel IH]; intros lo hi c R H Hf; [lia|]. cbn [quicksort]. destruct (Nat.ltb_spec lo hi).
  2: { exists c. split; [reflexivity|]. split; [apply moved_refl; auto|]. intros k l H1 H2 H3. replace l with k by lia. lia. }
  destruct (partition_ok lo hi c R) as (p & c1 & E & M & Hp & A & B); auto. rewrite E.
  assert (R1 : room c1) by apply M.
  assert (X : exists c2, (if 0 <? p then quicksort fuel lo (p - 1) c1 else Some (Ret c1)) = Some (Ret c2) /\ moved lo (p - 1) c1 c2 /\ (lo < p -> sorted lo (p - 1) c2)).
  { destruct (Nat.ltb_spec 0 p).
    - destruct (IH lo (p - 1) c1) as (c2 & E2 & M2 & S2); auto; try lia. eauto 10.
    - exists c1. split; [reflexivity|]. split; [apply moved_refl; auto|lia]. }
  destruct X as (c2 & E2 & M2 & S2). rewrite E2. assert (R2 : room c2) by apply M2.
  destruct (Nat.eq_dec p hi) as [->|Np].
  - exists c2. destruct fuel as [|fuel]; [lia|]. cbn [quicksort]. rewrite (proj2 (Nat.ltb_ge _ _)) by lia. split; [reflexivity|]. 
    assert (M2' : moved lo hi c1 c2) by (eapply moved_wider; [| |exact M2]; lia). split; [eapply moved_trans; eauto|].
    intros k l H1 H2 H3. destruct (Nat.eq_dec l hi) as [->|]; [|apply S2; lia]. destruct (Nat.eq_dec k hi) as [->|]; [lia|].
    rewrite (moved_out _ _ _ _ hi M2) by lia. apply (moved_key lo (hi - 1) c1 c2 (fun v => (v <= key c1 hi)%N)); auto; try lia. intros; apply A; lia.
  - destruct (IH (p + 1) hi c2) as (c3 & E3 & M3 & S3); auto; try lia. exists c3. split; [exact E3|].
    assert (M2' : moved lo hi c1 c2) by (eapply moved_wider; [| |exact M2]; lia).
    assert (M3' : moved lo hi c2 c3) by (eapply moved_wider; [| |exact M3]; lia).
    split; [eapply moved_trans; [exact M|]; eapply moved_trans; eauto|].
    assert (Kp : key c3 p = key c1 p).
    { rewrite (moved_out _ _ _ _ p M3) by lia. destruct (Nat.eq_dec p 0) as [->|].
      - destruct (Nat.ltb_spec 0 0); [lia|]. injection E2 as <-. reflexivity.
      - apply (moved_out _ _ _ _ p M2); lia. }
    assert (Low : forall k, lo <= k < p -> (key c3 k <= key c1 p)%N).
    { intros k Hk. rewrite (moved_out _ _ _ _ k M3) by lia. apply (moved_key lo (p - 1) c1 c2 (fun v => (v <= key c1 p)%N)); auto; try lia. intros; apply A; lia. }
    assert (High : forall k, p + 1 <= k <= hi -> (key c1 p < key c3 k)%N).
    { apply (moved_key (p + 1) hi c2 c3 (fun v => (key c1 p < v)%N)); auto. intros k Hk.
      destruct (Nat.eq_dec p 0) as [->|].
      - destruct (Nat.ltb_spec 0 0); [lia|]. injection E2 as <-. apply B. lia.
      - rewrite (moved_out _ _ _ _ k M2) by lia. apply B. lia. }
    intros k l H1 H2 H3. destruct (Nat.lt_trichotomy k p) as [Lk|[->|Lk]]; destruct (Nat.lt_trichotomy l p) as [Ll|[->|Ll]]; try lia.
    + rewrite (moved_out _ _ _ _ k M3), (moved_out _ _ _ _ l M3) by lia. apply S2; lia.
    + rewrite Kp. auto.
    + assert (key c3 k <= key c1 p)%N by auto. assert (key c1 p < key c3 l)%N by (apply High; lia). lia.
    + rewrite Kp. assert (key c1 p < key c3 l)%N by (apply High; lia). lia.
    + apply S3; lia.
Qed.
Lemma moved_permutation lo hi c c' : hi < n -> moved lo hi c c' -> Permutation (map (at_ c) (seq 0 n)) (map (at_ c') (seq 0 n)).
Proof.
  intros Hn (_ & _ & _ & f & F & I0 & B & U & E). apply (Permutation_nth _ _ (at_ c 0)). rewrite !map_length, !seq_length. split; [reflexivity|].
  exists f. split; [exact F|]. split; [exact I0|]. intros k Hk.
  rewrite (nth_indep _ (at_ c 0) (at_ c' 0)) by (rewrite map_length, seq_length; auto). rewrite map_nth, seq_nth by auto. cbn [Nat.add].
  rewrite map_nth. rewrite seq_nth by (apply F; auto). cbn [Nat.add]. auto.
Qed.
End Proofs.
