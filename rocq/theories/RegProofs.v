From Coq Require Import List Arith NArith ZArith Lia Bool Permutation.
From Verif Require Import Base PoolModel PoolSpec PoolProofs RegModel RegSpec.
Import ListNotations.
Local Open Scope nat_scope.

Section RegProofs.
Context {A : Type}.

Lemma pid_eqb_spec a b : reflect (a = b) (pid_eqb a b).
Proof. unfold pid_eqb. destruct (list_eq_dec N.eq_dec a b); constructor; auto. Qed.
Lemma register_in id k reg x j : In (x, j) (register id k reg) <-> (x = id /\ j = k) \/ (x <> id /\ In (x, j) reg).
Proof.
  unfold register. cbn [In]. rewrite filter_In. cbn [fst]. destruct (pid_eqb_spec x id) as [->|N]; split; intros H.
  - destruct H as [H|[_ H]]; [left; inversion H; auto|discriminate].
  - left. destruct H as [[_ ->]|[H _]]; congruence.
  - destruct H as [H|[H _]]; [inversion H; congruence|right; auto].
  - right. destruct H as [[H _]|[_ H]]; [congruence|auto].
Qed.
Lemma register_nodup id k reg : NoDup (map fst reg) -> NoDup (map fst (register id k reg)).
Proof.
  intros H. unfold register. cbn. constructor.
  - rewrite in_map_iff. intros (x & E & I). rewrite filter_In in I. destruct (pid_eqb_spec (fst x) id); cbn in I; intuition; discriminate.
  - induction reg as [|x reg IH]; cbn in *; [constructor|]. inversion H as [|? ? N1 N2]; subst.
    destruct (pid_eqb (fst x) id); cbn; auto. constructor; auto. rewrite in_map_iff in *. intros (y & E & I).
    apply filter_In in I. apply N1. exists y. intuition.
Qed.

Record pool_ok (h : past A) (k : nat) (p : hpool A) (c : pid * nat * nat) : Prop := {
  po_id : h_id p = fst (fst c); po_size : st_size (h_pool p) = snd (fst c); po_buffer : h_buffer p = snd c;
  po_good : good (h_pool p); po_tracks : tracks (h_pool p) (done k h) }.
Record world_ok (h : past A) (w : world A) : Prop := {
  wo_len : length (w_pools w) = length (made h);
  wo_pool : forall k p c, nth_error (w_pools w) k = Some p -> nth_error (made h) k = Some c -> pool_ok h k p c;
  wo_nodup : NoDup (map fst (w_reg w));
  wo_reg : forall id k, In (id, k) (w_reg w) <-> newest h id k;
  wo_done : forall k, length (made h) <= k -> done k h = [] }.

Lemma done_snoc k h x : @done A k (h ++ [x]) = done k h ++ done k [x].
Proof. unfold done. rewrite flat_map_app. cbn. rewrite app_nil_r. reflexivity. Qed.
Lemma made_snoc h x : @made A (h ++ [x]) = made h ++ made [x].
Proof. unfold made. rewrite flat_map_app. cbn. rewrite app_nil_r. reflexivity. Qed.

Lemma world_quiet h w x : world_ok h w -> made [x] = [] -> (forall k, done k [x] = []) -> world_ok (h ++ [x]) w.
Proof.
  intros [L P N R D] Em Ed. constructor.
  - rewrite made_snoc, Em, app_nil_r. auto.
  - intros k p c Hp Hc. rewrite made_snoc, Em, app_nil_r in Hc. destruct (P k p c Hp Hc). constructor; auto. rewrite done_snoc, Ed, app_nil_r. auto.
  - auto.
  - intros id k. rewrite R. unfold newest. rewrite made_snoc, Em, app_nil_r. tauto.
  - intros k. rewrite made_snoc, Em, app_nil_r, done_snoc, Ed, app_nil_r. auto.
Qed.

Lemma world_step h w x : world_ok h w -> world_ok (h ++ [(Op x, Some (snd (wstep w x)))]) (fst (wstep w x)).
Proof.
  intros W. destruct x as [id size esize init|k x]; cbn [wstep].
  - unfold create. destruct (pool_new size init) as [st|] eqn:E; [|apply world_quiet; auto].
    destruct (id_fits id); [|apply world_quiet; auto]. cbn [fst snd].
    destruct W as [L P N R D]. destruct (pool_new_good _ _ _ E) as (G & T & Z).
    assert (B : match st_free st with b :: _ => length (nth b (st_cells st) []) * esize | [] => 0 end = length (init (size - 1)) * esize).
    { assert (X : st = State size (map init (seq 0 size)) (rev (seq 0 size)) []) by (unfold pool_new in E; destruct size; [discriminate|congruence]).
      destruct size as [|n]; [discriminate|]. subst st. unfold st_free, st_cells. rewrite seq_S, rev_app_distr. cbn [rev app].
      rewrite map_app, app_nth2; rewrite map_length, seq_length; [|cbn; lia]. replace (0 + n - n) with 0 by lia. cbn. rewrite Nat.sub_0_r. reflexivity. }
    rewrite B. constructor; cbn [w_pools w_reg].
    + rewrite made_snoc, !app_length, L. reflexivity.
    + intros k p c Hp Hc. rewrite made_snoc in Hc. cbn in Hc. destruct (Nat.lt_ge_cases k (length (w_pools w))) as [K|K].
      * rewrite nth_error_app1 in Hp by lia. rewrite nth_error_app1 in Hc by lia. destruct (P k p c Hp Hc). constructor; auto.
        rewrite done_snoc. cbn. rewrite app_nil_r. auto.
      * rewrite nth_error_app2 in Hp by lia. rewrite nth_error_app2 in Hc by lia. rewrite L in *.
        destruct (k - length (made h)) as [|j] eqn:J; [|destruct j; discriminate].
        injection Hp as <-. injection Hc as <-. constructor; cbn; auto. rewrite done_snoc, D by lia. cbn. exact T.
    + apply register_nodup. auto.
    + intros x k. rewrite register_in, R. unfold newest. rewrite made_snoc. cbn [made flat_map app]. rewrite L. split.
      * intros [[-> ->]|[Nx [(n & b & H1) H2]]].
        -- split. { exists size, (length (init (size - 1)) * esize). rewrite nth_error_app2, Nat.sub_diag; auto. }
           intros j n b J. rewrite (proj2 (nth_error_None _ _)); [discriminate|]. rewrite app_length. cbn. lia.
        -- split. { exists n, b. rewrite nth_error_app1; auto. apply nth_error_Some. congruence. }
           intros j n' b' J. destruct (Nat.lt_ge_cases j (length (made h))) as [Q|Q].
           ++ rewrite nth_error_app1 by auto. auto.
           ++ rewrite nth_error_app2 by auto. destruct (j - length (made h)) as [|i]; [cbn; congruence|destruct i; discriminate].
      * intros [(n & b & H1) H2]. destruct (list_eq_dec N.eq_dec x id) as [->|Nx].
        -- left. split; auto. destruct (Nat.lt_trichotomy k (length (made h))) as [Q|[Q|Q]]; auto.
           ++ exfalso. apply (H2 (length (made h)) size (length (init (size - 1)) * esize) Q). rewrite nth_error_app2, Nat.sub_diag; auto.
           ++ rewrite (proj2 (nth_error_None _ _)) in H1; [discriminate|]. rewrite app_length. cbn. lia.
        -- right. split; auto. assert (Q : k < length (made h)).
           { destruct (Nat.lt_ge_cases k (length (made h))) as [Q|Q]; auto. rewrite nth_error_app2 in H1 by auto.
             destruct (k - length (made h)) as [|i]; [cbn in H1; congruence|destruct i; discriminate]. }
           split. { exists n, b. rewrite nth_error_app1 in H1; auto. }
           intros j n' b' J X. apply (H2 j n' b' J). rewrite nth_error_app1; auto. apply nth_error_Some. congruence.
    + intros k. rewrite made_snoc, app_length, done_snoc. cbn. intros K. rewrite D by lia. reflexivity.
  - destruct (nth_error (w_pools w) k) as [p|] eqn:E; [|apply world_quiet; auto].
    destruct (step (h_pool p) x) as [st o] eqn:S. cbn [fst snd]. destruct W as [L P N R D].
    assert (Em : made [(Op (Use k x), Some (Did o))] = @nil (pid * nat * nat)) by reflexivity.
    assert (Ed : forall j, done j [(Op (Use k x), Some (Did o))] = if k =? j then [(x, o)] else []).
    { intros j. cbn. destruct (k =? j); reflexivity. }
    assert (K : k < length (made h)) by (rewrite <- L; apply nth_error_Some; congruence).
    constructor; cbn [w_pools w_reg].
    + rewrite made_snoc, Em, app_nil_r, upd_length. auto.
    + intros j q c Hq Hc. rewrite made_snoc, Em, app_nil_r in Hc.
      destruct (Nat.eq_dec k j) as [<-|NE].
      * rewrite nth_error_upd_eq in Hq by (rewrite L; auto). injection Hq as <-. destruct (P k p c E Hc) as [P1 P2 P3 P4 P5].
        pose proof (step_good _ x P4) as Q1. pose proof (step_tracks _ _ x P4 P5) as Q2. pose proof (size_step (h_pool p) x) as Q3. rewrite S in *. cbn [fst snd] in *.
        constructor; cbn; auto; try congruence. rewrite done_snoc, Ed, Nat.eqb_refl. auto.
      * rewrite nth_error_upd_neq in Hq by auto. destruct (P j q c Hq Hc). constructor; auto.
        rewrite done_snoc, Ed. destruct (Nat.eqb_spec k j); [contradiction|]. rewrite app_nil_r. auto.
    + auto.
    + intros id j. rewrite R. unfold newest. rewrite made_snoc, Em, app_nil_r. tauto.
    + intros j. rewrite made_snoc, Em, app_nil_r, done_snoc, Ed. intros J. rewrite D by auto.
      destruct (Nat.eqb_spec k j); [lia|reflexivity].
Qed.

Lemma world0_ok : world_ok [] (@world0 A).
Proof.
  constructor; cbn; auto.
  - intros [|k] p c; discriminate.
  - constructor.
  - intros id k. split; [tauto|]. intros [(n & b & H) _]. destruct k; discriminate.
Qed.

(** The statistics. *)
Record stat_ok (h : past A) (s : stat) (k : nat) : Prop := {
  so_made : nth_error (made h) k = Some (s_id s, s_total s, s_buffer s);
  so_left : s_left s + length (in_use (done k h)) = s_total s }.
Lemma reg_pool h w id k : world_ok h w -> In (id, k) (w_reg w) ->
  exists p, nth_error (w_pools w) k = Some p /\ h_id p = id /\ stat_ok h (stat_of p) k.
Proof.
  intros [L P N R D] I. apply R in I. destruct I as [(n & b & H) _].
  destruct (nth_error (w_pools w) k) as [p|] eqn:E.
  - exists p. destruct (P k p _ E H) as [P1 P2 P3 P4 P5]. cbn in *. split; [auto|split; [auto|]]. constructor; cbn; unfold total_size.
    + rewrite H. congruence.
    + apply space_in_use; auto.
  - apply nth_error_None in E. rewrite L in E. apply nth_error_None in E. congruence.
Qed.
Lemma stats_spec h w ord : world_ok h w -> (forall l, Permutation (ord l) l) ->
  Forall2 (fun x s => s_id s = fst x /\ stat_ok h s (snd x)) (ord (w_reg w)) (pools_statistics ord w).
Proof.
  intros W O. unfold pools_statistics.
  assert (F : forall x, In x (ord (w_reg w)) -> In x (w_reg w)) by (intros x; apply Permutation_in, O).
  induction (ord (w_reg w)) as [|[id k] l IH]; cbn; [constructor|].
  destruct (reg_pool h w id k W) as (p & E & I & S); [apply F; left; auto|]. rewrite E. cbn. constructor; [cbn; auto|].
  apply IH. intros x Hx. apply F. right. auto.
Qed.
Lemma f2_map {B C D} (f : B -> D) (g : C -> D) l r (Q : B -> C -> Prop) : (forall x y, Q x y -> g y = f x) -> Forall2 Q l r -> map g r = map f l.
Proof. intros H F. induction F; cbn; f_equal; auto. Qed.
Lemma f2_in {B C} (Q : B -> C -> Prop) l r y : Forall2 Q l r -> In y r -> exists x, In x l /\ Q x y.
Proof. induction 1; cbn; [tauto|]. intros [<-|I]; eauto. destruct (IHForall2 I) as (z & ? & ?). eauto. Qed.
Lemma f2_in_l {B C} (Q : B -> C -> Prop) l r x : Forall2 Q l r -> In x l -> exists y, In y r /\ Q x y.
Proof. induction 1; cbn; [tauto|]. intros [<-|I]; eauto. destruct (IHForall2 I) as (z & ? & ?). eauto. Qed.

Lemma stats_ok h w ord : world_ok h w -> (forall l, Permutation (ord l) l) ->
  NoDup (map s_id (pools_statistics ord w)) /\
  (forall s, In s (pools_statistics ord w) -> exists k, newest h (s_id s) k /\ stat_ok h s k) /\
  (forall id k, newest h id k -> exists s, In s (pools_statistics ord w) /\ s_id s = id /\ stat_ok h s k).
Proof.
  intros W O. pose proof (stats_spec h w ord W O) as F. split; [|split].
  - rewrite (f2_map fst s_id _ _ _ (fun x y Q => proj1 Q) F). apply (Permutation_NoDup (l := map fst (w_reg w))); [|apply (wo_nodup _ _ W)].
    apply Permutation_map. symmetry. apply O.
  - intros s I. destruct (f2_in _ _ _ s F I) as ([id k] & J & E & S). exists k. split; auto. rewrite E. cbn. apply (wo_reg _ _ W). apply (Permutation_in _ (O _)). auto.
  - intros id k Q. apply (wo_reg _ _ W) in Q. apply (Permutation_in _ (Permutation_sym (O _))) in Q.
    destruct (f2_in_l _ _ _ _ F Q) as (s & I & E & S). eauto.
Qed.

(** The table. *)
Definition shows (s : stat) (r : row) : Prop :=
  r_id r = s_id s /\ r_left r = s_left s /\ r_total r = s_total s /\ r_in_use r + s_left s = s_total s.
Record table_ok (h : past A) (rows : list row) : Prop := {
  to_nodup : NoDup (map r_id rows);
  to_row : forall r, In r rows -> r_in_use r + r_left r = r_total r /\ exists k n, nth_error (made h) k = Some (r_id r, n, r_buffer r) }.

Lemma put_ok now s rows : s_left s <= s_total s -> NoDup (map r_id rows) -> exists rows', put now s rows = Ret rows' /\
  NoDup (map r_id rows') /\ (forall id, In id (map r_id rows') <-> id = s_id s \/ In id (map r_id rows)) /\
  (forall r, In r rows' -> (shows s r /\ (r_buffer r = s_buffer s \/ exists r0, In r0 rows /\ r_id r0 = r_id r /\ r_buffer r0 = r_buffer r)) \/ (In r rows /\ r_id r <> s_id s)).
Proof.
  intros Le. assert (S : sub (s_total s) (s_left s) = Ret (s_total s - s_left s)).
  { unfold sub. destruct (Nat.leb_spec (s_left s) (s_total s)); [auto|lia]. }
  induction rows as [|r rows IH]; intros N; cbn [put].
  - unfold row_new. rewrite S. cbn. eexists. split; [reflexivity|]. cbn. split; [repeat constructor; auto|]. split; [intuition|].
    intros r [<-|[]]. left. unfold shows. cbn. split; [repeat split; lia|auto].
  - inversion N as [|? ? N1 N2]; subst. destruct (pid_eqb_spec (r_id r) (s_id s)) as [E|E].
    + unfold row_update. rewrite S. cbn. eexists. split; [reflexivity|]. cbn. split; [auto|]. split; [intros id; rewrite E; intuition|].
      intros q [<-|I]. { left. unfold shows. cbn. split; [repeat split; auto; lia|]. right. exists r. auto. }
      right. split; auto. intros X. apply N1. rewrite E, <- X. apply in_map. auto.
    + destruct (IH N2) as (rows' & -> & M1 & M2 & M3). cbn. eexists. split; [reflexivity|]. cbn. split; [|split].
      * constructor; auto. rewrite M2. intros [X|X]; contradiction.
      * intros id. rewrite M2. intuition.
      * intros q [<-|I]; [right; auto|]. destruct (M3 q I) as [[X Y]|[X Y]]; [left|right; auto]. split; auto.
        destruct Y as [Y|(r0 & Y1 & Y2)]; [auto|right; exists r0; auto].
Qed.
Lemma puts_ok now l : forall rows, (forall s, In s l -> s_left s <= s_total s) -> NoDup (map s_id l) -> NoDup (map r_id rows) ->
  exists rows', puts now l rows = Ret rows' /\ NoDup (map r_id rows') /\
  (forall id, In id (map r_id rows') <-> In id (map s_id l) \/ In id (map r_id rows)) /\
  (forall r, In r rows' -> (exists s, In s l /\ shows s r /\ (r_buffer r = s_buffer s \/ exists r0, In r0 rows /\ r_id r0 = r_id r /\ r_buffer r0 = r_buffer r)) \/
                           (In r rows /\ ~ In (r_id r) (map s_id l))).
Proof.
  induction l as [|s l IH]; intros rows Le Nl N; cbn [puts].
  - exists rows. cbn. intuition.
  - inversion Nl as [|? ? L1 L2]; subst. destruct (put_ok (now (s_id s)) s rows) as (rows1 & -> & A1 & A2 & A3); [apply Le; left; auto|auto|].
    cbn [obind]. destruct (IH rows1) as (rows2 & -> & B1 & B2 & B3); [intros; apply Le; right; auto|auto|auto|].
    exists rows2. split; auto. split; auto. split.
    + intros id. rewrite B2, A2. cbn. intuition.
    + intros r I. destruct (B3 r I) as [(t & T1 & T2 & T3)|[T1 T2]].
      * left. exists t. split; [right; auto|split; auto]. destruct T3 as [T3|(r0 & T3 & T4 & T5)]; auto. right.
        destruct (A3 r0 T3) as [[X Y]|[X Y]]; [|exists r0; auto].
        exfalso. apply L1. destruct X as (X & _). destruct T2 as (T2 & _). rewrite <- X, T4, T2. apply in_map. auto.
      * destruct (A3 r T1) as [[X Y]|[X Y]]; [left; exists s; split; [left; auto|auto]|right]. split; auto.
        cbn. intros [Z|Z]; [apply Y; auto|contradiction].
Qed.

Lemma table_quiet h rows x : table_ok h rows -> table_ok (h ++ [x]) rows.
Proof.
  intros [N R]. constructor; auto. intros r I. destruct (R r I) as (H & k & n & K). split; auto. exists k, n.
  rewrite made_snoc, nth_error_app1; auto. apply nth_error_Some. congruence.
Qed.
Lemma newest_in (l : list (pid * nat * nat)) id : forall k n b, nth_error l k = Some (id, n, b) ->
  exists j, (exists n b, nth_error l j = Some (id, n, b)) /\ forall i n b, j < i -> nth_error l i <> Some (id, n, b).
Proof.
  induction l as [|[[x n0] b0] l IH] using rev_ind; intros k n b H; [destruct k; discriminate|].
  destruct (list_eq_dec N.eq_dec x id) as [->|Ne].
  - exists (length l). split; [exists n0, b0; rewrite nth_error_app2, Nat.sub_diag; auto|]. intros i n' b' I X.
    rewrite (proj2 (nth_error_None _ _)) in X; [discriminate|]. rewrite app_length. cbn. lia.
  - assert (Out : forall i n b, nth_error (l ++ [(x, n0, b0)]) i = Some (id, n, b) -> nth_error l i = Some (id, n, b)).
    { intros i n' b' X. destruct (Nat.lt_ge_cases i (length l)); [rewrite nth_error_app1 in X; auto|]. rewrite nth_error_app2 in X by auto.
      destruct (i - length l) as [|[|?]]; cbn in X; congruence. }
    destruct (IH _ _ _ (Out _ _ _ H)) as (j & (n' & b' & J1) & J2). exists j. split.
    + exists n', b'. rewrite nth_error_app1; auto. apply nth_error_Some. congruence.
    + intros i n2 b2 I X. apply (J2 i n2 b2 I). auto.
Qed.
Lemma update_ok h w rows ord now : world_ok h w -> table_ok h rows -> (forall l, Permutation (ord l) l) ->
  exists rows', puts now (pools_statistics ord w) rows = Ret rows' /\ table_ok h rows' /\
    (forall id, In id (map r_id rows') <-> exists k n b, nth_error (made h) k = Some (id, n, b)) /\
    (forall r, In r rows' -> exists k b, newest h (r_id r) k /\ nth_error (made h) k = Some (r_id r, r_total r, b) /\ r_in_use r = length (in_use (done k h))).
Proof.
  intros W [TN TR] O. destruct (stats_ok h w ord W O) as (N & S1 & S2).
  assert (New : forall id k n b, nth_error (made h) k = Some (id, n, b) -> exists j, newest h id j).
  { intros id k n b H. unfold newest. eapply newest_in; eauto. }
  destruct (puts_ok now (pools_statistics ord w) rows) as (rows' & E & R1 & R2 & R3); auto.
  { intros s I. destruct (S1 s I) as (k & _ & K). pose proof (so_left _ _ _ K). lia. }
  assert (Ids : forall id, In id (map s_id (pools_statistics ord w)) <-> exists k n b, nth_error (made h) k = Some (id, n, b)).
  { intros id. rewrite in_map_iff. split.
    - intros (s & <- & I). destruct (S1 s I) as (k & _ & K). exists k. rewrite (so_made _ _ _ K). eauto.
    - intros (k & n & b & H). destruct (New _ _ _ _ H) as [j J]. destruct (S2 _ _ J) as (s & I & Z & _). eauto. }
  exists rows'. split; auto.
  assert (Rows : forall r, In r rows' -> exists s k, In s (pools_statistics ord w) /\ newest h (s_id s) k /\ stat_ok h s k /\ shows s r /\
    (r_buffer r = s_buffer s \/ exists r0, In r0 rows /\ r_id r0 = r_id r /\ r_buffer r0 = r_buffer r)).
  { intros r I. destruct (R3 r I) as [(s & Is & Sh & B)|[I0 No]].
    - destruct (S1 s Is) as (k & K1 & K2). exists s, k. auto.
    - exfalso. apply No. apply Ids. destruct (TR r I0) as (_ & k & n & K). eauto. }
  split; [|split].
  - constructor; auto. intros r I. destruct (Rows r I) as (s & k & Is & K1 & K2 & (H1 & H2 & H3 & H4) & B). split; [rewrite H2, H3; auto|].
    destruct B as [->|(r0 & I0 & Ei & <-)].
    + exists k. rewrite (so_made _ _ _ K2), H1. eauto.
    + destruct (TR r0 I0) as (_ & j & n & J). rewrite <- Ei. eauto.
  - intros id. rewrite R2, Ids. split; [|auto]. intros [H|H]; auto. apply in_map_iff in H. destruct H as (r & <- & I). destruct (TR r I) as (_ & k & n & K). eauto.
  - intros r I. destruct (Rows r I) as (s & k & Is & K1 & K2 & (H1 & H2 & H3 & H4) & _). exists k, (s_buffer s). rewrite H1, H3.
    split; auto. split; [apply (so_made _ _ _ K2)|]. pose proof (so_left _ _ _ K2). lia.
Qed.

Lemma estep_ok h d e : world_ok h (fst d) -> table_ok h (snd d) -> fair e ->
  exists d' o, estep d e = Ret (d', o) /\ world_ok (h ++ [(e, o)]) (fst d') /\ table_ok (h ++ [(e, o)]) (snd d').
Proof.
  intros W T F. destruct e as [x|ord now]; cbn [estep].
  - destruct (wstep (fst d) x) as [w o] eqn:E. eexists _, _. split; [reflexivity|]. cbn. split; [|apply table_quiet; auto].
    pose proof (world_step _ _ x W) as Q. rewrite E in Q. auto.
  - destruct (update_ok h (fst d) (snd d) ord now W T F) as (rows & -> & Q & _). cbn. eexists _, _. split; [reflexivity|]. cbn.
    split; [apply world_quiet; auto|apply table_quiet; auto].
Qed.
Lemma erun_ok l : forall h d, world_ok h (fst d) -> table_ok h (snd d) -> Forall fair l ->
  exists d' os, erun d l = Ret (d', os) /\ world_ok (h ++ combine l os) (fst d') /\ table_ok (h ++ combine l os) (snd d') /\ length os = length l.
Proof.
  induction l as [|e l IH]; intros h d W T F; cbn [erun].
  - exists d, []. cbn. rewrite app_nil_r. auto.
  - inversion F as [|? ? F1 F2]; subst. destruct (estep_ok h d e W T F1) as (d1 & o & -> & W1 & T1). cbn [obind].
    destruct (IH _ d1 W1 T1 F2) as (d2 & os & -> & W2 & T2 & Lo). cbn. eexists _, _. split; [reflexivity|]. cbn.
    rewrite <- app_assoc in W2, T2. auto.
Qed.
Lemma table0_ok : table_ok (@nil (event A * option (wout A))) [].
Proof. constructor; [constructor|intros r []]. Qed.
Lemma reaches_ok l h d : Forall fair l -> reaches l h d -> world_ok h (fst d) /\ table_ok h (snd d).
Proof.
  intros F (os & E & ->). destruct (erun_ok l [] (world0, []) world0_ok table0_ok F) as (d' & os' & E' & W & T & _).
  rewrite E in E'. injection E' as <- <-. auto.
Qed.
End RegProofs.
