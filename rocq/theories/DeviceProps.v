(** C173: data copied to a device pool and back. *)
From Coq Require Import List Arith Bool Lia Permutation.
From Verif Require Import Base PoolModel PoolSpec PoolProofs DeviceModel.
Import ListNotations.
Local Open Scope nat_scope.

(** * Specification *)
Section Spec.
Context {A : Type}.
(** The number of live clones of device handle [d], by the history of the program. *)
Definition dcount (d : nat) (n : nat) (x : gop A * out A) : nat :=
  match x with
  | (GClone b, _) => if (d =? b) && negb (n =? 0) then n + 1 else n
  | (GDrop b, _) => if d =? b then n - 1 else n
  | (GAcquire, Handle b) | (ToDevice _, Handle b) => if d =? b then 1 else n
  | _ => n
  end.
Definition dlive (h : list (gop A * out A)) (d : nat) : nat := fold_left (dcount d) h 0.
(** Device handles ever given, in order. *)
Definition dgiven (h : list (gop A * out A)) : list nat :=
  flat_map (fun x => match x with (GAcquire, Handle b) | (ToDevice _, Handle b) => [b] | _ => [] end) h.
Definition din_use (h : list (gop A * out A)) : list nat := filter (fun d => negb (dlive h d =? 0)) (dgiven h).
(** A program on a fresh device pool beside a fresh host pool, and its history. *)
Definition gruns (zero : A) (size len : nat) (host : state A) (l : list (gop A)) (h : list (gop A * out A)) (g : gpu A) : Prop :=
  exists outs, gsteps (Gpu host (dev_new zero size len)) l = (g, outs) /\ h = combine l outs.
(** An operation that fails while it holds the lock of device handle [d]. *)
Definition spoils (d : nat) (x : gop A * out A) : bool :=
  match x with
  | (GLook b, Panicked) => b =? d
  | (ToHost b _, Panicked) => b =? d
  | _ => false
  end.
(** What a host handle shows. *)
Definition shows (g : gpu A) (a : nat) (c : list A) : Prop := snd (step (g_host g) (Read a)) = Contents c.
End Spec.

(** * Proofs *)
Section Proofs.
Context {A : Type}.
Implicit Types (st : state A) (g : gpu A) (h : list (gop A * out A)).
Definition holds st b (c : list A) : Prop :=
  exists y, nth_error (st_arcs st) b = Some y /\ a_count y <> 0 /\ a_poisoned y = false /\ nth_error (st_cells st) (a_cell y) = Some c.
Record dinv (size len : nat) g h : Prop := {
  d_dev : good (g_dev g);
  d_host : good (g_host g);
  d_size : st_size (g_dev g) = size;
  d_len : Forall (fun c => length c = len) (st_cells (g_dev g));
  d_pooled : forall d x, nth_error (st_arcs (g_dev g)) d = Some x -> a_pooled x = true;
  d_live : forall d, dlive h d = match nth_error (st_arcs (g_dev g)) d with Some x => a_count x | None => 0 end;
  d_given : NoDup (dgiven h);
  d_range : forall d, In d (dgiven h) -> d < length (st_arcs (g_dev g));
  d_busy : forall d, dlive h d <> 0 -> In d (dgiven h) }.

Lemma dlive_snoc h x d : dlive (h ++ [x]) d = dcount d (dlive h d) x.
Proof. unfold dlive. rewrite fold_left_app. reflexivity. Qed.
Lemma dgiven_snoc h x : dgiven (h ++ [x]) = dgiven h ++ dgiven [x].
Proof. unfold dgiven. rewrite flat_map_app. reflexivity. Qed.
Lemma memcpy_len (src dst c : list A) : memcpy src dst = Some c -> length c = length dst.
Proof. unfold memcpy. destruct (Nat.leb_spec (length src) (length dst)); [|discriminate]. intros E; injection E as <-. rewrite app_length, skipn_length. lia. Qed.
Lemma poison_good st a x : good st -> nth_error (st_arcs st) a = Some x -> good (poison st a x).
Proof. intros G H. apply (good_set st a x); auto. Qed.
Lemma acquired_arc st st1 k : acquire st = (st1, Some k) -> exists b free, st_free st = b :: free /\ k = length (st_arcs st) /\ st1 = State (st_size st) (st_cells st) free (st_arcs st ++ [Arc 1 b true false]).
Proof. unfold acquire. destruct (st_free st) as [|b free]; [discriminate|]. intros E; injection E as <- <-. eauto. Qed.
Lemma new_drop_good st b free : good st -> st_free st = b :: free ->
  good (State (st_size st) (st_cells st) (b :: free) (st_arcs st ++ [Arc 0 b true false])).
Proof.
  intros G F. assert (E : acquire st = (State (st_size st) (st_cells st) free (st_arcs st ++ [Arc 1 b true false]), Some (length (st_arcs st)))) by (unfold acquire; rewrite F; reflexivity).
  destruct (good_acquire _ _ _ G E) as [G1 _].
  assert (X : nth_error (st_arcs st ++ [Arc 1 b true false]) (length (st_arcs st)) = Some (Arc 1 b true false)) by (rewrite nth_error_app2, Nat.sub_diag by lia; reflexivity).
  pose proof (good_drop _ _ _ G1 X ltac:(discriminate)) as G2. unfold drop_handle, set_arc in G2. cbn in G2.
  replace (upd (length (st_arcs st)) (Arc 0 b true false) (st_arcs st ++ [Arc 1 b true false])) with (st_arcs st ++ [Arc 0 b true false]) in G2; [exact G2|].
  clear. induction (st_arcs st) as [|z l IH]; cbn; [reflexivity|]. rewrite IH. reflexivity.
Qed.
Lemma drop_new st b free : drop_handle (State (st_size st) (st_cells st) free (st_arcs st ++ [Arc 1 b true false])) (length (st_arcs st)) (Arc 1 b true false) =
  State (st_size st) (st_cells st) (b :: free) (st_arcs st ++ [Arc 0 b true false]).
Proof.
  unfold drop_handle, set_arc. cbn. f_equal. induction (st_arcs st) as [|z l IH]; cbn; [reflexivity|]. rewrite IH. reflexivity.
Qed.
Lemma new_arc st b : nth_error (st_arcs st ++ [Arc 1 b true false]) (length (st_arcs st)) = Some (Arc 1 b true false).
Proof. rewrite nth_error_app2, Nat.sub_diag by lia. reflexivity. Qed.

Definition count_of st d : nat := match nth_error (st_arcs st) d with Some x => a_count x | None => 0 end.
Lemma usable_count st d : usable st d = None <-> count_of st d = 0.
Proof. unfold usable, count_of. destruct (nth_error (st_arcs st) d) as [x|]; [|tauto]. destruct (a_count x); split; auto; discriminate. Qed.

Lemma NoDup_app_snoc (l : list nat) x : NoDup l -> ~ In x l -> NoDup (l ++ [x]).
Proof. intros H N. apply (Permutation_NoDup (l := x :: l)); [apply Permutation_cons_append|constructor; assumption]. Qed.
Lemma NoDup_app_disjoint (l m : list nat) x : NoDup (l ++ m) -> In x l -> In x m -> False.
Proof. induction l as [|y l IH]; intros H K J; [destruct K|]. inversion H; subst. destruct K as [->|K]; [apply H2, in_or_app; auto|auto]. Qed.
(** The device pool as changed by one operation. *)
Inductive deffect st : gop A -> out A -> state A -> Prop :=
| de_same x o : dgiven [(x, o)] = [] -> (forall d, dcount d (count_of st d) (x, o) = count_of st d) -> deffect st x o st
| de_poison x o d y : dgiven [(x, o)] = [] -> (forall d n, dcount d n (x, o) = n) -> nth_error (st_arcs st) d = Some y -> spoils d (x, o) = true -> deffect st x o (poison st d y)
| de_clone d y o : nth_error (st_arcs st) d = Some y -> a_count y <> 0 -> deffect st (GClone d) o (set_arc st d (Arc (a_count y + 1) (a_cell y) (a_pooled y) (a_poisoned y)))
| de_drop d y o : nth_error (st_arcs st) d = Some y -> a_count y <> 0 -> deffect st (GDrop d) o (drop_handle st d y)
| de_new x b free : st_free st = b :: free -> (x = GAcquire \/ exists a, x = ToDevice a) -> forall cells, (cells = st_cells st \/ exists c c0, nth_error (st_cells st) b = Some c0 /\ length c = length c0 /\ cells = upd b c (st_cells st)) ->
    deffect st x (Handle (length (st_arcs st))) (State (st_size st) cells free (st_arcs st ++ [Arc 1 b true false]))
| de_undone a b free : st_free st = b :: free -> deffect st (ToDevice a) Panicked (State (st_size st) (st_cells st) (b :: free) (st_arcs st ++ [Arc 0 b true false])).
Lemma gstep_effect g x g' o : gstep g x = (g', o) -> deffect (g_dev g) x o (g_dev g').
Proof.
  destruct g as [host dev]. destruct x as [x| |d|d|d|a|d a]; cbn [gstep g_host g_dev].
  - destruct (step host x) as [h1 o1]. intros E; injection E as <- <-. apply de_same; reflexivity.
  - cbn [step]. destruct (acquire dev) as [d1 r] eqn:Q. intros E; injection E as <- <-. destruct r as [k|].
    + destruct (acquired_arc _ _ _ Q) as (b & free & F & -> & ->). eapply de_new; eauto.
    + unfold acquire in Q. destruct (st_free dev) eqn:F; [|discriminate]. injection Q as <-. apply de_same; reflexivity.
  - cbn [step]. destruct (usable dev d) as [y|] eqn:U; intros E; injection E as <- <-.
    + apply usable_some in U. destruct U. cbn. apply de_clone; auto.
    + apply usable_count in U. apply de_same; [reflexivity|]. intros e. cbn. destruct (Nat.eqb_spec e d) as [->|]; [rewrite U|]; reflexivity.
  - cbn [step]. destruct (usable dev d) as [y|] eqn:U; intros E; injection E as <- <-.
    + apply usable_some in U. destruct U. cbn. apply de_drop; auto.
    + apply usable_count in U. apply de_same; [reflexivity|]. intros e. cbn. destruct (Nat.eqb_spec e d) as [->|]; [rewrite U|]; reflexivity.
  - destruct (usable dev d) as [y|] eqn:U; [|intros E; injection E as <- <-; apply de_same; reflexivity].
    apply usable_some in U. destruct U as [U1 U2]. destruct (a_poisoned y); intros E; injection E as <- <-; [apply de_same; reflexivity|].
    apply de_poison; auto. cbn. apply Nat.eqb_refl.
  - destruct (usable host a) as [y|]; [|intros E; injection E as <- <-; apply de_same; reflexivity]. unfold to_device. cbn [g_host g_dev].
    destruct (acquire dev) as [d1 [k|]] eqn:Q; [|intros E; injection E as <- <-; apply de_same; reflexivity].
    destruct (acquired_arc _ _ _ Q) as (b & free & F & -> & ->). cbn [st_arcs st_cells]. rewrite new_arc. cbn [a_cell].
    destruct (a_poisoned y); [intros E; injection E as <- <-; rewrite drop_new; cbn; apply de_undone; exact F|].
    destruct (nth_error (st_cells host) (a_cell y)) as [src|]; [|intros E; injection E as <- <-; apply de_same; reflexivity].
    destruct (nth_error (st_cells dev) b) as [dst|] eqn:N; [|intros E; injection E as <- <-; apply de_same; reflexivity].
    destruct (memcpy src dst) as [c|] eqn:C; intros E; injection E as <- <-.
    + unfold set_cell. cbn. eapply de_new; eauto. right. exists c, dst. apply memcpy_len in C. auto.
    + rewrite drop_new. cbn. apply de_undone. exact F.
  - destruct (usable dev d) as [y|] eqn:U; [|intros E; injection E as <- <-; apply de_same; reflexivity].
    apply usable_some in U. destruct U as [U1 U2].
    destruct (usable host a) as [z|]; [|intros E; injection E as <- <-; apply de_same; reflexivity]. unfold to_host. cbn [g_host g_dev].
    destruct (a_poisoned y); [intros E; injection E as <- <-; apply de_same; reflexivity|].
    destruct (a_poisoned z); [intros E; injection E as <- <-; apply de_poison; auto; cbn; apply Nat.eqb_refl|].
    destruct (nth_error (st_cells dev) (a_cell y)) as [src|]; [|intros E; injection E as <- <-; apply de_same; reflexivity].
    destruct (nth_error (st_cells host) (a_cell z)) as [dst|]; [|intros E; injection E as <- <-; apply de_same; reflexivity].
    destruct (memcpy src dst) as [c|]; intros E; injection E as <- <-; [apply de_same; reflexivity|].
    apply de_poison; auto. cbn. apply Nat.eqb_refl.
Qed.
Lemma gstep_host g x g' o : good (g_host g) -> gstep g x = (g', o) -> good (g_host g').
Proof.
  intros G. destruct g as [host dev]. destruct x as [x| |d|d|d|a|d a]; cbn [gstep g_host g_dev] in *.
  - pose proof (step_good host x G) as X. destruct (step host x) as [h1 o1]. intros E; injection E as <- <-. exact X.
  - destruct (step dev _). intros E; injection E as <- <-. exact G.
  - destruct (step dev _). intros E; injection E as <- <-. exact G.
  - destruct (step dev _). intros E; injection E as <- <-. exact G.
  - destruct (usable dev d) as [y|]; [destruct (a_poisoned y)|]; intros E; injection E as <- <-; exact G.
  - destruct (usable host a) as [y|] eqn:U; [|intros E; injection E as <- <-; exact G]. apply usable_some in U. destruct U as [U1 U2]. unfold to_device. cbn [g_host g_dev].
    destruct (acquire dev) as [d1 [k|]]; [|intros E; injection E as <- <-; exact G]. destruct (nth_error (st_arcs d1) k); [|intros E; injection E as <- <-; exact G].
    destruct (a_poisoned y); [intros E; injection E as <- <-; exact G|].
    destruct (nth_error (st_cells host) _); [|intros E; injection E as <- <-; exact G]. destruct (nth_error (st_cells d1) _); [|intros E; injection E as <- <-; exact G].
    destruct (memcpy _ _); intros E; injection E as <- <-; [exact G|]. cbn [g_host]. apply poison_good; assumption.
  - destruct (usable dev d) as [y|]; [|intros E; injection E as <- <-; exact G].
    destruct (usable host a) as [z|] eqn:U; [|intros E; injection E as <- <-; exact G]. apply usable_some in U. destruct U as [U1 U2]. unfold to_host. cbn [g_host g_dev].
    destruct (a_poisoned y); [intros E; injection E as <- <-; exact G|]. destruct (a_poisoned z); [intros E; injection E as <- <-; exact G|].
    destruct (nth_error (st_cells dev) _); [|intros E; injection E as <- <-; exact G]. destruct (nth_error (st_cells host) _); [|intros E; injection E as <- <-; exact G].
    destruct (memcpy _ _); intros E; injection E as <- <-; cbn [g_host]; [apply good_upd; exact G|apply poison_good; assumption].
Qed.

Lemma count_set st d y e : nth_error (st_arcs st) d <> None -> count_of (set_arc st d y) e = if e =? d then a_count y else count_of st e.
Proof.
  intros H. unfold count_of, set_arc. cbn [st_arcs]. rewrite nth_error_upd. rewrite (Nat.eqb_sym d e). destruct (Nat.eqb_spec e d) as [->|]; [|reflexivity].
  destruct (nth_error (st_arcs st) d); [reflexivity|congruence].
Qed.
Lemma count_drop st d y e : nth_error (st_arcs st) d = Some y -> count_of (drop_handle st d y) e = if e =? d then a_count y - 1 else count_of st e.
Proof.
  intros H. etransitivity; [|exact (count_set st d (Arc (a_count y - 1) (a_cell y) (a_pooled y) (a_poisoned y)) e ltac:(congruence))]. unfold drop_handle. destruct (_ && _); reflexivity.
Qed.
Lemma count_new st cells free y e : count_of (State (st_size st) cells free (st_arcs st ++ [y])) e = if e =? length (st_arcs st) then a_count y else count_of st e.
Proof.
  unfold count_of. cbn [st_arcs]. destruct (Nat.eqb_spec e (length (st_arcs st))) as [->|N].
  - rewrite nth_error_app2, Nat.sub_diag by lia. reflexivity.
  - destruct (Nat.lt_ge_cases e (length (st_arcs st))); [rewrite nth_error_app1 by lia; reflexivity|].
    rewrite (proj2 (nth_error_None (_ ++ _) e)) by (rewrite app_length; cbn; lia). rewrite (proj2 (nth_error_None (st_arcs st) e)) by lia. reflexivity.
Qed.
Lemma deffect_count st x o st' e : deffect st x o st' -> count_of st' e = dcount e (count_of st e) (x, o).
Proof.
  intros [x' o' H1 H2|x' o' d y H1 H2 H3 H4|d y o' H1 H2|d y o' H1 H2|x' b free F K cells C|a b free F].
  - rewrite H2. reflexivity.
  - rewrite H2. unfold poison. rewrite count_set by congruence. destruct (Nat.eqb_spec e d) as [->|]; [|reflexivity]. unfold count_of. rewrite H3. reflexivity.
  - rewrite count_set by congruence. cbn. destruct (Nat.eqb_spec e d) as [->|]; [|reflexivity]. unfold count_of. rewrite H1. destruct (Nat.eqb_spec (a_count y) 0); [congruence|]. reflexivity.
  - rewrite count_drop by exact H1. cbn. destruct (Nat.eqb_spec e d) as [->|]; [|reflexivity]. unfold count_of. rewrite H1. reflexivity.
  - rewrite count_new. destruct K as [->|[a ->]]; reflexivity.
  - rewrite count_new. cbn. destruct (Nat.eqb_spec e (length (st_arcs st))) as [->|]; [|reflexivity]. unfold count_of. rewrite (proj2 (nth_error_None _ _)) by lia. reflexivity.
Qed.
Lemma deffect_good st x o st' : good st -> deffect st x o st' -> good st'.
Proof.
  intros G [x' o' H1 H2|x' o' d y H1 H2 H3 H4|d y o' H1 H2|d y o' H1 H2|x' b free F K cells C|a b free F].
  - exact G.
  - apply poison_good; assumption.
  - apply (good_set st d y); auto. cbn. destruct (a_count y); [congruence|]. rewrite Nat.add_1_r. reflexivity.
  - apply good_drop; assumption.
  - assert (E : acquire st = (State (st_size st) (st_cells st) free (st_arcs st ++ [Arc 1 b true false]), Some (length (st_arcs st)))) by (unfold acquire; rewrite F; reflexivity).
    destruct (good_acquire _ _ _ G E) as [G1 _]. destruct C as [->|(c & c0 & _ & _ & ->)]; [exact G1|]. exact (good_upd _ b c G1).
  - apply new_drop_good; assumption.
Qed.
Lemma Forall_upd_len len i c c0 : forall l : list (list A), Forall (fun c => length c = len) l -> nth_error l i = Some c0 -> length c = length c0 -> Forall (fun c => length c = len) (upd i c l).
Proof.
  revert i. induction i as [|i IH]; intros [|z l] H N L; cbn in *; auto; inversion H; subst.
  - injection N as ->. constructor; [congruence|assumption].
  - constructor; auto.
Qed.
Lemma deffect_shape st x o st' : deffect st x o st' -> st_size st' = st_size st /\
  (forall len, Forall (fun c => length c = len) (st_cells st) -> Forall (fun c => length c = len) (st_cells st')) /\
  ((forall d x, nth_error (st_arcs st) d = Some x -> a_pooled x = true) -> forall d x, nth_error (st_arcs st') d = Some x -> a_pooled x = true) /\
  length (st_arcs st) <= length (st_arcs st') /\
  (dgiven [(x, o)] = [] \/ (dgiven [(x, o)] = [length (st_arcs st)] /\ length (st_arcs st') = S (length (st_arcs st)))).
Proof.
  assert (U : forall d y z e w, nth_error (st_arcs st) d = Some y -> a_pooled z = a_pooled y -> (forall d x, nth_error (st_arcs st) d = Some x -> a_pooled x = true) -> nth_error (upd d z (st_arcs st)) e = Some w -> a_pooled w = true).
  { intros d y z e w H1 H2 H3 H4. rewrite nth_error_upd in H4. destruct (d =? e); [rewrite H1 in H4; cbn in H4; injection H4 as <-; rewrite H2; eapply H3; eauto|eapply H3; eauto]. }
  assert (V : forall z e w, a_pooled z = true -> (forall d x, nth_error (st_arcs st) d = Some x -> a_pooled x = true) -> nth_error (st_arcs st ++ [z]) e = Some w -> a_pooled w = true).
  { intros z e w H1 H2 H3. apply nth_error_In, in_app_or in H3. destruct H3 as [H3|[<-|[]]]; [|exact H1]. apply In_nth_error in H3. destruct H3 as [k H3]. eapply H2; eauto. }
  intros [x' o' H1 H2|x' o' d y H1 H2 H3 H4|d y o' H1 H2|d y o' H1 H2|x' b free F K cells C|a b free F].
  - auto 10.
  - unfold poison, set_arc. cbn [st_size st_cells st_arcs]. rewrite upd_length. split; [reflexivity|]. split; [auto|]. split; [|auto]. intros P e w. eapply U; eauto.
  - unfold set_arc. cbn [st_size st_cells st_arcs]. rewrite upd_length. split; [reflexivity|]. split; [auto|]. split; [|auto]. intros P e w. eapply U; eauto.
  - assert (X : st_size (drop_handle st d y) = st_size st /\ st_cells (drop_handle st d y) = st_cells st /\ st_arcs (drop_handle st d y) = upd d (Arc (a_count y - 1) (a_cell y) (a_pooled y) (a_poisoned y)) (st_arcs st)) by (unfold drop_handle; destruct (_ && _); auto).
    destruct X as (-> & -> & ->). rewrite upd_length. split; [reflexivity|]. split; [auto|]. split; [|auto]. intros P e w. eapply U; eauto.
  - cbn [st_size st_cells st_arcs]. rewrite app_length. cbn [length]. split; [reflexivity|]. split; [|split; [intros P e w; apply V; auto|split; [lia|right]]].
    + intros len H. destruct C as [->|(c & c0 & N & L & ->)]; [exact H|]. eapply Forall_upd_len; eauto.
    + split; [|lia]. destruct K as [->|[a ->]]; reflexivity.
  - cbn [st_size st_cells st_arcs]. rewrite app_length. cbn [length]. split; [reflexivity|]. split; [auto|]. split; [intros P e w; apply V; auto|]. split; [lia|auto].
Qed.
Lemma dinv_step size len g h x g' o : dinv size len g h -> gstep g x = (g', o) -> dinv size len g' (h ++ [(x, o)]).
Proof.
  intros [I1 I2 I3 I4 I5 I6 I7 I8 I9] E. pose proof (gstep_host _ _ _ _ I2 E) as Gh. apply gstep_effect in E. pose proof (deffect_good _ _ _ _ I1 E) as Gd.
  destruct (deffect_shape _ _ _ _ E) as (S1 & S2 & S3 & S4 & S5).
  assert (L : forall d, dlive (h ++ [(x, o)]) d = count_of (g_dev g') d).
  { intros d. rewrite dlive_snoc, (deffect_count _ _ _ _ d E), I6. reflexivity. }
  split; [exact Gd|exact Gh|congruence|apply S2, I4|exact (S3 I5)|exact L| | |].
  - rewrite dgiven_snoc. destruct S5 as [->|[-> S5]]; [rewrite app_nil_r; exact I7|]. apply NoDup_app_snoc; [exact I7|]. intros K. apply I8 in K. lia.
  - intros d. rewrite dgiven_snoc, in_app_iff. intros [K|K]; [apply I8 in K; lia|]. destruct S5 as [Q|[Q S5]]; rewrite Q in K; [destruct K|]. destruct K as [<-|[]]. lia.
  - intros d K. rewrite dgiven_snoc, in_app_iff. rewrite dlive_snoc in K. destruct (Nat.eq_dec (dlive h d) 0) as [Z|Z]; [|left; apply I9; exact Z].
    right. rewrite Z in K. destruct x as [?| |e|e|e|a|e a]; cbn in K |- *; try congruence.
    + destruct o; try congruence. destruct (Nat.eqb_spec d a); [left; auto|congruence].
    + rewrite andb_false_r in K. congruence.
    + destruct (d =? e); congruence.
    + destruct o; try congruence. destruct (Nat.eqb_spec d a0); [left; auto|congruence].
Qed.

Lemma dinv_steps size len : forall l g h g' outs, dinv size len g h -> gsteps g l = (g', outs) -> dinv size len g' (h ++ combine l outs) /\ length outs = length l.
Proof.
  induction l as [|x l IH]; intros g h g' outs I; cbn [gsteps].
  - intros E; injection E as <- <-. rewrite app_nil_r. auto.
  - destruct (gstep g x) as [g1 o] eqn:S. destruct (gsteps g1 l) as [g2 os] eqn:Q. intros E; injection E as <- <-.
    destruct (IH _ _ _ _ (dinv_step _ _ _ _ _ _ _ I S) Q) as [J L]. rewrite <- app_assoc in J. cbn. auto.
Qed.
Lemma dinv_new (zero : A) size len host : good host -> dinv size len (Gpu host (dev_new zero size len)) [].
Proof.
  intros G. split; cbn [g_dev g_host dev_new st_size st_cells st_free st_arcs]; auto.
  - constructor; cbn [st_free st_arcs st_size st_cells dev_new].
    + change (busy_cells []) with (@nil nat). rewrite app_nil_r. symmetry. apply Permutation_rev.
    + rewrite repeat_length. lia.
    + constructor.
    + intros c [].
  - apply Forall_forall. intros c H. apply repeat_spec in H. subst c. apply repeat_length.
  - intros d x H. destruct d; discriminate H.
  - intros d. destruct d; reflexivity.
  - constructor.
  - intros d [].
  - intros d H. elim H. reflexivity.
Qed.
(** What a handle on the device holds stays while it lives and nothing fails on it. *)
Lemma holds_kept st x o st' d c : good st -> deffect st x o st' -> holds st d c -> spoils d (x, o) = false -> count_of st' d <> 0 -> holds st' d c.
Proof.
  intros G E (y & Y1 & Y2 & Y3 & Y4) Sp L.
  assert (Ld : d < length (st_arcs st)) by (apply nth_error_Some; congruence).
  destruct E as [x' o' H1 H2|x' o' e z H1 H2 H3 H4|e z o' H1 H2|e z o' H1 H2|x' b free F K cells C|a b free F].
  - exists y; auto.
  - destruct (Nat.eq_dec d e) as [<-|N]; [congruence|]. exists y. unfold poison, set_arc. cbn. rewrite nth_error_upd_neq by auto. auto.
  - destruct (Nat.eq_dec d e) as [<-|N].
    + rewrite H1 in Y1. injection Y1 as ->. exists (Arc (a_count y + 1) (a_cell y) (a_pooled y) (a_poisoned y)). unfold set_arc. cbn. rewrite nth_error_upd_eq by exact Ld. repeat split; auto. lia.
    + exists y. unfold set_arc. cbn. rewrite nth_error_upd_neq by auto. auto.
  - assert (X : st_cells (drop_handle st e z) = st_cells st /\ st_arcs (drop_handle st e z) = upd e (Arc (a_count z - 1) (a_cell z) (a_pooled z) (a_poisoned z)) (st_arcs st)) by (unfold drop_handle; destruct (_ && _); auto).
    destruct X as (X1 & X2). rewrite count_drop in L by exact H1. destruct (Nat.eqb_spec d e) as [<-|N].
    + rewrite H1 in Y1. injection Y1 as ->. exists (Arc (a_count y - 1) (a_cell y) (a_pooled y) (a_poisoned y)). rewrite X1, X2, nth_error_upd_eq by exact Ld. repeat split; auto.
    + exists y. rewrite X1, X2, nth_error_upd_neq by auto. auto.
  - exists y. cbn [st_arcs st_cells]. rewrite nth_error_app1 by exact Ld. repeat split; auto.
    destruct C as [->|(c1 & c0 & _ & _ & ->)]; [exact Y4|]. rewrite nth_error_upd_neq; [exact Y4|].
    intros Eb. assert (E : acquire st = (State (st_size st) (st_cells st) free (st_arcs st ++ [Arc 1 b true false]), Some (length (st_arcs st)))) by (unfold acquire; rewrite F; reflexivity).
    destruct (good_acquire _ _ _ G E) as [G1 _].
    refine (cells_apart _ d (length (st_arcs st)) y (Arc 1 b true false) G1 _ (new_arc st b) Y2 _ _ _); cbn; try lia; auto. now rewrite nth_error_app1 by exact Ld.
  - exists y. cbn [st_arcs st_cells]. rewrite nth_error_app1 by exact Ld. auto.
Qed.
Lemma dlive_stays d : forall h n, fold_left (dcount d) h n <> 0 -> n = 0 -> In d (dgiven h).
Proof.
  induction h as [|x h IH]; intros n H Z; cbn [fold_left] in H; [congruence|]. unfold dgiven. cbn [flat_map]. apply in_or_app. fold (dgiven h).
  destruct (Nat.eq_dec (dcount d n x) 0) as [E|E]; [right; eapply IH; eauto|]. left. subst n. destruct x as [[?| |e|e|e|a|e a] o]; cbn in E |- *; try congruence.
  - destruct o; try congruence. destruct (Nat.eqb_spec d a); [left; auto|congruence].
  - rewrite andb_false_r in E. congruence.
  - destruct (d =? e); congruence.
  - destruct o; try congruence. destruct (Nat.eqb_spec d a0); [left; auto|congruence].
Qed.
Lemma holds_steps size len d c : forall l g h g' outs, dinv size len g h -> holds (g_dev g) d c -> gsteps g l = (g', outs) ->
  forallb (fun x => negb (spoils d x)) (combine l outs) = true -> dlive (h ++ combine l outs) d <> 0 -> holds (g_dev g') d c.
Proof.
  induction l as [|x l IH]; intros g h g' outs I H; cbn [gsteps].
  - intros E; injection E as <- <-. auto.
  - destruct (gstep g x) as [g1 o] eqn:S. destruct (gsteps g1 l) as [g2 os] eqn:Q. intros E; injection E as <- <-. cbn [combine forallb]. intros F L. apply andb_prop in F. destruct F as [F1 F2].
    apply negb_true_iff in F1. pose proof (dinv_step _ _ _ _ _ _ _ I S) as J. pose proof (gstep_effect _ _ _ _ S) as Ef.
    replace (h ++ (x, o) :: combine l os) with ((h ++ [(x, o)]) ++ combine l os) in L by (rewrite <- app_assoc; reflexivity).
    apply (IH g1 (h ++ [(x, o)]) g2 os J); auto. apply (holds_kept _ _ _ _ d c (d_dev _ _ _ _ I) Ef H F1).
    pose proof (d_live _ _ _ _ J d) as Ld. fold (count_of (g_dev g1) d) in Ld. rewrite <- Ld. intros Z.
    (* a handle that has died is not given again *)
    unfold dlive in L. rewrite fold_left_app in L. pose proof (dlive_stays d _ _ L Z) as K.
    destruct (dinv_steps _ _ _ _ _ _ _ J Q) as [J2 _]. pose proof (d_given _ _ _ _ J2) as Nd. unfold dgiven in Nd. rewrite flat_map_app in Nd. fold (dgiven (h ++ [(x, o)])) in Nd. fold (dgiven (combine l os)) in Nd.
    destruct H as (y & Y1 & Y2 & _). assert (In d (dgiven h)) by (apply (d_busy _ _ _ _ I); rewrite (d_live _ _ _ _ I), Y1; exact Y2).
    apply (NoDup_app_disjoint _ _ d Nd); [rewrite dgiven_snoc; apply in_or_app; auto|exact K].
Qed.
(** Poisoned device handles are those on which an operation failed. *)
Definition pz st d : bool := match nth_error (st_arcs st) d with Some y => a_poisoned y | None => false end.
Lemma pz_set st d y e : nth_error (st_arcs st) d <> None -> pz (set_arc st d y) e = if e =? d then a_poisoned y else pz st e.
Proof.
  intros H. unfold pz, set_arc. cbn [st_arcs]. rewrite nth_error_upd. rewrite (Nat.eqb_sym d e). destruct (Nat.eqb_spec e d) as [->|]; [|reflexivity].
  destruct (nth_error (st_arcs st) d); [reflexivity|congruence].
Qed.
Lemma pz_new st size cells free y e : a_poisoned y = false -> pz (State size cells free (st_arcs st ++ [y])) e = pz st e.
Proof.
  intros H. unfold pz. cbn [st_arcs]. destruct (Nat.lt_ge_cases e (length (st_arcs st))) as [L|L]; [rewrite nth_error_app1 by exact L; reflexivity|].
  rewrite (proj2 (nth_error_None (st_arcs st) e)) by exact L. rewrite nth_error_app2 by exact L. destruct (e - length (st_arcs st)) as [|[|n]]; cbn; auto.
Qed.
Lemma gstep_pz g x g' o e : good (g_dev g) -> good (g_host g) -> gstep g x = (g', o) -> pz (g_dev g') e = pz (g_dev g) e || spoils e (x, o).
Proof.
  destruct g as [host dev]. cbn [g_host g_dev]. intros Gd Gh. destruct x as [x| |d|d|d|a|d a]; cbn [gstep g_host g_dev].
  - destruct (step host x) as [h1 o1]. intros E; injection E as <- <-. cbn. now rewrite orb_false_r.
  - cbn [step]. destruct (acquire dev) as [d1 r] eqn:Q. intros E; injection E as <- <-. cbn [g_dev spoils]. rewrite orb_false_r. destruct r as [k|].
    + destruct (acquired_arc _ _ _ Q) as (b & free & F & -> & ->). now apply pz_new.
    + unfold acquire in Q. destruct (st_free dev) eqn:F; [|discriminate]. injection Q as <-. reflexivity.
  - cbn [step]. destruct (usable dev d) as [y|] eqn:U; intros E; injection E as <- <-; cbn [g_dev spoils]; rewrite orb_false_r; [|reflexivity].
    apply usable_some in U. destruct U as [U1 U2]. rewrite pz_set by congruence. destruct (Nat.eqb_spec e d) as [->|]; [|reflexivity]. unfold pz. rewrite U1. reflexivity.
  - cbn [step]. destruct (usable dev d) as [y|] eqn:U; intros E; injection E as <- <-; cbn [g_dev spoils]; rewrite orb_false_r; [|reflexivity].
    apply usable_some in U. destruct U as [U1 U2]. etransitivity; [|etransitivity; [exact (pz_set dev d (Arc (a_count y - 1) (a_cell y) (a_pooled y) (a_poisoned y)) e ltac:(congruence))|]].
    + unfold drop_handle. destruct (_ && _); reflexivity.
    + destruct (Nat.eqb_spec e d) as [->|]; [|reflexivity]. unfold pz. rewrite U1. reflexivity.
  - destruct (usable dev d) as [y|] eqn:U; [|intros E; injection E as <- <-; cbn; now rewrite orb_false_r].
    apply usable_some in U. destruct U as [U1 U2]. destruct (a_poisoned y) eqn:P; intros E; injection E as <- <-; cbn [g_dev spoils].
    + destruct (Nat.eqb_spec d e) as [->|]; [|now rewrite orb_false_r]. unfold pz. now rewrite U1, P.
    + unfold poison. rewrite pz_set by congruence. rewrite (Nat.eqb_sym e d). destruct (Nat.eqb_spec d e) as [->|]; [now rewrite orb_true_r|now rewrite orb_false_r].
  - destruct (usable host a) as [y|] eqn:U; [|intros E; injection E as <- <-; cbn; now rewrite orb_false_r]. unfold to_device. cbn [g_host g_dev].
    assert (W : forall oo : out A, spoils e (ToDevice a, oo) = false) by reflexivity. intros E. rewrite W, orb_false_r. revert E.
    destruct (acquire dev) as [d1 [k|]] eqn:Q; [|intros E; injection E as <- <-; reflexivity].
    destruct (acquired_arc _ _ _ Q) as (b & free & F & -> & ->). cbn [st_arcs st_cells]. rewrite new_arc. cbn [a_cell]. rewrite drop_new.
    destruct (a_poisoned y); [intros E; injection E as <- <-; now apply pz_new|].
    destruct (nth_error (st_cells host) (a_cell y)) as [src|]; [|intros E; injection E as <- <-; reflexivity].
    destruct (nth_error (st_cells dev) b) as [dst|] eqn:N; [|intros E; injection E as <- <-; reflexivity].
    destruct (memcpy src dst) as [c|] eqn:C; intros E; injection E as <- <-; cbn [g_dev].
    + unfold set_cell. cbn [st_size st_cells st_free st_arcs]. now apply pz_new.
    + now apply pz_new.
  - destruct (usable dev d) as [y|] eqn:U; [|intros E; injection E as <- <-; cbn; now rewrite orb_false_r].
    apply usable_some in U. destruct U as [U1 U2].
    destruct (usable host a) as [z|] eqn:V; [|intros E; injection E as <- <-; cbn; now rewrite orb_false_r]. apply usable_some in V. destruct V as [V1 V2]. unfold to_host. cbn [g_host g_dev].
    destruct (cell_range _ _ _ Gd U1 U2) as [_ R1]. destruct (cell_range _ _ _ Gh V1 V2) as [_ R2].
    assert (W : pz (poison dev d y) e = pz dev e || (d =? e)).
    { unfold poison. rewrite pz_set by congruence. rewrite (Nat.eqb_sym e d). destruct (Nat.eqb_spec d e) as [->|]; [now rewrite orb_true_r|now rewrite orb_false_r]. }
    destruct (a_poisoned y) eqn:P; [intros E; injection E as <- <-; cbn [g_dev spoils]; destruct (Nat.eqb_spec d e) as [->|]; [unfold pz; now rewrite U1, P|now rewrite orb_false_r]|].
    destruct (a_poisoned z); [intros E; injection E as <- <-; exact W|].
    destruct (nth_error (st_cells dev) (a_cell y)) as [src|] eqn:N1; [|apply nth_error_None in N1; lia].
    destruct (nth_error (st_cells host) (a_cell z)) as [dst|] eqn:N2; [|apply nth_error_None in N2; lia].
    destruct (memcpy src dst) as [c|]; intros E; injection E as <- <-; [cbn; now rewrite orb_false_r|exact W].
Qed.
Lemma gsteps_pz size len e : forall l g h g' outs, dinv size len g h -> gsteps g l = (g', outs) -> pz (g_dev g') e = pz (g_dev g) e || existsb (spoils e) (combine l outs).
Proof.
  induction l as [|x l IH]; intros g h g' outs I; cbn [gsteps].
  - intros E; injection E as <- <-. cbn. now rewrite orb_false_r.
  - destruct (gstep g x) as [g1 o] eqn:E1. destruct (gsteps g1 l) as [g2 os] eqn:E2. intros E; injection E as <- <-.
    rewrite (IH _ _ _ _ (dinv_step _ _ _ _ _ _ _ I E1) E2), (gstep_pz _ _ _ _ e (d_dev _ _ _ _ I) (d_host _ _ _ _ I) E1), <- orb_assoc. reflexivity.
Qed.
End Proofs.

(** * Theorems *)
Lemma gruns_inv {A} (zero : A) size len hsize init host l h g : pool_new hsize init = Ret host -> gruns zero size len host l h g -> dinv size len g h.
Proof.
  intros N (outs & E & ->). destruct (pool_new_good _ _ _ N) as (G & _ & _). exact (proj1 (dinv_steps _ _ _ _ _ _ _ (dinv_new zero size len host G) E)).
Qed.

(** What is copied to the device comes back, whatever the program does meanwhile with both pools, other than letting
    something fail on that handle. Missing: the elements between the end of the data and the end of the
    device buffer are not said to be those of the destination (refuted below). *)
Theorem C173_partial : forall (A : Type) (zero : A) size len hsize init host l1 h1 g1 a c d g2 l2 outs2 g3 b e,
  pool_new hsize init = Ret host -> gruns zero size len host l1 h1 g1 ->
  shows g1 a c -> gstep g1 (ToDevice a) = (g2, Handle d) ->
  gsteps g2 l2 = (g3, outs2) -> let h := h1 ++ (ToDevice a, Handle d) :: combine l2 outs2 in
  forallb (fun x => negb (spoils d x)) (combine l2 outs2) = true -> dlive h d <> 0 ->
  shows g3 b e -> len <= length e ->
  exists g4 rest, gstep g3 (ToHost d b) = (g4, Done) /\ length c + length rest = len /\ shows g4 b (c ++ rest ++ skipn len e) /\ g_dev g4 = g_dev g3.
Proof.
  intros A zero size len hsize init host l1 h1 g1 a c d g2 l2 outs2 g3 b e N R Sh T Q h F L Sb Le.
  pose proof (gruns_inv _ _ _ _ _ _ _ _ _ N R) as I1. pose proof (dinv_step _ _ _ _ _ _ _ I1 T) as I2.
  assert (H2 : exists rest, length c + length rest = len /\ holds (g_dev g2) d (c ++ rest)).
  { unfold shows in Sh. apply read_contents in Sh. destruct Sh as (x & X1 & X2 & X3 & X4). cbn [gstep] in T. rewrite (proj2 (usable_some _ _ _)) in T by eauto.
    unfold to_device in T. destruct (acquire (g_dev g1)) as [d1 [k|]] eqn:Ac; [|discriminate]. destruct (acquired_arc _ _ _ Ac) as (f & free & Fr & -> & ->).
    cbn [st_arcs st_cells] in T. rewrite new_arc in T. cbn [a_cell] in T. rewrite X3, X4 in T. destruct (nth_error (st_cells (g_dev g1)) f) as [dst|] eqn:Nd; [|discriminate].
    destruct (memcpy c dst) as [r|] eqn:M; [|discriminate]. injection T as <- <-. assert (Ld : length dst = len).
    { pose proof (d_len _ _ _ _ I1) as FL. rewrite Forall_forall in FL. apply FL. eapply nth_error_In; eauto. }
    unfold memcpy in M. destruct (Nat.leb_spec (length c) (length dst)); [|discriminate]. injection M as <-. exists (skipn (length c) dst). rewrite skipn_length. split; [lia|].
    exists (Arc 1 f true false). cbn [g_dev set_cell st_arcs st_cells a_count a_poisoned a_cell]. rewrite new_arc. split; [reflexivity|]. split; [discriminate|]. split; [reflexivity|].
    apply nth_error_upd_eq. apply nth_error_Some. congruence. }
  destruct H2 as (rest & Lr & H2).
  assert (H3 : holds (g_dev g3) d (c ++ rest)).
  { apply (holds_steps size len d _ l2 g2 (h1 ++ [(ToDevice a, Handle d)]) g3 outs2 I2 H2 Q F). rewrite <- app_assoc. exact L. }
  destruct H3 as (y & Y1 & Y2 & Y3 & Y4). unfold shows in Sb. apply read_contents in Sb. destruct Sb as (z & Z1 & Z2 & Z3 & Z4).
  exists (Gpu (set_cell (g_host g3) (a_cell z) (c ++ rest ++ skipn len e)) (g_dev g3)), rest. split; [|split; [exact Lr|split; [|reflexivity]]].
  - cbn [gstep]. rewrite (proj2 (usable_some (g_dev g3) d y)), (proj2 (usable_some (g_host g3) b z)) by auto. unfold to_host. rewrite Y3, Z3, Y4, Z4. unfold memcpy. rewrite app_length, Lr.
    rewrite (proj2 (Nat.leb_le _ _) Le). rewrite <- app_assoc. reflexivity.
  - unfold shows. apply read_contents. exists z. cbn [g_host set_cell st_arcs st_cells]. repeat split; auto. apply nth_error_upd_eq. apply nth_error_Some. congruence.
Qed.
Print Assumptions C173_partial.

(** A copy fails exactly for these reasons, and a failed copy to the device keeps no buffer. *)
Theorem C173_reasons_partial : forall (A : Type) (zero : A) size len hsize init host l h g a c,
  pool_new hsize init = Ret host -> gruns zero size len host l h g -> shows g a c ->
  (snd (gstep g (ToDevice a)) = Panicked <-> length (din_use h) = size \/ len < length c) /\
  (snd (gstep g (ToDevice a)) = Panicked -> space_left (g_dev (fst (gstep g (ToDevice a)))) = space_left (g_dev g)) /\
  (forall d, dlive h d <> 0 ->
     (snd (gstep g (ToHost d a)) = Panicked <-> length c < len \/ existsb (spoils d) h = true) /\ snd (gstep g (GLook d)) = Panicked).
Proof.
  intros A zero size len hsize init host l h g a c N R Sh. pose proof (gruns_inv _ _ _ _ _ _ _ _ _ N R) as I.
  unfold shows in Sh. apply read_contents in Sh. destruct Sh as (x & X1 & X2 & X3 & X4).
  assert (Sp : space_left (g_dev g) + length (din_use h) = size).
  { destruct I as [I1 I2 I3 I4 I5 I6 I7 I8 I9]. pose proof (Permutation_length (g_perm _ I1)) as P. rewrite app_length, seq_length in P. rewrite <- I3, <- P. unfold space_left. f_equal.
    unfold busy_cells. rewrite map_length, <- (indexes busy (st_arcs (g_dev g)) 0). apply Permutation_length. apply NoDup_Permutation.
    - unfold din_use. apply NoDup_filter. exact I7.
    - apply NoDup_filter. apply seq_NoDup.
    - intros d. unfold din_use. rewrite !filter_In, in_seq, Nat.sub_0_r, I6. split.
      + intros [K1 K2]. split; [split; [lia|apply I8 in K1; lia]|]. destruct (nth_error (st_arcs (g_dev g)) d) as [y|] eqn:Y; [|discriminate K2]. unfold busy. rewrite (I5 _ _ Y). exact K2.
      + intros [K1 K2]. destruct (nth_error (st_arcs (g_dev g)) d) as [y|] eqn:Y; [|discriminate K2]. unfold busy in K2. rewrite (I5 _ _ Y) in K2. split; [|exact K2].
        apply I9. rewrite I6, Y. cbn in K2. destruct (a_count y); [discriminate K2|discriminate]. }
  assert (Ln : forall b dst, nth_error (st_cells (g_dev g)) b = Some dst -> length dst = len).
  { intros b dst Nd. pose proof (d_len _ _ _ _ I) as FL. rewrite Forall_forall in FL. apply FL. eapply nth_error_In; eauto. }
  assert (T : forall b free, st_free (g_dev g) = b :: free -> exists dst, nth_error (st_cells (g_dev g)) b = Some dst /\ length dst = len).
  { intros b free F. destruct (nth_error (st_cells (g_dev g)) b) as [dst|] eqn:Nd; [eauto|]. exfalso. apply nth_error_None in Nd. pose proof (g_cells _ (d_dev _ _ _ _ I)).
    pose proof (Permutation_in b (g_perm _ (d_dev _ _ _ _ I)) ltac:(rewrite F; left; reflexivity)) as K. apply in_seq in K. lia. }
  split; [|split].
  - cbn [gstep]. rewrite (proj2 (usable_some (g_host g) a x)) by auto. unfold to_device, acquire. unfold space_left in Sp. destruct (st_free (g_dev g)) as [|b free] eqn:F.
    + cbn in Sp |- *. split; auto.
    + destruct (T b free eq_refl) as (dst & Nd & Ld). cbn [st_arcs st_cells]. rewrite new_arc. cbn [a_cell]. rewrite X3, X4, Nd. unfold memcpy. cbn [length] in Sp.
      destruct (Nat.leb_spec (length c) (length dst)); cbn [snd]; (split; [try discriminate; intros _; right; lia|first [intros _; reflexivity|intros [K|K]; lia]]).
  - cbn [gstep]. rewrite (proj2 (usable_some (g_host g) a x)) by auto. unfold to_device, acquire. destruct (st_free (g_dev g)) as [|b free] eqn:F; [intros _; unfold space_left; cbn; rewrite ?F; reflexivity|].
    destruct (T b free eq_refl) as (dst & Nd & Ld). cbn [st_arcs st_cells]. rewrite new_arc. cbn [a_cell]. rewrite X3, X4, Nd. destruct (memcpy c dst); cbn [fst snd]; [discriminate|].
    intros _. cbn [g_dev]. rewrite drop_new. unfold space_left. cbn [st_free]. rewrite F. reflexivity.
  - intros d L. rewrite (d_live _ _ _ _ I) in L. destruct (nth_error (st_arcs (g_dev g)) d) as [y|] eqn:Y1; [|congruence].
    assert (Y2 : a_poisoned y = existsb (spoils d) h).
    { destruct (pool_new_good _ _ _ N) as (Gh & _ & _). destruct R as (outs & E & ->). pose proof (gsteps_pz size len d _ _ _ _ _ (dinv_new zero size len host Gh) E) as W.
      unfold pz at 1 in W. rewrite Y1 in W. rewrite W. unfold pz. cbn [g_dev dev_new st_arcs]. rewrite (proj2 (nth_error_None [] d)) by (cbn; lia). reflexivity. }
    split; [|cbn [gstep]; rewrite (proj2 (usable_some (g_dev g) d y)) by auto; destruct (a_poisoned y); reflexivity]. rewrite <- Y2. cbn [gstep]. rewrite (proj2 (usable_some (g_dev g) d y)), (proj2 (usable_some (g_host g) a x)) by auto.
    unfold to_host. destruct (a_poisoned y); [cbn; split; auto|]. rewrite X3, X4. destruct (cell_range _ _ _ (d_dev _ _ _ _ I) Y1 L) as [_ Cr]. destruct (nth_error (st_cells (g_dev g)) (a_cell y)) as [src|] eqn:Ns; [|apply nth_error_None in Ns; lia].
    apply Ln in Ns. unfold memcpy. destruct (Nat.leb_spec (length src) (length c)); cbn [snd]; (split; [try discriminate; intros _; left; lia|first [intros _; reflexivity|intros [K|K]; [lia|discriminate K]]]).
Qed.
Print Assumptions C173_reasons_partial.

(** The device pool reports as free what no live handle holds. *)
Theorem C173_accounting_partial : forall (A : Type) (zero : A) size len hsize init host l h g,
  pool_new hsize init = Ret host -> gruns zero size len host l h g ->
  NoDup (din_use h) /\ length (din_use h) <= size /\ total_size (g_dev g) = size /\ (forall b, In b (st_cells (g_dev g)) -> forall esize, dev_buffer_size len esize = list_sum (map (fun _ => esize) b)) /\ space_left (g_dev g) = size - length (din_use h) /\
  (snd (gstep g GAcquire) = NoBuffer <-> length (din_use h) = size).
Proof.
  intros A zero size len hsize init host l h g N R. pose proof (gruns_inv _ _ _ _ _ _ _ _ _ N R) as [I1 I2 I3 I4 I5 I6 I7 I8 I9].
  assert (Sp : space_left (g_dev g) + length (din_use h) = size).
  { pose proof (Permutation_length (g_perm _ I1)) as P. rewrite app_length, seq_length in P. rewrite <- I3, <- P. unfold space_left. f_equal.
    unfold busy_cells. rewrite map_length, <- (indexes busy (st_arcs (g_dev g)) 0). apply Permutation_length. apply NoDup_Permutation.
    - unfold din_use. apply NoDup_filter. exact I7.
    - apply NoDup_filter. apply seq_NoDup.
    - intros d. unfold din_use. rewrite !filter_In, in_seq, Nat.sub_0_r, I6. split.
      + intros [K1 K2]. split; [split; [lia|apply I8 in K1; lia]|]. destruct (nth_error (st_arcs (g_dev g)) d) as [y|] eqn:Y; [|discriminate K2]. unfold busy. rewrite (I5 _ _ Y). exact K2.
      + intros [K1 K2]. destruct (nth_error (st_arcs (g_dev g)) d) as [y|] eqn:Y; [|discriminate K2]. unfold busy in K2. rewrite (I5 _ _ Y) in K2. split; [|exact K2].
        apply I9. rewrite I6, Y. cbn in K2. destruct (a_count y); [discriminate K2|discriminate]. }
  split; [apply NoDup_filter; exact I7|]. split; [lia|]. split; [exact I3|].
  split; [rewrite Forall_forall in I4; intros b Hb esize; apply I4 in Hb; unfold dev_buffer_size; rewrite <- Hb; clear; induction b as [|z b IH]; [reflexivity|change (esize + length b * esize = esize + list_sum (map (fun _ => esize) b)); lia]|]. split; [lia|].
  cbn [gstep step]. unfold acquire. unfold space_left in Sp. destruct (st_free (g_dev g)); cbn in *; split; auto; try discriminate; lia.
Qed.
Print Assumptions C173_accounting_partial.

(** The natural claim, that a host buffer then holds what was copied and is otherwise as it was, fails: behind shorter data comes
    what an earlier user of the device buffer had put there. *)
Theorem C173_refuted : exists (host : state nat) l h g g',
  pool_new 3 (fun _ => [0; 0; 0]) = Ret host /\ gruns 0 1 3 host l h g /\ In (ToDevice 1, Handle 1) h /\ dlive h 1 = 1 /\ shows g 1 [5] /\ shows g 2 [9; 9; 9] /\
  gstep g (ToHost 1 2) = (g', Done) /\ shows g' 2 [5; 2; 3].
Proof.
  eexists. exists [Host Acquire; Host (Write 0 [1; 2; 3] false); ToDevice 0; GDrop 0; Host (Detached [5]); ToDevice 1; Host Acquire; Host (Write 2 [9; 9; 9] false)].
  eexists _, _, _. split; [reflexivity|]. split; [eexists; split; [vm_compute; reflexivity|reflexivity]|]. cbn [combine]. split; [cbn; auto 10|]. split; [reflexivity|]. repeat split; vm_compute; reflexivity.
Qed.
Print Assumptions C173_refuted.
(** A copy to a host buffer that is too small does not only fail: the data on the device is out of reach from then on. *)
Theorem C173_lost_refuted : exists (host : state nat) l h g g1 g2,
  pool_new 2 (fun _ => [0; 0; 0]) = Ret host /\ gruns 0 1 3 host l h g /\ dlive h 0 = 1 /\ shows g 1 [7] /\ shows g 2 [0; 0; 0] /\
  gstep g (ToHost 0 1) = (g1, Panicked) /\ gstep g1 (ToHost 0 2) = (g2, Panicked) /\ snd (gstep g (ToHost 0 2)) = Done.
Proof.
  eexists. exists [Host Acquire; ToDevice 0; Host (Detached [7]); Host Acquire].
  eexists _, _, _, _. split; [reflexivity|]. split; [eexists; split; [vm_compute; reflexivity|reflexivity]|]. repeat split; vm_compute; reflexivity.
Qed.
Print Assumptions C173_lost_refuted.

(** Two device buffers of three elements; two copies, a clone, a look at the other handle, drops. *)
Definition ex_before : list (gop nat) := [Host Acquire; Host (Write 0 [1; 2; 3] false)].
Definition ex_after : list (gop nat) := [GClone 0; Host (Write 0 [4; 5; 6] false); ToDevice 0; GLook 1; GDrop 1; GDrop 0; Host (Drop 0); GAcquire; Host Acquire; Host (Write 1 [8; 8; 8; 8] false)].
Example C173_case : exists host g1 h1 g2 g3 outs2 g4,
  pool_new 1 (fun _ => [0; 0; 0]) = Ret host /\ gruns 0 2 3 host ex_before h1 g1 /\ shows g1 0 [1; 2; 3] /\ gstep g1 (ToDevice 0) = (g2, Handle 0) /\
  gsteps g2 ex_after = (g3, outs2) /\ forallb (fun x => negb (spoils 0 x)) (combine ex_after outs2) = true /\
  dlive (h1 ++ (ToDevice 0, Handle 0) :: combine ex_after outs2) 0 = 1 /\ shows g3 1 [8; 8; 8; 8] /\
  gstep g3 (ToHost 0 1) = (g4, Done) /\ shows g4 1 [1; 2; 3; 8] /\ din_use (h1 ++ (ToDevice 0, Handle 0) :: combine ex_after outs2) = [0; 2] /\ space_left (g_dev g3) = 0.
Proof.
  eexists _, _, _, _, _, _, _. split; [reflexivity|]. split; [eexists; split; [vm_compute; reflexivity|reflexivity]|]. split; [vm_compute; reflexivity|]. split; [vm_compute; reflexivity|].
  split; [vm_compute; reflexivity|]. repeat split; vm_compute; reflexivity.
Qed.
(** One device buffer: a source that is too long, then a copy, then one too many, then a destination that is too short. *)
Example C173_reasons_case : exists host g h outs,
  pool_new 2 (fun _ => [0; 0; 0]) = Ret host /\ gsteps (Gpu host (dev_new 0 1 3)) [Host (Detached [1; 2; 3; 4]); Host Acquire; Host (Detached [6])] = (g, h) /\
  shows g 0 [1; 2; 3; 4] /\ shows g 1 [0; 0; 0] /\ shows g 2 [6] /\
  snd (gsteps g [ToDevice 0; ToDevice 1; ToDevice 2; ToHost 1 2]) = outs /\ outs = [Panicked; Handle 1; Panicked; Panicked].
Proof. eexists _, _, _, _. split; [reflexivity|]. split; [vm_compute; reflexivity|]. repeat split; vm_compute; reflexivity. Qed.
