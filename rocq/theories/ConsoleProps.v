(** C53 and C59: the console monitor. *)
From Coq Require Import String List Arith NArith Bool Lia Permutation.
From Verif Require Import Base PlanModel PlanProofs BincodeModel CodecModel StatsModel StatsSpec StatsProofs ConsoleModel.
Import ListNotations.
Local Open Scope list_scope.
Local Open Scope nat_scope.

(** * C53: specification *)
Definition well_formed (g : graph) : Prop := forall e, In e (g_edges g) -> e_src e < g_n g /\ e_dst e < g_n g.
Definition has_incoming (g : graph) (v : nat) : Prop := exists e, In e (g_edges g) /\ e_dst e = v.
Definition has_outgoing (g : graph) (v : nat) : Prop := exists e, In e (g_edges g) /\ e_src e = v.
Definition shown_as (g : graph) (v : nat) (t : node_type) : Prop :=
  match t with
  | NUnknown => ~ has_incoming g v /\ ~ has_outgoing g v
  | NSource => ~ has_incoming g v /\ has_outgoing g v
  | NSink => has_incoming g v /\ ~ has_outgoing g v
  | NTask => has_incoming g v /\ has_outgoing g v
  end.

(** * C53: proof *)
(** The type after the edges in [l]. *)
Definition class (i o : bool) : node_type := if i then (if o then NTask else NSink) else (if o then NSource else NUnknown).
Definition typed (l : list edge) (v : nat) : node_type := class (existsb (fun e => e_dst e =? v) l) (existsb (fun e => e_src e =? v) l).
Lemma nth_upd {A} (l : list A) i j a : i < length l -> nth_error (upd i a l) j = if j =? i then Some a else nth_error l j.
Proof. intros H. destruct (Nat.eqb_spec j i) as [->|N0]; [apply nth_error_upd_eq; auto|apply nth_error_upd_neq; auto]. Qed.
Lemma edge_step n l e ts : (forall v, v < n -> nth_error ts v = Some (typed l v)) -> length ts = n -> e_src e < n -> e_dst e < n ->
  exists t1 t2, update_at add_incoming (e_dst e) ts = Ret t1 /\ update_at add_outgoing (e_src e) t1 = Ret t2 /\ length t2 = n /\ forall v, v < n -> nth_error t2 v = Some (typed (l ++ [e]) v).
Proof.
  intros T L Hs Hd. unfold update_at. rewrite (T _ Hd).
  set (t1 := upd (e_dst e) (add_incoming (typed l (e_dst e))) ts).
  assert (T1 : forall v, v < n -> nth_error t1 v = Some (if v =? e_dst e then add_incoming (typed l (e_dst e)) else typed l v)).
  { intros v Hv. unfold t1. rewrite nth_upd by lia. destruct (v =? e_dst e); [reflexivity|apply T; auto]. }
  exists t1. rewrite (T1 _ Hs). eexists. split; [reflexivity|]. split; [reflexivity|]. split; [unfold t1; rewrite !upd_length; auto|].
  intros v Hv. rewrite nth_upd by (unfold t1; rewrite upd_length; lia). rewrite T1 by auto. unfold typed. rewrite !existsb_app. cbn [existsb]. rewrite !orb_false_r.
  rewrite (Nat.eqb_sym (e_dst e) v), (Nat.eqb_sym (e_src e) v).
  destruct (Nat.eqb_spec v (e_src e)) as [->|N1]; [destruct (Nat.eqb_spec (e_src e) (e_dst e)) as [<-|N2]|destruct (Nat.eqb_spec v (e_dst e)) as [->|N2]];
  f_equal; rewrite ?orb_false_r, ?orb_true_r; unfold class;
  repeat match goal with |- context [existsb ?f ?l] => destruct (existsb f l) end; reflexivity.
Qed.
Lemma node_edges_ok n es : forall port cs l ts, (forall v, v < n -> nth_error ts v = Some (typed l v)) -> length ts = n -> (forall i e, In (i, e) es -> e_src e < n /\ e_dst e < n) ->
  exists ts', node_edges es port cs ts = Ret (cs ++ map (fun x => (e_src (snd (snd x)), 0, e_dst (snd (snd x)), fst x)) (combine (seq port (length es)) es), ts') /\
    length ts' = n /\ forall v, v < n -> nth_error ts' v = Some (typed (l ++ map snd es) v).
Proof.
  induction es as [|[i e] es IH]; intros port cs l ts T L W; cbn [node_edges length seq combine map].
  - exists ts. rewrite !app_nil_r. auto.
  - destruct (W i e (or_introl eq_refl)) as [Hs Hd]. destruct (edge_step n l e ts T L Hs Hd) as (t1 & t2 & E1 & E2 & L2 & T2). rewrite E1. cbn [obind]. rewrite E2. cbn [obind].
    destruct (IH (port + 1) (cs ++ [(e_src e, 0, e_dst e, port)]) (l ++ [e]) t2 T2 L2) as (ts' & E3 & L3 & T3); [intros i0 e0 H; apply (W i0); right; auto|].
    exists ts'. rewrite E3. split; [|split; [auto|]].
    + rewrite <- app_assoc. cbn [app]. cbn [fst snd]. rewrite Nat.add_1_r. reflexivity.
    + intros v Hv. rewrite T3, <- app_assoc by auto. reflexivity.
Qed.
Definition ports (g : graph) (v : nat) : list (nat * nat * nat * nat) :=
  map (fun x => (e_src (snd (snd x)), 0, e_dst (snd (snd x)), fst x)) (combine (seq 0 (length (in_edges g v))) (in_edges g v)).
Lemma in_indexed g i e : In (i, e) (indexed g) -> In e (g_edges g).
Proof. intros H. apply (in_combine_r _ _ _ _ H). Qed.
Lemma in_in_edges g v i e : In (i, e) (in_edges g v) -> In e (g_edges g) /\ e_dst e = v.
Proof. unfold in_edges. rewrite <- in_rev, filter_In. cbn. intros [H1 H2]. split; [eapply in_indexed; eauto|apply Nat.eqb_eq; auto]. Qed.
Lemma all_edges_ok g vs : well_formed g -> forall cs l ts, (forall v, v < g_n g -> nth_error ts v = Some (typed l v)) -> length ts = g_n g ->
  exists ts', all_edges g vs cs ts = Ret (cs ++ flat_map (ports g) vs, ts') /\ length ts' = g_n g /\ forall v, v < g_n g -> nth_error ts' v = Some (typed (l ++ flat_map (fun v => map snd (in_edges g v)) vs) v).
Proof.
  intros W. induction vs as [|v vs IH]; intros cs l ts T L; cbn [all_edges flat_map].
  - exists ts. rewrite !app_nil_r. auto.
  - destruct (node_edges_ok (g_n g) (in_edges g v) 0 cs l ts T L) as (t1 & E1 & L1 & T1). { intros i e H. apply W. eapply in_in_edges; eauto. }
    rewrite E1. cbn [obind]. destruct (IH (cs ++ ports g v) (l ++ map snd (in_edges g v)) t1 T1 L1) as (t2 & E2 & L2 & T2). fold (ports g v). rewrite E2. exists t2.
    rewrite <- !app_assoc. split; [auto|]. split; [auto|]. intros w Hw. rewrite T2, <- app_assoc by auto. reflexivity.
Qed.
Lemma edges_once (ie : list (nat * edge)) : forall n a, (forall i e, In (i, e) ie -> a <= e_dst e < a + n) ->
  Permutation (flat_map (fun v => map snd (rev (filter (fun e => e_dst (snd e) =? v) ie))) (seq a n)) (map snd ie).
Proof.
  induction ie as [|[i e] ie IH]; intros n a H.
  - cbn. induction (seq a n); cbn; auto.
  - destruct (H i e (or_introl eq_refl)) as [H1 H2]. remember (n - (e_dst e - a) - 1) as q eqn:Eq. replace n with ((e_dst e - a) + S q) by lia.
    specialize (IH (e_dst e - a + S q) a ltac:(intros j f Hj; specialize (H j f (or_intror Hj)); lia)).
    rewrite seq_app, flat_map_app in IH |- *. cbn [seq flat_map] in IH |- *. assert (Ea : a + (e_dst e - a) = e_dst e) by lia. rewrite Ea in IH |- *. clear Ea.
    assert (No : forall vs, ~ In (e_dst e) vs -> flat_map (fun v => map snd (rev (filter (fun x : nat * edge => e_dst (snd x) =? v) ((i, e) :: ie)))) vs = flat_map (fun v => map snd (rev (filter (fun x : nat * edge => e_dst (snd x) =? v) ie))) vs).
    { induction vs as [|w vs IHv]; intros Hn; auto. cbn [flat_map]. rewrite IHv by (intros K; apply Hn; right; auto). cbn [filter snd]. destruct (Nat.eqb_spec (e_dst e) w) as [Hw|]; [elim Hn; left; symmetry; exact Hw|reflexivity]. }
    rewrite No by (rewrite in_seq; lia). rewrite (No (seq (S (e_dst e)) _)) by (rewrite in_seq; lia).
    cbn [filter snd map]. rewrite Nat.eqb_refl. cbn [rev]. rewrite map_app. cbn [map snd].
    rewrite <- app_assoc. cbn [app]. rewrite <- IH. rewrite !app_assoc. apply Permutation_sym. apply Permutation_middle.
Qed.
Lemma indexed_edges g : map snd (indexed g) = g_edges g.
Proof.
  unfold indexed. generalize 0. induction (g_edges g) as [|e l IH]; intros a; cbn; auto. f_equal. apply IH.
Qed.
Lemma all_once g : well_formed g -> Permutation (flat_map (fun v => map snd (in_edges g v)) (seq 0 (g_n g))) (g_edges g).
Proof. intros W. rewrite <- (indexed_edges g). apply edges_once. intros i e H. apply in_indexed in H. destruct (W e H). lia. Qed.

(** Every node is shown as what its connections make it. *)
Theorem C53_types : forall g, well_formed g -> exists cs ts, widget_new g = Ret (cs, ts) /\ length ts = g_n g /\ forall v t, nth_error ts v = Some t -> shown_as g v t.
Proof.
  intros g W. destruct (all_edges_ok g (seq 0 (g_n g)) W [] [] (repeat NUnknown (g_n g))) as (ts & E & L & T); [|apply repeat_length|].
  { intros v Hv. rewrite (nth_error_nth' _ NUnknown) by (rewrite repeat_length; auto). f_equal. apply nth_repeat. }
  do 2 eexists. split; [exact E|]. split; [exact L|]. intros v t Ht. assert (Hv : v < g_n g) by (rewrite <- L; apply nth_error_Some; congruence).
  rewrite (T v Hv) in Ht. injection Ht as <-. cbn [app]. set (l := flat_map _ _). assert (P : Permutation l (g_edges g)) by (apply all_once; auto).
  assert (I1 : existsb (fun e => e_dst e =? v) l = true <-> has_incoming g v).
  { rewrite existsb_exists. unfold has_incoming. split; intros (e & H1 & H2); exists e; (split; [|first [apply Nat.eqb_eq; exact H2|apply Nat.eqb_eq in H2; exact H2]]); [apply (Permutation_in e P); auto|apply (Permutation_in e (Permutation_sym P)); auto]. }
  assert (I2 : existsb (fun e => e_src e =? v) l = true <-> has_outgoing g v).
  { rewrite existsb_exists. unfold has_outgoing. split; intros (e & H1 & H2); exists e; (split; [|first [apply Nat.eqb_eq; exact H2|apply Nat.eqb_eq in H2; exact H2]]); [apply (Permutation_in e P); auto|apply (Permutation_in e (Permutation_sym P)); auto]. }
  unfold typed. destruct (existsb (fun e => e_dst e =? v) l), (existsb (fun e => e_src e =? v) l); cbn [class shown_as]; (split; [first [apply I1; reflexivity|intros K; apply I1 in K; discriminate]|first [apply I2; reflexivity|intros K; apply I2 in K; discriminate]]).
Qed.
Print Assumptions C53_types.
(** Every connection is drawn once, and no two end in the same port of a node. *)
Theorem C53_connections : forall g, well_formed g -> exists cs ts, widget_new g = Ret (cs, ts) /\
  Permutation (map (fun c => match c with (s, _, d, _) => (s, d) end) cs) (map (fun e => (e_src e, e_dst e)) (g_edges g)) /\
  NoDup (map (fun c => match c with (_, _, d, p) => (d, p) end) cs).
Proof.
  intros g W. destruct (all_edges_ok g (seq 0 (g_n g)) W [] [] (repeat NUnknown (g_n g))) as (ts & E & L & T); [|apply repeat_length|].
  { intros v Hv. rewrite (nth_error_nth' _ NUnknown) by (rewrite repeat_length; auto). f_equal. apply nth_repeat. }
  rewrite app_nil_l in E. do 2 eexists. split; [exact E|].
  assert (Po : forall (es : list (nat * edge)) a, map (fun x => (e_src (snd (snd x)), e_dst (snd (snd x)))) (combine (seq a (length es)) es) = map (fun e => (e_src (snd e), e_dst (snd e))) es).
  { induction es as [|e es IH]; intros a; cbn; auto. f_equal. apply IH. }
  split.
  - assert (Q : forall l, map (fun c => match c with (s, _, d, _) => (s, d) end) (flat_map (ports g) l) = map (fun e => (e_src e, e_dst e)) (flat_map (fun v => map snd (in_edges g v)) l)).
    { induction l as [|v l IH]; [reflexivity|]. simpl flat_map. rewrite !map_app, IH. f_equal.
      unfold ports. rewrite !map_map. rewrite <- (Po (in_edges g v) 0). reflexivity. }
    rewrite Q. apply Permutation_map. apply all_once. exact W.
  - generalize (seq 0 (g_n g)) (seq_NoDup (g_n g) 0). induction l as [|v l IH]; intros N0; [constructor|]. simpl flat_map. inversion N0 as [|? ? N1 N2]; subst.
    assert (Dp : forall c w, In c (ports g w) -> match c with (_, _, d, p) => d = w end).
    { intros [[[s0 z] d] p] w H. unfold ports in H. apply in_map_iff in H. destruct H as ([q [i e]] & H1 & H2). apply in_combine_r in H2. apply in_in_edges in H2. cbn in H1. injection H1 as <- <- <- <-. tauto. }
    rewrite map_app. apply NoDup_app.
    + unfold ports. rewrite map_map. apply (NoDup_map_inv snd). rewrite map_map. cbn [snd].
      replace (map (fun x : nat * (nat * edge) => fst x) (combine (seq 0 (length (in_edges g v))) (in_edges g v))) with (seq 0 (length (in_edges g v))); [apply seq_NoDup|].
      generalize 0. induction (in_edges g v) as [|e es IHe]; intros a; cbn; auto. f_equal. apply IHe.
    + apply IH. exact N2.
    + intros [d p] H1 H2. apply in_map_iff in H1, H2. destruct H1 as ([[[s1 z1] d1] p1] & K1 & H1). destruct H2 as ([[[s2 z2] d2] p2] & K2 & H2). injection K1 as -> ->. injection K2 as -> ->.
      apply in_flat_map in H2. destruct H2 as (w & Hw & H2). apply Dp in H1, H2. cbn in *. subst. contradiction.
Qed.
Print Assumptions C53_connections.
Example C53_case : let g := Graph 4 [Edge 0 1 "a"; Edge 1 2 "b"; Edge 0 2 "a"] in
  well_formed g /\ widget_new g = Ret ([(0, 0, 1, 0); (0, 0, 2, 0); (1, 0, 2, 1)], [NSource; NTask; NSink; NUnknown]).
Proof. cbv zeta. split; [|vm_compute; reflexivity]. intros e H. cbn in H. destruct H as [<-|[<-|[<-|[]]]]; cbn; lia. Qed.

Local Open Scope N_scope.
(** * C59: specification *)
Definition set_time (o : option_cutime) : Prop := oct_raw o <> 2 ^ 64 - 1.
Definition took (m : metadata) : N := oct_raw (md_end m) - oct_raw (md_start m).
(** The durations below this can be recorded, about 8.59 s. *)
Definition limit : N := 2 ^ 33.
Definition acceptable (m : metadata) : Prop :=
  set_time (md_start m) /\ set_time (md_end m) /\ oct_raw (md_start m) <= oct_raw (md_end m) /\ took m < limit.
Definition whole (msgs : list metadata) : metadata :=
  let d := Metadata oct_none oct_none [] in Metadata (md_start (hd d msgs)) (md_end (last msgs d)) [].
Definition acceptable_list (msgs : list metadata) : Prop :=
  (forall m, In m msgs -> acceptable m /\ md_status m <> []) /\ acceptable (whole msgs).
(** The durations of task [i]. *)
Definition durations (i : nat) (cls : list (list metadata)) : list N := flat_map (fun msgs => match nth_error msgs i with Some m => [took m] | None => [] end) cls.
Definition shown (m : metadata) : list N := match md_status m with 0 :: _ => [] | s => s end.
Definition described (s : stats) (l : list N) : Prop :=
  describes (h_total (s_bare s)) (hist_min (s_bare s)) (hist_max (s_bare s)) (hist_mean (s_bare s)) l /\
  describes (h_total (s_jitter s)) (hist_min (s_jitter s)) (hist_max (s_jitter s)) (hist_mean (s_jitter s)) (gaps l).

(** * C59: proof *)
Lemma upd_mid {A} (dn : list A) x y r : upd (length dn) y (dn ++ x :: r) = dn ++ y :: r.
Proof. induction dn as [|a dn IH]; cbn; auto. f_equal. exact IH. Qed.
Lemma nth_mid {A} (dn : list A) x r : nth_error (dn ++ x :: r) (length dn) = Some x.
Proof. rewrite nth_error_app2 by lia. rewrite Nat.sub_diag. reflexivity. Qed.
Lemma unwrap_spec o : (set_time o -> oct_unwrap o = Ret (oct_raw o)) /\ (~ set_time o -> oct_unwrap o = Panic).
Proof.
  unfold set_time, oct_unwrap, oct_is_none, NONE_VALUE. change (0xFFFFFFFFFFFFFFFF) with (2 ^ 64 - 1). destruct (N.eqb_spec (oct_raw o) (2 ^ 64 - 1)); split; intros; auto; contradiction.
Qed.
Lemma unwrap_inv o t : oct_unwrap o = Ret t -> set_time o /\ t = oct_raw o.
Proof. unfold set_time, oct_unwrap, oct_is_none, NONE_VALUE. change (0xFFFFFFFFFFFFFFFF) with (2 ^ 64 - 1). destruct (N.eqb_spec (oct_raw o) (2 ^ 64 - 1)); [discriminate|]. intros X. injection X as <-. auto. Qed.
Definition snoc_each (hs : list (list N)) (msgs : list metadata) : list (list N) := map (fun p => fst p ++ [took (snd p)]) (combine hs msgs).
Lemma update_each_ok msgs : forall dn ss hs, Forall2 (keeps limit) ss hs -> length msgs = length ss ->
  ((forall m, In m msgs -> acceptable m) -> exists ss', update_each (length dn) msgs (dn ++ ss) = Ret (dn ++ ss') /\ Forall2 (keeps limit) ss' (snoc_each hs msgs)) /\
  (forall r, update_each (length dn) msgs (dn ++ ss) = Ret r -> forall m, In m msgs -> acceptable m).
Proof.
  induction msgs as [|m msgs IH]; intros dn ss hs F L.
  - destruct ss; [|discriminate]. inversion F; subst. split; [intros _; exists []; split; [reflexivity|constructor]|intros r _ m []].
  - destruct F as [|s h ss hs K F]; [discriminate|]. cbn in L. injection L as L. cbn [update_each]. destruct (keeps_record _ _ _ (took m) K) as [R1 R2]. split.
    + intros A. destruct (A m (or_introl eq_refl)) as (S1 & S2 & Le & Lt).
      rewrite (proj1 (unwrap_spec _) S1), (proj1 (unwrap_spec _) S2). cbn [obind]. rewrite nth_mid. unfold sub. destruct (N.ltb_spec (oct_raw (md_end m)) (oct_raw (md_start m))); [lia|]. cbn [obind].
      destruct (R1 Lt) as (s' & E1 & K1). unfold took in E1. rewrite E1. cbn [obind]. rewrite upd_mid.
      destruct (IH (dn ++ [s']) ss hs F L) as [IH1 _]. destruct IH1 as (ss' & E2 & F2); [intros m0 H0; apply A; right; auto|].
      rewrite app_length in E2. cbn [length] in E2. rewrite <- !app_assoc in E2. cbn [app] in E2. rewrite E2. exists (s' :: ss'). split; [reflexivity|]. constructor; auto.
    + intros r E. destruct (oct_unwrap (md_start m)) as [b|] eqn:Eb; [|discriminate]. destruct (oct_unwrap (md_end m)) as [a|] eqn:Ea; [|discriminate]. cbn [obind] in E.
      apply unwrap_inv in Eb, Ea. destruct Eb as [S1 ->]. destruct Ea as [S2 ->]. rewrite nth_mid in E. unfold sub in E. destruct (N.ltb_spec (oct_raw (md_end m)) (oct_raw (md_start m))) as [|Le]; [discriminate|]. cbn [obind] in E.
      fold (took m) in E. destruct (N.lt_ge_cases (took m) limit) as [Lt|Ge]; [|rewrite R2 in E by auto; discriminate].
      destruct (R1 Lt) as (s' & E1 & K1). rewrite E1 in E. cbn [obind] in E. rewrite upd_mid in E.
      intros m0 [<-|H0]; [repeat split; auto|]. destruct (IH (dn ++ [s']) ss hs F L) as [_ IH2]. apply (IH2 r); auto. rewrite app_length, <- app_assoc. exact E.
Qed.
Lemma status_each_ok msgs : forall dn ts, length msgs = length ts ->
  ((forall m, In m msgs -> md_status m <> []) -> status_each (length dn) msgs (dn ++ ts) = Ret (dn ++ map shown msgs)) /\
  (forall r, status_each (length dn) msgs (dn ++ ts) = Ret r -> forall m, In m msgs -> md_status m <> []).
Proof.
  induction msgs as [|m msgs IH]; intros dn ts L.
  - destruct ts; [|discriminate]. split; [reflexivity|]. intros r _ m [].
  - destruct ts as [|t ts]; [discriminate|]. injection L as L. cbn [status_each]. rewrite nth_mid. destruct (md_status m) as [|b st] eqn:Es.
    + split; [intros A; elim (A m (or_introl eq_refl)); auto|discriminate].
    + rewrite upd_mid. set (x := if b =? 0 then [] else b :: st). assert (X : x = shown m) by (unfold x, shown; rewrite Es; destruct b; reflexivity).
      destruct (IH (dn ++ [x]) ts L) as [IH1 IH2]. rewrite app_length, <- app_assoc in IH1, IH2. cbn [length app] in IH1, IH2. split.
      * intros A. rewrite IH1 by (intros m0 H0; apply A; right; auto). rewrite <- app_assoc. cbn [map app]. rewrite X. reflexivity.
      * intros r E m0 [<-|H0]; [congruence|]. apply (IH2 r E m0 H0).
Qed.
Lemma last_any {A} (a : A) l : forall x y, last (a :: l) x = last (a :: l) y.
Proof. revert a. induction l as [|b l IH]; intros a x y; [reflexivity|]. apply (IH b). Qed.
Lemma end_to_end_ok msgs : msgs <> [] -> forall s l, keeps limit s l ->
  (acceptable (whole msgs) -> exists v s', end_to_end msgs = Ret v /\ stats_record s v = Ret s' /\ keeps limit s' (l ++ [took (whole msgs)])) /\
  (forall v s', end_to_end msgs = Ret v -> stats_record s v = Ret s' -> acceptable (whole msgs)).
Proof.
  intros N0 s l K. destruct msgs as [|f msgs]; [congruence|]. unfold end_to_end. set (d := Metadata oct_none oct_none []).
  rewrite (last_any f msgs f d).
  unfold acceptable, whole. fold d. cbn [md_start md_end hd]. set (e := last (f :: msgs) d). unfold took. cbn [md_start md_end].
  destruct (keeps_record _ _ _ (oct_raw (md_end e) - oct_raw (md_start f)) K) as [R1 R2]. split.
  - intros (S1 & S2 & Le & Lt). rewrite (proj1 (unwrap_spec _) S1), (proj1 (unwrap_spec _) S2). cbn [obind]. unfold sub.
    destruct (N.ltb_spec (oct_raw (md_end e)) (oct_raw (md_start f))); [lia|]. destruct (R1 Lt) as (s' & E1 & K1). eauto.
  - intros v s' E1 E2. destruct (oct_unwrap (md_end e)) as [b|] eqn:Eb; [|discriminate]. destruct (oct_unwrap (md_start f)) as [a|] eqn:Ea; [|discriminate]. cbn [obind] in E1.
    apply unwrap_inv in Eb, Ea. destruct Eb as [S1 ->]. destruct Ea as [S2 ->]. unfold sub in E1. destruct (N.ltb_spec (oct_raw (md_end e)) (oct_raw (md_start f))) as [|Le]; [discriminate|].
    injection E1 as <-. split; [auto|]. split; [auto|]. split; [auto|]. destruct (N.lt_ge_cases (oct_raw (md_end e) - oct_raw (md_start f)) limit) as [|Ge]; [auto|]. rewrite R2 in E2 by auto. discriminate.
Qed.
(** One copper list. *)
Lemma process_ok n msgs k hs l : (0 < n)%nat -> length msgs = n -> Forall2 (keeps limit) (k_stats k) hs -> length hs = n -> keeps limit (k_end2end k) l -> length (k_statuses k) = n ->
  (acceptable_list msgs -> exists k', process_copperlist msgs k = Ret k' /\ Forall2 (keeps limit) (k_stats k') (snoc_each hs msgs) /\ keeps limit (k_end2end k') (l ++ [took (whole msgs)]) /\ k_statuses k' = map shown msgs) /\
  (forall k', process_copperlist msgs k = Ret k' -> acceptable_list msgs).
Proof.
  intros Hn L F Lh K Lt. assert (Ls : length msgs = length (k_stats k)) by (rewrite (Forall2_length _ _ _ F); lia).
  destruct (update_each_ok msgs [] (k_stats k) hs F Ls) as [U1 U2]. destruct (status_each_ok msgs [] (k_statuses k) ltac:(lia)) as [T1 T2].
  destruct (end_to_end_ok msgs ltac:(intros ->; cbn in L; lia) _ _ K) as [E1 E2]. cbn [length app] in *. unfold process_copperlist, acceptable_list. split.
  - intros [A W]. destruct U1 as (ss' & -> & F'); [intros m H; apply (A m H)|]. destruct (E1 W) as (v & s' & -> & Ev & K'). cbn [obind]. rewrite Ev. cbn [obind]. rewrite T1 by (intros m H; apply (A m H)). cbn [obind].
    eexists. split; [reflexivity|]. cbn. auto.
  - intros k' E. destruct (update_each 0 msgs (k_stats k)) as [ss|] eqn:Eu; [|discriminate]. destruct (end_to_end msgs) as [v|] eqn:Ee; [|discriminate]. cbn [obind] in E.
    destruct (stats_record (k_end2end k) v) as [s'|] eqn:Es; [|discriminate]. cbn [obind] in E. destruct (status_each 0 msgs (k_statuses k)) as [ts|] eqn:Et; [|discriminate].
    split; [|eapply E2; eauto]. intros m H. split; [eapply U2; eauto|eapply T2; eauto].
Qed.
Definition wholes (cls : list (list metadata)) : list N := map (fun msgs => took (whole msgs)) cls.
Lemma nth_combine {A B} (l : list A) (r : list B) : length l = length r -> forall i, nth_error (combine l r) i = match nth_error l i, nth_error r i with Some x, Some y => Some (x, y) | _, _ => None end.
Proof.
  revert r. induction l as [|x l IH]; intros [|y r] L i; try discriminate; cbn [combine]; [destruct i; reflexivity|]. destruct i; cbn [nth_error]; [reflexivity|]. apply IH. auto.
Qed.
Lemma snoc_nth hs msgs i : length hs = length msgs -> nth_error (snoc_each hs msgs) i = match nth_error hs i, nth_error msgs i with Some h, Some m => Some (h ++ [took m]) | _, _ => None end.
Proof. intros L. unfold snoc_each. rewrite nth_error_map, nth_combine by auto. destruct (nth_error hs i), (nth_error msgs i); reflexivity. Qed.
Lemma snoc_len hs msgs : length hs = length msgs -> length (snoc_each hs msgs) = length hs.
Proof. intros L. unfold snoc_each. rewrite map_length, combine_length. lia. Qed.
Lemma watch_ok n cls : (0 < n)%nat -> (forall msgs, In msgs cls -> length msgs = n) -> forall k hs l, Forall2 (keeps limit) (k_stats k) hs -> length hs = n -> keeps limit (k_end2end k) l -> length (k_statuses k) = n ->
  ((forall msgs, In msgs cls -> acceptable_list msgs) -> exists k' hs', watch cls k = Ret k' /\ Forall2 (keeps limit) (k_stats k') hs' /\ length hs' = n /\
     (forall i h, nth_error hs i = Some h -> nth_error hs' i = Some (h ++ durations i cls)) /\
     keeps limit (k_end2end k') (l ++ wholes cls) /\ k_statuses k' = match cls with [] => k_statuses k | _ => map shown (last cls []) end) /\
  (forall k', watch cls k = Ret k' -> forall msgs, In msgs cls -> acceptable_list msgs).
Proof.
  intros Hn. induction cls as [|msgs cls IH]; intros Len k hs l F Lh K Lt.
  - split; [intros _; exists k, hs|intros k' _ m []]. split; [reflexivity|]. split; [auto|]. split; [auto|]. split; [intros i h H; rewrite app_nil_r; auto|]. split; [cbn; rewrite app_nil_r; auto|reflexivity].
  - destruct (process_ok n msgs k hs l Hn (Len _ (or_introl eq_refl)) F Lh K Lt) as [P1 P2]. assert (Lm : length msgs = n) by (apply Len; left; auto).
    cbn [watch]. split.
    + intros A. destruct (P1 (A _ (or_introl eq_refl))) as (k1 & E1 & F1 & K1 & T1). rewrite E1. cbn [obind].
      destruct (IH ltac:(intros; apply Len; right; auto) k1 (snoc_each hs msgs) _ F1 ltac:(rewrite snoc_len; lia) K1 ltac:(rewrite T1, map_length; lia)) as [IH1 _].
      destruct IH1 as (k' & hs' & E & F' & Lh' & D & K' & T'); [intros; apply A; right; auto|].
      exists k', hs'. split; [auto|]. split; [auto|]. split; [auto|]. split; [|split].
      * intros i h Hi. destruct (nth_error msgs i) as [m|] eqn:Em.
        -- rewrite (D i (h ++ [took m])) by (rewrite snoc_nth, Hi, Em by lia; reflexivity). unfold durations. cbn [flat_map]. rewrite Em, <- app_assoc. reflexivity.
        -- apply nth_error_None in Em. assert (i < length hs)%nat by (apply nth_error_Some; congruence). lia.
      * rewrite <- app_assoc in K'. exact K'.
      * rewrite T'. destruct cls; [exact T1|reflexivity].
    + intros k' E. destruct (process_copperlist msgs k) as [k1|] eqn:E1; [|discriminate]. cbn [obind] in E. pose proof (P2 _ eq_refl) as A1. destruct (P1 A1) as (k1' & E1' & F1 & K1 & T1). injection E1' as <-.
      destruct (IH ltac:(intros; apply Len; right; auto) k1 (snoc_each hs msgs) _ F1 ltac:(rewrite snoc_len; lia) K1 ltac:(rewrite T1, map_length; lia)) as [_ IH2].
      intros m0 [<-|H0]; [auto|eapply IH2; eauto].
Qed.
Lemma keeps_described s l : keeps limit s l -> described s l.
Proof. intros [B J La L1 L2]. split; apply holds_describes; auto; rewrite ?L1, ?L2; unfold limit; lia. Qed.
(** The console survives a run exactly when every time is set, no task and no copper list
    ends before it starts or lasts 2^33 ns or longer, and no status is empty; its statistics
    then are those of all durations of each task and of all copper lists, and it shows the
    last status of each task. Missing for C59 as stated: the other runs (refuted below). *)
Theorem C59_exact_partial : forall n cls, (0 < n)%nat -> (forall msgs, In msgs cls -> length msgs = n) -> exists k0, console_new n = Ret k0 /\
  (watch cls k0 <> Panic <-> forall msgs, In msgs cls -> acceptable_list msgs) /\
  forall k, watch cls k0 = Ret k -> length (k_stats k) = n /\
    (forall i s, nth_error (k_stats k) i = Some s -> described s (durations i cls) /\ h_total (s_bare s) = N.of_nat (length cls)) /\
    described (k_end2end k) (wholes cls) /\ (forall l msgs, cls = l ++ [msgs] -> k_statuses k = map shown msgs).
Proof.
  intros n cls Hn Len. unfold console_new. destruct (stats_new 5000000000) as [s0|] eqn:E0; [|vm_compute in E0; discriminate]. cbn [obind]. eexists. split; [reflexivity|].
  pose proof (keeps_new _ _ E0) as K0. change (cover 53 2048 5000000000) with limit in K0.
  destruct (watch_ok n cls Hn Len (Console (repeat s0 n) s0 (repeat [] n)) (repeat [] n) []) as [W1 W2]; cbn [k_stats k_end2end k_statuses]; auto using repeat_length.
  { clear -K0. induction n; cbn; constructor; auto. }
  split; [split|].
  - intros X. destruct (watch cls _) as [k|] eqn:E; [eauto|congruence].
  - intros A. destruct (W1 A) as (k & hs & -> & _). discriminate.
  - intros k E. destruct (W1 (W2 _ E)) as (k' & hs & E' & F & Lh & D & K & T). rewrite E in E'. injection E' as <-. split; [rewrite (Forall2_length _ _ _ F); auto|]. split; [|split].
    + intros i s Hs. assert (Hi : (i < n)%nat) by (rewrite <- Lh, <- (Forall2_length _ _ _ F); apply nth_error_Some; congruence).
      assert (Hh : nth_error hs i = Some (durations i cls)). { apply (D i []). rewrite (nth_error_nth' _ []) by (rewrite repeat_length; auto). f_equal. apply nth_repeat. }
      assert (Ks : keeps limit s (durations i cls)). { clear -F Hs Hh. revert Hs Hh. generalize (durations i cls) as h. revert i. induction F as [|x y l r P F IH]; intros i h Hs Hh; destruct i; try discriminate; cbn in Hs, Hh; [congruence|eauto]. }
      split; [apply keeps_described; auto|]. rewrite (o_total _ _ (k_bare _ _ _ Ks)). f_equal. clear -Len Hi. induction cls as [|m cls IH]; auto. unfold durations. cbn [flat_map]. rewrite app_length. cbn [length].
      destruct (nth_error m i) eqn:Em; [cbn; f_equal; apply IH; intros; apply Len; right; auto|]. apply nth_error_None in Em. rewrite (Len m (or_introl eq_refl)) in Em. lia.
    + apply keeps_described. exact K.
    + intros l msgs ->. rewrite T. destruct (l ++ [msgs]) eqn:El; [destruct l; discriminate|]. rewrite <- El. rewrite last_last. reflexivity.
Qed.
Print Assumptions C59_exact_partial.
(** A task that sets no status text kills the monitor. *)
Theorem C59_status_refuted : exists k0 m, console_new 1 = Ret k0 /\ acceptable m /\ acceptable (whole [m]) /\ md_status m = [] /\ process_copperlist [m] k0 = Panic.
Proof.
  eexists. exists (Metadata (OptionCuTime 10) (OptionCuTime 20) []). split; [vm_compute; reflexivity|]. split; [vm_compute; repeat split; discriminate|]. split; [vm_compute; repeat split; discriminate|]. split; [reflexivity|]. vm_compute. reflexivity.
Qed.
Print Assumptions C59_status_refuted.
(** So does a task that takes 8.6 s. *)
Theorem C59_duration_refuted : exists k0 m, console_new 1 = Ret k0 /\ set_time (md_start m) /\ set_time (md_end m) /\ took m = 8600000000 /\ md_status m <> [] /\ process_copperlist [m] k0 = Panic.
Proof.
  eexists. exists (Metadata (OptionCuTime 10) (OptionCuTime 8600000010) [79; 75]). split; [vm_compute; reflexivity|]. split; [vm_compute; discriminate|]. split; [vm_compute; discriminate|]. split; [reflexivity|]. split; [discriminate|]. vm_compute. reflexivity.
Qed.
Print Assumptions C59_duration_refuted.
Example C59_case : let a := Metadata (OptionCuTime 10) (OptionCuTime 30) [79; 75] in let b := Metadata (OptionCuTime 40) (OptionCuTime 45) [0; 0] in
  acceptable_list [a; b] /\ durations 1 [[a; b]; [b; a]; [a; b]] = [5; 20; 5] /\ wholes [[a; b]; [a; b]] = [35; 35] /\ shown a = [79; 75] /\ shown b = [] /\
  exists k0 k, console_new 2 = Ret k0 /\ watch [[a; b]; [a; b]] k0 = Ret k /\ k_statuses k = [[79; 75]; []] /\ map (fun s => hist_max (s_bare s)) (k_stats k) = [20; 5].
Proof.
  cbv zeta. split. { split; [intros m [<-|[<-|[]]]; (split; [vm_compute; repeat split; discriminate|discriminate])|vm_compute; repeat split; discriminate]. }
  split; [reflexivity|]. split; [reflexivity|]. split; [reflexivity|]. split; [reflexivity|]. eexists. eexists. split; [vm_compute; reflexivity|]. split; [vm_compute; reflexivity|]. split; reflexivity.
Qed.
