(** Refinement of the copper list manager to a bounded stack. *)
From Coq Require Import List Arith NArith Bool Lia Sorted Permutation ZifyBool ZifyNat ZifyN ZArith.
From Verif Require Import Base CuListModel CuListSpec.
Import ListNotations.
Ltac Zify.zify_post_hook ::= Z.div_mod_to_equations.

Section Proofs.
Context {P : Type}.
Implicit Types m : mgr P.

Definition wf m : Prop :=
  0 < cap m /\ m_len m <= cap m /\ m_ins m = m_len m mod cap m.

(** Live lists, newest first. *)
Definition stack m : list (cl P) := rev (firstn (m_len m) (m_data m)).

Lemma wf_ins m : wf m ->
  (m_len m < cap m /\ m_ins m = m_len m) \/ (m_len m = cap m /\ m_ins m = 0).
Proof.
  intros (H1 & H2 & H3). destruct (Nat.eq_dec (m_len m) (cap m)) as [E|E].
  - right. rewrite E in H3. rewrite Nat.mod_same in H3 by lia. lia.
  - left. rewrite Nat.mod_small in H3 by lia. lia.
Qed.

Lemma wf_mk d l i n : 0 < length d -> l <= length d ->
  i = l mod (length d) -> wf (mkMgr (P:=P) d l i n).
Proof. unfold wf, cap; cbn; auto. Qed.

Lemma stack_length m : wf m -> length (stack m) = m_len m.
Proof.
  intros (_ & H & _). unfold stack. rewrite rev_length, firstn_length.
  unfold cap in H. lia.
Qed.

Lemma prev_ins_eq m : wf m -> 0 < m_len m -> prev_ins m = m_len m - 1.
Proof.
  intros W H. unfold prev_ins. destruct (wf_ins m W) as [[A B]|[A B]]; rewrite B.
  - destruct (Nat.eqb_spec (m_len m) 0); lia.
  - cbn. lia.
Qed.

Lemma create_spec mode m : wf m ->
  (m_len m = cap m /\ create mode m = Ret None) \/
  (m_len m < cap m /\ exists slot, nth_error (m_data m) (m_len m) = Some slot /\
    create mode m =
    let! nid := succ_u32 mode (m_next m) in
    Ret (Some (mkMgr (upd (m_len m) (mkCl (m_next m) (cl_state slot) (cl_msgs slot)) (m_data m))
                     (m_len m + 1) ((m_len m + 1) mod cap m) nid, m_len m))).
Proof.
  intros W. destruct (wf_ins m W) as [[A B]|[A B]].
  - right. split; auto.
    destruct (nth_error (m_data m) (m_len m)) as [slot|] eqn:E.
    + exists slot; split; auto. unfold create, is_full.
      destruct (Nat.eqb_spec (cap m) (m_len m)); [lia|].
      rewrite B, E. reflexivity.
    + apply nth_error_None in E. unfold cap in A. lia.
  - left. split; auto. unfold create, is_full. rewrite A, Nat.eqb_refl. reflexivity.
Qed.

Lemma pop_spec m : wf m ->
  (m_len m = 0 /\ pop m = Ret (m, None)) \/
  (exists c t, stack m = c :: t /\
     pop m = Ret (mkMgr (m_data m) (m_len m - 1) (m_len m - 1) (m_next m), Some c) /\
     peek m = Ret (Some c) /\
     drop_last m = mkMgr (m_data m) (m_len m - 1) (m_len m - 1) (m_next m) /\
     wf (mkMgr (m_data m) (m_len m - 1) (m_len m - 1) (m_next m)) /\
     stack (mkMgr (m_data m) (m_len m - 1) (m_len m - 1) (m_next m)) = t).
Proof.
  intros W. destruct (Nat.eq_dec (m_len m) 0) as [E|E].
  - left. split; auto. unfold pop. rewrite E. reflexivity.
  - right. pose proof W as (W1 & W2 & W3).
    destruct (nth_error (m_data m) (m_len m - 1)) as [c|] eqn:En.
    2:{ apply nth_error_None in En. unfold cap in *. lia. }
    exists c, (rev (firstn (m_len m - 1) (m_data m))).
    unfold pop, peek, drop_last. rewrite prev_ins_eq by (auto; lia).
    destruct (Nat.eqb_spec (m_len m) 0); [lia|]. rewrite En.
    repeat split; auto.
    + unfold stack. replace (m_len m) with (S (m_len m - 1)) at 1 by lia.
      rewrite (firstn_S_nth _ _ _ En), rev_app_distr. reflexivity.
    + unfold cap in *. cbn. lia.
    + unfold cap in *; cbn. rewrite Nat.mod_small; lia.
Qed.

Lemma empty_spec m : wf m -> m_len m = 0 ->
  peek m = Ret None /\ drop_last m = m /\ stack m = [].
Proof.
  intros W E. unfold peek, drop_last, stack. rewrite E. auto.
Qed.

Definition rel (s : sstate P) m : Prop :=
  wf m /\ stack m = fst s /\ m_next m = snd s.

Lemma succ_u32_small mode x : (x + 1 < 2 ^ 32)%N -> succ_u32 mode x = Ret (x + 1)%N.
Proof. intros H. unfold succ_u32. apply N.ltb_lt in H. now rewrite H. Qed.

Definition is_create (o : op P) : bool :=
  match o with OCreate _ _ => true | _ => false end.

Lemma step_refines mode m s o : rel s m ->
  (is_create o = true -> (snd s + 1 < 2 ^ 32)%N) ->
  exists m', step mode m o = Ret (m', snd (spec_step (cap m) s o)) /\
             rel (fst (spec_step (cap m) s o)) m' /\ cap m' = cap m.
Proof.
  destruct s as [st next]. intros (W & Hs & Hn) Hc. cbn in Hs, Hn.
  pose proof (stack_length m W) as HL. rewrite Hs in HL.
  destruct o as [cs p| | | | | | |]; cbn [step spec_step].
  - cbn in Hc. destruct (create_spec mode m W) as [[A E]|[A (slot & En & E)]]; rewrite E.
    + cbn. destruct (Nat.ltb_spec (length st) (cap m)); [lia|].
      exists m. cbn. repeat split; auto; try apply W.
    + rewrite succ_u32_small by (rewrite Hn; auto).
      cbn [obind]. cbn [m_data].
      rewrite nth_error_upd_eq by (unfold cap in A; lia). cbn.
      destruct (Nat.ltb_spec (length st) (cap m)); [|lia]. cbn. rewrite Hn.
      eexists; split; [reflexivity|]. unfold rel, wf, cap. cbn.
      rewrite !upd_length. unfold cap in *. destruct W as (W1 & W2 & W3); unfold cap in *.
      repeat split; auto; try lia.
      unfold stack; cbn. rewrite Nat.add_1_r.
      rewrite firstn_S_upd by (rewrite upd_length; lia).
      rewrite firstn_upd_ge by lia.
      rewrite rev_app_distr. cbn. f_equal. apply Hs.
  - destruct (pop_spec m W) as [[A E]|(c & t & Es & E & _ & _ & W' & Es')]; rewrite E.
    + assert (st = []) as -> by (destruct st; [reflexivity | cbn in HL; lia]).
      cbn. exists m. repeat split; auto; apply W.
    + assert (st = c :: t) as -> by congruence. cbn. eexists; split; [reflexivity|].
      repeat split; auto; apply W'.
  - destruct (pop_spec m W) as [[A E]|(c & t & Es & E & Ep & _)].
    + destruct (empty_spec m W A) as (Ep & _ & Es). rewrite Ep. assert (st = []) as -> by congruence.
      cbn. exists m. repeat split; auto; apply W.
    + rewrite Ep. assert (st = c :: t) as -> by congruence. cbn. exists m. repeat split; auto; apply W.
  - destruct (pop_spec m W) as [[A E]|(c & t & Es & E & _ & Ed & W' & Es')].
    + destruct (empty_spec m W A) as (_ & Ed & Es). rewrite Ed. assert (st = []) as -> by congruence.
      cbn. exists m. repeat split; auto; apply W.
    + rewrite Ed. assert (st = c :: t) as -> by congruence. cbn. eexists; split; [reflexivity|].
      repeat split; auto; apply W'.
  - cbn. eexists; split; [reflexivity|]. unfold rel, wf, clear, cap; cbn.
    destruct W as (W1 & W2 & W3). unfold cap in *. repeat split; auto; try lia.
    rewrite Nat.mod_0_l; lia.
  - cbn. exists m. rewrite HL. repeat split; auto; apply W.
  - cbn. exists m. unfold is_full. rewrite HL, Nat.eqb_sym. repeat split; auto; apply W.
  - cbn. exists m. unfold is_empty. rewrite HL. repeat split; auto; apply W.
Qed.

Lemma spec_next cp s o :
  snd (fst (spec_step cp s o)) = (snd s + if is_create o && (length (fst s) <? cp)%nat then 1 else 0)%N
  /\ (is_create o = false -> snd (fst (spec_step cp s o)) = snd s).
Proof.
  destruct s as [st n]. destruct o; cbn; split; intros; try congruence; try lia.
  - destruct (length st <? cp); cbn; lia.
  - destruct st; cbn; lia.
  - destruct st; reflexivity.
Qed.

Lemma creates_cons (o : op P) ops :
  creates (o :: ops) = (if is_create o then 1 else 0) + creates ops.
Proof. unfold creates. destruct o; reflexivity. Qed.

Lemma run_refines mode ops : forall m s, rel s m ->
  (snd s + N.of_nat (creates ops) < 2 ^ 32)%N ->
  exists m', run mode m ops = Ret (m', snd (spec_run (cap m) s ops)) /\
             rel (fst (spec_run (cap m) s ops)) m' /\ cap m' = cap m.
Proof.
  induction ops as [|o ops IH]; intros m s R Hb; cbn [run spec_run].
  - exists m; auto.
  - rewrite creates_cons in Hb.
    destruct (step_refines mode m s o R) as (m1 & E1 & R1 & C1).
    { intros Hc; rewrite Hc in Hb. lia. }
    rewrite E1. cbn [obind].
    destruct (spec_step (cap m) s o) as [s1 b] eqn:Es. cbn [fst snd] in *.
    destruct (IH m1 s1 R1) as (m2 & E2 & R2 & C2).
    { pose proof (proj1 (spec_next (cap m) s o)) as Hn. rewrite Es in Hn. cbn in Hn. rewrite Hn.
      destruct (is_create o); cbn; try lia. destruct (_ <? _); lia. }
    rewrite C1 in *. rewrite E2. cbn [obind].
    destruct (spec_run (cap m) s1 ops) as [s2 bs]. cbn in *.
    exists m2. repeat split; auto; try apply R2; lia.
Qed.

Lemma rel_new n (zero : P) : 0 < n -> rel ([], 0%N) (mgr_new n zero) /\ cap (mgr_new n zero) = n.
Proof.
  intros H. unfold rel, wf, cap, mgr_new; cbn. rewrite repeat_length.
  repeat split; auto; try lia. rewrite Nat.mod_0_l; lia.
Qed.

(** C07 *)
Lemma mgr_is_bounded_stack mode n (zero : P) ops :
  0 < n -> (N.of_nat (creates ops) < 2 ^ 32)%N ->
  exists m, run mode (mgr_new n zero) ops = Ret (m, snd (spec_run n ([], 0%N) ops)).
Proof.
  intros H Hb. destruct (rel_new n zero H) as [R C].
  destruct (run_refines mode ops _ _ R) as (m & E & _); [cbn; lia|].
  rewrite C in E. eauto.
Qed.

(** Ids, without any bound on the history. *)
Lemma step_wf mode m o m' b : wf m -> step mode m o = Ret (m', b) ->
  wf m' /\ cap m' = cap m /\
  match b with
  | ObCreated (Some i) => i = m_next m /\ succ_u32 mode (m_next m) = Ret (m_next m')
  | _ => m_next m' = m_next m
  end.
Proof.
  intros W E. destruct o as [cs p| | | | | | |].
  - cbn [step] in E. destruct (create_spec mode m W) as [[A Ec]|[A (slot & En & Ec)]]; rewrite Ec in E.
    + cbn in E. injection E as <- <-. auto.
    + destruct (succ_u32 mode (m_next m)) as [nid|] eqn:Hs; [|discriminate].
      cbn [obind] in E. cbn [m_data] in E.
      rewrite nth_error_upd_eq in E by (unfold cap in A; lia). cbn in E.
      injection E as <- <-. unfold wf, cap; cbn. rewrite !upd_length.
      destruct W as (W1 & W2 & W3); unfold cap in *. repeat split; auto; lia.
  - destruct (pop_spec m W) as [[A Ep]|(c & t & Es & Ep & _ & _ & W' & Es')];
      cbn [step] in E; rewrite Ep in E; cbn in E; injection E as <- <-; auto.
  - cbn [step] in E. destruct (peek m); [|discriminate]. injection E as <- <-; auto.
  - destruct (pop_spec m W) as [[A Ep]|(c & t & Es & Ep & _ & Ed & W' & Es')]; cbn [step] in E.
    + destruct (empty_spec m W A) as (_ & Ed & _). rewrite Ed in E. injection E as <- <-; auto.
    + rewrite Ed in E. injection E as <- <-; auto.
  - cbn in E. injection E as <- <-. unfold clear, wf, cap; cbn.
    destruct W as (W1 & W2 & W3); unfold cap in *. repeat split; auto; try lia.
    rewrite Nat.mod_0_l; lia.
  - cbn in E. injection E as <- <-; auto.
  - cbn in E. injection E as <- <-; auto.
  - cbn in E. injection E as <- <-; auto.
Qed.

Lemma run_ids_checked ops : forall m m' bs, wf m -> run Checked m ops = Ret (m', bs) ->
  StronglySorted N.lt (created_ids bs) /\ Forall (fun i => (m_next m <= i < 2 ^ 32)%N) (created_ids bs).
Proof.
  induction ops as [|o ops IH]; intros m m' bs W E; cbn [run] in E.
  - injection E as <- <-. cbn. split; constructor.
  - destruct (step Checked m o) as [[m1 b]|] eqn:E1; [|discriminate]. cbn [obind] in E.
    destruct (run Checked m1 ops) as [[m2 bs']|] eqn:E2; [|discriminate]. cbn in E.
    injection E as <- <-.
    destruct (step_wf _ _ _ _ _ W E1) as (W1 & _ & Hid).
    destruct (IH _ _ _ W1 E2) as [S F].
    assert (Hgen : m_next m1 = m_next m \/
             (m_next m1 = m_next m + 1 /\ m_next m + 1 < 2^32)%N).
    { destruct b as [[i|]| | | |]; auto. destruct Hid as [_ Hs]. unfold succ_u32 in Hs.
      destruct (N.ltb_spec (m_next m + 1) (2^32)); [|discriminate]. injection Hs as Hs. right. lia. }
    assert (Hother : (forall i, b <> ObCreated (Some i)) ->
       created_ids (b :: bs') = created_ids bs').
    { intros Hb. destruct b as [[i|]| | | |]; cbn; auto. exfalso; eapply Hb; eauto. }
    assert (F' : Forall (fun i => (m_next m <= i < 2 ^ 32)%N) (created_ids bs')).
    { eapply Forall_impl; [|exact F]. cbn. intros a Ha. lia. }
    destruct b as [[i|]| | | |]; try (rewrite Hother by congruence; auto).
    destruct Hid as [-> Hs]. cbn [created_ids flat_map app]. fold (created_ids bs').
    unfold succ_u32 in Hs.
    destruct (N.ltb_spec (m_next m + 1) (2^32)); [|discriminate]. injection Hs as Hs.
    split; constructor; auto.
    + eapply Forall_impl; [|exact F]. cbn. intros a Ha. lia.
    + lia.
Qed.

(** C08, builds with overflow checks *)
Lemma ids_increasing_checked n (zero : P) ops m bs :
  0 < n -> run Checked (mgr_new n zero) ops = Ret (m, bs) ->
  StronglySorted N.lt (created_ids bs).
Proof.
  intros H E. destruct (rel_new n zero H) as [(W & _) _].
  exact (proj1 (run_ids_checked _ _ _ _ W E)).
Qed.

(** C08, both build modes, up to 2^32 creations *)
Lemma spec_run_ids cp (ops : list (op P)) : forall s,
  StronglySorted N.lt (created_ids (snd (spec_run cp s ops))) /\
  Forall (fun i => (snd s <= i)%N) (created_ids (snd (spec_run cp s ops))).
Proof.
  induction ops as [|o ops IH]; intros s; cbn [spec_run].
  - cbn; split; constructor.
  - pose proof (proj1 (spec_next cp s o)) as Hn.
    destruct (spec_step cp s o) as [s1 b] eqn:Es. specialize (IH s1).
    destruct (spec_run cp s1 ops) as [s2 bs] eqn:Er. cbn [fst snd] in *.
    destruct IH as [S F].
    assert (F' : Forall (fun i => (snd s <= i)%N) (created_ids bs)).
    { eapply Forall_impl; [|exact F]. cbn. intros a Ha.
      destruct (is_create o && _)%bool; lia. }
    destruct b as [[i|]| | | |]; auto.
    cbn [created_ids flat_map app]. fold (created_ids bs).
    destruct s as [st nx]. destruct o; cbn in Es; try (injection Es as ? ?; discriminate);
      try (destruct st; injection Es as ? ?; discriminate).
    destruct (length st <? cp) eqn:El; [|injection Es as ? ?; discriminate].
    injection Es as <- <-. cbn [fst snd] in *.
    split; constructor; auto; try lia.
    eapply Forall_impl; [|exact F]. cbn. intros a Ha. lia.
Qed.

Lemma ids_increasing_bounded mode n (zero : P) ops m bs :
  0 < n -> (N.of_nat (creates ops) < 2 ^ 32)%N ->
  run mode (mgr_new n zero) ops = Ret (m, bs) ->
  StronglySorted N.lt (created_ids bs).
Proof.
  intros H Hb E. destruct (mgr_is_bounded_stack mode n zero ops H Hb) as [m' E'].
  rewrite E' in E. injection E as _ <-. apply spec_run_ids.
Qed.

(** Wrap-around in release builds. *)
Lemma run_app mode ops1 : forall m ops2,
  run mode m (ops1 ++ ops2) =
  let! (m1, b1) := run mode m ops1 in
  let! (m2, b2) := run mode m1 ops2 in Ret (m2, b1 ++ b2).
Proof.
  induction ops1 as [|o ops1 IH]; intros m ops2; cbn [run app].
  - cbn. destruct (run mode m ops2) as [[? ?]|]; reflexivity.
  - destruct (step mode m o) as [[m1 b]|]; [|reflexivity]. cbn [obind].
    rewrite IH. destruct (run mode m1 ops1) as [[m2 b2]|]; [|reflexivity]. cbn [obind].
    destruct (run mode m2 ops2) as [[m3 b3]|]; reflexivity.
Qed.

Fixpoint cycles (k : nat) (p : P) : list (op P) :=
  match k with O => [] | S k => OCreate Processing p :: OPop :: cycles k p end.

Lemma run_cycles p k : forall m, wf m -> m_len m = 0 -> (m_next m < 2^32)%N ->
  exists m' bs, run Wrapping m (cycles k p) = Ret (m', bs) /\
    wf m' /\ m_len m' = 0 /\ (m_next m' = (m_next m + N.of_nat k) mod 2^32)%N.
Proof.
  induction k as [|k IH]; intros m W L B.
  - exists m, []. cbn [cycles run]. split; auto. split; auto. split; auto.
    rewrite N.add_0_r, N.mod_small; auto.
  - cbn [cycles run].
    destruct (create_spec Wrapping m W) as [[A Ec]|[A (slot & En & Ec)]].
    { destruct W; lia. }
    assert (Hs : succ_u32 Wrapping (m_next m) = Ret ((m_next m + 1) mod 2^32)%N).
    { unfold succ_u32. destruct (N.ltb_spec (m_next m + 1) (2^32)); auto.
      rewrite N.mod_small; auto. }
    cbn [step]. rewrite Ec, Hs. cbn [obind m_data].
    rewrite nth_error_upd_eq by (unfold cap in A; lia). cbn [obind].
    match goal with |- context [pop ?x] => set (m1 := x) end.
    assert (W1 : wf m1).
    { unfold m1, wf, cap; cbn. rewrite !upd_length. destruct W as (? & ? & ?); unfold cap in *.
      repeat split; auto; lia. }
    destruct (pop_spec m1 W1) as [[A1 E1]|(c & t & Es & E1 & _ & _ & W' & _)].
    { cbn in A1. lia. }
    rewrite E1. cbn [obind].
    match goal with |- context [run _ ?x _] => set (m2 := x) in * end.
    destruct (IH m2 W') as (m3 & bs & E3 & W3 & L3 & N3).
    { cbn. lia. }
    { unfold m2, m1; cbn [m_next]. apply N.mod_upper_bound. lia. }
    rewrite E3. cbn [obind]. do 2 eexists. split; [reflexivity|]. split; auto. split; auto.
    rewrite N3. unfold m2, m1; cbn [m_next].
    rewrite N.add_mod_idemp_l by lia. f_equal. lia.
Qed.

Lemma ids_wrap_refuted n (p : P) : 0 < n ->
  exists ops m bs, run Wrapping (mgr_new n p) ops = Ret (m, bs) /\ ~ NoDup (created_ids bs).
Proof.
  intros H.
  assert (Hk : exists k, N.of_nat k = (2 ^ 32 - 1)%N) by (exists (N.to_nat (2 ^ 32 - 1)); apply N2Nat.id).
  destruct Hk as [k Hk].
  exists (cycles (S k) p ++ [OCreate Processing p]).
  destruct (rel_new n p H) as [(W & _ & _) _].
  (* first cycle *)
  destruct (create_spec Wrapping (mgr_new n p) W) as [[A Ec]|[A (slot & En & Ec)]].
  { cbn in A. unfold cap in A. cbn in A. rewrite repeat_length in A. lia. }
  rewrite run_app.
  cbn [cycles run step]. rewrite Ec.
  assert (Hs : succ_u32 Wrapping (m_next (mgr_new n p)) = Ret 1%N) by reflexivity.
  rewrite Hs. cbn [obind m_data].
  rewrite nth_error_upd_eq by (unfold cap in A; lia). cbn [obind].
  match goal with |- context [pop ?x] => set (m1 := x) end.
  assert (W1 : wf m1).
  { unfold m1, wf, cap; cbn [m_data m_len m_ins]. rewrite !upd_length. destruct W as (? & ? & ?); unfold cap in *.
    repeat split; auto; lia. }
  destruct (pop_spec m1 W1) as [[A1 E1]|(c & t & Es & E1 & _ & _ & W' & _)].
  { cbn in A1. lia. }
  rewrite E1. cbn [obind].
  match goal with |- context [run _ ?x (cycles k p)] => set (m2 := x) in * end.
  destruct (run_cycles p k m2 W') as (m3 & bs & E3 & W3 & L3 & N3).
  { reflexivity. } { reflexivity. }
  rewrite E3. cbn [obind].
  assert (Hz : m_next m3 = 0%N).
  { rewrite N3. unfold m2, m1; cbn [m_next]. rewrite Hk. reflexivity. }
  destruct (create_spec Wrapping m3 W3) as [[A3 E4]|[A3 (slot3 & En3 & E4)]].
  { destruct W3; lia. }
  rewrite E4. rewrite Hz. cbn [succ_u32 N.add N.ltb]. 
  replace (succ_u32 Wrapping 0) with (Ret 1%N) by reflexivity. cbn [obind m_data].
  rewrite nth_error_upd_eq by (unfold cap in A3; lia). cbn [obind cl_id].
  do 2 eexists. split; [reflexivity|].
  unfold created_ids. rewrite flat_map_app. cbn [flat_map app m_next mgr_new].
  intros ND. inversion ND as [|x l Hni _]; subst. apply Hni.
  apply in_or_app. right. left. reflexivity.
Qed.

(** Iterators. *)
Lemma iter_mut_live m : wf m -> iter_mut m = Ret (stack m ++ rev (skipn (m_len m) (m_data m))).
Proof.
  intros W. unfold iter_mut, stack. destruct (wf_ins m W) as [[A B]|[A B]].
  - rewrite B. destruct (Nat.leb_spec (m_len m) (cap m)); [reflexivity|lia].
  - rewrite B, A. cbn. f_equal. unfold cap. rewrite firstn_all, skipn_all. now rewrite app_nil_r.
Qed.

Lemma asc_iter_live m : wf m ->
  exists stale, length stale = cap m - m_len m /\ asc_iter m = Ret (stale ++ rev (stack m)).
Proof.
  intros W. unfold asc_iter, stack. rewrite rev_involutive. pose proof W as (W1 & W2 & _).
  destruct (wf_ins m W) as [[A B]|[A B]].
  - exists (skipn (m_len m) (m_data m)). rewrite B.
    destruct (Nat.leb_spec (m_len m) (cap m)); [|lia]. split; auto.
    rewrite skipn_length. reflexivity.
  - exists []. rewrite B, A. cbn. split; [lia|]. f_equal.
    rewrite app_nil_r. unfold cap. now rewrite firstn_all.
Qed.

Lemma iter_live m : wf m -> iter m = Ret (stack m).
Proof.
  intros W. unfold iter, stack. pose proof W as (W1 & W2 & _). rewrite firstn_length.
  unfold cap in *. rewrite Nat.min_l by lia.
  destruct (wf_ins m W) as [[A B]|[A B]]; rewrite B.
  - rewrite Nat.leb_refl. rewrite firstn_firstn, Nat.min_id.
    rewrite skipn_all2 by (rewrite firstn_length; lia). cbn. now rewrite app_nil_r.
  - cbn. reflexivity.
Qed.

Lemma run_wf mode ops : forall m m' bs, wf m -> run mode m ops = Ret (m', bs) ->
  wf m' /\ cap m' = cap m.
Proof.
  induction ops as [|o ops IH]; intros m m' bs W E; cbn [run] in E.
  - injection E as <- <-; auto.
  - destruct (step mode m o) as [[m1 b]|] eqn:E1; [|discriminate]. cbn [obind] in E.
    destruct (run mode m1 ops) as [[m2 bs']|] eqn:E2; [|discriminate]. cbn in E.
    injection E as <- <-. destruct (step_wf _ _ _ _ _ W E1) as (W1 & C1 & _).
    destruct (IH _ _ _ W1 E2). split; auto. lia.
Qed.

(** C09 *)
Lemma iter_visits_live mode n (zero : P) ops m bs :
  0 < n -> (N.of_nat (creates ops) < 2 ^ 32)%N ->
  run mode (mgr_new n zero) ops = Ret (m, bs) ->
  iter m = Ret (fst (fst (spec_run n ([], 0%N) ops))).
Proof.
  intros H Hb E. destruct (rel_new n zero H) as [R C].
  destruct (run_refines mode ops _ _ R) as (m' & E' & (W & Hs & _) & _); [cbn; lia|].
  rewrite E in E'. injection E' as <- _. rewrite iter_live by auto. rewrite C in Hs.
  now rewrite Hs.
Qed.

Lemma other_iters_visit mode n (zero : P) ops m bs :
  0 < n -> (N.of_nat (creates ops) < 2 ^ 32)%N ->
  run mode (mgr_new n zero) ops = Ret (m, bs) ->
  let live := fst (fst (spec_run n ([], 0%N) ops)) in
  (exists stale, length stale = n - length live /\ iter_mut m = Ret (live ++ stale)) /\
  (exists stale, length stale = n - length live /\ asc_iter m = Ret (stale ++ rev live)).
Proof.
  intros H Hb E. cbn zeta. destruct (rel_new n zero H) as [R C].
  destruct (run_refines mode ops _ _ R) as (m' & E' & (W & Hs & _) & C'); [cbn; lia|].
  rewrite E in E'. injection E' as <- _. rewrite C in *. rewrite <- Hs.
  rewrite stack_length by auto. split.
  - exists (rev (skipn (m_len m) (m_data m))). rewrite rev_length, skipn_length.
    split; [unfold cap in *; lia|]. now apply iter_mut_live.
  - destruct (asc_iter_live m W) as (st & L & Ea). exists st. rewrite <- C'. auto.
Qed.

Lemma asc_iter_refuted : forall (zero p : P), exists ops m bs,
  run Checked (mgr_new 2 zero) ops = Ret (m, bs) /\
  asc_iter m <> Ret (rev (fst (fst (spec_run 2 ([], 0%N) ops)))) /\
  iter_mut m <> Ret (fst (fst (spec_run 2 ([], 0%N) ops))).
Proof.
  intros zero p. exists [OCreate Processing p]. do 2 eexists. split; [vm_compute; reflexivity|].
  split; vm_compute; discriminate.
Qed.

(** End of processing. *)

(** The manager of a running application: live lists are being processed or
    finished, unused slots are free. *)
Definition to_cl_rel (e : entry P) (c : cl P) : Prop :=
  cl_id c = e_id e /\ cl_msgs c = e_msgs e /\
  cl_state c = if e_done e then DoneProcessing else Processing.

Definition rrel (s : list (entry P) * N) m : Prop :=
  wf m /\ Forall2 to_cl_rel (fst s) (stack m) /\ m_next m = snd s /\
  Forall (fun c => cl_state c = Free) (skipn (m_len m) (m_data m)).

Definition mark (id : N) (c : cl P) : cl P :=
  if (cl_id c =? id)%N && clstate_eqb (cl_state c) Processing
  then change_state DoneProcessing c else c.

Fixpoint span_done (l : list (cl P)) : list (cl P) * list (cl P) :=
  match l with
  | [] => ([], [])
  | c :: t => if clstate_eqb (cl_state c) DoneProcessing
              then let (d, r) := span_done t in (c :: d, r) else ([], l)
  end.



Definition logs (logger : option (cl P -> bool)) (l : list (cl P)) : list (cl P) :=
  match logger with None => [] | Some _ => map (change_state BeingSerialized) l end.

Lemma fold_eop_false logger id l : forall nb lg out,
  fold_left (eop_step logger id) l (Ret (false, nb, lg, out)) =
  Ret (false, nb, lg, out ++ map (mark id) l).
Proof.
  induction l as [|c l IH]; intros nb lg out; cbn [fold_left].
  - cbn. now rewrite app_nil_r.
  - unfold eop_step at 2. cbn [obind andb]. fold (mark id c). rewrite IH. cbn [map].
    now rewrite <- app_assoc.
Qed.

Lemma fold_eop_true logger id : logger_accepts logger -> forall l nb lg out,
  exists b, fold_left (eop_step logger id) l (Ret (true, nb, lg, out)) =
  let (d, r) := span_done (map (mark id) l) in
  Ret (b, nb + length d, lg ++ logs logger d, out ++ map (change_state Free) d ++ r).
Proof.
  intros Hok. induction l as [|c l IH]; intros nb lg out; cbn [fold_left map span_done].
  - exists true. cbn. rewrite Nat.add_0_r, app_nil_r.
    destruct logger; cbn; now rewrite app_nil_r.
  - unfold eop_step at 2. cbn [obind]. fold (mark id c).
    destruct (clstate_eqb (cl_state (mark id c)) DoneProcessing) eqn:Ed; cbn [andb].
    + destruct logger as [ok|]; cbn in Hok.
      * rewrite Hok.
        destruct (IH (nb + 1) (lg ++ [change_state BeingSerialized (mark id c)])
                  (out ++ [change_state Free (change_state BeingSerialized (mark id c))])) as [b E].
        exists b. rewrite E. destruct (span_done (map (mark id) l)) as [d r]. cbn.
        rewrite <- !app_assoc. cbn. replace (nb + S (length d)) with (nb + 1 + length d) by lia. reflexivity.
      * destruct (IH (nb + 1) lg (out ++ [change_state Free (mark id c)])) as [b E].
        exists b. rewrite E. destruct (span_done (map (mark id) l)) as [d r]. cbn.
        rewrite <- !app_assoc. cbn. replace (nb + S (length d)) with (nb + 1 + length d) by lia. reflexivity.
    + exists false. rewrite fold_eop_false. cbn.
      destruct logger; cbn; now rewrite Nat.add_0_r, app_nil_r, <- app_assoc.
Qed.

Lemma span_done_app_free l1 l2 : Forall (fun c => cl_state c = Free) l2 ->
  span_done (l1 ++ l2) = (fst (span_done l1), snd (span_done l1) ++ l2).
Proof.
  intros F. induction l1 as [|c l1 IH]; cbn [app span_done].
  - destruct l2 as [|c l2]; cbn; auto. inversion F as [|x y Hx]; subst. now rewrite Hx.
  - destruct (clstate_eqb (cl_state c) DoneProcessing); auto.
    rewrite IH. now destruct (span_done l1).
Qed.

Lemma mark_free id l : Forall (fun c => cl_state c = Free) l -> map (mark id) l = l.
Proof.
  induction l as [|c l IH]; intros F; cbn; auto. inversion F as [|x y Hx HF]; subst.
  rewrite IH by auto. f_equal. unfold mark. rewrite Hx. now rewrite andb_false_r.
Qed.

Lemma span_done_split l : l = fst (span_done l) ++ snd (span_done l).
Proof.
  induction l as [|c l IH]; cbn; auto. destruct (clstate_eqb _ _); auto.
  destruct (span_done l) as [d r]. cbn in *. now rewrite IH at 1.
Qed.

Lemma pop_n_spec k : forall m, wf m -> k <= m_len m ->
  pop_n k m = Ret (mkMgr (m_data m) (m_len m - k) ((m_len m - k) mod cap m) (m_next m)).
Proof.
  induction k as [|k IH]; intros m W H; cbn [pop_n].
  - destruct W as (W1 & W2 & W3). rewrite Nat.sub_0_r, <- W3. now destruct m.
  - destruct (pop_spec m W) as [[A E]|(c & t & Es & E & _ & _ & W' & _)]; [lia|].
    rewrite E. cbn [obind]. rewrite IH by (auto; cbn; lia). unfold cap. cbn.
    replace (m_len m - 1 - k) with (m_len m - S k) by lia. reflexivity.
Qed.

Lemma iter_mut_write_data m a b : wf m -> length a = m_len m -> length b = cap m - m_len m ->
  iter_mut_write m (a ++ b) = mkMgr (rev a ++ rev b) (m_len m) (m_ins m) (m_next m).
Proof.
  intros W La Lb. unfold iter_mut_write. f_equal. destruct (wf_ins m W) as [[A B]|[A B]]; rewrite B.
  - rewrite <- La. rewrite firstn_app, Nat.sub_diag, firstn_all, firstn_O, app_nil_r.
    rewrite skipn_app, Nat.sub_diag, skipn_all. reflexivity.
  - assert (b = []) by (destruct b; cbn in *; [auto|lia]). subst b. cbn.
    now rewrite !app_nil_r.
Qed.

Lemma eop_spec logger id m : wf m -> logger_accepts logger ->
  Forall (fun c => cl_state c = Free) (skipn (m_len m) (m_data m)) ->
  let (d, r) := span_done (map (mark id) (stack m)) in
  exists m', end_of_processing logger m id = Ret (m', logs logger d) /\
    wf m' /\ stack m' = r /\ m_next m' = m_next m /\ cap m' = cap m /\
    Forall (fun c => cl_state c = Free) (skipn (m_len m') (m_data m')).
Proof.
  intros W Hok F. pose proof (stack_length m W) as SL.
  set (stale := rev (skipn (m_len m) (m_data m))).
  assert (Fs : Forall (fun c => cl_state c = Free) stale) by (apply Forall_rev; auto).
  assert (Ls : length stale = cap m - m_len m).
  { unfold stale. rewrite rev_length, skipn_length. reflexivity. }
  destruct (span_done (map (mark id) (stack m))) as [d r] eqn:Esp.
  pose proof (span_done_split (map (mark id) (stack m))) as Hsplit. rewrite Esp in Hsplit.
  cbn in Hsplit.
  assert (Ldr : length d + length r = m_len m).
  { rewrite <- app_length, <- Hsplit, map_length. auto. }
  unfold end_of_processing. rewrite iter_mut_live by auto. cbn [obind]. fold stale.
  destruct (fold_eop_true logger id Hok (stack m ++ stale) 0 [] []) as [b E].
  rewrite E. clear E. rewrite map_app, (mark_free id stale) by auto.
  rewrite span_done_app_free by auto. rewrite Esp. cbn [fst snd obind app].
  rewrite app_assoc.
  rewrite iter_mut_write_data.
  2: auto. 2:{ rewrite app_length, map_length. lia. } 2: auto.
  pose proof W as (W1 & W2 & W3).
  set (data' := rev (map (change_state Free) d ++ r) ++ rev stale).
  assert (Ld : length data' = cap m).
  { unfold data'. rewrite app_length, !rev_length, app_length, map_length. lia. }
  rewrite pop_n_spec.
  2:{ unfold wf, cap in *; cbn. rewrite Ld. auto. }
  2:{ cbn. lia. }
  rewrite Nat.add_0_l. cbn [obind m_data m_len m_next].
  eexists. split; [reflexivity|].
  unfold wf, cap; cbn [m_data m_len m_ins m_next]. unfold cap in *.
  assert (Hd : data' = rev r ++ (rev (map (change_state Free) d) ++ rev stale)).
  { unfold data'. rewrite rev_app_distr, <- app_assoc. reflexivity. }
  assert (Hk : m_len m - length d = length (rev r)) by (rewrite rev_length; lia).
  repeat split; auto; try lia.
  - unfold stack. cbn [m_len m_data]. rewrite Hk, Hd.
    rewrite firstn_app, Nat.sub_diag, firstn_all, firstn_O, app_nil_r. apply rev_involutive.
  - rewrite Hk, Hd. rewrite skipn_app, Nat.sub_diag, skipn_all. cbn.
    apply Forall_app. split.
    + apply Forall_rev. apply Forall_forall. intros c Hc. apply in_map_iff in Hc.
      destruct Hc as (c0 & <- & _). reflexivity.
    + unfold stale. now rewrite rev_involutive.
Qed.

(** Matching of the abstract and the concrete end of processing. *)
Lemma mark_rel id es cs : Forall2 to_cl_rel es cs ->
  Forall2 to_cl_rel (map (mark_done id) es) (map (mark id) cs).
Proof.
  induction 1 as [|e c es cs (H1 & H2 & H3) _ IH]; cbn; constructor; auto.
  unfold mark_done, mark, to_cl_rel. rewrite H1. destruct (N.eqb_spec (e_id e) id) as [Heq|Hne]; cbn.
  - rewrite H3. destruct (e_done e) eqn:Ee; cbn; rewrite ?H1, ?H2, ?H3; auto.
  - auto.
Qed.

Lemma span_rel es cs : Forall2 to_cl_rel es cs ->
  Forall2 to_cl_rel (fst (take_done es)) (fst (span_done cs)) /\
  Forall2 to_cl_rel (snd (take_done es)) (snd (span_done cs)).
Proof.
  induction 1 as [|e c es cs (H1 & H2 & H3) HF IH]; cbn; auto.
  rewrite H3. destruct (e_done e) eqn:Ee; cbn.
  - destruct (take_done es) as [d r], (span_done cs) as [d' r']; cbn in *. destruct IH.
    repeat split; auto. constructor; auto. unfold to_cl_rel. rewrite Ee. auto.
  - split; auto. constructor; auto. unfold to_cl_rel. rewrite Ee; auto.
Qed.



Lemma logs_pairs logger d es : Forall2 to_cl_rel es d ->
  map logged_pair (logs logger d) = pairs_of logger (map (fun e => (e_id e, e_msgs e)) es).
Proof.
  intros F. unfold logs, pairs_of. destruct logger; auto. rewrite map_map.
  induction F as [|e c es cs (H1 & H2 & H3) HF IH]; cbn; auto.
  rewrite IH. unfold logged_pair at 1. cbn. now rewrite H1, H2.
Qed.

Definition begins_n (o : rop P) : N := match o with RBegin _ => 1 | REnd _ => 0 end%N.

Lemma rstep_refines mode logger m s o : logger_accepts logger -> rrel s m ->
  (snd s + begins_n o < 2 ^ 32)%N ->
  match rspec_step (cap m) s o with
  | Panic => rstep mode logger m o = Panic
  | Ret (s', l) => exists m' lg, rstep mode logger m o = Ret (m', lg) /\ rrel s' m' /\
        cap m' = cap m /\ map logged_pair lg = pairs_of logger l
  end.
Proof.
  intros Hok (W & Hst & Hn & Hf) Hb. destruct s as [es next]; cbn [fst snd] in *.
  pose proof (stack_length m W) as SL.
  pose proof (Forall2_length _ _ _ Hst) as L2.
  destruct o as [p|id]; cbn [rspec_step rstep begins_n] in *.
  - destruct (Nat.ltb_spec (length es) (cap m)) as [Hlt|Hge].
    + assert (R : rel (stack m, next) m) by (repeat split; auto; apply W).
      destruct (step_refines mode m (stack m, next) (OCreate Processing p) R) as (m' & E & R' & C').
      { cbn. lia. }
      cbn [spec_step] in *.
      assert (Hlt' : length (stack m) <? cap m = true) by (apply Nat.ltb_lt; lia).
      rewrite Hlt' in *. cbn [fst snd] in *. rewrite E. cbn [obind].
      destruct R' as (W' & Hs' & Hn').
      cbn [fst snd] in *.
      exists m', []. repeat split; auto; try apply W'.
      * cbn. rewrite Hs'. constructor; auto. unfold to_cl_rel; cbn; auto.
      * (* unused slots are a suffix of the previous ones *)
        cbn [step] in E.
        destruct (create_spec mode m W) as [[A Ec]|[A (slot & En & Ec)]]; [lia|].
        rewrite Ec in E. rewrite succ_u32_small in E by (rewrite Hn; lia).
        cbn [obind m_data] in E.
        rewrite nth_error_upd_eq in E by (unfold cap in A; lia). cbn in E.
        injection E as <-. cbn [m_data m_len].
        rewrite !skipn_upd_lt by lia.
        rewrite Nat.add_1_r. clear -Hf.
        revert Hf. generalize (m_len m). generalize (m_data m).
        induction l as [|a l IH]; intros [|k] Hf; cbn [skipn] in *; auto.
        -- inversion Hf; auto.
      * destruct logger; reflexivity.
    + cbn [step]. destruct (create_spec mode m W) as [[A Ec]|[A _]]; [|lia]. now rewrite Ec.
  - pose proof (eop_spec logger id m W Hok Hf) as HE.
    pose proof (mark_rel id _ _ Hst) as HM. destruct (span_rel _ _ HM) as [Hd Hr].
    destruct (take_done (map (mark_done id) es)) as [d r].
    destruct (span_done (map (mark id) (stack m))) as [d' r']. cbn [fst snd] in *.
    destruct HE as (m' & E & W' & Hs' & Hn' & C' & F').
    exists m', (logs logger d'). repeat split; auto; try apply W'.
    + cbn. now rewrite Hs'.
    + cbn. congruence.
    + now apply logs_pairs.
Qed.

Lemma rspec_next cp s o s' l : rspec_step cp s o = Ret (s', l) ->
  snd s' = (snd s + begins_n o)%N.
Proof.
  destruct s as [st n], o; cbn.
  - destruct (_ <? _); [|discriminate]. intros E; injection E as <- <-. reflexivity.
  - destruct (take_done _). intros E; injection E as <- <-. cbn. lia.
Qed.

Lemma rrun_refines mode logger ops : logger_accepts logger -> forall m s, rrel s m ->
  (snd s + N.of_nat (length (begins ops)) < 2 ^ 32)%N ->
  match rspec_run (cap m) s ops with
  | Panic => rrun mode logger m ops = Panic
  | Ret (s', ls) => exists m' lgs, rrun mode logger m ops = Ret (m', lgs) /\ rrel s' m' /\
       cap m' = cap m /\ map (map logged_pair) lgs = map (pairs_of logger) ls
  end.
Proof.
  intros Hok. induction ops as [|o ops IH]; intros m s R Hb; cbn [rspec_run rrun].
  - exists m, []; auto.
  - assert (Hbo : N.of_nat (length (begins (o :: ops))) =
       (begins_n o + N.of_nat (length (begins ops)))%N).
    { unfold begins. cbn. rewrite app_length. destruct o; cbn [begins_n length]; lia. }
    rewrite Hbo in Hb.
    pose proof (rstep_refines mode logger m s o Hok R) as H1.
    destruct (rspec_step (cap m) s o) as [[s1 l]|] eqn:Es; cbn [obind].
    + destruct H1 as (m1 & lg & E1 & R1 & C1 & P1); [lia|]. rewrite E1. cbn [obind].
      specialize (IH m1 s1 R1). rewrite C1 in IH.
      apply rspec_next in Es.
      destruct (rspec_run (cap m) s1 ops) as [[s2 ls]|]; cbn [obind].
      * destruct IH as (m2 & lgs & E2 & R2 & C2 & P2); [lia|]. rewrite E2. cbn [obind].
        exists m2, (lg :: lgs). repeat split; auto; try apply R2. cbn. now rewrite P1, P2.
      * rewrite IH by lia. reflexivity.
    + rewrite H1 by lia. reflexivity.
Qed.

Lemma skipn_repeat_free (c : cl P) n k : cl_state c = Free ->
  Forall (fun c => cl_state c = Free) (skipn k (repeat c n)).
Proof.
  intros H. apply Forall_forall. intros x Hx.
  assert (Hin : In x (repeat c n)).
  { rewrite <- (firstn_skipn k (repeat c n)). apply in_or_app; auto. }
  apply repeat_spec in Hin. now subst.
Qed.

Lemma rrel_new n (zero : P) : 0 < n -> rrel ([], 0%N) (mgr_new n zero).
Proof.
  intros H. destruct (rel_new n zero H) as [(W & S & Hn) _]. repeat split; auto; try apply W.
  - rewrite S. constructor.
  - apply skipn_repeat_free. reflexivity.
Qed.

(** C10, refinement *)
Lemma runtime_refines mode logger n (zero : P) ops :
  logger_accepts logger -> 0 < n -> (N.of_nat (length (begins ops)) < 2 ^ 32)%N ->
  match rspec_run n ([], 0%N) ops with
  | Panic => rrun mode logger (mgr_new n zero) ops = Panic
  | Ret (s', ls) => exists m lgs, rrun mode logger (mgr_new n zero) ops = Ret (m, lgs) /\
       available_copper_lists m = n - length (fst s') /\
       map (map logged_pair) lgs = map (pairs_of logger) ls
  end.
Proof.
  intros Hok H Hb. pose proof (rrun_refines mode logger ops Hok _ _ (rrel_new n zero H)) as HR.
  cbn [snd] in HR. destruct (rel_new n zero H) as [_ C]. rewrite C in HR.
  destruct (rspec_run n ([], 0%N) ops) as [[s' ls]|].
  - destruct HR as (m & lgs & E & (W & Hst & _) & C' & Pm); [lia|].
    exists m, lgs. repeat split; auto. unfold available_copper_lists. rewrite C'.
    rewrite <- (stack_length m W). now rewrite (Forall2_length _ _ _ Hst).
  - apply HR; lia.
Qed.
End Proofs.
