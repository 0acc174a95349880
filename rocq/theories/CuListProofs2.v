(** History properties of the end-of-processing protocol. *)
From Coq Require Import List Arith NArith Bool Lia Sorted Permutation ZifyBool ZifyNat ZifyN ZArith.
From Verif Require Import Base CuListModel CuListSpec CuListProofs.
Import ListNotations.

Section Hist.
Context {P : Type}.
Implicit Types es : list (entry P).

Definition pr (e : entry P) : N * P := (e_id e, e_msgs e).

Lemma take_done_split es : es = fst (take_done es) ++ snd (take_done es).
Proof.
  induction es as [|e es IH]; cbn; auto. destruct (e_done e); auto.
  destruct (take_done es). cbn in *. now rewrite IH at 1.
Qed.

Lemma take_done_fst es : Forall (fun e => e_done e = true) (fst (take_done es)).
Proof.
  induction es as [|e es IH]; cbn; auto. destruct (e_done e) eqn:E; cbn; auto.
  destruct (take_done es). cbn in *. auto.
Qed.

Lemma take_done_snd es : match snd (take_done es) with [] => True | e :: _ => e_done e = false end.
Proof.
  induction es as [|e es IH]; cbn; auto. destruct (e_done e) eqn:E; cbn; auto.
  destruct (take_done es). cbn in *. auto.
Qed.

Definition nbeg (h : list (rop P)) : N := N.of_nat (length (begins h)).

Lemma begins_app (h1 h2 : list (rop P)) : begins (h1 ++ h2) = begins h1 ++ begins h2.
Proof. unfold begins. now rewrite flat_map_app. Qed.

Lemma number_app k (a b : list P) :
  number k (a ++ b) = number k a ++ number (k + N.of_nat (length a)) b.
Proof.
  revert k; induction a as [|p a IH]; intros k; cbn [app number length].
  - now rewrite N.add_0_r.
  - rewrite IH. cbn. do 3 f_equal. lia.
Qed.

Lemma number_ids k (a : list P) x : In x (number k a) -> (k <= fst x < k + N.of_nat (length a))%N.
Proof.
  revert k; induction a as [|p a IH]; intros k H; cbn in H; [tauto|].
  destruct H as [<-|H]; cbn [fst length]; [lia|]. apply IH in H. lia.
Qed.

Lemma number_nodup k (a : list P) : NoDup (map fst (number k a)).
Proof.
  revert k; induction a as [|p a IH]; intros k; cbn; constructor; auto.
  intros H. apply in_map_iff in H. destruct H as (x & <- & H). apply number_ids in H. lia.
Qed.

Lemma number_complete k (a : list P) i : (k <= i < k + N.of_nat (length a))%N ->
  exists p, In (i, p) (number k a).
Proof.
  revert k; induction a as [|p a IH]; intros k H; cbn [length number] in *; [lia|].
  destruct (N.eq_dec i k) as [->|Hne].
  - exists p. left; auto.
  - destruct (IH (k + 1)%N) as [q Hq]; [lia|]. exists q; right; auto.
Qed.

Lemma ended_app_l k (h1 h2 : list (rop P)) : ended k h1 -> ended k (h1 ++ h2).
Proof.
  intros (pre & post & -> & H). exists pre, (post ++ h2). split; auto.
  now rewrite <- app_assoc.
Qed.

Lemma ended_snoc k (h : list (rop P)) o : ended k (h ++ [o]) <->
  ended k h \/ (o = REnd k /\ (k < nbeg h)%N).
Proof.
  split.
  - intros (pre & post & E & H).
    destruct post as [|x post] using rev_ind.
    + apply app_inj_tail in E. destruct E as [-> ->]. right; auto.
    + clear IHpost. rewrite app_comm_cons, app_assoc in E. apply app_inj_tail in E.
      destruct E as [E _]. left. exists pre, post. auto.
  - intros [H|[-> H]].
    + now apply ended_app_l.
    + exists h, []. auto.
Qed.

Record inv (h : list (rop P)) (lg : list (N * P)) (s : list (entry P) * N) : Prop := {
  inv_next : snd s = nbeg h;
  inv_perm : Permutation (lg ++ map pr (fst s)) (number 0 (begins h));
  inv_sorted : StronglySorted (fun a b => (b < a)%N) (map e_id (fst s));
  inv_done : forall e, In e (fst s) -> (e_done e = true <-> ended (e_id e) h);
  inv_logged : forall x, In x lg -> ended (fst x) h;
  inv_top : match fst s with [] => True | e :: _ => e_done e = false end }.

Lemma inv_ids h lg s e : inv h lg s -> In e (fst s) -> (e_id e < nbeg h)%N.
Proof.
  intros I H. assert (Hin : In (pr e) (number 0 (begins h))).
  { eapply Permutation_in; [apply (inv_perm _ _ _ I)|]. apply in_or_app; right.
    now apply in_map. }
  apply number_ids in Hin. unfold nbeg. cbn in Hin. lia.
Qed.

Lemma inv_step cp h lg s o s' l : inv h lg s -> rspec_step cp s o = Ret (s', l) ->
  inv (h ++ [o]) (lg ++ l) s'.
Proof.
  intros I E. destruct s as [es nx]. destruct o as [p|id]; cbn in E.
  - destruct (length es <? cp); [|discriminate]. injection E as <- <-.
    rewrite app_nil_r. pose proof (inv_next _ _ _ I) as Hn; cbn in Hn.
    assert (Hids : forall e, In e es -> (e_id e < nx)%N).
    { intros e He. rewrite Hn. eapply inv_ids; [exact I|exact He]. }
    constructor; cbn [fst snd map].
    + unfold nbeg in *. rewrite begins_app, app_length. cbn. lia.
    + rewrite begins_app, number_app. cbn [begins flat_map app number].
      pose proof (inv_perm _ _ _ I) as Hp. cbn in Hp.
      unfold pr at 1; cbn. rewrite <- Permutation_middle.
      fold (nbeg h). rewrite N.add_0_l, <- Hn.
      rewrite <- Permutation_cons_append. apply Permutation_cons; auto.
    + constructor; [apply (inv_sorted _ _ _ I)|].
      apply Forall_forall. intros x Hx. apply in_map_iff in Hx. destruct Hx as (e & <- & He).
      auto.
    + intros e [<-|He]; cbn.
      * split; [discriminate|]. intros Hend. apply ended_snoc in Hend.
        destruct Hend as [Hend|[Hend _]]; [|discriminate].
        destruct Hend as (pre & post & -> & Hk). unfold nbeg in Hn.
        rewrite begins_app, app_length in Hn. lia.
      * rewrite (inv_done _ _ _ I e He). rewrite ended_snoc. split; auto.
        intros [?|[? _]]; auto; discriminate.
    + intros x Hx. apply ended_app_l. now apply (inv_logged _ _ _ I).
    + reflexivity.
  - destruct (take_done (map (mark_done id) es)) as [d r] eqn:Et. injection E as <- <-.
    pose proof (take_done_split (map (mark_done id) es)) as Hsp. rewrite Et in Hsp. cbn in Hsp.
    pose proof (take_done_fst (map (mark_done id) es)) as Hd. rewrite Et in Hd. cbn in Hd.
    pose proof (take_done_snd (map (mark_done id) es)) as Hr. rewrite Et in Hr. cbn in Hr.
    assert (Hpr : map pr (map (mark_done id) es) = map pr es).
    { rewrite map_map. apply map_ext. intros e. unfold mark_done, pr.
      destruct (_ =? _)%N; auto. }
    assert (Hid : map e_id (map (mark_done id) es) = map e_id es).
    { rewrite map_map. apply map_ext. intros e. unfold mark_done.
      destruct (_ =? _)%N; auto. }
    assert (Hdone : forall e, In e (d ++ r) -> (e_done e = true <-> ended (e_id e) (h ++ [REnd id]))).
    { intros e He. rewrite <- Hsp in He. apply in_map_iff in He. destruct He as (e0 & <- & He0).
      rewrite ended_snoc. unfold mark_done. destruct (N.eqb_spec (e_id e0) id) as [Hq|Hq]; cbn.
      - split; auto. intros _. right. rewrite Hq. split; auto. rewrite <- Hq.
        eapply inv_ids; [exact I|exact He0].
      - rewrite (inv_done _ _ _ I e0 He0). split; auto.
        intros [?|[Hx _]]; auto. injection Hx as Hx. congruence. }
    constructor; cbn [fst snd].
    + pose proof (inv_next _ _ _ I) as Hn; cbn in Hn. unfold nbeg in *.
      rewrite begins_app, app_length. cbn. lia.
    + rewrite begins_app. cbn. rewrite app_nil_r.
      change (fun e => (e_id e, e_msgs e)) with pr.
      rewrite <- app_assoc, <- map_app, <- Hsp, Hpr. apply (inv_perm _ _ _ I).
    + pose proof (inv_sorted _ _ _ I) as Hs. cbn in Hs. rewrite <- Hid, Hsp, map_app in Hs.
      clear -Hs. induction (map e_id d) as [|x xs IH]; cbn in *; auto.
      inversion Hs; auto.
    + intros e He. apply Hdone. apply in_or_app; auto.
    + intros x Hx. apply in_app_or in Hx. destruct Hx as [Hx|Hx].
      * apply ended_app_l. now apply (inv_logged _ _ _ I).
      * apply in_map_iff in Hx. destruct Hx as (e & <- & He). cbn.
        apply Hdone; [apply in_or_app; auto|].
        rewrite Forall_forall in Hd. auto.
    + apply Hr.
Qed.

Lemma inv_run cp ops : forall h lg s s' ls, inv h lg s -> rspec_run cp s ops = Ret (s', ls) ->
  inv (h ++ ops) (lg ++ concat ls) s'.
Proof.
  induction ops as [|o ops IH]; intros h lg s s' ls I E; cbn [rspec_run] in E.
  - injection E as <- <-. cbn. now rewrite !app_nil_r.
  - destruct (rspec_step cp s o) as [[s1 l]|] eqn:E1; [|discriminate]. cbn [obind] in E.
    destruct (rspec_run cp s1 ops) as [[s2 ls2]|] eqn:E2; [|discriminate]. cbn in E.
    injection E as <- <-. cbn [concat].
    replace (h ++ o :: ops) with ((h ++ [o]) ++ ops) by (rewrite <- app_assoc; auto).
    rewrite app_assoc. eapply IH; [|exact E2]. eapply inv_step; eauto.
Qed.

Lemma inv_nil : inv [] [] ([], 0%N).
Proof. constructor; cbn; auto; try tauto; constructor. Qed.

(** Transfer to the model. *)
Lemma model_inv mode ok n (zero : P) ops m lgs :
  (forall c, ok c = true) -> 0 < n -> (N.of_nat (length (begins ops)) < 2 ^ 32)%N ->
  rrun mode (Some ok) (mgr_new n zero) ops = Ret (m, lgs) ->
  exists s, inv ops (map logged_pair (concat lgs)) s /\
    available_copper_lists m = n - length (fst s).
Proof.
  intros Hok H Hb E.
  pose proof (runtime_refines mode (Some ok) n zero ops Hok H Hb) as HR.
  destruct (rspec_run n ([], 0%N) ops) as [[s ls]|] eqn:Es; [|congruence].
  destruct HR as (m' & lgs' & E' & Ha & Hl). rewrite E in E'. injection E' as <- <-.
  exists s. split; auto.
  pose proof (inv_run _ _ _ _ _ _ _ inv_nil Es) as I. cbn [app] in I.
  replace (map logged_pair (concat lgs)) with (concat ls); auto.
  rewrite concat_map, Hl. cbn [pairs_of]. f_equal. symmetry. apply map_id.
Qed.

Lemma NoDup_app_l {A} (a b : list A) : NoDup (a ++ b) -> NoDup a.
Proof.
  induction a as [|x a IH]; cbn; intros H; constructor; inversion H; subst; auto.
  intros Hx. match goal with H : ~ In _ _ |- _ => apply H end. apply in_or_app; auto.
Qed.

Lemma logged_at_most_once mode ok n (zero : P) ops m lgs :
  (forall c, ok c = true) -> 0 < n -> (N.of_nat (length (begins ops)) < 2 ^ 32)%N ->
  rrun mode (Some ok) (mgr_new n zero) ops = Ret (m, lgs) ->
  NoDup (map cl_id (concat lgs)) /\
  (forall c, In c (concat lgs) -> In (cl_id c, cl_msgs c) (number 0 (begins ops)) /\
                                  ended (cl_id c) ops).
Proof.
  intros Hok H Hb E. destruct (model_inv _ _ _ _ _ _ _ Hok H Hb E) as (s & I & _).
  split.
  - pose proof (inv_perm _ _ _ I) as Hp. pose proof (number_nodup 0 (begins ops)) as Hn.
    apply (Permutation_map fst) in Hp. symmetry in Hp. apply (Permutation_NoDup Hp) in Hn.
    rewrite map_app in Hn. apply NoDup_app_l in Hn. rewrite map_map in Hn. exact Hn.
  - intros c Hc. split.
    + eapply Permutation_in; [apply (inv_perm _ _ _ I)|]. apply in_or_app; left.
      change (cl_id c, cl_msgs c) with (logged_pair c). now apply in_map.
    + apply (inv_logged _ _ _ I (logged_pair c)). now apply in_map.
Qed.

Lemma logged_promptly mode ok n (zero : P) ops m lgs k p :
  (forall c, ok c = true) -> 0 < n -> (N.of_nat (length (begins ops)) < 2 ^ 32)%N ->
  rrun mode (Some ok) (mgr_new n zero) ops = Ret (m, lgs) ->
  In (k, p) (number 0 (begins ops)) ->
  (forall k', (k <= k' < N.of_nat (length (begins ops)))%N -> ended k' ops) ->
  exists c, In c (concat lgs) /\ cl_id c = k /\ cl_msgs c = p.
Proof.
  intros Hok H Hb E Hk He. destruct (model_inv _ _ _ _ _ _ _ Hok H Hb E) as (s & I & _).
  eapply Permutation_in in Hk; [|symmetry; apply (inv_perm _ _ _ I)].
  apply in_app_or in Hk. destruct Hk as [Hk|Hk].
  - apply in_map_iff in Hk. destruct Hk as (c & Hc & Hin). injection Hc as H1 H2.
    exists c; auto.
  - exfalso. apply in_map_iff in Hk. destruct Hk as (e & Hpe & Hin).
    injection Hpe as H1 H2.
    destruct (fst s) as [|t es] eqn:Ef; [destruct Hin|].
    pose proof (inv_top _ _ _ I) as Ht. rewrite Ef in Ht.
    assert (Hte : (e_id e <= e_id t)%N).
    { destruct Hin as [->|Hin]; [lia|]. pose proof (inv_sorted _ _ _ I) as Hs. rewrite Ef in Hs.
      cbn in Hs. inversion Hs as [|? ? ? Hf]; subst. rewrite Forall_forall in Hf.
      specialize (Hf (e_id e) (in_map _ _ _ Hin)). lia. }
    assert (Hin_t : In t (fst s)) by (rewrite Ef; left; auto).
    assert (Hend : ended (e_id t) ops).
    { apply He. pose proof (inv_ids _ _ _ _ I Hin_t). unfold nbeg in *. lia. }
    apply (inv_done _ _ _ I t Hin_t) in Hend. congruence.
Qed.

Lemma all_ended_all_free mode ok n (zero : P) ops m lgs :
  (forall c, ok c = true) -> 0 < n -> (N.of_nat (length (begins ops)) < 2 ^ 32)%N ->
  rrun mode (Some ok) (mgr_new n zero) ops = Ret (m, lgs) ->
  (forall k, (k < N.of_nat (length (begins ops)))%N -> ended k ops) ->
  available_copper_lists m = n /\
  Permutation (map (fun c => (cl_id c, cl_msgs c)) (concat lgs)) (number 0 (begins ops)).
Proof.
  intros Hok H Hb E He. destruct (model_inv _ _ _ _ _ _ _ Hok H Hb E) as (s & I & Ha).
  assert (Hs : fst s = []).
  { destruct (fst s) as [|t es] eqn:Ef; auto. exfalso.
    pose proof (inv_top _ _ _ I) as Ht. rewrite Ef in Ht.
    assert (Hin_t : In t (fst s)) by (rewrite Ef; left; auto).
    assert (Hend : ended (e_id t) ops) by (apply He; apply (inv_ids _ _ _ _ I Hin_t)).
    apply (inv_done _ _ _ I t Hin_t) in Hend. congruence. }
  split.
  - rewrite Ha, Hs. cbn. lia.
  - pose proof (inv_perm _ _ _ I) as Hp. rewrite Hs in Hp. cbn in Hp.
    rewrite app_nil_r in Hp. exact Hp.
Qed.

(** Begin succeeds whenever fewer than [n] lists are in flight. *)
Lemma begin_succeeds mode ok n (zero : P) ops m lgs p :
  (forall c, ok c = true) -> 0 < n -> (N.of_nat (S (length (begins ops))) < 2 ^ 32)%N ->
  rrun mode (Some ok) (mgr_new n zero) ops = Ret (m, lgs) ->
  (exists m', rstep mode (Some ok) m (RBegin p) = Ret (m', [])) <->
  (0 < available_copper_lists m).
Proof.
  intros Hok H Hb E.
  pose proof (rrun_refines mode (Some ok) ops Hok _ _ (rrel_new n zero H)) as HR.
  cbn [snd] in HR. destruct (rel_new n zero H) as [_ C]. rewrite C in HR.
  destruct (rspec_run n ([], 0%N) ops) as [[s ls]|] eqn:Es.
  2:{ rewrite HR in E by lia. discriminate. }
  destruct HR as (m' & lgs' & E' & R & C' & _); [lia|]. rewrite E in E'. injection E' as <- <-.
  pose proof (inv_run _ _ _ _ _ _ _ inv_nil Es) as I. pose proof (inv_next _ _ _ I) as Hn.
  cbn [app] in Hn. unfold nbeg in Hn.
  pose proof (rstep_refines mode (Some ok) m s (RBegin p) Hok R) as H1.
  destruct R as (W & Hst & _ & _).
  assert (Hlen : length (fst s) = m_len m).
  { rewrite <- (stack_length m W). apply (Forall2_length _ _ _ Hst). }
  destruct s as [es nx]. cbn [rspec_step fst snd begins_n] in *. unfold available_copper_lists.
  destruct (Nat.ltb_spec (length es) (cap m)) as [Hlt|Hge].
  - destruct H1 as (m1 & lg & E1 & _ & _ & Pl); [lia|]. split; intros; [lia|].
    exists m1. rewrite E1. cbn in Pl. destruct lg; [auto|discriminate].
  - rewrite H1 by lia. split; [intros [? ?]; discriminate | lia].
Qed.
End Hist.
