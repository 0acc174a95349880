(** Proofs about configurations. *)
From Coq Require Import String List Arith NArith ZArith Bool Lia.
From Verif Require Import Base ConfigModel ConfigSpec.
Import ListNotations.
Local Open Scope list_scope.
Local Open Scope nat_scope.

(** Every connection carries the ids of its end points. *)
Definition named (nodes : list node) (e : nat * nat * cnx) : Prop :=
  exists a b, nth_error nodes (fst (fst e)) = Some a /\ nth_error nodes (snd (fst e)) = Some b /\
  x_src (snd e) = n_id a /\ x_dst (snd e) = n_id b.
Definition consistent (c : config) : Prop := Forall (named (c_nodes c)) (c_edges c).

Lemma named_app l n e : named l e -> named (l ++ n) e.
Proof.
  intros (a & b & H1 & H2 & H3). exists a, b.
  rewrite !nth_error_app1 by (apply nth_error_Some; congruence). auto.
Qed.
Lemma named_upd l i n e : (forall m, nth_error l i = Some m -> n_id m = n_id n) -> named l e -> named (upd i n l) e.
Proof.
  intros H (a & b & H1 & H2 & H3 & H4).
  assert (G : forall j x, nth_error l j = Some x -> exists y, nth_error (upd i n l) j = Some y /\ n_id y = n_id x).
  { intros j x Hj. destruct (Nat.eq_dec i j) as [<-|N].
    - exists n. rewrite nth_error_upd_eq by (apply nth_error_Some; congruence). split; auto. symmetry. auto.
    - exists x. rewrite nth_error_upd_neq by auto. auto. }
  destruct (G _ _ H1) as (a' & A1 & A2), (G _ _ H2) as (b' & B1 & B2).
  exists a', b'. repeat split; auto; congruence.
Qed.

Lemma build_app l1 : forall c l2, build c (l1 ++ l2) = (let! c := build c l1 in build c l2).
Proof. induction l1 as [|x l1 IH]; intros c l2; cbn; auto. destruct (run_op c x); cbn; auto. Qed.

Lemma build_consistent l : forall c, keeps_ids l -> build empty_config l = Ret c -> consistent c.
Proof.
  induction l as [|x l IH] using rev_ind; intros c K E.
  - injection E as <-. constructor.
  - rewrite build_app in E. destruct (build empty_config l) as [c0|] eqn:E0; [|discriminate]. cbn in E.
    assert (C0 : consistent c0).
    { apply IH; auto. intros pre i n post c1 m -> H. apply (K pre i n (post ++ [x])); auto.
      rewrite <- app_assoc. reflexivity. }
    unfold consistent in *. destruct x as [n|s t m b st|i n|m|lg]; cbn in E.
    + injection E as <-. cbn. eapply Forall_impl; [|exact C0]. intros e. apply named_app.
    + unfold connect_ext in E. destruct (nth_error (c_nodes c0) s) as [a|] eqn:Ea; [|discriminate].
      destruct (nth_error (c_nodes c0) t) as [d|] eqn:Ed; [|discriminate]. injection E as <-. cbn.
      apply Forall_app. split; auto. constructor; auto. exists a, d. cbn. auto.
    + injection E as <-. cbn. eapply Forall_impl; [|exact C0]. intros e. apply named_upd.
      intros y Hy. eapply K; eauto.
    + injection E as <-. exact C0.
    + injection E as <-. exact C0.
Qed.

Lemma find_node_unique l : forall i n, NoDup (map n_id l) -> nth_error l i = Some n -> find_node l (n_id n) = Some i.
Proof.
  induction l as [|m l IH]; intros i n N H; [destruct i; discriminate|]. cbn in *. inversion N; subst.
  destruct i as [|i]; cbn in H.
  - injection H as ->. rewrite String.eqb_refl. reflexivity.
  - destruct (String.eqb_spec (n_id m) (n_id n)) as [E|E].
    + exfalso. match goal with X : ~ In _ _ |- _ => apply X end. rewrite E. apply in_map. eapply nth_error_In; eauto.
    + rewrite (IH i n) by auto. reflexivity.
Qed.
Lemma find_node_some l id : forall i, find_node l id = Some i -> exists n, nth_error l i = Some n /\ n_id n = id.
Proof.
  induction l as [|m l IH]; intros i; cbn; [discriminate|]. destruct (String.eqb_spec (n_id m) id) as [E|E].
  - intros H. injection H as <-. exists m. auto.
  - destruct (find_node l id) as [j|]; [|discriminate]. intros H. injection H as <-. apply IH. auto.
Qed.
Lemma find_node_none l id : find_node l id = None <-> ~ In id (map n_id l).
Proof.
  induction l as [|m l IH]; cbn; [tauto|]. destruct (String.eqb_spec (n_id m) id) as [E|E].
  - split; [discriminate|tauto].
  - destruct (find_node l id) as [j|]; cbn; split; try discriminate; try tauto.
    + intros H. exfalso. apply H. right. destruct (in_dec string_dec id (map n_id l)); auto. apply IH in n. discriminate.
Qed.

Lemma read_cnx_edges l : forall c, NoDup (map n_id (c_nodes c)) -> Forall (named (c_nodes c)) l ->
  read_cnx c (map snd l) = Ret (Config (c_nodes c) (c_edges c ++ l) (c_monitor c) (c_logging c)).
Proof.
  induction l as [|[[s t] x] l IH]; intros c N F; cbn.
  - rewrite app_nil_r. destruct c; auto.
  - inversion F as [|? ? (a & b & H1 & H2 & H3 & H4) F']; subst. cbn in *.
    rewrite H3, H4, (find_node_unique _ _ _ N H1), (find_node_unique _ _ _ N H2).
    unfold connect_ext. rewrite H1, H2. cbn. rewrite IH by auto. cbn. rewrite <- app_assoc, <- H3, <- H4.
    destruct x; reflexivity.
Qed.
Lemma add_nodes l : forall c, fold_left add_node l c = Config (c_nodes c ++ l) (c_edges c) (c_monitor c) (c_logging c).
Proof.
  induction l as [|n l IH]; intros c; cbn.
  - rewrite app_nil_r. destruct c; auto.
  - rewrite IH. cbn. rewrite <- app_assoc. reflexivity.
Qed.
Lemma logging_round l : read_logging (write_logging l) = l.
Proof. destruct l as [a b []]; reflexivity. Qed.

Lemma round_trip c : consistent c -> NoDup (map n_id (c_nodes c)) -> deserialize (serialize c) = Ret c.
Proof.
  intros C N. unfold deserialize, serialize. cbn [r_tasks r_cnx r_monitor r_logging].
  rewrite add_nodes. cbn [empty_config c_nodes c_edges c_monitor c_logging app].
  rewrite read_cnx_edges by auto. cbn [obind].
  destruct c as [n e m [l|]]; cbn [c_nodes c_edges c_monitor c_logging option_map app]; [rewrite logging_round|]; reflexivity.
Qed.

(** Reading, then writing. *)
Lemma read_cnx_ret l : forall c c', read_cnx c l = Ret c' ->
  c_nodes c' = c_nodes c /\ map snd (c_edges c') = map snd (c_edges c) ++ l /\
  exists es, c_edges c' = c_edges c ++ es.
Proof.
  induction l as [|x l IH]; intros c c'; cbn.
  - intros H. injection H as <-. rewrite app_nil_r. repeat split; auto. exists []. rewrite app_nil_r. auto.
  - destruct (find_node (c_nodes c) (x_src x)) as [s|] eqn:S1; [|discriminate].
    destruct (find_node (c_nodes c) (x_dst x)) as [t|] eqn:T1; [|discriminate].
    destruct (find_node_some _ _ _ S1) as (a & A1 & A2), (find_node_some _ _ _ T1) as (b & B1 & B2).
    unfold connect_ext. rewrite A1, B1. cbn. intros H. apply IH in H. cbn in H. destruct H as (H1 & H2 & es & H3).
    rewrite H1, H2, H3, A2, B2, map_app, <- !app_assoc. cbn. destruct x; cbn. repeat split; auto. eauto.
Qed.
Lemma read_cnx_total l : forall c, Forall (fun x => In (x_src x) (map n_id (c_nodes c)) /\ In (x_dst x) (map n_id (c_nodes c))) l <->
  exists c', read_cnx c l = Ret c'.
Proof.
  induction l as [|x l IH]; intros c; cbn; [split; eauto|].
  destruct (find_node (c_nodes c) (x_src x)) as [s|] eqn:S1.
  2: { split; [|intros (c' & H); discriminate]. intros F. inversion F as [|? ? [H1 H2] _]; subst. apply find_node_none in S1. tauto. }
  destruct (find_node (c_nodes c) (x_dst x)) as [t|] eqn:T1.
  2: { split; [|intros (c' & H); discriminate]. intros F. inversion F as [|? ? [H1 H2] _]; subst. apply find_node_none in T1. tauto. }
  destruct (find_node_some _ _ _ S1) as (a & A1 & A2), (find_node_some _ _ _ T1) as (b & B1 & B2).
  unfold connect_ext. rewrite A1, B1. cbn. rewrite <- IH. cbn. split.
  - intros F. inversion F; auto.
  - intros F. constructor; auto. rewrite <- A2, <- B2. split; apply in_map; eapply nth_error_In; eauto.
Qed.

(** Integer casts. *)
Lemma cast_fits t z : fits t z -> cast t z = z.
Proof.
  intros H. unfold cast. destruct t; cbn [bits_of is_signed andb]; cbn in H;
  repeat match goal with |- context [ (2 ^ ?k)%Z ] => let v := eval vm_compute in (2 ^ k)%Z in change (2 ^ k)%Z with v end;
  try (rewrite Z.mod_small by lia; reflexivity);
  match goal with |- (if (?m <=? ?x)%Z then _ else _) = _ => destruct (Z.leb_spec m x) end; lia.
Qed.
Lemma cast_range t z : fits t (cast t z).
Proof.
  unfold cast. destruct t; cbn [bits_of is_signed andb fits];
  repeat match goal with |- context [ (2 ^ ?k)%Z ] => let v := eval vm_compute in (2 ^ k)%Z in change (2 ^ k)%Z with v end;
  try match goal with |- context [ if (?m <=? ?x)%Z then _ else _ ] => destruct (Z.leb_spec m x) end; lia.
Qed.
