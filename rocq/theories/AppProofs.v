From Coq Require Import String List Arith NArith Bool Lia.
From Verif Require Import Base ConfigModel PlanModel PlanSpec AppModel AppSpec.
Import ListNotations.
Local Open Scope list_scope.
Local Open Scope nat_scope.

Lemma validate_sizes c : validate c = true <-> sizes_ok c.
Proof.
  unfold validate, sizes_ok. destruct (c_logging c) as [[slab section en]|].
  - destruct slab as [slab|], section as [section|]; split; intros H.
    1: { intros l a b E Ea Eb. injection E as <-. cbn in Ea, Eb. injection Ea as <-. injection Eb as <-.
         destruct (N.ltb_spec slab section); [discriminate|lia]. }
    1: { specialize (H _ slab section eq_refl eq_refl eq_refl). destruct (N.ltb_spec slab section); [lia|reflexivity]. }
    all: try reflexivity.
    all: intros l a b E Ea Eb; injection E as <-; cbn in Ea, Eb; discriminate.
  - split; [|reflexivity]. intros _ l a b E. discriminate.
Qed.

Lemma choose_ok ov f orig c : choose ov f orig = Ret (inl c) -> in_use ov f orig c.
Proof.
  unfold choose, in_use. destruct ov as [o|].
  - intros H. injection H as ->. auto.
  - intros H. right. split; [reflexivity|].
    assert (G : forall t, read_str t = Ret (inl c) -> describes t c).
    { intros t E. unfold read_str in E. destruct t as [r|]; [|discriminate]. exists r. split; [reflexivity|].
      unfold read_configuration in E. destruct (deserialize r) as [d|]; [|discriminate]. cbn in E.
      destruct (validate d); [|discriminate]. injection E as ->. reflexivity. }
    destruct f as [| |t]; [|discriminate|].
    + exists orig. split; [right; auto|]. auto.
    + exists t. split; [left; auto|]. auto.
Qed.

Lemma choose_valid f orig c : choose None f orig = Ret (inl c) -> sizes_ok c.
Proof.
  assert (G : forall t, read_str t = Ret (inl c) -> sizes_ok c).
  { intros t E. unfold read_str in E. destruct t as [r|]; [|discriminate].
    unfold read_configuration in E. destruct (deserialize r) as [d|]; [|discriminate]. cbn in E.
    destruct (validate d) eqn:V; [|discriminate]. injection E as ->. apply validate_sizes. exact V. }
  unfold choose. destruct f; intros H; try discriminate; eauto.
Qed.

Lemma read_describes t c : describes t c ->
  (sizes_ok c -> read_str t = Ret (inl c)) /\ (~ sizes_ok c -> read_str t = Ret (inr BadSizes)).
Proof.
  intros (r & -> & D). unfold read_str, read_configuration. rewrite D. cbn. split; intros H.
  - rewrite (proj2 (validate_sizes c) H). reflexivity.
  - destruct (validate c) eqn:V; [|reflexivity]. apply validate_sizes in V. contradiction.
Qed.

Lemma choose_text f orig t : text_in_use f orig t -> choose None f orig = read_str t.
Proof. intros [->|[-> ->]]; reflexivity. Qed.

Section New.
Context {task monitor : Type}.
Variable create : nat -> option params -> outcome (task + string).
Variable create_monitor : config -> outcome monitor.
Variable sz : N.
Variable mode : ovf_mode.

(** The creations of [n] tasks from [i]: those before the first failure, that one included. *)
Lemma instanciate_spec cfgs : forall n i tr r, instanciate create cfgs i n = (tr, r) ->
  i + n <= length cfgs ->
  tr = map (fun x => Create (fst x) (snd x)) (creations tr) /\
  exists k, k <= n /\ map fst (creations tr) = seq i k /\
    Forall (fun x => nth_error cfgs (fst x) = Some (snd x)) (creations tr) /\
    match r with
    | Ret (inl ts) => k = n /\ Forall2 (fun x t => create (fst x) (snd x) = Ret (inl t)) (creations tr) ts
    | Ret (inr e) => exists p s, creations tr = removelast (creations tr) ++ [(i + k - 1, p)] /\ 0 < k /\
        create (i + k - 1) p = Ret (inr s) /\ e = TaskFailed (i + k - 1) s /\
        Forall (fun x => exists t, create (fst x) (snd x) = Ret (inl t)) (removelast (creations tr))
    | Panic => exists p, creations tr = removelast (creations tr) ++ [(i + k - 1, p)] /\ 0 < k /\
        create (i + k - 1) p = Panic /\
        Forall (fun x => exists t, create (fst x) (snd x) = Ret (inl t)) (removelast (creations tr))
    end.
Proof.
  induction n as [|n IH]; intros i tr r H B; cbn [instanciate] in H.
  - injection H as <- <-. split; [reflexivity|]. exists 0. cbn. repeat split; auto.
  - destruct (nth_error cfgs i) as [p|] eqn:P.
    2: { apply nth_error_None in P. lia. }
    destruct (create i p) as [[t|e]|] eqn:C.
    + destruct (instanciate create cfgs (S i) n) as [tr' r'] eqn:E. injection H as <- <-.
      specialize (IH _ _ _ E ltac:(lia)). destruct IH as (T & k & K & S1 & F & R).
      change (creations (Create i p :: tr')) with ((i, p) :: creations tr').
      split; [cbn [map fst snd]; f_equal; exact T|]. exists (S k). split; [lia|].
      split; [cbn [map fst]; rewrite S1; reflexivity|]. split; [constructor; auto|].
      destruct r' as [[ts|e]|].
      * destruct R as [-> R]. split; [reflexivity|]. constructor; auto.
      * destruct R as (q & s & A & K0 & R1 & R2 & R3). exists q, s. replace (i + S k - 1) with (S i + k - 1) by lia.
        assert (NE : creations tr' <> []) by (rewrite A; destruct (removelast (creations tr')); discriminate).
        replace (removelast ((i, p) :: creations tr')) with ((i, p) :: removelast (creations tr'))
          by (destruct (creations tr'); [contradiction|reflexivity]).
        split; [cbn [app]; f_equal; exact A|]. split; [lia|]. split; [exact R1|]. split; [exact R2|].
        constructor; [exists t; exact C|exact R3].
      * destruct R as (q & A & K0 & R1 & R3). exists q. replace (i + S k - 1) with (S i + k - 1) by lia.
        assert (NE : creations tr' <> []) by (rewrite A; destruct (removelast (creations tr')); discriminate).
        replace (removelast ((i, p) :: creations tr')) with ((i, p) :: removelast (creations tr'))
          by (destruct (creations tr'); [contradiction|reflexivity]).
        split; [cbn [app]; f_equal; exact A|]. split; [lia|]. split; [exact R1|].
        constructor; [exists t; exact C|exact R3].
    + injection H as <- <-. split; [reflexivity|]. exists 1. cbn. split; [lia|]. split; [reflexivity|].
      split; [constructor; auto|]. exists p, e. replace (i + 1 - 1) with i by lia. auto 10.
    + injection H as <- <-. split; [reflexivity|]. exists 1. cbn. split; [lia|]. split; [reflexivity|].
      split; [constructor; auto|]. exists p. replace (i + 1 - 1) with i by lia. auto 10.
Qed.

Lemma callbacks_spec cfgs : forall n i, i + n <= length cfgs -> exists tr, callbacks cfgs i n = (tr, Ret tt) /\
  tr = map (fun x => Told (fst x) (snd x)) (told tr) /\
  map fst (told tr) = seq i n /\ Forall (fun x => nth_error cfgs (fst x) = Some (snd x)) (told tr).
Proof.
  induction n as [|n IH]; intros i B; cbn [callbacks].
  - exists []. do 3 (split; [reflexivity|]). constructor.
  - destruct (nth_error cfgs i) as [p|] eqn:P.
    2: { apply nth_error_None in P. lia. }
    destruct (IH (S i) ltac:(lia)) as (tr & E & T & S1 & F). rewrite E. eexists. split; [reflexivity|].
    change (told (Told i p :: tr)) with ((i, p) :: told tr).
    split; [cbn [map fst snd]; f_equal; exact T|]. split; [cbn [map fst]; rewrite S1; reflexivity|]. constructor; auto.
Qed.

Lemma creations_app a b : creations (a ++ b) = creations a ++ creations b.
Proof. apply flat_map_app. Qed.
Lemma told_app a b : told (a ++ b) = told a ++ told b.
Proof. apply flat_map_app. Qed.
Lemma streams_app a b : streams (a ++ b) = streams a ++ streams b.
Proof. apply flat_map_app. Qed.
Lemma monitors_app a b : monitors (a ++ b) = monitors a ++ monitors b.
Proof. apply flat_map_app. Qed.
Lemma no_told l : told (map (fun x => Create (fst x) (snd x)) l) = [].
Proof. induction l; cbn; auto. Qed.
Lemma no_streams l : streams (map (fun x => Create (fst x) (snd x)) l) = [].
Proof. induction l; cbn; auto. Qed.
Lemma no_monitors l : monitors (map (fun x => Create (fst x) (snd x)) l) = [].
Proof. induction l; cbn; auto. Qed.
Lemma told_no_creations l : creations (map (fun x => Told (fst x) (snd x)) l) = [].
Proof. induction l; cbn; auto. Qed.
Lemma told_no_streams l : streams (map (fun x => Told (fst x) (snd x)) l) = [].
Proof. induction l; cbn; auto. Qed.
Lemma told_no_monitors l : monitors (map (fun x => Told (fst x) (snd x)) l) = [].
Proof. induction l; cbn; auto. Qed.

Lemma instanciate_monitors cfgs m i : monitors (fst (instanciate create cfgs i m)) = [].
Proof.
  revert i. induction m as [|m IH]; intros i; [reflexivity|]. cbn.
  destruct (nth_error cfgs i) as [p|]; [|reflexivity]. destruct (create i p) as [[t|e]|]; try reflexivity.
  specialize (IH (S i)). destruct (instanciate create cfgs (S i) m). exact IH.
Qed.
Lemma callbacks_monitors cfgs m i : monitors (fst (callbacks cfgs i m)) = [].
Proof.
  revert i. induction m as [|m IH]; intros i; [reflexivity|]. cbn.
  destruct (nth_error cfgs i) as [p|]; [|reflexivity].
  specialize (IH (S i)). destruct (callbacks cfgs (S i) m). exact IH.
Qed.

(** With at least as many tasks in the configuration as compiled in. *)
Lemma app_new_spec n sim orig f ov tr r c size :
  app_new create create_monitor sz mode n sim orig f ov = (tr, r) ->
  choose ov f orig = Ret (inl c) -> section_size mode sz c = Ret size ->
  n <= length (c_nodes c) ->
  streams tr = [size] /\
  exists k, k <= n /\ map fst (creations tr) = seq 0 k /\
    Forall (fun x => nth_error (all_instances_configs c) (fst x) = Some (snd x)) (creations tr) /\
    match r with
    | Ret (inl a) => k = n /\ Forall2 (fun x t => create (fst x) (snd x) = Ret (inl t)) (creations tr) (a_tasks a) /\
        create_monitor c = Ret (a_monitor a) /\ monitors tr = [c] /\ a_logs a = logs_lists c /\
        told tr = (if sim then creations tr else [])
    | Ret (inr e) => monitors tr = [] /\ told tr = [] /\
        exists p s, creations tr = removelast (creations tr) ++ [(k - 1, p)] /\ 0 < k /\
        create (k - 1) p = Ret (inr s) /\ e = TaskFailed (k - 1) s /\
        Forall (fun x => exists t, create (fst x) (snd x) = Ret (inl t)) (removelast (creations tr))
    | Panic => told tr = [] /\
        ((exists p, creations tr = removelast (creations tr) ++ [(k - 1, p)] /\ 0 < k /\
        create (k - 1) p = Panic) \/ (create_monitor c = Panic /\ k = n))
    end.
Proof.
  intros H C S B. unfold app_new in H. rewrite C, S in H. unfold runtime_new in H.
  destruct (instanciate create (all_instances_configs c) 0 n) as [tr1 r1] eqn:I.
  assert (L : 0 + n <= length (all_instances_configs c)).
  { unfold all_instances_configs. rewrite map_length. lia. }
  destruct (instanciate_spec _ _ _ _ _ I L) as (T & k & K & S1 & F & R).
  destruct r1 as [[ts|e]|].
  - destruct R as [-> R]. destruct (create_monitor c) as [m|] eqn:M.
    + cbn [obind] in H. destruct sim.
      * destruct (callbacks_spec (all_instances_configs c) n 0 L) as (tr2 & Ec & T2 & S2 & F2).
        rewrite Ec in H. cbn in H. injection H as <- <-.
        assert (Cr : creations (Stream size :: (tr1 ++ [Monitor c]) ++ tr2) = creations tr1).
        { cbn. rewrite !creations_app, T2, told_no_creations. cbn. rewrite !app_nil_r. reflexivity. }
        rewrite Cr. split.
        { cbn. rewrite !streams_app, T2, told_no_streams, T, no_streams. reflexivity. }
        exists n. split; [lia|]. split; [exact S1|]. split; [exact F|]. split; [reflexivity|]. split; [exact R|].
        split; [reflexivity|]. split.
        { cbn. rewrite !monitors_app, T2, told_no_monitors, T, no_monitors. reflexivity. }
        split; [reflexivity|].
        transitivity (told tr2).
        { cbn. rewrite !told_app, T, no_told. reflexivity. }
        clear - S1 S2 F F2. revert S1 S2 F F2. generalize (creations tr1) (told tr2).
        intros l1 l2 E1 E2. rewrite <- E1 in E2. clear E1. revert l1 E2.
        induction l2 as [|x l2 IH]; intros [|y l1] E F1 F2; try discriminate; [reflexivity|].
        cbn in E. injection E as E E'. inversion F1; inversion F2; subst. f_equal; [|auto].
        destruct x, y; cbn in *; subst. congruence.
      * injection H as <- <-.
        assert (Cr : creations (Stream size :: tr1 ++ [Monitor c]) = creations tr1).
        { cbn. rewrite !creations_app. cbn. rewrite !app_nil_r. reflexivity. }
        rewrite Cr. split.
        { cbn. rewrite !streams_app, T, no_streams. reflexivity. }
        exists n. split; [lia|]. split; [exact S1|]. split; [exact F|]. split; [reflexivity|]. split; [exact R|].
        split; [reflexivity|]. split.
        { cbn. rewrite !monitors_app, T, no_monitors. reflexivity. }
        split; [reflexivity|].
        cbn. rewrite !told_app, T, no_told. reflexivity.
    + injection H as <- <-.
      assert (Cr : creations (Stream size :: tr1 ++ [Monitor c]) = creations tr1).
      { cbn. rewrite !creations_app. cbn. rewrite !app_nil_r. reflexivity. }
      rewrite Cr. split.
      { cbn. rewrite !streams_app, T, no_streams. reflexivity. }
      exists n. split; [lia|]. split; [exact S1|]. split; [exact F|]. split.
      { cbn. rewrite !told_app, T, no_told. reflexivity. }
      right. auto.
  - injection H as <- <-. replace (creations (Stream size :: tr1)) with (creations tr1) by reflexivity.
    split; [cbn; rewrite T, no_streams; reflexivity|]. exists k. split; [exact K|]. split; [exact S1|].
    split; [exact F|]. split; [cbn; rewrite T, no_monitors; reflexivity|].
    split; [cbn; rewrite T, no_told; reflexivity|]. exact R.
  - injection H as <- <-. replace (creations (Stream size :: tr1)) with (creations tr1) by reflexivity.
    split; [cbn; rewrite T, no_streams; reflexivity|]. exists k. split; [exact K|]. split; [exact S1|].
    split; [exact F|]. split; [cbn; rewrite T, no_told; reflexivity|]. left.
    destruct R as (p & R1 & R2 & R3 & _). exists p. auto.
Qed.
End New.

Lemma same_tasks_own ids c i p : same_tasks ids c -> i < length ids ->
  nth_error (all_instances_configs c) i = Some p -> own_parameters ids c (i, p).
Proof.
  intros [more E] B H. unfold all_instances_configs in H. rewrite nth_error_map in H.
  destruct (nth_error (c_nodes c) i) as [nd|] eqn:N; [|discriminate]. cbn in H. injection H as <-.
  exists (n_id nd). cbn. split.
  - rewrite <- (nth_error_app1 ids more B), <- E, nth_error_map, N. reflexivity.
  - exists nd. split; [exact (nth_error_In _ _ N)|]. auto.
Qed.

(** ** Builder *)
Section Builder.
Context {C L F : Type}.
Lemma last_given_app {S X} (sel : S -> option X) calls o s : last_given sel calls o ->
  last_given sel (calls ++ [s]) (match sel s with Some x => Some x | None => o end).
Proof.
  intros H. destruct (sel s) as [x|] eqn:E.
  - exists calls, s, []. auto.
  - destruct o as [x|].
    + destruct H as (l1 & s' & l2 & -> & Hs & Hl). exists l1, s', (l2 ++ [s]). rewrite <- app_assoc.
      split; [reflexivity|]. split; [exact Hs|]. apply Forall_app. auto.
    + cbn in *. apply Forall_app. auto.
Qed.

Lemma calls_spec (calls : list (setter C L F)) :
  let b := fold_left call calls builder_new in
  last_given clock_of calls (b_clock b) /\ last_given logger_of calls (b_logger b) /\
  last_given config_of calls (b_config b) /\ last_given callback_of calls (b_callback b).
Proof.
  induction calls as [|s calls IH] using rev_ind; cbn.
  - repeat split; constructor.
  - rewrite fold_left_app. cbn [fold_left]. destruct IH as (I1 & I2 & I3 & I4).
    apply (last_given_app _ _ _ s) in I1. apply (last_given_app _ _ _ s) in I2.
    apply (last_given_app _ _ _ s) in I3. apply (last_given_app _ _ _ s) in I4.
    destruct s; auto.
Qed.

Lemma last_given_fun {S X} (sel : S -> option X) calls o o' :
  last_given sel calls o -> last_given sel calls o' -> o = o'.
Proof.
  assert (G : forall calls o, last_given sel calls o ->
    o = fold_left (fun o s => match sel s with Some x => Some x | None => o end) calls None).
  { clear. intros calls o. destruct o as [x|]; cbn.
    - intros (l1 & s & l2 & -> & E & Fl). rewrite fold_left_app. cbn. rewrite E.
      clear E. induction l2 as [|a l2 IH]; [reflexivity|]. inversion Fl; subst. cbn. rewrite H1. auto.
    - intros Fl. induction calls as [|a l IH]; [reflexivity|]. inversion Fl; subst. cbn. rewrite H1. auto. }
  intros H H'. rewrite (G _ _ H), (G _ _ H'). reflexivity.
Qed.
End Builder.

(** ** Placeholders *)
Lemma index_of_nth ids : NoDup ids -> forall v id, nth_error ids v = Some id -> index_of ids id = Some v.
Proof.
  induction 1 as [|x ids N D IH]; intros [|v] id H; cbn in *; try discriminate.
  - injection H as ->. rewrite String.eqb_refl. reflexivity.
  - destruct (String.eqb_spec x id) as [->|].
    + destruct N. exact (nth_error_In _ _ H).
    + rewrite (IH _ _ H). reflexivity.
Qed.

From Coq Require Import Permutation.
From Verif Require Import PlanProofs PlanProofs2 PlanProofs3.

Lemma in_edges_connections g v : map snd (in_edges g v) = rev (connections_into g v).
Proof.
  unfold in_edges, connections_into. rewrite map_rev. f_equal.
  rewrite <- (indexed_edges g) at 1. rewrite filter_map_snd. reflexivity.
Qed.

Lemma last_connection_fun g v e f :
  last_connection_from g v e -> last_connection_from g v f -> e = f.
Proof.
  intros (a & b & E & Ee & Fb) (a' & b' & E' & Ee' & Fb'). rewrite E in E'. clear E.
  revert a' E'. induction a as [|x a IH]; intros [|y a'] H; cbn in H.
  - congruence.
  - injection H as <- H. exfalso. rewrite Forall_forall in Fb. apply (Fb f); [|exact Ee'].
    rewrite H. apply in_app_iff. right. left. reflexivity.
  - injection H as -> H. exfalso. rewrite Forall_forall in Fb'. apply (Fb' e); [|exact Ee].
    rewrite <- H. apply in_app_iff. right. left. reflexivity.
  - injection H as _ H. eauto.
Qed.

Lemma sink_fits g plan k s ids id ty : wf_graph g -> compute_plan g = Ret (Some plan) ->
  nth_error plan k = Some s -> NoDup ids -> nth_error ids (s_node s) = Some id -> s_type s = Sink ->
  exists m, sim_type_of ids g (s_node s) id ty = Ret (SimSink m) /\
  (fits (SimSink m) s = true <->
   exists e f, connections_into g (s_node s) = [e] /\ last_connection_from g (e_src e) f /\ e_msg f = e_msg e).
Proof.
  intros W E K D Hid T. pose proof (compute_plan_spec g W) as C. rewrite E in C. destruct C as [C _].
  destruct (plan_ok_nth g plan k s C K) as [_ Sk]. pose proof (so_type _ _ _ Sk) as Ty. rewrite T in Ty.
  destruct (step_inputs g plan k s C K) as (ins & P & De & O & _).
  assert (G : forall e, In e (connections_into g (s_node s)) -> feeds g (e_src e) (s_node s)).
  { intros e He. apply connections_into_in in He. exists e. tauto. }
  unfold sim_type_of. rewrite <- Ty. unfold input_msg_type. rewrite (index_of_nth ids D _ _ Hid).
  unfold get_dst_edges. pose proof (in_edges_connections g (s_node s)) as R.
  destruct (in_edges g (s_node s)) as [|[i e] l] eqn:I.
  - exfalso. unfold task_type_of, preds in Ty. rewrite I in Ty. cbn in Ty. discriminate.
  - exists (e_msg e). split; [reflexivity|]. cbn in R. cbn [snd fits].
    assert (R' : connections_into g (s_node s) = rev (map snd l) ++ [e]).
    { rewrite <- (rev_involutive (connections_into g (s_node s))), <- R. reflexivity. }
    rewrite R' in *. split.
    + intros H. destruct (s_inputs s) as [|[x m] [|]] eqn:S; try discriminate.
      apply String.eqb_eq in H. apply Permutation_sym, Permutation_length_1_inv in P. subst ins.
      inversion O as [|? e' ? l' O1 O2 E1 E2]; subst. inversion O2; subst. 
      assert (e' = e /\ rev (map snd l) = []) as [-> Q].
      { destruct (rev (map snd l)) as [|z zs]; cbn in E2; [injection E2 as ->; auto|].
        injection E2 as _ E2. destruct zs; discriminate. }
      destruct (out_type_feeds g (e_src e) (s_node s) (e_msg e)) as (f & L & M); [|exact O1|].
      { apply G. apply in_app_iff. right. left. reflexivity. }
      exists e, f. split; [reflexivity|]. split; [exact L|]. congruence.
    + intros (e' & f & Q & L & M).
      assert (e' = e /\ rev (map snd l) = []) as [-> Q'].
      { destruct (rev (map snd l)) as [|z zs]; cbn in Q; [injection Q as ->; auto|].
        injection Q as _ Q. destruct zs; discriminate. }
      rewrite Q' in *. cbn [app] in *.
      inversion O as [|[x m] ? l1 ? O1 O2]; subst. inversion O2; subst.
      apply Permutation_length_1_inv in P. rewrite P.
      destruct (out_type_feeds g (e_src e) (s_node s) m) as (f' & L' & M'); [|exact O1|].
      { apply G. left. reflexivity. }
      rewrite (last_connection_fun _ _ _ _ L' L) in M'. apply String.eqb_eq. congruence.
Qed.

Lemma source_fits g plan k s ids id ty : wf_graph g -> compute_plan g = Ret (Some plan) ->
  nth_error plan k = Some s -> NoDup ids -> nth_error ids (s_node s) = Some id -> s_type s = Source ->
  exists m, sim_type_of ids g (s_node s) id ty = Ret (SimSource m) /\ fits (SimSource m) s = true.
Proof.
  intros W E K D Hid T. pose proof (compute_plan_spec g W) as C. rewrite E in C. destruct C as [C _].
  destruct (plan_ok_nth g plan k s C K) as [_ Sk]. pose proof (so_type _ _ _ Sk) as Ty. rewrite T in Ty.
  destruct (so_out _ _ _ Sk) as (m & O & M). unfold out_type in M. rewrite <- Ty in M.
  unfold sim_type_of. rewrite <- Ty. unfold output_msg_type. rewrite (index_of_nth ids D _ _ Hid).
  unfold first_out_msg in M. destruct (get_src_edges g (s_node s)) as [|e l]; [discriminate|].
  injection M as M. exists (e_msg (snd e)). split; [reflexivity|]. cbn. rewrite O, M. apply String.eqb_refl.
Qed.

(** ** Names *)
Lemma sanitize_id alnum id : Forall (fun c => alnum c = true \/ c = 95%N) id -> sanitize alnum id = id.
Proof.
  unfold sanitize. induction 1 as [|c l H F IH]; [reflexivity|]. cbn. rewrite IH. f_equal.
  destruct (alnum c) eqn:A; [reflexivity|]. destruct H; congruence.
Qed.

Lemma generated_inj to_case alnum x y :
  (forall z r, to_case z <> 95%N :: r) ->
  generated_name to_case alnum x = generated_name to_case alnum y ->
  to_case (sanitize alnum x) = to_case (sanitize alnum y).
Proof.
  intros U. unfold generated_name.
  pose proof (U (sanitize alnum x)) as Ux. pose proof (U (sanitize alnum y)) as Uy.
  destruct (to_case (sanitize alnum x)) as [|a u], (to_case (sanitize alnum y)) as [|b v]; auto.
  - destruct (is_digit b); discriminate.
  - destruct (is_digit a); discriminate.
  - destruct (is_digit a), (is_digit b); intros H.
    + injection H as -> ->. reflexivity.
    + injection H as <- <-. destruct (Uy _ eq_refl).
    + injection H as -> ->. destruct (Ux _ eq_refl).
    + exact H.
Qed.

(** ** Section size *)
Lemma section_size_spec mode sz c : (sz * 64 < 2 ^ 64)%N ->
  (forall l mib, c_logging c = Some l -> lc_section l = Some mib -> (mib < 2 ^ 44)%N) ->
  section_size mode sz c =
  Ret (match c_logging c with
       | Some l => match lc_section l with Some mib => mib * 2 ^ 20 | None => 64 * sz end
       | None => 64 * sz end)%N.
Proof.
  intros B H. unfold section_size, mul_usize. rewrite (proj2 (N.ltb_lt _ _) B). cbn [obind].
  destruct (c_logging c) as [[slab [mib|] en]|]; cbn.
  - specialize (H _ mib eq_refl eq_refl).
    rewrite (proj2 (N.ltb_lt (mib * 1024) _)) by (change 18446744073709551616%N with (2^44 * 1048576)%N; lia).
    cbn [obind]. rewrite (proj2 (N.ltb_lt (mib * 1024 * 1024) _)) by (change 18446744073709551616%N with (2^44 * 1048576)%N; lia).
    f_equal. lia.
  - f_equal. lia.
  - f_equal. lia.
Qed.
