(** Proofs about the setup of a log. *)
From Coq Require Import String List Arith NArith Bool Lia DecimalN.
From Verif Require Import Base BincodeModel LogModel LogProofs ULogModel ULogSpec ULogProofs1 ULogProofs2 ULogProofs3 ULogProofs4
  ConfigModel AppModel AppProofs SetupModel SetupSpec.
Import ListNotations.
Local Open Scope list_scope.
Local Open Scope N_scope.

(** ** Names *)
Lemma split_nonempty s : split_dot s <> [].
Proof. destruct s as [|c s]; cbn; [discriminate|]. destruct (c =? 46); [discriminate|]. destruct (split_dot s); discriminate. Qed.
Lemma split_nodot s : ~ In 46 s -> split_dot s = [s].
Proof.
  induction s as [|c s IH]; intros H; [reflexivity|]. cbn [split_dot].
  destruct (N.eqb_spec c 46); [exfalso; apply H; left; auto|]. rewrite IH; [reflexivity|]. intros X. apply H. right. exact X.
Qed.
Lemma split_last stem ext : ~ In 46 ext -> split_dot (stem ++ 46 :: ext) = split_dot stem ++ [ext].
Proof.
  intros H. induction stem as [|c stem IH]; cbn [app split_dot].
  - rewrite (split_nodot ext H). reflexivity.
  - rewrite IH. destruct (c =? 46); [reflexivity|]. pose proof (split_nonempty stem). destruct (split_dot stem); [contradiction|]. reflexivity.
Qed.
Lemma join_split s : join (lit ".") (split_dot s) = s.
Proof.
  induction s as [|c s IH]; [reflexivity|]. cbn [split_dot]. pose proof (split_nonempty s) as X.
  destruct (N.eqb_spec c 46) as [-> |D].
  - destruct (split_dot s) as [|p ps] eqn:E; [contradiction|]. change (join (lit ".") ([] :: p :: ps)) with (46 :: join (lit ".") (p :: ps)). rewrite IH. reflexivity.
  - destruct (split_dot s) as [|p ps]; [contradiction|]. cbn [join] in *. destruct ps; [rewrite IH; reflexivity|].
    rewrite <- IH. reflexivity.
Qed.
Lemma slab_name_parts name stem ext k : parts name stem ext ->
  slab_name (Name name) k = Ret (stem ++ 95 :: show_N k ++ 46 :: ext).
Proof.
  intros [-> H]. unfold slab_name. rewrite (split_last _ _ H), last_last, removelast_last, join_split. reflexivity.
Qed.
Lemma slab_name_nodot name k : ~ In 46 name -> slab_name (Name name) k = Ret (95 :: show_N k ++ 46 :: name).
Proof. intros H. unfold slab_name. rewrite (split_nodot _ H). reflexivity. Qed.

Lemma digits_range u : Forall (fun c => 48 <= c <= 57) (digits u).
Proof. induction u; cbn; constructor; auto; lia. Qed.
Lemma digits_inj u : forall v, digits u = digits v -> u = v.
Proof. induction u; intros v H; destruct v; cbn in H; try discriminate H; try reflexivity; injection H as H; f_equal; auto. Qed.
Lemma show_inj n m : show_N n = show_N m -> n = m.
Proof. intros H. apply digits_inj in H. apply Unsigned.to_uint_inj. exact H. Qed.
Lemma show_range n : Forall (fun c => 48 <= c <= 57) (show_N n).
Proof. apply digits_range. Qed.

Lemma last_sep {A} (x : A) (a b a' b' : list A) : ~ In x b -> ~ In x b' -> a ++ x :: b = a' ++ x :: b' -> a = a' /\ b = b'.
Proof.
  revert a'. induction a as [|y a IH]; intros [|y' a'] H H' E; cbn [app] in E.
  - injection E as E. auto.
  - injection E as -> E. subst b. exfalso. apply H. apply in_or_app. right. left. reflexivity.
  - injection E as -> E. subst b'. exfalso. apply H'. apply in_or_app. right. left. reflexivity.
  - injection E as -> E. destruct (IH a' H H' E) as [-> ->]. auto.
Qed.
Lemma not_digit c n : (c < 48 \/ 57 < c) -> ~ In c (show_N n).
Proof. intros H I. pose proof (show_range n) as R. rewrite Forall_forall in R. specialize (R _ I). lia. Qed.

Lemma slab_names_differ n s e n' s' e' k k' : parts n s e -> parts n' s' e' ->
  slab_name (Name n) k = slab_name (Name n') k' -> n = n' /\ k = k'.
Proof.
  intros P P'. rewrite (slab_name_parts _ _ _ _ P), (slab_name_parts _ _ _ _ P'). intros E. injection E as E.
  change (s ++ 95 :: show_N k ++ 46 :: e) with (s ++ (95 :: show_N k) ++ 46 :: e) in E.
  change (s' ++ 95 :: show_N k' ++ 46 :: e') with (s' ++ (95 :: show_N k') ++ 46 :: e') in E.
  rewrite !app_assoc in E. destruct P as [-> H], P' as [-> H'].
  destruct (last_sep _ _ _ _ _ H H' E) as [E1 ->].
  destruct (last_sep 95 s (show_N k) s' (show_N k')) as [-> E2]; [apply not_digit; lia|apply not_digit; lia|exact E1|].
  split; [reflexivity|]. apply show_inj. exact E2.
Qed.
Lemma has_parts name : In 46 name -> exists s e, parts name s e.
Proof.
  induction name as [|c name IH]; intros H; [contradiction|].
  destruct (in_dec N.eq_dec 46 name) as [I|I].
  - destruct (IH I) as (s & e & -> & X). exists (c :: s), e. split; [reflexivity|exact X].
  - destruct H as [-> |H]; [|contradiction]. exists [], name. split; [reflexivity|exact I].
Qed.

(** ** The builder *)
Lemma last_of_app {A B} (f : A -> option B) l x :
  last_of f (l ++ [x]) = match f x with Some b => Some b | None => last_of f l end.
Proof. unfold last_of. rewrite fold_left_app. reflexivity. Qed.

Lemma built_state {P} (l : list (setter P)) : let b := fold_left set l builder_new in
  b_base b = base_given l /\ b_size b = size_given l /\
  (b_write b = true <-> write_asked l) /\ (b_create b = true <-> create_asked l).
Proof.
  induction l as [|x l IH] using rev_ind; cbn zeta.
  - cbn. unfold write_asked, create_asked. cbn. repeat split; intros; discriminate.
  - cbn zeta in IH. rewrite fold_left_app. cbn [fold_left].
    destruct IH as (H1 & H2 & H3 & H4). unfold base_given, size_given, write_asked, create_asked in *.
    rewrite !last_of_app. destruct x; cbn [set b_base b_size b_write b_create]; (split; [congruence|]); (split; [congruence|]);
      (split; [try exact H3|try exact H4]); split; intros; congruence.
Qed.

(** ** The setup *)
Section Setup.
Variable ps : N.
Hypothesis Hps : page_ok ps.

Lemma in_pages_align n : align ps n = in_pages ps n.
Proof. apply align_eq. exact Hps. Qed.

Lemma main_small : blen (main_bytes ps) <= 10.
Proof. apply enc_main_bound. repeat split; cbn; apply N.mod_lt; lia. Qed.

Lemma setup_ok slab : in_pages ps 40960 <= setup_size slab ->
  exists lg st G, setup ps slab = Ret (lg, st) /\ core ps (setup_size slab) lg G /\ frontpos lg.
Proof.
  intros H. unfold setup. cbv zeta. set (size := setup_size slab) in *.
  pose proof (logger_new_spec ps size Hps) as L. pose proof main_small as M.
  assert (A : 40960 <= in_pages ps 40960).
  { rewrite <- in_pages_align. apply align_bounds. exact Hps. }
  destruct (N.ltb_spec size (blen (main_bytes ps))); [lia|]. destruct L as (lg & E & C & F & _).
  rewrite E. cbn [obind]. unfold stream_new.
  assert (S : size_ok ps size 40960).
  { unfold size_ok. split; [lia|]. rewrite in_pages_align. split; [exact H|].
    rewrite <- in_pages_align. pose proof (align_bounds ps Hps 40960). destruct Hps as [_ Hp]. lia. }
  destruct (add_section_spec ps size Hps lg [] TStructured 40960 0%nat C F S) as (lg' & h & k & off & E' & C' & F' & _).
  change (4096 * 10) with 40960. rewrite E'. cbn [obind]. eexists _, _, _. split; [reflexivity|]. split; [exact C'|exact F'].
Qed.

Lemma lists_iff slab mode culist c lg G n : core ps (setup_size slab) lg G -> frontpos lg ->
  section_size mode culist c = Ret n -> n + ps <= 2 ^ 32 ->
  ((exists r, open_lists ps slab mode culist c lg = Ret r) <-> 15 <= n /\ in_pages ps n <= setup_size slab).
Proof.
  intros C F E B. unfold open_lists. rewrite E. cbn [obind]. unfold stream_new.
  assert (B' : align ps n < 2 ^ 32) by (pose proof (align_bounds ps Hps n); lia).
  split.
  - intros [r R]. destruct (N.leb_spec 15 n) as [L|L].
    + split; [exact L|]. destruct (N.leb_spec (in_pages ps n) (setup_size slab)) as [S|S]; [exact S|exfalso].
      rewrite (add_section_panics ps (setup_size slab) Hps lg G TCopperList n C B') in R; [discriminate R|].
      unfold size_ok. rewrite in_pages_align. lia.
    + exfalso. rewrite (add_section_panics ps (setup_size slab) Hps lg G TCopperList n C B') in R; [discriminate R|].
      unfold size_ok. lia.
  - intros [L S]. assert (SO : size_ok ps (setup_size slab) n).
    { unfold size_ok. split; [exact L|]. split; [rewrite in_pages_align; exact S|exact B']. }
    destruct (add_section_spec ps _ Hps lg G TCopperList n 0%nat C F SO) as (lg' & h & k & off & E' & _).
    rewrite E'. cbn [obind]. eexists. reflexivity.
Qed.

Lemma front_size size lg G : core ps size lg G -> exists f, file_in_use lg = Some f /\ f_len f = size.
Proof.
  intros C. unfold file_in_use. destruct (nth_error (lg_files lg) (lg_suffix lg)) as [f|] eqn:E.
  - exists f. split; [reflexivity|]. destruct (im_slabs _ _ _ _ (c_img _ _ _ _ C) _ _ E) as (e & SI & _).
    pose proof (c_slabs _ _ _ _ C _ _ _ E SI) as H. unfold status in H. rewrite Nat.eqb_refl in H. apply H.
  - exfalso. apply nth_error_None in E. pose proof (c_len _ _ _ _ C). lia.
Qed.

Lemma start_size slab mode culist c lg st n : section_size mode culist c = Ret n -> n + ps <= 2 ^ 32 ->
  in_pages ps 40960 <= setup_size slab ->
  start_log ps slab mode culist c = Ret (lg, st) -> exists f, file_in_use lg = Some f /\ f_len f = setup_size slab.
Proof.
  intros E B H S. destruct (setup_ok slab H) as (lg0 & st0 & G & E0 & C & F).
  unfold start_log in S. rewrite E0 in S. cbn [obind] in S.
  pose proof (proj1 (lists_iff slab mode culist c lg0 G n C F E B) (ex_intro _ _ S)) as [L P].
  unfold open_lists in S. rewrite E in S. cbn [obind] in S. unfold stream_new in S.
  assert (SO : size_ok ps (setup_size slab) n).
  { unfold size_ok. split; [exact L|]. split; [rewrite in_pages_align; exact P|]. pose proof (align_bounds ps Hps n). lia. }
  destruct (add_section_spec ps _ Hps lg0 G TCopperList n 0%nat C F SO) as (lg' & h & k & off & E' & C' & _).
  rewrite E' in S. cbn [obind] in S. injection S as <- _. apply (front_size _ _ _ C').
Qed.

Lemma setup_small slab : setup_size slab < in_pages ps 40960 -> setup ps slab = Panic.
Proof.
  intros H. unfold setup. cbv zeta. set (size := setup_size slab) in *.
  pose proof (logger_new_spec ps size Hps) as L. destruct (N.ltb_spec size (blen (main_bytes ps))) as [X|X].
  - rewrite L. reflexivity.
  - destruct L as (lg & E & C & F & _). rewrite E. cbn [obind]. unfold stream_new. change (4096 * 10) with 40960.
    rewrite (add_section_panics ps size Hps lg [] TStructured 40960 C); [reflexivity| |].
    + pose proof (align_bounds ps Hps 40960). destruct Hps as [_ Hp]. lia.
    + unfold size_ok. rewrite in_pages_align. lia.
Qed.

Lemma start_iff slab mode culist c n : section_size mode culist c = Ret n -> n + ps <= 2 ^ 32 ->
  ((exists r, start_log ps slab mode culist c = Ret r) <->
   in_pages ps 40960 <= setup_size slab /\ 15 <= n /\ in_pages ps n <= setup_size slab).
Proof.
  intros E B. destruct (N.leb_spec (in_pages ps 40960) (setup_size slab)) as [H|H].
  - destruct (setup_ok slab H) as (lg & st & G & E0 & C & F). unfold start_log. rewrite E0. cbn [obind].
    rewrite (lists_iff slab mode culist c lg G n C F E B). tauto.
  - unfold start_log. rewrite (setup_small slab H). cbn [obind]. split; [intros [r R]; discriminate R|lia].
Qed.

Lemma start_shape slab mode culist c r : start_log ps slab mode culist c = Ret r -> in_pages ps 40960 <= setup_size slab.
Proof.
  intros S. destruct (N.leb_spec (in_pages ps 40960) (setup_size slab)) as [H|H]; [exact H|].
  unfold start_log in S. rewrite (setup_small slab H) in S. discriminate S.
Qed.
End Setup.

Lemma wanted mode culist c ps : section_wanted culist c + ps <= 2 ^ 32 -> culist < 2 ^ 58 ->
  section_size mode culist c = Ret (section_wanted culist c).
Proof.
  intros H K. rewrite section_size_spec; [|lia|].
  - f_equal.
  - intros l mib E E'. unfold section_wanted in H. rewrite E, E' in H. lia.
Qed.
