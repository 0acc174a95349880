(** Facts about the abstract log; isolation; crashes; the Read adapter; flushing. *)
From Coq Require Import List Arith NArith ZArith Bool Lia Sorted ZifyBool ZifyNat ZifyN.
From Verif Require Import Base BincodeModel BincodeSpec BincodeProofs ULogModel ULogSpec
  ULogProofs1 ULogProofs2 ULogProofs3 ULogProofs4 ULogProofs5 ULogProofs6.
Import ListNotations.
Open Scope N_scope.

(** ** The abstract log *)
Section Abstract.
Context (ps slab_size : N).

Lemma asteps_app ops1 : forall st ops2, asteps ps slab_size st (ops1 ++ ops2) =
  match asteps ps slab_size st ops1 with Some st => asteps ps slab_size st ops2 | None => None end.
Proof.
  induction ops1 as [|op ops1 IH]; intros st ops2; cbn; auto.
  destruct (astep ps slab_size st op); auto.
Qed.

Lemma focus_some i l a s b : focus i l = Some (a, s, b) ->
  l = a ++ s :: b /\ a_open s = true /\ a_owner s = i.
Proof.
  revert a s b. induction l as [|x l IH]; intros a s b; cbn; [discriminate|].
  destruct (a_open x) eqn:O; cbn [andb].
  - destruct (Nat.eqb_spec (a_owner x) i).
    + intros [= <- <- <-]. auto.
    + destruct (focus i l) as [[[a' s'] b']|]; [|discriminate]. intros [= <- <- <-].
      destruct (IH _ _ _ eq_refl) as (-> & ? & ?). auto.
  - destruct (focus i l) as [[[a' s'] b']|]; [|discriminate]. intros [= <- <- <-].
    destruct (IH _ _ _ eq_refl) as (-> & ? & ?). auto.
Qed.

Record ainv (ops : list lop) (n : nat) (l : list asec) : Prop := {
  ai_n : n = length (opened ops);
  ai_type : Forall (fun s => nth_error (opened ops) (a_owner s) = Some (a_type s)) l;
  ai_vals : forall i, values_of i l = logged i ops;
  ai_open : forall a s b, l = a ++ s :: b -> a_open s = true ->
      Forall (fun x => a_owner x <> a_owner s) b;
  ai_fit : Forall (fun s => 15 + a_used s <= a_min s) l }.

Lemma values_app i l1 l2 : values_of i (l1 ++ l2) = values_of i l1 ++ values_of i l2.
Proof. unfold values_of. now rewrite filter_app, flat_map_app. Qed.

Lemma values_cons i s l : values_of i (s :: l) =
  (if Nat.eqb (a_owner s) i then a_objs s else []) ++ values_of i l.
Proof. unfold values_of. cbn. destruct (Nat.eqb (a_owner s) i); auto. Qed.

Lemma values_other i l : Forall (fun x => a_owner x <> i) l -> values_of i l = [].
Proof.
  induction 1 as [|x l H _ IH]; auto. rewrite values_cons, IH.
  destruct (Nat.eqb_spec (a_owner x) i); [congruence|auto].
Qed.

Lemma logged_snoc i ops op : logged i (ops ++ [op]) = logged i ops ++ logged i [op].
Proof. apply flat_map_app. Qed.
Lemma opened_snoc ops op : opened (ops ++ [op]) = opened ops ++ opened [op].
Proof. apply flat_map_app. Qed.

Lemma app_mid_inv {A} (a b : list A) x y c d : a ++ x :: b = c ++ y :: d ->
  (exists m, c = a ++ x :: m /\ b = m ++ y :: d) \/ (a = c /\ x = y /\ b = d) \/
  (exists m, a = c ++ y :: m /\ d = m ++ x :: b).
Proof.
  intros H. apply app_eq_app in H. destruct H as (m & [[-> E]|[-> E]]).
  - destruct m as [|z m]; cbn in E.
    + injection E as <- <-. right; left. rewrite app_nil_r. auto.
    + injection E as <- ->. right; right. exists m. auto.
  - destruct m as [|z m]; cbn in E.
    + injection E as <- <-. right; left. rewrite app_nil_r. auto.
    + injection E as <- ->. left. exists m. auto.
Qed.

(** Replacing a section in the middle by one with the same owner. *)
Lemma ai_open_mid (a b : list asec) s s' : a_owner s' = a_owner s ->
  (forall x y z, a ++ s :: b = x ++ y :: z -> a_open y = true -> Forall (fun w => a_owner w <> a_owner y) z) ->
  a_open s = true ->
  forall x y z, a ++ s' :: b = x ++ y :: z -> a_open y = true -> Forall (fun w => a_owner w <> a_owner y) z.
Proof.
  intros E H O x y z Exyz Oy. apply app_mid_inv in Exyz.
  destruct Exyz as [(m & -> & ->)|[(-> & <- & <-)|(m & -> & ->)]].
  - apply (H (a ++ s :: m) y z); auto. now rewrite <- app_assoc.
  - rewrite E. apply (H x s b); auto.
  - assert (H1 : Forall (fun w => a_owner w <> a_owner y) (m ++ s :: b)).
    { apply (H x y (m ++ s :: b)); auto. now rewrite <- app_assoc. }
    apply Forall_app in H1. destruct H1 as [H1 H2]. inversion H2; subst.
    apply Forall_app. split; auto. constructor; auto. congruence.
Qed.

Lemma ainv_step ops n l op n' l' : ainv ops n l -> astep ps slab_size (n, l) op = Some (n', l') ->
  ainv (ops ++ [op]) n' l'.
Proof.
  intros [A1 A2 A3 A4 A5] H. destruct op as [t min|i o|i]; cbn [astep] in H.
  - unfold usable in H. destruct (N.leb_spec 15 min); cbn [andb] in H; [|discriminate].
    destruct (_ <=? slab_size); [|discriminate]. injection H as <- <-.
    constructor.
    + rewrite opened_snoc, app_length, A1. cbn. lia.
    + rewrite opened_snoc. apply Forall_app. split.
      * eapply Forall_impl; [|exact A2]. cbn. intros s Hs. rewrite nth_error_app1; auto.
        apply nth_error_Some. congruence.
      * constructor; auto. cbn [a_owner a_type]. rewrite A1. apply nth_error_here.
    + intros j. rewrite values_app, logged_snoc, A3. cbn. rewrite app_nil_r.
      unfold values_of. cbn. destruct (Nat.eqb n j); cbn; now rewrite app_nil_r.
    + intros a s b E Os. destruct b as [|y b] using rev_ind; auto. clear IHb.
      replace (a ++ s :: b ++ [y]) with ((a ++ s :: b) ++ [y]) in E by (now rewrite <- app_assoc).
      apply app_inj_tail in E. destruct E as [-> <-]. apply Forall_app. split.
      * apply (A4 a s b); auto.
      * constructor; auto. cbn [a_owner]. apply Forall_app in A2. destruct A2 as [_ A2].
        apply Forall_inv in A2. rename A2 into Hs. rewrite A1. intros E.
        rewrite <- E in Hs. rewrite (proj2 (nth_error_None _ _)) in Hs by lia. discriminate.
    + apply Forall_app. split; auto.
  - destruct (focus i l) as [[[a s] b]|] eqn:F; [|discriminate].
    destruct (focus_some _ _ _ _ _ F) as (-> & O & E).
    assert (Hb : Forall (fun x => a_owner x <> i) b) by (rewrite <- E; eapply A4; eauto).
    assert (Eo : opened (ops ++ [LLog i o]) = opened ops) by (rewrite opened_snoc; cbn; now rewrite app_nil_r).
    apply Forall_app in A2. destruct A2 as [A2 A2']. inversion A2' as [|? ? T1 T2]; subst.
    apply Forall_app in A5. destruct A5 as [A5 A5']. inversion A5' as [|? ? U1 U2]; subst.
    assert (Vs : forall j s' c, a_owner s' = a_owner s ->
      values_of j (a ++ s' :: b ++ c) = values_of j a ++ (if Nat.eqb (a_owner s) j then a_objs s' else []) ++
                               values_of j b ++ values_of j c).
    { intros j s' c E'. rewrite values_app, values_cons, E', values_app. reflexivity. }
    destruct (N.leb_spec (15 + a_used s + blen (obytes o)) (a_min s)).
    + injection H as <- <-. destruct (o_ok o) eqn:Ok.
      * constructor.
        -- now rewrite Eo.
        -- rewrite Eo. apply Forall_app. auto.
        -- intros j. rewrite logged_snoc, <- A3. cbn [logged flat_map]. rewrite Ok, andb_true_r, app_nil_r.
           rewrite <- (app_nil_r b), !Vs by reflexivity. cbn [values_of filter flat_map].
           rewrite !app_nil_r. cbn [a_put a_objs].
           destruct (Nat.eqb_spec (a_owner s) j) as [<-|]; rewrite ?app_nil_r, ?app_nil_l; auto.
           rewrite (values_other _ b Hb), !app_nil_r, app_assoc. reflexivity.
        -- apply (ai_open_mid a b s (a_put (obytes o) s)); auto.
        -- apply Forall_app. split; auto. constructor; auto. unfold a_used in *. cbn [a_put a_objs a_min].
           rewrite concat_app, blen_app. cbn [concat]. rewrite app_nil_r. lia.
      * constructor.
        -- now rewrite Eo.
        -- rewrite Eo. apply Forall_app. auto.
        -- intros j. rewrite logged_snoc, <- A3. cbn [logged flat_map].
           rewrite Ok, andb_false_r. cbn. now rewrite app_nil_r.
        -- exact A4.
        -- apply Forall_app. auto.
    + destruct (o_ok o) eqn:Ok; cbn [andb] in H; [|discriminate].
      destruct (N.leb_spec (15 + blen (obytes o)) (a_min s)); [|discriminate]. injection H as <- <-.
      constructor.
      * now rewrite Eo.
      * rewrite Eo. apply Forall_app. split; auto. constructor; auto. apply Forall_app. auto.
      * intros j. rewrite logged_snoc, <- A3. cbn [logged flat_map]. rewrite Ok, andb_true_r, app_nil_r.
        rewrite Vs by reflexivity. rewrite <- (app_nil_r b) at 2. rewrite Vs by reflexivity.
        rewrite values_cons. cbn [a_close a_objs a_owner values_of filter flat_map]. rewrite !app_nil_r.
        destruct (Nat.eqb_spec (a_owner s) j); rewrite ?app_nil_r, ?app_nil_l; auto. now rewrite <- !app_assoc.
      * intros x y z Exyz Oy. destruct z as [|w z] using rev_ind; auto. clear IHz.
        replace (a ++ a_close s :: b ++ [mkA (a_owner s) (a_type s) (a_min s) [obytes o] true])
          with ((a ++ a_close s :: b) ++ [mkA (a_owner s) (a_type s) (a_min s) [obytes o] true]) in Exyz
          by (now rewrite <- app_assoc).
        replace (x ++ y :: z ++ [w]) with ((x ++ y :: z) ++ [w]) in Exyz by (now rewrite <- app_assoc).
        apply app_inj_tail in Exyz. destruct Exyz as [Exyz <-]. apply Forall_app. split.
        -- eapply (ai_open_mid a b s (a_close s)); eauto.
        -- constructor; auto. cbn [a_owner]. apply app_mid_inv in Exyz.
           destruct Exyz as [(m & -> & ->)|[(-> & <- & <-)|(m & -> & ->)]].
           ++ apply Forall_app in Hb. destruct Hb as [_ Hb]. inversion Hb; subst. auto.
           ++ discriminate.
           ++ assert (Hm : Forall (fun w => a_owner w <> a_owner y) (m ++ s :: b)).
              { apply (A4 x y (m ++ s :: b)); auto. now rewrite <- app_assoc. }
              apply Forall_app in Hm. destruct Hm as [_ Hm]. inversion Hm; subst. auto.
      * apply Forall_app. split; auto. constructor; auto. apply Forall_app. split; auto.
        constructor; auto. unfold a_used. cbn. rewrite app_nil_r. lia.
  - destruct (focus i l) as [[[a s] b]|] eqn:F; [|discriminate]. injection H as <- <-.
    destruct (focus_some _ _ _ _ _ F) as (-> & O & E).
    assert (Eo : opened (ops ++ [LClose i]) = opened ops) by (rewrite opened_snoc; cbn; now rewrite app_nil_r).
    apply Forall_app in A2. destruct A2 as [A2 A2']. inversion A2' as [|? ? T1 T2]; subst.
    apply Forall_app in A5. destruct A5 as [A5 A5']. inversion A5' as [|? ? U1 U2]; subst.
    constructor.
    + now rewrite Eo.
    + rewrite Eo. apply Forall_app. auto.
    + intros j. rewrite logged_snoc, <- A3. cbn. rewrite app_nil_r, !values_app, !values_cons. reflexivity.
    + apply (ai_open_mid a b s (a_close s)); auto.
    + apply Forall_app. auto.
Qed.

Lemma ainv_steps ops n l : asteps ps slab_size (0%nat, []) ops = Some (n, l) -> ainv ops n l.
Proof.
  revert n l. induction ops as [|op ops IH] using rev_ind; intros n l H.
  - injection H as <- <-. constructor; auto. intros a s b E. destruct a; discriminate.
  - rewrite asteps_app in H. destruct (asteps ps slab_size (0%nat, []) ops) as [[n0 l0]|]; [|discriminate].
    cbn [asteps] in H. destruct (astep ps slab_size (n0, l0) op) as [[n1 l1]|] eqn:E; [|discriminate].
    injection H as <- <-. eapply ainv_step; eauto.
Qed.
End Abstract.

Section Results.
Context (ps slab_size : N) (Hps : page_ok ps).
Notation core := (core ps slab_size).
Notation img := (img ps slab_size).
Notation ext := (ext ps slab_size).
Notation sinv := (sinv ps slab_size).
Notation size_ok := (size_ok ps slab_size).

(** ** C01 *)
Lemma contents_abs t G : t <> TEmpty ->
  contents t G = map a_content (of_type t (map abs G)).
Proof.
  intros Ht. unfold contents, of_type. induction G as [|s G IH]; cbn; auto.
  destruct (logtype_eqb (g_type s) t) eqn:E; cbn; auto. f_equal; auto.
  unfold content, a_content. cbn. apply logtype_eqb_eq in E. rewrite E.
  destruct (logtype_eqb t TEmpty) eqn:E2; [apply logtype_eqb_eq in E2; congruence|].
  now rewrite orb_false_r.
Qed.

Lemma content_closed l t : Forall (fun s => a_open s = false) l ->
  map a_content (of_type t l) = map a_bytes (of_type t l).
Proof.
  unfold of_type. induction 1 as [|s l H _ IH]; cbn; auto.
  destruct (logtype_eqb (a_type s) t); cbn; auto. f_equal; auto. unfold a_content. now rewrite H.
Qed.

Lemma no_last_G ops n G : no_last ops -> asteps ps slab_size (0%nat, []) ops = Some (n, map abs G) ->
  Forall (fun s => g_type s <> TLast) G.
Proof.
  intros NL A. apply ainv_steps in A. destruct A as [_ T _ _ _].
  apply Forall_forall. intros s Hs E. rewrite Forall_forall in T.
  specialize (T (abs s) (in_map abs _ _ Hs)). cbn in T. rewrite E in T. apply nth_error_In in T.
  unfold opened in T. apply in_flat_map in T. destruct T as (op & Hop & Hin).
  destruct op; cbn in Hin; try tauto. destruct Hin as [->|[]]. eapply NL; eauto.
Qed.

Lemma drop_panics lg G : core lg G -> ~ size_ok 80 -> logger_drop ps slab_size lg = Panic.
Proof.
  intros C H. unfold logger_drop. rewrite (add_section_panics ps slab_size Hps _ _ _ _ C); auto.
  pose proof (align_bounds ps Hps 80). destruct Hps as [_ ?]. lia.
Qed.

Lemma round_trip ops sy lg : sizes_ok ps ops -> no_last ops ->
  session ps slab_size ops = Ret sy -> all_closed sy -> logger_drop ps slab_size (sy_lg sy) = Ret lg ->
  exists n l, asteps ps slab_size (0%nat, []) ops = Some (n, l) /\
    Forall (fun s => a_open s = false) l /\
    forall t, t <> TEmpty -> reads (lg_files lg) t (map a_bytes (of_type t l)) (ROk tt).
Proof.
  intros HS NL E Hc Ed. pose proof (session_spec ps slab_size Hps ops HS) as H. rewrite E in H.
  destruct H as (G & I & A). eexists _, _. split; [exact A|].
  pose proof (all_closed_G _ _ _ _ I Hc) as HG.
  assert (HA : Forall (fun s => a_open s = false) (map abs G)) by (rewrite Forall_map; exact HG).
  split; auto. intros t Ht. rewrite <- content_closed, <- contents_abs by auto.
  assert (SZ : size_ok 80).
  { unfold ULogProofs4.size_ok. pose proof (align_bounds ps Hps 80). pose proof Hps as [_ ?].
    destruct (N.le_gt_cases (align ps 80) slab_size) as [L|L]; [lia|]. exfalso.
    rewrite (drop_panics _ _ (sv_core _ _ _ _ I)) in Ed; [discriminate|].
    unfold ULogProofs4.size_ok. lia. }
  destruct (drop_spec ps slab_size Hps _ _ 0%nat I Hc SZ) as (lg' & k & off & E' & I' & T' & _ & K' & _).
  rewrite Ed in E'. injection E' as <-.
  eapply reads_clean; eauto; try reflexivity.
  - eapply no_last_G; eauto.
  - cbn in *. destruct (lg_files lg); [|cbn in *; lia]. exfalso.
    pose proof (im_range _ _ _ _ I') as R. apply Forall_app in R. destruct R as [_ R].
    inversion R as [|? ? R1 _]; subst. cbn in R1. lia.
Qed.

(** ** C02 *)
Lemma byte_emit fs e k a : (k < length fs)%nat ->
  (forall off bs, e = EvWrite k off bs -> ~ (off <= a < off + blen bs)) ->
  byte_of (apply_ev e fs) k a = byte_of fs k a /\ (k < length (apply_ev e fs))%nat.
Proof.
  intros L H. unfold byte_of. destruct e as [len|j off bs|j len]; cbn [apply_ev].
  - rewrite app_length, nth_error_app1 by auto. split; auto. lia.
  - rewrite modify_file_length. split; auto. destruct (Nat.eq_dec j k) as [->|Hj].
    + destruct (nth_error fs k) as [f|] eqn:Ef; [|apply nth_error_None in Ef; lia].
      rewrite (modify_file_same _ _ _ _ Ef). cbn. f_equal. apply wr_other.
      specialize (H _ _ eq_refl). lia.
    + now rewrite modify_file_other.
  - rewrite modify_file_length. split; auto. destruct (Nat.eq_dec j k) as [->|Hj].
    + destruct (nth_error fs k) as [f|] eqn:Ef; [|apply nth_error_None in Ef; lia].
      now rewrite (modify_file_same _ _ _ _ Ef).
    + now rewrite modify_file_other.
Qed.

Lemma wrote_byte lg lg' (P : nat -> N -> Prop) k a :
  replay (lg_evs lg) = lg_files lg -> replay (lg_evs lg') = lg_files lg' ->
  wrote lg lg' P -> (k < length (lg_files lg))%nat -> ~ P k a ->
  byte_of (lg_files lg') k a = byte_of (lg_files lg) k a.
Proof.
  intros R R' (es & E & F) L N. rewrite <- R', E. unfold replay. rewrite fold_left_app.
  fold (replay (lg_evs lg)). rewrite R. clear R R' E.
  revert L. generalize (lg_files lg). induction F as [|e es He _ IH]; intros fs L; cbn [fold_left]; auto.
  destruct (byte_emit fs e k a L) as [B1 B2].
  - intros off bs -> Ha. apply N. exact (He a Ha).
  - rewrite IH; auto.
Qed.

Lemma matches_range st s : matches ps (st_h st) s -> range_of st = (g_slab s, g_off s, g_req s).
Proof. intros (H1 & H2 & H3 & _). unfold range_of. now rewrite H1, H2, H3. Qed.

Lemma lsteps_inv sy G ops sy' : sinv sy G -> Forall (op_ok ps) ops ->
  lsteps ps slab_size sy ops = Ret sy' -> exists G', sinv sy' G' /\ gprogress G G'.
Proof.
  intros I F E. pose proof (steps_spec ps slab_size Hps ops sy G I F) as H. rewrite E in H.
  destruct H as (G' & I' & P & _). eauto.
Qed.

Lemma session_inv ops sy : sizes_ok ps ops -> session ps slab_size ops = Ret sy -> exists G, sinv sy G.
Proof.
  intros S E. pose proof (session_spec ps slab_size Hps ops S) as H. rewrite E in H.
  destruct H as (G & I & _). eauto.
Qed.

Lemma isolation ops1 ops2 op sy1 sy2 sy3 i st :
  sizes_ok ps (ops1 ++ ops2 ++ [op]) ->
  session ps slab_size ops1 = Ret sy1 -> nth_error (sy_streams sy1) i = Some (Some st) ->
  lsteps ps slab_size sy1 ops2 = Ret sy2 -> lstep ps slab_size sy2 op = Ret sy3 ->
  (forall st2, actor op = Some i -> nth_error (sy_streams sy2) i = Some (Some st2) ->
     range_of st2 <> range_of st) ->
  forall k a, in_range (range_of st) k a ->
  byte_of (lg_files (sy_lg sy3)) k a = byte_of (lg_files (sy_lg sy2)) k a.
Proof.
  intros S E1 H1 E2 E3 Hn k a Hr.
  assert (S1 : sizes_ok ps ops1) by (intros t m Hin; apply (S t m), in_or_app; auto).
  pose proof (sizes_ok_ops ps _ S) as F. apply Forall_app in F. destruct F as [_ F].
  apply Forall_app in F. destruct F as [F2 F3]. inversion F3; subst.
  destruct (session_inv _ _ S1 E1) as (G1 & I1).
  destruct (lsteps_inv _ _ _ _ I1 F2 E2) as (G2 & I2 & P).
  pose proof (step_spec ps slab_size Hps _ _ op I2 H2) as HS. rewrite E3 in HS.
  destruct HS as (G3 & I3 & _ & _ & _ & W).
  destruct (sv_stream _ _ _ (sv_rel _ _ _ _ I1) _ _ H1) as (p & s & Hp & O & Ow).
  destruct (sv_open _ _ _ (sv_rel _ _ _ _ I1) _ _ Hp O) as (st' & Hst' & M & _).
  rewrite Ow, H1 in Hst'. injection Hst' as <-.
  destruct (gprogress_nth _ _ _ _ P Hp) as (s2 & Hp2 & Ev & _).
  rewrite (matches_range _ _ M) in Hr. destruct Hr as [-> Hr].
  pose proof (sv_core _ _ _ _ I2) as C2.
  assert (W2 : within s2 (g_slab s) a) by (apply (within_place _ _ _ _ Ev); split; auto).
  eapply wrote_byte; eauto.
  - apply C2.
  - apply I3.
  - pose proof (im_range _ _ _ _ (c_img _ _ _ _ C2)) as R. rewrite Forall_forall in R.
    destruct Ev as (<- & _). apply R. eapply nth_error_In; eauto.
  - intros MW. destruct (MW _ _ Hp2 W2) as [O2 A2].
    destruct (sv_open _ _ _ (sv_rel _ _ _ _ I2) _ _ Hp2 O2) as (st2 & Hst2 & M2 & _).
    assert (g_owner s2 = i) by (destruct Ev as (_ & _ & _ & Eo & _); congruence).
    apply (Hn st2); try congruence. rewrite (matches_range _ _ M), (matches_range _ _ M2).
    destruct Ev as (P1 & P2 & P3 & _). now rewrite P1, P2, P3.
Qed.

Lemma ranges_disjoint ops1 ops2 sy1 sy2 i j st1 st2 :
  sizes_ok ps (ops1 ++ ops2) ->
  session ps slab_size ops1 = Ret sy1 -> nth_error (sy_streams sy1) i = Some (Some st1) ->
  lsteps ps slab_size sy1 ops2 = Ret sy2 -> nth_error (sy_streams sy2) j = Some (Some st2) ->
  (exists k a, in_range (range_of st1) k a /\ in_range (range_of st2) k a) ->
  i = j /\ range_of st1 = range_of st2.
Proof.
  intros S E1 H1 E2 H2 (k & a & R1 & R2).
  assert (S1 : sizes_ok ps ops1) by (intros t m Hin; apply (S t m), in_or_app; auto).
  pose proof (sizes_ok_ops ps _ S) as F. apply Forall_app in F. destruct F as [_ F2].
  destruct (session_inv _ _ S1 E1) as (G1 & I1).
  destruct (lsteps_inv _ _ _ _ I1 F2 E2) as (G2 & I2 & P).
  destruct (sv_stream _ _ _ (sv_rel _ _ _ _ I1) _ _ H1) as (p & s & Hp & O & Ow).
  destruct (sv_open _ _ _ (sv_rel _ _ _ _ I1) _ _ Hp O) as (st' & Hst' & M & _).
  rewrite Ow, H1 in Hst'. injection Hst' as <-.
  destruct (sv_stream _ _ _ (sv_rel _ _ _ _ I2) _ _ H2) as (q & s' & Hq & O' & Ow').
  destruct (sv_open _ _ _ (sv_rel _ _ _ _ I2) _ _ Hq O') as (st'' & Hst'' & M' & _).
  rewrite Ow', H2 in Hst''. injection Hst'' as <-.
  destruct (gprogress_nth _ _ _ _ P Hp) as (s2 & Hp2 & Ev & _).
  rewrite (matches_range _ _ M) in *. rewrite (matches_range _ _ M') in *.
  destruct R1 as [-> R1], R2 as [Ek R2].
  assert (p = q).
  { eapply img_disjoint with (k := g_slab s) (a := a); [exact Hps|apply (sv_core _ _ _ _ I2)|exact Hp2|exact Hq| |].
    - apply (within_place _ _ _ _ Ev). split; auto.
    - split; auto. }
  subst q. rewrite Hp2 in Hq. injection Hq as ->.
  destruct Ev as (P1 & P2 & P3 & P4 & _). split; congruence.
Qed.

(** ** C03 *)
Lemma slabs_from_split k m n G : slabs_from k (m + n) G = slabs_from k m G ++ slabs_from (k + m) n G.
Proof.
  revert k. induction m as [|m IH]; intros k; cbn.
  - now rewrite Nat.add_0_r.
  - rewrite IH, app_assoc. do 2 f_equal. lia.
Qed.

Definition multi_full (fs : list file) (k : nat) : Prop :=
  exists j f, (k <= j)%nat /\ (S j < length fs)%nat /\ nth_error fs j = Some f /\ f_len f = slab_size.

Lemma chain_end_le k f G e : slab_img ps slab_size k f G e -> base ps k <= slab_size -> e <= slab_size.
Proof.
  intros [A1 _ _ A4] B. destruct (on k G) as [|s l] eqn:E using rev_ind.
  - cbn in A1. lia.
  - clear IHl. apply chain_app in A1. destruct A1 as (c & _ & A1 & ->).
    apply Forall_app in A4. destruct A4 as [_ A4]. inversion A4; subst. lia.
Qed.

Lemma aligned_gap a b : aligned ps a -> aligned ps b -> a < b -> a + 5 <= b.
Proof.
  intros [q1 ->] [q2 ->] H. destruct Hps as [_ H2]. assert (q1 < q2) by nia.
  replace q2 with (q1 + 1 + (q2 - q1 - 1)) by lia. nia.
Qed.

Lemma reads_slabs_any fs G L t : aligned ps slab_size -> img fs (G ++ L) ->
  L = [] \/ (exists last, L = [last] /\ g_type last = TLast /\ S (g_slab last) = length fs) ->
  Forall (fun s => g_type s <> TLast) G ->
  forall n k f, (k + S n = length fs)%nat -> nth_error fs k = Some f ->
  exists m e, (1 <= m <= S n)%nat /\
    reads_from fs t (mkReader k f (base ps k)) (contents t (slabs_from k m G)) e /\
    (e = RErr \/ e = ROk tt) /\ (L = [] -> e = RErr) /\ (m = S n \/ multi_full fs k).
Proof.
  intros HA I HL HG. induction n as [|n IH]; intros k f Hk Hf;
  destruct (im_slabs _ _ _ _ I _ _ Hf) as (e & SI & Hlen);
  assert (Hin := img_sec_in ps slab_size Hps _ _ _ _ _ I Hf SI);
  (assert (Hnl : Forall (fun s => g_type s <> TLast) (on k G)) by
    (apply Forall_forall; intros s Hs; rewrite Forall_forall in HG; apply HG;
     unfold on in Hs; apply filter_In in Hs; tauto));
  (assert (Hbase : base ps k <= slab_size) by
    (destruct HA as [q Hq]; pose proof (im_main_len _ _ _ _ I) as Hm;
     assert (0 < blen (main_bytes ps)) by (unfold main_bytes, enc_main, blen; cbn; lia);
     destruct k; cbn; [|lia]; destruct q; lia || (rewrite Hq; nia)));
  assert (Hee := chain_end_le _ _ _ _ SI Hbase);
  assert (He_al : aligned ps e) by (eapply chain_aligned; [exact Hps|apply base_aligned|apply (si_chain _ _ _ _ _ _ SI)]).
  - (* last slab *)
    exists 1%nat. cbn [slabs_from]. rewrite app_nil_r.
    assert (Hend : L = [] -> reads_from fs t (mkReader k f e) [] RErr).
    { intros ->. destruct (N.le_gt_cases (f_len f) e) as [Hle|Hgt].
      - eapply reads_err. apply read_next_none; auto. apply nth_error_None. lia.
      - eapply reads_err. apply read_zero; [|apply SI].
        destruct Hlen as [Hl|[T1 _ _ _]]; [|pose proof (align_bounds ps Hps (f_len f)); lia].
        rewrite Hl in *. apply aligned_gap; auto. }
    destruct SI as [A1 A2 A3 A4]. destruct HL as [-> | (last & -> & Tl & Sl)].
    + exists RErr. split; [lia|]. split; [|auto].
      rewrite app_nil_r in *. rewrite <- (app_nil_r (contents t (on k G))).
      eapply reads_chain; eauto.
    + exists (ROk tt). split; [lia|]. split; [|split; [auto|split; [discriminate|auto]]].
      assert (Ek : g_slab last = k) by lia.
      rewrite on_snoc_same in * by auto. apply chain_app in A1. destruct A1 as (c & A1 & A1' & A1'').
      apply Forall_app in A2. destruct A2 as [A2 A2'].
      apply Forall_app in Hin. destruct Hin as [Hin Hin'].
      rewrite <- (app_nil_r (contents t (on k G))). eapply reads_chain; eauto.
      inversion A2'; inversion Hin'; subst. eapply reads_end with (fuel := 1%nat).
      cbn [read_next rd_file rd_pos]. pose proof (so_min _ _ _ H1). unfold sec_in in *.
      destruct (N.leb_spec (f_len f) (g_off last)); [lia|]. cbn [rbind].
      rewrite (read_header_at ps Hps _ _ _ H1) by (unfold sec_in; tauto). cbn [rbind g_hdr h_type].
      rewrite Tl. reflexivity.
  - destruct (nth_error fs (S k)) as [f'|] eqn:Ef'; [|apply nth_error_None in Ef'; lia].
    assert (Eon : on k (G ++ L) = on k G).
    { destruct HL as [-> | (last & -> & Tl & Sl)]; [now rewrite app_nil_r|]. apply on_snoc_other. lia. }
    destruct SI as [A1 A2 A3 A4]. rewrite Eon in *.
    destruct (N.le_gt_cases (f_len f) e) as [Hle|Hgt].
    + destruct (IH (S k) f' ltac:(lia) Ef') as (m & e' & Hm & R & He' & Hl' & Hmm).
      exists (S m), e'. split; [lia|]. split; [|split; [auto|split; [auto|]]].
      * cbn [slabs_from]. rewrite contents_app. eapply reads_chain; eauto.
        eapply reads_from_skip; [|exact R]. intros fuel. exists fuel. apply read_next_slab; auto.
        destruct (im_slabs _ _ _ _ I _ _ Ef') as (e2 & SI2 & [Hl2|T2]); [|apply T2].
        rewrite Hl2. pose proof (im_main_len _ _ _ _ I) as Hm2.
        assert (0 < blen (main_bytes ps)) by (unfold main_bytes, enc_main, blen; cbn; lia). lia.
      * destruct Hmm as [-> | (j & fj & J1 & J2)]; [auto|]. right. exists j, fj. split; [lia|auto].
    + exists 1%nat, RErr. cbn [slabs_from]. rewrite app_nil_r. split; [lia|]. split; [|split; [auto|split; [auto|]]].
      * rewrite <- (app_nil_r (contents t (on k G))). eapply reads_chain; eauto.
        eapply reads_err. apply read_zero; auto.
        destruct Hlen as [Hl|[T1 _ _ _]]; [|pose proof (align_bounds ps Hps (f_len f)); lia].
        rewrite Hl in *. apply aligned_gap; auto.
      * right. exists k, f. split; [lia|]. split; [lia|]. split; auto.
        destruct Hlen as [Hl|[T1 _ _ _]]; auto. pose proof (align_bounds ps Hps (f_len f)); lia.
Qed.

Lemma sorted_app_l {A} (R : A -> A -> Prop) l1 l2 : StronglySorted R (l1 ++ l2) -> StronglySorted R l1.
Proof.
  induction l1 as [|x l1 IH]; cbn; intros H; [constructor|]. inversion H as [|? ? ? HF]; subst.
  constructor; auto. now apply Forall_app in HF.
Qed.

Lemma slabs_from_prefix G n : StronglySorted (fun a b => (g_slab a <= g_slab b)%nat) G ->
  Forall (fun s => (g_slab s < n)%nat) G -> forall m, (m <= n)%nat ->
  exists p, slabs_from 0 m G = firstn p G /\ (m = n -> p = length G).
Proof.
  intros S F m Hm. assert (E : slabs_from 0 n G = G).
  { apply slabs_from_lt; auto. eapply Forall_impl; [|exact F]. cbn. lia. }
  destruct (Nat.eq_dec m n) as [->|Hn].
  - exists (length G). rewrite E, firstn_all. auto.
  - exists (length (slabs_from 0 m G)). split; [|congruence].
    assert (E2 : G = slabs_from 0 m G ++ slabs_from m (n - m) G).
    { rewrite <- E at 1. replace n with (m + (n - m))%nat at 1 by lia. apply slabs_from_split. }
    symmetry. rewrite E2 at 2.
    rewrite firstn_app, Nat.sub_diag, firstn_all, firstn_O, app_nil_r. reflexivity.
Qed.

Lemma reads_any fs G L : aligned ps slab_size -> img fs (G ++ L) -> fs <> [] ->
  L = [] \/ (exists last, L = [last] /\ g_type last = TLast /\ S (g_slab last) = length fs) ->
  Forall (fun s => g_type s <> TLast) G -> forall t,
  exists p e, reads fs t (contents t (firstn p G)) e /\ (e = RErr \/ e = ROk tt) /\
    (L = [] -> e = RErr) /\ (p = length G \/ multi_full fs 0).
Proof.
  intros HA I HF HL HG t. destruct fs as [|f fs]; [congruence|]. clear HF.
  destruct (reads_slabs_any _ _ _ t HA I HL HG (length fs) 0 f eq_refl eq_refl) as (m & e & Hm & R & He & Hl & Hmm).
  destruct (slabs_from_prefix G (length (f :: fs))) with (m := m) as (p & Ep & Hp).
  - eapply sorted_app_l, I.
  - pose proof (im_range _ _ _ _ I) as HR. now apply Forall_app in HR.
  - cbn. lia.
  - exists p, e. rewrite Ep in R. split; [|split; [auto|split; [auto|]]].
    + exists (mkReader 0 f ps). split; [|exact R].
      apply reader_new_spec; auto; [now apply I|].
      destruct (im_slabs _ _ _ _ I 0%nat f eq_refl) as (e0 & SI & [Hlen|[T1 T2 T3 T4]]).
      * rewrite Hlen. apply (im_main_len _ _ _ _ I).
      * assert (blen (main_bytes ps) <= 10).
        { apply enc_main_bound. repeat split; cbn; apply N.mod_lt; lia. }
        destruct Hps as [_ ?]. cbn in T2. lia.
    + destruct Hmm as [-> | H]; [left; apply Hp; cbn; lia|auto].
Qed.

Lemma map_firstn_of_type t p l : exists q, of_type t (firstn p l) = firstn q (of_type t l).
Proof.
  unfold of_type. revert l. induction p as [|p IH]; intros l; [exists 0%nat; reflexivity|].
  destruct l as [|x l]; [exists 0%nat; reflexivity|]. cbn. destruct (IH l) as (q & E).
  destruct (logtype_eqb (a_type x) t); [exists (S q); cbn; now f_equal|eauto].
Qed.

Lemma firstn_map_abs p G : map abs (firstn p G) = firstn p (map abs G).
Proof. now rewrite firstn_map. Qed.

Lemma progress_no_last G X : gprogress X G -> Forall (fun s => g_type s <> TLast) G ->
  Forall (fun s => g_type s <> TLast) X.
Proof.
  intros P F. apply Forall_forall. intros s Hs. apply In_nth_error in Hs. destruct Hs as (p & Hp).
  destruct (gprogress_nth _ _ _ _ P Hp) as (s' & Hs' & (_ & _ & _ & _ & <-) & _).
  rewrite Forall_forall in F. apply F. eapply nth_error_In; eauto.
Qed.

Lemma ext_img lg lg' S G es es2 : ext lg lg' S -> replay (lg_evs lg) = lg_files lg ->
  img (lg_files lg) G -> S G -> lg_evs lg' = lg_evs lg ++ es ++ es2 ->
  exists X, S X /\ img (replay (lg_evs lg ++ es)) X.
Proof.
  intros (es0 & E & H) R I SG Es. destruct es as [|x es].
  - rewrite app_nil_r, R. eauto.
  - apply (H (x :: es) es2); [|discriminate]. rewrite E in Es. now apply app_inv_head in Es.
Qed.

Lemma apply_ev_nonempty e fs : fs <> [] -> apply_ev e fs <> [].
Proof.
  destruct e; cbn; intros H E.
  - apply app_eq_nil in E. destruct E as [_ E]. discriminate.
  - apply (f_equal (@length _)) in E. rewrite modify_file_length in E. destruct fs; cbn in *; congruence.
  - apply (f_equal (@length _)) in E. rewrite modify_file_length in E. destruct fs; cbn in *; congruence.
Qed.

Lemma replay_nonempty lg es G : core lg G -> replay (lg_evs lg ++ es) <> [].
Proof.
  intros C. unfold replay. rewrite fold_left_app. fold (replay (lg_evs lg)).
  rewrite (c_replay _ _ _ _ C).
  assert (H : lg_files lg <> []) by (pose proof (c_len _ _ _ _ C) as H; destruct (lg_files lg); [discriminate|congruence]).
  revert H. generalize (lg_files lg). induction es as [|e es IH]; intros fs H; cbn; auto.
  apply IH, apply_ev_nonempty, H.
Qed.

Lemma crash_step ops op sy sy' es es2 n l n' l' :
  aligned ps slab_size -> sizes_ok ps (ops ++ [op]) -> no_last (ops ++ [op]) ->
  session ps slab_size ops = Ret sy -> lstep ps slab_size sy op = Ret sy' ->
  lg_evs (sy_lg sy') = lg_evs (sy_lg sy) ++ es ++ es2 ->
  asteps ps slab_size (0%nat, []) ops = Some (n, l) ->
  asteps ps slab_size (0%nat, []) (ops ++ [op]) = Some (n', l') ->
  let fs := replay (lg_evs (sy_lg sy) ++ es) in
  exists x, progress l x /\ progress x l' /\
    forall t, t <> TEmpty -> exists p, reads fs t (map a_content (of_type t (firstn p x))) RErr /\
      (p = length x \/ multi_full fs 0).
Proof.
  intros HA HS NL E1 E2 Ev A1 A2 fs.
  assert (S1 : sizes_ok ps ops) by (intros t m Hin; apply (HS t m), in_or_app; auto).
  pose proof (sizes_ok_ops ps _ HS) as F. apply Forall_app in F. destruct F as [_ F3]. inversion F3; subst.
  pose proof (session_spec ps slab_size Hps ops S1) as H. rewrite E1 in H. destruct H as (G & I & A).
  rewrite A in A1. injection A1 as <- <-.
  pose proof (step_spec ps slab_size Hps _ _ op I H1) as H. rewrite E2 in H.
  destruct H as (G' & I' & P & A' & X & _).
  rewrite asteps_app, A in A2. cbn [asteps] in A2. rewrite A' in A2. injection A2 as <- <-.
  pose proof (sv_core _ _ _ _ I) as C.
  destruct (ext_img _ _ _ G es es2 X) as (Y & (Y1 & Y2) & IY); auto.
  - apply C.
  - apply C.
  - split; auto. apply gprogress_refl.
  - fold fs in IY. exists (map abs Y). split; [now apply gprogress_abs|]. split; [now apply gprogress_abs|].
    assert (HG' : Forall (fun s => g_type s <> TLast) G').
    { eapply no_last_G; [exact NL|]. rewrite asteps_app, A. cbn [asteps]. rewrite A'. reflexivity. }
    intros t Ht. destruct (reads_any fs Y []) with (t := t) as (p & e & R & He & Hl & Hp); auto.
    + now rewrite app_nil_r.
    + eapply replay_nonempty; eauto.
    + eapply progress_no_last; eauto.
    + exists p. rewrite (Hl eq_refl) in R. rewrite <- firstn_map_abs, <- contents_abs by auto.
      rewrite map_length. auto.
Qed.

Lemma replay_mono es es2 : (length (replay es) <= length (replay (es ++ es2)))%nat.
Proof.
  unfold replay. rewrite fold_left_app. generalize (fold_left (fun fs e => apply_ev e fs) es []).
  induction es2 as [|e es2 IH]; intros fs; cbn; auto.
  etransitivity; [|apply IH]. destruct e; cbn; rewrite ?modify_file_length, ?app_length; lia.
Qed.

Lemma crash_shutdown ops sy lg es es2 n l :
  aligned ps slab_size -> sizes_ok ps ops -> no_last ops ->
  session ps slab_size ops = Ret sy -> all_closed sy -> logger_drop ps slab_size (sy_lg sy) = Ret lg ->
  lg_evs lg = lg_evs (sy_lg sy) ++ es ++ es2 ->
  asteps ps slab_size (0%nat, []) ops = Some (n, l) ->
  let fs := replay (lg_evs (sy_lg sy) ++ es) in
  forall t, t <> TEmpty -> exists p e, reads fs t (map a_bytes (of_type t (firstn p l))) e /\
      (e = RErr \/ e = ROk tt) /\ (p = length l \/ multi_full fs 0).
Proof.
  intros HA HS NL E1 Hc Ed Ev A1 fs t Ht.
  pose proof (session_spec ps slab_size Hps ops HS) as H. rewrite E1 in H. destruct H as (G & I & A).
  rewrite A in A1. injection A1 as <- <-.
  pose proof (all_closed_G _ _ _ _ I Hc) as HG.
  pose proof (sv_core _ _ _ _ I) as C.
  assert (SZ : size_ok 80).
  { unfold ULogProofs4.size_ok. pose proof (align_bounds ps Hps 80). pose proof Hps as [_ ?].
    destruct (N.le_gt_cases (align ps 80) slab_size) as [L|L]; [lia|]. exfalso.
    rewrite (drop_panics _ _ C) in Ed; [discriminate|]. unfold ULogProofs4.size_ok. lia. }
  destruct (drop_spec ps slab_size Hps _ _ 0%nat I Hc SZ) as (lg' & k & off & E' & I' & T' & _ & K' & X).
  rewrite Ed in E'. injection E' as <-.
  destruct (ext_img _ _ _ G es es2 X) as (Y & HY & IY); auto; try apply C.
  fold fs in IY.
  assert (Hcont : forall p, contents t (firstn p G) = map a_bytes (of_type t (firstn p (map abs G)))).
  { intros p. rewrite contents_abs, firstn_map_abs by auto. apply content_closed.
    rewrite <- firstn_map_abs, Forall_map. rewrite Forall_forall in *. intros s Hs.
    apply HG. rewrite <- (firstn_skipn p G). apply in_or_app. auto. }
  assert (HL : exists L, Y = G ++ L /\ (L = [] \/ (exists last, L = [last] /\ g_type last = TLast /\ S (g_slab last) = length fs))).
  { assert (Hlast : forall f, Y = G ++ [f] -> g_slab f = k -> g_type f = TLast -> S (g_slab f) = length fs).
    { intros f -> Hk Tf. pose proof (im_range _ _ _ _ IY) as R. apply Forall_app in R. destruct R as [_ R].
      inversion R as [|? ? R1 _]; subst.
      assert (Hle : (length fs <= length (lg_files lg))%nat).
      { destruct X as (es0 & Ee & _). 
        assert (Hrl : replay (lg_evs lg) = lg_files lg).
        { destruct (drop_spec ps slab_size Hps _ _ 0%nat I Hc SZ) as (lg2 & k2 & off2 & E2 & _ & _ & RR & _).
          rewrite Ed in E2. injection E2 as <-. exact RR. }
        rewrite <- Hrl, Ev, app_assoc. apply replay_mono. }
      cbn [fresh g_slab] in K'. lia. }
    destruct HY as [-> | [-> | ->]].
    - exists []. rewrite app_nil_r. auto.
    - eexists. split; [reflexivity|]. right. eexists. split; [reflexivity|]. split; [reflexivity|].
      apply Hlast; reflexivity.
    - eexists. split; [reflexivity|]. right. eexists. split; [reflexivity|]. split; [reflexivity|].
      apply Hlast; reflexivity. }
  destruct HL as (L & -> & HL).
  destruct (reads_any fs G L) with (t := t) as (p & e & R & He & Hl & Hp); auto.
  - eapply replay_nonempty; eauto.
  - eapply no_last_G; eauto.
  - exists p, e. rewrite <- Hcont, map_length. auto.
Qed.
End Results.
