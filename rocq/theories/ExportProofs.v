(** From logging to exporting: what goes into one stream of the unified log comes
    out of the reader and decodes to the same sequence. *)
From Coq Require Import List Arith NArith Bool Lia.
From Verif Require Import Base BincodeModel BincodeSpec BincodeProofs CodecModel ValueModel CodecSpec
  CodecProofs ValueProofs ValueProofs2 ULogModel ULogSpec ULogProofs7 ULogProofs8
  ExportSpec.
Import ListNotations.
Open Scope N_scope.

Definition own (i : nat) (l : list asec) : list asec := filter (fun s => Nat.eqb (a_owner s) i) l.

Lemma own_app i a b : own i (a ++ b) = own i a ++ own i b.
Proof. apply filter_app. Qed.

Lemma focus_split i l a s b : focus i l = Some (a, s, b) ->
  l = a ++ s :: b /\ a_owner s = i /\ a_open s = true.
Proof.
  revert a s b; induction l as [|x l IH]; intros a s b H; cbn in *; [discriminate|].
  destruct (a_open x && Nat.eqb (a_owner x) i) eqn:E.
  - injection H as <- <- <-. apply andb_true_iff in E. destruct E as [E1 E2].
    apply Nat.eqb_eq in E2. auto.
  - destruct (focus i l) as [[[a' s'] b']|]; [|discriminate]. injection H as <- <- <-.
    destruct (IH _ _ _ eq_refl) as (-> & H1 & H2). auto.
Qed.

(** A stream either has one section, or only non-empty ones. *)
Definition no_holes (i : nat) (l : list asec) : Prop :=
  Forall (fun s => a_bytes s <> []) (own i l) \/ (length (own i l) <= 1)%nat.

Definition fresh_owner (n : nat) (l : list asec) : Prop := Forall (fun s => (a_owner s < n)%nat) l.

Lemma own_mid i a s b : own i (a ++ s :: b) =
  own i a ++ (if Nat.eqb (a_owner s) i then [s] else []) ++ own i b.
Proof. unfold own. rewrite filter_app. cbn. destruct (Nat.eqb (a_owner s) i); reflexivity. Qed.

Lemma own_none i n l : fresh_owner n l -> (n <= i)%nat -> own i l = [].
Proof.
  intros H Hn. induction H as [|s l Hs Hl IH]; cbn; auto.
  destruct (Nat.eqb_spec (a_owner s) i); [lia|auto].
Qed.

Lemma step_no_holes ps sz n l op n' l' i :
  (forall o, op = LLog i o -> o_ok o = true -> obytes o <> []) ->
  fresh_owner n l -> no_holes i l ->
  astep ps sz (n, l) op = Some (n', l') -> fresh_owner n' l' /\ no_holes i l'.
Proof.
  intros Hne Hf Hh E. destruct op as [t min|j o|j]; cbn [astep] in E.
  - destruct (usable ps sz min); [|discriminate]. injection E as <- <-. split.
    + apply Forall_app. split; [eapply Forall_impl; [|exact Hf]; cbn; lia|]. repeat constructor.
    + unfold no_holes in *. rewrite own_app. cbn. destruct (Nat.eqb_spec n i) as [->|]; cbn.
      * rewrite (own_none i i l) by (auto; lia). right; cbn; lia.
      * rewrite app_nil_r. auto.
  - destruct (focus j l) as [[[a s] b]|] eqn:F; [|discriminate].
    destruct (focus_split _ _ _ _ _ F) as (-> & Ho & _).
    destruct (N.leb_spec (15 + a_used s + blen (obytes o)) (a_min s)) as [Hr|Hr].
    + injection E as <- <-. destruct (o_ok o) eqn:Ok; [|auto]. split.
      * unfold fresh_owner in *. rewrite Forall_app in *. destruct Hf as [H1 H2].
        inversion H2; subst. split; auto.
      * unfold no_holes in *. rewrite own_mid in *. cbn [a_owner a_put].
        destruct (Nat.eqb_spec (a_owner s) i) as [Hi|Hi]; [|auto].
        destruct Hh as [Hh|Hh]; [left|right; rewrite !app_length in *; cbn in *; lia].
        rewrite !Forall_app in *. destruct Hh as (H1 & H2 & H3). do 2 (split; auto).
        constructor; [|constructor]. unfold a_bytes, a_put; cbn [a_objs].
        rewrite concat_app; cbn. rewrite app_nil_r. intros X. apply app_eq_nil in X.
        destruct X as [_ X]. apply (Hne o); auto. congruence.
    + destruct (o_ok o) eqn:Ok; cbn [andb] in E; [|discriminate].
      destruct (N.leb_spec (15 + blen (obytes o)) (a_min s)) as [Hr2|Hr2]; [|discriminate].
      injection E as <- <-. split.
      * unfold fresh_owner in *. rewrite Forall_app in *. destruct Hf as [H1 H2].
        inversion H2; subst. split; auto. constructor; auto. apply Forall_app. split; auto.
      * unfold no_holes in *. rewrite own_mid in *. rewrite own_app.
        cbn [a_owner a_close own filter].
        destruct (Nat.eqb_spec (a_owner s) i) as [Hi|Hi].
        -- assert (Hs : a_bytes s <> []).
           { intros X. unfold a_used in Hr. unfold a_bytes in X. rewrite X in Hr. cbn in Hr. lia. }
           assert (Hji : j = i) by congruence. subst j. rewrite Hi in *. rewrite Nat.eqb_refl. left.
           assert (Hn : obytes o <> []) by (apply Hne; auto).
           destruct Hh as [Hh|Hh].
           ++ rewrite !Forall_app in *. destruct Hh as (H1 & H2 & H3).
              split; [auto|]. split; [constructor; auto|]. split; [auto|].
              constructor; auto. unfold a_bytes; cbn. rewrite app_nil_r. auto.
           ++ rewrite !app_length in Hh. cbn in Hh.
              destruct (own i a); [|cbn in Hh; lia]. destruct (own i b); [|cbn in Hh; lia].
              cbn. constructor; [auto|]. constructor; auto. unfold a_bytes; cbn. rewrite app_nil_r. auto.
        -- destruct (Nat.eqb_spec j i) as [->|]; [congruence|]. rewrite app_nil_r. cbn in *. auto.
  - destruct (focus j l) as [[[a s] b]|] eqn:F; [|discriminate].
    destruct (focus_split _ _ _ _ _ F) as (-> & Ho & _). injection E as <- <-. split.
    + unfold fresh_owner in *. rewrite Forall_app in *. destruct Hf as [H1 H2].
      inversion H2; subst. split; auto.
    + unfold no_holes in *. rewrite own_mid in *. cbn [a_owner a_close].
      destruct (Nat.eqb_spec (a_owner s) i) as [Hi|Hi]; [|auto].
      destruct Hh as [Hh|Hh]; [left|right; rewrite !app_length in *; cbn in *; lia].
      rewrite !Forall_app in *. destruct Hh as (H1 & H2 & H3). do 2 (split; auto).
      inversion H2; subst. constructor; auto.
Qed.

Lemma steps_no_holes ps sz i ops : forall n l n' l',
  (forall o, In (LLog i o) ops -> o_ok o = true -> obytes o <> []) ->
  fresh_owner n l -> no_holes i l ->
  asteps ps sz (n, l) ops = Some (n', l') -> no_holes i l'.
Proof.
  induction ops as [|op ops IH]; intros n l n' l' Hne Hf Hh E; cbn [asteps] in E.
  - injection E as <- <-. auto.
  - destruct (astep ps sz (n, l) op) as [[n1 l1]|] eqn:E1; [|discriminate].
    destruct (step_no_holes ps sz n l op n1 l1 i) as [F1 H1]; auto.
    + intros o -> Ho. apply (Hne o); [left; auto|auto].
    + apply (IH n1 l1 n' l'); auto. intros o Ho. apply Hne. right; auto.
Qed.

Lemma own_of_type t i ops l :
  (forall j, nth_error (opened ops) j = Some t -> j = i) -> nth_error (opened ops) i = Some t ->
  Forall (fun s => nth_error (opened ops) (a_owner s) = Some (a_type s)) l ->
  of_type t l = own i l.
Proof.
  intros Hu Hi H. induction H as [|s l Hs Hl IH]; cbn; auto.
  destruct (Nat.eqb_spec (a_owner s) i) as [E|E].
  - rewrite E, Hi in Hs. injection Hs as Hs. rewrite <- Hs.
    destruct t; cbn; f_equal; auto.
  - destruct (logtype_eqb (a_type s) t) eqn:E2; auto. exfalso. apply E, Hu.
    rewrite Hs. f_equal. destruct (a_type s), t; cbn in E2; congruence.
Qed.

Lemma concat_own i l : concat (map a_bytes (own i l)) = concat (values_of i l).
Proof.
  unfold values_of. fold (own i l). induction (own i l) as [|s k IH]; cbn; auto.
  rewrite concat_app, IH. reflexivity.
Qed.

(** One stream of type [t], whose logged values are the encodings of [vs]. *)
Theorem stream_exported : forall ps slab_size ops sy lg t i vals,
  page_ok ps -> sizes_ok ps ops -> no_last ops ->
  session ps slab_size ops = Ret sy -> all_closed sy ->
  logger_drop ps slab_size (sy_lg sy) = Ret lg -> t <> TEmpty ->
  nth_error (opened ops) i = Some t -> (forall j, nth_error (opened ops) j = Some t -> j = i) ->
  logged i ops = vals -> Forall (fun v => v <> []) vals -> vals <> [] ->
  exists cs, reads (lg_files lg) t cs (ROk tt) /\ concat cs = concat vals /\
             Forall (fun c => c <> []) cs.
Proof.
  intros ps sz ops sy lg t i vals Hp Hs Hl E Hc Hd Ht Hi Hu Hv Hne Hn.
  destruct (log_round_trip ps sz ops sy lg Hp Hs Hl E Hc Hd) as (l & A & V & T & R).
  exists (map a_bytes (own i l)). split; [|split].
  - apply R; auto. split; auto. rewrite (own_of_type t i ops); auto.
  - rewrite concat_own, V, Hv. reflexivity.
  - assert (Hh : no_holes i l).
    { eapply steps_no_holes; [| | |exact A].
      - intros o Ho Hok. rewrite Forall_forall in Hne. apply Hne. rewrite <- Hv.
        unfold logged. apply in_flat_map. eexists. split; [exact Ho|]. cbn.
        rewrite Nat.eqb_refl, Hok. left; reflexivity.
      - constructor.
      - right. cbn. lia. }
    apply Forall_forall. intros c Hc'. apply in_map_iff in Hc'. destruct Hc' as (s & <- & Hin).
    destruct Hh as [Hh|Hh]; [rewrite Forall_forall in Hh; auto|].
    pose proof (concat_own i l) as CO. rewrite V, Hv in CO.
    destruct (own i l) as [|s1 [|s2 k]]; cbn in *; try lia.
    destruct Hin as [<-|[]]. rewrite app_nil_r in CO. rewrite CO.
    destruct vals as [|v vals]; [congruence|]. inversion Hne; subst.
    cbn. destruct v; [congruence|discriminate].
Qed.

Lemma concat_map_flat {A} (f : A -> bytes) l : concat (map f l) = flat_map f l.
Proof. induction l; cbn; congruence. Qed.

Lemma delivers_stream ps slab_size ops sy lg t i vals :
  page_ok ps -> sizes_ok ps ops -> no_last ops ->
  session ps slab_size ops = Ret sy -> all_closed sy ->
  logger_drop ps slab_size (sy_lg sy) = Ret lg -> t <> TEmpty ->
  nth_error (opened ops) i = Some t -> (forall j, nth_error (opened ops) j = Some t -> j = i) ->
  logged i ops = vals -> Forall (fun v => v <> []) vals -> vals <> [] ->
  delivers (lg_files lg) t (concat vals).
Proof.
  intros. destruct (stream_exported ps slab_size ops sy lg t i vals) as (cs & R & C & N); auto.
  destruct (io_complete _ _ _ R N) as (r & F & Hr & H'). exists r, F. split; auto.
  rewrite <- C. auto.
Qed.

Lemma lists_exported W pls : payloads_ok W pls ->
  forall ps slab_size ops sy lg i (cls : list (copperlist pls)),
  page_ok ps -> sizes_ok ps ops -> no_last ops ->
  session ps slab_size ops = Ret sy -> all_closed sy ->
  logger_drop ps slab_size (sy_lg sy) = Ret lg ->
  nth_error (opened ops) i = Some TCopperList ->
  (forall j, nth_error (opened ops) j = Some TCopperList -> j = i) ->
  cls <> [] -> Forall (copperlist_ok W) cls -> logged i ops = map enc_cl cls ->
  exists b, delivers (lg_files lg) TCopperList b /\ copperlists_dump b = cls.
Proof.
  intros Hp ps sz ops sy lg i cls P1 P2 P3 E Hc Hd Hi Hu Hn Hok Hl.
  exists (concat (map enc_cl cls)). split.
  - eapply delivers_stream; eauto; try discriminate.
    + apply Forall_forall. intros v Hv. apply in_map_iff in Hv. destruct Hv as (c & <- & _).
      apply enc_cl_nonempty.
    + destruct cls; [congruence|discriminate].
  - rewrite concat_map_flat, <- (app_nil_r (flat_map _ _)).
    apply (dump_sequence W); auto using dec_cl_nil.
Qed.

Lemma enc_entry_nonempty e : enc_entry e <> [].
Proof.
  unfold enc_entry, enc_time, enc_u64. pose proof (enc_var_nonempty (le_time e)).
  destruct (enc_var (le_time e)); [congruence|discriminate].
Qed.

Lemma dump_entries es b fuel : Forall entry_ok es -> dec_entry b = None ->
  (length es < fuel)%nat -> dump_n dec_entry fuel (flat_map enc_entry es ++ b) = es.
Proof. intros. eapply dump_n_all; eauto using entry_lossless. Qed.
