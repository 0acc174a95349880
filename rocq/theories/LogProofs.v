(** Proofs about text logging. *)
From Coq Require Import String List Arith NArith ZArith Bool Lia Permutation.
From Verif Require Import Base BincodeModel CodecModel ValueModel CodecSpec ValueProofs2 LogModel LogSpec.
Import ListNotations.
Local Open Scope list_scope.
Local Open Scope N_scope.

(** ** Placeholders *)
Lemma hp_nil : ~ has_placeholder [].
Proof. intros (a & b & H). destruct a; discriminate. Qed.
Lemma hp_one x : ~ has_placeholder [x].
Proof. intros (a & b & H). destruct a as [|y [|]]; discriminate. Qed.
Lemma hp_cons x y s : has_placeholder (x :: y :: s) <-> (x = 123 /\ y = 125) \/ has_placeholder (y :: s).
Proof.
  split.
  - intros (a & b & H). destruct a as [|z a]; cbn in H.
    + injection H as -> -> _. auto.
    + injection H as _ H. right. exists a, b. exact H.
  - intros [[-> ->]|(a & b & H)].
    + exists [], s. reflexivity.
    + exists (x :: a), b. cbn. rewrite H. reflexivity.
Qed.
Lemma hp_dec s : {has_placeholder s} + {~ has_placeholder s}.
Proof.
  induction s as [|x [|y s] IH].
  - right. apply hp_nil.
  - right. apply hp_one.
  - destruct (N.eq_dec x 123) as [->|H1]; [destruct (N.eq_dec y 125) as [->|H2]|].
    + left. apply hp_cons. auto.
    + destruct IH as [IH|IH]; [left|right]; rewrite hp_cons; tauto.
    + destruct IH as [IH|IH]; [left|right]; rewrite hp_cons; tauto.
Qed.

(** Replacement in a text whose first placeholder comes after [s]. *)
Lemma replace_first_at p s r : ~ has_placeholder s -> (exists c s', s = s' ++ [c] /\ c <> 123) \/ s = [] \/ True ->
  ~ has_placeholder (s ++ [123]) -> replace_first p (s ++ placeholder ++ r) = s ++ p ++ r.
Proof.
  intros H _ H2. clear H. induction s as [|x s IH]; cbn.
  - reflexivity.
  - destruct s as [|y s]; cbn in *.
    + destruct (N.eqb_spec x 123); cbn; auto. 
    + destruct (N.eqb_spec x 123) as [->|]; cbn.
      * destruct (N.eqb_spec y 125) as [->|].
        -- exfalso. apply H2. apply hp_cons. auto.
        -- f_equal. apply IH. intros X. apply H2. apply hp_cons. auto.
      * f_equal. apply IH. intros X. apply H2. apply hp_cons. auto.
Qed.
Lemma hp_snoc s x : x <> 125 -> has_placeholder (s ++ [x]) -> has_placeholder s.
Proof.
  intros Hx. induction s as [|y [|z s] IH]; cbn.
  - intros H. destruct (hp_one _ H).
  - intros H. apply hp_cons in H. destruct H as [[_ H]|H]; [congruence|destruct (hp_one _ H)].
  - intros H. apply hp_cons in H. destruct H as [H|H]; apply hp_cons; auto.
Qed.
Lemma replace_at p s r : ~ has_placeholder s -> replace_first p (s ++ placeholder ++ r) = s ++ p ++ r.
Proof. intros H. apply replace_first_at; auto. intros X. apply H, (hp_snoc _ 123); auto. lia. Qed.
Lemma replace_none p s : ~ has_placeholder s -> replace_first p s = s.
Proof.
  induction s as [|x [|y s] IH]; auto. intros H. cbn [replace_first].
  destruct (N.eqb_spec x 123) as [->|]; cbn [andb].
  - destruct (N.eqb_spec y 125) as [->|]; [exfalso; apply H, hp_cons; auto|]. f_equal. apply IH. rewrite hp_cons in H. tauto.
  - f_equal. apply IH. rewrite hp_cons in H. tauto.
Qed.

(** Concatenations without placeholder. *)
Lemma hp_app s x t : ~ has_placeholder s -> ~ has_placeholder t -> brace_free x -> x <> [] -> ~ has_placeholder (s ++ x ++ t).
Proof.
  intros Hs Ht Hx Nx. assert (Xt : ~ has_placeholder (x ++ t)).
  { clear Nx. induction Hx as [|c x [H1 H2] Hx IH]; auto. cbn. destruct (x ++ t) as [|d r] eqn:E; [apply hp_one|].
    rewrite hp_cons. tauto. }
  destruct x as [|c x]; [congruence|]. inversion Hx as [|? ? [H1 H2] _]; subst.
  induction s as [|y [|z s] IH]; auto.
  - cbn in *. rewrite hp_cons. tauto.
  - rewrite hp_cons in Hs. change ((y :: z :: s) ++ (c :: x) ++ t) with (y :: z :: s ++ (c :: x) ++ t).
    rewrite hp_cons. tauto.
Qed.
Lemma bf_no_hp s : brace_free s -> ~ has_placeholder s.
Proof.
  intros H (a & b & ->). unfold brace_free in H. rewrite !Forall_app in H. destruct H as (_ & H & _).
  inversion H as [|? ? [X _] _]. congruence.
Qed.

Lemma fill_nil_cons s t : t <> [] -> fill (s :: t) [] = s ++ placeholder ++ fill t [].
Proof. destruct t; [congruence|reflexivity]. Qed.
Lemma fill_cons s t p ps : t <> [] -> fill (s :: t) (p :: ps) = s ++ p ++ fill t ps.
Proof. destruct t; [congruence|reflexivity]. Qed.
Lemma fill_one s ps : fill [s] ps = s. Proof. reflexivity. Qed.

Lemma fill_params pieces : forall done params, pieces <> [] -> Forall (fun s => ~ has_placeholder s) pieces -> Forall brace_free params ->
  ~ has_placeholder (done ++ hd [] pieces) -> (Forall brace_free pieces /\ brace_free done) \/ Forall (fun p => p <> []) params ->
  fold_left (fun f p => replace_first p f) params (done ++ fill pieces []) = done ++ fill pieces params.
Proof.
  induction pieces as [|s t IH]; intros done params NE Fp Hb Hd Hx; [congruence|]. clear NE. cbn [hd] in Hd.
  destruct t as [|s' t].
  - rewrite !fill_one. clear -Hd. induction params as [|p ps IH]; cbn; auto. rewrite replace_none by auto. auto.
  - destruct params as [|p ps]; [reflexivity|]. cbn [fold_left].
    rewrite fill_nil_cons, fill_cons by discriminate.
    rewrite app_assoc, replace_at by auto. rewrite <- !app_assoc.
    inversion Fp as [|? ? Fs Ft]; subst. inversion Hb as [|? ? Hp Hps]; subst.
    specialize (IH (done ++ s ++ p) ps). rewrite <- !app_assoc in IH. apply IH; auto.
    + discriminate.
    + cbn [hd]. inversion Ft; subst.
      destruct Hx as [[Hx1 Hx2]|Hx].
      * apply bf_no_hp. inversion Hx1 as [|? ? B1 B2]; subst. inversion B2; subst. unfold brace_free in *. rewrite !Forall_app. auto.
      * rewrite app_assoc. apply hp_app; auto. inversion Hx; auto.
    + destruct Hx as [[Hx1 Hx2]|Hx]; [left|right; inversion Hx; auto].
      inversion Hx1; subst. split; auto. unfold brace_free in *. rewrite !Forall_app. auto.
Qed.

Lemma format_fill fmt pieces params : pieces_of fmt pieces -> harmless pieces params ->
  fold_left (fun f p => replace_first p f) params fmt = fill pieces params.
Proof.
  intros (NE & Fp & ->) (Hb & Hx). apply (fill_params pieces [] params); auto.
  - destruct pieces; [congruence|]. inversion Fp; auto.
  - destruct Hx; auto. left. split; auto. constructor.
Qed.

(** Every format string has pieces. *)
Lemma pieces_exist fmt : exists pieces, pieces_of fmt pieces.
Proof.
  remember (length fmt) as n eqn:En. assert (Hn : (length fmt <= n)%nat) by lia. clear En. revert fmt Hn.
  induction n as [|n IH]; intros fmt Hn.
  - exists [[]]. destruct fmt; [|cbn in Hn; lia]. repeat split; auto; [discriminate|]. constructor; auto. apply hp_nil.
  - destruct (hp_dec fmt) as [H|H].
    2: { exists [fmt]. repeat split; auto. discriminate. }
    (* the first placeholder *)
    assert (F : exists a b, fmt = a ++ placeholder ++ b /\ ~ has_placeholder a).
    { clear Hn IH. induction fmt as [|x [|y s] IHs].
      - destruct (hp_nil H).
      - destruct (hp_one _ H).
      - apply hp_cons in H. destruct (N.eq_dec x 123) as [->|N1].
        + destruct (N.eq_dec y 125) as [->|N2].
          * exists [], s. split; auto. apply hp_nil.
          * destruct H as [[_ H]|H]; [congruence|]. destruct (IHs H) as (a & b & E1 & E2). exists (123 :: a), b. split.
            -- rewrite E1. reflexivity.
            -- destruct a as [|c a]; [apply hp_one|]. rewrite hp_cons. injection E1 as -> _. intros [[_ X]|X]; auto.
        + destruct H as [[H _]|H]; [congruence|]. destruct (IHs H) as (a & b & E1 & E2). exists (x :: a), b. split.
          * rewrite E1. reflexivity.
          * destruct a as [|c a]; [apply hp_one|]. rewrite hp_cons. intros [[X _]|X]; auto. }
    destruct F as (a & b & -> & Ha). destruct (IH b) as (ps & NE & Fp & E).
    { rewrite !app_length in Hn. cbn in Hn. lia. }
    exists (a :: ps). repeat split; auto; [discriminate|]. rewrite fill_nil_cons by auto. rewrite E. reflexivity.
Qed.

(** One parameter only decides the text at its own place. *)
Lemma fill_place : forall pieces a b, (length a + 1 < length pieces)%nat ->
  exists pre suf, forall p, fill pieces (a ++ p :: b) = pre ++ p ++ suf.
Proof.
  induction pieces as [|s t IH]; intros a b H; cbn in H; [lia|].
  destruct t as [|s' t]; [cbn in H; lia|]. destruct a as [|x a].
  - exists s, (fill (s' :: t) b). intros q. reflexivity.
  - destruct (IH a b) as (pre & suf & E); [cbn in *; lia|].
    exists (s ++ x ++ pre), suf. intros q. cbn [app]. rewrite fill_cons by discriminate.
    rewrite E, <- !app_assoc. reflexivity.
Qed.

(** ** Texts of values *)
Notation calm := calm_text.
Lemma bf_app a b : brace_free (a ++ b) <-> brace_free a /\ brace_free b.
Proof. apply Forall_app. Qed.
Lemma bf_digits u : brace_free (digits u).
Proof. induction u; cbn; constructor; auto; split; discriminate. Qed.
Lemma calm_N n : calm (show_N n).
Proof.
  split; [apply bf_digits|]. unfold show_N. 
  assert (H : N.to_uint n <> Decimal.Nil).
  { intros E. pose proof (DecimalN.Unsigned.of_to n) as Q. rewrite E in Q. cbn in Q. subst n. discriminate. }
  destruct (N.to_uint n); cbn; congruence.
Qed.
Lemma calm_Z z : calm (show_Z z).
Proof.
  unfold show_Z. destruct (z <? 0)%Z; [|apply calm_N]. split; [|discriminate].
  constructor; [split; discriminate|]. apply calm_N.
Qed.
Lemma bf_join sep l : brace_free sep -> Forall brace_free l -> brace_free (join sep l).
Proof.
  intros Hs. induction l as [|x [|y r] IH]; intros H.
  - constructor.
  - inversion H; auto.
  - inversion H; subst. change (join sep (x :: y :: r)) with (x ++ sep ++ join sep (y :: r)).
    rewrite !bf_app. auto.
Qed.
Lemma bf_hex b : b < 256 -> brace_free (show_hex b).
Proof.
  intros H. assert (D : forall d, d < 16 -> hex_digit d <> 123 /\ hex_digit d <> 125).
  { intros d Hd. unfold hex_digit. destruct (N.ltb_spec d 10); lia. }
  repeat constructor; apply D; lia.
Qed.
Lemma calm_wrap a s b : brace_free s -> brace_free a -> brace_free b -> a <> [] -> calm (a ++ s ++ b).
Proof. intros. split; [rewrite !bf_app; auto|]. destruct a; [congruence|discriminate]. Qed.
Ltac bf := repeat constructor; discriminate.

Lemma plain_calm X v : calm_formats X -> plain v -> calm (show X v).
Proof.
  intros (F1 & F2 & F3). revert v. fix IH 2. intros v P. destruct P; cbn [show].
  - destruct b; split; try discriminate; bf.
  - apply calm_N. - apply calm_N. - apply calm_N. - apply calm_N.
  - apply calm_Z. - apply calm_Z. - apply calm_Z. - apply calm_Z.
  - apply F1. - apply F2.
  - split; [constructor; auto|discriminate].
  - split; [bf|discriminate].
  - split; [bf|discriminate].
  - apply calm_wrap; try bf; try discriminate. apply (IH v P).
  - apply (IH v P).
  - apply calm_wrap; try bf; try discriminate. apply bf_join; [bf|].
    induction H; cbn; constructor; auto. apply (IH x H).
  - apply calm_wrap; try bf; try discriminate. apply bf_join; [bf|].
    induction H; cbn; constructor; auto. apply bf_hex; auto.
  - apply F3.
Qed.

(** ** Rebuilding a line *)
Lemma txt_eqb_spec a b : reflect (a = b) (txt_eqb a b).
Proof. unfold txt_eqb. destruct (list_eq_dec N.eq_dec a b); constructor; auto. Qed.
Lemma txt_eqb_refl a : txt_eqb a a = true.
Proof. destruct (txt_eqb_spec a a); auto. Qed.

Lemma sort_unnamed X strings vs : sort_params X strings (map (fun _ => 0) vs) vs = Ret (map (show X) vs, []).
Proof. induction vs; cbn; auto. rewrite IHvs. reflexivity. Qed.
Lemma sort_named X strings intern ns :
  (forall n v, In (n, v) ns -> intern n <> 0 /\ nth_error strings (N.to_nat (intern n)) = Some n) ->
  sort_params X strings (map (fun p => intern (fst p)) ns) (map snd ns) = Ret ([], rev (map (fun p => (fst p, show X (snd p))) ns)).
Proof.
  induction ns as [|[n v] ns IH]; intros H; cbn; auto.
  destruct (H n v) as [H1 H2]; [left; auto|]. destruct (N.eqb_spec (intern n) 0); [congruence|].
  rewrite H2, IH by (intros; eapply H; right; eauto). reflexivity.
Qed.
Lemma sort_debug X strings intern vs ns :
  (forall n v, In (n, v) ns -> intern n <> 0 /\ nth_error strings (N.to_nat (intern n)) = Some n) ->
  sort_params X strings (map (fun _ => 0) vs ++ map (fun p => intern (fst p)) ns) (vs ++ map snd ns)
  = Ret (map (show X) vs, rev (map (fun p => (fst p, show X (snd p))) ns)).
Proof.
  intros H. induction vs as [|v vs IH]; cbn; [apply sort_named; auto|]. rewrite IH. reflexivity.
Qed.
Lemma named_of_in args n v : In (n, v) (named_of args) <-> In (Named n v) args.
Proof.
  unfold named_of. rewrite in_flat_map. split.
  - intros (a & Ha & H). destruct a; cbn in H; [tauto|]. destruct H as [H|[]]. injection H as -> ->. auto.
  - intros H. eexists. split; [exact H|left; auto].
Qed.
Lemma rebuild_debug X strings intern time fmt args : known intern strings fmt args ->
  rebuild_logline X strings (debug_entry intern time fmt args)
  = Ret (format_logline X time fmt (map (show X) (unnamed_of args)) (rev (map (fun p => (fst p, show X (snd p))) (named_of args)))).
Proof.
  intros (K1 & K2 & K3). unfold rebuild_logline, debug_entry. cbn [le_msg le_names le_params le_time].
  rewrite K2, sort_debug; [reflexivity|]. intros n v H. apply named_of_in in H. eauto.
Qed.

(** Maps with distinct keys. *)
Lemma lookup_in {A} (l : list (txt * A)) k v : NoDup (map fst l) -> In (k, v) l -> lookup l k = Some v.
Proof.
  induction l as [|[k' v'] l IH]; cbn; [tauto|]. intros N H. inversion N; subst. destruct (txt_eqb_spec k k') as [->|].
  - destruct H as [H|H]; [congruence|]. exfalso. match goal with X : ~ In _ _ |- _ => apply X end.
    apply in_map_iff. exists (k', v). auto.
  - apply IH; auto. destruct H; congruence.
Qed.
Lemma lookup_none {A} (l : list (txt * A)) k : (forall v, ~ In (k, v) l) -> lookup l k = None.
Proof.
  induction l as [|[k' v'] l IH]; cbn; auto. intros H. destruct (txt_eqb_spec k k') as [->|].
  - exfalso. apply (H v'). auto.
  - apply IH. intros v X. apply (H v). auto.
Qed.
Lemma lookup_some {A} (l : list (txt * A)) k v : lookup l k = Some v -> In (k, v) l.
Proof.
  induction l as [|[k' v'] l IH]; cbn; [discriminate|]. destruct (txt_eqb_spec k k') as [->|]; auto.
  intros H. injection H as ->. auto.
Qed.
Lemma own_values X args : NoDup (map fst (named_of args)) ->
  own_value X args (lookup (rev (map (fun p => (fst p, show X (snd p))) (named_of args)))).
Proof.
  intros N. set (l := map (fun p => (fst p, show X (snd p))) (named_of args)).
  assert (Nl : NoDup (map fst l)) by (unfold l; rewrite map_map; exact N).
  assert (Nr : NoDup (map fst (rev l))) by (rewrite map_rev; apply NoDup_rev; auto).
  split.
  - intros n v H. apply lookup_in; auto. apply in_rev. rewrite rev_involutive. unfold l. apply in_map_iff.
    exists (n, v). split; auto. apply named_of_in. auto.
  - intros n H. apply lookup_none. intros v X1. apply in_rev in X1. unfold l in X1. apply in_map_iff in X1.
    destruct X1 as ((n' & w) & E & I1). cbn in E. injection E as -> <-. apply named_of_in in I1. apply (H w I1).
Qed.

(** ** The text export *)
Lemma textlog_entries X strings es : forall b fuel, Forall entry_ok es -> Forall (fun e => le_msg e <> 0) es ->
  dec_entry b = None -> (length es < fuel)%nat ->
  Forall (fun e => exists r, rebuild_logline X strings e = Ret r) es ->
  textlog X strings fuel (flat_map enc_entry es ++ b) =
  (map (fun e => match rebuild_logline X strings e with
                 | Ret (Some l) => Line (show_time X (le_time e) ++ lit ": " ++ l)
                 | _ => Failure end) es, false).
Proof.
  induction es as [|e es IH]; intros b fuel H1 H2 H3 H4 H5; (destruct fuel as [|fuel]; [cbn in H4; lia|]); cbn [textlog flat_map map app].
  - rewrite H3. reflexivity.
  - inversion H1; inversion H2; inversion H5; subst. rewrite <- app_assoc, (entry_lossless e) by auto.
    destruct (N.eqb_spec (le_msg e) 0); [congruence|].
    match goal with X : exists r, rebuild_logline _ _ e = _ |- _ => destruct X as (r & Er) end.
    rewrite Er, IH by (auto; cbn in H4; lia). destruct r; reflexivity.
Qed.
Lemma dec_entry_nil : dec_entry [] = None.
Proof. reflexivity. Qed.
Lemma flat_map_long {A} (f : A -> bytes) l : (forall a, f a <> []) -> (length l <= length (flat_map f l))%nat.
Proof.
  intros H. induction l as [|a l IH]; cbn; auto. rewrite app_length. specialize (H a).
  destruct (f a); [congruence|cbn; lia].
Qed.
