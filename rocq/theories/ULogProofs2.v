(** Invariant of the unified log writer. *)
From Coq Require Import List Arith NArith ZArith Bool Lia Sorted ZifyBool ZifyNat ZifyN.
From Verif Require Import Base BincodeModel BincodeSpec BincodeProofs ULogModel ULogSpec ULogProofs1.
Import ListNotations.
Open Scope N_scope.

Section Inv.
Context (ps slab_size : N) (Hps : page_ok ps).

(** Ghost description of a section. *)
Record gsec := mkG {
  g_slab : nat; g_off : N; g_req : N; g_owner : nat; g_type : logtype;
  g_objs : list bytes; g_open : bool }.

Definition g_data s := concat (g_objs s).
Definition g_size s := align ps (g_req s).
Definition g_filled s :=
  if g_open s || logtype_eqb (g_type s) TEmpty then 0 else blen (g_data s).
Definition g_hdr s := mkHdr section_magic (g_type s) (g_size s) (g_filled s).
Definition on (k : nat) (G : list gsec) := filter (fun s => Nat.eqb (g_slab s) k) G.
Definition base (k : nat) : N := match k with O => ps | _ => 0 end.

Fixpoint chain (b : N) (l : list gsec) (e : N) : Prop :=
  match l with
  | [] => e = b
  | s :: t => g_off s = b /\ chain (b + g_size s) t e
  end.

Record sec_ok (m : N -> N) (s : gsec) : Prop := {
  so_hdr : bytes_at m (g_off s) (enc_header (g_hdr s));
  so_data : bytes_at m (g_off s + 15) (g_data s);
  so_min : 15 <= g_req s;
  so_fit : 15 + blen (g_data s) <= g_req s;
  so_size : g_size s < 2 ^ 32 }.

Record slab_img (k : nat) (f : file) (G : list gsec) (e : N) : Prop := {
  si_chain : chain (base k) (on k G) e;
  si_ok : Forall (sec_ok (f_mem f)) (on k G);
  si_zero : forall a, e <= a -> f_mem f a = 0;
  si_fits : Forall (fun s => g_off s + g_size s <= slab_size) (on k G) }.

Record trimmed (k : nat) (f : file) (G : list gsec) (e : N) : Prop := {
  tr_len : align ps (f_len f) = e;
  tr_base : base k <= f_len f;
  tr_pos : 0 < f_len f;
  tr_secs : Forall (fun s => g_off s + g_req s <= f_len f /\ g_open s = false) (on k G) }.

Definition main_bytes : bytes := enc_main (mkMain main_magic (ps mod 2 ^ 16) (ps mod 2 ^ 16)).

Record img (fs : list file) (G : list gsec) : Prop := {
  im_slabs : forall k f, nth_error fs k = Some f ->
     exists e, slab_img k f G e /\ (f_len f = slab_size \/ trimmed k f G e);
  im_main : forall f, nth_error fs 0 = Some f -> bytes_at (f_mem f) 0 main_bytes;
  im_main_len : blen main_bytes <= slab_size;
  im_range : Forall (fun s => (g_slab s < length fs)%nat) G;
  im_sorted : StronglySorted (fun a b => (g_slab a <= g_slab b)%nat) G }.

Fixpoint assoc (k : nat) (b : list (nat * slab)) : option slab :=
  match b with
  | [] => None
  | (j, s) :: b => if Nat.eqb j k then Some s else assoc k b
  end.

Definition status (lg : logger) (k : nat) : option slab :=
  if Nat.eqb k (lg_suffix lg) then Some (lg_front lg) else assoc k (lg_back lg).

Record live (k : nat) (s : slab) (G : list gsec) (e : N) : Prop := {
  lv_pos : align ps (sl_pos s) = e;
  lv_base : base k <= sl_pos s;
  lv_secs : Forall (fun x => g_off x + g_req x <= sl_pos s) (on k G);
  lv_inflight : sl_inflight s = map g_off (filter g_open (on k G));
  lv_flushed : Forall (fun x => sl_flushed s <= x) (sl_inflight s);
  lv_flushed_pos : sl_flushed s <= sl_pos s }.

Record core (lg : logger) (G : list gsec) : Prop := {
  c_img : img (lg_files lg) G;
  c_len : length (lg_files lg) = S (lg_suffix lg);
  c_slabs : forall k f e, nth_error (lg_files lg) k = Some f -> slab_img k f G e ->
     match status lg k with
     | Some s => f_len f = slab_size /\ live k s G e
     | None => trimmed k f G e
     end;
  c_back : Forall (fun p => (fst p < lg_suffix lg)%nat) (lg_back lg);
  c_nodup : NoDup (map fst (lg_back lg));
  c_pos : Forall (fun p => 0 < sl_pos (snd p)) (lg_back lg);
  c_replay : replay (lg_evs lg) = lg_files lg }.

(** ** Basic facts *)
Lemma on_app k G1 G2 : on k (G1 ++ G2) = on k G1 ++ on k G2.
Proof. apply filter_app. Qed.

Lemma on_cons_same s G : on (g_slab s) (s :: G) = s :: on (g_slab s) G.
Proof. unfold on. cbn [filter]. now rewrite Nat.eqb_refl. Qed.

Lemma on_cons_other k s G : k <> g_slab s -> on k (s :: G) = on k G.
Proof. intros H. unfold on. cbn [filter]. destruct (Nat.eqb_spec (g_slab s) k); congruence. Qed.

Lemma g_size_req s : g_req s <= g_size s.
Proof. apply (align_bounds ps Hps). Qed.

Lemma chain_app b l1 l2 e : chain b (l1 ++ l2) e <-> exists c, chain b l1 c /\ chain c l2 e.
Proof.
  revert b; induction l1 as [|s l1 IH]; intros b; cbn [app chain].
  - split; [intros H; exists b; auto | intros (c & -> & H); auto].
  - rewrite IH. split.
    + intros (Ho & c & H1 & H2). exists c; auto.
    + intros (c & (Ho & H1) & H2). eauto.
Qed.

Lemma chain_le b l e : chain b l e -> b <= e.
Proof.
  revert b; induction l as [|s l IH]; intros b; cbn [chain].
  - lia.
  - intros [_ H]. apply IH in H. lia.
Qed.

Lemma chain_unique b l e e' : chain b l e -> chain b l e' -> e = e'.
Proof.
  revert b; induction l as [|s l IH]; intros b; cbn [chain]; [congruence|].
  intros [_ H] [_ H']. eauto.
Qed.

Lemma chain_bounds b l e : chain b l e -> Forall (fun s => b <= g_off s /\ g_off s + g_size s <= e) l.
Proof.
  revert b; induction l as [|s l IH]; intros b; cbn [chain]; constructor.
  - destruct H as [-> H]. apply chain_le in H. lia.
  - destruct H as [_ H]. apply IH in H. eapply Forall_impl; [|exact H]. cbn. lia.
Qed.

Lemma chain_split b l1 s l2 e : chain b (l1 ++ s :: l2) e ->
  b <= g_off s /\ g_off s + g_size s <= e /\
  Forall (fun x => g_off x + g_size x <= g_off s) l1 /\
  Forall (fun x => g_off s + g_size s <= g_off x) l2.
Proof.
  intros H. apply chain_app in H. destruct H as (c & H1 & Ho & H2). subst c.
  pose proof (chain_le _ _ _ H1). pose proof (chain_le _ _ _ H2).
  apply chain_bounds in H1, H2. repeat split; try lia.
  - eapply Forall_impl; [|exact H1]. cbn. lia.
  - eapply Forall_impl; [|exact H2]. cbn. lia.
Qed.

Lemma chain_aligned b l e : aligned ps b -> chain b l e -> aligned ps e.
Proof.
  revert b; induction l as [|s l IH]; intros b Hb; cbn [chain].
  - now intros ->.
  - intros [_ H]. eapply IH; [|exact H]. apply aligned_add; auto. apply align_aligned; auto.
Qed.

Lemma base_aligned k : aligned ps (base k).
Proof. destruct k; [exists 1 | exists 0]; cbn; lia. Qed.

Definition same_place (s s' : gsec) : Prop :=
  g_slab s' = g_slab s /\ g_off s' = g_off s /\ g_req s' = g_req s /\
  g_owner s' = g_owner s /\ g_type s' = g_type s.

Lemma chain_replace b l1 s s' l2 e : same_place s s' ->
  chain b (l1 ++ s :: l2) e -> chain b (l1 ++ s' :: l2) e.
Proof.
  intros (_ & Ho & Hr & _) H. apply chain_app in H. destruct H as (c & H1 & H2 & H3).
  apply chain_app. exists c. split; auto. cbn [chain]. unfold g_size in *. rewrite Ho, Hr. auto.
Qed.

Lemma wf_g_hdr m s : sec_ok m s -> wf_header (g_hdr s).
Proof.
  intros [? ? ? Hf Hs]. repeat split; auto. cbn. unfold g_filled.
  pose proof (g_size_req s). destruct (_ || _); [reflexivity|]. lia.
Qed.

Lemma g_hdr_len m s : sec_ok m s -> blen (enc_header (g_hdr s)) <= 13.
Proof. intros H. apply enc_header_bound. eapply wf_g_hdr; eauto. Qed.

(** A section survives any change of memory outside its range. *)
Lemma sec_ok_frame m m' s : sec_ok m s ->
  (forall a, g_off s <= a < g_off s + g_req s -> m' a = m a) -> sec_ok m' s.
Proof.
  intros H E. pose proof (g_hdr_len _ _ H) as Hl. destruct H as [Hh Hd Hm Hf Hs].
  constructor; auto.
  - intros i Hi. rewrite E; [now apply Hh|]. unfold blen in Hl. lia.
  - intros i Hi. rewrite E; [now apply Hd|]. unfold blen in Hf. lia.
Qed.

(** Replacing one open section by another description of the same place, when
    memory changed only inside it. *)
Lemma on_split k G1 s G2 : on k (G1 ++ s :: G2) =
  on k G1 ++ (if Nat.eqb (g_slab s) k then [s] else []) ++ on k G2.
Proof.
  rewrite on_app. f_equal. unfold on. cbn [filter]. destruct (Nat.eqb (g_slab s) k); auto.
Qed.

Definition change_in (s : gsec) (fs fs' : list file) : Prop :=
  length fs' = length fs /\
  forall k f', nth_error fs' k = Some f' -> exists f, nth_error fs k = Some f /\
    f_len f' = f_len f /\
    forall a, (k <> g_slab s \/ a < g_off s \/ g_off s + g_req s <= a) -> f_mem f' a = f_mem f a.

Lemma slab_img_update fs fs' G1 s s' G2 k f' f e :
  same_place s s' -> sec_ok (f_mem f) s \/ k <> g_slab s ->
  (k = g_slab s -> sec_ok (f_mem f') s') ->
  change_in s fs fs' -> nth_error fs k = Some f -> nth_error fs' k = Some f' ->
  slab_img k f (G1 ++ s :: G2) e -> slab_img k f' (G1 ++ s' :: G2) e.
Proof.
  intros SP Hs Hs' [_ CI] Hf Hf' [Hc Ho Hz Hfit].
  destruct (CI _ _ Hf') as (f0 & Hf0 & _ & Hm). rewrite Hf in Hf0. injection Hf0 as <-.
  rewrite on_split in *. destruct SP as (S1 & S2 & S3 & S4 & S5).
  assert (SP : same_place s s') by (repeat split; auto).
  destruct (Nat.eqb_spec (g_slab s) k) as [Ek|Ek]; cbn [app] in *.
  - apply chain_split in Hc as HS. destruct HS as (B1 & B2 & B3 & B4).
    pose proof (g_size_req s).
    apply Forall_app in Ho, Hfit. destruct Ho as [O1 O2], Hfit as [F1 F2].
    inversion O2 as [|? ? Os O3]; subst. inversion F2 as [|? ? Fs F3]; subst.
    constructor.
    + rewrite on_split, S1, Nat.eqb_refl. cbn [app]. eapply chain_replace; eauto.
    + rewrite on_split, S1, Nat.eqb_refl. cbn [app].
      apply Forall_app. split; [|constructor]; auto.
      * rewrite Forall_forall in *. intros x Hx. apply (sec_ok_frame (f_mem f)); auto.
        intros a Ha. apply Hm. specialize (B3 x Hx). pose proof (g_size_req x). lia.
      * rewrite Forall_forall in *. intros x Hx. apply (sec_ok_frame (f_mem f)); auto.
        intros a Ha. apply Hm. specialize (B4 x Hx). lia.
    + intros a Ha. rewrite Hm by lia. auto.
    + rewrite on_split, S1, Nat.eqb_refl. cbn [app].
      apply Forall_app. split; [|constructor]; auto. unfold g_size in *. now rewrite S2, S3.
  - assert (Em : forall a, f_mem f' a = f_mem f a) by (intros a; apply Hm; auto).
    constructor; rewrite ?on_split, ?S1; destruct (Nat.eqb_spec (g_slab s) k); try congruence;
      cbn [app]; auto.
    + eapply Forall_impl; [|exact Ho]. intros x Hx. eapply sec_ok_frame; eauto.
    + intros a Ha. rewrite Em; auto.
Qed.

Lemma trimmed_no_open k f G1 s G2 e : trimmed k f (G1 ++ s :: G2) e -> g_slab s = k ->
  g_open s = true -> False.
Proof.
  intros [_ _ _ H] E O. rewrite on_split in H. rewrite E, Nat.eqb_refl in H.
  apply Forall_app in H. destruct H as [_ H]. inversion H as [|? ? [_ X] ?]; subst. congruence.
Qed.

Lemma trimmed_update k f f' G1 s s' G2 e : same_place s s' -> g_slab s <> k ->
  f_len f' = f_len f -> trimmed k f (G1 ++ s :: G2) e -> trimmed k f' (G1 ++ s' :: G2) e.
Proof.
  intros (S1 & _) Hk El [H1 H2 H2' H3]. constructor; rewrite ?El; auto.
  rewrite on_split in *. rewrite S1. destruct (Nat.eqb_spec (g_slab s) k); [congruence|auto].
Qed.

Lemma sorted_replace {A} (R : A -> A -> Prop) l1 s s' l2 :
  (forall x, R x s -> R x s') -> (forall x, R s x -> R s' x) ->
  StronglySorted R (l1 ++ s :: l2) -> StronglySorted R (l1 ++ s' :: l2).
Proof.
  intros H1 H2. induction l1 as [|a l1 IH]; cbn; intros H; inversion H as [|? ? S F]; subst.
  - constructor; auto. eapply Forall_impl; [|exact F]. auto.
  - constructor; auto. apply Forall_app in F. destruct F as [F1 F2]. inversion F2; subst.
    apply Forall_app. split; auto.
Qed.

Lemma img_update fs fs' G1 s s' G2 :
  img fs (G1 ++ s :: G2) -> g_open s = true -> same_place s s' -> change_in s fs fs' ->
  (forall f', nth_error fs' (g_slab s) = Some f' -> sec_ok (f_mem f') s') ->
  img fs' (G1 ++ s' :: G2).
Proof.
  intros [Hsl Hm Hml Hr Hso] Op SP CI Hs'. pose proof CI as [CL CF].
  constructor; auto.
  - intros k f' Hf'. destruct (CF _ _ Hf') as (f & Hf & El & Em).
    destruct (Hsl _ _ Hf) as (e & SI & Hlen). exists e. split.
    + eapply slab_img_update; eauto.
      * destruct (Nat.eq_dec k (g_slab s)) as [->|]; [left|right; auto].
        destruct SI as [_ O _ _]. rewrite on_split, Nat.eqb_refl in O.
        apply Forall_app in O. destruct O as [_ O]. now inversion O.
      * intros ->. auto.
    + destruct Hlen as [Hl|Ht]; [left; congruence|].
      destruct (Nat.eq_dec (g_slab s) k) as [Ek|Ek].
      * exfalso. eapply trimmed_no_open; eauto.
      * right. eapply trimmed_update; eauto.
  - intros f' Hf'. destruct (CF _ _ Hf') as (f & Hf & El & Em).
    intros i Hi. rewrite Em; [apply (Hm _ Hf _ Hi)|].
    destruct (Nat.eq_dec (g_slab s) 0) as [E0|E0]; [|lia].
    destruct (Hsl _ _ Hf) as (e & [Hc _ _ _] & _). rewrite on_split, E0 in Hc.
    cbn [Nat.eqb app] in Hc. apply chain_split in Hc. destruct Hc as (B & _). cbn in B.
    assert (blen main_bytes <= 10).
    { apply enc_main_bound. repeat split; cbn; apply N.mod_lt; lia. }
    unfold blen in *. destruct Hps as [_ ?]. lia.
  - apply Forall_app in Hr. destruct Hr as [R1 R2]. inversion R2; subst.
    rewrite CL. apply Forall_app. split; auto. constructor; auto.
    destruct SP as (-> & _); auto.
  - destruct SP as (S1 & _). eapply sorted_replace; [| |exact Hso]; cbn; intros; lia.
Qed.

(** Writing inside an open section. *)
Lemma change_in_write s off bs fs :
  g_off s <= off -> off + blen bs <= g_off s + g_req s ->
  change_in s fs (apply_ev (EvWrite (g_slab s) off bs) fs).
Proof.
  intros H1 H2. cbn [apply_ev]. split; [apply modify_file_length|].
  intros k f' Hf'. destruct (Nat.eq_dec (g_slab s) k) as [<-|Hk].
  - destruct (nth_error fs (g_slab s)) as [f|] eqn:Ef.
    + rewrite (modify_file_same _ _ _ f Ef) in Hf'. injection Hf' as <-. exists f.
      repeat split. cbn. intros a Ha. apply wr_other. lia.
    + unfold modify_file in Hf'. rewrite Ef in Hf'. congruence.
  - rewrite modify_file_other in Hf' by auto. exists f'. auto.
Qed.

Lemma change_in_refl s fs : change_in s fs fs.
Proof. split; auto. intros k f Hf. exists f. auto. Qed.

(** Sections known at a place. *)
Lemma img_sec_ok fs G1 s G2 : img fs (G1 ++ s :: G2) ->
  exists f, nth_error fs (g_slab s) = Some f /\ sec_ok (f_mem f) s.
Proof.
  intros I. pose proof (im_range _ _ I) as R. apply Forall_app in R. destruct R as [_ R].
  inversion R as [|? ? R1 _]; subst.
  destruct (nth_error fs (g_slab s)) as [f|] eqn:Ef.
  - exists f. split; auto. destruct (im_slabs _ _ I _ _ Ef) as (e & [_ O _ _] & _).
    rewrite on_split, Nat.eqb_refl in O. apply Forall_app in O. destruct O as [_ O].
    now inversion O.
  - apply nth_error_None in Ef. lia.
Qed.

(** ** History of images *)
Definition ext (lg lg' : logger) (S : list gsec -> Prop) : Prop :=
  exists es, lg_evs lg' = lg_evs lg ++ es /\
  forall es1 es2, es = es1 ++ es2 -> es1 <> [] ->
    exists G', S G' /\ img (replay (lg_evs lg ++ es1)) G'.

Lemma ext_same lg lg' S : lg_evs lg' = lg_evs lg -> ext lg lg' S.
Proof.
  intros E. exists []. rewrite app_nil_r. split; auto. intros [|? ?] es2 H; [congruence|discriminate].
Qed.

Lemma ext_refl lg S : ext lg lg S.
Proof. now apply ext_same. Qed.

Lemma ext_trans lg1 lg2 lg3 S : ext lg1 lg2 S -> ext lg2 lg3 S -> ext lg1 lg3 S.
Proof.
  intros (es & E & H) (es' & E' & H'). exists (es ++ es'). split.
  - rewrite E', E. now rewrite app_assoc.
  - intros es1 es2 Es N. apply app_eq_app in Es. destruct Es as (l & [[-> ->]|[-> ->]]).
    + apply (H es1 l); auto.
    + destruct l as [|x l].
      * rewrite app_nil_r in *. apply (H es []); auto. now rewrite app_nil_r.
      * rewrite app_assoc, <- E. apply (H' (x :: l) es2); auto. discriminate.
Qed.

Lemma ext_weaken lg lg' (S S' : list gsec -> Prop) :
  (forall G, S G -> S' G) -> ext lg lg' S -> ext lg lg' S'.
Proof.
  intros W (es & E & H). exists es. split; auto. intros es1 es2 Es N.
  destruct (H es1 es2 Es N) as (G & HG & I). eauto.
Qed.

Lemma ext_emit lg e (S : list gsec -> Prop) G : replay (lg_evs lg) = lg_files lg ->
  S G -> img (apply_ev e (lg_files lg)) G -> ext lg (emit e lg) S.
Proof.
  intros R HG I. exists [e]. split; [reflexivity|].
  intros [|x [|y es1]] es2 E N; try congruence; [|discriminate].
  injection E as <- _. exists G. split; auto. now rewrite replay_snoc, R.
Qed.

(** Where the new writes went. *)
Definition ev_in (P : nat -> N -> Prop) (e : event) : Prop :=
  match e with
  | EvWrite k off bs => forall a, off <= a < off + blen bs -> P k a
  | _ => True
  end.
Definition wrote (lg lg' : logger) (P : nat -> N -> Prop) : Prop :=
  exists es, lg_evs lg' = lg_evs lg ++ es /\ Forall (ev_in P) es.

Definition within (s : gsec) (k : nat) (a : N) : Prop :=
  k = g_slab s /\ g_off s <= a < g_off s + g_req s.

Lemma wrote_same lg lg' P : lg_evs lg' = lg_evs lg -> wrote lg lg' P.
Proof. intros E. exists []. rewrite app_nil_r. auto. Qed.

Lemma wrote_trans lg1 lg2 lg3 P : wrote lg1 lg2 P -> wrote lg2 lg3 P -> wrote lg1 lg3 P.
Proof.
  intros (es & E & H) (es' & E' & H'). exists (es ++ es'). split.
  - rewrite E', E. now rewrite app_assoc.
  - apply Forall_app; auto.
Qed.

Lemma wrote_weaken lg lg' (P P' : nat -> N -> Prop) : (forall k a, P k a -> P' k a) ->
  wrote lg lg' P -> wrote lg lg' P'.
Proof.
  intros W (es & E & H). exists es. split; auto. eapply Forall_impl; [|exact H].
  intros []; cbn; auto.
Qed.

Lemma wrote_emit lg e P : ev_in P e -> wrote lg (emit e lg) P.
Proof. intros H. exists [e]. split; auto. Qed.
End Inv.
