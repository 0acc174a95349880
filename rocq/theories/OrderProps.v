(** Property C165: the order of structured values. *)
From Coq Require Import List Arith NArith ZArith Bool Lia SpecFloat.
From Verif Require Import Base BincodeModel BincodeSpec CodecModel ValueModel CodecSpec ValueProofs
  SerdeModel SerdeProofs SerdeProps PySpec PyProofs FloatModel PyModel.
Import ListNotations.
Local Open Scope N_scope.

(** ** The order, stated apart from the code *)
(** A float before another: less by IEEE 754, or a number before a NaN. *)
Definition float_before (x y : spec_float) : Prop :=
  SFltb x y = true \/ x <> S754_nan /\ y = S754_nan.

(** The kinds of values, in the order in which they are sorted. *)
Definition kinds : list (value -> bool) :=
  [fun v => match v with VBool _ => true | _ => false end;
   fun v => match v with VU8 _ => true | _ => false end;
   fun v => match v with VU16 _ => true | _ => false end;
   fun v => match v with VU32 _ => true | _ => false end;
   fun v => match v with VU64 _ => true | _ => false end;
   fun v => match v with VI8 _ => true | _ => false end;
   fun v => match v with VI16 _ => true | _ => false end;
   fun v => match v with VI32 _ => true | _ => false end;
   fun v => match v with VI64 _ => true | _ => false end;
   fun v => match v with VF32 _ => true | _ => false end;
   fun v => match v with VF64 _ => true | _ => false end;
   fun v => match v with VChar _ => true | _ => false end;
   fun v => match v with VString _ => true | _ => false end;
   fun v => match v with VUnit => true | _ => false end;
   fun v => match v with VOption _ => true | _ => false end;
   fun v => match v with VNewtype _ => true | _ => false end;
   fun v => match v with VSeq _ => true | _ => false end;
   fun v => match v with VMap _ => true | _ => false end;
   fun v => match v with VBytes _ => true | _ => false end;
   fun v => match v with VCuTime _ => true | _ => false end].
Definition of_kind (n : nat) (v : value) : Prop := exists k, nth_error kinds n = Some k /\ k v = true.

(** A list before another: a proper beginning of it, or smaller at the first place where the
    two differ. *)
Inductive lex {A} (same less : A -> A -> Prop) : list A -> list A -> Prop :=
| lex_end p p' x l : Forall2 same p p' -> lex same less p (p' ++ x :: l)
| lex_at p p' x y l l' : Forall2 same p p' -> less x y -> lex same less (p ++ x :: l) (p' ++ y :: l').

(** The values are equal ([==]). *)
Definition same (v w : value) : Prop := eq_value v w = true.

Inductive before : value -> value -> Prop :=
| bf_kind n m v w : of_kind n v -> of_kind m w -> (n < m)%nat -> before v w
| bf_bool : before (VBool false) (VBool true)
| bf_u8 a b : a < b -> before (VU8 a) (VU8 b)
| bf_u16 a b : a < b -> before (VU16 a) (VU16 b)
| bf_u32 a b : a < b -> before (VU32 a) (VU32 b)
| bf_u64 a b : a < b -> before (VU64 a) (VU64 b)
| bf_i8 a b : (a < b)%Z -> before (VI8 a) (VI8 b)
| bf_i16 a b : (a < b)%Z -> before (VI16 a) (VI16 b)
| bf_i32 a b : (a < b)%Z -> before (VI32 a) (VI32 b)
| bf_i64 a b : (a < b)%Z -> before (VI64 a) (VI64 b)
| bf_f32 a b x y : ieee 23 8 a x -> ieee 23 8 b y -> float_before x y -> before (VF32 a) (VF32 b)
| bf_f64 a b x y : ieee 52 11 a x -> ieee 52 11 b y -> float_before x y -> before (VF64 a) (VF64 b)
| bf_char a b : a < b -> before (VChar a) (VChar b)
| bf_string a b : lex eq N.lt a b -> before (VString a) (VString b)
| bf_none w : before (VOption None) (VOption (Some w))
| bf_some v w : before v w -> before (VOption (Some v)) (VOption (Some w))
| bf_newtype v w : before v w -> before (VNewtype v) (VNewtype w)
| bf_seq_end p p' x l : Forall2 same p p' -> before (VSeq p) (VSeq (p' ++ x :: l))
| bf_seq p p' x y l l' : Forall2 same p p' -> before x y -> before (VSeq (p ++ x :: l)) (VSeq (p' ++ y :: l'))
| bf_map_end p p' x l : Forall2 (fun e f => same (fst e) (fst f) /\ same (snd e) (snd f)) p p' ->
    before (VMap p) (VMap (p' ++ x :: l))
| bf_map_key p p' k k' x y l l' : Forall2 (fun e f => same (fst e) (fst f) /\ same (snd e) (snd f)) p p' ->
    before k k' -> before (VMap (p ++ (k, x) :: l)) (VMap (p' ++ (k', y) :: l'))
| bf_map_value p p' k k' x y l l' : Forall2 (fun e f => same (fst e) (fst f) /\ same (snd e) (snd f)) p p' ->
    same k k' -> before x y -> before (VMap (p ++ (k, x) :: l)) (VMap (p' ++ (k', y) :: l'))
| bf_bytes a b : lex eq N.lt a b -> before (VBytes a) (VBytes b)
| bf_time a b : a < b -> before (VCuTime a) (VCuTime b).

(** ** Floats *)
Definition keyof (mw ew : N) (x : spec_float) : Z :=
  let inf := Z.of_N ((2 ^ ew - 1) * 2 ^ mw) in
  match x with
  | S754_zero _ => 0
  | S754_infinity s => if s then - inf else inf
  | S754_nan => inf + 1
  | S754_finite s m E =>
      let a := (E - (2 - 2 ^ (Z.of_N ew - 1) - Z.of_N mw)) * 2 ^ Z.of_N mw + Zpos m in
      if s then - a else a
  end%Z.

Lemma fkey_split mw ew (s : bool) mag : 0 < ew -> mag < 2 ^ (mw + ew) ->
  fkey (mw + ew + 1) ((2 ^ ew - 1) * 2 ^ mw) (N.b2n s * 2 ^ (mw + ew) + mag) =
    (if ((2 ^ ew - 1) * 2 ^ mw <? mag)%N then Z.of_N ((2 ^ ew - 1) * 2 ^ mw) + 1
     else if s then - Z.of_N mag else Z.of_N mag)%Z.
Proof.
  intros W L. unfold fkey. replace (mw + ew + 1 - 1) with (mw + ew) by lia.
  assert (P : 2 ^ (mw + ew) <> 0) by (apply N.pow_nonzero; lia).
  rewrite N.add_comm, N.mod_add, N.mod_small by assumption.
  destruct (_ <? _) eqn:?; [reflexivity|].
  destruct s; cbn [N.b2n]; destruct (N.leb_spec (2 ^ (mw + ew)) (mag + 1 * 2 ^ (mw + ew))) as [?|?];
    try destruct (N.leb_spec (2 ^ (mw + ew)) (mag + 0 * 2 ^ (mw + ew))) as [?|?]; try lia; reflexivity.
Qed.

Lemma key_ieee mw ew b x : 0 < ew -> ieee mw ew b x ->
  fkey (mw + ew + 1) ((2 ^ ew - 1) * 2 ^ mw) b = keyof mw ew x.
Proof.
  intros W H. assert (P : 2 ^ (mw + ew) = 2 ^ ew * 2 ^ mw) by (rewrite N.pow_add_r; lia).
  assert (Q : 0 < 2 ^ mw) by (apply N.neq_0_lt_0, N.pow_nonzero; lia).
  assert (R : 2 <= 2 ^ ew) by (change 2 with (2 ^ 1) at 1; apply N.pow_le_mono_r; lia).
  assert (Z1 : (2 ^ Z.of_N mw = Z.of_N (2 ^ mw))%Z) by (now rewrite N2Z.inj_pow).
  pose proof (fun s mag => fkey_split mw ew s mag W) as FS. rewrite P in FS.
  set (M := 2 ^ mw) in *. set (X := 2 ^ ew) in *.
  destruct H; unfold keyof; rewrite ?Z1; fold M X; rewrite ?P.
  - rewrite <- (N.add_0_r (N.b2n s * (X * M))), FS by nia.
    destruct (N.ltb_spec ((X - 1) * M) 0); [nia|]. now destruct s.
  - rewrite FS by nia.
    destruct (N.ltb_spec ((X - 1) * M) (Npos m)); [nia|]. destruct s; lia.
  - rewrite <- (N.add_assoc (N.b2n s * (X * M))), FS by nia.
    destruct (N.ltb_spec ((X - 1) * M) (e * M + f)); [nia|].
    assert (Z.of_N (e * M + f) = (Z.of_N e - 1) * Z.of_N M + Zpos m)%Z by nia.
    replace (Z.of_N e + 1 - 2 ^ (Z.of_N ew - 1) - Z.of_N mw - (2 - 2 ^ (Z.of_N ew - 1) - Z.of_N mw))%Z
      with (Z.of_N e - 1)%Z by lia. destruct s; lia.
  - rewrite FS by nia.
    destruct (N.ltb_spec ((X - 1) * M) ((X - 1) * M)); [lia|]. now destruct s.
  - rewrite <- (N.add_assoc (N.b2n s * (X * M))), FS by nia.
    destruct (N.ltb_spec ((X - 1) * M) ((X - 1) * M + f)); [|lia]. reflexivity.
Qed.

(** Where the key of a finite number lies. *)
Lemma key_fin mw ew b s m E : 0 < ew -> ieee mw ew b (S754_finite s m E) ->
  (0 < (E - (2 - 2 ^ (Z.of_N ew - 1) - Z.of_N mw)) * 2 ^ Z.of_N mw + Zpos m < Z.of_N ((2 ^ ew - 1) * 2 ^ mw))%Z.
Proof.
  intros W H. assert (Q : 0 < 2 ^ mw) by (apply N.neq_0_lt_0, N.pow_nonzero; lia).
  assert (R : 2 <= 2 ^ ew) by (change 2 with (2 ^ 1) at 1; apply N.pow_le_mono_r; lia).
  assert (Z1 : (2 ^ Z.of_N mw = Z.of_N (2 ^ mw))%Z) by (now rewrite N2Z.inj_pow).
  rewrite Z1. set (M := 2 ^ mw) in *. set (X := 2 ^ ew) in *. inversion H; subst.
  - nia.
  - replace (Z.of_N e + 1 - 2 ^ (Z.of_N ew - 1) - Z.of_N mw - (2 - 2 ^ (Z.of_N ew - 1) - Z.of_N mw))%Z
      with (Z.of_N e - 1)%Z by lia. subst M X. set (M := 2 ^ mw) in *. set (X := 2 ^ ew) in *. nia.
Qed.

Lemma fin_cmp M e0 (m m' : positive) E E' : (0 < M)%Z -> canon M e0 (Zpos m) E -> canon M e0 (Zpos m') E' ->
  ((E - e0) * M + Zpos m ?= (E' - e0) * M + Zpos m')%Z =
    match (E ?= E')%Z with Eq => Pos.compare_cont Eq m m' | c => c end.
Proof.
  intros HM C C'. destruct (Z.compare_spec E E') as [<-|L|L].
  - change (Pos.compare_cont Eq m m') with (Zpos m ?= Zpos m')%Z.
    destruct (Z.compare_spec (Zpos m) (Zpos m')) as [X|X|X].
    + rewrite X. apply Z.compare_refl.
    + apply Z.compare_lt_iff. lia.
    + apply Z.compare_gt_iff. lia.
  - apply Z.compare_lt_iff. unfold canon in *. nia.
  - apply Z.compare_gt_iff. unfold canon in *. nia.
Qed.

Lemma cmp_opp_Z a b : (- a ?= - b)%Z = (b ?= a)%Z.
Proof. destruct (Z.compare_spec b a), (Z.compare_spec (- a) (- b))%Z; try reflexivity; lia. Qed.

Definition fcmp (x y : spec_float) : comparison :=
  match x, y with
  | S754_nan, S754_nan => Eq | S754_nan, _ => Gt | _, S754_nan => Lt
  | _, _ => match SFcompare x y with Some c => c | None => Eq end
  end.

Lemma key_cmp mw ew a b x y : 0 < ew -> ieee mw ew a x -> ieee mw ew b y ->
  (keyof mw ew x ?= keyof mw ew y)%Z = fcmp x y.
Proof.
  intros W A B. assert (R : 2 <= 2 ^ ew) by (change 2 with (2 ^ 1) at 1; apply N.pow_le_mono_r; lia).
  assert (Q : 0 < 2 ^ mw) by (apply N.neq_0_lt_0, N.pow_nonzero; lia).
  assert (I : (0 < Z.of_N ((2 ^ ew - 1) * 2 ^ mw))%Z) by nia.
  assert (KA : forall s m E, x = S754_finite s m E ->
     (0 < (E - (2 - 2 ^ (Z.of_N ew - 1) - Z.of_N mw)) * 2 ^ Z.of_N mw + Zpos m < Z.of_N ((2 ^ ew - 1) * 2 ^ mw))%Z)
    by (intros s m E ->; exact (key_fin _ _ _ _ _ _ W A)).
  assert (KB : forall s m E, y = S754_finite s m E ->
     (0 < (E - (2 - 2 ^ (Z.of_N ew - 1) - Z.of_N mw)) * 2 ^ Z.of_N mw + Zpos m < Z.of_N ((2 ^ ew - 1) * 2 ^ mw))%Z)
    by (intros s m E ->; exact (key_fin _ _ _ _ _ _ W B)).
  destruct x as [s|s| |s m E], y as [s'|s'| |s' m' E'];
    try (pose proof (KA _ _ _ eq_refl)); try (pose proof (KB _ _ _ eq_refl)); clear KA KB;
    unfold keyof, fcmp, SFcompare.
  all: try (set (inf := Z.of_N ((2 ^ ew - 1) * 2 ^ mw)) in *).
  all: try (destruct s); try (destruct s').
  all: try (rewrite ?Z.compare_refl; reflexivity).
  all: try (apply Z.compare_lt_iff; lia).
  all: try (apply Z.compare_gt_iff; lia).
  all: assert (HM : (0 < 2 ^ Z.of_N mw)%Z) by (apply Z.pow_pos_nonneg; lia).
  - rewrite cmp_opp_Z, (fin_cmp _ _ _ _ _ _ HM (ieee_canon _ _ _ _ _ _ B) (ieee_canon _ _ _ _ _ _ A)).
    rewrite (Z.compare_antisym E E'). destruct (E ?= E')%Z; cbn; try reflexivity.
    apply Pos.compare_antisym.
  - rewrite (fin_cmp _ _ _ _ _ _ HM (ieee_canon _ _ _ _ _ _ A) (ieee_canon _ _ _ _ _ _ B)).
    now destruct (E ?= E')%Z.
Qed.

Lemma fcmp_lt x y : fcmp x y = Lt <-> float_before x y.
Proof.
  unfold float_before, fcmp, SFltb. destruct x, y; cbn; try (repeat match goal with s : bool |- _ => destruct s end);
    try (repeat match goal with |- context [match ?c with _ => _ end] => destruct c end); cbn; intuition congruence.
Qed.
Lemma fcmp_eq x y : fcmp x y = Eq <-> SFeqb x y = true \/ x = S754_nan /\ y = S754_nan.
Proof.
  unfold fcmp, SFeqb. destruct x, y; cbn; try (repeat match goal with s : bool |- _ => destruct s end);
    try (repeat match goal with |- context [match ?c with _ => _ end] => destruct c end); cbn; intuition congruence.
Qed.

Lemma cmp_f32 a b x y : ieee 23 8 a x -> ieee 23 8 b y -> cmp_value (VF32 a) (VF32 b) = fcmp x y.
Proof.
  intros A B. cbn [cmp_value]. rewrite <- (key_cmp 23 8 a b x y eq_refl A B).
  rewrite <- (key_ieee 23 8 a x eq_refl A), <- (key_ieee 23 8 b y eq_refl B). reflexivity.
Qed.
Lemma cmp_f64 a b x y : ieee 52 11 a x -> ieee 52 11 b y -> cmp_value (VF64 a) (VF64 b) = fcmp x y.
Proof.
  intros A B. cbn [cmp_value]. rewrite <- (key_cmp 52 11 a b x y eq_refl A B).
  rewrite <- (key_ieee 52 11 a x eq_refl A), <- (key_ieee 52 11 b y eq_refl B). reflexivity.
Qed.

(** ** Lists *)
Lemma list_lt {A} (c : A -> A -> comparison) (sm ls : A -> A -> Prop) :
  (forall x y, c x y = Eq <-> sm x y) -> forall l l',
  (forall x y, In x l -> In y l' -> c x y = Lt -> ls x y) -> cmp_list c l l' = Lt -> lex sm ls l l'.
Proof.
  intros E l. induction l as [|x l IH]; intros [|y l'] L H; cbn in H; try discriminate.
  - apply (lex_end sm ls [] []). constructor.
  - destruct (c x y) eqn:C; try discriminate.
    + assert (X : lex sm ls l l') by (apply IH; auto; intros; apply L; cbn; auto).
      apply E in C. inversion X; subst.
      * apply (lex_end sm ls (x :: l) (y :: p')). now constructor.
      * apply (lex_at sm ls (x :: p) (y :: p')); auto.
    + apply (lex_at sm ls [] []); [constructor|]. apply L; cbn; auto.
Qed.
Lemma lt_list {A} (c : A -> A -> comparison) (sm : A -> A -> Prop) : (forall x y, sm x y -> c x y = Eq) ->
  (forall p p' x l, Forall2 sm p p' -> cmp_list c p (p' ++ x :: l) = Lt) /\
  (forall p p' x y l l', Forall2 sm p p' -> c x y = Lt -> cmp_list c (p ++ x :: l) (p' ++ y :: l') = Lt).
Proof.
  intros E. split.
  - intros p p' x l F. induction F as [|a b p p' S F IH]; cbn; [reflexivity|]. now rewrite (E _ _ S).
  - intros p p' x y l l' F H. induction F as [|a b p p' S F IH]; cbn; [now rewrite H|]. now rewrite (E _ _ S).
Qed.
Lemma cmp_N l l' : cmp_list N.compare l l' = Lt <-> lex eq N.lt l l'.
Proof.
  split.
  - apply list_lt; [intros; apply N.compare_eq_iff|]. intros x y _ _ H. exact H.
  - destruct (lt_list N.compare eq) as [A B]; [intros x y ->; apply N.compare_refl|].
    intros H. destruct H; auto.
Qed.

(** ** Kinds *)
Lemma kind_disc n v : of_kind n v -> n = match v with VCuTime _ => 19%nat | _ => N.to_nat (discriminant v) end.
Proof.
  intros (k & K & T). do 20 (destruct n as [|n]; [injection K as <-; destruct v; try discriminate T; reflexivity|]).
  destruct n; discriminate K.
Qed.
Lemma disc_kind v : of_kind (match v with VCuTime _ => 19%nat | _ => N.to_nat (discriminant v) end) v.
Proof. destruct v; eexists; split; reflexivity. Qed.
Lemma kind_lt v w : (exists n m, of_kind n v /\ of_kind m w /\ (n < m)%nat) <-> discriminant v < discriminant w.
Proof.
  split.
  - intros (n & m & A & B & L). apply kind_disc in A, B. subst. destruct v, w; cbn in *; lia.
  - intros L. do 2 eexists. split; [apply disc_kind|]. split; [apply disc_kind|]. destruct v, w; cbn in *; lia.
Qed.

(** ** C165 *)
(** The order of two values is the one stated above. *)
Theorem C165_order : forall v w, wf_value v -> wf_value w -> (cmp_value v w = Lt <-> before v w).
Proof.
  intros v w V W. split.
  - revert w V W. induction v as [v H1 H2 H3 H4| |v IH|v IH|l IH|m IH] using value_ind2; intros w V W H;
    (match goal with |- before ?a ?b => destruct (N.eq_dec (discriminant a) (discriminant b)) as [D|D] end;
     [|rewrite cmp_diff in H by assumption;
       match type of H with (_ ?= _) = _ => apply kind_lt in H; destruct H as (? & ? & ? & ? & ?); eapply bf_kind; eassumption end]).
    + destruct v; try (exfalso; eapply H1; reflexivity); try (exfalso; eapply H2; reflexivity);
        try (exfalso; eapply H3; reflexivity); try (exfalso; eapply H4; reflexivity);
        destruct w; try discriminate D; clear D H1 H2 H3 H4.
      * destruct b, b0; try discriminate H. constructor.
      * constructor; exact H.
      * constructor; exact H.
      * constructor; exact H.
      * constructor; exact H.
      * constructor; exact H.
      * constructor; exact H.
      * constructor; exact H.
      * constructor; exact H.
      * inversion V; inversion W; subst. pose proof (of_bits_ieee bits ltac:(assumption)) as A.
        pose proof (of_bits_ieee bits0 ltac:(assumption)) as B. rewrite (cmp_f32 _ _ _ _ A B) in H.
        apply fcmp_lt in H. eapply bf_f32; eassumption.
      * inversion V; inversion W; subst. pose proof (of_bits64_ieee bits ltac:(assumption)) as A.
        pose proof (of_bits64_ieee bits0 ltac:(assumption)) as B. rewrite (cmp_f64 _ _ _ _ A B) in H.
        apply fcmp_lt in H. eapply bf_f64; eassumption.
      * constructor; exact H.
      * constructor. now apply cmp_N.
      * discriminate H.
      * constructor. now apply cmp_N.
      * constructor; exact H.
    + destruct w; try discriminate D. destruct o; [constructor|discriminate H].
    + destruct w; try discriminate D. destruct o as [w|]; [|discriminate H]. constructor.
      inversion V; inversion W; subst. now apply IH.
    + destruct w; try discriminate D. constructor. inversion V; inversion W; subst. now apply IH.
    + destruct w as [| | | | | | | | | | | | | | | |l'| | |]; try discriminate D. rewrite cmp_seq in H.
      apply (list_lt cmp_value same before) in H; [|intros; symmetry; apply eq_cmp|].
      * destruct H; [now apply bf_seq_end|now apply bf_seq].
      * inversion V; inversion W; subst. rewrite Forall_forall in *. intros x y X Y C. apply IH; auto.
    + destruct w as [| | | | | | | | | | | | | | | | |m'| |]; try discriminate D. rewrite cmp_map in H.
      apply (list_lt cmp_pair (fun e f => same (fst e) (fst f) /\ same (snd e) (snd f))
        (fun e f => before (fst e) (fst f) \/ same (fst e) (fst f) /\ before (snd e) (snd f))) in H.
      * destruct H as [p p' x l F|p p' [k x] [k' y] l l' F [K|[K X]]];
          [now apply bf_map_end|now apply bf_map_key|now apply bf_map_value].
      * intros [k x] [k' y]. unfold same, cmp_pair. cbn [fst snd]. rewrite !eq_cmp.
        destruct (cmp_value k k'); intuition congruence.
      * inversion V; inversion W; subst. rewrite Forall_forall in *.
        intros [k x] [k' y] X Y C. unfold cmp_pair, same in *. cbn [fst snd] in *.
        destruct (IH _ X) as [IK IX]. cbn [fst snd] in *.
        repeat match goal with Q : forall e, In e m -> wf_value _ |- _ => pose proof (Q _ X); clear Q
          | Q : forall e, In e m' -> wf_value _ |- _ => pose proof (Q _ Y); clear Q end. cbn [fst snd] in *.
        destruct (cmp_value k k') eqn:K; try discriminate.
        -- right. split; [now apply eq_cmp|now apply IX].
        -- left. now apply IK.
  - assert (S1 : forall x y, same x y -> cmp_value x y = Eq) by (intros; now apply eq_cmp).
    assert (S2 : forall e f, same (fst e) (fst f) /\ same (snd e) (snd f) -> cmp_pair e f = Eq).
    { intros [k x] [k' y] [A B]. unfold cmp_pair. now rewrite (S1 _ _ A), (S1 _ _ B). }
    destruct (lt_list cmp_value same S1) as [L1 L2].
    destruct (lt_list cmp_pair (fun e f => same (fst e) (fst f) /\ same (snd e) (snd f)) S2) as [L3 L4].
    intros H. clear V W. induction H; try assumption; try reflexivity.
    + assert (X : discriminant v < discriminant w) by (apply kind_lt; eauto 6).
      rewrite cmp_diff by (intros E; rewrite E in X; lia). exact X.
    + erewrite cmp_f32 by eassumption. now apply fcmp_lt.
    + erewrite cmp_f64 by eassumption. now apply fcmp_lt.
    + now apply cmp_N.
    + rewrite cmp_seq. auto.
    + rewrite cmp_seq. auto.
    + rewrite cmp_map. auto.
    + rewrite cmp_map. apply L4; [assumption|]. unfold cmp_pair; cbn. now rewrite IHbefore.
    + rewrite cmp_map. apply L4; [assumption|]. unfold cmp_pair; cbn. now rewrite (S1 k k').
    + now apply cmp_N.
Qed.
Print Assumptions C165_order.

(** Two floats are equal when IEEE 754 says so, or both are NaN. *)
Theorem C165_floats : forall a b x y,
  (ieee 23 8 a x -> ieee 23 8 b y ->
     (eq_value (VF32 a) (VF32 b) = true <-> SFeqb x y = true \/ x = S754_nan /\ y = S754_nan)) /\
  (ieee 52 11 a x -> ieee 52 11 b y ->
     (eq_value (VF64 a) (VF64 b) = true <-> SFeqb x y = true \/ x = S754_nan /\ y = S754_nan)).
Proof.
  intros a b x y. split; intros A B; rewrite eq_cmp, <- fcmp_eq.
  - now rewrite (cmp_f32 _ _ _ _ A B).
  - now rewrite (cmp_f64 _ _ _ _ A B).
Qed.
Print Assumptions C165_floats.

(** Of two values exactly one holds: the first before, the second before, or they are equal;
    and what is before something that is before a third is before the third. So values can be
    sorted. *)
Theorem C165_total : forall u v w, wf_value u -> wf_value v -> wf_value w ->
  (before v w /\ ~ before w v /\ ~ same v w \/ before w v /\ ~ before v w /\ ~ same v w \/
   same v w /\ ~ before v w /\ ~ before w v) /\
  (before u v -> before v w -> before u w).
Proof.
  intros u v w U V W. unfold same. rewrite eq_cmp. rewrite <- !C165_order by assumption. split.
  - rewrite (cmp_opp v w). destruct (cmp_value v w); cbn; intuition congruence.
  - apply cmp_Lt.
Qed.
Print Assumptions C165_total.

Example C165_case :
  wf_value (VSeq [VF32 0x7f800000; VBool false]) /\ wf_value (VSeq [VF32 0x7fc00000]) /\
  cmp_value (VSeq [VF32 0x7f800000; VBool false]) (VSeq [VF32 0x7fc00000]) = Lt /\
  cmp_value (VBool false) (VBool true) = Lt /\ cmp_value (VU64 7) (VU8 9) = Gt /\
  cmp_value (VF64 0x8000000000000000) (VF64 0) = Eq /\ cmp_value (VF32 0xff800000) (VF32 0x80000001) = Lt /\
  cmp_value (VMap [(VUnit, VU8 1)]) (VMap [(VUnit, VU8 1); (VCuTime 3, VUnit)]) = Lt.
Proof.
  repeat split; try reflexivity; repeat constructor.
Qed.
