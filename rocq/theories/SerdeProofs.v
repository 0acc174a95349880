(** Proofs about logged parameters and serde. *)
From Coq Require Import List Arith NArith ZArith Bool Lia Permutation Sorted.
From Verif Require Import Base BincodeModel BincodeSpec BincodeProofs CodecModel ValueModel
  CodecSpec CodecProofs ValueProofs SerdeModel SerdeSpec.
Import ListNotations.
Open Scope N_scope.

(** ** Induction over nested data *)
Section Ind.
  Variable P : data -> Prop.
  Hypothesis Hbool : forall b, P (DBool b).
  Hypothesis Hint : forall k z, P (DInt k z).
  Hypothesis Hf32 : forall n, P (DF32 n).
  Hypothesis Hf64 : forall n, P (DF64 n).
  Hypothesis Hchar : forall n, P (DChar n).
  Hypothesis Hstr : forall n, P (DStr n).
  Hypothesis Hbytes : forall n, P (DBytes n).
  Hypothesis Hnone : P DNone.
  Hypothesis Hsome : forall d, P d -> P (DSome d).
  Hypothesis Hunit : P DUnit.
  Hypothesis Hunits : forall n, P (DUnitStruct n).
  Hypothesis Hnew : forall n d, P d -> P (DNewtype n d).
  Hypothesis Hseq : forall l, Forall P l -> P (DSeq l).
  Hypothesis Htuple : forall n l, Forall P l -> P (DTuple n l).
  Hypothesis Hmap : forall m, Forall (fun e => P (fst e) /\ P (snd e)) m -> P (DMap m).
  Hypothesis Hstruct : forall n fs, Forall (fun e => P (snd e)) fs -> P (DStruct n fs).
  Hypothesis Huv : forall n v, P (DUnitVar n v).
  Hypothesis Hnv : forall n v d, P d -> P (DNewtypeVar n v d).
  Hypothesis Htv : forall n v l, Forall P l -> P (DTupleVar n v l).
  Hypothesis Hsv : forall n v fs, Forall (fun e => P (snd e)) fs -> P (DStructVar n v fs).

  Fixpoint data_ind2 (d : data) : P d.
  Proof.
    destruct d.
    - apply Hbool.
    - apply Hint.
    - apply Hf32.
    - apply Hf64.
    - apply Hchar.
    - apply Hstr.
    - apply Hbytes.
    - apply Hnone.
    - apply Hsome, data_ind2.
    - apply Hunit.
    - apply Hunits.
    - apply Hnew, data_ind2.
    - apply Hseq. induction l; constructor; [apply data_ind2|auto].
    - apply Htuple. induction l; constructor; [apply data_ind2|auto].
    - apply Hmap. induction m as [|[k x] m IH]; constructor; [split; apply data_ind2|auto].
    - apply Hstruct. induction fs as [|[k x] m IH]; constructor; [apply data_ind2|auto].
    - apply Huv.
    - apply Hnv, data_ind2.
    - apply Htv. induction l; constructor; [apply data_ind2|auto].
    - apply Hsv. induction fs as [|[k x] m IH]; constructor; [apply data_ind2|auto].
  Defined.
End Ind.

(** ** [same] is an equivalence *)
Lemma Forall2_sym_in {A} (R S : A -> A -> Prop) l l' :
  Forall (fun a => forall b, R a b -> S b a) l -> Forall2 R l l' -> Forall2 S l' l.
Proof. intros F H; induction H; inversion F; subst; constructor; auto. Qed.

Lemma Forall2_trans_in {A} (R : A -> A -> Prop) l l' l'' :
  Forall (fun a => forall b c, R a b -> R b c -> R a c) l ->
  Forall2 R l l' -> Forall2 R l' l'' -> Forall2 R l l''.
Proof.
  intros F H; revert l''; induction H; intros l'' H'; inversion H'; subst; inversion F; subst;
    constructor; eauto.
Qed.

Lemma Forall2_swap {A B} (R : A -> B -> Prop) l l' :
  Forall2 R l l' -> Forall2 (fun b a => R a b) l' l.
Proof. induction 1; constructor; auto. Qed.

Lemma Forall2_len {A B} (R : A -> B -> Prop) l l' : Forall2 R l l' -> length l = length l'.
Proof. induction 1; cbn; congruence. Qed.

Lemma Forall2_imp {A B} (R S : A -> B -> Prop) l l' : (forall a b, R a b -> S a b) ->
  Forall2 R l l' -> Forall2 S l l'.
Proof. induction 2; constructor; auto. Qed.

Lemma Permutation_Forall {A} (P : A -> Prop) l l' : Permutation l l' -> Forall P l -> Forall P l'.
Proof. intros H F. rewrite Forall_forall in *. intros x I. apply F. now apply Permutation_in with l'; [symmetry|]. Qed.

Definition same_entry (e f : data * data) : Prop := same (fst e) (fst f) /\ same (snd e) (snd f).
Definition same_field (e f : list N * data) : Prop := fst e = fst f /\ same (snd e) (snd f).

Lemma same_sym : forall a b, same a b -> same b a.
Proof.
  apply (data_ind2 (fun a => forall b, same a b -> same b a)); intros;
    match goal with H : same _ _ |- _ => inversion H; subst; try apply same_refl end;
    try (constructor; auto; fail); try (constructor; eapply Forall2_sym_in; eauto; fail).
  - match goal with P : Permutation m p, G : Forall2 _ p m' |- _ =>
      assert (F : Forall2 same_entry m' p) end.
    { eapply Forall2_sym_in; [|eassumption].
      eapply Permutation_Forall; [eassumption|]. eapply Forall_impl; [|eassumption].
      intros e [I J] f [K L]; split; auto. }
    match goal with P : Permutation m p |- _ =>
      destruct (Permutation_Forall2 (Permutation_sym P) (Forall2_swap _ _ _ F)) as (q & Q & G) end.
    eapply same_map; [exact Q|]. apply Forall2_swap in G. exact G.
  - constructor. eapply Forall2_sym_in; [|eassumption].
    eapply Forall_impl; [|eassumption]. cbn. intros e I f [K L]; split; auto.
  - constructor. eapply Forall2_sym_in; [|eassumption].
    eapply Forall_impl; [|eassumption]. cbn. intros e I f [K L]; split; auto.
Qed.

Lemma same_trans : forall a b c, same a b -> same b c -> same a c.
Proof.
  apply (data_ind2 (fun a => forall b c, same a b -> same b c -> same a c)); intros;
    match goal with H : same ?a ?b, K : same ?b ?c |- _ =>
      inversion H; subst; try exact K; inversion K; subst; try exact H end;
    try (constructor; eauto; fail);
    try (constructor; eapply Forall2_trans_in; eauto; fail).
  - match goal with G : Forall2 _ p m', P : Permutation m' p0 |- _ =>
      destruct (Permutation_Forall2 P (Forall2_swap _ _ _ G)) as (q & Q & F) end.
    apply Forall2_swap in F.
    assert (Z : Permutation m q) by (etransitivity; eassumption).
    apply (same_map m q); [exact Z|].
    eapply (Forall2_trans_in same_entry); [|exact F|eassumption].
    eapply Permutation_Forall; [exact Z|].
    eapply Forall_impl; [|eassumption]. intros e [I J] f g [K L] [M O]; split; eauto.
  - constructor. eapply (Forall2_trans_in same_field); [|eassumption|eassumption].
    eapply Forall_impl; [|eassumption]. intros e I f g [K L] [M O]; split; [congruence|eauto].
  - constructor. eapply (Forall2_trans_in same_field); [|eassumption|eassumption].
    eapply Forall_impl; [|eassumption]. intros e I f g [K L] [M O]; split; [congruence|eauto].
Qed.

(** ** Values without floats are equal when they compare equal *)
Fixpoint plain (v : value) : bool :=
  match v with
  | VF32 _ | VF64 _ => false
  | VOption (Some v) | VNewtype v => plain v
  | VSeq l => forallb plain l
  | VMap m => forallb (fun e => plain (fst e) && plain (snd e)) m
  | _ => true
  end.

Lemma cmp_list_N a b : cmp_list N.compare a b = Eq -> a = b.
Proof.
  revert b; induction a as [|x a IH]; intros [|y b]; cbn; try discriminate; auto.
  destruct (N.compare_spec x y); try discriminate. intros H'. f_equal; auto.
Qed.

Lemma cmp_eq_plain : forall v, plain v = true -> forall w, cmp_value v w = Eq -> v = w.
Proof.
  apply (value_ind2 (fun v => plain v = true -> forall w, cmp_value v w = Eq -> v = w)).
  - intros v A B C D P w E. pose proof (cmp_eq_disc _ _ E) as Q.
    destruct v; destruct w; try discriminate Q; cbn in P, E; try discriminate;
      try (now f_equal; apply N.compare_eq); try (now f_equal; apply Z.compare_eq);
      try (now f_equal; apply cmp_list_N); auto.
    + destruct b, b0; cbn in E; congruence.
    + now destruct (A o).
    + now destruct (B v).
    + now destruct (C l).
    + now destruct (D m).
  - intros _ w E. pose proof (cmp_eq_disc _ _ E) as Q. destruct w; try discriminate Q.
    destruct o; [discriminate E|reflexivity].
  - intros v IH P w E. pose proof (cmp_eq_disc _ _ E) as Q. destruct w; try discriminate Q.
    destruct o; [|discriminate E]. f_equal. f_equal. now apply IH.
  - intros v IH P w E. pose proof (cmp_eq_disc _ _ E) as Q. destruct w; try discriminate Q.
    f_equal. now apply IH.
  - intros l IH P w E. pose proof (cmp_eq_disc _ _ E) as Q. destruct w; try discriminate Q.
    f_equal. rewrite cmp_seq in E. cbn [plain] in P. clear Q. revert l0 E.
    induction IH as [|x l IH' _ IHl]; intros [|y l'] E; try discriminate; auto.
    cbn in P. apply andb_true_iff in P as [P1 P2]. cbn in E.
    destruct (cmp_value x y) eqn:F; try discriminate.
    f_equal; [now apply IH'|now apply IHl].
  - intros l IH P w E. pose proof (cmp_eq_disc _ _ E) as Q. destruct w; try discriminate Q.
    f_equal. rewrite cmp_map in E. cbn [plain] in P. clear Q. revert m E.
    induction IH as [|[k x] l [IH1 IH2] _ IHl]; intros [|[k' y] l'] E; try discriminate; auto.
    cbn [forallb fst snd] in P. apply andb_true_iff in P as [P1 P2].
    apply andb_true_iff in P1 as [P0 P1]. cbn [cmp_list] in E. unfold cmp_pair at 1 in E. cbn [fst snd] in E.
    destruct (cmp_value k k') eqn:F; try discriminate.
    destruct (cmp_value x y) eqn:G; try discriminate.
    assert (k = k') by (apply IH1; assumption). assert (x = y) by (apply IH2; assumption). subst. f_equal. now apply IHl.
Qed.

(** ** Insertions with distinct keys *)
Lemma map_insert_perm k v m : Forall (fun e => cmp_value k (fst e) <> Eq) m ->
  Permutation (map_insert k v m) ((k, v) :: m).
Proof.
  induction 1 as [|[k' v'] m A F IH]; [reflexivity|]. cbn [map_insert].
  destruct (cmp_value k k') eqn:E; [now destruct A|reflexivity|].
  rewrite IH. apply perm_swap.
Qed.

Definition distinct (m : list (value * value)) : Prop :=
  ForallOrdPairs (fun e f => cmp_value (fst e) (fst f) <> Eq) m.

Lemma insert_all_gen m acc : ascending acc ->
  ForallOrdPairs (fun e f => cmp_value (fst e) (fst f) <> Eq) m ->
  (forall e f, In e m -> In f acc -> cmp_value (fst e) (fst f) <> Eq) ->
  ascending (fold_left (fun acc e => map_insert (fst e) (snd e) acc) m acc) /\ Permutation (fold_left (fun acc e => map_insert (fst e) (snd e) acc) m acc) (m ++ acc).
Proof.
  revert acc; induction m as [|[k v] m IH]; intros acc A D H; cbn [fold_left fst snd app]; [now split|].
  inversion D as [|? ? D1 D2]; subst.
  assert (P : Permutation (map_insert k v acc) ((k, v) :: acc)).
  { apply map_insert_perm. apply Forall_forall. intros f I. apply (H (k, v)); [now left|exact I]. }
  destruct (IH (map_insert k v acc)) as [B C].
  - now apply map_insert_sorted.
  - exact D2.
  - intros e f I J. apply (Permutation_in _ P) in J. destruct J as [<-|J].
    + rewrite Forall_forall in D1. specialize (D1 _ I). cbn in *.
      rewrite cmp_opp. destruct (cmp_value k (fst e)); cbn; congruence.
    + apply H; [now right|exact J].
  - split; [exact B|]. rewrite C, P. symmetry. apply Permutation_middle.
Qed.

Lemma insert_all_ok m : distinct m ->
  ascending (insert_all m) /\ Permutation (insert_all m) m.
Proof.
  intros D. destruct (insert_all_gen m []) as [A B]; auto.
  - constructor.
  - rewrite app_nil_r in B. now split.
Qed.

(** ** Lists of results *)
Lemma all_map {A B} (f : A -> option B) l l' : Forall2 (fun a b => f a = Some b) l l' ->
  all (map f l) = Some l'.
Proof. induction 1 as [|a b l l' E _ IH]; cbn; [reflexivity|]. now rewrite E, IH. Qed.

Lemma all_map_inv {A B} (f : A -> option B) l l' : all (map f l) = Some l' ->
  Forall2 (fun a b => f a = Some b) l l'.
Proof.
  revert l'; induction l as [|a l IH]; cbn; intros l' H; [injection H as <-; constructor|].
  destruct (f a) eqn:E; [|discriminate]. destruct (all (map f l)); [|discriminate].
  injection H as <-. constructor; auto.
Qed.

Lemma all_none {A B} (f : A -> option B) l :
  all (map f l) = None <-> existsb (fun a => match f a with None => true | _ => false end) l = true.
Proof.
  induction l as [|a l IH]; cbn; [split; discriminate|].
  destruct (f a); cbn; [|tauto]. rewrite <- IH. destruct (all (map f l)); split; congruence.
Qed.

(** ** Reading fields back *)
Lemma position_nth names : NoDup names -> forall j n, nth_error names j = Some n ->
  position n names = Some j.
Proof.
  induction 1 as [|a names Na Nn IH]; intros [|j] n; cbn; try discriminate.
  - intros [= ->]. now destruct (list_eq_dec N.eq_dec n n).
  - intros E. destruct (list_eq_dec N.eq_dec n a) as [->|_].
    + destruct Na. now apply nth_error_In in E.
    + now rewrite (IH j n E).
Qed.

Definition named (names : list (list N)) (xs : list value) : list (value * value) :=
  combine (map VString names) xs.

Lemma named_nth names xs j e : nth_error (named names xs) j = Some e ->
  exists n x, e = (VString n, x) /\ nth_error names j = Some n /\ nth_error xs j = Some x.
Proof.
  unfold named. revert xs j; induction names as [|n names IH]; intros [|x xs] [|j]; cbn; try discriminate.
  - intros [= <-]. eauto.
  - apply IH.
Qed.

Lemma nth_named names xs j n x : nth_error names j = Some n -> nth_error xs j = Some x ->
  nth_error (named names xs) j = Some (VString n, x).
Proof.
  unfold named. revert xs j; induction names as [|a names IH]; intros [|y xs] [|j]; cbn; try discriminate.
  - intros [= ->] [= ->]; auto.
  - apply IH.
Qed.

Lemma named_fst names xs : length names = length xs -> map fst (named names xs) = map VString names.
Proof.
  unfold named. revert xs; induction names as [|n names IH]; intros [|x xs]; cbn; try discriminate; auto.
  intros [= L]. now rewrite IH.
Qed.

Lemma named_NoDup names xs : NoDup names -> length names = length xs -> NoDup (named names xs).
Proof.
  intros N L. apply (NoDup_map_inv fst). rewrite named_fst by exact L.
  apply FinFun.Injective_map_NoDup; [|exact N]. intros a b [= E]; exact E.
Qed.

Lemma named_distinct names xs : NoDup names -> length names = length xs -> distinct (named names xs).
Proof.
  unfold named. intros N; revert xs; induction N as [|n names A N IH]; intros [|x xs] L;
    try discriminate; [constructor|cbn; constructor].
  - apply Forall_forall. intros [k y] I E. apply cmp_eq_plain in E; [|reflexivity]. cbn in E. subst k.
    apply in_combine_l in I. apply in_map_iff in I as (m & [= ->] & I). contradiction.
  - injection L as L. now apply IH.
Qed.

Lemma perm_single {A} (l : list A) a : Permutation l [a] -> l = [a].
Proof. intros P. apply Permutation_length_1_inv. now symmetry. Qed.

Lemma field_entry_named names xs m i x : NoDup names -> length names = length xs ->
  Permutation m (named names xs) -> nth_error xs i = Some x ->
  field_entry names i m = Some (Some x).
Proof.
  intros N L P X.
  assert (exists n, nth_error names i = Some n) as [n Ni].
  { destruct (nth_error names i) eqn:E; [eauto|]. apply nth_error_None in E.
    assert (nth_error xs i = None) by (apply nth_error_None; lia). congruence. }
  unfold field_entry.
  rewrite (perm_single _ (VString n, x)); [reflexivity|].
  apply NoDup_Permutation.
  - apply NoDup_filter. eapply Permutation_NoDup; [symmetry; exact P|]. now apply named_NoDup.
  - repeat constructor. intros [].
  - intros [k y]. rewrite filter_In. cbn [fst]. split.
    + intros [I F]. apply (Permutation_in _ P) in I. apply In_nth_error in I as [j I].
      apply named_nth in I as (n' & x' & [= -> ->] & A & B).
      cbn [deserialize_any identifier] in F. rewrite (position_nth _ N _ _ A) in F.
      apply Nat.eqb_eq in F as <-. left. congruence.
    + intros [[= <- <-]|[]]. split.
      * apply (Permutation_in _ (Permutation_sym P)). apply nth_error_In with i. now apply nth_named.
      * cbn [deserialize_any identifier]. rewrite (position_nth _ N _ _ Ni). apply Nat.eqb_refl.
Qed.

Lemma keys_ok_named names names' xs m : Permutation m (named names xs) -> keys_ok names' m = true.
Proof.
  intros P. apply forallb_forall. intros [k y] I. apply (Permutation_in _ P) in I.
  apply in_combine_l in I. apply in_map_iff in I as (n & <- & _). reflexivity.
Qed.

Section RT.
Variable c : casts.

Lemma de_fields_ok names m fs i xs ds :
  Forall2 (fun f d => fst f = fst d) fs ds ->
  (forall j f x d, nth_error fs j = Some f -> nth_error xs j = Some x -> nth_error ds j = Some d ->
     de c (snd f) x = Some (snd d)) ->
  length xs = length fs ->
  (forall j x, nth_error xs j = Some x -> field_entry names (i + j) m = Some (Some x)) ->
  de_fields (de c) names m i fs = Some ds.
Proof.
  intros F; revert i xs; induction F as [|[n t] [n' d] fs ds E F IH]; intros i xs D L H; [reflexivity|].
  cbn in E. subst n'. destruct xs as [|x xs]; [discriminate|]. cbn [de_fields].
  pose proof (H 0%nat x eq_refl) as H0. rewrite Nat.add_0_r in H0. rewrite H0.
  rewrite (D 0%nat (n, t) x (n, d) eq_refl eq_refl eq_refl : de c t x = Some d).
  rewrite (IH (S i) xs); [reflexivity| | |].
  - intros j f y e A B C. now apply (D (S j)).
  - now injection L.
  - intros j y Y. replace (S i + j)%nat with (i + S j)%nat by lia. now apply H.
Qed.

(** What is shown of each datum. *)
Definition good (t : ty) (d : data) (v : value) : Prop :=
  to_value d = Some v /\ wf_value v /\ (no_float d = true -> plain v = true) /\
  exists d', de c t v = Some d' /\ same d d'.
Definition rt (d : data) : Prop := forall t, has_type t d -> wide d = false -> exists v, good t d v.

Lemma rt_tuple l ts : Forall rt l -> Forall2 has_type ts l -> existsb wide l = false ->
  exists vs ds, all (map to_value l) = Some vs /\ Forall wf_value vs /\
    (forallb no_float l = true -> forallb plain vs = true) /\ length vs = length l /\
    de_tuple (de c) ts vs = Some (ds, []) /\ Forall2 same l ds.
Proof.
  intros R T; revert R; induction T as [|t d ts l T1 T IH]; intros R W.
  - exists [], []. cbn. repeat split; auto.
  - inversion R as [|? ? R1 R2]; subst. cbn in W. apply orb_false_iff in W as [W1 W2].
    destruct (R1 t T1 W1) as (v & A & B & C & d' & D & E).
    destruct (IH R2 W2) as (vs & ds & F & G & H & I & J & K).
    exists (v :: vs), (d' :: ds). cbn [map all forallb length de_tuple]. rewrite A, F, D, J.
    repeat split; auto.
    intros X. apply andb_true_iff in X as [X1 X2]. rewrite C, H; auto.
Qed.

Lemma rt_seq l t : Forall rt l -> Forall (has_type t) l -> existsb wide l = false ->
  exists vs ds, all (map to_value l) = Some vs /\ Forall wf_value vs /\
    (forallb no_float l = true -> forallb plain vs = true) /\ length vs = length l /\
    all (map (de c t) vs) = Some ds /\ Forall2 same l ds.
Proof.
  intros R T; revert R; induction T as [|d l T1 T IH]; intros R W.
  - exists [], []. cbn. repeat split; auto.
  - inversion R as [|? ? R1 R2]; subst. cbn in W. apply orb_false_iff in W as [W1 W2].
    destruct (R1 t T1 W1) as (v & A & B & C & d' & D & E).
    destruct (IH R2 W2) as (vs & ds & F & G & H & I & J & K).
    exists (v :: vs), (d' :: ds). cbn [map all forallb length]. rewrite A, F, D, J.
    repeat split; auto.
    intros X. apply andb_true_iff in X as [X1 X2]. rewrite C, H; auto.
Qed.

Definition field_value (e : list N * data) : option (value * value) :=
  option_map (fun v => (VString (fst e), v)) (to_value (snd e)).

Lemma rt_fields_each fs ds : Forall (fun e => rt (snd e)) ds ->
  Forall2 (fun f d => fst f = fst d /\ has_type (snd f) (snd d)) fs ds ->
  existsb (fun e => wide (snd e)) ds = false ->
  exists xs ds', all (map field_value ds) = Some (named (map fst fs) xs) /\
    Forall wf_value xs /\ (forallb (fun e => no_float (snd e)) ds = true -> forallb plain xs = true) /\
    length xs = length fs /\ Forall2 (fun f d => fst f = fst d) fs ds' /\
    (forall j f x d, nth_error fs j = Some f -> nth_error xs j = Some x -> nth_error ds' j = Some d ->
     de c (snd f) x = Some (snd d)) /\ Forall2 same_field ds ds'.
Proof.
  intros R T; revert R; induction T as [|[n t] [n' d] fs ds [T0 T1] T IH]; intros R W.
  - exists [], []. cbn. repeat split; auto. intros [|j]; discriminate.
  - cbn in T0. subst n'. inversion R as [|? ? R1 R2]; subst. cbn in W. apply orb_false_iff in W as [W1 W2].
    destruct (R1 t T1 W1) as (v & A & B & C & d' & D & E).
    destruct (IH R2 W2) as (xs & ds' & F & G & H & I & J & K & L).
    exists (v :: xs), ((n, d') :: ds'). cbn [map all forallb length fst snd]. unfold field_value at 1.
    cbn [fst snd]. cbn [snd] in A. rewrite A. cbn [option_map]. rewrite F.
    split; [reflexivity|]. split; [auto|]. split.
    { intros X. apply andb_true_iff in X as [X1 X2]. cbn in X1. rewrite C, H; auto. }
    split; [now rewrite I|]. split; [constructor; auto|]. split.
    + intros [|j] f x e; cbn; [intros [= <-] [= <-] [= <-]; exact D|apply K].
    + constructor; [now split|exact L].
Qed.

Lemma Forall_combine_r {A B} (P : B -> Prop) (l : list A) l' : Forall P l' ->
  Forall (fun e => P (snd e)) (combine l l').
Proof. intros F; revert l; induction F; intros [|a l0]; cbn; constructor; auto. Qed.

Lemma rt_fields fs ds : Forall (fun e => rt (snd e)) ds ->
  Forall2 (fun f d => fst f = fst d /\ has_type (snd f) (snd d)) fs ds ->
  existsb (fun e => wide (snd e)) ds = false -> NoDup (map fst fs) -> Forall text (map fst fs) ->
  fits fs ->
  exists m ds', all (map field_value ds) = Some m /\ wf_value (VMap (insert_all m)) /\
    (forallb (fun e => no_float (snd e)) ds = true -> plain (VMap (insert_all m)) = true) /\
    keys_ok (map fst fs) (insert_all m) = true /\
    de_fields (de c) (map fst fs) (insert_all m) 0 fs = Some ds' /\ Forall2 same_field ds ds'.
Proof.
  intros R T W N X L.
  destruct (rt_fields_each fs ds R T W) as (xs & ds' & A & B & C & D & E & F & G).
  assert (Ln : length (map fst fs) = length xs) by (rewrite map_length; auto).
  destruct (insert_all_ok _ (named_distinct _ xs N Ln)) as [As Pe].
  exists (named (map fst fs) xs), ds'. split; [exact A|].
  split; [|split; [|split; [|split; [|exact G]]]].
  - constructor.
    + eapply Permutation_Forall; [symmetry; exact Pe|]. apply Forall_forall. intros [k y] I.
      apply in_combine_l in I. apply in_map_iff in I as (n & <- & I).
      constructor. rewrite Forall_forall in X. auto.
    + eapply Permutation_Forall; [symmetry; exact Pe|]. now apply Forall_combine_r.
    + exact As.
    + unfold fits, ubits in *. rewrite (Permutation_length Pe). unfold named.
      rewrite combine_length, map_length, <- Ln, map_length. now rewrite Nat.min_id.
  - intros Y. cbn [plain]. apply forallb_forall. intros e I. apply (Permutation_in _ Pe) in I.
    destruct e as [k y]. pose proof (in_combine_l _ _ _ _ I) as I1. pose proof (in_combine_r _ _ _ _ I) as I2.
    apply in_map_iff in I1 as (n & <- & _). cbn. specialize (C Y). rewrite forallb_forall in C. now apply C.
  - now apply keys_ok_named with (map fst fs) xs.
  - apply de_fields_ok with xs; auto.
    intros j x J. cbn [Nat.add]. now apply field_entry_named with xs.
Qed.

Definition entry_value (e : data * data) : option (value * value) :=
  match to_value (fst e), to_value (snd e) with
  | Some k, Some v => Some (k, v) | _, _ => None
  end.
Definition de_entry (k x : ty) (e : value * value) : option (data * data) :=
  match de c k (fst e), de c x (snd e) with
  | Some a, Some b => Some (a, b) | _, _ => None
  end.

Definition good_entry (k x : ty) (e : data * data) (f : value * value) : Prop :=
  good k (fst e) (fst f) /\ good x (snd e) (snd f).

Lemma rt_entries k x m : Forall (fun e => rt (fst e) /\ rt (snd e)) m ->
  Forall (fun e => has_type k (fst e)) m -> Forall (fun e => has_type x (snd e)) m ->
  existsb (fun e => wide (fst e) || wide (snd e)) m = false ->
  exists vs, Forall2 (good_entry k x) m vs.
Proof.
  induction 1 as [|[a b] m [R1 R2] R IH]; intros T U W; [exists []; constructor|].
  inversion T; inversion U; subst. cbn in W. apply orb_false_iff in W as [W1 W2].
  apply orb_false_iff in W1 as [W0 W1].
  destruct (R1 k) as [v V]; auto. destruct (R2 x) as [w W]; auto.
  destruct IH as [vs F]; auto. exists ((v, w) :: vs). constructor; [now split|exact F].
Qed.

Lemma good_distinct k x m vs : Forall2 (good_entry k x) m vs ->
  Forall (fun e => no_float (fst e) = true) m ->
  ForallOrdPairs (fun e f => ~ same (fst e) (fst f)) m -> distinct vs.
Proof.
  induction 1 as [|e f m vs G F IH]; intros N D; [constructor|].
  inversion N; inversion D; subst. constructor; [|now apply IH]. clear IH.
  match goal with H : Forall (fun f => ~ same (fst e) (fst f)) m |- _ => rename H into S end.
  clear - G F S H1. induction F as [|e' f' m vs G' F IH]; constructor.
  - intros E. inversion S as [|? ? S1 S2]; subst. apply S1.
    destruct G as [(A & B & C & d & D & Sd) _]. destruct G' as [(A' & B' & C' & d' & D' & Sd') _].
    apply cmp_eq_plain in E; [|auto]. rewrite E in D. rewrite D in D'. injection D' as <-.
    apply same_trans with d; [exact Sd|now apply same_sym].
  - apply IH. now inversion S.
Qed.

Lemma rt_map k x m : Forall (fun e => rt (fst e) /\ rt (snd e)) m -> has_type (TMap k x) (DMap m) ->
  wide (DMap m) = false -> exists v, good (TMap k x) (DMap m) v.
Proof.
  intros R T W. inversion T as [| | | | | | | | | | | | | |? ? ? Tk Tx Nf D L| | | | |]; subst.
  cbn [wide] in W. destruct (rt_entries k x m R Tk Tx W) as [vs G].
  destruct (insert_all_ok vs (good_distinct _ _ _ _ G Nf D)) as [As Pe].
  exists (VMap (insert_all vs)).
  destruct (Permutation_Forall2 (Permutation_sym Pe) (Forall2_swap _ _ _ G)) as (p & Pm & H).
  apply Forall2_swap in H.
  split; [|split; [|split]].
  - cbn [to_value]. fold entry_value. rewrite (all_map entry_value m vs); [reflexivity|].
    eapply Forall2_imp; [|exact G]. intros [a b] [v w] [[A _] [B _]]. cbn in *.
    unfold entry_value. cbn. now rewrite A, B.
  - assert (WF : Forall (fun e => wf_value (fst e) /\ wf_value (snd e)) (insert_all vs)).
    { clear - H. induction H as [|e f ? ? [(_ & A & _) (_ & B & _)] H IH]; constructor; auto. }
    constructor; [| |exact As|].
    + eapply Forall_impl; [|exact WF]. now intros e [A B].
    + eapply Forall_impl; [|exact WF]. now intros e [A B].
    + unfold fits, ubits in *. rewrite (Permutation_length Pe), <- (Forall2_len _ _ _ G). exact L.
  - cbn [no_float plain]. intros Y.
    assert (Z : forallb (fun e => no_float (fst e) && no_float (snd e)) p = true).
    { apply forallb_forall. intros e I. rewrite forallb_forall in Y. apply Y.
      now apply (Permutation_in _ (Permutation_sym Pm)). }
    clear - H Z. induction H as [|e f ? ? [(_ & _ & A & _) (_ & _ & B & _)] H IH]; [reflexivity|].
    cbn in *. apply andb_true_iff in Z as [Z1 Z2]. apply andb_true_iff in Z1 as [Z0 Z1].
    now rewrite A, B, IH.
  - assert (X : exists ds, Forall2 (fun e f => de_entry k x e = Some f) (insert_all vs) ds /\
                           Forall2 same_entry p ds).
    { clear - H. induction H as [|e f ? ? [(_ & _ & _ & d & A & A') (_ & _ & _ & d' & B & B')] H IH].
      - exists []. split; constructor.
      - destruct IH as (ds & C & D). exists ((d, d') :: ds). split; constructor; auto.
        + unfold de_entry. now rewrite A, B.
        + now split. }
    destruct X as (ds & A & B). exists (DMap ds). split.
    + cbn [de deserialize_any]. change (option_map DMap (all (map (de_entry k x) (insert_all vs))) = Some (DMap ds)).
      now rewrite (all_map _ _ _ A).
    + now apply same_map with p.
Qed.

Lemma int_back k z v : int_range k z -> int_value k z = Some v ->
  wf_value v /\ plain v = true /\ de c (TInt k) v = Some (DInt k z).
Proof.
  unfold int_range, sbits.
  destruct k; cbn [int_value]; intros R E; try discriminate; injection E as <-;
    (split; [constructor; unfold ubits, sbits; lia|split; [reflexivity|]]);
    cbn [de deserialize_any]; rewrite ?Z2N.id by lia; unfold int_fits;
    (match goal with |- context [(?a <=? ?b)%Z && (?x <? ?y)%Z] =>
       replace (a <=? b)%Z with true by (symmetry; apply Z.leb_le; lia);
       replace (x <? y)%Z with true by (symmetry; apply Z.ltb_lt; lia) end); reflexivity.
Qed.

(** A value wrapped or not in newtypes is read as the same typed newtype. *)
Inductive peels : value -> value -> Prop :=
| peel_refl v : peels v v
| peel_step v w : peels v w -> peels (VNewtype v) w.

Lemma peels_trans v w x : peels v w -> peels w x -> peels v x.
Proof. induction 1; auto. intros P. constructor. auto. Qed.

Lemma de_newtype n t v : exists w, peels v w /\
  de c (TNewtype n t) v = option_map (DNewtype n) (de c t w).
Proof.
  destruct v; try (eexists; split; [apply peel_refl|reflexivity]).
  exists v. split; [constructor; constructor|reflexivity].
Qed.

Lemma newtype_value_spec n v :
  newtype_value n v = VNewtype v \/
  (exists k, v = VU64 k /\ newtype_value n v = VCuTime k) \/ newtype_value n v = v.
Proof.
  unfold newtype_value. destruct (list_eq_dec _ _ _); [destruct v; eauto|].
  destruct (list_eq_dec _ _ _); [destruct v; eauto|auto].
Qed.

Lemma peel_same : forall d t v w, has_type t d -> to_value d = Some v -> peels v w ->
  de c t w = de c t v.
Proof.
  apply (data_ind2 (fun d => forall t v w, has_type t d -> to_value d = Some v -> peels v w ->
    de c t w = de c t v));
    try (intros; match goal with E : to_value _ = Some _ |- _ => cbn in E; try (injection E as <-);
           match goal with P : peels _ _ |- _ => now inversion P end end).
  - intros k z t v w _ E P. destruct k; cbn in E; try discriminate; injection E as <-; now inversion P.
  - intros d IH t v w _ E P. cbn in E. destruct (to_value d); [|discriminate]. injection E as <-. now inversion P.
  - intros n d IH t v w T E P. inversion T; subst. cbn [to_value] in E.
    destruct (to_value d) as [v2|] eqn:E2; [|discriminate]. injection E as <-.
    match goal with H : has_type ?t d |- _ =>
      assert (G : forall w, peels v2 w -> de c t w = de c t v2) by (intros; apply (IH t); auto) end.
    assert (K : forall w, peels v2 w -> de c (TNewtype n t0) w = option_map (DNewtype n) (de c t0 v2)).
    { intros w' P'. destruct (de_newtype n t0 w') as (x & X & ->). rewrite G; [reflexivity|].
      now apply peels_trans with w'. }
    destruct (newtype_value_spec n v2) as [F|[(k & -> & F)|F]]; rewrite F in *.
    + inversion P; subst; [reflexivity|]. rewrite K by assumption. reflexivity.
    + now inversion P.
    + rewrite !K; auto. constructor.
  - intros l _ t v w _ E P. cbn in E. destruct (all _); [|discriminate]. injection E as <-. now inversion P.
  - intros n l _ t v w _ E P. cbn in E. destruct (all _); [|discriminate]. injection E as <-. now inversion P.
  - intros l _ t v w _ E P. cbn in E. destruct (all _); [|discriminate]. injection E as <-. now inversion P.
  - intros n l _ t v w _ E P. cbn in E. destruct (all _); [|discriminate]. injection E as <-. now inversion P.
  - intros n v' d IH t v w _ E P. cbn in E. destruct (to_value d); [|discriminate]. injection E as <-. now inversion P.
  - intros n v' l _ t v w _ E P. cbn in E. destruct (all _); [|discriminate]. injection E as <-. now inversion P.
  - intros n v' l _ t v w _ E P. cbn in E. destruct (all _); [|discriminate]. injection E as <-. now inversion P.
Qed.

(** A time is read as the number it holds. *)
Lemma de_time t k : de c t (VCuTime k) = de c t (VU64 k).
Proof.
  induction t; try reflexivity; cbn [de deserialize_option deserialize_newtype]; now rewrite IHt.
Qed.

Lemma newtype_back n t d v : has_type t d -> good t d v ->
  good (TNewtype n t) (DNewtype n d) (newtype_value n v).
Proof.
  intros T (A & B & C & d' & D & S).
  assert (X : exists d', de c (TNewtype n t) (newtype_value n v) = Some d' /\ same (DNewtype n d) d').
  { exists (DNewtype n d'). split; [|now constructor].
    destruct (newtype_value_spec n v) as [->|[(k & -> & ->)| ->]].
    - cbn [de deserialize_newtype]. now rewrite D.
    - cbn [de deserialize_newtype]. rewrite de_time. now rewrite D.
    - destruct (de_newtype n t v) as (w & P & ->). rewrite (peel_same d t v w T A P). now rewrite D. }
  split; [cbn [to_value]; now rewrite A|].
  split; [|split; [|exact X]].
  - destruct (newtype_value_spec n v) as [->|[(k & -> & ->)| ->]]; auto.
    + now constructor.
    + inversion B; subst. now constructor.
  - cbn [no_float]. intros Y. destruct (newtype_value_spec n v) as [->|[(k & -> & ->)| ->]]; cbn; auto.
Qed.

(** ** Every datum *)
Lemma variant_position {A} (vs : list (list N * A)) v sh : In (v, sh) vs -> NoDup (map fst vs) ->
  exists i, position v (map fst vs) = Some i /\ nth_error vs i = Some (v, sh).
Proof.
  intros I N. apply In_nth_error in I as [i E]. exists i. split; [|exact E].
  apply position_nth; [exact N|]. now rewrite nth_error_map, E.
Qed.

Lemma de_nth_ok n content i vs v sh : nth_error vs i = Some (v, sh) ->
  de_nth (de c) n content i vs = de_variant (de c) n v sh content.
Proof.
  revert i; induction vs as [|[a b] vs IH]; intros [|i]; cbn; try discriminate; auto.
  now intros [= -> ->].
Qed.

Lemma wf_single v x : text v -> wf_value x -> wf_value (VMap [(VString v, x)]).
Proof.
  intros T W. constructor; repeat constructor; auto; cbn; try apply T; try exact W.
Qed.

Lemma de_enum n vs v sh content x : In (v, sh) vs -> NoDup (map fst vs) ->
  deserialize_enum x = Some (VString v, content) ->
  de c (TEnum n vs) x = de_variant (de c) n v sh content.
Proof.
  intros I N E. cbn [de]. rewrite E. cbn [deserialize_any identifier].
  destruct (variant_position vs v sh I N) as (i & -> & K). now apply de_nth_ok.
Qed.

Lemma rt_all : forall d, rt d.
Proof.
  apply data_ind2; unfold rt.
  - intros b t T W; inversion T; subst. exists (VBool b). repeat split; [constructor|].
    exists (DBool b). split; [reflexivity|constructor].
  - intros k z t T W; inversion T; subst.
    destruct (int_value k z) as [v|] eqn:E; [|now destruct k].
    destruct (int_back k z v) as (A & B & C); auto.
    exists v. split; [exact E|]. split; [exact A|]. split; [auto|].
    exists (DInt k z). split; [exact C|constructor].
  - intros b t T W; inversion T; subst. exists (VF32 b). repeat split; [now constructor|discriminate|].
    exists (DF32 b). split; [reflexivity|constructor].
  - intros b t T W; inversion T; subst. exists (VF64 b). repeat split; [now constructor|discriminate|].
    exists (DF64 b). split; [reflexivity|constructor].
  - intros b t T W; inversion T; subst. exists (VChar b). repeat split; [now constructor|].
    exists (DChar b). split; [reflexivity|constructor].
  - intros b t T W; inversion T; subst. exists (VString b). repeat split; [now constructor|].
    exists (DStr b). split; [reflexivity|constructor].
  - intros b t T W; inversion T; subst. exists (VBytes b). repeat split; [now constructor|].
    exists (DBytes b). split; [reflexivity|constructor].
  - intros t T W; inversion T; subst. exists (VOption None). repeat split; [now constructor|].
    exists DNone. split; [reflexivity|constructor].
  - intros d IH t T W; inversion T; subst.
    match goal with H : has_type ?t d |- _ => destruct (IH t H W) as (v & A & B & C & d' & D & S) end.
    exists (VOption (Some v)). split; [cbn; now rewrite A|]. split; [now constructor|].
    split; [exact C|]. exists (DSome d'). split; [cbn [de deserialize_option deserialize_any]; now rewrite D|].
    now constructor.
  - intros t T W; inversion T; subst. exists VUnit. repeat split; [now constructor|].
    exists DUnit. split; [reflexivity|constructor].
  - intros n t T W; inversion T; subst. exists VUnit. repeat split; [now constructor|].
    exists (DUnitStruct n). split; [reflexivity|constructor].
  - intros n d IH t T W; inversion T; subst.
    match goal with H : has_type ?t d |- _ => destruct (IH t H W) as (v & G) end.
    exists (newtype_value n v). now apply newtype_back.
  - intros l IH t T W; inversion T; subst.
    match goal with H : Forall (has_type ?t) l |- _ =>
      destruct (rt_seq l t IH H W) as (vs & ds & A & B & C & D & E & F) end.
    exists (VSeq vs). split; [cbn; now rewrite A|]. split.
    { constructor; [exact B|]. now rewrite D. }
    split; [exact C|]. exists (DSeq ds). split; [cbn [de deserialize_any]; now rewrite E|now constructor].
  - intros n l IH t T W; inversion T; subst.
    match goal with H : Forall2 has_type ?t l |- _ =>
      destruct (rt_tuple l t IH H W) as (vs & ds & A & B & C & D & E & F) end.
    exists (VSeq vs). split; [cbn; now rewrite A|]. split.
    { constructor; [exact B|]. now rewrite D. }
    split; [exact C|]. exists (DTuple n ds). split; [cbn [de deserialize_any]; now rewrite E|now constructor].
  - intros m IH t T W. assert (exists k x, t = TMap k x) as (k & x & ->) by (inversion T; eauto).
    now apply rt_map.
  - intros n ds IH t T W; inversion T; subst.
    destruct (rt_fields fs ds) as (m & ds' & A & B & C & D & E & F); auto.
    exists (VMap (insert_all m)). split.
    { cbn [to_value]. fold field_value. now rewrite A. }
    split; [exact B|]. split; [exact C|]. exists (DStruct n ds'). split; [|now constructor].
    cbn [de deserialize_any]. now rewrite D, E.
  - intros n v t T W; inversion T; subst. exists (VString v). repeat split; [now constructor|].
    exists (DUnitVar n v). split; [|constructor].
    match goal with I : In _ _ |- _ => now rewrite (de_enum n vs v ShUnit None _ I) end.
  - intros n v d IH t T W; inversion T; subst.
    match goal with H : has_type ?t d |- _ => destruct (IH t H W) as (x & A & B & C & d' & D & S) end.
    exists (VMap [(VString v, x)]). split; [cbn; now rewrite A|]. split; [now apply wf_single|].
    split; [cbn; rewrite andb_true_r; exact C|].
    exists (DNewtypeVar n v d'). split; [|now constructor].
    match goal with I : In (_, ?sh) _ |- _ => rewrite (de_enum n vs v sh (Some x) _ I) end; auto.
    cbn. now rewrite D.
  - intros n v l IH t T W; inversion T; subst.
    match goal with H : Forall2 has_type ?t l |- _ =>
      destruct (rt_tuple l t IH H W) as (xs & ds & A & B & C & D & E & F) end.
    exists (VMap [(VString v, VSeq xs)]). split; [cbn; now rewrite A|]. split.
    { apply wf_single; [assumption|]. constructor; [exact B|]. now rewrite D. }
    split; [cbn; rewrite andb_true_r; exact C|].
    exists (DTupleVar n v ds). split; [|now constructor].
    match goal with I : In (_, ?sh) _ |- _ => rewrite (de_enum n vs v sh (Some (VSeq xs)) _ I) end; auto.
    cbn. now rewrite E.
  - intros n v ds IH t T W; inversion T; subst.
    destruct (rt_fields fs ds) as (m & ds' & A & B & C & D & E & F); auto.
    exists (VMap [(VString v, VMap (insert_all m))]). split.
    { cbn [to_value]. fold field_value. now rewrite A. }
    split; [now apply wf_single|]. split.
    { cbn [no_float]. intros Y. specialize (C Y). cbn [plain forallb fst snd] in *. now rewrite C. }
    exists (DStructVar n v ds'). split; [|now constructor].
    match goal with I : In (_, ?sh) _ |- _ => rewrite (de_enum n vs v sh (Some (VMap (insert_all m))) _ I) end; auto.
    cbn. now rewrite D, E.
Qed.
End RT.
