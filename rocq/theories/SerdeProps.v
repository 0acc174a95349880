(** Properties C73 to C78: logged parameters, serde and the structured value. *)
From Coq Require Import String List Arith NArith ZArith Bool Lia Permutation Sorted.
From Verif Require Import Base BincodeModel BincodeSpec BincodeProofs CodecModel ValueModel
  CodecSpec CodecProofs ValueProofs ValueProofs2 SerdeModel SerdeSpec SerdeProofs.
Import ListNotations.
Open Scope N_scope.

(** ** C73 *)
(** A parameter of any type (without 128 bit integers) is recorded; the record is
    read from the log whatever follows it, and read as that type it gives the
    parameter back. *)
Theorem C73_parameter : forall c t d, has_type t d -> wide d = false ->
  exists v, log_param d = Ret v /\
    (forall rest, dec_value (enc_value v ++ rest) = Some (v, rest)) /\
    exists d', de c t v = Some d' /\ same d d'.
Proof.
  intros c t d T W. destruct (rt_all c d t T W) as (v & A & B & _ & D).
  exists v. unfold log_param. rewrite A. split; [reflexivity|]. split; [|exact D].
  intros rest. now apply value_lossless.
Qed.
Print Assumptions C73_parameter.

(** All the parameters of a log call: the entry that carries them is read back
    and each of its parameters gives the one that was logged. *)
Theorem C73_entry : forall c time msg names ts ds,
  Forall2 has_type ts ds -> existsb wide ds = false ->
  ubits 64 time -> ubits 32 msg -> Forall (ubits 32) names -> fits names -> fits ds ->
  exists vs, Forall2 (fun d v => log_param d = Ret v) ds vs /\
    (forall rest, dec_entry (enc_entry (LogEntry time msg names vs) ++ rest) =
       Some (LogEntry time msg names vs, rest)) /\
    exists ds', Forall2 (fun tv d' => de c (fst tv) (snd tv) = Some d') (combine ts vs) ds' /\
      Forall2 same ds ds'.
Proof.
  intros c time msg names ts ds T W Ht Hm Hn Ln Ld.
  assert (X : exists vs ds', Forall2 (fun d v => log_param d = Ret v) ds vs /\ Forall wf_value vs /\
    Forall2 (fun tv d' => de c (fst tv) (snd tv) = Some d') (combine ts vs) ds' /\ Forall2 same ds ds').
  { clear Ld. induction T as [|t d ts ds T0 T IH]; [exists [], []; repeat split; constructor|].
    cbn in W. apply orb_false_iff in W as [W1 W2].
    destruct (rt_all c d t T0 W1) as (v & A & B & _ & d' & D & S).
    destruct (IH W2) as (vs & ds' & E & F & G & H).
    exists (v :: vs), (d' :: ds'). repeat split; constructor; auto.
    unfold log_param. now rewrite A. }
  destruct X as (vs & ds' & A & B & C & D). exists vs. split; [exact A|]. split; [|eauto].
  intros rest. apply entry_lossless. unfold entry_ok; cbn.
  repeat (split; [assumption|]). unfold fits in Ld. now rewrite <- (Forall2_len _ _ _ A).
Qed.
Print Assumptions C73_entry.

(** A robot time is recorded as a time, not as a number in a wrapper. *)
Theorem C73_time : forall n, ubits 64 n ->
  log_param (DNewtype (lit "CuDuration") (DInt U64 (Z.of_N n))) = Ret (VCuTime n).
Proof. intros n _. cbn. now rewrite N2Z.id. Qed.
Print Assumptions C73_time.

(** struct Pose { at: CuTime, x: f32, tags: HashMap<String, Option<i8>>, kind: Kind },
    enum Kind { Idle, At(u8, char), Moving { v: i16 } }. *)
Definition ex_ty : ty :=
  TStruct (lit "Pose")
    [(lit "x", TF32); (lit "at", TNewtype (lit "CuDuration") (TInt U64));
     (lit "tags", TMap TString (TOption (TInt I8)));
     (lit "kind", TEnum (lit "Kind") [(lit "Idle", ShUnit); (lit "At", ShTuple [TInt U8; TChar]);
                                      (lit "Moving", ShStruct [(lit "v", TInt I16)])])].
Definition ex_data : data :=
  DStruct (lit "Pose")
    [(lit "x", DF32 0x7FC00000); (lit "at", DNewtype (lit "CuDuration") (DInt U64 1000));
     (lit "tags", DMap [(DStr (lit "b"), DNone); (DStr (lit "a"), DSome (DInt I8 (-3)))]);
     (lit "kind", DTupleVar (lit "Kind") (lit "At") [DInt U8 7; DChar 0x263A])].
Definition ex_casts : casts := Casts (fun _ => 0) (fun _ => 0) (fun n => n) (fun n => n).

Lemma text_lit s : forallb (fun c => c <? 0x80) (lit s) = true ->
  ubits 64 (N.of_nat (length (lit s))) -> text (lit s).
Proof.
  intros A L. unfold text.
  assert (F : flat_map enc_char (lit s) = lit s /\ Forall scalar (lit s)).
  { clear L. induction (lit s) as [|x l IH]; [repeat constructor|].
    cbn [forallb] in A. apply andb_true_iff in A as [A1 A2]. destruct (IH A2) as [B C].
    cbn [flat_map]. unfold enc_char at 1. rewrite A1. cbn [app]. rewrite B.
    split; [reflexivity|]. constructor; [|exact C]. unfold scalar. lia. }
  destruct F as [-> F]. now split.
Qed.
Ltac solve_lit := apply text_lit; [reflexivity|reflexivity].

Example C73_case : has_type ex_ty ex_data /\ wide ex_data = false /\
  log_param ex_data = Ret (VMap
    [(VString (lit "at"), VCuTime 1000);
     (VString (lit "kind"), VMap [(VString (lit "At"), VSeq [VU8 7; VChar 0x263A])]);
     (VString (lit "tags"), VMap [(VString (lit "a"), VOption (Some (VI8 (-3))));
                                  (VString (lit "b"), VOption None)]);
     (VString (lit "x"), VF32 0x7FC00000)]) /\
  de ex_casts ex_ty (VMap
    [(VString (lit "at"), VCuTime 1000);
     (VString (lit "kind"), VMap [(VString (lit "At"), VSeq [VU8 7; VChar 0x263A])]);
     (VString (lit "tags"), VMap [(VString (lit "a"), VOption (Some (VI8 (-3))));
                                  (VString (lit "b"), VOption None)]);
     (VString (lit "x"), VF32 0x7FC00000)]) =
  Some (DStruct (lit "Pose")
    [(lit "x", DF32 0x7FC00000); (lit "at", DNewtype (lit "CuDuration") (DInt U64 1000));
     (lit "tags", DMap [(DStr (lit "a"), DSome (DInt I8 (-3))); (DStr (lit "b"), DNone)]);
     (lit "kind", DTupleVar (lit "Kind") (lit "At") [DInt U8 7; DChar 0x263A])]).
Proof.
  split; [|split; [reflexivity|split; reflexivity]].
  constructor.
  - repeat (apply Forall2_cons; [split; [reflexivity|]|]); [| | | |constructor].
    + constructor. reflexivity.
    + constructor. constructor. cbn. lia.
    + constructor.
      * repeat (apply Forall_cons; [constructor; solve_lit|]). constructor.
      * repeat constructor; unfold sbits; cbn; lia.
      * repeat constructor.
      * repeat constructor. cbn. intros S. inversion S.
      * reflexivity.
    + eapply ht_tuplevar; [right; left; reflexivity| |solve_lit| |reflexivity].
      * repeat constructor; cbn; intuition discriminate.
      * repeat constructor; unfold scalar; cbn; lia.
  - repeat constructor; cbn; intuition discriminate.
  - repeat (apply Forall_cons; [solve_lit|]). constructor.
  - reflexivity.
Qed.

(** ** C74 *)
(** Logging a parameter panics exactly when it holds a 128 bit integer. *)
Lemma to_value_none : forall d, to_value d = None <-> wide d = true.
Proof.
  assert (L : forall l, Forall (fun d => to_value d = None <-> wide d = true) l ->
    all (map to_value l) = None <-> existsb wide l = true).
  { intros l F. rewrite all_none. induction F as [|d l D F IH]; cbn; [reflexivity|].
    rewrite !orb_true_iff, <- IH, <- D. destruct (to_value d); intuition congruence. }
  assert (K : forall fs, Forall (fun e : list N * data => to_value (snd e) = None <-> wide (snd e) = true) fs ->
    all (map field_value fs) = None <-> existsb (fun e => wide (snd e)) fs = true).
  { intros l F. rewrite all_none. induction F as [|d l D F IH]; cbn; [reflexivity|].
    rewrite !orb_true_iff, <- IH, <- D. unfold field_value.
    destruct (to_value (snd d)); cbn; intuition congruence. }
  apply data_ind2; try (intros; cbn; split; discriminate).
  - intros k z. destruct k; cbn; split; congruence.
  - intros d IH. cbn [wide]. rewrite <- IH. cbn. destruct (to_value d); cbn; split; congruence.
  - intros n d IH. cbn [wide]. rewrite <- IH. cbn. destruct (to_value d); cbn; split; congruence.
  - intros l IH. cbn [wide]. rewrite <- L by exact IH. cbn.
    destruct (all (map to_value l)); cbn; split; congruence.
  - intros n l IH. cbn [wide]. rewrite <- L by exact IH. cbn.
    destruct (all (map to_value l)); cbn; split; congruence.
  - intros m IH. cbn [wide].
    assert (M : all (map entry_value m) = None <->
                existsb (fun e => wide (fst e) || wide (snd e)) m = true).
    { rewrite all_none. induction IH as [|[k x] l [D D'] F IH]; cbn; [reflexivity|].
      rewrite !orb_true_iff, <- IH. cbn in D, D'. rewrite <- D, <- D'. unfold entry_value. cbn.
      destruct (to_value k), (to_value x); cbn; intuition congruence. }
    rewrite <- M. cbn [to_value]. fold entry_value.
    destruct (all (map entry_value m)); cbn; split; congruence.
  - intros n fs IH. cbn [wide]. rewrite <- K by exact IH. cbn [to_value]. fold field_value.
    destruct (all (map field_value fs)); cbn; split; congruence.
  - intros n v d IH. cbn [wide]. rewrite <- IH. cbn. destruct (to_value d); cbn; split; congruence.
  - intros n v l IH. cbn [wide]. rewrite <- L by exact IH. cbn.
    destruct (all (map to_value l)); cbn; split; congruence.
  - intros n v fs IH. cbn [wide]. rewrite <- K by exact IH. cbn [to_value]. fold field_value.
    destruct (all (map field_value fs)); cbn; split; congruence.
Qed.

(** The missing part of the claim is exactly the parameters holding a 128 bit
    integer somewhere: all others are logged. *)
Theorem C74_panic_partial : forall d, log_param d = Panic <-> wide d = true.
Proof.
  intros d. rewrite <- to_value_none. unfold log_param. destruct (to_value d); split; congruence.
Qed.
Print Assumptions C74_panic_partial.

(** debug!("{}", x) with x : u128 panics. *)
Theorem C74_refuted : exists t d, has_type t d /\ log_param d = Panic.
Proof. exists (TInt U128), (DInt U128 1). split; [constructor; cbn; lia|reflexivity]. Qed.
Print Assumptions C74_refuted.

Example C74_case :
  has_type (TOption (TTuple None [TInt I128; TBool])) (DSome (DTuple None [DInt I128 (-5); DBool true])) /\
  log_param (DSome (DTuple None [DInt I128 (-5); DBool true])) = Panic.
Proof.
  split; [|reflexivity]. repeat constructor; unfold sbits, ubits; cbn; lia.
Qed.

(** ** C75 *)
Lemma existsb_false {A} (f : A -> bool) l : (forall a, In a l -> f a = false) -> existsb f l = false.
Proof.
  intros H. destruct (existsb f l) eqn:E; [|reflexivity]. apply existsb_exists in E as (a & I & F).
  now rewrite H in F.
Qed.

Lemma insert_all_asc m : ascending m -> insert_all m = m.
Proof.
  assert (G : forall m acc, ascending (acc ++ m) ->
    fold_left (fun acc e => map_insert (fst e) (snd e) acc) m acc = acc ++ m).
  { clear m. induction m as [|[k v] m IH]; intros acc A; cbn [fold_left fst snd]; [now rewrite app_nil_r|].
    rewrite map_insert_last.
    - rewrite IH; [now rewrite <- app_assoc|]. now rewrite <- app_assoc.
    - unfold ascending in *. replace (acc ++ (k, v) :: m) with ((acc ++ [(k, v)]) ++ m) in A
        by now rewrite <- app_assoc.
      clear - A. induction (acc ++ [(k, v)]) as [|e l IH]; [constructor|].
      inversion A; subst. constructor; [now apply IH|].
      destruct l; [constructor|]. now match goal with H : HdRel _ _ _ |- _ => inversion H; constructor end. }
  intros A. now apply (G m []).
Qed.

Lemma as_value_id : forall v, wf_value v -> has_time v = false -> as_value v = v.
Proof.
  apply (value_ind2 (fun v => wf_value v -> has_time v = false -> as_value v = v)).
  - intros v A B C D _ H. destruct v; auto.
    + now destruct (A o).
    + now destruct (B v).
    + now destruct (C l).
    + now destruct (D m).
    + discriminate H.
  - reflexivity.
  - intros v IH W H. inversion W; subst. cbn in *. now rewrite IH.
  - intros v IH W H. inversion W; subst. cbn in *. now rewrite IH.
  - intros l IH W H. inversion W as [| | | | | | | | | | | | | | | | |? Wl _| | |]; subst.
    cbn in *. f_equal. clear W. induction IH as [|x l X IH IHl]; [reflexivity|].
    cbn in *. apply orb_false_iff in H as [H1 H2]. inversion Wl; subst. rewrite X, IHl; auto.
  - intros m IH W H. inversion W as [| | | | | | | | | | | | | | | | | |? Wk Wv As _| |]; subst.
    cbn in *. f_equal.
    assert (M : map (fun e => (as_value (fst e), as_value (snd e))) m = m).
    { clear W As. induction IH as [|[k x] l [X Y] IH IHl]; [reflexivity|].
      cbn in *. apply orb_false_iff in H as [H1 H2]. apply orb_false_iff in H1 as [H0 H1].
      inversion Wk; inversion Wv; subst. rewrite X, Y, IHl; auto. }
    rewrite M. now apply insert_all_asc.
Qed.

Lemma insert_time k x acc : has_time k = false -> has_time x = false ->
  existsb (fun e => has_time (fst e) || has_time (snd e)) acc = false ->
  existsb (fun e => has_time (fst e) || has_time (snd e)) (map_insert k x acc) = false.
Proof.
  intros K X. induction acc as [|[k' x'] acc IH]; cbn.
  - intros _. now rewrite K, X.
  - intros H. apply orb_false_iff in H as [H1 H2]. apply orb_false_iff in H1 as [H0 H1].
    destruct (cmp_value k k'); cbn; rewrite ?K, ?X, ?H0, ?H1, ?H2; auto.
Qed.

Lemma as_value_no_time : forall v, has_time (as_value v) = false.
Proof.
  apply (value_ind2 (fun v => has_time (as_value v) = false)).
  - intros v A B C D. destruct v; auto.
    + now destruct (A o).
    + now destruct (B v).
    + now destruct (C l).
    + now destruct (D m).
  - reflexivity.
  - auto.
  - auto.
  - intros l IH. cbn. apply existsb_false. intros a I. apply in_map_iff in I as (b & <- & I).
    rewrite Forall_forall in IH. auto.
  - intros m IH. cbn. unfold insert_all.
    assert (G : forall acc, existsb (fun e => has_time (fst e) || has_time (snd e)) acc = false ->
      existsb (fun e => has_time (fst e) || has_time (snd e))
        (fold_left (fun acc e => map_insert (fst e) (snd e) acc)
           (map (fun e => (as_value (fst e), as_value (snd e))) m) acc) = false).
    { induction IH as [|[k x] m [K X] IH IHm]; intros acc A; [exact A|].
      cbn [map fold_left fst snd]. apply IHm. now apply insert_time. }
    now apply G.
Qed.

(** Read back as a Value, a value is unchanged exactly when it holds no time. What
    is missing of the claim: values holding a robot time. *)
Theorem C75_partial : forall v, wf_value v -> (as_value v = v <-> has_time v = false).
Proof.
  intros v W. split; [|now apply as_value_id]. intros <-. apply as_value_no_time.
Qed.
Print Assumptions C75_partial.

(** A time comes back as a number, and a map may lose an entry. *)
Theorem C75_refuted : exists v, wf_value v /\ as_value v <> v /\
  exists m m', v = VMap m /\ as_value v = VMap m' /\ (length m' < length m)%nat.
Proof.
  exists (VMap [(VU64 5, VBool true); (VCuTime 5, VBool false)]). split.
  { repeat (constructor; cbn; unfold ubits; try lia); reflexivity. }
  split; [cbn; discriminate|]. do 2 eexists. split; [reflexivity|]. split; [reflexivity|]. cbn. lia.
Qed.
Print Assumptions C75_refuted.

(** A Value handed to the logging macros (or to any serde serializer) is recorded
    as a wrapped pair of its type number and its content, and not as itself. *)
Theorem C75_log_refuted : exists v, wf_value v /\ log_param (value_data v) <> Ret v /\
  log_param (value_data v) = Ret (VNewtype (VSeq [VU8 1; VU8 3])).
Proof. exists (VU8 3). split; [constructor; reflexivity|]. split; [discriminate|reflexivity]. Qed.
Print Assumptions C75_log_refuted.

Example C75_case : wf_value (VSeq [VMap [(VString [0x61], VOption (Some (VF32 1)))]; VNewtype VUnit]) /\
  as_value (VSeq [VMap [(VString [0x61], VOption (Some (VF32 1)))]; VNewtype VUnit]) =
  VSeq [VMap [(VString [0x61], VOption (Some (VF32 1)))]; VNewtype VUnit] /\
  as_value (VOption (Some (VCuTime 9))) = VOption (Some (VU64 9)).
Proof.
  split; [|now split].
  repeat (constructor; cbn; unfold ubits, scalar; try lia); reflexivity.
Qed.

(** ** C76 *)
(** The integer a value holds, if it is one. *)
Definition integer (v : value) (z : Z) : Prop :=
  match v with
  | VU8 n | VU16 n | VU32 n | VU64 n | VCuTime n => z = Z.of_N n
  | VI8 y | VI16 y | VI32 y | VI64 y => z = y
  | _ => False
  end.

Lemma int_fits_range k z : int_fits k z = true <-> int_range k z.
Proof.
  unfold int_range, sbits; destruct k; cbn [int_fits Z.sub Z.pos_sub Pos.pred_double];
    rewrite andb_true_iff, Z.leb_le, Z.ltb_lt; reflexivity.
Qed.

(** Integers are converted exactly or refused, whatever the recorded width:
    nothing wraps and nothing is cut. *)
Theorem C76_integers_partial : forall c k v d, k <> I128 -> k <> U128 ->
  (de c (TInt k) v = Some d <-> exists z, integer v z /\ int_range k z /\ d = DInt k z).
Proof.
  intros c k v d Ki Ku.
  assert (E : de c (TInt k) v = match deserialize_any v with
             | EvInt _ z => if int_fits k z then Some (DInt k z) else None | _ => None end)
    by now destruct k.
  rewrite E. clear E. split.
  - intros H. destruct v as [| | | | | | | | | | | | | |[]| | | | |]; cbn [deserialize_any] in H; try discriminate;
      match type of H with (if int_fits _ ?z then _ else _) = _ =>
        destruct (int_fits k z) eqn:F; [|discriminate]; injection H as <-;
        exists z; split; [reflexivity|split; [now apply int_fits_range|reflexivity]] end.
  - intros (z & I & R & ->). apply int_fits_range in R.
    destruct v; cbn [integer] in I; try contradiction; subst z; cbn [deserialize_any]; now rewrite R.
Qed.
Print Assumptions C76_integers_partial.

Lemma de_tuple_len c ts l ds r : de_tuple (de c) ts l = Some (ds, r) ->
  length ds = length ts /\ exists p, l = p ++ r /\ length p = length ts.
Proof.
  revert l ds r; induction ts as [|t ts IH]; intros l ds r H.
  - injection H as <- <-. split; [reflexivity|]. now exists [].
  - destruct l as [|x l]; [discriminate|]. cbn in H.
    destruct (de c t x); [|discriminate]. destruct (de_tuple (de c) ts l) as [[ds' r']|] eqn:E; [|discriminate].
    injection H as <- <-. destruct (IH _ _ _ E) as (A & p & -> & B).
    split; [cbn; congruence|]. exists (x :: p). cbn. split; congruence.
Qed.

Lemma all_length {A} (l : list (option A)) l' : all l = Some l' -> length l = length l'.
Proof.
  revert l'; induction l as [|[a|] l IH]; cbn; intros l' H; try discriminate; [now injection H as <-|].
  destruct (all l); [|discriminate]. injection H as <-. cbn. f_equal. now apply IH.
Qed.

(** A list or a tuple variant is read with all its elements or refused. *)
Theorem C76_lengths_partial : forall c t l d, de c (TSeq t) (VSeq l) = Some d ->
  exists ds, d = DSeq ds /\ length ds = length l.
Proof.
  intros c t l d H. cbn in H. destruct (all (map (de c t) l)) as [ds|] eqn:E; [|discriminate].
  injection H as <-. exists ds. split; [reflexivity|]. apply all_length in E.
  now rewrite map_length in E.
Qed.
Print Assumptions C76_lengths_partial.

Theorem C76_variants_partial : forall c n vs v ts l d, In (v, ShTuple ts) vs -> NoDup (map fst vs) ->
  de c (TEnum n vs) (VMap [(VString v, VSeq l)]) = Some d ->
  length l = length ts /\ exists ds, d = DTupleVar n v ds /\ length ds = length l.
Proof.
  intros c n vs v ts l d I N H.
  rewrite (de_enum c n vs v (ShTuple ts) (Some (VSeq l))) in H by auto.
  cbn in H. destruct (de_tuple (de c) ts l) as [[ds r]|] eqn:E; [|discriminate].
  destruct r; [|discriminate]. injection H as <-.
  destruct (de_tuple_len _ _ _ _ _ E) as (A & p & -> & B). rewrite app_nil_r in *.
  split; [exact B|]. exists ds. split; [reflexivity|congruence].
Qed.
Print Assumptions C76_variants_partial.

(** A tuple never gets an element that was not recorded: at least its length is
    there. *)
Theorem C76_tuples_partial : forall c n ts l d, de c (TTuple n ts) (VSeq l) = Some d ->
  (length ts <= length l)%nat /\ exists ds, d = DTuple n ds /\ length ds = length ts.
Proof.
  intros c n ts l d H. cbn in H. destruct (de_tuple (de c) ts l) as [[ds r]|] eqn:E; [|discriminate].
  injection H as <-. destruct (de_tuple_len _ _ _ _ _ E) as (A & p & -> & B).
  rewrite app_length. split; [lia|]. eauto.
Qed.
Print Assumptions C76_tuples_partial.
(** Nor does a struct read from a sequence; and a map with a key that can name no field is refused. *)
Theorem C76_positional_partial : forall c n fs l d, de c (TStruct n fs) (VSeq l) = Some d ->
  (length fs <= length l)%nat /\ exists ds, d = DStruct n ds /\ map fst ds = map fst fs.
Proof.
  intros c n fs l d H. cbn in H. destruct (de_positional (de c) fs l) as [ds|] eqn:E; [|discriminate]. injection H as <-.
  assert (G : forall fs l ds, de_positional (de c) fs l = Some ds -> (length fs <= length l)%nat /\ map fst ds = map fst fs).
  { clear. induction fs as [|[a t] fs IH]; intros l ds E; cbn in E; [injection E as <-; split; [cbn; lia|reflexivity]|].
    destruct l as [|x l]; [discriminate|]. destruct (de c t x) as [y|]; [|discriminate].
    destruct (de_positional (de c) fs l) as [r|] eqn:E2; [|discriminate]. injection E as <-. destruct (IH _ _ E2) as [L M]. cbn. rewrite M. split; [lia|reflexivity]. }
  destruct (G _ _ _ E). eauto.
Qed.
Print Assumptions C76_positional_partial.
Theorem C76_keys_partial : forall c n fs m k x d, In (k, x) m -> de c (TStruct n fs) (VMap m) = Some d ->
  match k with
  | VU8 _ | VU16 _ | VU32 _ | VU64 _ | VCuTime _ | VString _ | VChar _ | VBytes _ => True
  | _ => False
  end.
Proof.
  intros c n fs m k x d I H. cbn [de deserialize_any] in H. destruct (keys_ok (map fst fs) m) eqn:K; [|discriminate].
  unfold keys_ok in K. rewrite forallb_forall in K. specialize (K _ I). cbn [fst] in K.
  destruct k as [| | | | | | | | | | | | | |[]| | | | |]; cbn in K; try discriminate K; exact Logic.I.
Qed.
Print Assumptions C76_keys_partial.
Example C76_keys_example : forall c, de c (TStruct [83] [([97], TInt U8)]) (VMap [(VString [97], VU8 3)]) = Some (DStruct [83] [([97], DInt U8 3)]) /\
  de c (TStruct [83] [([97], TInt U8)]) (VMap [(VString [97], VU8 3); (VBool true, VU8 4)]) = None /\
  de c (TStruct [83] [([97], TInt U8)]) (VSeq [VU8 3; VU8 4]) = Some (DStruct [83] [([97], DInt U8 3)]) /\
  de c (TStruct [83] [([97], TInt U8)]) (VSeq []) = None.
Proof. intros c. repeat split. Qed.

(** A struct is read from a map by the names of its fields: each field is read from the
    entry of its name; only a field of an Option type may be missing, and is None then.
    Entries of other names change nothing. *)
Lemma field_entry_strings names i n m : NoDup names -> nth_error names i = Some n ->
  Forall (fun e => exists s, fst e = VString s) m -> NoDup (map fst m) ->
  field_entry names i m = Some None /\ ~ In (VString n) (map fst m) \/
  exists x, field_entry names i m = Some (Some x) /\ In (VString n, x) m.
Proof.
  intros N E S D. unfold field_entry. set (f := fun e : value * value => _).
  assert (K : forall e, In e m -> (f e = true <-> fst e = VString n)).
  { intros [k y] I. rewrite Forall_forall in S. destruct (S _ I) as [s Hs]. cbn [fst] in Hs. subst k.
    unfold f. cbn [fst deserialize_any identifier]. split.
    - intros H. destruct (position s names) as [j|] eqn:P; [|discriminate]. apply Nat.eqb_eq in H. subst j.
      f_equal. assert (X : nth_error names i = Some s); [|congruence].
      clear - P. revert i P. induction names as [|a names IH]; intros i P; [discriminate|]. cbn in P.
      destruct (list_eq_dec N.eq_dec s a) as [->|]; [now injection P as <-|].
      destruct (position s names); [|discriminate]. injection P as <-. now apply IH.
    - intros [= ->]. rewrite (position_nth _ N _ _ E). apply Nat.eqb_refl. }
  clearbody f. clear S. induction m as [|e m IH]; [left; cbn; auto|].
  cbn [map] in D. inversion D as [|? ? D1 D2]; subst. cbn [filter].
  destruct (f e) eqn:F.
  - right. apply K in F; [|now left]. destruct e as [k x]. cbn [fst] in *. subst k. exists x. split; [|now left].
    assert (Z : filter f m = []); [|now rewrite Z].
    destruct (filter f m) as [|e l] eqn:G; [reflexivity|]. assert (I : In e (filter f m)) by (rewrite G; now left).
    apply filter_In in I as [I Fe]. apply K in Fe; [|now right]. destruct D1. rewrite <- Fe. now apply in_map.
  - destruct IH as [[A B]|(x & A & B)]; auto.
    + intros e' I. apply K. now right.
    + left. split; [exact A|]. cbn [map In]. intros [X|X]; [|contradiction].
      apply K in X; [congruence|now left].
    + right. exists x. split; [exact A|now right].
Qed.
Definition field_read (c : casts) (m : list (value * value)) (f : list N * ty) (r : list N * data) : Prop :=
  fst r = fst f /\
  ((exists x, In (VString (fst f), x) m /\ de c (snd f) x = Some (snd r)) \/
   (~ In (VString (fst f)) (map fst m) /\ (exists t, snd f = TOption t) /\ snd r = DNone)).
Theorem C76_fields_partial : forall c n fs m d, NoDup (map fst fs) ->
  Forall (fun e => exists s, fst e = VString s) m -> NoDup (map fst m) ->
  (de c (TStruct n fs) (VMap m) = Some d <-> exists rs, d = DStruct n rs /\ Forall2 (field_read c m) fs rs).
Proof.
  intros c n fs m d N St D.
  assert (E : de c (TStruct n fs) (VMap m) = option_map (DStruct n) (de_fields (de c) (map fst fs) m 0 fs)).
  { cbn [de deserialize_any]. replace (keys_ok (map fst fs) m) with true; [reflexivity|]. symmetry.
    apply forallb_forall. intros e I. rewrite Forall_forall in St. destruct (St e I) as [s ->]. reflexivity. }
  rewrite E. clear E.
  assert (G : forall fs' i rs, (forall j f, nth_error fs' j = Some f -> nth_error (map fst fs) (i + j) = Some (fst f)) ->
    (de_fields (de c) (map fst fs) m i fs' = Some rs <-> Forall2 (field_read c m) fs' rs)).
  { induction fs' as [|[a t] fs' IH]; intros i rs H; cbn [de_fields].
    - split; [intros [= <-]; constructor|intros F; now inversion F].
    - pose proof (H O _ eq_refl) as H0. rewrite Nat.add_0_r in H0. cbn [fst] in H0.
      specialize (IH (S i)). assert (H' : forall j f, nth_error fs' j = Some f -> nth_error (map fst fs) (S i + j) = Some (fst f)).
      { intros j f J. specialize (H (S j) f J). now rewrite Nat.add_succ_r in H. }
      assert (U : forall x y, In (VString a, x) m -> In (VString a, y) m -> x = y).
      { clear - D. induction m as [|[k z] m IH]; intros x y [] []; cbn [map] in D; inversion D as [|? ? A B]; subst.
        - congruence.
        - match goal with H : (_, _) = _ |- _ => injection H as -> -> end. destruct A. now apply in_map with (f := fst) in H0.
        - match goal with H : (_, _) = _ |- _ => injection H as -> -> end. destruct A. now apply in_map with (f := fst) in H.
        - now apply IH. }
      split.
      + intros X.
        destruct (match field_entry (map fst fs) i m with Some (Some x) => de c t x
                  | Some None => match t with TOption _ => Some DNone | _ => None end | None => None end) as [y|] eqn:Y; [|discriminate].
        destruct (de_fields (de c) (map fst fs) m (S i) fs') as [ys|] eqn:Ys; [|discriminate]. injection X as <-.
        constructor; [|now apply IH]. split; [reflexivity|]. cbn [fst snd].
        destruct (field_entry_strings (map fst fs) i a m N H0 St D) as [[A B]|(x & A & B)]; rewrite A in Y.
        * right. split; [exact B|]. destruct t; try discriminate. injection Y as <-. eauto.
        * left. eauto.
      + intros X. inversion X as [|? [b y] ? ys R F]; subst. apply IH in F; [|exact H']. rewrite F.
        destruct R as [Q R]. cbn [fst snd] in *. subst b.
        destruct (field_entry_strings (map fst fs) i a m N H0 St D) as [[A B]|(x & A & B)]; rewrite A.
        * destruct R as [(x & I & _)|(_ & [t' ->] & ->)]; [|reflexivity]. destruct B. now apply in_map with (f := fst) in I.
        * destruct R as [(x' & I & R)|(I & _)]; [|destruct I; now apply in_map with (f := fst) in B].
          rewrite (U _ _ B I), R. reflexivity. }
  specialize (G fs O). split.
  - intros X. destruct (de_fields (de c) (map fst fs) m 0 fs) as [rs|] eqn:Y; [|discriminate].
    injection X as <-. exists rs. split; [reflexivity|]. apply G; [|reflexivity].
    intros j f J. cbn. now apply map_nth_error.
  - intros (rs & -> & F). apply G in F; [now rewrite F|]. intros j f J. cbn. now apply map_nth_error.
Qed.
Print Assumptions C76_fields_partial.

(** Two entries for one field (one by its name, the other by its number, say) are refused,
    and so is an enum in a map of several entries. *)
Theorem C76_duplicates_partial : forall c n fs i a t k k' x x' m1 m2 m3, NoDup (map fst fs) -> nth_error fs i = Some (a, t) ->
  In k [VString a; VU8 (N.of_nat i); VU64 (N.of_nat i)] -> In k' [VString a; VU8 (N.of_nat i); VU64 (N.of_nat i)] ->
  de c (TStruct n fs) (VMap (m1 ++ (k, x) :: m2 ++ (k', x') :: m3)) = None.
Proof.
  intros c n fs i a t k k' x x' m1 m2 m3 N Hi K K'. cbn [de deserialize_any].
  set (m := m1 ++ (k, x) :: m2 ++ (k', x') :: m3). destruct (keys_ok (map fst fs) m); [|reflexivity].
  pose proof (map_nth_error fst _ _ Hi) as Hn. cbn [fst] in Hn.
  assert (L : (i < length (map fst fs))%nat) by (apply nth_error_Some; congruence).
  assert (Q : forall q, In q [VString a; VU8 (N.of_nat i); VU64 (N.of_nat i)] ->
              identifier (map fst fs) (deserialize_any q) = Some (Some i)).
  { intros q [<-|[<-|[<-|[]]]]; cbn [deserialize_any identifier].
    - now rewrite (position_nth _ N _ _ Hn).
    - rewrite (proj2 (Z.ltb_lt _ _)) by lia. do 2 f_equal. lia.
    - rewrite (proj2 (Z.ltb_lt _ _)) by lia. do 2 f_equal. lia. }
  assert (F : field_entry (map fst fs) i m = None).
  { unfold field_entry, m. rewrite filter_app. cbn [filter fst]. rewrite filter_app. cbn [filter fst].
    rewrite !Q by assumption. rewrite Nat.eqb_refl.
    destruct (filter _ m1) as [|e1 [|e2 l1]]; cbn [app]; [|now destruct e1|now destruct e1].
    destruct (filter _ m2) as [|e3 l3]; reflexivity. }
  assert (G : forall fs' j, nth_error fs' j = Some (a, t) -> forall o, (o + j = i)%nat ->
            de_fields (de c) (map fst fs) m o fs' = None).
  { induction fs' as [|[b u] fs' IH]; intros [|j] J o O; try discriminate; cbn [de_fields].
    - injection J as -> ->. replace o with i by lia. now rewrite F.
    - rewrite (IH j J (S o)) by lia.
      destruct (match field_entry (map fst fs) o m with Some (Some x) => de c u x
                  | Some None => match u with TOption _ => Some DNone | _ => None end | None => None end); reflexivity. }
  now rewrite (G fs i Hi O eq_refl).
Qed.
Print Assumptions C76_duplicates_partial.
Theorem C76_enum_partial : forall c n vs m d, de c (TEnum n vs) (VMap m) = Some d -> length m = 1%nat.
Proof.
  intros c n vs [|[k x] [|e m]] d H; [discriminate H|reflexivity|discriminate H].
Qed.
Print Assumptions C76_enum_partial.

Example C76_fields_case :
  let fs := [([97], TInt U8); ([98], TOption TBool)] in
  de ex_casts (TStruct [1] fs) (VMap [(VString [97], VU16 7); (VString [99], VUnit)]) =
    Some (DStruct [1] [([97], DInt U8 7); ([98], DNone)]) /\
  de ex_casts (TStruct [1] fs) (VMap [(VString [98], VBool true)]) = None /\
  de ex_casts (TStruct [1] fs) (VMap [(VU8 0, VU8 1); (VString [97], VU16 7)]) = None.
Proof. repeat split. Qed.

(** But what is recorded behind it is dropped silently. *)
Theorem C76_refuted : exists c n ts l d, de c (TTuple n ts) (VSeq l) = Some d /\
  (length ts < length l)%nat.
Proof.
  exists ex_casts, None, [TInt U8; TInt U8], [VU8 1; VU8 2; VU8 3], (DTuple None [DInt U8 1; DInt U8 2]).
  split; [reflexivity|cbn; lia].
Qed.
Print Assumptions C76_refuted.

Example C76_case :
  de ex_casts (TInt U8) (VI32 200) = Some (DInt U8 200) /\
  de ex_casts (TInt U8) (VU16 256) = None /\ de ex_casts (TInt U8) (VI8 (-1)) = None /\
  de ex_casts (TSeq (TInt U8)) (VSeq [VU8 1; VI64 2]) = Some (DSeq [DInt U8 1; DInt U8 2]) /\
  de ex_casts (TEnum [1] [([2], ShTuple [TBool; TBool])]) (VMap [(VString [2], VSeq [VBool true; VBool true; VUnit])]) = None /\
  de ex_casts (TEnum [1] [([2], ShTuple [TBool; TBool])]) (VMap [(VString [2], VSeq [VBool true; VBool true])]) =
    Some (DTupleVar [1] [2] [DBool true; DBool true]) /\
  de ex_casts (TTuple None [TBool; TBool]) (VSeq [VBool true]) = None.
Proof. repeat split; reflexivity. Qed.

(** ** C77 *)
Lemma eq_list_N (a b : list N) : (if list_eq_dec N.eq_dec a b then true else false) = true <->
  cmp_list N.compare a b = Eq.
Proof.
  destruct (list_eq_dec N.eq_dec a b) as [->|n]; split; auto; try discriminate.
  - intros _. clear. induction b as [|x b IH]; cbn; [reflexivity|]. now rewrite N.compare_refl.
  - intros E. now destruct n; apply cmp_list_N.
Qed.

Lemma eq_cmp : forall v w, eq_value v w = true <-> cmp_value v w = Eq.
Proof.
  apply (value_ind2 (fun v => forall w, eq_value v w = true <-> cmp_value v w = Eq)).
  - intros v A B C D w.
    assert (X : discriminant v <> discriminant w ->
                (eq_value v w = true <-> cmp_value v w = Eq)).
    { intros N. split; intros H.
      - exfalso. apply N. destruct v, w; cbn in H; try discriminate; try reflexivity;
          now destruct (A o).
      - apply cmp_eq_disc in H. contradiction. }
    destruct (N.eq_dec (discriminant v) (discriminant w)) as [E|N]; [|auto]. clear X.
    destruct v; destruct w; try discriminate E; cbn [eq_value cmp_value];
      rewrite ?N.eqb_eq, ?N.compare_eq_iff, ?Z.eqb_eq, ?Z.compare_eq_iff; try tauto;
      try apply eq_list_N.
    + destruct b, b0; cbn; split; congruence.
    + now destruct (A o).
    + now destruct (B v).
    + now destruct (C l).
    + now destruct (D m).
  - intros w. destruct w; try (cbn; split; discriminate). destruct o; cbn; split; congruence.
  - intros v IH w. destruct w; try (cbn; split; discriminate). destruct o; cbn; [apply IH|split; congruence].
  - intros v IH w. destruct w; try (cbn; split; discriminate). apply IH.
  - intros l IH w. destruct w; try (cbn; split; discriminate). rewrite cmp_seq. cbn [eq_value].
    revert l0. induction IH as [|x l X IH IHl]; intros [|y l']; cbn [cmp_list]; try (split; congruence).
    rewrite andb_true_iff, IHl, X. destruct (cmp_value x y); intuition congruence.
  - intros l IH w. destruct w; try (cbn; split; discriminate). rewrite cmp_map. cbn [eq_value].
    revert m. induction IH as [|[k x] l [K X] IH IHl]; intros [|[k' y] l']; cbn [cmp_list]; try (split; congruence).
    cbn [fst snd] in K, X. rewrite !andb_true_iff, IHl, K, X. unfold cmp_pair at 2. cbn [fst snd].
    destruct (cmp_value k k'), (cmp_value x y); intuition congruence.
Qed.

Lemma cmp_hash : forall v w, cmp_value v w = Eq -> hash_value v = hash_value w.
Proof.
  apply (value_ind2 (fun v => forall w, cmp_value v w = Eq -> hash_value v = hash_value w)).
  - intros v A B C D w E. pose proof (cmp_eq_disc _ _ E) as Q.
    destruct v; destruct w; try discriminate Q; cbn [cmp_value] in E;
      try (apply N.compare_eq in E); try (apply Z.compare_eq in E); try (apply cmp_list_N in E);
      try (subst; reflexivity).
    + destruct b, b0; cbn in E; congruence.
    + cbn. now rewrite E.
    + cbn. now rewrite E.
    + now destruct (A o).
    + now destruct (B v).
    + now destruct (C l).
    + now destruct (D m).
  - intros w E. pose proof (cmp_eq_disc _ _ E) as Q. destruct w; try discriminate Q.
    destruct o; [discriminate E|reflexivity].
  - intros v IH w E. pose proof (cmp_eq_disc _ _ E) as Q. destruct w; try discriminate Q.
    destruct o; [|discriminate E]. cbn. now rewrite (IH _ E).
  - intros v IH w E. pose proof (cmp_eq_disc _ _ E) as Q. destruct w; try discriminate Q.
    cbn. now rewrite (IH _ E).
  - intros l IH w E. pose proof (cmp_eq_disc _ _ E) as Q. destruct w; try discriminate Q.
    rewrite cmp_seq in E. clear Q.
    assert (X : length l = length l0 /\ flat_map hash_value l = flat_map hash_value l0).
    { revert l0 E. induction IH as [|x l X IH IHl]; intros [|y l'] E; try discriminate; [now split|].
      cbn in E. destruct (cmp_value x y) eqn:F; try discriminate. destruct (IHl _ E) as [A B].
      cbn. rewrite (X _ F), B. split; congruence. }
    cbn. destruct X as [-> ->]. reflexivity.
  - intros l IH w E. pose proof (cmp_eq_disc _ _ E) as Q. destruct w; try discriminate Q.
    rewrite cmp_map in E. clear Q.
    assert (X : length l = length m /\
      flat_map (fun e => hash_value (fst e) ++ hash_value (snd e)) l =
      flat_map (fun e => hash_value (fst e) ++ hash_value (snd e)) m).
    { revert m E. induction IH as [|[k x] l [K X] IH IHl]; intros [|[k' y] l'] E; try discriminate; [now split|].
      cbn [cmp_list] in E. unfold cmp_pair at 1 in E. cbn [fst snd] in *.
      destruct (cmp_value k k') eqn:F; try discriminate.
      destruct (cmp_value x y) eqn:F'; try discriminate. destruct (IHl _ E) as [A B].
      cbn. rewrite (X _ F'), (K _ F), B. split; congruence. }
    cbn. destruct X as [-> ->]. reflexivity.
Qed.

(** Equality of values is an equivalence (even with NaN inside) that agrees with
    their order, and equal values hash alike: values may be keys of hash maps and
    of ordered maps. *)
Theorem C77_agreement : forall v w,
  (eq_value v w = true <-> cmp_value v w = Eq) /\
  (eq_value v w = true -> hash_value v = hash_value w).
Proof.
  intros v w. split; [apply eq_cmp|]. intros H. apply cmp_hash. now apply eq_cmp.
Qed.
Print Assumptions C77_agreement.

Theorem C77_equivalence : forall u v w, eq_value v v = true /\ eq_value v w = eq_value w v /\
  (eq_value u v = true -> eq_value v w = true -> eq_value u w = true).
Proof.
  intros u v w. assert (R : cmp_value v v = Eq).
  { pose proof (cmp_opp v v) as O. destruct (cmp_value v v); cbn in O; congruence. }
  split; [now apply eq_cmp|]. split.
  - apply eq_true_iff_eq. rewrite !eq_cmp, (cmp_opp v w). destruct (cmp_value v w); cbn; split; congruence.
  - rewrite !eq_cmp. intros A B. now rewrite (cmp_Eq _ _ w A).
Qed.
Print Assumptions C77_equivalence.

(** Values that are not floats and hold none are equal only when identical. *)
Theorem C77_identity : forall v w, plain v = true -> eq_value v w = true -> v = w.
Proof. intros v w P E. apply cmp_eq_plain; [exact P|]. now apply eq_cmp. Qed.
Print Assumptions C77_identity.

Example C77_case :
  eq_value (VSeq [VF32 0x7FC00000; VF64 0]) (VSeq [VF32 0xFFC00001; VF64 0x8000000000000000]) = true /\
  hash_value (VSeq [VF32 0x7FC00000; VF64 0]) = hash_value (VSeq [VF32 0xFFC00001; VF64 0x8000000000000000]) /\
  eq_value (VU8 1) (VU16 1) = false /\ plain (VMap [(VU8 1, VUnit)]) = true.
Proof. repeat split; reflexivity. Qed.

(** ** C78 *)
(** An error handed on keeps its kind and text, a doubled field excepted (that is
    what is missing of the claim): it is reported as a missing one. *)
Theorem C78_partial : forall e, to_error e = e <-> forall f, e <> EDuplicateField f.
Proof.
  intros e. split.
  - intros H f ->. discriminate H.
  - intros H. destruct e; auto. now destruct (H field).
Qed.
Print Assumptions C78_partial.

Theorem C78_refuted : exists e, to_error e <> e.
Proof. exists (EDuplicateField (lit "kind")). discriminate. Qed.
Print Assumptions C78_refuted.

Example C78_case : to_error (EUnknownField (lit "a") [lit "b"]) = EUnknownField (lit "a") [lit "b"] /\
  to_error (EDuplicateField (lit "a")) = EMissingField (lit "a").
Proof. split; reflexivity. Qed.
