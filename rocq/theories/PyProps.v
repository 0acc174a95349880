(** Properties C111 and C112: what a Python program sees of a log. *)
From Coq Require Import List Arith NArith ZArith Bool Lia SpecFloat.
From Verif Require Import Base BincodeModel BincodeSpec CodecModel ValueModel CodecSpec ValueProofs ValueProofs2 PyModel PySpec PyProofs.
Import ListNotations.
Local Open Scope N_scope.

(** C111: a loop over the iterator sees exactly the entries of the log, in order, and ends
    without an exception, also when the data stops inside a last entry. *)
Theorem C111_iteration : forall cut es t, honest cut ->
  Forall entry_ok es -> Forall (fun e => le_msg e <> 0) es -> tail_of_log t ->
  py_loop cut (flat_map enc_entry es ++ t) = (es, Done).
Proof. intros cut es t Hc H1 H2 Ht. apply py_loop_all; assumption. Qed.
Print Assumptions C111_iteration.

(** C111: whatever the data is, a loop over the iterator ends. *)
Theorem C111_ends : forall cut b, snd (py_loop cut b) = Done \/ snd (py_loop cut b) = Exception.
Proof.
  intros cut b. pose proof (py_for_fed cut (S (length b)) b (Nat.lt_succ_diag_r _)) as H.
  unfold py_loop. destruct (snd (py_for cut (S (length b)) b)); [left|right|contradiction]; reflexivity.
Qed.
Print Assumptions C111_ends.

(** C111: malformed data after some entries gives these entries and an exception; the loop is not ended as if the log were complete. *)
Theorem C111_malformed : forall cut es t, Forall entry_ok es -> Forall (fun e => le_msg e <> 0) es -> dec_entry t = None -> cut t = false ->
  py_loop cut (flat_map enc_entry es ++ t) = (es, Exception).
Proof.
  intros cut es t H1 H2 D C. unfold py_loop.
  assert (L : (length es < S (length (flat_map enc_entry es ++ t)))%nat) by (rewrite app_length; pose proof (flat_map_len es); lia).
  revert H1 H2 L. generalize (S (length (flat_map enc_entry es ++ t))). intros fuel. revert fuel.
  induction es as [|e es IH]; intros [|fuel] H1 H2 F; cbn [length] in F; try lia; cbn [py_for flat_map app]; unfold py_next.
  - rewrite D, C. reflexivity.
  - apply Forall_cons_iff in H1, H2. destruct H1, H2. rewrite <- app_assoc, (entry_lossless e) by auto.
    destruct (N.eqb_spec (le_msg e) 0); [congruence|]. rewrite IH by (auto; lia). reflexivity.
Qed.
Print Assumptions C111_malformed.

Definition ex_entries : list log_entry :=
  [LogEntry 5 7 [0] [VU8 3]; LogEntry 1000 2 [0; 4] [VString [104; 105]; VSeq [VBool true]]].
Example C111_iteration_ex : honest (fun _ => true) /\ Forall entry_ok ex_entries /\
  Forall (fun e => le_msg e <> 0) ex_entries /\
  tail_of_log (firstn 4 (enc_entry (LogEntry 2000 9 [0] [VU64 70000]))) /\
  py_loop (fun _ => true) (flat_map enc_entry ex_entries ++ firstn 4 (enc_entry (LogEntry 2000 9 [0] [VU64 70000]))) =
  (ex_entries, Done).
Proof.
  assert (W : Forall entry_ok ex_entries).
  { unfold ex_entries, entry_ok, ubits. repeat constructor; cbn; unfold ubits; try lia.
  }
  assert (M : Forall (fun e => le_msg e <> 0) ex_entries) by (repeat constructor; discriminate).
  assert (T : tail_of_log (firstn 4 (enc_entry (LogEntry 2000 9 [0] [VU64 70000])))).
  { apply tail_cut with (LogEntry 2000 9 [0] [VU64 70000]).
    - unfold entry_ok, ubits. repeat constructor; cbn; unfold ubits; lia.
    - eexists. split; [|symmetry; apply firstn_skipn]. discriminate. }
  split; [intros b c e r _ _; reflexivity|]. split; [exact W|]. split; [exact M|]. split; [exact T|].
  apply C111_iteration; auto. intros b c e r _ _. reflexivity.
Qed.

(** A parameter of no known type. *)
Definition ex_malformed : bytes := [5; 7; 1; 0; 1; 99].
Example C111_malformed_ex : Forall entry_ok ex_entries /\ Forall (fun e => le_msg e <> 0) ex_entries /\ dec_entry ex_malformed = None /\
  py_loop (fun b => (length b <? 5)%nat) (flat_map enc_entry ex_entries ++ ex_malformed) = (ex_entries, Exception).
Proof.
  assert (W : Forall entry_ok ex_entries).
  { unfold ex_entries, entry_ok, ubits. repeat constructor; cbn; unfold ubits; try lia. }
  split; [exact W|]. split; [repeat constructor; discriminate|]. split; [vm_compute; reflexivity|].
  apply C111_malformed; [exact W|repeat constructor; discriminate|vm_compute; reflexivity|reflexivity].
Qed.

(** C112: a value whose maps have scalar keys of one type is shown faithfully. *)
Theorem C112_partial : forall v, wf_value v -> plain_keys v -> exists p, value_to_py v = Ret p /\ shows v p.
Proof. apply converts. Qed.
Print Assumptions C112_partial.

(** C112: so are the parameters of an entry. *)
Theorem C112_params_partial : forall l, Forall wf_value l -> Forall plain_keys l ->
  exists ps, py_params l = Ret ps /\ Forall2 shows l ps.
Proof.
  induction l as [|v l IH]; intros W K; [exists []; split; [reflexivity|constructor]|].
  inversion W; inversion K; subst. destruct (converts v) as (p & P & S); auto.
  destruct IH as (ps & P' & S'); auto. exists (p :: ps). cbn [py_params]. rewrite P, P'. split; [reflexivity|].
  constructor; assumption.
Qed.
Print Assumptions C112_params_partial.

(** A map from two f32 (1.5 and -2.0) to a list and a time. *)
Definition ex_map : value :=
  VMap [(VF32 0xC0000000, VSeq [VI8 (-3); VOption (Some (VChar 97))]); (VF32 0x3FC00000, VCuTime 12)].
Example C112_partial_ex : wf_value ex_map /\ plain_keys ex_map /\
  value_to_py ex_map = Ret (PyDict [(PyFloat (S754_finite true 8388608 (-22)), PyList [PyInt (-3); PyStr [97]]);
                                    (PyFloat (S754_finite false 12582912 (-23)), PyInt 12)]).
Proof.
  split; [|split; [|reflexivity]].
  - constructor; [| |repeat constructor|unfold ubits; cbn; lia].
    + repeat constructor; unfold ubits; cbn; lia.
    + constructor; [|constructor; [|constructor]]; cbn [snd].
      * constructor; [|unfold ubits; cbn; lia]. constructor; [constructor; unfold sbits; cbn; lia|].
        constructor; [|constructor]. constructor. constructor. unfold scalar. lia.
      * constructor. unfold ubits. cbn. lia.
  - split; [|cbn; tauto]. intros e f [<-|[<-|[]]] [<-|[<-|[]]]; exact I.
Qed.

(** C112 is false in general: the two keys None and Some(None) of a map become one key,
    and an entry is lost. *)
Theorem C112_refuted : exists v p, wf_value v /\ value_to_py v = Ret p /\
  (exists e f, v = VMap [e; f]) /\ (exists x, p = PyDict [x]) /\ ~ shows v p.
Proof.
  exists (VMap [(VOption None, VU8 1); (VOption (Some (VOption None)), VU8 2)]), (PyDict [(PyNone, PyInt 2)]).
  split; [|split; [reflexivity|]].
  - constructor; [repeat constructor|repeat constructor; unfold ubits; cbn; lia|repeat constructor|unfold ubits; cbn; lia].
  - split; [eauto|]. split; [eauto|]. intros H. inversion H; subst.
    match goal with X : Forall2 shows (map fst _) _ |- _ => cbn in X; inversion X; subst end.
    match goal with X : Forall2 shows (_ :: _) [] |- _ => inversion X end.
Qed.
Print Assumptions C112_refuted.

(** C112: and a map whose keys are sequences (tuples) makes the conversion panic. *)
Theorem C112_keys_refuted : exists v, wf_value v /\ value_to_py v = Panic.
Proof.
  exists (VMap [(VSeq [VI32 1; VI32 2], VBool true)]). split; [|reflexivity].
  constructor; [|repeat constructor|repeat constructor|unfold ubits; cbn; lia].
  constructor; [|constructor]. constructor; [|unfold ubits; cbn; lia].
  repeat constructor; unfold sbits; cbn; lia.
Qed.
Print Assumptions C112_keys_refuted.

(** C112: every map with a sequence or a map among its keys makes it panic. *)
Theorem C112_unhashable_partial : forall m k v, In (k, v) m -> (exists l, k = VSeq l) \/ (exists d, k = VMap d) ->
  value_to_py (VMap m) = Panic.
Proof.
  intros m k v Hi Hk. cbn [value_to_py].
  enough (X : forall d, (fix fill (m : list (value * value)) (d : list (pyobj * pyobj)) :=
           match m with
           | [] => Ret d
           | (k, v) :: m =>
               let! pk := value_to_py k in
               let! pv := value_to_py v in
               if hashable pk then fill m (set_item pk pv d) else Panic
           end) m d = Panic) by (rewrite X; reflexivity).
  induction m as [|[k' v'] m IH]; intros d; [destruct Hi|].
  destruct (value_to_py k') as [pk|] eqn:Ek; [|reflexivity]. cbn [obind]. destruct (value_to_py v') as [pv|]; [|reflexivity]. cbn [obind].
  destruct Hi as [E|Hi]; [|destruct (hashable pk); [apply IH, Hi|reflexivity]].
  injection E as -> ->. destruct Hk as [(l & ->)|(d' & ->)]; cbn [value_to_py] in Ek.
  - match type of Ek with (let! _ := ?c in _) = _ => destruct c as [x|] end; [|discriminate Ek]. injection Ek as <-. reflexivity.
  - match type of Ek with (let! _ := ?c in _) = _ => destruct c as [x|] end; [|discriminate Ek]. injection Ek as <-. reflexivity.
Qed.
Print Assumptions C112_unhashable_partial.
Example C112_unhashable_ex : In (VMap [(VU8 1, VUnit)], VUnit) [(VU8 3, VBool true); (VMap [(VU8 1, VUnit)], VUnit)].
Proof. right. left. reflexivity. Qed.

(** C112: of entries whose keys Python takes for equal, the first key and the last value
    remain. *)
Theorem C112_mixed_refuted : exists m, length m = 3%nat /\ wf_value (VMap m) /\
  value_to_py (VMap m) = Ret (PyDict [(PyBool true, PyInt 8)]).
Proof.
  exists [(VBool true, VU8 6); (VU8 1, VU8 7); (VF32 0x3F800000, VU8 8)]. split; [reflexivity|]. split; [|reflexivity].
  constructor; [repeat constructor; unfold ubits; cbn; lia|repeat constructor; unfold ubits; cbn; lia| |unfold ubits; cbn; lia].
  repeat constructor.
Qed.
Print Assumptions C112_mixed_refuted.
