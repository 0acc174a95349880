(** Properties C22-C25, C35, C36, C38, C55: what is stored is read back. *)
From Coq Require Import List Arith NArith ZArith Bool Lia Sorted Permutation.
From Verif Require Import Base BincodeModel BincodeSpec BincodeProofs CodecModel ValueModel CodecSpec
  CodecProofs ValueProofs ValueProofs2 ULogModel ULogSpec ULogProofs1 ULogProofs7 ULogProofs8
  ExportSpec ExportProofs ULogProps.
Import ListNotations.
Open Scope N_scope.

(** ** C22 *)
(** Integers of every width are read back, whatever follows. *)
Theorem C22_integers :
  lossless (ubits 8) enc_u8 dec_u8 /\ lossless (ubits 16) enc_u16 dec_u16 /\
  lossless (ubits 32) enc_u32 dec_u32 /\ lossless (ubits 64) enc_u64 dec_u64 /\
  lossless (sbits 8) enc_i8 dec_i8 /\ lossless (sbits 16) enc_signed (dec_signed 2) /\
  lossless (sbits 32) enc_signed (dec_signed 4) /\ lossless (sbits 64) enc_signed (dec_signed 8).
Proof.
  do 5 (split; [auto using u8_lossless, u16_lossless, u32_lossless, u64_lossless, i8_lossless|]).
  split; [|split]; apply signed_lossless; auto.
Qed.
Print Assumptions C22_integers.

(** So are booleans, floats (bit for bit), chars, strings and the time types. *)
Theorem C22_leaves :
  lossless (fun _ => True) enc_bool dec_bool /\ lossless (ubits 32) enc_f32 dec_f32 /\
  lossless (ubits 64) enc_f64 dec_f64 /\ lossless scalar enc_char dec_char /\
  lossless text enc_string dec_string /\ lossless time_ok enc_time dec_time /\
  lossless oct_ok enc_oct dec_oct /\ lossless range_ok enc_range dec_range /\
  lossless partial_ok enc_partial dec_partial /\ lossless tov_ok enc_tov dec_tov.
Proof.
  exact (conj bool_lossless (conj f32_lossless (conj f64_lossless (conj char_lossless
    (conj string_lossless (conj time_lossless (conj oct_lossless (conj range_lossless
      (conj partial_lossless tov_lossless))))))))).
Qed.
Print Assumptions C22_leaves.

(** Optional values, sequences and pairs of what is read back are read back. *)
Theorem C22_containers : forall (A B : Type) (W : A -> Prop) (X : B -> Prop) ea da eb db,
  lossless W ea da -> lossless X eb db ->
  lossless (fun o => forall a, o = Some a -> W a) (enc_option ea) (dec_option da) /\
  lossless (fun l => Forall W l /\ ubits 64 (N.of_nat (length l))) (enc_vec ea) (dec_vec da) /\
  lossless (fun p => W (fst p) /\ X (snd p)) (enc_pair ea eb) (dec_pair da db).
Proof.
  intros A B W X ea da eb db H1 H2. split; [|split].
  - intros o rest Ho. apply (option_lossless W); auto. destruct o; auto.
  - apply vec_lossless; auto.
  - apply pair_lossless; auto.
Qed.
Print Assumptions C22_containers.

(** Two encodings followed by anything agree only if value and continuation do. *)
Theorem C22_prefix_free : forall (A : Type) (W : A -> Prop) enc dec,
  lossless W enc dec -> prefix_free W enc.
Proof. exact (fun A => @lossless_prefix_free A). Qed.
Print Assumptions C22_prefix_free.

(** Whatever bytes are decoded, the result is a value of its type. *)
Theorem C22_decoded_in_range :
  ranged (ubits 8) dec_u8 /\ ranged (ubits 16) dec_u16 /\ ranged (ubits 32) dec_u32 /\ ranged (ubits 64) dec_u64 /\
  ranged (sbits 8) dec_i8 /\ ranged (sbits 16) (dec_signed 2) /\ ranged (sbits 32) (dec_signed 4) /\
  ranged (sbits 64) (dec_signed 8) /\ ranged (ubits 32) dec_f32 /\ ranged (ubits 64) dec_f64 /\ ranged scalar dec_char.
Proof.
  exact (conj ranged_u8 (conj ranged_u16 (conj ranged_u32 (conj ranged_u64 (conj ranged_i8 (conj (ranged_signed 16 2 ranged_u16 ltac:(lia))
   (conj (ranged_signed 32 4 ranged_u32 ltac:(lia)) (conj (ranged_signed 64 8 ranged_u64 ltac:(lia))
   (conj (ranged_fixed 4) (conj (ranged_fixed 8) ranged_char)))))))))).
Qed.
Print Assumptions C22_decoded_in_range.
Example C22_decoded_case : Forall (fun b => b < 256) [251; 255; 255; 7] /\
  dec_u16 [251; 255; 255; 7] = Some (65535, [7]) /\ dec_u16 [252; 0; 0; 1; 0] = None.
Proof. split; [repeat constructor; lia|split; reflexivity]. Qed.

(** Booleans, option tags and chars are checked: any other bytes are refused. *)
Theorem C22_strict : strict enc_bool dec_bool /\ strict enc_char dec_char /\
  (forall A (e : A -> list N) d, strict e d -> strict (enc_option e) (dec_option d)).
Proof. split; [exact strict_bool|]. split; [exact strict_char|]. intros A e d. apply strict_option. Qed.
Print Assumptions C22_strict.
Example C22_strict_case : dec_bool [2] = None /\ dec_option dec_bool [1; 1; 9] = Some (Some true, [9]) /\
  dec_option dec_bool [1; 7] = None /\ dec_char [0xC1; 0x81] = None /\ dec_char [0xED; 0xA0; 0x80] = None.
Proof. repeat split. Qed.

(** The two headers of the log are read back and fit the room kept for them. *)
Theorem C22_headers :
  lossless wf_header enc_header dec_header /\ lossless wf_main enc_main dec_main /\
  (forall h, wf_header h -> blen (enc_header h) <= 13 <= MAX_HEADER_SIZE) /\
  (forall h, wf_main h -> blen (enc_main h) <= 10).
Proof.
  split; [exact header_lossless|]. split; [exact main_lossless|]. split; [|exact enc_main_bound].
  intros h H. split; [exact (enc_header_bound h H)|]. unfold MAX_HEADER_SIZE. lia.
Qed.
Print Assumptions C22_headers.

Example C22_case :
  enc_u64 250 = [250] /\ enc_u64 251 = [251; 251; 0] /\ enc_u64 65536 = [252; 0; 0; 1; 0] /\
  enc_signed (-3) = [5] /\ dec_u64 ([253; 0; 0; 0; 0; 1; 0; 0; 0] ++ [7]) = Some (2 ^ 32, [7]) /\
  enc_string [0x63; 0xE9; 0x1F600] = [7; 0x63; 0xC3; 0xA9; 0xF0; 0x9F; 0x98; 0x80] /\
  text [0x63; 0xE9; 0x1F600] /\ dec_u16 [253; 0; 0; 0; 0; 1; 0; 0; 0] = None.
Proof.
  do 6 (split; [reflexivity|]). split; [|reflexivity].
  split; [|reflexivity]. repeat constructor; unfold scalar; lia.
Qed.

(** ** C23 *)
(** For all payload types with lossless stream codecs, a copper list is read back,
    whatever follows it. *)
Theorem C23_copperlist : forall W pls, payloads_ok W pls ->
  lossless (@copperlist_ok W pls) enc_cl dec_cl.
Proof. exact cl_lossless. Qed.
Print Assumptions C23_copperlist.

(** A sequence of copper lists is exported as it was written, also when the data
    ends in the middle of a further one. *)
Theorem C23_sequence : forall W pls, payloads_ok W pls ->
  forall (cls : list (copperlist pls)) (c : copperlist pls) cut,
  Forall (copperlist_ok W) cls -> copperlist_ok W c -> cut = [] \/ proper_prefix cut (enc_cl c) ->
  copperlists_dump (flat_map enc_cl cls ++ cut) = cls.
Proof.
  intros W pls H cls c cut H1 H2 H3. apply (dump_sequence W); auto.
  destruct H3 as [->|P]; [reflexivity|].
  exact (prefix_rejected _ _ _ (cl_lossless W pls H) (streaming_cl W pls H) c cut H2 P).
Qed.
Print Assumptions C23_sequence.

(** Payloads u32 and text. *)
Definition ex_pl : list payload := [Payload N enc_u32 dec_u32; Payload (list N) enc_string dec_string].
Definition ex_md (a : N) : metadata :=
  Metadata (PartialRange (OptionCuTime a) oct_none) (TovRange (TimeRange 1 a)) [0x6F; 0x6B].
Definition ex_cl (i : N) : copperlist ex_pl :=
  @CopperList ex_pl i BeingSerialized
    (CuMsg (Some (i * 1000)) (ex_md i), (CuMsg None (ex_md 300), tt)).
(** Any u32 value, any text. *)
Definition ex_W (p : payload) (v : p_type p) : Prop :=
  p_dec p (p_enc p v) = Some (v, []).

Example C23_case : exists (cls : list (copperlist ex_pl)) cut (W : forall p, p_type p -> Prop),
  payloads_ok W ex_pl /\ Forall (copperlist_ok W) cls /\ length cls = 2%nat /\
  proper_prefix cut (enc_cl (ex_cl 3)) /\ cut <> [] /\
  copperlists_dump (flat_map enc_cl cls ++ cut) = cls.
Proof.
  exists [ex_cl 1; ex_cl 2], (firstn 7 (enc_cl (ex_cl 3))), ex_W.
  assert (L : payloads_ok ex_W ex_pl).
  { assert (G : forall p : payload, streaming (p_dec p) -> lossless (ex_W p) (p_enc p) (p_dec p)).
    { intros p Hs v rest Hv. unfold ex_W in Hv. destruct (Hs _ _ _ Hv) as (q & E & Hq).
      rewrite app_nil_r in E. rewrite E. apply Hq. }
    repeat constructor; cbn [p_dec p_enc]; try (apply (G (Payload N enc_u32 dec_u32)));
      try (apply (G (Payload (list N) enc_string dec_string))); auto using streaming_u32, streaming_string. }
  split; [exact L|]. split.
  { repeat constructor; cbn; try (intros ? H; injection H as <-; reflexivity); try discriminate;
      unfold oct_ok, range_ok, time_ok, ubits, scalar; cbn; try lia; auto. }
  split; [reflexivity|].
  split; [exists (skipn 7 (enc_cl (ex_cl 3))); split; [discriminate|symmetry; apply firstn_skipn]|].
  split; [discriminate|]. reflexivity.
Qed.

(** ** C24 *)
(** Structured values, whatever their nesting, are read back, whatever follows. *)
Theorem C24_values : lossless wf_value enc_value dec_value.
Proof. exact value_lossless. Qed.
Print Assumptions C24_values.

(** The nesting bound of the modelled decoder is no restriction: any larger bound
    gives the same answer, on any input. *)
Theorem C24_fuel : forall b fuel, (length b < fuel)%nat -> dec_val fuel b = dec_value b.
Proof. exact dec_value_fuel. Qed.
Print Assumptions C24_fuel.

(** The order of values is total, so maps are well defined: they stay strictly
    ascending under insertion. *)
Theorem C24_order : total_order cmp_value /\
  forall k v m, ascending m -> ascending (map_insert k v m).
Proof. exact (conj cmp_total map_insert_sorted). Qed.
Print Assumptions C24_order.

(** Log entries are read back, whatever follows. *)
Theorem C24_entries : lossless entry_ok enc_entry dec_entry.
Proof. exact entry_lossless. Qed.
Print Assumptions C24_entries.

Definition ex_value : value :=
  VSeq [VMap [(VU8 1, VString [0x61]); (VU8 200, VOption (Some (VI32 (-70000))));
              (VF32 0x80000000, VBytes [1; 2]); (VF32 0x7FC00001, VUnit)];
        VNewtype (VF64 0x7FF8000000000000); VCuTime (2 ^ 64 - 1)].
Example C24_case : wf_value ex_value /\
  dec_value (enc_value ex_value ++ [9]) = Some (ex_value, [9]) /\
  entry_ok (LogEntry 5 7 [0; 12] [ex_value; VBool true]).
Proof.
  assert (W : wf_value ex_value).
  { repeat (constructor; cbn; try (unfold ubits, sbits, scalar; lia); try reflexivity). }
  split; [exact W|]. split; [reflexivity|].
  unfold entry_ok; cbn; repeat (split; [try (unfold ubits; lia)|]); unfold ubits; try lia;
    repeat constructor; unfold ubits; try lia; exact W.
Qed.

(** ** C25 *)
(** The borrowing decoder reads back exactly the chars and the strings: on every
    other value it fails or returns a value of another kind. *)
Theorem C25_borrow_exact_partial : forall v rest, wf_value v ->
  (borrow_dec_value (enc_value v ++ rest) = Some (v, rest) <->
   (exists c, v = VChar c) \/ (exists s, v = VString s)).
Proof.
  intros v rest W. rewrite (borrow_agrees v rest W). split.
  - destruct v; try discriminate; eauto.
  - intros [[c ->]|[s ->]]; reflexivity.
Qed.
Print Assumptions C25_borrow_exact_partial.

Theorem C25_agreement_refuted : exists v w, wf_value v /\
  dec_value (enc_value v) = Some (v, []) /\ borrow_dec_value (enc_value v) = Some (w, []) /\ v <> w.
Proof. exists (VU8 5), (VU16 5). split; [constructor; unfold ubits; lia|]. repeat split. discriminate. Qed.
Print Assumptions C25_agreement_refuted.

Example C25_case : wf_value (VString [0x61; 0x62]) /\
  borrow_dec_value (enc_value (VString [0x61; 0x62])) = Some (VString [0x61; 0x62], []) /\
  borrow_dec_value (enc_value (VCuTime 5)) = None /\
  borrow_dec_value (enc_value (VBool true)) = Some (VU8 1, []).
Proof.
  split; [|repeat split]. constructor. split; [|reflexivity]. repeat constructor; unfold scalar; lia.
Qed.

(** ** C35 *)
(** Filling keeps the first [n] items and nothing of the former content. *)
Theorem C35_fill : forall T n (old items : list T),
  cuarray_fill n old items = Ret (firstn n items).
Proof. exact (fun T => @cuarray_fill_ok T). Qed.
Print Assumptions C35_fill.

Theorem C35_round_trip : forall T (W : T -> Prop) e d n, lossless W e d ->
  forall a rest, Forall W a -> (length a <= n)%nat -> N.of_nat (length a) < 2 ^ 32 ->
  dec_cuarray d n (enc_cuarray e a ++ rest) = DOk a rest.
Proof. exact (fun T => @cuarray_rt T). Qed.
Print Assumptions C35_round_trip.

(** Decoding never panics and never exceeds the capacity; a longer announced
    length is refused. *)
Theorem C35_bounded : forall T (d : decoder T) n b,
  match dec_cuarray d n b with
  | DOk a _ => (length a <= n)%nat | DErr => True | DPanic => False end.
Proof. exact (fun T => @cuarray_bounded T). Qed.
Print Assumptions C35_bounded.

Theorem C35_reject : forall T (d : decoder T) n len b, N.of_nat n < len -> len < 2 ^ 32 ->
  dec_cuarray d n (enc_u32 len ++ b) = DErr.
Proof. exact (fun T => @cuarray_reject T). Qed.
Print Assumptions C35_reject.

Example C35_case :
  cuarray_fill 3 [9; 9] [1; 2; 3; 4] = Ret [1; 2; 3] /\
  enc_cuarray enc_u32 [1; 300] = [2; 1; 251; 44; 1] /\
  dec_cuarray dec_u32 3 ([2; 1; 251; 44; 1] ++ [8]) = DOk [1; 300] [8] /\
  dec_cuarray dec_u32 1 [2; 1; 251; 44; 1] = DErr.
Proof. repeat split. Qed.

(** ** C36 *)
(** Through the compact representation and its encoding, absence and every time
    other than the sentinel come back; the sentinel comes back as absence. *)
Theorem C36_optional_times_partial : forall o rest,
  (forall t, o = Some t -> t < 2 ^ 64) ->
  dec_oct (enc_oct (oct_of_option o) ++ rest) = Some (oct_of_option o, rest) /\
  (o <> Some (2 ^ 64 - 1) -> oct_to_option (oct_of_option o) = o) /\
  (oct_is_none (oct_of_option o) = true <-> o = None \/ o = Some (2 ^ 64 - 1)) /\
  oct_unwrap (oct_of_option o) =
    match oct_to_option (oct_of_option o) with Some t => Ret t | None => Panic end.
Proof.
  intros o rest H. split; [|split; [|split]].
  - apply oct_lossless. destruct o as [t|]; unfold oct_ok, time_ok, ubits; cbn; [auto|reflexivity].
  - intros Hn. destruct o as [t|]; [|reflexivity]. unfold oct_to_option, oct_of_option; cbn [oct_raw].
    destruct (N.eqb_spec t NONE_VALUE) as [->|]; [|reflexivity]. exfalso. apply Hn. reflexivity.
  - destruct o as [t|]; unfold oct_is_none, oct_of_option; cbn [oct_raw].
    + destruct (N.eqb_spec t NONE_VALUE) as [->|E]; split; auto.
      * discriminate.
      * intros [E2|E2]; [discriminate|]. injection E2 as ->. exfalso. apply E. reflexivity.
    + split; auto.
  - unfold oct_unwrap, oct_is_none, oct_to_option.
    destruct (oct_raw (oct_of_option o) =? NONE_VALUE); reflexivity.
Qed.
Print Assumptions C36_optional_times_partial.

Theorem C36_sentinel_refuted : exists t, t < 2 ^ 64 /\ oct_to_option (oct_of_time t) = None.
Proof. exists (2 ^ 64 - 1). split; reflexivity. Qed.
Print Assumptions C36_sentinel_refuted.

Example C36_case :
  oct_to_option (oct_of_option (Some 12)) = Some 12 /\ oct_to_option (oct_of_option None) = None /\
  oct_unwrap (oct_of_option (Some 12)) = Ret 12 /\ oct_unwrap oct_none = Panic.
Proof. repeat split. Qed.

(** ** C38 *)
(** The range of a non-empty list of times covers it, and both its ends are
    attained, so that it is the smallest range doing so. *)
Theorem C38_ranges : forall l,
  match range_of_slice l with
  | Panic => l = []
  | Ret r => In (tr_start r) l /\ In (tr_end r) l /\ Forall (fun t => tr_start r <= t <= tr_end r) l
  end.
Proof. exact range_of_slice_spec. Qed.
Print Assumptions C38_ranges.

(** The order of the times does not matter. *)
Theorem C38_order : forall l l', Permutation l l' -> range_of_slice l = range_of_slice l'.
Proof. exact range_of_slice_perm. Qed.
Print Assumptions C38_order.

Example C38_case : range_of_slice [5; 2; 9; 2] = Ret (TimeRange 2 9) /\ range_of_slice [] = Panic /\
  Permutation [5; 2; 9; 2] [2; 2; 5; 9].
Proof.
  split; [reflexivity|]. split; [reflexivity|].
  apply Permutation_trans with (2 :: 5 :: 9 :: [2]); [apply perm_swap|]. apply perm_skip.
  apply Permutation_sym. apply (Permutation_cons_append [5; 9] 2).
Qed.

(** ** C55 *)
(** When one stream of the copper list type was opened, the copper lists logged
    through it are, after a clean shutdown, exactly what exporting the log gives. *)
Theorem C55_recorded_lists_exported : forall W pls, payloads_ok W pls ->
  forall ps slab_size ops sy lg i (cls : list (copperlist pls)),
  page_ok ps -> sizes_ok ps ops -> no_last ops ->
  session ps slab_size ops = Ret sy -> all_closed sy ->
  logger_drop ps slab_size (sy_lg sy) = Ret lg ->
  nth_error (opened ops) i = Some TCopperList ->
  (forall j, nth_error (opened ops) j = Some TCopperList -> j = i) ->
  cls <> [] -> Forall (copperlist_ok W) cls -> logged i ops = map enc_cl cls ->
  exists b, delivers (lg_files lg) TCopperList b /\ copperlists_dump b = cls.
Proof. exact lists_exported. Qed.
Print Assumptions C55_recorded_lists_exported.

Definition ex_log : list lop :=
  [LOpen TCopperList 60; LOpen TStructured 30; LLog 0 (ex_obj (enc_cl (ex_cl 1)));
   LLog 1 (ex_obj [4; 5]); LLog 0 (ex_obj (enc_cl (ex_cl 2))); LClose 1;
   LLog 0 (ex_obj (enc_cl (ex_cl 3))); LClose 0].
Example C55_case : exists sy lg,
  sizes_ok 16 ex_log /\ no_last ex_log /\ session 16 96 ex_log = Ret sy /\ all_closed sy /\
  logger_drop 16 96 (sy_lg sy) = Ret lg /\ opened ex_log = [TCopperList; TStructured] /\
  logged 0 ex_log = map enc_cl [ex_cl 1; ex_cl 2; ex_cl 3] /\ length (lg_files lg) = 4%nat.
Proof.
  destruct (full_run 16 96 ex_log (fun sy lg => (none_left sy, length (lg_files lg))) (true, 4%nat))
    as (sy & lg & E1 & E2 & H); [vm_compute; reflexivity|]. injection H as H1 H2.
  exists sy, lg. split; [sizes|]. split; [nolast|]. split; [auto|].
  split; [now apply none_left_spec|]. auto.
Qed.
