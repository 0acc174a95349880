(** Text logging: C26 to C29 and C57. *)
From Coq Require Import String List Arith NArith ZArith Bool Lia Permutation.
From Verif Require Import Base BincodeModel BincodeSpec CodecModel ValueModel CodecSpec LogModel LogSpec LogProofs LogProofs2 ExportProofs.
Import ListNotations.
Local Open Scope list_scope.
Local Open Scope N_scope.

(** For examples: times in nanoseconds, no float, and a strfmt that replaces nothing. *)
Definition plain_X : formats := Formats (fun _ => lit "f") (fun _ => lit "d") (fun t => show_N t ++ lit " ns")
  (fun fmt m => Some fmt).
Lemma plain_X_calm : calm_formats plain_X.
Proof.
  repeat split; try (repeat constructor; discriminate); try discriminate.
  - cbn. apply bf_app. split; [apply calm_N|repeat constructor; discriminate].
  - cbn. destruct (show_N t); discriminate.
Qed.

(** ** C26 *)
(** Every format string is made of pieces around placeholders. *)
Theorem C26_pieces : forall fmt, exists pieces, pieces_of fmt pieces.
Proof. exact pieces_exist. Qed.
Print Assumptions C26_pieces.

(** Unnamed parameters whose texts contain no brace (and are not empty, unless the
    format string has no other brace) land in the placeholder with their number.
    Missing: texts with single braces, see [C26_refuted]. *)
Theorem C26_line_partial : forall X strings e fmt pieces,
  nth_error strings (N.to_nat (le_msg e)) = Some fmt -> pieces_of fmt pieces ->
  le_names e = map (fun _ => 0) (le_params e) ->
  harmless pieces (map (show X) (le_params e)) ->
  rebuild_logline X strings e = Ret (Some (fill pieces (map (show X) (le_params e)))).
Proof.
  intros X strings e fmt pieces H1 H2 H3 H4. unfold rebuild_logline. rewrite H1, H3, sort_unnamed. cbn [obind].
  unfold format_logline. rewrite (format_fill _ _ _ H2 H4). reflexivity.
Qed.
Print Assumptions C26_line_partial.

(** This holds of all numbers, booleans, times, characters other than braces, and of
    options and sequences of them. *)
Theorem C26_plain_partial : forall X strings e fmt pieces, calm_formats X ->
  nth_error strings (N.to_nat (le_msg e)) = Some fmt -> pieces_of fmt pieces ->
  le_names e = map (fun _ => 0) (le_params e) -> Forall plain (le_params e) ->
  rebuild_logline X strings e = Ret (Some (fill pieces (map (show X) (le_params e)))).
Proof.
  intros X strings e fmt pieces HX H1 H2 H3 H4. eapply C26_line_partial; eauto.
  assert (H : Forall calm_text (map (show X) (le_params e))).
  { apply Forall_map. eapply Forall_impl; [|exact H4]. intros v. apply plain_calm. auto. }
  split; [|left]; (eapply Forall_impl; [|exact H]); intros s [A B]; auto.
Qed.
Print Assumptions C26_plain_partial.

Example C26_case : forall e, e = LogEntry 5 1 [0; 0] [VI32 (-42)%Z; VSeq [VBool true; VU8 7]] ->
  pieces_of (lit "{x} pos {} of {}!") [lit "{x} pos "; lit " of "; lit "!"] /\ Forall plain (le_params e) /\
  rebuild_logline plain_X [[]; lit "{x} pos {} of {}!"] e = Ret (Some (lit "{x} pos -42 of [true, 7]!")).
Proof.
  intros e ->. split; [|split].
  - split; [discriminate|]. split; [|reflexivity]. repeat constructor; intros H;
      repeat (apply hp_cons in H; destruct H as [[H1 H2]|H]; [discriminate|]); exact (hp_one _ H).
  - repeat constructor.
  - reflexivity.
Qed.

(** The full claim (parameters without placeholder) does not hold: a parameter "{"
    before a brace of the format string makes a placeholder. *)
Theorem C26_refuted : exists pieces params strings e fmt,
  nth_error strings (N.to_nat (le_msg e)) = Some fmt /\ pieces_of fmt pieces /\
  le_names e = map (fun _ => 0) (le_params e) /\
  le_params e = map VString params /\ Forall (fun p => ~ has_placeholder p) params /\
  forall X, rebuild_logline X strings e <> Ret (Some (fill pieces params)).
Proof.
  exists [[]; lit "} "; []], [lit "{"; lit "x"], [[]; lit "{}} {}"], (LogEntry 5 1 [0; 0] [VString (lit "{"); VString (lit "x")]), (lit "{}} {}").
  split; [reflexivity|]. split; [|split; [reflexivity|split; [reflexivity|split]]].
  - split; [discriminate|]. split; [|reflexivity]. repeat constructor.
    + apply hp_nil.
    + intros H. apply hp_cons in H. destruct H as [[H1 _]|H]; [discriminate|exact (hp_one _ H)].
    + apply hp_nil.
  - repeat constructor; apply hp_one.
  - intros X. cbn. discriminate.
Qed.
Print Assumptions C26_refuted.

(** ** C27 *)
(** Among texts without braces, one parameter decides only the text at its own place.
    Missing: parameters with braces, see [C27_refuted]. *)
Theorem C27_place_partial : forall X fmt pieces a b, pieces_of fmt pieces ->
  Forall calm_text (a ++ b) -> (length a + 1 < length pieces)%nat ->
  exists pre suf, forall p time, calm_text p -> format_logline X time fmt (a ++ p :: b) [] = Some (pre ++ p ++ suf).
Proof.
  intros X fmt pieces a b Hf Hab Hl. destruct (fill_place pieces a b Hl) as (pre & suf & E).
  exists pre, suf. intros p time Hp. unfold format_logline. rewrite (format_fill _ pieces); auto.
  - rewrite E. reflexivity.
  - apply Forall_app in Hab. destruct Hab as [Ha Hb].
    assert (H : Forall calm_text (a ++ p :: b)) by (apply Forall_app; auto).
    split; [|left]; (eapply Forall_impl; [|exact H]); intros s [A B]; auto.
Qed.
Print Assumptions C27_place_partial.
Example C27_case : pieces_of (lit "a={} b={}") [lit "a="; lit " b="; []] /\
  Forall calm_text ([lit "1"] ++ []) /\
  format_logline plain_X 5 (lit "a={} b={}") ([lit "1"] ++ lit "22" :: []) [] = Some (lit "a=1 b=" ++ lit "22" ++ []).
Proof.
  split; [|split; [|reflexivity]].
  - split; [discriminate|]. split; [|reflexivity]. repeat constructor; intros H;
      repeat (apply hp_cons in H; destruct H as [[H1 H2]|H]; [discriminate|]); first [exact (hp_one _ H)|exact (hp_nil H)].
  - repeat constructor; discriminate.
Qed.

(** The full claim does not hold: when the first of two parameters is an empty map,
    which shows as a placeholder, the second one takes the place of the first; with the
    first parameter a number, it comes second. *)
Theorem C27_refuted : exists fmt pieces strings, pieces_of fmt pieces /\ forall X,
  rebuild_logline X strings (LogEntry 5 1 [0; 0] [VU8 1; VU8 2]) = Ret (Some (lit "1 then 2")) /\
  rebuild_logline X strings (LogEntry 5 1 [0; 0] [VMap []; VU8 2]) = Ret (Some (lit "2 then {}")) /\
  nth_error strings 1 = Some fmt /\ fmt = lit "{} then {}".
Proof.
  exists (lit "{} then {}"), [[]; lit " then "; []], [[]; lit "{} then {}"]. split; [|intros X; repeat split; reflexivity].
  split; [discriminate|]. split; [|reflexivity]. repeat constructor; intros H;
    repeat (apply hp_cons in H; destruct H as [[H1 H2]|H]; [discriminate|]); first [exact (hp_one _ H)|exact (hp_nil H)].
Qed.
Print Assumptions C27_refuted.

(** ** C28 *)
(** The rebuilt line of a debug! call: the unnamed parameters fill the placeholders in
    their order, then strfmt is given each name with its own value. Missing: positions
    of calls that mix named and unnamed parameters, see [C28_refuted]. *)
Theorem C28_rebuilt_partial : forall X intern strings time fmt args pieces,
  known intern strings fmt args -> NoDup (map fst (named_of args)) -> pieces_of fmt pieces ->
  harmless pieces (map (show X) (unnamed_of args)) ->
  exists f, own_value X args f /\
  rebuild_logline X strings (debug_entry intern time fmt args) =
  Ret (match named_of args with
       | [] => Some (fill pieces (map (show X) (unnamed_of args)))
       | _ => match strfmt X (fill pieces (map (show X) (unnamed_of args))) f with
              | Some l => Some (show_time X time ++ lit ": " ++ l)
              | None => None
              end
       end).
Proof.
  intros X intern strings time fmt args pieces K N Hf Hh. eexists. split; [apply own_values; auto|].
  rewrite (rebuild_debug X strings intern time fmt args K). unfold format_logline.
  rewrite (format_fill _ _ _ Hf Hh). destruct (named_of args) as [|a l]; auto.
  cbn [map rev]. destruct (rev _ ++ _) eqn:R; [|reflexivity]. destruct (rev (map _ l)); discriminate.
Qed.
Print Assumptions C28_rebuilt_partial.

(** The console line of a call without named parameters is the rebuilt one; of a call
    without unnamed parameters and placeholders, too. *)
Theorem C28_console_partial : forall X intern strings time fmt args,
  known intern strings fmt args ->
  named_of args = [] \/ (unnamed_of args = [] /\ ~ has_placeholder fmt) ->
  Ret (debug_console X intern time fmt args) = rebuild_logline X strings (debug_entry intern time fmt args).
Proof.
  intros X intern strings time fmt args K H. rewrite (rebuild_debug X strings intern time fmt args K). f_equal.
  unfold debug_console, console_line, debug_entry. cbn [le_time le_params].
  destruct H as [H|[H1 H2]].
  - rewrite H. cbn. rewrite app_nil_r. reflexivity.
  - rewrite H1. cbn [app map]. rewrite map_map. unfold format_logline. cbn [fold_left].
    assert (Z : forall l, fold_left (fun f p => replace_first p f) l fmt = fmt).
    { induction l; cbn; auto. rewrite replace_none; auto. }
    rewrite Z. f_equal. 
    assert (C : forall l : list (txt * value), combine (map fst l) (map (fun x => show X (snd x)) l) = map (fun p => (fst p, show X (snd p))) l).
    { induction l as [|[n v] l IHl]; cbn; auto. rewrite IHl. reflexivity. }
    rewrite C. reflexivity.
Qed.
Print Assumptions C28_console_partial.

Definition ex_intern (s : txt) : N := if txt_eqb s (lit "b={b} a={} {}") then 1 else if txt_eqb s (lit "b") then 2 else 3.
Definition ex_table : list txt := [[]; lit "b={b} a={} {}"; lit "b"].
Example C28_case : forall args, args = [Unnamed (VU8 1); Named (lit "b") (VU8 2); Unnamed (VU8 3)] ->
  known ex_intern ex_table (lit "b={b} a={} {}") args /\ NoDup (map fst (named_of args)) /\
  pieces_of (lit "b={b} a={} {}") [lit "b={b} a="; lit " "; []] /\
  rebuild_logline plain_X ex_table (debug_entry ex_intern 9 (lit "b={b} a={} {}") args) = Ret (Some (lit "9 ns: b={b} a=1 3")).
Proof.
  intros args ->. split; [|split; [|split]].
  - split; [discriminate|]. split; [reflexivity|]. intros n v H. cbn in H.
    destruct H as [H|[H|[H|[]]]]; try discriminate. injection H as <- <-. split; [discriminate|reflexivity].
  - repeat constructor; cbn; tauto.
  - split; [discriminate|]. split; [|reflexivity]. repeat constructor; intros H;
      repeat (apply hp_cons in H; destruct H as [[H1 H2]|H]; [discriminate|]); first [exact (hp_one _ H)|exact (hp_nil H)].
  - reflexivity.
Qed.

(** The full claim does not hold. In a call as in the documentation of the macro, where
    the first of two parameters is named, the first placeholder gets the second
    parameter and the second one nothing; and the console gives a name the value of an
    unnamed parameter. *)
Theorem C28_refuted : exists fmt fmt2 intern strings,
  let args := [Named (lit "a") (VU8 1); Unnamed (VU8 2)] in
  known intern strings fmt args /\ known intern strings fmt2 args /\
  fmt = lit "a = {}, b = {}" /\ fmt2 = lit "a = {a}, b = {}" /\
  forall X time,
  rebuild_logline X strings (debug_entry intern time fmt args) =
    Ret (match strfmt X (lit "a = 2, b = {}") (fun n => if txt_eqb n (lit "a") then Some (lit "1") else None) with
         | Some l => Some (show_time X time ++ lit ": " ++ l) | None => None end) /\
  debug_console X intern time fmt2 args =
         match strfmt X (lit "a = {a}, b = 2") (fun n => if txt_eqb n (lit "a") then Some (lit "2") else None) with
         | Some l => Some (show_time X time ++ lit ": " ++ l) | None => None end.
Proof.
  set (i := fun s => if txt_eqb s (lit "a = {}, b = {}") then 1 else if txt_eqb s (lit "a") then 2 else 3).
  exists (lit "a = {}, b = {}"), (lit "a = {a}, b = {}"), i, [[]; lit "a = {}, b = {}"; lit "a"; lit "a = {a}, b = {}"].
  split; [|split; [|split; [|split]]]; try reflexivity.
  - split; [discriminate|]. split; [reflexivity|]. intros n v [H|[H|[]]]; try discriminate. injection H as <- <-. split; [discriminate|reflexivity].
  - split; [discriminate|]. split; [reflexivity|]. intros n v [H|[H|[]]]; try discriminate. injection H as <- <-. split; [discriminate|reflexivity].
  - intros X time. split; reflexivity.
Qed.
Print Assumptions C28_refuted.

(** ** C29 *)
(** Requests one after the other, over any number of builds: an answer belongs to one
    string, a string gets one answer, no answer is 0, and however the store orders its
    entries the table read from it gives the string of each answer ever given; and every
    string the store accepts is answered. *)
Theorem C29_interning : forall storable mode reqs st ans,
  requests storable mode no_strings reqs = (st, ans) -> N.of_nat (length reqs) < 2 ^ 32 \/ mode = Checked ->
  (forall s t i, In (s, i) ans -> In (t, i) ans -> s = t) /\
  (forall s i j, In (s, i) ans -> In (s, j) ans -> i = j) /\
  (forall s i, In (s, i) ans -> i <> 0) /\
  (forall entries s i, Permutation (i2s st) entries -> In (s, i) ans ->
     nth_error (read_interned_strings entries) (N.to_nat i) = Some s) /\
  (forall s, In s reqs -> storable s = true -> N.of_nat (length reqs) < 2 ^ 32 -> exists i, In (s, i) ans).
Proof.
  intros storable mode reqs st ans R Hw.
  destruct (requests_ok storable mode reqs no_strings st ans ok_empty (NoDup_nil _)) as (O & S1 & _ & F); auto.
  rewrite Forall_forall in F. destruct O as [O1 O2 O3]. split; [|split; [|split; [|split]]].
  - intros s t i H1 H2. apply F in H1, H2. cbn in *.
    assert (G : forall l : list (N * txt), NoDup (map fst l) -> In (i, s) l -> In (i, t) l -> s = t).
    { induction l as [|[j u] l IH]; cbn; [tauto|]. intros N A B. inversion N; subst. destruct A as [A|A], B as [B|B]; try congruence; auto.
      - injection A as -> ->. exfalso. match goal with X : ~ In _ _ |- _ => apply X end. apply in_map_iff. exists (i, t). auto.
      - injection B as -> ->. exfalso. match goal with X : ~ In _ _ |- _ => apply X end. apply in_map_iff. exists (i, s). auto. }
    eapply G; eauto.
  - intros s i j H1 H2. apply F in H1, H2. cbn in *. apply O3 in H1, H2.
    pose proof (lookup_in _ _ _ S1 H1). pose proof (lookup_in _ _ _ S1 H2). congruence.
  - intros s i H. apply F in H. cbn in H. apply O2 in H. lia.
  - intros entries s i P H. apply F in H. cbn in H. unfold read_interned_strings.
    refine (proj1 (fold_put entries [] _) i s _).
    + eapply Permutation_NoDup; [apply Permutation_map; exact P|auto].
    + eapply Permutation_in; eauto.
  - intros s H St Hl. exact (requests_served storable mode reqs no_strings st ans ok_empty (NoDup_nil _) Hl R s H St).
Qed.
Print Assumptions C29_interning.
Example C29_case : requests (fun s => negb (txt_eqb s [])) Checked no_strings [lit "a"; lit "b"; []; lit "a"; lit "c"] =
  (Stores 3 [(lit "c", 3); (lit "b", 2); (lit "a", 1)] [(3, lit "c"); (2, lit "b"); (1, lit "a")],
   [(lit "a", 1); (lit "b", 2); (lit "a", 1); (lit "c", 3)]) /\
  read_interned_strings [(2, lit "b"); (3, lit "c"); (1, lit "a")] = [[]; lit "a"; lit "b"; lit "c"].
Proof. split; reflexivity. Qed.

(** With compilations running at the same time, an answer still belongs to one string,
    is not 0, and is in the table. Missing: one answer per string, see
    [C29_concurrent_refuted]. *)
Theorem C29_concurrent_partial : forall storable mode acts,
  N.of_nat (length acts) < 2 ^ 32 \/ mode = Checked ->
  let w := whistory storable mode acts in
  (forall s t i, In (s, i) (w_answers w) -> In (t, i) (w_answers w) -> s = t) /\
  (forall s i, In (s, i) (w_answers w) -> i <> 0) /\
  (forall entries s i, Permutation (i2s (w_st w)) entries -> In (s, i) (w_answers w) ->
     nth_error (read_interned_strings entries) (N.to_nat i) = Some s).
Proof.
  intros storable mode acts Hw w.
  destruct (wsteps_ok storable mode acts (World no_strings [] [])) as ((O & F) & _); auto.
  { split; [apply ok_empty|constructor]. }
  fold (whistory storable mode acts) in O, F. fold w in O, F. rewrite Forall_forall in F. destruct O as [O1 O2 O3].
  assert (T : forall entries s i, Permutation (i2s (w_st w)) entries -> In (s, i) (w_answers w) ->
     nth_error (read_interned_strings entries) (N.to_nat i) = Some s).
  { intros entries s i P H. apply F in H. cbn in H. unfold read_interned_strings.
    refine (proj1 (fold_put entries [] _) i s _).
    + eapply Permutation_NoDup; [apply Permutation_map; exact P|auto].
    + eapply Permutation_in; eauto. }
  split; [|split; auto].
  - intros s t i H1 H2. pose proof (T _ _ _ (Permutation_refl _) H1). pose proof (T _ _ _ (Permutation_refl _) H2). congruence.
  - intros s i H. apply F in H. cbn in H. apply O2 in H. lia.
Qed.
Print Assumptions C29_concurrent_partial.
Theorem C29_concurrent_refuted : exists acts s i j, forall mode,
  let w := whistory (fun _ => true) mode acts in
  i <> j /\ In (s, i) (w_answers w) /\ In (s, j) (w_answers w).
Proof.
  exists [Look 0 (lit "a"); Look 1 (lit "a"); Store 0; Store 1], (lit "a"), 1, 2.
  intros mode w. split; [discriminate|]. split; [left|right; left]; reflexivity.
Qed.
Print Assumptions C29_concurrent_refuted.
(** An interleaving where it goes well. *)
Example C29_concurrent_case :
  w_answers (whistory (fun _ => true) Checked [Look 0 (lit "a"); Store 0; Look 1 (lit "a"); Look 2 (lit "b"); Store 2]) =
  [(lit "a", 1); (lit "a", 1); (lit "b", 2)].
Proof. reflexivity. Qed.

(** ** C57 *)
(** The text export of a log of debug! calls with unnamed parameters prints, in order,
    one line per call: its time, and the message with the parameters in their places. *)
Record call := Call { c_time : N; c_fmt : txt; c_pieces : list txt; c_args : list value }.
Definition call_entry (intern : txt -> N) (c : call) : log_entry :=
  debug_entry intern (c_time c) (c_fmt c) (map Unnamed (c_args c)).
Definition call_ok (X : formats) (intern : txt -> N) (strings : list txt) (c : call) : Prop :=
  ubits 64 (c_time c) /\ ubits 32 (intern (c_fmt c)) /\ intern (c_fmt c) <> 0 /\
  nth_error strings (N.to_nat (intern (c_fmt c))) = Some (c_fmt c) /\
  Forall wf_value (c_args c) /\ ubits 64 (N.of_nat (length (c_args c))) /\
  pieces_of (c_fmt c) (c_pieces c) /\ harmless (c_pieces c) (map (show X) (c_args c)).
Theorem C57_text_export_partial : forall X intern strings calls, Forall (call_ok X intern strings) calls ->
  textlog_dump X strings (flat_map (fun c => enc_entry (call_entry intern c)) calls) =
  (map (fun c => Line (show_time X (c_time c) ++ lit ": " ++ fill (c_pieces c) (map (show X) (c_args c)))) calls, false).
Proof.
  intros X intern strings calls H. rewrite Forall_forall in H.
  assert (U : forall l, unnamed_of (map Unnamed l) = l).
  { induction l as [|v l IH]; auto. unfold unnamed_of in *. cbn. rewrite IH. reflexivity. }
  assert (M : forall l, named_of (map Unnamed l) = []).
  { induction l as [|v l IH]; auto. }
  assert (E : forall c, call_entry intern c = LogEntry (c_time c) (intern (c_fmt c)) (map (fun _ => 0) (c_args c)) (c_args c)).
  { intros c. unfold call_entry, debug_entry. rewrite U, M. cbn. rewrite !app_nil_r. reflexivity. }
  assert (R : forall c, In c calls -> rebuild_logline X strings (call_entry intern c) = Ret (Some (fill (c_pieces c) (map (show X) (c_args c))))).
  { intros c Hc. destruct (H c Hc) as (_ & _ & A3 & A4 & _ & _ & A7 & A8).
    rewrite E. eapply C26_line_partial; eauto. }
  assert (FM : flat_map (fun c => enc_entry (call_entry intern c)) calls = flat_map enc_entry (map (call_entry intern) calls)).
  { clear. induction calls as [|c l IH]; cbn; auto. rewrite IH. reflexivity. }
  unfold textlog_dump. rewrite FM, <- (app_nil_r (flat_map _ _)), textlog_entries.
  - rewrite map_map. f_equal. apply map_ext_in. intros c Hc. rewrite R by auto. reflexivity.
  - apply Forall_map, Forall_forall. intros c Hc. destruct (H c Hc) as (A1 & A2 & A3 & A4 & A5 & A6 & _).
    rewrite E. unfold entry_ok. cbn. rewrite map_length. repeat split; auto.
    apply Forall_map, Forall_forall. intros. reflexivity.
  - apply Forall_map, Forall_forall. intros c Hc. destruct (H c Hc) as (A1 & A2 & A3 & _). exact A3.
  - apply dec_entry_nil.
  - rewrite app_nil_r. pose proof (flat_map_long enc_entry (map (call_entry intern) calls) enc_entry_nonempty). lia.
  - apply Forall_map, Forall_forall. intros c Hc. eexists. apply R. auto.
Qed.
Print Assumptions C57_text_export_partial.
Example C57_case : let intern := (fun _ => 1) in let c := Call 7 (lit "x = {}") [lit "x = "; []] [VU8 3] in
  call_ok plain_X intern [[]; lit "x = {}"] c /\
  textlog_dump plain_X [[]; lit "x = {}"] (enc_entry (call_entry intern c) ++ enc_entry (call_entry intern c)) =
  ([Line (lit "7 ns: x = 3"); Line (lit "7 ns: x = 3")], false).
Proof.
  cbv zeta. split; [|reflexivity]. unfold call_ok, ubits. cbn [c_time c_fmt c_args c_pieces length].
  repeat split; try lia; try discriminate; try (repeat constructor; unfold ubits; lia).
  - repeat constructor; intros H;
    repeat (apply hp_cons in H; destruct H as [[H1 H2]|H]; [discriminate|]); first [exact (hp_one _ H)|exact (hp_nil H)].
  - repeat constructor; discriminate.
Qed.

(** With a named parameter the time is printed twice. *)
Theorem C57_named_refuted : exists strings e fmt l, nth_error strings (N.to_nat (le_msg e)) = Some fmt /\
  fmt = lit "a = {a}" /\
  forall X, (forall f, strfmt X fmt f = match f (lit "a") with Some v => Some (lit "a = " ++ v) | None => None end) ->
  l = lit "a = 3" /\
  textlog_dump X strings (enc_entry e) = ([Line (show_time X 7 ++ lit ": " ++ show_time X 7 ++ lit ": " ++ l)], false).
Proof.
  exists [[]; lit "a = {a}"; lit "a"], (LogEntry 7 1 [2] [VU8 3]), (lit "a = {a}"), (lit "a = 3").
  split; [reflexivity|]. split; [reflexivity|]. intros X H. split; [reflexivity|].
  unfold textlog_dump.
  pose proof (textlog_entries X [[]; lit "a = {a}"; lit "a"] [LogEntry 7 1 [2] [VU8 3]] []) as T.
  cbn [flat_map] in T. rewrite app_nil_r in T.
  assert (R : rebuild_logline X [[]; lit "a = {a}"; lit "a"] (LogEntry 7 1 [2] [VU8 3]) = Ret (Some (show_time X 7 ++ lit ": " ++ lit "a = 3"))).
  { change (rebuild_logline _ _ _) with (Ret (format_logline X 7 (lit "a = {a}") [] [(lit "a", lit "3")])).
    unfold format_logline. cbn [fold_left]. rewrite H. reflexivity. }
  rewrite app_nil_r in T. rewrite T.
  - cbn [map]. rewrite R. reflexivity.
  - repeat constructor; cbn; unfold ubits; lia.
  - repeat constructor. discriminate.
  - reflexivity.
  - pose proof (enc_entry_nonempty (LogEntry 7 1 [2] [VU8 3])). cbn [length] in *. destruct (enc_entry _); cbn [length]; [congruence|lia].
  - constructor; [eauto|constructor].
Qed.
Print Assumptions C57_named_refuted.
