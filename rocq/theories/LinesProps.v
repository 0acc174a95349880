(** The lines of a log on disk, written out or left by a program that died: theorems. *)
From Coq Require Import String List Arith NArith Bool Lia ZifyBool ZifyNat ZifyN.
From Verif Require Import Base BincodeModel BincodeSpec CodecModel CodecSpec CodecProofs ULogModel ULogSpec
  ULogProofs6 ULogProofs7 ULogProofs8 ULogProps ExportSpec ExportProofs DiedProps ValueModel LogModel LogSpec LogProofs LogProofs2 LogProps PySpec PyModel PyProps TextProps.
Import ListNotations.
Local Open Scope list_scope.
Local Open Scope N_scope.

(** * Proofs *)
Lemma entries_of_calls intern calls : concat (map (fun c => enc_entry (call_entry intern c)) calls) = flat_map enc_entry (map (call_entry intern) calls).
Proof. induction calls as [|c l IH]; cbn; auto. rewrite IH. reflexivity. Qed.
(** A stream of a program that died: what is left is a beginning of its values. *)
Lemma stream_died ps sz ops op sy sy' es es2 t i vals :
  page_ok ps -> (ps | sz) -> sizes_ok ps (ops ++ [op]) -> no_last (ops ++ [op]) ->
  session ps sz ops = Ret sy -> lstep ps sz sy op = Ret sy' ->
  lg_evs (sy_lg sy') = lg_evs (sy_lg sy) ++ es ++ es2 ->
  t <> TEmpty -> nth_error (opened (ops ++ [op])) i = Some t -> (forall j, nth_error (opened (ops ++ [op])) j = Some t -> j = i) ->
  Forall (fun v => v <> []) vals -> logged i (ops ++ [op]) = vals ->
  let fs := replay (lg_evs (sy_lg sy) ++ es) in
  exists n l k, asteps ps sz (0%nat, []) ops = Some (n, l) /\ leaves fs t (concat (firstn k vals)) /\ (k <= length vals)%nat /\
    ((length (closed_values i l) <= k)%nat \/ middle_full sz fs).
Proof.
  intros P1 P2 P3 P4 E1 E2 Ev Ht Hi Hu Ne Hl fs.
  assert (S1 : sizes_ok ps ops) by (intros t0 m Hin; apply (P3 t0 m), in_or_app; auto).
  assert (E3 : session ps sz (ops ++ [op]) = Ret sy').
  { unfold session in *. destruct (logger_new ps sz) as [lg|]; [|discriminate]. cbn in *. revert E1. generalize (mkSys lg []). clear -E2.
    induction ops as [|o ops IH]; intros s E1; cbn in *; [injection E1 as ->; now rewrite E2|]. destruct (lstep ps sz s o); [|discriminate]. cbn in *. auto. }
  pose proof (session_spec ps sz P1 ops S1) as H. rewrite E1 in H. destruct H as (G & _ & A).
  pose proof (session_spec ps sz P1 (ops ++ [op]) P3) as H. rewrite E3 in H. destruct H as (G' & _ & A').
  match type of A with _ = Some (?a, ?b) => set (n := a) in *; set (l := b) in * end.
  match type of A' with _ = Some (?a, ?b) => set (n' := a) in *; set (l' := b) in * end. clearbody n l n' l'. clear G G'.
  destruct (crash ps sz ops op sy sy' es es2 n l n' l' P1 P2 P3 P4 E1 E2 Ev A A') as (x & Q1 & Q2 & Q). fold fs in Q.
  destruct (Q t Ht) as (p & R & Hf).
  assert (As : astep ps sz (n, l) op = Some (n', l')).
  { clear -A A'. revert A A'. generalize (0%nat, @nil asec). induction ops as [|o ops IH]; intros s A A'; cbn [asteps app] in *.
    - injection A as ->. destruct (astep ps sz (n, l) op) as [[? ?]|]; [injection A' as -> ->; reflexivity|discriminate].
    - destruct (astep ps sz s o); [|discriminate]. eauto. }
  pose proof (stage_settled i _ _ _ _ _ _ _ _ _ A As Q1 Q2) as Sx.
  destruct (stage_leaves ps sz _ n' l' i t fs (firstn p x) RErr vals A' Ht Hi Hu Hl Ne
    (progress_trans _ _ _ (firstn_progress p x) Q2) (settled_firstn _ _ _ Sx) R (or_introl eq_refl)) as (rest & Er & Lv).
  exists n, l, (length (flat_map a_objs (first_closed (own i (firstn p x))))).
  split; [exact A|]. split; [|split].
  - rewrite Er, firstn_app, firstn_all, Nat.sub_diag. cbn [firstn]. rewrite app_nil_r. exact Lv.
  - rewrite Er, app_length. apply Nat.le_add_r.
  - destruct Hf as [->|Hf]; [left|right; exact Hf]. rewrite firstn_all. exact (closed_before i _ _ _ _ _ _ A Q1).
Qed.

(** * Specification *)
(** The line that a call prints. *)
Definition line_of (X : formats) (c : call) : printed := Line (show_time X (c_time c) ++ lit ": " ++ fill (c_pieces c) (map (show X) (c_args c))).

Lemma calls_read X intern strings calls k : Forall (call_ok X intern strings) calls ->
  let b := concat (firstn k (map (fun c => enc_entry (call_entry intern c)) calls)) in
  textlog_dump X strings b = (map (line_of X) (firstn k calls), false) /\
  forall cut, honest cut -> py_loop cut b = (map (call_entry intern) (firstn k calls), Done).
Proof.
  intros H b. assert (Hk : Forall (call_ok X intern strings) (firstn k calls)).
  { rewrite <- (firstn_skipn k calls) in H. apply Forall_app in H. apply H. }
  assert (Eb : b = flat_map enc_entry (map (call_entry intern) (firstn k calls))).
  { unfold b. rewrite firstn_map. apply entries_of_calls. }
  split.
  - pose proof (C57_text_export_partial X intern strings (firstn k calls) Hk) as C. rewrite Eb. etransitivity; [|exact C]. f_equal.
    clear. induction (firstn k calls) as [|c l IH]; cbn; auto. rewrite IH. reflexivity.
  - intros cut Hc. rewrite Eb, <- (app_nil_r (flat_map _ _)). rewrite Forall_forall in Hk. apply C111_iteration; auto.
    + apply Forall_map, Forall_forall. intros c Hin. destruct (Hk c Hin) as (A1 & A2 & A3 & A4 & A5 & A6 & _).
      rewrite call_entry_eq. unfold entry_ok. cbn. rewrite map_length. repeat split; auto. apply Forall_map, Forall_forall. intros. reflexivity.
    + apply Forall_map, Forall_forall. intros c Hin. destruct (Hk c Hin) as (A1 & A2 & A3 & _). exact A3.
    + apply (tail_cut _ (LogEntry 5 7 [0] [VU8 3])); [|eexists; split; [|reflexivity]; discriminate].
      unfold entry_ok, ubits. repeat constructor; cbn; unfold ubits; try lia.
Qed.

(** ** C171 *)
(** A log that was closed: all its lines. *)
Theorem C171_lines : forall X intern strings calls ps slab_size ops sy lg i,
  Forall (call_ok X intern strings) calls -> calls <> [] ->
  page_ok ps -> sizes_ok ps ops -> no_last ops ->
  session ps slab_size ops = Ret sy -> all_closed sy -> logger_drop ps slab_size (sy_lg sy) = Ret lg ->
  nth_error (opened ops) i = Some TStructured -> (forall j, nth_error (opened ops) j = Some TStructured -> j = i) ->
  logged i ops = map (fun c => enc_entry (call_entry intern c)) calls ->
  exists b, delivers (lg_files lg) TStructured b /\ textlog_dump X strings b = (map (line_of X) calls, false) /\
    forall cut, honest cut -> py_loop cut b = (map (call_entry intern) calls, Done).
Proof.
  intros X intern strings calls ps sz ops sy lg i H Hn P1 P2 P3 E Hc Hd Hi Hu Hl.
  exists (concat (map (fun c => enc_entry (call_entry intern c)) calls)). split.
  - eapply delivers_stream; eauto; [discriminate| |destruct calls; [congruence|discriminate]].
    apply Forall_map, Forall_forall. intros c _. apply enc_entry_nonempty.
  - pose proof (calls_read X intern strings calls (length calls) H) as C. cbv zeta in C.
    rewrite firstn_all2 in C by (rewrite map_length; lia). rewrite firstn_all in C. exact C.
Qed.
Print Assumptions C171_lines.

(** The program dies during the operation [op], after any prefix [es] of its effects on the files:
    a beginning of the lines. (Reading may end with an error after [b]; what is printed is that of [b].) *)
Theorem C171_died : forall X intern strings calls ps slab_size ops op sy sy' es es2 i,
  Forall (call_ok X intern strings) calls ->
  page_ok ps -> (ps | slab_size) -> sizes_ok ps (ops ++ [op]) -> no_last (ops ++ [op]) ->
  session ps slab_size ops = Ret sy -> lstep ps slab_size sy op = Ret sy' ->
  lg_evs (sy_lg sy') = lg_evs (sy_lg sy) ++ es ++ es2 ->
  nth_error (opened (ops ++ [op])) i = Some TStructured -> (forall j, nth_error (opened (ops ++ [op])) j = Some TStructured -> j = i) ->
  logged i (ops ++ [op]) = map (fun c => enc_entry (call_entry intern c)) calls ->
  let fs := replay (lg_evs (sy_lg sy) ++ es) in
  exists n l k b, asteps ps slab_size (0%nat, []) ops = Some (n, l) /\ leaves fs TStructured b /\ (k <= length calls)%nat /\
    ((length (closed_values i l) <= k)%nat \/ middle_full slab_size fs) /\
    fst (textlog_dump X strings b) = map (line_of X) (firstn k calls) /\
    forall cut, honest cut -> fst (py_loop cut b) = map (call_entry intern) (firstn k calls).
Proof.
  intros X intern strings calls ps sz ops op sy sy' es es2 i H P1 P2 P3 P4 E1 E2 Ev Hi Hu Hl fs.
  assert (Ne : Forall (fun v => v <> []) (map (fun c => enc_entry (call_entry intern c)) calls)).
  { apply Forall_map, Forall_forall. intros c _. apply enc_entry_nonempty. }
  destruct (stream_died ps sz ops op sy sy' es es2 TStructured i _ P1 P2 P3 P4 E1 E2 Ev ltac:(discriminate) Hi Hu Ne Hl) as (n & l & k & Q1 & Q2 & Q3 & Q4).
  rewrite map_length in Q3. fold fs in Q2, Q4.
  destruct (calls_read X intern strings calls k H) as [C1 C2]. eexists n, l, k, _. split; [exact Q1|]. split; [exact Q2|]. split; [exact Q3|]. split; [exact Q4|].
  split; [exact (f_equal fst C1)|]. intros cut Hc. exact (f_equal fst (C2 cut Hc)).
Qed.
Print Assumptions C171_died.

(** Five calls in sections of at most two lines; the program dies while it logs the last. *)
Definition ex_fmt : txt := lit "x = {}".
Definition ex_strings : list txt := [[]; ex_fmt].
Definition ex_intern (_ : txt) : N := 1.
Definition ex_calls : list call := map (fun n => Call (10 * n) ex_fmt [lit "x = "; []] [VU8 n]) [1; 2; 3; 4; 5].
Definition ex_lines : list bytes := Eval vm_compute in map (fun c => enc_entry (call_entry ex_intern c)) ex_calls.
Definition ex_line_ops : list lop := [LOpen TStructured 32; LOpen TCopperList 30] ++ map (fun b => LLog 0 (ex_obj b)) (firstn 4 ex_lines) ++ [LLog 1 (ex_obj [4; 5])].
Definition ex_line_op : lop := LLog 0 (ex_obj (nth 4 ex_lines [])).
Definition ex_line_probe (sy : sys) : option (nat * option (list bytes * bool)) :=
  match lstep 16 256 sy ex_line_op with
  | Ret sy' =>
      let es := skipn (length (lg_evs (sy_lg sy))) (lg_evs (sy_lg sy')) in
      Some (length es, read_log (replay (lg_evs (sy_lg sy) ++ firstn 7 es)) TStructured)
  | Panic => None
  end.
Definition ex_line_probed := Some (12%nat, Some ([concat (firstn 2 ex_lines); concat (firstn 2 (skipn 2 ex_lines)); []], false)).
Lemma ex_line_read : match session 16 256 ex_line_ops with Ret sy => Some (ex_line_probe sy) | Panic => None end = Some ex_line_probed.
Proof. vm_compute. reflexivity. Qed.
Lemma ex_calls_ok : Forall (call_ok plain_X ex_intern ex_strings) ex_calls.
Proof.
  unfold ex_calls. cbn [map]. repeat (apply Forall_cons; [|]); try apply Forall_nil.
  all: unfold call_ok, ubits, ex_intern, ex_fmt, ex_strings; cbn [c_time c_fmt c_args c_pieces length]; repeat split; try lia; try discriminate; try (repeat constructor; unfold ubits; lia).
  all: first [repeat constructor; discriminate|
    repeat constructor; intros H; repeat (apply hp_cons in H; destruct H as [[H1 H2]|H]; [discriminate|]); first [exact (hp_one _ H)|exact (hp_nil H)]].
Qed.
Example C171_case : page_ok 16 /\ (16 | 256) /\ sizes_ok 16 (ex_line_ops ++ [ex_line_op]) /\ no_last (ex_line_ops ++ [ex_line_op]) /\
  Forall (call_ok plain_X ex_intern ex_strings) ex_calls /\ opened (ex_line_ops ++ [ex_line_op]) = [TStructured; TCopperList] /\
  logged 0 (ex_line_ops ++ [ex_line_op]) = map (fun c => enc_entry (call_entry ex_intern c)) ex_calls /\
  exists sy sy' es es2, session 16 256 ex_line_ops = Ret sy /\ lstep 16 256 sy ex_line_op = Ret sy' /\
    lg_evs (sy_lg sy') = lg_evs (sy_lg sy) ++ es ++ es2 /\ length es = 7%nat /\ length es2 = 5%nat /\
    reads (replay (lg_evs (sy_lg sy) ++ es)) TStructured [concat (firstn 2 ex_lines); concat (firstn 2 (skipn 2 ex_lines)); []] RErr /\
    textlog_dump plain_X ex_strings (concat (firstn 4 ex_lines)) =
      ([Line (lit "10 ns: x = 1"); Line (lit "20 ns: x = 2"); Line (lit "30 ns: x = 3"); Line (lit "40 ns: x = 4")], false).
Proof.
  split; [exact ex_page|]. split; [exists 16; reflexivity|]. assert (S : sizes_ok 16 (ex_line_ops ++ [ex_line_op])) by sizes. split; [exact S|]. split; [nolast|].
  split; [exact ex_calls_ok|]. split; [reflexivity|]. split; [reflexivity|].
  destruct (session_run 16 256 ex_line_ops ex_line_probe ex_line_probed ex_line_read) as (sy & E & H). unfold ex_line_probe, ex_line_probed in H.
  destruct (lstep 16 256 sy ex_line_op) as [sy'|] eqn:E2; [|discriminate].
  pose proof (step_evs _ _ _ _ _ _ ex_page S E E2) as Ee. cbv zeta in H.
  set (es := skipn (length (lg_evs (sy_lg sy))) (lg_evs (sy_lg sy'))) in *. injection H as H1 H2.
  exists sy, sy', (firstn 7 es), (skipn 7 es). split; [exact E|]. split; [exact E2|].
  split; [rewrite firstn_skipn; exact Ee|]. split; [rewrite firstn_length, H1; reflexivity|]. split; [rewrite skipn_length, H1; reflexivity|].
  split; [exact (read_log_sound _ _ _ _ H2)|reflexivity].
Qed.
(** The same log closed properly. *)
Definition ex_closed_ops : list lop := ex_line_ops ++ [ex_line_op; LClose 1; LClose 0].
Example C171_closed_case : exists sy lg, session 16 256 ex_closed_ops = Ret sy /\ all_closed sy /\ logger_drop 16 256 (sy_lg sy) = Ret lg /\
  sizes_ok 16 ex_closed_ops /\ no_last ex_closed_ops /\ opened ex_closed_ops = [TStructured; TCopperList] /\
  logged 0 ex_closed_ops = map (fun c => enc_entry (call_entry ex_intern c)) ex_calls.
Proof.
  destruct (full_run 16 256 ex_closed_ops (fun sy lg => none_left sy) true) as (sy & lg & E1 & E2 & H); [vm_compute; reflexivity|].
  exists sy, lg. split; [exact E1|]. split; [now apply none_left_spec|]. split; [exact E2|]. split; [sizes|]. split; [nolast|]. split; reflexivity.
Qed.
