(** Properties C104-C109: building an application. *)
From Coq Require Import String List Arith NArith ZArith Bool Lia.
From Verif Require Import Base ConfigModel PlanModel PlanSpec AppModel AppSpec AppProofs.
Import ListNotations.
Local Open Scope list_scope.
Local Open Scope nat_scope.

(** Two configurations with the same two tasks, in both orders, and one with one task. *)
Definition ex_a : node := Node "a" (Some "A"%string) (Some [("gain", CInt 1%Z)])%string.
Definition ex_b : node := Node "b" (Some "B"%string) (Some [("gain", CInt 2%Z)])%string.
Definition ex_ab : config := Config [ex_a; ex_b] [] None None.
Definition ex_ba : config := Config [ex_b; ex_a] [] None None.
Definition ex_one : config := Config [ex_a] [] None None.
Definition ex_repr : repr := Repr [ex_a; ex_b] [] None None.
Definition ex_create (i : nat) (p : option params) : outcome (nat + string) := Ret (inl i).
Definition ex_monitor (c : config) : outcome unit := Ret tt.
(** A logger with sections of two MiB in slabs of one MiB. *)
Definition ex_bad : config := Config [ex_a; ex_b] [] None (Some (LoggingConfig (Some 1%N) (Some 2%N) true)).

(** ** C104 *)
(** The configuration given by program is used, else that of the file, else the compiled one,
    wherever it comes from with the same effect; a file that cannot be read, or a text with
    sections larger than slabs, is an error before anything is created. *)
Theorem C104_partial : forall task monitor (create : nat -> option params -> outcome (task + string))
  (create_monitor : config -> outcome monitor) sz mode n sim orig f ov tr r,
  app_new create create_monitor sz mode n sim orig f ov = (tr, r) ->
  (forall c, In c (monitors tr) -> in_use ov f orig c) /\
  (forall a, r = Ret (inl a) -> exists c, in_use ov f orig c /\ monitors tr = [c] /\
     (ov = None -> sizes_ok c)) /\
  (forall c, in_use ov f orig c -> (ov = None -> sizes_ok c) ->
     app_new create create_monitor sz mode n sim orig f (Some c) = (tr, r)) /\
  (forall t c, ov = None -> text_in_use f orig t -> describes t c -> ~ sizes_ok c ->
     (tr, r) = ([], Ret (inr BadSizes))) /\
  (ov = None -> f = Unreadable -> (tr, r) = ([], Ret (inr ReadFailed))).
Proof.
  intros task monitor create create_monitor sz mode n sim orig f ov tr r H.
  assert (M : forall c, In c (monitors tr) -> choose ov f orig = Ret (inl c)).
  { intros c Hc. unfold app_new in H. destruct (choose ov f orig) as [[c'|]|]; [|injection H as <- _; destruct Hc..].
    do 2 f_equal. destruct (section_size mode sz c') as [size|]; [|injection H as <- _; destruct Hc].
    unfold runtime_new in H.
    pose proof (instanciate_monitors create (all_instances_configs c') n 0) as I.
    pose proof (callbacks_monitors (all_instances_configs c') n 0) as J.
    destruct (instanciate create (all_instances_configs c') 0 n) as [tr1 [[ts|e]|]]; cbn [fst] in I.
    - assert (In c (monitors (tr1 ++ [Monitor c']))) as G.
      { destruct (create_monitor c') as [m|]; cbn [obind] in H; [destruct sim|].
        + destruct (callbacks (all_instances_configs c') 0 n) as [tr2 r2]. cbn [fst] in J.
          injection H as <- _. cbn in Hc. rewrite !monitors_app, J, app_nil_r in Hc. rewrite monitors_app. exact Hc.
        + injection H as <- _. exact Hc.
        + injection H as <- _. exact Hc. }
      rewrite monitors_app, I in G. destruct G as [<-|[]]. reflexivity.
    - injection H as <- _. cbn in Hc. unfold monitors in I. rewrite I in Hc. destruct Hc.
    - injection H as <- _. cbn in Hc. unfold monitors in I. rewrite I in Hc. destruct Hc. }
  split; [|split; [|split; [|split]]].
  - intros c Hc. apply choose_ok. auto.
  - intros a ->. unfold app_new in H. destruct (choose ov f orig) as [[c|]|] eqn:Ch; try discriminate.
    exists c. split; [apply choose_ok; exact Ch|].
    assert (Mo : monitors tr = [c]).
    { destruct (section_size mode sz c) as [size|]; [|discriminate]. unfold runtime_new in H.
      pose proof (instanciate_monitors create (all_instances_configs c) n 0) as I.
      pose proof (callbacks_monitors (all_instances_configs c) n 0) as J.
      destruct (instanciate create (all_instances_configs c) 0 n) as [tr1 [[ts|e]|]]; cbn [fst] in I; try discriminate.
      destruct (create_monitor c) as [m|]; cbn [obind] in H; [|discriminate]. destruct sim.
      - destruct (callbacks (all_instances_configs c) 0 n) as [tr2 r2]. cbn [fst] in J.
        injection H as <- _. change (monitors ((tr1 ++ [Monitor c]) ++ tr2) = [c]).
        rewrite !monitors_app, I, J. reflexivity.
      - injection H as <- _. change (monitors (tr1 ++ [Monitor c]) = [c]).
        rewrite !monitors_app, I. reflexivity. }
    split; [exact Mo|].
    intros ->. exact (choose_valid f orig c Ch).
  - intros c U V. rewrite <- H. unfold app_new. replace (choose ov f orig) with (choose (Some c) f orig); [reflexivity|].
    destruct U as [->|[-> (t & T & De)]]; [reflexivity|]. rewrite (choose_text _ _ _ T).
    rewrite (proj1 (read_describes t c De) (V eq_refl)). reflexivity.
  - intros t c -> T De V. rewrite <- H. unfold app_new. rewrite (choose_text _ _ _ T).
    rewrite (proj2 (read_describes t c De) V). reflexivity.
  - intros -> ->. rewrite <- H. reflexivity.
Qed.
Print Assumptions C104_partial.

Example C104_ex : in_use None Absent (Some ex_repr) ex_ab /\ sizes_ok ex_ab /\
  in_use None (Text (Some ex_repr)) None ex_ab /\ in_use (Some ex_ba) (Text (Some ex_repr)) None ex_ba /\
  snd (app_new ex_create ex_monitor 100 Checked 2 false (Some ex_repr) Absent None) = Ret (inl (App [0; 1] tt true)).
Proof.
  assert (D : describes (Some ex_repr) ex_ab) by (exists ex_repr; split; reflexivity).
  split; [right; split; [reflexivity|]; exists (Some ex_repr); split; [right; auto|exact D]|].
  split; [intros l a b E; discriminate|].
  split; [right; split; [reflexivity|]; exists (Some ex_repr); split; [left; auto|exact D]|].
  split; [left; reflexivity|]. reflexivity.
Qed.

(** Not every configuration that cannot be used gives an error: a text that is not a
    configuration panics, and so does one whose connections name no task. *)
Theorem C104_refuted : exists f r,
  (f = Text None /\ app_new ex_create ex_monitor 100 Checked 2 false (Some ex_repr) f None = ([], Panic)) /\
  app_new ex_create ex_monitor 100 Checked 2 false (Some ex_repr) (Text (Some r)) None = ([], Panic) /\
  exists x, In x (r_cnx r) /\ ~ In (x_dst x) (map n_id (r_tasks r)).
Proof.
  exists (Text None), (Repr [ex_a; ex_b] [Cnx "a" "c" "M" None None] None None)%string.
  split; [split; reflexivity|]. split; [reflexivity|].
  exists (Cnx "a" "c" "M" None None)%string. split; [left; reflexivity|]. cbn. intros [H|[H|[]]]; discriminate.
Qed.
Print Assumptions C104_refuted.

(** The sizes of a configuration given by program are not checked. *)
Theorem C104_sizes_refuted : exists c tr a, ~ sizes_ok c /\
  app_new ex_create ex_monitor 100 Checked 2 false (Some ex_repr) Absent (Some c) = (tr, Ret (inl a)).
Proof.
  exists ex_bad. eexists. eexists. split; [|reflexivity].
  intros H. specialize (H _ 1%N 2%N eq_refl eq_refl eq_refl). lia.
Qed.
Print Assumptions C104_sizes_refuted.

(** ** C105 *)
(** When the configuration in use has the tasks compiled in first and in the same order, each
    task is created once, in order, with its own parameters; the first that fails stops the
    creation and is named in the error; the simulation is told the same parameters. *)
Theorem C105_partial : forall task monitor (create : nat -> option params -> outcome (task + string))
  (create_monitor : config -> outcome monitor) sz mode ids sim orig f ov tr r,
  app_new create create_monitor sz mode (length ids) sim orig f ov = (tr, r) ->
  (forall c, in_use ov f orig c -> same_tasks ids c) ->
  exists k, k <= length ids /\ map fst (creations tr) = seq 0 k /\
    Forall (fun x => exists c, in_use ov f orig c /\ own_parameters ids c x) (creations tr) /\
    match r with
    | Ret (inl a) => k = length ids /\
        Forall2 (fun x t => create (fst x) (snd x) = Ret (inl t)) (creations tr) (a_tasks a) /\
        told tr = (if sim then creations tr else [])
    | Ret (inr (TaskFailed i s)) => k = S i /\ told tr = [] /\
        exists p, nth_error (creations tr) i = Some (i, p) /\ create i p = Ret (inr s)
    | Ret (inr _) => k = 0
    | Panic => told tr = [] /\
        (k = 0 \/ (exists p, nth_error (creations tr) (k - 1) = Some (k - 1, p) /\ create (k - 1) p = Panic) \/
        (exists c, in_use ov f orig c /\ create_monitor c = Panic))
    end.
Proof.
  intros task monitor create create_monitor sz mode ids sim orig f ov tr r H S.
  assert (Z : forall (P : list (nat * option params) -> Prop), P [] -> tr = [] -> P (creations tr)) by (intros P ? ->; auto).
  destruct (choose ov f orig) as [[c|e]|] eqn:Ch.
  2: { unfold app_new in H. rewrite Ch in H. injection H as <- <-. exists 0. split; [lia|]. split; [reflexivity|].
       split; [constructor|]. unfold choose in Ch. destruct ov; [discriminate|].
       assert (N : forall t, read_str t = Ret (inr e) -> e = BadSizes).
       { intros t E. unfold read_str in E. destruct t as [q|]; [|discriminate].
         destruct (read_configuration q) as [[|]|]; try discriminate. cbn in E. congruence. }
       destruct f; [rewrite (N _ Ch)|injection Ch as <-|rewrite (N _ Ch)]; reflexivity. }
  2: { unfold app_new in H. rewrite Ch in H. injection H as <- <-. exists 0. split; [lia|]. split; [reflexivity|].
       split; [constructor|]. split; [reflexivity|]. auto. }
  pose proof (choose_ok _ _ _ _ Ch) as U. pose proof (S c U) as Sc.
  destruct (section_size mode sz c) as [size|] eqn:Si.
  2: { unfold app_new in H. rewrite Ch, Si in H. injection H as <- <-. exists 0. split; [lia|]. split; [reflexivity|].
       split; [constructor|]. split; [reflexivity|]. auto. }
  assert (L : length ids <= length (c_nodes c)).
  { destruct Sc as [more E]. apply (f_equal (@length _)) in E. rewrite map_length, app_length in E. lia. }
  destruct (app_new_spec create create_monitor sz mode _ _ _ _ _ _ _ _ _ H Ch Si L) as (_ & k & K & Q & F & R).
  exists k. split; [exact K|]. split; [exact Q|].
  assert (Len : length (creations tr) = k) by (rewrite <- (map_length fst), Q, seq_length; reflexivity).
  split.
  { rewrite Forall_forall in *. intros [i p] Hx. exists c. split; [exact U|].
    apply (same_tasks_own ids c i p Sc); [|exact (F _ Hx)].
    apply (in_map fst) in Hx. rewrite Q in Hx. apply in_seq in Hx. cbn in Hx. lia. }
  assert (Nth : forall p, creations tr = removelast (creations tr) ++ [(k - 1, p)] -> 0 < k ->
                nth_error (creations tr) (k - 1) = Some (k - 1, p)).
  { intros p E K0. rewrite E. pose proof (f_equal (@length _) E) as Le. rewrite app_length in Le. cbn in Le.
    rewrite nth_error_app2 by lia. replace (k - 1 - length (removelast (creations tr))) with 0 by lia. reflexivity. }
  destruct r as [[a|e]|].
  - destruct R as (R1 & R2 & _ & _ & _ & R3). auto.
  - destruct R as (_ & T & p & s & E & K0 & Cr & -> & _). split; [lia|]. split; [exact T|]. exists p. auto.
  - destruct R as (T & [(p & E & K0 & Cr)|[M _]]).
    + split; [exact T|]. right. left. exists p. auto.
    + split; [exact T|]. right. right. exists c. auto.
Qed.
Print Assumptions C105_partial.

Example C105_ex : (forall c, in_use None (Text (Some ex_repr)) None c -> same_tasks ["a"; "b"]%string c) /\
  creations (fst (app_new ex_create ex_monitor 100 Checked 2 true None (Text (Some ex_repr)) None)) =
    [(0, n_config ex_a); (1, n_config ex_b)] /\
  let fails i p := if i =? 1 then Ret (inr "no"%string) else ex_create i p in
  app_new fails ex_monitor 100 Checked 2 true None (Text (Some ex_repr)) None =
    ([Stream 6400; Create 0 (n_config ex_a); Create 1 (n_config ex_b)], Ret (inr (TaskFailed 1 "no"))).
Proof.
  split; [|split; reflexivity].
  intros c [H|[_ (t & [H|[H _]] & r & -> & D)]]; try discriminate. injection H as <-.
  injection D as <-. exists []. reflexivity.
Qed.

(** With the tasks in another order, a task gets the parameters of another one. *)
Theorem C105_refuted : exists tr a, (* the tasks compiled in are "a" and "b" *)
  app_new ex_create ex_monitor 100 Checked 2 false (Some ex_repr) Absent (Some ex_ba) = (tr, Ret (inl a)) /\
  exists x, In x (creations tr) /\ ~ own_parameters ["a"; "b"]%string ex_ba x.
Proof.
  eexists. eexists. split; [reflexivity|]. exists (0, n_config ex_b). split; [left; reflexivity|].
  intros (id & H & nd & [<-|[<-|[]]] & E & G); cbn in H; injection H as <-; discriminate.
Qed.
Print Assumptions C105_refuted.

(** With a task less, building panics after the others were created. *)
Theorem C105_fewer_refuted :
  app_new ex_create ex_monitor 100 Checked 2 false (Some ex_repr) Absent (Some ex_one) =
    ([Stream 6400; Create 0 (n_config ex_a)], Panic).
Proof. reflexivity. Qed.
Print Assumptions C105_fewer_refuted.

(** ** C106 *)
(** Whatever calls were made on a builder and in whatever order, it hands over the last
    clock, logger, configuration and callback given, and reports a missing one. *)
Theorem C106_builder : forall C L F sim (calls : list (setter C L F)) res,
  build sim (fold_left call calls builder_new) = res <->
  exists ck lg cf cb, last_given clock_of calls ck /\ last_given logger_of calls lg /\
    last_given config_of calls cf /\ last_given callback_of calls cb /\
    res = match ck, lg, cb with
          | None, _, _ => inr ClockMissing
          | _, None, _ => inr LoggerMissing
          | Some k, Some l, Some f => inl (k, l, cf, if sim then Some f else None)
          | Some k, Some l, None => if sim then inr CallbackMissing else inl (k, l, cf, None)
          end.
Proof.
  intros C L F sim calls res. destruct (calls_spec calls) as (I1 & I2 & I3 & I4).
  set (b := fold_left call calls builder_new) in *.
  assert (B : build sim b = match b_clock b, b_logger b, b_callback b with
          | None, _, _ => inr ClockMissing
          | _, None, _ => inr LoggerMissing
          | Some k, Some l, Some f => inl (k, l, b_config b, if sim then Some f else None)
          | Some k, Some l, None => if sim then inr CallbackMissing else inl (k, l, b_config b, None)
          end).
  { unfold build. destruct (b_clock b), (b_logger b), (b_callback b), sim; reflexivity. }
  split.
  - intros <-. exists (b_clock b), (b_logger b), (b_config b), (b_callback b). auto 10.
  - intros (ck & lg & cf & cb & H1 & H2 & H3 & H4 & ->). rewrite B.
    rewrite (last_given_fun _ _ _ _ H1 I1), (last_given_fun _ _ _ _ H2 I2),
      (last_given_fun _ _ _ _ H3 I3), (last_given_fun _ _ _ _ H4 I4). reflexivity.
Qed.
Print Assumptions C106_builder.

Example C106_ex :
  let calls := [SetClock 1; SetConfig ex_ab; SetContext 2 "log"%string; SetConfig ex_ba] : list (setter nat string unit) in
  build false (fold_left call calls builder_new) = inl (2, "log"%string, Some ex_ba, None) /\
  build true (fold_left call calls builder_new) = inr CallbackMissing.
Proof. split; reflexivity. Qed.

(** ** C107 *)
(** The log settings in use are honoured: sections of the size asked for (64 copper lists by
    default), copper lists logged unless disabled. *)
Theorem C107_partial : forall task monitor (create : nat -> option params -> outcome (task + string))
  (create_monitor : config -> outcome monitor) sz mode n sim orig f ov tr a,
  app_new create create_monitor sz mode n sim orig f ov = (tr, Ret (inl a)) ->
  exists c, in_use ov f orig c /\
    (a_logs a = false <-> exists l, c_logging c = Some l /\ lc_enable l = false) /\
    ((sz * 64 < 2 ^ 64)%N ->
     (forall l mib, c_logging c = Some l -> lc_section l = Some mib -> (mib < 2 ^ 44)%N) ->
     exists size, streams tr = [size] /\
       (forall l mib, c_logging c = Some l -> lc_section l = Some mib -> size = (mib * 1024 * 1024)%N) /\
       ((forall l, c_logging c = Some l -> lc_section l = None) -> size = (64 * sz)%N)).
Proof.
  intros task monitor create create_monitor sz mode n sim orig f ov tr a H. pose proof H as H'.
  unfold app_new in H. destruct (choose ov f orig) as [[c|]|] eqn:Ch; try discriminate.
  exists c. split; [exact (choose_ok _ _ _ _ Ch)|].
  destruct (section_size mode sz c) as [size|] eqn:Si; [|discriminate].
  assert (L : n <= length (c_nodes c)).
  { destruct (Nat.le_gt_cases n (length (c_nodes c))) as [|G]; [assumption|exfalso].
    unfold runtime_new in H.
    assert (I : forall m i tr ts, instanciate create (all_instances_configs c) i m = (tr, Ret (inl ts)) ->
                i <= length (c_nodes c) -> i + m <= length (c_nodes c)).
    { induction m as [|m IH]; intros i tr1 ts E Bi; [lia|]. cbn in E.
      destruct (nth_error (all_instances_configs c) i) as [p|] eqn:P; [|discriminate].
      assert (i < length (c_nodes c)).
      { assert (nth_error (all_instances_configs c) i <> None) as P' by congruence.
        apply nth_error_Some in P'. unfold all_instances_configs in P'. rewrite map_length in P'. exact P'. }
      destruct (create i p) as [[t|]|]; try discriminate.
      destruct (instanciate create (all_instances_configs c) (S i) m) as [tr2 [[ts2|]|]] eqn:E2; try discriminate.
      specialize (IH _ _ _ E2 ltac:(lia)). lia. }
    destruct (instanciate create (all_instances_configs c) 0 n) as [tr1 [[ts|e]|]] eqn:E; try discriminate.
    specialize (I _ _ _ _ E ltac:(lia)). lia. }
  destruct (app_new_spec create create_monitor sz mode _ _ _ _ _ _ _ _ _ H' Ch Si L) as (St & k & _ & _ & _ & R).
  destruct R as (_ & _ & _ & _ & Lg & _). split.
  - rewrite Lg. unfold logs_lists. split.
    + intros Q. destruct (c_logging c) as [l|]; [|discriminate]. exists l. auto.
    + intros (l & -> & Q). exact Q.
  - intros B1 B2. exists size. split; [exact St|].
    rewrite (section_size_spec mode sz c B1 B2) in Si. injection Si as <-. split.
    + intros l mib El Em. rewrite El, Em. lia.
    + intros N. destruct (c_logging c) as [l|]; [|reflexivity]. rewrite (N l eq_refl). reflexivity.
Qed.
Print Assumptions C107_partial.

Definition ex_logging (mib : N) : config := Config [ex_a] [] None (Some (LoggingConfig None (Some mib) false)).
Example C107_ex :
  app_new ex_create ex_monitor 100 Checked 1 false (Some ex_repr) Absent (Some (ex_logging 3)) =
  ([Stream 3145728; Create 0 (n_config ex_a); Monitor (ex_logging 3)], Ret (inl (App [0] tt false))).
Proof. reflexivity. Qed.

(** A size of 2^44 MiB panics, or asks for a section of no byte. *)
Theorem C107_refuted : exists mib,
  app_new ex_create ex_monitor 100 Checked 1 false (Some ex_repr) Absent (Some (ex_logging mib)) = ([], Panic) /\
  streams (fst (app_new ex_create ex_monitor 100 Wrapping 1 false (Some ex_repr) Absent (Some (ex_logging mib)))) = [0%N].
Proof. exists (2 ^ 44)%N. split; reflexivity. Qed.
Print Assumptions C107_refuted.

(** ** C108 *)
(** The placeholder of a source always has the type of its message; that of a sink fits
    exactly when the sink has a single connection, of the type its producer is planned with
    (the last the producer declares). *)
Theorem C108_partial : forall g plan k s ids id ty, wf_graph g -> compute_plan g = Ret (Some plan) ->
  nth_error plan k = Some s -> NoDup ids -> nth_error ids (s_node s) = Some id ->
  exists t, sim_type_of ids g (s_node s) id ty = Ret t /\
  (s_type s <> Sink -> fits t s = true) /\
  (s_type s = Sink ->
    (fits t s = true <-> exists e f, connections_into g (s_node s) = [e] /\
       last_connection_from g (e_src e) f /\ e_msg f = e_msg e)).
Proof.
  intros g plan k s ids id ty W E K D H. destruct (s_type s) eqn:T.
  - destruct (source_fits g plan k s ids id ty W E K D H T) as (m & A & B). exists (SimSource m).
    split; [exact A|]. split; [auto|discriminate].
  - exists (Real ty). split; [|split; [reflexivity|discriminate]].
    pose proof (PlanProofs2.compute_plan_spec g W) as C. rewrite E in C. destruct C as [C _].
    destruct (PlanProofs2.plan_ok_nth g plan k s C K) as [_ Sk].
    pose proof (PlanProofs2.so_type _ _ _ Sk) as Ty. unfold sim_type_of. rewrite <- Ty, T. reflexivity.
  - destruct (sink_fits g plan k s ids id ty W E K D H T) as (m & A & B). exists (SimSink m).
    split; [exact A|]. split; [congruence|]. intros _. exact B.
Qed.
Print Assumptions C108_partial.

Definition ex_line : graph := Graph 3 [Edge 0 1 "A"; Edge 1 2 "B"]%string.
Example C108_ex : wf_graph ex_line /\ NoDup ["a"; "b"; "c"]%string /\
  exists plan s, compute_plan ex_line = Ret (Some plan) /\ nth_error plan 2 = Some s /\ s_type s = Sink /\
  sim_type_of ["a"; "b"; "c"]%string ex_line 2 "c" "C" = Ret (SimSink "B") /\ fits (SimSink "B") s = true.
Proof.
  split; [repeat constructor|]. split; [repeat constructor; cbn; intuition discriminate|].
  eexists. eexists. split; [vm_compute; reflexivity|]. repeat split; reflexivity.
Qed.

(** So an application that is planned for the robot may not be built for the simulation: a
    sink of two messages. *)
Theorem C108_refuted : exists g plan k s ids id t, wf_graph g /\ compute_plan g = Ret (Some plan) /\
  nth_error plan k = Some s /\ NoDup ids /\ nth_error ids (s_node s) = Some id /\
  sim_type_of ids g (s_node s) id "T" = Ret t /\ fits t s = false.
Proof.
  exists (Graph 3 [Edge 0 2 "A"; Edge 1 2 "B"]%string). eexists. exists 2. eexists.
  exists ["a"; "b"; "c"]%string, "c"%string. eexists.
  split; [repeat constructor|]. split; [vm_compute; reflexivity|]. split; [reflexivity|].
  split; [repeat constructor; cbn; intuition discriminate|]. split; [reflexivity|].
  split; reflexivity.
Qed.
Print Assumptions C108_refuted.

(** ** C109 *)
(** Names made for tasks whose ids are identifiers are different whenever the change of case
    keeps these ids different. *)
Theorem C109_partial : forall to_case alnum (ids : list (list N)),
  (forall z r, to_case z <> 95%N :: r) ->
  Forall (Forall (fun c => alnum c = true \/ c = 95%N)) ids ->
  NoDup (map to_case ids) -> NoDup (map (generated_name to_case alnum) ids).
Proof.
  intros to_case alnum ids U F D. induction ids as [|x ids IH]; [constructor|].
  cbn in *. inversion D as [|? ? N D']; subst. inversion F as [|? ? Fx F']; subst. constructor; auto.
  intros H. apply N. apply in_map_iff in H. destruct H as (y & E & Hy). apply in_map_iff. exists y.
  split; [|exact Hy]. apply generated_inj in E; [|exact U]. rewrite Forall_forall in F'.
  rewrite (sanitize_id alnum x Fx), (sanitize_id alnum y (F' y Hy)) in E. exact E.
Qed.
Print Assumptions C109_partial.
(** A generated name does not begin with a digit, so that it is a name; it is that of the id but
    for an underscore. *)
Theorem C109_digit_partial : forall to_case alnum id c r, generated_name to_case alnum id = c :: r ->
  ~ (48 <= c <= 57)%N /\ (to_case (sanitize alnum id) = c :: r \/ c = 95%N /\ to_case (sanitize alnum id) = r).
Proof.
  intros to_case alnum id c r. unfold generated_name. destruct (to_case (sanitize alnum id)) as [|d s]; [discriminate|].
  unfold is_digit. destruct (N.leb_spec 48 d), (N.leb_spec d 57); cbn; intros E; injection E as <- <-; split; auto; lia.
Qed.
Print Assumptions C109_digit_partial.
Example C109_digit_example : generated_name (fun x => x) (fun _ => true) [57; 97]%N = [95; 57; 97]%N.
Proof. reflexivity. Qed.

(** "cam" and "cam2", with a change of case that makes the first letter a capital. *)
Definition ex_case (l : list N) : list N :=
  match filter (fun c => negb (c =? 95)%N) l with
  | [] => []
  | c :: r => (if ((97 <=? c) && (c <=? 122))%N then (c - 32)%N else c) :: r
  end.
Definition ex_alnum (c : N) : bool :=
  (((48 <=? c) && (c <=? 57)) || ((65 <=? c) && (c <=? 90)) || ((97 <=? c) && (c <=? 122)))%N.
Example C109_ex : (forall z r, ex_case z <> 95%N :: r) /\
  let ids := [[99; 97; 109]; [99; 97; 109; 50]; [50; 99]]%N in
  Forall (Forall (fun c => ex_alnum c = true \/ c = 95%N)) ids /\ NoDup (map ex_case ids) /\
  map (generated_name ex_case ex_alnum) ids = [[67; 97; 109]; [67; 97; 109; 50]; [95; 50; 99]]%N.
Proof.
  split.
  - intros z r. unfold ex_case.
    assert (G : Forall (fun c => c <> 95%N) (filter (fun c => negb (c =? 95)%N) z)).
    { apply Forall_forall. intros c H. apply filter_In in H. destruct H as [_ H].
      destruct (N.eqb_spec c 95); [discriminate|assumption]. }
    destruct (filter _ z) as [|c l]; [discriminate|]. inversion G; subst. intros E. injection E as E _.
    destruct (N.leb_spec 97 c), (N.leb_spec c 122); cbn in E; lia.
  - cbn zeta. split; [repeat constructor; auto|]. split; [|reflexivity].
    cbn. repeat constructor; cbn; intuition discriminate.
Qed.

(** But whatever the change of case, "a-b" and "a_b" get the same name. *)
Theorem C109_refuted : forall to_case alnum, alnum 45%N = false -> alnum 95%N = false ->
  exists x y : list N, x <> y /\ generated_name to_case alnum x = generated_name to_case alnum y.
Proof.
  intros to_case alnum H1 H2. exists [97; 45; 98]%N, [97; 95; 98]%N. split; [discriminate|].
  unfold generated_name, sanitize. cbn. rewrite H1, H2. reflexivity.
Qed.
Print Assumptions C109_refuted.
