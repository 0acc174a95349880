(** Property C167: a run read back from its log files and replayed. *)
From Coq Require Import String List Arith NArith Bool Lia.
From Verif Require Import Base BincodeModel BincodeSpec BincodeProofs CodecModel CodecSpec CodecProofs
  CuListModel PlanModel RuntimeModel RuntimeSpec RuntimeProps ReplayModel ReplaySpec ReplayProofs ReplayProps
  ULogModel ULogSpec ExportSpec ExportProofs RerunModel.
From Verif Require ULogProps ULogProofs8.
Import ListNotations.
Open Scope nat_scope.

(** * Specification *)
Section Spec.
Context {V M : Type}.
Variable meta_in : M -> tov * list N.
Variable meta_out : tov * list N -> M.
Variable W : forall p : CodecModel.payload, p_type p -> Prop.
(** What the types of the program guarantee for a message: a payload, if any, is one of the
    field's type that its encoding can store; times are below the value that stands for no
    time. *)
Definition fits (s : slot V) (m : msg V M) : Prop :=
  match m_payload m with
  | Some v => exists x, sl_in s v = Some x /\ sl_out s x = v /\ W (sl_p s) x
  | None => True
  end /\
  meta_out (meta_in (m_meta m)) = m_meta m /\ tov_ok (fst (meta_in (m_meta m))) /\ text (snd (meta_in (m_meta m))) /\
  (forall t, m_start m = Some t \/ m_end m = Some t -> (t < 2 ^ 64 - 1)%N).
End Spec.

(** * Proofs *)
Section Proofs.
Context {V M : Type}.
Variable meta_in : M -> tov * list N.
Variable meta_out : tov * list N -> M.
Variable W : forall p : CodecModel.payload, p_type p -> Prop.

Lemma oct_there o : (forall t, o = Some t -> (t < 2 ^ 64 - 1)%N) -> oct_ok (oct_of_option o) /\ oct_to_option (oct_of_option o) = o.
Proof.
  destruct o as [t|]; intros H; [|split; [unfold oct_ok, time_ok, ubits, oct_of_option, NONE_VALUE; cbn [oct_raw]; lia|reflexivity]].
  specialize (H t eq_refl). split; [unfold oct_ok, time_ok, ubits, oct_of_option; cbn [oct_raw]; lia|].
  unfold oct_to_option, oct_of_option, NONE_VALUE. cbn [oct_raw].
  match goal with |- context [(t =? ?v)%N] => destruct (N.eqb_spec t v) as [E|E]; [|reflexivity] end. lia.
Qed.
Lemma msg_there s (m : msg V M) : fits meta_in meta_out W s m ->
  msg_ok (W (sl_p s)) (typed_msg meta_in s m) /\ read_msg meta_out s (typed_msg meta_in s m) = m.
Proof.
  intros (P & Mi & T & Te & Ti).
  destruct (oct_there (m_start m)) as [S1 S2]; [intros; apply Ti; auto|]. destruct (oct_there (m_end m)) as [E1 E2]; [intros; apply Ti; auto|].
  destruct m as [pl me st en]. cbn [m_payload m_meta m_start m_end] in *. unfold typed_msg, read_msg, msg_ok, metadata_ok.
  cbn [m_payload m_meta m_start m_end msg_payload msg_meta md_process md_tov md_status pr_start pr_end].
  rewrite S2, E2, <- surjective_pairing, Mi. destruct pl as [v|].
  - destruct P as (x & I & O & Wx). rewrite I, O. split; [|reflexivity]. split; [intros p [= <-]; exact Wx|]. repeat split; auto; apply Te.
  - split; [|reflexivity]. split; [discriminate|]. repeat split; auto; apply Te.
Qed.
Lemma msgs_there sl : forall l : list (msg V M), Forall2 (fits meta_in meta_out W) sl l ->
  exists t, typed_msgs meta_in sl l = Some t /\ tuple_ok W (types sl) t /\ read_msgs meta_out sl t = l.
Proof.
  induction sl as [|s sl IH]; intros l H; inversion H as [|? m ? l' Hm Hl]; subst.
  - exists tt. repeat split.
  - destruct (IH _ Hl) as (t & T1 & T2 & T3). destruct (msg_there _ _ Hm) as [M1 M2].
    exists (typed_msg meta_in s m, t). cbn [typed_msgs]. rewrite T1. split; [reflexivity|]. split; [split; [exact M1|exact T2]|].
    cbn [read_msgs fst snd]. now rewrite M2, T3.
Qed.
Lemma lists_there sl : forall rs : list (N * list (msg V M)), Forall (fun r => (fst r < 2 ^ 32)%N /\ Forall2 (fits meta_in meta_out W) sl (snd r)) rs ->
  forall cls, map (typed_list meta_in sl) rs = map Some cls ->
  Forall (copperlist_ok W) cls /\ map (fun c => read_msgs meta_out sl (CodecModel.cl_msgs c)) cls = map snd rs.
Proof.
  induction rs as [|r rs IH]; intros F [|c cls] H; try discriminate H; [split; constructor|].
  apply Forall_cons_iff in F as [[Fi Fm] F]. cbn [map] in H. injection H as H1 H2. destruct (IH F _ H2) as [I1 I2].
  destruct (msgs_there _ _ Fm) as (t & T1 & T2 & T3). unfold typed_list in H1. rewrite T1 in H1. injection H1 as <-.
  split; [constructor; [split; [exact Fi|exact T2]|exact I1]|]. cbn [map CodecModel.cl_msgs]. now rewrite T3, I2.
Qed.
End Proofs.

(** * C167 *)
Theorem C167_rerun : forall (V M Er S E : Type) (a : application) (o : oracles V M Er E) kind (state : E -> nat -> S) f_task f_process g_sink policy time
    meta_in meta_out (W : forall p, p_type p -> Prop) (sl : list (slot V))
    n zero between env src ksrc env' m' l ps slab ops sy lg i cls,
  (* the application and its run, as in C90 *)
  replayable a o kind f_process g_sink zero -> getters_right a kind ->
  deterministic o kind state f_task f_process time -> steady o time -> recorded_with a o kind g_sink ->
  kind src = Source -> slot_of_task (a_plan a) src ksrc ->
  0 < n -> (N.of_nat (length between) < 2 ^ 32)%N ->
  Forall (fun b => forall e, same_states kind state None e (b e)) between ->
  ReplaySpec.session a o between (mgr_new n zero) env = (env', m', l) -> undisturbed policy l ->
  (* its types *)
  payloads_ok W (types sl) -> Forall (fun r => (fst r < 2 ^ 32)%N /\ Forall2 (fits meta_in meta_out W) sl (snd r)) (log_of l) ->
  map (typed_list meta_in sl) (log_of l) = map Some cls ->
  (* its log *)
  page_ok ps -> sizes_ok ps ops -> no_last ops -> ULogSpec.session ps slab ops = Ret sy -> all_closed sy ->
  logger_drop ps slab (sy_lg sy) = Ret lg ->
  nth_error (opened ops) i = Some TCopperList -> (forall j, nth_error (opened ops) j = Some TCopperList -> j = i) ->
  ULogSpec.logged i ops = map enc_cl cls -> cls <> [] ->
  exists b, delivers (lg_files lg) TCopperList b /\
  exists r m2 l2, resim a kind f_task f_process g_sink policy src (read_lists meta_out sl b) (mgr_new n zero) (Replay (state env) (time env) []) = (r, m2, l2) /\
    undisturbed policy l2 /\
    map (typed_list meta_in sl) (log_of l2) = map Some cls /\
    map (fun x => calls kind (fst x)) l2 = map (fun x => calls kind (fst x)) l /\
    forall t, kind t = Regular -> r_tasks r t = state env' t.
Proof.
  intros V M Er S E a o kind state f_task f_process g_sink policy time meta_in meta_out W sl n zero between env src ksrc env' m' l ps slab ops sy lg i cls
    R G D St Rw Ks Sl Hn B Fb H U Po F T P1 P2 P3 P4 P5 P6 P7 P8 P9 Ne.
  destruct (lists_there _ _ _ _ _ F _ T) as [Ok Rd].
  destruct (lists_exported W (types sl) Po ps slab ops sy lg i cls P1 P2 P3 P4 P5 P6 P7 P8 Ne Ok P9) as (b & Db & Eb). exists b. split; [exact Db|].
  assert (Q : read_lists meta_out sl b = map snd (log_of l)) by (unfold read_lists; rewrite Eb; exact Rd). rewrite Q.
  destruct (C90_steady_partial a o kind state f_task f_process g_sink policy time n zero between env src ksrc env' m' l R G D St Rw Ks Sl Hn B Fb H U) as (r & m2 & l2 & X1 & X2 & _ & X3 & X4 & X5).
  exists r, m2, l2. split; [exact X1|]. split; [exact X2|]. split; [now rewrite X3|]. split; [exact X4|exact X5].
Qed.
Print Assumptions C167_rerun.

(** Under any clock, with tasks that look neither at the clock nor at the process times: the
    replay of the log files gives the same but for the process times. *)
Theorem C167_payloads : forall (V M Er S E : Type) (a : application) (o : oracles V M Er E) kind (state : E -> nat -> S) f_task f_process g_sink policy time
    meta_in meta_out (W : forall p, p_type p -> Prop) (sl : list (slot V))
    n zero between env clock src ksrc env' m' l ps slab ops sy lg i cls,
  replayable a o kind f_process g_sink zero -> getters_right a kind ->
  deterministic o kind state f_task f_process time -> timeless kind f_task f_process g_sink -> recorded_with a o kind g_sink ->
  kind src = Source -> slot_of_task (a_plan a) src ksrc ->
  0 < n -> (N.of_nat (length between) < 2 ^ 32)%N ->
  Forall (fun b => forall e, same_states kind state None e (b e)) between ->
  ReplaySpec.session a o between (mgr_new n zero) env = (env', m', l) -> undisturbed policy l ->
  payloads_ok W (types sl) -> Forall (fun r => (fst r < 2 ^ 32)%N /\ Forall2 (fits meta_in meta_out W) sl (snd r)) (log_of l) ->
  map (typed_list meta_in sl) (log_of l) = map Some cls ->
  page_ok ps -> sizes_ok ps ops -> no_last ops -> ULogSpec.session ps slab ops = Ret sy -> all_closed sy ->
  logger_drop ps slab (sy_lg sy) = Ret lg ->
  nth_error (opened ops) i = Some TCopperList -> (forall j, nth_error (opened ops) j = Some TCopperList -> j = i) ->
  ULogSpec.logged i ops = map enc_cl cls -> cls <> [] ->
  exists b, delivers (lg_files lg) TCopperList b /\
  exists r m2 l2, resim a kind f_task f_process g_sink policy src (read_lists meta_out sl b) (mgr_new n zero) (Replay (state env) clock []) = (r, m2, l2) /\
    undisturbed policy l2 /\ length l2 = length l /\
    map (fun x => (fst x, map untimed (snd x))) (log_of l2) = map (fun x => (fst x, map untimed (snd x))) (log_of l) /\
    map (fun x => map untimed_call (calls kind (fst x))) l2 = map (fun x => map untimed_call (calls kind (fst x))) l /\
    forall t, kind t = Regular -> r_tasks r t = state env' t.
Proof.
  intros V M Er S E a o kind state f_task f_process g_sink policy time meta_in meta_out W sl n zero between env clock src ksrc env' m' l ps slab ops sy lg i cls
    R G D Tl Rw Ks Sl Hn B Fb H U Po F T P1 P2 P3 P4 P5 P6 P7 P8 P9 Ne.
  destruct (lists_there _ _ _ _ _ F _ T) as [Ok Rd].
  destruct (lists_exported W (types sl) Po ps slab ops sy lg i cls P1 P2 P3 P4 P5 P6 P7 P8 Ne Ok P9) as (b & Db & Eb). exists b. split; [exact Db|].
  assert (Q : read_lists meta_out sl b = map snd (log_of l)) by (unfold read_lists; rewrite Eb; exact Rd). rewrite Q.
  exact (C90_payloads_partial a o kind state f_task f_process g_sink policy time n zero between env clock src ksrc env' m' l R G D Tl Rw Ks Sl Hn B Fb H U).
Qed.
Print Assumptions C167_payloads.

(** A run of three iterations whose payloads are u64 numbers, in a log of 16-byte pages that
    also holds another stream. *)
Definition number_slot : slot nat := Slot (CodecModel.Payload N enc_u64 dec_u64) (fun v => Some (N.of_nat v)) N.to_nat.
Definition empty_slot : slot nat := Slot (CodecModel.Payload unit (fun _ => []) (dret tt)) (fun _ => None) (fun _ => 0).
Definition ex_slots : list (slot nat) := [number_slot; number_slot; empty_slot].
Definition ex_meta (_ : unit) : tov * list N := (TovNone, []).
Definition ex_back (_ : tov * list N) : unit := tt.
Definition kept (p : CodecModel.payload) (v : p_type p) : Prop := p_dec p (p_enc p v) = Some (v, []).
Definition ex_robot := robot line_kind true 0 0 Ignore.
Definition ex_run := ReplaySpec.session (line_app false) ex_robot settings (mgr_new 10 zero3) bot0.
Definition ex_cls : list (copperlist (types ex_slots)) :=
  flat_map (fun r => match typed_list ex_meta ex_slots r with Some c => [c] | None => [] end) (log_of (snd ex_run)).
Definition ex_bytes : list bytes := Eval vm_compute in map enc_cl ex_cls.
Definition ex_ops : list lop :=
  [LOpen TCopperList 100; LOpen TStructured 30] ++ map (fun b => LLog 0 (ULogProps.ex_obj b)) ex_bytes ++ [LLog 1 (ULogProps.ex_obj [4%N; 5%N]); LClose 1; LClose 0].
Lemma all_some {X Y} (f : X -> option Y) l : forallb (fun x => match f x with Some _ => true | None => false end) l = true ->
  map f l = map Some (flat_map (fun x => match f x with Some c => [c] | None => [] end) l).
Proof. induction l as [|a l IH]; cbn; [reflexivity|]. destruct (f a); [|discriminate]. intros H. cbn. now rewrite IH. Qed.
Lemma ex_typed : map (typed_list ex_meta ex_slots) (log_of (snd ex_run)) = map Some ex_cls.
Proof. apply all_some. vm_compute. reflexivity. Qed.
Lemma ex_logged : ULogSpec.logged 0 ex_ops = map enc_cl ex_cls.
Proof. vm_compute. reflexivity. Qed.
Definition ex_lists : list (N * list (msg nat unit)) := Eval vm_compute in log_of (snd ex_run).
Lemma ex_lists_eq : log_of (snd ex_run) = ex_lists.
Proof. vm_compute. reflexivity. Qed.
Lemma ex_quiet : forallb (fun x => match snd x with RuntimeModel.ROk => forallb ignored (fst x) | _ => false end) (snd ex_run) = true.
Proof. vm_compute. reflexivity. Qed.
Lemma ex_length : length ex_cls = 3.
Proof. vm_compute. reflexivity. Qed.
Lemma ex_codecs : payloads_ok kept (types ex_slots).
Proof.
  assert (G : forall p : CodecModel.payload, streaming (p_dec p) -> lossless (kept p) (p_enc p) (p_dec p) /\ streaming (p_dec p)).
  { intros p Hs. split; [|exact Hs]. intros v rest Hv. unfold kept in Hv. destruct (Hs _ _ _ Hv) as (q & E & Hq). rewrite app_nil_r in E. rewrite E. apply Hq. }
  unfold types, ex_slots, payloads_ok. cbn [map sl_p number_slot empty_slot]. repeat apply Forall_cons; [apply G; cbn [p_dec]..|constructor].
  - apply streaming_u64.
  - apply streaming_u64.
  - apply streaming_ret.
Qed.
Lemma ex_fits : Forall (fun r => (fst r < 2 ^ 32)%N /\ Forall2 (fits ex_meta ex_back kept) ex_slots (snd r)) (log_of (snd ex_run)).
Proof.
  rewrite ex_lists_eq. unfold ex_lists, ex_slots.
  repeat (apply Forall_cons; [split; [cbn; lia|cbn [snd]; repeat apply Forall2_cons; try apply Forall2_nil; unfold fits; cbn [m_payload m_meta m_start m_end]]|]); try apply Forall_nil.
  all: split; [first [exact I|eexists; split; [reflexivity|split; reflexivity]]|].
  all: split; [reflexivity|]; split; [exact I|]; split; [split; [constructor|unfold ubits; cbn; lia]|].
  all: intros t [Ht|Ht]; try discriminate Ht; injection Ht as <-; lia.
Qed.
Example C167_case : exists env' m' l sy lg,
  replayable (line_app false) ex_robot line_kind (bot_process true) keep_sink zero3 /\ getters_right (line_app false) line_kind /\
  deterministic ex_robot line_kind b_state bot_task (bot_process true) bot_time /\ steady ex_robot bot_time /\
  recorded_with (line_app false) ex_robot line_kind keep_sink /\ line_kind 0 = Source /\ slot_of_task line 0 0 /\
  Forall (fun b => forall e, same_states line_kind b_state None e (b e)) settings /\
  ex_run = (env', m', l) /\ undisturbed ignore l /\
  payloads_ok kept (types ex_slots) /\ Forall (fun r => (fst r < 2 ^ 32)%N /\ Forall2 (fits ex_meta ex_back kept) ex_slots (snd r)) (log_of l) /\
  map (typed_list ex_meta ex_slots) (log_of l) = map Some ex_cls /\ length ex_cls = 3 /\
  page_ok 16 /\ sizes_ok 16 ex_ops /\ no_last ex_ops /\ ULogSpec.session 16 256 ex_ops = Ret sy /\ all_closed sy /\
  logger_drop 16 256 (sy_lg sy) = Ret lg /\ opened ex_ops = [TCopperList; TStructured] /\ ULogSpec.logged 0 ex_ops = map enc_cl ex_cls.
Proof.
  destruct (ULogProofs8.full_run 16 256 ex_ops (fun sy lg => ULogProofs8.none_left sy) true) as (sy & lg & E1 & E2 & H); [vm_compute; reflexivity|].
  exists (fst (fst ex_run)), (snd (fst ex_run)), (snd ex_run), sy, lg.
  split; [apply line_replayable|]. split; [apply line_getters|]. split; [apply robot_deterministic|].
  split; [apply robot_steady|]. split; [apply line_recorded|]. split; auto. split; [eexists; split; reflexivity|].
  split; [apply settings_keep|]. split; [now rewrite <- !surjective_pairing|]. split; [apply undisturbed_check, ex_quiet|].
  split; [exact ex_codecs|]. split; [exact ex_fits|]. split; [exact ex_typed|]. split; [exact ex_length|].
  split; [exact ULogProps.ex_page|]. split; [ULogProps.sizes|]. split; [ULogProps.nolast|]. split; [exact E1|].
  split; [now apply ULogProofs8.none_left_spec|]. split; [exact E2|]. split; [reflexivity|exact ex_logged].
Qed.
(** The same hypotheses with a clock that advances by 7 whenever it is read: all that depends on
    the run is in C90_payloads_ex; the lists fit their types as above. *)
Definition ex_run7 := ReplaySpec.session (line_app false) (robot line_kind false 7 0 Ignore) settings (mgr_new 10 zero3) bot0.
Definition ex_lists7 : list (N * list (msg nat unit)) := Eval vm_compute in log_of (snd ex_run7).
Lemma ex_lists7_eq : log_of (snd ex_run7) = ex_lists7.
Proof. vm_compute. reflexivity. Qed.
Example C167_payloads_case : Forall (fun r => (fst r < 2 ^ 32)%N /\ Forall2 (fits ex_meta ex_back kept) ex_slots (snd r)) (log_of (snd ex_run7)) /\ length (log_of (snd ex_run7)) = 3.
Proof.
  split; [|vm_compute; reflexivity]. rewrite ex_lists7_eq. unfold ex_lists7, ex_slots.
  repeat (apply Forall_cons; [split; [cbn; lia|cbn [snd]; repeat apply Forall2_cons; try apply Forall2_nil; unfold fits; cbn [m_payload m_meta m_start m_end]]|]); try apply Forall_nil.
  all: split; [first [exact I|eexists; split; [reflexivity|split; reflexivity]]|].
  all: split; [reflexivity|]; split; [exact I|]; split; [split; [constructor|unfold ubits; cbn; lia]|].
  all: intros t [Ht|Ht]; try discriminate Ht; injection Ht as <-; lia.
Qed.
