(** Property C166: the recorded log of the example with two sources shows what its sinks printed. *)
From Coq Require Import String List Arith NArith ZArith Bool Lia SpecFloat.
From Verif Require Import Base BincodeModel BincodeSpec BincodeProofs CodecModel CodecSpec CodecProofs
  CuListModel CuListSpec CuListProofs PlanModel RuntimeModel RuntimeSpec RuntimeProofs RuntimeProofs2 RuntimeProofs5
  FloatModel FloatFacts PidModel MultiModel MultiProps ULogModel ULogSpec ExportSpec ExportProofs RecordModel.
From Verif Require PidProps ULogProps ULogProofs8.
Import ListNotations.
Open Scope nat_scope.

(** * Specification *)
(** What the k-th list, from 0, is expected to hold, leaving out the times. *)
Definition expected (k : nat) (c : copperlist multi_payloads) : Prop :=
  let z := counted 43 k in let x := whole (Z.min (counted 25 k) (2 ^ 24)) in
  CodecModel.cl_id c = N.of_nat k /\ CodecModel.cl_st c = CodecModel.BeingSerialized /\
  match CodecModel.cl_msgs c with
  | (i, (f, (p, (s, (t, _))))) =>
      msg_payload i = Some z /\ msg_payload f = Some x /\ msg_payload p = Some (z, x) /\
      msg_payload s = None /\ msg_payload t = None
  end.
(** The times of processing in a list, message by message. *)
Definition times_in (c : copperlist multi_payloads) : list (option N * option N) :=
  match CodecModel.cl_msgs c with
  | (i, (f, (p, (s, (t, _))))) => map (fun d => (oct_to_option (pr_start (md_process d)), oct_to_option (pr_end (md_process d))))
      [msg_meta i; msg_meta f; msg_meta p; msg_meta s; msg_meta t]
  end.
(** The lines the sinks print when they are given the pair in a list. *)
Definition lines_of (c : copperlist multi_payloads) : list line :=
  match CodecModel.cl_msgs c with
  | (_, (_, (p, _))) => match msg_payload p with Some (z, x) => [SinkTask1 z x; SinkTask2 z x] | None => [] end
  end.

(** * Proofs *)
(** Messages as they are in a slot of the queue of copper lists. *)
Definition time_small (o : option N) : Prop := match o with Some t => (t < 2 ^ 64 - 1)%N | None => True end.
Definition slot_ok (l : list message) : Prop :=
  length l = 5 /\ Forall (fun y => time_small (m_start y) /\ time_small (m_end y)) l /\
  Forall (fun y => m_payload y = None) (skipn 3 l).
Definition holds (z : Z) (x : f32) (l : list message) : Prop :=
  slot_ok l /\ map m_payload (firstn 3 l) = [Some (PInt z); Some (PFloat x); Some (PPair z x)].

Section Record.
Context {W F : Type}.
Variable w : world W F.
Variable monitor : phase -> nat -> F -> decision.
Variable mode : ovf_mode.
Notation A := (multi_app mode).
Notation O := (multi_oracles w monitor mode).
Hypothesis now_ok : forall s, (snd (w_now w s) < 2 ^ 64)%N.

Lemma outside_any {B} (f : W -> W * B) e : exists x r,
  outside f e = (Multi x (u_int e) (u_float e) (u_lines e) (u_dead e), r) /\ (forall P : B -> Prop, (forall s, P (snd (f s))) -> P r).
Proof. unfold outside. destruct (f (u_world e)) as [x r] eqn:E. exists x, r. split; [reflexivity|]. intros P H. specialize (H (u_world e)). now rewrite E in H. Qed.

Lemma oct_small t : (t < 2 ^ 64)%N -> time_small (to_oct t).
Proof. unfold to_oct. destruct (N.eqb_spec t (2 ^ 64 - 1)); unfold time_small; [exact (fun _ => Logic.I)|lia]. Qed.

Lemma process_none t ins out (e : multi W) : exists e' out', multi_process mode t ins out e = (e', out', @None F) /\ m_start out' = m_start out /\ m_end out' = m_end out.
Proof.
  unfold multi_process. repeat match goal with |- context [match ?x with _ => _ end] => destruct x end; do 2 eexists; split; try reflexivity; split; reflexivity.
Qed.
Lemma sink_none t ins (e : multi W) : exists e', @multi_sink W F t ins e = (e', None).
Proof. unfold multi_sink. repeat match goal with |- context [match ?x with _ => _ end] => destruct x end; eexists; reflexivity. Qed.

Definition msg_small (y : message) : Prop := time_small (m_start y) /\ time_small (m_end y).
Lemma do_process_ok s ins out e e' tr out' f : do_process O s ins true out e = (e', tr, out', f) ->
  f = PNext /\ msg_small out' /\ (s_type s = Sink -> m_payload out' = m_payload out).
Proof.
  unfold do_process. cbn [o_now multi_oracles o_process o_sink]. intros H.
  destruct (outside_any (w_now w) e) as (x1 & t1 & E1 & K1). rewrite E1 in H. clear E1.
  specialize (K1 (fun v => (v < 2 ^ 64)%N) now_ok). cbv beta in K1.
  destruct (s_type s) eqn:T.
  1, 2: destruct (process_none (s_node s) ins (with_start t1 out) (Multi x1 (u_int e) (u_float e) (u_lines e) (u_dead e))) as (e2 & o2 & Q & S1 & S2); rewrite Q in H;
    destruct (outside_any (w_now w) e2) as (x2 & t2 & E2 & K2); rewrite E2 in H; clear E2;
    specialize (K2 (fun v => (v < 2 ^ 64)%N) now_ok); cbv beta in K2; injection H as <- <- <- <-;
    (split; [reflexivity|]); (split; [split; cbn; [rewrite S1|]; now apply oct_small|discriminate]).
  destruct (sink_none (s_node s) ins (Multi x1 (u_int e) (u_float e) (u_lines e) (u_dead e))) as (e2 & Q); rewrite Q in H.
  destruct (outside_any (w_now w) e2) as (x2 & t2 & E2 & K2); rewrite E2 in H; clear E2.
  specialize (K2 (fun v => (v < 2 ^ 64)%N) now_ok); cbv beta in K2; injection H as <- <- <- <-.
  split; [reflexivity|]; split; [split; cbn; now apply oct_small|reflexivity].
Qed.

Definition tidy (s : step) : Prop := match s_out s with Some (k, _) => k < 3 \/ s_type s = Sink | None => True end.
Lemma slot_upd k y l : slot_ok l -> msg_small y -> (k < 3 \/ m_payload y = None) -> slot_ok (upd k y l).
Proof.
  intros (L & Ti & Em) S K. change (msg_small y) with (time_small (m_start y) /\ time_small (m_end y)) in S. destruct l as [|m0 [|m1 [|m2 [|m3 [|m4 [|]]]]]]; try discriminate L. cbn [skipn] in Em.
  repeat (apply Forall_cons_iff in Ti as [? Ti]). repeat (apply Forall_cons_iff in Em as [? Em]).
  destruct k as [|[|[|[|[|[|k]]]]]]; (destruct K as [K|K]; [try lia|]); (split; [reflexivity|]); (split; [cbn [upd]; repeat apply Forall_cons; solve [assumption|constructor]|cbn [skipn upd]; repeat apply Forall_cons; solve [assumption|constructor]]).
Qed.
Lemma process_step_ok s msgs e e' tr msgs' f : tidy s -> slot_ok msgs -> process_step A O s msgs e = (e', tr, msgs', f) -> slot_ok msgs'.
Proof.
  intros T S. unfold process_step, tidy in *. destruct (s_out s) as [[k ty]|]; [|intros [= <- <- <- <-]; exact S].
  destruct (nth_error msgs k) as [out|] eqn:N; [|intros [= <- <- <- <-]; exact S].
  destruct (gather msgs (s_inputs s)) as [ins|]; [|intros [= <- <- <- <-]; exact S].
  unfold process_msg. change (a_sim A) with false. cbv iota.
  destruct (do_process O s ins true out e) as [[[e1 t1] o1] f1] eqn:D. destruct (do_process_ok _ _ _ _ _ _ _ _ D) as (-> & Sm & Pl).
  intros [= <- <- <- <-]. apply slot_upd; auto. destruct T as [T|T]; [auto|].
  destruct (Nat.lt_ge_cases k 3) as [K|K]; [auto|]. right. rewrite (Pl T). destruct S as (_ & _ & Em). rewrite Forall_forall in Em. apply Em.
  apply nth_error_In with (k - 3). assert (Q : forall (l : list message) n j, nth_error (skipn n l) j = nth_error l (n + j)).
  { clear. intros l n j. revert l. induction n as [|n IH]; intros [|y l]; cbn; auto. now destruct j. }
  rewrite Q. replace (3 + (k - 3)) with k by lia. exact N.
Qed.
Lemma process_all_ok ss : Forall tidy ss -> forall msgs e e' tr msgs' f, slot_ok msgs -> process_all A O ss msgs e = (e', tr, msgs', f) -> slot_ok msgs'.
Proof.
  induction 1 as [|s ss T _ IH]; intros msgs e e' tr msgs' f S; cbn [process_all]; [intros [= <- <- <- <-]; exact S|].
  destruct (process_step A O s msgs e) as [[[e1 t1] m1] f1] eqn:P. apply process_step_ok in P; auto.
  destruct f1; try (intros [= <- <- <- <-]; exact P).
  destruct (process_all A O ss m1 e1) as [[[e2 t2] m2] f2] eqn:Q. apply IH in Q; auto. intros [= <- <- <- <-]. exact Q.
Qed.
Lemma plan_eq : a_plan A = [Step 0 Source [] (Some (0, "i32"%string)); Step 1 Source [] (Some (1, "f32"%string));
    Step 2 Regular [(0, "i32"%string); (1, "f32"%string)] (Some (2, "(i32, f32)"%string));
    Step 3 Sink [(0, "i32"%string); (1, "f32"%string)] (Some (3, "()"%string));
    Step 4 Sink [(2, "(i32, f32)"%string)] (Some (4, "()"%string))].
Proof. vm_compute; reflexivity. Qed.
Lemma plan_tidy : Forall tidy (a_plan A).
Proof. rewrite plan_eq. repeat constructor; cbn; (left; lia) || (right; reflexivity). Qed.

Lemma pass_payloads (e : multi W) msgs e' tr msgs' f : slot_ok msgs -> (u_int e < 2 ^ 31 - 1)%Z ->
  process_all A O (a_plan A) msgs e = (e', tr, msgs', f) -> holds (u_int e + 1)%Z (fadd (u_float e) (f32_of 1)) msgs'.
Proof.
  intros Sl H P. split; [exact (process_all_ok _ plan_tidy _ _ _ _ _ _ Sl P)|]. destruct Sl as (L & _ & _).
  destruct msgs as [|m0 [|m1 [|m2 [|m3 [|m4 [|]]]]]]; try discriminate L.
  rewrite plan_eq in P. destruct e as [wo zi xf li de]. cbn [u_int u_float u_lines u_dead] in *.
  set (x := fadd xf (f32_of 1)).
  assert (N : next_i32 mode zi = Ret (zi + 1)%Z) by (unfold next_i32; destruct (Z.ltb_spec zi (2 ^ 31 - 1)); [reflexivity|lia]).
  cbn [process_all] in P.
  Ltac now_in PS := match type of PS with context [outside ?g ?y] => destruct (outside_any g y) as (? & ?r & ?X & ?Hr); rewrite X in PS; clear X end;
    cbn [u_int u_float u_lines u_dead] in PS.
  Ltac one P Hn := match type of P with context [process_step ?a ?o ?s ?m ?e] =>
    let PS := fresh "PS" in let ps := fresh "ps" in
    remember (process_step a o s m e) as ps eqn:PS in P; unfold process_step in PS;
    cbn [s_out nth_error gather s_inputs fst] in PS; unfold process_msg in PS; change (a_sim a) with false in PS; cbv iota in PS;
    unfold do_process in PS; cbn [s_node s_type o_now multi_oracles o_process o_sink] in PS; now_in PS;
    cbn [multi_process multi_sink u_int u_float m_payload with_start with_end with_payload] in PS; try rewrite Hn in PS; cbn [print u_int u_float u_lines u_dead] in PS;
    now_in PS; cbn [upd] in PS; subst ps; cbn beta iota zeta in P
  end.
  do 5 one P N. fold x in P. injection P as <- <- <- <-. reflexivity.
Qed.

(** ** Iterations *)
Hypothesis log_ok : forall s c, w_log w s c = true.

Lemma quiet ph ts : forall e, exists tr, lifecycle A O ph ts e = (e, tr, Next) /\ RuntimeSpec.logged tr = [].
Proof.
  induction ts as [|t ts IH]; intros e; cbn [lifecycle]; [eauto|]. unfold one_call. change (a_sim A) with false. cbv iota. unfold do_call. cbn [o_task multi_oracles].
  destruct (IH e) as (tr & -> & G). eexists. split; [reflexivity|]. exact G.
Qed.
Lemma process_silent ss : forall msgs e e' tr msgs' f, process_all A O ss msgs e = (e', tr, msgs', f) -> RuntimeSpec.logged tr = [].
Proof.
  induction ss as [|s ss IH]; intros msgs e e' tr msgs' f; cbn [process_all]; [intros [= <- <- <- <-]; reflexivity|].
  destruct (process_step A O s msgs e) as [[[e1 t1] m1] f1] eqn:P.
  assert (Q : RuntimeSpec.logged t1 = []).
  { unfold process_step in P. destruct (s_out s) as [[k ty]|]; [|injection P as <- <- <- <-; reflexivity].
    destruct (nth_error msgs k) as [out|]; [|injection P as <- <- <- <-; reflexivity].
    destruct (gather msgs (s_inputs s)) as [ins|]; [|injection P as <- <- <- <-; reflexivity].
    unfold process_msg in P. change (a_sim A) with false in P. cbv iota in P.
    destruct (do_process O s ins true out e) as [[[e2 t2] o2] f2] eqn:D. injection P as <- <- <- <-.
    unfold do_process in D. destruct (o_now O e) as [e3 u3]. destruct (s_type s).
    - destruct (o_process O (s_node s) ins (with_start u3 out) e3) as [[e4 o4] r4] eqn:Z. cbn [o_process multi_oracles] in Z.
      destruct (process_none (s_node s) ins (with_start u3 out) e3) as (e5 & o5 & Z' & _). rewrite Z' in Z. injection Z as <- <- <-.
      destruct (o_now O e5). injection D as <- <- <- <-. reflexivity.
    - destruct (o_process O (s_node s) ins (with_start u3 out) e3) as [[e4 o4] r4] eqn:Z. cbn [o_process multi_oracles] in Z.
      destruct (process_none (s_node s) ins (with_start u3 out) e3) as (e5 & o5 & Z' & _). rewrite Z' in Z. injection Z as <- <- <-.
      destruct (o_now O e5). injection D as <- <- <- <-. reflexivity.
    - destruct (o_sink O (s_node s) ins e3) as [e4 r4] eqn:Z. cbn [o_sink multi_oracles] in Z.
      destruct (sink_none (s_node s) ins e3) as (e5 & Z'). rewrite Z' in Z. injection Z as <- <-.
      destruct (o_now O e5). injection D as <- <- <- <-. reflexivity. }
  destruct f1; try (intros [= <- <- <- <-]; exact Q).
  destruct (process_all A O ss m1 e1) as [[[e2 t2] m2] f2] eqn:R. apply IH in R. intros [= <- <- <- <-].
  unfold RuntimeSpec.logged in *. rewrite flat_map_app, Q, R. reflexivity.
Qed.

Lemma iteration_logs m e e' m' tr : Forall slot_ok (contents m) -> minv [] m -> (m_next m + 1 < 2 ^ 32)%N -> (u_int e < 2 ^ 31 - 1)%Z ->
  run_one_iteration A O m e = (e', m', tr, RuntimeModel.ROk) ->
  Forall slot_ok (contents m') /\ minv [] m' /\ m_next m' = (m_next m + 1)%N /\
  exists msgs, RuntimeSpec.logged tr = [(m_next m, msgs)] /\ holds (u_int e + 1)%Z (fadd (u_float e) (f32_of 1)) msgs.
Proof.
  intros Sh I B Hz H. split.
  { apply (iteration_kept A O slot_ok m e e' m' tr RuntimeModel.ROk); [|exact H|exact Sh].
    intros msgs e1 e2 tr' msgs' f P S. exact (process_all_ok _ plan_tidy _ _ _ _ _ _ S P). }
  unfold run_one_iteration in H. destruct (quiet Preprocess (seq 0 (a_tasks A)) e) as (t1 & E1 & G1). rewrite E1 in H.
  destruct (copperlist_body A O m e) as [[[e1 m1] t2] f] eqn:Bd. destruct (quiet Postprocess (seq 0 (a_tasks A)) e1) as (t3 & E3 & G3). rewrite E3 in H.
  assert (X : match f with Next => minv [] m1 /\ m_next m1 = (m_next m + 1)%N /\ exists msgs, RuntimeSpec.logged t2 = [(m_next m, msgs)] /\ holds (u_int e + 1)%Z (fadd (u_float e) (f32_of 1)) msgs
     | Return None => False | _ => True end).
  { unfold copperlist_body in Bd. destruct (create (a_mode A) m) as [[[m2 i]|]|] eqn:C; [|injection Bd as <- <- <- <-; exact Logic.I..].
    destruct (nth_error (m_data m2) i) as [c|] eqn:N; [|injection Bd as <- <- <- <-; exact Logic.I]. destruct (create_contents A _ _ _ _ C N) as [_ Nc].
    assert (Lc : slot_ok (CuListModel.cl_msgs c)) by (rewrite Forall_forall in Sh; apply Sh; eapply nth_error_In, Nc).
    destruct (process_all A O (a_plan A) (CuListModel.cl_msgs c) e) as [[[e2 t4] msgs] pf] eqn:P.
    pose proof (pass_payloads _ _ _ _ _ _ Lc Hz P) as Hp. pose proof (process_silent _ _ _ _ _ _ _ P) as Q4.
    assert (Ln : length (CuListModel.cl_msgs c) = 5) by apply Lc. destruct (pass w monitor mode _ _ _ _ _ _ Hz Ln P) as (-> & _).
    destruct (match collect_metadata A msgs with Some md => e2e A md | None => Panic end) as [y|]; [|injection Bd as <- <- <- <-; exact Logic.I].
    destruct (begin_spec A [] m m2 i c I B C N) as [Hid Hb]. destruct (Hb msgs) as [Rr Cap].
    match type of Bd with context [report_and_finish A O ?a ?b ?c ?d] => destruct (report_and_finish A O a b c d) as [[[e3 m3] t5] f3] eqn:R end.
    injection Bd as <- <- <- <-. pose proof (report_same w monitor mode _ _ _ _ _ _ _ _ R) as [_ Q5].
    unfold report_and_finish in R. destruct (collect_metadata A msgs) as [md|]; [|injection R as <- <- <- <-; exact Logic.I].
    destruct (o_report O md e2) as [e4 r]. destruct r; [injection R as <- <- <- <-; exact Logic.I|].
    destruct (finish_spec A O (m_next m) msgs [] _ _ e4 (fun y c => log_ok (u_world y) c) Rr B (Forall_nil _)) as (m4 & Fi & Rr4 & _).
    rewrite Hid in R. rewrite Hid in Fi. rewrite Fi in R. change (a_logging A) with true in R. injection R as <- <- <- <-.
    assert (Nx : m_next m4 = (m_next m + 1)%N) by (symmetry; apply (rrel_next _ _ _ Rr4)). split; [split; [rewrite Nx; exact Rr4|constructor]|].
    split; [exact Nx|]. exists msgs. split; [|exact Hp]. unfold RuntimeSpec.logged in *. rewrite flat_map_app, Q4. reflexivity. }
  destruct f as [|[y|]|]; try discriminate; [|destruct X]. injection H as <- <- <-. destruct X as (X1 & X2 & msgs & X3 & X4).
  split; [exact X1|]. split; [exact X2|]. exists msgs. split; [|exact X4]. unfold RuntimeSpec.logged in *. rewrite !flat_map_app, G1, G3, X3. reflexivity.
Qed.

Lemma loop_logs n : forall m e e' m' tr, Forall slot_ok (contents m) -> minv [] m -> (m_next m + N.of_nat n < 2 ^ 32)%N ->
  (u_int e + Z.of_nat n < 2 ^ 31)%Z -> run_loop A O n m e = (e', m', tr, None) ->
  exists ls, RuntimeSpec.logged tr = map (fun k => ((m_next m + N.of_nat k)%N, nth k ls [])) (seq 0 n) /\ length ls = n /\
    forall k, k < n -> holds (u_int e + Z.of_nat (S k))%Z (float_at (u_float e) (S k)) (nth k ls []).
Proof.
  induction n as [|n IH]; intros m e e' m' tr Sh I B Hz H; cbn [run_loop] in H.
  - injection H as <- <- <-. exists []. repeat split; intros; lia.
  - destruct (run_one_iteration A O m e) as [[[e1 m1] t1] r] eqn:R. destruct r; try discriminate.
    destruct (run_loop A O n m1 e1) as [[[e2 m2] t2] r2] eqn:L. injection H as <- <- <- ->.
    assert (Hz1 : (u_int e < 2 ^ 31 - 1)%Z) by lia. assert (B1 : (m_next m + 1 < 2 ^ 32)%N) by lia.
    destruct (iteration_logs _ _ _ _ _ Sh I B1 Hz1 R) as (Sh1 & I1 & N1 & msgs & G1 & H1).
    assert (Sh0 : shaped m) by (unfold shaped; eapply Forall_impl; [|exact Sh]; intros l Hl; apply Hl).
    destruct (iteration w monitor mode _ _ _ _ _ Sh0 Hz1 R) as (_ & V1 & V2 & _).
    assert (B2 : (m_next m1 + N.of_nat n < 2 ^ 32)%N) by lia. assert (B3 : (u_int e1 + Z.of_nat n < 2 ^ 31)%Z) by lia.
    destruct (IH _ _ _ _ _ Sh1 I1 B2 B3 L) as (ls & G2 & Ln & H2).
    exists (msgs :: ls). split; [|split].
    + unfold RuntimeSpec.logged in *. rewrite flat_map_app, G1, G2. cbn [seq map app nth]. rewrite N.add_0_r. f_equal.
      rewrite <- seq_shift, map_map. apply map_ext. intros k. cbn [nth]. f_equal. lia.
    + cbn. now rewrite Ln.
    + intros [|k] K; cbn [nth].
      * exact H1.
      * specialize (H2 k ltac:(lia)). rewrite V1, V2 in H2.
        replace (u_int e + Z.of_nat (S (S k)))%Z with (u_int e + 1 + Z.of_nat (S k))%Z by lia.
        assert (Q : float_at (fadd (u_float e) (f32_of 1)) (S k) = float_at (u_float e) (S (S k))); [|now rewrite <- Q].
        clear. unfold float_at. induction k; [reflexivity|]. cbn [Nat.iter nat_rect] in *. unfold Nat.iter in *. cbn in *. now rewrite IHk.
Qed.
End Record.

Lemma slot_new cap : Forall slot_ok (contents (mgr_new cap multi_zero)).
Proof.
  unfold contents. apply Forall_forall. intros l Hl. apply in_map_iff in Hl. destruct Hl as (c & <- & Hc). unfold mgr_new in Hc. cbn [m_data] in Hc. apply repeat_spec in Hc. subst c.
  split; [reflexivity|]. split; repeat constructor.
Qed.
Definition stored (p : CodecModel.payload) (v : p_type p) : Prop := p_dec p (p_enc p v) = Some (v, []).
Lemma multi_payloads_ok : payloads_ok stored multi_payloads.
Proof.
  assert (G : forall p : CodecModel.payload, streaming (p_dec p) -> lossless (stored p) (p_enc p) (p_dec p) /\ streaming (p_dec p)).
  { intros p Hs. split; [|exact Hs]. intros v rest Hv. unfold stored in Hv. destruct (Hs _ _ _ Hv) as (q & E & Hq). rewrite app_nil_r in E. rewrite E. apply Hq. }
  assert (Sf : streaming dec_float) by (apply streaming_bind; [apply streaming_fixed|intros; apply streaming_ret]).
  unfold multi_payloads, payloads_ok. repeat apply Forall_cons; [apply G; cbn [p_dec]..|constructor].
  - apply streaming_signed.
  - exact Sf.
  - apply streaming_pair; [apply streaming_signed|exact Sf].
  - apply streaming_ret.
  - apply streaming_ret.
Qed.
Lemma meta_recorded y : msg_small y -> metadata_ok (recorded_meta y).
Proof.
  intros [A B]. unfold recorded_meta, metadata_ok. cbn [md_process md_tov md_status tov_ok]. split; [|split; [exact Logic.I|split; [constructor|unfold ubits; cbn; lia]]].
  assert (G : forall o, time_small o -> oct_ok (oct_of_option o)).
  { intros [t|] H; unfold oct_ok, time_ok, ubits, time_small in *; cbn [oct_of_option oct_raw]; [lia|unfold NONE_VALUE; lia]. }
  split; cbn [pr_start pr_end]; auto.
Qed.
Lemma oct_back o : time_small o -> oct_to_option (oct_of_option o) = o.
Proof.
  destruct o as [t|]; [|reflexivity]. unfold time_small, oct_to_option, oct_of_option, NONE_VALUE. cbn [oct_raw]. intros H.
  match goal with |- context [(t =? ?v)%N] => destruct (N.eqb_spec t v) as [E|E]; [|reflexivity] end. lia.
Qed.
Lemma recorded_ok z x l id : (0 <= z < 2 ^ 31)%Z -> valid x -> (id < 2 ^ 32)%N -> holds z x l ->
  exists c, record_list id l = Some c /\ copperlist_ok stored c /\ CodecModel.cl_id c = id /\ CodecModel.cl_st c = CodecModel.BeingSerialized /\ times_in c = map (fun y => (m_start y, m_end y)) l /\ lines_of c = [SinkTask1 z x; SinkTask2 z x] /\
  match CodecModel.cl_msgs c with
  | (i, (f, (p, (s, (t, _))))) =>
      msg_payload i = Some z /\ msg_payload f = Some x /\ msg_payload p = Some (z, x) /\
      msg_payload s = None /\ msg_payload t = None
  end.
Proof.
  intros Hz V Hid ((L & Ti & Em) & Pl). destruct l as [|m0 [|m1 [|m2 [|m3 [|m4 [|]]]]]]; try discriminate L.
  cbn [firstn map skipn] in *. injection Pl as P0 P1 P2. apply Forall_cons_iff in Em as [P3 Em]. apply Forall_cons_iff in Em as [P4 _]. repeat (apply Forall_cons_iff in Ti as [? Ti]).
  eexists. split; [reflexivity|]. split; [|split; [reflexivity|]; split; [reflexivity|]; split; [cbn [times_in CodecModel.cl_msgs map msg_meta recorded recorded_meta md_process pr_start pr_end]; rewrite !oct_back by tauto; reflexivity|]; unfold lines_of; cbn [CodecModel.cl_msgs recorded msg_payload]; rewrite P0, P1, P2; cbn [as_int as_float as_pair]; rewrite P3, P4; auto 10].
  assert (Si : lossless (sbits 32) enc_signed (dec_signed 4)) by (apply signed_lossless; auto).
  assert (Sz : sbits 32 z) by (unfold sbits; cbn; lia).
  assert (Fx : forall rest, dec_float (enc_f32 (to_bits x) ++ rest) = Some (x, rest)) by (intros; now apply PidProps.float_read).
  split; [exact Hid|]. cbn [CodecModel.cl_msgs tuple_ok multi_payloads fst snd].
  repeat (split; [split; [cbn [recorded msg_payload]; rewrite ?P0, ?P1, ?P2, ?P3, ?P4; cbn [as_int as_float as_pair]; intros p Hp; try discriminate Hp; injection Hp as <-; unfold stored; cbn [p_enc p_dec]
                         |apply meta_recorded; assumption]|]); [..|exact Logic.I].
  - rewrite <- (app_nil_r (enc_signed z)). now apply Si.
  - rewrite <- (app_nil_r (enc_f32 _)). apply Fx.
  - unfold enc_pair, dec_pair, dbind. cbn [fst snd]. rewrite (Si z _ Sz). specialize (Fx []). rewrite app_nil_r in Fx. rewrite Fx. reflexivity.
Qed.

(** * C166 *)
Theorem C166_recording : forall (W F : Type) (w : world W F) monitor mode cap n x e m tr,
  (forall s, (snd (w_now w s) < 2 ^ 64)%N) -> (forall s c, w_log w s c = true) -> 0 < cap -> 0 < n -> (42 + Z.of_nat n < 2 ^ 31)%Z ->
  run_loop (multi_app mode) (multi_oracles w monitor mode) n (mgr_new cap multi_zero) (multi_new x) = (e, m, tr, None) ->
  exists cls, map (fun r => record_list (fst r) (snd r)) (RuntimeSpec.logged tr) = map Some cls /\
  forall ps slab ops sy lg i, page_ok ps -> sizes_ok ps ops -> no_last ops ->
  session ps slab ops = Ret sy -> all_closed sy -> logger_drop ps slab (sy_lg sy) = Ret lg ->
  nth_error (opened ops) i = Some TCopperList -> (forall j, nth_error (opened ops) j = Some TCopperList -> j = i) ->
  ULogSpec.logged i ops = map enc_cl cls ->
  exists b, delivers (lg_files lg) TCopperList b /\ let read := @copperlists_dump multi_payloads b in
    read = cls /\ length read = n /\ (forall k c, nth_error read k = Some c -> expected k c) /\
    map times_in read = map (fun r => map (fun y => (m_start y, m_end y)) (snd r)) (RuntimeSpec.logged tr) /\
    u_lines e = flat_map lines_of read.
Proof.
  intros W F w monitor mode cap n x e m tr Hnow Hlog Hcap Hn0 Hn H.
  assert (Hb : (m_next (mgr_new cap multi_zero) + N.of_nat n < 2 ^ 32)%N) by (cbn [mgr_new m_next]; lia).
  destruct (loop_logs w monitor mode Hnow Hlog n _ (multi_new x) _ _ _ (slot_new cap) (minv_new cap multi_zero Hcap) Hb Hn H) as (ls & G & Ln & Hls).
  destruct (loop w monitor mode n _ (multi_new x) _ _ _ (shaped_new cap) Hn H) as (_ & Li). cbn [multi_new u_lines app u_int u_float] in *. cbn [mgr_new m_next] in G.
  assert (X : forall k, k < n -> exists c, record_list (N.of_nat k) (nth k ls []) = Some c /\ copperlist_ok stored c /\ expected k c /\ times_in c = map (fun y => (m_start y, m_end y)) (nth k ls []) /\
    lines_of c = [SinkTask1 (42 + Z.of_nat (S k)) (float_at (f32_of 24) (S k)); SinkTask2 (42 + Z.of_nat (S k)) (float_at (f32_of 24) (S k))]).
  { intros k K. specialize (Hls k K). 
    assert (Z1 : (0 <= 42 + Z.of_nat (S k) < 2 ^ 31)%Z) by lia. assert (V1 : valid (float_at (f32_of 24) (S k))) by (rewrite float_counts; apply f32_of_valid). assert (I1 : (N.of_nat k < 2 ^ 32)%N) by lia.
    destruct (recorded_ok _ _ _ _ Z1 V1 I1 Hls) as (c & R1 & R2 & R3 & R6 & R7 & R4 & R5).
    exists c. split; [exact R1|]. split; [exact R2|]. split; [|split; [exact R7|exact R4]]. unfold expected, counted. split; [exact R3|]. split; [exact R6|].
    rewrite float_counts in R5. replace (43 + Z.of_nat k)%Z with (42 + Z.of_nat (S k))%Z by lia. replace (25 + Z.of_nat k)%Z with (24 + Z.of_nat (S k))%Z by lia. exact R5. }
  assert (Y : forall n0 d, d + n0 <= n -> exists cls, map (fun k => record_list (N.of_nat k) (nth k ls [])) (seq d n0) = map Some cls /\ length cls = n0 /\ Forall (copperlist_ok stored) cls /\
     (forall k c, nth_error cls k = Some c -> expected (d + k) c) /\
     map times_in cls = map (fun k => map (fun y => (m_start y, m_end y)) (nth k ls [])) (seq d n0) /\
     flat_map lines_of cls = flat_map (fun k => [SinkTask1 (42 + Z.of_nat (S k)) (float_at (f32_of 24) (S k)); SinkTask2 (42 + Z.of_nat (S k)) (float_at (f32_of 24) (S k))]) (seq d n0)).
  { induction n0 as [|n0 IH]; intros d D.
    - exists []. split; [reflexivity|]. split; [reflexivity|]. split; [constructor|]. split; [intros [|k] c; discriminate|split; reflexivity].
    - destruct (X d ltac:(lia)) as (c & R1 & R2 & R3 & R6 & R4). destruct (IH (S d) ltac:(lia)) as (cls & C1 & C2 & C3 & C4 & C6 & C5).
      exists (c :: cls). cbn [seq map length]. rewrite R1, C1, C2. split; [reflexivity|]. split; [reflexivity|]. split; [now constructor|]. split.
      + intros [|k] c' E; cbn in E; [injection E as <-; now rewrite Nat.add_0_r|]. rewrite <- plus_n_Sm. now apply (C4 k).
      + split; [now rewrite R6, C6|]. cbn [flat_map]. now rewrite R4, C5. }
  destruct (Y n 0 (le_n n)) as (cls & C1 & C2 & C3 & C4 & C6 & C5). exists cls. split.
  - rewrite G, map_map. cbn [fst snd]. exact C1.
  - intros ps slab ops sy lg i P1 P2 P3 P4 P5 P6 P7 P8 P9.
    destruct (lists_exported stored multi_payloads multi_payloads_ok ps slab ops sy lg i cls P1 P2 P3 P4 P5 P6 P7 P8) as (b & D & Rd); auto.
    { intros ->. cbn in C2. lia. }
    exists b. split; [exact D|]. cbv zeta. rewrite Rd. split; [reflexivity|]. split; [exact C2|]. split; [exact C4|]. split; [rewrite G, map_map; exact C6|].
    rewrite Li, C5, <- seq_shift, !flat_map_concat_map, map_map. f_equal.
Qed.
Print Assumptions C166_recording.

(** Three iterations recorded in a log of 16-byte pages. *)
Definition ex_run := run_loop (multi_app Checked) (multi_oracles ex_world (fun _ _ _ => Ignore) Checked) 3 (mgr_new 2 multi_zero) (multi_new 300%N).
Definition ex_cls : list (copperlist multi_payloads) :=
  flat_map (fun r => match record_list (fst r) (snd r) with Some c => [c] | None => [] end) (RuntimeSpec.logged (snd (fst ex_run))).
Definition ex_bytes : list bytes := Eval vm_compute in map enc_cl ex_cls.
Definition ex_ops : list lop :=
  [LOpen TCopperList 100; LOpen TStructured 30] ++ map (fun b => LLog 0 (ULogProps.ex_obj b)) ex_bytes ++ [LLog 1 (ULogProps.ex_obj [4%N; 5%N]); LClose 1; LClose 0].
Lemma all_some {X Y} (f : X -> option Y) l : forallb (fun x => match f x with Some _ => true | None => false end) l = true ->
  map f l = map Some (flat_map (fun x => match f x with Some c => [c] | None => [] end) l).
Proof. induction l as [|a l IH]; cbn; [reflexivity|]. destruct (f a); [|discriminate]. intros H. cbn. now rewrite IH. Qed.
Lemma quad {X Y Z T} (q : X * Y * Z * T) t : snd q = t -> q = (fst (fst (fst q)), snd (fst (fst q)), snd (fst q), t).
Proof. destruct q as [[[? ?] ?] ?]. cbn. now intros ->. Qed.
Lemma ex_ends : snd ex_run = None.
Proof. vm_compute. reflexivity. Qed.
Lemma ex_whole : map (fun r => record_list (fst r) (snd r)) (RuntimeSpec.logged (snd (fst ex_run))) = map Some ex_cls.
Proof. apply (all_some (fun r => record_list (fst r) (snd r))). vm_compute. reflexivity. Qed.
Lemma ex_length : length ex_cls = 3.
Proof. vm_compute. reflexivity. Qed.
Lemma ex_bytes_eq : ULogSpec.logged 0 ex_ops = map enc_cl ex_cls.
Proof. vm_compute. reflexivity. Qed.
Example C166_case : exists e m tr cls sy lg,
  ex_run = (e, m, tr, None) /\
  map (fun r => record_list (fst r) (snd r)) (RuntimeSpec.logged tr) = map Some cls /\ length cls = 3 /\
  page_ok 16 /\ sizes_ok 16 ex_ops /\ no_last ex_ops /\ session 16 256 ex_ops = Ret sy /\ all_closed sy /\
  logger_drop 16 256 (sy_lg sy) = Ret lg /\ opened ex_ops = [TCopperList; TStructured] /\ ULogSpec.logged 0 ex_ops = map enc_cl cls.
Proof.
  destruct (ULogProofs8.full_run 16 256 ex_ops (fun sy lg => ULogProofs8.none_left sy) true) as (sy & lg & E1 & E2 & H); [vm_compute; reflexivity|].
  pose proof ex_bytes_eq as Eb.
  exists (fst (fst (fst ex_run))), (snd (fst (fst ex_run))), (snd (fst ex_run)), ex_cls, sy, lg.
  split; [exact (quad ex_run None ex_ends)|].
  split; [exact ex_whole|]. split; [exact ex_length|].
  split; [exact ULogProps.ex_page|]. split; [ULogProps.sizes|]. split; [ULogProps.nolast|]. split; [exact E1|].
  split; [now apply ULogProofs8.none_left_spec|]. split; [exact E2|]. split; [reflexivity|]. exact Eb.
Qed.
