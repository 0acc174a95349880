(** C164: the example with two sources. *)
From Coq Require Import String List Arith NArith ZArith Bool Lia.
From Verif Require Import Base CuListModel CuListSpec CuListProofs PlanModel RuntimeModel RuntimeSpec RuntimeProofs RuntimeProofs2 RuntimeProofs5 FloatModel FloatFacts MultiModel.
From Verif Require ServoReadProps.
From Coq Require Import Reals Lra SpecFloat.
From Flocq Require Import Core BinarySingleNaN.
Import ListNotations.
Open Scope nat_scope.

(** * Specification *)
(** What a source of whole numbers started at [from] gives the k-th time, from 1, if it counts. *)
Definition counted (from : Z) (k : nat) : Z := (from + Z.of_nat k)%Z.
(** The f32 of a whole number. *)
Definition whole (z : Z) : f32 := f32_of (Z.to_N z).

(** * Proofs *)
Section Multi.
Context {W F : Type}.
Variable w : world W F.
Variable monitor : phase -> nat -> F -> decision.
Variable mode : ovf_mode.
Notation A := (multi_app mode).
Notation O := (multi_oracles w monitor mode).
Definition same (e e' : multi W) : Prop := u_int e' = u_int e /\ u_float e' = u_float e /\ u_lines e' = u_lines e /\ u_dead e' = u_dead e.
Lemma outside_same {B} (f : W -> W * B) e e' r : outside f e = (e', r) -> same e e'.
Proof. unfold outside. destruct (f (u_world e)). intros [= <- <-]. repeat split. Qed.
Lemma outside_eq {B} (f : W -> W * B) e : exists x r, outside f e = (Multi x (u_int e) (u_float e) (u_lines e) (u_dead e), r) /\ (forall y, (forall s, snd (f s) = y) -> r = y).
Proof. unfold outside. destruct (f (u_world e)) as [x r] eqn:E. exists x, r. split; [reflexivity|]. intros y H. rewrite <- (H (u_world e)), E. reflexivity. Qed.
Lemma pass (e : multi W) msgs e' tr msgs' f : (u_int e < 2 ^ 31 - 1)%Z -> length msgs = 5 ->
  process_all A O (a_plan A) msgs e = (e', tr, msgs', f) ->
  let z := (u_int e + 1)%Z in let x := fadd (u_float e) (f32_of 1) in
  f = PNext /\ length msgs' = 5 /\ u_int e' = z /\ u_float e' = x /\ u_dead e' = u_dead e /\ u_lines e' = u_lines e ++ [SinkTask1 z x; SinkTask2 z x] /\
  (forall t, (forall s, snd (w_now w s) = t) -> Forall (fun y => m_start y = to_oct t /\ m_end y = to_oct t) msgs').
Proof.
  intros H L P. destruct msgs as [|m0 [|m1 [|m2 [|m3 [|m4 [|]]]]]]; try discriminate L.
  assert (E : a_plan A = [Step 0 Source [] (Some (0, "i32"%string)); Step 1 Source [] (Some (1, "f32"%string));
    Step 2 Regular [(0, "i32"%string); (1, "f32"%string)] (Some (2, "(i32, f32)"%string));
    Step 3 Sink [(0, "i32"%string); (1, "f32"%string)] (Some (3, "()"%string));
    Step 4 Sink [(2, "(i32, f32)"%string)] (Some (4, "()"%string))]) by (vm_compute; reflexivity).
  rewrite E in P. clear E. destruct e as [wo zi xf li de]. cbn [u_int u_float u_lines u_dead] in *.
  set (x := fadd xf (f32_of 1)). cbv zeta.
  assert (N : next_i32 mode zi = Ret (zi + 1)%Z) by (unfold next_i32; destruct (Z.ltb_spec zi (2 ^ 31 - 1)); [reflexivity|lia]).
  cbn [process_all] in P.
  Ltac now_in PS := match type of PS with context [outside ?g ?y] => destruct (outside_eq g y) as (? & ?r & ?X & ?Hr); rewrite X in PS; clear X end;
    cbn [u_int u_float u_lines u_dead] in PS.
  Ltac one P Hn := match type of P with context [process_step ?a ?o ?s ?m ?e] =>
    let PS := fresh "PS" in let ps := fresh "ps" in
    remember (process_step a o s m e) as ps eqn:PS in P; unfold process_step in PS;
    cbn [s_out nth_error gather s_inputs fst] in PS; unfold process_msg in PS; change (a_sim a) with false in PS; cbv iota in PS;
    unfold do_process in PS; cbn [s_node s_type o_now multi_oracles o_process o_sink] in PS; now_in PS;
    cbn [multi_process multi_sink u_int u_float m_payload with_start with_end with_payload] in PS; try rewrite Hn in PS; cbn [print u_int u_float u_lines u_dead] in PS;
    now_in PS; cbn [upd] in PS; subst ps; cbn beta iota zeta in P
  end.
  do 5 one P N. fold x in P. injection P as <- <- <- <-. cbn [u_int u_float u_lines u_dead length].
  rewrite <- app_assoc. do 6 (split; [reflexivity|]).
  intros t Ht. repeat (apply Forall_cons; [cbn; rewrite ?(Hr _ Ht), ?(Hr0 _ Ht), ?(Hr1 _ Ht), ?(Hr2 _ Ht), ?(Hr3 _ Ht), ?(Hr4 _ Ht), ?(Hr5 _ Ht), ?(Hr6 _ Ht), ?(Hr7 _ Ht), ?(Hr8 _ Ht); split; reflexivity|]). constructor.
Qed.
Lemma lifecycle_quiet ph ts : forall e, exists tr, lifecycle A O ph ts e = (e, tr, Next).
Proof.
  induction ts as [|t ts IH]; intros e; cbn [lifecycle]; [eauto|]. unfold one_call. change (a_sim A) with false. cbv iota. unfold do_call. cbn [o_task multi_oracles].
  destruct (IH e) as (tr & ->). eauto.
Qed.
Lemma report_same id m msgs e e' m' tr f : report_and_finish A O id m msgs e = (e', m', tr, f) -> same e e' /\ f <> Return None.
Proof.
  unfold report_and_finish. destruct (collect_metadata A msgs) as [md|]; [|intros [= <- <- <- <-]; repeat split; discriminate]. cbn [o_report multi_oracles].
  destruct (outside (w_report w md) e) as [e1 r] eqn:E. apply outside_same in E. destruct r; [intros [= <- <- <- <-]; split; [exact E|discriminate]|].
  destruct (finish A O id m e1) as [[m1 lg]|]; intros [= <- <- <- <-]; (split; [exact E|discriminate]).
Qed.
Definition shaped (m : mgr (list message)) : Prop := Forall (fun l => length l = 5) (contents m).
Lemma iteration m e e' m' tr : shaped m -> (u_int e < 2 ^ 31 - 1)%Z -> run_one_iteration A O m e = (e', m', tr, ROk) ->
  let z := (u_int e + 1)%Z in let x := fadd (u_float e) (f32_of 1) in
  shaped m' /\ u_int e' = z /\ u_float e' = x /\ u_dead e' = u_dead e /\ u_lines e' = u_lines e ++ [SinkTask1 z x; SinkTask2 z x].
Proof.
  intros Sh Hz H z x. split.
  { apply (iteration_kept A O (fun l => length l = 5) m e e' m' tr ROk); [|exact H|exact Sh].
    intros msgs e1 e2 tr' msgs' f P L. destruct (process_all_spec A O _ _ _ _ _ _ _ P) as [_ ->]. exact L. }
  unfold run_one_iteration in H. destruct (lifecycle_quiet Preprocess (seq 0 (a_tasks A)) e) as (t1 & E1). rewrite E1 in H.
  destruct (copperlist_body A O m e) as [[[e1 m1] t2] f] eqn:B. destruct (lifecycle_quiet Postprocess (seq 0 (a_tasks A)) e1) as (t3 & E3). rewrite E3 in H.
  assert (X : match f with Next => u_int e1 = z /\ u_float e1 = x /\ u_dead e1 = u_dead e /\ u_lines e1 = u_lines e ++ [SinkTask1 z x; SinkTask2 z x] | Return None => False | _ => True end).
  { unfold copperlist_body in B. destruct (create (a_mode A) m) as [[[m2 i]|]|] eqn:C; [|injection B as <- <- <- <-; exact I..].
    destruct (nth_error (m_data m2) i) as [c|] eqn:N; [|injection B as <- <- <- <-; exact I]. destruct (create_contents A _ _ _ _ C N) as [_ Nc].
    assert (Lc : length (cl_msgs c) = 5) by (unfold shaped in Sh; rewrite Forall_forall in Sh; apply Sh; eapply nth_error_In, Nc).
    destruct (process_all A O (a_plan A) (cl_msgs c) e) as [[[e2 t4] msgs] pf] eqn:P.
    destruct (pass _ _ _ _ _ _ Hz Lc P) as (-> & Lm & V1 & V2 & V3 & V4 & _).
    destruct (match collect_metadata A msgs with Some md => e2e A md | None => Panic end) as [y|]; [|injection B as <- <- <- <-; exact I].
    match type of B with context [report_and_finish A O ?a ?b ?c ?d] => destruct (report_and_finish A O a b c d) as [[[e3 m3] t5] f3] eqn:R end.
    assert (R2 := report_same _ _ _ _ _ _ _ _ R). destruct R2 as ((Q1 & Q2 & Q3 & Q4) & Q5). injection B as <- <- <- <-. destruct f3 as [|[y'|]|]; auto.
    rewrite Q1, Q2, Q3, Q4. auto. }
  destruct f as [|[y|]|]; try discriminate; [|destruct X]. injection H as <- <- <-. exact X.
Qed.
(** The float source after its k-th turn. *)
Definition float_at (x : f32) (k : nat) : f32 := Nat.iter k (fun x => fadd x (f32_of 1)) x.
Lemma loop n : forall m e e' m' tr, shaped m -> (u_int e + Z.of_nat n < 2 ^ 31)%Z -> run_loop A O n m e = (e', m', tr, None) ->
  u_dead e' = u_dead e /\ u_lines e' = u_lines e ++ flat_map (fun k => [SinkTask1 (u_int e + Z.of_nat k) (float_at (u_float e) k); SinkTask2 (u_int e + Z.of_nat k) (float_at (u_float e) k)]) (seq 1 n).
Proof.
  induction n as [|n IH]; intros m e e' m' tr Sh Hz H; cbn [run_loop] in H; [injection H as <- <- <-; cbn; rewrite app_nil_r; auto|].
  destruct (run_one_iteration A O m e) as [[[e1 m1] t1] r] eqn:R. destruct r; try discriminate.
  destruct (run_loop A O n m1 e1) as [[[e2 m2] t2] r2] eqn:L. injection H as <- <- <- ->.
  assert (Hz1 : (u_int e < 2 ^ 31 - 1)%Z) by lia.
  destruct (iteration _ _ _ _ _ Sh Hz1 R) as (Sh1 & V1 & V2 & V3 & V4). assert (Hz2 : (u_int e1 + Z.of_nat n < 2 ^ 31)%Z) by (rewrite V1; lia).
  destruct (IH _ _ _ _ _ Sh1 Hz2 L) as (D2 & P2). split; [congruence|]. rewrite P2, V4, <- app_assoc, V1, V2. f_equal.
  cbn [seq flat_map]. rewrite <- (seq_shift n 1), !flat_map_concat_map, map_map. cbn [app]. 
  change (float_at (u_float e) 1) with (fadd (u_float e) (f32_of 1)). do 2 f_equal. f_equal. apply map_ext. intros k.
  assert (float_at (fadd (u_float e) (f32_of 1)) k = float_at (u_float e) (S k)) as ->.
  { clear. unfold float_at. induction k; [reflexivity|]. cbn [Nat.iter nat_rect]. cbn in IHk. unfold Nat.iter in *. cbn. rewrite IHk. reflexivity. }
  replace (u_int e + 1 + Z.of_nat k)%Z with (u_int e + Z.of_nat (S k))%Z by lia. reflexivity.
Qed.
(** Iterations succeed when nothing outside fails and the clock stands still. *)
Lemma forward t m e : (forall s, snd (w_now w s) = t) -> (t < 2 ^ 64 - 1)%N -> (forall md s, snd (w_report w md s) = None) -> (forall s c, w_log w s c = true) ->
  shaped m -> minv [] m -> (m_next m + 1 < 2 ^ 32)%N -> (u_int e < 2 ^ 31 - 1)%Z ->
  exists e' m' tr, run_one_iteration A O m e = (e', m', tr, ROk) /\ minv [] m' /\ m_next m' = (m_next m + 1)%N.
Proof.
  intros Ht Lt Rp Lg S I B Hz. assert (Oc : to_oct t = Some t) by (unfold to_oct; destruct (N.eqb_spec t (2 ^ 64 - 1)); [lia|reflexivity]).
  assert (Cr : exists m1 i, create mode m = Ret (Some (m1, i))).
  { destruct (create mode m) as [[[m1 i]|]|] eqn:C; [eauto| |]; exfalso; (assert (X : length (@nil (entry (list message))) = cap m); [apply (proj1 (create_full A [] m I B)); intros m1 i; cbn; rewrite C; discriminate|];
      cbn [length] in X; destruct I as (((Wm & _ & _) & _) & _); lia). }
  destruct Cr as (m1 & i & Cr). destruct (nth_error (m_data m1) i) as [cl|] eqn:Nc.
  2:{ exfalso. pose proof I as ((Wm & _) & _). destruct (create_spec mode m Wm) as [[Q X]|[Q (slot & En & X)]]; rewrite X in Cr; [discriminate|].
      rewrite succ_u32_small in Cr by lia. cbn [obind] in Cr. injection Cr as <- <-. cbn in Nc. apply nth_error_None in Nc. rewrite upd_length in Nc. assert (Z : nth_error (m_data m) (m_len m) <> None) by (rewrite En; discriminate). apply nth_error_Some in Z. lia. }
  destruct (create_contents A _ _ _ _ Cr Nc) as [_ Nm].
  assert (Lc : length (cl_msgs cl) = 5) by (unfold shaped in S; rewrite Forall_forall in S; apply S; eapply nth_error_In, Nm).
  destruct (process_all A O (a_plan A) (cl_msgs cl) e) as [[[e1 t4] msgs] pf] eqn:P.
  destruct (pass _ _ _ _ _ _ Hz Lc P) as (-> & Lm & _ & _ & _ & _ & Ti). specialize (Ti t Ht).
  destruct (begin_spec A [] m m1 i cl I B Cr Nc) as [Hid Hb]. destruct (Hb msgs) as [Rr Cap].
  destruct msgs as [|y0 [|y1 [|y2 [|y3 [|y4 [|]]]]]]; try discriminate Lm. repeat (apply Forall_cons_iff in Ti as [[? ?] Ti]).
  unfold run_one_iteration. destruct (lifecycle_quiet Preprocess (seq 0 (a_tasks A)) e) as (t1 & E1). rewrite E1. cbv beta iota zeta.
  unfold copperlist_body. change (a_mode A) with mode. rewrite Cr, Nc, P.
  assert (Md : collect_metadata A [y0; y1; y2; y3; y4] = Some [y0; y1; y2; y3; y4]) by (vm_compute; reflexivity).
  rewrite Md. assert (D : e2e A [y0; y1; y2; y3; y4] = Ret (t - t)%N).
  { unfold e2e. cbn [last map hd]. replace (m_end y4) with (Some t) by congruence. replace (m_start y0) with (Some t) by congruence. rewrite N.leb_refl. reflexivity. }
  rewrite D. unfold report_and_finish. rewrite Md. cbn [o_report multi_oracles].
  destruct (outside_eq (w_report w [y0; y1; y2; y3; y4]) e1) as (x & r & -> & Hr). rewrite (Hr None (Rp _)).
  match goal with |- context [finish A O _ _ ?ee] => destruct (finish_spec A O (m_next m) [y0; y1; y2; y3; y4] [] _ _ ee (fun y c => Lg (u_world y) c) Rr B (Forall_nil _)) as (m4 & Fi & Rr4 & _) end.
  rewrite <- Hid in Fi at 1. rewrite Fi. 
  match goal with |- context [lifecycle A O Postprocess _ ?ee] => destruct (lifecycle_quiet Postprocess (seq 0 (a_tasks A)) ee) as (t5 & E5); rewrite E5 end.
  do 3 eexists. split; [reflexivity|]. assert (Nx : m_next m4 = (m_next m + 1)%N) by (symmetry; apply (rrel_next _ _ _ Rr4)). split; [|exact Nx]. split; [rewrite Nx; exact Rr4|constructor].
Qed.
Lemma runs t n : (forall s, snd (w_now w s) = t) -> (t < 2 ^ 64 - 1)%N -> (forall md s, snd (w_report w md s) = None) -> (forall s c, w_log w s c = true) ->
  forall m e, shaped m -> minv [] m -> (m_next m + N.of_nat n < 2 ^ 32)%N -> (u_int e + Z.of_nat n < 2 ^ 31)%Z ->
  exists e' m' tr, run_loop A O n m e = (e', m', tr, None).
Proof.
  intros Ht Lt Rp Lg. induction n as [|n IH]; intros m e S I B Hz; cbn [run_loop]; [eauto|].
  destruct (forward t m e Ht Lt Rp Lg S I ltac:(lia) ltac:(lia)) as (e1 & m1 & tr1 & R & I1 & N1). rewrite R.
  assert (Hz1 : (u_int e < 2 ^ 31 - 1)%Z) by lia. destruct (iteration _ _ _ _ _ S Hz1 R) as (S1 & V1 & _).
  destruct (IH m1 e1 S1 I1 ltac:(lia) ltac:(rewrite V1; lia)) as (e2 & m2 & tr2 & L). rewrite L. eauto.
Qed.
End Multi.

Lemma same_val x y : valid x -> valid y -> fin x -> fin y -> val x = val y -> val x <> 0%R -> x = y.
Proof.
  intros Vx Vy Fx Fy E Nz. destruct (sf_of _ Vx) as (b & ->). destruct (sf_of _ Vy) as (c & ->). rewrite !val_b in *.
  unfold fin in *. rewrite is_finite_SF_B2SF in *. f_equal. apply B2R_inj; [..|exact E].
  - destruct b; try discriminate; [|reflexivity]. elim Nz. reflexivity.
  - rewrite E in Nz. destruct c; try discriminate; [|reflexivity]. elim Nz. reflexivity.
Qed.
Lemma count_step z : (0 <= z < 16777216)%Z -> fadd (whole z) (f32_of 1) = whole (z + 1).
Proof.
  intros H. unfold whole. destruct (ServoReadProps.f32_whole (Z.to_N z) ltac:(lia)) as (V1 & F1 & E1).
  destruct (ServoReadProps.f32_whole 1 ltac:(lia)) as (V2 & F2 & E2). destruct (ServoReadProps.f32_whole (Z.to_N (z + 1)) ltac:(lia)) as (V3 & F3 & E3).
  rewrite Z2N.id in E1, E3 by lia. cbn [Z.of_N] in E2.
  assert (R : rn (val (f32_of (Z.to_N z)) + val (f32_of 1)) = IZR (z + 1)).
  { rewrite E1, E2, <- plus_IZR. apply ServoReadProps.rn_whole. change (2 ^ 24)%Z with 16777216%Z. lia. }
  destruct (fadd_real _ _ V1 V2 F1 F2) as (F4 & E4).
  { rewrite R, <- abs_IZR. apply Rle_lt_trans with (bpow radix2 24); [|apply bpow_big; lia]. change (bpow radix2 24) with (IZR 16777216). apply IZR_le. lia. }
  rewrite R in E4. apply same_val; auto; [apply fadd_valid; auto|congruence|]. rewrite E4. apply not_0_IZR. lia.
Qed.
Lemma float_counts k : float_at (f32_of 24) k = whole (Z.min (24 + Z.of_nat k) 16777216).
Proof.
  induction k as [|k IH]; [reflexivity|]. cbn [float_at Nat.iter nat_rect]. unfold float_at, Nat.iter in *. cbn [nat_rect]. rewrite IH.
  destruct (Z.lt_ge_cases (24 + Z.of_nat k) 16777216) as [L|L].
  - rewrite Z.min_l, count_step by lia. f_equal. lia.
  - rewrite !Z.min_r by lia. vm_compute. reflexivity.
Qed.

(** * C164 *)
(** In every iteration both sinks print the same pair: the integer counts up from 43 and the
    float up from 25 to 2^24, where it stays; no task panics before the integer has reached the
    largest i32. *)
Theorem C164_partial : forall (W F : Type) (w : world W F) monitor mode cap n x e m tr, (42 + Z.of_nat n < 2 ^ 31)%Z ->
  run_loop (multi_app mode) (multi_oracles w monitor mode) n (mgr_new cap multi_zero) (multi_new x) = (e, m, tr, None) ->
  u_dead e = false /\
  u_lines e = flat_map (fun k => let z := counted 42 k in let y := whole (Z.min (counted 24 k) (2 ^ 24)) in [SinkTask1 z y; SinkTask2 z y]) (seq 1 n).
Proof.
  intros W F w monitor mode cap n x e m tr Hn H.
  assert (Sh : shaped (mgr_new cap multi_zero)).
  { unfold shaped, contents. apply Forall_forall. intros l Hl. apply in_map_iff in Hl. destruct Hl as (c & <- & Hc). unfold mgr_new in Hc. cbn [m_data] in Hc. apply repeat_spec in Hc. subst c. reflexivity. }
  destruct (loop w monitor mode n _ (multi_new x) _ _ _ Sh Hn H) as (D & L). split; [exact D|]. rewrite L. cbn [multi_new u_lines app u_int u_float].
  rewrite !flat_map_concat_map. f_equal. apply map_ext. intros k. rewrite float_counts. reflexivity.
Qed.
Print Assumptions C164_partial.
Definition ex_world : world N unit := World N unit (fun t => (t + 1, t)%N) (fun _ t => (t, None)) (fun _ _ => true).
Example C164_case : exists e m tr,
  run_loop (multi_app Checked) (multi_oracles ex_world (fun _ _ _ => Ignore) Checked) 3 (mgr_new 2 multi_zero) (multi_new 5%N) = (e, m, tr, None) /\
  u_lines e = [SinkTask1 43 (f32_of 25); SinkTask2 43 (f32_of 25); SinkTask1 44 (f32_of 26); SinkTask2 44 (f32_of 26); SinkTask1 45 (f32_of 27); SinkTask2 45 (f32_of 27)].
Proof. do 3 eexists. split; [vm_compute; reflexivity|vm_compute; reflexivity]. Qed.
(** The two counters part: some run has the same float in two iterations. *)
Lemma shaped_new cap : shaped (mgr_new cap multi_zero).
Proof. unfold shaped, contents. apply Forall_forall. intros l Hl. apply in_map_iff in Hl. destruct Hl as (c & <- & Hc). unfold mgr_new in Hc. cbn [m_data] in Hc. apply repeat_spec in Hc. subst c. reflexivity. Qed.
Definition still : world unit unit := World unit unit (fun t => (t, 0)%N) (fun _ t => (t, None)) (fun _ _ => true).
Theorem C164_refuted : exists n e m tr y,
  run_loop (multi_app Checked) (multi_oracles still (fun _ _ _ => Ignore) Checked) n (mgr_new 2 multi_zero) (multi_new tt) = (e, m, tr, None) /\
  In (SinkTask1 16777234 y) (u_lines e) /\ In (SinkTask1 16777235 y) (u_lines e) /\ u_dead e = false.
Proof.
  exists (Z.to_nat 16777193).
  destruct (runs still (fun _ _ _ => Ignore) Checked 0 (Z.to_nat 16777193) ltac:(reflexivity) ltac:(lia) ltac:(reflexivity) ltac:(reflexivity) (mgr_new 2 multi_zero) (multi_new tt)) as (e & m & tr & R).
  - apply shaped_new.
  - apply minv_new. lia.
  - change (m_next (mgr_new 2 multi_zero)) with 0%N. lia.
  - change (u_int (multi_new tt)) with 42%Z. lia.
  - exists e, m, tr, (f32_of 16777216). split; [exact R|]. destruct (C164_partial _ _ still (fun _ _ _ => Ignore) Checked 2 (Z.to_nat 16777193) tt e m tr ltac:(lia) R) as (D & ->).
    split; [|split; [|exact D]]; apply in_flat_map.
    + exists (Z.to_nat 16777192). split; [apply in_seq; lia|]. left. unfold counted. cbv zeta. rewrite Z2Nat.id by lia. reflexivity.
    + exists (Z.to_nat 16777193). split; [apply in_seq; lia|]. left. unfold counted. cbv zeta. rewrite Z2Nat.id by lia. reflexivity.
Qed.
Print Assumptions C164_refuted.
