(** The number of copper lists: theorems. *)
From Coq Require Import String List Arith NArith Bool Lia ZifyBool ZifyNat ZifyN.
From Verif Require Import Base CuListModel PlanModel RuntimeModel RuntimeSpec RuntimeProps ReplaySpec ReplayProps AloneProps KeepProps.
Import ListNotations.
Local Open Scope list_scope.
Local Open Scope nat_scope.

(** * Specification *)
(** Every call but perhaps the last returned without error. *)
Definition fails_last {V M Er} (l : list (list (event V M Er) * result (Er := Er))) : Prop := Forall (fun x => snd x = ROk) (removelast l).

(** * Proofs *)
Section Slots.
Context {V M Er E : Type}.
Variable a : application.
Variable o : oracles V M Er E.
Notation message := (msg V M).
Notation manager := (mgr (list message)).

(** Two managers that both wait with the same first copper list. *)
Record alike (m1 m2 : manager) : Prop := {
  al_first : exists x, resting x m1 /\ resting x m2;
  al_next : m_next m1 = m_next m2 }.
(** Managers with their first copper list in use. *)
Definition busy (c : cl (list message)) (m : manager) : Prop :=
  exists rest, m_data m = c :: rest /\ m_len m = 1 /\ m_ins m = 1 mod Datatypes.S (length rest) /\ Forall (fun c => cl_state c = Free) rest.

Lemma create_alike m1 m2 : alike m1 m2 ->
  (create (a_mode a) m1 = Panic /\ create (a_mode a) m2 = Panic) \/
  exists p1 p2 c, create (a_mode a) m1 = Ret (Some (p1, 0)) /\ create (a_mode a) m2 = Ret (Some (p2, 0)) /\ busy c p1 /\ busy (mkCl (cl_id c) (cl_state c) (cl_msgs c)) p2 /\ m_next p1 = m_next p2.
Proof.
  intros [(x & (i1 & r1 & H1 & H2 & H3 & H4) & (i2 & r2 & K1 & K2 & K3 & K4)) Nx]. destruct m1 as [d1 l1 j1 n1], m2 as [d2 l2 j2 n2]. cbn in *. subst d1 d2 l1 l2 j1 j2 n2.
  unfold create, is_full, cap. cbn [m_data m_len m_ins m_next length Nat.eqb nth_error]. destruct (succ_u32 (a_mode a) n1) as [nid|]; cbn [obind upd]; [right|left; auto].
  eexists _, _, _. split; [reflexivity|]. split; [reflexivity|]. cbn [cl_state cl_msgs cl_id]. split; [exists r1; repeat split; auto|]. split; [exists r2; repeat split; auto|reflexivity].
Qed.
Lemma busy_eta c m : busy (mkCl (cl_id c) (cl_state c) (cl_msgs c)) m -> busy c m.
Proof. destruct c; auto. Qed.
Lemma finish_busy id c msgs p env : busy c p ->
  finish a o id (set_slot 0 (mkCl id Processing msgs) p) env =
    if a_logging a && negb (o_log o env (mkCl id BeingSerialized msgs)) then Panic
    else Ret (mkMgr (mkCl id Free msgs :: tl (m_data p)) 0 0 (m_next p), if a_logging a then [ELog id msgs] else []).
Proof.
  intros (rest & H1 & H2 & H3 & H4). destruct p as [d ln ins nx]. cbn in H1, H2, H3. subst d ln ins. unfold finish, set_slot. cbn [m_data m_len m_ins m_next upd tl].
  unfold end_of_processing, iter_mut, cap. cbn [m_data m_ins m_len length].
  set (c1 := mkCl id Processing msgs). set (i := 1 mod Datatypes.S (length rest)). set (logger := if a_logging a then Some (o_log o env) else None).
  assert (Hi : i <= Datatypes.S (length rest)) by (pose proof (Nat.mod_upper_bound 1 (Datatypes.S (length rest))); subst i; lia).
  rewrite (proj2 (Nat.leb_le _ _) Hi). cbn [obind].
  assert (L : rev (firstn i (c1 :: rest)) ++ rev (skipn i (c1 :: rest)) = c1 :: rev rest).
  { subst i. destruct rest as [|c2 r2]; [reflexivity|]. rewrite Nat.mod_small by (cbn; lia). reflexivity. }
  rewrite L. cbn [fold_left].
  assert (X1 : eop_step logger id (Ret (true, 0, [], [])) c1 =
    if a_logging a && negb (o_log o env (mkCl id BeingSerialized msgs)) then Panic
    else Ret (true, 0 + 1, if a_logging a then [mkCl id BeingSerialized msgs] else [], [mkCl id Free msgs])).
  { unfold eop_step, logger. cbn [obind cl_id cl_state c1]. rewrite N.eqb_refl. cbn [clstate_eqb andb]. unfold change_state. cbn [cl_id cl_msgs cl_state clstate_eqb andb].
    destruct (a_logging a); [|reflexivity]. cbn [andb]. subst c1. cbn [cl_id cl_msgs]. destruct (o_log o env (mkCl id BeingSerialized msgs)); reflexivity. }
  rewrite X1. destruct (a_logging a && negb (o_log o env (mkCl id BeingSerialized msgs))).
  { assert (Z : forall l, fold_left (eop_step logger id) l Panic = Panic) by (induction l as [|z l IH]; [reflexivity|exact IH]). rewrite Z. reflexivity. }
  destruct (eop_rest logger id (rev rest) true (0 + 1) (if a_logging a then [mkCl id BeingSerialized msgs] else []) [mkCl id Free msgs] (Forall_rev H4)) as (b' & ->).
  cbn [obind]. unfold iter_mut_write. cbn [m_data m_ins m_len m_next].
  assert (L2 : rev (firstn i ([mkCl id Free msgs] ++ rev rest)) ++ rev (skipn i ([mkCl id Free msgs] ++ rev rest)) = mkCl id Free msgs :: rest).
  { subst i. destruct rest as [|c2 r2]; [reflexivity|]. rewrite Nat.mod_small by (cbn; lia). change (mkCl id Free msgs :: rev (rev (c2 :: r2)) = mkCl id Free msgs :: c2 :: r2). now rewrite rev_involutive. }
  rewrite L2. cbn [Nat.add pop_n]. unfold pop, prev_ins, cap. cbn [m_len m_data m_ins Nat.eqb length].
  assert (P : (if i =? 0 then Datatypes.S (length rest) - 1 else i - 1) = 0).
  { subst i. destruct rest as [|c2 r2]; [reflexivity|]. rewrite Nat.mod_small by (cbn; lia). reflexivity. }
  rewrite P. cbn [nth_error obind]. f_equal. f_equal. destruct (a_logging a); reflexivity.
Qed.

(** The same messages, events and way of ending; the managers are again alike if there was no error. *)
Definition ends_alike (x1 x2 : E * manager * list (event V M Er) * flow Er) : Prop :=
  let '(e1, m1, t1, f1) := x1 in let '(e2, m2, t2, f2) := x2 in
  e1 = e2 /\ t1 = t2 /\ f1 = f2 /\ (f1 = Next \/ f1 = Return None -> alike m1 m2).
Lemma report_alike id c msgs p1 p2 env : busy c p1 -> busy c p2 -> m_next p1 = m_next p2 ->
  ends_alike (report_and_finish a o id (set_slot 0 (mkCl id Processing msgs) p1) msgs env) (report_and_finish a o id (set_slot 0 (mkCl id Processing msgs) p2) msgs env).
Proof.
  intros B1 B2 Nx. unfold report_and_finish. destruct (collect_metadata a msgs) as [md|]; [|cbn; intuition discriminate].
  destruct (o_report o md env) as [e1 [e|]]; [cbn; intuition discriminate|].
  rewrite (finish_busy id c msgs p1 e1 B1), (finish_busy id c msgs p2 e1 B2). destruct (a_logging a && _); [cbn; intuition discriminate|].
  cbn. repeat split; auto. exists msgs. destruct B1 as (r1 & D1 & _ & _ & F1), B2 as (r2 & D2 & _ & _ & F2). rewrite D1, D2. split; eexists _, _; repeat split; auto.
Qed.
Lemma body_alike m1 m2 env : alike m1 m2 -> ends_alike (copperlist_body a o m1 env) (copperlist_body a o m2 env).
Proof.
  intros A. unfold copperlist_body. destruct (create_alike m1 m2 A) as [[-> ->]|(p1 & p2 & c & -> & -> & B1 & B2 & Nx)]; [cbn; intuition discriminate|]. apply busy_eta in B2.
  assert (Z1 : nth_error (m_data p1) 0 = Some c) by (destruct B1 as (r & -> & _); reflexivity). assert (Z2 : nth_error (m_data p2) 0 = Some c) by (destruct B2 as (r & -> & _); reflexivity).
  rewrite Z1, Z2. destruct (process_all a o (a_plan a) (cl_msgs c) env) as [[[e1 t1] ms] f]. pose proof (report_alike (cl_id c) c ms p1 p2 e1 B1 B2 Nx) as R.
  destruct (report_and_finish a o (cl_id c) (set_slot 0 (mkCl (cl_id c) Processing ms) p1) ms e1) as [[[e3 q1] t3] f3].
  destruct (report_and_finish a o (cl_id c) (set_slot 0 (mkCl (cl_id c) Processing ms) p2) ms e1) as [[[e4 q2] t4] f4].
  destruct R as (<- & <- & <- & R). destruct f as [| |e|]; [| |cbn; intuition discriminate|cbn; intuition discriminate].
  - destruct (match collect_metadata a ms with Some md => e2e a md | None => Panic end); [|cbn; intuition discriminate]. cbn. auto.
  - cbn. split; [reflexivity|split; [reflexivity|split; [reflexivity|]]]. intros K. apply R. destruct f3; auto.
Qed.
Lemma iteration_alike m1 m2 env : alike m1 m2 ->
  let '(e1, p1, t1, r1) := run_one_iteration a o m1 env in let '(e2, p2, t2, r2) := run_one_iteration a o m2 env in
  e1 = e2 /\ t1 = t2 /\ r1 = r2 /\ (r1 = ROk -> alike p1 p2).
Proof.
  intros A. unfold run_one_iteration. destruct (lifecycle a o Preprocess (seq 0 (a_tasks a)) env) as [[e0 t0] f0].
  destruct f0; [|auto|auto]. pose proof (body_alike m1 m2 e0 A) as B.
  destruct (copperlist_body a o m1 e0) as [[[e3 q1] t3] f3], (copperlist_body a o m2 e0) as [[[e4 q2] t4] f4]. destruct B as (<- & <- & <- & B).
  destruct f3 as [|[r|]|]; cbn [to_result]; [|split; [reflexivity|split; [reflexivity|split; [reflexivity|auto; discriminate]]]..].
  destruct (lifecycle a o Postprocess (seq 0 (a_tasks a)) e3) as [[e5 t5] f5]. split; [reflexivity|split; [reflexivity|split; [reflexivity|]]]. intros _. apply B. auto.
Qed.
Lemma driven_alike : forall between m1 m2 env e1 p1 l1 e2 p2 l2, alike m1 m2 -> driven a o between m1 env = (e1, p1, l1) -> driven a o between m2 env = (e2, p2, l2) ->
  fails_last l1 -> e1 = e2 /\ l1 = l2.
Proof.
  induction between as [|b bs IH]; intros m1 m2 env e1 p1 l1 e2 p2 l2 A H1 H2 F; cbn [driven] in H1, H2.
  - injection H1 as <- _ <-. injection H2 as <- _ <-. auto.
  - pose proof (iteration_alike m1 m2 (b env) A) as I.
    destruct (run_one_iteration a o m1 (b env)) as [[[e3 q1] t3] r3], (run_one_iteration a o m2 (b env)) as [[[e4 q2] t4] r4]. destruct I as (<- & <- & <- & I).
    destruct (driven a o bs q1 e3) as [[e5 q5] l5] eqn:D1. destruct (driven a o bs q2 e3) as [[e6 q6] l6] eqn:D2. injection H1 as <- _ <-. injection H2 as <- _ <-.
    destruct bs as [|b2 bs].
    + cbn in D1, D2. injection D1 as <- _ <-. injection D2 as <- _ <-. auto.
    + assert (L5 : exists z l, l5 = z :: l).
      { cbn [driven] in D1. destruct (run_one_iteration a o q1 (b2 e3)) as [[[? ?] ?] ?]. destruct (driven a o bs m e) as [[? ?] ?]. injection D1 as _ _ <-. eauto. }
      destruct L5 as (z & l & ->). unfold fails_last in *. change (removelast ((t3, r3) :: z :: l)) with ((t3, r3) :: removelast (z :: l)) in F. apply Forall_cons_iff in F. destruct F as [F1 F]. cbn [snd] in F1.
      destruct (IH _ _ _ _ _ _ _ _ _ (I F1) D1 D2 F) as [-> ->]. auto.
Qed.
Lemma new_alike n1 n2 zero : 0 < n1 -> 0 < n2 -> alike (mgr_new n1 zero) (mgr_new n2 zero).
Proof.
  intros H1 H2. destruct n1 as [|n1]; [lia|]. destruct n2 as [|n2]; [lia|]. split; [|reflexivity]. exists zero.
  split; eexists _, _; (split; [reflexivity|]); repeat split; apply Forall_forall; intros z Hz; apply repeat_spec in Hz; subst z; reflexivity.
Qed.
End Slots.

(** * Theorems *)
Theorem C175_slots : forall (V M Er E : Type) (a : application) (o : oracles V M Er E) between n1 n2 zero env env1 env2 m1 m2 l1 l2, 0 < n1 -> 0 < n2 ->
  session a o between (mgr_new n1 zero) env = (env1, m1, l1) -> session a o between (mgr_new n2 zero) env = (env2, m2, l2) ->
  fails_last l1 -> env1 = env2 /\ l1 = l2.
Proof.
  intros V M Er E a o between n1 n2 zero env env1 env2 m1 m2 l1 l2 H1 H2 S1 S2 F. unfold session in S1, S2. destruct (all_tasks a o Start env) as [[e0 t0] r0].
  destruct (driven a o between (mgr_new n1 zero) e0) as [[e1 p1] k1] eqn:D1. destruct (driven a o between (mgr_new n2 zero) e0) as [[e2 p2] k2] eqn:D2.
  injection S1 as <- _ <-. injection S2 as <- _ <-.
  assert (F1 : fails_last k1). { destruct k1 as [|z k1]; [constructor|]. unfold fails_last in *. change (removelast ((t0, r0) :: z :: k1)) with ((t0, r0) :: removelast (z :: k1)) in F. apply Forall_cons_iff in F. apply F. }
  destruct (driven_alike a o between _ _ _ _ _ _ _ _ _ (new_alike n1 n2 zero H1 H2) D1 D2 F1) as [-> ->]. auto.
Qed.
Print Assumptions C175_slots.

(** Without the condition: after an error the number of copper lists decides whether the robot goes on. *)
Theorem C175_error_refuted : exists (o : oracles nat unit nat bot) env l1 l2,
  snd (session (line_app false) o [fun e => e; fun e => e; fun e => e] (mgr_new 1 zero3) env) = l1 /\ snd (session (line_app false) o [fun e => e; fun e => e; fun e => e] (mgr_new 2 zero3) env) = l2 /\
  map snd l1 = [ROk; ROk; RErr 1; RPanic] /\ map snd l2 = [ROk; ROk; RErr 1; ROk].
Proof. exists grumpy_bot, (Bot 1 5 (fun _ => 0)). eexists _, _. split; [reflexivity|]. split; [reflexivity|]. split; vm_compute; reflexivity. Qed.
Print Assumptions C175_error_refuted.

(** Two iterations, the second of which fails, with one and with ten copper lists. *)
Example C175_case : let run n := session (line_app false) grumpy_bot [fun e => e; fun e => e] (mgr_new n zero3) (Bot 1 5 (fun _ => 0)) in
  fails_last (snd (run 1)) /\ map snd (snd (run 1)) = [ROk; ROk; RErr 1] /\ snd (run 10) = snd (run 1).
Proof. cbv zeta. split; [vm_compute; repeat constructor|]. split; vm_compute; reflexivity. Qed.
