(** Proofs about the PID controller. *)
From Coq Require Import List NArith ZArith Bool Reals Psatz SpecFloat Lia.
From Flocq Require Import Core BinarySingleNaN.
From Verif Require Import Base BincodeModel BincodeSpec BincodeProofs CodecModel CodecSpec CodecProofs FloatModel FloatFacts PidModel PidSpec.
Import ListNotations.

(** * Comparison *)
Lemma compare_swap x y : SFcompare y x = match SFcompare x y with Some c => Some (CompOpp c) | None => None end.
Proof.
  destruct x as [?|[]| |[] mx ex], y as [?|[]| |[] my ey]; simpl; try easy; rewrite (Z.compare_antisym ex ey); destruct (Z.compare ex ey); simpl; try easy;
  f_equal; change (Pos.compare_cont Eq my mx) with (Pos.compare my mx); change (Pos.compare_cont Eq mx my) with (Pos.compare mx my);
  rewrite (Pos.compare_antisym mx my); destruct (Pos.compare mx my); reflexivity.
Qed.
Lemma compare_refl x : x <> S754_nan -> SFcompare x x = Some Eq.
Proof.
  destruct x as [?|[]| |[] mx ex]; simpl; try easy; intros _; rewrite Z.compare_refl; f_equal; change (Pos.compare_cont Eq mx mx) with (Pos.compare mx mx); rewrite Pos.compare_refl; reflexivity.
Qed.
Lemma compare_none x y : SFcompare x y = None -> x = S754_nan \/ y = S754_nan.
Proof. destruct x as [?|[]| |[] mx ex], y as [?|[]| |[] my ey]; simpl; auto; try discriminate; destruct (Z.compare ex ey); discriminate. Qed.
Lemma fle_refl x : x <> S754_nan -> fle x x = true.
Proof. intros H. unfold fle, SFleb. rewrite compare_refl; auto. Qed.
Lemma fle_nan x y : fle x y = true -> x <> S754_nan /\ y <> S754_nan.
Proof. unfold fle, SFleb. intros H. split; intros ->; [destruct y as [?|[]| |[] ? ?]; discriminate|destruct x as [?|[]| |[] ? ?]; discriminate]. Qed.
Lemma flt_false x y : flt x y = false -> x <> S754_nan -> y <> S754_nan -> fle y x = true.
Proof.
  unfold flt, fle, SFltb, SFleb. rewrite (compare_swap x y). destruct (SFcompare x y) as [c|] eqn:E1; [destruct c; try discriminate; reflexivity|].
  intros _ A B. destruct (compare_none _ _ E1); contradiction.
Qed.

Lemma clamp_within x l y : clamp x (fopp l) l = Ret y -> within l y.
Proof.
  unfold clamp. destruct (fle (fopp l) l) eqn:E1; [|discriminate]. intros H. destruct (fle_nan _ _ E1) as [N1 N2].
  injection H as <-. destruct (flt x (fopp l)) eqn:E2.
  - destruct (flt l (fopp l)) eqn:E3.
    + right. split; [auto|apply fle_refl; auto].
    + right. split; [apply fle_refl; auto|auto].
  - destruct (flt l x) eqn:E3; [right; split; [auto|apply fle_refl; auto]|].
    destruct x as [s|s| |s m e]; [| |left; reflexivity|]; right; (split; apply flt_false; auto; discriminate).
Qed.
Lemma next_bounded m dt s s' o : next_control_output m dt s = Ret (s', o) -> g s' = g s /\ last_output s' = o /\
  (bounded (g s) o \/ o = last_output s /\ (elapsed s + dt < sampling (g s))%N).
Proof.
  unfold next_control_output. destruct (N.leb_spec (2 ^ 64) (elapsed s + dt)); [discriminate|]. destruct (N.ltb_spec (elapsed s + dt) (sampling (g s))).
  { intros K. injection K as <- <-. cbn. auto. }
  destruct (clamp (fmul (kp (g s)) _) _ _) as [p|] eqn:E1; [|discriminate]. cbn [obind].
  destruct (clamp (fmul (ki (g s)) _) _ _) as [i|] eqn:E2; [|discriminate]. cbn [obind].
  destruct (clamp (fmul (kd (g s)) _) _ _) as [d|] eqn:E3; [|discriminate]. cbn [obind].
  destruct (clamp (fadd _ d) _ _) as [o'|] eqn:E4; [|discriminate]. cbn [obind]. intros K. injection K as <- <-. cbn.
  split; [auto|]. split; [auto|]. left. unfold bounded. cbn [o_p o_i o_d o_output].
  split; [exact (clamp_within _ _ _ E1)|]. split; [exact (clamp_within _ _ _ E2)|]. split; [exact (clamp_within _ _ _ E3)|exact (clamp_within _ _ _ E4)].
Qed.
Definition task_inv (g0 : gains) (t : task) : Prop :=
  g (t_pid t) = g0 /\ (first_run t = true \/ bounded g0 (last_output (t_pid t)) \/ (sampling g0 <= elapsed (t_pid t))%N).
Lemma process_bounded g0 i t t' r : task_inv g0 t -> process i t = Ret (t', r) -> task_inv g0 t' /\ forall o, r = Sent (Some o) -> bounded g0 o.
Proof.
  intros [G I] H. destruct i as [[m [tov|]]|]; cbn [process] in H.
  2,3: injection H as <- <-; split; [split; auto|discriminate].
  destruct (first_run t) eqn:Fr.
  - injection H as <- <-. split; [|discriminate]. split; [exact G|]. right. right. cbn. rewrite G. lia.
  - destruct (N.ltb_spec tov (last_tov t)); [discriminate|].
    destruct (next_control_output m (tov - last_tov t) (t_pid t)) as [[p st]|] eqn:E1; [|discriminate]. cbn [obind] in H.
    destruct (next_bounded _ _ _ _ _ E1) as (G' & L & B). rewrite G in *.
    assert (B' : bounded g0 st).
    { destruct B as [B|[-> B]]; auto. destruct I as [I|[I|I]]; [discriminate|auto|lia]. }
    assert (I' : task_inv g0 (Task p false tov (t_setpoint t) (cutoff t))) by (split; [cbn; congruence|right; left; cbn; congruence]).
    cbn [t_setpoint cutoff] in H. destruct (flt (fadd _ _) m); [injection H as <- <-; split; [auto|discriminate]|].
    destruct (flt m _); injection H as <- <-; (split; [auto|]); [discriminate|]. intros o K. injection K as <-. auto.
Qed.
Lemma run_bounded g0 l : forall t t' rs, task_inv g0 t -> run l t = Ret (t', rs) -> forall o, In (Sent (Some o)) rs -> bounded g0 o.
Proof.
  induction l as [|[i|] l IH]; intros t t' rs I H o K; cbn [run] in H.
  - injection H as <- <-. destruct K.
  - destruct (process i t) as [[t1 r]|] eqn:E1; [|discriminate]. cbn [obind] in H. destruct (run l t1) as [[t2 rs2]|] eqn:E2; [|discriminate]. cbn [obind] in H.
    injection H as <- <-. destruct (process_bounded _ _ _ _ _ I E1) as [I1 B]. destruct K as [->|K]; [apply B; reflexivity|]. eapply IH; eauto.
  - eapply (IH (stop t)); eauto. destruct I as [G _]. split; [exact G|]. left. reflexivity.
Qed.
Lemma limit_sym l : fle f0 l = true -> fle (fopp l) l = true.
Proof. destruct l as [[]|[]| |[] m e]; cbn; auto; discriminate. Qed.
Lemma clamp_total x l : fle (fopp l) l = true -> exists y, clamp x (fopp l) l = Ret y.
Proof. intros H. unfold clamp. rewrite H. eauto. Qed.
Lemma next_total m dt s : limits_ok (g s) -> (elapsed s + dt < 2 ^ 64)%N -> (elapsed s <= sampling (g s))%N -> exists s' o, next_control_output m dt s = Ret (s', o) /\ (elapsed s' <= sampling (g s'))%N.
Proof.
  intros (L1 & L2 & L3 & L4) H El. apply limit_sym in L1, L2, L3, L4. unfold next_control_output. rewrite (proj2 (N.leb_gt _ _)) by lia. destruct (N.ltb_spec (elapsed s + dt) (sampling (g s))).
  { do 2 eexists. split; [reflexivity|]. cbn. lia. }
  destruct (clamp_total (fmul (kp (g s)) (fsub (setpoint (g s)) m)) _ L1) as [p E1]. rewrite E1. cbn [obind].
  set (it := fadd (integral s) _). destruct (clamp_total (fmul (ki (g s)) it) _ L2) as [i E2]. rewrite E2. cbn [obind].
  set (de := fdiv (fsub _ _) _). destruct (clamp_total (fmul (kd (g s)) de) _ L3) as [d E3]. rewrite E3. cbn [obind].
  destruct (clamp_total (fadd (fadd p i) d) _ L4) as [o E4]. rewrite E4. cbn [obind]. do 2 eexists. split; [reflexivity|]. cbn. lia.
Qed.

(** * C62: numbers *)
Local Open Scope R_scope.
Lemma clamp_fin x l y : valid x -> x <> S754_nan -> valid l -> fin l -> clamp x (fopp l) l = Ret y -> valid y /\ fin y.
Proof.
  intros Vx Nx Vl Fl H. assert (Vo := fopp_valid l Vl). assert (Fo := fopp_fin l Fl). assert (W := clamp_within _ _ _ H). unfold clamp in H.
  destruct (fle (fopp l) l); [|discriminate]. injection H as <-. destruct (flt x (fopp l)).
  - destruct (flt l (fopp l)); auto.
  - destruct (flt l x); [auto|]. split; [auto|]. destruct W as [W|[W1 W2]]; [contradiction|].
    destruct x as [s|s| |s m e]; try reflexivity; [|contradiction]. destruct s.
    + destruct l as [?|?| |[] ? ?]; cbn in W1; discriminate.
    + destruct l as [?|?| |[] ? ?]; cbn in W2; discriminate.
Qed.
Lemma small_mul a b x y : small a x -> small b y -> (-149 <= a + b < 128)%Z -> small (a + b) (fmul x y).
Proof.
  intros (V1 & F1 & B1) (V2 & F2 & B2) H.
  assert (B : Rabs (rn (val x * val y)) <= bpow radix2 (a + b)).
  { apply rn_abs_le; [lia|]. rewrite Rabs_mult, bpow_plus. apply Rmult_le_compat; auto using Rabs_pos. }
  destruct (fmul_real x y V1 V2 F1 F2) as [F E]; [eapply Rle_lt_trans; [exact B|apply bpow_big; lia]|].
  split; [apply fmul_valid; auto|]. split; [auto|]. rewrite E. exact B.
Qed.
Lemma small_sub a x y : small a x -> small a y -> (-149 <= a + 1 < 128)%Z -> small (a + 1) (fsub x y).
Proof.
  intros (V1 & F1 & B1) (V2 & F2 & B2) H.
  assert (B : Rabs (rn (val x - val y)) <= bpow radix2 (a + 1)).
  { apply rn_abs_le; [lia|]. rewrite bpow_plus. change (bpow radix2 1) with 2. apply Rabs_le. apply Rabs_le_inv in B1, B2. lra. }
  destruct (fsub_real x y V1 V2 F1 F2) as [F E]; [eapply Rle_lt_trans; [exact B|apply bpow_big; lia]|].
  split; [apply fsub_valid; auto|]. split; [auto|]. rewrite E. exact B.
Qed.
Lemma small_div a b x y : small a x -> valid y -> fin y -> bpow radix2 b <= Rabs (val y) -> (-149 <= a - b < 128)%Z -> small (a - b) (fdiv x y).
Proof.
  intros (V1 & F1 & B1) V2 F2 B2 H. assert (P : 0 < bpow radix2 b) by apply bpow_gt_0.
  assert (Nz : val y <> 0) by (intros K; rewrite K, Rabs_R0 in B2; lra).
  assert (B : Rabs (rn (val x / val y)) <= bpow radix2 (a - b)).
  { apply rn_abs_le; [lia|]. unfold Rdiv. rewrite Rabs_mult, Rabs_inv. unfold Z.sub. rewrite bpow_plus, bpow_opp.
    apply Rmult_le_compat; auto using Rabs_pos; [left; apply Rinv_0_lt_compat; lra|]. apply Rinv_le; auto. }
  destruct (fdiv_real x y V1 V2 F1 F2 Nz) as [F E]; [eapply Rle_lt_trans; [exact B|apply bpow_big; lia]|].
  split; [apply fdiv_valid; auto|]. split; [auto|]. rewrite E. exact B.
Qed.
Lemma million_ok : valid million /\ fin million /\ val million = 1000000.
Proof.
  split; [apply f32_of_valid|]. split; [reflexivity|]. unfold val, million, f32_of. 
  replace (SpecFloat.binary_normalize 24 128 (Z.of_N 1000000) 0 false) with (S754_finite false 16000000 (-4)) by (vm_compute; reflexivity).
  unfold SF2R, F2R. cbn [Fnum Fexp cond_Zopp]. change (bpow radix2 (-4)) with (/ 16). lra.
Qed.
Lemma dt_ok e : (0 < e < 2 ^ 64)%N -> let dt := fdiv (f32_of e) million in small 45 dt /\ bpow radix2 (-20) <= Rabs (val dt).
Proof.
  intros He. cbv zeta. destruct million_ok as (VM & FM & M).
  assert (E1 : 1 <= IZR (Z.of_N e)) by (apply IZR_le; lia).
  assert (E2 : IZR (Z.of_N e) <= bpow radix2 64).
  { change (bpow radix2 64) with (IZR (2 ^ 64)). apply IZR_le. change (2 ^ 64)%N with 18446744073709551616%N in He. lia. }
  assert (R1 : 1 <= rn (IZR (Z.of_N e))). { change 1 with (bpow radix2 0). rewrite <- (rn_bpow 0) by lia. apply rn_le. exact E1. }
  assert (R2 : rn (IZR (Z.of_N e)) <= bpow radix2 64). { rewrite <- (rn_bpow 64) by lia. apply rn_le. exact E2. }
  destruct (f32_of_real e) as [F E]. { rewrite Rabs_pos_eq by lra. eapply Rle_lt_trans; [exact R2|apply bpow_big; lia]. }
  assert (S0 : small 64 (f32_of e)). { split; [apply f32_of_valid|]. split; [auto|]. rewrite E, Rabs_pos_eq by lra. exact R2. }
  assert (SD := small_div 64 19 _ million S0 VM FM). change (64 - 19)%Z with 45%Z in SD.
  assert (B19 : bpow radix2 19 <= Rabs (val million)). { rewrite M, Rabs_pos_eq by lra. change (bpow radix2 19) with 524288. lra. }
  specialize (SD B19 ltac:(lia)). split; [exact SD|].
  assert (Q : 0 < rn (IZR (Z.of_N e)) / 1000000) by (apply Rdiv_lt_0_compat; lra).
  destruct (fdiv_real (f32_of e) million) as [F' E']; auto using f32_of_valid. { lra. }
  { rewrite E, M. eapply Rle_lt_trans; [apply (rn_abs_le _ 64); [lia|]|apply bpow_big; lia]. rewrite Rabs_pos_eq by lra. unfold Rdiv. nra. }
  rewrite E', E, M. rewrite Rabs_pos_eq.
  - rewrite <- (rn_bpow (-20)) by lia. apply rn_le. change (bpow radix2 (-20)) with (/ 1048576). lra.
  - rewrite <- rn_0. apply rn_le. lra.
Qed.
Definition state_ok (s : pid) : Prop := numbers (g s) /\ small 121 (integral s) /\ small 51 (last_error s).
Lemma next_number m dt s s' o : state_ok s -> small 50 m -> (0 < dt)%N -> next_control_output m dt s = Ret (s', o) ->
  state_ok s' /\ (finite_payload o \/ o = last_output s /\ (elapsed s + dt < sampling (g s))%N).
Proof.
  intros ((K1 & K2 & K3 & SP & L1 & L2 & L3 & L4) & I0 & LE) Sm Hdt. unfold next_control_output.
  destruct (N.leb_spec (2 ^ 64) (elapsed s + dt)); [discriminate|]. destruct (N.ltb_spec (elapsed s + dt) (sampling (g s))).
  { intros K. injection K as <- <-. split; [|auto]. unfold state_ok, numbers. cbn. auto 12. }
  destruct (dt_ok (elapsed s + dt)) as [SD Dp]; [lia|]. set (d0 := fdiv (f32_of (elapsed s + dt)) million) in *.
  assert (SE := small_sub 50 _ _ SP Sm ltac:(lia)). change (50 + 1)%Z with 51%Z in SE. set (er := fsub (setpoint (g s)) m) in *.
  assert (SX := small_mul 51 45 _ _ SE SD ltac:(lia)). change (51 + 45)%Z with 96%Z in SX.
  assert (SI : small 121 (fadd (integral s) (fmul er d0))).
  { destruct I0 as (V1 & F1 & B1), SX as (V2 & F2 & B2). assert (B := rn_stays 121 (val (integral s)) (val (fmul er d0)) ltac:(lia) B1 B2).
    destruct (fadd_real _ _ V1 V2 F1 F2) as [F E]; [eapply Rle_lt_trans; [exact B|apply bpow_big; lia]|].
    split; [apply fadd_valid; auto|]. split; [auto|]. rewrite E. exact B. }
  set (it := fadd (integral s) (fmul er d0)) in *.
  assert (SF0 := small_sub 51 _ _ SE LE ltac:(lia)). change (51 + 1)%Z with 52%Z in SF0.
  assert (SG := small_div 52 (-20) _ d0 SF0 (proj1 SD) (proj1 (proj2 SD)) Dp ltac:(lia)). set (de := fdiv (fsub er (last_error s)) d0) in *.
  assert (Mul : forall k x e, valid k /\ fin k -> small e x -> valid (fmul k x) /\ fmul k x <> S754_nan).
  { intros k x e [Vk Fk] (Vx & Fx & _). split; [apply fmul_valid; auto|apply fmul_not_nan; auto]. }
  destruct (clamp (fmul (kp (g s)) er) _ _) as [p|] eqn:E1; [|discriminate]. cbn [obind].
  destruct (clamp (fmul (ki (g s)) it) _ _) as [i|] eqn:E2; [|discriminate]. cbn [obind].
  destruct (clamp (fmul (kd (g s)) de) _ _) as [d|] eqn:E3; [|discriminate]. cbn [obind].
  destruct (Mul _ _ _ K1 SE) as [V1 N1]. destruct (Mul _ _ _ K2 SI) as [V2 N2]. destruct (Mul _ _ _ K3 SG) as [V3 N3].
  destruct (clamp_fin _ _ _ V1 N1 (proj1 L1) (proj2 L1) E1) as [Vp Fp]. destruct (clamp_fin _ _ _ V2 N2 (proj1 L2) (proj2 L2) E2) as [Vi Fi]. destruct (clamp_fin _ _ _ V3 N3 (proj1 L3) (proj2 L3) E3) as [Vd Fd].
  destruct (clamp (fadd _ d) _ _) as [o'|] eqn:E4; [|discriminate]. cbn [obind]. intros K. injection K as <- <-.
  assert (V4 : valid (fadd (fadd p i) d)) by auto using fadd_valid.
  assert (N4 : fadd (fadd p i) d <> S754_nan) by (apply fadd_not_nan; auto using fadd_valid; apply fadd_not_nan; auto; apply fin_not_nan; auto).
  destruct (clamp_fin _ _ _ V4 N4 (proj1 L4) (proj2 L4) E4) as [Vo Fo].
  split; [|left; unfold finite_payload; cbn; auto]. split; [unfold numbers; cbn; auto 12|]. cbn. auto.
Qed.

(** * Validity of all states *)
Definition config_valid (g : gains) : Prop := valid (kp g) /\ valid (ki g) /\ valid (kd g) /\ valid (setpoint g) /\
  valid (p_limit g) /\ valid (i_limit g) /\ valid (d_limit g) /\ valid (output_limit g).
Definition payload_valid (o : payload) : Prop := valid (o_p o) /\ valid (o_i o) /\ valid (o_d o) /\ valid (o_output o).
Definition pid_valid (s : pid) : Prop := config_valid (g s) /\ valid (integral s) /\ valid (last_error s) /\ (elapsed s < 2 ^ 64)%N /\ payload_valid (last_output s).
Lemma clamp_valid x l y : valid x -> valid l -> clamp x (fopp l) l = Ret y -> valid y.
Proof.
  unfold clamp. intros Vx Vl. destruct (fle _ _); [|discriminate]. intros H. injection H as <-. assert (Vo := fopp_valid l Vl). destruct (flt x (fopp l)), (flt l _); auto.
Qed.
Lemma next_valid m dt s s' o : pid_valid s -> valid m -> next_control_output m dt s = Ret (s', o) -> pid_valid s'.
Proof.
  intros (C & V1 & V2 & V3 & V4) Vm. assert (C0 := C). destruct C as (C1 & C2 & C3 & C4 & C5 & C6 & C7 & C8). unfold next_control_output.
  destruct (N.leb_spec (2 ^ 64) (elapsed s + dt)); [discriminate|]. destruct (elapsed s + dt <? sampling (g s))%N.
  { intros K. injection K as <- <-. unfold pid_valid. cbn. auto 10. }
  assert (VD : valid (fdiv (f32_of (elapsed s + dt)) million)) by (apply fdiv_valid; apply f32_of_valid). set (d0 := fdiv (f32_of (elapsed s + dt)) million) in *.
  assert (VE : valid (fsub (setpoint (g s)) m)) by auto using fsub_valid. set (er := fsub (setpoint (g s)) m) in *.
  assert (VI : valid (fadd (integral s) (fmul er d0))) by auto using fadd_valid, fmul_valid. set (it := fadd (integral s) (fmul er d0)) in *.
  assert (VV : valid (fdiv (fsub er (last_error s)) d0)) by auto using fdiv_valid, fsub_valid. set (de := fdiv (fsub er (last_error s)) d0) in *.
  destruct (clamp (fmul (kp (g s)) er) _ _) as [p|] eqn:E1; [|discriminate]. cbn [obind].
  destruct (clamp (fmul (ki (g s)) it) _ _) as [i|] eqn:E2; [|discriminate]. cbn [obind].
  destruct (clamp (fmul (kd (g s)) de) _ _) as [d|] eqn:E3; [|discriminate]. cbn [obind].
  destruct (clamp (fadd _ d) _ _) as [o'|] eqn:E4; [|discriminate]. cbn [obind]. intros K. injection K as <- <-.
  apply clamp_valid in E1, E2, E3; auto using fmul_valid. apply clamp_valid in E4; auto using fadd_valid.
  split; [exact C0|]. cbn. split; [auto|]. split; [auto|]. split; [reflexivity|]. unfold payload_valid. cbn. auto.
Qed.
Definition valid_op (o : op) : Prop := match o with Process (Some (m, _)) => valid m | _ => True end.
Lemma run_valid l : forall t t' rs, pid_valid (t_pid t) -> (sampling (g (t_pid t)) < 2 ^ 64)%N -> Forall valid_op l -> run l t = Ret (t', rs) -> pid_valid (t_pid t').
Proof.
  induction l as [|[i|] l IH]; intros t t' rs V Sa F H; cbn [run] in H.
  - injection H as <- <-. auto.
  - destruct (process i t) as [[t1 r]|] eqn:E1; [|discriminate]. cbn [obind] in H. destruct (run l t1) as [[t2 rs2]|] eqn:E2; [|discriminate]. cbn [obind] in H. injection H as <- <-.
    inversion F as [|? ? F1 F2]; subst.
    assert (X : pid_valid (t_pid t1) /\ sampling (g (t_pid t1)) = sampling (g (t_pid t))).
    { destruct i as [[m [tov|]]|]; cbn [process] in E1; [|injection E1 as <- <-; auto..]. cbn [valid_op] in F1.
      destruct (first_run t).
      - injection E1 as <- <-. cbn. split; [|reflexivity]. destruct V as (C & W1 & W2 & W3 & W4). split; [exact C|]. cbn. split; [auto|]. split; [apply fsub_valid; auto; apply C|]. auto.
      - destruct (tov <? last_tov t)%N; [discriminate|]. destruct (next_control_output _ _ _) as [[p st]|] eqn:E3; [|discriminate]. cbn [obind t_setpoint cutoff] in E1.
        assert (W := next_valid _ _ _ _ _ V F1 E3). assert (G := proj1 (next_bounded _ _ _ _ _ E3)).
        destruct (flt (fadd _ _) m); [|destruct (flt m _)]; injection E1 as <- <-; cbn; rewrite G; auto. }
    destruct X as [X1 X2]. eapply (IH t1); eauto. rewrite X2. auto.
  - inversion F as [|? ? F1 F2]; subst. eapply (IH (stop t)); eauto. destruct V as (C & W1 & W2 & W3 & W4). unfold stop, reset. split; [exact C|]. cbn. split; [reflexivity|]. split; [reflexivity|]. auto.
Qed.
