(** The console: what it shows of errors, whether it can stop the robot, quitting: C137 to C139. *)
From Coq Require Import String List Arith NArith Bool Lia.
From Verif Require Import Base CuListModel PlanModel RuntimeModel ScreenModel.
Import ListNotations.
Local Open Scope list_scope.
Local Open Scope nat_scope.

(** * What is shown *)
Definition story := list (happening * effect).
(** The last error of task [i] since the tasks were last drawn. *)
Definition pending (h : story) (i : nat) : option text :=
  fold_left (fun p x => match x with
    | (AnError t _ e, _) => if t =? i then Some e else p
    | (_, Drawn _) => None
    | _ => p end) h None.
(** The last status of task [i]; one that begins with a zero byte is none. *)
Definition latest (h : story) (i : nat) : text :=
  fold_left (fun p x => match x with
    | (AList l, _) => match nth_error l i with Some (b :: s) => if (b =? 0)%N then [] else b :: s | _ => p end
    | _ => p end) h [].

Definition line_of (s : task_status) : line := if t_error s then Red (t_text s) else Green (t_status s).
Definition node_line (h : story) (i : nat) : line := match pending h i with Some e => Red e | None => Green (latest h i) end.
Record follows (h : story) (n : nat) (c : console) : Prop := {
  f_len : length (c_statuses c) = n;
  f_status : forall i s, nth_error (c_statuses c) i = Some s -> t_status s = latest h i /\ match pending h i with Some e => t_error s = true /\ t_text s = e | None => t_error s = false end }.

Lemma set_statuses_ok l : forall i sts sts', set_statuses i l sts = Ret sts' -> length sts' = length sts /\
  (forall j s', nth_error sts' j = Some s' -> exists s, nth_error sts j = Some s /\ t_error s' = t_error s /\ t_text s' = t_text s /\
    t_status s' = match (if j <? i then None else nth_error l (j - i)) with Some (b :: x) => if (b =? 0)%N then [] else b :: x | _ => t_status s end).
Proof.
  induction l as [|x l IH]; intros i sts sts'; cbn [set_statuses].
  - intros E. injection E as <-. split; auto. intros j s H. exists s. repeat split; auto. destruct (j <? i); auto. destruct (j - i); reflexivity.
  - destruct (nth_error sts i) as [s|] eqn:N; [|discriminate]. destruct x as [|b x]; [discriminate|]. intros E. destruct (IH _ _ _ E) as [L Sx]. rewrite upd_length in L. split; auto.
    assert (Li : i < length sts) by (apply nth_error_Some; congruence).
    intros j s' H. destruct (Sx j s' H) as (s1 & N1 & E1 & T1 & St1). destruct (Nat.eq_dec i j) as [<-|Ne].
    + rewrite nth_error_upd_eq in N1 by auto. injection N1 as <-. cbn in *. exists s. repeat split; auto. rewrite St1.
      destruct (Nat.ltb_spec i (i + 1)); [|lia]. destruct (Nat.ltb_spec i i); [lia|]. rewrite Nat.sub_diag. reflexivity.
    + rewrite nth_error_upd_neq in N1 by auto. exists s1. repeat split; auto. rewrite St1.
      destruct (Nat.ltb_spec j (i + 1)), (Nat.ltb_spec j i); auto; try lia. replace (j - i) with (S (j - (i + 1))) by lia. reflexivity.
Qed.
Lemma draw_nodes_ok types : forall sts sts' l, draw_nodes types sts = (sts', Some l) -> length types = length sts -> length sts' = length sts /\ length l = length sts /\
  forall i s, nth_error sts i = Some s -> nth_error sts' i = Some (Status false (t_status s) (t_text s)) /\
    exists ty t, nth_error types i = Some ty /\ type_end ty = Ret t /\ nth_error l i = Some (t, line_of s).
Proof.
  induction types as [|ty types IH]; intros [|s sts] sts' l; cbn [draw_nodes length]; try discriminate; intros E L.
  - injection E as <- <-. repeat split; auto. all: destruct i; discriminate.
  - destruct (type_end ty) as [t|] eqn:T; [|discriminate]. destruct (draw_nodes types sts) as [sts1 [l1|]] eqn:D; [|discriminate]. injection E as <- <-.
    destruct (IH _ _ _ D ltac:(lia)) as (L1 & L2 & S). cbn [length]. split; [lia|]. split; [lia|]. intros [|i] s0 H; cbn in *.
    + injection H as ->. split; auto. exists ty, t. auto.
    + apply S. auto.
Qed.
Lemma pending_snoc h x i : pending (h ++ [x]) i = match x with
    | (AnError t _ e, _) => if t =? i then Some e else pending h i
    | (_, Drawn _) => None
    | _ => pending h i end.
Proof. unfold pending. rewrite fold_left_app. reflexivity. Qed.
Lemma latest_snoc h x i : latest (h ++ [x]) i = match x with
    | (AList l, _) => match nth_error l i with Some (b :: s) => if (b =? 0)%N then [] else b :: s | _ => latest h i end
    | _ => latest h i end.
Proof. unfold latest. rewrite fold_left_app. reflexivity. Qed.
Lemma follows_same h n c c' x y : follows h n c -> c_statuses c' = c_statuses c ->
  (forall i, pending (h ++ [(x, y)]) i = pending h i) -> (forall i, latest (h ++ [(x, y)]) i = latest h i) -> follows (h ++ [(x, y)]) n c'.
Proof. intros [L S] E P Q. constructor; rewrite ?E; auto. intros i s H. rewrite P, Q. auto. Qed.

Lemma happen_follows types h n c x c' y : length types = n -> (c_poisoned c = false -> follows h n c) -> happen types x c = Ret (c', y) ->
  c_poisoned c' = false -> follows (h ++ [(x, y)]) n c' /\ c_poisoned c = false.
Proof.
  intros Lt F. destruct x as [t ph e|l| |k]; cbn [happen].
  - unfold process_error. destruct (c_poisoned c) eqn:Po; [discriminate|]. specialize (F eq_refl). destruct F as [L S]. destruct (nth_error (c_statuses c) t) as [s|] eqn:N; [|discriminate].
    intros E _. injection E as <- <-. split; [|auto]. constructor; cbn [c_statuses]; [rewrite upd_length; auto|].
    intros i s' H. rewrite pending_snoc, latest_snoc. destruct (Nat.eqb_spec t i) as [->|Ne].
    + rewrite nth_error_upd_eq in H by (apply nth_error_Some; congruence). injection H as <-. cbn. destruct (S i s N). auto.
    + rewrite nth_error_upd_neq in H by auto. auto.
  - unfold process_list. destruct (c_poisoned c) eqn:Po; [discriminate|]. specialize (F eq_refl). destruct F as [L S]. destruct (set_statuses 0 l (c_statuses c)) as [sts|] eqn:E0; [|discriminate].
    cbn. intros E _. injection E as <- <-. split; [|auto]. destruct (set_statuses_ok _ _ _ _ E0) as [L1 S1]. constructor; cbn [c_statuses]; [congruence|].
    intros i s' H. destruct (S1 i s' H) as (s & N & E1 & E2 & E3). destruct (S i s N) as [A B]. cbn in E3. rewrite Nat.sub_0_r in E3. split.
    + rewrite latest_snoc, E3. destruct (nth_error l i) as [[|b x]|]; auto.
    + rewrite pending_snoc. destruct (c_quitting c), (pending h i); rewrite ?E1, ?E2; auto.
  - unfold draw. assert (Q : forall i, pending (h ++ [(ADraw, Nothing)]) i = pending h i) by (intros; apply pending_snoc).
    assert (Q2 : forall i, latest (h ++ [(ADraw, Nothing)]) i = latest h i) by (intros; apply latest_snoc).
    destruct (c_screen c) eqn:Sc; try (intros E Po; injection E as <- <-; split; auto; eapply follows_same; eauto).
    destruct (c_alive c); [|intros E Po; injection E as <- <-; split; auto; eapply follows_same; eauto].
    destruct (c_poisoned c) eqn:Po. { intros E. injection E as <- <-. discriminate. }
    destruct (draw_nodes types (c_statuses c)) as [sts [l|]] eqn:D; intros E; injection E as <- <-; [|discriminate]. intros _. split; [|auto].
    destruct (F eq_refl) as [L S]. destruct (draw_nodes_ok _ _ _ _ D ltac:(congruence)) as (L1 & L2 & Sd). constructor; cbn [c_statuses]; [congruence|].
    intros i s H. rewrite pending_snoc, latest_snoc. destruct (nth_error (c_statuses c) i) as [s0|] eqn:N.
    + destruct (Sd i s0 N) as [X _]. rewrite H in X. injection X as ->. cbn. destruct (S i s0 N). auto.
    + apply nth_error_None in N. assert (i < length sts) by (apply nth_error_Some; congruence). lia.
  - intros E Po. injection E as <- <-. assert (X : c_statuses (key k c) = c_statuses c /\ c_poisoned (key k c) = c_poisoned c).
    { unfold key. destruct (c_alive c); [|auto]. repeat match goal with |- context [N.eqb ?a ?b] => destruct (N.eqb a b) end; auto. }
    destruct X as [X1 X2]. rewrite X2 in Po. split; auto. eapply follows_same; eauto; intros; [apply pending_snoc|apply latest_snoc].
Qed.
Lemma happens_follows types n : length types = n -> forall l h c c' ys, (c_poisoned c = false -> follows h n c) -> happens types l c = Ret (c', ys) ->
  length ys = length l /\ (c_poisoned c' = false -> follows (h ++ combine l ys) n c').
Proof.
  intros Lt. induction l as [|x l IH]; intros h c c' ys F; cbn [happens].
  - intros E. injection E as <- <-. cbn. rewrite app_nil_r. auto.
  - destruct (happen types x c) as [[c1 y]|] eqn:E1; [|discriminate]. cbn [obind]. destruct (happens types l c1) as [[c2 ys2]|] eqn:E2; [|discriminate].
    intros E. injection E as <- <-. destruct (IH (h ++ [(x, y)]) c1 c2 ys2) as [L P]; auto.
    { intros Po. eapply happen_follows; eauto. }
    cbn. split; [lia|]. intros Po. specialize (P Po). rewrite <- app_assoc in P. exact P.
Qed.
Lemma new_follows n : follows [] n (console_new n).
Proof.
  constructor; cbn; [apply repeat_length|]. intros i s H. apply nth_error_In, repeat_spec in H. subst s. auto.
Qed.

(** C137. In full: every error is shown when the tasks are next drawn. *)
Definition C137_full : Prop := forall types l t ph e r c ys c' shown,
  happens types (l ++ [AnError t ph e] ++ r) (console_new (length types)) = Ret (c, ys) ->
  (forall y, In y (skipn (length l) ys) -> forall s, y <> Drawn s) -> draw types c = (c', Drawn shown) ->
  exists ty, nth_error shown t = Some (ty, Red e).
(** What holds: the last error of a task since the tasks were last drawn is shown, in red, and a
    task without one with its last status, in green; each beneath the end of its type. *)
Theorem C137_shown_partial : forall types l c ys c' shown,
  happens types l (console_new (length types)) = Ret (c, ys) -> draw types c = (c', Drawn shown) ->
  length shown = length types /\
  forall i ty, nth_error types i = Some ty -> exists t, type_end ty = Ret t /\
    nth_error shown i = Some (t, match pending (combine l ys) i with Some e => Red e | None => Green (latest (combine l ys) i) end).
Proof.
  intros types l c ys c' shown H D. destruct (happens_follows types (length types) eq_refl l [] _ _ _ (fun _ => new_follows _) H) as [_ F]. cbn [app] in F.
  unfold draw in D. destruct (c_screen c); try discriminate. destruct (c_alive c); [|discriminate]. destruct (c_poisoned c); [discriminate|].
  destruct (draw_nodes types (c_statuses c)) as [sts [s|]] eqn:E; [|discriminate]. injection D as <- <-. destruct (F eq_refl) as [L S].
  destruct (draw_nodes_ok _ _ _ _ E (eq_sym L)) as (L1 & L2 & Sd). split; [congruence|]. intros i ty Ht.
  destruct (nth_error (c_statuses c) i) as [st|] eqn:N.
  - destruct (Sd i st N) as (_ & ty' & t & T1 & T2 & T3). rewrite Ht in T1. injection T1 as <-. exists t. split; auto. rewrite T3. f_equal. f_equal.
    destruct (S i st N) as [A B]. unfold line_of. destruct (pending (combine l ys) i) as [e|]; [destruct B as [-> ->]|rewrite B, A]; reflexivity.
  - apply nth_error_None in N. assert (i < length types) by (apply nth_error_Some; congruence). lia.
Qed.
Print Assumptions C137_shown_partial.
Definition a_type : text := [84%N].
Example C137_case : exists c ys c' shown, happens [a_type; a_type] [AKey 50; AList [[7%N]; [0%N]]; AnError 1 Process [5%N]; ADraw; AnError 0 Postprocess [6%N]; AnError 0 Stop [8%N]]
    (console_new 2) = Ret (c, ys) /\ nth_error ys 3 = Some (Drawn [(a_type, Green [7%N]); (a_type, Red [5%N])]) /\
  draw [a_type; a_type] c = (c', Drawn shown) /\ shown = [(a_type, Red [8%N]); (a_type, Green [])].
Proof. eexists _, _, _, _. split; [vm_compute; reflexivity|]. split; [reflexivity|]. split; [vm_compute; reflexivity|reflexivity]. Qed.
(** An error is not shown when another of the same task follows before the tasks are drawn. *)
Theorem C137_refuted : ~ C137_full.
Proof.
  intros C. specialize (C [a_type] [AKey 50] 0 Process [1%N] [AnError 0 Process [2%N]]).
  destruct (happens [a_type] ([AKey 50] ++ [AnError 0 Process [1%N]] ++ [AnError 0 Process [2%N]]) (console_new (length [a_type]))) as [[c ys]|] eqn:E; [|vm_compute in E; discriminate].
  vm_compute in E. injection E as <- <-. edestruct C as [ty X]; [reflexivity| |vm_compute; reflexivity|].
  - cbn. intros y [<-|[<-|[]]] s; discriminate.
  - cbn in X. discriminate.
Qed.
Print Assumptions C137_refuted.

(** * The robot *)
(** Calls of the robot for [n] tasks whose statuses have at least one byte. *)
Definition proper (n : nat) (x : happening) : Prop :=
  match x with AnError t _ _ => t < n | AList l => length l <= n /\ Forall (fun s => s <> []) l | _ => True end.
(** The same without that of the statuses. *)
Definition called (n : nat) (x : happening) : Prop := match x with AnError t _ _ => t < n | AList l => length l <= n | _ => True end.
(** C138. In full: whatever is shown and whichever keys are pressed, the calls of the robot return. *)
Definition C138_full : Prop := forall types l, Forall (called (length types)) l -> exists c ys, happens types l (console_new (length types)) = Ret (c, ys).

Definition cuts (ty : text) : Prop := exists t, type_end ty = Ret t.
Lemma set_statuses_total l : forall i sts, i + length l <= length sts -> Forall (fun s => s <> []) l -> exists sts', set_statuses i l sts = Ret sts' /\ length sts' = length sts.
Proof.
  induction l as [|x l IH]; intros i sts L F; cbn [set_statuses length] in *; [eauto|]. inversion F as [|? ? F1 F2]; subst.
  destruct (nth_error sts i) as [s|] eqn:N; [|apply nth_error_None in N; lia]. destruct x as [|b x]; [congruence|].
  edestruct (IH (i + 1)) as (sts' & E & L'); [|exact F2|]; [|exists sts'; split; [exact E|]]; rewrite ?upd_length in *; auto; lia.
Qed.
Lemma draw_nodes_total types : forall sts, length types = length sts -> Forall cuts types -> exists sts' l, draw_nodes types sts = (sts', Some l) /\ length sts' = length sts.
Proof.
  induction types as [|ty types IH]; intros [|s sts] L F; cbn [draw_nodes length] in *; try discriminate; [eauto|].
  inversion F as [|? ? [t T] F2]; subst. rewrite T. destruct (IH sts ltac:(lia) F2) as (sts' & l & -> & L'). cbn. eexists _, _. split; [reflexivity|]. cbn. lia.
Qed.
(** When every type name can be cut at 25 bytes from its end and no status is empty, it holds; and the thread draws the
    tasks whenever they are to be drawn. *)
Theorem C138_safe_partial : forall types l, Forall cuts types -> Forall (proper (length types)) l ->
  exists c ys, happens types l (console_new (length types)) = Ret (c, ys) /\ c_poisoned c = false /\ (c_alive c = negb (c_quitting c)) /\
  (c_screen c = Dag -> c_quitting c = false -> exists c' shown, draw types c = (c', Drawn shown)).
Proof.
  intros types l F P.
  assert (G : forall l c, Forall (proper (length types)) l -> c_poisoned c = false -> c_alive c = negb (c_quitting c) -> length (c_statuses c) = length types ->
    exists c' ys, happens types l c = Ret (c', ys) /\ c_poisoned c' = false /\ c_alive c' = negb (c_quitting c') /\ length (c_statuses c') = length types).
  { clear l P. induction l as [|x l IH]; intros c P Po Al L; cbn [happens]; [eauto 10|]. inversion P as [|? ? P1 P2]; subst.
    assert (X : exists c1 y, happen types x c = Ret (c1, y) /\ c_poisoned c1 = false /\ c_alive c1 = negb (c_quitting c1) /\ length (c_statuses c1) = length types).
    { destruct x as [t ph e|sl| |k]; cbn [happen proper] in *.
      - unfold process_error. rewrite Po. destruct (nth_error (c_statuses c) t) eqn:N; [|apply nth_error_None in N; lia].
        eexists _, _. split; [reflexivity|]. cbn. rewrite upd_length. auto.
      - unfold process_list. rewrite Po. destruct (set_statuses_total sl 0 (c_statuses c)) as (sts & -> & Ls); [cbn; rewrite L; tauto|tauto|]. cbn. eexists _, _. split; [reflexivity|]. cbn. split; auto. split; auto. lia.
      - exists (fst (draw types c)), (snd (draw types c)). split; [destruct (draw types c); reflexivity|]. unfold draw. destruct (c_screen c); try (repeat split; cbn; congruence). destruct (c_alive c) eqn:A; [|repeat split; cbn; congruence]. rewrite Po.
        destruct (draw_nodes_total types (c_statuses c)) as (sts & s & -> & Ls); auto. cbn. split; auto. split; auto. lia.
      - eexists _, _. split; [reflexivity|]. unfold key. destruct (c_alive c) eqn:A; [|repeat split; congruence].
        repeat match goal with |- context [N.eqb ?a ?b] => destruct (N.eqb a b) end; cbn; repeat split; congruence. }
    destruct X as (c1 & y & -> & Po1 & Al1 & L1). cbn [obind]. destruct (IH c1 P2 Po1 Al1 L1) as (c2 & ys & -> & Q). cbn. eauto 10. }
  destruct (G l (console_new (length types)) P) as (c & ys & E & Po & Al & L); auto; [cbn; apply repeat_length|]. exists c, ys. split; auto. split; auto. split; auto.
  intros Sc Q. unfold draw. rewrite Sc, Al, Q, Po. cbn. destruct (draw_nodes_total types (c_statuses c)) as (sts & s & -> & _); auto. eauto.
Qed.
Print Assumptions C138_safe_partial.
(** In particular with names in ASCII, of which the last 25 characters are shown. *)
Theorem C138_ascii_partial : forall ty, Forall (fun c => (c < 128)%N) ty -> type_end ty = Ret (skipn (length ty - 25) ty).
Proof.
  intros ty F. assert (L : byte_len ty = length ty).
  { unfold byte_len. induction F as [|c ty Hc F IH]; cbn [map list_sum fold_right length]; auto. change (fold_right Init.Nat.add 0 (map char_len ty)) with (list_sum (map char_len ty)).
    rewrite IH. unfold char_len. destruct (N.ltb_spec c 128); [lia|lia]. }
  unfold type_end. rewrite L. assert (K : length ty - 25 <= length ty) by lia. revert K. generalize (length ty - 25). clear L.
  induction F as [|c ty Hc F IH]; intros [|k] K; cbn [length slice_from skipn] in *; auto; [lia|].
  assert (W : char_len c = 1) by (unfold char_len; destruct (N.ltb_spec c 128); [auto|lia]). rewrite W. destruct (Nat.leb_spec 1 (S k)); [|lia].
  replace (S k - 1) with k by lia. apply IH. lia.
Qed.
Print Assumptions C138_ascii_partial.
Example C138_case : Forall cuts [a_type; repeat 65%N 30] /\ type_end (repeat 65%N 30) = Ret (repeat 65%N 25) /\
  Forall (proper 2) [AKey 50; ADraw; AnError 1 Process []; AList [[1%N]]; ADraw; AKey 113; AList []].
Proof. split; [|split; [reflexivity|]]. - repeat constructor; eexists; reflexivity. - repeat constructor; cbn; try lia; discriminate. Qed.
(** A type name that begins with a character of two bytes, 24 more following: drawing the tasks
    ends the thread while it holds the statuses, and the robot's next call panics. *)
Theorem C138_refuted : ~ C138_full /\ exists types l, Forall (proper (length types)) l /\ happens types l (console_new (length types)) = Panic.
Proof.
  assert (P : Forall (proper 1) [AKey 50; ADraw; AList [[0%N]]]) by (repeat constructor; cbn; try lia; discriminate). split.
  - intros C. destruct (C [233%N :: repeat 97%N 24] [AKey 50; ADraw; AList [[0%N]]]) as (c & ys & E).
    + repeat constructor; cbn; lia.
    + vm_compute in E. discriminate.
  - exists [233%N :: repeat 97%N 24], [AKey 50; ADraw; AList [[0%N]]]. split; [exact P|reflexivity].
Qed.
Print Assumptions C138_refuted.
(** And a task that sets an empty status stops the robot, without anybody looking. *)
Theorem C138_status_refuted : exists types l, Forall cuts types /\ Forall (called (length types)) l /\
  (forall x, In x l -> exists s, x = AList s) /\ happens types l (console_new (length types)) = Panic.
Proof.
  exists [a_type], [AList [[0%N]]; AList [[]]]. split; [repeat constructor; eexists; reflexivity|]. split; [repeat constructor; cbn; lia|].
  split; [intros x [<-|[<-|[]]]; eauto|reflexivity].
Qed.
Print Assumptions C138_status_refuted.

(** * Quitting *)
Section Quit.
Context {V M Er E : Type}.
Variable a : application.
Variable o : oracles V M Er E.
(** Whether the user has pressed q. *)
Variable quit : E -> bool.
(** Once pressed it stays so; the console decides on errors, and fails when asked after q. *)
Record console_used : Prop := {
  q_task : forall ph t e, quit e = true -> quit (fst (o_task o ph t e)) = true;
  q_process : forall t i m e, quit e = true -> quit (fst (fst (o_process o t i m e))) = true;
  q_sink : forall t i e, quit e = true -> quit (fst (o_sink o t i e)) = true;
  q_sim : forall ph t e, quit e = true -> quit (fst (o_sim o ph t e)) = true;
  q_sim_process : forall t i m e, quit e = true -> quit (fst (fst (o_sim_process o t i m e))) = true;
  q_decide : forall ph t x e, quit e = true -> quit (fst (o_decide o ph t x e)) = true;
  q_now : forall e, quit e = true -> quit (fst (o_now o e)) = true;
  q_decision : forall ph t x e, snd (o_decide o ph t x e) = console_decide ph;
  q_report : forall md e, quit e = true -> snd (o_report o md e) <> None }.
Hypothesis U : console_used.

Lemma act_quit ph t x e e' tr f : quit e = true -> act o ph t x e = (e', tr, f) -> quit e' = true /\ tr = [EDecision ph t x (console_decide ph)] /\
  f = match console_decide ph with Abort => Return None | Ignore => Next | Shutdown => Return (Some x) end.
Proof.
  intros Q. unfold act. pose proof (q_decide U ph t x e Q) as Q1. pose proof (q_decision U ph t x e) as Q2.
  destruct (o_decide o ph t x e) as [e1 d]. cbn in *. subst d. intros X. injection X as <- <- <-. auto.
Qed.
Definition aborted (tr : list (event V M Er)) : Prop := exists t x, In (EDecision Preprocess t x Abort) tr.
Lemma one_call_quit t e e' tr f : quit e = true -> one_call a o Preprocess t e = (e', tr, f) -> quit e' = true /\ (f = Next \/ (f = Return None /\ aborted tr)).
Proof.
  intros Q. assert (D : forall e e' tr f, quit e = true -> do_call o Preprocess t e = (e', tr, f) -> quit e' = true /\ (f = Next \/ (f = Return None /\ aborted tr))).
  { clear e e' tr f Q. intros e e' tr f Q. unfold do_call. pose proof (q_task U Preprocess t e Q) as Q1. destruct (o_task o Preprocess t e) as [e1 [x|]]; cbn in Q1.
    - destruct (act o Preprocess t x e1) as [[e2 tr2] f2] eqn:A. destruct (act_quit _ _ _ _ _ _ _ Q1 A) as (Q2 & -> & ->). intros X. injection X as <- <- <-.
      split; auto. right. split; auto. exists t, x. cbn. auto.
    - intros X. injection X as <- <- <-. auto. }
  unfold one_call. destruct (a_sim a); [|apply D; auto]. pose proof (q_sim U Preprocess t e Q) as Q1. destruct (o_sim o Preprocess t e) as [e1 ov]. cbn in Q1. destruct ov as [| |x].
  - intros X. injection X as <- <- <-. auto.
  - destruct (do_call o Preprocess t e1) as [[e2 tr2] f2] eqn:C. destruct (D _ _ _ _ Q1 C) as [Q2 P]. intros X. injection X as <- <- <-. split; auto.
    destruct P as [P|[P (t' & x & I)]]; auto. right. split; auto. exists t', x. right. auto.
  - destruct (act o Preprocess t x e1) as [[e2 tr2] f2] eqn:A. destruct (act_quit _ _ _ _ _ _ _ Q1 A) as (Q2 & -> & ->). intros X. injection X as <- <- <-. split; auto.
    right. split; auto. exists t, x. cbn. auto.
Qed.
Lemma lifecycle_quit ts : forall e e' tr f, quit e = true -> lifecycle a o Preprocess ts e = (e', tr, f) -> quit e' = true /\ (f = Next \/ (f = Return None /\ aborted tr)).
Proof.
  induction ts as [|t ts IH]; intros e e' tr f Q; cbn [lifecycle].
  - intros X. injection X as <- <- <-. auto.
  - destruct (one_call a o Preprocess t e) as [[e1 tr1] f1] eqn:C. destruct (one_call_quit _ _ _ _ _ Q C) as [Q1 [->|[-> A]]].
    + destruct (lifecycle a o Preprocess ts e1) as [[e2 tr2] f2] eqn:L. destruct (IH _ _ _ _ Q1 L) as [Q2 P]. intros X. injection X as <- <- <-. split; auto.
      destruct P as [P|[P (t' & x & I)]]; auto. right. split; auto. exists t', x. apply in_or_app. auto.
    + intros X. injection X as <- <- <-. auto.
Qed.
Lemma pact_quit t x m e e' tr m' f : quit e = true -> pact o t x m e = (e', tr, m', f) -> quit e' = true /\ f = PNext.
Proof.
  intros Q. unfold pact. pose proof (q_decide U Process t x e Q) as Q1. pose proof (q_decision U Process t x e) as Q2.
  destruct (o_decide o Process t x e) as [e1 d]. cbn in *. subst d. intros X. injection X as <- <- <- <-. auto.
Qed.
Lemma do_process_quit s ins doit m e e' tr m' f : quit e = true -> do_process o s ins doit m e = (e', tr, m', f) -> quit e' = true /\ f = PNext.
Proof.
  intros Q. unfold do_process. pose proof (q_now U e Q) as Q1. destruct (o_now o e) as [e1 t0]. cbn in Q1.
  match goal with |- context [if doit then ?x else ?y] => set (z := if doit then x else y) end.
  assert (Z : quit (fst (fst (fst z))) = true).
  { unfold z. destruct doit; [|auto]. destruct (s_type s).
    - pose proof (q_process U (s_node s) ins (with_start t0 m) e1 Q1) as H. destruct (o_process o (s_node s) ins (with_start t0 m) e1) as [[? ?] ?]. auto.
    - pose proof (q_process U (s_node s) ins (with_start t0 m) e1 Q1) as H. destruct (o_process o (s_node s) ins (with_start t0 m) e1) as [[? ?] ?]. auto.
    - pose proof (q_sink U (s_node s) ins e1 Q1) as H. destruct (o_sink o (s_node s) ins e1) as [? ?]. auto. }
  destruct z as [[[e2 tr2] m2] r]. cbn in Z. pose proof (q_now U e2 Z) as Q3. destruct (o_now o e2) as [e3 t1]. cbn in Q3. destruct r as [x|].
  - destruct (pact o (s_node s) x (with_end t1 m2) e3) as [[[e4 tr4] m4] f4] eqn:P. destruct (pact_quit _ _ _ _ _ _ _ _ Q3 P) as [Q4 ->]. intros X. injection X as <- <- <- <-. auto.
  - intros X. injection X as <- <- <- <-. auto.
Qed.
Lemma process_msg_quit s ins m e e' tr m' f : quit e = true -> process_msg a o s ins m e = (e', tr, m', f) -> quit e' = true /\ f = PNext.
Proof.
  intros Q. unfold process_msg. destruct (a_sim a); [|apply do_process_quit; auto].
  pose proof (q_sim_process U (s_node s) ins m e Q) as Q1. destruct (o_sim_process o (s_node s) ins m e) as [[e1 m1] ov]. cbn in Q1. destruct ov as [| |x].
  - destruct (do_process o s ins false m1 e1) as [[[e2 tr2] m2] f2] eqn:D. destruct (do_process_quit _ _ _ _ _ _ _ _ _ Q1 D) as [Q2 ->]. intros X. injection X as <- <- <- <-. auto.
  - destruct (do_process o s ins true m1 e1) as [[[e2 tr2] m2] f2] eqn:D. destruct (do_process_quit _ _ _ _ _ _ _ _ _ Q1 D) as [Q2 ->]. intros X. injection X as <- <- <- <-. auto.
  - destruct (pact o (s_node s) x m1 e1) as [[[e2 tr2] m2] f2] eqn:P. destruct (pact_quit _ _ _ _ _ _ _ _ Q1 P) as [Q2 ->].
    destruct (do_process o s ins false m2 e2) as [[[e3 tr3] m3] f3] eqn:D. destruct (do_process_quit _ _ _ _ _ _ _ _ _ Q2 D) as [Q3 ->]. intros X. injection X as <- <- <- <-. auto.
Qed.
Lemma process_all_quit ss : forall msgs e e' tr msgs' f, quit e = true -> process_all a o ss msgs e = (e', tr, msgs', f) -> quit e' = true /\ (f = PNext \/ f = PPanic).
Proof.
  induction ss as [|s ss IH]; intros msgs e e' tr msgs' f Q; cbn [process_all].
  - intros X. injection X as <- <- <- <-. auto.
  - destruct (process_step a o s msgs e) as [[[e1 tr1] m1] f1] eqn:P.
    assert (S : quit e1 = true /\ (f1 = PNext \/ f1 = PPanic)).
    { unfold process_step in P. destruct (s_out s) as [[k ty]|]; [|injection P as <- <- <- <-; auto].
      destruct (nth_error msgs k); [|injection P as <- <- <- <-; auto]. destruct (gather msgs (s_inputs s)); [|injection P as <- <- <- <-; auto].
      destruct (process_msg a o s l m e) as [[[e2 tr2] m2] f2] eqn:D. destruct (process_msg_quit _ _ _ _ _ _ _ _ Q D) as [Q2 ->]. injection P as <- <- <- <-. auto. }
    destruct S as [Q1 [->| ->]].
    + destruct (process_all a o ss m1 e1) as [[[e2 tr2] m2] f2] eqn:L. destruct (IH _ _ _ _ _ _ Q1 L) as [Q2 F]. intros X. injection X as <- <- <- <-. auto.
    + intros X. injection X as <- <- <- <-. auto.
Qed.
Lemma report_quit id m msgs e e' m' tr f : quit e = true -> report_and_finish a o id m msgs e = (e', m', tr, f) -> f = Panicked \/ exists x, f = Return (Some x).
Proof.
  intros Q. unfold report_and_finish. destruct (collect_metadata a msgs) as [md|]; [|intros X; injection X as <- <- <- <-; auto].
  pose proof (q_report U md e Q) as R. destruct (o_report o md e) as [e1 [x|]]; [|cbn in R; congruence]. intros X. injection X as <- <- <- <-. eauto.
Qed.
Lemma iteration_quit m e e' m' tr r : quit e = true -> run_one_iteration a o m e = (e', m', tr, r) -> r = ROk -> aborted tr.
Proof.
  intros Q. unfold run_one_iteration. destruct (lifecycle a o Preprocess (seq 0 (a_tasks a)) e) as [[e1 tr1] f1] eqn:L.
  destruct (lifecycle_quit _ _ _ _ _ Q L) as [Q1 [->|[-> A]]]; [|intros X; injection X as <- <- <- <-; auto].
  destruct (copperlist_body a o m e1) as [[[e2 m2] tr2] f2] eqn:B.
  assert (F : f2 = Panicked \/ exists x, f2 = Return (Some x)).
  { unfold copperlist_body in B. destruct (create (a_mode a) m) as [[[m1 i]|]|]; try (injection B as <- <- <- <-; auto).
    destruct (nth_error (m_data m1) i) as [c|]; [|injection B as <- <- <- <-; auto].
    destruct (process_all a o (a_plan a) (cl_msgs c) e1) as [[[e3 tr3] msgs] f3] eqn:P. destruct (process_all_quit _ _ _ _ _ _ _ Q1 P) as [Q3 [->| ->]]; [|injection B as <- <- <- <-; auto].
    destruct (match collect_metadata a msgs with Some md => e2e a md | None => Panic end); [|injection B as <- <- <- <-; auto].
    match type of B with context [report_and_finish a o ?i ?mm ?s ?v] => destruct (report_and_finish a o i mm s v) as [[[e4 m4] tr4] f4] eqn:R end.
    injection B as <- <- <- <-. eapply report_quit; eauto. }
  destruct F as [->|[x ->]]; intros X; injection X as <- <- <- <-; discriminate.
Qed.
End Quit.

(** C139. In full: when the user has pressed q in the first [n] iterations, the one after them is
    the last: it ends with an error (or a panic), and no other follows. *)
Definition C139_full : Prop := forall (V M Er E : Type) (a : application) (o : oracles V M Er E) quit n m e e1 m1 tr1,
  console_used o quit -> run_loop a o n m e = (e1, m1, tr1, None) -> quit e1 = true ->
  exists e2 m2 tr2 r, run_loop a o (S n) m e = (e2, m2, tr1 ++ tr2, Some r) /\ r <> ROk.
(** It holds unless a preprocess call fails in that iteration, which makes the console abort it
    before it is asked. *)
Theorem C139_quits_partial : forall (V M Er E : Type) (a : application) (o : oracles V M Er E) quit n m e e1 m1 tr1,
  console_used o quit -> run_loop a o n m e = (e1, m1, tr1, None) -> quit e1 = true ->
  exists e2 m2 tr2 r, run_one_iteration a o m1 e1 = (e2, m2, tr2, r) /\
    ((exists t x, In (EDecision Preprocess t x Abort) tr2) \/
     run_loop a o (S n) m e = (e2, m2, tr1 ++ tr2, Some r) /\ r <> ROk).
Proof.
  intros V M Er E a o quit n. induction n as [|n IH]; intros m e e1 m1 tr1 U L Q.
  - cbn [run_loop] in L. injection L as <- <- <-. destruct (run_one_iteration a o m e) as [[[e2 m2] tr2] r] eqn:R. exists e2, m2, tr2, r. split; auto.
    pose proof (iteration_quit a o quit U m e e2 m2 tr2 r Q R) as X. cbn [run_loop]. rewrite R. destruct r as [|x|]; [left; apply X; auto|right; split; [reflexivity|discriminate]|right; split; [reflexivity|discriminate]].
  - cbn [run_loop] in L. destruct (run_one_iteration a o m e) as [[[e0 m0] tr0] r0] eqn:R0. destruct r0; try discriminate.
    destruct (run_loop a o n m0 e0) as [[[e9 m9] tr9] r9] eqn:L9. injection L as -> -> <- ->.
    destruct (IH _ _ _ _ _ U L9 Q) as (e2 & m2 & tr2 & r & R & P). exists e2, m2, tr2, r. split; auto. destruct P as [P|[P N]]; auto. right. split; auto.
    change (run_loop a o (S (S n)) m e) with (let '(env, m, tr, r) := run_one_iteration a o m e in
      match r with ROk => let '(env, m, tr', r) := run_loop a o (S n) m env in (env, m, tr ++ tr', r) | _ => (env, m, tr, Some r) end).
    rewrite R0, P, app_assoc. reflexivity.
Qed.
Print Assumptions C139_quits_partial.
(** And then the tasks are stopped: [run] makes the stop calls, after an error. *)
Theorem C139_stops_partial : forall (V M Er E : Type) (a : application) (o : oracles V M Er E) quit n m e e0 tr0 e1 m1 tr1,
  console_used o quit -> all_tasks a o Start e = (e0, tr0, ROk) -> run_loop a o n m e0 = (e1, m1, tr1, None) -> quit e1 = true ->
  exists e2 m2 tr2 r, run_one_iteration a o m1 e1 = (e2, m2, tr2, r) /\
    ((exists t x, In (EDecision Preprocess t x Abort) tr2) \/ r = RPanic \/
     exists e3 tr3 r3, all_tasks a o Stop e2 = (e3, tr3, r3) /\ exists x, run a o (S n) m e = (e3, m2, tr0 ++ (tr1 ++ tr2) ++ tr3, Some x) /\ x <> ROk).
Proof.
  intros V M Er E a o quit n m e e0 tr0 e1 m1 tr1 U S L Q. destruct (C139_quits_partial V M Er E a o quit n m e0 e1 m1 tr1 U L Q) as (e2 & m2 & tr2 & r & R & P).
  exists e2, m2, tr2, r. split; auto. destruct P as [P|[P N]]; [auto|]. right. destruct r as [|x|]; [congruence| |auto]. right.
  destruct (all_tasks a o Stop e2) as [[e3 tr3] r3] eqn:T. exists e3, tr3, r3. split; auto. unfold run. rewrite S, P, T.
  exists (match r3 with ROk => RErr x | _ => r3 end). split; [reflexivity|destruct r3; discriminate].
Qed.
Print Assumptions C139_stops_partial.

(** A robot of one source; q is pressed after two iterations. *)
Definition one_source : application := App 1 [Step 0 Source [] (Some (0, "T"%string))] false false Checked.
Definition sound_robot (fails : bool) : oracles unit unit unit nat :=
  Oracles unit unit unit nat
    (fun ph _ e => match ph with Preprocess => (e, if fails then Some tt else None) | Postprocess => (1 + e, None) | _ => (e, None) end)
    (fun _ _ m e => (e, m, None)) (fun _ _ e => (e, None)) (fun _ _ e => (e, ExecuteByRuntime)) (fun _ _ m e => (e, m, ExecuteByRuntime))
    (fun ph _ _ e => (e, console_decide ph)) (fun _ e => (e, if 6 <=? e then Some tt else None)) (fun _ e => (e, None))
    (fun e => (1 + e, N.of_nat e)) (fun _ _ => true).
Definition pressed (e : nat) : bool := 6 <=? e.
Lemma sound_robot_used f : console_used (sound_robot f) pressed.
Proof.
  unfold pressed. constructor; intros; cbn -[Nat.leb] in *; auto.
  - destruct ph; cbn -[Nat.leb]; auto. apply Nat.leb_le. apply Nat.leb_le in H. lia.
  - apply Nat.leb_le. apply Nat.leb_le in H. lia.
  - rewrite H. discriminate.
Qed.
Definition empty_mgr : mgr (list (msg unit unit)) := mgr_new 2 [Msg None tt None None].
Example C139_case : exists e1 m1 tr1, console_used (sound_robot false) pressed /\
  run_loop one_source (sound_robot false) 2 empty_mgr 0 = (e1, m1, tr1, None) /\ pressed 0 = false /\ pressed e1 = true /\
  snd (run_loop one_source (sound_robot false) 3 empty_mgr 0) = Some (RErr tt) /\ snd (run one_source (sound_robot false) 9 empty_mgr 0) = Some (RErr tt).
Proof. eexists _, _, _. split; [apply sound_robot_used|]. split; [vm_compute; reflexivity|]. repeat split. Qed.
(** A task whose preprocess keeps failing: q is pressed and the robot goes on for ever. *)
Lemma goes_on : forall n m, exists tr, run_loop one_source (sound_robot true) n m 9 = (9, m, tr, None).
Proof.
  induction n as [|n IH]; intros m; [exists []; reflexivity|]. cbn [run_loop].
  assert (R : exists tr, run_one_iteration one_source (sound_robot true) m 9 = (9, m, tr, ROk)) by (eexists; reflexivity).
  destruct R as [tr ->]. destruct (IH m) as [tr' ->]. eauto.
Qed.
Theorem C139_refuted : ~ C139_full /\ exists (o : oracles unit unit unit nat) quit m e, console_used o quit /\ quit e = true /\
  forall n, snd (run_loop one_source o n m e) = None.
Proof.
  split.
  - intros C. destruct (goes_on 0 empty_mgr) as [tr E]. destruct (C _ _ _ _ one_source (sound_robot true) pressed 0 empty_mgr 9 _ _ _ (sound_robot_used true) E eq_refl) as (e2 & m2 & tr2 & r & X & _).
    destruct (goes_on 1 empty_mgr) as [tr' E']. rewrite E' in X. discriminate.
  - exists (sound_robot true), pressed, empty_mgr, 9. split; [apply sound_robot_used|]. split; [reflexivity|]. intros n. destruct (goes_on n empty_mgr) as [tr ->]. reflexivity.
Qed.
Print Assumptions C139_refuted.

(** That the console behaves as supposed above: in any history, it decides shutdown on errors of
    start and stop, abort on those of preprocess and to go on otherwise; *)
Theorem C139_decisions_partial : forall types c t ph x c' f, happen types (AnError t ph x) c = Ret (c', f) ->
  f = Decided (match ph with Preprocess => Abort | Process | Postprocess => Ignore | Start | Stop => Shutdown end).
Proof.
  intros types c t ph x c' f. cbn [happen]. unfold process_error. destruct (c_poisoned c); [discriminate|]. destruct (nth_error (c_statuses c) t); [|discriminate].
  intros H. injection H as _ <-. destruct ph; reflexivity.
Qed.
Print Assumptions C139_decisions_partial.
Lemma alive_quit types x c c' f : happen types x c = Ret (c', f) -> (c_quitting c' = c_quitting c \/ x = AKey 113) /\ (c_quitting c = true -> c_quitting c' = true).
Proof.
  destruct x as [t ph x|l| |k]; cbn [happen].
  - unfold process_error. destruct (c_poisoned c); [discriminate|]. destruct (nth_error (c_statuses c) t); [|discriminate]. intros H. injection H as <- _. cbn. auto.
  - unfold process_list. destruct (c_poisoned c); [discriminate|]. destruct (set_statuses 0 l (c_statuses c)); [|discriminate]. intros H. injection H as <- _. cbn. auto.
  - intros H. injection H as H. unfold draw in H. repeat match type of H with context[match ?u with _ => _ end] => destruct u end; injection H as <- _; cbn; auto.
  - intros H. injection H as <- _. unfold key. destruct (c_alive c); [|auto]. destruct (k =? 49)%N; [cbn; auto|]. destruct (k =? 50)%N; [cbn; auto|]. destruct (k =? 51)%N; [cbn; auto|].
    destruct (k =? 52)%N; [cbn; auto|]. destruct (N.eqb_spec k 113); [|auto]. subst. cbn. auto.
Qed.
Lemma happens_quit types l : forall c c' fs, happens types l c = Ret (c', fs) -> (c_quitting c = true -> c_quitting c' = true) /\ (c_quitting c = false -> ~ In (AKey 113) l -> c_quitting c' = false).
Proof.
  induction l as [|x l IH]; intros c c' fs; cbn [happens]. { intros H. injection H as <- _. auto. }
  destruct (happen types x c) as [[c1 f]|] eqn:E; [|discriminate]. cbn [obind]. destruct (happens types l c1) as [[c2 fs2]|] eqn:E2; [|discriminate]. cbn [obind].
  intros H. injection H as <- _. destruct (alive_quit _ _ _ _ _ E) as [A B]. destruct (IH _ _ _ E2) as [C D]. split; [auto|].
  intros Q N. apply D; [|intros X; apply N; right; exact X]. destruct A as [->| ->]; [exact Q|]. exfalso. apply N. left. reflexivity.
Qed.
(** every copper list is accepted as long as q has not been pressed, and none is after q was
    pressed while the interface was running. *)
Theorem C139_console_partial : forall n types l c fs statuses c' f, happens types l (console_new n) = Ret (c, fs) -> happen types (AList statuses) c = Ret (c', f) ->
  (~ In (AKey 113) l -> f = Accepted) /\
  (forall l1 l2 c1 fs1, l = l1 ++ AKey 113 :: l2 -> happens types l1 (console_new n) = Ret (c1, fs1) -> c_alive c1 = true -> f = Exiting).
Proof.
  intros n types l c fs statuses c' f H E. cbn [happen] in E. unfold process_list in E. destruct (c_poisoned c); [discriminate|]. destruct (set_statuses 0 statuses (c_statuses c)); [|discriminate].
  injection E as _ <-. split.
  - intros N. destruct (happens_quit _ _ _ _ _ H) as [_ D]. rewrite (D eq_refl N). reflexivity.
  - intros l1 l2 c1 fs1 -> H1 A.
    assert (X : forall l c0 c1 fs1 r, happens types l c0 = Ret (c1, fs1) -> happens types (l ++ r) c0 = let! (c2, fs2) := happens types r c1 in Ret (c2, fs1 ++ fs2)).
    { clear. induction l as [|x l IH]; intros c0 c1 fs1 r; cbn [happens app].
      - intros H. injection H as <- <-. destruct (happens types r c0) as [[? ?]|]; reflexivity.
      - destruct (happen types x c0) as [[c2 f]|]; [|discriminate]. cbn [obind]. destruct (happens types l c2) as [[c3 fs3]|] eqn:E; [|discriminate]. cbn [obind].
        intros H. injection H as <- <-. rewrite (IH _ _ _ r E). destruct (happens types r c3) as [[? ?]|]; reflexivity. }
    rewrite (X _ _ _ _ (AKey 113 :: l2) H1) in H. cbn [happens happen] in H. unfold key in H. rewrite A in H. cbn [N.eqb Pos.eqb obind] in H.
    match type of H with context[happens types l2 ?c0] => destruct (happens types l2 c0) as [[c2 fs2]|] eqn:E2; [|discriminate] end. cbn [obind] in H. injection H as <- _.
    destruct (happens_quit _ _ _ _ _ E2) as [Q _]. rewrite (Q eq_refl). reflexivity.
Qed.
Print Assumptions C139_console_partial.
Example C139_console_case : exists c fs, happens [] [AKey 52; AList [[65%N]]; AKey 113; AKey 49] (console_new 1) = Ret (c, fs) /\ fs = [Nothing; Accepted; Nothing; Nothing]
  /\ exists c', happen [] (AList [[66%N]]) c = Ret (c', Exiting).
Proof. eexists _, _. split; [reflexivity|]. split; [reflexivity|]. eexists. reflexivity. Qed.
