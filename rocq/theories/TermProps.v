(** C153 to C155: the console's terminal, starting it again, and what its latencies tell about. *)
From Coq Require Import List Arith NArith Bool Lia.
From Verif Require Import Base BincodeModel CodecModel StatsModel StatsSpec StatsProofs ConsoleModel ConsoleProps TermModel.
Import ListNotations.
Local Open Scope list_scope.
Local Open Scope nat_scope.

(** * Specification *)
(** The terminal is as the user left it. *)
Definition as_before (p : prog) : Prop := p_raw p = false /\ p_alt p = false.
(** Number of times run was called. *)
Definition starts (l : list TermModel.event) : nat := length (filter (fun e => match e with Start_ => true | _ => false end) l).
(** The thread has taken over the terminal, or given up. *)
Definition set_up (u : ui) : Prop := u_at u <> AtRaw /\ u_at u <> AtAlt.
(** Number of consoles whose screens could be seen so far. *)
Definition shown_so_far (p : prog) : nat := length (filter u_shown (p_uis p)).
(** The copper lists recorded since the last reset; with [stops], since the last reset or stop. *)
Fixpoint kept (stops : bool) (l : list seen) (acc : list (list metadata)) : list (list metadata) :=
  match l with
  | [] => acc
  | Recorded m :: l => kept stops l (acc ++ [m])
  | AllReset :: l => kept stops l []
  | Stopped :: l => kept stops l (if stops then [] else acc)
  end.

(** * Steps *)
Lemma steps_app a b p : steps (a ++ b) p = match steps a p with
  | None => None | Some (p', s) => match steps b p' with None => None | Some (p'', s') => Some (p'', s ++ s') end end.
Proof.
  revert p. induction a as [|e a IH]; intros p; cbn [app steps].
  - destruct (steps b p) as [[p' s]|]; reflexivity.
  - destruct (step e p) as [[p1 s1]|]; [|reflexivity]. rewrite IH. destruct (steps a p1) as [[p2 s2]|]; [|reflexivity].
    destruct (steps b p2) as [[p3 s3]|]; [|reflexivity]. rewrite app_assoc. reflexivity.
Qed.
Ltac split_step H :=
  unfold step in H;
  match type of H with (match p_main ?p with _ => _ end) = _ => destruct (p_main p) eqn:?Em end; try discriminate;
  match type of H with (match ?e with _ => _ end) = _ => destruct e end; try discriminate.

(** ** C155 *)
Lemma kept_app b x y acc : kept b (x ++ y) acc = kept b y (kept b x acc).
Proof. revert acc. induction x as [|[]]; intros; cbn; auto. Qed.
Lemma ui_step_stats i u p p' : ui_step i u p = Some p' -> p_stats p' = p_stats p.
Proof. unfold ui_step. destruct (u_at u), (p_gag p), (p_hooks p); intros H; inversion H; reflexivity. Qed.
Lemma ui_key_stats i c u p p' s : ui_key i c u p = (p', s) -> (s = [] /\ p_stats p' = p_stats p) \/ (s = [AllReset] /\ p_stats p' = reset_all (p_stats p)).
Proof.
  unfold ui_key. repeat match goal with |- context [if ?b then _ else _] => destruct b end; try (intros H; inversion H; auto; fail).
  destruct (u_screen u); intros H; inversion H; auto.
Qed.
Lemma step_stats e p p' s : step e p = Some (p', s) ->
  (s = [] /\ p_stats p' = p_stats p) \/ (exists msgs, e = List_ msgs /\ s = [Recorded msgs] /\ process_copperlist msgs (p_stats p) = Ret (p_stats p')) \/
  (s = [AllReset] /\ p_stats p' = reset_all (p_stats p)) \/ (s = [Stopped] /\ p_stats p' = reset_tasks (p_stats p)).
Proof.
  intros H. split_step H;
    try (inversion H; subst; cbn; auto; fail);
    try (destruct (nth_error (p_uis p) i) as [u|]; [|discriminate]);
    try (destruct (ui_step i u p) as [q|] eqn:E; [|discriminate]; inversion H; subst; left; split; auto; eapply ui_step_stats; eauto; fail);
    try (destruct (u_at u); try discriminate);
    try (inversion H; subst; cbn; auto; fail);
    try (injection H as H; destruct (ui_key_stats _ _ _ _ _ _ H) as [[-> ->]|[-> ->]]; auto; fail).
  right. left. exists msgs. destruct (process_copperlist msgs (p_stats p)); [|discriminate]. inversion H; subst. cbn. auto.
Qed.
Definition tells (n : nat) (k : console) (a b : list (list metadata)) : Prop := exists hs, Forall2 (keeps limit) (k_stats k) hs /\ length hs = n /\
  (forall i h, nth_error hs i = Some h -> h = durations i a) /\ (forall m, In m a -> length m = n) /\ keeps limit (k_end2end k) (wholes b) /\ length (k_statuses k) = n.
Lemma tells_reset n k a b : tells n k a b -> tells n (reset_all k) [] [] /\ tells n (reset_tasks k) [] b.
Proof.
  intros (hs & F & L & D & Le & K & T).
  assert (F' : Forall2 (keeps limit) (map stats_reset (k_stats k)) (map (fun _ => []) hs)) by (clear - F; induction F; constructor; auto; eapply keeps_reset; eauto).
  assert (D' : forall i h, nth_error (map (fun _ : list N => @nil N) hs) i = Some h -> h = durations i []) by (intros i h; rewrite nth_error_map; destruct (nth_error hs i); cbn; intros [=]; auto).
  split; (exists (map (fun _ => []) hs); cbn; split; [exact F'|]; split; [rewrite map_length; auto|]; split; [exact D'|]; split; [intros m []|]; split; auto).
  eapply keeps_reset; eauto.
Qed.
Lemma durations_app i a b : durations i (a ++ b) = durations i a ++ durations i b.
Proof. apply flat_map_app. Qed.
Lemma tells_list n k k' msgs a b : 0 < n -> length msgs = n -> tells n k a b -> process_copperlist msgs k = Ret k' -> tells n k' (a ++ [msgs]) (b ++ [msgs]).
Proof.
  intros Hn L (hs & F & Lh & D & Le & K & T) E. destruct (process_ok n msgs k hs _ Hn L F Lh K T) as [P1 P2].
  destruct (P1 (P2 _ E)) as (k1 & E1 & F1 & K1 & T1). rewrite E in E1. injection E1 as <-.
  exists (snoc_each hs msgs). split; [auto|]. split; [rewrite snoc_len; lia|]. split; [|split; [|split]].
  - intros i h. rewrite snoc_nth by lia. destruct (nth_error hs i) as [h0|] eqn:E0; [|discriminate]. destruct (nth_error msgs i) as [m|] eqn:Em; [|discriminate].
    intros [= <-]. rewrite (D _ _ E0), durations_app. unfold durations at 3. cbn [flat_map]. rewrite Em. reflexivity.
  - intros m Hm. apply in_app_or in Hm. destruct Hm as [Hm|[<-|[]]]; auto.
  - unfold wholes. rewrite map_app. exact K1.
  - rewrite T1, map_length. auto.
Qed.
Lemma steps_tells n l : 0 < n -> (forall msgs, In (List_ msgs) l -> length msgs = n) -> forall p p' s a b, tells n (p_stats p) a b -> steps l p = Some (p', s) ->
  tells n (p_stats p') (kept true s a) (kept false s b).
Proof.
  intros Hn. induction l as [|e l IH]; intros Len p p' s a b T; cbn [steps].
  - intros [= <- <-]. exact T.
  - destruct (step e p) as [[p1 s1]|] eqn:E1; [|discriminate]. destruct (steps l p1) as [[p2 s2]|] eqn:E2; [|discriminate]. intros [= <- <-].
    rewrite !kept_app. apply (IH ltac:(intros; apply Len; right; auto) p1); [|exact E2].
    destruct (tells_reset _ _ _ _ T) as [T1 T2].
    destruct (step_stats _ _ _ _ E1) as [[-> ->]|[(msgs & -> & -> & P)|[[-> ->]|[-> ->]]]]; cbn [kept]; auto.
    eapply tells_list; eauto. apply Len. left. auto.
Qed.
Lemma prog_new_tells n : exists p0, prog_new n = Ret p0 /\ p0 = Prog Idle false false false false false [] (p_stats p0) /\ tells n (p_stats p0) [] [].
Proof.
  unfold prog_new, console_new. destruct (stats_new 5000000000) as [s0|] eqn:E0; [|vm_compute in E0; discriminate]. cbn [obind].
  pose proof (keeps_new _ _ E0) as K0. change (cover 53 2048 5000000000) with limit in K0.
  eexists. split; [reflexivity|]. split; [reflexivity|]. exists (repeat [] n). cbn [p_stats k_stats k_end2end k_statuses].
  split; [clear - K0; induction n; cbn; constructor; auto|]. split; [apply repeat_length|].
  split; [intros i h H; apply nth_error_In, repeat_spec in H; auto|]. split; [intros m []|]. split; [exact K0|apply repeat_length].
Qed.
(** Each task's latencies are those of the copper lists since the last reset or stop, the end to
    end latencies those since the last reset, whatever was done. Missing for C155 as stated: the
    stop, for the end to end latencies (refuted below). *)
Theorem C155_latencies_partial : forall n l, 0 < n -> (forall msgs, In (List_ msgs) l -> length msgs = n) ->
  exists p0, prog_new n = Ret p0 /\ forall p s, steps l p0 = Some (p, s) ->
  length (k_stats (p_stats p)) = n /\
  (forall i t, nth_error (k_stats (p_stats p)) i = Some t -> described t (durations i (kept true s [])) /\ h_total (s_bare t) = N.of_nat (length (kept true s []))) /\
  described (k_end2end (p_stats p)) (wholes (kept false s [])) /\ h_total (s_bare (k_end2end (p_stats p))) = N.of_nat (length (kept false s [])).
Proof.
  intros n l Hn Len. destruct (prog_new_tells n) as (p0 & E & _ & T). exists p0. split; [exact E|]. intros p s St.
  destruct (steps_tells n l Hn Len _ _ _ _ _ T St) as (hs & F & L & D & Le & K & _). split; [|split; [|split]].
  - rewrite <- L. clear - F. induction F; cbn; auto.
  - intros i t Ht. assert (X : exists h, nth_error hs i = Some h /\ keeps limit t h).
    { clear - F Ht. revert i Ht. induction F as [|x y l l' Hx F IH]; intros [|i] Ht; cbn in *; try discriminate; [injection Ht as <-; eauto|auto]. }
    destruct X as (h & Hh & Kh). rewrite (D _ _ Hh) in Kh. split; [apply keeps_described; auto|].
    apply keeps_described in Kh. destruct Kh as [(-> & _) _]. f_equal. assert (Hi : i < n) by (rewrite <- L; apply nth_error_Some; congruence).
    clear - Le Hi. induction (kept true s []) as [|m a IH]; [reflexivity|]. unfold durations in *. cbn [flat_map length]. rewrite app_length.
    destruct (nth_error m i) eqn:Em; [|apply nth_error_None in Em; specialize (Le m (or_introl eq_refl)); lia]. cbn. f_equal. apply IH. intros; apply Le; right; auto.
  - apply keeps_described; auto.
  - apply keeps_described in K. destruct K as [(-> & _) _]. f_equal. unfold wholes. apply map_length.
Qed.
Print Assumptions C155_latencies_partial.
(** A robot stopped and started again: the end to end latencies still count the copper lists of
    before. *)
Theorem C155_stop_refuted : exists p0 l p s t, prog_new 1 = Ret p0 /\ steps l p0 = Some (p, s) /\ ~ In AllReset s /\ length (kept true s []) = 1 /\
  k_stats (p_stats p) = [t] /\ h_total (s_bare t) = 1%N /\ h_total (s_bare (k_end2end (p_stats p))) = 3%N.
Proof.
  eexists. exists [Start_; List_ [Metadata (OptionCuTime 1%N) (OptionCuTime 3%N) [79%N]]; List_ [Metadata (OptionCuTime 5%N) (OptionCuTime 6%N) [79%N]]; Error_; TasksStopped;
    Leave_; Unraw_; Start_; List_ [Metadata (OptionCuTime 10%N) (OptionCuTime 30%N) [79%N]]].
  do 3 eexists. split; [vm_compute; reflexivity|]. split; [vm_compute; reflexivity|].
  split; [intros [|[|[|[|[]]]]]; discriminate|]. split; [reflexivity|]. split; [reflexivity|]. split; reflexivity.
Qed.
Print Assumptions C155_stop_refuted.
Example C155_case : let m := Metadata (OptionCuTime 10%N) (OptionCuTime 30%N) [79%N] in
  exists p0 p s, prog_new 1 = Ret p0 /\ steps [Start_; Step_ 0; Step_ 0; Step_ 0; Step_ 0; List_ [m]; Key_ 0 114%N; List_ [m]; Key_ 0 51%N; Key_ 0 114%N; List_ [m]] p0 = Some (p, s) /\
  kept true s [] = [[m]] /\ s = [Recorded [m]; Recorded [m]; AllReset; Recorded [m]] /\ map (fun t => h_total (s_bare t)) (k_stats (p_stats p)) = [1%N].
Proof. do 3 eexists. split; [vm_compute; reflexivity|]. split; [vm_compute; reflexivity|]. repeat split; reflexivity. Qed.

(** ** C153 *)
(** Without a new start, the main thread of a program goes through its stop only once, and threads
    that have taken over the terminal never take it over again. *)
Lemma Forall_upd {A} (Q : A -> Prop) i x l : Forall Q l -> Q x -> Forall Q (upd i x l).
Proof. intros F Hx. revert i. induction F; intros [|i]; cbn; constructor; auto. Qed.
Definition later (m : main) (p : prog) : Prop := match m with
  | Stop1 => True | Stop2 => p_alt p = false | Idle | Ended => p_raw p = false /\ p_alt p = false | _ => False end.
Lemma ui_step_later i u p p' : nth_error (p_uis p) i = Some u -> Forall set_up (p_uis p) -> later (p_main p) p -> ui_step i u p = Some p' ->
  Forall set_up (p_uis p') /\ later (p_main p') p'.
Proof.
  intros Hu F La. assert (Su : set_up u) by (rewrite Forall_forall in F; apply F; eapply nth_error_In; eauto).
  unfold ui_step, panicking. destruct Su as [S1 S2]. destruct (u_at u) eqn:Ea; try congruence; intros H; try discriminate;
    repeat match type of H with context [if ?b then _ else _] => destruct b end;
    inversion H; subst; cbn; (split; [apply Forall_upd; auto; split; cbn; congruence|]);
    destruct (p_main p); cbn in *; tauto.
Qed.
Lemma step_later e p p' s : e <> Start_ -> Forall set_up (p_uis p) -> later (p_main p) p -> step e p = Some (p', s) -> Forall set_up (p_uis p') /\ later (p_main p') p'.
Proof.
  intros Ne F La H. pose proof La as La'. split_step H; cbn in La'; try tauto; try congruence;
    try (inversion H; subst; cbn; try tauto; fail);
    try (destruct (nth_error (p_uis p) i) as [u|] eqn:Hu; [|discriminate]);
    try (destruct (ui_step i u p) as [q|] eqn:E; [|discriminate]; inversion H; subst; eapply ui_step_later; eauto; rewrite Em; auto; fail);
    (destruct (u_at u) eqn:Ea; try discriminate; unfold panicking, ui_key in H;
     repeat match type of H with context [if ?b then _ else _] => destruct b end; try destruct (u_screen u);
     inversion H; subst; cbn; rewrite ?Em; cbn; (split; [try apply Forall_upd; auto; split; cbn; congruence|tauto])).
Qed.
Lemma steps_later l : ~ In Start_ l -> forall p p' s, Forall set_up (p_uis p) -> later (p_main p) p -> steps l p = Some (p', s) -> Forall set_up (p_uis p') /\ later (p_main p') p'.
Proof.
  induction l as [|e l IH]; intros Ni p p' s F La; cbn [steps]; [intros [= <- <-]; auto|].
  destruct (step e p) as [[p1 s1]|] eqn:E1; [|discriminate]. destruct (steps l p1) as [[p2 s2]|] eqn:E2; [|discriminate]. intros [= <- <-].
  destruct (step_later e p p1 s1) as [F1 L1]; auto; [intros ->; apply Ni; left; auto|]. eapply IH; eauto. intros X; apply Ni; right; auto.
Qed.
(** When every thread has taken over the terminal before the console is stopped, the terminal is as
    before once it is stopped, and stays so until run is called again, whatever the threads do.
    Missing for C153 as stated: the other stops (refuted below). *)
Theorem C153_stop_partial : forall p l p' s, p_main p = Stop1 -> Forall set_up (p_uis p) -> ~ In Start_ l -> steps l p = Some (p', s) ->
  p_main p' = Idle \/ p_main p' = Ended -> as_before p'.
Proof.
  intros p l p' s M F Ni St E. destruct (steps_later l Ni p p' s F) as [_ La]; auto; [rewrite M; exact I|].
  unfold as_before. destruct E as [E|E]; rewrite E in La; exact La.
Qed.
Print Assumptions C153_stop_partial.

(** One start only. *)
Definition one (p : prog) : Prop :=
  (p_uis p = [] /\ p_raw p = false /\ p_alt p = false /\ p_gag p = false /\ p_hooks p = false /\ p_quit p = false /\ (p_main p = Idle \/ p_main p = Ended)) \/
  exists u, p_uis p = [u] /\ p_gag p = u_holds u /\
    match u_at u with
    | AtRaw => p_raw p = false /\ p_alt p = false /\ p_hooks p = false /\ p_quit p = false /\ u_holds u = false /\ u_shown u = false
    | AtAlt => p_alt p = false /\ p_hooks p = false /\ p_quit p = false /\ u_holds u = false /\ u_shown u = false
    | AtGag => p_hooks p = false /\ p_quit p = false /\ u_holds u = false /\ u_shown u = false
    | AtHooks => p_hooks p = false /\ p_quit p = false /\ u_holds u = true /\ u_shown u = false
    | InLoop | AtUngag => p_hooks p = true /\ p_quit p = false /\ u_holds u = true
    | AtQuit => p_hooks p = true /\ p_quit p = false
    | AtLeave => p_hooks p = true
    | AtUnraw => p_hooks p = true /\ p_alt p = false
    | Done => p_hooks p = true /\ p_raw p = false /\ p_alt p = false
    | HookLeave => p_hooks p = true /\ p_quit p = false
    | HookUnraw => p_hooks p = true /\ p_quit p = false /\ p_alt p = false
    | Unwind | Dead => p_hooks p = true /\ p_quit p = false /\ p_raw p = false /\ p_alt p = false
    end.
Ltac one_done := right; eexists; split; [reflexivity|]; cbn; intuition congruence.
Lemma ui_step_one u p p' : p_uis p = [u] -> one p -> ui_step 0 u p = Some p' -> one p' /\ length (p_uis p') = 1.
Proof.
  intros Hu [O|(u' & Hu' & G & O)] H; [destruct O as [X _]; congruence|]. rewrite Hu in Hu'. injection Hu' as <-.
  unfold ui_step, panicking in H. rewrite Hu in H. cbn [upd] in H. split.
  - destruct (u_at u) eqn:Ea; try discriminate;
      repeat match type of H with context [if p_gag p then _ else _] => destruct (p_gag p) eqn:?Eg | context [if p_hooks p then _ else _] => destruct (p_hooks p) eqn:?Eh end;
      inversion H; subst; try (one_done); try (exfalso; intuition congruence).
    clear H. right. eexists. split; [reflexivity|]. cbn. split; [rewrite G; destruct (u_holds u); reflexivity|tauto].
  - destruct (u_at u); try discriminate; repeat match type of H with context [if ?b then _ else _] => destruct b end; inversion H; reflexivity.
Qed.

Lemma step_one e p p' s : e <> Start_ \/ p_uis p = [] -> one p -> step e p = Some (p', s) -> one p' /\ (e <> Start_ -> length (p_uis p') = length (p_uis p)) /\ length (p_uis p') <= 1.
Proof.
  intros Ne O H. assert (L : length (p_uis p) <= 1) by (destruct O as [(-> & _)|(u & -> & _)]; cbn; lia).
  destruct O as [(U & R & A & G & Hk & Q & M)|(u & U & G & O)].
  - unfold step in H. destruct M as [M|M]; rewrite M in H; [|discriminate]. destruct e; try discriminate;
      try (rewrite U in H; destruct i; discriminate).
    + inversion H; subst. cbn. rewrite U. cbn. split; [|split; [congruence|lia]]. right. eexists. split; [reflexivity|]. cbn. rewrite G. auto 8.
    + inversion H; subst. cbn. rewrite U. cbn. split; [|split; auto]. left. cbn. auto 8.
  - assert (Ns : e <> Start_) by (destruct Ne as [|Ne]; [auto|congruence]).
    destruct (nth_error (p_uis p) 0) as [u0|] eqn:E0; [|rewrite U in E0; discriminate]. rewrite U in E0. injection E0 as <-.
    assert (Oo : one p) by (right; exists u; auto).
    split_step H; try congruence;
      try (inversion H; subst; cbn; rewrite U; cbn; split; [|split; auto]; right; exists u; cbn; split; [auto|]; split; [auto|]; destruct (u_at u); tauto);
      try (destruct (process_copperlist msgs (p_stats p)); [|discriminate]; inversion H; subst; cbn; rewrite U; cbn; split; [|split; auto]; right; exists u; cbn; split; [auto|]; split; [auto|]; exact O);
      rewrite U in H; (destruct i as [|i]; [|destruct i; discriminate]); cbn [nth_error] in H;
      try (destruct (ui_step 0 u p) as [q|] eqn:E; [|discriminate]; inversion H; subst; destruct (ui_step_one u p _ U Oo E) as [X Y]; rewrite Y, U; auto; fail);
      (destruct (u_at u) eqn:Ea; try discriminate; unfold panicking, ui_key in H; rewrite U in H; cbn [upd] in H; destruct O as (O1 & O2 & O3); rewrite ?O1 in H;
       repeat match type of H with context [if ?b then _ else _] => destruct b end; try destruct (u_screen u);
       inversion H; subst; cbn; rewrite ?U; cbn; (split; [|split; auto]); try exact Oo;
       (right; eexists; split; [reflexivity|]); cbn; rewrite ?O1, ?O2, ?O3, ?G, ?O3; auto).
Qed.
Lemma steps_one l : forall p p' s, starts l + length (p_uis p) <= 1 -> one p -> steps l p = Some (p', s) -> one p'.
Proof.
  induction l as [|e l IH]; intros p p' s C O; cbn [steps]; [intros [= <- <-]; auto|].
  destruct (step e p) as [[p1 s1]|] eqn:E1; [|discriminate]. destruct (steps l p1) as [[p2 s2]|] eqn:E2; [|discriminate]. intros [= <- <-].
  assert (De : e = Start_ \/ e <> Start_) by (destruct e; auto; right; discriminate).
  assert (X : e <> Start_ \/ p_uis p = []).
  { destruct De as [->|]; [right|auto]. unfold starts in C. cbn in C. destruct (p_uis p); [auto|cbn in C; lia]. }
  destruct (step_one e p p1 s1 X O E1) as (O1 & L1 & L2). apply (IH p1 _ _) in E2; auto.
  destruct De as [->|De].
  - unfold starts in *. cbn in C. lia.
  - rewrite L1 by auto. unfold starts in *. cbn in C. destruct e; cbn in C; auto; congruence.
Qed.
Lemma new_one n p0 : prog_new n = Ret p0 -> one p0 /\ p_uis p0 = [].
Proof. intros E. destruct (prog_new_tells n) as (p1 & E1 & X & _). rewrite E in E1. injection E1 as <-. rewrite X. split; [left; cbn; auto 8|reflexivity]. Qed.
(** When run is called once, the terminal is as before whenever the console's thread has ended, by
    the key q or by a panic. Missing for C153 as stated: the programs that end before it. *)
Theorem C153_thread_partial : forall n l p0 p s u, prog_new n = Ret p0 -> starts l <= 1 -> steps l p0 = Some (p, s) -> In u (p_uis p) ->
  u_at u = Done \/ u_at u = Dead -> as_before p.
Proof.
  intros n l p0 p s u E C St I D. destruct (new_one _ _ E) as [O U]. assert (O' : one p) by (eapply steps_one; eauto; rewrite U; cbn; lia).
  destruct O' as [(X & _)|(u' & X & _ & O')]; rewrite X in I; [destruct I|]. destruct I as [<-|[]]. unfold as_before. destruct D as [D|D]; rewrite D in O'; tauto.
Qed.
Print Assumptions C153_thread_partial.
Definition going (m : main) : Prop := m = Broken \/ m = Stop1 \/ m = Stop2.
Lemma to_stop l : ~ In Start_ l -> ~ In StopFailed l -> forall p p' s, p_main p = Broken -> steps l p = Some (p', s) -> ~ going (p_main p') ->
  exists l1 l2 p1 s1 s2, l = l1 ++ l2 /\ steps l1 p = Some (p1, s1) /\ steps l2 p1 = Some (p', s2) /\ p_main p1 = Stop1.
Proof.
  induction l as [|e l IH]; intros N1 N2 p p' s M; cbn [steps].
  - intros [= <- <-] X. exfalso. apply X. left. auto.
  - destruct (step e p) as [[p1 s1]|] eqn:E1; [|discriminate]. destruct (steps l p1) as [[p2 s2]|] eqn:E2; [|discriminate]. intros [= <- <-] X.
    assert (M1 : p_main p1 = Broken \/ p_main p1 = Stop1).
    { clear - M E1 N2. unfold step in E1. rewrite M in E1. destruct e; try discriminate; try (inversion E1; subst; cbn; auto; fail); try (exfalso; apply N2; left; auto; fail);
        (destruct (nth_error (p_uis p) i) as [u|]; [|discriminate]);
        try (unfold ui_step, panicking in E1; destruct (u_at u); try discriminate; repeat match type of E1 with context [if ?b then _ else _] => destruct b end; inversion E1; subst; cbn; auto; fail);
        (destruct (u_at u); try discriminate; unfold ui_key, panicking in E1; repeat match type of E1 with context [if ?b then _ else _] => destruct b end; try destruct (u_screen u); inversion E1; subst; cbn; auto). }
    destruct M1 as [M1|M1].
    + destruct (IH ltac:(intros Y; apply N1; right; auto) ltac:(intros Y; apply N2; right; auto) p1 _ _ M1 E2 X) as (l1 & l2 & p3 & t1 & t2 & -> & S1 & S2 & M3).
      exists (e :: l1), l2, p3, (s1 ++ t1), t2. split; [reflexivity|]. cbn [steps]. rewrite E1, S1. auto.
    + exists [e], l, p1, (s1 ++ []), s2. split; [reflexivity|]. cbn [steps]. rewrite E1. auto.
Qed.
Lemma set_up_stays l : ~ In Start_ l -> forall p p' s, Forall set_up (p_uis p) -> steps l p = Some (p', s) -> Forall set_up (p_uis p').
Proof.
  induction l as [|e l IH]; intros Ni p p' s F; cbn [steps]; [intros [= <- <-]; auto|].
  destruct (step e p) as [[p1 s1]|] eqn:E1; [|discriminate]. destruct (steps l p1) as [[p2 s2]|] eqn:E2; [|discriminate]. intros [= <- <-].
  apply (IH ltac:(intros Y; apply Ni; right; auto) p1 _ s2); auto. assert (Ne : e <> Start_) by (intros ->; apply Ni; left; auto). clear - F E1 Ne.
  split_step E1; try congruence; try (inversion E1; subst; cbn; auto; fail);
    try (destruct (process_copperlist msgs (p_stats p)); [|discriminate]; inversion E1; subst; cbn; auto; fail);
    (destruct (nth_error (p_uis p) i) as [u|] eqn:Hu; [|discriminate]); pose proof (proj1 (Forall_forall _ _) F _ (nth_error_In _ _ Hu)) as [Q1 Q2];
    try (unfold ui_step, panicking in E1; destruct (u_at u); try congruence; repeat match type of E1 with context [if ?b then _ else _] => destruct b end; inversion E1; subst; cbn; apply Forall_upd; auto; split; cbn; congruence);
    (destruct (u_at u); try discriminate; unfold ui_key, panicking in E1; repeat match type of E1 with context [if ?b then _ else _] => destruct b end; try destruct (u_screen u); inversion E1; subst; cbn; try apply Forall_upd; auto; split; cbn; congruence).
Qed.
(** When run is called once and ends because q was pressed, and every task could be stopped, the
    terminal is as before when run has returned and when the program has ended. *)
Theorem C153_quit_partial : forall n l1 msgs l2 p0 p1 s1 p s, prog_new n = Ret p0 -> starts (l1 ++ l2) <= 1 -> steps l1 p0 = Some (p1, s1) -> p_quit p1 = true ->
  steps (List_ msgs :: l2) p1 = Some (p, s) -> ~ In StopFailed l2 -> p_main p = Idle \/ p_main p = Ended -> as_before p.
Proof.
  intros n l1 msgs l2 p0 p1 s1 p s E C St Q St2 N M. destruct (new_one _ _ E) as [O U].
  assert (C2 : starts l1 + starts l2 <= 1) by (unfold starts in *; rewrite filter_app, app_length in C; lia).
  assert (O1 : one p1) by (eapply steps_one; eauto; rewrite U; cbn; lia).
  assert (N1 : ~ In Start_ l2).
  { intros I. assert (1 <= starts l2) by (unfold starts; clear - I; induction l2 as [|e l IH]; [destruct I|]; destruct I as [->|I]; cbn; [lia|]; specialize (IH I); destruct e; cbn; lia).
    assert (starts l1 = 0) by lia. assert (X : forall l p p' s, starts l = 0 -> steps l p = Some (p', s) -> one p -> p_uis p = [] -> p_uis p' = []).
    { clear. induction l as [|e l IH]; intros p p' s Z; cbn [steps]; [intros [= <- <-]; auto|]. destruct (step e p) as [[p1 s1]|] eqn:E1; [|discriminate]. destruct (steps l p1) as [[p2 s2]|] eqn:E2; [|discriminate].
      intros [= <- <-] O U. assert (Ne : e <> Start_) by (intros ->; discriminate). destruct (step_one e p p1 s1 (or_introl Ne) O E1) as (O1 & L1 & _). apply (IH p1 _ s2); auto.
      - unfold starts in *. cbn in Z. destruct e; cbn in Z; auto; congruence.
      - specialize (L1 Ne). rewrite U in L1. destruct (p_uis p1); [auto|discriminate]. }
    specialize (X l1 p0 p1 s1 ltac:(auto) St O U). destruct O1 as [(_ & _ & _ & _ & _ & Y & _)|(u & Y & _)]; congruence. }
  assert (F : Forall set_up (p_uis p1)).
  { destruct O1 as [(_ & _ & _ & _ & _ & Y & _)|(u & Y & _ & O1)]; [congruence|]. rewrite Y. constructor; [|constructor]. unfold set_up. destruct (u_at u) eqn:Ea; split; try discriminate; intuition congruence. }
  cbn [steps] in St2. destruct (step (List_ msgs) p1) as [[p2 s2]|] eqn:E2; [|discriminate]. destruct (steps l2 p2) as [[p3 s3]|] eqn:E3; [|discriminate]. injection St2 as <- <-.
  assert (M2 : p_main p2 = Broken /\ p_uis p2 = p_uis p1).
  { unfold step in E2. destruct (p_main p1); try discriminate. destruct (process_copperlist msgs (p_stats p1)); [|discriminate]. inversion E2; subst. cbn. rewrite Q. auto. }
  destruct M2 as [M2 U2]. destruct (to_stop l2 N1 N p2 p3 s3 M2 E3) as (a & b & p4 & t1 & t2 & -> & Sa & Sb & M4).
  { unfold going. destruct M as [-> | ->]; intuition discriminate. }
  eapply C153_stop_partial; [exact M4| | |exact Sb|exact M].
  - eapply set_up_stays; [|rewrite <- U2 in F; exact F|exact Sa]. intros I. apply N1. apply in_or_app; auto.
  - intros I. apply N1. apply in_or_app; auto.
Qed.
Print Assumptions C153_quit_partial.
(** A program whose run ends with an error before the console's thread has got to the terminal
    leaves it in raw mode, on the other screen. *)
Theorem C153_early_refuted : exists p0 p s l, prog_new 1 = Ret p0 /\ starts l = 1 /\ ~ In StopFailed l /\ steps l p0 = Some (p, s) /\ p_main p = Ended /\ p_raw p = true /\ p_alt p = true.
Proof.
  do 3 eexists. exists [Start_; Error_; TasksStopped; Leave_; Unraw_; Step_ 0; Step_ 0; Exit_]. split; [vm_compute; reflexivity|]. split; [reflexivity|].
  split; [intros I; repeat (destruct I as [I|I]; [discriminate|]); destruct I|]. split; [vm_compute; reflexivity|]. repeat split.
Qed.
Print Assumptions C153_early_refuted.
(** So does a program one of whose tasks cannot be stopped, even when the console had been shown
    long before. *)
Theorem C153_failed_stop_refuted : exists p0 p s l u, prog_new 1 = Ret p0 /\ starts l = 1 /\ steps l p0 = Some (p, s) /\ p_main p = Ended /\
  p_uis p = [u] /\ u_shown u = true /\ p_raw p = true /\ p_alt p = true.
Proof.
  do 3 eexists. exists [Start_; Step_ 0; Step_ 0; Step_ 0; Step_ 0; List_ [Metadata (OptionCuTime 1%N) (OptionCuTime 3%N) [79%N]]; Error_; StopFailed; Exit_]. eexists.
  split; [vm_compute; reflexivity|]. split; [reflexivity|]. split; [vm_compute; reflexivity|]. repeat split.
Qed.
Print Assumptions C153_failed_stop_refuted.
Example C153_case : exists p0 p s p', prog_new 1 = Ret p0 /\
  steps [Start_; Step_ 0; Step_ 0; Step_ 0; Step_ 0; Key_ 0 113%N; Step_ 0; Step_ 0] p0 = Some (p, s) /\ p_quit p = true /\ p_raw p = true /\
  steps [List_ [Metadata (OptionCuTime 1%N) (OptionCuTime 3%N) [79%N]]; TasksStopped; Leave_; Step_ 0; Unraw_; Exit_] p = Some (p', [Recorded [Metadata (OptionCuTime 1%N) (OptionCuTime 3%N) [79%N]]; Stopped]) /\
  p_main p' = Ended /\ p_raw p' = false /\ map u_at (p_uis p') = [AtUnraw].
Proof. do 4 eexists. split; [vm_compute; reflexivity|]. split; [vm_compute; reflexivity|]. split; [reflexivity|]. split; [reflexivity|]. split; [vm_compute; reflexivity|]. repeat split. Qed.

(** ** C154 *)
Definition n_shown (l : list ui) : nat := length (filter u_shown l).
Lemma n_shown_upd i u x l : nth_error l i = Some u -> n_shown (upd i x l) + (if u_shown u then 1 else 0) = n_shown l + (if u_shown x then 1 else 0).
Proof.
  revert i. unfold n_shown. induction l as [|y l IH]; intros [|i] H; try discriminate; cbn [upd filter].
  - injection H as ->. destruct (u_shown u), (u_shown x); cbn [length]; lia.
  - specialize (IH i H). destruct (u_shown y); cbn [length]; lia.
Qed.
Lemma ui_step_shown i u p p' : nth_error (p_uis p) i = Some u -> n_shown (p_uis p) = (if p_hooks p then 1 else 0) -> ui_step i u p = Some p' -> n_shown (p_uis p') = (if p_hooks p' then 1 else 0).
Proof.
  intros Hu N H. pose proof (fun x => n_shown_upd i u x (p_uis p) Hu) as X. pose proof (X (Ui AtRaw Neofetch false false)) as X0. cbn [u_shown] in X0.
  unfold ui_step, panicking in H. destruct (u_at u); try discriminate;
    repeat match type of H with context [if p_gag p then Some _ else _] => destruct (p_gag p) | context [if p_hooks p then Some _ else _] => destruct (p_hooks p) eqn:?Eh end;
    injection H as <-; cbn [p_uis p_hooks];
    match goal with |- n_shown (upd _ ?x _) = _ => specialize (X x) end; cbn [u_shown] in X;
    repeat match goal with H : p_hooks p = _ |- _ => rewrite H in * end;
    destruct (u_shown u); destruct (p_hooks p); lia.
Qed.
Lemma ui_key_shown i c u p : nth_error (p_uis p) i = Some u -> n_shown (p_uis (fst (ui_key i c u p))) = n_shown (p_uis p) /\ p_hooks (fst (ui_key i c u p)) = p_hooks p.
Proof.
  intros Hu. pose proof (fun x => n_shown_upd i u x (p_uis p) Hu) as X. unfold ui_key. repeat match goal with |- context [if ?b then _ else _] => destruct b end; try destruct (u_screen u);
    cbn [fst p_uis p_hooks]; (split; [|reflexivity]); try reflexivity; match goal with |- n_shown (upd _ ?x _) = _ => specialize (X x) end; cbn [u_shown] in X; lia.
Qed.
Lemma step_shown e p p' s : n_shown (p_uis p) = (if p_hooks p then 1 else 0) -> step e p = Some (p', s) -> n_shown (p_uis p') = (if p_hooks p' then 1 else 0).
Proof.
  intros N H. split_step H; try (inversion H; subst; cbn; auto; fail);
    try (destruct (process_copperlist msgs (p_stats p)); [|discriminate]; inversion H; subst; cbn; auto; fail);
    try (inversion H; subst; cbn; unfold n_shown in *; rewrite filter_app, app_length; cbn; lia);
    (destruct (nth_error (p_uis p) i) as [u|] eqn:Hu; [|discriminate]);
    try (destruct (ui_step i u p) as [q|] eqn:E; [|discriminate]; injection H as <- <-; eapply ui_step_shown; eauto; fail);
    (destruct (u_at u); try discriminate);
    try (injection H as H; pose proof (ui_key_shown i c u p Hu) as [X Y]; rewrite H in X, Y; cbn [fst] in X, Y; rewrite X, Y; auto; fail);
    injection H as <- <-; unfold panicking; cbn [p_uis p_hooks];
    match goal with |- n_shown (upd _ ?x _) = _ => pose proof (n_shown_upd i u x (p_uis p) Hu) as X end; cbn [u_shown] in X; lia.
Qed.
Lemma steps_shown l : forall p p' s, n_shown (p_uis p) = (if p_hooks p then 1 else 0) -> steps l p = Some (p', s) -> n_shown (p_uis p') = (if p_hooks p' then 1 else 0).
Proof.
  induction l as [|e l IH]; intros p p' s N; cbn [steps]; [intros [= <- <-]; auto|].
  destruct (step e p) as [[p1 s1]|] eqn:E1; [|discriminate]. destruct (steps l p1) as [[p2 s2]|] eqn:E2; [|discriminate]. intros [= <- <-].
  apply (IH p1 p2 s2); [eapply step_shown; eauto|auto].
Qed.
(** Whatever a program does, the screens of one console at most are ever shown, however often run is
    called. *)
Theorem C154_once_partial : forall n l p0 p s, prog_new n = Ret p0 -> steps l p0 = Some (p, s) -> shown_so_far p <= 1.
Proof.
  intros n l p0 p s E St. destruct (new_one _ _ E) as [O U]. pose proof (steps_shown l p0 p s) as X. unfold shown_so_far. fold (n_shown (p_uis p)).
  rewrite X; auto; [destruct (p_hooks p); lia|]. rewrite U. destruct O as [(_ & _ & _ & _ & -> & _)|(u & Y & _)]; [reflexivity|congruence].
Qed.
Print Assumptions C154_once_partial.
Lemma step_quit e p p' s : p_quit p = true -> step e p = Some (p', s) -> p_quit p' = true.
Proof.
  intros Q H. split_step H; try (inversion H; subst; cbn; auto; fail);
    try (destruct (process_copperlist msgs (p_stats p)); [|discriminate]; inversion H; subst; cbn; auto; fail);
    (destruct (nth_error (p_uis p) i) as [u|] eqn:Hu; [|discriminate]);
    try (unfold ui_step, panicking in H; destruct (u_at u); try discriminate; repeat match type of H with context [if ?b then _ else _] => destruct b end; inversion H; subst; cbn; auto; fail);
    (destruct (u_at u); try discriminate; unfold ui_key, panicking in H; repeat match type of H with context [if ?b then _ else _] => destruct b end; try destruct (u_screen u); inversion H; subst; cbn; auto).
Qed.
(** Once q has been pressed and seen, every run ends after its first copper list. *)
Theorem C154_quit_partial : forall l p p' s, p_quit p = true -> steps l p = Some (p', s) ->
  p_quit p' = true /\ forall msgs p'' s', step (List_ msgs) p' = Some (p'', s') -> p_main p' = Looping /\ p_main p'' = Broken.
Proof.
  intros l p p' s Q St. assert (Q' : p_quit p' = true).
  { revert p p' s Q St. induction l as [|e l IH]; intros p p' s Q; cbn [steps]; [intros [= <- <-]; auto|].
    destruct (step e p) as [[p1 s1]|] eqn:E1; [|discriminate]. destruct (steps l p1) as [[p2 s2]|] eqn:E2; [|discriminate]. intros [= <- <-]. eapply IH; [|eauto]. eapply step_quit; eauto. }
  split; [auto|]. intros msgs p'' s' H. unfold step in H. destruct (p_main p') eqn:M; try discriminate. destruct (process_copperlist msgs (p_stats p')); [|discriminate]. inversion H; subst. cbn. rewrite Q'. auto.
Qed.
Print Assumptions C154_quit_partial.
(** A robot stopped with q, started again: its console is not shown and its run ends after one
    copper list. *)
Theorem C154_refuted : exists p0 p s l1 l2 m p', prog_new 1 = Ret p0 /\ steps l1 p0 = Some (p, s) /\ p_main p = Idle /\ map u_at (p_uis p) = [Done] /\ as_before p /\
  steps (Start_ :: l2 ++ [List_ [m]]) p = Some (p', [Recorded [m]]) /\ map u_at (p_uis p') = [Done; Dead] /\ p_main p' = Broken.
Proof.
  do 3 eexists. exists [Start_; Step_ 0; Step_ 0; Step_ 0; Step_ 0; Key_ 0 113%N; Step_ 0; Step_ 0; List_ [Metadata (OptionCuTime 1%N) (OptionCuTime 3%N) [79%N]]; Step_ 0; Step_ 0; TasksStopped; Leave_; Unraw_].
  exists [Step_ 1; Step_ 1; Step_ 1; Step_ 1; Step_ 1; Step_ 1; Step_ 1], (Metadata (OptionCuTime 1%N) (OptionCuTime 3%N) [79%N]). eexists.
  split; [vm_compute; reflexivity|]. split; [vm_compute; reflexivity|]. split; [reflexivity|]. split; [reflexivity|]. split; [split; reflexivity|]. split; [vm_compute; reflexivity|]. split; reflexivity.
Qed.
Print Assumptions C154_refuted.
Example C154_case : exists p0 p s, prog_new 1 = Ret p0 /\ starts [Start_; Error_; TasksStopped; Start_] = 1 + 1 /\
  steps [Start_; Error_; TasksStopped; Leave_; Unraw_; Start_; Step_ 1; Step_ 0; Step_ 1; Step_ 1; Step_ 1; Step_ 0; Step_ 0; Key_ 1 113%N; Step_ 1; Step_ 1] p0 = Some (p, s) /\
  map u_at (p_uis p) = [HookLeave; AtLeave] /\ map u_shown (p_uis p) = [false; true] /\ p_quit p = true.
Proof. do 3 eexists. split; [vm_compute; reflexivity|]. split; [reflexivity|]. split; [vm_compute; reflexivity|]. repeat split. Qed.
