(** C129 to C131: the debug pane of the console. *)
From Coq Require Import String Ascii.
From Coq Require Import List Arith NArith Bool Lia.
From Verif Require Import Base PaneModel.
Import ListNotations.
Open Scope nat_scope.

(** * Specification *)
(** The last [n] elements. *)
Definition last_of {A} (n : nat) (l : list A) : list A := skipn (length l - n) l.
(** A text that is not empty, as an entry. *)
Definition entry (s : text) : list text := match s with [] => [] | _ => [s] end.
(** The entries the pane was given, in order: at each turn what was on stderr, then all that was
    logged since the turn before. *)
Fixpoint arrived (waiting : list text) (l : list action) : list text :=
  match l with
  | [] => []
  | Logged _ Trace _ :: l => arrived waiting l
  | Logged stamp lv args :: l => arrived (waiting ++ [message stamp lv args]) l
  | Turn e1 e2 visible _ _ :: l => entry e1 ++ waiting ++ (if visible then entry e2 else []) ++ arrived [] l
  end.
(** The sizes given by resize events. *)
Definition sizes (l : list action) : list nat :=
  flat_map (fun a => match a with Turn _ _ _ _ (Some rows) => [rows] | _ => [] end) l.
Definition is_turn (a : action) : bool := match a with Turn _ _ _ _ _ => true | _ => false end.
Definition sends (a : action) : bool := match a with Logged _ Trace _ => false | Logged _ _ _ => true | _ => false end.
(** An entry of one line. *)
Definition one_line (e : text) : Prop := exists s, e = s ++ [10%N] /\ ~ In 10%N s.

(** * Proofs *)
Lemma last_all {A} n (l : list A) : length l <= n -> last_of n l = l.
Proof. intros H. unfold last_of. replace (length l - n) with 0 by lia. reflexivity. Qed.
Lemma last_length {A} n (l : list A) : length (last_of n l) = Nat.min n (length l).
Proof. unfold last_of. rewrite skipn_length. lia. Qed.
Lemma last_suffix {A} n (l : list A) : exists b, l = b ++ last_of n l.
Proof. exists (firstn (length l - n) l). unfold last_of. symmetry. apply firstn_skipn. Qed.
Lemma last_more {A} n (l m : list A) : n <= length m -> last_of n (l ++ m) = last_of n m.
Proof. intros H. unfold last_of. rewrite app_length, skipn_app, skipn_all2 by lia. cbn. f_equal. lia. Qed.
Lemma last_last {A} n (l m : list A) : last_of n (last_of n l ++ m) = last_of n (l ++ m).
Proof.
  destruct (Nat.le_gt_cases (length l) n) as [H|H]; [rewrite (last_all n l H); reflexivity|]. destruct (last_suffix n l) as (b & E). rewrite E at 2.
  rewrite <- app_assoc. symmetry. apply last_more. rewrite app_length, last_length. lia.
Qed.
Lemma trim_last n l : trim n l = last_of n l.
Proof.
  induction l as [|x l IH]; [reflexivity|]. change (trim n (x :: l)) with (if Nat.ltb n (length (x :: l)) then trim n l else x :: l).
  destruct (Nat.ltb_spec n (length (x :: l))) as [H|H]; [|symmetry; apply last_all, H]. rewrite IH. unfold last_of. cbn [length] in *.
  replace (S (length l) - n) with (S (length l - n)) by lia. reflexivity.
Qed.
Lemma take_last n l x : x <> [] -> length l <= n -> take n l x = last_of n (l ++ [x]).
Proof.
  intros Hx H. unfold take. destruct x; [congruence|]. cbv zeta. match goal with |- context [Nat.ltb ?a ?b] => destruct (Nat.ltb_spec a b) as [K|K] end; [|symmetry; apply last_all, K].
  rewrite app_length in K. cbn [length] in K. unfold last_of. rewrite app_length. cbn [length]. replace (length l + 1 - n) with 1 by lia. destruct l; reflexivity.
Qed.
Lemma take_suffix n l x : exists b, l ++ entry x = b ++ take n l x.
Proof.
  unfold take, entry. destruct x as [|c x]; [exists []; rewrite app_nil_r; reflexivity|]. cbv zeta. destruct (Nat.ltb n _); [|exists []; reflexivity].
  destruct l as [|y l]; [exists [c :: x]; reflexivity|exists [y]; reflexivity].
Qed.
Lemma take_length n l x : length (take n l x) <= Nat.max n (length l).
Proof.
  unfold take. destruct x as [|c x]; [lia|]. cbv zeta. match goal with |- context [Nat.ltb ?a ?b] => destruct (Nat.ltb_spec a b) as [K|K] end; [|lia].
  rewrite app_length in *. destruct l as [|y l]; cbn in *; [lia|]. rewrite app_length. cbn. lia.
Qed.
Lemma takes_suffix n q : forall l, Forall (fun x => x <> []) q -> exists b, l ++ q = b ++ fold_left (take n) q l.
Proof.
  induction q as [|x q IH]; intros l H; cbn [fold_left]; [exists []; apply app_nil_r|]. apply Forall_cons_iff in H. destruct H as [Hx H].
  destruct (IH (take n l x) H) as (b & E). destruct (take_suffix n l x) as (b' & E'). exists (b' ++ b). rewrite <- app_assoc, <- E.
  transitivity ((l ++ entry x) ++ q); [destruct x; [congruence|]; rewrite <- app_assoc; reflexivity|]. etransitivity; [apply (f_equal (fun z : list text => z ++ q) E')|]. rewrite <- app_assoc. reflexivity.
Qed.
Lemma takes_length n q : forall l, length (fold_left (take n) q l) <= Nat.max n (length l).
Proof. induction q as [|x q IH]; intros l; cbn [fold_left]; [lia|]. specialize (IH (take n l x)). assert (K := take_length n l x). lia. Qed.
Lemma takes_last n q : forall l, Forall (fun x => x <> []) q -> length l <= n -> fold_left (take n) q l = last_of n (l ++ q).
Proof.
  induction q as [|x q IH]; intros l H L; cbn [fold_left]; [rewrite app_nil_r; symmetry; apply last_all, L|]. apply Forall_cons_iff in H. destruct H as [Hx H].
  rewrite take_last by auto. rewrite IH; [|exact H|rewrite last_length; lia]. rewrite last_last, <- app_assoc. reflexivity.
Qed.
Lemma push_last s p : length (p_log p) <= p_max p -> p_log (push_logs s p) = last_of (p_max p) (p_log p ++ entry s).
Proof. intros H. unfold push_logs, entry. destruct s; cbn [p_log]; [rewrite app_nil_r; symmetry; apply last_all, H|apply trim_last]. Qed.
Lemma push_suffix s p : exists b, p_log p ++ entry s = b ++ p_log (push_logs s p).
Proof. unfold push_logs, entry. destruct s; cbn [p_log]; [exists []; apply app_nil_r|]. rewrite trim_last. apply last_suffix. Qed.
Lemma push_length s p : length (p_log (push_logs s p)) <= Nat.max (p_max p) (length (p_log p)).
Proof. unfold push_logs. destruct s; cbn [p_log]; [lia|]. rewrite trim_last, last_length. lia. Qed.
Lemma push_rest s p : p_max (push_logs s p) = p_max p /\ p_queue (push_logs s p) = p_queue p.
Proof. destruct s; split; reflexivity. Qed.

(** A turn. *)
Definition ready (p : pane) : Prop := Forall (fun x => x <> []) (p_queue p).
Definition after (e1 e2 : text) (v : bool) (p : pane) : pane :=
  let p := update_logs (push_logs e1 p) in if v then push_logs e2 p else p.
Definition given (e1 e2 : text) (v : bool) (p : pane) : list text := entry e1 ++ p_queue p ++ (if v then entry e2 else []).
Lemma after_rest e1 e2 v p : p_max (after e1 e2 v p) = p_max p /\ p_queue (after e1 e2 v p) = [].
Proof. destruct e1, v, e2; split; reflexivity. Qed.
Lemma after_suffix e1 e2 v p : ready p -> exists b, p_log p ++ given e1 e2 v p = b ++ p_log (after e1 e2 v p).
Proof.
  intros R. destruct (push_suffix e1 p) as (b1 & E1). set (p1 := push_logs e1 p) in *. destruct (push_rest e1 p) as [M Q]. fold p1 in M, Q.
  destruct (takes_suffix (p_max p1) (p_queue p1) (p_log p1)) as (b2 & E2); [rewrite Q; exact R|]. unfold after, given. fold p1. cbv zeta.
  assert (U : exists b, p_log p ++ entry e1 ++ p_queue p = b ++ p_log (update_logs p1)). { exists (b1 ++ b2). cbn [update_logs p_log]. rewrite <- app_assoc, <- E2, Q, !app_assoc, E1. reflexivity. }
  destruct U as (b & E). destruct v; [|exists b; rewrite app_nil_r; exact E]. destruct (push_suffix e2 (update_logs p1)) as (b3 & E3). exists (b ++ b3).
  rewrite <- app_assoc, <- E3, !app_assoc, <- E, !app_assoc. reflexivity.
Qed.
Lemma after_length e1 e2 v p : length (p_log (after e1 e2 v p)) <= Nat.max (p_max p) (length (p_log p)).
Proof.
  unfold after. cbv zeta. assert (A := push_length e1 p). destruct (push_rest e1 p) as [M Q]. set (p1 := push_logs e1 p) in *.
  assert (B := takes_length (p_max p1) (p_queue p1) (p_log p1)). change (length (p_log (update_logs p1)) <= Nat.max (p_max p1) (length (p_log p1))) in B.
  destruct v; [|lia]. assert (C := push_length e2 (update_logs p1)). change (p_max (update_logs p1)) with (p_max p1) in C. lia.
Qed.
Lemma after_last e1 e2 v p : ready p -> length (p_log p) <= p_max p -> p_log (after e1 e2 v p) = last_of (p_max p) (p_log p ++ given e1 e2 v p).
Proof.
  intros R L. unfold after, given. cbv zeta. assert (A := push_last e1 p L). destruct (push_rest e1 p) as [M Q]. set (p1 := push_logs e1 p) in *.
  assert (B : p_log (update_logs p1) = last_of (p_max p) (p_log p ++ entry e1 ++ p_queue p)).
  { cbn [update_logs p_log]. rewrite takes_last; [|rewrite Q; exact R|rewrite A, last_length, M; lia]. rewrite M, A, Q, last_last, <- app_assoc. reflexivity. }
  destruct v; [|rewrite app_nil_r; exact B]. rewrite push_last; [|rewrite B, last_length; change (p_max (update_logs p1)) with (p_max p1); lia].
  change (p_max (update_logs p1)) with (p_max p1). rewrite M, B, last_last, <- !app_assoc. reflexivity.
Qed.
Lemma message_some stamp l args : message stamp l args <> [].
Proof. unfold message. destruct stamp; discriminate. Qed.

(** A step, in terms of the above. *)
Inductive stepped (p : pane) : action -> pane -> option (list text) -> Prop :=
| st_trace stamp args : stepped p (Logged stamp Trace args) p None
| st_log stamp l args : l <> Trace -> length (p_queue p) < 1000 -> stepped p (Logged stamp l args) (Pane (p_log p) (p_max p) (p_queue p ++ [message stamp l args])) None
| st_turn e1 e2 v h rz : stepped p (Turn e1 e2 v h rz) (Pane (p_log (after e1 e2 v p)) (match rz with Some r => r | None => p_max p end) [])
    (if v then Some (shown h (after e1 e2 v p)) else None).
Lemma act_step a p p' s : act a p = Some (p', s) -> stepped p a p' s.
Proof.
  destruct a as [stamp l args|e1 e2 v h rz]; cbn [act].
  - unfold log. destruct (Nat.ltb_spec (length (p_queue p)) 1000) as [Q|Q]; destruct l; cbn [enabled]; intros E; try discriminate; injection E as <- <-; constructor; congruence.
  - intros [= <- <-]. assert (X := st_turn p e1 e2 v h rz). destruct (after_rest e1 e2 v p) as [M Q]. unfold after in *. cbv zeta in *.
    replace (match rz with Some r => r | None => p_max p end) with (match rz with Some r => r | None => p_max (if v then push_logs e2 (update_logs (push_logs e1 p)) else update_logs (push_logs e1 p)) end) in X by (destruct rz; auto).
    rewrite Q. exact X.
Qed.
Lemma step_ready a p p' s : stepped p a p' s -> ready p -> ready p'.
Proof. intros H R. destruct H; auto; unfold ready in *; cbn [p_queue]; [apply Forall_app; split; auto using message_some|constructor]. Qed.
(** What arrives: in the queue before, or given by this turn. *)
Lemma step_arrived a p p' s l : stepped p a p' s ->
  arrived (p_queue p) (a :: l) = (match a with Turn e1 e2 v _ _ => given e1 e2 v p | _ => [] end) ++ arrived (p_queue p') l.
Proof.
  intros H. destruct H as [stamp args|stamp lv args Hl Q|e1 e2 v h rz]; [reflexivity| |].
  - destruct lv; try reflexivity; congruence.
  - cbn [p_queue arrived]. unfold given. rewrite <- !app_assoc. reflexivity.
Qed.
Lemma run_cons a l p p2 ss : run (a :: l) p = Some (p2, ss) -> exists p1 s ss', stepped p a p1 s /\ run l p1 = Some (p2, ss') /\ ss = s :: ss'.
Proof. cbn [run]. destruct (act a p) as [[p1 s]|] eqn:A; [|discriminate]. destruct (run l p1) as [[p3 ss']|] eqn:R; [|discriminate]. intros [= <- <-]. exists p1, s, ss'. split; [apply act_step, A|auto]. Qed.
Lemma run_app l m : forall p p2 ss, run (l ++ m) p = Some (p2, ss) -> exists p1 s1 s2, run l p = Some (p1, s1) /\ run m p1 = Some (p2, s2) /\ ss = s1 ++ s2.
Proof.
  induction l as [|a l IH]; intros p p2 ss; [intros H; exists p, [], ss; auto|]. cbn [app run]. destruct (act a p) as [[p1 s]|]; [|discriminate].
  destruct (run (l ++ m) p1) as [[p3 ss']|] eqn:R; [|discriminate]. intros [= <- <-]. destruct (IH _ _ _ R) as (q & s1 & s2 & E1 & E2 & ->). rewrite E1. exists q, (s :: s1), s2. auto.
Qed.
Lemma run_ready l : forall p p2 ss, run l p = Some (p2, ss) -> ready p -> ready p2.
Proof. induction l as [|a l IH]; intros p p2 ss H R; [injection H as <- <-; exact R|]. destruct (run_cons _ _ _ _ _ H) as (p1 & s & ss' & S & R1 & _). eauto using step_ready. Qed.
Lemma run_suffix l : forall p p2 ss, run l p = Some (p2, ss) -> ready p -> exists b, p_log p ++ arrived (p_queue p) l = b ++ p_log p2.
Proof.
  induction l as [|a l IH]; intros p p2 ss H R; [injection H as <- <-; exists []; apply app_nil_r|]. destruct (run_cons _ _ _ _ _ H) as (p1 & s & ss' & S & R1 & _).
  destruct (IH _ _ _ R1 (step_ready _ _ _ _ S R)) as (b & E). rewrite (step_arrived _ _ _ _ l S). destruct S as [| |e1 e2 v h rz]; [exists b; exact E|exists b; exact E|].
  destruct (after_suffix e1 e2 v p R) as (b' & E'). exists (b' ++ b). rewrite app_assoc, E', <- !app_assoc. f_equal. exact E.
Qed.
Lemma run_max l : forall p p2 ss, run l p = Some (p2, ss) -> sizes l = [] -> p_max p2 = p_max p.
Proof.
  induction l as [|a l IH]; intros p p2 ss H Z; [injection H as <- <-; reflexivity|]. destruct (run_cons _ _ _ _ _ H) as (p1 & s & ss' & S & R1 & _).
  assert (Z2 : sizes l = []) by (unfold sizes in *; cbn [flat_map] in Z; apply app_eq_nil in Z; tauto). rewrite (IH _ _ _ R1 Z2). destruct S as [| |e1 e2 v h [r|]]; try reflexivity. discriminate.
Qed.
Lemma run_last l : forall p p2 ss, run l p = Some (p2, ss) -> ready p -> sizes l = [] -> length (p_log p) <= p_max p ->
  p_log p2 = last_of (p_max p) (p_log p ++ arrived (p_queue p) l).
Proof.
  induction l as [|a l IH]; intros p p2 ss H R Z L; [injection H as <- <-; cbn [arrived]; rewrite app_nil_r; symmetry; apply last_all, L|].
  destruct (run_cons _ _ _ _ _ H) as (p1 & s & ss' & S & R1 & _). assert (Z2 : sizes l = []) by (unfold sizes in *; cbn [flat_map] in Z; apply app_eq_nil in Z; tauto).
  rewrite (step_arrived _ _ _ _ l S). assert (Rd := step_ready _ _ _ _ S R). destruct S as [| |e1 e2 v h [r|]]; [exact (IH _ _ _ R1 Rd Z2 L)|exact (IH _ _ _ R1 Rd Z2 L)|discriminate|].
  assert (A := after_last e1 e2 v p R L). assert (L2 : length (p_log (after e1 e2 v p)) <= p_max p) by (rewrite A, last_length; lia).
  rewrite (IH _ _ _ R1 Rd Z2 L2). cbn [p_log p_max p_queue]. rewrite A, last_last, <- app_assoc. reflexivity.
Qed.
Lemma run_bound l : forall p p2 ss b, run l p = Some (p2, ss) -> Forall (fun r => r <= b) (sizes l) -> length (p_log p) <= b -> p_max p <= b -> length (p_log p2) <= b /\ p_max p2 <= b.
Proof.
  induction l as [|a l IH]; intros p p2 ss b H Z L M; [injection H as <- <-; auto|]. destruct (run_cons _ _ _ _ _ H) as (p1 & s & ss' & S & R1 & _).
  unfold sizes in *. cbn [flat_map] in Z. apply Forall_app in Z. destruct Z as [Z1 Z2]. apply (IH _ _ _ b R1 Z2); destruct S as [| |e1 e2 v h rz]; auto; cbn [p_log p_max].
  - assert (A := after_length e1 e2 v p). lia.
  - destruct rz; [|exact M]. apply Forall_inv in Z1. exact Z1.
Qed.

(** Lines. *)
Lemma lines_one s : ~ In 10%N s -> forall cur r, lines_from cur (s ++ 10%N :: r) = (cur ++ s) :: lines_from [] r.
Proof.
  induction s as [|c s IH]; intros N cur r; cbn [app lines_from]; [rewrite app_nil_r; reflexivity|]. destruct (N.eqb_spec c 10) as [->|]; [elim N; left; reflexivity|].
  rewrite IH by (intros K; apply N; right; exact K). rewrite <- app_assoc. reflexivity.
Qed.
Lemma lines_entries l : Forall one_line l -> lines (concat l) = map (@removelast N) l.
Proof.
  unfold lines. induction 1 as [|e l (s & -> & N) H IH]; [reflexivity|]. cbn [concat map]. rewrite <- app_assoc. cbn [app]. rewrite lines_one by exact N. rewrite IH. f_equal.
  cbn [app]. rewrite removelast_last. reflexivity.
Qed.
Lemma Forall_suffix {A} (P : A -> Prop) (b l : list A) : Forall P (b ++ l) -> Forall P l.
Proof. intros H. apply Forall_app in H. tauto. Qed.
Lemma last_forall {A} (P : A -> Prop) n l : Forall P l -> Forall P (last_of n l).
Proof. intros H. destruct (last_suffix n l) as (b & E). rewrite E in H. exact (Forall_suffix _ _ _ H). Qed.
Lemma arrived_app l : forall m w, exists k, arrived w (l ++ m) = arrived w l ++ k /\ (forall p p1 s, w = p_queue p -> run l p = Some (p1, s) -> k = arrived (p_queue p1) m).
Proof.
  induction l as [|a l IH]; intros m w.
  - exists (arrived w m). split; [reflexivity|]. intros p p1 s -> [= <- <-]. reflexivity.
  - destruct a as [stamp lv args|e1 e2 v h rz]; cbn [app arrived].
    + set (w' := w ++ [message stamp lv args]). destruct (IH m (match lv with Trace => w | _ => w' end)) as (k & E & K). exists k. split; [destruct lv; exact E|].
      intros p p1 s Hw H. destruct (run_cons _ _ _ _ _ H) as (p2 & s2 & ss' & S & R1 & _). refine (K p2 p1 ss' _ R1). inversion S; subst; [reflexivity|destruct lv; try reflexivity; congruence].
    + destruct (IH m []) as (k & E & K). exists k. split; [rewrite E, <- !app_assoc; reflexivity|].
      intros p p1 s Hw H. destruct (run_cons _ _ _ _ _ H) as (p2 & s2 & ss' & S & R1 & _). refine (K p2 p1 ss' _ R1). inversion S; subst; reflexivity.
Qed.
Lemma arrived_run l m p p1 s : run l p = Some (p1, s) -> arrived (p_queue p) (l ++ m) = arrived (p_queue p) l ++ arrived (p_queue p1) m.
Proof. intros H. destruct (arrived_app l m (p_queue p)) as (k & E & K). rewrite E. f_equal. exact (K _ _ _ eq_refl H). Qed.

Lemma last_app1 {A} (l : list A) x d : last (l ++ [x]) d = x.
Proof. apply List.last_last. Qed.
Lemma turn_screen e1 e2 h rz p p2 s : run [Turn e1 e2 true h rz] p = Some (p2, s) -> ready p -> length (p_log p) <= p_max p ->
  s = [Some (shown h (after e1 e2 true p))] /\ p_log (after e1 e2 true p) = last_of (p_max p) (p_log p ++ arrived (p_queue p) [Turn e1 e2 true h rz]).
Proof.
  intros H R L. destruct (run_cons _ _ _ _ _ H) as (p1 & s1 & ss' & S & R3 & ->). injection R3 as _ <-. inversion S; subst. split; [reflexivity|].
  rewrite (after_last e1 e2 true p R L). unfold given. cbn [arrived]. rewrite app_nil_r. reflexivity.
Qed.
Lemma shown_lines h p l : p_log p = l -> Forall one_line l -> shown h p = firstn (inside h) (map (@removelast N) l).
Proof. intros <- F. unfold shown. rewrite lines_entries by exact F. reflexivity. Qed.

(** * C129 *)
(** What the pane holds is the end of what it was given: nothing is reordered, changed or dropped
    from the middle. *)
Theorem C129_newest : forall rows l p ss, run l (pane_new rows) = Some (p, ss) -> exists gone, arrived [] l = gone ++ p_log p.
Proof. intros rows l p ss H. assert (R : ready (pane_new rows)) by constructor. exact (run_suffix l _ _ _ H R). Qed.
Print Assumptions C129_newest.
(** Never more than the largest number of rows so far; and exactly the last ones as long as there
    is no resize. *)
Theorem C129_limit_partial : forall rows l p ss, run l (pane_new rows) = Some (p, ss) ->
  length (p_log p) <= list_max (rows :: sizes l) /\ (sizes l = [] -> p_log p = last_of rows (arrived [] l)).
Proof.
  intros rows l p ss H. split.
  - assert (F : Forall (fun r => r <= list_max (rows :: sizes l)) (rows :: sizes l)) by (apply list_max_le; lia). apply Forall_cons_iff in F. destruct F as [F1 F2].
    apply (run_bound l _ _ _ (list_max (rows :: sizes l)) H F2); [cbn; lia|exact F1].
  - intros Z. assert (R : ready (pane_new rows)) by constructor. exact (run_last l _ _ _ H R Z (Nat.le_0_l _)).
Qed.
Print Assumptions C129_limit_partial.
Definition say (c : N) : action := Logged [49%N] Info [c].
Definition quiet_turn : action := Turn [] [] true 9 None.
(** The natural claim, that the pane never holds more entries than the terminal has rows, fails
    after the terminal is made smaller: each new entry removes one, and the excess stays. *)
Theorem C129_refuted : exists l p ss, run l (pane_new 4) = Some (p, ss) /\ p_max p = 2 /\ length (p_log p) = 4 /\ length (arrived [] l) = 7.
Proof. exists [say 1; say 2; say 3; say 4; Turn [] [] true 9 (Some 2); say 5; say 6; say 7; quiet_turn]. do 2 eexists. split; [vm_compute; reflexivity|]. vm_compute. auto. Qed.
Print Assumptions C129_refuted.
(** What a record gives: its time, its level by name, its text. *)
Definition level_name (l : level) : string :=
  match l with Error => "ERROR" | Warn => "WARN" | Info => "INFO" | Debug => "DEBUG" | Trace => "TRACE" end%string.
Definition codes (s : string) : text := map N_of_ascii (list_ascii_of_string s).
Theorem C129_text : forall rows stamp l args v h, l <> Trace -> exists p ss, run [Logged stamp l args; Turn [] [] v h None] (pane_new rows) = Some (p, ss) /\
  (0 < rows -> p_log p = [stamp ++ codes " [" ++ codes (level_name l) ++ codes "] - " ++ args ++ [10%N]]).
Proof.
  intros rows stamp l args v h Hl. destruct (run [Logged stamp l args; Turn [] [] v h None] (pane_new rows)) as [[p ss]|] eqn:R.
  - exists p, ss. split; [reflexivity|]. intros Hr. pose proof (run_last _ _ _ _ R ltac:(constructor) eq_refl ltac:(cbn; lia)) as E. rewrite E. change (p_log (pane_new rows)) with (@nil text). change (p_queue (pane_new rows)) with (@nil text). cbn [app].
    assert (A : arrived [] [Logged stamp l args; Turn [] [] v h None] = [message stamp l args]) by (destruct l, v; try reflexivity; congruence).
    rewrite A. rewrite last_all by (cbn; lia). f_equal. unfold message. destruct l; reflexivity.
  - exfalso. destruct l, v; try (cbn in R; discriminate R); congruence.
Qed.
Print Assumptions C129_text.
Example C129_text_case : exists p ss, run [Logged [49%N] Warn [120%N]; Turn [] [] true 9 None] (pane_new 4) = Some (p, ss) /\ p_log p = [codes "1 [WARN] - x" ++ [10%N]] /\ ss = [None; Some [codes "1 [WARN] - x"]].
Proof. eexists. eexists. split; [vm_compute; reflexivity|]. split; vm_compute; reflexivity. Qed.
Example C129_case : exists p ss, run [say 1; say 2; say 3; Logged [49%N] Trace [9%N]; say 4; quiet_turn; say 5; say 6; Turn [33%N] [] false 9 None] (pane_new 4) = Some (p, ss) /\
  p_log p = [message [49%N] Info [4%N]; [33%N]; message [49%N] Info [5%N]; message [49%N] Info [6%N]].
Proof. do 2 eexists. vm_compute. split; reflexivity. Qed.

(** * C130 *)
(** As long as the terminal keeps its size and the entries are lines, the screen shows the newest
    entries that fit, up to the very last. *)
Theorem C130_partial : forall height p0 l e1 e2 rz p ss,
  start height = Ret p0 -> sizes l = [] -> Forall one_line (arrived [] (l ++ [Turn e1 e2 true height rz])) ->
  run (l ++ [Turn e1 e2 true height rz]) p0 = Some (p, ss) ->
  last ss None = Some (map (@removelast N) (last_of (height - 5) (arrived [] (l ++ [Turn e1 e2 true height rz])))).
Proof.
  intros height p0 l e1 e2 rz p ss H0 Z F H. unfold start in H0. destruct (Nat.ltb_spec height 5) as [|H5]; [discriminate|]. injection H0 as <-.
  destruct (run_app _ _ _ _ _ H) as (p1 & s1 & s2 & R1 & R2 & ->). assert (R : ready (pane_new (height - 5))) by constructor.
  assert (A := arrived_run l [Turn e1 e2 true height rz] _ _ _ R1). change (p_queue (pane_new (height - 5))) with (@nil text) in A. rewrite A in *.
  assert (L := run_last l _ _ _ R1 R Z (Nat.le_0_l _)). cbn [pane_new p_log p_max p_queue app] in L. assert (M := run_max l _ _ _ R1 Z). cbn in M.
  destruct (turn_screen e1 e2 height rz p1 p s2 R2 (run_ready _ _ _ _ R1 R)) as [-> B]; [rewrite L, last_length; lia|]. rewrite last_app1. f_equal.
  rewrite M, L, last_last in B. rewrite (shown_lines _ _ _ B) by apply last_forall, F. apply firstn_all2. rewrite map_length, last_length. unfold inside. lia.
Qed.
Print Assumptions C130_partial.
Lemma run_turn e1 e2 v h r p p2 s : run [Turn e1 e2 v h (Some r)] p = Some (p2, s) -> p2 = Pane (p_log (after e1 e2 v p)) r [].
Proof. intros H. destruct (run_cons _ _ _ _ _ H) as (p1 & s1 & ss' & S & R3 & ->). injection R3 as <- _. inversion S; subst. reflexivity. Qed.
(** After the terminal was made larger, or was reported with the same size, the screen never shows
    the newest five of as many lines as the terminal has. *)
Theorem C130_hidden_partial : forall rows l1 e1 e2 v h r l2 f1 f2 rz p ss,
  rows <= r -> Forall (fun x => x <= r) (sizes l1) -> sizes l2 = [] ->
  let resized := l1 ++ [Turn e1 e2 v h (Some r)] in let end_ := l2 ++ [Turn f1 f2 true r rz] in
  Forall one_line (arrived [] (resized ++ end_)) -> r <= length (arrived [] end_) ->
  run (resized ++ end_) (pane_new rows) = Some (p, ss) ->
  last ss None = Some (map (@removelast N) (firstn (r - 5) (last_of r (arrived [] (resized ++ end_))))).
Proof.
  intros rows l1 e1 e2 v h r l2 f1 f2 rz p ss Hr Z1 Z2 resized end_ F N H.
  destruct (run_app _ _ _ _ _ H) as (p1 & s1 & s2 & R1 & R2 & ->). unfold resized in R1. destruct (run_app _ _ _ _ _ R1) as (p0 & s0 & s01 & R0 & R01 & E01).
  assert (Rd0 : ready (pane_new rows)) by constructor. assert (Rd := run_ready _ _ _ _ R0 Rd0). assert (Rd1 := run_ready _ _ _ _ R1 Rd0).
  destruct (run_bound l1 _ _ _ r R0 Z1 (Nat.le_0_l _) Hr) as [B1 B2]. assert (P1 := run_turn _ _ _ _ _ _ _ _ R01).
  assert (L1 : length (p_log p1) <= r) by (rewrite P1; cbn [p_log]; assert (A := after_length e1 e2 v p0); lia).
  assert (M1 : p_max p1 = r) by (rewrite P1; reflexivity). assert (Q1 : p_queue p1 = []) by (rewrite P1; reflexivity).
  assert (A := arrived_run resized end_ _ _ _ R1). change (p_queue (pane_new rows)) with (@nil text) in A. rewrite Q1 in A. rewrite A in F |- *. rewrite last_more by exact N.
  apply Forall_suffix in F. unfold end_ in R2. destruct (run_app _ _ _ _ _ R2) as (p2 & s3 & s4 & R3 & R4 & ->).
  assert (L2 := run_last l2 _ _ _ R3 Rd1 Z2). rewrite M1, Q1 in L2. specialize (L2 L1). assert (M2 := run_max l2 _ _ _ R3 Z2). rewrite M1 in M2.
  destruct (turn_screen f1 f2 r rz p2 p s4 R4 (run_ready _ _ _ _ R3 Rd1)) as [-> B]; [rewrite L2, last_length, M2; lia|].
  rewrite app_assoc, last_app1. f_equal. rewrite M2, L2, last_last, <- app_assoc in B. assert (A2 := arrived_run l2 [Turn f1 f2 true r rz] _ _ _ R3). rewrite Q1 in A2. rewrite <- A2 in B. fold end_ in B. rewrite last_more in B by exact N.
  rewrite (shown_lines _ _ _ B) by apply last_forall, F. rewrite firstn_map. f_equal. f_equal. unfold inside. lia.
Qed.
Print Assumptions C130_hidden_partial.
Definition says (l : list N) : list action := map say l.
(** The natural claim fails: after an event that the terminal still has nine rows, the last entry
    of nine is not on the screen, at no later turn without news either. *)
Theorem C130_refuted : exists p0 p ss, start 9 = Ret p0 /\
  run ([Turn [] [] true 9 (Some 9)] ++ says [1; 2; 3; 4; 5; 6; 7; 8; 11]%N ++ [quiet_turn; quiet_turn]) p0 = Some (p, ss) /\
  last (p_log p) [] = message [49%N] Info [11%N] /\
  last ss None = Some (map (fun c => [49; 32; 91; 73; 78; 70; 79; 93; 32; 45; 32; c])%N [1; 2; 3; 4]%N).
Proof. do 3 eexists. split; [vm_compute; reflexivity|]. split; [vm_compute; reflexivity|]. vm_compute. auto. Qed.
Print Assumptions C130_refuted.
Example C130_case : exists p0 p ss, start 9 = Ret p0 /\ sizes (says [1; 2; 3; 4; 5]%N) = [] /\
  Forall one_line (arrived [] (says [1; 2; 3; 4; 5]%N ++ [Turn [] [33; 10]%N true 9 None])) /\
  run (says [1; 2; 3; 4; 5]%N ++ [Turn [] [33; 10]%N true 9 None]) p0 = Some (p, ss) /\
  last ss None = Some (map (fun c => [49; 32; 91; 73; 78; 70; 79; 93; 32; 45; 32; c])%N [3; 4; 5]%N ++ [[33%N]]).
Proof.
  do 3 eexists. split; [reflexivity|]. split; [reflexivity|]. split; [|split; [vm_compute; reflexivity|reflexivity]].
  repeat (constructor; [match goal with |- one_line ?e => let e := eval vm_compute in e in exists (removelast e); split; [reflexivity|vm_compute; intuition congruence] end|]). constructor.
Qed.
(** A text without a newline at its end, as an error still being written, is shown too, as a last line. *)
Theorem C130_open_partial : forall p l s h, p_log p = l ++ [s] -> Forall one_line l -> s <> [] -> ~ In 10%N s -> length l < inside h ->
  shown h p = map (@removelast N) l ++ [s].
Proof.
  intros p l s h E F Hs Nl L. unfold shown. rewrite E, concat_app. cbn [concat]. rewrite app_nil_r.
  assert (T : lines s = [s]).
  { unfold lines. assert (G : forall s cur, ~ In 10%N s -> cur ++ s <> [] -> lines_from cur s = [cur ++ s]).
    { clear. induction s as [|c s IH]; intros cur N H; cbn [lines_from]; [rewrite app_nil_r in H; rewrite app_nil_r; destruct cur; [elim H|]; reflexivity|].
      destruct (N.eqb_spec c 10) as [->|]; [elim N; left; reflexivity|]. rewrite IH; [rewrite <- app_assoc; reflexivity|intros K; apply N; right; exact K|rewrite <- app_assoc; exact H]. }
    apply (G s []); assumption. }
  assert (X : lines (concat l ++ s) = map (@removelast N) l ++ [s]).
  { rewrite <- T. clear - F. unfold lines. induction F as [|e l (r & -> & N) H IH]; [reflexivity|]. cbn [concat map app]. rewrite <- !app_assoc. cbn [app]. rewrite lines_one by exact N. rewrite IH. f_equal.
    cbn [app]. rewrite removelast_last. reflexivity. }
  rewrite X. apply firstn_all2. rewrite app_length, map_length. cbn [Datatypes.length]. rewrite Nat.add_1_r. exact L.
Qed.
Print Assumptions C130_open_partial.
Example C130_open_case : exists p ss, run [say 1; Turn [] [33%N; 34%N] true 9 None] (pane_new 4) = Some (p, ss) /\ p_log p = [message [49%N] Info [1%N]] ++ [[33%N; 34%N]] /\
  one_line (message [49%N] Info [1%N]) /\ 1 < inside 9.
Proof.
  eexists. eexists. split; [vm_compute; reflexivity|]. split; [vm_compute; reflexivity|]. split; [|vm_compute; auto].
  exists (removelast (message [49%N] Info [1%N])). split; [vm_compute; reflexivity|]. vm_compute. intuition discriminate.
Qed.
Example C130_hidden_case : exists p ss, let acts := ([] ++ [Turn [] [] true 9 (Some 6)]) ++ says [1; 2; 3; 4; 5; 6]%N ++ [Turn [] [] true 6 None] in
  4 <= 6 /\ Forall one_line (arrived [] acts) /\ 6 <= length (arrived [] (says [1; 2; 3; 4; 5; 6]%N ++ [Turn [] [] true 6 None])) /\ run acts (pane_new 4) = Some (p, ss).
Proof.
  do 2 eexists. cbv zeta. split; [lia|]. split; [|split; [vm_compute; lia|vm_compute; reflexivity]].
  repeat (constructor; [match goal with |- one_line ?e => let e := eval vm_compute in e in exists (removelast e); split; [reflexivity|vm_compute; intuition congruence] end|]). constructor.
Qed.

(** * C131 *)
(** A call that logs waits for the console exactly when 1000 entries were logged since its last
    turn. *)
Definition waiting (l : list action) : Prop :=
  exists a b c, l = a ++ b ++ c /\ forallb (fun x => negb (is_turn x)) b = true /\ length (filter sends b) = 1001.
Lemma act_none a p : act a p = None <-> sends a = true /\ 1000 <= length (p_queue p).
Proof.
  destruct a as [stamp l args|e1 e2 v h rz]; cbn [act sends]; [|split; [discriminate|intros [? _]; discriminate]]. unfold log.
  destruct (Nat.ltb_spec (length (p_queue p)) 1000) as [H|H]; destruct l; cbn [enabled]; split; intros K; try discriminate; try (destruct K; try discriminate; lia); auto.
Qed.
Lemma step_queue a p p' s : stepped p a p' s -> length (p_queue p') = if is_turn a then 0 else length (p_queue p) + (if sends a then 1 else 0).
Proof. intros H. destruct H as [|stamp l args Hl Q|]; cbn; [lia| |reflexivity]. rewrite app_length. cbn. destruct l; try reflexivity; congruence. Qed.
Lemma prefix_count {A} (f : A -> bool) b : forall n, n <= length (filter f b) -> exists b1 b2, b = b1 ++ b2 /\ length (filter f b1) = n.
Proof.
  induction b as [|x b IH]; intros n; cbn [filter]; [intros H; exists [], []; cbn in *; split; [reflexivity|lia]|]. destruct n as [|n]; [exists [], (x :: b); auto|]. intros H.
  destruct (f x) eqn:Fx.
  - destruct (IH n) as (b1 & b2 & -> & E); [cbn in H; lia|]. exists (x :: b1), b2. cbn [filter]. rewrite Fx. cbn. auto.
  - destruct (IH (S n) H) as (b1 & b2 & -> & E). exists (x :: b1), b2. cbn [filter]. rewrite Fx. auto.
Qed.
Lemma run_none l : forall p, length (p_queue p) <= 1000 -> (run l p = None <->
  waiting l \/ exists b c, l = b ++ c /\ forallb (fun x => negb (is_turn x)) b = true /\ length (p_queue p) + length (filter sends b) = 1001).
Proof.
  induction l as [|a l IH]; intros p Q.
  - split; [discriminate|]. intros [(x & b & c & E & _ & L)|(b & c & E & _ & L)].
    + destruct x; [|discriminate]. destruct b; [discriminate L|discriminate].
    + destruct b; [cbn in L; lia|discriminate].
  - cbn [run]. destruct (act a p) as [[p1 s]|] eqn:A.
    + assert (S := step_queue _ _ _ _ (act_step _ _ _ _ A)).
      assert (N : ~ (sends a = true /\ 1000 <= length (p_queue p))) by (intros K; apply act_none in K; congruence).
      assert (Q1 : length (p_queue p1) <= 1000). { rewrite S. destruct (is_turn a); [lia|]. destruct (sends a); [|lia]. destruct (Nat.le_gt_cases 1000 (length (p_queue p))); [elim N; auto|lia]. }
      specialize (IH p1 Q1). transitivity (run l p1 = None); [destruct (run l p1) as [[]|]; split; congruence|]. rewrite IH. clear IH. split.
      * intros [(x & b & c & -> & T & L)|(b & c & -> & T & L)]; [left; exists (a :: x), b, c; auto|]. rewrite S in L. destruct (is_turn a) eqn:Ta.
        -- left. exists [a], b, c. auto.
        -- right. exists (a :: b), c. split; [reflexivity|]. cbn [forallb filter]. rewrite Ta. split; [exact T|]. destruct (sends a); cbn [length]; lia.
      * intros [(x & b & c & E & T & L)|(b & c & E & T & L)].
        -- destruct x as [|y x]; [|injection E as _ ->; left; exists x, b, c; auto]. destruct b as [|y b]; [discriminate L|]. injection E as <- ->. cbn [forallb filter] in T, L.
           apply andb_prop in T. destruct T as [Ta T]. apply negb_true_iff in Ta. right.
           (* more than enough: shorten *)
           rewrite S, Ta. destruct (prefix_count sends b (1001 - (length (p_queue p) + (if sends a then 1 else 0)))) as (b1 & b2 & -> & C); [destruct (sends a); cbn [length] in L; lia|].
           exists b1, (b2 ++ c). rewrite app_assoc. split; [reflexivity|]. rewrite forallb_app in T. apply andb_prop in T. split; [tauto|]. destruct (sends a); [|lia].
           destruct (Nat.le_gt_cases 1000 (length (p_queue p))); [elim N; auto|lia].
        -- destruct b as [|y b]; [cbn in L; lia|]. injection E as <- ->. cbn [forallb filter] in T, L. apply andb_prop in T. destruct T as [Ta T]. apply negb_true_iff in Ta.
           right. exists b, c. split; [reflexivity|]. split; [exact T|]. rewrite S, Ta. destruct (sends a); cbn [length] in L; lia.
    + split; [|reflexivity]. intros _. apply act_none in A. destruct A as [Sa K]. right. exists [a], l. split; [reflexivity|]. destruct a; [|discriminate]. split; [reflexivity|]. cbn [filter]. rewrite Sa. cbn. lia.
Qed.
(** Logging waits for the console's turn exactly if more than 1000 entries are logged between two
    of its turns. *)
Theorem C131_partial : forall rows l, run l (pane_new rows) = None <-> waiting l.
Proof.
  intros rows l. rewrite run_none by (cbn; lia). split; [|auto]. intros [H|(b & c & -> & T & L)]; [exact H|]. exists [], b, c. auto.
Qed.
Print Assumptions C131_partial.
(** The natural claim, that logging never waits for the console, fails. *)
Theorem C131_refuted : exists l, forallb (fun a => negb (is_turn a)) l = true /\ run l (pane_new 20) = None.
Proof.
  exists (repeat (say 1) (1000 + 1)). assert (T : forallb (fun a => negb (is_turn a)) (repeat (say 1) (1000 + 1)) = true) by (apply forallb_forall; intros x Hx; apply repeat_spec in Hx; subst; reflexivity).
  split; [exact T|]. apply C131_partial. exists [], (repeat (say 1) (1000 + 1)), []. split; [rewrite app_nil_r; reflexivity|]. split; [exact T|].
  assert (G : forall n, length (filter sends (repeat (say 1) n)) = n) by (induction n as [|n IH]; [reflexivity|cbn [repeat filter sends say length]; rewrite IH; reflexivity]). rewrite G. reflexivity.
Qed.
Print Assumptions C131_refuted.
Example C131_case : ~ waiting (says [1; 2; 3]%N ++ [quiet_turn] ++ says [4; 5]%N).
Proof. intros H. apply (C131_partial 20) in H. discriminate. Qed.
