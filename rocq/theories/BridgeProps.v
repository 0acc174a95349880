(** C146, C147, C148: messages between robots through shared memory. *)
From Coq Require Import String.
From Coq Require Import List Arith NArith ZArith Bool Lia.
From Verif Require Import Base CodecModel SourcesModel VeloModel BridgeModel.
Import ListNotations.
Local Open Scope nat_scope.

(** ** C146 *)
(** The calls and what was seen of them. *)
Definition log {P} (n : nat) (b : bridge P) (l : list (act P)) : list (act P * seen P) := combine l (snd (bsteps n b l)).
(** The messages that the sink sent. *)
Definition sent {P} (h : list (act P * seen P)) : list (msg P) :=
  flat_map (fun x => match x with (SinkProcess _ m, Fine) => [m] | _ => [] end) h.
(** The messages with a payload that the source gave. *)
Definition received {P} (h : list (act P * seen P)) : list (msg P) :=
  flat_map (fun x => match x with (SrcProcess _ _, Src (Done m)) => match m_payload m with Some _ => [m] | None => [] end | _ => [] end) h.
(** Nothing is in the output message before a call of the source. *)
Definition clean {P} (a : act P) : Prop := match a with SrcProcess _ out => m_payload out = None | _ => True end.
(** [a] is what is left of [b] after removing some of its elements. *)
Inductive part_of {A} : list A -> list A -> Prop :=
| part_nil : forall l, part_of [] l
| part_skip : forall x a b, part_of a b -> part_of a (x :: b)
| part_keep : forall x a b, part_of a b -> part_of (x :: a) (x :: b).

Lemma part_app {A} (q : list A) : forall a b, part_of a b -> part_of (q ++ a) (q ++ b).
Proof. induction q; intros; [assumption|]. cbn. apply part_keep. auto. Qed.
Lemma part_weak {A} (q b : list A) : forall a, part_of a b -> part_of a (q ++ b).
Proof. induction q; intros; [assumption|]. cbn. apply part_skip. auto. Qed.
Lemma part_refl {A} (l : list A) : part_of l l.
Proof. induction l; [apply part_nil|apply part_keep; assumption]. Qed.
Lemma part_trans {A} : forall (b c : list A), part_of b c -> forall a, part_of a b -> part_of a c.
Proof.
  induction 1 as [l|x b c H IH|x b c H IH]; intros a Ha.
  - inversion Ha; apply part_nil.
  - apply part_skip. auto.
  - inversion Ha; subst; [apply part_nil|apply part_skip; auto|apply part_keep; auto].
Qed.
Lemma push_part {A} n (m : A) q r : part_of (push_back n m q ++ r) (q ++ m :: r).
Proof.
  unfold push_back. destruct (n =? 0). { apply part_app, part_skip, part_refl. }
  destruct (length q <? n). { rewrite <- app_assoc. apply part_refl. }
  rewrite <- app_assoc. destruct q as [|a q]; cbn [tl app]; [apply part_refl|]. apply part_skip, part_refl.
Qed.
Definition buffered {P} (b : bridge P) : list (msg P) := match b_subscriber b with Some q => q | None => [] end.
Lemma log_cons {P} n (b : bridge P) a l : log n b (a :: l) = (a, snd (bstep n b a)) :: log n (fst (bstep n b a)) l.
Proof. unfold log. cbn [bsteps]. destruct (bstep n b a) as [b' x]. cbn [fst snd]. destruct (bsteps n b' l) as [b'' xs]. reflexivity. Qed.
(** What is in the buffer and what is still sent covers what is still received. *)
Lemma received_part {P} n (l : list (act P)) : Forall clean l -> forall b, part_of (received (log n b l)) (buffered b ++ sent (log n b l)).
Proof.
  induction 1 as [|a l C _ IH]; intros b. { constructor. }
  rewrite log_cons. unfold received, sent. cbn [flat_map]. fold (@received P). fold (@sent P).
  specialize (IH (fst (bstep n b a))). set (h := log n (fst (bstep n b a)) l) in *. change (flat_map _ h) with (received h) at 1. change (flat_map _ h) with (sent h).
  destruct b as [pu su]. destruct a as [ok| |ok m|ok| |ok out]; cbn [bstep b_publisher b_subscriber] in *.
  - destruct ok; exact IH.
  - exact IH.
  - destruct (pu && ok); cbn [fst snd app buffered b_subscriber] in *; [|exact IH].
    destruct su as [q|]; cbn [option_map] in *. { eapply part_trans; [|exact IH]. apply push_part. }
    apply part_skip. exact IH.
  - destruct ok; cbn [fst snd buffered b_subscriber app] in *; [|exact IH]. apply part_weak. exact IH.
  - cbn [fst snd buffered b_subscriber app] in *. apply part_weak. exact IH.
  - destruct su as [q|]; cbn [fst snd buffered b_subscriber app] in *; [|exact IH]. destruct ok; cbn [fst snd buffered b_subscriber app] in *; [|exact IH].
    destruct q as [|r q]; cbn [hd_error tl ice_process app] in *. { cbn in C. rewrite C. exact IH. }
    destruct (m_payload r) as [p|] eqn:Ep; cbn [m_payload app]; [|apply part_skip; exact IH].
    rewrite <- Ep. destruct r as [pl t]. cbn in Ep |- *. subst pl. apply part_keep. exact IH.
Qed.
(** C146: whatever the starts, stops, failures and the speeds of the two robots, the messages the
    source gives are messages the sink sent, in order, each at most once, payload and time of
    validity unchanged. *)
Theorem C146 : forall P n (l : list (act P)) p, Forall clean l -> part_of (received (log n (Bridge p None) l)) (sent (log n (Bridge p None) l)).
Proof. intros P n l p C. exact (received_part n l C (Bridge p None)). Qed.
Print Assumptions C146.

(** The messages waiting after some calls. *)
Definition waiting {P} (l : list (act P)) : nat :=
  fold_left (fun k a => match a with SinkProcess _ _ => S k | SrcProcess _ _ => pred k | _ => k end) l 0.
(** Calls between a start and the next stop of the tasks, when the library never fails. *)
Definition running {P} (a : act P) : Prop := match a with SinkProcess ok _ => ok = true | SrcProcess ok out => ok = true /\ m_payload out = None | _ => False end.
(** What the source has to give for a message. *)
Definition given {P} (r : msg P) (x : seen P) : Prop :=
  match m_payload r with Some _ => x = Src (Done r) | None => exists out, x = Src (Failed out) /\ m_payload out = None end.
(** The calls of the source that found a message. *)
Definition takes {P} (h : list (act P * seen P)) : list (seen P) :=
  flat_map (fun x => match x with
                     | (SrcProcess _ _, Src (Done m)) => match m_payload m with Some _ => [snd x] | None => [] end
                     | (SrcProcess _ _, y) => [y]
                     | _ => [] end) h.
Lemma lossless {P} n (l : list (act P)) : Forall running l -> forall q,
  (forall k, fold_left (fun k (a : act P) => match a with SinkProcess _ _ => S k | SrcProcess _ _ => pred k | _ => k end) (firstn k l) (length q) <= n) ->
  exists rest, Forall2 given (firstn (length (takes (log n (Bridge true (Some q)) l))) (q ++ sent (log n (Bridge true (Some q)) l))) (takes (log n (Bridge true (Some q)) l))
    /\ b_subscriber (fst (bsteps n (Bridge true (Some q)) l)) = Some rest /\ skipn (length (takes (log n (Bridge true (Some q)) l))) (q ++ sent (log n (Bridge true (Some q)) l)) = rest.
Proof.
  induction 1 as [|a l C _ IH]; intros q W. { exists q. cbn. rewrite app_nil_r. auto. }
  rewrite log_cons. assert (W1 := fun k => W (S k)). cbn [firstn fold_left] in W1.
  assert (Fst : fst (bsteps n (Bridge true (Some q)) (a :: l)) = fst (bsteps n (fst (bstep n (Bridge true (Some q)) a)) l)).
  { cbn [bsteps]. destruct (bstep n _ a) as [b' x]. cbn [fst]. destruct (bsteps n b' l). reflexivity. }
  rewrite Fst. destruct a as [ok| |ok m|ok| |ok out]; cbn in C; try contradiction.
  - subst ok. cbn [bstep b_publisher b_subscriber andb fst snd option_map].
    assert (Push : push_back n m q = q ++ [m]).
    { specialize (W1 0). cbn in W1. unfold push_back. destruct (Nat.eqb_spec n 0); [lia|]. destruct (Nat.ltb_spec (length q) n); [reflexivity|lia]. }
    rewrite Push. destruct (IH (q ++ [m])) as (rest & A & B & D).
    { intros k. rewrite app_length. cbn. replace (length q + 1) with (S (length q)) by lia. apply W1. }
    exists rest. unfold takes, sent in *. cbn [flat_map app] in *. rewrite <- app_assoc in A, D. cbn [app] in A, D. auto.
  - destruct C as [-> C]. cbn [bstep b_publisher b_subscriber fst snd].
    destruct (IH (tl q)) as (rest & A & B & D). { intros k. specialize (W1 k). destruct q; exact W1. }
    exists rest. destruct q as [|r q]; cbn [hd_error tl ice_process] in *.
    + unfold takes, sent in *. cbn [flat_map app snd m_payload] in *. rewrite C. auto.
    + unfold takes, sent in *. cbn [flat_map app snd] in *. destruct (m_payload r) as [p|] eqn:Ep; cbn [m_payload app].
      * cbn [firstn skipn length]. split; [|auto]. constructor; [|exact A]. unfold given. rewrite Ep. destruct r. cbn in *. subst. reflexivity.
      * cbn [firstn skipn length]. split; [|auto]. constructor; [|exact A]. unfold given. rewrite Ep. eauto.
Qed.
(** Nothing is lost as long as no more messages wait than there are places: the calls of the
    source that find something give the messages sent, one by one from the first. *)
Theorem C146_lossless : forall P n (l : list (act P)), Forall running l -> (forall k, waiting (firstn k l) <= n) ->
  let h := log n (Bridge true (Some [])) l in
  Forall2 given (firstn (length (takes h)) (sent h)) (takes h) /\ length (sent h) <= length (takes h) + n.
Proof.
  intros P n l R W h. destruct (lossless n l R [] W) as (rest & A & B & D). fold h in A, D. cbn [app] in A, D. split; [exact A|].
  assert (L : length rest <= n).
  { clear A D h. revert B. assert (K : forall q, length q <= n -> b_subscriber (fst (bsteps n (Bridge true (Some q)) l)) = Some rest -> length rest <= n).
    { clear W. induction R as [|a l C R IH]; intros q Q E. { cbn in E. congruence. }
      cbn [bsteps] in E. destruct a as [ok| |ok m|ok| |ok out]; cbn in C; try contradiction.
      - subst ok. cbn [bstep b_publisher b_subscriber andb option_map] in E. destruct (bsteps n _ l) as [b xs] eqn:Eb in E. cbn [fst] in E.
        apply (IH (push_back n m q)); [|rewrite Eb; exact E]. unfold push_back. destruct (Nat.eqb_spec n 0); [exact Q|].
        destruct (Nat.ltb_spec (length q) n); rewrite app_length; cbn; [lia|]. destruct q; cbn in *; lia.
      - destruct C as [-> C]. cbn [bstep b_publisher b_subscriber] in E. destruct (bsteps n _ l) as [b xs] eqn:Eb in E. cbn [fst] in E.
        apply (IH (tl q)); [destruct q; cbn in *; lia|rewrite Eb; exact E]. }
    apply K. cbn. lia. }
  assert (length (skipn (length (takes h)) (sent h)) = length rest) as X by (rewrite D; reflexivity). rewrite skipn_length in X. lia.
Qed.
Print Assumptions C146_lossless.
Definition m1 (k : nat) : msg nat := Msg (Some k) (TovTime (N.of_nat k)).
Definition none1 : msg nat := Msg None TovNone.
Definition demo_run : list (act nat) := [SinkProcess true (m1 1); SinkProcess true (m1 2); SrcProcess true none1; SinkProcess true (Msg None TovNone); SrcProcess true none1; SrcProcess true none1; SrcProcess true none1].
Example C146_case : Forall running demo_run /\ Forall clean demo_run /\ (forall k, waiting (firstn k demo_run) <= 2)
  /\ takes (log 2 (Bridge true (Some [])) demo_run) = [Src (Done (m1 1)); Src (Done (m1 2)); Src (Failed none1)]
  /\ received (log 2 (Bridge false None) ([SinkStart true; SinkProcess true (m1 0); SrcStart true; SinkProcess true (m1 1); SinkProcess true (m1 2); SinkProcess true (m1 3)] ++ demo_run)) = [m1 1; m1 2].
Proof.
  split; [repeat constructor|]. split; [repeat constructor|]. split; [|split; reflexivity].
  intros k. destruct k as [|[|[|[|[|[|[|k]]]]]]]; cbn; try lia. destruct k; cbn; lia.
Qed.

(** ** C147 *)
(** The natural claim - a sender that has nothing to say does not disturb the receiver - fails:
    the sink sends its input without payload, and the source gives an error for it. *)
Theorem C147_refuted : exists l : list (act nat), Forall running l /\ (forall k, waiting (firstn k l) <= 1) /\ In (SinkProcess true none1) l
  /\ snd (bsteps 2 (Bridge true (Some [])) l) = [Fine; Src (Failed none1)].
Proof.
  exists [SinkProcess true none1; SrcProcess true none1]. split; [repeat constructor|]. split; [|split; [left; reflexivity|reflexivity]].
  intros [|[|[|k]]]; cbn; lia.
Qed.
Print Assumptions C147_refuted.
(** Worse, such messages take places in the buffer, so they push payloads out: with two places, a
    payload and then two iterations without one, the receiver gets no payload at all. *)
Theorem C147_lost_refuted : exists l : list (act nat), Forall running l /\ sent (log 2 (Bridge true (Some [])) l) = [m1 7; none1; none1]
  /\ received (log 2 (Bridge true (Some [])) l) = [] /\ b_subscriber (fst (bsteps 2 (Bridge true (Some [])) l)) = Some [].
Proof.
  exists [SinkProcess true (m1 7); SinkProcess true none1; SinkProcess true none1; SrcProcess true none1; SrcProcess true none1; SrcProcess true none1].
  split; [repeat constructor|]. repeat split; reflexivity.
Qed.
Print Assumptions C147_lost_refuted.
(** What holds of C147: when every message sent has a payload, the library does not fail and the
    source is started before its first call and not called once stopped, no call of the source
    fails, whatever the speeds. *)
Definition speaking {P} (a : act P) : Prop :=
  match a with SinkProcess _ m => m_payload m <> None | SrcProcess ok _ => ok = true | SrcStop => False | _ => True end.
Lemma speaking_steps {P} n (l : list (act P)) : Forall speaking l -> forall b q, b_subscriber b = Some q -> (forall m, In m q -> m_payload m <> None) ->
  forall out, ~ In (Src (Failed out)) (snd (bsteps n b l)).
Proof.
  induction 1 as [|a l S1 _ IH]; intros b q Q A out; [intros []|]. cbn [bsteps].
  assert (K : exists q', b_subscriber (fst (bstep n b a)) = Some q' /\ (forall m, In m q' -> m_payload m <> None) /\ snd (bstep n b a) <> Src (Failed out)).
  { destruct b as [pu su]. cbn in Q. subst su. destruct a as [ok| |ok m|ok| |ok o]; cbn [bstep b_publisher b_subscriber] in *.
    - destruct ok; cbn; eexists; repeat split; eauto; discriminate.
    - cbn; eexists; repeat split; eauto; discriminate.
    - destruct (pu && ok); cbn [fst snd b_subscriber option_map]; eexists; (split; [reflexivity|]); (split; [|discriminate]); [|exact A].
      intros x H. unfold push_back in H. destruct (n =? 0); [auto|]. cbn in S1. destruct (length q <? n); apply in_app_or in H as [H|[<-|[]]]; auto. apply A. destruct q; [destruct H|right; exact H].
    - destruct ok; cbn; eexists; repeat split; eauto; discriminate.
    - destruct S1.
    - cbn in S1. subst ok. cbn [fst snd b_subscriber]. exists (tl q). split; [reflexivity|]. split. { intros x H. apply A. destruct q; [destruct H|right; exact H]. }
      destruct q as [|r q]; cbn [hd_error ice_process]; [discriminate|]. specialize (A r (or_introl eq_refl)). destruct (m_payload r); [discriminate|congruence]. }
  destruct K as (q' & K1 & K2 & K3). destruct (bstep n b a) as [b' x]. cbn [fst snd] in *. specialize (IH b' q' K1 K2 out). destruct (bsteps n b' l) as [b'' xs].
  cbn [snd] in *. intros [H|H]; [exact (K3 H)|exact (IH H)].
Qed.
Theorem C147_partial : forall P n (l : list (act P)) p out, Forall speaking l -> ~ In (Src (Failed out)) (snd (bsteps n (Bridge p (Some [])) l)).
Proof. intros P n l p out H. apply (speaking_steps n l H _ []); [reflexivity|]. intros m []. Qed.
Print Assumptions C147_partial.
(** A source that was not started, or was stopped, gives an error and leaves its message; so does
    a sink. A restart works, without the messages of before. *)
Theorem C147_started_partial : forall P n (b : bridge P) ok ok' m out p,
  snd (bstep n (Bridge p None) (SrcProcess ok out)) = Src (Failed out)
  /\ snd (bstep n (Bridge false (b_subscriber b)) (SinkProcess ok' m)) = Error
  /\ (forall m', m_payload m' <> None -> 0 < n ->
       snd (bsteps n b [SrcStop; SinkProcess ok' m; SinkStop; SrcStart true; SinkStart true; SinkProcess true m'; SrcProcess true out])
       = [Fine; snd (bstep n (Bridge (b_publisher b) None) (SinkProcess ok' m)); Fine; Fine; Fine; Fine; Src (Done m')]).
Proof.
  intros P n b ok ok' m out p. split; [reflexivity|]. split; [reflexivity|]. intros m' H Hn.
  destruct n as [|n]; [lia|]. destruct b as [pu su]. cbn. destruct (pu && ok'); cbn; destruct m' as [[x|] t]; cbn in H |- *; try congruence; reflexivity.
Qed.
Print Assumptions C147_started_partial.
Example C147_case : Forall speaking [SinkProcess true (m1 1); SrcProcess true none1; SrcProcess true none1; SinkStop; SinkProcess true (m1 2); SrcStart true; SinkStart false; SinkStart true; SinkProcess true (m1 3); SrcProcess true none1]
  /\ snd (bsteps 2 (Bridge true (Some [])) [SinkProcess true (m1 1); SrcProcess true none1; SrcProcess true none1; SinkStop; SinkProcess true (m1 2); SrcStart true; SinkStart false; SinkStart true; SinkProcess true (m1 3); SrcProcess true none1])
  = [Fine; Src (Done (m1 1)); Src (Done none1); Fine; Error; Fine; Error; Fine; Fine; Src (Done (m1 3))].
Proof. split; [|reflexivity]. repeat constructor; discriminate. Qed.

(** ** C148 *)
(** The natural claim - a wrong configuration is reported - fails when the service is given as
    something else than a text; otherwise creation succeeds exactly with a name the library
    takes, and gives an error else. *)
Theorem C148_refuted : forall valid node, ice_new valid node (Some OtherValue) = Panic.
Proof. reflexivity. Qed.
Print Assumptions C148_refuted.
Theorem C148_partial : forall valid node config, config <> Some OtherValue ->
  (forall s, ice_new valid node config = Ret (Some s) <-> config = Some (Text s) /\ valid s = true /\ node = true)
  /\ exists r, ice_new valid node config = Ret r.
Proof.
  intros valid node [[|s|]|] H; cbn; try congruence; (split; [|eauto]); intros s'.
  - split; [discriminate|]. intros [? _]; discriminate.
  - destruct (valid s) eqn:V, node; cbn; split; try discriminate.
    + intros E. injection E as <-. auto.
    + intros (E & _ & _). injection E as ->. reflexivity.
    + intros (_ & _ & E). discriminate.
    + intros (E & V' & _). injection E as ->. congruence.
    + intros (_ & _ & E). discriminate.
  - split; [discriminate|]. intros [? _]; discriminate.
Qed.
Print Assumptions C148_partial.
Example C148_case : ice_new (fun s => negb (String.eqb s "")) true (Some (Text "a")) = Ret (Some "a"%string) /\ ice_new (fun s => negb (String.eqb s "")) true (Some (Text "")) = Ret None /\ ice_new (fun _ => true) true None = Ret None.
Proof. repeat split; reflexivity. Qed.
