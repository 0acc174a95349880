(** The program that draws a configuration: specification and theorems. *)
From Coq Require Import String Ascii List Arith Bool Lia.
From Verif Require Import Base ConfigModel RenderModel PictureModel.
Import ListNotations.
Local Open Scope string_scope.

(** * Specification *)
(** [svg] is dot's drawing of the picture of the configuration in the file. *)
Definition drawing (d : desk) (svg : string) : Prop :=
  exists r c text, g_file d = Some r /\ read_configuration r = Ret (Some c) /\ render (g_show d) c = Ret text /\
    g_spawn d = true /\ g_stdin d = true /\ g_dot d text = Drawn svg.
(** What one may hope for: a run that succeeds leaves, or shows, the drawing; a run that does not leaves the earlier
    file alone. *)
Definition C181_full : Prop := forall d open old,
  let x := picture_main d open old in
  (v_end x = Success -> exists svg, drawing d svg /\ (if open then v_viewed x = Some svg /\ v_output x = old else v_output x = Some svg)) /\
  (v_end x <> Success -> v_output x = old).

(** * Proofs *)
Lemma main_cases d open old : (exists svg, drawing d svg /\ picture_main d open old = deliver d open old svg) \/
  ((forall svg, ~ drawing d svg) /\ v_output (picture_main d open old) = old /\ v_viewed (picture_main d open old) = None /\ v_end (picture_main d open old) <> Success).
Proof.
  assert (N : forall e, e <> Success -> v_output (Seen old None e) = old /\ v_viewed (Seen old None e) = None /\ v_end (Seen old None e) <> Success) by auto.
  unfold picture_main, dot_text. destruct (g_file d) as [r|] eqn:F; [|right; split; [intros svg (r & c & t & H & _); congruence|apply N; discriminate]].
  destruct (read_configuration r) as [[c|]|] eqn:R; cbn [obind]; try (right; split; [intros svg (r' & c' & t & H1 & H2 & _); congruence|apply N; discriminate]).
  destruct (render (g_show d) c) as [text|] eqn:T; [|right; split; [intros svg (r' & c' & t & H1 & H2 & H3 & _); congruence|apply N; discriminate]].
  destruct (g_spawn d) eqn:S1; cbn [negb]; [|right; split; [intros svg (r' & c' & t & H1 & H2 & H3 & H4 & _); congruence|apply N; discriminate]].
  destruct (g_stdin d) eqn:S2; cbn [negb]; [|right; split; [intros svg (r' & c' & t & H1 & H2 & H3 & H4 & H5 & _); congruence|apply N; discriminate]].
  destruct (g_dot d text) as [| |svg] eqn:D; [right; split; [intros svg (r' & c' & t & H1 & H2 & H3 & H4 & H5 & H6); congruence|apply N; discriminate]..|].
  left. exists svg. split; [|reflexivity]. exists r, c, text. repeat split; auto.
Qed.
Lemma drawing_one d s1 s2 : drawing d s1 -> drawing d s2 -> s1 = s2.
Proof. intros (r & c & t & H1 & H2 & H3 & _ & _ & H4) (r' & c' & t' & K1 & K2 & K3 & _ & _ & K4). congruence. Qed.

(** * Theorems *)
(** What holds: a run that succeeds leaves the drawing in output.svg, or, when the picture is to be opened, starts the
    viewer with the drawing and leaves output.svg alone; this it does whenever there is a drawing and the file can be
    written or the viewer started. A run that does not succeed leaves output.svg as it was, or, when the drawing could
    be made but not be written, the part of it that was written. *)
Theorem C181_partial : forall d open old, let x := picture_main d open old in
  (v_end x = Success <-> (exists svg, drawing d svg) /\
     if open then g_temp d = true /\ g_temp_write d = Whole /\ g_viewer d = true else g_create d = true /\ g_write d = Whole) /\
  (v_end x = Success -> exists svg, drawing d svg /\ (if open then v_viewed x = Some svg /\ v_output x = old else v_viewed x = None /\ v_output x = Some svg)) /\
  (v_end x <> Success -> v_viewed x = None /\ (v_output x = old \/
     open = false /\ exists svg n, drawing d svg /\ g_write d = Broken n /\ v_output x = Some (substring 0 n svg) /\ v_end x = Error)).
Proof.
  intros d open old x. subst x. destruct (main_cases d open old) as [(svg & D & ->)|(ND & O & V & E)].
  - unfold deliver. destruct open.
    + destruct (g_temp d); [destruct (g_temp_write d) as [|n]; cbn [write_all]; [destruct (g_viewer d)|]|]; cbn [v_end v_output v_viewed];
        (split; [split; [intros H; try discriminate H; eauto 6|intros (_ & H1 & H2 & H3); congruence]|split; [intros H; try discriminate H; eauto|intros H; try congruence; auto]]).
    + destruct (g_create d); [destruct (g_write d) as [|n]; cbn [write_all]|]; cbn [v_end v_output v_viewed];
        (split; [split; [intros H; try discriminate H; eauto 6|intros (_ & H1 & H2); congruence]|split; [intros H; try discriminate H; eauto|intros H; try congruence; (split; [reflexivity|]; eauto 9)]]).
  - split; [split; [intros H; congruence|intros ((svg & D) & _); destruct (ND svg D)]|]. split; [intros H; congruence|intros _; auto].
Qed.
Print Assumptions C181_partial.
(** Two tasks, drawn by a dot that writes its input in brackets. *)
Definition p_desk (w : writing) : desk :=
  Desk (Some (Repr [Node "a" (Some "A") None; Node "b" (Some "B") None] [Cnx "a" "b" "M" None None] None None)) (fun _ => []) true true (fun t => Drawn ("<svg>" ++ t ++ "</svg>")) true w true w true.
Example C181_case : (exists svg, drawing (p_desk Whole) svg /\ 100 < String.length svg /\ picture_main (p_desk Whole) false (Some "old") = Seen (Some svg) None Success /\
    picture_main (p_desk Whole) true (Some "old") = Seen (Some "old") (Some svg) Success) /\
  picture_main (p_desk (Broken 5)) false (Some "old") = Seen (Some "<svg>") None Error /\ picture_main (p_desk (Broken 5)) true (Some "old") = Seen (Some "old") None Error.
Proof.
  split; [|split; vm_compute; reflexivity]. eexists. split; [eexists _, _, _; split; [reflexivity|]; split; [vm_compute; reflexivity|]; split; [vm_compute; reflexivity|]; split; [reflexivity|]; split; [reflexivity|]; reflexivity|].
  split; [apply Nat.ltb_lt; vm_compute; reflexivity|]. split; vm_compute; reflexivity.
Qed.
(** In full it is false: output.svg is emptied before it is written, so a disk that is full costs the earlier picture. *)
Theorem C181_refuted : ~ C181_full.
Proof.
  intros H. destruct (H (p_desk (Broken 5)) false (Some "old")) as (_ & H2). pose proof (proj1 (proj2 C181_case)) as X. cbv zeta in H2. rewrite X in H2. cbn [v_end v_output] in H2.
  specialize (H2 ltac:(discriminate)). discriminate H2.
Qed.
Print Assumptions C181_refuted.
