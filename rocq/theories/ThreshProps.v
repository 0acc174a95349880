(** C47: the adaptive threshold. *)
From Coq Require Import List Arith NArith ZArith Bool Lia.
From Verif Require Import Base ThreshModel ThreshSpec ThreshProofs.
Import ListNotations.
Local Open Scope N_scope.

(** What one frame must give: an image for every frame of the right size for which a buffer
    is available, else nothing. *)
Definition frame_ok (w h : nat) (r : N) (f : option (list N) * option (list N)) (o : option (list N)) : Prop :=
  match fst f, snd f with
  | Some src, Some _ => if Nat.eqb (length src) (w * h) then exists out, o = Some out /\ thresholded src r w h out else o = None
  | _, _ => o = None
  end.

(** For every stream of frames processed with the same scratch buffer, whatever the buffers of
    the pool contain: nothing panics, nothing is accessed out of bounds, and every output is
    the exact threshold of its frame. *)
Theorem C47_exact : forall w h r l, 255 * N.of_nat w * N.of_nat h < 2 ^ 32 -> 0 < r < 2 ^ 31 ->
  (forall src dst, In (src, dst) l -> (forall s, src = Some s -> Forall (fun v => v < 256) s) /\ forall d, dst = Some d -> length d = (w * h)%nat) ->
  exists os, frames (task_new w h r) l = Ret os /\ Forall2 (frame_ok w h r) l os.
Proof.
  intros w h r l Small Rr. unfold task_new.
  assert (B : borders w h (repeat 0 ((w + 1) * (h + 1)))).
  { split; [apply repeat_length|]. intros i j _ _ _. unfold pixel. destruct (nth_in_or_default (i + j * (w + 1)) (repeat 0 ((w + 1) * (h + 1))) 0) as [X|X]; [|exact X].
    apply repeat_spec in X. exact X. }
  generalize dependent (repeat 0 ((w + 1) * (h + 1))). induction l as [|[src dst] l IH]; intros s B F; cbn [frames].
  - exists []. split; [reflexivity|constructor].
  - assert (F' : forall src dst, In (src, dst) l -> (forall s, src = Some s -> Forall (fun v => v < 256) s) /\ forall d, dst = Some d -> length d = (w * h)%nat)
      by (intros; apply F; right; auto).
    assert (Skip : process (Task s w h r) src dst = Ret (Task s w h r, None) -> frame_ok w h r (src, dst) None ->
      exists os, (let! (t, o) := process (Task s w h r) src dst in let! os := frames t l in Ret (o :: os)) = Ret os /\ Forall2 (frame_ok w h r) ((src, dst) :: l) os).
    { intros E K. rewrite E. cbn [obind]. destruct (IH s B F') as (os & E1 & H). rewrite E1. cbn [obind]. exists (None :: os). split; [reflexivity|constructor; auto]. }
    destruct src as [src|]; [|apply Skip; reflexivity].
    destruct (Nat.eqb (length src) (w * h)) eqn:Len.
    2: { apply Skip; [|unfold frame_ok; cbn; rewrite Len; destruct dst; reflexivity]. unfold process. cbn [t_width t_height]. rewrite Len. reflexivity. }
    destruct dst as [dst|].
    2: { apply Skip; [|reflexivity]. unfold process. cbn [t_width t_height]. rewrite Len. reflexivity. }
    destruct (F (Some src) (Some dst) (or_introl eq_refl)) as [F1 F2]. specialize (F1 _ eq_refl). specialize (F2 _ eq_refl).
    assert (Im : image w h src) by (split; [apply Nat.eqb_eq; exact Len|exact F1]).
    destruct (integral_ok src w h Im Small s B) as (s' & E1 & B' & HG).
    destruct (threshold_ok src w h Im Small r Rr s' dst B' HG F2) as (out & E2 & T).
    unfold process. cbn [t_width t_height t_integral t_radius]. rewrite Len. cbn [negb]. rewrite E1. cbn [obind]. rewrite E2. cbn [obind].
    destruct (IH s' B' F') as (os & E3 & H). rewrite E3. cbn [obind]. exists (Some out :: os). split; [reflexivity|]. constructor; [|exact H].
    unfold frame_ok. cbn [fst snd]. rewrite Len. eauto.
Qed.
Print Assumptions C47_exact.

(** The case of the unit test, twice, with another image between. *)
Example C47_case :
  let a := [128; 128; 130; 130; 128; 128; 130; 130; 128; 128; 130; 130; 128; 128; 130; 130] in
  let b := [255; 255; 255; 255; 255; 0; 255; 255; 255; 255; 255; 255; 255; 255; 255; 7] in
  let d := repeat 9 16 in
  frames (task_new 4 4 2) [(Some a, Some d); (Some b, Some d); (None, Some d); (Some a, Some b)] =
  Ret [Some [0; 0; 255; 255; 0; 0; 255; 255; 0; 0; 255; 255; 0; 0; 255; 255];
       Some [255; 255; 255; 255; 255; 0; 255; 255; 255; 255; 255; 255; 255; 255; 255; 0]; None;
       Some [0; 0; 255; 255; 0; 0; 255; 255; 0; 0; 255; 255; 0; 0; 255; 255]] /\
  255 * N.of_nat 4 * N.of_nat 4 < 2 ^ 32 /\ brighter a 2 4 4 2 0 /\ ~ brighter a 2 4 4 0 0.
Proof. cbv zeta. split; [vm_compute; reflexivity|]. split; [reflexivity|]. split; vm_compute; [reflexivity|discriminate]. Qed.

(** The bounds are needed: radius 0 or 2^31 panic on the first pixel. *)
Theorem C47_radius_refuted : forall src dst r, length src = 1%nat -> r = 0 \/ r = 2 ^ 31 -> process (task_new 1 1 r) (Some src) (Some dst) = Panic.
Proof.
  intros src dst r L H. destruct src as [|v [|]]; try discriminate. unfold process, task_new. cbn [t_width t_height t_integral t_radius length Nat.mul Nat.add Nat.eqb negb repeat].
  destruct (integral_image [v] [0; 0; 0; 0] 1 1) as [s|]; cbn [obind]; [|reflexivity]. destruct H as [-> | ->]; [reflexivity|].
  unfold adaptive_threshold. change (2 ^ 31 =? 0) with false. cbv iota. cbn [loop]. unfold threshold_step at 1. cbn [get_pixel nth_error Nat.add Nat.mul obind].
  assert (X : low 0 (2 ^ 31) = Panic) by (vm_compute; reflexivity). rewrite X. reflexivity.
Qed.
Print Assumptions C47_radius_refuted.
