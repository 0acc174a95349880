(** Properties C96 and C97: the camera source. *)
From Coq Require Import List Arith NArith Bool Lia.
From Verif Require Import Base CameraModel CameraSpec CameraProofs.
Import ListNotations.
Local Open Scope nat_scope.

(** *** C96: an image is the picture the driver delivered, and stays so *)

(** Whatever went wrong before, at no time has the driver a buffer of an image that the
    program may look at: no event changes such an image. And the image handed out is
    in the very buffer that the driver gave back, which the driver has no more. *)
Theorem C96_partial :
  forall n size pick l c oks,
    run size pick l (cam_new n) = Ret (c, oks) -> restarts_ok false (combine l oks) ->
    (forall x c' ok b, step size pick x c = Ret (c', ok) -> seen c b -> c_mem c' b = c_mem c b) /\
    (forall fail k clears c' , step size pick (Process fail (Given k false) clears) c = Ret (c', true) ->
       exists i b fresh, nth_error (c_kq c ++ [(c_last c, fresh)]) k = Some (i, b) /\
                         c_msg c' = Some b /\ ~ driver's c' b /\ c_kept c' = c_kept c).
Proof.
  intros n size pick l c oks R O.
  destruct (run_good size pick l false _ _ _ (good_new n) R O) as [s G].
  split.
  - intros x c' ok b S Hb. apply (step_mem size pick x c c' ok b S). intros i Hi.
    apply (inv_apart _ _ (g_inv _ _ G) b); [now exists i|exact Hb].
  - intros fail k clears c' S. cbn [step] in S.
    pose proof (inv_weaken _ _ (g_inv _ _ G)) as I. unfold process in S.
    destruct (stream_next size pick fail (Given k false) c) as [[c1 r]|] eqn:N; cbn [obind] in S; [|discriminate].
    destruct (next_inv _ _ _ _ _ _ _ I N) as (_ & _ & _ & K & D).
    destruct r as [[b e]|]; [|discriminate].
    destruct D as (D & k' & i & b0 & A & H & Kq). injection A as <- <-.
    injection S as <-. exists i, b, b0. repeat split; auto.
Qed.
Print Assumptions C96_partial.

Definition S0 : event := Start (fun _ => false) false.
Definition P (k : nat) : event := Process false (Given k false) true.

(** A run with a kept image, a time out, an error, a stop and another start. *)
Example C96_partial_example :
  exists c oks, run 6 (fun _ => 0) [S0; P 0; Keep; P 0; Process false Nothing true; Process false (Given 0 false) false;
                                    Stop false; Clear; S0; DriverWrites 0 7; P 0] (cam_new 4) = Ret (c, oks) /\
    oks = [true; true; true; true; false; false; true; true; true; true; true] /\
    restarts_ok false (combine [S0; P 0; Keep; P 0; Process false Nothing true; Process false (Given 0 false) false;
                                Stop false; Clear; S0; DriverWrites 0 7; P 0] oks) /\
    (exists b, c_msg c = Some b /\ c_mem c b = 7%N) /\ length (c_kept c) = 1.
Proof. eexists. eexists. split; [vm_compute; reflexivity|]. cbn. repeat split; auto. eexists. split; reflexivity. Qed.

(** Started again while it runs (an error is reported, the stream goes on), the source
    hands out a buffer that the driver has: the image changes in the hands of the program. *)
Theorem C96_refuted :
  exists n pick l c oks, run (pool_size n) pick l (cam_new n) = Ret (c, oks) /\
    exists b k v c' ok, c_msg c = Some b /\ step (pool_size n) pick (DriverWrites k v) c = Ret (c', ok) /\ c_mem c' b <> c_mem c b.
Proof.
  exists 4, (fun _ => 0), [S0; P 0; P 0; S0; P 3]. eexists. eexists. split; [vm_compute; reflexivity|].
  exists 4, 2, 7%N. eexists. eexists. split; [reflexivity|]. split; [vm_compute; reflexivity|]. cbn. discriminate.
Qed.
Print Assumptions C96_refuted.

(** Or it hands out another buffer than the one with the picture. *)
Theorem C96_stale_refuted :
  exists n pick l c oks, run (pool_size n) pick l (cam_new n) = Ret (c, oks) /\
    exists i b c' b', nth_error (c_kq c) 0 = Some (i, b) /\
      step (pool_size n) pick (Process false (Given 0 false) true) c = Ret (c', true) /\ c_msg c' = Some b' /\
      c_mem c' b = 7%N /\ c_mem c' b' = 0%N.
Proof.
  exists 4, (fun _ => 0), [S0; P 0; P 0; S0; P 0; P 0; DriverWrites 0 7]. eexists. eexists. split; [vm_compute; reflexivity|].
  eexists. eexists. eexists. eexists. split; [reflexivity|]. split; [vm_compute; reflexivity|]. repeat split.
Qed.
Print Assumptions C96_stale_refuted.

(** *** C97: the camera goes on *)

(** As long as nothing unusual happens, it does: any number of sessions of any length, with
    any order in which the driver gives its buffers back. *)
Theorem C97_partial :
  forall n pick bodies, 0 < n -> Forall (Forall (uneventful n)) bodies ->
    exists c oks, run (pool_size n) pick (flat_map session bodies) (cam_new n) = Ret (c, oks) /\ Forall (eq true) oks.
Proof.
  intros n pick bodies Hn U. apply (sessions_work (pool_size n) pick n bodies Hn); auto.
  - unfold pool_size. lia.
  - apply resting_new.
Qed.
Print Assumptions C97_partial.

Example C97_partial_example :
  Forall (Forall (uneventful 3)) [[P 0; DriverWrites 1 5; P 2; P 0; Clear; P 1]; []; [P 2]] /\
  exists c oks, run (pool_size 3) (fun c => c_last c) (flat_map session [[P 0; DriverWrites 1 5; P 2; P 0; Clear; P 1]; []; [P 2]]) (cam_new 3)
                = Ret (c, oks) /\ length oks = 16.
Proof.
  split.
  - repeat constructor.
  - eexists. eexists. split; [vm_compute; reflexivity|reflexivity].
Qed.

(** One picture that does not come in time: from then on every call fails, whatever the
    driver does, until the stream is stopped. *)
Theorem C97_timeout_refuted :
  forall n pick before, 0 < n -> Forall (uneventful n) before ->
    exists c oks, run (pool_size n) pick ([S0] ++ before ++ [Process false Nothing true]) (cam_new n) = Ret (c, oks) /\
      forall later c' oks', Forall keeps_going later -> run (pool_size n) pick later c = Ret (c', oks') ->
        Forall (fun p => is_process (fst p) = true -> snd p = false) (combine later oks').
Proof.
  intros n pick before Hn U.
  destruct (start_works (pool_size n) pick n (cam_new n) Hn) as (c2 & S & R2); [unfold pool_size; lia|apply resting_new|].
  destruct (running_body (pool_size n) pick n before) with (c := c2) as (c3 & oks & Rn & R3 & _); auto; [unfold pool_size; lia|].
  destruct (timeout_sticks (pool_size n) pick n c3 true) as (c4 & S4 & H4); auto; [unfold pool_size; lia|].
  exists c4, (true :: oks ++ [false]). split.
  - cbn [app]. cbn [run]. fold S0. unfold S0. rewrite S. cbn [obind fst snd].
    rewrite run_app, Rn. cbn [obind fst snd run step]. rewrite S4. reflexivity.
  - intros later c' oks' F Rl. eapply stuck_run; eauto.
Qed.
Print Assumptions C97_timeout_refuted.

(** The driver answers again, and yet all fails. *)
Example C97_timeout_example :
  exists c, run (pool_size 4) (fun _ => 0) [S0; P 0; Process false Nothing true; P 0; DriverWrites 0 9; P 1] (cam_new 4)
            = Ret (c, [true; true; false; false; true; false]).
Proof. eexists. vm_compute. reflexivity. Qed.

(** An empty frame, or an image that a task keeps, or a start while the last message still
    has its image: the source panics for want of a buffer. *)
Theorem C97_refuted :
  exists n pick, 0 < n /\
    run (pool_size n) pick [S0; P 0; Process false (Given 0 true) true; P 0] (cam_new n) = Panic /\
    run (pool_size n) pick [S0; P 0; Keep; P 0; P 0; P 0] (cam_new n) = Panic /\
    run (pool_size n) pick [S0; P 0; Stop false; S0] (cam_new n) = Panic.
Proof. exists 4, (fun _ => 0). repeat split; vm_compute; auto. Qed.
Print Assumptions C97_refuted.
