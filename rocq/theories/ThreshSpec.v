(** What an adaptive threshold is. *)
From Coq Require Import List Arith NArith Bool.
Import ListNotations.
Local Open Scope N_scope.

(** The pixel in column [x] and row [y] of an image stored by rows. *)
Definition pixel (img : list N) (width x y : nat) : N := nth (x + y * width) img 0.
(** Two coordinates at most [r] apart. *)
Definition near (r : N) (a b : nat) : bool := (N.of_nat a <=? N.of_nat b + r) && (N.of_nat b <=? N.of_nat a + r).
(** The positions of the block around a pixel, clipped to the image. *)
Definition block (r : N) (width height x y : nat) : list (nat * nat) :=
  filter (fun p => near r x (fst p) && near r y (snd p)) (list_prod (seq 0 width) (seq 0 height)).
Definition total (l : list N) : N := fold_right N.add 0 l.
(** The pixel is brighter than the mean of its block. *)
Definition brighter (img : list N) (r : N) (width height x y : nat) : Prop :=
  let b := block r width height x y in
  total (map (fun p => pixel img width (fst p) (snd p)) b) < pixel img width x y * N.of_nat (length b).
(** White where the pixel is brighter than the mean of its block, black elsewhere. *)
Definition thresholded (img : list N) (r : N) (width height : nat) (out : list N) : Prop :=
  length out = (width * height)%nat /\
  forall x y, (x < width)%nat -> (y < height)%nat ->
    (brighter img r width height x y -> pixel out width x y = 255) /\
    (~ brighter img r width height x y -> pixel out width x y = 0).
Definition image (width height : nat) (img : list N) : Prop := length img = (width * height)%nat /\ Forall (fun v => v < 256) img.
