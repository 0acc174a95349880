(** How the camera source is used, and who may look at a buffer. *)
From Coq Require Import List Arith NArith Bool.
From Verif Require Import Base CameraModel.
Import ListNotations.
Local Open Scope nat_scope.

(** The stream is started only when it was not started since it was last stopped. *)
Fixpoint restarts_ok (started : bool) (l : list (event * bool)) : Prop :=
  match l with
  | [] => True
  | (Start _ _, _) :: l => started = false /\ restarts_ok true l
  | (Stop _, ok) :: l => restarts_ok (if ok then false else started) l
  | _ :: l => restarts_ok started l
  end.
(** Images that the program looks at. *)
Definition seen (c : cam) (b : nat) : Prop := c_msg c = Some b \/ In b (c_kept c).
(** Buffers that the driver may write to. *)
Definition driver's (c : cam) (b : nat) : Prop := exists i, In (i, b) (c_kq c).

(** The uneventful use: started, any number of pictures while the driver writes what it
    wants, stopped, and the message cleared. *)
Definition uneventful (buffers : nat) (x : event) : Prop :=
  match x with
  | Process false (Given k false) _ => k < buffers
  | DriverWrites _ _ | Clear => True
  | _ => False
  end.
Definition session (body : list event) : list event := [Start (fun _ => false) false] ++ body ++ [Stop false; Clear].
Definition is_process (x : event) : bool := match x with Process _ _ _ => true | _ => false end.
(** Neither started nor stopped. *)
Definition keeps_going (x : event) : Prop := match x with Start _ _ | Stop _ => False | _ => True end.
