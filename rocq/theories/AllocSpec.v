(** What a user expects of the counting allocator. *)
From Coq Require Import List Arith NArith Bool.
From Verif Require Import Base AllocModel.
Import ListNotations.
Local Open Scope list_scope.
Local Open Scope N_scope.

(** The bytes of the blocks satisfying [f]. *)
Fixpoint bytes (f : block -> bool) (bs : list block) : N :=
  match bs with [] => 0 | b :: bs => (if f b then k_size b else 0) + bytes f bs end.

(** Handed to the program, whether or not freed since. *)
Definition handed (b : block) : bool := match k_phase b with Obtained => false | _ => true end.
(** Freed by the program, the allocator having returned. *)
Definition freed (b : block) : bool := match k_phase b with Gone => true | _ => false end.
(** In the hands of the program. *)
Definition live (b : block) : bool := match k_phase b with Live => true | _ => false end.
(** No thread is inside the allocator. *)
Definition quiet (s : state) : Prop := Forall (fun b => k_phase b = Live \/ k_phase b = Gone) (blocks s).

Definition no_reset (l : list action) : Prop := ~ In ResetA l /\ ~ In ResetD l.
