(** What the logger properties say, apart from the code: where the lines of a sequence of
    calls belong, the lines of a thread, and what a log file holds. *)
From Coq Require Import List Arith NArith Bool.
From Verif Require Import Base BincodeModel ValueModel LogModel LoggerModel.
Import ListNotations.
Local Open Scope nat_scope.

Section Spec.
Context {L : Type}.
Implicit Types (h : list (N * call L)).

Definition is_init (x : N * call L) : bool := match snd x with Init _ _ => true | _ => false end.
Definition is_change (x : N * call L) : bool := match snd x with Log _ => false | _ => true end.

(** Where a line belongs after the calls [h], and which clock stamps it: the destination of
    the last [init] unless a logger was dropped since; the clock of the first [init]. *)
Definition belongs h : option (dest * nat) :=
  match find is_init h, find is_change (rev h) with
  | Some (_, Init _ c), Some (_, Init k _) => Some (Dest k, c)
  | Some (_, Init _ c), Some (_, Drop _) => Some (Dummy, c)
  | _, _ => None
  end.

(** The entries that [h] leaves, looking at each position of [h] on its own. *)
Definition entries_of (read : nat -> N -> N) h : list (nat * dest * N * L) :=
  flat_map (fun i => match nth_error h i with
                     | Some (t, Log l) => match belongs (firstn i h) with
                                          | Some (d, c) => [(0, d, read c t, l)]
                                          | None => [] end
                     | _ => [] end) (seq 0 (length h)).
Definition refused_of h : list (nat * L) :=
  flat_map (fun i => match nth_error h i with
                     | Some (_, Log l) => if existsb is_init (firstn i h) then [] else [(0, l)]
                     | _ => [] end) (seq 0 (length h)).

(** What a program expects of its logger: as long as the logger that it initialised last is
    not dropped, a line goes to its destination with the time of its clock. *)
Definition serves (read : nat -> N -> N) h (k c : nat) (t : N) (l : L) : Prop :=
  exists out, w_out (acts read (alone (h ++ [(t, Log l)]))) = out ++ [(0, Dest k, read c t, l)].
Definition alive k h : Prop := Forall (fun x => match snd x with Init _ _ => False | Drop j => j <> k | Log _ => True end) h.

(** ** Threads *)
Implicit Types (a : list (action L)).
(** Thread [th] starts no call before the one before is over; [busy]: a call is under way. *)
Fixpoint proper (th : nat) (busy : bool) a : Prop :=
  match a with
  | [] => True
  | Begin u _ _ :: a => if u =? th then busy = false /\ proper th true a else proper th busy a
  | Finish u :: a => proper th (if u =? th then false else busy) a
  end.
(** The lines thread [th] logs, in order. *)
Definition logged (th : nat) a : list L :=
  flat_map (fun x => match x with Begin u _ (Log l) => if u =? th then [l] else [] | _ => [] end) a.
(** The entries of a thread, and the line that it is about to hand over. *)
Definition entries_by (th : nat) (w : world L) : list (N * L) :=
  flat_map (fun x => match x with (u, _, t, l) => if u =? th then [(t, l)] else [] end) (w_out w).
Definition refused_by (th : nat) (w : world L) : list L :=
  flat_map (fun x => if fst x =? th then [snd x] else []) (w_refused w).
Definition pending (th : nat) (w : world L) : list (N * L) :=
  match w_pc w th with Stamped t l => [(t, l)] | _ => [] end.

Fixpoint nondec (l : list N) : Prop :=
  match l with x :: (y :: _) as r => (x <= y)%N /\ nondec r | _ => True end.
(** The machine times of the calls. *)
Definition nows a : list N := flat_map (fun x => match x with Begin _ t _ => [t] | _ => [] end) a.
Definition monotone (f : N -> N) : Prop := forall s t, (s <= t)%N -> (f s <= f t)%N.

(** No [init] starts in [a]; thread [th] does nothing in [a]. *)
Definition no_init a : Prop := Forall (fun x => match x with Begin _ _ (Init _ _) => False | _ => True end) a.
Definition quiet (th : nat) a : Prop := Forall (fun x => match x with Begin u _ _ => u <> th | Finish u => u <> th end) a.
End Spec.

(** ** Files *)
(** The file reads back as the entries [l]. *)
Inductive reads : bytes -> list log_entry -> Prop :=
| reads_nil : reads [] []
| reads_cons b e b' l : dec_entry b = Some (e, b') -> reads b' l -> reads b (e :: l).
(** The entries [l] were logged in [ops] (in any pieces), with flushes in between, and the
    room on the disk was never changed to less than [need]. *)
Inductive logs : list log_entry -> list fileop -> Prop :=
| logs_nil : logs [] []
| logs_log e pieces l ops : concat pieces = enc_entry e -> logs l ops -> logs (e :: l) (FLog pieces :: ops)
| logs_flush l ops : logs l ops -> logs l (FFlush :: ops).
(** The bytes given to the writer by calls that succeeded in full; [None] stands for a
    call that failed, which leaves some first part of its bytes. *)
Definition prefix (a b : bytes) : Prop := exists r, b = a ++ r.
Inductive accepted : list (fileop * bool) -> bytes -> Prop :=
| acc_nil : accepted [] []
| acc_ok pieces r b : accepted r b -> accepted ((FLog pieces, true) :: r) (concat pieces ++ b)
| acc_fail pieces part r b : prefix part (concat pieces) -> accepted r b -> accepted ((FLog pieces, false) :: r) (part ++ b)
| acc_flush ok r b : accepted r b -> accepted ((FFlush, ok) :: r) b
| acc_room n ok r b : accepted r b -> accepted ((FRoom n, ok) :: r) b.

(** [s] has [c] somewhere in it. *)
Definition shows (s c : txt) : Prop := exists a b, s = a ++ c ++ b.
