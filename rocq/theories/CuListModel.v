(** Model of the copper list manager. *)
From Coq Require Import List Arith NArith Bool.
From Verif Require Import Base.
Import ListNotations.

(** core/cu29_runtime/src/copperlist.rs:26-32 [CopperListState]. *)
Inductive clstate := Free | Initialized | Processing | DoneProcessing | BeingSerialized.

(** Derived [PartialEq], core/cu29_runtime/src/copperlist.rs:25. *)
Definition clstate_eqb (a b : clstate) : bool :=
  match a, b with
  | Free, Free | Initialized, Initialized | Processing, Processing
  | DoneProcessing, DoneProcessing | BeingSerialized, BeingSerialized => true
  | _, _ => false
  end.

(** core/cu29_runtime/src/copperlist.rs:47-51 [CopperList]; [P] is the
    message tuple generated from the configuration. The id is a u32, kept as
    [N]; the bound is enforced where the manager assigns it. *)
Record cl (P : Type) := mkCl { cl_id : N; cl_state : clstate; cl_msgs : P }.
Arguments mkCl {P}. Arguments cl_id {P}. Arguments cl_state {P}. Arguments cl_msgs {P}.

(** core/cu29_runtime/src/copperlist.rs:63-65 [CopperList::change_state]. *)
Definition change_state {P} (s : clstate) (c : cl P) : cl P :=
  mkCl (cl_id c) s (cl_msgs c).

(** core/cu29_runtime/src/copperlist.rs:75-80 [CuListsManager]; the const
    generic capacity [N] is the length of [m_data]. *)
Record mgr (P : Type) := mkMgr {
  m_data : list (cl P); m_len : nat; m_ins : nat; m_next : N }.
Arguments mkMgr {P}. Arguments m_data {P}. Arguments m_len {P}.
Arguments m_ins {P}. Arguments m_next {P}.

Section Mgr.
Context {P : Type}.
Implicit Types m : mgr P.

(** The capacity [N] of core/cu29_runtime/src/copperlist.rs:75. *)
Definition cap m : nat := length (m_data m).

(** core/cu29_runtime/src/copperlist.rs:105-117 [new]; [zero] is the all-zero
    message tuple (the allocation is zeroed: id 0, state discriminant 0 = Free). *)
Definition mgr_new (n : nat) (zero : P) : mgr P :=
  mkMgr (repeat (mkCl 0 Free zero) n) 0 0 0.

(** core/cu29_runtime/src/copperlist.rs:136-138 [is_full]. *)
Definition is_full m : bool := Nat.eqb (cap m) (m_len m).

(** core/cu29_runtime/src/copperlist.rs:129-131 [is_empty]. *)
Definition is_empty m : bool := Nat.eqb (m_len m) 0.

(** core/cu29_runtime/src/copperlist.rs:143-146 [clear]. *)
Definition clear m : mgr P := mkMgr (m_data m) 0 0 (m_next m).

(** [self.current_cl_id += 1] on a u32,
    core/cu29_runtime/src/copperlist.rs:159. *)
Definition succ_u32 (mode : ovf_mode) (x : N) : outcome N :=
  if (x + 1 <? 2 ^ 32)%N then Ret (x + 1)%N
  else match mode with Checked => Panic | Wrapping => Ret ((x + 1) mod 2 ^ 32)%N end.

(** core/cu29_runtime/src/copperlist.rs:149-162 [create]. The returned mutable
    reference is modelled by the index of the slot it designates. *)
Definition create (mode : ovf_mode) m : outcome (option (mgr P * nat)) :=
  if is_full m then Ret None
  else
    match nth_error (m_data m) (m_ins m) with
    | None => Panic
    | Some slot =>
        let! nid := succ_u32 mode (m_next m) in
        let slot' := mkCl (m_next m) (cl_state slot) (cl_msgs slot) in
        Ret (Some (mkMgr (upd (m_ins m) slot' (m_data m)) (m_len m + 1)
                         ((m_ins m + 1) mod cap m) nid, m_ins m))
    end.

(** Index computation shared by core/cu29_runtime/src/copperlist.rs:170-174,
    184-188 and 197-201. *)
Definition prev_ins m : nat :=
  if Nat.eqb (m_ins m) 0 then cap m - 1 else m_ins m - 1.

(** core/cu29_runtime/src/copperlist.rs:166-176 [peek]. *)
Definition peek m : outcome (option (cl P)) :=
  if Nat.eqb (m_len m) 0 then Ret None
  else match nth_error (m_data m) (prev_ins m) with
       | Some c => Ret (Some c) | None => Panic end.

(** core/cu29_runtime/src/copperlist.rs:180-190 [drop_last]. *)
Definition drop_last m : mgr P :=
  if Nat.eqb (m_len m) 0 then m
  else mkMgr (m_data m) (m_len m - 1) (prev_ins m) (m_next m).

(** core/cu29_runtime/src/copperlist.rs:193-204 [pop]; the returned mutable
    reference is modelled by the slot's content. *)
Definition pop m : outcome (mgr P * option (cl P)) :=
  if Nat.eqb (m_len m) 0 then Ret (m, None)
  else match nth_error (m_data m) (prev_ins m) with
       | Some c => Ret (mkMgr (m_data m) (m_len m - 1) (prev_ins m) (m_next m), Some c)
       | None => Panic
       end.

(** core/cu29_runtime/src/copperlist.rs:211-214 [iter]: [split_at] panics when
    the index exceeds the slice length. *)
Definition iter m : outcome (list (cl P)) :=
  let live := firstn (m_len m) (m_data m) in
  if (m_ins m <=? length live)
  then Ret (rev (firstn (m_ins m) live) ++ rev (skipn (m_ins m) live))
  else Panic.

(** core/cu29_runtime/src/copperlist.rs:221-224 [iter_mut], as the sequence of
    slots it visits. *)
Definition iter_mut m : outcome (list (cl P)) :=
  if (m_ins m <=? cap m)
  then Ret (rev (firstn (m_ins m) (m_data m)) ++ rev (skipn (m_ins m) (m_data m)))
  else Panic.

(** core/cu29_runtime/src/copperlist.rs:231-234 [asc_iter] (and 241-244
    [asc_iter_mut], which visits the same slots). *)
Definition asc_iter m : outcome (list (cl P)) :=
  if (m_ins m <=? cap m)
  then Ret (skipn (m_ins m) (m_data m) ++ firstn (m_ins m) (m_data m))
  else Panic.

(** Writing back through [iter_mut] (core/cu29_runtime/src/copperlist.rs:221-224):
    given the new contents of the slots in visiting order, the new slot array. *)
Definition iter_mut_write m (l : list (cl P)) : mgr P :=
  mkMgr (rev (firstn (m_ins m) l) ++ rev (skipn (m_ins m) l))
        (m_len m) (m_ins m) (m_next m).

End Mgr.

Section Runtime.
Context {P : Type}.

(** One step of the closure of [end_of_processing],
    core/cu29_runtime/src/curuntime.rs:104-120. State: (is_top, nb_done,
    copper lists handed to the logger so far, slots rewritten so far).
    [logger] is [None] when task logging is disabled, otherwise a function
    telling whether logging that copper list succeeds (a failure makes the
    [unwrap] panic). *)
Definition eop_step (logger : option (cl P -> bool)) (id : N)
    (s : outcome (bool * nat * list (cl P) * list (cl P))) (c : cl P)
    : outcome (bool * nat * list (cl P) * list (cl P)) :=
  let! (is_top, nb, logged, out) := s in
  let c := if (cl_id c =? id)%N && clstate_eqb (cl_state c) Processing
           then change_state DoneProcessing c else c in
  if is_top && clstate_eqb (cl_state c) DoneProcessing
  then
    match logger with
    | None => Ret (is_top, nb + 1, logged, out ++ [change_state Free c])
    | Some ok =>
        let c := change_state BeingSerialized c in
        if ok c
        then Ret (is_top, nb + 1, logged ++ [c], out ++ [change_state Free c])
        else Panic
    end
  else Ret (false, nb, logged, out ++ [c]).

(** The loop popping the finished lists,
    core/cu29_runtime/src/curuntime.rs:121-123. *)
Fixpoint pop_n (n : nat) (m : mgr P) : outcome (mgr P) :=
  match n with
  | O => Ret m
  | S n => let! (m, _) := pop m in pop_n n m
  end.

(** core/cu29_runtime/src/curuntime.rs:101-124 [end_of_processing]; returns the
    new manager and the copper lists handed to the logger, in order. *)
Definition end_of_processing (logger : option (cl P -> bool)) (m : mgr P) (id : N)
    : outcome (mgr P * list (cl P)) :=
  let! slots := iter_mut m in
  let! (_, nb, logged, out) :=
    fold_left (eop_step logger id) slots (Ret (true, 0, [], [])) in
  let! m := pop_n nb (iter_mut_write m out) in
  Ret (m, logged).

(** core/cu29_runtime/src/curuntime.rs:97-99 [available_copper_lists]. *)
Definition available_copper_lists (m : mgr P) : nat := cap m - m_len m.

End Runtime.
