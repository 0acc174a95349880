(** Common vocabulary: outcomes of Rust code and list utilities. *)
From Coq Require Import List Arith Lia NArith ZArith Bool ZifyBool ZifyNat ZifyN.
Import ListNotations.
Ltac Zify.zify_post_hook ::= Z.div_mod_to_equations.

#[global] Arguments Nat.ltb : simpl never.
#[global] Arguments Nat.leb : simpl never.
#[global] Arguments Nat.modulo : simpl never.
#[global] Arguments Nat.div : simpl never.
#[global] Arguments N.add : simpl never.
#[global] Arguments N.sub : simpl never.
#[global] Arguments N.mul : simpl never.
#[global] Arguments N.pow : simpl never.
#[global] Arguments N.div : simpl never.
#[global] Arguments N.modulo : simpl never.
#[global] Arguments N.ltb : simpl never.
#[global] Arguments N.leb : simpl never.
#[global] Arguments N.eqb : simpl never.
#[global] Arguments Z.add : simpl never.
#[global] Arguments Z.sub : simpl never.
#[global] Arguments Z.mul : simpl never.
#[global] Arguments Z.pow : simpl never.
#[global] Arguments Z.div : simpl never.
#[global] Arguments Z.modulo : simpl never.
#[global] Arguments Z.ltb : simpl never.
#[global] Arguments Z.leb : simpl never.
#[global] Arguments Z.eqb : simpl never.

(** Result of running a piece of Rust code: either it returns, or it panics
    (explicit [panic!], failed [unwrap]/[expect], out of bounds index, or
    arithmetic overflow in a build with overflow checks). Example:
    core/cu29_clock/src/lib.rs:231-236. *)
Inductive outcome (A : Type) : Type :=
| Ret (a : A)
| Panic.
Arguments Ret {A} a.
Arguments Panic {A}.

(** Going on after a piece of code that may panic (as in
    core/cu29_runtime/src/curuntime.rs:308-316). *)
Definition obind {A B} (x : outcome A) (f : A -> outcome B) : outcome B :=
  match x with Ret a => f a | Panic => Panic end.
Notation "'let!' x ':=' a 'in' b" := (obind a (fun x => b))
  (at level 200, x pattern, right associativity).

(** How Rust integer overflow behaves: [Checked] (debug builds, panic) or
    [Wrapping] (release builds, modulo 2^n), as for the counter of
    core/cu29_log_derive/src/index.rs:83-93. *)
Inductive ovf_mode := Checked | Wrapping.

(** [upd i x l]: the slice [l] after [l[i] = x]; unchanged when out of bounds
    (callers check bounds where the Rust code would panic), as at
    core/cu29_soa_derive/src/lib.rs:204. *)
Fixpoint upd {A} (i : nat) (x : A) (l : list A) : list A :=
  match l, i with
  | [], _ => []
  | _ :: t, O => x :: t
  | h :: t, S j => h :: upd j x t
  end.

Lemma upd_length {A} i (x : A) l : length (upd i x l) = length l.
Proof. revert i; induction l as [|h t IH]; intros [|i]; cbn; auto. Qed.

Lemma nth_error_upd_eq {A} i (x : A) l :
  i < length l -> nth_error (upd i x l) i = Some x.
Proof.
  revert i; induction l as [|h t IH]; intros [|i] H; cbn in *; try lia; auto.
  apply IH; lia.
Qed.

Lemma nth_error_upd_neq {A} i j (x : A) l :
  i <> j -> nth_error (upd i x l) j = nth_error l j.
Proof.
  revert i j; induction l as [|h t IH]; intros [|i] [|j] H; cbn; auto; try lia.
Qed.

Lemma firstn_upd_ge {A} n i (x : A) l : n <= i -> firstn n (upd i x l) = firstn n l.
Proof.
  revert n i; induction l as [|h t IH]; intros [|n] [|i] H; cbn; auto; try lia.
  f_equal; apply IH; lia.
Qed.

Lemma firstn_S_nth {A} n (x : A) l :
  nth_error l n = Some x -> firstn (S n) l = firstn n l ++ [x].
Proof.
  revert n; induction l as [|h t IH]; intros [|n] H; cbn in *; try congruence.
  f_equal; apply IH; auto.
Qed.

Lemma firstn_S_upd {A} n (x : A) l :
  n < length l -> firstn (S n) (upd n x l) = firstn n l ++ [x].
Proof.
  intros H. rewrite (firstn_S_nth n x).
  - now rewrite firstn_upd_ge by lia.
  - now apply nth_error_upd_eq.
Qed.

Lemma skipn_upd_lt {A} n i (x : A) l : i < n -> skipn n (upd i x l) = skipn n l.
Proof.
  revert n i; induction l as [|h t IH]; intros [|n] [|i] H; cbn; auto; try lia.
  apply IH; lia.
Qed.

Lemma upd_same {A} i (x : A) l : nth_error l i = Some x -> upd i x l = l.
Proof.
  revert i; induction l as [|h t IH]; intros [|i] H; cbn in *; auto; try congruence.
  f_equal; auto.
Qed.

Lemma nth_error_ext {A} (l1 l2 : list A) :
  (forall i, nth_error l1 i = nth_error l2 i) -> l1 = l2.
Proof.
  revert l2; induction l1 as [|a l1 IH]; intros [|b l2] H; auto.
  - specialize (H 0); cbn in H; congruence.
  - specialize (H 0); cbn in H; congruence.
  - f_equal.
    + specialize (H 0); cbn in H; congruence.
    + apply IH; intros i; apply (H (S i)).
Qed.

Lemma Forall2_length {A B} (R : A -> B -> Prop) l1 l2 :
  Forall2 R l1 l2 -> length l1 = length l2.
Proof. induction 1; cbn; auto. Qed.
