(** Property C110: the scoped allocation counter. *)
From Coq Require Import List Arith NArith Bool Lia.
From Verif Require Import Base AllocModel AllocSpec AllocProofs.
Import ListNotations.
Local Open Scope list_scope.
Local Open Scope N_scope.

(** ** C110 *)
(** In every interleaving of the threads without reset during the life of the counter (and as
    long as the program was handed less than 2^64 bytes in all), the counter gives the bytes
    handed to and freed by the whole program since its creation, and can be dropped. *)
Theorem C110_partial : forall mode l0 l1 l2 s1 s2 s3,
  run initial l0 = Some s1 -> run s1 l1 = Some s2 -> run s2 l2 = Some s3 ->
  no_reset (l1 ++ l2) -> bytes handed (blocks s3) < 2 ^ 64 ->
  let c := scope_new s1 s2 in
  (exists n, get_allocated mode c s3 = Ret n /\
     bytes handed (blocks s3) = bytes handed (blocks s1) + n) /\
  (exists n, get_deallocated mode c s3 = Ret n /\
     bytes freed (blocks s3) = bytes freed (blocks s2) + n) /\
  scope_drop mode c s3 = Ret tt.
Proof.
  intros mode l0 l1 l2 s1 s2 s3 R0 R1 R2 [NA ND] B c.
  pose proof (run_grows _ _ _ R1) as [G1 G1']. pose proof (run_grows _ _ _ R2) as [G2 G2'].
  destruct (run_below l0 initial s1 R0 ltac:(lia)) as [A1 D1]; [cbn; lia|cbn; lia|].
  assert (N1 : no_reset l1) by (split; intros H; [apply NA|apply ND]; apply in_app_iff; auto).
  assert (N2 : no_reset l2) by (split; intros H; [apply NA|apply ND]; apply in_app_iff; auto).
  destruct (run_counts l1 s1 s2 R1 N1 ltac:(lia) A1 D1) as [C1 C1'].
  destruct (run_counts l2 s2 s3 R2 N2 ltac:(lia)) as [C2 C2']; [lia|lia|].
  assert (E1 : get_allocated mode c s3 = Ret (allocated s3 - allocated s1)).
  { unfold get_allocated, sub_usize, c, scope_new. cbn. destruct (N.leb_spec (allocated s1) (allocated s3)); [reflexivity|lia]. }
  assert (E2 : get_deallocated mode c s3 = Ret (deallocated s3 - deallocated s2)).
  { unfold get_deallocated, sub_usize, c, scope_new. cbn. destruct (N.leb_spec (deallocated s2) (deallocated s3)); [reflexivity|lia]. }
  split; [|split].
  - eexists. split; [exact E1|]. lia.
  - eexists. split; [exact E2|]. lia.
  - unfold scope_drop. unfold get_allocated in E1. unfold get_deallocated in E2. rewrite E1, E2. reflexivity.
Qed.
Print Assumptions C110_partial.

(** Without any reset, what was freed never exceeds what was allocated, at any moment of any
    interleaving; the difference is at least what the program holds, and exactly that when no
    thread is inside the allocator. *)
Theorem C110_live_partial : forall l s, run initial l = Some s -> no_reset l ->
  bytes handed (blocks s) < 2 ^ 64 ->
  deallocated s + bytes live (blocks s) <= allocated s /\
  (quiet s -> allocated s = deallocated s + bytes live (blocks s)).
Proof.
  intros l s R N B. destruct (run_counts l initial s R N B) as [C1 C2]; [cbn; lia|cbn; lia|].
  cbn in C1, C2. pose proof (live_le (blocks s)). split; [lia|].
  intros Q. pose proof (quiet_live _ Q). lia.
Qed.
Print Assumptions C110_live_partial.

(** Two threads; a block of 1000 bytes before the scope, one of 24 in it, the first freed. *)
Definition ex_before : list action := [SysAlloc 0 1000 true; CountAlloc 0].
Definition ex_in : list action :=
  [SysAlloc 1 24 true; SysAlloc 0 50 false; SysFree 0; CountAlloc 1; CountFree 0].
Example C110_ex : exists s1 s3, run initial ex_before = Some s1 /\ run s1 ex_in = Some s3 /\
  no_reset ex_in /\ bytes handed (blocks s3) = 1024 /\ quiet s3 /\
  get_allocated Checked (scope_new s1 s1) s3 = Ret 24 /\
  get_deallocated Checked (scope_new s1 s1) s3 = Ret 1000.
Proof.
  eexists. eexists. split; [reflexivity|]. split; [reflexivity|].
  split; [split; cbn; intuition discriminate|]. split; [reflexivity|].
  split; [constructor; [right; reflexivity|]; constructor; [left; reflexivity|]; constructor|]. split; reflexivity.
Qed.

(** With a reset in its scope, reading the counter, or merely dropping it, panics, or gives a
    number that has nothing to do with it. *)
Theorem C110_refuted : exists l0 l1 s1 s2, run initial l0 = Some s1 /\ run s1 l1 = Some s2 /\
  bytes handed (blocks s2) < 2 ^ 64 /\
  get_allocated Checked (scope_new s1 s1) s2 = Panic /\
  scope_drop Checked (scope_new s1 s1) s2 = Panic /\
  get_allocated Wrapping (scope_new s1 s1) s2 = Ret (2 ^ 64 - 1000).
Proof.
  exists ex_before, [ResetA; ResetD]. eexists. eexists. split; [reflexivity|]. split; [reflexivity|].
  repeat split; reflexivity.
Qed.
Print Assumptions C110_refuted.

(** The counter of a thread counts the allocations of the others. *)
Theorem C110_threads_refuted : exists l s, run initial l = Some s /\ no_reset l /\
  bytes (fun b => Nat.eqb (k_thread b) 0) (blocks s) = 0 /\
  get_allocated Checked (scope_new initial initial) s = Ret 24.
Proof.
  exists [SysAlloc 1 24 true; CountAlloc 0]. eexists. split; [reflexivity|].
  split; [split; cbn; intuition discriminate|]. split; reflexivity.
Qed.
Print Assumptions C110_threads_refuted.
