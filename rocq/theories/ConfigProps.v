(** Configuration: C30 and C58. *)
From Coq Require Import String List Arith NArith ZArith Bool Lia.
From Verif Require Import Base ConfigModel ConfigSpec ConfigProofs.
Import ListNotations.
Local Open Scope list_scope.
Local Open Scope nat_scope.

(** ** C30 *)
(** However a configuration was built: with unique ids, which tasks keep, writing it and
    reading it gives back the same tasks, connections, monitor and logging settings, in
    the same order. *)
Theorem C30_round_trip : forall l c, build empty_config l = Ret c -> keeps_ids l ->
  NoDup (map n_id (c_nodes c)) -> deserialize (serialize c) = Ret c.
Proof. intros l c B K N. apply round_trip; auto. eapply build_consistent; eauto. Qed.
Print Assumptions C30_round_trip.

(** The file based entry point accepts it exactly when a section is not larger than a
    slab. *)
Theorem C30_read_configuration : forall l c, build empty_config l = Ret c -> keeps_ids l ->
  NoDup (map n_id (c_nodes c)) ->
  exists r, read_configuration (serialize c) = Ret r /\ (r = Some c \/ r = None) /\
  (r = None <-> exists g slab section, c_logging c = Some g /\ lc_slab g = Some slab /\ lc_section g = Some section /\ (slab < section)%N).
Proof.
  intros l c B K N. unfold read_configuration. rewrite (C30_round_trip l c B K N). cbn [obind].
  eexists. split; [reflexivity|]. split; [destruct (validate c); auto|]. unfold validate.
  destruct (c_logging c) as [[[slab|] [section|] e]|]; cbn.
  - destruct (N.ltb_spec slab section); cbn.
    + split; auto. intros _. exists (LoggingConfig (Some slab) (Some section) e), slab, section. auto.
    + split; [discriminate|]. intros (g & a & b & E & E1 & E2 & E3). injection E as <-. cbn in *.
      injection E1 as <-. injection E2 as <-. lia.
  - split; [discriminate|]. intros (g & a & b & E & E1 & E2 & E3). injection E as <-. discriminate.
  - split; [discriminate|]. intros (g & a & b & E & E1 & E2 & E3). injection E as <-. discriminate.
  - split; [discriminate|]. intros (g & a & b & E & E1 & E2 & E3). injection E as <-. discriminate.
  - split; [discriminate|]. intros (g & a & b & E & E1 & E2 & E3). discriminate.
Qed.
Print Assumptions C30_read_configuration.

(** A representation is read exactly when its connections name tasks; what was read is
    written as the same tasks and connections, in the same order, whether or not ids are
    unique. *)
Theorem C30_written_as_read : forall r,
  ((exists c, deserialize r = Ret c) <->
   Forall (fun x => In (x_src x) (map n_id (r_tasks r)) /\ In (x_dst x) (map n_id (r_tasks r))) (r_cnx r)) /\
  forall c, deserialize r = Ret c ->
    r_tasks (serialize c) = r_tasks r /\ r_cnx (serialize c) = r_cnx r /\ r_monitor (serialize c) = r_monitor r /\
    c_logging c = option_map read_logging (r_logging r).
Proof.
  intros r. unfold deserialize. rewrite add_nodes. cbn [empty_config c_nodes c_edges c_monitor c_logging app]. split.
  - pose proof (read_cnx_total (r_cnx r) (Config (r_tasks r) [] None None)) as T. cbn in T. rewrite T. split.
    + intros (c & H). destruct (read_cnx _ _) as [c'|] eqn:E in H; [eauto|discriminate].
    + intros (c & ->). cbn. eauto.
  - intros c. destruct (read_cnx _ _) as [c'|] eqn:E; [|discriminate]. cbn. intros H. injection H as <-. cbn.
    apply read_cnx_ret in E. cbn in E. destruct E as (E1 & E2 & _). auto.
Qed.
Print Assumptions C30_written_as_read.

Local Open Scope string_scope.
Definition ex_ops : list op :=
  [AddNode (Node "a" (Some "A") None); AddNode (Node "b" (Some "B") (Some [("k", CInt 4)])); Connect 1 0 "m" None (Some true);
   AddNode (Node "c" None None); Assign 0 (Node "a" (Some "A2") None); Connect 0 2 "n" (Some 3%N) None;
   SetLogging (Some (LoggingConfig (Some 10%N) (Some 20%N) false))].
Example C30_case : keeps_ids ex_ops /\ exists c, build empty_config ex_ops = Ret c /\ NoDup (map n_id (c_nodes c)) /\
  length (c_edges c) = 2 /\ read_configuration (serialize c) = Ret None.
Proof.
  split.
  - intros pre i n post c m E B H. unfold ex_ops in E.
    repeat (destruct pre as [|? pre]; [discriminate||(injection E as <- <- <-; cbn in B; injection B as <-; cbn in H; injection H as <-; reflexivity)|injection E as <- E]).
    destruct pre; discriminate.
  - eexists. split; [reflexivity|]. cbn. repeat split; auto. repeat constructor; cbn; intuition discriminate.
Qed.

(** Neither condition can be dropped: a task replaced by one with another id makes the
    written configuration unreadable, and with two tasks of the same id a connection of
    the second one is read as one of the first. *)
Theorem C30_conditions_refuted :
  (exists l c, build empty_config l = Ret c /\ NoDup (map n_id (c_nodes c)) /\ deserialize (serialize c) = Panic) /\
  (exists l c c', build empty_config l = Ret c /\ keeps_ids l /\ deserialize (serialize c) = Ret c' /\
     map fst (c_edges c) = [(1, 2)] /\ map fst (c_edges c') = [(0, 2)]).
Proof.
  split.
  - exists [AddNode (Node "a" None None); AddNode (Node "b" None None); Connect 0 1 "m" None None; Assign 0 (Node "c" None None)].
    eexists. split; [reflexivity|]. split; [|reflexivity]. repeat constructor; cbn; intuition discriminate.
  - exists [AddNode (Node "a" None None); AddNode (Node "a" None None); AddNode (Node "b" None None); Connect 1 2 "m" None None].
    eexists. eexists. split; [reflexivity|]. split; [|split; [reflexivity|split; reflexivity]].
    intros pre i n post c m E. repeat (destruct pre as [|? pre]; [discriminate|injection E as _ E]). destruct pre; discriminate.
Qed.
Print Assumptions C30_conditions_refuted.
Local Close Scope string_scope.

(** ** C58 *)
(** A parameter that was set is returned for every integer type it fits, whatever else
    was set after it under other keys. Missing: integers that do not fit the type asked
    for, see [C58_truncated_refuted]. *)
Fixpoint set_all (n : node) (l : list (string * cvalue)) : node :=
  match l with [] => n | (k, v) :: l => set_all (set_param n k v) l end.
Lemma set_other n k k' v : k <> k' -> forall A (f : cvalue -> outcome A), get_param f (set_param n k' v) k = get_param f n k.
Proof.
  intros H A f. unfold get_param, set_param. cbn. destruct (String.eqb_spec k k'); [congruence|].
  destruct (n_config n); reflexivity.
Qed.
Theorem C58_params_partial : forall n k z t l, fits t z -> ~ In k (map fst l) ->
  get_param (int_of t) (set_all (set_param n k (value_of_int z)) l) k = Ret (Some z).
Proof.
  intros n k z t l F. assert (G : forall n, get_param (int_of t) n k = Ret (Some z) -> ~ In k (map fst l) ->
    get_param (int_of t) (set_all n l) k = Ret (Some z)).
  { induction l as [|[k' v] l IH]; cbn; auto. intros m H N. apply IH; [|tauto]. rewrite set_other; auto. }
  apply G. unfold get_param, set_param. cbn. rewrite String.eqb_refl. cbn. rewrite cast_fits; auto.
Qed.
Print Assumptions C58_params_partial.
(** Strings and booleans too. *)
Theorem C58_text_params : forall n k s b l, ~ In k (map fst l) ->
  get_param string_of (set_all (set_param n k (CStr s)) l) k = Ret (Some s) /\
  get_param bool_of (set_all (set_param n k (CBool b)) l) k = Ret (Some b).
Proof.
  intros n k s b l. assert (G : forall A (f : cvalue -> outcome A) r n, get_param f n k = r -> ~ In k (map fst l) ->
    get_param f (set_all n l) k = r).
  { intros A f r. induction l as [|[k' v] l IH]; cbn; auto. intros m H N. apply IH; [|tauto]. rewrite set_other; auto. }
  intros N. split; apply G; auto; unfold get_param, set_param; cbn; rewrite String.eqb_refl; reflexivity.
Qed.
Print Assumptions C58_text_params.
(** Reading an integer gives the configured one modulo the width of the type. *)
Theorem C58_modulo : forall t z, fits t (cast t z) /\ (cast t z mod 2 ^ bits_of t = z mod 2 ^ bits_of t)%Z.
Proof.
  intros t z. split; [apply cast_range|]. unfold cast.
  destruct (is_signed t && _)%bool.
  - rewrite <- (Z_mod_plus_full _ 1 (2 ^ bits_of t)). rewrite Z.mul_1_l, Z.sub_add. apply Z.mod_mod.
    destruct t; cbn; discriminate.
  - apply Z.mod_mod. destruct t; cbn; discriminate.
Qed.
Print Assumptions C58_modulo.
Example C58_case : fits I32 (-70000)%Z /\ ~ In "gain"%string (map fst [("other"%string, CBool true)]) /\
  get_param (int_of I32) (set_all (set_param (Node "t" None None) "gain" (value_of_int (-70000))) [("other"%string, CBool true)]) "gain"
  = Ret (Some (-70000)%Z).
Proof. split; [cbn; lia|]. split; [cbn; intuition discriminate|reflexivity]. Qed.
(** The full claim does not hold: an integer that does not fit is silently replaced. *)
Theorem C58_truncated_refuted : exists n k z z' t, get_param (fun v => match v with CInt z => Ret z | _ => Panic end) n k = Ret (Some z) /\
  get_param (int_of t) n k = Ret (Some z') /\ z <> z'.
Proof.
  exists (set_param (Node "t" None None) "speed" (value_of_int 300)), "speed"%string, 300%Z, 44%Z, U8.
  repeat split; try reflexivity. discriminate.
Qed.
Print Assumptions C58_truncated_refuted.
