(** What a program that died leaves of its copper lists: theorems. *)
From Coq Require Import List Arith NArith Bool Lia ZifyBool ZifyNat ZifyN.
From Verif Require Import Base BincodeModel BincodeSpec CodecModel CodecSpec CodecProofs ULogModel ULogSpec
  ULogProofs6 ULogProofs7 ULogProofs8 ULogProps ExportProofs.
From Verif Require RuntimeModel CuListModel ReplayModel ReplaySpec ReplayProps RerunModel RerunProps RuntimeProps.
Import ListNotations.
Open Scope N_scope.

(** * Specification *)
(** How a sequence of reads ended: not yet, at the end of the data, with an error. *)
Inductive stop := More | Eof | Failed.
(** A program that reads into buffers of sizes [ns] until it is given nothing or an error. *)
Fixpoint pump (fs : list file) (F : nat) (t : logtype) (ns : list N) (io : ioreader) : bytes * stop :=
  match ns with
  | [] => ([], More)
  | n :: ns =>
      match io_read fs F t n io with
      | ROk (_, []) => ([], Eof)
      | ROk (io, out) => let (b, s) := pump fs F t ns io in (out ++ b, s)
      | _ => ([], Failed)
      end
  end.
(** Whatever the sizes of the buffers, such a program is given exactly [b]; every read gives at
    least a byte until the end. *)
Definition leaves (fs : list file) (t : logtype) (b : bytes) : Prop :=
  exists r F, reader_new fs = ROk r /\ forall ns, Forall (fun n => 0 < n) ns ->
    match pump fs F t ns (mkIO r [] 0) with
    | (out, More) => (exists rest, b = out ++ rest) /\ (length ns <= length out)%nat
    | (out, _) => out = b
    end.
(** The values of stream [i] in sections that it has closed. *)
Definition closed_values (i : nat) (l : list asec) : list bytes :=
  flat_map a_objs (filter (fun s => Nat.eqb (a_owner s) i && negb (a_open s)) l).

(** * Proofs *)
(** Sections that all hold data, then only empty ones. *)
Fixpoint rdu (fs : list file) (t : logtype) (F : nat) (r : reader) (cs : list bytes) : Prop :=
  match cs with
  | [] => match read_next fs F t r with ROk (_, None) | ROk (_, Some []) => True | RErr => True | _ => False end
  | c :: cs => exists r', read_next fs F t r = ROk (r', Some c) /\ rdu fs t F r' cs
  end.

Lemma rdu_mono fs t F F' : (F <= F')%nat -> forall cs r, rdu fs t F r cs -> rdu fs t F' r cs.
Proof.
  intros L. induction cs as [|c cs IH]; intros r; cbn.
  - intros H. destruct (read_next fs F t r) as [[r' [[|]|]]| | |] eqn:E; try tauto;
      rewrite (read_next_fuel fs t F r F') by (auto; congruence); rewrite E; exact H.
  - intros (r' & H1 & H2). exists r'. split; [|auto]. rewrite (read_next_fuel fs t F r F'); auto; congruence.
Qed.

Lemma reads_rdu fs t r cs j e : reads_from fs t r (cs ++ repeat [] j) e -> (e = RErr \/ e = ROk tt) -> exists F, rdu fs t F r cs.
Proof.
  revert r. induction cs as [|c cs IH]; intros r H He; cbn [app] in H.
  - destruct j as [|j]; cbn in H.
    + inversion H; subst; exists fuel; cbn; match goal with Q : read_next _ _ _ _ = _ |- _ => rewrite Q end; exact I.
    + inversion H; subst. exists fuel. cbn. match goal with Q : read_next _ _ _ _ = _ |- _ => rewrite Q end. exact I.
  - inversion H; subst. match goal with Q : reads_from _ _ _ (cs ++ _) _ |- _ => destruct (IH _ Q He) as (F & HF) end. exists (Nat.max fuel F). cbn. exists r'. split.
    + rewrite (read_next_fuel fs t fuel r); auto; [congruence|lia].
    + eapply rdu_mono; [|exact HF]. lia.
Qed.

Lemma pump_spec fs t F : forall ns io cs, Forall (fun n => 0 < n) ns -> rdu fs t F (io_rd io) cs -> Forall (fun c => c <> []) cs ->
  match pump fs F t ns io with
  | (out, More) => (exists rest, left_of io cs = out ++ rest) /\ (length ns <= length out)%nat
  | (out, _) => out = left_of io cs
  end.
Proof.
  induction ns as [|n ns IH]; intros io cs Hn HR Hc; cbn [pump].
  - split; [exists (left_of io cs); reflexivity|cbn; lia].
  - inversion Hn as [|? ? Pn Hn']; subst.
    assert (Copy : forall rd buf pos cs', rdu fs t F rd cs' -> Forall (fun c => c <> []) cs' -> pos < blen buf ->
      let len := N.min n (blen buf - pos) in
      let out := firstn (N.to_nat len) (skipn (N.to_nat pos) buf) in
      left_of (mkIO rd buf pos) cs' = out ++ left_of (mkIO rd buf (pos + len)) cs' /\ out <> []).
    { intros rd buf pos cs' _ _ L len out. split.
      - unfold left_of, out. cbn [io_pos io_buf]. rewrite app_assoc. f_equal.
        replace (N.to_nat (pos + len)) with (N.to_nat len + N.to_nat pos)%nat by lia.
        rewrite <- (firstn_skipn (N.to_nat len) (skipn (N.to_nat pos) buf)) at 1. f_equal.
        rewrite skipn_skipn. reflexivity.
      - intros E. apply (f_equal (@length _)) in E. unfold out in E.
        rewrite firstn_length, skipn_length in E. unfold blen in *. cbn in E. lia. }
    assert (Go : forall io1 out io2 cs2, io_read fs F t n io = ROk (io2, out) -> rdu fs t F (io_rd io2) cs2 -> Forall (fun c => c <> []) cs2 ->
      left_of io1 cs2 = left_of io cs -> left_of io1 cs2 = out ++ left_of io2 cs2 -> out <> [] ->
      match (match io_read fs F t n io with ROk (_, []) => ([], Eof) | ROk (io, out) => let (b, s) := pump fs F t ns io in (out ++ b, s) | _ => ([], Failed) end) with
      | (out, More) => (exists rest, left_of io cs = out ++ rest) /\ (length (n :: ns) <= length out)%nat
      | (out, _) => out = left_of io cs
      end).
    { intros io1 out io2 cs2 E R2 C2 El1 El2 Ne. rewrite E. specialize (IH io2 cs2 Hn' R2 C2).
      destruct out as [|y out]; [congruence|]. destruct (pump fs F t ns io2) as [b s].
      destruct s; [destruct IH as ((rest & Er) & Ln); split; [exists rest; rewrite <- El1, El2, Er, app_assoc; reflexivity|rewrite app_length; cbn; lia]
                  |subst b; rewrite <- El1, El2; reflexivity..]. }
    unfold io_read in *. destruct (N.leb_spec (blen (io_buf io)) (io_pos io)) as [L|L].
    + assert (El : forall cs, left_of io cs = concat cs).
      { intros cs0. unfold left_of. rewrite skipn_all2 by (unfold blen in L; lia). reflexivity. }
      destruct cs as [|c cs]; cbn in HR.
      * rewrite El. destruct (read_next fs F t (io_rd io)) as [[r' [[|y c]|]]| | |]; try tauto; reflexivity.
      * destruct HR as (r' & HR & HR'). rewrite HR in *. cbn [rbind io_buf io_pos] in *. inversion Hc as [|? ? Nc Hc']; subst.
        assert (Lc : 0 < blen c) by (destruct c; [congruence|unfold blen; cbn; lia]).
        destruct (N.leb_spec (blen c) 0) as [Lc'|_]; [lia|].
        destruct (Copy r' c 0 cs HR' Hc' Lc) as [C1 C2]. cbn [io_rd] in *.
        refine (Go (mkIO r' c 0) _ _ cs eq_refl HR' Hc' _ C1 C2). rewrite El. reflexivity.
    + destruct io as [rd buf pos]. cbn [io_buf io_pos io_rd] in *.
      destruct (N.leb_spec (blen buf) pos) as [L'|_]; [lia|].
      destruct (Copy rd buf pos cs HR Hc L) as [C1 C2].
      exact (Go (mkIO rd buf pos) _ _ cs eq_refl HR Hc eq_refl C1 C2).
Qed.

Lemma reads_leaves fs t cs j e : reads fs t (cs ++ repeat [] j) e -> (e = RErr \/ e = ROk tt) -> Forall (fun c => c <> []) cs -> leaves fs t (concat cs).
Proof.
  intros (r & Er & R) He Hc. destruct (reads_rdu _ _ _ _ _ _ R He) as (F & HF). exists r, F. split; [exact Er|].
  intros ns Hn. exact (pump_spec fs t F ns (mkIO r [] 0) cs Hn HF Hc).
Qed.

(** New sections are open. *)
Lemma step_new ps sz n l op n' l' : astep ps sz (n, l) op = Some (n', l') ->
  forall k s, (length l <= k)%nat -> nth_error l' k = Some s -> a_open s = true.
Proof.
  intros E k s Hk Hs. assert (Lk : (k < length l')%nat) by (apply nth_error_Some; congruence).
  destruct op as [t min|j o|j]; cbn [astep] in E.
  - destruct (usable ps sz min); [|discriminate]. injection E as <- <-. rewrite app_length in Lk. cbn in Lk.
    rewrite nth_error_app2 in Hs by lia. replace (k - length l)%nat with 0%nat in Hs by lia. cbn in Hs. injection Hs as <-. reflexivity.
  - destruct (focus j l) as [[[a x] b]|] eqn:F; [|discriminate]. destruct (focus_split _ _ _ _ _ F) as (-> & _ & _).
    rewrite app_length in Hk. cbn in Hk.
    destruct (15 + a_used x + blen (obytes o) <=? a_min x).
    + injection E as <- <-. destruct (o_ok o); rewrite app_length in Lk; cbn in Lk; lia.
    + destruct (o_ok o && (15 + blen (obytes o) <=? a_min x)); [|discriminate]. injection E as <- <-.
      rewrite app_length in Lk. cbn in Lk. rewrite app_length in Lk. cbn in Lk.
      rewrite app_comm_cons, app_assoc in Hs. rewrite nth_error_app2 in Hs by (rewrite app_length; cbn; lia).
      rewrite app_length in Hs. cbn in Hs. match type of Hs with nth_error _ ?z = _ => replace z with 0%nat in Hs by lia end. cbn in Hs. injection Hs as <-. reflexivity.
  - destruct (focus j l) as [[[a x] b]|] eqn:F; [|discriminate]. destruct (focus_split _ _ _ _ _ F) as (-> & _ & _).
    injection E as <- <-. rewrite app_length in *. cbn in *. lia.
Qed.

Lemma progress_nth l l' k s : progress l l' -> nth_error l k = Some s -> exists s', nth_error l' k = Some s' /\ evolves s s'.
Proof.
  intros (l1 & l2 & -> & H) E. revert k E. induction H as [|a b l l1 Hab _ IH]; intros k E; [destruct k; discriminate|].
  destruct k as [|k]; cbn in *; [injection E as <-; eauto|]. apply IH. exact E.
Qed.

(** In a stage between two operations, the sections of a stream after an open one are open. *)
Definition settled_first (i : nat) (x : list asec) : Prop :=
  forall j k s y, (j < k)%nat -> nth_error x j = Some s -> nth_error x k = Some y -> a_owner s = i -> a_owner y = i -> a_open s = true -> a_open y = true.
Lemma stage_settled i ps sz ops op n l n' l' x :
  asteps ps sz (0%nat, []) ops = Some (n, l) -> astep ps sz (n, l) op = Some (n', l') ->
  progress l x -> progress x l' -> settled_first i x.
Proof.
  intros A A2 P1 P2 j k s y Hjk Hs Hy Os Oy Ps.
  destruct (Nat.lt_ge_cases k (length l)) as [Hk|Hk].
  - exfalso. destruct (nth_error l j) as [s0|] eqn:E0; [|apply nth_error_None in E0; lia].
    destruct (nth_error l k) as [y0|] eqn:E1; [|apply nth_error_None in E1; lia].
    destruct (progress_nth _ _ _ _ P1 E0) as (s' & E2 & V1). rewrite Hs in E2. injection E2 as <-.
    destruct (progress_nth _ _ _ _ P1 E1) as (y' & E3 & V2). rewrite Hy in E3. injection E3 as <-.
    assert (O0 : a_open s0 = true). { destruct (a_open s0) eqn:X; [reflexivity|]. destruct V1 as (_ & _ & _ & _ & V1). specialize (V1 X). congruence. }
    destruct (nth_error_split _ _ E0) as (a & b & El & La). pose proof (ai_open _ _ _ (ainv_steps _ _ _ _ _ A) a s0 b El O0) as Fb.
    rewrite El, nth_error_app2 in E1 by lia. destruct (k - length a)%nat as [|d] eqn:Ed; [lia|]. cbn in E1. apply nth_error_In in E1.
    rewrite Forall_forall in Fb. apply (Fb y0 E1). destruct V1 as (V1 & _), V2 as (V2 & _). congruence.
  - destruct (progress_nth _ _ _ _ P2 Hy) as (y' & E3 & V2). pose proof (step_new _ _ _ _ _ _ _ A2 k y' Hk E3) as Oy'.
    destruct (a_open y) eqn:X; [reflexivity|]. destruct V2 as (_ & _ & _ & _ & V2). specialize (V2 X). congruence.
Qed.

Lemma settled_tail i s x : settled_first i (s :: x) -> settled_first i x.
Proof. intros H j k a b Hjk Ha Hb. apply (H (S j) (S k)); auto. lia. Qed.
Lemma settled_firstn i p x : settled_first i x -> settled_first i (firstn p x).
Proof.
  intros H j k s y Hjk Hs Hy. assert (G : forall q v, nth_error (firstn p x) q = Some v -> nth_error x q = Some v).
  { intros q v. clear. revert p x. induction q as [|q IH]; intros [|p] [|z x] E; cbn in *; try discriminate; auto. apply (IH p); auto. }
  apply (H j k); auto.
Qed.

(** The closed sections of a stream, which come first. *)
Fixpoint first_closed (l : list asec) : list asec :=
  match l with [] => [] | s :: l => if a_open s then [] else s :: first_closed l end.
Lemma contents_split i x : settled_first i x ->
  exists j, map a_content (own i x) = map a_bytes (first_closed (own i x)) ++ repeat [] j.
Proof.
  induction x as [|s x IH]; intros H; [exists 0%nat; reflexivity|]. pose proof (settled_tail _ _ _ H) as Ht. destruct (IH Ht) as (j & E).
  cbn [own filter]. destruct (Nat.eqb_spec (a_owner s) i) as [Hi|Hi]; [|exists j; exact E].
  fold (own i x). cbn [map first_closed]. unfold a_content at 1. destruct (a_open s) eqn:O.
  - exists (S (length (own i x))). cbn [map app repeat]. f_equal.
    assert (G : Forall (fun y => a_open y = true) (own i x)).
    { apply Forall_forall. intros y Hy. apply filter_In in Hy. destruct Hy as [Hy Ho]. apply Nat.eqb_eq in Ho.
      apply In_nth_error in Hy. destruct Hy as (k & Hk). apply (H 0%nat (S k) s y); auto. lia. }
    clear - G. induction G as [|y z Hy Hz IHz]; [reflexivity|]. cbn [map length repeat]. rewrite IHz. unfold a_content. now rewrite Hy.
  - exists j. cbn [map app]. now rewrite E.
Qed.
Lemma own_progress i x l' : progress x l' -> progress (own i x) (own i l').
Proof.
  intros (l1 & l2 & -> & H). exists (own i l1), (own i l2). split; [apply own_app|].
  induction H as [|a b l m Hab _ IH]; [constructor|]. cbn [own filter]. destruct Hab as (Ho & R). rewrite Ho.
  destruct (Nat.eqb (a_owner a) i); [constructor; [split; auto|exact IH]|exact IH].
Qed.
Lemma first_closed_kept x l' : progress x l' -> exists rest, l' = first_closed x ++ rest.
Proof.
  intros (l1 & l2 & -> & H). induction H as [|a b l m Hab _ IH]; [exists l2; reflexivity|].
  cbn [first_closed]. destruct (a_open a) eqn:O; [exists ((b :: m) ++ l2); reflexivity|].
  destruct Hab as (_ & _ & _ & _ & V). rewrite (V O). destruct IH as (rest & IH). exists rest. cbn [app]. now rewrite IH.
Qed.
Lemma firstn_progress p x : progress (firstn p x) x.
Proof.
  exists (firstn p x), (skipn p x). split; [symmetry; apply firstn_skipn|]. induction (firstn p x) as [|s l IH]; constructor; [|exact IH].
  split; [reflexivity|]. split; [reflexivity|]. split; [reflexivity|]. split; [exists []; now rewrite app_nil_r|reflexivity].
Qed.
Lemma progress_trans a b c : progress a b -> progress b c -> progress a c.
Proof.
  intros (b1 & b2 & -> & H1) (c1 & c2 & -> & H2). apply Forall2_app_inv_l in H2. destruct H2 as (d1 & d2 & G1 & _ & ->).
  exists d1, (d2 ++ c2). split; [now rewrite app_assoc|]. revert d1 G1. induction H1 as [|x y l m Hxy _ IH]; intros d1 G1; inversion G1; subst; constructor; auto.
  destruct Hxy as (A1 & A2 & A3 & (o1 & A4) & A5), H1 as (B1 & B2 & B3 & (o2 & B4) & B5).
  split; [congruence|]. split; [congruence|]. split; [congruence|]. split; [exists (o1 ++ o2); rewrite B4, A4, app_assoc; reflexivity|].
  intros O. pose proof (A5 O) as ->. auto.
Qed.

(** What was closed before is among them. *)
Lemma closed_before i ps sz ops n l x : asteps ps sz (0%nat, []) ops = Some (n, l) -> progress l x ->
  (length (closed_values i l) <= length (flat_map a_objs (first_closed (own i x))))%nat.
Proof.
  intros A P.
  assert (S0 : settled_first i l).
  { intros j k s y Hjk Hs Hy Os Oy Ps. exfalso. destruct (nth_error_split _ _ Hs) as (a & b & El & La).
    pose proof (ai_open _ _ _ (ainv_steps _ _ _ _ _ A) a s b El Ps) as Fb.
    rewrite El, nth_error_app2 in Hy by lia. destruct (k - length a)%nat as [|d] eqn:Ed; [lia|]. cbn in Hy. apply nth_error_In in Hy.
    rewrite Forall_forall in Fb. apply (Fb y Hy). congruence. }
  assert (E : closed_values i l = flat_map a_objs (first_closed (own i l))).
  { clear P A. unfold closed_values. induction l as [|s l IH]; [reflexivity|]. pose proof (settled_tail _ _ _ S0) as Ht.
    cbn [own filter]. destruct (Nat.eqb_spec (a_owner s) i) as [Hi|Hi]; cbn [andb]; [|exact (IH Ht)].
    fold (own i l). cbn [first_closed]. destruct (a_open s) eqn:O; cbn [negb].
    - assert (G : filter (fun y => Nat.eqb (a_owner y) i && negb (a_open y)) l = []).
      { destruct (filter _ l) as [|y z] eqn:F; [reflexivity|]. exfalso. assert (Hy : In y (y :: z)) by (left; reflexivity). rewrite <- F in Hy.
        apply filter_In in Hy. destruct Hy as [Hy Ho]. apply andb_true_iff in Ho. destruct Ho as [Ho Hc]. apply Nat.eqb_eq in Ho.
        apply In_nth_error in Hy. destruct Hy as (k & Hk). pose proof (S0 0%nat (S k) s y ltac:(lia) eq_refl Hk Hi Ho O) as X. rewrite X in Hc. discriminate. }
      rewrite G. reflexivity.
    - cbn [flat_map]. now rewrite (IH Ht). }
  rewrite E. pose proof (own_progress i _ _ P) as (l1 & l2 & -> & H). clear -H.
  induction H as [|a b la m Hab _ IH]; [cbn; lia|]. cbn [first_closed app]. destruct (a_open a) eqn:O; [cbn; lia|].
  destruct Hab as (_ & _ & _ & _ & V). rewrite (V O). rewrite O. cbn [flat_map]. rewrite !app_length. lia.
Qed.

(** The stream's sections in [z], read: a beginning of what was logged. *)
Lemma stage_leaves ps sz ops n' l' i t fs z e vals :
  asteps ps sz (0%nat, []) ops = Some (n', l') -> t <> TEmpty ->
  nth_error (opened ops) i = Some t -> (forall j, nth_error (opened ops) j = Some t -> j = i) ->
  logged i ops = vals -> Forall (fun v => v <> []) vals ->
  progress z l' -> settled_first i z -> reads fs t (map a_content (of_type t z)) e -> (e = RErr \/ e = ROk tt) ->
  exists rest, vals = flat_map a_objs (first_closed (own i z)) ++ rest /\ leaves fs t (concat (flat_map a_objs (first_closed (own i z)))).
Proof.
  intros A Ht Hi Hu Hv Hne P S R He. pose proof (ainv_steps _ _ _ _ _ A) as [_ A2 A3 _ _].
  assert (Tz : Forall (fun s => nth_error (opened ops) (a_owner s) = Some (a_type s)) z).
  { apply Forall_forall. intros s Hs. apply In_nth_error in Hs. destruct Hs as (k & Hk). destruct (progress_nth _ _ _ _ P Hk) as (s' & Hk' & (V1 & V2 & _)).
    rewrite Forall_forall in A2. apply nth_error_In in Hk'. specialize (A2 _ Hk'). congruence. }
  rewrite (own_of_type t i ops z Hu Hi Tz) in R. destruct (contents_split i z S) as (j & Ej). rewrite Ej in R.
  destruct (first_closed_kept _ _ (own_progress i _ _ P)) as (rest & Er).
  exists (flat_map a_objs rest). split.
  { rewrite <- Hv, <- A3. unfold values_of. fold (own i l'). rewrite Er, flat_map_app. reflexivity. }
  assert (C : concat (map a_bytes (first_closed (own i z))) = concat (flat_map a_objs (first_closed (own i z)))).
  { clear. induction (first_closed (own i z)) as [|s k IH]; cbn; auto. rewrite concat_app, IH. reflexivity. }
  rewrite <- C.
  assert (Hh : no_holes i l').
  { eapply steps_no_holes; [| | |exact A].
    - intros o Ho Hok. rewrite Forall_forall in Hne. apply Hne. rewrite <- Hv. unfold logged. apply in_flat_map. eexists. split; [exact Ho|]. cbn. rewrite Nat.eqb_refl, Hok. left; reflexivity.
    - constructor.
    - right. cbn. lia. }
  unfold no_holes in Hh. rewrite Er in Hh. destruct Hh as [Hh|Hh].
  - apply (reads_leaves fs t (map a_bytes (first_closed (own i z))) j e R He). apply Forall_app in Hh. destruct Hh as [Hh _].
    apply Forall_forall. intros c Hc. apply in_map_iff in Hc. destruct Hc as (s & <- & Hin). rewrite Forall_forall in Hh. auto.
  - rewrite app_length in Hh. destruct (first_closed (own i z)) as [|s [|s2 k]]; [|cbn [map] in *|cbn in Hh; lia].
    + apply (reads_leaves fs t [] j e R He). constructor.
    + destruct (a_bytes s) as [|y b] eqn:Eb.
      * apply (reads_leaves fs t [] (Datatypes.S j) e R He). constructor.
      * apply (reads_leaves fs t [y :: b] j e R He). repeat constructor. discriminate.
Qed.

Lemma lists_of W pls (cls : list (copperlist pls)) b rest : payloads_ok W pls -> Forall (copperlist_ok W) cls ->
  map enc_cl cls = b ++ rest -> copperlists_dump (concat b) = firstn (length b) cls.
Proof.
  intros Hp Ok E. assert (Eb : b = map enc_cl (firstn (length b) cls)).
  { rewrite <- firstn_map, E, firstn_app, firstn_all, Nat.sub_diag. cbn. now rewrite app_nil_r. }
  rewrite Eb at 1. rewrite concat_map_flat, <- (app_nil_r (flat_map _ _)). apply (dump_sequence W); auto using dec_cl_nil.
  apply Forall_forall. intros c Hc. rewrite Forall_forall in Ok. apply Ok. rewrite <- (firstn_skipn (length b) cls). apply in_or_app. now left.
Qed.

(** ** C168 *)
(** The program dies during the operation [op], after any prefix [es] of its effects on the files;
    [cls] are the lists given to the log, the one in [op] included. *)
Theorem C168_died : forall W pls, payloads_ok W pls ->
  forall ps slab_size ops op sy sy' es es2 i (cls : list (copperlist pls)),
  page_ok ps -> (ps | slab_size) -> sizes_ok ps (ops ++ [op]) -> no_last (ops ++ [op]) ->
  session ps slab_size ops = Ret sy -> lstep ps slab_size sy op = Ret sy' ->
  lg_evs (sy_lg sy') = lg_evs (sy_lg sy) ++ es ++ es2 ->
  nth_error (opened (ops ++ [op])) i = Some TCopperList ->
  (forall j, nth_error (opened (ops ++ [op])) j = Some TCopperList -> j = i) ->
  Forall (copperlist_ok W) cls -> logged i (ops ++ [op]) = map enc_cl cls ->
  let fs := replay (lg_evs (sy_lg sy) ++ es) in
  exists n l k b, asteps ps slab_size (0%nat, []) ops = Some (n, l) /\
    leaves fs TCopperList b /\ copperlists_dump b = firstn k cls /\ (k <= length cls)%nat /\
    ((length (closed_values i l) <= k)%nat \/ middle_full slab_size fs).
Proof.
  intros W pls Hp ps sz ops op sy sy' es es2 i cls P1 P2 P3 P4 E1 E2 Ev Hi Hu Ok Hl fs.
  assert (S1 : sizes_ok ps ops) by (intros t m Hin; apply (P3 t m), in_or_app; auto).
  assert (E3 : session ps sz (ops ++ [op]) = Ret sy').
  { unfold session in *. destruct (logger_new ps sz) as [lg|]; [|discriminate]. cbn in *. revert E1. generalize (mkSys lg []). clear -E2.
    induction ops as [|o ops IH]; intros s E1; cbn in *; [injection E1 as ->; now rewrite E2|]. destruct (lstep ps sz s o); [|discriminate]. cbn in *. auto. }
  pose proof (session_spec ps sz P1 ops S1) as H. rewrite E1 in H. destruct H as (G & _ & A).
  pose proof (session_spec ps sz P1 (ops ++ [op]) P3) as H. rewrite E3 in H. destruct H as (G' & _ & A').
  match type of A with _ = Some (?a, ?b) => set (n := a) in *; set (l := b) in * end.
  match type of A' with _ = Some (?a, ?b) => set (n' := a) in *; set (l' := b) in * end. clearbody n l n' l'. clear G G'.
  destruct (crash ps sz ops op sy sy' es es2 n l n' l' P1 P2 P3 P4 E1 E2 Ev A A') as (x & Q1 & Q2 & Q). fold fs in Q.
  destruct (Q TCopperList ltac:(discriminate)) as (p & R & Hf).
  assert (As : astep ps sz (n, l) op = Some (n', l')).
  { clear -A A'. revert A A'. generalize (0%nat, @nil asec). induction ops as [|o ops IH]; intros s A A'; cbn [asteps app] in *.
    - injection A as ->. destruct (astep ps sz (n, l) op) as [[? ?]|]; [injection A' as -> ->; reflexivity|discriminate].
    - destruct (astep ps sz s o); [|discriminate]. eauto. }
  pose proof (stage_settled i _ _ _ _ _ _ _ _ _ A As Q1 Q2) as Sx.
  assert (Ne : Forall (fun v => v <> []) (map (@enc_cl pls) cls)).
  { apply Forall_forall. intros v Hv. apply in_map_iff in Hv. destruct Hv as (c & <- & _). apply enc_cl_nonempty. }
  destruct (stage_leaves ps sz _ n' l' i TCopperList fs (firstn p x) RErr (map enc_cl cls) A' ltac:(discriminate) Hi Hu Hl Ne
    (progress_trans _ _ _ (firstn_progress p x) Q2) (settled_firstn _ _ _ Sx) R (or_introl eq_refl)) as (rest & Er & Lv).
  exists n, l, (length (flat_map a_objs (first_closed (own i (firstn p x))))), (concat (flat_map a_objs (first_closed (own i (firstn p x))))).
  split; [exact A|]. split; [exact Lv|]. split; [exact (lists_of W pls cls _ rest Hp Ok Er)|]. split.
  - apply (f_equal (@length _)) in Er. rewrite map_length, app_length in Er. lia.
  - destruct Hf as [->|Hf]; [left|right; exact Hf]. rewrite firstn_all. exact (closed_before i _ _ _ _ _ _ A Q1).
Qed.
Print Assumptions C168_died.

(** The same for a program that dies while it shuts the log down: then all lists are closed. *)
Theorem C168_shutdown : forall W pls, payloads_ok W pls ->
  forall ps slab_size ops sy lg es es2 i (cls : list (copperlist pls)),
  page_ok ps -> (ps | slab_size) -> sizes_ok ps ops -> no_last ops ->
  session ps slab_size ops = Ret sy -> all_closed sy -> logger_drop ps slab_size (sy_lg sy) = Ret lg ->
  lg_evs lg = lg_evs (sy_lg sy) ++ es ++ es2 ->
  nth_error (opened ops) i = Some TCopperList -> (forall j, nth_error (opened ops) j = Some TCopperList -> j = i) ->
  Forall (copperlist_ok W) cls -> logged i ops = map enc_cl cls ->
  let fs := replay (lg_evs (sy_lg sy) ++ es) in
  exists k b, leaves fs TCopperList b /\ copperlists_dump b = firstn k cls /\ (k <= length cls)%nat /\
    (k = length cls \/ middle_full slab_size fs).
Proof.
  intros W pls Hp ps sz ops sy lg es es2 i cls P1 P2 P3 P4 E1 Hc Hd Ev Hi Hu Ok Hl fs.
  destruct (log_round_trip ps sz ops sy lg P1 P3 P4 E1 Hc Hd) as (l & A & V & T & Rd).
  destruct (crash_at_shutdown ps sz ops sy lg es es2 _ l P1 P2 P3 P4 E1 Hc Hd Ev A TCopperList ltac:(discriminate)) as (p & e & R & He & Hf). fold fs in R, Hf.
  set (z := own i (firstn p l)).
  assert (Ez : own i l = z ++ own i (skipn p l)) by (unfold z; rewrite <- own_app, firstn_skipn; reflexivity).
  assert (Tz : Forall (fun s => nth_error (opened ops) (a_owner s) = Some (a_type s)) (firstn p l)).
  { rewrite <- (firstn_skipn p l) in T. apply Forall_app in T. apply T. }
  rewrite (own_of_type TCopperList i ops _ Hu Hi Tz) in R. fold z in R.
  assert (Ev' : map enc_cl cls = flat_map a_objs z ++ flat_map a_objs (own i (skipn p l))).
  { rewrite <- Hl, <- V. unfold values_of. fold (own i l). rewrite Ez, flat_map_app. reflexivity. }
  assert (C : concat (map a_bytes z) = concat (flat_map a_objs z)).
  { clear. induction z as [|s k IH]; cbn; auto. rewrite concat_app, IH. reflexivity. }
  exists (length (flat_map a_objs z)), (concat (flat_map a_objs z)). split; [|split; [exact (lists_of W pls cls _ _ Hp Ok Ev')|split]].
  - rewrite <- C. assert (Hh : no_holes i l).
    { eapply steps_no_holes; [| | |exact A].
      - intros o Ho Hok. assert (Q : In (obytes o) (map (@enc_cl pls) cls)).
        { rewrite <- Hl. unfold logged. apply in_flat_map. eexists. split; [exact Ho|]. cbn. rewrite Nat.eqb_refl, Hok. left; reflexivity. }
        apply in_map_iff in Q. destruct Q as (c & Q & _). rewrite <- Q. apply enc_cl_nonempty.
      - constructor.
      - right. cbn. lia. }
    unfold no_holes in Hh. rewrite Ez in Hh. destruct Hh as [Hh|Hh].
    + apply (reads_leaves fs TCopperList (map a_bytes z) 0%nat e); [now rewrite app_nil_r|exact He|].
      apply Forall_app in Hh. destruct Hh as [Hh _]. apply Forall_forall. intros c Hc'. apply in_map_iff in Hc'. destruct Hc' as (s & <- & Hin). rewrite Forall_forall in Hh. auto.
    + rewrite app_length in Hh. destruct z as [|s [|s2 k]]; [|cbn [map] in *|cbn in Hh; lia].
      * apply (reads_leaves fs TCopperList [] 0%nat e); auto.
      * destruct (a_bytes s) as [|y b] eqn:Eb.
        -- apply (reads_leaves fs TCopperList [] 1%nat e R He). constructor.
        -- apply (reads_leaves fs TCopperList [y :: b] 0%nat e R He). repeat constructor. discriminate.
  - apply (f_equal (@length _)) in Ev'. rewrite map_length, app_length in Ev'. lia.
  - destruct Hf as [->|Hf]; [left|right; exact Hf]. apply (f_equal (@length _)) in Ev'. rewrite map_length, app_length, skipn_all in Ev'. cbn in Ev'. lia.
Qed.
Print Assumptions C168_shutdown.

(** Three lists in sections of at most two; the program dies while the second section is begun. *)
Definition ex_cls := RerunProps.ex_cls.
Definition ex_ops2 : list lop := [LOpen TCopperList 60; LOpen TStructured 30] ++ map (fun b => LLog 0 (ex_obj b)) (firstn 2 RerunProps.ex_bytes) ++ [LLog 1 (ex_obj [4; 5])].
Definition ex_op : lop := LLog 0 (ex_obj (nth 2 RerunProps.ex_bytes [])).
Definition ex_probe (sy : sys) : option (nat * option (list bytes * bool)) :=
  match lstep 16 256 sy ex_op with
  | Ret sy' =>
      let es := skipn (length (lg_evs (sy_lg sy))) (lg_evs (sy_lg sy')) in
      Some (length es, read_log (replay (lg_evs (sy_lg sy) ++ firstn 20 es)) TCopperList)
  | Panic => None
  end.
Definition ex_probed := Some (29%nat, Some ([concat (firstn 2 RerunProps.ex_bytes); []], false)).
Lemma ex_read : match session 16 256 ex_ops2 with Ret sy => Some (ex_probe sy) | Panic => None end = Some ex_probed.
Proof. vm_compute. reflexivity. Qed.
Lemma ex_ok : Forall (copperlist_ok RerunProps.kept) ex_cls.
Proof. exact (proj1 (RerunProps.lists_there _ _ _ _ _ RerunProps.ex_fits _ RerunProps.ex_typed)). Qed.
Lemma ex_logged2 : logged 0 (ex_ops2 ++ [ex_op]) = map enc_cl ex_cls.
Proof. vm_compute. reflexivity. Qed.
Example C168_case : page_ok 16 /\ (16 | 256) /\ sizes_ok 16 (ex_ops2 ++ [ex_op]) /\ no_last (ex_ops2 ++ [ex_op]) /\
  payloads_ok RerunProps.kept (RerunModel.types RerunProps.ex_slots) /\ Forall (copperlist_ok RerunProps.kept) ex_cls /\
  opened (ex_ops2 ++ [ex_op]) = [TCopperList; TStructured] /\ logged 0 (ex_ops2 ++ [ex_op]) = map enc_cl ex_cls /\ length ex_cls = 3%nat /\
  exists sy sy' es es2, session 16 256 ex_ops2 = Ret sy /\ lstep 16 256 sy ex_op = Ret sy' /\
    lg_evs (sy_lg sy') = lg_evs (sy_lg sy) ++ es ++ es2 /\ length es = 20%nat /\ length es2 = 9%nat /\
    reads (replay (lg_evs (sy_lg sy) ++ es)) TCopperList [concat (firstn 2 RerunProps.ex_bytes); []] RErr.
Proof.
  split; [exact ex_page|]. split; [exists 16; reflexivity|]. assert (S : sizes_ok 16 (ex_ops2 ++ [ex_op])) by sizes. split; [exact S|]. split; [nolast|].
  split; [exact RerunProps.ex_codecs|]. split; [exact ex_ok|]. split; [reflexivity|]. split; [exact ex_logged2|]. split; [exact RerunProps.ex_length|].
  destruct (session_run 16 256 ex_ops2 ex_probe ex_probed ex_read) as (sy & E & H). unfold ex_probe, ex_probed in H. destruct (lstep 16 256 sy ex_op) as [sy'|] eqn:E2; [|discriminate].
  pose proof (step_evs _ _ _ _ _ _ ex_page S E E2) as Ee. cbv zeta in H.
  set (es := skipn (length (lg_evs (sy_lg sy))) (lg_evs (sy_lg sy'))) in *. injection H as H1 H2.
  exists sy, sy', (firstn 20 es), (skipn 20 es). split; [exact E|]. split; [exact E2|].
  split; [rewrite firstn_skipn; exact Ee|]. split; [rewrite firstn_length, H1; reflexivity|]. split; [rewrite skipn_length, H1; reflexivity|].
  exact (read_log_sound _ _ _ _ H2).
Qed.

(** ** C169 *)
Section Part.
Import RuntimeModel CuListModel ReplayModel ReplaySpec.
Context {V M Er E S : Type}.
(** A part of a run is a run. *)
Lemma driven_part (a : application) (o : oracles V M Er E) : forall between m env env' m' l k, driven a o between m env = (env', m', l) ->
  exists e1 m1, driven a o (firstn k between) m env = (e1, m1, firstn k l).
Proof.
  induction between as [|b bs IH]; intros m env env' m' l k H; cbn [driven] in H.
  - injection H as <- <- <-. rewrite !firstn_nil. cbn. eauto.
  - destruct k as [|k]; [cbn; eauto|]. cbn [firstn driven]. destruct (run_one_iteration a o m (b env)) as [[[e1 m1] t1] r1].
    destruct (driven a o bs m1 e1) as [[e2 m2] l2] eqn:D. injection H as <- <- <-. destruct (IH _ _ _ _ _ k D) as (e3 & m3 & D3). rewrite D3. cbn. eauto.
Qed.
Lemma session_part (a : application) (o : oracles V M Er E) between m env env' m' l k : ReplaySpec.session a o between m env = (env', m', l) ->
  exists e1 m1, ReplaySpec.session a o (firstn k between) m env = (e1, m1, firstn (Datatypes.S k) l).
Proof.
  unfold ReplaySpec.session. destruct (all_tasks a o Start env) as [[e t] r]. destruct (driven a o between m e) as [[e2 m2] l2] eqn:D.
  intros H. injection H as <- <- <-. destruct (driven_part a o _ _ _ _ _ _ k D) as (e3 & m3 & D3). rewrite D3. cbn. eauto.
Qed.
Lemma resim_length (a : application) kind f_task f_process g_sink (policy : phase -> nat -> Er -> decision) src recs m (e : replay S V M) r m2 l2 :
  resim a kind f_task f_process g_sink policy src recs m e = (r, m2, l2) -> Forall (fun x => snd x = RuntimeModel.ROk) l2 -> length l2 = Datatypes.S (length recs).
Proof.
  unfold resim. destruct (all_tasks _ _ Start e) as [[e1 t] x]. destruct x; [|intros H F; injection H as <- <- <-; inversion F as [|? ? X _]; discriminate X..].
  match goal with |- context [resim_loop ?a ?b ?c ?d ?f ?g ?h recs m e1] => destruct (resim_loop a b c d f g h recs m e1) as [[e2 m3] l] eqn:L end.
  intros H F. injection H as <- <- <-. cbn. f_equal. inversion F as [|? ? _ F']; subst. clear F t. revert m e1 e2 m3 l L F'.
  induction recs as [|x recs IH]; intros m e1 e2 m3 l L F'; cbn [resim_loop] in L; [injection L as <- <- <-; reflexivity|].
  match type of L with match ?x with Some _ => _ | None => _ end = _ => destruct x as [e3|] end; [|injection L as <- <- <-; inversion F' as [|? ? X _]; discriminate X].
  match type of L with context [run_one_iteration ?a ?b ?c ?d] => destruct (run_one_iteration a b c d) as [[[e4 m4] t] q] end.
  destruct q; [|injection L as <- <- <-; inversion F' as [|? ? X _]; discriminate X..].
  match type of L with context [resim_loop ?a ?b ?c ?d ?f ?g ?h recs m4 e4] => destruct (resim_loop a b c d f g h recs m4 e4) as [[e5 m5] l5] eqn:L5 end.
  injection L as <- <- <-. cbn. f_equal. inversion F'; subst. eauto.
Qed.
Lemma log_of_part (l : list (list (event V M Er) * result (Er := Er))) k : exists rest, log_of l = log_of (firstn k l) ++ rest.
Proof. exists (log_of (skipn k l)). unfold log_of. rewrite <- flat_map_app, firstn_skipn. reflexivity. Qed.
End Part.

(** The run goes on until the program dies; what is left of its log is replayed. [k] lists are
    left, and the replay is that of the first [k] iterations. *)
Theorem C169_died : forall (V M Er S E : Type) (a : RuntimeModel.application) (o : RuntimeModel.oracles V M Er E) kind (state : E -> nat -> S) f_task f_process g_sink policy time
    meta_in meta_out (W : forall p, p_type p -> Prop) (sl : list (RerunModel.slot V))
    n zero between env src ksrc env' m' l ps slab ops op sy sy' es es2 i cls,
  (* the application and its run, as in C90 *)
  ReplaySpec.replayable a o kind f_process g_sink zero -> ReplaySpec.getters_right a kind ->
  ReplaySpec.deterministic o kind state f_task f_process time -> ReplaySpec.steady o time -> ReplaySpec.recorded_with a o kind g_sink ->
  kind src = PlanModel.Source -> RuntimeSpec.slot_of_task (RuntimeModel.a_plan a) src ksrc ->
  (0 < n)%nat -> N.of_nat (length between) < 2 ^ 32 ->
  Forall (fun b => forall e, ReplaySpec.same_states kind state None e (b e)) between ->
  ReplaySpec.session a o between (CuListModel.mgr_new n zero) env = (env', m', l) -> ReplaySpec.undisturbed policy l ->
  (* its types *)
  payloads_ok W (RerunModel.types sl) -> Forall (fun r => fst r < 2 ^ 32 /\ Forall2 (RerunProps.fits meta_in meta_out W) sl (snd r)) (ReplaySpec.log_of l) ->
  map (RerunModel.typed_list meta_in sl) (ReplaySpec.log_of l) = map Some cls ->
  (* its log, as in C168 *)
  page_ok ps -> (ps | slab) -> sizes_ok ps (ops ++ [op]) -> no_last (ops ++ [op]) ->
  session ps slab ops = Ret sy -> lstep ps slab sy op = Ret sy' ->
  lg_evs (sy_lg sy') = lg_evs (sy_lg sy) ++ es ++ es2 ->
  nth_error (opened (ops ++ [op])) i = Some TCopperList -> (forall j, nth_error (opened (ops ++ [op])) j = Some TCopperList -> j = i) ->
  logged i (ops ++ [op]) = map enc_cl cls ->
  let fs := replay (lg_evs (sy_lg sy) ++ es) in
  exists c secs k b envk mk, asteps ps slab (0%nat, []) ops = Some (c, secs) /\ leaves fs TCopperList b /\ (k <= length cls)%nat /\
    ((length (closed_values i secs) <= k)%nat \/ middle_full slab fs) /\
    ReplaySpec.session a o (firstn k between) (CuListModel.mgr_new n zero) env = (envk, mk, firstn (Datatypes.S k) l) /\
    exists r m2 l2, ReplayModel.resim a kind f_task f_process g_sink policy src (RerunModel.read_lists meta_out sl b)
        (CuListModel.mgr_new n zero) (ReplayModel.Replay (state env) (time env) []) = (r, m2, l2) /\
      ReplaySpec.undisturbed policy l2 /\ map (RerunModel.typed_list meta_in sl) (ReplaySpec.log_of l2) = map Some (firstn k cls) /\
      map (fun x => ReplaySpec.calls kind (fst x)) l2 = map (fun x => ReplaySpec.calls kind (fst x)) (firstn (Datatypes.S k) l) /\
      forall t, kind t = PlanModel.Regular -> ReplayModel.r_tasks r t = state envk t.
Proof.
  intros V M Er S E a o kind state f_task f_process g_sink policy time meta_in meta_out W sl n zero between env src ksrc env' m' l ps slab ops op sy sy' es es2 i cls
    R G D St Rw Ks Sl Hn B Fb H U Po F T P1 P2 P3 P4 P5 P6 P7 P8 P9 P10 fs.
  destruct (RerunProps.lists_there _ _ _ _ _ F _ T) as [Ok Rd].
  destruct (C168_died W _ Po ps slab ops op sy sy' es es2 i cls P1 P2 P3 P4 P5 P6 P7 P8 P9 Ok P10) as (c & secs & k & b & Q1 & Q2 & Q3 & Q4 & Q5). fold fs in Q2, Q5.
  assert (X : forall k, exists e1 m1, ReplaySpec.session a o (firstn k between) (CuListModel.mgr_new n zero) env = (e1, m1, firstn (Datatypes.S k) l) /\
    exists r m2 l2, ReplayModel.resim a kind f_task f_process g_sink policy src (map snd (ReplaySpec.log_of (firstn (Datatypes.S k) l)))
        (CuListModel.mgr_new n zero) (ReplayModel.Replay (state env) (time env) []) = (r, m2, l2) /\
      ReplaySpec.undisturbed policy l2 /\ length l2 = length (firstn (Datatypes.S k) l) /\ ReplaySpec.log_of l2 = ReplaySpec.log_of (firstn (Datatypes.S k) l) /\
      map (fun x => ReplaySpec.calls kind (fst x)) l2 = map (fun x => ReplaySpec.calls kind (fst x)) (firstn (Datatypes.S k) l) /\
      forall t, kind t = PlanModel.Regular -> ReplayModel.r_tasks r t = state e1 t).
  { intros q. destruct (session_part a o _ _ _ _ _ _ q H) as (e1 & m1 & H1). exists e1, m1. split; [exact H1|].
    apply (ReplayProps.C90_steady_partial a o kind state f_task f_process g_sink policy time n zero (firstn q between) env src ksrc e1 m1 (firstn (Datatypes.S q) l)); auto.
    - rewrite firstn_length. lia.
    - rewrite <- (firstn_skipn q between) in Fb. apply Forall_app in Fb. apply Fb.
    - unfold ReplaySpec.undisturbed in *. rewrite <- (firstn_skipn (Datatypes.S q) l) in U. apply Forall_app in U. apply U. }
  assert (Ln : forall q, length (ReplaySpec.log_of (firstn (Datatypes.S q) l)) = Nat.pred (length (firstn (Datatypes.S q) l))).
  { intros q. destruct (X q) as (e1 & m1 & _ & r & m2 & l2 & Y1 & Y2 & Y3 & _). pose proof (resim_length _ _ _ _ _ _ _ _ _ _ _ _ _ Y1) as Y.
    rewrite map_length, Y3 in Y. rewrite Y; [reflexivity|]. eapply Forall_impl; [|exact Y2]. intros x Hx. apply Hx. }
  assert (Lc : length cls = length (ReplaySpec.log_of l)).
  { apply (f_equal (@length _)) in T. rewrite !map_length in T. auto. }
  assert (Ll : (length (ReplaySpec.log_of l) < length l)%nat).
  { destruct l as [|y l0]; [|pose proof (Ln (length l0)) as Y; rewrite (firstn_all2 (n := Datatypes.S (length l0))) in Y by (cbn; lia); cbn [length] in *; lia].
    exfalso. unfold ReplaySpec.session in H. destruct (RuntimeModel.all_tasks a o RuntimeModel.Start env) as [[e1 t1] r1]. destruct (ReplaySpec.driven a o between _ e1) as [[e2 m2] l2]. discriminate H. }
  assert (Lk : ReplaySpec.log_of (firstn (Datatypes.S k) l) = firstn k (ReplaySpec.log_of l)).
  { destruct (log_of_part l (Datatypes.S k)) as (rest & Et). pose proof (Ln k) as Y. rewrite firstn_length in Y.
    transitivity (firstn k (ReplaySpec.log_of (firstn (Datatypes.S k) l) ++ rest)); [|now rewrite <- Et].
    rewrite firstn_app. rewrite (firstn_all2 (n := k)) by lia. replace (k - length (ReplaySpec.log_of (firstn (Datatypes.S k) l)))%nat with 0%nat by lia. now rewrite app_nil_r. }
  destruct (X k) as (e1 & m1 & H1 & r & m2 & l2 & Y1 & Y2 & Y3 & Y4 & Y5 & Y6).
  exists c, secs, k, b, e1, m1. split; [exact Q1|]. split; [exact Q2|]. split; [exact Q4|]. split; [exact Q5|]. split; [exact H1|].
  assert (Rl : RerunModel.read_lists meta_out sl b = map snd (ReplaySpec.log_of (firstn (Datatypes.S k) l))).
  { unfold RerunModel.read_lists. rewrite Q3, Lk, <- !firstn_map. f_equal. exact Rd. }
  rewrite Rl. exists r, m2, l2. split; [exact Y1|]. split; [exact Y2|]. split; [|split; [exact Y5|exact Y6]].
  rewrite Y4, Lk, <- !firstn_map, T. reflexivity.
Qed.
Print Assumptions C169_died.

(** With a clock that tasks do not look at, whatever it shows in either run: the same payloads. *)
Theorem C169_payloads : forall (V M Er S E : Type) (a : RuntimeModel.application) (o : RuntimeModel.oracles V M Er E) kind (state : E -> nat -> S) f_task f_process g_sink policy time
    meta_in meta_out (W : forall p, p_type p -> Prop) (sl : list (RerunModel.slot V))
    n zero between env clock src ksrc env' m' l ps slab ops op sy sy' es es2 i cls,
  (* the application and its run, as in C90 *)
  ReplaySpec.replayable a o kind f_process g_sink zero -> ReplaySpec.getters_right a kind ->
  ReplaySpec.deterministic o kind state f_task f_process time -> ReplaySpec.timeless kind f_task f_process g_sink -> ReplaySpec.recorded_with a o kind g_sink ->
  kind src = PlanModel.Source -> RuntimeSpec.slot_of_task (RuntimeModel.a_plan a) src ksrc ->
  (0 < n)%nat -> N.of_nat (length between) < 2 ^ 32 ->
  Forall (fun b => forall e, ReplaySpec.same_states kind state None e (b e)) between ->
  ReplaySpec.session a o between (CuListModel.mgr_new n zero) env = (env', m', l) -> ReplaySpec.undisturbed policy l ->
  (* its types *)
  payloads_ok W (RerunModel.types sl) -> Forall (fun r => fst r < 2 ^ 32 /\ Forall2 (RerunProps.fits meta_in meta_out W) sl (snd r)) (ReplaySpec.log_of l) ->
  map (RerunModel.typed_list meta_in sl) (ReplaySpec.log_of l) = map Some cls ->
  (* its log, as in C168 *)
  page_ok ps -> (ps | slab) -> sizes_ok ps (ops ++ [op]) -> no_last (ops ++ [op]) ->
  session ps slab ops = Ret sy -> lstep ps slab sy op = Ret sy' ->
  lg_evs (sy_lg sy') = lg_evs (sy_lg sy) ++ es ++ es2 ->
  nth_error (opened (ops ++ [op])) i = Some TCopperList -> (forall j, nth_error (opened (ops ++ [op])) j = Some TCopperList -> j = i) ->
  logged i (ops ++ [op]) = map enc_cl cls ->
  let fs := replay (lg_evs (sy_lg sy) ++ es) in
  exists c secs k b envk mk, asteps ps slab (0%nat, []) ops = Some (c, secs) /\ leaves fs TCopperList b /\ (k <= length cls)%nat /\
    ((length (closed_values i secs) <= k)%nat \/ middle_full slab fs) /\
    ReplaySpec.session a o (firstn k between) (CuListModel.mgr_new n zero) env = (envk, mk, firstn (Datatypes.S k) l) /\
    exists r m2 l2, ReplayModel.resim a kind f_task f_process g_sink policy src (RerunModel.read_lists meta_out sl b)
        (CuListModel.mgr_new n zero) (ReplayModel.Replay (state env) clock []) = (r, m2, l2) /\
      ReplaySpec.undisturbed policy l2 /\ map (fun x => (fst x, map ReplaySpec.untimed (snd x))) (ReplaySpec.log_of l2) = map (fun x => (fst x, map ReplaySpec.untimed (snd x))) (firstn k (ReplaySpec.log_of l)) /\
      map (fun x => map ReplaySpec.untimed_call (ReplaySpec.calls kind (fst x))) l2 = map (fun x => map ReplaySpec.untimed_call (ReplaySpec.calls kind (fst x))) (firstn (Datatypes.S k) l) /\
      forall t, kind t = PlanModel.Regular -> ReplayModel.r_tasks r t = state envk t.
Proof.
  intros V M Er S E a o kind state f_task f_process g_sink policy time meta_in meta_out W sl n zero between env clock src ksrc env' m' l ps slab ops op sy sy' es es2 i cls
    R G D St Rw Ks Sl Hn B Fb H U Po F T P1 P2 P3 P4 P5 P6 P7 P8 P9 P10 fs.
  destruct (RerunProps.lists_there _ _ _ _ _ F _ T) as [Ok Rd].
  destruct (C168_died W _ Po ps slab ops op sy sy' es es2 i cls P1 P2 P3 P4 P5 P6 P7 P8 P9 Ok P10) as (c & secs & k & b & Q1 & Q2 & Q3 & Q4 & Q5). fold fs in Q2, Q5.
  assert (X : forall k, exists e1 m1, ReplaySpec.session a o (firstn k between) (CuListModel.mgr_new n zero) env = (e1, m1, firstn (Datatypes.S k) l) /\
    exists r m2 l2, ReplayModel.resim a kind f_task f_process g_sink policy src (map snd (ReplaySpec.log_of (firstn (Datatypes.S k) l)))
        (CuListModel.mgr_new n zero) (ReplayModel.Replay (state env) clock []) = (r, m2, l2) /\
      ReplaySpec.undisturbed policy l2 /\ length l2 = length (firstn (Datatypes.S k) l) /\ map (fun x => (fst x, map ReplaySpec.untimed (snd x))) (ReplaySpec.log_of l2) = map (fun x => (fst x, map ReplaySpec.untimed (snd x))) (ReplaySpec.log_of (firstn (Datatypes.S k) l)) /\
      map (fun x => map ReplaySpec.untimed_call (ReplaySpec.calls kind (fst x))) l2 = map (fun x => map ReplaySpec.untimed_call (ReplaySpec.calls kind (fst x))) (firstn (Datatypes.S k) l) /\
      forall t, kind t = PlanModel.Regular -> ReplayModel.r_tasks r t = state e1 t).
  { intros q. destruct (session_part a o _ _ _ _ _ _ q H) as (e1 & m1 & H1). exists e1, m1. split; [exact H1|].
    apply (ReplayProps.C90_payloads_partial a o kind state f_task f_process g_sink policy time n zero (firstn q between) env clock src ksrc e1 m1 (firstn (Datatypes.S q) l)); auto.
    - rewrite firstn_length. lia.
    - rewrite <- (firstn_skipn q between) in Fb. apply Forall_app in Fb. apply Fb.
    - unfold ReplaySpec.undisturbed in *. rewrite <- (firstn_skipn (Datatypes.S q) l) in U. apply Forall_app in U. apply U. }
  assert (Ln : forall q, length (ReplaySpec.log_of (firstn (Datatypes.S q) l)) = Nat.pred (length (firstn (Datatypes.S q) l))).
  { intros q. destruct (X q) as (e1 & m1 & _ & r & m2 & l2 & Y1 & Y2 & Y3 & _). pose proof (resim_length _ _ _ _ _ _ _ _ _ _ _ _ _ Y1) as Y.
    rewrite map_length, Y3 in Y. rewrite Y; [reflexivity|]. eapply Forall_impl; [|exact Y2]. intros x Hx. apply Hx. }
  assert (Lc : length cls = length (ReplaySpec.log_of l)).
  { apply (f_equal (@length _)) in T. rewrite !map_length in T. auto. }
  assert (Ll : (length (ReplaySpec.log_of l) < length l)%nat).
  { destruct l as [|y l0]; [|pose proof (Ln (length l0)) as Y; rewrite (firstn_all2 (n := Datatypes.S (length l0))) in Y by (cbn; lia); cbn [length] in *; lia].
    exfalso. unfold ReplaySpec.session in H. destruct (RuntimeModel.all_tasks a o RuntimeModel.Start env) as [[e1 t1] r1]. destruct (ReplaySpec.driven a o between _ e1) as [[e2 m2] l2]. discriminate H. }
  assert (Lk : ReplaySpec.log_of (firstn (Datatypes.S k) l) = firstn k (ReplaySpec.log_of l)).
  { destruct (log_of_part l (Datatypes.S k)) as (rest & Et). pose proof (Ln k) as Y. rewrite firstn_length in Y.
    transitivity (firstn k (ReplaySpec.log_of (firstn (Datatypes.S k) l) ++ rest)); [|now rewrite <- Et].
    rewrite firstn_app. rewrite (firstn_all2 (n := k)) by lia. replace (k - length (ReplaySpec.log_of (firstn (Datatypes.S k) l)))%nat with 0%nat by lia. now rewrite app_nil_r. }
  destruct (X k) as (e1 & m1 & H1 & r & m2 & l2 & Y1 & Y2 & Y3 & Y4 & Y5 & Y6).
  exists c, secs, k, b, e1, m1. split; [exact Q1|]. split; [exact Q2|]. split; [exact Q4|]. split; [exact Q5|]. split; [exact H1|].
  assert (Rl : RerunModel.read_lists meta_out sl b = map snd (ReplaySpec.log_of (firstn (Datatypes.S k) l))).
  { unfold RerunModel.read_lists. rewrite Q3, Lk, <- !firstn_map. f_equal. exact Rd. }
  rewrite Rl. exists r, m2, l2. split; [exact Y1|]. split; [exact Y2|]. split; [|split; [exact Y5|exact Y6]].
  rewrite Y4, Lk. reflexivity.
Qed.
Print Assumptions C169_payloads.

(** The robot of C167 dies at the same place: what it leaves can be run again. *)
Example C169_case : exists sy sy' es es2 k b envk mk, session 16 256 ex_ops2 = Ret sy /\ lstep 16 256 sy ex_op = Ret sy' /\
  lg_evs (sy_lg sy') = lg_evs (sy_lg sy) ++ es ++ es2 /\ length es = 20%nat /\ length es2 = 9%nat /\
  leaves (replay (lg_evs (sy_lg sy) ++ es)) TCopperList b /\ (k <= 3)%nat /\
  ReplaySpec.session (RuntimeProps.line_app false) RerunProps.ex_robot (firstn k ReplayProps.settings) (CuListModel.mgr_new 10 RuntimeProps.zero3) ReplayProps.bot0
    = (envk, mk, firstn (Datatypes.S k) (snd RerunProps.ex_run)) /\
  exists r m2 l2, ReplayModel.resim (RuntimeProps.line_app false) ReplayProps.line_kind ReplayProps.bot_task (ReplayProps.bot_process true) ReplayProps.keep_sink ReplayProps.ignore 0
      (RerunModel.read_lists RerunProps.ex_back RerunProps.ex_slots b) (CuListModel.mgr_new 10 RuntimeProps.zero3)
      (ReplayModel.Replay (ReplayProps.b_state ReplayProps.bot0) (ReplayProps.bot_time ReplayProps.bot0) []) = (r, m2, l2) /\
    map (RerunModel.typed_list RerunProps.ex_meta RerunProps.ex_slots) (ReplaySpec.log_of l2) = map Some (firstn k ex_cls).
Proof.
  destruct RerunProps.C167_case as (env' & m' & l & sy0 & lg0 & H1 & H2 & H3 & H4 & H5 & H6 & H7 & H8 & H9 & H10 & H11 & H12 & H13 & H14 & H15 & _).
  destruct C168_case as (G1 & G2 & G3 & G4 & G5 & G6 & G7 & G8 & G9 & sy & sy' & es & es2 & G10 & G11 & G12 & G13 & G14 & _).
  pose proof (C169_died nat unit nat nat ReplayProps.bot (RuntimeProps.line_app false) RerunProps.ex_robot ReplayProps.line_kind ReplayProps.b_state ReplayProps.bot_task
    (ReplayProps.bot_process true) ReplayProps.keep_sink ReplayProps.ignore ReplayProps.bot_time RerunProps.ex_meta RerunProps.ex_back RerunProps.kept RerunProps.ex_slots
    10 RuntimeProps.zero3 ReplayProps.settings ReplayProps.bot0 0 0 env' m' l 16 256 ex_ops2 ex_op sy sy' es es2 0 ex_cls) as C.
  specialize (C H1 H2 H3 H4 H5 H6 H7 ltac:(lia) ltac:(reflexivity) H8 H9 H10 H11 H12 H13 G1 G2 G3 G4 G10 G11 G12).
  rewrite G7 in C. specialize (C eq_refl ltac:(intros [|[|j]] Q; [reflexivity|discriminate Q|destruct j; discriminate Q]) G8).
  cbv zeta in C. destruct C as (c & secs & k & b & envk & mk & C1 & C2 & C3 & C4 & C5 & r & m2 & l2 & C6 & C7 & C8 & _).
  exists sy, sy', es, es2, k, b, envk, mk. split; [exact G10|]. split; [exact G11|]. split; [exact G12|]. split; [exact G13|]. split; [exact G14|].
  split; [exact C2|]. rewrite G9 in C3. split; [exact C3|].
  replace (snd RerunProps.ex_run) with l by (rewrite H9; reflexivity). split; [exact C5|]. exists r, m2, l2. split; [exact C6|exact C8].
Qed.
