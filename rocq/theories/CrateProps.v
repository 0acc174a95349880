(** C149: the configuration file is that of the crate. *)
From Coq Require Import String Ascii.
From Coq Require Import List Arith NArith Bool Lia.
From Verif Require Import Base CrateModel.
Import ListNotations.
Local Open Scope list_scope.

(** A file with this name and content is below the tree, in these directories. *)
Inductive lies : tree -> list text -> text -> option text -> Prop :=
| lies_file : forall n c, lies (File n c) [] n c
| lies_dir : forall name entries t dirs n c, In t entries -> lies t dirs n c -> lies (Dir name entries) (name :: dirs) n c.
(** Equal but for the case of letters. *)
Definition alike (a b : text) : Prop := map small a = map small b.
(** The text, without its blanks, has the name of the crate as [name="crate"] somewhere. *)
Definition mentions (crate content : text) : Prop :=
  exists a b, filter (fun x => negb (is_space x)) content = a ++ list_ascii_of_string "name=""" ++ crate ++ """"%char :: b.
(** A manifest outside of the target directories that mentions the crate. *)
Definition candidate (crate : text) (t : tree) (dirs : list text) : Prop :=
  exists n c, lies t dirs n (Some c) /\ alike n (list_ascii_of_string "Cargo.toml") /\ (forall d, In d dirs -> ~ alike d target) /\ mentions crate c.

Lemma same_name_spec a : forall b, same_name a b = true <-> alike a b.
Proof.
  unfold alike. induction a as [|x a IH]; intros [|y b]; cbn; try (split; [discriminate|discriminate]); try (split; reflexivity).
  rewrite andb_true_iff, IH, Ascii.eqb_eq. split; [intros [-> ->]; reflexivity|intros H; injection H; auto].
Qed.
Lemma starts_spec p : forall s, starts p s = true <-> exists b, s = p ++ b.
Proof.
  induction p as [|x p IH]; intros [|y s]; cbn.
  - split; [eauto|reflexivity].
  - split; [eauto|reflexivity].
  - split; [discriminate|]. intros [b H]. discriminate.
  - rewrite andb_true_iff, IH, Ascii.eqb_eq. split; [intros [-> [b ->]]; eauto|]. intros [b H]. injection H as -> ->. eauto.
Qed.
Lemma contains_spec p s : contains p s = true <-> exists a b, s = a ++ p ++ b.
Proof.
  induction s as [|y s IH]; cbn [contains]; rewrite orb_true_iff, starts_spec.
  - split. { intros [[b H]|H]; [exists [], b; exact H|discriminate]. } intros (a & b & H). left. exists b. destruct a; [exact H|discriminate].
  - rewrite IH. split.
    + intros [[b H]|(a & b & H)]; [exists [], b; exact H|]. exists (y :: a), b. rewrite H. reflexivity.
    + intros ([|x a] & b & H); [left; eauto|]. injection H as -> ->. eauto.
Qed.
(** A size for induction on trees with lists of trees. *)
Fixpoint tsize (t : tree) : nat := match t with Dir _ entries => S (list_sum (map tsize entries)) | _ => 1 end.
Lemma tsize_in t entries : In t entries -> tsize t <= list_sum (map tsize entries).
Proof.
  induction entries as [|x entries IH]; [intros []|]. change (list_sum (map tsize (x :: entries))) with (tsize x + list_sum (map tsize entries)).
  intros [H|H]; [subst; lia|]. specialize (IH H). lia.
Qed.
Lemma walk_spec k : forall t, tsize t <= k -> forall path p n c, In (p, n, c) (walk path t) <->
  exists dirs, p = path ++ dirs /\ lies t dirs n c /\ (forall d, In d dirs -> ~ alike d target) /\ ~ alike n target.
Proof.
  induction k as [|k IH]; intros t L path p n c. { destruct t; cbn in L; lia. }
  destruct t as [fn fc|dn es| |]; cbn [walk].
  - destruct (same_name fn target) eqn:E.
    + apply same_name_spec in E. split; [intros []|]. intros (dirs & _ & H & _ & N1). inversion H; subst. contradiction.
    + assert (N1 : ~ alike fn target) by (rewrite <- same_name_spec; congruence). split.
      * intros [H|[]]. injection H as <- <- <-. exists []. rewrite app_nil_r. split; [reflexivity|]. split; [constructor|]. split; [intros d []|exact N1].
      * intros (dirs & -> & H & _ & _). inversion H; subst. rewrite app_nil_r. left. reflexivity.
  - destruct (same_name dn target) eqn:E.
    + apply same_name_spec in E. split; [intros []|]. intros (dirs & _ & H & T & _). inversion H; subst. exfalso. apply (T dn); [left; reflexivity|exact E].
    + assert (N1 : ~ alike dn target) by (rewrite <- same_name_spec; congruence). rewrite in_flat_map. cbn [tsize] in L. split.
      * intros (t & I1 & I2). apply IH in I2; [|pose proof (tsize_in t es I1); lia]. destruct I2 as (dirs & -> & H & T & N2).
        exists (dn :: dirs). split; [rewrite <- app_assoc; reflexivity|]. split; [econstructor; eauto|]. split; [|exact N2]. intros d [<-|Hd]; auto.
      * intros (dirs & -> & H & T & N2). inversion H as [|? ? t ds ? ? I1 I2]; subst. exists t. split; [exact I1|].
        apply IH; [pose proof (tsize_in t es I1); lia|]. exists ds. split; [rewrite <- app_assoc; reflexivity|]. split; [exact I2|]. split; [|exact N2]. intros d Hd. apply T. right. exact Hd.
  - split; [intros []|]. intros (dirs & _ & H & _). inversion H.
  - split; [intros []|]. intros (dirs & _ & H & _). inversion H.
Qed.
Lemma manifest_not_target n : alike n manifest -> ~ alike n target.
Proof. unfold alike. intros -> H. discriminate H. Qed.
Lemma found_spec crate path n c : found crate (path, n, c) = true <-> alike n manifest /\ exists x, c = Some x /\ mentions crate x.
Proof.
  unfold found. rewrite andb_true_iff, same_name_spec. unfold mentions, search_entry. split.
  - intros [A H]. split; [exact A|]. destruct c as [x|]; [|discriminate]. exists x. split; [reflexivity|]. apply contains_spec in H as (a & b & H). exists a, b. rewrite H. rewrite <- !app_assoc. reflexivity.
  - intros [A (x & -> & a & b & H)]. split; [exact A|]. apply contains_spec. exists a, b. rewrite H, <- !app_assoc. reflexivity.
Qed.
Lemma candidate_walk crate t dirs : candidate crate t dirs <-> exists e, In e (walk [] t) /\ found crate e = true /\ fst (fst e) = dirs.
Proof.
  split.
  - intros (n & c & H & A & T & M). exists (dirs, n, Some c). split; [|split; [|reflexivity]].
    + apply (walk_spec (tsize t) t (le_n _)). exists dirs. repeat split; auto. apply manifest_not_target, A.
    + apply found_spec. eauto.
  - intros ([[p n] c] & I & F & E). cbn in E. subst p. apply found_spec in F as (A & x & -> & M).
    apply (walk_spec (tsize t) t (le_n _)) in I as (ds & E & H & T & _). cbn in E. subst ds. exists n, x. auto.
Qed.
(** What holds of C149: the directory is that of a manifest that mentions the crate, outside of
    target directories, or the current directory when there is none. *)
Theorem C149_partial : forall crate name entries,
  candidate crate (Dir name entries) (caller_crate_root crate name entries)
  \/ (caller_crate_root crate name entries = [name] /\ forall dirs, ~ candidate crate (Dir name entries) dirs).
Proof.
  intros crate name entries. unfold caller_crate_root. destruct (find (found crate) (walk [] (Dir name entries))) as [[[p n] c]|] eqn:E.
  - left. apply find_some in E as [I F]. apply candidate_walk. exists (p, n, c). auto.
  - right. split; [reflexivity|]. intros dirs C. apply candidate_walk in C as (e & I & F & _). pose proof (find_none _ _ E e I). congruence.
Qed.
Print Assumptions C149_partial.
(** So with a single such manifest the configuration file is looked for beside it, wherever it
    is and in whatever order the system lists directories. *)
Theorem C149_single_partial : forall crate name entries dirs file,
  candidate crate (Dir name entries) dirs -> (forall dirs', candidate crate (Dir name entries) dirs' -> dirs' = dirs) ->
  config_full_path crate name entries file = (dirs, file).
Proof.
  intros crate name entries dirs file C U. unfold config_full_path. destruct (C149_partial crate name entries) as [H|[_ H]]; [|destruct (H _ C)].
  rewrite (U _ H). reflexivity.
Qed.
Print Assumptions C149_single_partial.
(** The manifest of a crate as cargo writes it. *)
Definition package_of (crate content : text) : Prop :=
  exists rest, content = list_ascii_of_string "[package]
name = """ ++ crate ++ """"%char :: rest.
(** The natural claim - the configuration file is looked for in the directory whose manifest is
    that of the crate - fails: another crate of the workspace that comes first and has a binary of
    that name is taken, *)
Theorem C149_refuted : exists crate name entries other content other_content,
  package_of crate content /\ lies (Dir name entries) [name] manifest (Some content) /\ package_of other other_content /\ other <> crate
  /\ (forall dirs n c, lies (Dir name entries) dirs n (Some c) -> package_of crate c -> dirs = [name])
  /\ caller_crate_root crate name entries <> [name]
  /\ lies (Dir name entries) (caller_crate_root crate name entries) manifest (Some other_content).
Proof.
  set (t := list_ascii_of_string). set (nl := [ascii_of_nat 10]).
  set (c1 := t "[package]"%string ++ nl ++ t "name = ""robot"""%string ++ nl). set (c2 := t "[package]"%string ++ nl ++ t "name = ""bench"""%string ++ nl ++ t "[[bin]]"%string ++ nl ++ t "name = ""robot"""%string ++ nl).
  exists (t "robot"%string), (t "work"%string), [Dir (t "bench"%string) [File manifest (Some c2)]; File manifest (Some c1)], (t "bench"%string), c1, c2.
  split. { exists nl. reflexivity. }
  split. { econstructor; [right; left; reflexivity|constructor]. }
  split. { eexists. reflexivity. }
  split; [discriminate|].
  split. { intros dirs n c H P. inversion H as [|? ? x ds ? ? I1 I2]; subst. destruct I1 as [<-|[<-|[]]].
    - exfalso. inversion I2 as [|? ? y ds' ? ? I3 I4]; subst. destruct I3 as [<-|[]]. inversion I4; subst. destruct P as [rest P]. discriminate P.
    - inversion I2; subst. reflexivity. }
  split; [vm_compute; discriminate|].
  change (lies (Dir (t "work"%string) [Dir (t "bench"%string) [File manifest (Some c2)]; File manifest (Some c1)]) [t "work"%string; t "bench"%string] manifest (Some c2)).
  econstructor; [left; reflexivity|]. econstructor; [left; reflexivity|]. constructor.
Qed.
Print Assumptions C149_refuted.
(** and a manifest that writes the name with single quotes is not found. *)
Theorem C149_quotes_refuted : let t := list_ascii_of_string in
  caller_crate_root (t "robot"%string) (t "work"%string) [Dir (t "robot"%string) [File manifest (Some (t "[package] name = 'robot'"%string))]] = [t "work"%string].
Proof. reflexivity. Qed.
Print Assumptions C149_quotes_refuted.
(** Names of files are alike when they differ in capital and small letters of the alphabet only, and
    all six blanks of ASCII are left out of the contents. *)
Theorem C149_letters_partial : let big := list_ascii_of_string "ABCDEFGHIJKLMNOPQRSTUVWXYZ" in let little := list_ascii_of_string "abcdefghijklmnopqrstuvwxyz" in
  (forall c d, small c = small d <-> c = d \/ In (c, d) (combine big little) \/ In (d, c) (combine big little)) /\
  (forall c, is_space c = true <-> In c (map ascii_of_nat [9; 10; 11; 12; 13; 32])).
Proof.
  split.
  - intros c d. rewrite <- (ascii_nat_embedding c), <- (ascii_nat_embedding d).
    assert (A : forall i, i < 256 -> forall j, j < 256 -> small (ascii_of_nat i) = small (ascii_of_nat j) <-> i = j \/ (65 <= i <= 90 /\ j = i + 32) \/ (65 <= j <= 90 /\ i = j + 32)).
    { assert (E : forallb (fun i => nat_of_ascii (small (ascii_of_nat i)) =? (if (65 <=? i) && (i <=? 90) then i + 32 else i)) (seq 0 256) = true) by (vm_compute; reflexivity).
      rewrite forallb_forall in E. assert (E' : forall i, i < 256 -> nat_of_ascii (small (ascii_of_nat i)) = if (65 <=? i) && (i <=? 90) then i + 32 else i).
      { intros i Hi. apply Nat.eqb_eq, E, in_seq. lia. }
      intros i Hi j Hj. transitivity (nat_of_ascii (small (ascii_of_nat i)) = nat_of_ascii (small (ascii_of_nat j))).
      - split; [congruence|]. intros X. rewrite <- (ascii_nat_embedding (small (ascii_of_nat i))), X. apply ascii_nat_embedding.
      - rewrite !E' by auto. destruct (Nat.leb_spec 65 i), (Nat.leb_spec i 90), (Nat.leb_spec 65 j), (Nat.leb_spec j 90); cbn [andb]; lia. }
    assert (B : forall c, nat_of_ascii c < 256) by (intros [[] [] [] [] [] [] [] []]; vm_compute; lia).
    rewrite (A _ (B c) _ (B d)).
    assert (P : forall i j, i < 256 -> j < 256 -> In (ascii_of_nat i, ascii_of_nat j) (combine (list_ascii_of_string "ABCDEFGHIJKLMNOPQRSTUVWXYZ") (list_ascii_of_string "abcdefghijklmnopqrstuvwxyz")) <-> 65 <= i <= 90 /\ j = i + 32).
    { change (combine _ _) with (map (fun k => (ascii_of_nat k, ascii_of_nat (k + 32))) (seq 65 26)). intros i j Hi Hj. rewrite in_map_iff. split.
      - intros (k & E & K). apply in_seq in K. injection E as E1 E2. apply (f_equal nat_of_ascii) in E1, E2. rewrite !nat_ascii_embedding in E1, E2 by lia. lia.
      - intros [H ->]. exists i. split; [reflexivity|]. apply in_seq. lia. }
    rewrite !P by apply B. split; (intros [H|H]; [left|right; exact H]); [congruence|].
    rewrite <- (nat_ascii_embedding (nat_of_ascii c)), <- (nat_ascii_embedding (nat_of_ascii d)) by apply B. congruence.
  - intros [[] [] [] [] [] [] [] []]; vm_compute; (split; [first [discriminate | intros _; tauto] | intros X; repeat (destruct X as [X|X]; [first [reflexivity|discriminate X]|]); destruct X]).
Qed.
Print Assumptions C149_letters_partial.
Example C149_case : let t := list_ascii_of_string in
  let es := [Dir (t "Target"%string) [File manifest (Some (t "name = ""robot"""%string))]; Unreadable; Dir (t "robots"%string) [Other (t "x"%string); Dir (t "one"%string) [File (t "cargo.TOML"%string) (Some (t "name	=  ""robot"""%string))]]; File manifest None] in
  candidate (t "robot"%string) (Dir (t "w"%string) es) [t "w"; t "robots"; t "one"]%string
  /\ caller_crate_root (t "robot"%string) (t "w"%string) es = [t "w"; t "robots"; t "one"]%string
  /\ caller_crate_root (t "other"%string) (t "w"%string) es = [t "w"%string].
Proof.
  intros t es. split; [|split; reflexivity].
  destruct (C149_partial (t "robot"%string) (t "w"%string) es) as [H|[H _]]; [exact H|discriminate H].
Qed.
