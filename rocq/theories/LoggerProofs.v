From Coq Require Import String List Arith NArith Bool Lia.
From Verif Require Import Base BincodeModel BincodeSpec ValueModel LogModel CodecSpec LoggerModel LoggerSpec.
Import ListNotations.
Local Open Scope list_scope.
Local Open Scope nat_scope.

Section Proofs.
Context {L : Type}.
Variable read : nat -> N -> N.

Lemma acts_app (a b : list (action L)) : acts read (a ++ b) = fold_left (act read) b (acts read a).
Proof. apply fold_left_app. Qed.

Lemma alone_app (h k : list (N * call L)) : alone (h ++ k) = alone h ++ alone k.
Proof. apply flat_map_app. Qed.

(** ** One thread *)
Lemma find_app {A} (f : A -> bool) l k : find f (l ++ k) = match find f l with Some x => Some x | None => find f k end.
Proof. induction l as [|x l IH]; simpl; [reflexivity|]. now destruct (f x). Qed.

Lemma existsb_find {A} (f : A -> bool) l : existsb f l = match find f l with Some _ => true | None => false end.
Proof. induction l as [|x l IH]; simpl; [reflexivity|]. now destruct (f x). Qed.

Lemma positions {A B} (g : A -> list A -> list B) (f : list A -> nat -> list B) :
  (forall h i, f h i = match nth_error h i with Some x => g x (firstn i h) | None => [] end) ->
  forall h x, flat_map (f (h ++ [x])) (seq 0 (length (h ++ [x]))) = flat_map (f h) (seq 0 (length h)) ++ g x h.
Proof.
  intros Hf h x. rewrite app_length, seq_app, flat_map_app. cbn [length seq flat_map Nat.add].
  rewrite app_nil_r. f_equal.
  - rewrite !flat_map_concat_map. f_equal. apply map_ext_in. intros i [_ Hi]%in_seq. rewrite !Hf, nth_error_app1, firstn_app by lia.
    replace (i - length h) with 0 by lia. cbn [firstn]. now rewrite app_nil_r.
  - rewrite Hf, nth_error_app2, Nat.sub_diag by lia. cbn [nth_error].
    rewrite firstn_app, Nat.sub_diag, firstn_all. cbn [firstn]. now rewrite app_nil_r.
Qed.

Lemma belongs_snoc (h : list (N * call L)) x : belongs (h ++ [x]) =
  match snd x with
  | Log _ => belongs h
  | Init k c => Some (Dest k, match belongs h with Some (_, c) => c | None => c end)
  | Drop _ => match belongs h with Some (_, c) => Some (Dummy, c) | None => None end
  end.
Proof.
  unfold belongs. rewrite rev_app_distr, find_app. cbn [rev app find].
  assert (Hi : forall y, find is_init h = Some y -> exists t k c, y = (t, Init k c)).
  { intros [t y] Hy. apply find_some in Hy as [_ Hy]. destruct y; try discriminate. eauto. }
  assert (Hc : forall y, find is_change (rev h) = Some y -> (exists t k c, y = (t, Init k c)) \/ exists t k, y = (t, Drop k)).
  { intros [t y] Hy. apply find_some in Hy as [_ Hy]. destruct y; try discriminate; eauto 6. }
  assert (Hn : find is_init h <> None -> find is_change (rev h) <> None).
  { intros H N. apply H. destruct (find is_init h) as [y|] eqn:E; [|reflexivity].
    apply find_some in E as [I E]. apply in_rev in I. apply (find_none _ _ N) in I.
    destruct y as [? []]; discriminate. }
  destruct x as [t x]. cbn [snd]. destruct x as [k c|k|l]; cbn [is_init is_change snd].
  - destruct (find is_init h) as [y|]; [|reflexivity].
    destruct (Hi _ eq_refl) as (t' & k' & c' & ->).
    destruct (find is_change (rev h)) as [z|]; [|now destruct Hn].
    destruct (Hc _ eq_refl) as [(t2 & k2 & c2 & ->)|(t2 & k2 & ->)]; reflexivity.
  - destruct (find is_init h) as [y|]; [|reflexivity].
    destruct (Hi _ eq_refl) as (t' & k' & c' & ->).
    destruct (find is_change (rev h)) as [z|]; [|now destruct Hn].
    destruct (Hc _ eq_refl) as [(t2 & k2 & c2 & ->)|(t2 & k2 & ->)]; reflexivity.
  - destruct (find is_init h) as [y|]; reflexivity.
Qed.

Lemma entries_of_snoc (h : list (N * call L)) x : entries_of read (h ++ [x]) = entries_of read h ++
  match snd x with Log l => match belongs h with Some (d, c) => [(0, d, read c (fst x), l)] | None => [] end | _ => [] end.
Proof.
  unfold entries_of.
  rewrite (positions (fun x h => match x with (t, Log l) =>
     match belongs h with Some (d, c) => [(0, d, read c t, l)] | None => [] end | _ => [] end)
     (fun h i => match nth_error h i with
                     | Some (t, Log l) => match belongs (firstn i h) with
                                          | Some (d, c) => [(0, d, read c t, l)]
                                          | None => [] end
                     | _ => [] end)).
  - now destruct x as [t []].
  - intros g i. now destruct (nth_error g i) as [[t []]|].
Qed.

Lemma refused_of_snoc (h : list (N * call L)) x : refused_of (h ++ [x]) = refused_of h ++
  match snd x with Log l => if existsb is_init h then [] else [(0, l)] | _ => [] end.
Proof.
  unfold refused_of.
  rewrite (positions (fun x h => match x with (_, Log l) =>
     if existsb is_init h then [] else [(0, l)] | _ => [] end)
     (fun h i => match nth_error h i with
                     | Some (_, Log l) => if existsb is_init (firstn i h) then [] else [(0, l)]
                     | _ => [] end)).
  - now destruct x as [t []].
  - intros g i. now destruct (nth_error g i) as [[t []]|].
Qed.

Lemma belongs_init (h : list (N * call L)) : existsb is_init h = match belongs h with Some _ => true | None => false end.
Proof.
  induction h as [|x h IH] using rev_ind; [reflexivity|].
  rewrite existsb_app, belongs_snoc, IH. destruct x as [t []]; cbn; destruct (belongs h) as [[]|]; reflexivity.
Qed.

Lemma alone_run (h : list (N * call L)) :
  let w := acts read (alone h) in
  w_pc w 0 = Idle /\ w_writer w = belongs h /\ w_out w = entries_of read h /\ w_refused w = refused_of h.
Proof.
  induction h as [|x h (P & W & O & R)] using rev_ind; [now repeat split|].
  cbv zeta. rewrite alone_app, acts_app, belongs_snoc, entries_of_snoc, refused_of_snoc, belongs_init.
  cbn [alone flat_map app fold_left act].
  destruct x as [t x]; cbn [fst snd]. unfold begin. rewrite P.
  destruct x as [k c|k|l].
  - rewrite W. destruct (belongs h) as [[d c']|] eqn:B; unfold finish_call; cbn; rewrite W; cbn;
      rewrite ?O, ?R, ?app_nil_r; auto.
  - destruct (belongs h) as [[d c']|] eqn:B; unfold finish_call; cbn; rewrite W; cbn;
      rewrite ?O, ?R, ?app_nil_r; auto.
  - rewrite W. destruct (belongs h) as [[d c']|] eqn:B; unfold finish_call; cbn; rewrite ?P; cbn; rewrite ?W; cbn;
      rewrite ?O, ?R, ?app_nil_r; auto.
Qed.

Lemma belongs_alive (h0 h2 : list (N * call L)) t0 k c :
  Forall (fun x => match snd x with Init _ c' => c' = c | _ => True end) h0 ->
  Forall (fun x => match snd x with Log _ => True | _ => False end) h2 ->
  belongs (h0 ++ (t0, Init k c) :: h2) = Some (Dest k, c).
Proof.
  intros H0 H2. replace (h0 ++ (t0, Init k c) :: h2) with ((h0 ++ [(t0, Init k c)]) ++ h2) by now rewrite <- app_assoc.
  induction h2 as [|x h2 IH] using rev_ind.
  - rewrite app_nil_r, belongs_snoc. cbn [snd]. f_equal. f_equal.
    enough (match belongs h0 with Some (_, c') => c' = c | None => True end) by (now destruct (belongs h0) as [[]|]).
    clear - H0. induction h0 as [|x h0 IH] using rev_ind; [exact I|].
    apply Forall_app in H0 as [H0 Hx]. specialize (IH H0). inversion Hx; subst.
    rewrite belongs_snoc. destruct (snd x); destruct (belongs h0) as [[]|]; auto.
  - apply Forall_app in H2 as [H2 Hx]. rewrite app_assoc, belongs_snoc, IH by assumption.
    inversion Hx; subst. now destruct (snd x).
Qed.

(** ** Threads *)
Lemma pc_goto th p (w : world L) u : w_pc (goto th p w) u = if u =? th then p else w_pc w u.
Proof. reflexivity. Qed.

Lemma entries_by_app th (w : world L) x : 
  flat_map (fun x => match x with (u, _, t, l) => if u =? th then [(t, l)] else [] end) (w_out w ++ [x])
  = entries_by th w ++ match x with (u, _, t, l) => if u =? th then [(t, l)] else [] end.
Proof. rewrite flat_map_app. cbn. now rewrite app_nil_r. Qed.

Lemma proper_app th b (a : list (action L)) x : proper th b (a ++ [x]) -> proper th b a.
Proof.
  revert b; induction a as [|y a IH]; intros b; [constructor|].
  destruct y as [u t y|u]; cbn; [destruct (u =? th)|]; intuition eauto.
Qed.

Lemma entries_world th wr (w : world L) x rf p : entries_by th (World wr (w_out w ++ [x]) rf p)
  = entries_by th w ++ match x with (u, _, t, l) => if u =? th then [(t, l)] else [] end.
Proof. exact (entries_by_app th w x). Qed.

(** Whether a call of [th] is under way after [a]. *)
Fixpoint busy_after (th : nat) (b : bool) (a : list (action L)) : bool :=
  match a with
  | [] => b
  | Begin u _ _ :: a => busy_after th (if u =? th then true else b) a
  | Finish u :: a => busy_after th (if u =? th then false else b) a
  end.
Lemma busy_snoc th b a x : busy_after th b (a ++ [x]) =
  match x with Begin u _ _ => if u =? th then true else busy_after th b a
             | Finish u => if u =? th then false else busy_after th b a end.
Proof.
  revert b; induction a as [|y a IH]; intros b; destruct x; cbn; auto.
  - now destruct y; rewrite IH.
  - now destruct y; rewrite IH.
Qed.
Lemma proper_snoc th b a u t y : proper th b (a ++ [Begin u t y]) -> u = th -> busy_after th b a = false.
Proof.
  intros P ->. revert b P; induction a as [|z a IH]; intros b; cbn.
  - rewrite Nat.eqb_refl. tauto.
  - destruct z as [v s z|v]; cbn; [destruct (v =? th)|]; intuition eauto.
Qed.

(** A thread between two calls is idle, unless it panicked. *)
Lemma idle_between th (a : list (action L)) :
  proper th false a -> busy_after th false a = false -> w_pc (acts read a) th = Idle \/ w_pc (acts read a) th = Panicked.
Proof.
  induction a as [|x a IH] using rev_ind; intros P B; [now left|].
  rewrite acts_app. cbn [fold_left act]. rewrite busy_snoc in B.
  specialize (IH (proper_app _ _ _ _ P)).
  destruct x as [u t y|u]; destruct (Nat.eqb_spec u th) as [->|Hu]; try discriminate.
  - specialize (IH B). cbn [act]. assert (Hn : (th =? u) = false) by (apply Nat.eqb_neq; auto).
    unfold begin. destruct (w_pc (acts read a) u); auto.
    destruct y; [|..|destruct (w_writer (acts read a)) as [[]|]]; rewrite ?pc_goto, ?Hn; auto.
  - cbn [act]. unfold finish_call. destruct (w_pc (acts read a) th) eqn:E; auto;
      try (left; rewrite pc_goto, Nat.eqb_refl; reflexivity).
    destruct (w_writer (acts read a)) as [[]|]; rewrite pc_goto, Nat.eqb_refl; auto.
  - specialize (IH B). cbn [act]. assert (Hn : (th =? u) = false) by (apply Nat.eqb_neq; auto).
    unfold finish_call. destruct (w_pc (acts read a) u); auto;
     try (rewrite pc_goto, Hn; assumption).
    destruct (w_writer (acts read a)) as [[]|]; rewrite pc_goto, Hn; assumption.
Qed.

Lemma panicked_stays th (a : list (action L)) x : w_pc (acts read (a ++ [x])) th <> Panicked -> w_pc (acts read a) th <> Panicked.
Proof.
  intros H E; apply H; clear H. rewrite acts_app. cbn [fold_left act].
  destruct x as [u t y|u]; destruct (Nat.eqb_spec th u) as [->|Hu]; cbn [act].
  - unfold begin. now rewrite E.
  - apply Nat.eqb_neq in Hu. unfold begin. destruct (w_pc (acts read a) u); auto.
    destruct y; [|..|destruct (w_writer (acts read a)) as [[]|]]; rewrite ?pc_goto, ?Hu; auto.
  - unfold finish_call. now rewrite E.
  - apply Nat.eqb_neq in Hu. unfold finish_call. destruct (w_pc (acts read a) u); auto; try (now rewrite pc_goto, Hu).
    destruct (w_writer (acts read a)) as [[]|]; now rewrite pc_goto, Hu.
Qed.

Lemma logged_app th (a b : list (action L)) : logged th (a ++ b) = logged th a ++ logged th b.
Proof. apply flat_map_app. Qed.

(** Before the first [init] nothing is handed over or pending. *)
Lemma unset_empty (a : list (action L)) th : w_writer (acts read a) = None -> w_out (acts read a) = [] /\ pending th (acts read a) = [].
Proof.
  induction a as [|x a IH] using rev_ind; [now split|].
  rewrite acts_app. cbn [fold_left act]. set (w := acts read a) in *. unfold pending in *.
  destruct x as [u t y|u]; cbn [act].
  - unfold begin. destruct (w_pc w u) eqn:E; auto.
    destruct y as [k c|k|l]; cbn [w_writer goto].
    + intros H. destruct (IH H) as [I1 I2]. cbn. rewrite H. destruct (th =? u); auto.
    + intros H. destruct (IH H) as [I1 I2]. cbn. destruct (th =? u); auto.
    + destruct (w_writer w) as [[]|] eqn:W; cbn; [rewrite W; discriminate|]. intros _. destruct (IH eq_refl) as [I1 I2]. auto.
  - unfold finish_call. destruct (w_pc w u) eqn:E; auto; destruct (w_writer w) as [[]|] eqn:W; cbn; try congruence;
    intros _; destruct (IH eq_refl) as [I1 I2]; destruct (th =? u); auto.
Qed.

Lemma all_accounted th (a : list (action L)) :
  proper th false a -> w_pc (acts read a) th <> Panicked ->
  logged th a = refused_by th (acts read a) ++ map snd (entries_by th (acts read a) ++ pending th (acts read a)).
Proof.
  induction a as [|x a IH] using rev_ind; intros P N; [reflexivity|].
  specialize (IH (proper_app _ _ _ _ P) (panicked_stays _ _ _ N)).
  rewrite logged_app, IH. clear IH. rewrite acts_app in *. cbn [fold_left act] in *.
  pose proof (idle_between th a (proper_app _ _ _ _ P)) as Hi.
  pose proof (panicked_stays th a x) as Hp. rewrite acts_app in Hp. specialize (Hp N).
  pose proof (unset_empty a th) as Hu.
  pose proof (fun u t y => proper_snoc th false a u t y) as Hs.
  set (w := acts read a) in *.
  destruct x as [u t y|u]; cbn [act logged flat_map] in *.
  - destruct (Nat.eqb_spec u th) as [->|Hn].
    + specialize (Hs _ _ _ P eq_refl). destruct (Hi Hs) as [E|E]; [|contradiction].
      unfold begin in *. rewrite E in *. destruct y as [k c|k|l].
      * rewrite app_nil_r. unfold pending, entries_by, refused_by. cbn. rewrite Nat.eqb_refl, E.
        now destruct (w_writer w).
      * rewrite app_nil_r. unfold pending, entries_by, refused_by. cbn. now rewrite Nat.eqb_refl, E.
      * destruct (w_writer w) as [[d c]|] eqn:W.
        -- unfold pending, entries_by, refused_by. cbn. rewrite Nat.eqb_refl, E.
           rewrite !app_nil_r, !map_app, <- app_assoc. reflexivity.
        -- destruct (Hu eq_refl) as [O Q]. unfold pending, entries_by, refused_by in *. cbn. rewrite E, O in *.
           rewrite flat_map_app. cbn. rewrite Nat.eqb_refl. cbn. now rewrite !app_nil_r.
    + assert (Hn' : (th =? u) = false) by (apply Nat.eqb_neq; auto).
      assert (Hl : (match y with Log l => [] | _ => [] end : list L) = []) by now destruct y.
      rewrite Hl. cbn [app]. rewrite app_nil_r. unfold begin in *.
      destruct (w_pc w u) eqn:E; auto.
      destruct y as [k c|k|l]; [| |destruct (w_writer w) as [[d c]|] eqn:W];
      unfold pending, entries_by, refused_by; cbn; rewrite ?Hn'; auto.
      rewrite flat_map_app. cbn. apply Nat.eqb_neq in Hn. rewrite Hn. cbn. now rewrite app_nil_r.
  - rewrite app_nil_r. destruct (Nat.eqb_spec u th) as [->|Hn].
    + unfold finish_call in *. destruct (w_pc w th) eqn:E; auto.
      * unfold pending, entries_by, refused_by. cbn. now rewrite Nat.eqb_refl, E.
      * destruct (w_writer w) as [[d' c']|] eqn:W.
        -- exfalso. apply N. cbn. now rewrite Nat.eqb_refl.
        -- unfold pending, entries_by, refused_by. cbn. now rewrite Nat.eqb_refl, E.
      * unfold pending, entries_by, refused_by. cbn. now rewrite Nat.eqb_refl, E.
      * destruct (w_writer w) as [[d c]|] eqn:W.
        -- unfold goto. cbn [w_writer w_out w_refused w_pc]. rewrite entries_world. unfold pending, refused_by.
           cbn [w_pc w_refused]. now rewrite !Nat.eqb_refl, E, app_nil_r.
        -- destruct (Hu eq_refl) as [O Q]. unfold pending in Q. rewrite E in Q. discriminate.
    + assert (Hn' : (th =? u) = false) by (apply Nat.eqb_neq; auto).
      unfold finish_call in *. destruct (w_pc w u) eqn:E; auto.
      * unfold pending, entries_by, refused_by. cbn. now rewrite Hn'.
      * destruct (w_writer w) as [[d' c']|] eqn:W; unfold pending, entries_by, refused_by; cbn; now rewrite Hn'.
      * unfold pending, entries_by, refused_by. cbn. now rewrite Hn'.
      * destruct (w_writer w) as [[d c]|] eqn:W; unfold goto; cbn [w_writer w_out w_refused w_pc].
        -- rewrite entries_world. unfold pending, refused_by. cbn [w_pc w_refused]. apply Nat.eqb_neq in Hn.
           now rewrite Hn, Hn', app_nil_r.
        -- unfold pending, refused_by, entries_by. cbn [w_pc w_refused w_out]. now rewrite Hn'.
Qed.

(** *** Times *)
Lemma nondec_snoc l x : nondec (l ++ [x]) <-> nondec l /\ Forall (fun y => (y <= x)%N) (match rev l with y :: _ => [y] | [] => [] end).
Proof.
  induction l as [|y l IH]; cbn; [split; auto|].
  destruct l as [|z l].
  - cbn. split; intros H; [|destruct H as [_ H]; inversion H]; auto. destruct H; auto.
  - cbn [app]. change ((z :: l) ++ [x]) with (z :: (l ++ [x])) in IH. rewrite IH.
    cbn [rev]. rewrite <- app_assoc. destruct (rev l) as [|v r] eqn:R; cbn; tauto.
Qed.

Lemma nondec_le l x : nondec (l ++ [x]) -> Forall (fun y => (y <= x)%N) l.
Proof.
  induction l as [|y l IH]; [constructor|]. destruct l as [|z l].
  - cbn. intros [H _]. auto.
  - cbn [app]. intros [H1 H2]. specialize (IH H2). constructor; [|assumption].
    inversion IH; subst. lia.
Qed.

Lemma nondec_app_one l x : nondec l -> Forall (fun y => (y <= x)%N) l -> nondec (l ++ [x]).
Proof.
  intros H F. apply nondec_snoc. split; [assumption|]. destruct (rev l) as [|y r] eqn:R; [constructor|].
  constructor; [|constructor]. rewrite Forall_forall in F. apply F. apply in_rev. rewrite R. now left.
Qed.

Definition last_now (l : list N) : N := match rev l with x :: _ => x | [] => 0%N end.

Lemma same_clock (a : list (action L)) x d c :
  w_writer (acts read a) = Some (d, c) -> exists d', w_writer (acts read (a ++ [x])) = Some (d', c).
Proof.
  intros W. rewrite acts_app. cbn [fold_left act]. destruct x as [u t y|u]; cbn [act].
  - unfold begin. destruct (w_pc (acts read a) u); eauto. destruct y; cbn; rewrite ?W; cbn; eauto.
  - unfold finish_call. destruct (w_pc (acts read a) u); cbn; rewrite ?W; cbn; rewrite ?W; eauto.
Qed.

Lemma in_order th (a : list (action L)) :
  (forall c, monotone (read c)) -> nondec (nows a) ->
  let w := acts read a in
  nondec (map fst (entries_by th w ++ pending th w)) /\
  (forall d c, w_writer w = Some (d, c) ->
     Forall (fun t => exists s, In s (nows a) /\ t = read c s) (map fst (entries_by th w ++ pending th w))).
Proof.
  intros M. induction a as [|x a IH] using rev_ind; [now repeat split|].
  intros D. cbv zeta. assert (D' : nondec (nows a)).
  { unfold nows in D. rewrite flat_map_app in D. destruct x; cbn in D; [now apply nondec_snoc in D|now rewrite app_nil_r in D]. }
  specialize (IH D'). cbv zeta in IH. destruct IH as [I1 I2].
  pose proof (unset_empty a th) as Hu.
  set (w := acts read a) in *.
  assert (Hin : forall s, In s (nows a) -> In s (nows (a ++ [x]))).
  { intros s Hs. unfold nows. rewrite flat_map_app. apply in_or_app. now left. }
  destruct (w_writer w) as [[d c]|] eqn:W.
  2:{ (* nothing yet *)
    destruct (Hu eq_refl) as [O Q].
    assert (E : entries_by th (acts read (a ++ [x])) ++ pending th (acts read (a ++ [x])) = []).
    { rewrite acts_app. cbn [fold_left act]. fold w. unfold entries_by, pending in *.
      destruct x as [u t y|u]; cbn [act].
      - unfold begin. destruct (w_pc w u) eqn:E; try (now rewrite O, Q).
        destruct y as [k c|k|l]; cbn; rewrite ?W; cbn; rewrite ?O; cbn; try (destruct (th =? u)); rewrite ?Q; auto.
      - unfold finish_call. destruct (w_pc w u) eqn:E; rewrite ?W; try (now rewrite O, Q); cbn; rewrite ?O; cbn;
          destruct (th =? u); rewrite ?Q; auto. }
    rewrite E. split; [exact I|]. intros; constructor. }
  specialize (I2 d c eq_refl).
  assert (Key : map fst (entries_by th (acts read (a ++ [x])) ++ pending th (acts read (a ++ [x]))) =
                map fst (entries_by th w ++ pending th w) \/
                (exists t l, x = Begin th t (Log l) /\ pending th w = [] /\
                 map fst (entries_by th (acts read (a ++ [x])) ++ pending th (acts read (a ++ [x]))) =
                 map fst (entries_by th w ++ pending th w) ++ [read c t])).
  { rewrite acts_app. cbn [fold_left act]. fold w.
    destruct x as [u t y|u]; cbn [act].
    - unfold begin. destruct (w_pc w u) eqn:E; auto.
      destruct (Nat.eqb_spec th u) as [<-|Hn].
      + destruct y as [k c'|k|l].
        * left. unfold pending, entries_by. cbn. rewrite Nat.eqb_refl, E, W. reflexivity.
        * left. unfold pending, entries_by. cbn. rewrite Nat.eqb_refl, E. reflexivity.
        * right. exists t, l. split; [reflexivity|]. split; [unfold pending; now rewrite E|].
          rewrite W. unfold pending, entries_by. cbn. rewrite Nat.eqb_refl, E.
          rewrite !map_app. cbn. now rewrite app_nil_r.
      + apply Nat.eqb_neq in Hn. left. destruct y as [k c'|k|l]; rewrite ?W; unfold pending, entries_by; cbn; rewrite ?Hn; reflexivity.
    - left. unfold finish_call. destruct (w_pc w u) eqn:E; auto.
      + unfold pending, entries_by. cbn. destruct (Nat.eqb_spec th u) as [->|Hn]; [now rewrite E|reflexivity].
      + rewrite W. unfold pending, entries_by. cbn. destruct (Nat.eqb_spec th u) as [->|Hn]; [now rewrite E|reflexivity].
      + unfold pending, entries_by. cbn. destruct (Nat.eqb_spec th u) as [->|Hn]; [now rewrite E|reflexivity].
      + rewrite W. unfold goto. cbn [w_writer w_out w_refused w_pc]. rewrite entries_world. unfold pending. cbn [w_pc].
        destruct (Nat.eqb_spec th u) as [->|Hn].
        * now rewrite Nat.eqb_refl, E, app_nil_r.
        * apply not_eq_sym, Nat.eqb_neq in Hn. now rewrite Hn, app_nil_r. }
  assert (Cl : forall d' c', w_writer (acts read (a ++ [x])) = Some (d', c') -> c' = c).
  { intros d' c' W'. destruct (same_clock a x d c W) as [d2 W2]. congruence. }
  destruct Key as [->|(t & l & -> & Q & ->)].
  - split; [assumption|]. intros d' c' ->%Cl. revert I2. apply Forall_impl. intros y (s & Hs & ->). eauto.
  - assert (B : Forall (fun s => (s <= t)%N) (nows a)).
    { unfold nows in D. rewrite flat_map_app in D. cbn in D. now apply nondec_le in D. }
    split.
    + apply nondec_app_one; [assumption|]. revert I2. apply Forall_impl. intros y (s & Hs & ->).
      apply M. rewrite Forall_forall in B. auto.
    + intros d' c' ->%Cl. apply Forall_app. split.
      * revert I2. apply Forall_impl. intros y (s & Hs & ->). eauto.
      * constructor; [|constructor]. exists t. split; [|reflexivity].
        unfold nows. rewrite flat_map_app. apply in_or_app. right. now left.
Qed.

(** *** No panic *)
Lemma writer_stays_act (w : world L) x : w_writer w <> None -> w_writer (act read w x) <> None.
Proof.
  intros W. destruct x as [u t y|u]; cbn [act].
  - unfold begin. destruct (w_pc w u); auto. destruct y; cbn; auto. destruct (w_writer w) as [[]|] eqn:E; cbn; congruence.
  - unfold finish_call. destruct (w_pc w u); auto; destruct (w_writer w) as [[]|] eqn:E; cbn; congruence.
Qed.

Definition calm (w : world L) : Prop := forall u, w_pc w u <> Panicked /\ (forall k c, w_pc w u <> Setting k c).

Lemma calm_act (w : world L) x : w_writer w <> None -> calm w -> calm (act read w x).
Proof.
  intros W C v. destruct (C v) as [C1 C2]. destruct x as [u t y|u]; cbn [act].
  - unfold begin. destruct (w_pc w u) eqn:E; auto.
    destruct y as [k c|k|l]; destruct (w_writer w) as [[]|]; try congruence; cbn; destruct (v =? u); auto; split; congruence.
  - unfold finish_call. pose proof (C u) as [D1 D2].
    destruct (w_pc w u) eqn:E; auto; try (now destruct (D2 k c)); cbn; destruct (v =? u); auto; split; congruence.
Qed.

Lemma calm_run (a : list (action L)) (w : world L) : w_writer w <> None -> calm w -> calm (fold_left (act read) a w).
Proof.
  revert w; induction a as [|x a IH]; intros w W C; [assumption|]. cbn. apply IH.
  - now apply writer_stays_act.
  - now apply calm_act.
Qed.

Lemma calm_no_init (w : world L) x : 
  match x with Begin _ _ (Init _ _) => False | _ => True end -> calm w -> calm (act read w x).
Proof.
  intros H C v. destruct (C v) as [C1 C2]. destruct x as [u t y|u]; cbn [act].
  - unfold begin. destruct (w_pc w u) eqn:E; auto. destruct y; [easy|..].
    + cbn. destruct (v =? u); auto; split; congruence.
    + destruct (w_writer w) as [[]|]; cbn; auto. destruct (v =? u); auto; split; congruence.
  - unfold finish_call. pose proof (C u) as [D1 D2].
    destruct (w_pc w u) eqn:E; auto; try (now destruct (D2 k c)); cbn; destruct (v =? u); auto; split; congruence.
Qed.

Lemma pc_quiet (w : world L) th x : match x with Begin u _ _ => u <> th | Finish u => u <> th end ->
  w_pc (act read w x) th = w_pc w th.
Proof.
  intros H. destruct x as [u t y|u]; cbn [act]; apply not_eq_sym, Nat.eqb_neq in H.
  - unfold begin. destruct (w_pc w u); auto. destruct y; cbn; rewrite ?H; auto.
    destruct (w_writer w) as [[]|]; cbn; rewrite ?H; auto.
  - unfold finish_call. destruct (w_pc w u); cbn; rewrite ?H; auto.
    destruct (w_writer w) as [[]|]; cbn; rewrite ?H; auto.
Qed.

(** Everybody but [th] is calm. *)
Definition calm_but th (w : world L) : Prop := forall u, u <> th -> w_pc w u <> Panicked /\ (forall k c, w_pc w u <> Setting k c).

Lemma calm_but_act th (w : world L) x : 
  match x with Begin _ _ (Init _ _) => False | _ => True end -> 
  match x with Begin u _ _ => u <> th | Finish u => u <> th end ->
  calm_but th w -> calm_but th (act read w x).
Proof.
  intros H Q C v Hv. destruct (C v Hv) as [C1 C2]. destruct x as [u t y|u]; cbn [act].
  - unfold begin. destruct (w_pc w u) eqn:E; auto. destruct y; [easy|..].
    + cbn. destruct (v =? u); auto; split; congruence.
    + destruct (w_writer w) as [[]|]; cbn; auto. destruct (v =? u); auto; split; congruence.
  - unfold finish_call. pose proof (C u Q) as [D1 D2].
    destruct (w_pc w u) eqn:E; auto; try (now destruct (D2 k c)); cbn; destruct (v =? u); auto; split; congruence.
Qed.

Lemma writer_none_act (w : world L) x : calm w -> match x with Begin _ _ (Init _ _) => False | _ => True end ->
  w_writer w = None -> w_writer (act read w x) = None.
Proof.
  intros C H W. destruct x as [u t y|u]; cbn [act].
  - unfold begin. destruct (w_pc w u); auto. destruct y; cbn; auto. rewrite W. auto.
  - unfold finish_call. destruct (w_pc w u) eqn:E; auto; rewrite ?W; cbn; auto. 
    now destruct (C u) as [_ D]; destruct (D k c).
Qed.
Lemma writer_none_act_but th (w : world L) x : calm_but th w -> match x with Begin _ _ (Init _ _) => False | _ => True end ->
  match x with Begin u _ _ => u <> th | Finish u => u <> th end ->
  w_writer w = None -> w_writer (act read w x) = None.
Proof.
  intros C H Q W. destruct x as [u t y|u]; cbn [act].
  - unfold begin. destruct (w_pc w u); auto. destruct y; cbn; auto. rewrite W. auto.
  - unfold finish_call. destruct (w_pc w u) eqn:E; auto; rewrite ?W; cbn; auto. 
    now destruct (C u Q) as [_ D]; destruct (D k c).
Qed.

Lemma no_panic (a1 a2 a3 : list (action L)) th t k c :
  no_init a1 -> quiet th a1 -> no_init a2 -> quiet th a2 ->
  let w := acts read (a1 ++ Begin th t (Init k c) :: a2 ++ Finish th :: a3) in
  forall u, w_pc w u <> Panicked.
Proof.
  intros N1 Q1 N2 Q2. cbv zeta. rewrite acts_app. cbn [fold_left].
  assert (S1 : calm (acts read a1) /\ w_writer (acts read a1) = None /\ w_pc (acts read a1) th = Idle).
  { clear N2 Q2 a2 a3. induction a1 as [|x a1 IH] using rev_ind.
    - repeat split; cbn; congruence.
    - apply Forall_app in N1 as [N1 Nx]. apply Forall_app in Q1 as [Q1 Qx].
      destruct (IH N1 Q1) as (C & W & I). inversion Nx; subst. inversion Qx; subst.
      rewrite acts_app. cbn [fold_left]. repeat split.
      + now apply calm_no_init.
      + now apply calm_no_init.
      + now apply writer_none_act.
      + rewrite pc_quiet; auto. }
  destruct S1 as (C & W & I). set (w := acts read a1) in *.
  assert (S2 : act read w (Begin th t (Init k c)) = goto th (Setting k c) w).
  { cbn. unfold begin. now rewrite I, W. }
  rewrite S2. rewrite fold_left_app. cbn [fold_left].
  assert (S3 : let w2 := fold_left (act read) a2 (goto th (Setting k c) w) in
               calm_but th w2 /\ w_writer w2 = None /\ w_pc w2 th = Setting k c).
  { clear S2. assert (B : calm_but th (goto th (Setting k c) w) /\ w_writer (goto th (Setting k c) w) = None
                           /\ w_pc (goto th (Setting k c) w) th = Setting k c).
    { split; [|split]; [|exact W|cbn; now rewrite Nat.eqb_refl].
      intros u Hu. cbn. apply Nat.eqb_neq in Hu. rewrite Hu. apply C. }
    revert B. generalize (goto th (Setting k c) w). clear a3 w C W I N1 Q1. 
    induction a2 as [|x a2 IH]; intros w B; [exact B|]. cbn [fold_left].
    inversion N2; subst. inversion Q2; subst. destruct B as (B1 & B2 & B3). apply IH; auto.
    split; [|split].
    - now apply calm_but_act.
    - now apply (writer_none_act_but th).
    - now rewrite pc_quiet. }
  destruct S3 as (D1 & D2 & D3). set (w2 := fold_left (act read) a2 (goto th (Setting k c) w)) in *.
  assert (S4 : act read w2 (Finish th) = goto th Idle (World (Some (Dest k, c)) (w_out w2) (w_refused w2) (w_pc w2))).
  { cbn. unfold finish_call. now rewrite D3, D2. }
  rewrite S4. intros u. apply calm_run.
  - cbn. congruence.
  - intros v. cbn. destruct (Nat.eqb_spec v th) as [->|Hv]; [split; congruence|]. now apply D1.
Qed.
End Proofs.

(** ** Files *)
Lemma flush_buf_keeps w : f_file (fst (flush_buf w)) ++ f_buf (fst (flush_buf w)) = f_file w ++ f_buf w.
Proof. unfold flush_buf. cbn. now rewrite <- app_assoc, firstn_skipn. Qed.
Lemma flush_buf_empty w : snd (flush_buf w) = true -> f_buf (fst (flush_buf w)) = [].
Proof. unfold flush_buf. cbn. intros H%Nat.leb_le. rewrite Nat.min_r by lia. apply skipn_all. Qed.

Definition content (w : filew) : bytes := f_file w ++ f_buf w.
Lemma buf_write_content b w : exists part, content (fst (buf_write b w)) = content w ++ part /\ prefix part b /\
  (snd (buf_write b w) = true -> part = b).
Proof.
  unfold buf_write. destruct (length b <? spare w) eqn:E.
  { exists b. unfold content. cbn. rewrite app_assoc. split; [reflexivity|]. split; [|auto]. exists []. now rewrite app_nil_r. }
  assert (F : let p := if spare w <? length b then flush_buf w else (w, true) in
              content (fst p) = content w /\ (snd p = true -> f_cap w <= length b -> f_cap w = f_cap (fst p) -> b = [] \/ f_buf (fst p) = [])
              /\ f_cap (fst p) = f_cap w).
  { cbv zeta. destruct (spare w <? length b) eqn:S.
    - split; [apply flush_buf_keeps|]. split; [|reflexivity]. intros H _ _. right. now apply flush_buf_empty.
    - split; [reflexivity|]. split; [|reflexivity]. intros _ H _. apply Nat.ltb_ge in S. unfold spare in S. cbn.
      destruct (f_buf w) as [|x r] eqn:B; [now right|]. cbn [length] in S. left.
      destruct b as [|y b]; [reflexivity|]. cbn [length] in *. lia. }
  destruct (if spare w <? length b then flush_buf w else (w, true)) as [v ok]. cbn [fst snd] in F.
  destruct F as (F1 & F2 & F3). destruct ok.
  2:{ exists []. cbn. rewrite app_nil_r. split; [assumption|]. split; [now exists b|discriminate]. }
  destruct (f_cap v <=? length b) eqn:Cp.
  - apply Nat.leb_le in Cp. rewrite F3 in Cp. specialize (F2 eq_refl Cp (eq_sym F3)).
    unfold disk_write. cbn [fst snd]. destruct F2 as [->|F2].
    { exists []. unfold content in *. cbn. rewrite firstn_nil, !app_nil_r. split; [assumption|]. split; [now exists []|auto]. }
    exists (firstn (Nat.min (f_room v) (length b)) b).
    unfold content in *. cbn. rewrite F2 in *. rewrite !app_nil_r in *. rewrite F1. split; [reflexivity|].
    split; [eexists; symmetry; apply firstn_skipn|]. intros H%Nat.leb_le. rewrite Nat.min_r by lia. apply firstn_all.
  - exists b. unfold content in *. cbn. rewrite app_assoc, F1. split; [reflexivity|]. split; [|auto].
    exists []. now rewrite app_nil_r.
Qed.

Lemma write_pieces_content l w : exists part, content (fst (write_pieces l w)) = content w ++ part /\ prefix part (concat l) /\
  (snd (write_pieces l w) = true -> part = concat l).
Proof.
  revert w; induction l as [|b l IH]; intros w.
  - exists []. cbn. rewrite app_nil_r. repeat split. now exists [].
  - cbn. destruct (buf_write_content b w) as (p & P1 & P2 & P3).
    destruct (buf_write b w) as [v ok]. cbn [fst snd] in *. destruct ok.
    + destruct (IH v) as (q & Q1 & Q2 & Q3). specialize (P3 eq_refl). subst p. exists (b ++ q).
      rewrite Q1, P1, app_assoc. split; [reflexivity|]. split.
      * destruct Q2 as [r ->]. exists r. now rewrite app_assoc.
      * intros H. now rewrite Q3.
    + exists p. split; [assumption|]. split; [|discriminate]. destruct P2 as [r ->]. exists (r ++ concat l). now rewrite app_assoc.
Qed.

Lemma fileops_content l w : exists b, accepted (combine l (snd (fileops l w))) b /\ content (fst (fileops l w)) = content w ++ b.
Proof.
  revert w; induction l as [|x l IH]; intros w.
  - exists []. cbn. rewrite app_nil_r. split; constructor.
  - cbn. destruct (fileop_do x w) as [v ok] eqn:E. specialize (IH v). destruct (fileops l v) as [u oks].
    cbn [fst snd combine] in *. destruct IH as (b & A & C).
    destruct x as [pieces| |n]; cbn [fileop_do] in E.
    + destruct (write_pieces_content pieces w) as (p & P1 & P2 & P3). rewrite E in *. cbn [fst snd] in *.
      exists (p ++ b). rewrite C, P1, app_assoc. split; [|reflexivity]. destruct ok.
      * rewrite P3 by reflexivity. now constructor.
      * now constructor.
    + exists b. rewrite C. pose proof (flush_buf_keeps w) as K. rewrite E in K. unfold content in *. cbn in K. rewrite K.
      split; [now constructor|reflexivity].
    + injection E as <- <-. exists b. rewrite C. split; [now constructor|reflexivity].
Qed.

Lemma closed_prefix l w : f_file w = [] -> f_buf w = [] -> exists b, accepted (combine l (snd (fileops l w))) b /\ prefix (file_closed l w) b
  /\ prefix (f_file (fst (fileops l w))) b.
Proof.
  intros H1 H2. destruct (fileops_content l w) as (b & A & C). exists b. split; [assumption|].
  unfold content in C. rewrite H1, H2 in C. cbn in C.
  split.
  - unfold file_closed. pose proof (flush_buf_keeps (fst (fileops l w))) as K.
    eexists. rewrite <- C, <- K. reflexivity.
  - eexists. symmetry. exact C.
Qed.

(** With enough room nothing fails. *)
Definition enough (w : filew) (n : nat) : Prop := length (f_buf w) + n <= f_room w.
Lemma flush_enough w n : enough w n -> snd (flush_buf w) = true /\ enough (fst (flush_buf w)) n /\ f_cap (fst (flush_buf w)) = f_cap w.
Proof.
  unfold enough, flush_buf. cbn. intros H. rewrite Nat.min_r by lia. rewrite skipn_all. cbn.
  split; [apply Nat.leb_le; lia|]. split; [lia|reflexivity].
Qed.
Lemma buf_write_enough b w n : enough w (length b + n) -> snd (buf_write b w) = true /\ enough (fst (buf_write b w)) n.
Proof.
  intros H. unfold buf_write. destruct (length b <? spare w) eqn:E.
  { unfold enough in *. cbn. rewrite app_length. split; [reflexivity|]. lia. }
  assert (F : let p := if spare w <? length b then flush_buf w else (w, true) in snd p = true /\ enough (fst p) (length b + n)).
  { cbv zeta. destruct (spare w <? length b); [|now split]. destruct (flush_enough _ _ H) as (A & B & _). now split. }
  destruct (if spare w <? length b then flush_buf w else (w, true)) as [v ok]. cbn [fst snd] in F. destruct F as [-> F].
  unfold enough in *. destruct (f_cap v <=? length b).
  - unfold disk_write. cbn. rewrite Nat.min_r by lia. split; [apply Nat.leb_le|]; lia.
  - cbn. rewrite app_length. split; [reflexivity|lia].
Qed.
Lemma write_pieces_enough l w n : enough w (length (concat l) + n) -> snd (write_pieces l w) = true /\ enough (fst (write_pieces l w)) n.
Proof.
  revert w; induction l as [|b l IH]; intros w; cbn.
  - auto.
  - rewrite app_length. intros H. destruct (buf_write_enough b w (length (concat l) + n)) as [A B].
    + unfold enough in *. lia.
    + destruct (buf_write b w) as [v ok]. cbn in *. subst ok. now apply IH.
Qed.

Lemma logs_enough l ops : logs l ops -> forall w n, enough w (length (flat_map enc_entry l) + n) ->
  content (fst (fileops ops w)) = content w ++ flat_map enc_entry l /\ enough (fst (fileops ops w)) n.
Proof.
  induction 1 as [|e pieces l ops Hp Hl IH|l ops Hl IH]; intros w n H.
  - cbn. rewrite app_nil_r. split; [reflexivity|]. exact H.
  - cbn [flat_map] in *. rewrite app_length in H. cbn.
    destruct (write_pieces_enough pieces w (length (flat_map enc_entry l) + n)) as [A B].
    { rewrite Hp. unfold enough in *. lia. }
    destruct (write_pieces_content pieces w) as (p & P1 & _ & P3).
    destruct (write_pieces pieces w) as [v ok]. cbn [fst snd] in *. subst ok. rewrite P3, Hp in P1 by reflexivity.
    specialize (IH v n B). destruct (fileops ops v) as [u oks]. cbn [fst] in *. destruct IH as [I1 I2].
    split; [|assumption]. now rewrite I1, P1, <- app_assoc.
  - cbn [fileops fileop_do]. destruct (flush_enough w _ H) as (A & B & _). pose proof (flush_buf_keeps w) as K.
    destruct (flush_buf w) as [v ok]. cbn [fst snd] in *. specialize (IH v n B).
    destruct (fileops ops v) as [u oks]. cbn [fst] in *. destruct IH as [I1 I2].
    idtac. split; [|assumption].
    rewrite I1. unfold content. now rewrite K.
Qed.

Lemma reads_all l : lossless entry_ok enc_entry dec_entry -> Forall entry_ok l -> reads (flat_map enc_entry l) l.
Proof.
  intros H. induction l as [|e l IH]; intros F; cbn [flat_map]; [constructor|].
  inversion F as [|? ? F1 F2]; subst. apply (reads_cons _ e (flat_map enc_entry l)); [exact (H e _ F1)|exact (IH F2)].
Qed.
