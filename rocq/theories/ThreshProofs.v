(** Proofs about the adaptive threshold. *)
From Coq Require Import List Arith NArith ZArith Bool Lia.
From Verif Require Import Base ThreshModel ThreshSpec.
Import ListNotations.
Local Open Scope N_scope.

(** ** Sums *)
Fixpoint sumto (f : nat -> N) (n : nat) : N := match n with O => 0 | S n => sumto f n + f n end.
Lemma sumto_ext f g n : (forall a, (a < n)%nat -> f a = g a) -> sumto f n = sumto g n.
Proof. induction n; cbn; intros H; [reflexivity|]. rewrite IHn, H by (intros; auto || apply H; lia). reflexivity. Qed.
Lemma sumto_bound f c n : (forall a, f a <= c) -> sumto f n <= c * N.of_nat n.
Proof. intros H. induction n; cbn [sumto]; [lia|]. specialize (H n). nia. Qed.
Lemma sumto_add f g n : sumto (fun a => f a + g a) n = sumto f n + sumto g n.
Proof. induction n; cbn [sumto]; lia. Qed.
Lemma sumto_swap (f : nat -> nat -> N) m n : sumto (fun a => sumto (f a) n) m = sumto (fun b => sumto (fun a => f a b) m) n.
Proof.
  induction m as [|m IH]; cbn [sumto].
  - induction n; cbn [sumto]; lia.
  - rewrite IH, <- sumto_add. reflexivity.
Qed.
Lemma sumto_range f lo hi n : (lo <= hi <= n)%nat ->
  sumto (fun a => if Nat.leb lo a && Nat.ltb a hi then f a else 0) n + sumto f lo = sumto f hi.
Proof.
  intros H. assert (X : forall k, sumto (fun a => if Nat.leb lo a && Nat.ltb a hi then f a else 0) k + sumto f (Nat.min lo k) = sumto f (Nat.min hi k)).
  { induction k as [|k IH]; cbn [sumto]; [rewrite !Nat.min_0_r; reflexivity|].
    destruct (Nat.leb_spec lo k), (Nat.ltb_spec k hi); cbn [andb].
    - replace (Nat.min lo (S k)) with (Nat.min lo k) by lia. replace (Nat.min hi (S k)) with (S k) by lia.
      replace (Nat.min hi k) with k in IH by lia. cbn [sumto]. lia.
    - replace (Nat.min lo (S k)) with (Nat.min lo k) by lia. replace (Nat.min hi (S k)) with (Nat.min hi k) by lia. lia.
    - replace (Nat.min lo (S k)) with (S k) by lia. replace (Nat.min hi (S k)) with (S k) by lia.
      replace (Nat.min lo k) with k in IH by lia. replace (Nat.min hi k) with k in IH by lia. cbn [sumto]. lia.
    - lia. }
  specialize (X n). replace (Nat.min lo n) with lo in X by lia. replace (Nat.min hi n) with hi in X by lia. exact X.
Qed.
Lemma total_cons x l : total (x :: l) = x + total l.
Proof. reflexivity. Qed.
Lemma total_app a b : total (a ++ b) = total a + total b.
Proof. induction a as [|x a IH]; [reflexivity|]. change (x + total (a ++ b) = x + total a + total b). lia. Qed.
Lemma total_seq f n : total (map f (seq 0 n)) = sumto f n.
Proof. induction n; [reflexivity|]. rewrite seq_S, map_app, total_app, IHn. cbn [map sumto]. rewrite total_cons. cbn. lia. Qed.
Lemma total_filter {X} (c : X -> bool) (f : X -> N) l : total (map f (filter c l)) = total (map (fun x => if c x then f x else 0) l).
Proof. induction l as [|x l IH]; cbn [filter map]; [reflexivity|]. rewrite total_cons. destruct (c x); cbn [map]; rewrite ?total_cons, IH; lia. Qed.
Lemma total_prod {X Y} (g : X * Y -> N) l1 l2 : total (map g (list_prod l1 l2)) = total (map (fun a => total (map (fun b => g (a, b)) l2)) l1).
Proof. induction l1 as [|a l1 IH]; cbn [list_prod map]; [reflexivity|]. rewrite map_app, total_app, IH, map_map, total_cons. reflexivity. Qed.
Lemma total_ones {X} (l : list X) : N.of_nat (length l) = total (map (fun _ => 1) l).
Proof. induction l; cbn [length map]; [reflexivity|]. rewrite total_cons. lia. Qed.

(** The sum over a block from the sums over corners. *)
Lemma block_sum (F : nat -> nat -> N) r w h x y xl xh yl yh :
  (xl <= xh <= w)%nat -> (yl <= yh <= h)%nat ->
  (forall a, (a < w)%nat -> near r x a = (Nat.leb xl a && Nat.ltb a xh)%bool) ->
  (forall b, (b < h)%nat -> near r y b = (Nat.leb yl b && Nat.ltb b yh)%bool) ->
  let G i j := sumto (fun b => sumto (fun a => F a b) i) j in
  total (map (fun p => F (fst p) (snd p)) (block r w h x y)) + G xh yl + G xl yh = G xh yh + G xl yl.
Proof.
  intros Hx Hy Nx Ny G. unfold block. rewrite total_filter, total_prod, total_seq.
  set (I0 := fun a => sumto (fun b => if Nat.leb yl b && Nat.ltb b yh then F a b else 0) h).
  assert (E : sumto (fun a => total (map (fun b => if near r x (fst (a, b)) && near r y (snd (a, b)) then F (fst (a, b)) (snd (a, b)) else 0) (seq 0 h))) w =
    sumto (fun a => if Nat.leb xl a && Nat.ltb a xh then I0 a else 0) w).
  { apply sumto_ext. intros a Ha. rewrite total_seq. cbn [fst snd]. rewrite Nx by auto. destruct (Nat.leb xl a && Nat.ltb a xh)%bool; cbn [andb].
    - apply sumto_ext. intros b Hb. rewrite Ny by auto. reflexivity.
    - clear. induction h; cbn [sumto]; lia. }
  rewrite E. clear E.
  pose proof (sumto_range I0 xl xh w Hx) as R.
  assert (C : forall n, sumto I0 n + G n yl = G n yh).
  { intros n. unfold G. rewrite <- !(sumto_swap F), <- sumto_add. apply sumto_ext. intros a _. unfold I0. apply sumto_range. auto. }
  pose proof (C xl). pose proof (C xh). lia.
Qed.
Lemma block_count r w h x y xl xh yl yh :
  (xl <= xh <= w)%nat -> (yl <= yh <= h)%nat ->
  (forall a, (a < w)%nat -> near r x a = (Nat.leb xl a && Nat.ltb a xh)%bool) ->
  (forall b, (b < h)%nat -> near r y b = (Nat.leb yl b && Nat.ltb b yh)%bool) ->
  N.of_nat (length (block r w h x y)) = N.of_nat ((yh - yl) * (xh - xl)).
Proof.
  intros Hx Hy Nx Ny. pose proof (block_sum (fun _ _ => 1) r w h x y xl xh yl yh Hx Hy Nx Ny) as B. cbv beta zeta in B.
  assert (G : forall i j, sumto (fun b => sumto (fun a => 1) i) j = N.of_nat i * N.of_nat j).
  { intros i j. assert (A : sumto (fun _ => 1) i = N.of_nat i) by (clear; induction i; cbn [sumto]; lia).
    induction j; cbn [sumto]; [lia|]. rewrite IHj, A. lia. }
  rewrite !G in B. rewrite total_ones. assert (exists u v, xh = xl + u /\ yh = yl + v)%nat as (u & v & -> & ->) by (exists (xh - xl)%nat, (yh - yl)%nat; lia).
  replace (yl + v - yl)%nat with v by lia. replace (xl + u - xl)%nat with u by lia. nia.
Qed.

(** ** Arrays *)
Lemma nth_upd (l : list N) i j v : nth i (upd j v l) 0 = if Nat.eqb i j && Nat.ltb j (length l) then v else nth i l 0.
Proof.
  revert i j. induction l as [|a l IH]; intros [|i] [|j]; cbn [upd nth length]; auto.
  - rewrite andb_false_r. reflexivity.
  - rewrite IH. reflexivity.
Qed.
Lemma index_inj w x y x' y' : (x < w)%nat -> (x' < w)%nat -> (x + y * w = x' + y' * w)%nat -> x = x' /\ y = y'.
Proof. intros H1 H2 E. assert (y = y') by (destruct (Nat.lt_trichotomy y y') as [L|[L|L]]; [|auto|]; nia). subst. lia. Qed.
Lemma index_lt w h x y : (x < w)%nat -> (y < h)%nat -> (x + y * w < w * h)%nat.
Proof. intros. nia. Qed.
Lemma get_ok s x y w h : length s = (w * h)%nat -> (x < w)%nat -> (y < h)%nat -> get_pixel s x y w = Ret (pixel s w x y).
Proof.
  intros L Hx Hy. unfold get_pixel, pixel. pose proof (index_lt w h x y Hx Hy). rewrite (nth_error_nth' s 0) by lia. reflexivity.
Qed.
Lemma put_ok s x y w h v : length s = (w * h)%nat -> (x < w)%nat -> (y < h)%nat -> exists s', put_pixel s x y w v = Ret s' /\
  length s' = (w * h)%nat /\ forall i j, (i < w)%nat -> (j < h)%nat -> pixel s' w i j = if Nat.eqb i x && Nat.eqb j y then v else pixel s w i j.
Proof.
  intros L Hx Hy. pose proof (index_lt w h x y Hx Hy). unfold put_pixel. rewrite (proj2 (Nat.ltb_lt _ _)) by lia. eexists. split; [reflexivity|].
  split; [rewrite upd_length; auto|]. intros i j Hi Hj. unfold pixel. rewrite nth_upd. rewrite (proj2 (Nat.ltb_lt _ (length s))) by lia. rewrite andb_true_r.
  destruct (Nat.eqb_spec (i + j * w) (x + y * w)) as [E|E].
  - apply index_inj in E; auto. destruct E as [-> ->]. rewrite !Nat.eqb_refl. reflexivity.
  - destruct (Nat.eqb_spec i x), (Nat.eqb_spec j y); cbn; auto. subst. congruence.
Qed.
(** A loop keeps an invariant. *)
Lemma loop_inv {S} (P : nat -> S -> Prop) f n : forall k s, P k s ->
  (forall i s, (k <= i < k + n)%nat -> P i s -> exists s', f i s = Ret s' /\ P (Datatypes.S i) s') ->
  exists s', loop f k n s = Ret s' /\ P (k + n)%nat s'.
Proof.
  induction n as [|n IH]; intros k s H F; cbn [loop].
  - exists s. rewrite Nat.add_0_r. auto.
  - destruct (F k s ltac:(lia) H) as (s1 & E & H1). rewrite E. cbn [obind].
    destruct (IH (Datatypes.S k) s1 H1) as (s2 & E2 & H2); [intros; apply F; auto; lia|].
    exists s2. split; [exact E2|]. replace (k + Datatypes.S n)%nat with (Datatypes.S k + n)%nat by lia. exact H2.
Qed.

(** ** The integral image *)
Section Image.
Variables (src : list N) (w h : nat).
Hypothesis Im : image w h src.
Hypothesis Small : 255 * N.of_nat w * N.of_nat h < 2 ^ 32.
Let pix := pixel src w.
Let row (i j : nat) : N := sumto (fun a => pix a j) i.
Let G (i j : nat) : N := sumto (fun b => row i b) j.
Lemma pix_bound x y : pix x y <= 255.
Proof.
  unfold pix, pixel. destruct Im as [_ F]. destruct (Nat.lt_ge_cases (x + y * w) (length src)) as [L|L].
  - rewrite Forall_forall in F. assert (nth (x + y * w) src 0 < 256) by (apply F, nth_In; auto). lia.
  - rewrite nth_overflow by auto. lia.
Qed.
Lemma row_bound i j : row i j <= 255 * N.of_nat i.
Proof. apply sumto_bound. intros. apply pix_bound. Qed.
Lemma G_bound i j : G i j <= 255 * N.of_nat i * N.of_nat j.
Proof. apply sumto_bound. intros. apply row_bound. Qed.
(** The borders are zero. *)
Definition borders (s : list N) : Prop := length s = ((w + 1) * (h + 1))%nat /\
  forall i j, (i < w + 1)%nat -> (j < h + 1)%nat -> (i = 0 \/ j = 0)%nat -> pixel s (w + 1) i j = 0.
Lemma integral_ok dst : borders dst -> exists s, integral_image src dst w h = Ret s /\ borders s /\
  forall i j, (i < w + 1)%nat -> (j < h + 1)%nat -> pixel s (w + 1) i j = G i j.
Proof.
  intros B. destruct Im as [Ls _]. unfold integral_image.
  assert (Gz : forall i j, (i = 0 \/ j = 0)%nat -> G i j = 0).
  { intros i j [-> | ->]; unfold G, row; cbn [sumto]; [|reflexivity]. induction j; cbn [sumto]; lia. }
  destruct (loop_inv (fun y s => borders s /\ forall i j, (i < w + 1)%nat -> (j < h + 1)%nat -> (j <= y)%nat -> pixel s (w + 1) i j = G i j)
    (fun y dst => let! (_, dst) := loop (integral_step src w y) 0 w (0, dst) in Ret dst) h 0 dst) as (s & E & Bs & H).
  - split; [exact B|]. intros i j Hi Hj L. assert (j = 0%nat) by lia. subst. rewrite Gz by auto. apply B; auto.
  - intros y s Hy [Bs Hs].
    destruct (loop_inv (fun x (st : N * list N) => fst st = row x y /\ borders (snd st) /\ forall i j, (i < w + 1)%nat -> (j < h + 1)%nat ->
        (j <= y)%nat \/ (j = y + 1 /\ i <= x)%nat -> pixel (snd st) (w + 1) i j = G i j)
      (integral_step src w y) w 0 (0, s)) as ([sum s'] & E & _ & Bs' & Hs').
    + cbn [fst snd]. split; [reflexivity|]. split; [exact Bs|]. intros i j Hi Hj [L|[L1 L2]]; [apply Hs; auto|].
      assert (i = 0%nat) by lia. subst. rewrite Gz by auto. apply Bs; auto.
    + intros x [sum t] Hx (E1 & Bt & Ht). cbn [fst snd] in *. unfold integral_step.
      rewrite (get_ok src x y w h Ls) by lia. cbn [obind]. fold pix. subst sum. change (row x y + pix x y) with (row (S x) y).
      assert (R1 : row (S x) y < 2 ^ 32).
      { pose proof (row_bound (S x) y). assert (255 * N.of_nat (S x) <= 255 * N.of_nat w * N.of_nat h) by nia. lia. }
      unfold u32 at 1. rewrite (proj2 (N.ltb_lt _ _)) by auto. cbn [obind].
      destruct Bt as [Lt Zt]. rewrite (get_ok t (x + 1) y (w + 1) (h + 1) Lt) by lia. cbn [obind]. rewrite (Ht (x + 1)%nat y) by lia.
      assert (Gs : G (x + 1) y + row (S x) y = G (x + 1) (y + 1)).
      { replace (y + 1)%nat with (S y) by lia. unfold G. cbn [sumto]. f_equal. f_equal. lia. }
      rewrite Gs.
      assert (R2 : G (x + 1) (y + 1) < 2 ^ 32).
      { pose proof (G_bound (x + 1) (y + 1)). assert (255 * N.of_nat (x + 1) * N.of_nat (y + 1) <= 255 * N.of_nat w * N.of_nat h) by (apply N.mul_le_mono; lia). lia. }
      unfold u32. rewrite (proj2 (N.ltb_lt _ _)) by auto. cbn [obind].
      destruct (put_ok t (x + 1) (y + 1) (w + 1) (h + 1) (G (x + 1) (y + 1)) Lt ltac:(lia) ltac:(lia)) as (t' & E2 & Lt' & P). rewrite E2. cbn [obind].
      eexists. split; [reflexivity|]. cbn [fst snd]. split; [reflexivity|]. split.
      * split; [exact Lt'|]. intros i j Hi Hj Z0. rewrite P by auto. rewrite (proj2 (andb_false_iff _ _)); [apply Zt; auto|].
        rewrite !Nat.eqb_neq. lia.
      * intros i j Hi Hj C. rewrite P by auto. destruct (Nat.eqb_spec i (x + 1)), (Nat.eqb_spec j (y + 1)); cbn [andb]; subst; auto; apply Ht; lia.
    + rewrite E. cbn [obind]. exists s'. split; [reflexivity|]. cbn [snd] in *. split; [exact Bs'|]. intros i j Hi Hj L. apply Hs'; lia.
  - exists s. split; [exact E|]. split; [exact Bs|]. intros i j Hi Hj. apply H; lia.
Qed.

(** ** The threshold *)
Variable r : N.
Hypothesis Rr : 0 < r < 2 ^ 31.
Lemma low_ok p size : (p < size)%nat -> N.of_nat size < 2 ^ 31 -> exists l, low p r = Ret l /\ (l <= p)%nat /\
  forall a, Nat.leb l a = (N.of_nat p <=? N.of_nat a + r).
Proof.
  intros H L. unfold low, as_i32. change (2 ^ 32) with 4294967296 in *. change (2 ^ 31) with 2147483648 in *. change (- 2 ^ 31)%Z with (-2147483648)%Z. change (2 ^ 31)%Z with 2147483648%Z.
  rewrite !N.mod_small by lia. rewrite (proj2 (N.ltb_lt _ _)) by lia. rewrite (proj2 (N.ltb_lt r _)) by lia.
  destruct ((_ <? _)%Z || (_ <=? _)%Z)%bool eqn:E; [exfalso; apply orb_true_iff in E; destruct E; lia|].
  eexists. split; [reflexivity|]. split; [lia|]. intros a. apply eq_true_iff_eq. rewrite Nat.leb_le, N.leb_le. lia.
Qed.
Lemma high_ok p size : (p < size)%nat -> (p <= high size p r < size)%nat /\ forall a, (a < size)%nat -> Nat.ltb a (high size p r + 1) = (N.of_nat a <=? N.of_nat p + r).
Proof.
  intros H. unfold high. split; [lia|]. intros a Ha. apply eq_true_iff_eq. rewrite Nat.ltb_lt, N.leb_le. lia.
Qed.
Lemma threshold_ok integral dst : borders integral -> (forall i j, (i < w + 1)%nat -> (j < h + 1)%nat -> pixel integral (w + 1) i j = G i j) ->
  length dst = (w * h)%nat -> exists out, adaptive_threshold src integral dst r w h = Ret out /\ thresholded src r w h out.
Proof.
  intros [Li _] HG Ld. destruct Im as [Ls _]. unfold adaptive_threshold. rewrite (proj2 (N.eqb_neq _ _)) by lia.
  set (good := fun (out : list N) (x y : nat) => (brighter src r w h x y -> pixel out w x y = 255) /\ (~ brighter src r w h x y -> pixel out w x y = 0)).
  assert (Step : forall y x d, (y < h)%nat -> (x < w)%nat -> length d = (w * h)%nat -> exists d', threshold_step src integral r w h y x d = Ret d' /\
    length d' = (w * h)%nat /\ good d' x y /\ forall i j, (i < w)%nat -> (j < h)%nat -> (i <> x \/ j <> y) -> pixel d' w i j = pixel d w i j).
  { intros y x d Hy Hx L. unfold threshold_step. rewrite (get_ok src x y w h Ls) by auto. cbn [obind].
    assert (Sw : N.of_nat w < 2 ^ 31 /\ N.of_nat h < 2 ^ 31).
    { change (2 ^ 32) with 4294967296 in Small. change (2 ^ 31) with 2147483648. split; nia. }
    destruct Sw as [Sw Sh].
    destruct (low_ok y h Hy Sh) as (yl & Eyl & Lyl & Nyl). destruct (low_ok x w Hx Sw) as (xl & Exl & Lxl & Nxl).
    rewrite Eyl. cbn [obind]. rewrite Exl. cbn [obind]. cbv zeta.
    destruct (high_ok y h Hy) as [Lyh Nyh]. destruct (high_ok x w Hx) as [Lxh Nxh].
    set (xh := high w x r) in *. set (yh := high h y r) in *.
    rewrite (proj2 (Nat.ltb_ge _ _)) by lia. rewrite (proj2 (Nat.ltb_ge _ _)) by lia. cbn [orb].
    assert (Nx : forall a, (a < w)%nat -> near r x a = (Nat.leb xl a && Nat.ltb a (xh + 1))%bool).
    { intros a Ha. unfold near. rewrite Nxl, Nxh by auto. reflexivity. }
    assert (Ny : forall a, (a < h)%nat -> near r y a = (Nat.leb yl a && Nat.ltb a (yh + 1))%bool).
    { intros a Ha. unfold near. rewrite Nyl, Nyh by auto. reflexivity. }
    pose proof (block_sum pix r w h x y xl (xh + 1) yl (yh + 1) ltac:(lia) ltac:(lia) Nx Ny) as BS. cbv zeta in BS.
    pose proof (block_count r w h x y xl (xh + 1) yl (yh + 1) ltac:(lia) ltac:(lia) Nx Ny) as BC.
    replace (yh - yl + 1)%nat with (yh + 1 - yl)%nat by lia. replace (xh - xl + 1)%nat with (xh + 1 - xl)%nat by lia. rewrite <- BC.
    set (n := N.of_nat (length (block r w h x y))) in *. set (T := total (map (fun p => pix (fst p) (snd p)) (block r w h x y))) in *.
    assert (Bn : n <= N.of_nat w * N.of_nat h).
    { rewrite BC. rewrite <- Nat2N.inj_mul. assert ((yh + 1 - yl) * (xh + 1 - xl) <= h * w)%nat by (apply Nat.mul_le_mono; lia). lia. }
    assert (n < 2 ^ 32) by lia. rewrite (N.mod_small n) by auto.
    unfold sum_image_pixels. rewrite !(get_ok integral _ _ (w + 1) (h + 1) Li) by lia. cbn [obind]. rewrite !HG by lia.
    assert (BS' : T + G (xh + 1) yl + G xl (yh + 1) = G (xh + 1) (yh + 1) + G xl yl) by exact BS. clear BS.
    replace (Z.of_N (G (xh + 1) (yh + 1)) + Z.of_N (G xl yl) - Z.of_N (G (xh + 1) yl) - Z.of_N (G xl (yh + 1)))%Z with (Z.of_N T) by lia.
    rewrite (proj2 (Z.ltb_ge _ _)) by lia. cbn [obind]. rewrite N2Z.id.
    assert (BT : T <= 255 * n).
    { unfold T, n. rewrite total_ones. generalize (block r w h x y). intros l. induction l as [|p l IHl]; cbn [map]; [cbn; lia|].
      rewrite !total_cons. pose proof (pix_bound (fst p) (snd p)). lia. }
    rewrite (N.mod_small T) by lia.
    assert (BP : pix x y * n < 2 ^ 32) by (pose proof (pix_bound x y); nia).
    fold pix. unfold u32. rewrite (proj2 (N.ltb_lt _ _)) by auto. cbn [obind].
    destruct (put_ok d x y w h (if T <? pix x y * n then 255 else 0) L Hx Hy) as (d' & E & L' & P). exists d'. split; [exact E|]. split; [exact L'|]. split.
    - unfold good, brighter. cbv zeta. fold pix T n. rewrite P, !Nat.eqb_refl by auto. cbn [andb]. destruct (N.ltb_spec T (pix x y * n)); split; intros; auto; lia.
    - intros i j Hi Hj D. rewrite P by auto. destruct (Nat.eqb_spec i x), (Nat.eqb_spec j y); cbn [andb]; auto. subst. tauto. }
  destruct (loop_inv (fun y d => length d = (w * h)%nat /\ forall i j, (i < w)%nat -> (j < h)%nat -> (j < y)%nat -> good d i j)
    (fun y d => loop (threshold_step src integral r w h y) 0 w d) h 0 dst) as (out & E & Lo & Go).
  - split; [exact Ld|]. lia.
  - intros y d Hy [L Gd].
    destruct (loop_inv (fun x d => length d = (w * h)%nat /\ forall i j, (i < w)%nat -> (j < h)%nat -> (j < y)%nat \/ (j = y /\ i < x)%nat -> good d i j)
      (threshold_step src integral r w h y) w 0 d) as (d' & E & L' & G').
    + split; [exact L|]. intros i j Hi Hj [C|C]; [apply Gd; auto|lia].
    + intros x d1 Hx [L1 G1]. destruct (Step y x d1 ltac:(lia) ltac:(lia) L1) as (d2 & E2 & L2 & G2 & K). exists d2. split; [exact E2|]. split; [exact L2|].
      intros i j Hi Hj C. destruct (Nat.eq_dec i x), (Nat.eq_dec j y); subst; auto; unfold good; rewrite K by auto; apply G1; lia.
    + exists d'. split; [exact E|]. split; [exact L'|]. intros i j Hi Hj C. apply G'; auto. lia.
  - exists out. split; [exact E|]. split; [exact Lo|]. intros x y Hx Hy. apply Go; auto.
Qed.
End Image.
