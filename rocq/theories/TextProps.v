(** Texts of logged values (C161) and the export with an older table of strings (C162). *)
From Coq Require Import String List Arith NArith ZArith Bool Lia.
From Verif Require Import Base BincodeModel BincodeSpec CodecModel ValueModel CodecSpec LogModel LogSpec ValueProofs2 LogProofs LogProofs2 ExportProofs LogProps ClockSpec ClockProps.
Import ListNotations.
Local Open Scope list_scope.
Local Open Scope N_scope.

(** ** C161 *)
(** The integers among the values. *)
Definition number (v : value) (z : Z) : Prop :=
  match v with
  | VU8 n | VU16 n | VU32 n | VU64 n => z = Z.of_N n
  | VI8 i | VI16 i | VI32 i | VI64 i => z = i
  | _ => False
  end.
(** A text in decimal, with a minus sign for the negative ones only. *)
Definition reads_int (s : txt) (z : Z) : Prop :=
  (0 <= z)%Z /\ ClockSpec.reads s (Z.to_N z) \/ (z < 0)%Z /\ exists t, s = 45 :: t /\ ClockSpec.reads t (Z.to_N (- z)).
(** Two digits of "0123456789abcdef". *)
Definition reads_hex (s : txt) (b : N) : Prop :=
  exists h l, s = [h; l] /\ exists i j, nth_error (lit "0123456789abcdef") i = Some h /\ nth_error (lit "0123456789abcdef") j = Some l /\ b = 16 * N.of_nat i + N.of_nat j.

Lemma show_Z_reads z : reads_int (show_Z z) z.
Proof.
  unfold show_Z, reads_int. destruct (Z.ltb_spec z 0).
  - right. split; [assumption|]. eexists. split; [reflexivity|]. replace (Z.to_N (- z)) with (Z.abs_N z) by lia. apply show_N_reads.
  - left. split; [assumption|]. replace (Z.to_N z) with (Z.abs_N z) by lia. apply show_N_reads.
Qed.
Theorem C161_integers_partial : forall X v z, number v z -> reads_int (show X v) z.
Proof.
  intros X v z H. destruct v; cbn in H; try contradiction; subst z; cbn [show]; try apply show_Z_reads;
    (left; split; [lia|]; rewrite N2Z.id; apply show_N_reads).
Qed.
Print Assumptions C161_integers_partial.
Example C161_integers_case : number (VI16 (-320)) (-320) /\ show plain_X (VI16 (-320)) = lit "-320".
Proof. split; reflexivity. Qed.

Lemma hex_reads b : b < 256 -> reads_hex (show_hex b) b.
Proof.
  intros H. unfold show_hex, reads_hex. do 2 eexists. split; [reflexivity|].
  assert (D : forall d, d < 16 -> nth_error (lit "0123456789abcdef") (N.to_nat d) = Some (hex_digit d)).
  { intros d Hd. assert (C : forall k, (k < 16)%nat -> nth_error (lit "0123456789abcdef") k = Some (hex_digit (N.of_nat k))).
    { intros k Hk. do 16 (destruct k as [|k]; [reflexivity|]). lia. }
    rewrite (C (N.to_nat d)) by lia. rewrite N2Nat.id. reflexivity. }
  exists (N.to_nat (b / 16)), (N.to_nat (b mod 16)). pose proof (N.div_mod b 16 ltac:(lia)). pose proof (N.mod_lt b 16 ltac:(lia)). assert (b / 16 < 16) by (apply N.div_lt_upper_bound; lia).
  split; [apply D; assumption|]. split; [apply D; lia|]. rewrite !N2Nat.id. lia.
Qed.
(** Words with a separator between them. *)
Fixpoint separated (sep : txt) (words : list txt) : txt :=
  match words with [] => [] | [w] => w | w :: words => w ++ sep ++ separated sep words end.
Lemma join_separated sep l : join sep l = separated sep l.
Proof. induction l as [|x [|y l] IH]; [reflexivity..|]. cbn [join separated] in *. rewrite IH. reflexivity. Qed.
Theorem C161_bytes_partial : forall X b, Forall (fun x => x < 256) b -> exists words, show X (VBytes b) = lit "[" ++ separated (lit " ") words ++ lit "]" /\ Forall2 reads_hex words b.
Proof.
  intros X b H. exists (map show_hex b). split; [cbn [show]; rewrite join_separated; reflexivity|]. induction H; cbn; constructor; [apply hex_reads; assumption|assumption].
Qed.
Print Assumptions C161_bytes_partial.
Example C161_bytes_case : show plain_X (VBytes [0; 171; 255]) = lit "[00 ab ff]" /\ reads_hex (lit "ab") 171.
Proof. split; [reflexivity|]. do 2 eexists. split; [reflexivity|]. exists 10%nat, 11%nat. repeat split. Qed.

Lemma reads_unique s n n' : ClockSpec.reads s n -> ClockSpec.reads s n' -> n = n'.
Proof. intros (_ & _ & A) (_ & _ & B). congruence. Qed.
Lemma reads_chars s n : ClockSpec.reads s n -> s <> [] /\ Forall (fun c => 48 <= c <= 57) s.
Proof. intros (A & B & _). split; assumption. Qed.
Lemma reads_int_unique s z z' : reads_int s z -> reads_int s z' -> z = z'.
Proof.
  intros [[P R]|[P (t & E & R)]] [[P' R']|[P' (t' & E' & R')]].
  - pose proof (reads_unique _ _ _ R R'). lia.
  - subst s. apply reads_chars in R. destruct R as [_ R]. inversion R; lia.
  - subst s. apply reads_chars in R'. destruct R' as [_ R']. inversion R'; lia.
  - rewrite E in E'. injection E' as <-. pose proof (reads_unique _ _ _ R R'). lia.
Qed.
Lemma reads_int_chars s z : reads_int s z -> s <> [] /\ ~ In 44 s.
Proof.
  intros [[P R]|[P (t & -> & R)]]; apply reads_chars in R; destruct R as [N R]; rewrite Forall_forall in R.
  - split; [exact N|]. intros I. apply R in I. lia.
  - split; [discriminate|]. intros [I|I]; [discriminate|]. apply R in I. lia.
Qed.
Lemma cut_comma a a' r r' : ~ In 44 a -> ~ In 44 a' -> a ++ 44 :: r = a' ++ 44 :: r' -> a = a' /\ r = r'.
Proof.
  revert a'. induction a as [|x a IH]; intros [|y a'] Na Na' E; cbn in E.
  - injection E as ->. auto.
  - injection E as <- _. exfalso. apply Na'. left. reflexivity.
  - injection E as -> _. exfalso. apply Na. left. reflexivity.
  - injection E as <- E. destruct (IH a') as [-> ->]; auto; intros I; [apply Na|apply Na']; right; exact I.
Qed.
Lemma separated_inj za : forall zb a b, Forall2 reads_int a za -> Forall2 reads_int b zb -> separated (lit ", ") a = separated (lit ", ") b -> za = zb.
Proof.
  induction za as [|z za IH]; intros zb a b Ha Hb E; inversion Ha as [|x z1 a1 za1 Rx Ra]; subst.
  - destruct Hb as [|y z b1 zb1 Ry Rb]; [reflexivity|]. exfalso. destruct (reads_int_chars _ _ Ry) as [Ny _]. destruct y; [congruence|]. destruct b1; discriminate E.
  - destruct Hb as [|y z' b1 zb1 Ry Rb].
    { exfalso. destruct (reads_int_chars _ _ Rx) as [Nx _]. destruct x; [congruence|]. destruct a1; discriminate E. }
    destruct (reads_int_chars _ _ Rx) as [Nx Cx], (reads_int_chars _ _ Ry) as [Ny Cy].
    destruct a1 as [|x2 a1], b1 as [|y2 b1].
    + inversion Ra; inversion Rb; subst. cbn in E. subst y. rewrite (reads_int_unique _ _ _ Rx Ry). reflexivity.
    + exfalso. cbn [separated] in E. apply Cx. rewrite E. apply in_or_app. right. left. reflexivity.
    + exfalso. cbn [separated] in E. apply Cy. rewrite <- E. apply in_or_app. right. left. reflexivity.
    + change (x ++ 44 :: 32 :: separated (lit ", ") (x2 :: a1) = y ++ 44 :: 32 :: separated (lit ", ") (y2 :: b1)) in E.
      destruct (cut_comma _ _ _ _ Cx Cy E) as [-> E']. injection E' as E'. rewrite (reads_int_unique _ _ _ Rx Ry). f_equal. eapply IH; eauto.
Qed.
(** Sequences of integers with the same text are the same. *)
Theorem C161_sequences_partial : forall X a b za zb, Forall2 number a za -> Forall2 number b zb -> show X (VSeq a) = show X (VSeq b) -> za = zb.
Proof.
  intros X a b za zb Ha Hb E. cbn [show] in E. apply app_inv_head in E. apply app_inv_tail in E. rewrite !join_separated in E.
  eapply separated_inj; [| |exact E]; [clear -Ha; induction Ha|clear -Hb; induction Hb]; cbn; constructor; auto; apply C161_integers_partial; assumption.
Qed.
Print Assumptions C161_sequences_partial.
Example C161_sequences_case : Forall2 number [VI32 (-1); VI32 20] [-1; 20]%Z /\ show plain_X (VSeq [VI32 (-1); VI32 20]) = lit "[-1, 20]".
Proof. split; [repeat constructor|reflexivity]. Qed.
(** Texts are not quoted: sequences of strings of different lengths, or an absent option and a
    string, print the same. *)
Theorem C161_refuted : exists a b, Forall (fun v => exists s, v = VString s) (a ++ b) /\ length a <> length b /\ (forall X, show X (VSeq a) = show X (VSeq b)).
Proof.
  exists [VString (lit "a, b")], [VString (lit "a"); VString (lit "b")]. split; [repeat constructor; eauto|]. split; [discriminate|]. intros X. reflexivity.
Qed.
Print Assumptions C161_refuted.

(** ** C162 *)
Lemma textlog_stops X strings es e rest : forall fuel, Forall entry_ok es -> Forall (fun e => le_msg e <> 0) es -> Forall (fun e => exists r, rebuild_logline X strings e = Ret r) es ->
  entry_ok e -> le_msg e <> 0 -> nth_error strings (N.to_nat (le_msg e)) = None -> (length es < fuel)%nat ->
  textlog X strings fuel (flat_map enc_entry es ++ enc_entry e ++ rest) =
  (map (fun e => match rebuild_logline X strings e with
                 | Ret (Some l) => Line (show_time X (le_time e) ++ lit ": " ++ l)
                 | _ => Failure end) es, true).
Proof.
  induction es as [|x es IH]; intros fuel H1 H2 H3 He Hz Hn Hf; (destruct fuel as [|fuel]; [cbn in Hf; lia|]); cbn [textlog flat_map map app].
  - rewrite (entry_lossless e) by auto. destruct (N.eqb_spec (le_msg e) 0); [congruence|]. unfold rebuild_logline. rewrite Hn. reflexivity.
  - inversion H1; inversion H2; inversion H3; subst. rewrite <- app_assoc, (entry_lossless x) by auto.
    destruct (N.eqb_spec (le_msg x) 0); [congruence|].
    match goal with X : exists r, rebuild_logline _ _ x = _ |- _ => destruct X as (r & Er) end.
    rewrite Er, IH by (auto; cbn in Hf; lia). destruct r; reflexivity.
Qed.
Lemma call_entry_eq intern c : call_entry intern c = LogEntry (c_time c) (intern (c_fmt c)) (map (fun _ => 0) (c_args c)) (c_args c).
Proof.
  assert (U : forall l, unnamed_of (map Unnamed l) = l). { induction l as [|v l IH]; auto. unfold unnamed_of in *. cbn. rewrite IH. reflexivity. }
  assert (M : forall l, named_of (map Unnamed l) = []). { induction l as [|v l IH]; auto. }
  unfold call_entry, debug_entry. rewrite U, M. cbn. rewrite !app_nil_r. reflexivity.
Qed.
(** The calls before one whose message the table does not have are printed, then the export
    panics, whatever follows. *)
Theorem C162_partial : forall X intern strings calls e rest, Forall (call_ok X intern strings) calls ->
  entry_ok e -> le_msg e <> 0 -> N.of_nat (length strings) <= le_msg e ->
  textlog_dump X strings (flat_map (fun c => enc_entry (call_entry intern c)) calls ++ enc_entry e ++ rest) =
  (map (fun c => Line (show_time X (c_time c) ++ lit ": " ++ fill (c_pieces c) (map (show X) (c_args c)))) calls, true).
Proof.
  intros X intern strings calls e rest H He Hz Hn. rewrite Forall_forall in H.
  assert (R : forall c, In c calls -> rebuild_logline X strings (call_entry intern c) = Ret (Some (fill (c_pieces c) (map (show X) (c_args c))))).
  { intros c Hc. destruct (H c Hc) as (_ & _ & A3 & A4 & _ & _ & A7 & A8). rewrite call_entry_eq. eapply C26_line_partial; eauto. }
  assert (FM : flat_map (fun c => enc_entry (call_entry intern c)) calls = flat_map enc_entry (map (call_entry intern) calls)).
  { clear. induction calls as [|c l IH]; cbn; auto. rewrite IH. reflexivity. }
  unfold textlog_dump. rewrite FM, textlog_stops; auto.
  - rewrite map_map. f_equal. apply map_ext_in. intros c Hc. rewrite R by auto. rewrite call_entry_eq. reflexivity.
  - apply Forall_map, Forall_forall. intros c Hc. destruct (H c Hc) as (A1 & A2 & A3 & A4 & A5 & A6 & _).
    rewrite call_entry_eq. unfold entry_ok. cbn. rewrite map_length. repeat split; auto. apply Forall_map, Forall_forall. intros. reflexivity.
  - apply Forall_map, Forall_forall. intros c Hc. destruct (H c Hc) as (A1 & A2 & A3 & _). exact A3.
  - apply Forall_map, Forall_forall. intros c Hc. eexists. apply R. auto.
  - apply nth_error_None. lia.
  - rewrite app_length. pose proof (flat_map_long enc_entry (map (call_entry intern) calls) enc_entry_nonempty). lia.
Qed.
Print Assumptions C162_partial.
Example C162_case : let intern := (fun _ => 1) in let c := Call 7 (lit "x = {}") [lit "x = "; []] [VU8 3] in
  call_ok plain_X intern [[]; lit "x = {}"] c /\ entry_ok (LogEntry 8 2 [] []) /\ N.of_nat (length [[]; lit "x = {}"]) <= 2.
Proof. split; [exact (proj1 C57_case)|]. split; [|reflexivity]. unfold entry_ok, ubits. cbn. repeat split; try lia; constructor. Qed.
(** So a line that could be rebuilt is lost. *)
Theorem C162_refuted : exists strings e, entry_ok e /\ nth_error strings (N.to_nat (le_msg e)) = Some (lit "x = {}") /\ forall X,
  rebuild_logline X strings e = Ret (Some (lit "x = 3")) /\
  textlog_dump X strings (enc_entry (LogEntry 8 2 [] []) ++ enc_entry e) = ([], true).
Proof.
  exists [[]; lit "x = {}"], (LogEntry 9 1 [0] [VU8 3]). split; [unfold entry_ok, ubits; cbn; repeat split; try lia; repeat constructor; unfold ubits; lia|]. split; [reflexivity|]. intros X. split; reflexivity.
Qed.
Print Assumptions C162_refuted.
