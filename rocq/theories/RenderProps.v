(** The picture of a configuration: C140. *)
From Coq Require Import String Ascii List Arith Bool Lia ZArith DecimalString.
From Verif Require Import Base PlanModel ConfigModel RenderModel RenderSpec.
Import ListNotations.
Local Open Scope string_scope.
Local Open Scope list_scope.
Local Open Scope nat_scope.

(** * Reading the tokens *)
Fixpoint lexs (st : lexing) (s : string) : lexing * list token :=
  match s with
  | EmptyString => (st, [])
  | String c s => let (st, l) := lex_step st c in let (st, r) := lexs st s in (st, l ++ r)
  end.
Lemma lexs_app s : forall st t, lexs st (s ++ t)%string = let (st1, l) := lexs st s in let (st2, r) := lexs st1 t in (st2, l ++ r).
Proof.
  induction s as [|c s IH]; intros st t; cbn [lexs append].
  - destruct (lexs st t); reflexivity.
  - destruct (lex_step st c) as [st1 l]. rewrite IH. destruct (lexs st1 s) as [st2 r]. destruct (lexs st2 t). rewrite app_assoc. reflexivity.
Qed.
Lemma lex_lexs s : forall st, lex st s = let (st', l) := lexs st s in l ++ match st' with Idle => [] | InId acc => [Id (str acc)] | _ => [Bad] end.
Proof.
  induction s as [|c s IH]; intros st; cbn [lexs lex]; [reflexivity|]. destruct (lex_step st c) as [st1 l]. rewrite IH. destruct (lexs st1 s) as [st2 r]. rewrite app_assoc. reflexivity.
Qed.
Lemma of_list_app a b : string_of_list_ascii (a ++ b) = (string_of_list_ascii a ++ string_of_list_ascii b)%string.
Proof. induction a; cbn; congruence. Qed.
Lemma to_list_app a b : list_ascii_of_string (a ++ b)%string = list_ascii_of_string a ++ list_ascii_of_string b.
Proof. induction a; cbn; congruence. Qed.
Lemma app_nil_s (s : string) : (s ++ "")%string = s.
Proof. induction s; cbn; congruence. Qed.
Lemma app_assoc_s (a b c : string) : ((a ++ b) ++ c)%string = (a ++ b ++ c)%string.
Proof. induction a; cbn; congruence. Qed.

(** Texts that leave the depth of an HTML string as it is. *)
Definition neutral (s : string) : Prop := forall d acc, lexs (InHtml d acc) s = (InHtml d (rev (list_ascii_of_string s) ++ acc), []).
Lemma neutral_app a b : neutral a -> neutral b -> neutral (a ++ b)%string.
Proof. intros A B d acc. rewrite lexs_app, A, B, to_list_app, rev_app_distr, app_assoc. reflexivity. Qed.
Lemma neutral_plain s : Forall (fun c => c <> "<"%char /\ c <> ">"%char) (list_ascii_of_string s) -> neutral s.
Proof.
  induction s as [|c s IH]; intros F d acc; cbn [lexs list_ascii_of_string rev]; [reflexivity|]. inversion F as [|? ? [N1 N2] F2]; subst.
  cbn [lex_step]. destruct (Ascii.eqb_spec c "<"); [congruence|]. destruct (Ascii.eqb_spec c ">"); [congruence|]. rewrite IH by auto. cbn [rev app]. rewrite <- app_assoc. reflexivity.
Qed.
Lemma plain_neutral s : plain s -> neutral s.
Proof. intros P. apply neutral_plain. eapply Forall_impl; [|exact P]. cbn. intros c (A & B & C). auto. Qed.
Lemma encode_neutral s : neutral (encode_text s).
Proof.
  induction s as [|c s IH]; [intros d acc; reflexivity|]. cbn [encode_text]. apply neutral_app; auto.
  destruct (Ascii.eqb_spec c "&"); [intros d acc; reflexivity|]. destruct (Ascii.eqb_spec c "<"); [intros d acc; reflexivity|]. destruct (Ascii.eqb_spec c ">"); [intros d acc; reflexivity|].
  apply neutral_plain. cbn. auto.
Qed.
Lemma neutral_concat sep l : neutral sep -> Forall neutral l -> neutral (String.concat sep l).
Proof.
  intros Hs F. induction F as [|x l Hx F IH]; [intros d acc; reflexivity|]. cbn [String.concat]. destruct l; [exact Hx|]. apply neutral_app; [exact Hx|]. apply neutral_app; [exact Hs|exact IH].
Qed.
Ltac lit := intros ? ?; reflexivity.
Lemma html s : neutral s -> lexs Idle ("<" ++ s ++ ">")%string = (Idle, [Html s]).
Proof.
  intros N. cbn [append lexs]. change (lex_step Idle "<") with (InHtml 0 [], @nil token). cbv beta iota. rewrite lexs_app, N, app_nil_r. cbn [lexs lex_step Ascii.eqb].
  change (lexs (InHtml 0 (rev (list_ascii_of_string s))) ">") with (Idle, [Html (str (rev (list_ascii_of_string s)))]). unfold str. rewrite rev_involutive, string_of_list_ascii_of_string. reflexivity.
Qed.
Lemma config_neutral show p : (forall c, p = Some c -> Forall (fun kv => plain (fst kv) /\ plain (snd kv)) (show c)) -> neutral (config_text show p).
Proof.
  intros H. destruct p as [c|]; cbn [config_text]; [|lit]. specialize (H c eq_refl). apply neutral_app; [lit|]. apply neutral_concat; [lit|]. apply Forall_map. eapply Forall_impl; [|exact H].
  intros [k v] [Pk Pv]; cbn [fst snd] in *. apply neutral_app; [lit|]. apply neutral_app; [apply plain_neutral; auto|]. apply neutral_app; [lit|]. apply neutral_app; [apply plain_neutral; auto|lit].
Qed.
Lemma node_label_neutral show id ty p : plain id -> plain ty -> (forall c, p = Some c -> Forall (fun kv => plain (fst kv) /\ plain (snd kv)) (show c)) ->
  neutral (node_label id ty (config_text show p)).
Proof.
  intros A B C. unfold node_label. apply neutral_app; [lit|]. apply neutral_app; [apply plain_neutral; auto|]. apply neutral_app; [lit|]. apply neutral_app; [apply plain_neutral; auto|].
  apply neutral_app; [lit|]. apply neutral_app; [apply config_neutral; auto|lit].
Qed.
Lemma edge_label_neutral m : neutral (edge_label m).
Proof. unfold edge_label. apply neutral_app; [lit|]. apply neutral_app; [apply encode_neutral|lit]. Qed.

(** * What labels show *)
Lemma shown_plain s : plain s -> forall st rest, shown st InText (s ++ rest)%string = option_map (append (flat s)) (shown st InText rest).
Proof.
  induction s as [|c s IH]; intros P st rest; cbn [append shown].
  - destruct (shown st InText rest); reflexivity.
  - inversion P as [|? ? (N1 & N2 & N3) P2]; subst. destruct (Ascii.eqb_spec c "<"); [congruence|]. destruct (Ascii.eqb_spec c "&"); [congruence|]. destruct (Ascii.eqb_spec c ">"); [congruence|].
    rewrite (IH P2). destruct (shown st InText rest); reflexivity.
Qed.
Lemma shown_encoded s : forall st rest, shown st InText (encode_text s ++ rest)%string = option_map (append (flat s)) (shown st InText rest).
Proof.
  induction s as [|c s IH]; intros st rest; cbn [encode_text].
  - cbn. destruct (shown st InText rest); reflexivity.
  - rewrite app_assoc_s. destruct (Ascii.eqb_spec c "&") as [->|N1]; [|destruct (Ascii.eqb_spec c "<") as [->|N2]; [|destruct (Ascii.eqb_spec c ">") as [->|N3]]].
    1-3: cbn [append shown]; cbn -[shown encode_text]; rewrite IH; destruct (shown st InText rest); reflexivity.
    cbn [append shown]. destruct (Ascii.eqb_spec c "<"); [congruence|]. destruct (Ascii.eqb_spec c "&"); [congruence|]. destruct (Ascii.eqb_spec c ">"); [congruence|].
    rewrite IH. destruct (shown st InText rest); reflexivity.
Qed.
Lemma map_append a b (o : option string) : option_map (append a) (option_map (append b) o) = option_map (append (a ++ b)%string) o.
Proof. destruct o; cbn; [rewrite app_assoc_s|]; reflexivity. Qed.
Local Ltac step := intros; reflexivity.
(** The characters of a literal one by one. *)
Local Ltac chars s k := match s with
  | String ?c EmptyString => k (option_map (append (String c EmptyString)))
  | String ?c ?r => let k' t := k (fun x : option string => option_map (append (String c EmptyString)) (t x)) in chars r k' end.
Local Ltac lits := intros; match goal with |- _ = option_map (append ?s) ?r =>
  let s := eval cbv in s in chars s ltac:(fun t => transitivity (t r); [reflexivity|cbv beta; rewrite ?map_append; reflexivity]) end.
Lemma s_b st s : shown st InText ("<B>" ++ s)%string = shown ("B" :: st) InText s. Proof. reflexivity. Qed.
Lemma s_eq st s : shown ("B" :: st) InText ("</B> = " ++ s)%string = option_map (append " = ") (shown st InText s). Proof. lits. Qed.
Lemma s_br st s : shown st InText ("<BR ALIGN=""LEFT""/>" ++ s)%string = option_map (append nl) (shown st InText s). Proof. lits. Qed.
Lemma s_lf st s : shown st InText (lf ++ s)%string = option_map (append " ") (shown st InText s). Proof. lits. Qed.
Lemma s_rule st s : shown st InText ("____________<BR/><BR ALIGN=""LEFT""/>" ++ s)%string = option_map (append ("____________" ++ nl ++ nl)) (shown st InText s). Proof. lits. Qed.
Lemma s_id st s : shown st InText (" <FONT COLOR=""red""><B>" ++ s)%string = option_map (append " ") (shown ("B" :: "FONT" :: st) InText s). Proof. lits. Qed.
Lemma s_ty st s : shown ("B" :: "FONT" :: st) InText ("</B></FONT> <FONT COLOR=""dimgray"">[" ++ s)%string = option_map (append " [") (shown ("FONT" :: st) InText s). Proof. lits. Qed.
Lemma s_cfg st s : shown ("FONT" :: st) InText ("]</FONT><BR ALIGN=""LEFT""/>" ++ s)%string = option_map (append ("]" ++ nl)) (shown st InText s). Proof. lits. Qed.
Lemma s_msg st s : shown st InText (" <B><FONT COLOR=""gray"">" ++ s)%string = option_map (append " ") (shown ("FONT" :: "B" :: st) InText s). Proof. lits. Qed.
Lemma concat_cons2 sep a b l : String.concat sep (a :: b :: l) = (a ++ sep ++ String.concat sep (b :: l))%string. Proof. reflexivity. Qed.
Lemma config_shown_ok show p st rest : (forall c, p = Some c -> Forall (fun kv => plain (fst kv) /\ plain (snd kv)) (show c)) ->
  shown st InText (config_text show p ++ rest)%string = option_map (append (config_shown show p)) (shown st InText rest).
Proof.
  intros H. destruct p as [c|]; cbn [config_text config_shown]; [|cbn; destruct (shown st InText rest); reflexivity]. specialize (H c eq_refl).
  assert (K : forall l, Forall (fun kv => plain (fst kv) /\ plain (snd kv)) l -> forall rest,
    shown st InText (String.concat lf (map (fun kv => "<B>" ++ fst kv ++ "</B> = " ++ snd kv ++ "<BR ALIGN=""LEFT""/>")%string l) ++ rest)%string =
    option_map (append (String.concat " " (map (fun kv => flat (fst kv) ++ " = " ++ flat (snd kv) ++ nl)%string l))) (shown st InText rest)).
  { clear. assert (J : forall k v rest, plain k -> plain v -> shown st InText (("<B>" ++ k ++ "</B> = " ++ v ++ "<BR ALIGN=""LEFT""/>") ++ rest)%string =
      option_map (append (flat k ++ " = " ++ flat v ++ nl)%string) (shown st InText rest)).
    { intros k v rest Pk Pv. rewrite !app_assoc_s, s_b, (shown_plain k Pk), s_eq, (shown_plain v Pv), s_br, !map_append, !app_assoc_s. reflexivity. }
    induction l as [|[k v] l IH]; intros F rest; [cbn; destruct (shown st InText rest); reflexivity|].
    inversion F as [|? ? [Pk Pv] F2]; subst. cbn [fst snd] in *. specialize (IH F2). destruct l as [|kv l]; cbn [map] in *.
    - cbn [String.concat fst snd]. apply J; auto.
    - set (x := ("<B>" ++ fst kv ++ _)%string) in *. set (xs := map _ l) in *. set (y := (flat (fst kv) ++ _)%string) in *. set (ys := map _ l) in *.
      rewrite !concat_cons2. cbn [fst snd].
      rewrite app_assoc_s, J by auto. rewrite app_assoc_s, s_lf, IH, !map_append. rewrite !app_assoc_s. reflexivity. }
  rewrite app_assoc_s, s_rule, K, map_append by auto. rewrite !app_assoc_s. reflexivity.
Qed.
Lemma node_label_shown show id ty p : plain id -> plain ty -> (forall c, p = Some c -> Forall (fun kv => plain (fst kv) /\ plain (snd kv)) (show c)) ->
  shown [] InText (node_label id ty (config_text show p)) = Some (node_shown show id ty p).
Proof.
  intros A B C. unfold node_label, node_shown. rewrite s_id, (shown_plain id A), s_ty, (shown_plain ty B), s_cfg, config_shown_ok by auto.
  change (shown [] InText " ") with (Some " "). rewrite !map_append, !app_assoc_s. cbn [option_map]. rewrite !app_assoc_s. reflexivity.
Qed.
Lemma edge_label_shown m : shown [] InText (edge_label m) = Some (" " ++ flat m ++ " ")%string.
Proof.
  unfold edge_label. rewrite s_msg, shown_encoded. change (shown ["FONT"; "B"] InText "</FONT></B> ") with (Some " "). rewrite map_append. cbn [option_map]. rewrite app_assoc_s. reflexivity.
Qed.

(** * Numbers *)
Lemma digits u : exists l, list_ascii_of_string (NilZero.string_of_uint u) = l /\ l <> [] /\ forallb is_id l = true.
Proof.
  assert (K : forall u, forallb is_id (list_ascii_of_string (NilEmpty.string_of_uint u)) = true) by (clear; induction u; cbn; auto).
  eexists. split; [reflexivity|]. destruct u; cbn [NilZero.string_of_uint]; try (split; [discriminate|]; cbn; apply K). split; [discriminate|reflexivity].
Qed.
Lemma lexs_id l : forall acc s, list_ascii_of_string s = l -> forallb is_id l = true -> lexs (InId acc) s = (InId (rev l ++ acc), []).
Proof.
  induction l as [|c l IH]; intros acc [|c' s] E F; cbn in E; try discriminate; [reflexivity|]. injection E as -> E. cbn [forallb] in F. apply andb_true_iff in F. destruct F as [F1 F2].
  cbn [lexs lex_step]. rewrite F1, (IH _ s E F2). cbn [rev]. rewrite <- app_assoc. reflexivity.
Qed.
Lemma lexs_number n : exists acc, lexs Idle (number n) = (InId acc, []) /\ str acc = number n.
Proof.
  unfold number. destruct (digits (Nat.to_uint n)) as (l & E & N & F). set (s := NilZero.string_of_uint _) in *. clearbody s. destruct s as [|c s]; cbn in E; [congruence|]. destruct l as [|c' l]; [congruence|].
  injection E as <- E. cbn [forallb] in F. apply andb_true_iff in F. destruct F as [F1 F2]. exists (rev l ++ [c]). cbn [lexs lex_step]. unfold begin. rewrite F1, (lexs_id l [c] s E F2). split; [reflexivity|].
  unfold str. rewrite rev_app_distr, rev_involutive. cbn. rewrite <- E, string_of_list_ascii_of_string. reflexivity.
Qed.

(** * The tokens of the file *)
Definition node_tokens (name col label : string) : list token :=
  [Id name; Sym "["; Id "shape"; Sym "="; Id "box"; Sym ","; Id "style"; Sym "="; Id "rounded, filled"; Sym ","; Id "fontname"; Sym "="; Id "Noto Sans";
   Id "fillcolor"; Sym "="; Id col; Sym ","; Id "color"; Sym "="; Id "grey"; Sym ","; Id "labeljust"; Sym "="; Id "l"; Sym ","; Id "label"; Sym "="; Html label; Sym "]"; Sym ";"].
Definition edge_tokens (a b label : string) : list token :=
  [Id a; Sym "-"; Sym ">"; Id b; Sym "["; Id "label"; Sym "="; Html label; Sym "]"; Sym ";"].
Definition the_node (name col label : string) : item :=
  ANode name [("shape", Id "box"); ("style", Id "rounded, filled"); ("fontname", Id "Noto Sans"); ("fillcolor", Id col); ("color", Id "grey"); ("labeljust", Id "l"); ("label", Html label)].
Definition middle (col : string) : string :=
  (" [" ++ lf ++ "shape=box," ++ lf ++ "style=""rounded, filled""," ++ lf ++ "fontname=""Noto Sans""" ++ lf ++ "fillcolor=" ++ col ++ "," ++ lf ++ "color=grey," ++ lf ++ "labeljust=l," ++ lf ++ "label=")%string.
Lemma node_lexed show c v n ty s : n_type n = Some ty -> node_text show c v n = Ret s -> neutral (node_label (n_id n) ty (config_text show (n_config n))) ->
  lexs Idle s = (Idle, node_tokens (number v) (fill c v) (node_label (n_id n) ty (config_text show (n_config n)))).
Proof.
  intros T. unfold node_text. rewrite T. intros E N. set (lab := node_label _ _ _) in *. clearbody lab.
  assert (X : s = (number v ++ middle (fill c v) ++ ("<" ++ lab ++ ">") ++ lf ++ "];" ++ lf)%string).
  { injection E as <-. unfold line, middle. rewrite !app_assoc_s. reflexivity. }
  subst s. clear E. destruct (lexs_number v) as (acc & L & S). rewrite lexs_app, L. rewrite lexs_app.
  assert (M : lexs (InId acc) (middle (fill c v)) = (Idle, removelast (removelast (removelast (node_tokens (str acc) (fill c v) lab))))).
  { unfold fill. destruct (no_edge_to c v); [|destruct (no_edge_from c v)]; reflexivity. }
  rewrite M, lexs_app, (html lab N), S. reflexivity.
Qed.
Lemma edge_lexed s t x : lexs Idle (edge_text (s, t, x)) = (Idle, edge_tokens (number s) (number t) (edge_label (x_msg x))).
Proof.
  assert (X : edge_text (s, t, x) = (number s ++ " -> " ++ number t ++ " [label=" ++ ("<" ++ edge_label (x_msg x) ++ ">") ++ "];" ++ lf)%string).
  { unfold edge_text, line. rewrite !app_assoc_s. reflexivity. }
  rewrite X. destruct (lexs_number s) as (a & La & Sa), (lexs_number t) as (b & Lb & Sb). rewrite lexs_app, La, lexs_app. change (lexs (InId a) " -> ") with (Idle, [Id (str a); Sym "-"; Sym ">"])%char.
  cbv beta iota. rewrite lexs_app, Lb, lexs_app. change (lexs (InId b) " [label=") with (Idle, [Id (str b); Sym "["; Id "label"; Sym "="])%char. cbv beta iota. rewrite lexs_app, (html _ (edge_label_neutral _)), Sa, Sb. reflexivity.
Qed.
Lemma nodes_lexed show c l : forall v s, plain_config show (Config l [] None None) -> nodes_text show c v l = Ret s ->
  lexs Idle s = (Idle, flat_map (fun vn => match n_type (snd vn) with Some ty => node_tokens (number (fst vn)) (fill c (fst vn)) (node_label (n_id (snd vn)) ty (config_text show (n_config (snd vn)))) | None => [] end) (combine (seq v (length l)) l)).
Proof.
  induction l as [|n l IH]; intros v s P; cbn [nodes_text]; [intros E; injection E as <-; reflexivity|].
  destruct (node_text show c v n) as [a|] eqn:A; [|discriminate]. cbn [obind]. destruct (nodes_text show c (v + 1) l) as [b|] eqn:B; [|discriminate]. intros E. injection E as <-.
  inversion P as [|? ? (P1 & P2 & P3) P4]; subst. rewrite Nat.add_1_r in B. destruct (n_type n) as [ty|] eqn:T; [|unfold node_text in A; rewrite T in A; discriminate].
  rewrite lexs_app, (node_lexed show c v n ty a T A) by (apply node_label_neutral; auto). rewrite (IH _ b P4 B). cbn [length seq combine flat_map fst snd]. rewrite T. reflexivity.
Qed.
Lemma edges_lexed l : lexs Idle (String.concat "" (map edge_text l)) = (Idle, flat_map (fun e => edge_tokens (number (fst (fst e))) (number (snd (fst e))) (edge_label (x_msg (snd e)))) l).
Proof.
  assert (K : forall l, String.concat "" (map edge_text l) = fold_right append "" (map edge_text l)).
  { clear. induction l as [|x l IH]; [reflexivity|]. cbn [map String.concat fold_right]. rewrite <- IH. destruct l; cbn [map]; [cbn; rewrite app_nil_s; reflexivity|reflexivity]. }
  rewrite K. clear K. induction l as [|[[s t] x] l IH]; [reflexivity|]. cbn [map fold_right flat_map]. rewrite lexs_app, edge_lexed, IH. reflexivity.
Qed.

(** * Its items *)
Lemma items_nodes fuel name col label l : items (14 + fuel) None (node_tokens name col label ++ l) = option_map (cons (the_node name col label)) (items fuel None l).
Proof. reflexivity. Qed.
Lemma items_edges fuel a b label l : items (3 + fuel) None (edge_tokens a b label ++ l) = option_map (cons (AnEdge a b [("label", Html label)])) (items fuel None l).
Proof. reflexivity. Qed.

Lemma items_all fuel (ns : list (string * string * string)) (es : list (string * string * string)) :
  length (flat_map (fun x => node_tokens (fst (fst x)) (snd (fst x)) (snd x)) ns ++ flat_map (fun x => edge_tokens (fst (fst x)) (snd (fst x)) (snd x)) es ++ [Sym "}"%char]) < fuel ->
  items fuel None (flat_map (fun x => node_tokens (fst (fst x)) (snd (fst x)) (snd x)) ns ++ flat_map (fun x => edge_tokens (fst (fst x)) (snd (fst x)) (snd x)) es ++ [Sym "}"%char]) =
  Some (map (fun x => the_node (fst (fst x)) (snd (fst x)) (snd x)) ns ++ map (fun x => AnEdge (fst (fst x)) (snd (fst x)) [("label", Html (snd x))]) es).
Proof.
  revert fuel. induction ns as [|[[name col] lab] ns IH]; intros fuel L.
  - cbn [flat_map app map] in *. revert fuel L. induction es as [|[[a b] lab] es IH]; intros fuel L.
    + destruct fuel; [cbn in L; lia|reflexivity].
    + cbn [flat_map] in *. rewrite <- app_assoc in *. rewrite app_length in L. cbn [fst snd length edge_tokens] in L. replace fuel with (3 + (fuel - 3)) by lia. cbn [fst snd]. rewrite items_edges, IH by lia. reflexivity.
  - cbn [flat_map] in *. rewrite <- app_assoc in *. rewrite app_length in L. cbn [fst snd length node_tokens] in L. replace fuel with (14 + (fuel - 14)) by lia. cbn [fst snd]. rewrite items_nodes, IH by lia. reflexivity.
Qed.

(** * The roles *)
Lemma fill_colour c v : fill c v = colour (task_type_of (graph_of c) v).
Proof.
  assert (K : forall (f : nat * edge -> bool) (h : nat * nat * cnx -> bool) l i, (forall e j, f (j, Edge (fst (fst e)) (snd (fst e)) (x_msg (snd e))) = h e) ->
    (length (filter f (combine (seq i (length l)) (map (fun e => Edge (fst (fst e)) (snd (fst e)) (x_msg (snd e))) l))) =? 0) = negb (existsb h l)).
  { intros f h. induction l as [|e l IH]; intros i H; [reflexivity|]. cbn [length seq map combine filter existsb]. rewrite (H e i). destruct (h e); [reflexivity|]. apply IH, H. }
  unfold fill, task_type_of, preds, succs, in_edges, out_edges, indexed, graph_of, no_edge_to, no_edge_from. cbn [g_edges g_n]. rewrite !map_length, !rev_length.
  rewrite (K _ (fun e => snd (fst e) =? v)), (K _ (fun e => fst (fst e) =? v)) by reflexivity. repeat match goal with |- context [negb ?b] => destruct (negb b) end; reflexivity.
Qed.

(** C140. In full: the picture of every configuration shows its tasks and connections. *)
Definition C140_full : Prop := forall show c, typed c -> exists text its, render show c = Ret text /\ read_dot text = Some its /\ pictures show c its.
(** It holds when the ids, types and parameters have none of the characters <, > and &; the types
    of messages may have any. *)
Theorem C140_partial : forall show c, typed c -> plain_config show c -> exists text its, render show c = Ret text /\ read_dot text = Some its /\ pictures show c its.
Proof.
  intros show c T P. assert (N : forall l v, Forall (fun n => n_type n <> None) l -> exists s, nodes_text show c v l = Ret s).
  { clear. induction l as [|n l IH]; intros v F; cbn [nodes_text]; [eauto|]. inversion F as [|? ? F1 F2]; subst. unfold node_text. destruct (n_type n) as [ty|]; [|congruence]. cbn [obind].
    destruct (IH (v + 1) F2) as [s ->]. cbn. eauto. }
  destruct (N (c_nodes c) 0 T) as [s Es]. unfold render. rewrite Es. cbn [obind]. set (nl3 := map (fun vn => (number (fst vn), fill c (fst vn), match n_type (snd vn) with Some ty => node_label (n_id (snd vn)) ty (config_text show (n_config (snd vn))) | None => "" end)) (combine (seq 0 (length (c_nodes c))) (c_nodes c))).
  set (el3 := map (fun e => (number (fst (fst e)), number (snd (fst e)), edge_label (x_msg (snd e)))) (c_edges c)).
  eexists _, _. split; [reflexivity|].
  assert (L : lex Idle (line "digraph G {" ++ s ++ String.concat "" (map edge_text (c_edges c)) ++ line "}")%string =
    Id "digraph" :: Id "G" :: Sym "{"%char :: flat_map (fun x => node_tokens (fst (fst x)) (snd (fst x)) (snd x)) nl3 ++ flat_map (fun x => edge_tokens (fst (fst x)) (snd (fst x)) (snd x)) el3 ++ [Sym "}"%char]).
  { rewrite lex_lexs, lexs_app. change (lexs Idle (line "digraph G {")) with (Idle, [Id "digraph"; Id "G"; Sym "{"%char]). cbv beta iota. rewrite lexs_app, (nodes_lexed show c (c_nodes c) 0 s P Es), lexs_app, edges_lexed.
    change (lexs Idle (line "}")) with (Idle, [Sym "}"%char]). cbv beta iota. rewrite app_nil_r. unfold nl3, el3. rewrite !flat_map_concat_map, !map_map. cbn [app]. do 3 f_equal.
    match goal with |- ?a ++ _ = ?b ++ _ => assert (X : a = b); [|rewrite X, <- ?app_assoc; reflexivity] end. f_equal. apply map_ext_in. intros [v n] I. cbn [fst snd]. apply in_combine_r in I. unfold typed in T. rewrite Forall_forall in T. specialize (T n I). destruct (n_type n); [reflexivity|congruence]. }
  unfold read_dot. rewrite L. cbn [String.eqb Ascii.eqb Bool.eqb]. split; [apply items_all; lia|].
  eexists _, _. split; [reflexivity|]. unfold nl3, el3. rewrite !map_length, combine_length, seq_length, Nat.min_id. split; [reflexivity|]. split; [reflexivity|]. split.
  - intros v n ty Hn Ty. exists (node_label (n_id n) ty (config_text show (n_config n))). split.
    + rewrite !map_map. erewrite map_nth_error; [|instantiate (1 := (v, n))].
      * cbn [fst snd]. rewrite Ty, fill_colour. reflexivity.
      * assert (G : forall l i k, nth_error l k = Some n -> nth_error (combine (seq i (length l)) l) k = Some (i + k, n)).
        { clear. induction l as [|x l IH]; intros i [|k] H; cbn in *; try discriminate; [injection H as ->; rewrite Nat.add_0_r; reflexivity|]. rewrite (IH (S i) k H). do 2 f_equal. lia. }
        apply (G _ 0 v Hn).
    + unfold plain_config in P. rewrite Forall_forall in P. destruct (P n (nth_error_In _ _ Hn)) as (P1 & P2 & P3). apply node_label_shown; auto.
  - intros k a b x He. exists (edge_label (x_msg x)). split; [|apply edge_label_shown]. rewrite !map_map. erewrite map_nth_error; [|exact He]. reflexivity.
Qed.
Print Assumptions C140_partial.
(** A picture with a source, a task of two parameters and a sink, and a message of generic type. *)
Definition a_config : config := Config [Node "src" (Some "tasks::Source") None; Node "mid" (Some "tasks::Mid") (Some [("gain", CInt 3%Z); ("name", CStr "left")]); Node "snk" (Some "tasks::Sink") None]
  [(0, 1, Cnx "src" "mid" "Vec<u8>" None None); (1, 2, Cnx "mid" "snk" "f32" None None)] None None.
Definition a_show (p : params) : list (string * string) := map (fun kv => (fst kv, match snd kv with CInt _ => "3" | _ => "left" end)) p.
Example C140_case : typed a_config /\ plain_config a_show a_config /\
  map (fun v => colour (task_type_of (graph_of a_config) v)) [0; 1; 2] = ["lightgreen"; "lightgrey"; "lightblue"] /\
  node_shown a_show "mid" "tasks::Mid" (Some [("gain", CInt 3%Z); ("name", CStr "left")]) = (" mid [tasks::Mid]" ++ nl ++ "____________" ++ nl ++ nl ++ "gain = 3" ++ nl ++ " name = left" ++ nl ++ " ")%string.
Proof.
  split; [repeat constructor; discriminate|]. split; [|split; reflexivity].
  assert (K : forall s, forallb (fun c => negb (Ascii.eqb c "<") && negb (Ascii.eqb c ">") && negb (Ascii.eqb c "&")) (list_ascii_of_string s) = true -> plain s).
  { intros s H. apply Forall_forall. rewrite forallb_forall in H. intros c I. specialize (H c I). apply andb_true_iff in H. destruct H as [H1 H3]. apply andb_true_iff in H1. destruct H1 as [H1 H2].
    apply negb_true_iff in H1, H2, H3. apply Ascii.eqb_neq in H1, H2, H3. auto. }
  assert (J : forall n, (forall ty, n_type n = Some ty -> plain ty) -> plain (n_id n) -> (forall p, n_config n = Some p -> Forall (fun kv => plain (fst kv) /\ plain (snd kv)) (a_show p)) ->
    plain (n_id n) /\ (forall ty, n_type n = Some ty -> plain ty) /\ (forall p, n_config n = Some p -> Forall (fun kv => plain (fst kv) /\ plain (snd kv)) (a_show p))) by auto.
  repeat (apply Forall_cons; [apply J; cbn [n_type n_id n_config]; [intros ? E; injection E as <-; apply K; reflexivity|apply K; reflexivity|]|]); [discriminate| |discriminate|apply Forall_nil].
  intros p E. injection E as <-. repeat (apply Forall_cons; [split; apply K; reflexivity|]). apply Forall_nil.
Qed.
(** A task of a generic type has a label dot does not accept. *)
Theorem C140_refuted : ~ C140_full.
Proof.
  intros C. destruct (C a_show (Config [Node "merge" (Some "Merge<f32>") None] [] None None)) as (text & its & R & D & ns & es & -> & Ln & Le & Hn & _); [repeat constructor; discriminate|].
  vm_compute in R. injection R as <-. destruct ns as [|x [|y ns]]; try discriminate. destruct es; [|discriminate]. vm_compute in D. injection D as <-.
  destruct (Hn 0 _ _ eq_refl eq_refl) as (label & E & Sh). cbn in E. injection E as <-. vm_compute in Sh. discriminate.
Qed.
Print Assumptions C140_refuted.
