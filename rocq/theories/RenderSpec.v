(** What the program dot reads in a picture, and what it should: C140. *)
From Coq Require Import String Ascii List Arith Bool DecimalString.
From Verif Require Import Base PlanModel ConfigModel.
Import ListNotations.
Local Open Scope string_scope.
Local Open Scope list_scope.
Local Open Scope nat_scope.

(** ** The language of dot, as far as it is needed *)
Inductive token := Id (s : string) | Html (s : string) | Sym (c : ascii) | Bad.
Definition is_id (c : ascii) : bool :=
  let n := nat_of_ascii c in ((48 <=? n) && (n <=? 57)) || ((65 <=? n) && (n <=? 90)) || ((97 <=? n) && (n <=? 122)) || (n =? 95).
Definition is_space (c : ascii) : bool := (nat_of_ascii c =? 32) || (nat_of_ascii c =? 10).
(** Between tokens, in an identifier, in a quoted string, in an HTML string at a depth of brackets
    within it; the characters so far, the last one first. *)
Inductive lexing := Idle | InId (acc : list ascii) | InQuote (acc : list ascii) | InHtml (depth : nat) (acc : list ascii).
Definition str (acc : list ascii) : string := string_of_list_ascii (rev acc).
Definition begin (c : ascii) : lexing * list token :=
  if is_id c then (InId [c], [])
  else if is_space c then (Idle, [])
  else if Ascii.eqb c """" then (InQuote [], [])
  else if Ascii.eqb c "<" then (InHtml 0 [], [])
  else (Idle, [Sym c]).
Definition lex_step (st : lexing) (c : ascii) : lexing * list token :=
  match st with
  | Idle => begin c
  | InId acc => if is_id c then (InId (c :: acc), []) else let (st, l) := begin c in (st, Id (str acc) :: l)
  | InQuote acc => if Ascii.eqb c """" then (Idle, [Id (str acc)]) else (InQuote (c :: acc), [])
  | InHtml d acc =>
      if Ascii.eqb c "<" then (InHtml (S d) (c :: acc), [])
      else if Ascii.eqb c ">" then match d with O => (Idle, [Html (str acc)]) | S d => (InHtml d (c :: acc), []) end
      else (InHtml d (c :: acc), [])
  end.
Fixpoint lex (st : lexing) (s : string) : list token :=
  match s with
  | EmptyString => match st with Idle => [] | InId acc => [Id (str acc)] | _ => [Bad] end
  | String c s => let (st, l) := lex_step st c in l ++ lex st s
  end.

(** The text an HTML label shows: entities stand for characters, a line feed is a space, BR begins
    a line; [None] when the tags do not match or something else is wrong. *)
Inductive reading := InText | InTag (acc : list ascii) | InEntity (acc : list ascii).
Definition nl : string := String (ascii_of_nat 10) "".
Fixpoint upto_space (s : string) : string :=
  match s with
  | EmptyString => ""
  | String c s => if is_space c then "" else String c (upto_space s)
  end.
Inductive tag := Open (n : string) | Close (n : string) | Alone (n : string).
Definition known (n : string) : bool := existsb (String.eqb n) ["B"; "FONT"; "BR"].
Definition tag_of (acc : list ascii) : option tag :=
  match acc with
  | c :: r => if Ascii.eqb c "/" then (let n := upto_space (str r) in if known n then Some (Alone n) else None)
              else match str acc with
                   | String c s => if Ascii.eqb c "/" then (if known s then Some (Close s) else None)
                                   else let n := upto_space (String c s) in if known n then Some (Open n) else None
                   | EmptyString => None
                   end
  | [] => None
  end.
Definition entity (acc : list ascii) : option string :=
  let s := str acc in if String.eqb s "amp" then Some "&" else if String.eqb s "lt" then Some "<" else if String.eqb s "gt" then Some ">" else None.
Fixpoint shown (stack : list string) (r : reading) (s : string) : option string :=
  match s with
  | EmptyString => match r, stack with InText, [] => Some "" | _, _ => None end
  | String c s =>
      match r with
      | InText => if Ascii.eqb c "<" then shown stack (InTag []) s
                  else if Ascii.eqb c "&" then shown stack (InEntity []) s
                  else if Ascii.eqb c ">" then None
                  else option_map (String (if is_space c then " "%char else c)) (shown stack InText s)
      | InTag acc => if Ascii.eqb c ">"
                     then match tag_of acc with
                          | Some (Open n) => shown (n :: stack) InText s
                          | Some (Close n) => match stack with
                                              | m :: stack => if String.eqb m n then shown stack InText s else None
                                              | [] => None
                                              end
                          | Some (Alone n) => option_map (append nl) (shown stack InText s)
                          | None => None
                          end
                     else shown stack (InTag (c :: acc)) s
      | InEntity acc => if Ascii.eqb c ";"
                        then match entity acc with Some t => option_map (append t) (shown stack InText s) | None => None end
                        else shown stack (InEntity (c :: acc)) s
      end
  end.

(** A file of nodes and edges: attributes in brackets, separated by nothing or commas. *)
Inductive item := ANode (name : string) (attrs : list (string * token)) | AnEdge (a b : string) (attrs : list (string * token)).
Definition start_of (l : list token) : option (item * list token) :=
  match l with
  | Id a :: Sym "[" :: l => Some (ANode a [], l)
  | Id a :: Sym "-" :: Sym ">" :: Id b :: Sym "[" :: l => Some (AnEdge a b [], l)
  | _ => None
  end%char.
Definition with_attr (k : string) (v : token) (x : item) : item :=
  match x with ANode n l => ANode n (l ++ [(k, v)]) | AnEdge a b l => AnEdge a b (l ++ [(k, v)]) end.
(** Within brackets, or not. *)
Fixpoint items (fuel : nat) (x : option item) (l : list token) : option (list item) :=
  match fuel with
  | O => None
  | S fuel =>
      match x, l with
      | None, [Sym "}"] => Some []
      | None, _ => match start_of l with Some (x, l) => items fuel (Some x) l | None => None end
      | Some x, Sym "]" :: Sym ";" :: l => option_map (cons x) (items fuel None l)
      | Some x, Sym "," :: l => items fuel (Some x) l
      | Some x, Id k :: Sym "=" :: Id v :: l => items fuel (Some (with_attr k (Id v) x)) l
      | Some x, Id k :: Sym "=" :: Html v :: l => items fuel (Some (with_attr k (Html v) x)) l
      | Some _, _ => None
      end
  end%char.
Definition read_dot (s : string) : option (list item) :=
  match lex Idle s with
  | Id k :: Id _ :: Sym "{" :: l => if String.eqb k "digraph" then items (S (length l)) None l else None
  | _ => None
  end%char.

(** ** What the picture of a configuration should be *)
Definition flat_char (c : ascii) : ascii := if is_space c then " "%char else c.
(** The text on one line. *)
Definition flat (s : string) : string := string_of_list_ascii (map flat_char (list_ascii_of_string s)).
(** The roles of the tasks when they are run. *)
Definition graph_of (c : config) : graph := Graph (length (c_nodes c)) (map (fun e => Edge (fst (fst e)) (snd (fst e)) (x_msg (snd e))) (c_edges c)).
Definition colour (t : task_type) : string := match t with Source => "lightgreen" | Sink => "lightblue" | Regular => "lightgrey" end.
Section Picture.
Variable show : params -> list (string * string).
Definition config_shown (p : option params) : string :=
  match p with
  | Some p => "____________" ++ nl ++ nl ++ String.concat " " (map (fun kv => flat (fst kv) ++ " = " ++ flat (snd kv) ++ nl) (show p))
  | None => ""
  end%string.
Definition node_shown (id ty : string) (p : option params) : string := (" " ++ flat id ++ " [" ++ flat ty ++ "]" ++ nl ++ config_shown p ++ " ")%string.
(** The file shows every task once, under its index, with the colour of the role it is run in, its
    id, type and parameters, and every connection once, with the type of its messages. *)
Definition pictures (c : config) (l : list item) : Prop :=
  exists ns es, l = ns ++ es /\ length ns = length (c_nodes c) /\ length es = length (c_edges c) /\
    (forall v n ty, nth_error (c_nodes c) v = Some n -> n_type n = Some ty -> exists label,
       nth_error ns v = Some (ANode (DecimalString.NilZero.string_of_uint (Nat.to_uint v))
         [("shape", Id "box"); ("style", Id "rounded, filled"); ("fontname", Id "Noto Sans"); ("fillcolor", Id (colour (task_type_of (graph_of c) v)));
          ("color", Id "grey"); ("labeljust", Id "l"); ("label", Html label)]) /\
       shown [] InText label = Some (node_shown (n_id n) ty (n_config n))) /\
    (forall k s t x, nth_error (c_edges c) k = Some (s, t, x) -> exists label,
       nth_error es k = Some (AnEdge (DecimalString.NilZero.string_of_uint (Nat.to_uint s)) (DecimalString.NilZero.string_of_uint (Nat.to_uint t)) [("label", Html label)]) /\
       shown [] InText label = Some (" " ++ flat (x_msg x) ++ " ")%string).
(** Texts without the characters that have a meaning in HTML. *)
Definition plain (s : string) : Prop := Forall (fun c => c <> "<"%char /\ c <> ">"%char /\ c <> "&"%char) (list_ascii_of_string s).
Definition typed (c : config) : Prop := Forall (fun n => n_type n <> None) (c_nodes c).
Definition plain_config (c : config) : Prop := Forall (fun n => plain (n_id n) /\ (forall ty, n_type n = Some ty -> plain ty) /\
  (forall p, n_config n = Some p -> Forall (fun kv => plain (fst kv) /\ plain (snd kv)) (show p))) (c_nodes c).
End Picture.
