(** The picture of a configuration (core/cu29_runtime/src/config.rs:573-633 (render), used by
    core/cu29_runtime/src/rendercfg.rs:24-33), as the text given to the program dot. *)
From Coq Require Import String Ascii List Arith Bool DecimalString.
From Verif Require Import Base ConfigModel.
Import ListNotations.
Local Open Scope list_scope.
Local Open Scope string_scope.
Local Open Scope nat_scope.

(** html_escape::encode_text (core/cu29_runtime/src/config.rs:7, 622): the three characters with a
    meaning in HTML text are written as entities. *)
Fixpoint encode_text (s : string) : string :=
  match s with
  | "" => ""
  | String c s => (if Ascii.eqb c "&" then "&amp;" else if Ascii.eqb c "<" then "&lt;" else if Ascii.eqb c ">" then "&gt;" else String c "") ++ encode_text s
  end%string.
(** Display of an index (core/cu29_runtime/src/config.rs:590, 626-627): in decimal. *)
Definition number (n : nat) : string := NilZero.string_of_uint (Nat.to_uint n).
(** A line feed, of writeln! (core/cu29_runtime/src/config.rs:574). *)
Definition lf : string := String (ascii_of_nat 10) "".
(** writeln! (core/cu29_runtime/src/config.rs:574); it does not fail on a Vec (rendercfg.rs:28-32). *)
Definition line (s : string) : string := (s ++ lf)%string.

(** Display of the parameters of a task, in the order of the iteration over the HashMap
    (core/cu29_runtime/src/config.rs:580-583); Display of a value (172-202) is an input. *)
Section Render.
Variable show : params -> list (string * string).
(** core/cu29_runtime/src/config.rs:578-589. *)
Definition config_text (c : option params) : string :=
  match c with
  | Some p => "____________<BR/><BR ALIGN=""LEFT""/>" ++ String.concat lf (map (fun kv => "<B>" ++ fst kv ++ "</B> = " ++ snd kv ++ "<BR ALIGN=""LEFT""/>") (show p))
  | None => ""
  end%string.
(** core/cu29_runtime/src/config.rs:480-493, 595-596: no edges from, or to, this node. *)
Definition no_edge_to (c : config) (v : nat) : bool := negb (existsb (fun e => snd (fst e) =? v) (c_edges c)).
(** The same for the edges from it (core/cu29_runtime/src/config.rs:480-485, 596). *)
Definition no_edge_from (c : config) (v : nat) : bool := negb (existsb (fun e => fst (fst e) =? v) (c_edges c)).
(** core/cu29_runtime/src/config.rs:597-603. *)
Definition fill (c : config) (v : nat) : string :=
  if no_edge_to c v then "lightgreen" else if no_edge_from c v then "lightblue" else "lightgrey".
(** core/cu29_runtime/src/config.rs:607-613, the label between the outer < and >. *)
Definition node_label (id ty cfg : string) : string :=
  (" <FONT COLOR=""red""><B>" ++ id ++ "</B></FONT> <FONT COLOR=""dimgray"">[" ++ ty ++ "]</FONT><BR ALIGN=""LEFT""/>" ++ cfg ++ " ")%string.
(** core/cu29_runtime/src/config.rs:576-617 for one node; get_type panics without a type (237-239). *)
Definition node_text (c : config) (v : nat) (n : node) : outcome string :=
  match n_type n with
  | None => Panic
  | Some ty => Ret (line (number v ++ " [") ++ line "shape=box," ++ line "style=""rounded, filled""," ++ line "fontname=""Noto Sans""" ++
                    line ("fillcolor=" ++ fill c v ++ ",") ++ line "color=grey," ++ line "labeljust=l," ++
                    line ("label=<" ++ node_label (n_id n) ty (config_text (n_config n)) ++ ">") ++ line "];")%string
  end.
(** core/cu29_runtime/src/config.rs:623-629, the label between the outer < and >. *)
Definition edge_label (msg : string) : string := (" <B><FONT COLOR=""gray"">" ++ encode_text msg ++ "</FONT></B> ")%string.
(** core/cu29_runtime/src/config.rs:618-631 for one edge. *)
Definition edge_text (e : nat * nat * cnx) : string :=
  let '(s, t, x) := e in line (number s ++ " -> " ++ number t ++ " [label=<" ++ edge_label (x_msg x) ++ ">];").
(** core/cu29_runtime/src/config.rs:576-617, the nodes from [v] on. *)
Fixpoint nodes_text (c : config) (v : nat) (l : list node) : outcome string :=
  match l with
  | [] => Ret ""%string
  | n :: l => let! a := node_text c v n in let! b := nodes_text c (v + 1) l in Ret (a ++ b)%string
  end.
(** core/cu29_runtime/src/config.rs:573-633 (render). *)
Definition render (c : config) : outcome string :=
  let! ns := nodes_text c 0 (c_nodes c) in
  Ret (line "digraph G {" ++ ns ++ String.concat "" (map edge_text (c_edges c)) ++ line "}")%string.
End Render.
