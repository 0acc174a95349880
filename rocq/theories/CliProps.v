(** The command line program that exports a log: theorems. *)
From Coq Require Import String List Arith NArith Bool Lia ZifyBool ZifyNat ZifyN.
From Verif Require Import Base BincodeModel BincodeSpec CodecModel CodecSpec CodecProofs CodecProps ULogModel ULogSpec
  ULogProofs6 ULogProofs7 ULogProofs8 ULogProps ExportSpec ExportProofs ValueModel LogModel LogSpec LogProofs LogProofs2 LogProps PySpec PyModel PyProps TextProps LinesProps CliModel.
Import ListNotations.
Local Open Scope list_scope.
Local Open Scope N_scope.

(** * Specification *)
(** The texts of copper lists among what is printed. *)
Definition lists_printed (l : list cli_out) : list string := flat_map (fun x => match x with AList s => [s] | _ => [] end) l.
(** What one may hope for: JSON where JSON is asked for and CSV where CSV is, whatever these are, as long as they are
    two notations. *)
Definition C182_full : Prop := forall ps (pretty : copperlist ps -> string) X, exists json csv : copperlist ps -> string,
  (forall c, json c <> csv c) /\
  forall src f, lists_printed (fst (run_cli pretty X (Some src) (ExtractCopperlist f))) =
                map (match f with Json => json | Csv => csv end) (@copperlists_dump ps (src TCopperList)).

(** * Theorems *)
(** What holds: after a clean shutdown the program prints a text for every copper list logged, in order and in the same
    notation, whichever format is asked for. *)
Theorem C182_lists_partial : forall W pls, payloads_ok W pls ->
  forall ps slab_size ops sy lg i (cls : list (copperlist pls)) pretty X f,
  page_ok ps -> sizes_ok ps ops -> no_last ops ->
  session ps slab_size ops = Ret sy -> all_closed sy -> logger_drop ps slab_size (sy_lg sy) = Ret lg ->
  nth_error (opened ops) i = Some TCopperList -> (forall j, nth_error (opened ops) j = Some TCopperList -> j = i) ->
  cls <> [] -> Forall (copperlist_ok W) cls -> logged i ops = map enc_cl cls ->
  exists b, delivers (lg_files lg) TCopperList b /\ forall src, src TCopperList = b ->
    run_cli pretty X (Some src) (ExtractCopperlist f) = (Heading f :: map (fun c => AList (pretty c)) cls, false).
Proof.
  intros W pls Hp ps sz ops sy lg i cls pretty X f P1 P2 P3 E Hc Hd Hi Hu Hn Hw Hl.
  destruct (C55_recorded_lists_exported W pls Hp ps sz ops sy lg i cls P1 P2 P3 E Hc Hd Hi Hu Hn Hw Hl) as (b & D & <-).
  exists b. split; [exact D|]. intros src <-. reflexivity.
Qed.
Print Assumptions C182_lists_partial.
(** After a clean shutdown the lines printed are those logged. *)
Theorem C182_lines_partial : forall pls (pretty : copperlist pls -> string) X intern strings calls ps slab_size ops sy lg i,
  Forall (call_ok X intern strings) calls -> calls <> [] ->
  page_ok ps -> sizes_ok ps ops -> no_last ops ->
  session ps slab_size ops = Ret sy -> all_closed sy -> logger_drop ps slab_size (sy_lg sy) = Ret lg ->
  nth_error (opened ops) i = Some TStructured -> (forall j, nth_error (opened ops) j = Some TStructured -> j = i) ->
  logged i ops = map (fun c => enc_entry (call_entry intern c)) calls ->
  exists b, delivers (lg_files lg) TStructured b /\ forall src, src TStructured = b ->
    run_cli pretty X (Some src) (ExtractLog (Some strings)) = (map (fun c => ALine (line_of X c)) calls, false).
Proof.
  intros pls pretty X intern strings calls ps sz ops sy lg i H Hn P1 P2 P3 E Hc Hd Hi Hu Hl.
  destruct (C171_lines X intern strings calls ps sz ops sy lg i H Hn P1 P2 P3 E Hc Hd Hi Hu Hl) as (b & D & T & _).
  exists b. split; [exact D|]. intros src <-. cbn [run_cli]. rewrite T, map_map. reflexivity.
Qed.
Print Assumptions C182_lines_partial.
(** The logs of C55_case, of three copper lists, and of C171_closed_case meet the hypotheses. *)
Definition cli_src (t : logtype) : bytes := match t with TCopperList => flat_map enc_cl [ex_cl 1; ex_cl 2] | _ => [] end.
Definition cli_pretty (c : copperlist ex_pl) : string := if (CodecModel.cl_id c =? 1)%N then "one"%string else "other"%string.
Example C182_case : (exists sy lg, sizes_ok 16 ex_log /\ no_last ex_log /\ session 16 96 ex_log = Ret sy /\ all_closed sy /\
    logger_drop 16 96 (sy_lg sy) = Ret lg /\ opened ex_log = [TCopperList; TStructured] /\ logged 0 ex_log = map enc_cl [ex_cl 1; ex_cl 2; ex_cl 3]) /\
  (exists sy lg, session 16 256 ex_closed_ops = Ret sy /\ all_closed sy /\ logger_drop 16 256 (sy_lg sy) = Ret lg /\
    sizes_ok 16 ex_closed_ops /\ no_last ex_closed_ops /\ logged 0 ex_closed_ops = map (fun c => enc_entry (call_entry ex_intern c)) ex_calls) /\
  run_cli cli_pretty plain_X (Some cli_src) (ExtractCopperlist Csv) = ([Heading Csv; AList "one"%string; AList "other"%string], false).
Proof.
  split; [destruct C55_case as (sy & lg & H1 & H2 & H3 & H4 & H5 & H6 & H7 & _); exists sy, lg; auto 9|].
  split; [destruct C171_closed_case as (sy & lg & H1 & H2 & H3 & H4 & H5 & _ & H7); exists sy, lg; auto 9|]. vm_compute. reflexivity.
Qed.
(** In full it is false: the format asked for is named in the heading, and not used. *)
Theorem C182_refuted : ~ C182_full.
Proof.
  intros H. destruct (H ex_pl cli_pretty plain_X) as (json & csv & Ne & P). destruct C23_case as (cls & cut & W & _ & _ & L & _ & _ & D).
  set (src := fun _ : logtype => flat_map enc_cl cls ++ cut). assert (D2 : copperlists_dump (src TCopperList) = cls) by exact D. clear D. clearbody src.
  pose proof (P src Json) as P1. pose proof (P src Csv) as P2. unfold run_cli in P1, P2. rewrite D2 in P1, P2.
  destruct cls as [|c cls]; [discriminate L|]. cbn in P1, P2. rewrite P1 in P2. injection P2 as P2 _. exact (Ne _ P2).
Qed.
Print Assumptions C182_refuted.
