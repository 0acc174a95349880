(** The slab files of a log on a disk where an older log of the same name left its own. *)
From Coq Require Import List NArith.
From Verif Require Import Base ULogModel.
Import ListNotations.

(** One effect of the writer, on the files it created and the older files of higher number:
    make_slab_file replaces an older file of its number by an empty one
    (core/cu29_unifiedlog/src/lib.rs:450-462); the others go to mappings of files the writer
    created (core/cu29_unifiedlog/src/lib.rs:254-266). *)
Definition over (st : list file * list file) (e : event) : list file * list file :=
  (apply_ev e (fst st), match e with EvCreate _ => tl (snd st) | _ => snd st end).
(** The files stem_0, stem_1 ... after the effects of a new writer, from those of an older log.
    Nothing removes the others (core/cu29_unifiedlog/src/lib.rs:464-493 and 552-558). *)
Definition disk (old : list file) (evs : list event) : list file :=
  let st := fold_left over evs ([], old) in fst st ++ snd st.
