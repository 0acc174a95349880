(** What a user of the unified log relies on. *)
From Coq Require Import List Arith NArith Bool.
From Verif Require Import Base BincodeModel ULogModel.
Import ListNotations.
Open Scope N_scope.

(** Client operations: open a stream (it gets the next number), log a value
    through stream [i], drop stream [i]. *)
Inductive lop := LOpen (t : logtype) (min : N) | LLog (i : nat) (o : obj) | LClose (i : nat).

Record sys := mkSys { sy_lg : logger; sy_streams : list (option stream) }.

(** Driver: runs the client operations on the model. Using a stream that is not
    open is excluded by Rust's ownership rules; it is mapped to [Panic], which
    every theorem excludes. *)
Definition lstep (ps slab_size : N) (sy : sys) (op : lop) : outcome sys :=
  match op with
  | LOpen t min =>
      let! (lg, st) := stream_new ps slab_size t min (sy_lg sy) in
      Ret (mkSys lg (sy_streams sy ++ [Some st]))
  | LLog i o =>
      match nth_error (sy_streams sy) i with
      | Some (Some st) =>
          let! (st, lg, _) := stream_log ps slab_size o st (sy_lg sy) in
          Ret (mkSys lg (upd i (Some st) (sy_streams sy)))
      | _ => Panic
      end
  | LClose i =>
      match nth_error (sy_streams sy) i with
      | Some (Some st) =>
          let! lg := stream_drop st (sy_lg sy) in
          Ret (mkSys lg (upd i None (sy_streams sy)))
      | _ => Panic
      end
  end.

Fixpoint lsteps (ps slab_size : N) (sy : sys) (ops : list lop) : outcome sys :=
  match ops with
  | [] => Ret sy
  | op :: ops => let! sy := lstep ps slab_size sy op in lsteps ps slab_size sy ops
  end.

(** A whole writing session: create the log, run the operations. *)
Definition session (ps slab_size : N) (ops : list lop) : outcome sys :=
  let! lg := logger_new ps slab_size in lsteps ps slab_size (mkSys lg []) ops.

Definition all_closed (sy : sys) : Prop := Forall (fun s => s = None) (sy_streams sy).

(** ** Vocabulary of the properties *)

(** Bytes of a value. *)
Definition obytes (o : obj) : bytes := concat (o_chunks o).

(** The values successfully given to stream [i], in order. *)
Definition logged (i : nat) (ops : list lop) : list bytes :=
  flat_map (fun op => match op with
                      | LLog j o => if Nat.eqb j i && o_ok o then [obytes o] else []
                      | _ => [] end) ops.

(** Types of the streams, in opening order. *)
Definition opened (ops : list lop) : list logtype :=
  flat_map (fun op => match op with LOpen t _ => [t] | _ => [] end) ops.

(** Repeatedly asking the reader for the next section of type [t] from [r]
    answers the sections [cs], then [end_]. *)
Inductive reads_from (fs : list file) (t : logtype) : reader -> list bytes -> rres unit -> Prop :=
| reads_end : forall r r' fuel,
    read_next fs fuel t r = ROk (r', None) -> reads_from fs t r [] (ROk tt)
| reads_err : forall r fuel,
    read_next fs fuel t r = RErr -> reads_from fs t r [] RErr
| reads_more : forall r r' fuel c cs e,
    read_next fs fuel t r = ROk (r', Some c) -> reads_from fs t r' cs e ->
    reads_from fs t r (c :: cs) e.

Definition reads (fs : list file) (t : logtype) (cs : list bytes) (e : rres unit) : Prop :=
  exists r, reader_new fs = ROk r /\ reads_from fs t r cs e.

(** Sane parameters: the page size is a power of two that fits the u16 fields of
    the main header; section sizes fit the u32 fields of the section header. *)
Definition page_ok (ps : N) : Prop := (exists k, ps = 2 ^ k) /\ 16 <= ps < 2 ^ 16.
Definition sizes_ok (ps : N) (ops : list lop) : Prop :=
  forall t min, In (LOpen t min) ops -> min + ps <= 2 ^ 32.
Definition no_last (ops : list lop) : Prop := forall min, ~ In (LOpen TLast min) ops.

(** ** Abstract log: a list of sections, without bytes, pages, slabs or files *)

(** A section: the stream that owns it, that stream's type and section size, the
    values it holds, whether its stream still writes to it. *)
Record asec := mkA {
  a_owner : nat; a_type : logtype; a_min : N; a_objs : list bytes; a_open : bool }.

Definition a_used (s : asec) : N := blen (concat (a_objs s)).
Definition a_put (o : bytes) (s : asec) : asec :=
  mkA (a_owner s) (a_type s) (a_min s) (a_objs s ++ [o]) (a_open s).
Definition a_close (s : asec) : asec :=
  mkA (a_owner s) (a_type s) (a_min s) (a_objs s) false.

(** The section stream [i] is writing to, with what precedes and follows it. *)
Fixpoint focus (i : nat) (l : list asec) : option (list asec * asec * list asec) :=
  match l with
  | [] => None
  | s :: l =>
      if a_open s && Nat.eqb (a_owner s) i then Some ([], s, l)
      else match focus i l with
           | Some (a, x, b) => Some (s :: a, x, b)
           | None => None
           end
  end.

(** A section of [min] bytes, header included, rounded up to whole pages, must
    hold a header and fit in a slab. *)
Definition usable (ps slab_size min : N) : bool :=
  (15 <=? min) && ((min + ps - 1) / ps * ps <=? slab_size).

(** State: number of streams opened so far, sections in allocation order. [None]
    is a panic. *)
Definition astep (ps slab_size : N) (st : nat * list asec) (op : lop)
    : option (nat * list asec) :=
  let (n, l) := st in
  match op with
  | LOpen t min =>
      if usable ps slab_size min then Some (S n, l ++ [mkA n t min [] true]) else None
  | LLog i o =>
      match focus i l with
      | None => None
      | Some (a, s, b) =>
          let size := blen (obytes o) in
          if 15 + a_used s + size <=? a_min s
          then Some (n, if o_ok o then a ++ a_put (obytes o) s :: b else l)
          else if o_ok o && (15 + size <=? a_min s)
               then Some (n, a ++ a_close s :: b ++
                             [mkA i (a_type s) (a_min s) [obytes o] true])
               else None
      end
  | LClose i =>
      match focus i l with
      | None => None
      | Some (a, s, b) => Some (n, a ++ a_close s :: b)
      end
  end.

Fixpoint asteps (ps slab_size : N) (st : nat * list asec) (ops : list lop)
    : option (nat * list asec) :=
  match ops with
  | [] => Some st
  | op :: ops => match astep ps slab_size st op with
                 | Some st => asteps ps slab_size st ops
                 | None => None
                 end
  end.

(** The stream an operation acts on. *)
Definition actor (op : lop) : option nat :=
  match op with LOpen _ _ => None | LLog i _ => Some i | LClose i => Some i end.

(** [s'] is a later stage of [s]: it never changes once closed, and only grows
    while open. *)
Definition evolves (s s' : asec) : Prop :=
  a_owner s' = a_owner s /\ a_type s' = a_type s /\ a_min s' = a_min s /\
  (exists l, a_objs s' = a_objs s ++ l) /\ (a_open s = false -> s' = s).
Definition progress (l l' : list asec) : Prop :=
  exists l1 l2, l' = l1 ++ l2 /\ Forall2 evolves l l1.

(** Bytes a closed section holds. *)
Definition a_bytes (s : asec) : bytes := concat (a_objs s).
(** Values held by the sections of stream [i], in allocation order. *)
Definition values_of (i : nat) (l : list asec) : list bytes :=
  flat_map a_objs (filter (fun s => Nat.eqb (a_owner s) i) l).
Definition of_type (t : logtype) (l : list asec) : list asec :=
  filter (fun s => logtype_eqb (a_type s) t) l.
(** What reading a section found in the files of a dead process gives: nothing if
    its stream was still writing to it. *)
Definition a_content (s : asec) : bytes := if a_open s then [] else a_bytes s.

(** Byte [a] of slab file [k]. *)
Definition byte_of (fs : list file) (k : nat) (a : N) : option N :=
  option_map (fun f => f_mem f a) (nth_error fs k).
(** The byte range a stream writes to. *)
Definition range_of (st : stream) : nat * N * N :=
  (hd_slab (st_h st), hd_off (st_h st), hd_len (st_h st)).
Definition in_range (r : nat * N * N) (k : nat) (a : N) : Prop :=
  let '(k', off, len) := r in k = k' /\ off <= a < off + len.

(** Successive reads through the [Read] adapter into buffers of the given sizes. *)
Fixpoint io_reads (fs : list file) (fuel : nat) (t : logtype) (ns : list N) (io : ioreader)
    : rres (list bytes) :=
  match ns with
  | [] => ROk []
  | n :: ns => let* (io, out) := io_read fs fuel t n io in
               let* outs := io_reads fs fuel t ns io in ROk (out :: outs)
  end.

(** The slabs a logger keeps mapped, with the number of their file. *)
Definition slabs (lg : logger) : list (nat * slab) := (lg_suffix lg, lg_front lg) :: lg_back lg.
(** Where sections start in slab [k]: after the page of the main header in the
    first one. *)
Definition first_pos (ps : N) (k : nat) : N := match k with O => ps | S _ => 0 end.

(** Some slab file other than the last one is still at its full size: its logger
    had not finished with it, or it is exactly full. *)
Definition middle_full (slab_size : N) (fs : list file) : Prop :=
  exists j f, (S j < length fs)%nat /\ nth_error fs j = Some f /\ f_len f = slab_size.
