(** The aligner (components/tasks/cu_aligner/src/buffers.rs and lib.rs). Times are [N]
    nanoseconds; a message is its time of validity and payload. One payload type stands for
    the payload types of all inputs. *)
From Coq Require Import List Arith NArith Bool.
From Verif Require Import Base.
Import ListNotations.
Local Open Scope N_scope.

(** core/cu29_clock/src/lib.rs:309-317 (Tov). *)
Inductive tov := TNone | TTime (t : N) | TRange (start stop : N).
(** Subtraction of CuDuration (core/cu29_clock/src/lib.rs:75-83), with overflow checks. *)
Definition time_sub (a b : N) : outcome N := if a <? b then Panic else Ret (a - b).

Section Aligner.
Context {A : Type}.

(** CuMsg (core/cu29_runtime/src/cutask.rs:128-137), the fields read here. *)
Record msg := Msg { m_tov : tov; m_payload : option A }.
(** TimeboundCircularBuffer (components/tasks/cu_aligner/src/buffers.rs:7-12): the capacity
    and the messages, oldest first. *)
Record buffer := Buffer { b_cap : nat; b_msgs : list msg }.
(** components/tasks/cu_aligner/src/buffers.rs:44-49 (new). *)
Definition buffer_new (cap : nat) : buffer := Buffer cap [].
(** components/tasks/cu_aligner/src/buffers.rs:23-29 (extract_tov_time_right). *)
Definition tov_right (t : tov) : option N :=
  match t with TTime t => Some t | TRange _ e => Some e | TNone => None end.
(** components/tasks/cu_aligner/src/buffers.rs:53-63 (iter_window). *)
Definition iter_window (b : buffer) (start stop : N) : list msg :=
  filter (fun m => match m_tov m with
                   | TTime t => (start <=? t) && (t <=? stop)
                   | TRange s e => (start <=? s) && (e <=? stop)
                   | TNone => false
                   end) (b_msgs b).
(** std's position, at components/tasks/cu_aligner/src/buffers.rs:71, then unwrap_or(len). *)
Fixpoint position (f : msg -> bool) (l : list msg) : nat :=
  match l with [] => O | m :: l => if f m then O else S (position f l) end.
(** components/tasks/cu_aligner/src/buffers.rs:66-80 (purge). *)
Definition purge (b : buffer) (horizon : N) : buffer :=
  let drain_end := position (fun m => match m_tov m with
                                      | TTime t => horizon <=? t
                                      | TRange _ e => horizon <=? e
                                      | TNone => false
                                      end) (b_msgs b) in
  Buffer (b_cap b) (skipn drain_end (b_msgs b)).
(** The fold of components/tasks/cu_aligner/src/buffers.rs:87-95. *)
Fixpoint recent (acc : option N) (l : list msg) : option (option N) :=
  match l with
  | [] => Some acc
  | m :: l => match tov_right (m_tov m) with
              | None => None
              | Some t => recent (Some (match acc with None => t | Some c => N.max c t end)) l
              end
  end.
(** components/tasks/cu_aligner/src/buffers.rs:83-96 (most_recent_time); [None] is the
    error. *)
Definition most_recent_time (b : buffer) : option (option N) := recent None (b_msgs b).
(** components/tasks/cu_aligner/src/buffers.rs:99-101 (push): the push_back of the
    circular_buffer crate drops the oldest element of a full buffer. *)
Definition push (b : buffer) (m : msg) : buffer :=
  if Nat.eqb (b_cap b) 0 then b
  else if Nat.leb (b_cap b) (length (b_msgs b)) then Buffer (b_cap b) (tl (b_msgs b) ++ [m])
  else Buffer (b_cap b) (b_msgs b ++ [m]).

(** The struct of alignment_buffers! (components/tasks/cu_aligner/src/buffers.rs:107-111). *)
Record aligner := Aligner { a_window : N; a_horizon : N; a_buffers : list buffer }.
(** components/tasks/cu_aligner/src/buffers.rs:123-127 (purge). *)
Definition aligner_purge (a : aligner) (now : N) : outcome aligner :=
  let! h := time_sub now (a_horizon a) in
  Ret (Aligner (a_window a) (a_horizon a) (map (fun b => purge b h) (a_buffers a))).
(** unwrap_or(None) and filter_map (components/tasks/cu_aligner/src/buffers.rs:137-140). *)
Fixpoint times (l : list buffer) : list N :=
  match l with
  | [] => []
  | b :: l => match most_recent_time b with Some (Some t) => t :: times l | _ => times l end
  end.
(** std's min (components/tasks/cu_aligner/src/buffers.rs:141). *)
Fixpoint least (l : list N) : option N :=
  match l with
  | [] => None
  | t :: l => match least l with None => Some t | Some u => Some (N.min t u) end
  end.
(** components/tasks/cu_aligner/src/buffers.rs:131-150 (get_latest_aligned_data): the
    messages of each iterator. *)
Definition latest (a : aligner) : outcome (option (list (list msg))) :=
  match least (times (a_buffers a)) with
  | None => Ret None
  | Some t => let! start := time_sub t (a_window a) in
              Ret (Some (map (fun b => iter_window b start t) (a_buffers a)))
  end.

(** Copying the payloads (components/tasks/cu_aligner/src/lib.rs:76-78): fill_from_iter of
    core/cu29_runtime/src/payload.rs:20-28 takes the first [mos]; an absent payload panics. *)
Fixpoint fill (mos : nat) (l : list msg) : outcome (list A) :=
  match mos, l with
  | S mos, m :: l => match m_payload m with
                     | None => Panic
                     | Some v => let! vs := fill mos l in Ret (v :: vs)
                     end
  | _, _ => Ret []
  end.
(** The same for every input (components/tasks/cu_aligner/src/lib.rs:76-78). *)
Fixpoint fill_all (mos : list nat) (ls : list (list msg)) : outcome (list (list A)) :=
  match mos, ls with
  | n :: mos, l :: ls => let! vs := fill n l in let! vss := fill_all mos ls in Ret (vs :: vss)
  | _, _ => Ret []
  end.
(** Pushing the inputs (components/tasks/cu_aligner/src/lib.rs:60-64). *)
Fixpoint push_all (bs : list buffer) (ms : list msg) : list buffer :=
  match bs, ms with
  | b :: bs, m :: ms => push b m :: push_all bs ms
  | _, _ => bs
  end.
(** components/tasks/cu_aligner/src/lib.rs:52-80 (process): the aligner and the output
    payload afterwards; [output] is the payload found in the output message, and
    payload_mut().as_mut().unwrap() panics on none. *)
Definition process (mos : list nat) (a : aligner) (input : list msg) (output : option (list (list A))) :
  outcome (aligner * option (list (list A))) :=
  let a := Aligner (a_window a) (a_horizon a) (push_all (a_buffers a) input) in
  let! d := latest a in
  match d with
  | None => Ret (a, output)
  | Some ls => match output with
               | None => Panic
               | Some _ => let! vss := fill_all mos ls in Ret (a, Some vss)
               end
  end.
End Aligner.
Arguments msg : clear implicits.
Arguments buffer : clear implicits.
Arguments aligner : clear implicits.
