(** Properties C91 to C95: the logger behind debug!, its file, and errors. *)
From Coq Require Import String List Arith NArith Bool Lia.
From Verif Require Import Base BincodeModel BincodeSpec ValueModel LogModel CodecSpec CodecProps.
From Verif Require Import LoggerModel LoggerSpec LoggerProofs.
Import ListNotations.
Local Open Scope list_scope.
Local Open Scope nat_scope.

(** ** C91: a line goes to the logger in use, with the time of its clock *)

(** The whole story for one thread, call by call: lines go to the destination of the last
    [init], or are cut once any logger was dropped since, and are stamped by the clock of
    the first [init]; only the lines before the first [init] give an error. *)
Theorem C91_calls_partial {L} (read : nat -> N -> N) (h : list (N * call L)) :
  w_out (acts read (alone h)) = entries_of read h /\ w_refused (acts read (alone h)) = refused_of h.
Proof. destruct (alone_run read h) as (_ & _ & O & R). now split. Qed.
Print Assumptions C91_calls_partial.

(** What users expect, given that all loggers got the same clock and that no logger is
    dropped after the last [init]. *)
Theorem C91_partial {L} (read : nat -> N -> N) (h1 h2 : list (N * call L)) t0 k c t l :
  Forall (fun x => match snd x with Init _ c' => c' = c | _ => True end) h1 ->
  Forall (fun x => match snd x with Log _ => True | _ => False end) h2 ->
  serves read (h1 ++ (t0, Init k c) :: h2) k c t l.
Proof.
  intros H1 H2. unfold serves.
  destruct (alone_run read ((h1 ++ (t0, Init k c) :: h2) ++ [(t, Log l)])) as (_ & _ & O & _).
  exists (entries_of read (h1 ++ (t0, Init k c) :: h2)). rewrite O, entries_of_snoc. cbn [snd fst].
  now rewrite belongs_alive.
Qed.
Print Assumptions C91_partial.

(** Clock 0 shows machine time, clock 1 starts at 100. *)
Definition ex_read (c : nat) (t : N) : N := match c with 0 => t | _ => (t - 100)%N end.
Definition ex_calls : list (N * call nat) :=
  [(1%N, Log 70); (2%N, Init 5 0); (3%N, Log 71); (4%N, Drop 5); (5%N, Log 72); (6%N, Init 6 0); (7%N, Log 73)].
Example C91_case :
  w_out (acts ex_read (alone ex_calls)) = [(0, Dest 5, 3%N, 71); (0, Dummy, 5%N, 72); (0, Dest 6, 7%N, 73)] /\
  w_refused (acts ex_read (alone ex_calls)) = [(0, 70)] /\
  serves ex_read [(2%N, Init 5 0); (3%N, Log 71); (4%N, Drop 5); (6%N, Init 6 0); (7%N, Log 73)] 6 0 9%N 74.
Proof.
  split; [reflexivity|]. split; [reflexivity|].
  apply (C91_partial ex_read [(2%N, Init 5 0); (3%N, Log 71); (4%N, Drop 5)] [(7%N, Log 73)] 6%N 6 0 9%N 74);
    repeat constructor.
Qed.

(** A second logger is given its own clock, but the lines keep the time of the first one's. *)
Theorem C91_clock_refuted : exists (read : nat -> N -> N) (h1 h2 : list (N * call nat)) t0 k c t l,
  alive k h2 /\ ~ serves read (h1 ++ (t0, Init k c) :: h2) k c t l /\
  w_out (acts read (alone ((h1 ++ (t0, Init k c) :: h2) ++ [(t, Log l)]))) = [(0, Dest k, 142%N, l)] /\ read c t = 42%N.
Proof.
  exists ex_read, [(1%N, Init 5 0); (2%N, Drop 5)], [], 100%N, 6, 1, 142%N, 7.
  split; [constructor|]. split; [|split; reflexivity].
  intros [out E]. apply (f_equal (@rev _)) in E. rewrite rev_app_distr in E. cbv in E. congruence.
Qed.
Print Assumptions C91_clock_refuted.

(** The logger of destination 5 is replaced by a new one, which is then in use: when the
    old one is dropped, as in [logger = LoggerRuntime::init(...)], the lines of the new one
    are cut. *)
Theorem C91_drop_refuted : exists (read : nat -> N -> N) (h1 h2 : list (N * call nat)) t0 k c t l,
  alive k h2 /\ Forall (fun x => match snd x with Init _ c' => c' = c | _ => True end) h1 /\
  ~ serves read (h1 ++ (t0, Init k c) :: h2) k c t l /\
  w_out (acts read (alone ((h1 ++ (t0, Init k c) :: h2) ++ [(t, Log l)]))) = [(0, Dummy, read c t, l)].
Proof.
  exists ex_read, [(1%N, Init 5 0)], [(3%N, Drop 5)], 2%N, 6, 0, 4%N, 7.
  split; [repeat constructor; discriminate|]. split; [repeat constructor|]. split; [|reflexivity].
  intros [out E]. apply (f_equal (@rev _)) in E. rewrite rev_app_distr in E. cbv in E. congruence.
Qed.
Print Assumptions C91_drop_refuted.

(** ** C92: the lines of a log are in the order of their times *)

(** Two threads: the first one takes its time, the second one logs, then the first one
    hands over its line. *)
Theorem C92_refuted : exists (a : list (action nat)),
  (forall th, proper th false a) /\ nondec (nows a) /\
  w_out (acts (fun _ t => t) a) = [(1, Dest 0, 3%N, 72); (0, Dest 0, 2%N, 71)].
Proof.
  exists [Begin 0 1%N (Init 0 0); Finish 0; Begin 0 2%N (Log 71); Begin 1 3%N (Log 72); Finish 1; Finish 0].
  split; [|split; [cbn; lia|reflexivity]].
  intros th. cbn. destruct th as [|[|th]]; cbn; auto.
Qed.
Print Assumptions C92_refuted.

(** The lines of each thread: all of them are there, once and in the order they were
    logged, but for the ones refused before the first [init] and at most one that the
    thread is about to hand over; their times are in order. *)
Theorem C92_threads_partial {L} (read : nat -> N -> N) (a : list (action L)) th :
  (forall c, monotone (read c)) -> nondec (nows a) -> proper th false a ->
  let w := acts read a in
  w_pc w th <> Panicked ->
  logged th a = refused_by th w ++ map snd (entries_by th w ++ pending th w) /\
  length (pending th w) <= 1 /\
  nondec (map fst (entries_by th w ++ pending th w)).
Proof.
  intros M D P w N. split; [now apply all_accounted|]. split.
  - unfold pending. destruct (w_pc w th); cbn; lia.
  - now apply in_order.
Qed.
Print Assumptions C92_threads_partial.

Definition ex_threads : list (action nat) :=
  [Begin 0 1%N (Log 70); Finish 0; Begin 0 2%N (Init 0 0); Begin 1 2%N (Log 80); Finish 0;
   Begin 0 3%N (Log 71); Finish 1; Begin 1 4%N (Log 81); Finish 1; Finish 0; Begin 1 6%N (Log 82); Begin 0 6%N (Log 72); Finish 0].
Example C92_case : (forall c, monotone (ex_read c)) /\ nondec (nows ex_threads) /\ (forall th, proper th false ex_threads) /\
  let w := acts ex_read ex_threads in
  w_pc w 0 = Idle /\ logged 0 ex_threads = [70; 71; 72] /\ refused_by 0 w = [70] /\ entries_by 0 w = [(3%N, 71); (6%N, 72)] /\
  logged 1 ex_threads = [80; 81; 82] /\ refused_by 1 w = [80] /\ entries_by 1 w = [(4%N, 81)] /\ pending 1 w = [(6%N, 82)].
Proof.
  split; [intros c s t H; unfold ex_read; destruct c; lia|]. split; [cbn; lia|].
  split; [intros [|[|th]]; cbn; auto 12|]. now repeat split.
Qed.

(** ** C93: the logger can be initialised from any thread *)

Theorem C93_refuted : exists (a : list (action nat)),
  (forall th, proper th false a) /\ w_pc (acts (fun _ t => t) a) 1 = Panicked.
Proof.
  exists [Begin 0 1%N (Init 0 0); Begin 1 1%N (Init 1 0); Finish 0; Finish 1].
  split; [|reflexivity]. intros th. cbn. destruct th as [|[|th]]; cbn; auto.
Qed.
Print Assumptions C93_refuted.

(** If the first [init] of the program is over before the next one starts, nothing that
    any number of threads do later (or did before, without [init]) makes one panic. *)
Theorem C93_partial {L} (read : nat -> N -> N) (a1 a2 a3 : list (action L)) th t k c u :
  no_init a1 -> quiet th a1 -> no_init a2 -> quiet th a2 ->
  w_pc (acts read (a1 ++ Begin th t (Init k c) :: a2 ++ Finish th :: a3)) u <> Panicked.
Proof. intros. now apply no_panic. Qed.
Print Assumptions C93_partial.

Example C93_case : let a1 := [Begin 1 0%N (Log 80); Finish 1] in let a2 := [Begin 1 2%N (Log 81)] in
  let a3 := [Begin 0 3%N (Init 1 0); Begin 2 3%N (Init 2 0); Finish 2; Begin 1 4%N (Log 82); Finish 0; Finish 1] in
  no_init a1 /\ quiet 0 a1 /\ no_init a2 /\ quiet 0 a2 /\
  w_out (acts ex_read (a1 ++ Begin 0 1%N (Init 0 0) :: a2 ++ Finish 0 :: a3)) = [(1, Dest 1, 4%N, 82)].
Proof. cbn. repeat split; repeat constructor; discriminate. Qed.

(** ** C94: the log file reads back as the lines logged *)

(** With room on the disk: however the entries are cut into pieces, whatever the size of the
    buffer and wherever flushes happen, the closed file reads back as exactly the entries. *)
Theorem C94_partial (l : list log_entry) (ops : list fileop) (room cap : nat) :
  Forall entry_ok l -> logs l ops -> length (flat_map enc_entry l) <= room ->
  reads (file_closed ops (filew_new room cap)) l.
Proof.
  intros F H R.
  destruct (logs_enough l ops H (filew_new room cap) 0) as [C E].
  { unfold enough. cbn. lia. }
  unfold file_closed. set (w := fst (fileops ops (filew_new room cap))) in *.
  destruct (flush_enough w 0 E) as (A & _ & _). pose proof (flush_buf_keeps w) as K.
  rewrite (flush_buf_empty w A), app_nil_r in K. rewrite K. unfold content in C. cbn [filew_new f_file f_buf app] in C.
  rewrite C. apply reads_all; [apply C24_entries|assumption].
Qed.
Print Assumptions C94_partial.

(** Whatever happens to the room on the disk, the file, at any time and when closed, holds
    the bytes of the calls in order up to some point, with a first part only for a call
    that failed. *)
Theorem C94_prefix_partial (ops : list fileop) (room cap : nat) :
  exists b, accepted (combine ops (snd (fileops ops (filew_new room cap)))) b /\
    prefix (file_closed ops (filew_new room cap)) b /\
    prefix (f_file (fst (fileops ops (filew_new room cap)))) b.
Proof. now apply closed_prefix. Qed.
Print Assumptions C94_prefix_partial.

Definition ex_entry (n : N) : log_entry := LogEntry 7 n [] [VU8 5].
(** The encoding of [ex_entry] in three pieces. *)
Definition ex_pieces (n : N) : list bytes := [firstn 2 (enc_entry (ex_entry n)); []; skipn 2 (enc_entry (ex_entry n))].
Example C94_case : let ops := [FLog (ex_pieces 1); FFlush; FLog (ex_pieces 2); FLog (ex_pieces 3)] in
  let l := [ex_entry 1; ex_entry 2; ex_entry 3] in
  Forall entry_ok l /\ logs l ops /\ length (flat_map enc_entry l) = 18 /\
  f_file (fst (fileops ops (filew_new 100 7))) = flat_map enc_entry [ex_entry 1] ++ enc_entry (ex_entry 2) /\
  reads (file_closed ops (filew_new 100 7)) l.
Proof.
  assert (F : Forall entry_ok [ex_entry 1; ex_entry 2; ex_entry 3]) by (repeat constructor).
  assert (Hl : logs [ex_entry 1; ex_entry 2; ex_entry 3] [FLog (ex_pieces 1); FFlush; FLog (ex_pieces 2); FLog (ex_pieces 3)]) by (repeat constructor).
  split; [exact F|]. split; [exact Hl|]. split; [reflexivity|]. split; [reflexivity|].
  apply C94_partial; [exact F|exact Hl|vm_compute; lia].
Qed.

(** The disk is full for a moment, with the buffer of 8192 bytes: the line logged then (a
    long text) is torn, and a later line, logged and flushed with success, cannot be read. *)
Theorem C94_torn_refuted : exists (e1 e2 e3 : log_entry) (p1 p2 p3 : list bytes) (room : nat),
  let ops := [FLog p1; FFlush; FLog p2; FRoom 1000; FLog p3; FFlush] in
  let w := filew_new room (N.to_nat 8192) in
  entry_ok e1 /\ entry_ok e2 /\ entry_ok e3 /\
  concat p1 = enc_entry e1 /\ concat p2 = enc_entry e2 /\ concat p3 = enc_entry e3 /\
  snd (fileops ops w) = [true; true; false; true; true; true] /\
  ~ exists l, reads (file_closed ops w) l /\ In e3 l.
Proof.
  set (e2 := LogEntry 8 2 [] [VString (repeat 97%N (N.to_nat 9000))]).
  exists (ex_entry 1), e2, (ex_entry 3), (ex_pieces 1), [firstn 9 (enc_entry e2); skipn 9 (enc_entry e2)], (ex_pieces 3), 20.
  cbv zeta.
  split; [repeat constructor|]. split.
  { split; [reflexivity|]. split; [reflexivity|]. split; [constructor|]. split; [reflexivity|]. split; [|reflexivity].
    constructor; [|constructor]. constructor. split.
    - apply Forall_forall. intros x Hx%repeat_spec. subst x. vm_compute. auto.
    - vm_compute. reflexivity. }
  split; [repeat constructor|]. split; [reflexivity|]. split; [vm_compute; reflexivity|].
  split; [reflexivity|]. split; [vm_compute; reflexivity|].
  set (f := file_closed _ _). vm_compute in f. subst f. 
  intros (l & H & I).
  inversion H as [|b e b' l' D R]; subst. vm_compute in D. injection D as <- <-.
  destruct I as [I|I]; [discriminate|].
  inversion R as [|b e b' l'' D R']; subst. vm_compute in D. discriminate.
Qed.
Print Assumptions C94_torn_refuted.

(** ** C95: an error shows what it was given *)

(** The text of an error has its message and the cause given last, however many were given. *)
Theorem C95_partial (e : cu_error) (causes : list txt) (c : txt) :
  let shown := show_error (fold_left add_cause (causes ++ [c]) e) in
  (exists r, shown = ce_message e ++ r) /\ (exists r, shown = r ++ c).
Proof.
  rewrite fold_left_app. cbn [fold_left].
  assert (M : forall l e, ce_message (fold_left add_cause l e) = ce_message e).
  { induction l as [|x l IH]; intros e'; [reflexivity|]. cbn. now rewrite IH. }
  split.
  - exists ([10%N] ++ lit "   context:" ++ c). unfold show_error. cbn [ce_cause add_cause ce_message]. now rewrite M.
  - exists (ce_message e ++ [10%N] ++ lit "   context:"). unfold show_error. cbn [ce_cause add_cause ce_message].
    now rewrite M, <- !app_assoc.
Qed.
Print Assumptions C95_partial.

(** A cause given before another one is nowhere in the text. *)
Theorem C95_refuted : exists (e : cu_error) (c1 c2 : txt),
  e = error_with_cause (lit "Sensor failed") c1 /\ ~ shows (show_error (add_cause e c2)) c1.
Proof.
  exists (error_with_cause (lit "Sensor failed") (lit "bus timeout")), (lit "bus timeout"), (lit "during start").
  split; [reflexivity|]. intros (a & b & E).
  assert (Hin : In 98%N (show_error (add_cause (error_with_cause (lit "Sensor failed") (lit "bus timeout")) (lit "during start")))).
  { rewrite E. apply in_or_app. right. apply in_or_app. left. now left. }
  vm_compute in Hin. repeat (destruct Hin as [Hin|Hin]; [discriminate|]). exact Hin.
Qed.
Print Assumptions C95_refuted.

(** An error without a cause and one with the cause "None" look the same. *)
Theorem C95_none_refuted : exists e1 e2, e1 <> e2 /\ ce_cause e1 = None /\ ce_cause e2 <> None /\ show_error e1 = show_error e2.
Proof.
  exists (error_from (lit "x")), (error_with_cause (lit "x") (lit "None")).
  split; [discriminate|]. split; [reflexivity|]. split; [discriminate|reflexivity].
Qed.
Print Assumptions C95_none_refuted.

Example C95_case : show_error (add_cause (add_cause (error_from (lit "Sensor failed")) (lit "a")) (lit "b"))
  = lit "Sensor failed" ++ [10%N] ++ lit "   context:b".
Proof. reflexivity. Qed.
