(** Model of the unified log: writer, streams, reader, at byte level.
    All citations are to core/cu29_unifiedlog/src/lib.rs unless another file is
    named. Offsets and sizes are usize in the code; they are unbounded [N] here
    (no file offset reaches 2^64); every narrowing cast ([as u16], [as u32]) is
    explicit. *)
From Coq Require Import List Arith NArith Bool.
From Verif Require Import Base BincodeModel.
Import ListNotations.
Open Scope N_scope.

(** core/cu29_traits/src/lib.rs:70-76 [UnifiedLogType]. *)
Inductive logtype := TEmpty | TStructured | TCopperList | TLast.

(** Derived [PartialEq], core/cu29_traits/src/lib.rs:70. *)
Definition logtype_eqb (a b : logtype) : bool :=
  match a, b with
  | TEmpty, TEmpty | TStructured, TStructured | TCopperList, TCopperList | TLast, TLast => true
  | _, _ => false
  end.

(** Derived [Encode]/[Decode] of the enum, core/cu29_traits/src/lib.rs:70: the
    variant index as a u32. *)
Definition enc_logtype (t : logtype) : bytes :=
  enc_u32 (match t with TEmpty => 0 | TStructured => 1 | TCopperList => 2 | TLast => 3 end).
(** Derived Decode of core/cu29_traits/src/lib.rs:70. *)
Definition dec_logtype : decoder logtype :=
  let? d := dec_u32 in
  if d =? 0 then dret TEmpty else if d =? 1 then dret TStructured
  else if d =? 2 then dret TCopperList else if d =? 3 then dret TLast else dfail.

(** core/cu29_unifiedlog/src/lib.rs:18 and 20: magic numbers. *)
Definition main_magic : bytes := [0xB4; 0xA5; 0x50; 0xFF].
(** core/cu29_unifiedlog/src/lib.rs:20: the magic number of a section. *)
Definition section_magic : bytes := [0xFA; 0x57].

(** core/cu29_unifiedlog/src/lib.rs:23-28 [MainHeader], with its derived codec (a fixed size byte array is
    written without length). *)
Record main_header := mkMain { mh_magic : bytes; mh_first : N; mh_page : N }.
(** Derived Encode of core/cu29_unifiedlog/src/lib.rs:23. *)
Definition enc_main (h : main_header) : bytes :=
  mh_magic h ++ enc_u16 (mh_first h) ++ enc_u16 (mh_page h).
(** Derived Decode of core/cu29_unifiedlog/src/lib.rs:23. *)
Definition dec_main : decoder main_header :=
  let? m := take_bytes 4 in let? f := dec_u16 in let? p := dec_u16 in dret (mkMain m f p).

(** core/cu29_unifiedlog/src/lib.rs:33-39 [SectionHeader], with its derived codec. *)
Record header := mkHdr { h_magic : bytes; h_type : logtype; h_size : N; h_filled : N }.
(** Derived Encode of core/cu29_unifiedlog/src/lib.rs:33. *)
Definition enc_header (h : header) : bytes :=
  h_magic h ++ enc_logtype (h_type h) ++ enc_u32 (h_size h) ++ enc_u32 (h_filled h).
(** Derived Decode of core/cu29_unifiedlog/src/lib.rs:33. *)
Definition dec_header : decoder header :=
  let? m := take_bytes 2 in let? t := dec_logtype in
  let? s := dec_u32 in let? f := dec_u32 in dret (mkHdr m t s f).

(** core/cu29_unifiedlog/src/lib.rs:41 [MAX_HEADER_SIZE]: [size_of::<SectionHeader>()] is 12 (2 bytes, 1
    byte discriminant, 1 byte padding, two u32), plus 3. *)
Definition MAX_HEADER_SIZE : N := 15.

(** The length of a slice (std, as at core/cu29_unifiedlog/src/lib.rs:409). *)
Definition blen (b : bytes) : N := N.of_nat (length b).

(** ** Files *)

(** A slab file: byte at each offset and length. The mapping is shared, so the
    file content and the mmap content are one. The memmap2 mapping of core/cu29_unifiedlog/src/lib.rs:451-463. *)
Record file := mkFile { f_mem : N -> N; f_len : N }.

(** Effects on the file system, in program order: creation of the next slab file
    (451-463 [make_slab_file]: zero filled, [set_len]); store of bytes in the
    mapping of slab number [k]; truncation of the file (240-242, [set_len]). All in core/cu29_unifiedlog/src/lib.rs:235-541. *)
Inductive event :=
| EvCreate (len : N)
| EvWrite (k : nat) (off : N) (bs : bytes)
| EvTrim (k : nat) (len : N).

(** Store of [bs] at offset [off]. As at core/cu29_unifiedlog/src/lib.rs:346, 414. *)
Definition wr (m : N -> N) (off : N) (bs : bytes) : N -> N :=
  fun a => if (off <=? a) && (a <? off + blen bs)
           then nth (N.to_nat (a - off)) bs 0 else m a.

(** Modify file number [k]. A file of core/cu29_unifiedlog/src/lib.rs:451-463. *)
Definition modify_file (k : nat) (f : file -> file) (fs : list file) : list file :=
  match nth_error fs k with None => fs | Some x => upd k (f x) fs end.

(** Semantics of one effect. Effects of core/cu29_unifiedlog/src/lib.rs:235-541. *)
Definition apply_ev (e : event) (fs : list file) : list file :=
  match e with
  | EvCreate len => fs ++ [mkFile (fun _ => 0) len]
  | EvWrite k off bs => modify_file k (fun f => mkFile (wr (f_mem f) off bs) (f_len f)) fs
  | EvTrim k len => modify_file k (fun f => mkFile (f_mem f) len) fs
  end.

(** Content of the file system after a sequence of effects. Effects of core/cu29_unifiedlog/src/lib.rs:235-541. *)
Definition replay (evs : list event) : list file :=
  fold_left (fun fs e => apply_ev e fs) evs [].

(** Bytes [off, off + n) of a mapping. As at core/cu29_unifiedlog/src/lib.rs:658-684. *)
Definition slice (m : N -> N) (off n : N) : bytes :=
  map (fun i => m (off + N.of_nat i)) (seq 0 (N.to_nat n)).

(** ** Writer *)

(** core/cu29_unifiedlog/src/lib.rs:226-233 [SlabEntry], without the file and the mapping (kept in
    [lg_files]) and the page size (a parameter). *)
Record slab := mkSlab { sl_pos : N; sl_inflight : list N; sl_flushed : N }.

(** core/cu29_unifiedlog/src/lib.rs:376-381 [SectionHandle]: [hd_slab], [hd_off] and [hd_len] designate the
    buffer (slab number, offset and length of the borrowed range). *)
Record handle := mkHandle {
  hd_slab : nat; hd_off : N; hd_len : N; hd_used : N; hd_hdr : header }.

(** core/cu29_unifiedlog/src/lib.rs:426-437 [UnifiedLoggerWrite]; [lg_back] pairs each back slab with the
    number of its file. [lg_files] and [lg_evs] are the file system and the
    history of effects on it. *)
Record logger := mkLogger {
  lg_front : slab; lg_back : list (nat * slab); lg_suffix : nat;
  lg_files : list file; lg_evs : list event }.

(** One effect of core/cu29_unifiedlog/src/lib.rs:235-541. *)
Definition emit (e : event) (lg : logger) : logger :=
  mkLogger (lg_front lg) (lg_back lg) (lg_suffix lg)
           (apply_ev e (lg_files lg)) (lg_evs lg ++ [e]).
(** Several effects of core/cu29_unifiedlog/src/lib.rs:235-541. *)
Definition emits (es : list event) (lg : logger) : logger :=
  fold_left (fun lg e => emit e lg) es lg.
(** Assignment of front_slab (core/cu29_unifiedlog/src/lib.rs:428). *)
Definition set_front (s : slab) (lg : logger) : logger :=
  mkLogger s (lg_back lg) (lg_suffix lg) (lg_files lg) (lg_evs lg).
(** Assignment of back_slabs (core/cu29_unifiedlog/src/lib.rs:430). *)
Definition set_back (b : list (nat * slab)) (lg : logger) : logger :=
  mkLogger (lg_front lg) b (lg_suffix lg) (lg_files lg) (lg_evs lg).

Section Writer.
(** [page_size] and [slab_size] are fields of the logger (430-436, 232), fixed at
    construction. *)
Context (ps slab_size : N).

(** core/cu29_unifiedlog/src/lib.rs:320-322 [align_to_next_page]. *)
Definition align (p : N) : N := N.ldiff (p + ps - 1) (ps - 1).

(** core/cu29_unifiedlog/src/lib.rs:269-281 [flush_until]. Only the bookkeeping is modelled; the
    subtraction is checked (an underflow panics, or makes [msync] fail, which
    panics). *)
Definition flush_until (until : N) (s : slab) : outcome slab :=
  if (sl_flushed s =? until) || (until =? 0) then Ret s
  else if until <? sl_flushed s then Panic
  else Ret (mkSlab (sl_pos s) (sl_inflight s) until).

(** core/cu29_unifiedlog/src/lib.rs:235-247 [Drop for SlabEntry]. *)
Definition drop_slab (k : nat) (s : slab) (lg : logger) : outcome logger :=
  let! s := flush_until (sl_pos s) s in
  Ret (emit (EvTrim k (sl_pos s)) lg).

(** core/cu29_unifiedlog/src/lib.rs:412-417 [update_header]. *)
Definition update_header (h : handle) : handle :=
  if logtype_eqb (h_type (hd_hdr h)) TEmpty || (hd_used h =? 0) then h
  else mkHandle (hd_slab h) (hd_off h) (hd_len h) (hd_used h)
         (mkHdr (h_magic (hd_hdr h)) (h_type (hd_hdr h)) (h_size (hd_hdr h)) (hd_used h)).

(** core/cu29_unifiedlog/src/lib.rs:291-317 [SlabEntry::flush_section]. The membership test of 292-297 is
    done by the caller ([flush_section] below). *)
Definition slab_flush_section (h : handle) (s : slab) (lg : logger) : outcome (slab * logger) :=
  let h := update_header h in
  let e := enc_header (hd_hdr h) in
  if hd_len h <? blen e then Panic
  else
    let lg := emit (EvWrite (hd_slab h) (hd_off h) e) lg in
    let s := mkSlab (sl_pos s) (filter (fun x => negb (x =? hd_off h)) (sl_inflight s))
                    (sl_flushed s) in
    match sl_inflight s with
    | [] => let! s := flush_until (sl_pos s) s in Ret (s, lg)
    | x :: _ => if sl_flushed s <? x
                then let! s := flush_until x s in Ret (s, lg)
                else Ret (s, lg)
    end.

(** core/cu29_unifiedlog/src/lib.rs:325-367 [SlabEntry::add_section] with 388-407 [SectionHandle::create];
    [k] is the number of the slab's file. [None] is [NoMoreSpace]. *)
Definition slab_add_section (k : nat) (t : logtype) (req : N) (s : slab) (lg : logger)
    : outcome (slab * logger * option handle) :=
  let pos := align (sl_pos s) in
  let s := mkSlab pos (sl_inflight s) (sl_flushed s) in
  let size := align req mod 2 ^ 32 in
  if slab_size <? pos + size then Ret (s, lg, None)
  else
    let hdr := mkHdr section_magic t size 0 in
    let e := enc_header hdr in
    if (slab_size - pos <? blen e) || negb (blen e <? ps) || (slab_size <? pos + req) then Panic
    else
      let lg := emit (EvWrite k pos e) lg in
      let s := mkSlab (pos + req) (sl_inflight s ++ [pos]) (sl_flushed s) in
      match nth_error (lg_files lg) k with
      | None => Panic
      | Some f =>
          if (req <? 2) || negb (f_mem f pos =? 0xFA) || negb (f_mem f (pos + 1) =? 0x57)
             || (req <? MAX_HEADER_SIZE)
          then Panic
          else Ret (s, lg, Some (mkHandle k pos req 0 hdr))
      end.

(** core/cu29_unifiedlog/src/lib.rs:505-508 [garbage_collect_backslabs]; a slab that is not retained is
    dropped. *)
Fixpoint gc_list (b : list (nat * slab)) (lg : logger) : outcome (list (nat * slab) * logger) :=
  match b with
  | [] => Ret ([], lg)
  | (k, s) :: b =>
      match sl_inflight s with
      | [] => let! lg := drop_slab k s lg in gc_list b lg
      | _ => let! (b', lg) := gc_list b lg in Ret ((k, s) :: b', lg)
      end
  end.
(** core/cu29_unifiedlog/src/lib.rs:505-508 [garbage_collect_backslabs]. *)
Definition gc (lg : logger) : outcome logger :=
  let! (b, lg) := gc_list (lg_back lg) lg in Ret (set_back b lg).

(** core/cu29_unifiedlog/src/lib.rs:511-541 [UnifiedLoggerWrite::add_section], with 466-470 [next_slab] and
    254-266 [SlabEntry::new]. *)
Definition add_section (t : logtype) (req : N) (lg : logger) : outcome (logger * handle) :=
  let! lg := gc lg in
  let! (s, lg, r) := slab_add_section (lg_suffix lg) t req (lg_front lg) lg in
  match r with
  | Some h => Ret (set_front s lg, h)
  | None =>
      let old := lg_suffix lg in
      let lg := emit (EvCreate slab_size) lg in
      let lg := mkLogger (mkSlab 0 [] 0) (lg_back lg ++ [(old, s)]) (S old)
                         (lg_files lg) (lg_evs lg) in
      let! (s, lg, r) := slab_add_section (lg_suffix lg) t req (lg_front lg) lg in
      match r with
      | Some h => Ret (set_front s lg, h)
      | None => Panic
      end
  end.

(** core/cu29_unifiedlog/src/lib.rs:495-503 [UnifiedLoggerWrite::flush_section], with 283-287
    [is_it_my_section]: mappings of different slabs are disjoint, so the section
    belongs to the slab it was allocated in. *)
Fixpoint flush_back (h : handle) (b : list (nat * slab)) (lg : logger)
    : outcome (option (list (nat * slab) * logger)) :=
  match b with
  | [] => Ret None
  | (k, s) :: b =>
      if Nat.eqb k (hd_slab h)
      then let! (s, lg) := slab_flush_section h s lg in Ret (Some ((k, s) :: b, lg))
      else let! r := flush_back h b lg in
           Ret (match r with None => None | Some (b, lg) => Some ((k, s) :: b, lg) end)
  end.
(** core/cu29_unifiedlog/src/lib.rs:495-503 [UnifiedLoggerWrite::flush_section]. *)
Definition flush_section (h : handle) (lg : logger) : outcome logger :=
  let! r := flush_back h (lg_back lg) lg in
  match r with
  | Some (b, lg) => Ret (set_back b lg)
  | None =>
      if Nat.eqb (lg_suffix lg) (hd_slab h)
      then let! (s, lg) := slab_flush_section h (lg_front lg) lg in Ret (set_front s lg)
      else Panic
  end.

(** core/cu29_unifiedlog/src/lib.rs:471-493 [UnifiedLoggerWrite::new]. *)
Definition logger_new : outcome logger :=
  let lg := emit (EvCreate slab_size) (mkLogger (mkSlab ps [] 0) [] 0 [] []) in
  let e := enc_main (mkMain main_magic (ps mod 2 ^ 16) (ps mod 2 ^ 16)) in
  if (slab_size <? blen e) || negb (blen e <? ps) then Panic
  else Ret (emit (EvWrite 0 0 e) lg).

(** Drop of the remaining back slabs (field drop after 552-558). Of the struct at core/cu29_unifiedlog/src/lib.rs:426-437. *)
Fixpoint drop_all (b : list (nat * slab)) (lg : logger) : outcome logger :=
  match b with
  | [] => Ret lg
  | (k, s) :: b => let! lg := drop_slab k s lg in drop_all b lg
  end.

(** core/cu29_unifiedlog/src/lib.rs:552-558 [Drop for UnifiedLoggerWrite], followed by the drop of its
    fields [front_slab] and [back_slabs]. *)
Definition logger_drop (lg : logger) : outcome logger :=
  let! (lg, h) := add_section TLast 80 lg in
  let! (s, lg) := slab_flush_section h (lg_front lg) lg in
  let! lg := gc (set_front s lg) in
  let! lg := drop_slab (lg_suffix lg) (lg_front lg) lg in
  drop_all (lg_back lg) lg.

(** ** Streams *)

(** A value given to a stream: what its [Encode] implementation hands to the
    writer, chunk by chunk, and whether it then succeeds. The argument of core/cu29_unifiedlog/src/lib.rs:89. *)
Record obj := mkObj { o_chunks : list bytes; o_ok : bool }.

(** Result of [encode_into_slice]. As matched at core/cu29_unifiedlog/src/lib.rs:91-117. *)
Inductive enc_result := EncOk (n : N) | EncEnd | EncOther.

(** [encode_into_slice] into the [room] bytes at offset [off] of slab [k] (92,
    112): bincode's slice writer copies each chunk, or fails with [UnexpectedEnd]
    when it does not fit; what was copied before stays. The calls at core/cu29_unifiedlog/src/lib.rs:92 and 112. *)
Fixpoint encode_into (k : nat) (off room : N) (cs : list bytes) (ok : bool)
    : list event * enc_result :=
  match cs with
  | [] => ([], if ok then EncOk 0 else EncOther)
  | c :: cs =>
      if room <? blen c then ([], EncEnd)
      else let (es, r) := encode_into k (off + blen c) (room - blen c) cs ok in
           (EvWrite k off c :: es,
            match r with EncOk n => EncOk (blen c + n) | r => r end)
  end.

(** core/cu29_unifiedlog/src/lib.rs:55-61 [MmapStream] (the position field, only used for display, is
    omitted; the parent logger is passed explicitly). *)
Record stream := mkStream { st_type : logtype; st_h : handle; st_min : N }.

(** core/cu29_unifiedlog/src/lib.rs:64-81 [MmapStream::new] (through 135-141 [stream_write]). *)
Definition stream_new (t : logtype) (min : N) (lg : logger) : outcome (logger * stream) :=
  let! (lg, h) := add_section t min lg in Ret (lg, mkStream t h min).

(** Encoding at the end of the used part of a section: 408-410
    [get_user_buffer] and [encode_into_slice]. The calls at core/cu29_unifiedlog/src/lib.rs:91-92 and 111-112. *)
Definition encode_user (h : handle) (o : obj) : outcome (list event * enc_result) :=
  if hd_len h <? MAX_HEADER_SIZE + hd_used h then Panic
  else Ret (encode_into (hd_slab h) (hd_off h + MAX_HEADER_SIZE + hd_used h)
                        (hd_len h - (MAX_HEADER_SIZE + hd_used h)) (o_chunks o) (o_ok o)).

(** [self.current_section.used += nb_bytes as u32] (96, 117). At core/cu29_unifiedlog/src/lib.rs:96 and 117. *)
Definition bump (h : handle) (n : N) : outcome handle :=
  let u := hd_used h + n mod 2 ^ 32 in
  if u <? 2 ^ 32 then Ret (mkHandle (hd_slab h) (hd_off h) (hd_len h) u (hd_hdr h)) else Panic.

(** core/cu29_unifiedlog/src/lib.rs:89-126 [WriteStream::log]; the boolean is [Ok] / [Err]. *)
Definition stream_log (o : obj) (st : stream) (lg : logger) : outcome (stream * logger * bool) :=
  let! (es, r) := encode_user (st_h st) o in
  let lg := emits es lg in
  match r with
  | EncOk n => let! h := bump (st_h st) n in Ret (mkStream (st_type st) h (st_min st), lg, true)
  | EncOther => Ret (st, lg, false)
  | EncEnd =>
      let! lg := flush_section (st_h st) lg in
      let! (lg, h) := add_section (st_type st) (st_min st) lg in
      let! (es, r) := encode_user h o in
      let lg := emits es lg in
      match r with
      | EncOk n => let! h := bump h n in Ret (mkStream (st_type st) h (st_min st), lg, true)
      | _ => Panic
      end
  end.

(** core/cu29_unifiedlog/src/lib.rs:128-133 [Drop for MmapStream]. *)
Definition stream_drop (st : stream) (lg : logger) : outcome logger :=
  flush_section (st_h st) lg.

End Writer.

(** ** Reader *)

(** Result of the reading functions: value, [Err], panic, or loop not finished
    within the fuel. Those of core/cu29_unifiedlog/src/lib.rs:560-684. *)
Inductive rres (A : Type) := ROk (a : A) | RErr | RPanic | RFuel.
Arguments ROk {A} a. Arguments RErr {A}. Arguments RPanic {A}. Arguments RFuel {A}.

(** The ? operator of core/cu29_unifiedlog/src/lib.rs:560-684. *)
Definition rbind {A B} (x : rres A) (f : A -> rres B) : rres B :=
  match x with ROk a => f a | RErr => RErr | RPanic => RPanic | RFuel => RFuel end.
Notation "'let*' x ':=' a 'in' b" := (rbind a (fun x => b))
  (at level 200, x pattern, right associativity).

(** core/cu29_unifiedlog/src/lib.rs:217-224 [UnifiedLoggerRead]: current slab number, its mapping, position. *)
Record reader := mkReader { rd_slab : nat; rd_file : file; rd_pos : N }.

(** core/cu29_unifiedlog/src/lib.rs:560-582 [open_slab_index]: a missing file is an error; an undecodable
    main header panics. *)
Definition open_slab_index (fs : list file) (k : nat) : rres (file * N) :=
  match nth_error fs k with
  | None => RErr
  | Some f =>
      match k with
      | O => match dec_main (slice (f_mem f) 0 (f_len f)) with
             | None => RPanic
             | Some (h, _) =>
                 if list_eq_dec N.eq_dec (mh_magic h) main_magic
                 then ROk (f, mh_first h) else RErr
             end
      | S _ => ROk (f, 0)
      end
  end.

(** core/cu29_unifiedlog/src/lib.rs:585-595 [UnifiedLoggerRead::new]. *)
Definition reader_new (fs : list file) : rres reader :=
  let* (f, p) := open_slab_index fs 0 in ROk (mkReader 0 f p).

(** core/cu29_unifiedlog/src/lib.rs:597-604 [next_slab]. *)
Definition next_slab (fs : list file) (r : reader) : rres reader :=
  let* (f, p) := open_slab_index fs (S (rd_slab r)) in ROk (mkReader (S (rd_slab r)) f p).

(** core/cu29_unifiedlog/src/lib.rs:672-684 [read_section_header]: slicing beyond the mapping and an
    undecodable header panic, a wrong magic number is an error. *)
Definition read_section_header (r : reader) : rres header :=
  if f_len (rd_file r) <? rd_pos r then RPanic
  else match dec_header (slice (f_mem (rd_file r)) (rd_pos r) (f_len (rd_file r) - rd_pos r)) with
       | None => RPanic
       | Some (h, _) => if list_eq_dec N.eq_dec (h_magic h) section_magic then ROk h else RErr
       end.

(** core/cu29_unifiedlog/src/lib.rs:658-670 [read_section_content]. *)
Definition read_section_content (h : header) (r : reader) : rres bytes :=
  let start := rd_pos r + MAX_HEADER_SIZE in
  if f_len (rd_file r) <? start + h_filled h then RPanic
  else ROk (slice (f_mem (rd_file r)) start (h_filled h)).

(** core/cu29_unifiedlog/src/lib.rs:606-642 [read_next_section_type]; one unit of fuel per turn of the loop. *)
Fixpoint read_next (fs : list file) (fuel : nat) (t : logtype) (r : reader)
    : rres (reader * option bytes) :=
  match fuel with
  | O => RFuel
  | S fuel =>
      let* r := if f_len (rd_file r) <=? rd_pos r then next_slab fs r else ROk r in
      let* h := read_section_header r in
      if logtype_eqb (h_type h) TLast then ROk (r, None)
      else
        let r' := mkReader (rd_slab r) (rd_file r) (rd_pos r + h_size h) in
        if logtype_eqb (h_type h) t
        then let* c := read_section_content h r in ROk (r', Some c)
        else read_next fs fuel t r'
  end.

(** ** Read adapter *)

(** core/cu29_unifiedlog/src/lib.rs:687-692 [UnifiedLoggerIOReader]. *)
Record ioreader := mkIO { io_rd : reader; io_buf : bytes; io_pos : N }.

(** core/cu29_unifiedlog/src/lib.rs:720-736 [Read::read] into a buffer of [n] bytes, with 705-717
    [fill_buffer]; the count returned is the length of the result. *)
Definition io_read (fs : list file) (fuel : nat) (t : logtype) (n : N) (io : ioreader)
    : rres (ioreader * bytes) :=
  let copy io :=
    if blen (io_buf io) <=? io_pos io then ROk (io, [])
    else
      let len := N.min n (blen (io_buf io) - io_pos io) in
      ROk (mkIO (io_rd io) (io_buf io) (io_pos io + len),
           firstn (N.to_nat len) (skipn (N.to_nat (io_pos io)) (io_buf io))) in
  if blen (io_buf io) <=? io_pos io
  then
    let* (rd, c) := read_next fs fuel t (io_rd io) in
    match c with
    | None => ROk (mkIO rd (io_buf io) (io_pos io), [])
    | Some b => copy (mkIO rd b 0)
    end
  else copy io.
