(** Text logging: the macro that builds log entries, the formatting of log lines, the
    interning of strings and the text export. A text (str, String) is the list of its
    code points. *)
From Coq Require Import String Ascii List Arith NArith ZArith Bool DecimalN.
From Verif Require Import Base BincodeModel CodecModel ValueModel.
Import ListNotations.
Local Open Scope list_scope.
Local Open Scope N_scope.

(** str and String, core/cu29_log/src/lib.rs:119-124. *)
Definition txt := list N.
(** A string literal of the code, such as those of core/cu29_value/src/lib.rs:48-103. *)
Definition lit (s : string) : txt := map N_of_ascii (list_ascii_of_string s).

(** What is not modelled of formatting, as arbitrary functions: std's Display of f32,
    f64 (by their bits), CuDuration's Display (core/cu29_clock/src/lib.rs:188-207, which
    prints an f64), and the strfmt crate called at core/cu29_log/src/lib.rs:135 with the
    map of named parameters; [None] is its error. *)
Record formats := Formats {
  show_f32 : N -> txt; show_f64 : N -> txt; show_time : N -> txt;
  strfmt : txt -> (txt -> option txt) -> option txt }.

(** core/cu29_log/src/lib.rs:120-143 and core/cu29_log_derive/src/index.rs:76: equality of
    strings as keys. *)
Definition txt_eqb (a b : txt) : bool := if list_eq_dec N.eq_dec a b then true else false.
(** core/cu29_log/src/lib.rs:149 and core/cu29_log_derive/src/index.rs:76: a HashMap (or a store) as the list of its insertions, the last one first. *)
Fixpoint lookup {A} (l : list (txt * A)) (k : txt) : option A :=
  match l with
  | [] => None
  | (k', v) :: l => if txt_eqb k k' then Some v else lookup l k
  end.

(** std's str::replacen("{}", p, 1), as called at core/cu29_log/src/lib.rs:128. *)
Fixpoint replace_first (p s : txt) : txt :=
  match s with
  | a :: t => match t with
              | b :: r => if (a =? 123) && (b =? 125) then p ++ r else a :: replace_first p t
              | [] => s
              end
  | [] => s
  end.

(** core/cu29_log/src/lib.rs:119-143 (format_logline); [None] is Err. *)
Definition format_logline (X : formats) (time : N) (fmt : txt) (params : list txt)
    (named : list (txt * txt)) : option txt :=
  let fmt := fold_left (fun f p => replace_first p f) params fmt in
  match named with
  | [] => Some fmt
  | _ => match strfmt X fmt (lookup named) with
         | None => None
         | Some line => Some (show_time X time ++ lit ": " ++ line)
         end
  end.

(** Decimal digits (std Display of integers, core/cu29_value/src/lib.rs:52-59). *)
Fixpoint digits (u : Decimal.uint) : txt :=
  match u with
  | Decimal.Nil => []
  | Decimal.D0 u => 48 :: digits u | Decimal.D1 u => 49 :: digits u
  | Decimal.D2 u => 50 :: digits u | Decimal.D3 u => 51 :: digits u
  | Decimal.D4 u => 52 :: digits u | Decimal.D5 u => 53 :: digits u
  | Decimal.D6 u => 54 :: digits u | Decimal.D7 u => 55 :: digits u
  | Decimal.D8 u => 56 :: digits u | Decimal.D9 u => 57 :: digits u
  end.
(** core/cu29_value/src/lib.rs:52-55, unsigned. *)
Definition show_N (n : N) : txt := digits (N.to_uint n).
(** core/cu29_value/src/lib.rs:56-59, signed. *)
Definition show_Z (z : Z) : txt := if (z <? 0)%Z then 45 :: show_N (Z.abs_N z) else show_N (Z.abs_N z).
(** [{:02x}] of a byte (core/cu29_value/src/lib.rs:96). *)
Definition hex_digit (d : N) : N := if d <? 10 then 48 + d else 87 + d.
(** [{:02x}] of a byte (core/cu29_value/src/lib.rs:96). *)
Definition show_hex (b : N) : txt := [hex_digit (b / 16); hex_digit (b mod 16)].
(** The separators written between elements at core/cu29_value/src/lib.rs:73-75, 83-85, 93-95. *)
Fixpoint join (sep : txt) (l : list txt) : txt :=
  match l with
  | [] => []
  | x :: r => match r with [] => x | _ => x ++ sep ++ join sep r end
  end.

(** core/cu29_value/src/lib.rs:48-103 (Display for Value). *)
Fixpoint show (X : formats) (v : value) : txt :=
  match v with
  | VBool b => if b then lit "true" else lit "false"
  | VU8 n | VU16 n | VU32 n | VU64 n => show_N n
  | VI8 z | VI16 z | VI32 z | VI64 z => show_Z z
  | VF32 b => show_f32 X b
  | VF64 b => show_f64 X b
  | VChar c => [c]
  | VString s => s
  | VUnit => lit "()"
  | VOption None => lit "None"
  | VOption (Some v) => lit "Some(" ++ show X v ++ lit ")"
  | VNewtype v => show X v
  | VSeq l => lit "[" ++ join (lit ", ") (map (show X) l) ++ lit "]"
  | VMap m => lit "{" ++ join (lit ", ") (map (fun e => show X (fst e) ++ lit ": " ++ show X (snd e)) m) ++ lit "}"
  | VBytes b => lit "[" ++ join (lit " ") (map show_hex b) ++ lit "]"
  | VCuTime t => show_time X t
  end.

(** The loop of core/cu29_log/src/lib.rs:152-162: unnamed parameters in order and
    named ones, the last one first. Indexing beyond a vector panics. *)
Fixpoint sort_params (X : formats) (strings : list txt) (names : list N) (params : list value)
    : outcome (list txt * list (txt * txt)) :=
  match params with
  | [] => Ret ([], [])
  | v :: params =>
      match names with
      | [] => Panic
      | n :: names =>
          if n =? 0 then
            let! (anon, named) := sort_params X strings names params in Ret (show X v :: anon, named)
          else match nth_error strings (N.to_nat n) with
               | None => Panic
               | Some name =>
                   let! (anon, named) := sort_params X strings names params in
                   Ret (anon, named ++ [(name, show X v)])
               end
      end
  end.
(** core/cu29_log/src/lib.rs:147-164 (rebuild_logline). *)
Definition rebuild_logline (X : formats) (strings : list txt) (e : log_entry) : outcome (option txt) :=
  match nth_error strings (N.to_nat (le_msg e)) with
  | None => Panic
  | Some fmt =>
      let! (anon, named) := sort_params X strings (le_names e) (le_params e) in
      Ret (format_logline X (le_time e) fmt anon named)
  end.

(** What textlog_dump prints (core/cu29_export/src/lib.rs:139-145): a line, or the notice that a line cannot be rebuilt. *)
Inductive printed := Line (l : txt) | Failure.
(** core/cu29_export/src/lib.rs:116-150 (textlog_dump) on the bytes its source
    delivers: what it prints, and whether it panicked. What the function returns at the
    end of the data is not modelled. One unit of fuel per entry. *)
Fixpoint textlog (X : formats) (strings : list txt) (fuel : nat) (b : bytes) : list printed * bool :=
  match fuel with
  | O => ([], false)
  | S fuel =>
      match dec_entry b with
      | None => ([], false)
      | Some (e, b) =>
          if le_msg e =? 0 then ([], false)
          else match rebuild_logline X strings e with
               | Panic => ([], true)
               | Ret None => let (l, p) := textlog X strings fuel b in (Failure :: l, p)
               | Ret (Some line) => let (l, p) := textlog X strings fuel b in
                                    (Line (show_time X (le_time e) ++ lit ": " ++ line) :: l, p)
               end
      end
  end.
(** The same with enough fuel (core/cu29_export/src/lib.rs:116-150): an entry takes at least a byte. *)
Definition textlog_dump (X : formats) (strings : list txt) (b : bytes) : list printed * bool :=
  textlog X strings (S (length b)) b.

(** ** The debug! macro *)
(** core/cu29_log_derive/src/lib.rs:54-82, the arguments after the format string: an expression, or [name = expression]; here
    with the value that to_value gives. *)
Inductive arg := Unnamed (v : value) | Named (name : txt) (v : value).
(** core/cu29_log_derive/src/lib.rs:54-64, the two lists. *)
Definition unnamed_of (args : list arg) : list value :=
  flat_map (fun a => match a with Unnamed v => [v] | _ => [] end) args.
(** core/cu29_log_derive/src/lib.rs:54-64, the named ones. *)
Definition named_of (args : list arg) : list (txt * value) :=
  flat_map (fun a => match a with Named n v => [(n, v)] | _ => [] end) args.

(** core/cu29_log_derive/src/lib.rs:34-121 (debug!), the entry given to log, whose time
    is then the clock's (core/cu29_log_runtime/src/lib.rs:114); [intern] is the index
    the macro gets for a string. add_param is core/cu29_log/src/lib.rs:111-114,
    ANONYMOUS is 0 (core/cu29_log/src/lib.rs:16). *)
Definition debug_entry (intern : txt -> N) (time : N) (fmt : txt) (args : list arg) : log_entry :=
  LogEntry time (intern fmt)
    (map (fun _ => 0) (unnamed_of args) ++ map (fun p => intern (fst p)) (named_of args))
    (unnamed_of args ++ map snd (named_of args)).

(** core/cu29_log_runtime/src/lib.rs:131-169 (log_debug_mode): the console line. The
    map collects pairs in order, the last one wins. *)
Definition console_line (X : formats) (e : log_entry) (fmt : txt) (param_names : list txt) : option txt :=
  let params := map (show X) (le_params e) in
  format_logline X (le_time e) fmt params (rev (combine param_names params)).
(** The call generated by debug! in debug builds, core/cu29_log_derive/src/lib.rs:86-99. *)
Definition debug_console (X : formats) (intern : txt -> N) (time : N) (fmt : txt) (args : list arg) : option txt :=
  console_line X (debug_entry intern time fmt args) fmt (map fst (named_of args)).

(** ** Interned strings *)
(** The stores of core/cu29_log_derive/src/index.rs:46-66 (LMDB): the counter,
    string_to_index and index_to_string. [storable]: LMDB accepts the string as a key. *)
Record stores := Stores { counter : N; s2i : list (txt * N); i2s : list (N * txt) }.
(** The stores when created (core/cu29_log_derive/src/index.rs:46-66). *)
Definition no_strings : stores := Stores 0 [] [].

(** core/cu29_log_derive/src/index.rs:70-82, the lookup in a read transaction. *)
Definition intern_lookup (st : stores) (s : txt) : option N := lookup (s2i st) s.

(** core/cu29_log_derive/src/index.rs:83-93 and 109-121, one write transaction; nothing is stored on a panic. *)
Definition intern_insert (storable : txt -> bool) (mode : ovf_mode) (st : stores) (s : txt) : outcome (stores * N) :=
  let! n := if counter st + 1 <? 2 ^ 32 then Ret (counter st + 1)
            else match mode with Checked => Panic | Wrapping => Ret 0 end in
  if storable s
  then Ret (Stores n ((s, n) :: s2i st) ((n, s) :: filter (fun e => negb (fst e =? n)) (i2s st)), n)
  else Panic.

(** core/cu29_log_derive/src/index.rs:67-101 (intern_string), alone. *)
Definition intern_string (storable : txt -> bool) (mode : ovf_mode) (st : stores) (s : txt) : outcome (stores * N) :=
  match intern_lookup st s with
  | Some i => Ret (st, i)
  | None => intern_insert storable mode st s
  end.

(** core/cu29_intern_strs/src/lib.rs:22-34, one turn of the loop. *)
Definition put_string (all : list txt) (e : N * txt) : list txt :=
  let i := N.to_nat (fst e) in
  let all := if Nat.leb (length all) i then all ++ repeat [] (i + 1 - length all) else all in
  upd i (snd e) all.
(** core/cu29_intern_strs/src/lib.rs:10-36 (read_interned_strings); the order of the
    entries is that of the store. *)
Definition read_interned_strings (entries : list (N * txt)) : list txt := fold_left put_string entries [].
