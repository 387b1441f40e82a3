(** Model of logging through the C interface: rust/pact_ffi/src/log/ffi.rs, logger.rs, sink.rs, inmem_buffer.rs, status.rs, level_filter.rs
    and lib.rs:52-175 ([pactffi_init], [pactffi_init_with_log_level], [pactffi_log_message]).

    A level is a number: 0 off, 1 error, 2 warn, 3 info, 4 debug, 5 trace. A C string is its bytes (no zero), [None] for NULL.
    What the library itself logs while a call runs is not derived from the code of the call: it is a [Record] of its own. The exceptions are the
    records of [pactffi_log_message], [pactffi_init*] and [pactffi_fetch_log_buffer] about their arguments and results. The calls are made
    outside a task, so these have no identifier. Memory, and a writer that fails, are not modelled. A record is written as a whole. *)
From Coq Require Import Ascii String List Arith NArith ZArith Lia Bool.
From Verif Require Import Base PathExp Json Text.
Import ListNotations.
Open Scope N_scope.

(** sink.rs:19-33. *)
Inductive sink := KOut | KErr | KFile (path : str) | KBuffer.
(** Where a text can be read afterwards; a buffer has an identifier. *)
Inductive target := TOut | TErr | TFile (path : str) | TBuffer (id : str).
Definition target_eqb (a b : target) : bool :=
  match a, b with
  | TOut, TOut | TErr, TErr => true
  | TFile p, TFile q | TBuffer p, TBuffer q => str_eqb p q
  | _, _ => false
  end.
Record record := mkRecord { r_id : option str; r_level : N; r_text : list N }.
(** The global subscriber: writers with their levels; standard output with a level; standard output with a filter of its own. *)
Inductive subscriber := Writers (l : list (sink * N)) | Plain (max : N) | Filtered (directive : str).
Record logs := mkLogs {
  pending : nat -> list (str * N);     (* [LOGGER], by thread *)
  active : option subscriber;
  out : target -> list N;
  clock : nat }.
Definition no_logs : logs := mkLogs (fun _ => []) None (fun _ => []) 0.
Definition with_out (s : logs) (o : target -> list N) : logs := mkLogs (pending s) (active s) o (clock s).
Definition with_active (s : logs) (a : option subscriber) : logs := mkLogs (pending s) a (out s) (clock s).
Definition with_pending (s : logs) (t : nat) (l : list (str * N)) : logs :=
  mkLogs (fun t' => if Nat.eqb t' t then l else pending s t') (active s) (out s) (clock s).
Definition tick (s : logs) : logs := mkLogs (pending s) (active s) (out s) (S (clock s)).

(** What the records the calls make say. *)
Inductive message :=
| MClient (level : N) (source text : str)   (* of [pactffi_log_message] *)
| MNullArgument (name : str) | MNotUtf8 (name : str)
| MFetchFailed.

Section Logging.
Variable w : world.
Variable can_open : nat -> str -> bool.          (* whether the file (and its directory) can be made and opened, at a time *)
Variable render : nat -> message -> list N.      (* the bytes of a record *)
Variable passes : str -> record -> bool.         (* the filter of [pactffi_init] *)

(** ** Records *)
(** inmem_buffer.rs:73-84, and where the other writers write. *)
Definition target_of (k : sink) (id : option str) : target :=
  match k with
  | KOut => TOut | KErr => TErr | KFile p => TFile p
  | KBuffer => TBuffer (match id with Some i => i | None => S_ "global" end)
  end.
Definition append (o : target -> list N) (t : target) (b : list N) : target -> list N := fun t' => if target_eqb t' t then o t' ++ b else o t'.
Definition max_level (l : list (sink * N)) : N := fold_left (fun m kl => N.max m (snd kl)) l 0.
(** [FmtSubscriber] with [with_max_level], and [Tee] of the writers [with_max_level]; logger.rs:86-121: with the level off nothing is written. *)
Definition deliver (s : logs) (r : record) : logs :=
  match active s with
  | None => s
  | Some (Plain max) => if r_level r <=? max then with_out s (append (out s) TOut (r_text r)) else s
  | Some (Filtered d) => if passes d r then with_out s (append (out s) TOut (r_text r)) else s
  | Some (Writers l) =>
      if r_level r <=? max_level l
      then with_out s (fold_left (fun o kl => if r_level r <=? snd kl then append o (target_of (fst kl) (r_id r)) (r_text r) else o) l (out s))
      else s
  end.
Definition deliver_all (s : logs) (rs : list record) : logs := fold_left deliver rs s.
Definition own (s : logs) (level : N) (m : message) : record := mkRecord None level (render (clock s) m).

(** ** Setting up *)
Fixpoint strip (p s : str) : option str :=
  match p, s with
  | [], _ => Some s
  | a :: p', b :: s' => if a =? b then strip p' s' else None
  | _ :: _, [] => None
  end.
(** sink.rs:38-83; the code in the case of an error (status.rs:43-57). [MissingFilePath] needs a text that starts with [file ] and is
    shorter. *)
Definition sink_of (time : nat) (spec : str) : sink + Z :=
  let s := trim w spec in
  if str_eqb s (S_ "stdout") then inl KOut
  else if str_eqb s (S_ "stderr") then inl KErr
  else if str_eqb s (S_ "buffer") then inl KBuffer
  else match strip (S_ "file ") s with
       | None => inr (-4)%Z
       | Some path => if can_open time path then inl (KFile path) else inr (-6)%Z
       end.
(** logger.rs:23-27. *)
Definition logger_init (s : logs) (t : nat) : logs := with_pending s t [].
(** ffi.rs:233-262, logger.rs:30-36. *)
Definition attach_sink (s : logs) (t : nat) (spec : list N) (level : N) : logs * Z :=
  match from_utf8 spec with
  | None => (s, (-3)%Z)
  | Some sp =>
      match sink_of (clock s) sp with
      | inr code => (tick s, code)
      | inl _ => (with_pending (tick s) t (pending s t ++ [(sp, level)]), 0%Z)
      end
  end.
(** logger.rs:77-84: the sinks are made again, in order; [None]: the [unwrap] of one fails. *)
Fixpoint make_writers (time : nat) (l : list (str * N)) : option (list (sink * N)) :=
  match l with
  | [] => Some []
  | (sp, level) :: l' =>
      match sink_of time sp with
      | inl k => option_map (cons (k, level)) (make_writers (S time) l')
      | inr _ => None
      end
  end.
(** [set_global_default]: once. *)
Definition install (s : logs) (a : subscriber) : logs := match active s with Some _ => s | None => with_active s (Some a) end.
(** logger.rs:39-75, ffi.rs:275-283. [None]: a panic, which ends the program as the function is not wrapped. *)
Definition logger_apply (s : logs) (t : nat) : option (logs * Z) :=
  match make_writers (clock s) (pending s t) with
  | None => None
  | Some ws =>
      let a := match ws with [] => Plain 3 | _ => Writers ws end in
      let s1 := Nat.iter (length (pending s t)) tick (with_pending s t []) in
      Some (install s1 a, match active s with Some _ => (-1)%Z | None => 0%Z end)
  end.
(** ffi.rs:19-150: init, attach one sink, apply. *)
Definition log_to (s : logs) (t : nat) (spec : list N) (level : N) : option (logs * Z) :=
  let '(s1, code) := attach_sink (logger_init s t) t spec level in
  if (code =? 0)%Z then logger_apply s1 t else Some (s1, code).

(** ** Names of levels *)
(** [tracing::Level::from_str] and [LevelFilter::from_str]. *)
Definition level_of (s : str) : option N :=
  match parse_usize s with
  | Some n => if (1 <=? n) && (n <=? 5) then Some n else None
  | None =>
      let l := ascii_lower s in
      if str_eqb l (S_ "error") then Some 1 else if str_eqb l (S_ "warn") then Some 2 else if str_eqb l (S_ "info") then Some 3
      else if str_eqb l (S_ "debug") then Some 4 else if str_eqb l (S_ "trace") then Some 5 else None
  end.
Definition level_filter_of (s : str) : option N :=
  match parse_usize s with
  | Some n => if n <=? 5 then Some n else None
  | None => match s with
            | [] => Some 1
            | _ => if str_eqb (ascii_lower s) (S_ "off") then Some 0 else level_of s
            end
  end.
(** lib.rs:158-173 [convert_cstr], with the record of a failure. *)
Definition convert_cstr (s : logs) (name : string) (c : option (list N)) : option str * list record :=
  match c with
  | None => (None, [own s 2 (MNullArgument (S_ name))])
  | Some b => match from_utf8 b with Some t => (Some t, []) | None => (None, [own s 2 (MNotUtf8 (S_ name))]) end
  end.
(** lib.rs:137-144 and 146-156; [to_lowercase] gives "none" only for these four letters. *)
Definition given_level (s : logs) (c : option (list N)) : N * list record :=
  match c with
  | None => (3, [])
  | Some _ => let '(t, rs) := convert_cstr s "log_level" c in
              (match level_of (match t with Some t => t | None => S_ "INFO" end) with Some l => l | None => 3 end, rs)
  end.
Definition given_filter (s : logs) (c : option (list N)) : N * list record :=
  match c with
  | None => (3, [])
  | Some _ => let '(t, rs) := convert_cstr s "log_level" c in
              let t := match t with Some t => t | None => S_ "INFO" end in
              (if str_eqb (ascii_lower t) (S_ "none") then 0 else match level_filter_of t with Some l => l | None => 3 end, rs)
  end.

(** ** The calls *)
Inductive call :=
| Init (t : nat) | Attach (t : nat) (spec : list N) (level : N) | Apply (t : nat)
| ToStdout (t : nat) (level : N) | ToStderr (t : nat) (level : N) | ToBuffer (t : nat) (level : N) | ToFile (t : nat) (name : option (list N)) (level : N)
| InitFromEnv (name : option (list N)) | InitWithLevel (name : option (list N))
| LogMessage (source level text : option (list N))
| Logged (r : record)                      (* the library logs something *)
| Fetch (id : option (list N)).
Inductive reply := RCode (z : Z) | RText (s : option (list N)) | RNone.
(** What was done: the call, its reply and the records it made. *)
Definition from_utf8_or (c : option (list N)) (d : string) : str :=
  match c with Some b => match from_utf8 b with Some t => t | None => S_ d end | None => S_ d end.
(** lib.rs:111-135. *)
Definition message_records (s : logs) (source level text : option (list N)) : list record :=
  let '(target, r1) := convert_cstr s "target" source in
  r1 ++ match text with
        | None => []
        | Some _ =>
            match convert_cstr s "message" text with
            | (None, r2) => r2
            | (Some m, _) => let '(l, r3) := given_level s level in
                             r3 ++ [own s l (MClient l (match target with Some t => t | None => S_ "client" end) m)]
            end
        end.
(** ffi.rs:300-322, inmem_buffer.rs:63-69. *)
Definition fetch (s : logs) (id : option (list N)) : logs * option (list N) * list record :=
  let t := TBuffer (from_utf8_or id "global") in
  let b := out s t in
  let s1 := with_out s (fun t' => if target_eqb t' t then [] else out s t') in
  match from_utf8 b with
  | Some _ => if existsb (N.eqb 0) b then (s1, None, [own s 1 MFetchFailed]) else (s1, Some b, [])
  | None => (s1, None, [own s 1 MFetchFailed])
  end.
Definition coded (o : option (logs * Z)) : option (logs * reply * list record) := option_map (fun sz => (fst sz, RCode (snd sz), [])) o.
Definition step (s : logs) (c : call) : option (logs * reply * list record) :=
  match c with
  | Init t => Some (logger_init s t, RNone, [])
  | Attach t spec level => coded (Some (attach_sink s t spec level))
  | Apply t => coded (logger_apply s t)
  | ToStdout t level => coded (log_to s t (utf8 (S_ "stdout")) level)
  | ToStderr t level => coded (log_to s t (utf8 (S_ "stderr")) level)
  | ToBuffer t level => coded (log_to s t (utf8 (S_ "buffer")) level)
  | ToFile t name level =>
      coded match name with
            | None => Some (logger_init s t, (-7)%Z)
            | Some b => match from_utf8 b with
                        | None => Some (logger_init s t, (-7)%Z)
                        | Some f => log_to s t (utf8 (S_ "file " ++ f)) level
                        end
            end
  | InitFromEnv name =>
      let rs := match name with
                | Some b => match from_utf8 b with Some _ => [] | None => [own s 2 (MNotUtf8 (S_ "variable"))] end
                | None => []
                end in
      Some (install (deliver_all s rs) (Filtered (from_utf8_or name "LOG_LEVEL")), RNone, rs)
  | InitWithLevel name => let '(l, rs) := given_filter s name in Some (install (deliver_all s rs) (Plain l), RNone, rs)
  | LogMessage source level text => let rs := message_records s source level text in Some (deliver_all s rs, RNone, rs)
  | Logged r => Some (deliver s r, RNone, [r])
  | Fetch id => let '(s1, text, rs) := fetch s id in Some (deliver_all s1 rs, RText text, rs)
  end.
(** A history, with what it gave; it may end in a panic. *)
Definition trace := list (call * reply * list record).
Inductive runs : logs -> trace -> logs -> Prop :=
| runs_none : forall s, runs s [] s
| runs_one : forall s c s1 r rs tr s2, step (tick s) c = Some (s1, r, rs) -> runs s1 tr s2 -> runs s ((c, r, rs) :: tr) s2.
End Logging.
