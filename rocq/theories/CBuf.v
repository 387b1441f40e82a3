(** Model of the parts of the C interface that hand text to the caller:
    rust/pact_ffi/src/util/write.rs (writing a string to a buffer of the caller),
    rust/pact_ffi/src/error (the last error message of a thread) and
    rust/pact_ffi/src/log/inmem_buffer.rs (the log buffers).
    Strings are given as their bytes. *)
From Coq Require Import Ascii String List Arith NArith ZArith Bool.
From Verif Require Import Base.
Import ListNotations.

Definition bytes := list N.

(** ** util/write.rs *)
Inductive write_error := DstTooShort | InteriorNul.
Definition has_nul (b : bytes) : bool := existsb (N.eqb 0) b.
(** [Write::write] of [&mut [u8]] (the standard library): copies as much as fits and moves
    the slice to what follows the copy; gives the number of bytes, the bytes written and
    the slice as it is then. *)
Definition slice_write (dst buf : bytes) : nat * bytes * bytes :=
  let n := Nat.min (length buf) (length dst) in (n, firstn n buf, skipn n dst).
(** util/write.rs:69-79 [zeroized_write]. [get_mut(buf.len()..)] is of the slice after the
    write, [None] if it starts beyond the end. The buffer is what was written and what follows. *)
Definition zeroized_write (dst buf : bytes) : nat * bytes :=
  let '(n, written, rest) := slice_write dst buf in
  let rest' := if (length buf <=? length rest)%nat
               then firstn (length buf) rest ++ repeat 0%N (length rest - length buf)
               else rest in
  (n, written ++ rest').
(** util/write.rs:14-29 [write_to_c_buf]: the result and the buffer afterwards. *)
Definition write_to_c_buf (src dst : bytes) : outcome nat write_error * bytes :=
  if has_nul src then (Err InteriorNul, dst)
  else
    let src' := src ++ [0%N] in
    (* util/write.rs:48-58 [check_len] *)
    if (length dst <? length src')%nat then (Err DstTooShort, dst)
    else let '(n, dst') := zeroized_write dst src' in (Ok n, dst').

(** ** error/last_error.rs and error/ffi.rs *)
(** The thread local LAST_ERROR (last_error.rs:10-14) of every thread. *)
Definition last_errors := nat -> option bytes.
Definition upd {A} (f : nat -> A) (t : nat) (v : A) : nat -> A := fun u => if Nat.eqb u t then v else f u.
(** last_error.rs:18-22 [set_error_msg]. *)
Definition set_error_msg (s : last_errors) (t : nat) (e : bytes) : last_errors := upd s t (Some e).
(** error/status.rs:9-31. *)
Definition status_of (e : write_error) : Z :=
  match e with DstTooShort => (-2)%Z | InteriorNul => (-4)%Z end.
(** error/ffi.rs:46-70 [pactffi_get_error_message]; the buffer is [None] for a null pointer,
    otherwise as long as the length given. [get_error_msg] (last_error.rs:26-28) takes the message. *)
Definition get_error_message (s : last_errors) (t : nat) (buffer : option bytes) : Z * option bytes * last_errors :=
  match buffer with
  | None => ((-1)%Z, None, s)
  | Some dst =>
      let last := match s t with Some e => e | None => [] end in
      let s' := upd s t None in
      match write_to_c_buf last dst with
      | (Ok n, dst') => (Z.of_nat n, Some dst', s')
      | (Err e, dst') => (status_of e, Some dst', s')
      | (Panic, dst') => (0%Z, Some dst', s')
      end
  end.

(** The calls that set and fetch messages. *)
Inductive error_call := SetError (t : nat) (e : bytes) | GetError (t : nat) (buffer : option bytes).
Definition error_step (s : last_errors) (c : error_call) : last_errors :=
  match c with
  | SetError t e => set_error_msg s t e
  | GetError t b => snd (get_error_message s t b)
  end.
(** The messages after a history of calls. *)
Definition errors_after (h : list error_call) : last_errors := fold_left error_step h (fun _ => None).

(** ** log/inmem_buffer.rs *)
(** inmem_buffer.rs:48 LOG_BUFFER: the buffer of every id; an entry that does not exist yet is
    made empty. *)
Definition log_buffers := str -> bytes.
Definition upd_log (s : log_buffers) (id : str) (b : bytes) : log_buffers :=
  fun i => if str_eqb i id then b else s i.
Definition GLOBAL : str := S_ "global".
(** inmem_buffer.rs:68-76 [write_to_log_buffer]; [id] is the LOG_ID of the task, if there is one. *)
Definition write_to_log_buffer (s : log_buffers) (id : option str) (b : bytes) : log_buffers :=
  let i := match id with Some i => i | None => GLOBAL end in upd_log s i (s i ++ b).
(** inmem_buffer.rs:59-64 [fetch_buffer_contents]. *)
Definition fetch_buffer_contents (s : log_buffers) (id : str) : bytes * log_buffers := (s id, upd_log s id []).
(** The calls; each holds the lock of LOG_BUFFER, so that they happen one after the other. *)
Inductive log_call := LogWrite (id : option str) (b : bytes) | LogFetch (id : str).
(** What each call gives (nothing for a write) and the buffers afterwards. *)
Fixpoint log_run (s : log_buffers) (h : list log_call) : list bytes * log_buffers :=
  match h with
  | [] => ([], s)
  | LogWrite id b :: h' => let '(out, s') := log_run (write_to_log_buffer s id b) h' in ([] :: out, s')
  | LogFetch id :: h' =>
      let '(got, s1) := fetch_buffer_contents s id in
      let '(out, s') := log_run s1 h' in (got :: out, s')
  end.
