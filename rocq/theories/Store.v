(** Model of threads and processes that read and write one pact file:
    rust/pact_models/src/pact.rs [write_pact], [read_pact_from_file], [read_pact] and
    rust/pact_models/src/file_utils.rs. Each system call is one step, and the steps of all
    threads interleave in any order. The lock of a file is an flock of an open file; the
    file is never deleted or renamed by anyone, and no system call fails except for want of a lock. *)
From Coq Require Import List Arith NArith Lia Bool.
Import ListNotations.

Definition bytes := list N.
Definition tid := nat.

(** What a thread does. [Merge fresh upd] is [write_pact] with [overwrite = false]: [fresh]
    is the text it writes if there is no file; [upd] maps the contents of an existing file
    to the merged text, [None] if they cannot be parsed, merged or serialised.
    [Overwrite text] is [write_pact] with [overwrite = true]. [Reader] is [read_pact]. *)
Inductive job := Merge (fresh : bytes) (upd : bytes -> option bytes) | Overwrite (text : bytes) | Reader.

(** Where a thread is. *)
Inductive pc :=
  | Idle
  | InMutex                                   (* pact.rs:227 holds WRITE_LOCK *)
  | AskShared (n : nat)                       (* file_utils.rs:16-45 with n attempts left *)
  | Shared                                    (* has the shared lock *)
  | Read (b : bytes)                          (* has read the file, still has the lock *)
  | Merging (b : bytes)                       (* pact.rs:230-237, no lock on the file *)
  | AskExcl (n : nat) (new : bytes) (pos : nat) (trunc : bool) (* file_utils.rs:60-92 *)
  | Excl (new : bytes) (pos : nat) (trunc : bool) (* has the exclusive lock *)
  | Truncated (new : bytes) (pos : nat)       (* after set_len(0), before seek *)
  | Writing (new : bytes) (pos k : nat)       (* k bytes of the text are written *)
  | Leave (ok : bool)                         (* lock on the file released, WRITE_LOCK held *)
  | Done (ok : bool)
  | Got (b : bytes).                          (* a reader's result *)

Record sys := mkSys {
  file : option bytes;
  shared : list tid;            (* who holds the shared lock *)
  excl : option tid;            (* who holds the exclusive lock *)
  mutex : nat -> option tid;    (* WRITE_LOCK of each process *)
  at_ : tid -> pc }.

Definition set {A} (f : nat -> A) (i : nat) (v : A) : nat -> A := fun j => if Nat.eqb j i then v else f j.
Definition drop_tid (t : tid) (l : list tid) : list tid := filter (fun u => negb (Nat.eqb u t)) l.

(** [write] at a position: POSIX semantics, a gap is filled with zero bytes. *)
Definition write_at (f : bytes) (pos : nat) (chunk : bytes) : bytes :=
  firstn pos (f ++ repeat 0%N (pos - length f)) ++ chunk ++ skipn (pos + length chunk) f.

Definition move (s : sys) (t : tid) (p : pc) : sys := mkSys (file s) (shared s) (excl s) (mutex s) (set (at_ s) t p).
Definition with_file (s : sys) (f : bytes) : sys := mkSys (Some f) (shared s) (excl s) (mutex s) (at_ s).
Definition with_shared (s : sys) (l : list tid) : sys := mkSys (file s) l (excl s) (mutex s) (at_ s).
Definition with_excl (s : sys) (e : option tid) : sys := mkSys (file s) (shared s) e (mutex s) (at_ s).
Definition with_mutex (s : sys) (p : nat) (e : option tid) : sys := mkSys (file s) (shared s) (excl s) (set (mutex s) p e) (at_ s).

Definition is_reader (j : job) : bool := match j with Reader => true | _ => false end.

Section Steps.
Variable jobs : tid -> job.
Variable proc : tid -> nat.   (* the process a thread belongs to *)

Inductive step (s : sys) (t : tid) : sys -> Prop :=
  (* pact.rs:225 WRITE_LOCK.lock() *)
  | s_lock : at_ s t = Idle -> is_reader (jobs t) = false -> mutex s (proc t) = None ->
      step s t (with_mutex (move s t InMutex) (proc t) (Some t))
  (* pact.rs:138-141 File::open of a reader *)
  | s_open : forall b, at_ s t = Idle -> jobs t = Reader -> file s = Some b -> step s t (move s t (AskShared 3))
  | s_missing : at_ s t = Idle -> jobs t = Reader -> file s = None -> step s t (move s t (Done false))
  (* pact.rs:226-228 path.exists(), OpenOptions::open *)
  | s_exists : forall b fresh upd, at_ s t = InMutex -> jobs t = Merge fresh upd -> file s = Some b ->
      step s t (move s t (AskShared 3))
  (* pact.rs:246-248 File::create truncates or creates *)
  | s_create : forall fresh upd, at_ s t = InMutex -> jobs t = Merge fresh upd -> file s = None ->
      step s t (with_file (move s t (AskExcl 3 fresh 0 false)) [])
  | s_overwrite : forall text, at_ s t = InMutex -> jobs t = Overwrite text ->
      step s t (with_file (move s t (AskExcl 3 text 0 false)) [])
  (* file_utils.rs:23-41 try_lock_shared *)
  | s_shared : forall n, at_ s t = AskShared (S n) -> excl s = None ->
      step s t (with_shared (move s t Shared) (t :: shared s))
  | s_shared_busy : forall n u, at_ s t = AskShared (S n) -> excl s = Some u -> step s t (move s t (AskShared n))
  | s_shared_fail : at_ s t = AskShared 0 ->
      step s t (move s t (if is_reader (jobs t) then Done false else Leave false))
  (* pact.rs:146-150 read_to_string *)
  | s_read : forall b, at_ s t = Shared -> file s = Some b -> step s t (move s t (Read b))
  (* file_utils.rs:29 unlock *)
  | s_unshare : forall b, at_ s t = Read b ->
      step s t (with_shared (move s t (if is_reader (jobs t) then Got b else Merging b)) (drop_tid t (shared s)))
  (* pact.rs:151-159, 230-237 *)
  | s_merge : forall b fresh upd new, at_ s t = Merging b -> jobs t = Merge fresh upd -> upd b = Some new ->
      step s t (move s t (AskExcl 3 new (length b) true))
  | s_merge_fail : forall b fresh upd, at_ s t = Merging b -> jobs t = Merge fresh upd -> upd b = None ->
      step s t (move s t (Leave false))
  (* file_utils.rs:68-87 try_lock_exclusive *)
  | s_excl : forall n new pos tr, at_ s t = AskExcl (S n) new pos tr -> excl s = None -> shared s = [] ->
      step s t (with_excl (move s t (Excl new pos tr)) (Some t))
  | s_excl_busy : forall n new pos tr, at_ s t = AskExcl (S n) new pos tr -> (excl s <> None \/ shared s <> []) ->
      step s t (move s t (AskExcl n new pos tr))
  | s_excl_fail : forall new pos tr, at_ s t = AskExcl 0 new pos tr -> step s t (move s t (Leave false))
  (* pact.rs:240 set_len(0); pact.rs:250 has no truncation *)
  | s_truncate : forall new pos, at_ s t = Excl new pos true ->
      step s t (with_file (move s t (Truncated new pos)) [])
  | s_no_truncate : forall new pos, at_ s t = Excl new pos false -> step s t (move s t (Writing new pos 0))
  (* pact.rs:241 seek *)
  | s_seek : forall new pos, at_ s t = Truncated new pos -> step s t (move s t (Writing new 0 0))
  (* pact.rs:242, 251 write_all: one write of some bytes *)
  | s_write : forall new pos k c b, at_ s t = Writing new pos k -> (0 < c)%nat -> (k + c <= length new)%nat ->
      file s = Some b ->
      step s t (with_file (move s t (Writing new (pos + c) (k + c))) (write_at b pos (firstn c (skipn k new))))
  (* file_utils.rs:75 unlock *)
  | s_unexcl : forall new pos, at_ s t = Writing new pos (length new) ->
      step s t (with_excl (move s t (Leave true)) None)
  (* the end of write_pact drops the guard of WRITE_LOCK *)
  | s_leave : forall ok, at_ s t = Leave ok -> step s t (with_mutex (move s t (Done ok)) (proc t) None).

Inductive reachable (s0 : sys) : sys -> Prop :=
  | r_start : reachable s0 s0
  | r_step : forall s t s', reachable s0 s -> step s t s' -> reachable s0 s'.
End Steps.

(** Nobody has started. *)
Definition start (f : option bytes) : sys := mkSys f [] None (fun _ => None) (fun _ => Idle).
