(** What logging through the C interface does, for C124: which sinks a history has attached, and what a record writes where. *)
From Coq Require Import Ascii String List Arith NArith ZArith Lia Bool.
From Verif Require Import Base PathExp Json Text SpecCliArgs Logging.
Import ListNotations.
Open Scope N_scope.

Section Spec.
Variable w : world.

(** ** Sinks *)
Definition white (s : str) : Prop := Forall (fun c => is_space w c = true) s.
(** [core] with white space around it *)
Definition padded (core t : str) : Prop := exists p q, t = p ++ core ++ q /\ white p /\ white q.
Inductive names_sink (t : str) : sink -> Prop :=
| ns_out : padded (S_ "stdout") t -> names_sink t KOut
| ns_err : padded (S_ "stderr") t -> names_sink t KErr
| ns_buffer : padded (S_ "buffer") t -> names_sink t KBuffer
| ns_file : forall path c, is_space w c = false -> padded (S_ "file " ++ path ++ [c]) t -> names_sink t (KFile (path ++ [c])).
(** A specification in bytes *)
Definition denotes (spec : list N) (k : sink) : Prop := exists t, from_utf8 spec = Some t /\ names_sink t k.

(** The calls after which a thread has no sinks attached *)
Definition clears (t : nat) (c : call) : Prop :=
  match c with
  | Init t' | Apply t' | ToStdout t' _ | ToStderr t' _ | ToBuffer t' _ | ToFile t' _ _ => t' = t
  | _ => False
  end.
(** The sinks attached in the thread [t] by a history, and not yet applied. *)
Inductive attached (t : nat) : trace -> list (sink * N) -> Prop :=
| at_none : attached t [] []
| at_clear : forall tr c r rs, clears t c -> attached t (tr ++ [(c, r, rs)]) []
| at_more : forall tr l spec k level rs, attached t tr l -> denotes spec k -> attached t (tr ++ [(Attach t spec level, RCode 0, rs)]) (l ++ [(k, level)])
| at_same : forall tr l c r rs, attached t tr l -> ~ clears t c -> (forall spec level, c = Attach t spec level -> r <> RCode 0) ->
    attached t (tr ++ [(c, r, rs)]) l.

(** ** Records *)
Definition writes_to (k : sink) (r : record) (x : target) : Prop :=
  match k with
  | KOut => x = TOut
  | KErr => x = TErr
  | KFile p => x = TFile p
  | KBuffer => (exists id, r_id r = Some id /\ x = TBuffer id) \/ (r_id r = None /\ x = TBuffer (S_ "global"))
  end.
(** What [r] writes at [x]: its text for every sink that writes there and has its level or a higher one. *)
Inductive copied (x : target) (r : record) : list (sink * N) -> list N -> Prop :=
| cp_none : copied x r [] []
| cp_yes : forall k level l b, writes_to k r x -> r_level r <= level -> copied x r l b -> copied x r ((k, level) :: l) (r_text r ++ b)
| cp_no : forall k level l b, ~ (writes_to k r x /\ r_level r <= level) -> copied x r l b -> copied x r ((k, level) :: l) b.
Inductive written (x : target) (l : list (sink * N)) : list record -> list N -> Prop :=
| wr_none : written x l [] []
| wr_one : forall r rs b b', copied x r l b -> written x l rs b' -> written x l (r :: rs) (b ++ b').
Definition records (tr : trace) : list record := flat_map snd tr.
(** Without a sink: standard output, from the level info. *)
Definition or_default (l : list (sink * N)) : list (sink * N) := match l with [] => [(KOut, 3)] | _ => l end.

(** A buffer *)
Definition names_buffer (c : option (list N)) (id : str) : Prop :=
  (exists b, c = Some b /\ from_utf8 b = Some id) \/ ((c = None \/ exists b, c = Some b /\ from_utf8 b = None) /\ id = S_ "global").
(** A text that C can have: UTF-8 without a zero. *)
Definition c_text (b : list N) : Prop := (exists t, from_utf8 b = Some t) /\ ~ In 0 b.
(** What the fetches of the buffer [id] have taken out of it: the texts that were returned, and what is lost where NULL was. *)
Inductive taken (id : str) : trace -> list N -> Prop :=
| tk_none : taken id [] []
| tk_text : forall c b rs tr b', names_buffer c id -> c_text b -> taken id tr b' -> taken id ((Fetch c, RText (Some b), rs) :: tr) (b ++ b')
| tk_lost : forall c b rs tr b', names_buffer c id -> ~ c_text b -> taken id tr b' -> taken id ((Fetch c, RText None, rs) :: tr) (b ++ b')
| tk_other : forall c r rs tr b', (forall i, c = Fetch i -> ~ names_buffer i id) -> taken id tr b' -> taken id ((c, r, rs) :: tr) b'.

(** ** Names of levels *)
Definition same_letters (a b : str) : Prop := ascii_lower a = ascii_lower b.
Definition level_names : list (str * N) := [(S_ "ERROR", 1); (S_ "WARN", 2); (S_ "INFO", 3); (S_ "DEBUG", 4); (S_ "TRACE", 5)].
Definition names_level (s : str) (n : N) : Prop :=
  (exists name, In (name, n) level_names /\ same_letters s name) \/ (a_number (2 ^ 64) s n /\ 1 <= n <= 5).
Definition names_filter (s : str) (n : N) : Prop :=
  names_level s n \/ (n = 0 /\ (same_letters s (S_ "NONE") \/ same_letters s (S_ "OFF") \/ a_number (2 ^ 64) s 0)) \/ (n = 1 /\ s = []).
(** A level that is given: the one named, or info. *)
Definition level_given (names : str -> N -> Prop) (c : option (list N)) (n : N) : Prop :=
  (exists b s, c = Some b /\ from_utf8 b = Some s /\ names s n) \/
  ((forall b s m, c = Some b -> from_utf8 b = Some s -> ~ names s m) /\ n = 3).

(** ** Setting up *)
(** The calls that can start the logging, and those of them that did. *)
Definition is_apply (c : call) : Prop := match c with Apply _ | ToStdout _ _ | ToStderr _ _ | ToBuffer _ _ | ToFile _ _ _ => True | _ => False end.
Definition is_init (c : call) : Prop := match c with InitFromEnv _ | InitWithLevel _ => True | _ => False end.
Definition installs (i : call * reply * list record) : Prop := is_init (fst (fst i)) \/ (is_apply (fst (fst i)) /\ snd (fst i) = RCode 0).
(** The sinks such a call starts with after the history [tr]. *)
Inductive sets_up (tr : trace) : call -> list (sink * N) -> Prop :=
| su_apply : forall t l, attached t tr l -> sets_up tr (Apply t) (or_default l)
| su_out : forall t level, sets_up tr (ToStdout t level) [(KOut, level)]
| su_err : forall t level, sets_up tr (ToStderr t level) [(KErr, level)]
| su_buffer : forall t level, sets_up tr (ToBuffer t level) [(KBuffer, level)]
| su_file : forall t b f level p, from_utf8 b = Some f -> names_sink (S_ "file " ++ f) (KFile p) -> sets_up tr (ToFile t (Some b) level) [(KFile p, level)]
| su_level : forall name n, level_given names_filter name n -> sets_up tr (InitWithLevel name) [(KOut, n)].
(** The record that a message makes. *)
Definition says (source level text : option (list N)) (m : message) (n : N) : Prop :=
  exists b t target, text = Some b /\ from_utf8 b = Some t /\ m = MClient n target t /\ level_given names_level level n /\
    ((exists c, source = Some c /\ from_utf8 c = Some target) \/ ((source = None \/ exists c, source = Some c /\ from_utf8 c = None) /\ target = S_ "client")).
End Spec.
