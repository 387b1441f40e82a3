(** Model of the calls of the C interface that look at an interaction and set its contents:
    rust/pact_ffi/src/models/contents.rs:48-181, http_interaction.rs:77-500, async_message.rs:117-360, sync_message.rs:63-640 and
    message.rs:111-530 (the contents, the description, the provider states and the metadata), provider_state.rs:23-35, and the
    iterators of matching_rules.rs:90-200, generators.rs:172-290, message.rs:416-700, provider_state.rs:49-175 and
    iterators.rs:150-340; util/string.rs:15-60 and util/ptr.rs.

    A pointer from C is [None] for NULL and otherwise what it points to. A call that fails gives the value of the second block of
    [ffi_fn!] (NULL, 0, 1) and sets the last error (C60); here that is [Failed]. Memory (who frees what, pointers that outlive what they
    point to) is not modelled; the counter of an iterator does not overflow. *)
From Coq Require Import Ascii String List Arith NArith ZArith Lia Bool.
From Verif Require Import Base PathExp Json Text MatchingRules Matchers Headers ContentType Http Expr Generators RuleExpr Merge Handles.
Import ListNotations.
Open Scope N_scope.

(** What a call that returns a pointer gives: NULL, a value, or NULL and a last error. *)
Inductive answer (A : Type) := Null | Gave (a : A) | Failed.
Arguments Null {A}. Arguments Gave {A} a. Arguments Failed {A}.
Definition a_bind {A B} (r : answer A) (f : A -> answer B) : answer B :=
  match r with Null => Null | Gave a => f a | Failed => Failed end.

(** util/string.rs:15-17 [to_c]: a text with a NUL character has no C string. *)
Definition to_c (s : str) : answer (list N) := if existsb (fun c => c =? 0) s then Failed else Gave (utf8 s).

Section Read.
Variable w : world.
Variable x : externals.
Variable lossy : list N -> str.   (* [String::from_utf8_lossy] of bytes that are not UTF-8 *)

(** ** Contents *)
(** bodies.rs:49-71 [value_as_string], [is_text]. *)
Definition says_text (ct : option content_type) (h : option hint) : bool :=
  match h with
  | Some HTextual => true
  | Some _ => false
  | None => match ct with Some c => is_text c | None => false end
  end.
Definition value_as_string (b : body) : option str :=
  match b with BPresent bs ct h => if says_text ct h then from_utf8 bs else None | _ => None end.
(** contents.rs:48-66; the same text in http_interaction.rs:77-95, 251-269, async_message.rs:117-135,
    sync_message.rs:63-81, 286-310. *)
Definition contents_text (b : body) : answer (list N) :=
  match b with
  | BMissing => Null
  | BEmpty | BNull => to_c []
  | BPresent _ _ _ => to_c (match value_as_string b with Some s => s | None => [] end)
  end.
(** contents.rs:110-121, 135-146: the length, and a pointer to as many bytes. *)
Definition contents_length (b : body) : nat := match b with BPresent bs _ _ => length bs | _ => O end.
Definition contents_bytes (b : body) : option (list N) := match b with BPresent bs _ _ => Some bs | _ => None end.

(** util/string.rs:49-60 [optional_str], and what the setters make of the content type. *)
Definition optional_str (p : option (list N)) : option str :=
  match p with
  | None | Some [] => None
  | Some bs => Some (match from_utf8 bs with Some s => s | None => lossy bs end)
  end.
Definition type_given (ct : option (list N)) : option content_type :=
  match optional_str ct with Some t => parse_mime x t | None => None end.
(** contents.rs:86-97: the text must be UTF-8 ([safe_str!]). [None]: the call fails and changes nothing. *)
Definition text_contents (text ct : option (list N)) : option body :=
  match text with
  | None => Some BNull
  | Some bs => match from_utf8 bs with
               | Some s => Some (BPresent (utf8 s) (type_given ct) (Some HTextual))
               | None => None
               end
  end.
(** contents.rs:164-181. *)
Definition byte_contents (bytes ct : option (list N)) : body :=
  match bytes with
  | None => BNull
  | Some bs => BPresent bs (type_given ct) (Some HBinary)
  end.

(** The parts of an interaction that have contents. *)
Inductive place := PRequest | PResponse | PContents | PMessageRequest | PReply (i : nat).
Definition place_eqb (a b : place) : bool :=
  match a, b with
  | PRequest, PRequest | PResponse, PResponse | PContents, PContents | PMessageRequest, PMessageRequest => true
  | PReply i, PReply j => Nat.eqb i j
  | _, _ => false
  end.
Definition body_at (p : place) (i : payload) : option body :=
  match p, i with
  | PRequest, SyncHttp q _ => Some (req_body q)
  | PResponse, SyncHttp _ r => Some (resp_body r)
  | PContents, AsyncMessage m => Some (msg_contents m)
  | PMessageRequest, SyncMessage q _ => Some (msg_contents q)
  | PReply n, SyncMessage _ l => option_map msg_contents (nth_error l n)
  | _, _ => None
  end.
Definition with_req_body (q : request) (b : body) : request := mkReq (req_method q) (req_path q) (req_query q) (req_headers q) b (req_rules q).
Definition with_resp_body (r : response) (b : body) : response := mkResp (resp_status r) (resp_headers r) b (resp_rules r).
Definition with_msg_body (m : message) (b : body) : message := mkMsg b (msg_metadata m) (msg_rules m).
(** sync_message.rs:337-343, 438-444: the list of the responses is made long enough first. *)
Definition long_enough (n : nat) (l : list message) : list message := l ++ repeat default_message (S n - length l).
Fixpoint update_nth {A} (n : nat) (f : A -> A) (l : list A) : list A :=
  match l, n with
  | [], _ => []
  | a :: l', O => f a :: l'
  | a :: l', S n' => a :: update_nth n' f l'
  end.
(** http_interaction.rs:115-131, 197-214, 289-305, 371-388; async_message.rs:155-166, 233-250; sync_message.rs:101-112, 179-196, 329-354,
    429-456. [None] is a call that fails: a response is put in all the same. *)
Definition put_body (p : place) (b : option body) (i : payload) : payload :=
  match p, i with
  | PRequest, SyncHttp q r => SyncHttp (match b with Some b => with_req_body q b | None => q end) r
  | PResponse, SyncHttp q r => SyncHttp q (match b with Some b => with_resp_body r b | None => r end)
  | PContents, AsyncMessage m => AsyncMessage (match b with Some b => with_msg_body m b | None => m end)
  | PMessageRequest, SyncMessage q l => SyncMessage (match b with Some b => with_msg_body q b | None => q end) l
  | PReply n, SyncMessage q l =>
      let l := long_enough n l in
      SyncMessage q (match b with Some b => update_nth n (fun m => with_msg_body m b) l | None => l end)
  | _, _ => i
  end.
Inductive set_call :=
| SetText (p : place) (text ct : option (list N))
| SetBytes (p : place) (bytes ct : option (list N))
| SetDescription (text : option (list N)).
(** http_interaction.rs:429-440 and alike: 0, or 1 when it fails. *)
Definition set_description (text : option (list N)) (d : str) : str * N :=
  match text with
  | Some bs => match from_utf8 bs with Some s => (s, 0) | None => (d, 1) end
  | None => (d, 1)
  end.
Definition set_step (v : str * payload) (c : set_call) : str * payload :=
  match c with
  | SetText p t ct => (fst v, put_body p (text_contents t ct) (snd v))
  | SetBytes p b ct => (fst v, put_body p (Some (byte_contents b ct)) (snd v))
  | SetDescription t => (fst (set_description t (fst v)), snd v)
  end.
Definition set_all (v : str * payload) (cs : list set_call) : str * payload := fold_left set_step cs v.
(** The calls that read: NULL for a response that is not there (sync_message.rs:286-310, 366-381, 394-409). *)
Definition get_text (p : place) (i : payload) : answer (list N) :=
  match body_at p i with Some b => contents_text b | None => Null end.
Definition get_length (p : place) (i : payload) : nat := match body_at p i with Some b => contents_length b | None => O end.
Definition get_bytes (p : place) (i : payload) : option (list N) := match body_at p i with Some b => contents_bytes b | None => None end.
Definition responses (i : payload) : nat := match i with SyncMessage _ l => length l | _ => O end.
(** http_interaction.rs:406-412 and alike; 461-475: an index that is out of bounds fails. *)
Definition get_description (d : str) : answer (list N) := to_c d.
Definition get_state (states : list pstate) (n : nat) : answer pstate :=
  match nth_error states n with Some s => Gave s | None => Failed end.
(** provider_state.rs:23-31. *)
Definition state_name (s : pstate) : answer (list N) := to_c (st_name s).

(** ** Metadata of a message *)
(** message.rs:490-499: a value that is not a text is given as an empty text. *)
Definition find_metadata (m : list (str * json)) (k : option (list N)) : answer (list N) :=
  match k with
  | None => Failed
  | Some bs => match from_utf8 bs with
               | None => Failed
               | Some k => match obj_get k m with
                           | None => Failed
                           | Some (JStr s) => to_c s
                           | Some _ => to_c []
                           end
               end
  end.
(** message.rs:514-529, 705-712. *)
Definition insert_metadata (m : list (str * json)) (k v : option (list N)) : list (str * json) * Z :=
  match k, v with
  | Some kb, Some vb =>
      match from_utf8 kb, from_utf8 vb with
      | Some k, Some v => (map_put k (JStr v) m, if obj_has k m then (-1)%Z else 0%Z)
      | _, _ => (m, (-2)%Z)
      end
  | _, _ => (m, (-2)%Z)
  end.
(** message.rs:111-135: the content type is kept as text in the metadata. *)
Definition message_from_body (text ct : option (list N)) : answer (body * list (str * json)) :=
  match text, ct with
  | Some bs, Some cb =>
      match from_utf8 cb with
      | Some t => match parse_mime x t with
                  | Some c => Gave (BPresent bs (Some c) None, [(S_ "contentType", JStr (ct_show c))])
                  | None => Failed
                  end
      | None => Failed
      end
  | _, _ => Failed
  end.

(** ** Iterators *)
(** matching_rules.rs:125-129 and alike. *)
Record cursor (A : Type) := mkCursor { c_at : nat; c_items : list A }.
Arguments mkCursor {A}. Arguments c_at {A}. Arguments c_items {A}.
Definition c_next {A} (c : cursor A) : option A * cursor A := (nth_error (c_items c) (c_at c), mkCursor (S (c_at c)) (c_items c)).
Definition next_with {A B} (f : A -> answer B) (c : cursor A) : answer B * cursor A :=
  let '(a, c) := c_next c in (match a with Some a => f a | None => Null end, c).
(** The answers of a number of calls. *)
Fixpoint calls {A B} (f : A -> answer B) (n : nat) (c : cursor A) : list (answer B) :=
  match n with
  | O => []
  | S n => let '(r, c) := next_with f c in r :: calls f n c
  end.

(** [sorted_by] on the texts of the paths: a stable sort. *)
Fixpoint insert_by_path {A} (e : docpath * A) (l : list (docpath * A)) : list (docpath * A) :=
  match l with
  | [] => [e]
  | e' :: l' => match str_compare (path_expr (fst e)) (path_expr (fst e')) with Gt => e' :: insert_by_path e l' | _ => e :: l end
  end.
Definition sort_by_path {A} (l : list (docpath * A)) : list (docpath * A) := fold_right insert_by_path [] l.
(** matching_rules.rs:97-107; the category of a part that has no rules is empty. *)
Definition rule_iterator {R} (c : option (category_ R)) : cursor (docpath * R) :=
  mkCursor O (match c with
              | Some c => flat_map (fun kr => map (pair (fst kr)) (rl_rules (snd kr))) (sort_by_path (cat_rules c))
              | None => []
              end).
(** generators.rs:179-207. *)
Definition generator_iterator (c : gcat) (g : generators) : cursor (docpath * generator) :=
  mkCursor O (sort_by_path (match cats_get c g with Some m => m | None => [] end)).
(** matching_rules.rs:149-159, 181-196; generators.rs:234-243, 266-280: the path as a C string and a copy of the value. *)
Definition path_pair {R} (e : docpath * R) : answer (list N * R) :=
  a_bind (to_c (path_expr (fst e))) (fun p => Gave (p, snd e)).
(** message.rs:598-609, 647-656: the names in order; 546-580, 669-688: the values as they are when the call is made
    (the names of the metadata do not change while it is iterated). *)
Definition names_sorted (m : list (str * json)) : list str :=
  map fst (fold_right (fun kv acc => obj_insert (fst kv) (snd kv) acc) [] m).
Definition metadata_iterator (m : list (str * json)) : cursor str := mkCursor O (names_sorted m).
Definition text_pair (k v : str) : answer (list N * list N) := a_bind (to_c k) (fun k => a_bind (to_c v) (fun v => Gave (k, v))).
Definition metadata_entry (m : list (str * json)) (k : str) : answer (list N * list N) :=
  match obj_get k m with
  | Some v => text_pair k (json_to_string w v)
  | None => Failed
  end.
(** provider_state.rs:49-63, 81-101, 159-171: the names in the order of the map, the values printed as JSON. *)
Definition param_iterator (s : pstate) : cursor str := mkCursor O (map fst (st_params s)).
Definition param_entry (s : pstate) (k : str) : answer (list N * list N) :=
  match obj_get k (st_params s) with
  | Some v => text_pair k (json_show w v)
  | None => Failed
  end.
(** message.rs:416-463: the states are looked at when the call is made. The answers of calls with the states at each of them. *)
Fixpoint state_calls (n : nat) (l : list (list pstate)) : list (option pstate) :=
  match l with
  | [] => []
  | states :: l' => nth_error states n :: state_calls (S n) l'
  end.
(** iterators.rs:92-99, 160-167, 225-232, 290-297; v4/pact.rs [filter_interactions]. *)
Definition kind_of (i : v4i) : kind :=
  match v_payload i with SyncHttp _ _ => KHttp | AsyncMessage _ => KAsync | SyncMessage _ _ => KSync end.
Definition kind_eqb (a b : kind) : bool :=
  match a, b with KHttp, KHttp | KAsync, KAsync | KSync, KSync => true | _, _ => false end.
Definition interaction_iterator (k : option kind) (p : v4_pact) : cursor v4i :=
  mkCursor O (match k with
              | Some k => filter (fun i => kind_eqb (kind_of i) k) (vp_ints p)
              | None => vp_ints p
              end).
End Read.
