(** Model of the handles of the C interface: rust/pact_ffi/src/mock_server/handles.rs.
    A call takes and gives handles, which are integers; the pacts they stand for are in the
    global table PACT_HANDLES. Every call holds the lock of that table, so that calls of
    different threads happen one after the other.
    Strings are [None] if the pointer is null or not UTF-8 (lib.rs:177-193 [convert_cstr]).
    Values of paths, query parameters and headers are taken to be plain, that is, not the
    text of a JSON object (from_integration_json_v2, handles.rs:1083-1089: they are then used
    as they are; an empty category is added to the matching rules, which is left out here). *)
From Coq Require Import Ascii String List Arith NArith ZArith Lia Bool.
From Verif Require Import Base PathExp Json Text MatchingRules Matchers JsonCompare Headers Query ContentType Http Merge.
Import ListNotations.
Open Scope N_scope.

(** ** The integers *)
(** handles.rs:265-272 [InteractionHandle::new] and 377-384 [MessageHandle::new]: both
    arguments are u16, the sum of the shifted first one and the second fits into u32. *)
Definition handle_new (pact_ref number : N) : N := pact_ref * 65536 + number.
(** handles.rs:387-394 [MessageHandle::new_v4]: the number is a usize, cut to 32 bits and
    added; [checks] says whether the library is built with overflow checks. *)
Definition handle_new_v4 (checks : bool) (pact_ref number : N) : outcome N unit :=
  let s := pact_ref * 65536 + number mod 4294967296 in
  if s <? 4294967296 then Ok s else if checks then Panic else Ok (s mod 4294967296).
(** handles.rs:281, 297-298, 399, 409-410. *)
Definition handle_pact (h : N) : N := (h / 65536) mod 65536.
Definition handle_number (h : N) : N := h mod 65536.
(** [len as u16]. *)
Definition as_u16 (n : N) : N := n mod 65536.

(** ** The table *)
(** handles.rs:170-174 [PactHandleInner]; the specification version as its number. *)
Record inner := mkInner { in_pact : v4_pact; in_started : bool; in_spec : N }.
(** PACT_HANDLES (177-179): a map with u16 keys. *)
Definition table := list (N * inner).
Fixpoint tab_get (id : N) (t : table) : option inner :=
  match t with [] => None | (i, v) :: t' => if i =? id then Some v else tab_get id t' end.
Fixpoint tab_set (id : N) (v : inner) (t : table) : table :=
  match t with
  | [] => []
  | (i, u) :: t' => if i =? id then (i, v) :: t' else (i, u) :: tab_set id v t'
  end.
Fixpoint tab_remove (id : N) (t : table) : table :=
  match t with [] => [] | (i, u) :: t' => if i =? id then t' else (i, u) :: tab_remove id t' end.

Fixpoint set_nth {A} (n : nat) (v : A) (l : list A) : list A :=
  match l, n with
  | [], _ => []
  | _ :: l', O => v :: l'
  | x :: l', S n' => x :: set_nth n' v l'
  end.
Definition with_ints (p : v4_pact) (l : list v4i) : v4_pact := mkV4P (vp_who p) l (vp_meta p) (vp_plugins p).
Definition inner_ints (i : inner) : list v4i := vp_ints (in_pact i).
Definition inner_with_ints (i : inner) (l : list v4i) : inner := mkInner (with_ints (in_pact i) l) (in_started i) (in_spec i).

(** ** New interactions *)
Inductive kind := KHttp | KAsync | KSync.
(** v4/http_parts.rs:424-436, 460-470; v4/message_parts.rs, sync_message.rs and
    async_message.rs defaults. *)
Definition default_request : request := mkReq (S_ "GET") (S_ "/") None None BMissing [].
Definition default_response : response := mkResp 200 None BMissing [].
Definition default_message : message := mkMsg BMissing [] [].
Definition default_payload (k : kind) : payload :=
  match k with
  | KHttp => SyncHttp default_request default_response
  | KAsync => AsyncMessage default_message
  | KSync => SyncMessage default_message []
  end.
Definition new_int (k : kind) (desc : str) : v4i := mkV4 None None desc [] (default_payload k) extra_default.
(** handles.rs:449-453 [find_interaction_with_description]. *)
Fixpoint find_description (d : str) (l : list v4i) : option nat :=
  match l with
  | [] => None
  | v :: l' => if str_eqb (v_desc v) d then Some O else option_map S (find_description d l')
  end.

(** ** Changing an interaction *)
Inductive side := Request | Response.
Inductive edit :=
  | EDescription (d : str)                       (* pactffi_upon_receiving, message_expects_to_receive *)
  | EGiven (d : str)                             (* pactffi_given, pactffi_message_given *)
  | EGivenParam (d name : str) (value : json)    (* pactffi_given_with_param, pactffi_message_given_with_param *)
  | EGivenParams (d : str) (params : list (str * json)) (* pactffi_given_with_params, an object *)
  | ETestName (s : str)                          (* pactffi_interaction_test_name *)
  | ERequest (method path : str)                 (* pactffi_with_request *)
  | EQuery (name : str) (index : nat) (value : option str) (* pactffi_with_query_parameter_v2 *)
  | EHeader (s : side) (name : str) (index : nat) (value : str) (* pactffi_with_header_v2 *)
  | ESetHeader (s : side) (name value : str)     (* pactffi_set_header *)
  | EStatus (status : N)                         (* pactffi_response_status *)
  | EKey (k : option str)                        (* pactffi_set_key *)
  | EPending (b : bool)                          (* pactffi_set_pending *)
  | EComment (key : str) (value : option json)   (* pactffi_set_comment *)
  | ETextComment (s : str).                      (* pactffi_add_text_comment *)
Inductive result := RHandle (h : N) | RBool (b : bool) | RCode (n : N) | RUnit.

Definition with_desc (v : v4i) (d : str) : v4i := mkV4 (v_id v) (v_key v) d (v_states v) (v_payload v) (v_extra v).
Definition with_states (v : v4i) (s : list pstate) : v4i := mkV4 (v_id v) (v_key v) (v_desc v) s (v_payload v) (v_extra v).
Definition with_payload (v : v4i) (p : payload) : v4i := mkV4 (v_id v) (v_key v) (v_desc v) (v_states v) p (v_extra v).
Definition with_key (v : v4i) (k : option str) : v4i := mkV4 (v_id v) k (v_desc v) (v_states v) (v_payload v) (v_extra v).
Definition with_extra (v : v4i) (x : extra) : v4i := mkV4 (v_id v) (v_key v) (v_desc v) (v_states v) (v_payload v) x.
Definition with_comments (v : v4i) (c : list (str * json)) : v4i :=
  let x := v_extra v in with_extra v (mkExtra c (x_pending x) (x_plugin x) (x_markup x) (x_transport x)).
Definition with_pending (v : v4i) (b : bool) : v4i :=
  let x := v_extra v in with_extra v (mkExtra (x_comments x) b (x_plugin x) (x_markup x) (x_transport x)).

(** [HashMap::insert] and [remove] of an entry. *)
Fixpoint map_remove {A} (k : str) (m : list (str * A)) : list (str * A) :=
  match m with [] => [] | (k', v) :: m' => if str_eqb k' k then m' else (k', v) :: map_remove k m' end.
Fixpoint map_put {A} (k : str) (v : A) (m : list (str * A)) : list (str * A) :=
  match m with
  | [] => [(k, v)]
  | (k', v') :: m' => if str_eqb k' k then (k', v) :: m' else (k', v') :: map_put k v m'
  end.

(** handles.rs:632-640 (and 2866-2874): the first state of that name gets the parameter. *)
Fixpoint add_param (d name : str) (value : json) (l : list pstate) : list pstate :=
  match l with
  | [] => [mkState d [(name, value)]]
  | s :: l' => if str_eqb (st_name s) d then mkState (st_name s) (map_put name value (st_params s)) :: l'
               else s :: add_param d name value l'
  end.
(** [resize_with(index + 1, Default::default)] if the index is out of bounds, then the
    assignment (handles.rs:934-937, 1497-1500). *)
Definition put_at {A} (dflt : A) (index : nat) (v : A) (l : list A) : list A :=
  set_nth index v (l ++ repeat dflt (S index - length l)).
(** handles.rs:927-953 [update_query_map]. *)
Definition update_query_map (q : option query_map) (name : str) (index : nat) (v : option str) : option query_map :=
  match q with
  | Some m => Some (map_put name (put_at None index v (match obj_get name m with Some l => l | None => [] end)) m)
  | None => Some [(name, put_at None index v [])]
  end.

Section Edits.
Variable w : world.

(** v4/http_parts.rs:177-186 [lookup_header_key], handles.rs:1483-1486: the first key that is
    equal ignoring case. *)
Definition header_key (m : hmap) (name : str) : option str :=
  match find (fun kv => str_eqb (to_lower w (fst kv)) (to_lower w name)) m with
  | Some kv => Some (fst kv)
  | None => None
  end.
Definition or_empty (h : option hmap) : hmap := match h with Some m => m | None => [] end.
(** handles.rs:1474-1550: one plain header value. *)
Definition header_put (h : option hmap) (name : str) (index : nat) (value : str) : option hmap :=
  let m := or_empty h in
  match header_key m name with
  | Some key =>
      let vs := match obj_get key m with Some l => l | None => [] end in
      let vs' :=
        match index with
        | S _ => put_at [] index value vs
        | O =>
            let hv := parse_header w key value in
            match vs with
            | [] => hv
            | _ :: vs1 =>
                match hv with
                | [] => [] :: vs1
                | [_] => value :: vs1
                | _ => hv
                end
            end
        end in
      Some (map_put key vs' m)
  | None =>
      Some (map_put name (match index with S _ => put_at [] index value [] | O => parse_header w name value end) m)
  end.
(** v4/http_parts.rs:151-162, 167-175 [set_header]. *)
Definition set_header (h : option hmap) (name : str) (vs : list str) : option hmap :=
  let m := or_empty h in
  Some (map_put (match header_key m name with Some k => k | None => name end) vs m).

Definition req_with_query (r : request) (q : option query_map) : request :=
  mkReq (req_method r) (req_path r) q (req_headers r) (req_body r) (req_rules r).
Definition req_with_headers (r : request) (h : option hmap) : request :=
  mkReq (req_method r) (req_path r) (req_query r) h (req_body r) (req_rules r).
Definition req_with_line (r : request) (m p : str) : request :=
  mkReq m p (req_query r) (req_headers r) (req_body r) (req_rules r).
Definition resp_with_headers (r : response) (h : option hmap) : response :=
  mkResp (resp_status r) h (resp_body r) (resp_rules r).
Definition resp_with_status (r : response) (s : N) : response :=
  mkResp s (resp_headers r) (resp_body r) (resp_rules r).

(** Only HTTP interactions ([as_v4_http_mut]); otherwise an error is logged and [false] returned. *)
Definition on_http (started : bool) (v : v4i) (f : request -> response -> request * response) : result * v4i :=
  match v_payload v with
  | SyncHttp q p => let '(q', p') := f q p in (RBool (negb started), with_payload v (SyncHttp q' p'))
  | _ => (RBool false, v)
  end.
Definition text_comments (c : list (str * json)) (s : str) : list (str * json) :=
  map_put (S_ "text") (match obj_get (S_ "text") c with
                       | Some (JArr l) => JArr (l ++ [JStr s])
                       | _ => JArr [JStr s]
                       end) c.
(** What each call does to the interaction, and what it returns: handles.rs:547-557, 563-572,
    590-608, 621-651, 666-705, 717-745, 865-923, 1439-1573, 1590-1616, 1625-1635, 2487-2518,
    2527-2546, 2573-2609, 2627-2650. *)
Definition apply_edit (started : bool) (e : edit) (v : v4i) : result * v4i :=
  let said := RBool (negb started) in
  match e with
  | EDescription d => (said, with_desc v d)
  | EGiven d => (said, with_states v (v_states v ++ [mkState d []]))
  | EGivenParam d name value => (said, with_states v (add_param d name value (v_states v)))
  | EGivenParams d params => (RCode (if started then 1 else 0), with_states v (v_states v ++ [mkState d params]))
  | ETestName s => if started then (RCode 3, v)
                   else (RCode 0, with_comments v (map_put (S_ "testname") (JStr s) (x_comments (v_extra v))))
  | ERequest m p => on_http started v (fun q r => (req_with_line q m p, r))
  | EQuery name i value => on_http started v (fun q r => (req_with_query q (update_query_map (req_query q) name i value), r))
  | EHeader Request name i value => on_http started v (fun q r => (req_with_headers q (header_put (req_headers q) name i value), r))
  | EHeader Response name i value => on_http started v (fun q r => (q, resp_with_headers r (header_put (resp_headers r) name i value)))
  | ESetHeader Request name value => on_http started v (fun q r => (req_with_headers q (set_header (req_headers q) name [value]), r))
  | ESetHeader Response name value => on_http started v (fun q r => (q, resp_with_headers r (set_header (resp_headers r) name [value])))
  | EStatus s => on_http started v (fun q r => (q, resp_with_status r s))
  | EKey k => (RBool true, with_key v k)
  | EPending b => (RBool true, with_pending v b)
  | EComment key (Some j) => (RBool true, with_comments v (map_put key j (x_comments (v_extra v))))
  | EComment key None => (RBool true, with_comments v (map_remove key (x_comments (v_extra v))))
  | ETextComment s => (RBool true, with_comments v (text_comments (x_comments (v_extra v)) s))
  end.
(** What the call returns if the handle stands for nothing ([unwrap_or]). *)
Definition not_found (e : edit) : result :=
  match e with
  | EGivenParams _ _ => RCode 1
  | ETestName _ => RCode 2
  | _ => RBool false
  end.

(** handles.rs:297-323 [with_interaction]. [interaction - 1] of the number 0 overflows: with
    overflow checks it panics, without it is 65535. *)
Definition with_interaction {R} (checks : bool) (t : table) (h : N) (none : R) (f : bool -> v4i -> R * v4i)
  : outcome (R * table) unit :=
  match tab_get (handle_pact h) t with
  | None => Ok (none, t)
  | Some inn =>
      if (handle_number h =? 0) && checks then Panic
      else
        let i := N.to_nat (if handle_number h =? 0 then 65535 else handle_number h - 1) in
        match nth_error (inner_ints inn) i with
        | Some v => let '(r, v') := f (in_started inn) v in
                    Ok (r, tab_set (handle_pact h) (inner_with_ints inn (set_nth i v' (inner_ints inn))) t)
        | None => Ok (none, t)
        end
  end.

(** ** Calls *)
Inductive call :=
  | CNewPact (consumer provider : option str) (id : N) (* id: the random number that is not in use, 219-222 *)
  | CNewInteraction (k : kind) (p : N) (d : option str) (* 463-483, 492-512, 521-541 *)
  | CNewMessage (p : N) (d : option str)                (* 2803-2816 *)
  | CNewAsyncMessage (p : N) (d : option str)           (* 3165-3179 *)
  | CEdit (h : N) (e : edit)
  | CMessageEdit (h : N) (e : edit)                     (* the pactffi_message_ calls *)
  | CSpec (p v : N)                                     (* 1109-1114 *)
  | CStart (p : N)                                      (* mock_server/mod.rs:234, 345 *)
  | CFree (p : N).                                      (* 3189-3193, 3204-3207 *)

Definition opt_or {A} (o : option A) (d : A) : A := match o with Some a => a | None => d end.
Definition is_message (v : v4i) : bool := match v_payload v with SyncHttp _ _ => false | _ => true end.
Definition push (i : inner) (v : v4i) : inner := inner_with_ints i (inner_ints i ++ [v]).
Definition count (i : inner) : N := N.of_nat (length (inner_ints i)).

Definition do_call (checks : bool) (t : table) (c : call) : outcome (result * table) unit :=
  match c with
  | CNewPact c p id =>
      (* 212-244; [V4Pact::default] and the version of the library in the metadata *)
      Ok (RHandle id,
          (id, mkInner (mkV4P (mkWho (opt_or c (S_ "Consumer")) (opt_or p (S_ "Provider"))) [] [] []) false 3) :: t)
  | CNewInteraction k p None => Ok (RHandle (handle_new p 0), t)
  | CNewInteraction k p (Some d) =>
      match tab_get p t with
      | None => Ok (RHandle (handle_new p 0), t)
      | Some inn =>
          match find_description d (inner_ints inn) with
          | Some i => Ok (RHandle (handle_new p (as_u16 (N.of_nat i + 1))),
                          tab_set p (inner_with_ints inn (set_nth i (new_int k d) (inner_ints inn))) t)
          | None => Ok (RHandle (handle_new p (as_u16 (count inn + 1))), tab_set p (push inn (new_int k d)) t)
          end
      end
  | CNewMessage p None => Ok (RHandle (handle_new p 0), t)
  | CNewMessage p (Some d) =>
      match tab_get p t with
      | None => Ok (RHandle (handle_new p 0), t)
      | Some inn => Ok (RHandle (handle_new p (as_u16 (count inn + 1))), tab_set p (push inn (new_int KAsync d)) t)
      end
  | CNewAsyncMessage p None => Ok (RHandle (handle_new p 0), t)
  | CNewAsyncMessage p (Some d) =>
      match tab_get p t with
      | None => Ok (RHandle (handle_new p 0), t)
      | Some inn =>
          match handle_new_v4 checks p (count inn + 1) with
          | Ok h => Ok (RHandle h, tab_set p (push inn (new_int KAsync d)) t)
          | _ => Panic
          end
      end
  | CEdit h e => with_interaction checks t h (not_found e) (fun started => apply_edit started e)
  | CMessageEdit h e =>
      (* 405-424 [with_message] *)
      with_interaction checks t h RUnit (fun started v => if is_message v then (RUnit, snd (apply_edit started e v)) else (RUnit, v))
  | CSpec p v =>
      match tab_get p t with
      | None => Ok (RBool false, t)
      | Some inn => Ok (RBool (negb (in_started inn)), tab_set p (mkInner (in_pact inn) (in_started inn) v) t)
      end
  | CStart p =>
      match tab_get p t with
      | None => Ok (RUnit, t)
      | Some inn => Ok (RUnit, tab_set p (mkInner (in_pact inn) true (in_spec inn)) t)
      end
  | CFree p => match tab_get p t with
               | Some _ => Ok (RCode 0, tab_remove p t)
               | None => Ok (RCode 1, t)
               end
  end.
(** A history of calls: the table afterwards, if no call panics. *)
Fixpoint do_calls (checks : bool) (t : table) (cs : list call) : outcome table unit :=
  match cs with
  | [] => Ok t
  | c :: cs' => bind (do_call checks t c) (fun rt => do_calls checks (snd rt) cs')
  end.
End Edits.
