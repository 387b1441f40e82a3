(** Model of pacts as collections of interactions, of merging them and of the order they
    are written in: rust/pact_models/src/sync_pact.rs, message_pact.rs, v4/pact.rs,
    sync_interaction.rs, message.rs, v4/synch_http.rs, v4/async_message.rs,
    v4/sync_message.rs, provider_states.rs, iterator_utils.rs, plugins.rs.
    Generators travel with requests, responses and messages unchanged; they are left out. *)
From Coq Require Import Ascii String List Arith NArith ZArith Lia Bool.
From Verif Require Import Base PathExp Json Text MatchingRules Matchers JsonCompare Headers Query ContentType Http.
Import ListNotations.
Open Scope N_scope.

(** ** Maps *)
(** The [PartialEq] of [std::collections::HashMap]: as many entries, and every entry of
    the left is found in the right. *)
Definition map_eqb {A} (eqv : A -> A -> bool) (a b : list (str * A)) : bool :=
  Nat.eqb (length a) (length b) &&
  forallb (fun kv => match obj_get (fst kv) b with Some v => eqv (snd kv) v | None => false end) a.

(** ** Provider states *)
(** provider_states.rs:18-23 [struct ProviderState]. *)
Record pstate := mkState { st_name : str; st_params : list (str * json) }.
(** provider_states.rs:121-125 [eq]. *)
Definition state_eqb (a b : pstate) : bool :=
  str_eqb (st_name a) (st_name b) && map_eqb json_eqb (st_params a) (st_params b).
Definition names (l : list pstate) : list str := map st_name l.

(** ** Interactions *)
(** sync_interaction.rs:24-37 [RequestResponseInteraction]. *)
Record rr := mkRRI { rr_id : option str; rr_desc : str; rr_states : list pstate;
  rr_req : request; rr_resp : response }.
(** message.rs:28-46 [Message]. *)
Record msg := mkMI { m_id : option str; m_desc : str; m_states : list pstate; m_body : message }.
(** What the three kinds of V4 interaction have beyond the V3 ones (v4/synch_http.rs:27-52,
    v4/async_message.rs:32-53, v4/sync_message.rs:31-54): comments, pending, plugin_config,
    interaction_markup (as the pair of its fields) and transport. *)
Record extra := mkExtra { x_comments : list (str * json); x_pending : bool;
  x_plugin : list (str * list (str * json)); x_markup : str * str; x_transport : option str }.
Definition extra_default : extra := mkExtra [] false [] ([], []) None.
Inductive payload :=
  | SyncHttp (req : request) (resp : response)
  | AsyncMessage (m : message)
  | SyncMessage (req : message) (resps : list message).
Record v4i := mkV4 { v_id : option str; v_key : option str; v_desc : str; v_states : list pstate;
  v_payload : payload; v_extra : extra }.
(** The implementations of the trait [Interaction] (interaction.rs:18). *)
Inductive interaction := IHttp (i : rr) | IMsg (m : msg) | IV4 (i : v4i).

(** [Interaction::description] and [Interaction::provider_states] of each. *)
Definition i_desc (i : interaction) : str :=
  match i with IHttp r => rr_desc r | IMsg m => m_desc m | IV4 v => v_desc v end.
Definition i_states (i : interaction) : list pstate :=
  match i with IHttp r => rr_states r | IMsg m => m_states m | IV4 v => v_states v end.

(** v4/mod.rs:38-46 [V4InteractionType::fmt] and the [type_of] of the V4 interactions
    (v4/synch_http.rs:247-249 and so on). *)
Definition v4_type (v : v4i) : str :=
  match v_payload v with
  | SyncHttp _ _ => S_ "Synchronous/HTTP"
  | AsyncMessage _ => S_ "Asynchronous/Messages"
  | SyncMessage _ _ => S_ "Synchronous/Messages"
  end.
Definition v4_type_of (v : v4i) : str := S_ "V4 " ++ v4_type v.

(** matchingrules/mod.rs:1425-1438 [rename], with "content" and "body" both naming the
    category BODY (850-867, 890-906: any unknown name is BODY). *)
Definition rename_body (m : matching_rules) : matching_rules :=
  map (fun kc => if cat_eqb (fst kc) CBody then (CBody, mkCat CBody (cat_rules (snd kc))) else kc) m.
Definition with_rules (m : message) (rs : matching_rules) : message := mkMsg (msg_contents m) (msg_metadata m) rs.

(** [as_request_response]: sync_interaction.rs:52-54, message.rs:67-69, v4/synch_http.rs:255-263,
    v4/async_message.rs:289-291, v4/sync_message.rs:271-273. *)
Definition as_request_response (i : interaction) : option rr :=
  match i with
  | IHttp r => Some r
  | IMsg _ => None
  | IV4 v => match v_payload v with
             | SyncHttp q p => Some (mkRRI (v_id v) (v_desc v) (v_states v) q p)
             | _ => None
             end
  end.
(** [as_message]: sync_interaction.rs:60-62, message.rs:75-77, v4/synch_http.rs:269-271,
    v4/async_message.rs:297-314, v4/sync_message.rs:279-281. *)
Definition add_content_type (m : message) : list (str * json) :=
  match body_content_type (msg_contents m) with
  | Some ct => if obj_has (S_ "contentType") (msg_metadata m) then msg_metadata m
               else obj_insert (S_ "contentType") (JStr (ct_show ct)) (msg_metadata m)
  | None => msg_metadata m
  end.
Definition as_message (i : interaction) : option msg :=
  match i with
  | IHttp _ => None
  | IMsg m => Some m
  | IV4 v => match v_payload v with
             | AsyncMessage m =>
                 Some (mkMI (v_id v) (v_desc v) (v_states v)
                         (mkMsg (msg_contents m) (add_content_type m) (rename_body (msg_rules m))))
             | _ => None
             end
  end.
(** [as_v4]: sync_interaction.rs:104-122, message.rs:119-146, v4/synch_http.rs:313-315 and so on. *)
Definition as_v4 (i : interaction) : option v4i :=
  match i with
  | IHttp r => Some (mkV4 (rr_id r) None (rr_desc r) (rr_states r) (SyncHttp (rr_req r) (rr_resp r)) extra_default)
  | IMsg m => Some (mkV4 (m_id m) None (m_desc m) (m_states m)
                      (AsyncMessage (with_rules (m_body m) (rename_body (msg_rules (m_body m))))) extra_default)
  | IV4 v => Some v
  end.

(** ** Conflicts *)
Inductive conflict := CMethodDiffers | CPathDiffers | CQueryDiffers | CStatusDiffers | CNotHttp.
Definition opt_eqb {A} (f : A -> A -> bool) (a b : option A) : bool :=
  match a, b with Some x, Some y => f x y | None, None => true | _, _ => false end.
(** request.rs:236-260 [differences_from], without the headers, body and matching rules,
    which sync_interaction.rs:218-223 filters out. *)
Definition request_differences (a b : request) : list conflict :=
  (if str_eqb (req_method a) (req_method b) then [] else [CMethodDiffers]) ++
  (if str_eqb (req_path a) (req_path b) then [] else [CPathDiffers]) ++
  (if opt_eqb (map_eqb (list_eqb (opt_eqb str_eqb))) (req_query a) (req_query b) then [] else [CQueryDiffers]).
(** response.rs:106-121 [differences_from], filtered in the same way. *)
Definition response_differences (a b : response) : list conflict :=
  if resp_status a =? resp_status b then [] else [CStatusDiffers].
(** sync_interaction.rs:214-241 [conflicts_with]. *)
Definition conflicts_with (a : rr) (b : interaction) : list conflict :=
  match as_request_response b with
  | Some o =>
      if str_eqb (rr_desc a) (rr_desc o) && list_eqb state_eqb (rr_states a) (rr_states o)
      then request_differences (rr_req a) (rr_req o) ++ response_differences (rr_resp a) (rr_resp o)
      else []
  | None => [CNotHttp]
  end.

(** iterator_utils.rs:2-13 [CartesianProductIterator]: the two indices. *)
Record product_iter := mkPI { v1_idx : nat; v2_idx : nat }.
(** iterator_utils.rs:17-36 [next]; [Panic] where an index is out of bounds. *)
Definition product_next {A B} (v1 : list A) (v2 : list B) (s : product_iter) : outcome (option (A * B) * product_iter) unit :=
  if negb (nonempty v1) || negb (nonempty v2) ||
     (Nat.eqb (v1_idx s) (length v1) && Nat.eqb (v2_idx s) (length v2)) then Ok (None, s)
  else if Nat.eqb (v2_idx s) (length v2) then
    let s' := mkPI (S (v1_idx s)) 1 in
    if Nat.eqb (v1_idx s') (length v1) then Ok (None, s')
    else match nth_error v1 (v1_idx s'), nth_error v2 (v2_idx s' - 1) with
         | Some a, Some b => Ok (Some (a, b), s')
         | _, _ => Panic
         end
  else
    let s' := mkPI (v1_idx s) (S (v2_idx s)) in
    match nth_error v1 (v1_idx s'), nth_error v2 (v2_idx s' - 1) with
    | Some a, Some b => Ok (Some (a, b), s')
    | _, _ => Panic
    end.
(** Collecting the iterator: [next] until it gives [None]; [fuel] bounds the number of calls. *)
Fixpoint product_collect {A B} (fuel : nat) (v1 : list A) (v2 : list B) (s : product_iter) : outcome (list (A * B)) unit :=
  match fuel with
  | O => Err tt
  | S f =>
      bind (product_next v1 v2 s) (fun r =>
      match r with
      | (None, _) => Ok []
      | (Some p, s') => bind (product_collect f v1 v2 s') (fun ps => Ok (p :: ps))
      end)
  end.
Definition product {A B} (v1 : list A) (v2 : list B) : outcome (list (A * B)) unit :=
  product_collect (S (length v1 * length v2)) v1 v2 (mkPI 0 0).

(** ** Joining two lists *)
(** itertools 0.14 [merge_join_by] with an [Ordering]: the element that compares smaller
    goes first and alone; elements that compare equal go together. *)
Inductive either (A B : Type) := Left (a : A) | Right (b : B) | Both (a : A) (b : B).
Arguments Left {A B} a. Arguments Right {A B} b. Arguments Both {A B} a b.
Fixpoint merge_join {A B} (cmp : A -> B -> comparison) (l : list A) : list B -> list (either A B) :=
  fix go (r : list B) : list (either A B) :=
    match l, r with
    | [], _ => map Right r
    | _, [] => map Left l
    | a :: l', b :: r' =>
        match cmp a b with
        | Lt => Left a :: merge_join cmp l' r
        | Eq => Both a b :: merge_join cmp l' r'
        | Gt => Right b :: go r'
        end
    end.

(** [Ord::cmp] of [Vec<String>]: lexicographic. *)
Fixpoint strs_compare (a b : list str) : comparison :=
  match a, b with
  | [], [] => Eq
  | [], _ => Lt
  | _, [] => Gt
  | x :: a', y :: b' => match str_compare x y with Eq => strs_compare a' b' | c => c end
  end.
(** sync_pact.rs:305-313 and message_pact.rs:309-317: the order used to join V3 pacts. *)
Definition v3_cmp (desc : str) (states : list pstate) (b : interaction) : comparison :=
  match str_compare desc (i_desc b) with
  | Eq => if nonempty states then strs_compare (names states) (names (i_states b)) else Eq
  | c => c
  end.
(** v4/pact.rs:364-391: the order used to join V4 pacts. *)
Definition v4_cmp (a b : v4i) : comparison :=
  match v_key a, v_key b with
  | Some x, Some y => str_compare x y
  | _, _ =>
      match str_compare (v_desc a) (v_desc b) with
      | Eq => if nonempty (v_states a)
              then match strs_compare (names (v_states a)) (names (v_states b)) with
                   | Eq => str_compare (v4_type_of a) (v4_type_of b)
                   | c => c
                   end
              else str_compare (v4_type_of a) (v4_type_of b)
      | c => c
      end
  end.

(** ** Pacts *)
(** plugins.rs:11-21 [PluginData]. *)
Record plugin := mkPlugin { pl_name : str; pl_version : str; pl_config : list (str * json) }.
Record participants := mkWho { consumer : str; provider : str }.
(** The three implementations of the trait [Pact]: sync_pact.rs:30-41, message_pact.rs:29-42,
    v4/pact.rs:30-41. Metadata is kept as JSON. *)
Record rr_pact := mkRRP { rrp_who : participants; rrp_ints : list rr; rrp_meta : list (str * json) }.
Record msg_pact := mkMP { mp_who : participants; mp_msgs : list msg; mp_meta : list (str * json) }.
Record v4_pact := mkV4P { vp_who : participants; vp_ints : list v4i; vp_meta : list (str * json); vp_plugins : list plugin }.
Inductive pact := PRR (p : rr_pact) | PMsg (p : msg_pact) | PV4 (p : v4_pact).
Definition who (p : pact) : participants :=
  match p with PRR q => rrp_who q | PMsg q => mp_who q | PV4 q => vp_who q end.
Definition interactions (p : pact) : list interaction :=
  match p with
  | PRR q => map IHttp (rrp_ints q)
  | PMsg q => map IMsg (mp_msgs q)
  | PV4 q => map IV4 (vp_ints q)
  end.
Definition who_eqb (a b : participants) : bool :=
  str_eqb (consumer a) (consumer b) && str_eqb (provider a) (provider b).

Inductive merge_error := DifferentParticipants | Conflicting (n : nat) | NotConvertible.

(** The [collect] of the results: an error if there is any. *)
Fixpoint all_some {A} (l : list (option A)) : option (list A) :=
  match l with
  | [] => Some []
  | Some a :: l' => match all_some l' with Some r => Some (a :: r) | None => None end
  | None :: _ => None
  end.
(** sync_pact.rs:314-320 and message_pact.rs:318-324: where two interactions are joined,
    the one of the other pact is kept. *)
Definition take_other {A} (conv : interaction -> option A) (e : either A interaction) : option A :=
  match e with Left a => Some a | Right b => conv b | Both _ b => conv b end.
(** v4/pact.rs:392-398: where two interactions are joined, this pact's is kept. *)
Definition take_self (e : either v4i v4i) : v4i :=
  match e with Left a => a | Right b => b | Both a _ => a end.

(** sync_pact.rs:284-341. *)
Definition rr_merge (p : rr_pact) (o : pact) : outcome pact merge_error :=
  if who_eqb (rrp_who p) (who o) then
    match product (rrp_ints p) (interactions o) with
    | Ok pairs =>
        let bad := filter (fun c => nonempty c) (map (fun ab => conflicts_with (fst ab) (snd ab)) pairs) in
        if nonempty bad then Err (Conflicting (length bad))
        else match all_some (map (take_other as_request_response)
                     (merge_join (fun a b => v3_cmp (rr_desc a) (rr_states a) b) (rrp_ints p) (interactions o))) with
             | Some l => Ok (PRR (mkRRP (rrp_who p) l (rrp_meta p)))
             | None => Err NotConvertible
             end
    | _ => Panic
    end
  else Err DifferentParticipants.
(** message_pact.rs:306-345. *)
Definition msg_merge (p : msg_pact) (o : pact) : outcome pact merge_error :=
  if who_eqb (mp_who p) (who o) then
    match all_some (map (take_other as_message)
            (merge_join (fun a b => v3_cmp (m_desc a) (m_states a) b) (mp_msgs p) (interactions o))) with
    | Some l => Ok (PMsg (mkMP (mp_who p) l (mp_meta p)))
    | None => Err NotConvertible
    end
  else Err DifferentParticipants.

(** plugins.rs:25-35 [PluginData::merge]; the entries of [data] in any order. *)
Fixpoint config_merge (c data : list (str * json)) : list (str * json) :=
  match data with
  | [] => c
  | (k, v) :: data' =>
      config_merge (obj_insert k (match obj_get k c with Some x => json_deep_merge x v | None => v end) c) data'
  end.
(** v4/pact.rs:98-105 [add_plugin_data]. *)
Fixpoint add_plugin_data (ps : list plugin) (o : plugin) : list plugin :=
  match ps with
  | [] => [o]
  | p :: ps' =>
      if str_eqb (pl_name p) (pl_name o) && str_eqb (pl_version p) (pl_version o)
      then mkPlugin (pl_name p) (pl_version p) (config_merge (pl_config p) (pl_config o)) :: ps'
      else p :: add_plugin_data ps' o
  end.
(** v4/pact.rs:358-415. [as_v4().unwrap()] panics on [None]. *)
Definition v4_merge (p : v4_pact) (o : pact) : outcome pact merge_error :=
  if who_eqb (vp_who p) (who o) then
    match all_some (map as_v4 (interactions o)) with
    | Some others =>
        Ok (PV4 (mkV4P (vp_who p) (map take_self (merge_join v4_cmp (vp_ints p) others)) (vp_meta p)
          (match o with PV4 q => fold_left add_plugin_data (vp_plugins q) (vp_plugins p) | _ => vp_plugins p end)))
    | None => Panic
    end
  else Err DifferentParticipants.

(** [Pact::merge] (pact.rs:203). *)
Definition merge (p o : pact) : outcome pact merge_error :=
  match p with PRR q => rr_merge q o | PMsg q => msg_merge q o | PV4 q => v4_merge q o end.

(** ** The order of the interactions in the file *)
(** v4/pact.rs:193-195 [sorted_by]: a stable sort by description. *)
Fixpoint insert_sorted (v : v4i) (l : list v4i) : list v4i :=
  match l with
  | [] => [v]
  | u :: l' => match str_compare (v_desc v) (v_desc u) with
               | Gt => u :: insert_sorted v l'
               | _ => v :: l
               end
  end.
Definition sort_by_description (l : list v4i) : list v4i := fold_right insert_sorted [] l.
(** The interactions of a pact in the order in which they are written
    (v4/pact.rs:188-199; sync_pact.rs:56-70 and message_pact.rs:57-77 do not sort). *)
Definition as_written (p : pact) : pact :=
  match p with
  | PV4 q => PV4 (mkV4P (vp_who q) (sort_by_description (vp_ints q)) (vp_meta q) (vp_plugins q))
  | _ => p
  end.
(** pact.rs:218-256 [write_pact] with [overwrite = false], as far as the interactions are
    concerned: [file] is the pact that reading the file gives. A merge that fails leaves
    the file as it was (the error is returned before the file is touched). Reading a file
    back is taken to give what was written, in the order it was written. *)
Definition write_pact (p : pact) (file : option pact) : option pact * option merge_error :=
  match file with
  | None => (Some (as_written p), None)
  | Some f => match merge p f with
              | Ok m => (Some (as_written m), None)
              | Err e => (file, Some e)
              | Panic => (file, None)
              end
  end.
(** The file after a history of writes. *)
Definition written (hist : list pact) (file : option pact) : option pact :=
  fold_left (fun f p => fst (write_pact p f)) hist file.
