(** Model of the calls of the C interface for messages and for the metadata:
    rust/pact_ffi/src/mock_server/handles.rs:2888-2915 [pactffi_message_with_contents], 2921-2931 [pactffi_message_with_metadata],
    2950-2976 [pactffi_message_with_metadata_v2], 1222-1315 [pactffi_with_metadata], 1137-1178 [pactffi_with_pact_metadata],
    3064-3078 [pactffi_with_message_pact_metadata].

    A message is the part of it these calls look at or change. A text from C is [None] for a NULL pointer or for bytes that are not
    UTF-8 ([convert_cstr]). A NULL pointer for contents that are not a text ([from_raw_parts] of NULL) is not modelled. A category of rules
    that is there without a rule is the same as one that is not there. *)
From Coq Require Import Ascii String List Arith NArith ZArith Lia Bool.
From Verif Require Import Base PathExp Json Text MatchingRules Matchers Headers ContentType Http Expr Generators RuleExpr Integration IntegrationValues
  FormJson XmlJson Merge PactFile Handles Builder FfiBody.
Import ListNotations.
Open Scope N_scope.

Record xmsg := mkXM { xm_body : body; xm_meta : list (str * json); xm_rules : xcategory; xm_meta_rules : xcategory; xm_gens : generators }.
Inductive xint := XHttp (v : payload) | XAsync (m : xmsg) | XSync (q : xmsg) (l : list xmsg).

Section Message.
Variable w : world.
Variable x : externals.
Variable junk : str -> nat.
Variable print_xml : option xtree -> list N.
Variable parse : str -> option json.   (* [serde_json::from_str] of a text *)

(** 2888-2915. [ct]: the type; [text]: the contents as a C string; [bytes]: as many bytes as [size] says. *)
Definition contents_of (ct text : option str) (bytes : list N) (st : store) : outcome (body * store) unit :=
  match parse_mime x (match ct with Some t => t | None => S_ "text/plain" end) with
  | Some t =>
      let s := match text with Some s => s | None => [] end in
      if is_xml t then bind (process_xml w x junk print_xml s st) (fun r => Ok (BPresent (fst r) (Some t) None, snd r))
      else if is_text t || is_json t then bind (process_json w x junk s st) (fun r => Ok (BPresent (utf8 (fst r)) (Some t) None, snd r))
      else Ok (BPresent bytes (Some t) None, st)
  | None => Ok (BPresent bytes None None, st)
  end.
Definition msg_with_contents (ct text : option str) (bytes : list N) (m : xmsg) : outcome xmsg unit :=
  bind (contents_of ct text bytes (mkStore (xm_rules m) (xm_gens m))) (fun r =>
    Ok (mkXM (fst r) (xm_meta m) (st_rules (snd r)) (xm_meta_rules m) (st_gens (snd r)))).
(** Only asynchronous messages have contents of their own; the others are left as they are. *)
Definition message_with_contents (ct text : option str) (bytes : list N) (i : xint) : outcome xint unit :=
  match i with
  | XAsync m => bind (msg_with_contents ct text bytes m) (fun m => Ok (XAsync m))
  | _ => Ok i
  end.

(** ** Metadata of a message *)
Definition with_meta (m : xmsg) (md : list (str * json)) : xmsg := mkXM (xm_body m) md (xm_rules m) (xm_meta_rules m) (xm_gens m).
(** 1256-1268: the rules of the category "metadata" and the generators. *)
Definition msg_with_metadata (key value : str) (m : xmsg) : outcome xmsg unit :=
  bind (metadata_value w junk parse key value (mkStore (xm_meta_rules m) (xm_gens m))) (fun r =>
    Ok (mkXM (xm_body m) (map_put key (fst r) (xm_meta m)) (xm_rules m) (st_rules (snd r)) (st_gens (snd r)))).
(** 2921-2931: a value that is NULL is an empty text. *)
Definition message_with_metadata (key value : option str) (i : xint) : xint :=
  match key, i with
  | Some k, XAsync m => XAsync (with_meta m (map_put k (JStr (match value with Some v => v | None => [] end)) (xm_meta m)))
  | _, _ => i
  end.
(** 2950-2976. *)
Definition message_with_metadata_v2 (key value : option str) (i : xint) : outcome xint unit :=
  match key, i with
  | Some k, XAsync m => bind (msg_with_metadata k (match value with Some v => v | None => [] end) m) (fun m => Ok (XAsync m))
  | _, _ => Ok i
  end.
(** 1222-1315. A NULL pointer for the value removes the entry; [VBad] is a value that is not UTF-8. *)
Inductive mvalue := VNull | VBad | VText (s : str).
Fixpoint each {A} (f : A -> outcome A unit) (l : list A) : outcome (list A) unit :=
  match l with
  | [] => Ok []
  | a :: l' => bind (f a) (fun a => bind (each f l') (fun l => Ok (a :: l)))
  end.
Definition with_metadata (started : bool) (key : option str) (value : mvalue) (s : side) (i : xint) : outcome (xint * bool) unit :=
  match key, value with
  | None, _ | _, VBad => Ok (i, false)
  | Some k, _ =>
      if started then Ok (i, false) else
      let f := match value with
               | VText v => msg_with_metadata k v
               | _ => fun m => Ok (with_meta m (map_remove k (xm_meta m)))
               end in
      match i, s with
      | XHttp _, _ => Ok (i, false)
      | XAsync m, _ => bind (f m) (fun m => Ok (XAsync m, true))
      | XSync q l, Request => bind (f q) (fun q => Ok (XSync q l, true))
      | XSync q l, Response => bind (each f l) (fun l => Ok (XSync q l, true))
      end
  end.
End Message.

(** ** Metadata of the pact *)
Definition protected (ns : str) : bool := existsb (str_eqb ns) [S_ "pactRust"; S_ "pactSpecification"].
Definition or_empty (s : option str) : str := match s with Some s => s | None => [] end.
Definition with_meta_of (i : inner) (md : list (str * json)) : inner :=
  let p := in_pact i in mkInner (mkV4P (vp_who p) (vp_ints p) md (vp_plugins p)) (in_started i) (in_spec i).
(** 1137-1178. *)
Definition with_pact_metadata (ns name value : option str) (i : inner) : inner * bool :=
  let ns := or_empty ns in
  let md := vp_meta (in_pact i) in
  match ns with
  | [] => (i, false)
  | _ =>
      if protected ns then (i, false)
      else
        let v := match obj_get ns md with
                 | Some (JObj o) => JObj (obj_insert (or_empty name) (JStr (or_empty value)) o)
                 | _ => JObj [(or_empty name, JStr (or_empty value))]
                 end in
        (with_meta_of i (obj_insert ns v md), negb (in_started i))
  end.
(** 3064-3078: whatever was there is replaced, also a name that the other call protects. *)
Definition with_message_pact_metadata (ns name value : option str) (i : inner) : inner :=
  match or_empty ns with
  | [] => i
  | ns => with_meta_of i (obj_insert ns (JObj [(or_empty name, JStr (or_empty value))]) (vp_meta (in_pact i)))
  end.
