(** Examples of C120. *)
From Coq Require Import Ascii String List Arith NArith ZArith Lia Bool.
From Verif Require Import Base PathExp Json Text MatchingRules Matchers Headers ContentType SpecQuery Http Expr Generators RuleExpr Integration SpecIntegration
  PropPattern3 PropIntegration Merge PactFile Handles FfiBody SpecFfiBody PropFfiBody3 FfiMessage SpecFfiMessage PropFfiMessage.
Import ListNotations.
Open Scope N_scope.

Definition nothing : xmsg := mkXM BMissing [] (mkCat CBody []) (mkCat CMetadata []) [].
Definition contents (ct text : option str) (raw : list N) (i : xint) : outcome xint unit :=
  message_with_contents digits_world ffi_ext (fun _ => 0%nat) (fun _ => S_ "<root/>") ct text raw i.
Definition body_of (o : outcome xint unit) : option body := match o with Ok (XAsync m) => Some (xm_body m) | _ => None end.
(** A document with a matcher: its example value and the rule. *)
Example C120_example : exists p g,
  contents (Some (S_ "application/json")) (Some marked) marked (XAsync nothing) =
    Ok (XAsync (mkXM (BPresent (S_ "{""id"":7}") (Some (xct "application" "json")) None) [] (id_rules p) (mkCat CMetadata []) g)) /\ path_expr p = S_ "$.id".
Proof. eexists. eexists. split; [vm_compute; reflexivity | reflexivity]. Qed.
(** Found: a text of the type text/plain (also without a type) that is a JSON document is written anew, blanks are lost. *)
Example C120_text_rewritten : body_of (contents None (Some (S_ "{ ""id"" : 7 }")) [] (XAsync nothing)) = Some (BPresent (S_ "{""id"":7}") (Some (xct "text" "plain")) None).
Proof. vm_compute. reflexivity. Qed.
(** Found: contents that are XML are lost; [pactffi_with_body] keeps them. *)
Example C120_xml_lost :
  body_of (contents (Some (S_ "application/xml")) (Some (S_ "<a/>")) (S_ "<a/>") (XAsync nothing)) = Some (BPresent [] (Some (xct "application" "xml")) None) /\
  exists q, run (Some (S_ "application/xml")) (Some (S_ "<a/>")) (FIAsync fmsg_default) = Ok (FIAsync q, true) /\
    fm_body q = BPresent (S_ "<a/>") (Some (xct "application" "xml")) None.
Proof. split; [vm_compute; reflexivity|]. eexists. split; vm_compute; reflexivity. Qed.
(** A type that cannot be read: the bytes as they are, without a type. *)
Example C120_untyped : body_of (contents (Some (S_ "TEXT")) None [1; 2] (XAsync nothing)) = Some (BPresent [1; 2] None None).
Proof. vm_compute. reflexivity. Qed.

(** Metadata. The parser of these examples knows one document with a matcher and numbers of one digit. *)
Definition tiny_parse (s : str) : option json :=
  if str_eqb s (S_ "matched") then Some (JObj [(S_ "pact:matcher:type", JStr (S_ "integer")); (S_ "value", JNum (PosInt 7))])
  else match s with [c] => if (48 <=? c) && (c <=? 57) then Some (JNum (PosInt (c - 48))) else None | _ => None end.
Definition set_md (started : bool) (k : string) (v : mvalue) (s : side) (i : xint) : outcome (xint * bool) unit :=
  with_metadata digits_world (fun _ => 0%nat) tiny_parse started (Some (S_ k)) v s i.
Example C120_metadata_example : exists m p,
  bind (set_md false "ID" (VText (S_ "matched")) Request (XAsync nothing)) (fun r =>
  bind (set_md false "queue" (VText (S_ "orders")) Response (fst r)) (fun r =>
  bind (set_md false "tag" (VText (S_ "1")) Request (fst r)) (fun r => set_md false "queue" VNull Request (fst r)))) = Ok (XAsync m, true) /\
  xm_meta m = [(S_ "ID", JNum (PosInt 7)); (S_ "tag", JNum (PosInt 1))] /\
  cat_rules (xm_meta_rules m) = [(p, mkRules [XRule RInteger] And false)] /\ path_expr p = S_ "ID".
Proof. eexists. eexists. repeat (apply conj); vm_compute; reflexivity. Qed.
(** Its calls are a history as in [C120_last_call_decides], on a message in order. *)
Example C120_history : exists i',
  calls_run digits_world (fun _ => 0%nat) tiny_parse
    [mkCall (S_ "ID") (VText (S_ "matched")) Request; mkCall (S_ "queue") (VText (S_ "orders")) Response; mkCall (S_ "queue") VNull Request] (XAsync nothing) i' /\
  (forall s, Forall in_order (messages_of s (XAsync nothing))) /\
  about (XAsync nothing) (mkCall (S_ "queue") VNull Request) Response (S_ "queue").
Proof.
  eexists. split; [|split].
  - eapply cr_call; [vm_compute; reflexivity|]. eapply cr_call; [vm_compute; reflexivity|]. eapply cr_call; [vm_compute; reflexivity|]. apply cr_none.
  - intros [|]; (constructor; [split; [constructor | reflexivity] | constructor]).
  - split; [reflexivity|]. split; [discriminate|]. right. eexists. reflexivity.
Qed.
(** The responses of a synchronous message all change; without one the call says true and does nothing. *)
Example C120_responses :
  (exists q l, set_md false "a" (VText (S_ "x")) Response (XSync nothing [nothing; nothing]) = Ok (XSync q l, true) /\
     map xm_meta l = [[(S_ "a", JStr (S_ "x"))]; [(S_ "a", JStr (S_ "x"))]] /\ q = nothing) /\
  set_md false "a" (VText (S_ "x")) Response (XSync nothing []) = Ok (XSync nothing [], true) /\
  set_md true "a" (VText (S_ "x")) Response (XSync nothing [nothing]) = Ok (XSync nothing [nothing], false).
Proof. split; [|split; vm_compute; reflexivity]. eexists. eexists. split; [vm_compute; reflexivity|]. split; reflexivity. Qed.
(** A name that is no path expression: with a text it is an entry like any other, with a document the call panics. *)
Example C120_name_no_path :
  set_md false "$[" (VText (S_ "matched")) Request (XAsync nothing) = Panic /\
  exists m, set_md false "$[" (VText (S_ "x")) Request (XAsync nothing) = Ok (XAsync m, true) /\ xm_meta m = [(S_ "$[", JStr (S_ "x"))].
Proof. split; [vm_compute; reflexivity|]. eexists. split; vm_compute; reflexivity. Qed.
