(** Model of the verification of the format of a pact file:
    rust/pact_models/src/verify_json.rs, sync_pact.rs:349-406 [RequestResponsePact::verify_json], sync_interaction.rs:267-327,
    provider_states.rs:127-164, lib.rs:222-251 [Consumer], 292-321 [Provider], pact.rs:379-428 [verify_metadata],
    message_pact.rs:353-366 [MessagePact], v4/pact.rs:420-434 [V4Pact], lib.rs:118-142 [parse_version].

    The keys of an object are visited in the order of the map. A panic is not possible: nothing here indexes or unwraps except
    [values.get("providerStates").unwrap()] after [contains_key]. *)
From Coq Require Import Ascii String List Arith NArith ZArith Lia Bool.
From Verif Require Import Base PathExp Json Text MatchingRules Matchers Headers ContentType Http Merge PactFile OldFile.
Import ListNotations.
Open Scope N_scope.

(** verify_json.rs:12-20 [ResultLevel], 33-41 [PactFileVerificationResult]. *)
Inductive level := LError | LWarning | LNotice.
Record finding := mkFinding { fi_path : str; fi_level : level; fi_message : str }.

(** verify_json.rs:60-70 [json_type_of]. *)
Definition json_type_of (j : json) : str :=
  match j with
  | JNull => S_ "Null" | JBool _ => S_ "Bool" | JNum _ => S_ "Number" | JStr _ => S_ "String" | JArr _ => S_ "Array" | JObj _ => S_ "Object"
  end.

Section Check.
Variable semver : str -> option (N * N).   (* [lenient_semver::parse]: the major and the minor number *)

(** lib.rs:118-142: is the result an [Ok]? *)
Definition parsed_version (s : str) : bool :=
  match semver s with
  | Some (major, minor) =>
      if major =? 1 then (minor =? 0) || (minor =? 1)
      else if (major =? 2) || (major =? 3) || (major =? 4) then minor =? 0
      else false
  | None => false
  end.

(** [if strict { ERROR } else { WARNING }] *)
Definition by_strict (strict : bool) : level := if strict then LError else LWarning.
Definition is_string (j : json) : bool := match j with JStr _ => true | _ => false end.
Definition is_object (j : json) : bool := match j with JObj _ => true | _ => false end.
Definition known (names : list str) (k : str) : bool := existsb (str_eqb k) names.
(** The loops over [values.keys()]. *)
Definition unknown {A} (names : list str) (f : str -> finding) (o : list (str * A)) : list finding :=
  flat_map (fun kv => if known names (fst kv) then [] else [f (fst kv)]) o.

(** lib.rs:222-251, 292-321: the same for the consumer and the provider. *)
Definition verify_participant (path : str) (j : json) (strict : bool) : list finding :=
  match j with
  | JObj o =>
      match obj_get (S_ "name") o with
      | Some n => if is_string n then [] else [mkFinding (path ++ S_ "/name") LError (S_ "Must be a String, got " ++ json_type_of j)]
      | None => [mkFinding (path ++ S_ "/name") (by_strict strict) (S_ "Missing name")]
      end ++
      unknown [S_ "name"] (fun k => mkFinding path (by_strict strict) (S_ "Unknown attribute '" ++ k ++ S_ "'")) o
  | _ => [mkFinding path LError (S_ "Must be an Object, got " ++ json_type_of j)]
  end.

(** provider_states.rs:127-164. *)
Definition verify_state (path : str) (j : json) (strict : bool) : list finding :=
  match j with
  | JStr _ => []
  | JObj o =>
      match obj_get (S_ "name") o with
      | None => [mkFinding path LError (S_ "Provider state 'name' is required")]
      | Some n => if is_string n then [] else [mkFinding path LError (S_ "Provider state 'name' must be a String, got " ++ json_type_of j)]
      end ++
      match obj_get (S_ "params") o with
      | Some p => if is_object p then [] else [mkFinding path LError (S_ "Provider state 'params' must be an Object, got " ++ json_type_of j)]
      | None => []
      end ++
      unknown [S_ "name"; S_ "params"] (fun k => mkFinding path (by_strict strict) (S_ "Unknown attribute '" ++ k ++ S_ "'")) o
  | _ => [mkFinding path LError (S_ "Must be a String or Object, got " ++ json_type_of j)]
  end.

(** [values.iter().enumerate().flat_map(..)] *)
Fixpoint each_of {A} (f : nat -> A -> list finding) (n : nat) (l : list A) : list finding :=
  match l with
  | [] => []
  | a :: l' => f n a ++ each_of f (S n) l'
  end.

Definition at_least_v3 (v : spec_version) : bool := match v with SV3 | SV4 => true | _ => false end.

(** sync_interaction.rs:281-296: the states that are looked at, and what is said about the name they have. *)
Definition states_of (path : str) (v : spec_version) (o : list (str * json)) : json * list finding :=
  match obj_get (S_ "providerStates") o with
  | Some j => (j, [])
  | None =>
      match obj_get (S_ "providerState") o with
      | Some j => (JArr [j], if at_least_v3 v
                             then [mkFinding path LWarning (S_ "'providerState' is deprecated, use 'providerStates' instead")]
                             else [])
      | None =>
          match obj_get (S_ "provider_state") o with
          | Some j => (JArr [j], [mkFinding path LWarning (S_ "'provider_state' is deprecated, use 'providerStates' instead")])
          | None => (JArr [], [])
          end
      end
  end.
Definition interaction_names : list str :=
  [S_ "_id"; S_ "description"; S_ "providerState"; S_ "provider_state"; S_ "providerStates"; S_ "request"; S_ "response"].
(** sync_interaction.rs:267-327. *)
Definition verify_interaction (path : str) (j : json) (strict : bool) (v : spec_version) : list finding :=
  match j with
  | JObj o =>
      match obj_get (S_ "description") o with
      | Some d => if is_string d then [] else [mkFinding (path ++ S_ "/description") LError (S_ "Must be a String, got " ++ json_type_of j)]
      | None => [mkFinding path (by_strict strict) (S_ "Missing description")]
      end ++
      snd (states_of path v o) ++
      match fst (states_of path v o) with
      | JArr l => each_of (fun n s => verify_state (path ++ S_ "/providerStates/" ++ show_N (N.of_nat n)) s strict) 0 l
      | s => [mkFinding path LError (S_ "'providerStates' must be an Array, got " ++ json_type_of s)]
      end ++
      unknown interaction_names (fun k => mkFinding path (by_strict strict) (S_ "Unexpected attribute '" ++ k ++ S_ "'")) o
  | _ => [mkFinding path LError (S_ "Must be an Object, got " ++ json_type_of j)]
  end.

(** pact.rs:379-428. *)
Definition verify_specification (spec : json) : list finding :=
  match spec with
  | JObj o =>
      match obj_get (S_ "version") o with
      | Some JNull => [mkFinding (S_ "/metadata/pactSpecification/version") LWarning (S_ "pactSpecification version is NULL")]
      | Some (JStr t) =>
          if parsed_version t then []
          else [mkFinding (S_ "/metadata/pactSpecification/version") LError (S_ "'" ++ t ++ S_ "' is not a valid Pact specification version")]
      | Some t => [mkFinding (S_ "/metadata/pactSpecification/version") LError (S_ "Version must be a String, got " ++ json_type_of t)]
      | None => [mkFinding (S_ "/metadata/pactSpecification") LWarning (S_ "pactSpecification is missing the version attribute")]
      end
  | _ => [mkFinding (S_ "/metadata/pactSpecification") LError (S_ "pactSpecification must be an Object, got " ++ json_type_of spec)]
  end.
Definition verify_metadata (j : json) : list finding :=
  match j with
  | JObj o =>
      let '(spec, old) :=
        match obj_get (S_ "pactSpecification") o with
        | Some s => (Some s, [])
        | None =>
            match obj_get (S_ "pact-specification") o with
            | Some s => (Some s, [mkFinding (S_ "/metadata") LWarning (S_ "'pact-specification' is deprecated, use 'pactSpecification' instead")])
            | None => (None, [])
            end
        end in
      old ++
      (if obj_has (S_ "pactSpecificationVersion") o
       then [mkFinding (S_ "/metadata") LWarning (S_ "'pactSpecificationVersion' is deprecated, use 'pactSpecification/version' instead")]
       else []) ++
      match spec with Some s => verify_specification s | None => [] end
  | _ => [mkFinding (S_ "/metadata") LError (S_ "Metadata must be an Object, got " ++ json_type_of j)]
  end.

(** sync_pact.rs:349-406: the path that is given is not used. The message about interactions that are not an array names the type of
    the whole document. *)
Definition verify_pact (j : json) (strict : bool) (v : spec_version) : list finding :=
  match j with
  | JObj o =>
      match obj_get (S_ "consumer") o with
      | Some c => verify_participant (S_ "/consumer") c strict
      | None => [mkFinding (S_ "/consumer") (by_strict strict) (S_ "Missing consumer")]
      end ++
      match obj_get (S_ "provider") o with
      | Some p => verify_participant (S_ "/provider") p strict
      | None => [mkFinding (S_ "/provider") (by_strict strict) (S_ "Missing provider")]
      end ++
      match obj_get (S_ "interactions") o with
      | Some (JArr []) => [mkFinding (S_ "/interactions") LWarning (S_ "Interactions is empty")]
      | Some (JArr l) => each_of (fun n i => verify_interaction (S_ "/interactions/" ++ show_N (N.of_nat n)) i strict v) 0 l
      | Some _ => [mkFinding (S_ "/interactions") LError (S_ "Must be an Object, got " ++ json_type_of j)]
      | None => [mkFinding (S_ "/interactions") LWarning (S_ "Missing interactions")]
      end ++
      match obj_get (S_ "metadata") o with Some m => verify_metadata m | None => [] end ++
      unknown [S_ "consumer"; S_ "provider"; S_ "interactions"; S_ "metadata"]
        (fun k => mkFinding (S_ "/" ++ k) (by_strict strict) (S_ "Unexpected attribute '" ++ k ++ S_ "'")) o
  | _ => [mkFinding (S_ "/") LError (S_ "Must be an Object, got " ++ json_type_of j)]
  end.

(** message_pact.rs:353-366, v4/pact.rs:420-434: only that it is an object. *)
Definition verify_message_pact (path : str) (j : json) : list finding :=
  match j with JObj _ => [] | _ => [mkFinding path LError (S_ "Must be an Object, got " ++ json_type_of j)] end.
Definition verify_v4_pact (j : json) : list finding := verify_message_pact (S_ "/") j.
End Check.
