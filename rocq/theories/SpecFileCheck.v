(** What a pact file of the versions 1 to 3 looks like, for C122: [neat] is a file about which there is nothing to say, [usable] one
    without an error (a strict check takes what is missing or not known for an error). *)
From Coq Require Import Ascii String List Arith NArith ZArith Lia Bool.
From Verif Require Import Base PathExp Json Text OldFile.
Import ListNotations.
Open Scope N_scope.

Section Spec.
Variable semver : str -> option (N * N).

(** [o] has the entry [k]. *)
Definition at_name (k : string) (o : list (str * json)) (j : json) : Prop := obj_get (S_ k) o = Some j.
Definition absent (k : string) (o : list (str * json)) : Prop := obj_get (S_ k) o = None.
Definition if_there (k : string) (o : list (str * json)) (P : json -> Prop) : Prop := forall j, at_name k o j -> P j.
Definition there (k : string) (o : list (str * json)) (P : json -> Prop) : Prop := exists j, at_name k o j /\ P j.
Definition a_text (j : json) : Prop := exists s, j = JStr s.
Definition an_object (j : json) : Prop := exists o, j = JObj o.
Definition only_names (names : list string) (o : list (str * json)) : Prop := forall k v, In (k, v) o -> In k (map S_ names).
(** [P] for the entries of an object *)
Definition object_with (P : list (str * json) -> Prop) (j : json) : Prop := exists o, j = JObj o /\ P o.
Definition array_of (P : json -> Prop) (j : json) : Prop := exists l, j = JArr l /\ forall a, In a l -> P a.

(** A version of the specification: 1.0, 1.1, 2.0, 3.0, 4.0 (any patch level). *)
Definition a_version (j : json) : Prop :=
  exists t v, j = JStr t /\ semver t = Some v /\ In v [(1, 0); (1, 1); (2, 0); (3, 0); (4, 0)].
Definition newer_than_v2 (v : spec_version) : Prop := v = SV3 \/ v = SV4.

(** ** Nothing to say *)
Definition neat_participant : json -> Prop := object_with (fun o => there "name" o a_text /\ only_names ["name"%string] o).
Definition neat_state (j : json) : Prop :=
  a_text j \/ object_with (fun o => there "name" o a_text /\ if_there "params" o an_object /\ only_names ["name"; "params"]%string o) j.
Definition neat_interaction (v : spec_version) : json -> Prop := object_with (fun o =>
  there "description" o a_text /\
  only_names ["_id"; "description"; "providerState"; "provider_state"; "providerStates"; "request"; "response"]%string o /\
  if_there "providerStates" o (array_of neat_state) /\
  (absent "providerStates" o ->
     if_there "providerState" o (fun s => ~ newer_than_v2 v /\ neat_state s) /\
     (absent "providerState" o -> absent "provider_state" o))).
Definition neat_metadata : json -> Prop := object_with (fun o =>
  absent "pactSpecificationVersion" o /\
  if_there "pactSpecification" o (object_with (fun s => there "version" s a_version)) /\
  (absent "pactSpecification" o -> absent "pact-specification" o)).
Definition neat (v : spec_version) : json -> Prop := object_with (fun o =>
  there "consumer" o neat_participant /\ there "provider" o neat_participant /\
  there "interactions" o (fun l => array_of (neat_interaction v) l /\ l <> JArr []) /\
  if_there "metadata" o neat_metadata /\
  only_names ["consumer"; "provider"; "interactions"; "metadata"]%string o).

(** ** No error *)
Definition usable_participant (strict : bool) : json -> Prop := object_with (fun o =>
  if_there "name" o a_text /\ (strict = true -> ~ absent "name" o /\ only_names ["name"%string] o)).
Definition usable_state (strict : bool) (j : json) : Prop :=
  a_text j \/ object_with (fun o => there "name" o a_text /\ if_there "params" o an_object /\
                                    (strict = true -> only_names ["name"; "params"]%string o)) j.
Definition usable_interaction (strict : bool) : json -> Prop := object_with (fun o =>
  if_there "description" o a_text /\
  if_there "providerStates" o (array_of (usable_state strict)) /\
  (absent "providerStates" o ->
     if_there "providerState" o (usable_state strict) /\
     (absent "providerState" o -> if_there "provider_state" o (usable_state strict))) /\
  (strict = true -> ~ absent "description" o /\
     only_names ["_id"; "description"; "providerState"; "provider_state"; "providerStates"; "request"; "response"]%string o)).
Definition usable_specification : json -> Prop := object_with (fun s => if_there "version" s (fun t => t = JNull \/ a_version t)).
Definition usable_metadata : json -> Prop := object_with (fun o =>
  if_there "pactSpecification" o usable_specification /\
  (absent "pactSpecification" o -> if_there "pact-specification" o usable_specification)).
Definition usable (strict : bool) : json -> Prop := object_with (fun o =>
  if_there "consumer" o (usable_participant strict) /\ if_there "provider" o (usable_participant strict) /\
  if_there "interactions" o (array_of (usable_interaction strict)) /\
  if_there "metadata" o usable_metadata /\
  (strict = true -> ~ absent "consumer" o /\ ~ absent "provider" o /\
     only_names ["consumer"; "provider"; "interactions"; "metadata"]%string o)).
End Spec.

(** ** Where the findings are *)
Section Places.
Variable semver : str -> option (N * N).
Definition unknown_name (names : list string) (o : list (str * json)) (k : str) : Prop := (exists v, In (k, v) o) /\ ~ In k (map S_ names).
Inductive participant_fault (j : json) : str -> Prop :=
| PF_object : ~ an_object j -> participant_fault j []
| PF_name o : j = JObj o -> ~ there "name" o a_text -> participant_fault j (S_ "/name")
| PF_unknown o k : j = JObj o -> unknown_name ["name"%string] o k -> participant_fault j [].
(** The states of an interaction: under the first of these names that is there. *)
Inductive states_in (o : list (str * json)) : list json -> Prop :=
| SI_new l : at_name "providerStates" o (JArr l) -> states_in o l
| SI_old s : absent "providerStates" o -> at_name "providerState" o s -> states_in o [s]
| SI_older s : absent "providerStates" o -> absent "providerState" o -> at_name "provider_state" o s -> states_in o [s].
Inductive interaction_fault (v : spec_version) (j : json) : str -> Prop :=
| IF_object : ~ an_object j -> interaction_fault v j []
| IF_description o d : j = JObj o -> at_name "description" o d -> ~ a_text d -> interaction_fault v j (S_ "/description")
| IF_missing o : j = JObj o -> absent "description" o -> interaction_fault v j []
| IF_array o s : j = JObj o -> at_name "providerStates" o s -> ~ (exists l, s = JArr l) -> interaction_fault v j []
| IF_old o s : j = JObj o -> newer_than_v2 v -> absent "providerStates" o -> at_name "providerState" o s -> interaction_fault v j []
| IF_older o s : j = JObj o -> absent "providerStates" o -> absent "providerState" o -> at_name "provider_state" o s -> interaction_fault v j []
| IF_state o l n s : j = JObj o -> states_in o l -> nth_error l n = Some s -> ~ neat_state s ->
    interaction_fault v j (S_ "/providerStates/" ++ show_N (N.of_nat n))
| IF_unknown o k : j = JObj o ->
    unknown_name ["_id"; "description"; "providerState"; "provider_state"; "providerStates"; "request"; "response"]%string o k ->
    interaction_fault v j [].
Inductive specification_fault (s : json) : str -> Prop :=
| SF_object : ~ an_object s -> specification_fault s []
| SF_missing o : s = JObj o -> absent "version" o -> specification_fault s []
| SF_version o t : s = JObj o -> at_name "version" o t -> ~ a_version semver t -> specification_fault s (S_ "/version").
Inductive metadata_fault (j : json) : str -> Prop :=
| MF_object : ~ an_object j -> metadata_fault j []
| MF_old o : j = JObj o -> ~ absent "pactSpecificationVersion" o -> metadata_fault j []
| MF_dashed o : j = JObj o -> absent "pactSpecification" o -> ~ absent "pact-specification" o -> metadata_fault j []
| MF_specification o s p : j = JObj o ->
    (at_name "pactSpecification" o s \/ absent "pactSpecification" o /\ at_name "pact-specification" o s) ->
    specification_fault s p -> metadata_fault j (S_ "/pactSpecification" ++ p).
Inductive fault (v : spec_version) (j : json) : str -> Prop :=
| F_object : ~ an_object j -> fault v j (S_ "/")
| F_no_consumer o : j = JObj o -> absent "consumer" o -> fault v j (S_ "/consumer")
| F_consumer o c p : j = JObj o -> at_name "consumer" o c -> participant_fault c p -> fault v j (S_ "/consumer" ++ p)
| F_no_provider o : j = JObj o -> absent "provider" o -> fault v j (S_ "/provider")
| F_provider o c p : j = JObj o -> at_name "provider" o c -> participant_fault c p -> fault v j (S_ "/provider" ++ p)
| F_no_interactions o : j = JObj o -> ~ there "interactions" o (fun l => exists i is_, l = JArr (i :: is_)) -> fault v j (S_ "/interactions")
| F_interaction o l n i p : j = JObj o -> at_name "interactions" o (JArr l) -> nth_error l n = Some i -> interaction_fault v i p ->
    fault v j (S_ "/interactions/" ++ show_N (N.of_nat n) ++ p)
| F_metadata o m p : j = JObj o -> at_name "metadata" o m -> metadata_fault m p -> fault v j (S_ "/metadata" ++ p)
| F_unknown o k : j = JObj o -> unknown_name ["consumer"; "provider"; "interactions"; "metadata"]%string o k -> fault v j (S_ "/" ++ k).
End Places.
