(** What becomes of a pact that is written in the format of another version (C100). *)
From Coq Require Import Ascii String List Arith NArith ZArith Lia Bool Permutation Sorted.
From Verif Require Import Base PathExp Json Text MatchingRules Headers Query ContentType Http Merge Expr Generators Base64 PactFile OldFile
  SpecQuery SpecRules SpecRulesV2 SpecGenerators PropHeaders SpecPactFile SpecOldFile.
Import ListNotations.
Open Scope N_scope.

(** [out] has the elements of [l] in the order of their descriptions, those with the same description in the order of [l]. *)
Definition sorted_by {A} (desc : A -> str) (l out : list A) : Prop :=
  Permutation l out /\ StronglySorted (fun a b => desc a = desc b \/ str_lt (desc a) (desc b)) out /\
  forall d, filter (fun a => str_eqb (desc a) d) out = filter (fun a => str_eqb (desc a) d) l.

(** The kinds of interactions of a V4 pact. *)
Definition is_http (i : file_interaction) : Prop := exists q r, f_payload i = FHttp q r.
Definition is_async (i : file_interaction) : Prop := exists m, f_payload i = FAsync m.
Definition is_sync (i : file_interaction) : Prop := exists q l, f_payload i = FSync q l.
Definition same_kind (i j : file_interaction) : Prop :=
  (is_http i /\ is_http j) \/ (is_async i /\ is_async j) \/ (is_sync i /\ is_sync j).

Section Spec.
Variable w : world.
Variable x : externals.

(** ** From an older version to V4 *)
(** The interactions a V4 file can hold. *)
Definition http_fits_v4 (i : http_interaction) : Prop :=
  Forall (fun s => distinct (st_params s)) (h_states i) /\ request_ok w x (h_request i) /\ response_ok w x (h_response i).
Definition message_fits_v4 (m : old_message) : Prop :=
  Forall (fun s => distinct (st_params s)) (om_states m) /\ message_ok w x own_only (om_body m).
Definition metadata_fits_v4 (md : old_metadata) : Prop :=
  old_metadata_ok md /\ entry (S_ "plugins") md = None.
(** What the older versions do not have is absent. *)
Definition nothing_new (i : file_interaction) : Prop :=
  f_id i = None /\ f_key i = None /\ x_pending (f_extra i) = false /\ x_transport (f_extra i) = None /\
  (forall k, entry k (x_comments (f_extra i)) = None) /\ (forall k, entry k (x_plugin (f_extra i)) = None) /\ x_markup (f_extra i) = ([], []).
Definition http_in_v4 (i : http_interaction) (i' : file_interaction) : Prop :=
  nothing_new i' /\ f_desc i' = h_desc i /\ Forall2 same_state (h_states i) (f_states i') /\
  exists q r, f_payload i' = FHttp q r /\ same_request w x (h_request i) q /\ same_response w x (h_response i) r.
Definition message_in_v4 (m : old_message) (i' : file_interaction) : Prop :=
  nothing_new i' /\ f_desc i' = om_desc m /\ Forall2 same_state (om_states m) (f_states i') /\
  exists m', f_payload i' = FAsync m' /\ same_message w x own_only (om_body m) m'.
(** The metadata: objects of texts, with the versions of the format and the library. *)
Definition metadata_in_v4 (lib : str) (md : old_metadata) (md' : list (str * json)) : Prop :=
  entry (S_ "pactSpecification") md' = Some (JObj [(S_ "version", JStr (S_ "4.0"))]) /\
  (exists m, entry (S_ "pactRust") md' = Some (JObj m) /\ entry (S_ "models") m = Some (JStr lib) /\
     forall k, k <> S_ "models" -> entry k m = match entry (S_ "pactRust") md with Some o => option_map JStr (entry k o) | None => None end) /\
  forall k, k <> S_ "pactSpecification" -> k <> S_ "pactRust" ->
    match entry k md with
    | Some o => exists m, entry k md' = Some (JObj m) /\ forall k', entry k' m = option_map JStr (entry k' o)
    | None => entry k md' = None
    end.

(** ** From V4 to an older version *)
Definition http_fits (v : spec_version) (i : file_interaction) : Prop :=
  exists q r, f_payload i = FHttp q r /\ old_states_ok v (f_states i) /\ old_request_ok w x v q /\ old_response_ok w x v r.
Definition http_in_old (v : spec_version) (i : file_interaction) (i' : http_interaction) : Prop :=
  exists q r, f_payload i = FHttp q r /\
    h_id i' = None /\ h_desc i' = f_desc i /\ same_old_states v (f_states i) (h_states i') /\
    same_old_request w x v q (h_request i') /\ same_old_response w x v r (h_response i').
(** The message keeps its metadata and gets the type of its contents as "contentType", unless it has such an entry. *)
Definition typed_metadata (m : message) (md : list (str * json)) : Prop :=
  match entry (S_ "contentType") (msg_metadata m), msg_contents m with
  | None, BPresent _ (Some t) _ => same_map md ((S_ "contentType", JStr (ct_show t)) :: msg_metadata m)
  | _, _ => same_map md (msg_metadata m)
  end.
Definition message_fits (i : file_interaction) : Prop :=
  exists m, f_payload i = FAsync m /\ distinct (msg_metadata (fst m)) /\
    forall md, distinct md -> typed_metadata (fst m) md ->
      old_message_ok w x (mkOM (f_id i) (f_desc i) (f_states i) (mkMsg (msg_contents (fst m)) md (msg_rules (fst m)), snd m)).
Definition message_in_old (i : file_interaction) (m' : old_message) : Prop :=
  exists m md, f_payload i = FAsync m /\ distinct md /\ typed_metadata (fst m) md /\
    same_old_message w x (mkOM (f_id i) (f_desc i) (f_states i) (mkMsg (msg_contents (fst m)) md (msg_rules (fst m)), snd m)) m'.
(** Only objects are kept of the metadata, their values as texts. *)
Definition metadata_fits (md : list (str * json)) : Prop :=
  distinct md /\ (forall k m, In (k, JObj m) md -> distinct m) /\
  entry (S_ "pact-specification") md = None /\ entry (S_ "pact-rust") md = None.
Definition texts_kept (m : list (str * json)) (o : list (str * str)) : Prop :=
  forall k, entry k o = option_map (json_to_string w) (entry k m).
Definition metadata_in_old (lib : str) (v : spec_version) (md : list (str * json)) (md' : old_metadata) : Prop :=
  entry (S_ "pactSpecification") md' = Some [(S_ "version", version_str v)] /\
  (exists m, entry (S_ "pactRust") md' = Some m /\ entry (S_ "models") m = Some lib /\
     forall k, k <> S_ "models" ->
       entry k m = match entry (S_ "pactRust") md with Some (JObj o) => option_map (json_to_string w) (entry k o) | _ => None end) /\
  forall k, k <> S_ "pactSpecification" -> k <> S_ "pactRust" ->
    match entry k md with
    | Some (JObj m) => exists o, entry k md' = Some o /\ texts_kept m o
    | _ => entry k md' = None
    end.

(** ** Which kind of pact a file is *)
(** The version a file declares: "version" of the entry "pactSpecification" of its metadata, or if there is none of
    "pact-specification". *)
Definition declared_version (j : json) : option str :=
  match json_get (S_ "metadata") j with
  | Some md =>
      match (match json_get (S_ "pactSpecification") md with Some s => Some s | None => json_get (S_ "pact-specification") md end) with
      | Some s => option_map (fun v => match v with JStr t => t | v => json_show w v end) (json_get (S_ "version") s)
      | None => None
      end
  | None => None
  end.
Definition is_version (semver : str -> option (N * N)) (t : option str) (v : spec_version) : Prop :=
  match t with
  | None => v = SV3
  | Some t =>
      match v with
      | SV1 => exists minor, semver t = Some (1, minor) /\ minor <> 1
      | SV1_1 => semver t = Some (1, 1)
      | SV2 => exists minor, semver t = Some (2, minor)
      | SV3 => exists minor, semver t = Some (3, minor)
      | SV4 => exists minor, semver t = Some (4, minor)
      | SUnknown => semver t = None \/ exists major minor, semver t = Some (major, minor) /\ (major = 0 \/ 4 < major)
      end
  end.
(** In a file the names of an object are in order and different, as serde_json has them. *)
Definition metadata_sorted (j : json) : Prop := forall md, json_get (S_ "metadata") j = Some (JObj md) -> StronglySorted str_lt (keys md).
End Spec.
