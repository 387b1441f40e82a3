(** C104: which JSON documents may stop the reader of pact files with a panic. *)
From Coq Require Import Ascii String List NArith ZArith Bool.
From Verif Require Import Base PathExp Json MatchingRules.
Import ListNotations.
Open Scope N_scope.

(** The text [k] is the name of a member of an object somewhere in the document. *)
Inductive has_key : json -> str -> Prop :=
| hk_here k v o : In (k, v) o -> has_key (JObj o) k
| hk_member k n v o : In (n, v) o -> has_key v k -> has_key (JObj o) k
| hk_item k v l : In v l -> has_key v k -> has_key (JArr l) k.

(** Every number that directly follows an opening bracket is made of ASCII digits and fits a machine word. *)
Definition indices_fit (w : world) (k : str) : Prop :=
  forall front digits rest, k = front ++ S_ "[" ++ digits ++ rest -> digits <> [] ->
    Forall (fun c => is_numeric (uni_numeric w) c = true) digits ->
    Forall (fun c => 48 <= c <= 57) digits /\ dec_value digits 0 < 18446744073709551616.

(** The parts of an interaction: the message itself, a request, a response, or one of several responses. *)
Inductive part_of_interaction (i : json) : json -> Prop :=
| pi_itself : part_of_interaction i i
| pi_request p : json_get (S_ "request") i = Some p -> part_of_interaction i p
| pi_response p : json_get (S_ "response") i = Some p -> part_of_interaction i p
| pi_responses l p : json_get (S_ "response") i = Some (JArr l) -> In p l -> part_of_interaction i p.
(** The interactions and messages of a file. *)
Definition interaction_of_file (j i : json) : Prop :=
  exists l, In i l /\ (json_get (S_ "interactions") j = Some (JArr l) \/ json_get (S_ "messages") j = Some (JArr l)).

(** The paths of rules and generators. *)
Definition paths_fit (w : world) (p : json) : Prop :=
  forall name r k, In name [S_ "matchingRules"; S_ "requestMatchingRules"; S_ "responseMatchingRules"; S_ "generators"] ->
    json_get name p = Some r -> has_key r k -> indices_fit w k.
(** The content type header is not an empty list of values. *)
Definition content_type_given (w : world) (p : json) : Prop :=
  forall h k, json_get (S_ "headers") p = Some (JObj h) -> to_lower w k = S_ "content-type" -> ~ In (k, JArr []) h.
(** The status of a response, if given, is a number that is neither negative nor a fraction. *)
Definition status_is_whole (i : json) : Prop :=
  forall p s, json_get (S_ "response") i = Some p -> json_get (S_ "status") p = Some s -> exists n, s = JNum (PosInt n).

Definition harmless (w : world) (j : json) : Prop :=
  forall i, interaction_of_file j i ->
    status_is_whole i /\ forall p, part_of_interaction i p -> paths_fit w p /\ content_type_given w p.
