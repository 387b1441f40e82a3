(** Specification of the text printed for an interaction. *)
From Coq Require Import String List Arith NArith Bool.
From Verif Require Import Base PathExp Json Text MatchingRules Matchers JsonCompare Headers Query ContentType Http Merge VerifierClient Verifier.
Import ListNotations.
Open Scope N_scope.

Definition says (failed : Prop) (s : str) : Prop := (failed /\ s = S_ "FAILED") \/ (~ failed /\ s = S_ "OK").
Definition quoted (s : str) : str := S_ """" ++ s ++ S_ """".

(** One line for each element of a list, in order. *)
Definition lines_for {A} (line : A -> str -> Prop) (l : list A) (lines : list str) : Prop := Forall2 line l lines.

(** The report on a response: the status, each expected header and the body, each with what is said of it. *)
Definition response_report (r : response) (status_failed : Prop) (header_failed : str -> Prop) (body_failed : Prop) (lines : list str) : Prop :=
  exists st hs b, lines = [S_ "    returns a response which"; S_ "      has status code " ++ show_N (resp_status r) ++ S_ " (" ++ st ++ S_ ")"] ++ hs ++
      [S_ "      has a matching body (" ++ b ++ S_ ")"] /\
    says status_failed st /\ says body_failed b /\
    match resp_headers r with
    | None => hs = []
    | Some h => exists ls, hs = S_ "      includes headers" :: ls /\
        lines_for (fun kv line => exists f,
            line = S_ "        " ++ quoted (fst kv) ++ S_ " with value " ++ quoted (join_with (S_ ", ") (snd kv)) ++ S_ " (" ++ f ++ S_ ")" /\ says (header_failed (fst kv)) f) h ls
    end.
(** The report on a message. *)
Definition message_report (w : world) (metadata : list (str * json)) (metadata_failed : str -> Prop) (body_failed : Prop) (lines : list str) : Prop :=
  exists mds b, lines = [S_ "    generates a message which"] ++ mds ++ [S_ "      has a matching body (" ++ b ++ S_ ")"] /\ says body_failed b /\
    (metadata = [] -> mds = []) /\
    (metadata <> [] -> exists ls, mds = S_ "      includes metadata" :: ls /\
        lines_for (fun kv line => exists f, line = S_ "        " ++ quoted (fst kv) ++ S_ " with value " ++ json_show w (snd kv) ++ S_ " (" ++ f ++ S_ ")" /\
            says (metadata_failed (fst kv)) f) metadata ls).

(** What the comparison found. *)
Definition outcome_of (id : option str) (ms : list request_mismatch) : option mismatch_result :=
  match ms with [] => None | _ => Some (RMismatches ms id) end.
(** A header is compared as a collection when a rule is defined for it and it has not one value on both sides. *)
Definition compared_as_collection (w : world) (e a : response) (k : str) (vs : list str) : Prop :=
  exists h vs', resp_headers a = Some h /\ find_header w h k = Some vs' /\ ~ (length vs = 1 /\ length vs' = 1)%nat /\
    ctx_matcher_is_defined (header_context w (ctx_for false CHeader (resp_rules e))) (join path_root (to_lower w k)) = true.
(** The header [k] did not match. *)
Definition header_mismatched (w : world) (e a : response) (k : str) : Prop :=
  exists ms, In (k, ms) (match_headers w (resp_headers e) (resp_headers a) (header_context w (ctx_for false CHeader (resp_rules e)))) /\ ms <> [].
