(** Model of the text a verification prints for an interaction, without colours:
    rust/pact_verifier/src/request_response.rs, messages.rs:119-241, lib.rs:724-744. *)
From Coq Require Import Ascii String List Arith NArith ZArith Lia Bool.
From Verif Require Import Base PathExp Json Text MatchingRules Matchers JsonCompare Headers Query ContentType Http Merge VerifierClient Verifier.
Import ListNotations.
Open Scope N_scope.

(** [plain.paint("OK")], [plain.paint("FAILED")]. *)
Definition word (failed : bool) : str := if failed then S_ "FAILED" else S_ "OK".
(** Mismatch::mismatch_type() (pact_matching/src/lib.rs:955-966). *)
Definition is_status (m : request_mismatch) : bool := match m with MStatus _ => true | _ => false end.
Definition is_body (m : request_mismatch) : bool := match m with MBody _ | MBodyType => true | _ => false end.
Definition is_header (k : str) (m : request_mismatch) : bool := match m with MHeader h => str_eqb k (mm_path h) | _ => false end.
Definition is_metadata (k : str) (m : request_mismatch) : bool := match m with MMetadata k' _ => str_eqb k k' | _ => false end.

Section Report.
Variable w : world.
Variable message : error_kind -> str. (* the text of an error *)

Definition status_line (status : N) (failed : bool) : str :=
  S_ "      has status code " ++ show_N status ++ S_ " (" ++ word failed ++ S_ ")".
Definition header_line (k : str) (vs : list str) (failed : bool) : str :=
  S_ "        " ++ [34] ++ k ++ [34] ++ S_ " with value " ++ [34] ++ join_with (S_ ", ") vs ++ [34] ++ S_ " (" ++ word failed ++ S_ ")".
Definition metadata_line (k : str) (v : json) (failed : bool) : str :=
  S_ "        " ++ [34] ++ k ++ [34] ++ S_ " with value " ++ json_show w v ++ S_ " (" ++ word failed ++ S_ ")".
Definition body_line (failed : bool) : str := S_ "      has a matching body (" ++ word failed ++ S_ ")".
Definition failed_line (k : error_kind) : str := S_ "      Request Failed - " ++ message k.

(** lib.rs:724-744 [generate_display_for_result]. *)
Definition display_http (status : N) (status_failed : bool) (headers : option (list (str * list str * bool))) (body_failed : bool) : list str :=
  [S_ "    returns a response which"; status_line status status_failed] ++
  (match headers with
   | Some l => S_ "      includes headers" :: map (fun h => header_line (fst (fst h)) (snd (fst h)) (snd h)) l
   | None => []
   end) ++ [body_line body_failed].
(** request_response.rs:9-75 [process_request_response_result]; [None]: the interaction passed. *)
Definition report_http (r : response) (result : option mismatch_result) : list str :=
  match result with
  | None => display_http (resp_status r) false (option_map (map (fun kv => (kv, false))) (resp_headers r)) false
  | Some (RError k _) => [failed_line k]
  | Some (RMismatches ms _) =>
      display_http (resp_status r) (existsb is_status ms)
        (option_map (map (fun kv => (kv, existsb (is_header (fst kv)) ms))) (resp_headers r)) (existsb is_body ms)
  end.

(** messages.rs:225-241 [generate_display_for_result]. *)
Definition display_message (body_failed : bool) (metadata : list (str * json * bool)) : list str :=
  [S_ "    generates a message which"] ++
  (match metadata with
   | [] => []
   | _ => S_ "      includes metadata" :: map (fun h => metadata_line (fst (fst h)) (snd (fst h)) (snd h)) metadata
   end) ++ [body_line body_failed].
(** messages.rs:119-168 [process_message_result]. *)
Definition report_message (m : Http.message) (result : option mismatch_result) : list str :=
  match result with
  | None => display_message false (map (fun kv => (kv, false)) (msg_metadata m))
  | Some (RError k _) => [failed_line k]
  | Some (RMismatches ms _) =>
      display_message (existsb is_body ms) (map (fun kv => (kv, existsb (is_metadata (fst kv)) ms)) (msg_metadata m))
  end.
(** messages.rs:170-223 [process_sync_message_result]; a message has no metadata by default. *)
Definition report_sync_message (responses : list Http.message) (result : option mismatch_result) : list str :=
  match result with
  | None => flat_map (fun m => display_message false (map (fun kv => (kv, false)) (msg_metadata m))) responses
  | Some (RError k _) => [failed_line k]
  | Some (RMismatches ms _) =>
      display_message (existsb is_body ms)
        (map (fun kv => (kv, existsb (is_metadata (fst kv)) ms)) (match responses with m :: _ => msg_metadata m | [] => [] end))
  end.
End Report.
