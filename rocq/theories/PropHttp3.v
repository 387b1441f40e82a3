(** C24 and C52, continued: which mismatches concern the method or path; where the content
    type of a request or response comes from. *)
From Coq Require Import Ascii String List Arith NArith ZArith Lia Bool.
From Verif Require Import Base PathExp Json Text MatchingRules Matchers JsonCompare Headers Query ContentType Http PropHttp.
Import ListNotations.
Open Scope N_scope.

(** [method_or_path_mismatch] tells exactly whether the methods differ (other than in case)
    or the path does not match; such a request is never matched. *)
Theorem C24_method_or_path : forall w x e a r, match_request w x e a = Ok r ->
  (method_or_path_mismatch r = true <->
   to_lower w (req_method e) <> to_lower w (req_method a) \/
   match_path w (req_path e) (req_path a) (ctx_for false CPath (req_rules e)) <> []) /\
  (method_or_path_mismatch r = true -> all_matched r = false).
Proof.
  intros w x e a r H. unfold match_request in H.
  destruct (match_body _ _ _ _ _ _) as [b| |]; cbn [bind] in H; try discriminate.
  injection H as <-. unfold method_or_path_mismatch, all_matched. cbn [r_method r_path r_query r_headers r_body].
  unfold match_method.
  assert (P : is_none (err_list (match_path w (req_path e) (req_path a) (ctx_for false CPath (req_rules e)))) = true <->
              match_path w (req_path e) (req_path a) (ctx_for false CPath (req_rules e)) = []).
  { destruct (match_path w (req_path e) (req_path a) (ctx_for false CPath (req_rules e))); cbn; split; congruence. }
  destruct (str_eqb_spec (to_lower w (req_method e)) (to_lower w (req_method a))) as [E|N]; cbn [negb orb andb].
  - destruct (is_none _) eqn:Q; cbn [negb andb].
    + split; [|discriminate]. split; [discriminate|]. intros [C|C]; [contradiction|]. destruct (C (proj1 P eq_refl)).
    + split; [|reflexivity]. split; [|reflexivity]. intros _. right. intro C. apply P in C. discriminate.
  - split; [|reflexivity]. split; [|reflexivity]. intros _. left. exact N.
Qed.

(** The content type used for a request or response: the one of its body if it has one,
    otherwise its content-type header if that can be parsed, otherwise what the text of the
    body looks like, otherwise unknown. *)
Inductive has_content_type (w : world) (x : externals) (p : part) : content_type -> Prop :=
  | hct_body : forall bytes ct h, part_body p = BPresent bytes (Some ct) h -> has_content_type w x p ct
  | hct_header : forall v ct, body_content_type (part_body p) = None ->
      lookup_header_value w (part_headers p) (S_ "content-type") = Some v -> parse_mime x v = Some ct ->
      has_content_type w x p ct
  | hct_detected : forall bytes h,
      part_body p = BPresent bytes None h ->
      (forall v, lookup_header_value w (part_headers p) (S_ "content-type") = Some v -> parse_mime x v = None) ->
      has_content_type w x p (detect_text x (match from_utf8 bytes with Some s => s | None => [] end))
  | hct_unknown : (part_body p = BMissing \/ part_body p = BEmpty \/ part_body p = BNull) ->
      (forall v, lookup_header_value w (part_headers p) (S_ "content-type") = Some v -> parse_mime x v = None) ->
      has_content_type w x p (mkCT (S_ "*") (S_ "*") [] None).
Theorem C52_content_type_of_a_part : forall w x p ct, part_content_type w x p = ct <-> has_content_type w x p ct.
Proof.
  intros w x p ct.
  assert (A : has_content_type w x p (part_content_type w x p)).
  { unfold part_content_type. destruct (body_content_type (part_body p)) as [c|] eqn:B.
    - destruct (part_body p) as [| | |bytes o h] eqn:E; cbn in B; try discriminate. subst o. eapply hct_body, E.
    - destruct (lookup_header_value w (part_headers p) (S_ "content-type")) as [v|] eqn:L.
      + destruct (parse_mime x v) as [c|] eqn:Pm; [eapply hct_header; eassumption|].
        assert (NV : forall v', lookup_header_value w (part_headers p) (S_ "content-type") = Some v' -> parse_mime x v' = None)
          by (intros v' L'; rewrite L in L'; injection L' as <-; exact Pm).
        destruct (part_body p) as [| | |bytes o h] eqn:E; cbn [detect_content_type].
        1-3: apply hct_unknown; [rewrite E; tauto|exact NV].
        cbn in B. subst o. eapply hct_detected; [exact E|exact NV].
      + assert (NV : forall v', lookup_header_value w (part_headers p) (S_ "content-type") = Some v' -> parse_mime x v' = None)
          by (intros v' L'; rewrite L in L'; discriminate).
        destruct (part_body p) as [| | |bytes o h] eqn:E; cbn [detect_content_type].
        1-3: apply hct_unknown; [rewrite E; tauto|exact NV].
        cbn in B. subst o. eapply hct_detected; [exact E|exact NV]. }
  split; [intros <-; exact A|].
  intro H. unfold part_content_type. inversion H; subst.
  - rewrite H0. reflexivity.
  - rewrite H0, H1, H2. reflexivity.
  - rewrite H0. cbn [body_content_type detect_content_type].
    destruct (lookup_header_value w (part_headers p) (S_ "content-type")) as [v|]; [rewrite (H1 v eq_refl)|]; reflexivity.
  - assert (B : body_content_type (part_body p) = None /\ detect_content_type x (part_body p) = None)
      by (destruct H0 as [E|[E|E]]; rewrite E; split; reflexivity).
    destruct B as [-> ->].
    destruct (lookup_header_value w (part_headers p) (S_ "content-type")) as [v|]; [rewrite (H1 v eq_refl)|]; reflexivity.
Qed.
