(** C107: a request described with the builders that meets the hypotheses, and why the hypotheses are needed. *)
From Coq Require Import Ascii String List Arith NArith ZArith Lia Bool Permutation Sorted SpecFloat.
From Verif Require Import Base PathExp SpecPath Json Text MatchingRules SpecRules Matchers JsonCompare SpecMatch SpecValues
  SpecBody Headers Query ContentType SpecQuery SpecHeaders SpecHttp Http Pattern SpecPattern PropPattern3
  SpecParams Expr Generators Builder SpecBuilder PropBuilder PropBuilder2 PropHttp2.
Import ListNotations.
Open Scope N_scope.

Definition ex_json_ct : content_type := mkCT (S_ "application") (S_ "json") [] None.
Definition dsl_ext : externals := mkExt
  (fun s => if str_eqb s (S_ "application/json") then Some ex_json_ct else None)
  (fun _ => ex_json_ct) (fun _ => None)
  (fun b => if str_eqb b (S_ "{""id"":42}") then Some (JObj [(S_ "id", num 42)])
            else if str_eqb b (S_ "{""id"":7}") then Some (JObj [(S_ "id", num 7)])
            else if str_eqb b (S_ "{""id"":""x""}") then Some (JObj [(S_ "id", JStr (S_ "x"))])
            else if str_eqb b (S_ "{""id"":""y""}") then Some (JObj [(S_ "id", JStr (S_ "y"))]) else None)
  (fun _ => None) (fun _ _ => true) (fun _ _ _ => []) (fun _ _ _ _ _ => []).
Definition digits (s : string) : string_pattern := STerm (S_ "\d+") (S_ s).
Definition lit (s : string) : string_pattern := SLiteral (S_ s).
Definition id_pattern : pattern := PObject [(S_ "id", PLike (PJson (num 42)))].
(** [.post().path(term!("\d+", "12")).query_param("page", term!("\d+", "1")).query_param("q", "a").query_param("q", "b")
     .header("X-Id", term!("\d+", "3")).header("Accept", "text/html, text/plain").body("old").json_body(json_pattern!({"id": like!(42)}))] *)
Definition dsl_calls : list request_call :=
  [RMethod (S_ "POST"); RPath (digits "12"); RQuery (S_ "page") (digits "1"); RQuery (S_ "q") (lit "a");
   RPart (PHeader (S_ "X-Id") (digits "3")); RQuery (S_ "q") (lit "b"); RPart (PHeader (S_ "Via") (lit "a, b")); RPart (PBody (S_ "old")); RPart (PJsonBody id_pattern)].
Definition dsl_actual (path : string) (page q id via : list string) (b : string) : request :=
  mkReq (S_ "post") (S_ path) (Some [(S_ "q", map (fun s => Some (S_ s)) q); (S_ "page", map (fun s => Some (S_ s)) page)])
    (Some [(S_ "x-id", map S_ id); (S_ "via", map S_ via)]) (BPresent (S_ b) (Some ex_json_ct) None) [].
Definition accepts_all (o : outcome request_result unit) : bool := match o with Ok r => all_matched r | _ => false end.
Theorem C107_example :
  let e := build_request digits_world dsl_ext dsl_calls in
  let good := dsl_actual "7" ["1"; "2"]%string ["a"; "b"]%string ["5"]%string ["a"; "b"]%string "{""id"":7}" in
  let ok a := accepts_all (match_request digits_world dsl_ext e a) in
  built_request digits_world dsl_ext dsl_calls e /\ params_sane dsl_calls /\ headers_sane (to_lower digits_world) (header_calls (part_calls dsl_calls)) /\
  body_given_by (PJsonBody id_pattern) (part_calls dsl_calls) /\ proper id_pattern /\ untied id_pattern /\ (depth id_pattern <= 57)%nat /\
  one_entry_each (req_query good) /\ part_unique (to_lower digits_world) (req_headers good) /\
  part_readable (is_space digits_world) (to_lower digits_world) (req_headers e) /\ part_readable (is_space digits_world) (to_lower digits_world) (req_headers good) /\
  json_type (content_type_of dsl_ext (S_ "application/json")) /\
  json_of_bytes dsl_ext (utf8 (json_show digits_world (to_example id_pattern))) = Some (to_example id_pattern) /\
  part_content_type digits_world dsl_ext (req_part good) = content_type_of dsl_ext (S_ "application/json") /\
  ok good = true /\
  ok (dsl_actual "x7" ["1"; "2"]%string ["a"; "b"]%string ["5"]%string ["a"; "b"]%string "{""id"":7}") = false /\
  ok (dsl_actual "7" ["1"; "x"]%string ["a"; "b"]%string ["5"]%string ["a"; "b"]%string "{""id"":7}") = false /\
  ok (dsl_actual "7" ["1"]%string ["b"; "a"]%string ["5"]%string ["a"; "b"]%string "{""id"":7}") = false /\
  ok (dsl_actual "7" ["1"]%string ["a"; "b"]%string ["x"]%string ["a"; "b"]%string "{""id"":7}") = false /\
  ok (dsl_actual "7" ["1"]%string ["a"; "b"]%string ["5"]%string ["a"]%string "{""id"":7}") = false /\
  ok (dsl_actual "7" ["1"]%string ["a"; "b"]%string ["5"]%string ["a"; "b"]%string "{""id"":""x""}") = false.
Proof.
  cbv zeta.
  split. { unfold built_request. cbv zeta. do 5 (split; [reflexivity|]). induction (req_rules _); constructor; auto. }
  split. { intros k NE. apply canonical_plain. unfold params, dsl_calls in NE. cbn [flat_map app] in NE. destruct (str_eqb_spec (S_ "page") k) as [E1|_]; [rewrite <- E1; reflexivity|]. destruct (str_eqb_spec (S_ "q") k) as [E2|_]; [rewrite <- E2; reflexivity | cbn [app] in NE; congruence]. }
  split.
  { split.
    - intros n v [J|[J|[]]]; injection J as <- <-; (split; [intros c Jc; cbn in Jc; intuition (subst; reflexivity) | apply canonical_plain; reflexivity]).
    - intros n v n' v' [J|[J|[]]] [J'|[J'|[]]] Hv Hv' E; injection J as <- <-; injection J' as <- <-; try reflexivity; cbn in Hv, Hv'; contradiction. }
  split. { exists [PBody (S_ "old")]. split; [reflexivity|]. intros b [<-|[]]. left. eexists. reflexivity. }
  split. { apply pr_object; [repeat constructor; intros [] |]. intros k p [J|[]]. injection J as <- <-. split; [apply canonical_plain; reflexivity|]. apply pr_like, pr_json. cbn. reflexivity || exact I || (vm_compute; tauto). }
  split. { apply un_object. intros k p [J|[]]. injection J as <- <-. apply un_like, un_json. }
  split; [vm_compute; lia|].
  split. { cbn. repeat constructor; cbn; intuition discriminate. }
  split. { cbn. repeat constructor; cbn; intuition discriminate. }
  split. { cbn. intros k vs v [J|[J|[]]]; injection J as <- <-; intros SN; exfalso; vm_compute in SN; intuition discriminate. }
  split. { cbn. intros k vs v [J|[J|[]]]; injection J as <- <-; intros SN; exfalso; vm_compute in SN; intuition discriminate. }
  split. { apply PropHttp2.C52_json_types. reflexivity. }
  repeat (match goal with |- _ /\ _ => apply conj end); vm_compute; reflexivity.
Qed.

(** ** What the calls do not do *)
(** A path set again keeps the rules of the path set before: the path itself is refused. *)
Theorem C107_path_set_twice :
  let e := build_request digits_world dsl_ext [RPath (digits "12"); RPath (lit "/users")] in
  req_path e = S_ "/users" /\ accepts_all (match_request digits_world dsl_ext e e) = false /\
  accepts_all (match_request digits_world dsl_ext e (mkReq (S_ "GET") (S_ "99") None None BMissing [])) = true.
Proof. vm_compute. repeat (apply conj); reflexivity. Qed.
(** A body set again keeps the rules of the body set before: the value of [id] is compared by type only. *)
Theorem C107_body_set_twice :
  let exact := PObject [(S_ "id", PJson (JStr (S_ "x")))] in
  let ok calls b := accepts_all (match_request digits_world dsl_ext (build_request digits_world dsl_ext calls) (mkReq (S_ "GET") (S_ "/") None None (BPresent (S_ b) (Some ex_json_ct) None) [])) in
  ok [RPart (PJsonBody exact)] "{""id"":""y""}"%string = false /\ ok [RPart (PJsonBody id_pattern); RPart (PJsonBody exact)] "{""id"":""y""}"%string = true.
Proof. vm_compute. apply conj; reflexivity. Qed.
(** A value given for a query parameter next to one with a rule is not compared, and any number of values is accepted. *)
Theorem C107_values_with_a_rule :
  let e := build_request digits_world dsl_ext [RQuery (S_ "q") (lit "1"); RQuery (S_ "q") (digits "2")] in
  let ok vs := accepts_all (match_request digits_world dsl_ext e (mkReq (S_ "GET") (S_ "/") (Some [(S_ "q", map (fun s => Some (S_ s)) vs)]) None BMissing [])) in
  ok ["5"; "6"; "7"]%string = true /\ ok ["5"]%string = true /\ ok ["x"; "2"]%string = false.
Proof. vm_compute. repeat (apply conj); reflexivity. Qed.
(** A header given with rules under two spellings: which rules count depends on the order of the rule map. *)
Theorem C107_two_spellings :
  let h := [RPart (PHeader (S_ "X-Id") (digits "3")); RPart (PHeader (S_ "x-id") (STerm (S_ ".*") (S_ "4")))] in
  exists e e', built_request digits_world dsl_ext h e /\ built_request digits_world dsl_ext h e' /\
    let a := mkReq (S_ "GET") (S_ "/") None (Some [(S_ "X-Id", [S_ "a"; S_ "b"])]) BMissing [] in
    accepts_all (match_request digits_world dsl_ext e a) = true /\ accepts_all (match_request digits_world dsl_ext e' a) = false.
Proof.
  cbv zeta. set (h := [_; _]). set (b := build_request digits_world dsl_ext h).
  exists b, (mkReq (req_method b) (req_path b) (req_query b) (req_headers b) (req_body b)
    (map (fun nc => (fst nc, mkCat (cat_name (snd nc)) (rev (cat_rules (snd nc))))) (req_rules b))).
  split. { unfold built_request. cbv zeta. fold b. do 5 (split; [reflexivity|]). induction (req_rules b); constructor; auto. }
  split. { unfold built_request. cbv zeta. fold b. do 5 (split; [reflexivity|]). cbn [req_rules]. induction (req_rules b) as [|nc l IH]; cbn [map]; constructor; [|exact IH]. split; [reflexivity|]. split; [reflexivity | apply Permutation_rev]. }
  split; vm_compute; reflexivity.
Qed.
