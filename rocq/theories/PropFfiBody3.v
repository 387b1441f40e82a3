(** C115, examples. *)
From Coq Require Import Ascii String List Arith NArith ZArith Lia Bool.
From Verif Require Import Base PathExp Json Text MatchingRules Matchers Headers ContentType SpecQuery Http QueryProofs Expr Generators RuleExpr Integration SpecIntegration
  FormJson SpecFormJson XmlJson SpecXmlJson Merge PactFile PropHandles2 PropIntegration PropXmlJson PropXmlJson2 PropFormJson Handles PropPattern3 FfiBody SpecFfiBody PropFfiBody PropFfiBody2.
Import ListNotations.
Open Scope N_scope.

Definition xct (a b : string) : content_type := mkCT (S_ a) (S_ b) [] None.
Definition ffi_ext : externals := mkExt
  (fun s => if str_eqb s (S_ "application/json") then Some (xct "application" "json") else if str_eqb s (S_ "application/xml") then Some (xct "application" "xml")
            else if str_eqb s (S_ "text/plain") then Some (xct "text" "plain") else None)
  (fun s => match s with 123 :: _ => xct "application" "json" | _ => xct "text" "plain" end) (fun _ => None)
  (fun b => if str_eqb b (S_ "{""id"":matched}") then Some (JObj [(S_ "id", JObj [(S_ "pact:matcher:type", JStr (S_ "integer")); (S_ "value", JNum (PosInt 7))])])
            else if str_eqb b (S_ "{ ""id"" : 7 }") then Some (JObj [(S_ "id", JNum (PosInt 7))]) else None)
  (fun _ => None) (fun _ _ => true) (fun _ _ _ => []) (fun _ _ _ _ _ => []).
Definition empty_part (h : option hmap) : fpart := mkFP h BMissing (mkCat CBody []) (mkCat CHeader []) [].
Definition fresh (h : option hmap) : fint := FIHttp (empty_part h) (empty_part None).
Definition run (ct text : option str) (i : fint) : outcome (fint * bool) unit :=
  with_body digits_world ffi_ext (fun _ => 0%nat) (fun _ => S_ "<root/>") false Request ct text i.
Definition marked : str := S_ "{""id"":matched}".
Definition id_rules (p : docpath) : category_ xrule := mkCat CBody [(p, mkRules [XRule RInteger] And false)].

(** A document with a matcher: the example value becomes the body, the rule and the header are put in. *)
Example C115_example : exists p st,
  run (Some (S_ "application/json")) (Some marked) (fresh None) =
    Ok (FIHttp (mkFP (Some [(S_ "Content-Type", [S_ "application/json"])]) (BPresent (S_ "{""id"":7}") (Some (xct "application" "json")) None) (id_rules p) (mkCat CHeader []) st)
          (empty_part None), true) /\ path_expr p = S_ "$.id".
Proof. eexists. eexists. split; [vm_compute; reflexivity | reflexivity]. Qed.
(** The conditions of [C115_succeeds] are met by it. *)
Example C115_example_fine : side_valued digits_world Request (fresh None) /\
  (forall v, json_of_bytes ffi_ext (utf8 (S_ "{ ""id"" : 7 }")) = Some v -> container v /\ unmarked v /\ ~ rule_panics digits_world v).
Proof.
  split; [intros m E; discriminate|]. intros v H. replace (json_of_bytes ffi_ext (utf8 (S_ "{ ""id"" : 7 }"))) with (Some (JObj [(S_ "id", JNum (PosInt 7))])) in H by reflexivity.
  injection H as <-. split; [exact I|]. split.
  - apply um_obj. constructor; [|constructor]. split; [intros [r H]; discriminate | apply um_other; discriminate].
  - intros (ty & m & W & P). assert (m = [(S_ "id", JNum (PosInt 7))]) as ->.
    { inversion W; subst; [reflexivity|]. match goal with J : In _ _ |- _ => destruct J as [J|[]]; injection J as <- <- end. match goal with J : within _ (JNum _) |- _ => inversion J end. }
    clear W. revert P. unfold rule_create. repeat match goal with |- context [str_eqb ty ?k] => destruct (str_eqb ty k); try (vm_compute; discriminate) end.
Qed.
(** Found: the header is looked for by its exact name, so a part with a header "content-type" gets a second one; with bytes it does not. *)
Example C115_second_header : exists p p',
  run None (Some (S_ "hello")) (fresh (Some [(S_ "content-type", [S_ "text/plain"])])) = Ok (p, true) /\
  with_binary_body digits_world ffi_ext false Request (Some (S_ "text/plain")) (Some [104]) (fresh (Some [(S_ "content-type", [S_ "text/plain"])])) = Ok (p', true) /\
  (exists q, p = FIHttp q (empty_part None) /\ fp_headers q = Some [(S_ "content-type", [S_ "text/plain"]); (S_ "Content-Type", [S_ "text/plain"])]) /\
  (exists q, p' = FIHttp q (empty_part None) /\ fp_headers q = Some [(S_ "content-type", [S_ "text/plain"])]).
Proof. eexists. eexists. repeat (apply conj); try (eexists; (split; [reflexivity|])); vm_compute; reflexivity. Qed.
(** Found: no body given (NULL) is an empty body, not a null one; as bytes it is a null one. *)
Example C115_null_body : exists i i',
  run None None (fresh None) = Ok (FIHttp i (empty_part None), true) /\ fp_body i = BEmpty /\
  with_binary_body digits_world ffi_ext false Request None None (fresh None) = Ok (FIHttp i' (empty_part None), true) /\ fp_body i' = BNull.
Proof. eexists. eexists. repeat (apply conj); vm_compute; reflexivity. Qed.
(** Found: an overwritten body leaves its rules behind: the second call replaces the body, the rule on the first one's field stays. *)
Example C115_rules_stay : exists i q,
  bind (run (Some (S_ "application/json")) (Some marked) (fresh None)) (fun r => run (Some (S_ "text/plain")) (Some (S_ "hello")) (fst r)) = Ok (i, true) /\
  i = FIHttp q (empty_part None) /\ fp_body q = BPresent (S_ "hello") (Some (xct "text" "plain")) None /\
  fp_headers q = Some [(S_ "Content-Type", [S_ "application/json"])] /\ length (cat_rules (fp_rules q)) = 1%nat.
Proof. eexists. eexists. split; [vm_compute; reflexivity|]. split; [reflexivity|]. repeat (apply conj); reflexivity. Qed.
(** Found: what looks like JSON but is not, given as XML, makes a present body without bytes. *)
Example C115_broken_xml : exists i,
  run (Some (S_ "application/xml")) (Some (S_ "{broken")) (fresh None) = Ok (FIHttp i (empty_part None), true) /\
  fp_body i = BPresent [] (Some (xct "application" "xml")) None.
Proof. eexists. split; vm_compute; reflexivity. Qed.
(** A type that cannot be read panics; as the type of bytes it is kept as it is. *)
Example C115_unreadable : run (Some (S_ "TEXT")) (Some (S_ "hello")) (fresh None) = Panic /\
  exists i, with_binary_body digits_world ffi_ext false Request (Some (S_ "TEXT")) (Some [1]) (fresh None) = Ok (FIHttp i (empty_part None), true) /\
    fp_headers i = Some [(S_ "Content-Type", [S_ "TEXT"])] /\ fp_body i = BPresent [1] None None.
Proof. split; [reflexivity|]. eexists. repeat (apply conj); vm_compute; reflexivity. Qed.
