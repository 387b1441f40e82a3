(** C12: a whole collection of matching rules in V2 form. *)
From Coq Require Import Ascii String List Arith NArith ZArith Lia Bool Permutation.
From Verif Require Import Base PathExp SpecPath Json MatchingRules SpecRules SpecRulesV2 RulesV2.
Import ListNotations.
Open Scope N_scope.

(** Written and read back, every place of every category has its first rule, and no place is gained or lost. *)
Theorem C12_v2_collection_keeps_first_rules : forall w m, v2_collection w m ->
  exists m', matchers_from_json w (Some (mr_to_v2_json m)) = Ok m' /\ same_first_rules m m'.
Proof. exact collection_roundtrip. Qed.

(** A header or query rule under a name that is not simple moves to another place, or makes the whole set unreadable. *)
Definition query_rule (f : str) : matching_rules := [(CQuery, mkCat CQuery [(mkPath [TRoot; TField f] f, rl_new RType)])].
Theorem C12_why_simple_names : forall w,
  (exists m', matchers_from_json w (Some (mr_to_v2_json (query_rule (S_ "user.id")))) = Ok m' /\
     map (fun pr => path_tokens (fst pr)) (rules_in CQuery m') = [[TRoot; TField (S_ "user"); TField (S_ "id")]]) /\
  exists e, matchers_from_json w (Some (mr_to_v2_json (query_rule (S_ "ids[]")))) = Err e.
Proof. intro w. split; eexists; [split|]; reflexivity. Qed.

Definition v2_example : matching_rules :=
  [(CBody, mkCat CBody [(path_root, rl_new RType); (from_tokens [TRoot; TField (S_ "b"); TStarIndex], mkRules [RMinType 2; RType] And false)]);
   (CHeader, mkCat CHeader [(mkPath [TRoot; TField (S_ "X-Id")] (S_ "X-Id"), mkRules [RRegex (S_ "[0-9]+"); RType] Or false)]);
   (CPath, mkCat CPath [(path_empty, rl_new (RRegex (S_ "/users/[0-9]+")))]);
   (CQuery, mkCat CQuery [(mkPath [TRoot; TField (S_ "page")] (S_ "page"), rl_new RInteger); (mkPath [TRoot; TField (S_ "size")] (S_ "size"), rl_new RType)])].
Example C12_v2_collection_example : forall w, v2_collection w v2_example.
Proof.
  intro w. split; [cbn; repeat constructor; cbn; intuition discriminate|].
  constructor; [|constructor; [|constructor; [|constructor; [|constructor]]]]; cbn [fst snd cat_name cat_rules];
    (split; [reflexivity|]); (split; [cbn; repeat constructor; cbn; intuition discriminate|]).
  - constructor; [|constructor; [|constructor]]; (split; [eexists; eexists; split; [reflexivity|repeat constructor]|]); cbn [fst v2_place]; (split; [reflexivity|]).
    + exists []. split; [reflexivity|intros []].
    + exists (S_ ".b[*]"). split; [reflexivity|cbn; intuition discriminate].
  - constructor; [|constructor]. split; [eexists; eexists; split; [reflexivity|repeat constructor]|]. exists (S_ "X-Id"). split; [reflexivity|]. split; [|reflexivity].
    repeat split; cbn; intuition discriminate.
  - constructor; [|constructor]. split; [eexists; eexists; split; [reflexivity|repeat constructor]|]. reflexivity.
  - constructor; [|constructor; [|constructor]]; (split; [eexists; eexists; split; [reflexivity|repeat constructor]|]).
    + exists (S_ "page"). split; [reflexivity|]. split; [|reflexivity]. repeat split; cbn; intuition discriminate.
    + exists (S_ "size"). split; [reflexivity|]. split; [|reflexivity]. repeat split; cbn; intuition discriminate.
Qed.
