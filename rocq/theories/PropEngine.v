(** C101: matching a request with the V2 engine always ends. *)
From Coq Require Import Ascii String List Arith NArith ZArith Lia Bool.
From Verif Require Import Base PathExp Json Text MatchingRules Matchers JsonCompare Headers Query ContentType Http Base64 Engine EnginePlan EngineRuns.
Import ListNotations.

(** Whatever the plan, the values on the stack and the actual request, the walk of the plan ends,
    and from some bound on the outcome does not depend on how many steps are allowed. *)
Theorem C101_plans_end : forall w x ee actual st plan, exists N o, o <> Fuel /\
  forall f, N <= f -> walk w x ee actual f st plan = o.
Proof. exact walk_ends. Qed.
Theorem C101_matching_ends : forall w x ee e a, exists N o, o <> Fuel /\
  forall f, N <= f -> match_request_v2 w x ee f e a = o.
Proof.
  intros w x ee e a. unfold match_request_v2. destruct (request_plan w x ee e) as [plan|m|] eqn:E.
  - destruct (walk_ends w x ee a [] plan) as [k [o [Ho H]]]. exists k, (then_ o (fun st n => Runs st (read_result w n))).
    split; [destruct o; [congruence | discriminate | discriminate | discriminate]|]. intros f Hf. now rewrite H.
  - exists 0, (Fails [] m). split; [discriminate | reflexivity].
  - exists 0, Panics. split; [discriminate | reflexivity].
Qed.
(** The bound matters: a plan is not executed in one step. *)
Example C101_example : forall w x ee a,
  walk w x ee a 1 [] (container [] [container [] []]) = Fuel /\
  walk w x ee a 3 [] (container [] [container [] []]) = Runs [] (PN (PContainer []) (Some (NVal (NBool true))) [PN (PContainer []) (Some (NVal (NBool true))) []]).
Proof. split; reflexivity. Qed.
