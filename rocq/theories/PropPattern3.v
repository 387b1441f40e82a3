(** The patterns of the consumer DSL: examples that meet the hypotheses of C90 and C91, and why the
    hypotheses are needed. *)
From Coq Require Import Ascii String List Arith NArith ZArith Lia Bool Permutation Sorted SpecFloat.
From Verif Require Import Base PathExp Json MatchingRules Matchers JsonCompare SpecMatch SpecValues
  PropBody Pattern SpecPattern PatternProofs PropPattern PropPattern2 PropStateChange.
Import ListNotations.
Open Scope N_scope.

(** A world in which the only regular expression is [\d+] (others match everything). *)
Definition digits_world : world :=
  mkWorld (fun _ => false) (fun _ => false) (fun c => [c]) (fun _ c _ => [c]) (fun _ => false)
    (fun _ => S_ "0.0") (fun _ => S_ "0") (fun _ => true)
    (fun re s => Some (if str_eqb re (S_ "\d+") then forallb is_digit s && negb (str_eqb s []) else true))
    (fun _ => true) (fun _ _ => true) (fun _ _ => true) (fun _ _ => true).
Definition num (n : N) : json := JNum (PosInt n).

(** [json_pattern!({ "id": like!(42), "code": term!("\d+", "10"), "7": "x",
                     "tags": each_like!({ "key": like!("k") }, min = 2) })] *)
Definition user_pattern : pattern :=
  PObject [(S_ "id", PLike (PJson (num 42)));
           (S_ "code", PTerm (S_ "\d+") (S_ "10"));
           (S_ "7", PJson (JStr (S_ "x")));
           (S_ "tags", PEachLike (PObject [(S_ "key", PLike (PJson (JStr (S_ "k"))))]) 2)].
Definition user (id : json) (code : string) (tags : list json) : json :=
  JObj (obj_of_list [(S_ "id", id); (S_ "code", JStr (S_ code)); (S_ "7", JStr (S_ "x")); (S_ "tags", JArr tags)]).
Definition tag (s : string) : json := JObj [(S_ "key", JStr (S_ s))].

Lemma canonical_plain : forall k, parse_usize k = None -> canonical_key k.
Proof. intros k E i H. rewrite E in H. discriminate. Qed.
Theorem C90_hypotheses_met :
  proper user_pattern /\ exemplary digits_world user_pattern /\ rules_of_pattern user_pattern (body_rules_of user_pattern) /\
  untied user_pattern /\ (depth user_pattern <= 57)%nat.
Proof.
  assert (J : forall j, json_wf j -> proper (PJson j)) by (intros; constructor; assumption).
  split; [|split; [|split; [|split]]].
  - apply pr_object.
    + vm_compute. repeat (apply NoDup_cons; [intro; cbn in *; intuition discriminate|]). apply NoDup_nil.
    + intros k p [E|[E|[E|[E|[]]]]]; injection E as <- <-.
      * split; [apply canonical_plain; reflexivity|]. apply pr_like, J. vm_compute. first [reflexivity | exact I | split; reflexivity | tauto].
      * split; [apply canonical_plain; reflexivity|]. apply pr_term.
      * split; [intros i Hi; vm_compute in Hi; injection Hi as <-; reflexivity|]. apply J. exact I.
      * split; [apply canonical_plain; reflexivity|]. apply pr_each; [reflexivity|]. apply pr_object.
        -- vm_compute. repeat (apply NoDup_cons; [intro; cbn in *; intuition discriminate|]). apply NoDup_nil.
        -- intros k p [E|[]]; injection E as <- <-. split; [apply canonical_plain; reflexivity|]. apply pr_like, J. exact I.
  - apply ex_object. intros k p [E|[E|[E|[E|[]]]]]; injection E as <- <-.
    + apply ex_like, ex_json.
    + apply ex_term. reflexivity.
    + apply ex_json.
    + apply ex_each, ex_object. intros k p [E|[]]; injection E as <- <-. apply ex_like, ex_json.
  - split; [reflexivity|apply Permutation_refl].
  - apply un_object. intros k p [E|[E|[E|[E|[]]]]]; injection E as <- <-.
    + apply un_like, un_json.
    + apply un_term.
    + apply un_json.
    + apply un_each.
      * apply un_object. intros k p [E|[]]; injection E as <- <-. apply un_like, un_json.
      * intros (q & n & E & _). cbn in E. discriminate.
  - vm_compute. lia.
Qed.
(** The comparison with this pattern accepts and refuses. *)
Theorem C91_example :
  let ok := fun a => compare_json digits_world path_root (to_example user_pattern) a (mkCtx false (body_rules_of user_pattern)) = [] in
  ok (user (num 7) "123" [tag "a"; tag "b"; tag "c"]) /\
  ~ ok (user (JStr (S_ "7")) "123" [tag "a"; tag "b"]) /\
  ~ ok (user (num 7) "x123" [tag "a"; tag "b"]) /\
  ~ ok (user (num 7) "123" [tag "a"]) /\
  ~ ok (user (num 7) "123" [tag "a"; JObj [(S_ "key", num 3)]]) /\
  ~ ok (user (num 7) "123" [tag "a"; tag "b"; JStr (S_ "c")]).
Proof. cbv zeta. repeat (match goal with |- _ /\ _ => apply conj end); vm_compute; try reflexivity; discriminate. Qed.

(** * Why the hypotheses *)
(** A key that is a number not in its usual form: its rule is never applied, and the rule of the
    key 7 is applied to it. *)
Theorem C90_why_canonical_keys :
  let p := PObject [(S_ "007", PTerm (S_ "\d+") (S_ "10"))] in
  let q := PObject [(S_ "7", PTerm (S_ "\d+") (S_ "10")); (S_ "007", PJson (JStr (S_ "x")))] in
  let ok := fun p a => compare_json digits_world path_root (to_example p) a (mkCtx false (body_rules_of p)) = [] in
  (means digits_world false false p (JObj [(S_ "007", JStr (S_ "11"))]) /\ ~ ok p (JObj [(S_ "007", JStr (S_ "11"))])) /\
  (exemplary digits_world q /\ ~ ok q (to_example q)).
Proof.
  cbv zeta. split; split.
  - apply mn_object.
    + intros k p [E|[]]; injection E as <- <-. eexists. split; [reflexivity|]. apply mn_term. reflexivity.
    + intros _ k K. exact K.
  - vm_compute. discriminate.
  - apply ex_object. intros k p [E|[E|[]]]; injection E as <- <-; [apply ex_term; reflexivity|apply ex_json].
  - vm_compute. discriminate.
Qed.
(** An example that does not satisfy its own regular expression is refused. *)
Theorem C90_why_exemplary :
  let p := PTerm (S_ "\d+") (S_ "ten") in
  proper p /\ compare_json digits_world path_root (to_example p) (to_example p) (mkCtx false (body_rules_of p)) <> [].
Proof. cbv zeta. split; [apply pr_term|]. vm_compute. discriminate. Qed.

(** [each_like!(each_like!(term!("\d+", "1")))]: the rule for the elements of the inner arrays is as
    specific as the type rule for everything in the outer ones, so what is accepted depends on the
    order in which the rules lie in their map. *)
Theorem C91_why_untied :
  let p := PEachLike (PEachLike (PTerm (S_ "\d+") (S_ "1")) 1) 1 in
  let a := JArr [JArr [JStr (S_ "one")]] in
  exists c1 c2, rules_of_pattern p c1 /\ rules_of_pattern p c2 /\
    compare_json digits_world path_root (to_example p) a (mkCtx false c1) = [] /\
    compare_json digits_world path_root (to_example p) a (mkCtx false c2) <> [].
Proof.
  cbv zeta. set (p := PEachLike (PEachLike (PTerm (S_ "\d+") (S_ "1")) 1) 1).
  destruct (compare_json digits_world path_root (to_example p) (JArr [JArr [JStr (S_ "one")]]) (mkCtx false (body_rules_of p))) eqn:E.
  - exists (body_rules_of p), (mkCat CBody (rev (cat_rules (body_rules_of p)))).
    split; [split; [reflexivity|apply Permutation_refl]|]. split; [split; [reflexivity|apply Permutation_rev]|].
    split; [exact E|]. vm_compute. discriminate.
  - exists (mkCat CBody (rev (cat_rules (body_rules_of p)))), (body_rules_of p).
    split; [split; [reflexivity|apply Permutation_rev]|]. split; [split; [reflexivity|apply Permutation_refl]|].
    split; [vm_compute; reflexivity|]. rewrite E. discriminate.
Qed.
(** With [min = 0] every array is accepted, whatever its elements; with [min = 1] the elements count. *)
Theorem C91_min_zero :
  let p n := PEachLike (PTerm (S_ "\d+") (S_ "1")) n in
  let ok := fun n a => compare_json digits_world path_root (to_example (p n)) a (mkCtx false (body_rules_of (p n))) = [] in
  ok 0 (JArr [JStr (S_ "one"); JNull]) /\ ~ ok 1 (JArr [JStr (S_ "one")]) /\ ~ ok 1 (JArr []) /\ ok 1 (JArr [JStr (S_ "22")]).
Proof. cbv zeta. repeat (match goal with |- _ /\ _ => apply conj end); vm_compute; try reflexivity; discriminate. Qed.
(** A term accepts a number whose text matches. *)
Theorem C91_term_accepts_number :
  let p := PTerm (S_ "\d+") (S_ "1") in
  compare_json digits_world path_root (to_example p) (num 22) (mkCtx false (body_rules_of p)) = [].
Proof. vm_compute. reflexivity. Qed.

(** * [strip_null_fields] *)
Theorem C90_strip_null_fields : forall j, json_wf j -> stripped j (strip_null_fields j).
Proof.
  induction j using json_ind'; intro W; cbn [strip_null_fields]; try (apply st_scalar; exact I).
  - apply st_arr. apply json_wf_arr in W. induction l as [|x l IH]; cbn [map]; [constructor|].
    inversion W; subst. inversion H; subst. constructor; auto.
  - apply json_wf_obj in W. destruct W as [So _]. apply st_obj.
    + intros k v. rewrite filter_In. cbn [snd]. split; intros [I1 I2]; (split; [exact I1|]).
      * intros ->. discriminate.
      * destruct v; try reflexivity. contradiction.
    + clear H. induction m as [|[k v] m IH]; cbn [filter snd]; [constructor|]. inversion So as [|? ? So' Fa]; subst.
      destruct (negb (is_null v)); [|apply IH, So']. cbn. constructor; [apply IH, So'|].
      rewrite Forall_forall in *. intros x Ix. apply Fa. apply in_map_iff in Ix. destruct Ix as (e & <- & Ie).
      apply filter_In in Ie. apply in_map, Ie.
Qed.
(** A null within an object within an object stays. *)
Theorem C90_strip_null_not_deep :
  let inner := JObj [(S_ "b", JNull)] in
  strip_null_fields (JArr [JObj [(S_ "a", inner); (S_ "c", JNull)]]) = JArr [JObj [(S_ "a", inner)]].
Proof. reflexivity. Qed.
