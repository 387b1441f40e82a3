(** C104: reading a pact file ends with a pact or an error, and the three things in a file that stop it with a panic. *)
From Coq Require Import Ascii String List Arith NArith ZArith Lia Bool.
From Verif Require Import Base PathExp Json Text MatchingRules Headers Query QueryString ContentType Http Merge Generators Base64 PactFile OldFile
  SpecReadSafe PropPattern3 PropPactFile2 PropOldFile2 PropEngine2.
Import ListNotations.
Open Scope N_scope.
Local Opaque show_N.

(** * No panic, step by step *)
Lemma bind_safe : forall A B E (m : outcome A E) (f : A -> outcome B E), m <> Panic -> (forall a, m = Ok a -> f a <> Panic) -> bind m f <> Panic.
Proof. intros A B E [a|e|] f M F; cbn [bind]; [apply F; reflexivity | discriminate | congruence]. Qed.
Lemma foldM_safe : forall A B E (f : B -> A -> outcome B E) l acc, (forall b a, In a l -> f b a <> Panic) -> foldM f l acc <> Panic.
Proof.
  intros A B E f l. induction l as [|a l IH]; intros acc H; cbn; [discriminate|]. apply bind_safe; [apply H; left; reflexivity|].
  intros b _. apply IH. intros b' a' I. apply H. right. exact I.
Qed.
Lemma mapM_safe : forall A B E (f : A -> outcome B E) l, (forall a, In a l -> f a <> Panic) -> mapM f l <> Panic.
Proof.
  intros A B E f l. induction l as [|a l IH]; intro H; cbn; [discriminate|]. apply bind_safe; [apply H; left; reflexivity|].
  intros b _. apply bind_safe; [apply IH; intros a' I; apply H; right; exact I | discriminate].
Qed.
Lemma collect_safe : forall A (l : list (outcome A unit)), (forall m, In m l -> m <> Panic) -> collect l <> Panic.
Proof.
  intros A l. induction l as [|m l IH]; intro H; cbn; [discriminate|]. apply bind_safe; [apply H; left; reflexivity|].
  intros a _. apply bind_safe; [apply IH; intros a' I; apply H; right; exact I | discriminate].
Qed.
Lemma lift_safe : forall A E (m : outcome A E), m <> Panic -> lift m <> Panic.
Proof. intros A E [a|e|] M; cbn; congruence. Qed.

(** * Paths *)
Section Paths.
Variable w : world.
Definition part_of_text (s k : str) : Prop := exists a b, k = a ++ s ++ b.
Lemma part_self : forall s, part_of_text s s.
Proof. intro s. exists [], []. rewrite app_nil_r. reflexivity. Qed.
Lemma part_trans : forall s k m, part_of_text s k -> part_of_text k m -> part_of_text s m.
Proof. intros s k m (a & b & ->) (c & d & ->). exists (c ++ a), (b ++ d). rewrite <- !app_assoc. reflexivity. Qed.
Lemma part_tail : forall c s k, part_of_text (c :: s) k -> part_of_text s k.
Proof. intros c s k (a & b & ->). exists (a ++ [c]), b. rewrite <- app_assoc. reflexivity. Qed.
Lemma part_suffix : forall c s k, part_of_text (c ++ s) k -> part_of_text s k.
Proof. intros c s k (a & b & ->). exists (a ++ c), b. rewrite <- !app_assoc. reflexivity. Qed.
Lemma fit_part : forall s k, part_of_text s k -> indices_fit w k -> indices_fit w s.
Proof.
  intros s k (a & b & ->) F front digits rest E N D. apply (F (a ++ front) digits (rest ++ b)); [|exact N|exact D].
  rewrite E, <- !app_assoc. reflexivity.
Qed.
Let numeric := is_numeric (uni_numeric w).
Lemma index_loop_split : forall cs d r, index_loop (uni_numeric w) cs = (d, r) -> cs = d ++ r /\ Forall (fun c => numeric c = true) d.
Proof.
  intro cs. induction cs as [|c cs IH]; intros d r E; cbn [index_loop] in E.
  - injection E as <- <-. split; [reflexivity|constructor].
  - destruct (is_numeric (uni_numeric w) c) eqn:D.
    + destruct (index_loop (uni_numeric w) cs) as [d' r'] eqn:L. cbn [fst snd] in E. injection E as <- <-.
      destruct (IH d' r' eq_refl) as [-> F]. split; [reflexivity|]. constructor; [exact D|exact F].
    + injection E as <- <-. split; [reflexivity|constructor].
Qed.
Lemma usize_fits : forall ds, ds <> [] -> Forall (fun c => 48 <= c <= 57) ds -> dec_value ds 0 < two64 -> parse_usize ds = Some (dec_value ds 0).
Proof.
  intros ds N D V. unfold parse_usize. destruct ds as [|c ds]; [congruence|]. pose proof (Forall_inv D) as B. cbv beta in B.
  replace (c =? 43) with false by (symmetry; apply N.eqb_neq; lia).
  replace (all_digits (c :: ds)) with true.
  - apply N.ltb_lt in V. cbv zeta. rewrite V. reflexivity.
  - symmetry. unfold all_digits. apply forallb_forall. intros e I. rewrite Forall_forall in D. specialize (D e I). unfold is_digit.
    apply andb_true_intro. split; apply N.leb_le; lia.
Qed.
Lemma index_path_safe : forall c cs k, part_of_text (91 :: c :: cs) k -> indices_fit w k -> numeric c = true -> index_path (uni_numeric w) c cs <> Panic.
Proof.
  intros c cs k P F D. unfold index_path. destruct (index_loop (uni_numeric w) cs) as [d r] eqn:L. cbn [fst snd].
  destruct (index_loop_split _ _ _ L) as [-> Fd].
  assert (X : parse_usize (c :: d) <> None).
  { pose proof (fit_part _ _ P F [] (c :: d) r eq_refl ltac:(discriminate) (Forall_cons _ D Fd)) as [A B].
    rewrite (usize_fits (c :: d)); [discriminate|discriminate|exact A|exact B]. }
  destruct (parse_usize (c :: d)) as [i|]; [|congruence]. destruct r as [|e r]; [discriminate|]. destruct (e =? 93); discriminate.
Qed.
Lemma index_path_rest : forall c cs t r k, part_of_text (91 :: c :: cs) k -> index_path (uni_numeric w) c cs = Ok (t, r) -> part_of_text r k /\ (exists i, t = TIndex i).
Proof.
  intros c cs t r k P E. unfold index_path in E. destruct (index_loop (uni_numeric w) cs) as [d r'] eqn:L. cbn [fst snd] in E.
  destruct (index_loop_split _ _ _ L) as [-> _].
  assert (Q : part_of_text r' k) by (apply part_tail, part_tail, part_suffix in P; exact P).
  destruct (parse_usize (c :: d)) as [i|]; destruct r' as [|e r']; try discriminate E; try (destruct (e =? 93); try discriminate E).
  - injection E as <- <-. split; [exact Q|eauto].
  - injection E as <- <-. split; [exact Q|eauto].
Qed.
(** The text of a field is part of the text of the path. *)
Definition from_text (t : token) (k : str) : Prop := match t with TField n => part_of_text n k | _ => True end.
Lemma ident_loop_split : forall cs d r, ident_loop (uni_alpha w) (uni_numeric w) cs = Ok (d, r) -> cs = d ++ r.
Proof.
  intro cs. induction cs as [|c cs IH]; intros d r E; cbn [ident_loop] in E; [injection E as <- <-; reflexivity|].
  destruct (is_identifier_char (uni_alpha w) (uni_numeric w) c).
  - destruct (ident_loop (uni_alpha w) (uni_numeric w) cs) as [[d' r']| |]; cbn [bind fst snd] in E; try discriminate. injection E as <- <-.
    rewrite (IH d' r' eq_refl). reflexivity.
  - destruct ((c =? 46) || (c =? 39) || (c =? 91)); [injection E as <- <-; reflexivity|discriminate].
Qed.
Lemma ident_loop_safe : forall cs, ident_loop (uni_alpha w) (uni_numeric w) cs <> Panic.
Proof.
  intro cs. induction cs as [|c cs IH]; cbn [ident_loop]; [discriminate|].
  destruct (is_identifier_char _ _ c); [apply bind_safe; [exact IH|discriminate]|]. destruct ((c =? 46) || (c =? 39) || (c =? 91)); discriminate.
Qed.
Lemma identifier_text : forall c cs t r k, part_of_text (c :: cs) k -> identifier (uni_alpha w) (uni_numeric w) c cs = Ok (t, r) ->
  part_of_text r k /\ from_text t k.
Proof.
  intros c cs t r k P E. unfold identifier in E. destruct (ident_loop (uni_alpha w) (uni_numeric w) cs) as [[d r']| |] eqn:L; cbn [bind fst snd] in E; try discriminate.
  injection E as <- <-. apply ident_loop_split in L. subst cs. split; [apply part_tail, part_suffix in P; exact P|].
  cbn [from_text]. destruct P as (a & b & ->). exists a, (r' ++ b). change (c :: d ++ r') with ((c :: d) ++ r'). rewrite <- !app_assoc. reflexivity.
Qed.
Lemma identifier_safe : forall c cs, identifier (uni_alpha w) (uni_numeric w) c cs <> Panic.
Proof. intros. unfold identifier. apply bind_safe; [apply ident_loop_safe|discriminate]. Qed.
Lemma string_loop_text : forall cs ch id id' ch' rest, string_loop ch cs id = (id', ch', rest) -> id ++ ch :: cs = id' ++ ch' :: rest.
Proof.
  intro cs. induction cs as [|c cs IH]; intros ch id id' ch' rest E; cbn [string_loop] in E; [injection E as <- <- <-; reflexivity|].
  destruct (ch =? 39); [injection E as <- <- <-; reflexivity|]. apply IH in E. rewrite <- app_assoc in E. exact E.
Qed.
Lemma string_path_text : forall cs t r k, part_of_text cs k -> string_path cs = Ok (t, r) -> part_of_text r k /\ from_text t k.
Proof.
  intros cs t r k P E. unfold string_path in E. destruct cs as [|c cs]; [discriminate|].
  destruct (string_loop c cs []) as [[id ch] rest] eqn:L. destruct (ch =? 39); [|discriminate]. destruct id as [|i id]; [discriminate|]. injection E as <- <-.
  apply string_loop_text in L. cbn [app] in L. rewrite L in P. destruct P as (a & b & ->). split.
  - exists (a ++ i :: id ++ [ch]), b. rewrite <- !app_assoc. cbn [app]. rewrite <- !app_assoc. reflexivity.
  - exists a, (ch :: rest ++ b). cbn [app]. rewrite <- !app_assoc. reflexivity.
Qed.
Lemma string_path_safe : forall cs, string_path cs <> Panic.
Proof.
  intros [|c cs]; cbn [string_path]; [discriminate|]. destruct (string_loop c cs []) as [[id ch] rest]. destruct (ch =? 39); [destruct id; discriminate|discriminate].
Qed.
Lemma bracket_safe : forall cs k, part_of_text (91 :: cs) k -> indices_fit w k ->
  bracket_path (uni_numeric w) cs <> Panic /\ forall t r, bracket_path (uni_numeric w) cs = Ok (t, r) -> part_of_text r k /\ from_text t k.
Proof.
  intros cs k P F. unfold bracket_path. destruct cs as [|c cs]; [split; discriminate|].
  assert (A : bracket_inner (uni_numeric w) c cs <> Panic /\ forall t r, bracket_inner (uni_numeric w) c cs = Ok (t, r) -> part_of_text r k /\ from_text t k).
  { unfold bracket_inner. destruct (c =? 39).
    - split; [apply string_path_safe|]. intros t r E. apply (string_path_text cs); [apply part_tail, part_tail in P; exact P|exact E].
    - destruct (is_numeric (uni_numeric w) c) eqn:D.
      + split; [eapply index_path_safe; eassumption|]. intros t r E. destruct (index_path_rest _ _ _ _ _ P E) as [Q [i ->]]. split; [exact Q|cbn; trivial].
      + destruct (c =? 42); [|destruct (c =? 93); split; discriminate]. split; [discriminate|]. intros t r E. injection E as <- <-.
        split; [apply part_tail, part_tail in P; exact P|cbn; trivial]. }
  destruct A as [A B]. split.
  - apply bind_safe; [exact A|]. intros [t r] _. cbn [snd fst]. destruct r as [|d r]; [discriminate|]. destruct (d =? 93); discriminate.
  - intros t r E. destruct (bracket_inner (uni_numeric w) c cs) as [[t' r']| |]; cbn [bind fst snd] in E; try discriminate.
    destruct (B t' r' eq_refl) as [Q T']. destruct r' as [|d r']; [discriminate|]. destruct (d =? 93); [|discriminate]. injection E as <- <-.
    split; [apply part_tail in Q; exact Q|exact T'].
Qed.
Lemma path_identifier_safe : forall cs k, part_of_text cs k ->
  path_identifier (uni_alpha w) (uni_numeric w) cs <> Panic /\
  forall t r, path_identifier (uni_alpha w) (uni_numeric w) cs = Ok (t, r) -> part_of_text r k /\ from_text t k.
Proof.
  intros cs k P. unfold path_identifier. destruct cs as [|c cs]; [split; discriminate|]. destruct (c =? 42).
  - split; [discriminate|]. intros t r E. injection E as <- <-. split; [apply part_tail in P; exact P|cbn; trivial].
  - destruct (is_identifier_char _ _ c); [|split; discriminate]. split; [apply identifier_safe|]. intros t r E. eapply identifier_text; eassumption.
Qed.
Lemma path_exp_safe : forall fuel cs k, part_of_text cs k -> indices_fit w k ->
  path_exp (uni_alpha w) (uni_numeric w) fuel cs <> Panic /\
  forall ts, path_exp (uni_alpha w) (uni_numeric w) fuel cs = Ok ts -> Forall (fun t => from_text t k) ts.
Proof.
  intro fuel. induction fuel as [|f IH]; intros cs k P F; (destruct cs as [|c cs]; [split; [discriminate|intros ts E; injection E as <-; constructor]|]); [split; discriminate|].
  cbn [path_exp].
  assert (STEP : forall m : outcome (token * str) path_error, m <> Panic -> (forall t r, m = Ok (t, r) -> part_of_text r k /\ from_text t k) ->
    bind m (fun r => bind (path_exp (uni_alpha w) (uni_numeric w) f (snd r)) (fun ts => Ok (fst r :: ts))) <> Panic /\
    forall ts, bind m (fun r => bind (path_exp (uni_alpha w) (uni_numeric w) f (snd r)) (fun ts => Ok (fst r :: ts))) = Ok ts -> Forall (fun t => from_text t k) ts).
  { intros m A B. split.
    - apply bind_safe; [exact A|]. intros [t r] E. destruct (B t r E) as [Q _]. cbn [fst snd]. apply bind_safe; [apply (proj1 (IH r k Q F))|discriminate].
    - intros ts E. destruct m as [[t r]| |]; cbn [bind fst snd] in E; try discriminate. destruct (B t r eq_refl) as [Q R].
      destruct (path_exp (uni_alpha w) (uni_numeric w) f r) as [ts'| |] eqn:X; cbn [bind] in E; try discriminate. injection E as <-.
      constructor; [exact R|exact (proj2 (IH r k Q F) ts' X)]. }
  destruct (c =? 46).
  - destruct (path_identifier_safe cs k (part_tail _ _ _ P)) as [A B]. exact (STEP _ A B).
  - destruct (c =? 91) eqn:E91; [|split; discriminate]. apply N.eqb_eq in E91. subst c.
    destruct (bracket_safe cs k P F) as [A B]. exact (STEP _ A B).
Qed.
Lemma path_new_safe : forall s, indices_fit w s ->
  path_new_w w s <> Panic /\ forall p, path_new_w w s = Ok p -> Forall (fun t => from_text t s) (path_tokens p).
Proof.
  intros s F. unfold path_new_w, path_new.
  assert (A : parse_path_exp (uni_alpha w) (uni_numeric w) s <> Panic /\ forall ts, parse_path_exp (uni_alpha w) (uni_numeric w) s = Ok ts -> Forall (fun t => from_text t s) ts).
  { unfold parse_path_exp. destruct s as [|c cs]; [split; [discriminate|intros ts E; injection E as <-; constructor]|]. pose proof (part_self (c :: cs)) as P. destruct (c =? 36).
    - destruct (path_exp_safe (length cs) cs (c :: cs) (part_tail _ _ _ P) F) as [A B]. split; [apply bind_safe; [exact A|discriminate]|].
      intros ts E. destruct (path_exp (uni_alpha w) (uni_numeric w) (length cs) cs) as [ts'| |]; cbn [bind] in E; try discriminate. injection E as <-.
      constructor; [cbn; trivial|exact (B ts' eq_refl)].
    - destruct (is_alphabetic (uni_alpha w) c || is_numeric (uni_numeric w) c); [|split; discriminate]. split.
      + apply bind_safe; [apply identifier_safe|]. intros [t r] E. destruct (identifier_text _ _ _ _ _ P E) as [Q _]. cbn [fst snd].
        apply bind_safe; [exact (proj1 (path_exp_safe (length r) r _ Q F))|discriminate].
      + intros ts E. destruct (identifier (uni_alpha w) (uni_numeric w) c cs) as [[t r]| |] eqn:D; cbn [bind fst snd] in E; try discriminate.
        destruct (identifier_text _ _ _ _ _ P D) as [Q T'].
        destruct (path_exp (uni_alpha w) (uni_numeric w) (length r) r) as [ts'| |] eqn:X; cbn [bind] in E; try discriminate. injection E as <-.
        constructor; [cbn; trivial|]. constructor; [exact T'|exact (proj2 (path_exp_safe (length r) r _ Q F) ts' X)]. }
  destruct A as [A B]. destruct (parse_path_exp (uni_alpha w) (uni_numeric w) s) as [ts|e|]; cbn [bind]; [|split; discriminate|congruence].
  split; [discriminate|]. intros p E. injection E as <-. cbn [path_tokens]. exact (B ts eq_refl).
Qed.
Lemma field_fits : forall s p n, indices_fit w s -> path_new_w w s = Ok p -> In n (field_names p) -> indices_fit w n.
Proof.
  intros s p n F E I. pose proof (proj2 (path_new_safe s F) p E) as A. unfold field_names in I. apply in_flat_map in I as (t & It & In').
  rewrite Forall_forall in A. specialize (A t It). destruct t; cbn in In'; try contradiction. destruct In' as [<-|[]]. cbn [from_text] in A. exact (fit_part _ _ A F).
Qed.

(** * Rules *)
Definition keys_fit (j : json) : Prop := forall k, has_key j k -> indices_fit w k.
Lemma keys_item : forall l v, keys_fit (JArr l) -> In v l -> keys_fit v.
Proof. intros l v K I k H. apply K. eapply hk_item; eassumption. Qed.
Lemma keys_member : forall o n v, keys_fit (JObj o) -> In (n, v) o -> keys_fit v.
Proof. intros o n v K I k H. apply K. eapply hk_member; eassumption. Qed.
Lemma keys_name : forall o n v, keys_fit (JObj o) -> In (n, v) o -> indices_fit w n.
Proof. intros o n v K I. apply K. eapply hk_here; eassumption. Qed.
Lemma keys_get : forall o n v, keys_fit (JObj o) -> obj_get n o = Some v -> keys_fit v.
Proof. intros o n v K G. exact (keys_member o n v K (obj_get_in _ _ _ _ G)). Qed.
Lemma keys_jget : forall j n v, keys_fit j -> json_get n j = Some v -> keys_fit v.
Proof. intros j n v K G. destruct j; try discriminate. exact (keys_get _ _ _ K G). Qed.

Section With.
Variable rj : json -> outcome rule rule_error.
Hypothesis RJ : forall j, keys_fit j -> rj j <> Panic.
Lemma rule_safe : forall k l c j, keys_fit j -> cat_rule_from_json rj k l c j <> Panic.
Proof. intros. unfold cat_rule_from_json. apply bind_safe; [apply RJ; assumption|discriminate]. Qed.
Lemma rule_list_safe : forall c k v, keys_fit v -> add_rule_list w rj c k v <> Panic.
Proof.
  intros c k v K. unfold add_rule_list. destruct (json_get (S_ "matchers") v) as [m|] eqn:G; [|discriminate]. destruct m; try discriminate.
  apply foldM_safe. intros b a I. apply rule_safe. exact (keys_item _ _ (keys_jget _ _ _ K G) I).
Qed.
Lemma by_path_safe : forall o c, keys_fit (JObj o) -> foldM (fun c kv => bind (path_new_w w (fst kv)) (fun p => add_rule_list w rj c p (snd kv))) o c <> Panic.
Proof.
  intros o c K. apply foldM_safe. intros b [n v] I. cbn [fst snd]. apply bind_safe; [exact (proj1 (path_new_safe n (keys_name _ _ _ K I)))|].
  intros p _. apply rule_list_safe. exact (keys_member _ _ _ K I).
Qed.
Lemma rules_v4_safe : forall c r, keys_fit r -> add_rules_from_json w rj c r <> Panic.
Proof.
  intros c r K. unfold add_rules_from_json. match goal with |- context [if ?b then _ else _] => destruct b end; [apply rule_list_safe; exact K|].
  destruct r; try discriminate. match goal with |- context [if ?b then _ else _] => destruct b end; [apply rule_list_safe; exact K|apply by_path_safe; exact K].
Qed.
Lemma rules_v3_safe : forall c r, keys_fit r -> add_v3_rules_from_json w rj c r <> Panic.
Proof.
  intros c r K. unfold add_v3_rules_from_json. match goal with |- context [if ?b then _ else _] => destruct b end; [apply rule_list_safe; exact K|].
  destruct r as [| | | | |o]; try discriminate. match goal with |- context [if ?b then _ else _] => destruct b end; [apply rule_list_safe; exact K|].
  match goal with |- context [if ?b then _ else _] => destruct b end; [|apply by_path_safe; exact K].
  apply foldM_safe. intros b [n v] I. apply rule_list_safe. exact (keys_member _ _ _ K I).
Qed.
Lemma variant_safe : forall v, keys_fit v -> variant_from_json w rj v <> Panic.
Proof.
  intros v K. unfold variant_from_json. destruct (json_get (S_ "rules") v) as [r|] eqn:G; [|discriminate].
  apply bind_safe; [apply rules_v4_safe; exact (keys_jget _ _ _ K G)|discriminate].
Qed.
Lemma def_safe : forall m, keys_fit (JObj m) -> def_from_json w rj m <> Panic.
Proof.
  intros m K. unfold def_from_json. apply bind_safe; [|discriminate]. unfold rules_from_json. destruct (obj_get (S_ "rules") m) as [r|] eqn:G; [|discriminate].
  destruct r as [| | | |l|]; try discriminate. apply bind_safe; [|discriminate]. apply mapM_safe. intros a I. apply RJ. exact (keys_item _ _ (keys_get _ _ _ K G) I).
Qed.
Lemma req_safe : forall A (o : option A) f, req o f <> Panic.
Proof. intros A [a|] f; discriminate. Qed.
Lemma create_safe : forall ty m, keys_fit (JObj m) -> rule_create w rj ty m <> Panic.
Proof.
  intros ty m K. unfold rule_create. cbv zeta.
  repeat match goal with
  | |- (if ?b then _ else _) <> Panic => destruct b
  | |- req _ _ <> Panic => apply req_safe
  | |- Ok _ <> Panic => discriminate
  | |- Err _ <> Panic => discriminate
  | |- bind (def_from_json _ _ _) _ <> Panic => apply bind_safe; [apply def_safe; exact K|discriminate]
  | |- match json_to_num ?a with _ => _ end <> Panic => destruct (json_to_num a)
  | |- match status_from_json ?a with _ => _ end <> Panic => destruct (status_from_json a)
  end.
  - destruct (obj_get (S_ "variants") m) as [v|] eqn:G; [|discriminate]. destruct v as [| | | |l|]; try discriminate.
    apply bind_safe; [|discriminate]. apply mapM_safe. intros a I. apply variant_safe. exact (keys_item _ _ (keys_get _ _ _ K G) I).
  - destruct (obj_get (S_ "status") m) as [v|]; [destruct (status_from_json v); discriminate|discriminate].
Qed.
Lemma from_json_safe : forall j, keys_fit j -> from_json_with w rj j <> Panic.
Proof.
  intros j K. unfold from_json_with. destruct j as [| | | | |m]; try discriminate.
  match goal with |- match ?a with _ => _ end <> Panic => destruct a end; [apply create_safe; exact K|].
  repeat match goal with |- match ?a with _ => _ end <> Panic => destruct a; [discriminate|] end. discriminate.
Qed.
End With.
Lemma fuel_safe : forall f j, keys_fit j -> rule_from_json_fuel w f j <> Panic.
Proof. intro f. induction f as [|f IH]; intros j K; cbn [rule_from_json_fuel]; [discriminate|]. apply from_json_safe; [exact IH|exact K]. Qed.
Lemma update_safe : forall n f m, (forall c, f c <> Panic) -> mr_update n f m <> Panic.
Proof.
  intros n f m F. induction m as [|[n' c] m IH]; cbn [mr_update]; [apply bind_safe; [apply F|discriminate]|].
  destruct (cat_eqb n n'); apply bind_safe; [apply F|discriminate|exact IH|discriminate].
Qed.
Lemma v2_rule_safe : forall m n sub r, keys_fit r -> add_v2_rule w m n sub r <> Panic.
Proof. intros. unfold add_v2_rule. apply update_safe. intro c. apply rule_safe; [intros j K; apply fuel_safe; exact K|assumption]. Qed.
Lemma v2_entry_safe : forall m k v, indices_fit w k -> keys_fit v -> load_v2_entry w m (k, v) <> Panic.
Proof.
  intros m k v F K. unfold load_v2_entry. destruct (starts_with (S_ "$.body") k).
  - destruct (str_eqb k (S_ "$.body")); [apply v2_rule_safe; exact K|]. apply bind_safe; [|intros p _; apply v2_rule_safe; exact K].
    apply path_new_safe. intros front digits rest E N D. destruct front as [|c front]; [discriminate E|].
    assert (E' : skipn 6 k = front ++ S_ "[" ++ digits ++ rest) by exact (f_equal (@tl BinNums.N) E).
    apply (F (firstn 6 k ++ front) digits rest); [|exact N|exact D]. rewrite <- app_assoc. rewrite <- E'. symmetry. apply firstn_skipn.
  - destruct (starts_with (S_ "$.headers") k).
    + apply bind_safe; [exact (proj1 (path_new_safe k F))|]. intros p E. destruct (field_names p) as [|c [|h l]] eqn:L; try discriminate.
      apply bind_safe; [|intros q _; apply v2_rule_safe; exact K]. apply path_new_safe. apply (field_fits k p h F E). rewrite L. right. left. reflexivity.
    + apply bind_safe; [exact (proj1 (path_new_safe k F))|]. intros p E. destruct (field_names p) as [|c l] eqn:L; [discriminate|].
      apply bind_safe; [|intros q _; apply v2_rule_safe; exact K]. destruct l as [|n l]; [discriminate|]. apply path_new_safe. apply (field_fits k p n F E).
      rewrite L. right. left. reflexivity.
Qed.
Lemma matchers_safe : forall o, (forall r, o = Some r -> keys_fit r) -> matchers_from_json w o <> Panic.
Proof.
  intros o H. unfold matchers_from_json. destruct o as [r|]; [|discriminate]. specialize (H r eq_refl). destruct r as [| | | | |m]; try discriminate.
  match goal with |- (if ?b then _ else _) <> Panic => destruct b end; unfold load_from_v2_map, load_from_v3_map; apply foldM_safe; intros b [k v] I.
  - apply v2_entry_safe; [exact (keys_name _ _ _ H I)|exact (keys_member _ _ _ H I)].
  - cbn [fst snd]. apply update_safe. intro c. apply rules_v3_safe; [intros j K; apply fuel_safe; exact K|exact (keys_member _ _ _ H I)].
Qed.
Lemma generators_safe : forall j, (forall r, json_get (S_ "generators") j = Some r -> keys_fit r) -> generators_from_json w j <> Panic.
Proof.
  intros j H. unfold generators_from_json. destruct (json_get (S_ "generators") j) as [r|]; [|discriminate]. specialize (H r eq_refl). destruct r as [| | | | |m]; try discriminate.
  unfold load_from_map. apply foldM_safe. intros g [k v] I. unfold load_cat. cbn [fst snd]. destruct v as [| | | | |o]; try discriminate.
  destruct (gcat_parse w k) as [c|]; [|discriminate]. destruct (single_key c); [discriminate|]. apply foldM_safe. intros g' [k' v'] I'. unfold load_sub. cbn [fst snd].
  destruct v'; try discriminate. destruct (named_key c); [discriminate|]. apply bind_safe; [|discriminate].
  apply path_new_safe. apply (keys_name _ _ _ (keys_member _ _ _ H I) I').
Qed.
End Paths.

(** * The parts of a file *)
Section Files.
Variable w : world.
Variable x : externals.
Lemma rules_part_safe : forall p, paths_fit w p -> rules_read w p <> Panic.
Proof. intros p P. unfold rules_read. apply lift_safe, matchers_safe. intros r G k K. apply (P _ _ _ (or_introl eq_refl) G K). Qed.
Lemma old_rules_safe : forall d p, paths_fit w p -> (forall n, d = Some n -> In n [S_ "requestMatchingRules"; S_ "responseMatchingRules"]) -> old_rules_read w d p <> Panic.
Proof.
  intros d p P D. unfold old_rules_read. apply lift_safe, matchers_safe. intros r G k K. unfold Http.or_else in G.
  destruct (json_get (S_ "matchingRules") p) as [r'|] eqn:E.
  - injection G as <-. exact (P _ _ _ (or_introl eq_refl) E K).
  - destruct d as [n|]; [|discriminate]. specialize (D n eq_refl). refine (P n r k _ G K). destruct D as [<- | [<- | []]]; [right; left; reflexivity|right; right; left; reflexivity].
Qed.
Lemma gens_part_safe : forall p, paths_fit w p -> generators_read w p <> Panic.
Proof. intros p P. unfold generators_read. apply lift_safe, generators_safe. intros r G k K. apply (P _ _ _ (or_intror (or_intror (or_intror (or_introl eq_refl)))) G K). Qed.
Lemma header_given : forall p h vs, content_type_given w p -> headers_from_json w p = Some h -> find_header w h (S_ "content-type") = Some vs -> vs <> [].
Proof.
  intros p h vs C Hd F. unfold headers_from_json in Hd. destruct (json_get (S_ "headers") p) as [hj|] eqn:G; [|discriminate]. destruct hj as [| | | | |m]; try discriminate.
  injection Hd as <-. unfold find_header in F.
  match type of F with match find ?f ?l with _ => _ end = _ => destruct (find f l) as [[k v]|] eqn:E; [|discriminate] end. cbn [snd] in F. injection F as ->.
  apply find_some in E as [I E]. cbn [fst] in E. apply in_map_iff in I as ([k' v'] & X & I). cbn [fst snd] in X. injection X as -> <-.
  intro N. apply (C m k G).
  - apply str_eqb_eq in E. rewrite E. reflexivity.
  - destruct v' as [| | |s|l|]; cbn [header_values] in N; try discriminate.
    + unfold parse_header in N. match type of N with (if ?b then _ else _) = _ => destruct b end; [discriminate|]. destruct (split_on 44 s) eqn:Sp; [|discriminate]. exfalso. revert Sp. destruct s as [|c s']; cbn [split_on]; [discriminate|].
      destruct (c =? 44); [discriminate|]. destruct (split_on 44 s'); discriminate.
    + destruct l; [exact I|discriminate].
Qed.
Lemma type_of_part_safe : forall p, content_type_given w p -> declared_type w x (headers_from_json w p) <> Panic.
Proof.
  intros p C. unfold declared_type. destruct (headers_from_json w p) as [h|] eqn:E; [|discriminate]. destruct (find_header w h (S_ "content-type")) as [vs|] eqn:F; [|discriminate].
  pose proof (header_given p h vs C E F) as N. destruct vs; [congruence|discriminate].
Qed.
Lemma v4_body_safe : forall j attr h, (h = None \/ (exists k v vs, h = Some [(k, v :: vs)]) \/ exists p, h = headers_from_json w p /\ content_type_given w p) ->
  body_from_json w x j attr h <> Panic.
Proof.
  intros j attr h H. unfold body_from_json. destruct (json_get attr j) as [v|]; [|discriminate]. destruct v as [| | | | |attrs]; try discriminate.
  destruct (obj_get (S_ "content") attrs) as [c|]; [|discriminate].
  assert (A : content_type_from_json w x h attrs <> Panic).
  { unfold content_type_from_json. destruct (obj_get (S_ "contentType") attrs); [discriminate|]. destruct H as [-> | [(k & v & vs & ->) | (p & -> & C)]]; [discriminate| |exact (type_of_part_safe p C)].
    unfold find_header. cbn [find fst]. destruct (str_eqb _ _); discriminate. }
  assert (B : bind (content_type_from_json w x h attrs) (fun ct =>
            let bytes := read_bytes w c (encoding_of w attrs) ct in
            match bytes with
            | [] => Ok BEmpty
            | _ => Ok (BPresent bytes (Some (match ct with
                                             | Some c => c
                                             | None => match detect_bytes x bytes with Some c => c | None => ct_default end
                                             end)) (hint_of attrs))
            end) <> @Panic _ unit).
  { apply bind_safe; [exact A|]. intros ct _. cbv zeta. destruct (read_bytes w c (encoding_of w attrs) ct); discriminate. }
  destruct c; try exact B. discriminate.
Qed.
Lemma old_body_safe : forall j attr h, declared_type w x h <> Panic -> old_body_from_json w x j attr h <> Panic.
Proof.
  intros j attr h D. unfold old_body_from_json. apply bind_safe; [exact D|]. intros ct _. destruct (json_get attr j) as [v|]; [|discriminate].
  destruct v as [| | |s| |]; try discriminate. destruct s as [|c s]; [discriminate|]. cbv zeta.
  repeat match goal with |- (if ?b then _ else _) <> Panic => destruct b end; discriminate.
Qed.
Lemma request_safe : forall p, paths_fit w p -> content_type_given w p -> request_from_json w x p <> Panic.
Proof.
  intros p P C. unfold request_from_json. cbv zeta. apply bind_safe; [apply v4_body_safe; right; right; exists p; auto|]. intros b _.
  apply bind_safe; [apply rules_part_safe; exact P|]. intros r _. apply bind_safe; [apply gens_part_safe; exact P|discriminate].
Qed.
Lemma status_safe : forall p, (forall s, json_get (S_ "status") p = Some s -> exists n, s = JNum (PosInt n)) ->
  match json_get (S_ "status") p with Some (JNum (PosInt n)) => Ok (n mod 65536) | Some _ => Panic | None => Ok 200 end <> @Panic N unit.
Proof. intros p H. destruct (json_get (S_ "status") p) as [s|]; [|discriminate]. destruct (H s eq_refl) as (n & ->). discriminate. Qed.
Lemma response_safe : forall p, paths_fit w p -> content_type_given w p -> (forall s, json_get (S_ "status") p = Some s -> exists n, s = JNum (PosInt n)) ->
  response_from_json w x p <> Panic.
Proof.
  intros p P C S'. unfold response_from_json. cbv zeta. apply bind_safe; [apply status_safe; exact S'|]. intros st _.
  apply bind_safe; [apply v4_body_safe; right; right; exists p; auto|]. intros b _.
  apply bind_safe; [apply rules_part_safe; exact P|]. intros r _. apply bind_safe; [apply gens_part_safe; exact P|discriminate].
Qed.
Lemma contents_safe : forall p, paths_fit w p -> contents_from_json w x p <> Panic.
Proof.
  intros p P. unfold contents_from_json. cbv zeta. apply bind_safe.
  - apply v4_body_safe. unfold metadata_to_headers. match goal with |- context [obj_get ?k ?m] => destruct (obj_get k m) as [v|] end; [right; left; eauto|left; reflexivity].
  - intros b _. apply bind_safe; [apply rules_part_safe; exact P|]. intros r _. apply bind_safe; [apply gens_part_safe; exact P|discriminate].
Qed.
Lemma message_safe : forall p, paths_fit w p -> message_from_json w x p <> Panic.
Proof. intros p P. unfold message_from_json. destruct p; try discriminate. apply contents_safe. exact P. Qed.
Lemma nothing_fits : paths_fit w JNull /\ content_type_given w JNull.
Proof. split; [intros n r k _ G; discriminate|intros h k G; discriminate]. Qed.
Definition calm (i : json) : Prop := status_is_whole i /\ forall p, part_of_interaction i p -> paths_fit w p /\ content_type_given w p.
Lemma interaction_safe : forall n i, calm i -> interaction_from_json w x n i <> Panic.
Proof.
  intros n i [S' P]. unfold interaction_from_json. destruct (json_get (S_ "type") i) as [t|]; [|discriminate]. cbv zeta.
  destruct (str_eqb _ (S_ "Synchronous/HTTP")).
  - apply bind_safe.
    + destruct (json_get (S_ "request") i) as [q|] eqn:G; cbn [or_null]; [destruct (P q (pi_request i q G)); apply request_safe; assumption|].
      apply request_safe; apply nothing_fits.
    + intros q _. apply bind_safe; [|discriminate]. destruct (json_get (S_ "response") i) as [r|] eqn:G; cbn [or_null].
      * destruct (P r (pi_response i r G)). apply response_safe; [assumption|assumption|]. intros s G'. exact (S' r s G G').
      * apply response_safe; [apply nothing_fits|apply nothing_fits|discriminate].
  - destruct (str_eqb _ (S_ "Asynchronous/Messages")).
    + apply bind_safe; [apply contents_safe; apply P; apply pi_itself|discriminate].
    + destruct (str_eqb _ (S_ "Synchronous/Messages")); [|discriminate]. destruct (json_get (S_ "request") i) as [q|] eqn:Gq; [|discriminate].
      destruct (json_get (S_ "response") i) as [r|] eqn:Gr; [|discriminate]. destruct r as [| | | |l|]; try discriminate.
      apply bind_safe; [apply collect_safe; intros m I; apply in_map_iff in I as (p & <- & I); apply message_safe, P; exact (pi_responses i l p Gr I)|].
      intros ms _. apply bind_safe; [apply message_safe, P; exact (pi_request i q Gq)|discriminate].
Qed.
Lemma old_request_safe : forall v p, paths_fit w p -> content_type_given w p -> old_request_from_json w x v p <> Panic.
Proof.
  intros v p P C. unfold old_request_from_json. cbv zeta. apply bind_safe; [apply old_body_safe, type_of_part_safe; exact C|]. intros b _.
  apply bind_safe; [apply old_rules_safe; [exact P|intros n E; injection E as <-; left; reflexivity]|]. intros r _. apply bind_safe; [apply gens_part_safe; exact P|discriminate].
Qed.
Lemma old_response_safe : forall p, paths_fit w p -> content_type_given w p -> (forall s, json_get (S_ "status") p = Some s -> exists n, s = JNum (PosInt n)) ->
  old_response_from_json w x p <> Panic.
Proof.
  intros p P C S'. unfold old_response_from_json. cbv zeta. apply bind_safe; [apply status_safe; exact S'|]. intros st _.
  apply bind_safe; [apply old_body_safe, type_of_part_safe; exact C|]. intros b _.
  apply bind_safe; [apply old_rules_safe; [exact P|intros n E; injection E as <-; right; left; reflexivity]|]. intros r _. apply bind_safe; [apply gens_part_safe; exact P|discriminate].
Qed.
Lemma http_safe : forall v n i, calm i -> http_from_json w x v n i <> Panic.
Proof.
  intros v n i [S' P]. unfold http_from_json. apply bind_safe.
  - destruct (json_get (S_ "request") i) as [q|] eqn:G; [|discriminate]. destruct (P q (pi_request i q G)). apply old_request_safe; assumption.
  - intros q _. apply bind_safe; [|discriminate]. destruct (json_get (S_ "response") i) as [r|] eqn:G; [|discriminate].
    destruct (P r (pi_response i r G)). apply old_response_safe; [assumption|assumption|]. intros s G'. exact (S' r s G G').
Qed.
Lemma old_message_safe : forall v n i, calm i -> old_message_from_json w x v n i <> Panic.
Proof.
  intros v n i [_ P]. unfold old_message_from_json. destruct (is_v3 v); [|discriminate]. cbv zeta.
  apply bind_safe.
  - match goal with |- match ?c with _ => _ end <> Panic => destruct c as [ct|] end; [|apply old_body_safe; discriminate].
    apply bind_safe; [|discriminate]. apply old_body_safe. unfold declared_type, find_header. cbn [find fst]. destruct (str_eqb _ _); discriminate.
  - intros b _. apply bind_safe; [|discriminate]. apply old_rules_safe; [apply P, pi_itself|discriminate].
Qed.
Lemma number_in : forall A (l : list A) n k a, In (k, a) (number_from n l) -> In a l.
Proof. intros A l. induction l as [|b l IH]; intros n k a I; [destruct I|]. destruct I as [E|I]; [injection E as _ <-; left; reflexivity|right; eapply IH; exact I]. Qed.

(** C104. A file none of whose parts has a status that is not a whole number, a content type header without values or a path with
    an index that is too large is read without a panic: the reader gives a pact or an error. *)
Theorem C104_reading_never_panics : forall semver j, harmless w j -> load_pact w x semver j <> Panic.
Proof.
  intros semver j H.
  assert (V4 : pact_from_json w x j <> Panic).
  { unfold pact_from_json. apply bind_safe; [|discriminate]. unfold interactions_from_json. destruct (json_get (S_ "interactions") j) as [v|] eqn:G; [|discriminate].
    destruct v as [| | | |l|]; try discriminate. apply collect_safe. intros m I. apply in_map_iff in I as ([n i] & <- & I). apply interaction_safe.
    apply H. exists l. split; [exact (number_in _ _ _ _ _ I)|left; exact G]. }
  unfold load_pact. destruct j as [| | | | |o]; try discriminate. set (j := JObj o) in *.
  assert (HTTP : http_pact_from_json w x semver j <> Panic).
  { unfold http_pact_from_json. cbv zeta.
    assert (B : forall v, bind (match json_get (S_ "interactions") j with
            | Some (JArr l) => collect (map (fun nj => http_from_json w x v (fst nj) (snd nj)) (number_from 0 l))
            | _ => Ok [] end) (fun l => Ok (mkHP (who_read w j) l (parse_meta_data w j) v)) <> Panic).
    { intro v. apply bind_safe; [|discriminate]. destruct (json_get (S_ "interactions") j) as [a|] eqn:G; [|discriminate].
      destruct a as [| | | |l|]; try discriminate. apply collect_safe. intros m I. apply in_map_iff in I as ([n i] & <- & I). apply http_safe.
      apply H. exists l. split; [exact (number_in _ _ _ _ _ I)|left; exact G]. }
    destruct (determine_spec_version semver (parse_meta_data w j)); try apply B. apply bind_safe; [exact V4|discriminate]. }
  assert (MSG : message_pact_from_json w x semver j <> Panic).
  { unfold message_pact_from_json. cbv zeta. apply bind_safe; [|discriminate]. destruct (json_get (S_ "messages") j) as [a|] eqn:G; [|discriminate].
    destruct a as [| | | |l|]; try discriminate. apply collect_safe. intros m I. apply in_map_iff in I as ([n i] & <- & I). apply old_message_safe.
    apply H. exists l. split; [exact (number_in _ _ _ _ _ I)|right; exact G]. }
  destruct (determine_spec_version semver (parse_meta_data w j)); try (apply bind_safe; [exact V4|discriminate]);
    (destruct (obj_has (S_ "messages") o); apply bind_safe; [exact MSG|discriminate|exact HTTP|discriminate]).
Qed.
End Files.

(** * The three things that stop the reader *)
(** A status that is not a whole number, in a response of the first interaction, whatever the version of the file. *)
Lemma empty_request : forall w x, exists q, request_from_json w x JNull = Ok q.
Proof. intros. eexists. reflexivity. Qed.
Theorem C104_other_status_panics : forall w x semver o i l p s,
  obj_get (S_ "messages") o = None -> obj_get (S_ "interactions") o = Some (JArr (i :: l)) ->
  json_get (S_ "type") i = Some (JStr (S_ "Synchronous/HTTP")) -> json_get (S_ "request") i = None ->
  json_get (S_ "response") i = Some p -> json_get (S_ "status") p = Some s -> (forall n, s <> JNum (PosInt n)) ->
  load_pact w x semver (JObj o) = Panic.
Proof.
  intros w x semver o i l p s NM GI GT GQ GP GS H.
  assert (ST : match json_get (S_ "status") p with Some (JNum (PosInt n)) => Ok (n mod 65536) | Some _ => Panic | None => Ok 200 end = @Panic N unit).
  { rewrite GS. destruct s as [| |[n|z|f]| | |]; try reflexivity. destruct (H n eq_refl). }
  assert (V4 : pact_from_json w x (JObj o) = Panic).
  { unfold pact_from_json, interactions_from_json. cbn [json_get]. rewrite GI. cbn [number_from map collect fst snd].
    replace (interaction_from_json w x 0 i) with (@Panic file_interaction unit); [reflexivity|]. symmetry. unfold interaction_from_json. rewrite GT, GQ, GP. cbv zeta. cbn [json_to_string or_null].
    replace (str_eqb (S_ "Synchronous/HTTP") (S_ "Synchronous/HTTP")) with true by reflexivity. cbv iota. destruct (empty_request w x) as [q ->]. cbn [bind]. unfold response_from_json. rewrite ST. reflexivity. }
  assert (OLD : forall v, bind (match json_get (S_ "interactions") (JObj o) with
            | Some (JArr l) => collect (map (fun nj => http_from_json w x v (fst nj) (snd nj)) (number_from 0 l))
            | _ => Ok [] end) (fun l => Ok (mkHP (who_read w (JObj o)) l (parse_meta_data w (JObj o)) v)) = Panic).
  { intro v. cbn [json_get]. rewrite GI. cbn [number_from map collect fst snd].
    replace (http_from_json w x v 0 i) with (@Panic http_interaction unit); [reflexivity|]. symmetry. unfold http_from_json. rewrite GQ, GP. cbn [bind]. unfold old_response_from_json. rewrite ST. reflexivity. }
  unfold load_pact. unfold obj_has. rewrite NM. unfold http_pact_from_json. cbv zeta.
  destruct (determine_spec_version semver (parse_meta_data w (JObj o))); rewrite ?OLD, ?V4; reflexivity.
Qed.
(** An index that does not fit a machine word, in the path of a rule. *)
Lemma index_loop_digits : forall un ds rest, Forall (fun c => 48 <= c <= 57) ds -> index_loop un (ds ++ 93 :: rest) = (ds, 93 :: rest).
Proof.
  intros un ds rest D. induction ds as [|c ds IH]; [reflexivity|]. cbn [app index_loop]. pose proof (Forall_inv D) as B. cbv beta in B.
  replace (is_numeric un c) with true; [rewrite (IH (Forall_inv_tail D)); reflexivity|]. symmetry. unfold is_numeric, is_digit. replace (c <? 128) with true by (symmetry; apply N.ltb_lt; lia).
  apply andb_true_intro. split; apply N.leb_le; lia.
Qed.
Lemma usize_too_large : forall ds, ds <> [] -> Forall (fun c => 48 <= c <= 57) ds -> 18446744073709551616 <= dec_value ds 0 -> parse_usize ds = None.
Proof.
  intros ds N D V. unfold parse_usize. destruct ds as [|c ds]; [reflexivity|]. pose proof (Forall_inv D) as B. cbv beta in B.
  replace (c =? 43) with false by (symmetry; apply N.eqb_neq; lia). destruct (all_digits (c :: ds)); [|reflexivity]. cbv zeta.
  replace (dec_value (c :: ds) 0 <? two64) with false; [reflexivity|]. symmetry. apply N.ltb_ge. exact V.
Qed.
Lemma large_bracket : forall un ds rest, Forall (fun c => 48 <= c <= 57) ds -> 18446744073709551616 <= dec_value ds 0 -> bracket_path un (ds ++ 93 :: rest) = Panic.
Proof.
  intros un ds rest D V. destruct ds as [|c ds]; [cbn [dec_value] in V; lia|].
  pose proof (usize_too_large (c :: ds) ltac:(discriminate) D V) as U. pose proof (Forall_inv D) as B. cbv beta in B.
  unfold bracket_path. cbn [app]. unfold bracket_inner.
  replace (c =? 39) with false by (symmetry; apply N.eqb_neq; lia).
  replace (is_numeric un c) with true.
  2:{ symmetry. unfold is_numeric, is_digit. replace (c <? 128) with true by (symmetry; apply N.ltb_lt; lia). apply andb_true_intro. split; apply N.leb_le; lia. }
  unfold index_path. rewrite (index_loop_digits un ds rest (Forall_inv_tail D)). cbn [fst snd]. rewrite U. reflexivity.
Qed.
Theorem C104_large_index_panics : forall w ds rest, Forall (fun c => 48 <= c <= 57) ds -> 18446744073709551616 <= dec_value ds 0 ->
  path_new_w w (S_ "$[" ++ ds ++ S_ "]" ++ rest) = Panic.
Proof.
  intros w ds rest D V. unfold path_new_w, path_new, parse_path_exp.
  change (S_ "$[" ++ ds ++ S_ "]" ++ rest) with (36 :: 91 :: ds ++ 93 :: rest). cbv beta iota.
  replace (36 =? 36) with true by reflexivity. cbv iota. cbn [length path_exp]. replace (91 =? 46) with false by reflexivity. replace (91 =? 91) with true by reflexivity. cbv iota.
  rewrite (large_bracket _ ds rest D V). reflexivity.
Qed.
(** A file whose first interaction has such a rule on the body of its request is not read, whatever its version. *)
Theorem C104_large_index_in_a_file_panics : forall w x semver o i l ds rest v more,
  Forall (fun c => 48 <= c <= 57) ds -> 18446744073709551616 <= dec_value ds 0 ->
  obj_get (S_ "messages") o = None -> obj_get (S_ "interactions") o = Some (JArr (i :: l)) ->
  json_get (S_ "type") i = Some (JStr (S_ "Synchronous/HTTP")) ->
  json_get (S_ "request") i = Some (JObj [(S_ "matchingRules", JObj [(S_ "body", JObj ((S_ "$[" ++ ds ++ S_ "]" ++ rest, v) :: more))])]) ->
  obj_get (S_ "matchers") ((S_ "$[" ++ ds ++ S_ "]" ++ rest, v) :: more) = None ->
  load_pact w x semver (JObj o) = Panic.
Proof.
  intros w x semver o i l ds rest v more D V NM GI GT GQ NMa.
  pose proof (C104_large_index_panics w ds rest D V) as P. set (k := S_ "$[" ++ ds ++ S_ "]" ++ rest) in *.
  set (q := JObj [(S_ "matchingRules", JObj [(S_ "body", JObj ((k, v) :: more))])]) in *.
  assert (R : matchers_from_json w (Some (JObj [(S_ "body", JObj ((k, v) :: more))])) = Panic).
  { unfold matchers_from_json. change (starts_with (S_ "$") (S_ "body")) with false. cbv iota. unfold load_from_v3_map. cbn [foldM fst snd].
    replace (category_from w (S_ "body")) with CBody by reflexivity. cbn [mr_update]. unfold add_v3_rules_from_json. cbn [cat_eqb cat_name cat_empty andb orb].
    unfold obj_has. rewrite NMa. cbn [foldM fst snd]. rewrite P. reflexivity. }
  assert (V4 : pact_from_json w x (JObj o) = Panic).
  { unfold pact_from_json, interactions_from_json. cbn [json_get]. rewrite GI. cbn [number_from map collect fst snd].
    replace (interaction_from_json w x 0 i) with (@Panic file_interaction unit); [reflexivity|]. symmetry. unfold interaction_from_json. rewrite GT, GQ. cbv zeta. cbn [json_to_string or_null].
    replace (str_eqb (S_ "Synchronous/HTTP") (S_ "Synchronous/HTTP")) with true by reflexivity. cbv iota. unfold request_from_json, rules_read.
    change (json_get (S_ "matchingRules") q) with (Some (JObj [(S_ "body", JObj ((k, v) :: more))])). rewrite R. reflexivity. }
  assert (OLD : forall v, bind (match json_get (S_ "interactions") (JObj o) with
            | Some (JArr l) => collect (map (fun nj => http_from_json w x v (fst nj) (snd nj)) (number_from 0 l))
            | _ => Ok [] end) (fun l => Ok (mkHP (who_read w (JObj o)) l (parse_meta_data w (JObj o)) v)) = Panic).
  { intro v'. cbn [json_get]. rewrite GI. cbn [number_from map collect fst snd].
    replace (http_from_json w x v' 0 i) with (@Panic http_interaction unit); [reflexivity|]. symmetry. unfold http_from_json. rewrite GQ. unfold old_request_from_json, old_rules_read.
    change (json_get (S_ "matchingRules") q) with (Some (JObj [(S_ "body", JObj ((k, v) :: more))])). unfold Http.or_else. rewrite R. reflexivity. }
  unfold load_pact. unfold obj_has. rewrite NM. unfold http_pact_from_json. cbv zeta.
  destruct (determine_spec_version semver (parse_meta_data w (JObj o))); rewrite ?OLD, ?V4; reflexivity.
Qed.

(** * Examples *)
Definition one_file (version : string) (request response : list (str * json)) : json :=
  JObj [(S_ "interactions", JArr [JObj [(S_ "request", JObj request); (S_ "response", JObj response); (S_ "type", JStr (S_ "Synchronous/HTTP"))]]);
        (S_ "metadata", JObj [(S_ "pactSpecification", JObj [(S_ "version", JStr (S_ version))])])].
Definition loaded (version : string) (request response : list (str * json)) : bool * bool :=
  match load_pact digits_world file_ext lenient (one_file version request response) with Ok _ => (true, false) | Err _ => (false, false) | Panic => (false, true) end.
Definition index_rule (k : string) : list (str * json) :=
  [(S_ "matchingRules", JObj [(S_ "body", JObj [(S_ k, JObj [(S_ "matchers", JArr [JObj [(S_ "match", JStr (S_ "type"))]])])])])].
(** The largest index is read and the next one is not; a status as a text; a content type header without values (in a V4 file only
    when there is a body whose type it would give). *)
Example C104_example :
  loaded "3.0" (index_rule "$[18446744073709551615]") [] = (true, false) /\
  loaded "3.0" (index_rule "$[18446744073709551616]") [] = (false, true) /\
  loaded "4.0" (index_rule "$.a[99999999999999999999].b") [] = (false, true) /\
  loaded "2.0" [(S_ "matchingRules", JObj [(S_ "$.body[18446744073709551616]", JObj [(S_ "match", JStr (S_ "type"))])])] [] = (false, true) /\
  loaded "3.0" (index_rule "$[1x]") [] = (false, false) /\
  loaded "3.0" [] [(S_ "status", JNum (PosInt 200))] = (true, false) /\
  loaded "3.0" [] [(S_ "status", JStr (S_ "200"))] = (false, true) /\
  loaded "4.0" [] [(S_ "status", JNum (NegInt (-1)))] = (false, true) /\
  loaded "3.0" [(S_ "headers", JObj [(S_ "Content-Type", JArr [])])] [] = (false, true) /\
  loaded "4.0" [(S_ "headers", JObj [(S_ "Content-Type", JArr [])])] [] = (true, false) /\
  loaded "4.0" [(S_ "body", JObj [(S_ "content", JStr (S_ "x"))]); (S_ "headers", JObj [(S_ "Content-Type", JArr [])])] [] = (false, true).
Proof. repeat split; reflexivity. Qed.
(** The hypotheses of C104_reading_never_panics are met by a file with rules, headers and a status. *)
Example C104_harmless_example :
  harmless digits_world (one_file "3.0" (index_rule "$[7]" ++ [(S_ "headers", JObj [(S_ "Content-Type", JArr [JStr (S_ "text/plain")])])]) [(S_ "status", JNum (PosInt 200))]).
Proof.
  assert (NK : forall k, In k [S_ "body"; S_ "matchers"; S_ "match"] -> indices_fit digits_world k).
  { intros k I front digits rest E N _. exfalso.
    assert (B : In 91 k) by (rewrite E; apply in_or_app; right; left; reflexivity).
    destruct I as [<- | [<- | [<- | []]]]; cbn in B; repeat (destruct B as [B|B]; [discriminate B|]); destruct B. }
  assert (K7 : indices_fit digits_world (S_ "$[7]")).
  { intros front digits rest E N D. destruct front as [|c0 front]; [discriminate E|]. injection E as <- E. destruct front as [|c1 front].
    - cbn [app] in E. injection E as E. destruct digits as [|d ds]; [congruence|]. cbn [app] in E. injection E as <- E. destruct ds as [|e ds].
      + split; [constructor; [lia|constructor]|cbn; lia].
      + cbn [app] in E. injection E as <- E. pose proof (Forall_inv (Forall_inv_tail D)) as X. discriminate X.
    - injection E as <- E. exfalso. assert (B : In 91 [55; 93]) by (rewrite E; apply in_or_app; right; left; reflexivity). destruct B as [B|[B|[]]]; discriminate B. }
  intros i (l & I & [G|G]); [|discriminate G]. cbn in G. injection G as <-. destruct I as [<-|[]]. split.
  - intros p s Gp Gs. injection Gp as <-. injection Gs as <-. eauto.
  - intros p Pp. assert (HK : forall k, has_key (JObj [(S_ "body", JObj [(S_ "$[7]", JObj [(S_ "matchers", JArr [JObj [(S_ "match", JStr (S_ "type"))]])])])]) k ->
        indices_fit digits_world k).
    { intros k H. inversion H as [k' v' o' I1|k' n' v' o' I1 H1|]; subst; clear H; destruct I1 as [E|[]]; injection E as <- <-; [apply NK; left; reflexivity|].
      inversion H1 as [k' v' o' I1|k' n' v' o' I1 H2|]; subst; clear H1; destruct I1 as [E|[]]; injection E as <- <-; [exact K7|].
      inversion H2 as [k' v' o' I1|k' n' v' o' I1 H3|]; subst; clear H2; destruct I1 as [E|[]]; injection E as <- <-; [apply NK; right; left; reflexivity|].
      inversion H3 as [| |k' v' o' I1 H4]; subst; clear H3; destruct I1 as [<-|[]].
      inversion H4 as [k' v' o' I1|k' n' v' o' I1 H5|]; subst; clear H4; destruct I1 as [E|[]]; injection E as <- <-; [apply NK; right; right; left; reflexivity|inversion H5]. }
    destruct Pp as [|p H|p H|l' p H I'].
    + split; [intros n r k [<-|[<-|[<-|[<-|[]]]]] G; discriminate G|intros h k G; discriminate G].
    + injection H as <-. split.
      * intros n r k [<-|[<-|[<-|[<-|[]]]]] G; try discriminate G. injection G as <-. apply HK.
      * intros h k G _ I. injection G as <-. destruct I as [E|[]]. discriminate E.
    + injection H as <-. split; [intros n r k [<-|[<-|[<-|[<-|[]]]]] G; discriminate G|intros h k G; discriminate G].
    + discriminate H.
Qed.
