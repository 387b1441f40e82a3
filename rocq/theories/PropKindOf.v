(** C127: the content type of data. *)
From Coq Require Import Ascii String List Arith NArith ZArith Lia Bool.
From Verif Require Import Base PathExp Json Text Base64 ContentType MatchingRules Matchers Http KindOf SpecKindOf.
Import ListNotations.
Open Scope N_scope.

Lemma attrs_eqb_eq : forall l m, list_eqb attr_eqb l m = true <-> l = m.
Proof.
  induction l as [|[k v] l IH]; intros [|[k' v'] m]; cbn; try (split; discriminate || reflexivity).
  unfold attr_eqb at 1. cbn [fst snd]. rewrite !andb_true_iff, !str_eqb_eq, IH. split; [intros [[-> ->] ->]; reflexivity|intro H; injection H as -> -> ->; auto].
Qed.
Lemma ct_eqb_eq : forall a b, ct_eqb a b = true <-> a = b.
Proof.
  intros [m s l x] [m' s' l' x']. unfold ct_eqb. cbn [main_type sub_type attributes suffix]. rewrite !andb_true_iff, !str_eqb_eq, attrs_eqb_eq.
  split.
  - intros [[[-> ->] ->] H]. destruct x, x'; try discriminate; [apply str_eqb_eq in H; now subst|reflexivity].
  - intro H; injection H as -> -> -> ->. repeat split. destruct x'; [apply str_eqb_refl|reflexivity].
Qed.

Section Kind.
Variable w : world.
Variable x : externals.
Variable infer : list N -> option str.
Variable magic : list N -> str.
Notation match_content_type := (match_content_type x infer magic).
Notation has_type := (has_type x infer magic).
Notation looks := (looks infer magic).

Lemma names_iff : forall t c, names_type x t c <-> c = type_from x t.
Proof.
  intros t c. unfold type_from. split.
  - intros [s c' E|s E]; rewrite E; reflexivity.
  - intros ->. destruct (parse_mime x t) as [c|] eqn:E; [now apply nt_type|now apply nt_any].
Qed.
(** The check of data against a content type. *)
Theorem C127_has_type : forall d t, match_content_type d t = true <-> has_type d t.
Proof.
  intros d t. unfold KindOf.match_content_type. destruct (infer d) as [[|c s]|] eqn:I.
  1,3: assert (LM : looks d (magic d)) by (apply lk_magic; rewrite I; auto);
    assert (LU : forall u, looks d u -> u = magic d) by (intros u L; inversion L; subst; [congruence|reflexivity]);
    rewrite str_eqb_refl; cbn [andb]; (destruct (str_eqb_spec [] t) as [<-|NE]; [split; [intros _; apply ht_nothing; rewrite I; auto|reflexivity]|]);
    (destruct (str_eqb_spec (magic d) t) as [<-|NM]; [split; [intros _; now apply ht_looks|reflexivity]|]);
    (destruct (str_eqb_spec (magic d) (S_ "text/plain")) as [MT|MT];
     [destruct (detect_bytes x d) as [ct|] eqn:DB|]);
    [rewrite ct_eqb_eq; split; [intro E; eapply ht_text; [rewrite <- MT; exact LM|exact DB|now apply names_iff]|]
    |split; [discriminate|]|split; [discriminate|]];
    intro H; inversion H as [? ? L|? ? ct' L D NT|? ?]; subst; try congruence;
      try (apply LU in L; congruence); apply names_iff in NT; congruence.
  assert (LS : looks d (c :: s)) by (apply lk_signature; [exact I|discriminate]).
  assert (LU : forall u, looks d u -> u = c :: s) by (intros u L; inversion L as [? ? E|? [E|E]]; subst; congruence).
  destruct (str_eqb_spec (c :: s) t) as [<-|NE]; [split; [intros _; now apply ht_looks|reflexivity]|].
  assert (str_eqb (c :: s) [] = false) as -> by reflexivity. cbn [andb].
  destruct (str_eqb_spec (c :: s) (S_ "text/plain")) as [MT|MT]; [destruct (detect_bytes x d) as [ct|] eqn:DB|].
  - rewrite ct_eqb_eq. split; [intro E; eapply ht_text; [rewrite <- MT; exact LS|exact DB|now apply names_iff]|].
    intro H; inversion H as [? ? L|? ? ct' L D NT|? [E|E]]; subst; try congruence; try (apply LU in L; congruence). apply names_iff in NT. congruence.
  - split; [discriminate|]. intro H; inversion H as [? ? L|? ? ct' L D NT|? [E|E]]; subst; try congruence; apply LU in L; congruence.
  - split; [discriminate|]. intro H; inversion H as [? ? L|? ? ct' L D NT|? [E|E]]; subst; try congruence; apply LU in L; congruence.
Qed.
(** Data of a known signature other than plain text has exactly that type, letter by letter. *)
Theorem C127_one_type : forall d s t, infer d = Some s -> s <> [] -> s <> S_ "text/plain" -> (match_content_type d t = true <-> t = s).
Proof.
  intros d s t I NE NT. rewrite C127_has_type. split.
  - intro H; inversion H as [? ? L|? ? c L D N|? [E|E]]; subst; try congruence; inversion L as [? ? E|? [E|E]]; subst; congruence.
  - intros ->. apply ht_looks. now apply lk_signature.
Qed.
(** Found: data of no known signature has the empty content type, whatever it is. *)
Theorem C127_why_nothing : forall d, infer d = None -> match_content_type d [] = true.
Proof. intros d I. apply C127_has_type. apply ht_nothing. auto. Qed.

Lemma data_right : forall j b, convert_data w j = b <-> holds_data w j b.
Proof.
  intros j b. split.
  - intros <-. destruct j; cbn [convert_data]; try (apply hd_json; intros; discriminate). destruct (b64_decode s) as [b|] eqn:E; [now apply hd_base64|now apply hd_text].
  - intro H. destruct H as [s b E|s E|j N]; cbn [convert_data]; try now rewrite E. destruct j; try reflexivity. exfalso. eapply N. reflexivity.
Qed.
(** The content type rule: on text, on JSON and on bytes. *)
Theorem C127_rule : checks_types w x infer magic -> forall t cascaded,
  (forall e a, str_matches w e a (RContentType t) cascaded = true <-> has_type (utf8 a) t) /\
  (forall e a, json_matches w e a (RContentType t) cascaded = true <-> exists d, holds_data w a d /\ has_type d t) /\
  (forall e a, bytes_matches w x e a (RContentType t) cascaded = Ok true <-> has_type a t).
Proof.
  intros (T & J & B) t k. repeat split; intros; cbn [str_matches json_matches bytes_matches] in *.
  - apply C127_has_type. rewrite <- T. assumption.
  - rewrite T. now apply C127_has_type.
  - exists (convert_data w a). split; [now apply data_right|]. apply C127_has_type. rewrite <- J. assumption.
  - rewrite J. destruct H as (d & D & HT). apply data_right in D. rewrite D. now apply C127_has_type.
  - apply C127_has_type. rewrite <- B. congruence.
  - rewrite B. f_equal. now apply C127_has_type.
Qed.
(** Bytes put into JSON as base 64 are found again. *)
Theorem C127_base64 : forall d, Forall (fun b => b < 256) d -> holds_data w (JStr (b64_encode d)) d.
Proof. intros d F. apply hd_base64. now apply b64_round. Qed.
End Kind.

(** Every world has one that checks types this way. *)
Theorem C127_checks_types_can_be : forall w x infer magic, exists w' x',
  checks_types w' x' infer magic /\ parse_mime x' = parse_mime x /\ detect_bytes x' = detect_bytes x /\ (forall j, json_show w' j = json_show w j).
Proof.
  intros w x infer magic.
  set (w' := mkWorld (uni_alpha w) (uni_numeric w) (uni_upper w) (uni_lower w) (uni_space w) (show_float w) (display_float w) (parse_float_ok w) (regex_match w) (semver_ok w) (datetime_ok w)
    (fun a t => match_content_type x infer magic (utf8 a) t) (fun j t => match_content_type x infer magic (convert_data w j) t)).
  set (x' := mkExt (parse_mime x) (detect_text x) (detect_bytes x) (json_of_bytes x) (form_of_bytes x) (fun b t => match_content_type x infer magic b t) (match_xml x) (match_multipart x)).
  assert (S : forall j, json_show w' j = json_show w j) by reflexivity.
  exists w', x'. split; [|repeat split; exact S]. repeat split.
Qed.
Example C127_example : forall x,
  match_content_type x (fun _ => Some (S_ "image/png")) (fun _ => []) [137] (S_ "image/png") = true /\
  match_content_type x (fun _ => Some (S_ "image/png")) (fun _ => []) [137] (S_ "image/PNG") = false /\
  match_content_type x (fun _ => None) (fun _ => S_ "text/css") [97] (S_ "text/css") = true.
Proof. intro x. repeat split. Qed.
