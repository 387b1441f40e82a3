(** C124: what logging through the C interface writes. *)
From Coq Require Import Ascii String List Arith NArith ZArith Lia Bool.
From Verif Require Import Base PathExp Json Text TextProofs SpecCliArgs Logging SpecLogging PropLogging PropLogging2.
From Verif Require PropCliArgs PropPattern3 CliArgs PactFileProofs PactFile.
Import ListNotations.
Open Scope N_scope.

(** ** Levels *)
Lemma usize_unsigned : forall s, parse_usize s = CliArgs.parse_unsigned two64 s.
Proof. intros [|c s]; reflexivity. Qed.
Lemma usize_iff : forall s n, parse_usize s = Some n <-> a_number (2 ^ 64) s n.
Proof. intros s n. rewrite usize_unsigned, <- two64_eq. apply PropCliArgs.number_iff. Qed.
Lemma not_a_number : forall s, parse_usize s = None <-> forall n, ~ a_number (2 ^ 64) s n.
Proof.
  intro s. split.
  - intros H n A. apply usize_iff in A. congruence.
  - intro H. destruct (parse_usize s) as [n|] eqn:E; [|reflexivity]. apply usize_iff in E. now apply H in E.
Qed.
Lemma lower_has : forall (s name : str), ascii_lower s = name -> forall c, In c s -> 48 <= c <= 57 \/ c = 43 -> In c name.
Proof.
  intros s name <- c I D. unfold ascii_lower. apply in_map_iff. exists c. split; [|exact I]. unfold ascii_low.
  destruct (is_upper c) eqn:E; [|reflexivity]. unfold is_upper in E. apply andb_prop in E. destruct E as [A B]. apply N.leb_le in A, B. lia.
Qed.
Lemma number_has : forall b s n, a_number b s n -> exists c, In c s /\ (48 <= c <= 57 \/ c = 43).
Proof.
  assert (A : forall b s n, numeral b s n -> exists c, In c s /\ 48 <= c <= 57).
  { intros b [|c s] n (NE & F & _); [congruence|]. inversion F; subst. exists c. split; [now left|assumption]. }
  intros b s n [H|(ds & -> & H)]; apply A in H.
  - destruct H as (c & I & D). eauto.
  - exists 43. split; [now left|auto].
Qed.
Definition a_word (name : str) : Prop := In name (map S_ ["error"; "warn"; "info"; "debug"; "trace"; "off"; "none"]%string).
Lemma word_no_number : forall b s n name, a_word name -> ascii_lower s = name -> ~ a_number b s n.
Proof.
  intros b s n name W E A. apply number_has in A. destruct A as (c & I & D). pose proof (lower_has _ _ E c I D) as IN.
  unfold a_word in W. cbn in W. repeat (destruct W as [<-|W]; [cbn in IN; lia|]). exact W.
Qed.
Lemma level_iff : forall s n, level_of s = Some n <-> names_level s n.
Proof.
  intros s n. unfold level_of, names_level. 
  assert (NM : (exists name, In (name, n) level_names /\ same_letters s name) <->
    (ascii_lower s = S_ "error" /\ n = 1) \/ (ascii_lower s = S_ "warn" /\ n = 2) \/ (ascii_lower s = S_ "info" /\ n = 3) \/ (ascii_lower s = S_ "debug" /\ n = 4) \/ (ascii_lower s = S_ "trace" /\ n = 5)).
  { unfold same_letters. split.
    - intros (name & I & L). cbn in I. repeat (destruct I as [I|I]; [injection I as <- <-; rewrite L; tauto|]). destruct I.
    - intros [[E ->]|[[E ->]|[[E ->]|[[E ->]|[E ->]]]]]; rewrite E; eexists; (split; [|]); [left; reflexivity|reflexivity|right; left; reflexivity|reflexivity|do 2 right; left; reflexivity|reflexivity|do 3 right; left; reflexivity|reflexivity|do 4 right; left; reflexivity|reflexivity]. }
  destruct (parse_usize s) as [m|] eqn:P.
  - assert (A : a_number (2 ^ 64) s m) by now apply usize_iff. split.
    + destruct ((1 <=? m) && (m <=? 5)) eqn:B; [|discriminate]. intro H; injection H as <-. right. split; [exact A|]. apply andb_prop in B. destruct B as [B1 B2]. apply N.leb_le in B1, B2. lia.
    + intros [H|[A' B]].
      * exfalso. apply NM in H. destruct H as [[E _]|[[E _]|[[E _]|[[E _]|[E _]]]]]; (eapply word_no_number; [|exact E|exact A]); cbn; tauto.
      * apply usize_iff in A'. assert (m = n) by congruence. subst m. now rewrite (proj2 (N.leb_le 1 n)), (proj2 (N.leb_le n 5)) by lia.
  - pose proof (proj1 (not_a_number s) P) as NA. split.
    + intro H. left. apply NM.
      destruct (str_eqb (ascii_lower s) (S_ "error")) eqn:E1; [apply str_eqb_eq in E1; injection H as <-; auto|].
      destruct (str_eqb (ascii_lower s) (S_ "warn")) eqn:E2; [apply str_eqb_eq in E2; injection H as <-; auto|].
      destruct (str_eqb (ascii_lower s) (S_ "info")) eqn:E3; [apply str_eqb_eq in E3; injection H as <-; auto|].
      destruct (str_eqb (ascii_lower s) (S_ "debug")) eqn:E4; [apply str_eqb_eq in E4; injection H as <-; tauto|].
      destruct (str_eqb (ascii_lower s) (S_ "trace")) eqn:E5; [apply str_eqb_eq in E5; injection H as <-; tauto|discriminate].
    + intros [H|[A _]]; [|now apply NA in A]. apply NM in H. destruct H as [[E ->]|[[E ->]|[[E ->]|[[E ->]|[E ->]]]]]; rewrite E; reflexivity.
Qed.
Definition filter_of (t : str) : option N := if str_eqb (ascii_lower t) (S_ "none") then Some 0 else level_filter_of t.
Lemma filter_iff : forall s n, filter_of s = Some n <-> names_filter s n.
Proof.
  intros s n. unfold filter_of, level_filter_of, names_filter, same_letters.
  change (ascii_lower (S_ "NONE")) with (S_ "none"). change (ascii_lower (S_ "OFF")) with (S_ "off").
  destruct (str_eqb (ascii_lower s) (S_ "none")) eqn:E1.
  { apply str_eqb_eq in E1. split; [intro H; injection H as <-; auto|].
    intros [H|[[-> _]|[-> E0]]]; [|reflexivity|subst s; discriminate].
    apply level_iff in H. unfold level_of in H. rewrite E1 in H. destruct (parse_usize s) as [m|] eqn:P; [|discriminate].
    exfalso. apply usize_iff in P. eapply word_no_number; [|exact E1|exact P]. cbn; tauto. }
  destruct (parse_usize s) as [m|] eqn:P.
  - assert (A : a_number (2 ^ 64) s m) by now apply usize_iff.
    assert (OFF : ascii_lower s <> S_ "off") by (intro E; eapply word_no_number; [|exact E|exact A]; cbn; tauto).
    assert (NIL : s <> []) by (intros ->; discriminate).
    rewrite <- level_iff. unfold level_of. rewrite P. split.
    + destruct (N.leb_spec m 5); [|discriminate]. intro X; injection X as <-. destruct (N.eq_dec m 0) as [->|]; [right; left; auto|].
      left. now rewrite (proj2 (N.leb_le 1 m)) by lia.
    + intros [X|[[-> [X|[X|X]]]|[-> X]]].
      * destruct (1 <=? m); [|discriminate]. exact X.
      * apply str_eqb_eq in X. congruence.
      * congruence.
      * apply usize_iff in X. assert (m = 0) by congruence. subst m. reflexivity.
      * congruence.
  - pose proof (proj1 (not_a_number s) P) as NA. destruct s as [|c s].
    + split; [intro X; injection X as <-; auto|]. intros [X|[[-> [X|[X|X]]]|[-> _]]]; try discriminate; [|now apply NA in X|reflexivity].
      apply level_iff in X. discriminate.
    + destruct (str_eqb (ascii_lower (c :: s)) (S_ "off")) eqn:E2.
      * apply str_eqb_eq in E2. split; [intro X; injection X as <-; right; left; split; [reflexivity|right; left; exact E2]|]. intros [X|[[-> _]|[-> X]]]; [|reflexivity|discriminate].
        apply level_iff in X. unfold level_of in X. rewrite P, E2 in X. discriminate.
      * rewrite level_iff. split; [auto|]. intros [X|[[-> [X|[X|X]]]|[-> X]]]; [exact X| | | |discriminate].
        -- apply str_eqb_eq in X. congruence.
        -- apply str_eqb_eq in X. congruence.
        -- now apply NA in X.
Qed.
(** The names of levels: those of [pactffi_log_message], and those of [pactffi_init_with_log_level], which has further ones. *)
Theorem C124_level : forall render s c, level_given names_level c (fst (given_level render s c)) /\ level_given names_filter c (fst (given_filter render s c)).
Proof.
  intros render s c. unfold level_given, given_level, given_filter, convert_cstr. destruct c as [b|].
  2: { split; right; (split; [intros b t m E; discriminate|reflexivity]). }
  destruct (from_utf8 b) as [t|] eqn:U; cbn [fst].
  - split.
    + destruct (level_of t) as [n|] eqn:L.
      * left. exists b, t. split; [reflexivity|]. split; [exact U|]. now apply level_iff.
      * right. split; [|reflexivity]. intros b' t' m E U' X. injection E as <-. rewrite U in U'. injection U' as <-. apply level_iff in X. congruence.
    + assert (E : (if str_eqb (ascii_lower t) (S_ "none") then 0 else match level_filter_of t with Some l => l | None => 3 end) = match filter_of t with Some l => l | None => 3 end)
        by (unfold filter_of; destruct (str_eqb _ _); reflexivity).
      rewrite E. destruct (filter_of t) as [n|] eqn:L.
      * left. exists b, t. split; [reflexivity|]. split; [exact U|]. now apply filter_iff.
      * right. split; [|reflexivity]. intros b' t' m E' U' X. injection E' as <-. rewrite U in U'. injection U' as <-. apply filter_iff in X. congruence.
  - split; right; (split; [intros b' t m E U'; injection E as <-; congruence|reflexivity]).
Qed.
Lemma one_level : forall s n m, names_level s n -> names_level s m -> n = m.
Proof. intros s n m A B. apply level_iff in A, B. congruence. Qed.
Lemma one_filter : forall s n m, names_filter s n -> names_filter s m -> n = m.
Proof. intros s n m A B. apply filter_iff in A, B. congruence. Qed.
