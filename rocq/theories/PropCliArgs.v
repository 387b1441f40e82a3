(** C123: which command lines of the verifier are accepted. *)
From Coq Require Import Ascii String List Arith NArith ZArith Lia Bool.
From Verif Require Import Base PathExp Json Text TextProofs VerifierClient Verifier Broker VerifierHandle CliArgs SpecCliArgs.
Import ListNotations.
Open Scope N_scope.

(** ** Numbers *)
Lemma digit_iff : forall c, is_digit c = true <-> digit c.
Proof. intro c. unfold is_digit, digit. rewrite andb_true_iff, !N.leb_le. reflexivity. Qed.
Lemma digits_iff : forall ds, all_digits ds = true <-> Forall digit ds.
Proof. intro ds. unfold all_digits. rewrite forallb_forall, Forall_forall. setoid_rewrite digit_iff. reflexivity. Qed.
Lemma value_from : forall ds a, fold_left (fun a c => 10 * a + (c - 48)) ds a = dec_value ds a.
Proof. induction ds as [|c ds IH]; intro a; cbn [fold_left dec_value]; [reflexivity|]. rewrite IH. f_equal. lia. Qed.
Definition digits_value (b : N) (ds : str) : option N :=
  match ds with [] => None | _ => if all_digits ds then (if dec_value ds 0 <? b then Some (dec_value ds 0) else None) else None end.
Lemma parse_digits : forall b v, parse_unsigned b v = digits_value b (match v with c :: v' => if c =? 43 then v' else v | [] => [] end).
Proof. reflexivity. Qed.
Lemma numeral_iff : forall b ds n, digits_value b ds = Some n <-> numeral b ds n.
Proof.
  intros b ds n. unfold numeral, digits_value. rewrite value_from, <- digits_iff. destruct ds as [|c ds]; [split; [discriminate|intros [H _]; congruence]|].
  destruct (all_digits (c :: ds)); [|split; [discriminate|intros (_ & H & _); discriminate]].
  destruct (N.ltb_spec (dec_value (c :: ds) 0) b).
  - split; [intro H0; injection H0 as <-; repeat split; (congruence || assumption)|intros (_ & _ & -> & _); reflexivity].
  - split; [discriminate|intros (_ & _ & E & L); lia].
Qed.
Lemma number_iff : forall b v n, parse_unsigned b v = Some n <-> a_number b v n.
Proof.
  intros b v n. rewrite parse_digits. unfold a_number. destruct v as [|c v].
  { split; [discriminate|]. intros [[H _]|(ds & H & _)]; congruence. }
  destruct (N.eqb_spec c 43) as [->|NE].
  - rewrite numeral_iff. split; [intro H; right; eauto|]. intros [(_ & F & _)|(ds & E & H)].
    + exfalso. inversion F as [|? ? D _]; subst. unfold digit in D. lia.
    + injection E as <-. exact H.
  - rewrite numeral_iff. split; [auto|]. intros [H|(ds & E & _)]; [exact H|congruence].
Qed.
Lemma number_fun : forall b v n m, a_number b v n -> a_number b v m -> n = m.
Proof. intros b v n m H H'. apply number_iff in H, H'. congruence. Qed.

Section Proofs.
Variable word : N -> bool.
Variable decimal : N -> bool.
Variable w : world.
Notation word_character := (word_character word).
Notation decimal_digit := (decimal_digit decimal).
Notation transport_value := (transport_value word decimal w).
Notation a_transport := (a_transport word decimal w).
Notation usable_transport := (usable_transport word decimal w).
Notation bad_port := (bad_port word decimal w).

(** ** Transports *)
Lemma word_iff : forall c, is_word word c = true <-> word_character c.
Proof.
  intro c. unfold is_word, SpecCliArgs.word_character, ascii_word, is_digit, is_lower, is_upper, digit.
  destruct (N.ltb_spec c 128); rewrite ?orb_true_iff, ?andb_true_iff, ?N.leb_le, ?N.eqb_eq; intuition lia.
Qed.
Lemma decimal_iff : forall c, is_decimal decimal c = true <-> decimal_digit c.
Proof.
  intro c. unfold is_decimal, SpecCliArgs.decimal_digit, is_digit, digit.
  destruct (N.ltb_spec c 128); rewrite ?andb_true_iff, ?N.leb_le; intuition lia.
Qed.
Definition stops (f : N -> bool) (s : str) : Prop := match s with [] => True | c :: _ => f c = false end.
Lemma stops_one_way : forall f a b a' b', a ++ b = a' ++ b' -> Forall (fun c => f c = true) a -> stops f b -> Forall (fun c => f c = true) a' -> stops f b' -> a = a' /\ b = b'.
Proof.
  intro f. induction a as [|x a IH]; intros b a' b' E A B A' B'.
  - destruct a' as [|z a']; [auto|]. exfalso. cbn in E. subst b. cbn in B. apply Forall_inv in A'. congruence.
  - destruct a' as [|z a'].
    + exfalso. cbn in E. subst b'. cbn in B'. apply Forall_inv in A. congruence.
    + injection E as <- E. apply Forall_inv_tail in A, A'. destruct (IH b a' b' E A B A' B') as [-> ->]. auto.
Qed.
Lemma take_ok : forall f s a b, take_while f s = (a, b) -> s = a ++ b /\ Forall (fun c => f c = true) a /\ stops f b.
Proof.
  intro f. induction s as [|c s IH]; intros a b; cbn.
  - intro H; injection H as <- <-. repeat split; constructor.
  - destruct (f c) eqn:F.
    + destruct (take_while f s) as [a' b']. destruct (IH a' b' eq_refl) as (E & A & B). intro H; injection H as <- <-. subst s. repeat split; auto.
    + intro H; injection H as <- <-. repeat split; [constructor|exact F].
Qed.
Lemma take_iff : forall f s a b, take_while f s = (a, b) <-> s = a ++ b /\ Forall (fun c => f c = true) a /\ stops f b.
Proof.
  intros f s a b. split; [apply take_ok|]. intros (E & A & B). destruct (take_while f s) as [a' b'] eqn:T. apply take_ok in T. destruct T as (E' & A' & B').
  destruct (stops_one_way f a' b' a b) as [-> ->]; congruence.
Qed.
Lemma Forall_iff : forall {A} (P Q : A -> Prop), (forall x, P x <-> Q x) -> forall l, Forall P l <-> Forall Q l.
Proof. intros A P Q H l. rewrite !Forall_forall. setoid_rewrite H. reflexivity. Qed.
Lemma colon_is_no_word : is_word word 58 = false.
Proof. reflexivity. Qed.
Lemma path_stops : forall path : option str, (forall p, path = Some p -> (exists p', p = 47 :: p') /\ Forall (fun c => is_space w c = false) p) ->
  stops (is_decimal decimal) match path with Some p => p | None => [] end.
Proof. intros [p|] H; [|exact Coq.Init.Logic.I]. destruct (H p eq_refl) as [(p' & ->) _]. reflexivity. Qed.
Lemma transport_shape : forall t name port path, a_transport t name port path ->
  transport_value t = match parse_unsigned 65536 port with Some n => Ok (name, n, path) | None => Panic end.
Proof.
  intros t name port path (E & NN & NW & PN & PD & PP). unfold CliArgs.transport_value.
  assert (T : take_while (is_word word) t = (name, [58] ++ port ++ match path with Some p => p | None => [] end)).
  { apply take_iff. repeat split; [exact E|apply (Forall_iff _ _ word_iff), NW]. }
  rewrite T. destruct name as [|c0 name]; [congruence|]. cbn [app]. rewrite N.eqb_refl. cbn [negb].
  assert (T2 : take_while (is_decimal decimal) (port ++ match path with Some p => p | None => [] end) = (port, match path with Some p => p | None => [] end)).
  { apply take_iff. repeat split; [apply (Forall_iff _ _ decimal_iff), PD|apply path_stops, PP]. }
  rewrite T2. destruct port as [|p0 port]; [congruence|]. destruct path as [p|].
  - destruct (PP p eq_refl) as [(p' & ->) F]. rewrite N.eqb_refl. cbn [andb].
    assert (FB : forallb (fun c => negb (is_space w c)) (47 :: p') = true).
    { apply forallb_forall. rewrite Forall_forall in F. intros x Hx. now rewrite (F x Hx). }
    rewrite FB. reflexivity.
  - reflexivity.
Qed.
Lemma transport_else : forall t, transport_value t = Err tt \/ exists name port path, a_transport t name port path.
Proof.
  intro t. unfold CliArgs.transport_value. destruct (take_while (is_word word) t) as [name rest] eqn:T. apply take_iff in T. destruct T as (E & NW & _).
  destruct name as [|c0 name]; [now left|]. destruct rest as [|colon rest]; [now left|].
  destruct (N.eqb_spec colon 58) as [->|]; [|now left]. cbn [negb].
  destruct (take_while (is_decimal decimal) rest) as [port rest'] eqn:T2. apply take_iff in T2. destruct T2 as (E2 & PD & _).
  destruct port as [|p0 port]; [now left|]. destruct rest' as [|c rest'].
  - right. exists (c0 :: name), (p0 :: port), None. repeat (apply conj); try discriminate.
    + now rewrite E, E2.
    + apply (Forall_iff _ _ word_iff), NW.
    + apply (Forall_iff _ _ decimal_iff), PD.
  - destruct (N.eqb_spec c 47) as [->|]; [|now left]. cbn [andb].
    destruct (forallb (fun c => negb (is_space w c)) (47 :: rest')) eqn:FB; [|now left].
    right. exists (c0 :: name), (p0 :: port), (Some (47 :: rest')). repeat (apply conj); try discriminate.
    + now rewrite E, E2.
    + apply (Forall_iff _ _ word_iff), NW.
    + apply (Forall_iff _ _ decimal_iff), PD.
    + intros p [= <-]. split; [eauto|]. rewrite forallb_forall in FB. apply Forall_forall. intros x Hx. apply FB in Hx. now destruct (is_space w x).
Qed.
Lemma port_iff : forall t name port path, a_transport t name port path -> forall n, parse_unsigned 65536 port = Some n <-> numeral 65536 port n.
Proof.
  intros t name port path (_ & _ & _ & _ & PD & _) n. rewrite number_iff. unfold a_number. split; [|auto]. intros [H|(ds & -> & _)]; [exact H|].
  inversion PD as [|? ? D _]; subst. unfold SpecCliArgs.decimal_digit, digit in D. lia.
Qed.
(** Of a text for a transport: it is taken, it ends the program, or it is an error; which one depends on its shape and its port. *)
Theorem C123_transport : forall t r, transport_value t = Ok r <-> usable_transport t r.
Proof.
  intros t [[name n] path]. unfold SpecCliArgs.usable_transport. cbn [fst snd]. split.
  - intro H. destruct (transport_else t) as [E|(na & po & pa & S)]; [congruence|]. pose proof (transport_shape _ _ _ _ S) as E. rewrite E in H.
    destruct (parse_unsigned 65536 po) as [m|] eqn:P; [|discriminate]. injection H as <- <- <-. exists po. split; [exact S|]. now apply (port_iff _ _ _ _ S).
  - intros (port & S & NU). rewrite (transport_shape _ _ _ _ S). apply (port_iff _ _ _ _ S) in NU. now rewrite NU.
Qed.
Theorem C123_why_a_port_panics : forall t, transport_value t = Panic <-> bad_port t.
Proof.
  intro t. unfold SpecCliArgs.bad_port. split.
  - intro H. destruct (transport_else t) as [E|(na & po & pa & S)]; [congruence|]. exists na, po, pa. split; [exact S|]. intros n NU.
    apply (port_iff _ _ _ _ S) in NU. rewrite (transport_shape _ _ _ _ S), NU in H. discriminate.
  - intros (na & po & pa & S & NO). rewrite (transport_shape _ _ _ _ S). destruct (parse_unsigned 65536 po) as [m|] eqn:P; [|reflexivity].
    apply (port_iff _ _ _ _ S) in P. now apply NO in P.
Qed.

(** ** Values *)
Lemma ok_or : forall {A} (o : outcome A unit), (exists a, o = Ok a) \/ o = Err tt \/ o = Panic.
Proof. intros A [a|[]|]; eauto. Qed.
Lemma all_ok_iff : forall {A} (f : str -> outcome A unit) l rs, all_ok f l = Ok rs <-> Forall2 (fun s r => f s = Ok r) l rs.
Proof.
  intros A f. induction l as [|s l IH]; intro rs; cbn.
  - split; [intro H; injection H as <-; constructor|inversion 1; reflexivity].
  - split.
    + destruct (f s) eqn:F; [|discriminate|discriminate]. cbn. destruct (all_ok f l) eqn:G; [|discriminate|discriminate]. cbn. intro H; injection H as <-. constructor; [exact F|now apply IH].
    + inversion 1; subst. rewrite H2. cbn. apply IH in H4. now rewrite H4.
Qed.
Lemma all_ok_panic : forall {A} (f : str -> outcome A unit) l, all_ok f l = Panic <->
  exists l1 s l2, l = l1 ++ s :: l2 /\ (forall s', In s' l1 -> exists r, f s' = Ok r) /\ f s = Panic.
Proof.
  intros A f. induction l as [|s l IH]; cbn.
  - split; [discriminate|]. intros ([|] & ? & ? & E & _); discriminate.
  - split.
    + destruct (f s) eqn:F; cbn; [|discriminate|].
      * destruct (all_ok f l) eqn:G; cbn; [discriminate|discriminate|]. intros _. destruct (proj1 IH eq_refl) as (l1 & s0 & l2 & -> & A1 & P).
        exists (s :: l1), s0, l2. repeat split; [|exact P]. intros s' [<-|Hs]; [eauto|now apply A1].
      * intros _. exists [], s, l. repeat split; [|exact F]. intros s' [].
    + intros ([|s1 l1] & s0 & l2 & E & A1 & P).
      * injection E as -> ->. now rewrite P.
      * injection E as -> ->. destruct (A1 s1 (or_introl eq_refl)) as (r & R). rewrite R. cbn.
        assert (Q : all_ok f (l1 ++ s0 :: l2) = Panic) by (apply IH; exists l1, s0, l2; repeat split; [intros s' Hs; apply A1; now right|exact P]). now rewrite Q.
Qed.
Lemma parts_iff : forall d v ps, parts d v ps <-> ps = split_on d v.
Proof.
  intros d v ps. unfold parts. split.
  - intros (NE & F & <-). symmetry. now apply split_join.
  - intros ->. repeat split; [apply split_on_nonempty|apply Forall_forall; intros p Hp; now apply split_on_parts with (s := v)|apply join_split].
Qed.
Lemma nonempty_iff : forall s r, nonempty_value s = Ok r <-> r = s /\ s <> [].
Proof. intros [|c s] r; cbn; split; [discriminate|intros [_ H]; congruence|intro H; injection H as <-; split; [reflexivity|discriminate]|intros [-> _]; reflexivity]. Qed.
Lemma nonempty_no_panic : forall s, nonempty_value s <> Panic.
Proof. intros [|c s]; discriminate. Qed.
Lemma nonempty_all : forall l rs, Forall2 (fun s r => nonempty_value s = Ok r) l rs <-> rs = l /\ ~ In [] l.
Proof.
  induction l as [|s l IH]; intro rs.
  - split; [inversion 1; split; [reflexivity|intros []]|intros [-> _]; constructor].
  - split.
    + inversion 1; subst. apply nonempty_iff in H2. destruct H2 as [-> NE]. apply IH in H4. destruct H4 as [-> NI]. split; [reflexivity|]. intros [E|I]; congruence.
    + intros [-> NI]. constructor; [apply nonempty_iff; split; [reflexivity|]; intros ->; apply NI; now left|]. apply IH. split; [reflexivity|]. intro I. apply NI. now right.
Qed.
Lemma when_iff : forall b, when b = Ok tt <-> b = true.
Proof. intros [|]; cbn; split; congruence. Qed.
Lemma when_no_panic : forall b, when b <> Panic.
Proof. intros [|]; discriminate. Qed.
Lemma some_iff : forall {A} (o : option A), is_some o = true <-> exists a, o = Some a.
Proof. intros A [a|]; cbn; split; [eauto|reflexivity|discriminate|intros [a H]; discriminate]. Qed.
Lemma nonempty_done : forall v, bind (nonempty_value v) (fun _ => Ok tt) = Ok tt <-> v <> [].
Proof. intros [|c v]; cbn; split; congruence. Qed.
Lemma transports_iff : forall ts rs, Forall2 (fun s r => transport_value s = Ok r) ts rs <-> Forall2 usable_transport ts rs.
Proof.
  induction ts as [|t ts IH]; intro rs.
  - split; inversion 1; constructor.
  - split; inversion 1; subst; constructor; try (now apply C123_transport); now apply IH.
Qed.

Variable valid_regex : str -> bool.
Variable parse_json : str -> option json.
Notation fine_value := (fine_value word decimal w valid_regex parse_json).
Notation check_value := (check_value word decimal w valid_regex parse_json).
Notation check_values := (check_values word decimal w valid_regex parse_json).
Notation parse_args := (parse_args word decimal w valid_regex parse_json).
Lemma value_iff : forall a v, check_value (a, v) = Ok tt <-> fine_value a v.
Proof.
  assert (PLAIN : forall v, bind (nonempty_value v) (fun _ => Ok tt) = Ok tt <-> v <> []) by exact nonempty_done.
  intros a v. destruct a as [m|s|c|f].
  - destruct m; cbn [CliArgs.check_value SpecCliArgs.fine_value fst snd]; try apply PLAIN.
    + destruct (all_ok transport_value (split_on 32 v)) as [rs|[]|] eqn:A; cbn.
      * split; [intros _|reflexivity]. exists (split_on 32 v), rs. split; [now apply parts_iff|]. apply transports_iff. now apply all_ok_iff.
      * split; [discriminate|]. intros (ts & rs & P & F). apply parts_iff in P. subst ts. apply transports_iff, all_ok_iff in F. congruence.
      * split; [discriminate|]. intros (ts & rs & P & F). apply parts_iff in P. subst ts. apply transports_iff, all_ok_iff in F. congruence.
    + rewrite when_iff. apply some_iff.
  - destruct s; cbn [CliArgs.check_value SpecCliArgs.fine_value fst snd]; try apply PLAIN.
    + rewrite when_iff, existsb_exists. unfold loglevels. change [S_ "error"; S_ "warn"; S_ "info"; S_ "debug"; S_ "trace"; S_ "none"] with (map S_ ["error"; "warn"; "info"; "debug"; "trace"; "none"]%string).
      split; [intros (x & I & E); apply str_eqb_eq in E; now subst|]. intro I. exists v. split; [exact I|apply str_eqb_refl].
    + rewrite when_iff, some_iff. setoid_rewrite number_iff. reflexivity.
    + rewrite when_iff, some_iff. setoid_rewrite number_iff. reflexivity.
    + destruct v as [|c0 v]; cbn [nonempty_value bind]; [split; [discriminate|intros [H _]; congruence]|]. rewrite when_iff. intuition discriminate.
    + destruct v as [|c0 v]; cbn [nonempty_value bind]; [split; [discriminate|intros [H _]; congruence]|]. rewrite when_iff. intuition discriminate.
  - cbn [CliArgs.check_value SpecCliArgs.fine_value fst snd]. destruct (all_ok nonempty_value (split_on 44 v)) as [rs|[]|] eqn:A; cbn.
    + split; [intros _|reflexivity]. apply all_ok_iff, nonempty_all in A. destruct A as [-> NI]. exists (split_on 44 v). split; [now apply parts_iff|exact NI].
    + split; [discriminate|]. intros (ps & P & NI). apply parts_iff in P. subst ps. assert (X : all_ok nonempty_value (split_on 44 v) = Ok (split_on 44 v)) by (apply all_ok_iff, nonempty_all; auto). congruence.
    + split; [discriminate|]. intros (ps & P & NI). apply parts_iff in P. subst ps. assert (X : all_ok nonempty_value (split_on 44 v) = Ok (split_on 44 v)) by (apply all_ok_iff, nonempty_all; auto). congruence.
  - cbn. split; auto.
Qed.
Lemma value_panics : forall a v, check_value (a, v) = Panic <->
  a = AMulti MTransports /\ exists ts1 t ts2, parts 32 v (ts1 ++ t :: ts2) /\ (forall t', In t' ts1 -> exists r, usable_transport t' r) /\ bad_port t.
Proof.
  assert (PLAIN : forall v, bind (nonempty_value v) (fun _ : str => @Ok unit unit tt) = Panic -> False) by (intros [|c v]; discriminate).
  assert (WHEN : forall b, when b = Panic -> False) by (intros [|]; discriminate).
  assert (NO : forall a v, a <> AMulti MTransports -> check_value (a, v) <> Panic).
  { intros a v N H. destruct a as [m|s|c|f].
    - destruct m; cbn [CliArgs.check_value fst snd] in H; try (now apply PLAIN in H); try (now apply WHEN in H). congruence.
    - destruct s; cbn [CliArgs.check_value fst snd] in H; try (now apply PLAIN in H); try (now apply WHEN in H);
        destruct v as [|c0 v]; cbn [nonempty_value bind] in H; try discriminate; now apply WHEN in H.
    - cbn [CliArgs.check_value fst snd] in H. destruct (all_ok nonempty_value (split_on 44 v)) as [rs|[]|] eqn:A; cbn in H; try discriminate.
      apply all_ok_panic in A. destruct A as (l1 & s & l2 & _ & _ & P). now apply nonempty_no_panic in P.
    - discriminate. }
  intros a v. split.
  - intro H. destruct (arg_eq_dec a (AMulti MTransports)) as [->|N]; [|now apply NO in H]. split; [reflexivity|].
    cbn [CliArgs.check_value fst snd] in H. destruct (all_ok transport_value (split_on 32 v)) as [rs|[]|] eqn:A; cbn in H; try discriminate.
    apply all_ok_panic in A. destruct A as (l1 & s & l2 & E & F & P). exists l1, s, l2. split; [apply parts_iff; now rewrite E|split].
    + intros t' I. destruct (F t' I) as (r & R). exists r. now apply C123_transport.
    + now apply C123_why_a_port_panics.
  - intros (-> & ts1 & t & ts2 & P & F & B). cbn [CliArgs.check_value fst snd]. apply parts_iff in P.
    assert (A : all_ok transport_value (split_on 32 v) = Panic).
    { apply all_ok_panic. exists ts1, t, ts2. repeat split; [now symmetry| |now apply C123_why_a_port_panics]. intros t' I. destruct (F t' I) as (r & R). exists r. now apply C123_transport. }
    now rewrite A.
Qed.

(** ** The line *)
Lemma given_iff : forall l a, given l a = true <-> is_given l a.
Proof.
  intros l a. unfold given, is_given. rewrite existsb_exists. split.
  - intros ([b v] & I & E). cbn in E. destruct (arg_eq_dec b a) as [->|]; [eauto|discriminate].
  - intros (v & I). exists (a, v). split; [exact I|]. cbn. destruct (arg_eq_dec a a); [reflexivity|congruence].
Qed.
Lemma repeatable_iff : forall a, repeatable a = true <-> exists m, a = AMulti m.
Proof. intros [m|s|c|f]; cbn; split; eauto; try discriminate; intros [m' H]; discriminate. Qed.
Lemma given_cons : forall b u l a, is_given ((b, u) :: l) a <-> b = a \/ is_given l a.
Proof. intros b u l a. unfold is_given. cbn. split; [intros (v & [E|I]); [left; congruence|eauto]|intros [->|(v & I)]; eauto]. Qed.
Definition fresh (seen l : list occurrence) : Prop := forall l1 a v l2, l = l1 ++ (a, v) :: l2 -> repeatable a = false -> ~ is_given seen a /\ ~ is_given l1 a.
Lemma once_fresh : forall l, only_once l <-> fresh [] l.
Proof.
  intro l. unfold only_once, fresh. split.
  - intros H l1 a v l2 E R. split; [intros (u & [])|]. intros (u & I). apply in_split in I. destruct I as (l3 & l4 & ->).
    specialize (H l3 a u l4 v l2). rewrite <- app_assoc in E. cbn in E. apply H in E. apply repeatable_iff in E. congruence.
  - intros H l1 a v l2 v' l3 E. destruct (repeatable a) eqn:R; [now apply repeatable_iff|]. exfalso.
    destruct (H (l1 ++ (a, v) :: l2) a v' l3) as [_ N]; [now rewrite <- app_assoc|exact R|]. apply N. exists v. apply in_or_app. right. now left.
Qed.
Lemma fresh_cons : forall seen a v l, fresh seen ((a, v) :: l) <-> (repeatable a = true \/ ~ is_given seen a) /\ fresh ((a, v) :: seen) l.
Proof.
  intros seen a v l. unfold fresh. split.
  - intro H. split.
    + destruct (repeatable a) eqn:R; [now left|right]. now destruct (H [] a v l eq_refl R).
    + intros l1 b u l2 -> R. destruct (H ((a, v) :: l1) b u l2 eq_refl R) as [N1 N2]. rewrite given_cons in N2 |- *. split; [|tauto]. intros [->|G]; tauto.
  - intros [H1 H2] l1 b u l2 E R. destruct l1 as [|[x y] l1].
    + injection E as -> -> ->. split; [destruct H1; [congruence|assumption]|]. intros (z & []).
    + injection E as -> -> ->. destruct (H2 l1 b u l2 eq_refl R) as [N1 N2]. rewrite given_cons in N1. split; [tauto|]. rewrite given_cons. tauto.
Qed.
Definition all_fine (l : list occurrence) : Prop := forall a v, In (a, v) l -> fine_value a v.
Lemma fine_cons : forall a v l, all_fine ((a, v) :: l) <-> fine_value a v /\ all_fine l.
Proof. intros a v l. unfold all_fine. cbn. split; [intro H; split; [apply H; now left|intros b u I; apply H; now right]|intros [H1 H2] b u [E|I]; [now injection E as <- <-|now apply H2]]. Qed.
Lemma values_iff : forall l seen, check_values seen l = Ok tt <-> all_fine l /\ fresh seen l.
Proof.
  induction l as [|[a v] l IH]; intro seen.
  - cbn. split; [|reflexivity]. intros _. split; [intros a v []|]. intros [|] ? ? ? E; discriminate.
  - rewrite fine_cons, fresh_cons, <- value_iff. cbn [CliArgs.check_values fst].
    assert (G : negb (repeatable a) && given seen a = false <-> (repeatable a = true \/ ~ is_given seen a)).
    { rewrite <- given_iff. destruct (repeatable a), (given seen a); cbn; intuition congruence. }
    destruct (negb (repeatable a) && given seen a).
    + split; [discriminate|]. intros (_ & H & _). apply G in H. discriminate.
    + destruct (check_value (a, v)) as [[]|[]|]; cbn [bind].
      * rewrite IH. split; [intros [H1 H2]; split; [split; auto|split; [now apply G|exact H2]]|tauto].
      * split; [discriminate|]. intros ([H _] & _); discriminate.
      * split; [discriminate|]. intros ([H _] & _); discriminate.
Qed.
Lemma or_assoc3 : forall A B C D : Prop, A \/ B \/ C \/ D -> ((A \/ B) \/ C) \/ D.
Proof. tauto. Qed.
Lemma relations_iff : forall l, check_relations l = true <-> consistent l.
Proof.
  intro l. unfold check_relations, requirements, conflicts. cbn [forallb fst snd].
  rewrite !andb_true_iff, !orb_true_iff, !negb_true_iff. rewrite !andb_false_iff.
  rewrite <- !not_true_iff_false. rewrite !given_iff.
  assert (DEC : forall a, is_given l a \/ ~ is_given l a) by (intro a; rewrite <- given_iff; destruct (given l a); auto).
  split.
  - intros (((Q1 & Q2 & Q3 & Q4 & Q5 & Q6 & Q7 & Q8 & _) & (C1 & C2 & C3 & C4 & C5 & C6 & C7 & C8 & C9 & C10 & _)) & S0).
    constructor; unfold together; clear DEC.
    + clear - S0. tauto.
    + clear - Q1. tauto.
    + clear - Q2 Q3 Q5 Q6 Q7 Q8. intros a [<-|[<-|[<-|[<-|[<-|[<-|[]]]]]]] G.
      all: match goal with G : is_given ?l ?a, Q : ~ is_given ?l ?a \/ _ |- _ => clear - G Q; tauto end.
    + clear - Q4. tauto.
    + clear - C4 C5 C6. tauto.
    + clear - C1 C2 C3. tauto.
    + clear - C7 C8. tauto.
    + clear - C9. tauto.
    + clear - C10. tauto.
  - intros [H1 H2 H3 H4 H5 H6 H7 H8 H9]. unfold together in *.
    assert (B : forall a, In a [ASingle SWebhook; ASwitch FPublish; AListed LConsumerTags; AMulti MSelectors; ASwitch FPending; ASingle SWip] -> ~ is_given l a \/ is_given l (ASingle SBroker)).
    { intros a I. destruct (DEC a) as [G|G]; [right; exact (H3 a I G)|now left]. }
    clear H3.
    split; [split|exact (or_assoc3 _ _ _ _ H1)]; repeat (apply conj); try reflexivity.
    all: try (apply B; cbn [In]; tauto).
    all: match goal with |- ~ is_given _ ?a \/ _ => destruct (DEC a) as [G|G]; [right|left; exact G] end; clear B DEC.
    + exact (H2 G).
    + exact (H4 G).
    + clear - H6 G. tauto.
    + clear - H6 G. tauto.
    + clear - H6 G. tauto.
    + clear - H5 G. tauto.
    + clear - H5 G. tauto.
    + clear - H5 G. tauto.
    + clear - H7 G. tauto.
    + clear - H7 G. tauto.
    + clear - H8 G. tauto.
    + clear - H9 G. tauto.
Qed.
Lemma values_panic : forall l seen, check_values seen l = Panic <->
  exists l1 v l2, l = l1 ++ (AMulti MTransports, v) :: l2 /\ all_fine l1 /\ fresh seen l1 /\ check_value (AMulti MTransports, v) = Panic.
Proof.
  induction l as [|[a v] l IH]; intro seen.
  - split; [discriminate|]. intros ([|] & ? & ? & E & _); discriminate.
  - cbn [CliArgs.check_values fst].
    assert (G : negb (repeatable a) && given seen a = false <-> (repeatable a = true \/ ~ is_given seen a)).
    { rewrite <- given_iff. destruct (repeatable a), (given seen a); cbn; intuition congruence. }
    destruct (negb (repeatable a) && given seen a) eqn:D.
    + split; [discriminate|]. intros ([|[b u] l1] & x & l2 & E & F & FR & P).
      * injection E as -> -> ->. discriminate D.
      * injection E as -> -> ->. apply fresh_cons in FR. destruct FR as [H _]. apply G in H. discriminate.
    + split.
      * destruct (check_value (a, v)) as [[]|[]|] eqn:C; cbn [bind]; [|discriminate|].
        { intro H. apply IH in H. destruct H as (l1 & x & l2 & -> & F & FR & P). exists ((a, v) :: l1), x, l2. split; [reflexivity|split; [|split; [|exact P]]].
          - apply fine_cons. split; [now apply value_iff|exact F].
          - apply fresh_cons. split; [now apply G|exact FR]. }
        intros _. assert (A : a = AMulti MTransports) by (apply value_panics in C; tauto). subst a. exists [], v, l. split; [reflexivity|split; [intros ? ? []|split; [|exact C]]]. intros [|] ? ? ? E; discriminate.
      * intros ([|[b u] l1] & x & l2 & E & F & FR & P).
        { injection E as -> -> ->. now rewrite P. }
        injection E as -> -> ->. apply fine_cons in F. destruct F as [F1 F2]. apply fresh_cons in FR. destruct FR as [_ FR].
        apply value_iff in F1. rewrite F1. cbn [bind]. apply IH. exists l1, x, l2. auto.
Qed.
(** A command line is accepted exactly if its values are in order, what can be given once is, and the arguments go together. *)
Theorem C123_accepted : forall l, (exists o, parse_args l = Ok o) <-> acceptable word decimal w valid_regex parse_json l.
Proof.
  intro l. unfold CliArgs.parse_args, acceptable. rewrite once_fresh, <- relations_iff.
  pose proof (values_iff l []) as V. unfold all_fine in V. destruct (check_values [] l) as [[]|[]|]; cbn [bind].
  - destruct (proj1 V eq_refl) as [F FR]. destruct (check_relations l).
    + split; [auto|]. intros _. eexists. reflexivity.
    + split; [intros [o E]; discriminate|]. intros (_ & _ & E). discriminate.
  - split; [intros [o E]; discriminate|]. intros (F & FR & _). discriminate (proj2 V (conj F FR)).
  - split; [intros [o E]; discriminate|]. intros (F & FR & _). discriminate (proj2 V (conj F FR)).
Qed.
(** It ends the program with a panic exactly at a transport whose port is none, everything before being in order. *)
Theorem C123_why_it_panics : forall l, parse_args l = Panic <-> breaks word decimal w valid_regex parse_json l.
Proof.
  intro l. unfold CliArgs.parse_args, breaks. pose proof (values_panic l []) as V. split.
  - destruct (check_values [] l) as [[]|[]|]; cbn [bind]; [destruct (check_relations l); intro H; discriminate H|intro H; discriminate H|]. intros _.
    destruct (proj1 V eq_refl) as (l1 & v & l2 & E & F & FR & P). apply value_panics in P. destruct P as (_ & ts1 & t & ts2 & PA & U & B).
    exists l1, v, l2, ts1, t, ts2. repeat (apply conj); try (now apply once_fresh); try assumption; apply PA.
  - intros (l1 & v & l2 & ts1 & t & ts2 & E & F & FR & PA & U & B).
    assert (H : check_values [] l = Panic).
    { apply V. exists l1, v, l2. repeat (apply conj); [exact E|exact F|now apply once_fresh|]. apply value_panics. split; [reflexivity|]. exists ts1, t, ts2. auto. }
    now rewrite H.
Qed.
End Proofs.
