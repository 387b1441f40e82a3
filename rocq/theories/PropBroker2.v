(** C83: the links of a HAL document and their templates. *)
From Coq Require Import Ascii String List Arith NArith ZArith Lia Bool Sorted ZifyBool ZifyN ZifyNat.
From Verif Require Import Base PathExp Json Text TextProofs Matchers Http Merge QueryString VerifierClient Verifier SpecVerifier Broker SpecBroker PropVerifier.
Import ListNotations.
Open Scope N_scope.
Local Opaque show_N.

(** ** Percent-encoding *)
Lemma upper_hex_value : forall d, d < 16 -> hex_value (upper_hex d) = Some d.
Proof.
  intros d H. unfold upper_hex, hex_value, is_digit. destruct (d <? 10) eqn:L.
  - replace ((48 <=? 48 + d) && (48 + d <=? 57)) with true by lia. f_equal. lia.
  - replace ((48 <=? 55 + d) && (55 + d <=? 57)) with false by lia. replace ((97 <=? 55 + d) && (55 + d <=? 102)) with false by lia.
    replace ((65 <=? 55 + d) && (55 + d <=? 70)) with true by lia. f_equal. lia.
Qed.
Definition encode_byte (b : N) : str := if unreserved b then [b] else [37; upper_hex (b / 16); upper_hex (b mod 16)].
Lemma decode_encoded : forall bs, Forall (fun b => b < 256) bs -> decode_bytes (flat_map encode_byte bs) = bs.
Proof.
  induction bs as [|b bs IH]; intro H; [reflexivity|]. inversion H as [|? ? B Bs]; subst. cbn [flat_map]. unfold encode_byte at 1.
  destruct (unreserved b) eqn:U.
  - cbn [app decode_bytes]. unfold unreserved, ascii_alpha, is_upper, is_lower, is_digit in U.
    replace (b =? 37) with false by lia. replace (b =? 43) with false by lia. rewrite IH by exact Bs. f_equal. apply N.mod_small. lia.
  - cbn [app decode_bytes]. change (37 =? 37) with true. cbv iota.
    assert (b / 16 < 16) by (apply N.div_lt_upper_bound; lia). assert (b mod 16 < 16) by (apply N.mod_lt; lia).
    rewrite !upper_hex_value by assumption. cbv iota. rewrite IH by exact Bs. f_equal. rewrite N.mul_comm. symmetry. apply N.div_mod. lia.
Qed.
Lemma utf8_bytes : forall s, forallb scalar s = true -> Forall (fun b => b < 256) (utf8 s).
Proof.
  induction s as [|c s IH]; intro H; [constructor|]. cbn in H. apply andb_true_iff in H. destruct H as [C H]. cbn [utf8 flat_map].
  apply Forall_app. split; [|apply IH, H]. unfold utf8_char. unfold scalar in C.
  assert (c < 1114112) by lia.
  assert (c / 64 < 17408) by (apply N.div_lt_upper_bound; lia).
  destruct (c <? 128) eqn:E1; [repeat constructor; lia|].
  pose proof (N.mod_lt c 64). pose proof (N.mod_lt (c / 64) 64). pose proof (N.mod_lt (c / 4096) 64).
  destruct (c <? 2048) eqn:E2; [assert (c / 64 < 32) by (apply N.div_lt_upper_bound; lia); repeat constructor; lia|].
  destruct (c <? 65536) eqn:E3; [assert (c / 4096 < 16) by (apply N.div_lt_upper_bound; lia); repeat constructor; lia|].
  assert (c / 262144 < 5) by (apply N.div_lt_upper_bound; lia). repeat constructor; lia.
Qed.
Lemma url_encodes : forall v, forallb scalar v = true -> encodes v (url_encode v).
Proof.
  intros v H. split.
  - unfold decode_query, url_encode. change (flat_map _ (utf8 v)) with (flat_map encode_byte (utf8 v)).
    rewrite decode_encoded by (apply utf8_bytes, H). apply from_utf8_utf8, H.
  - pose proof (utf8_bytes v H) as B. unfold url_encode. intros c I. apply in_flat_map in I. destruct I as [b [I C]].
    rewrite Forall_forall in B. specialize (B b I). fold (encode_byte b) in C. unfold encode_byte in C. destruct (unreserved b) eqn:U.
    + destruct C as [<-|[]]. unfold unreserved, ascii_alpha, is_upper, is_lower, is_digit in U. cbn [In S_].
      assert (97 <= b <= 122 \/ 65 <= b <= 90 \/ 48 <= b <= 57 \/ b = 45 \/ b = 46 \/ b = 95 \/ b = 126) as K by lia.
      destruct K as [K|[K|[K|[K|[K|[K|K]]]]]]; auto; right; right; right; subst b; vm_compute; auto 10.
    + assert (forall d, d < 16 -> (48 <= upper_hex d <= 57) \/ (65 <= upper_hex d <= 90)) as K by (intros d D; unfold upper_hex; destruct (d <? 10) eqn:L; lia).
      assert (b / 16 < 16) as D1 by (apply N.div_lt_upper_bound; lia). assert (b mod 16 < 16) as D2 by (apply N.mod_lt; lia).
      destruct C as [<-|[<-|[<-|[]]]].
      * right; right; right. vm_compute. auto 10.
      * destruct (K _ D1); auto.
      * destruct (K _ D2); auto.
Qed.

Section Links.
Variable w : world.
Variable uw : N -> bool.

(** ** Templates *)
Lemma word_char_spec : forall c, word_char uw c = true <-> is_word uw c.
Proof.
  intro c. unfold word_char, is_word, ascii_alpha, is_upper, is_lower, is_digit. destruct (uw c); split; intro H.
  - assert (97 <= c <= 122 \/ 65 <= c <= 90 \/ 48 <= c <= 57 \/ c = 95 \/ 128 <= c) as K by lia. intuition.
  - assert (97 <= c <= 122 \/ 65 <= c <= 90 \/ 48 <= c <= 57 \/ c = 95 \/ 128 <= c) as K by intuition. lia.
  - assert (97 <= c <= 122 \/ 65 <= c <= 90 \/ 48 <= c <= 57 \/ c = 95) as K by lia. intuition.
  - assert (97 <= c <= 122 \/ 65 <= c <= 90 \/ 48 <= c <= 57 \/ c = 95) as K by intuition congruence. lia.
Qed.
Lemma take_drop : forall p s, take_while p s ++ drop_while p s = s /\ Forall (fun c => p c = true) (take_while p s).
Proof.
  intros p. induction s as [|c s [IH1 IH2]]; [split; constructor|]. cbn. destruct (p c) eqn:E; [|split; [reflexivity|constructor]].
  cbn. rewrite IH1. split; [reflexivity|]. constructor; assumption.
Qed.
Lemma take_run : forall p s c r, Forall (fun c => p c = true) s -> p c = false -> take_while p (s ++ c :: r) = s /\ drop_while p (s ++ c :: r) = c :: r.
Proof.
  intros p s c r H N1. induction H as [|a s A H [I1 I2]]; cbn; [rewrite N1; split; reflexivity|]. rewrite A, I1, I2. split; reflexivity.
Qed.
Lemma template_name_spec : forall s name rest, template_name uw s = Some (name, rest) <-> variable uw (123 :: s) name rest.
Proof.
  intros s name rest. unfold template_name, variable. split.
  - destruct (take_drop (word_char uw) s) as [E F]. intro H.
    destruct (drop_while (word_char uw) s) as [|c r] eqn:D; [discriminate|].
    destruct ((c =? 125) && nonempty (take_while (word_char uw) s)) eqn:C; [|discriminate]. injection H as <- <-.
    apply andb_true_iff in C. destruct C as [C1 C2]. apply N.eqb_eq in C1. subst c. split; [|split].
    + rewrite <- E at 1. reflexivity.
    + intro Z. rewrite Z in C2. discriminate.
    + eapply Forall_impl; [|exact F]. intros a A. apply word_char_spec, A.
  - intros [E [NE F]]. change (S_ "{" ++ name ++ S_ "}" ++ rest) with (123 :: name ++ 125 :: rest) in E. injection E as ->.
    destruct (take_run (word_char uw) name 125 rest) as [T D].
    + eapply Forall_impl; [|exact F]. intros a A. apply word_char_spec, A.
    + reflexivity.
    + rewrite T, D. change (125 =? 125) with true. destruct name; [contradiction|]. reflexivity.
Qed.

Lemma drop_shorter : forall p (s : str), (length (drop_while p s) <= length s)%nat.
Proof. intros p. induction s as [|c s IH]; [reflexivity|]. cbn. destruct (p c); cbn; lia. Qed.
Lemma expand_sound : forall values : list (str * str), (forall (k v : str), obj_get k values = Some v -> forallb scalar v = true) ->
  forall fuel s, (length s <= fuel)%nat -> expanded uw values s (expand uw fuel values s).
Proof.
  intros values SC. induction fuel as [|f IH]; intros s L.
  - destruct s; [|cbn in L; lia]. apply ex_end.
  - destruct s as [|c s]; [apply ex_end|]. cbn in L. cbn [expand]. destruct (c =? 123) eqn:C.
    + apply N.eqb_eq in C. subst c. destruct (template_name uw s) as [[name rest]|] eqn:T.
      * assert (length rest <= f)%nat as LR.
        { unfold template_name in T. pose proof (drop_shorter (word_char uw) s) as D. destruct (drop_while (word_char uw) s) as [|c r]; [discriminate|].
          destruct ((c =? 125) && _); [|discriminate]. injection T as <- <-. cbn in D. lia. }
        apply template_name_spec in T. unfold template_value. destruct (obj_get name values) as [v|] eqn:G.
        -- apply (ex_known uw values _ name rest v); auto. apply url_encodes, (SC name v G).
        -- change ((123 :: name ++ [125]) ++ expand uw f values rest) with (123 :: (name ++ [125]) ++ expand uw f values rest). rewrite <- app_assoc.
           change (123 :: name ++ [125] ++ expand uw f values rest) with (S_ "{" ++ name ++ S_ "}" ++ expand uw f values rest).
           apply (ex_unknown uw values _ name rest); auto.
      * apply ex_char; [|apply IH; lia]. intros name rest V. apply template_name_spec in V. congruence.
    + apply ex_char; [|apply IH; lia]. intros name rest [E _]. injection E as -> _. discriminate.
Qed.

(** The target of a templated link: each variable that has a value is replaced by that value, percent-encoded, and nothing else changes. *)
Theorem C83_template : forall l (values : list (str * str)), (forall (k v : str), obj_get k values = Some v -> forallb scalar v = true) ->
  (forall out, parse_link_url uw l values = Ok out -> exists href, l_href l = Some href /\ expanded uw values href out) /\
  (l_href l = None -> parse_link_url uw l values = Err BLink) /\
  (l_href l <> None -> exists out, parse_link_url uw l values = Ok out).
Proof.
  intros l values SC. unfold parse_link_url. destruct (l_href l) as [href|]; split; [|split| |split]; try discriminate.
  - intros out E. injection E as <-. exists href. split; [reflexivity|]. apply expand_sound; auto.
  - intros _. eexists. reflexivity.
  - reflexivity.
  - intro H. contradiction.
Qed.
(** A text without variables stays as it is. *)
Theorem C83_no_variables : forall l values href, l_href l = Some href -> ~ In 123 href -> parse_link_url uw l values = Ok href.
Proof.
  intros l values href H N1. unfold parse_link_url. rewrite H. f_equal. clear H.
  assert (forall fuel, (length href <= fuel)%nat -> expand uw fuel values href = href) as K; [|apply K; lia].
  induction href as [|c s IH]; intros fuel L; [destruct fuel; reflexivity|]. destruct fuel as [|f]; [cbn in L; lia|]. cbn [expand].
  destruct (c =? 123) eqn:C; [apply N.eqb_eq in C; subst c; destruct N1; left; reflexivity|]. f_equal. apply IH; [|cbn in L; lia].
  intro I. apply N1. right. exact I.
Qed.

(** ** Link objects *)
Lemma find_first : forall A (p : A -> bool) l,
  match find p l with
  | Some a => exists before after, l = before ++ a :: after /\ p a = true /\ forall b, In b before -> p b = false
  | None => forall b, In b l -> p b = false
  end.
Proof.
  induction l as [|a l IH]; cbn; [intros b []|]. destruct (p a) eqn:P.
  - exists [], l. split; [reflexivity|]. split; [exact P|]. intros b [].
  - destruct (find p l) as [a'|].
    + destruct IH as [before [after [-> [Q F]]]]. exists (a :: before), after. split; [reflexivity|]. split; [exact Q|]. intros b [<-|I]; auto.
    + intros b [<-|I]; auto.
Qed.
Lemma as_string_text : forall j, as_text w j (as_string w j).
Proof. destruct j; reflexivity. Qed.
Lemma link_from_json_reads : forall name m, link_reads w name m (link_from_json w name m).
Proof.
  intros name m. unfold link_reads, link_from_json. cbn [l_name l_href l_templated l_title]. split; [reflexivity|]. split; [|split].
  - unfold is_true. destruct (obj_get (S_ "templated") m) as [[| [|] | | | |]|]; split; intro H; try reflexivity; try discriminate H; injection H as H; discriminate H.
  - unfold find_entry. pose proof (find_first _ (fun kv : str * json => str_eqb (to_lower w (fst kv)) (to_lower w (S_ "href"))) m) as F.
    destruct (find _ m) as [[k v]|]; cbn [option_map snd].
    + exists v. split; [|apply as_string_text]. destruct F as [before [after [-> [P N1]]]]. cbn [fst] in P.
      exists before, k, after. split; [reflexivity|]. split; [destruct (str_eqb_spec (to_lower w k) (to_lower w (S_ "href"))); [assumption|discriminate]|].
      intros k' v' I E. specialize (N1 _ I). cbn [fst] in N1. rewrite E in N1. rewrite str_eqb_refl in N1. discriminate.
    + intros k v I E. specialize (F _ I). cbn [fst] in F. rewrite E, str_eqb_refl in F. discriminate.
  - destruct (obj_get (S_ "title") m) as [v|]; [|reflexivity]. cbn [option_map]. exists v. split; [reflexivity|apply as_string_text].
Qed.
(** A link is found in a document under [_links], as its object says; otherwise there is an error. *)
Theorem C83_find_link : forall info name,
  (forall l, find_link w info name = Ok l <->
     exists doc links m, info = Some doc /\ json_get (S_ "_links") doc = Some links /\ json_get name links = Some (JObj m) /\
       l = link_from_json w name m) /\
  (forall m, link_reads w name m (link_from_json w name m)) /\
  ((forall l, find_link w info name <> Ok l) -> find_link w info name = Err BLink).
Proof.
  intros info name. split; [|split].
  - intro l. unfold find_link. split.
    + destruct info as [doc|]; [|discriminate]. destruct (json_get (S_ "_links") doc) as [links|] eqn:A; [|discriminate].
      destruct (json_get name links) as [[| | | | |m]|] eqn:B; try discriminate. intro H. injection H as <-. exists doc, links, m. auto.
    + intros [doc [links [m [-> [-> [-> ->]]]]]]. reflexivity.
  - apply link_from_json_reads.
  - intro H. destruct (find_link w info name) as [l|e|] eqn:E; [exfalso; apply (H l); reflexivity| |];
      unfold find_link in E; destruct info as [doc|]; try discriminate; try congruence;
      destruct (json_get (S_ "_links") doc); try discriminate; try congruence; destruct (json_get name j) as [[]|]; try discriminate; congruence.
Qed.
(** Writing a link and reading it gives it back. *)
Theorem C83_round_trip : forall l, exists m, link_as_json l = JObj m /\ link_from_json w (l_name l) m = l.
Proof.
  intros [name href t title]. unfold link_as_json. cbn [l_href l_title l_templated l_name].
  destruct href, title; eexists; (split; [reflexivity|]); reflexivity.
Qed.

(** The links of a pact as the document a client starts from: of links with one name the last is found. *)
Lemma of_list_get : forall A (l : list (str * A)) k, obj_get k (obj_of_list l) = last_entry k l.
Proof.
  intros A l k. unfold obj_of_list.
  assert (forall m, obj_get k (fold_left (fun m kv => obj_insert (fst kv) (snd kv) m) l m) = match last_entry k l with Some v => Some v | None => obj_get k m end) as H.
  { induction l as [|[k' v] l IH]; intro m; [reflexivity|]. cbn [fold_left last_entry fst snd]. rewrite IH, obj_insert_get.
    destruct (last_entry k l); [reflexivity|]. destruct (str_eqb k k'); reflexivity. }
  rewrite H. destruct (last_entry k l); reflexivity.
Qed.
Theorem C83_doc_context : forall links name,
  find_link w (Some (doc_context links)) name =
  match find (fun l => str_eqb (l_name l) name) (rev links) with Some l => Ok l | None => Err BLink end.
Proof.
  intros links name. unfold find_link, doc_context. cbn [json_get object]. rewrite of_list_get. cbn [last_entry fst]. change (str_eqb (S_ "_links") (S_ "_links")) with true. cbv iota.
  cbn [json_get]. rewrite of_list_get.
  assert (last_entry name (map (fun l => (l_name l, link_as_json l)) links) = option_map link_as_json (find (fun l => str_eqb (l_name l) name) (rev links))) as ->.
  { induction links as [|l links IH]; [reflexivity|]. cbn [map last_entry fst snd rev]. rewrite IH.
    assert (forall (p : link -> bool) a b, find p (a ++ b) = match find p a with Some r => Some r | None => find p b end) as FA.
    { intros p a b. induction a as [|y a IHa]; [reflexivity|]. cbn. destruct (p y); [reflexivity|exact IHa]. }
    rewrite FA. destruct (find _ (rev links)) as [r|]; [reflexivity|]. cbn [option_map find].
    destruct (str_eqb_spec name (l_name l)) as [->|N1]; [rewrite str_eqb_refl; reflexivity|].
    destruct (str_eqb_spec (l_name l) name) as [E|_]; [congruence|reflexivity]. }
  pose proof (find_some (fun l => str_eqb (l_name l) name) (rev links)) as FS.
  destruct (find (fun l => str_eqb (l_name l) name) (rev links)) as [l|]; [|reflexivity]. cbn [option_map].
  destruct (FS l eq_refl) as [_ N1]. cbn in N1. destruct (str_eqb_spec (l_name l) name) as [<-|]; [|discriminate].
  destruct (C83_round_trip l) as [m [-> R]]. rewrite R. reflexivity.
Qed.

(** All links of a document; what is no object is a link without target. *)
Theorem C83_links_of_document : forall j,
  match j with
  | JObj m => match obj_get (S_ "_links") m with
              | Some (JObj ls) => Forall2 (fun kv l => match snd kv with
                                                       | JObj attr => link_reads w (fst kv) attr l
                                                       | _ => l = mkLink (fst kv) None false None
                                                       end) ls (links_from_json w j)
              | _ => links_from_json w j = []
              end
  | _ => links_from_json w j = []
  end.
Proof.
  intros [| | | | |m]; try reflexivity. unfold links_from_json. cbn [json_get]. destruct (obj_get (S_ "_links") m) as [[| | | | |ls]|]; try reflexivity.
  induction ls as [|[k v] ls IH]; [constructor|]. cbn [map fst snd]. constructor; [|exact IH]. cbn [fst snd]. destruct v; try reflexivity. apply link_from_json_reads.
Qed.
(** The links in an array of links; a text is a target. *)
Theorem C83_iter_links : forall info name,
  (forall ls, iter_links w info name = Ok ls <->
     exists doc links l, info = Some doc /\ json_get (S_ "_links") doc = Some links /\ json_get name links = Some (JArr l) /\
       ls = map (link_of_value w name) l) /\
  (forall v, match v with
             | JObj m => link_reads w name m (link_of_value w name v)
             | _ => exists h, link_of_value w name v = mkLink name (Some h) false None /\ as_text w v h
             end).
Proof.
  intros info name. split.
  - intro ls. unfold iter_links. split.
    + destruct info as [doc|]; [|discriminate]. destruct (json_get (S_ "_links") doc) as [links|] eqn:A; [|discriminate].
      destruct (json_get name links) as [[| | | |l|]|] eqn:B; try discriminate. intro H. injection H as <-. exists doc, links, l. auto.
    + intros [doc [links [l [-> [-> [-> ->]]]]]]. reflexivity.
  - destruct v; try (eexists; split; reflexivity). apply link_from_json_reads.
Qed.
End Links.

(** ** Examples *)
Definition ex_template_link : link := mkLink (S_ "pb:version-tag") (Some (S_ "http://b/{provider}/v/{version}/tags/{tag}/{ nope}")) true None.
Example C83_template_applies :
  parse_link_url (fun _ => false) ex_template_link [(S_ "version", S_ "1/{tag}"); (S_ "tag", S_ "a b")] =
  Ok (S_ "http://b/{provider}/v/1%2F%7Btag%7D/tags/a%20b/{ nope}").
Proof. vm_compute. reflexivity. Qed.
