(** C111: filters, results, reports, texts; the command line. *)
From Coq Require Import Ascii String List Arith NArith ZArith Lia Bool.
From Verif Require Import Base PathExp Json Text TextProofs MatchingRules Matchers Http Merge VerifierClient Verifier SpecVerifier PropVerifier Broker VerifierHandle SpecVerifierHandle PropVerifierHandle.
From Verif Require PropBroker2.
Import ListNotations.
Open Scope N_scope.

(** ** Which interactions are verified *)
(** [no_state] counts when no state was asked for. *)
Definition asked_for (w : world) (description state : option str) (no_state : bool) (i : interaction) : Prop :=
  (forall d, description = Some d -> regex_match w d (i_desc i) = Some true) /\
  (forall s, state = Some s -> s <> [] -> exists st, In st (i_states i) /\ regex_match w s (st_name st) = Some true) /\
  (state = Some [] -> i_states i = []) /\
  (state = None -> no_state = true -> i_states i = []).
Lemma state_part : forall w s i, state_wanted w s i <->
  (s <> [] -> exists st, In st (i_states i) /\ regex_match w s (st_name st) = Some true) /\ (s = [] -> i_states i = []).
Proof.
  intros w s i. unfold state_wanted. split.
  - intros [[-> H]|[NE H]]; split; intros; [congruence | exact H | exact H | congruence].
  - intros [H1 H2]. destruct s as [|c s]; [left; split; [reflexivity | apply H2; reflexivity] | right; split; [discriminate | apply H1; discriminate]].
Qed.
Theorem C111_filter : forall w d s n i, selected w (wanted d s n) i <-> asked_for w d s n i.
Proof.
  intros w d s n i. unfold asked_for.
  assert (D : forall P : Prop, (P <-> match s with Some s => state_wanted w s i | None => if n then state_wanted w [] i else True end) ->
    (P <-> (forall s0, s = Some s0 -> s0 <> [] -> exists st, In st (i_states i) /\ regex_match w s0 (st_name st) = Some true) /\ (s = Some [] -> i_states i = []) /\ (s = None -> n = true -> i_states i = []))).
  { intros P E. rewrite E. clear E P. destruct s as [s|].
    - rewrite state_part. split.
      + intros [A1 A2]. split; [intros s0 Q; injection Q as <-; exact A1|]. split; [intro Q; injection Q as ->; exact (A2 eq_refl) | discriminate].
      + intros (A1 & A2 & _). split; [exact (A1 s eq_refl) | intros ->; exact (A2 eq_refl)].
    - destruct n.
      + rewrite state_part. split.
        * intros [_ A2]. split; [discriminate|]. split; [discriminate|]. intros _ _. exact (A2 eq_refl).
        * intros (_ & _ & A). split; [congruence|]. intros _. exact (A eq_refl eq_refl).
      + split; [|intros _; exact Logic.I]. intros _. split; [discriminate|]. split; discriminate. }
  destruct d as [d|].
  - assert (E : selected w (wanted (Some d) s n) i <-> description_wanted w d i /\ match s with Some s => state_wanted w s i | None => if n then state_wanted w [] i else True end).
    { unfold wanted. destruct s as [s|]; [reflexivity|]. destruct n; [reflexivity|]. cbn [selected]. tauto. }
    rewrite E. rewrite (D _ (iff_refl _)). unfold description_wanted. split; intros [A1 A2]; (split; [|exact A2]); [intros d0 Q; injection Q as <-; exact A1 | exact (A1 d eq_refl)].
  - assert (E : selected w (wanted None s n) i <-> match s with Some s => state_wanted w s i | None => if n then state_wanted w [] i else True end).
    { unfold wanted. destruct s as [s|]; [reflexivity|]. destruct n; reflexivity. }
    rewrite (D _ E). split; [intro A; split; [discriminate | exact A] | intros [_ A]; exact A].
Qed.
Theorem C111_filter_of_the_command_line : forall w o i,
  selected w (cli_filter o) i <-> asked_for w (o_filter_description o) (o_filter_state o) (o_filter_no_state o) i.
Proof.
  intros w o i. rewrite <- C111_filter. unfold cli_filter, wanted. destruct (o_filter_description o), (o_filter_state o), (o_filter_no_state o); reflexivity.
Qed.

(** ** What a run returns *)
Theorem C111_result : forall h run,
  let code := snd (execute h run) in let after := fst (execute h run) in
  (code = Some 0%Z <-> exists r, run (vh_config h) = inl r /\ rp_result r = true) /\
  (code = Some 1%Z <-> exists r, run (vh_config h) = inl r /\ rp_result r = false) /\
  (code = Some 2%Z <-> exists e, run (vh_config h) = inr e) /\
  (code = Some 0%Z \/ code = Some 1%Z \/ code = Some 2%Z) /\
  (forall r, run (vh_config h) = inl r -> vh_report after = r) /\
  (forall e, run (vh_config h) = inr e -> rp_output (vh_report after) = rp_output (vh_report h) ++ [S_ "Verification execution failed: " ++ e] /\
     rp_result (vh_report after) = rp_result (vh_report h) /\ rp_errors (vh_report after) = rp_errors (vh_report h) /\ rp_pending (vh_report after) = rp_pending (vh_report h)).
Proof.
  intros h run. cbv zeta. unfold execute. destruct (run (vh_config h)) as [r|e]; cbn [fst snd vh_report].
  - split; [|split; [|split; [|split; [|split]]]].
    + split; [intro H; exists r; destruct (rp_result r) eqn:E; [auto | discriminate] | intros (r' & Q & E); injection Q as <-; rewrite E; reflexivity].
    + split; [intro H; exists r; destruct (rp_result r) eqn:E; [discriminate | auto] | intros (r' & Q & E); injection Q as <-; rewrite E; reflexivity].
    + split; [destruct (rp_result r); discriminate | intros (e & Q); discriminate].
    + destruct (rp_result r); auto.
    + intros r' Q. congruence.
    + discriminate.
  - split; [|split; [|split; [|split; [|split]]]].
    + split; [discriminate | intros (r & Q & _); discriminate].
    + split; [discriminate | intros (r & Q & _); discriminate].
    + split; [intros _; exists e; reflexivity | reflexivity].
    + auto.
    + discriminate.
    + intros e' Q. injection Q as <-. split; [reflexivity|]. split; [reflexivity|]. split; reflexivity.
Qed.
Section Runs.
Variable lossy : list N -> str.
Variable parse_json : str -> option json.
Definition no_run (cs : list call) : Prop := forall run, ~ In (CExecute run) cs.
Lemma report_untouched : forall cs h, no_run cs -> vh_report (run_calls lossy parse_json h cs) = vh_report h.
Proof.
  induction cs as [|c cs IH]; intros h NR; [reflexivity|]. cbn [run_calls fold_left].
  assert (E : vh_report (fst (step lossy parse_json h c)) = vh_report h).
  { destruct (says_total lossy parse_json c) as (s & r & H); [intros run ->; exact (NR run (or_introl eq_refl))|]. apply (C111_returns lossy parse_json h c s r H). }
  rewrite <- E. apply IH. intros run J. exact (NR run (or_intror J)).
Qed.
Lemma run_calls_app : forall a b h, run_calls lossy parse_json h (a ++ b) = run_calls lossy parse_json (run_calls lossy parse_json h a) b.
Proof. intros a b h. apply fold_left_app. Qed.
(** The report, as a document and as text, is that of the last run, whatever is called after it. *)
Theorem C111_report_of_the_last_run : forall h cs1 run cs2, no_run cs2 ->
  let started := run_calls lossy parse_json h cs1 in
  let now := run_calls lossy parse_json h (cs1 ++ CExecute run :: cs2) in
  (forall r, run (vh_config started) = inl r -> vh_report now = r /\ (forall strip, verifier_output now strip = c_string (if flag strip then strip_ansi (join_with [10] (rp_output r)) else join_with [10] (rp_output r)))) /\
  (forall e, run (vh_config started) = inr e -> verifier_json now = report_json (mkReport (rp_result (vh_report started)) (rp_notices (vh_report started))
     (rp_output (vh_report started) ++ [S_ "Verification execution failed: " ++ e]) (rp_pending (vh_report started)) (rp_errors (vh_report started)))).
Proof.
  intros h cs1 run cs2 NR. cbv zeta. rewrite run_calls_app. set (h1 := run_calls lossy parse_json h cs1).
  assert (E : vh_report (run_calls lossy parse_json h1 (CExecute run :: cs2)) = vh_report (fst (execute h1 run))) by (exact (report_untouched cs2 _ NR)).
  split.
  - intros r Q. assert (F : vh_report (run_calls lossy parse_json h1 (CExecute run :: cs2)) = r) by (rewrite E; unfold execute; rewrite Q; reflexivity).
    split; [exact F|]. intro strip. unfold verifier_output. rewrite F. reflexivity.
  - intros e Q. unfold verifier_json. rewrite E. unfold execute. rewrite Q. reflexivity.
Qed.
(** A handle none of whose runs could be made reports success, although every run returned 2. *)
Theorem C111_why_a_failed_run_reads_as_success : forall app cs,
  (forall run c, In (CExecute run) cs -> exists e, run c = inr e) ->
  rp_result (vh_report (run_calls lossy parse_json (new_handle app) cs)) = true /\ rp_errors (vh_report (run_calls lossy parse_json (new_handle app) cs)) = [].
Proof.
  intros app cs. assert (G : forall cs h, (forall run c, In (CExecute run) cs -> exists e, run c = inr e) ->
    rp_result (vh_report (run_calls lossy parse_json h cs)) = rp_result (vh_report h) /\ rp_errors (vh_report (run_calls lossy parse_json h cs)) = rp_errors (vh_report h)).
  { clear. induction cs as [|c cs IH]; intros h H; [auto|]. cbn [run_calls fold_left].
    destruct (IH (fst (step lossy parse_json h c)) (fun run k J => H run k (or_intror J))) as [I1 I2].
    assert (E : rp_result (vh_report (fst (step lossy parse_json h c))) = rp_result (vh_report h) /\ rp_errors (vh_report (fst (step lossy parse_json h c))) = rp_errors (vh_report h)).
    { assert (D : (exists run, c = CExecute run) \/ forall run, c <> CExecute run) by (destruct c; first [right; intro; discriminate | left; eexists; reflexivity]).
      destruct D as [[run ->]|NX].
      - cbn [step]. unfold execute. destruct (H run (vh_config h) (or_introl eq_refl)) as [e Q]. rewrite Q. split; reflexivity.
      - destruct (says_total lossy parse_json c NX) as (s & r & S1). destruct (C111_returns lossy parse_json h c s r S1) as (_ & E & _). rewrite E. split; reflexivity. }
    destruct E as [E1 E2]. split; [etransitivity; [exact I1 | exact E1] | etransitivity; [exact I2 | exact E2]]. }
  intro H. exact (G cs (new_handle app) H).
Qed.
End Runs.

(** ** The document of a report *)
Lemma get_object : forall (l : list (str * json)) k, obj_get k (obj_of_list l) = last_entry k l.
Proof. intros. apply PropBroker2.of_list_get. Qed.
Lemma entry_object : forall (l : list (str * json)) k v, last_entry k l = Some v -> entry k (object l) v.
Proof. intros l k v H. exists (obj_of_list l). split; [reflexivity|]. rewrite get_object. exact H. Qed.
Lemma problem_document : forall p, problem_said p (problem_json p).
Proof. intros [ms id|m id]; cbn [problem_said problem_json]; (split; [|split]); apply entry_object; reflexivity. Qed.
Theorem C111_report : forall r, reported r (report_json r).
Proof.
  intro r. unfold report_json.
  assert (F : forall l, Forall2 failure_said l (map failed_json l)).
  { induction l as [|e l IH]; constructor; [|exact IH]. split; [apply entry_object; reflexivity|]. exists (problem_json (snd e)). split; [apply entry_object; reflexivity | apply problem_document]. }
  constructor.
  - apply entry_object. reflexivity.
  - apply entry_object. reflexivity.
  - eexists. split; [apply entry_object; reflexivity | apply F].
  - eexists. split; [apply entry_object; reflexivity | apply F].
  - eexists. split; [apply entry_object; reflexivity|]. induction (rp_notices r) as [|n l IH]; constructor; [|exact IH].
    intro k. assert (L : last_entry k (map (fun kv : str * str => (fst kv, JStr (snd kv))) n) = option_map JStr (last_entry k n)).
    { induction n as [|[k' v] n IHn]; [reflexivity|]. cbn [map last_entry fst snd]. rewrite IHn. destruct (last_entry k n); [reflexivity|]. cbn [option_map]. destruct (str_eqb k k'); reflexivity. }
    destruct (last_entry k n) as [t|] eqn:E; cbn [option_map] in L.
    + left. exists t. split; [reflexivity | apply entry_object; exact L].
    + right. split; [reflexivity|]. eexists. split; [reflexivity|]. rewrite get_object. exact L.
Qed.

(** ** Escape codes *)
Lemma digit_iff : forall c, is_digit c = true <-> 48 <= c <= 57.
Proof. intro c. unfold is_digit. rewrite andb_true_iff, !N.leb_le. reflexivity. Qed.
Definition digits (n : str) : Prop := Forall (fun c => 48 <= c <= 57) n.
Lemma code_body_iff : forall s rest, code_body s = Some rest <->
  exists ds ns f, s = ds ++ concat (map (cons 59) ns) ++ f :: rest /\ digits ds /\ Forall (fun n => n <> [] /\ digits n) ns /\ In f (S_ "mGK").
Proof.
  assert (FIN : forall c, In c (S_ "mGK") <-> (c =? 109) || (c =? 71) || (c =? 75) = true).
  { intro c. rewrite !orb_true_iff, !N.eqb_eq. cbn. split; [intros [<-|[<-|[<-|[]]]]; auto | intros [[->| ->]| ->]; auto]. }
  assert (FD : forall f, In f (S_ "mGK") -> is_digit f = false /\ (f =? 59) = false).
  { intros f J. destruct J as [<-|[<-|[<-|[]]]]; split; reflexivity. }
  intros s rest. split.
  - revert rest. induction s as [s IH] using (well_founded_induction (Wf_nat.well_founded_ltof _ (@length N))). unfold Wf_nat.ltof in IH. intros rest H.
    destruct s as [|c s]; [discriminate|]. cbn [code_body] in H. destruct (is_digit c) eqn:D.
    + destruct (IH s ltac:(cbn; lia) rest H) as (ds & ns & f & -> & A & B & F). exists (c :: ds), ns, f. split; [reflexivity|]. split; [constructor; [apply digit_iff, D | exact A]|]. split; assumption.
    + destruct (N.eqb_spec c 59) as [->|N59].
      * destruct s as [|d s]; [discriminate|]. destruct (is_digit d) eqn:D2; [|discriminate].
        destruct (IH s ltac:(cbn; lia) rest H) as (ds & ns & f & -> & A & B & F). exists [], ((d :: ds) :: ns), f. cbn [app map concat]. split; [rewrite <- !app_assoc; reflexivity|].
        split; [constructor|]. split; [|exact F]. constructor; [|exact B]. split; [discriminate|]. constructor; [apply digit_iff, D2 | exact A].
      * destruct ((c =? 109) || (c =? 71) || (c =? 75)) eqn:FF; [|discriminate]. injection H as ->. exists [], [], c. split; [reflexivity|]. split; [constructor|]. split; [constructor|]. apply FIN, FF.
  - intros (ds & ns & f & -> & A & B & F). revert ds A. induction B as [|n ns [NE Dn] B IH]; intros ds A.
    + cbn [map concat app]. induction A as [|c ds Dc A IHd]; cbn [app code_body].
      * destruct (FD f F) as [F1 F2]. rewrite F1, F2. apply FIN in F. rewrite F. reflexivity.
      * apply digit_iff in Dc. rewrite Dc. exact IHd.
    + induction A as [|c ds Dc A IHd].
      * cbn [app map concat code_body]. change (is_digit 59) with false. change (59 =? 59) with true. cbv iota. destruct n as [|d n]; [congruence|]. inversion Dn as [|? ? Dd Dn']; subst.
        cbn [app]. apply digit_iff in Dd. rewrite Dd, <- app_assoc. apply IH. exact Dn'.
      * cbn [app code_body]. apply digit_iff in Dc. rewrite Dc. exact IHd.
Qed.
Lemma join_concat : forall ns : list str, ns <> [] -> [59] ++ join_with [59] ns = concat (map (cons 59) ns).
Proof.
  induction ns as [|n ns IH]; [congruence|]. intros _. destruct ns as [|m ns]; [cbn; rewrite app_nil_r; reflexivity|].
  change (join_with [59] (n :: m :: ns)) with (n ++ [59] ++ join_with [59] (m :: ns)). rewrite IH by discriminate. reflexivity.
Qed.
Lemma ansi_code_iff : forall s rest, ansi_code s = Some rest <-> exists code, escape_code code /\ s = code ++ rest.
Proof.
  intros s rest. split.
  - intro H. destruct s as [|a [|b s]]; try discriminate. cbn [ansi_code] in H. destruct ((a =? 27) && (b =? 91)) eqn:E; [|discriminate]. apply andb_true_iff in E as [E1 E2]. apply N.eqb_eq in E1, E2. subst a b.
    assert (K : forall lead d s0, (lead = [] \/ lead = [59]) -> is_digit d = true -> code_body s0 = Some rest -> exists code, escape_code code /\ [27; 91] ++ lead ++ d :: s0 = code ++ rest).
    { intros lead d s0 L D C. apply code_body_iff in C as (ds & ns & f & -> & A & B & F). exists ([27; 91] ++ lead ++ join_with [59] ((d :: ds) :: ns) ++ [f]). split.
      - constructor; [exact L | discriminate | constructor; [split; [discriminate | constructor; [apply digit_iff, D | exact A]] | exact B] | exact F].
      - rewrite <- !app_assoc. f_equal. f_equal. destruct ns as [|n ns]; [reflexivity|].
        change (join_with [59] ((d :: ds) :: n :: ns)) with ((d :: ds) ++ [59] ++ join_with [59] (n :: ns)). rewrite join_concat by discriminate. rewrite <- !app_assoc. reflexivity. }
    destruct s as [|c s]; [discriminate|]. cbn [code_start] in H. destruct (is_digit c) eqn:D; [exact (K [] c s (or_introl eq_refl) D H)|].
    destruct (N.eqb_spec c 59) as [->|N59]; [|discriminate]. destruct s as [|d s]; [discriminate|]. destruct (is_digit d) eqn:D2; [|discriminate]. exact (K [59] d s (or_intror eq_refl) D2 H).
  - intros (code & C & ->). destruct C as [lead ns f L NE FA F]. destruct ns as [|n ns]; [congruence|]. inversion FA as [|? ? [Nn Dn] FB]; subst. destruct n as [|d n]; [congruence|]. inversion Dn as [|? ? Dd Dn']; subst.
    assert (C : code_body (n ++ concat (map (cons 59) ns) ++ f :: rest) = Some rest) by (apply code_body_iff; exists n, ns, f; auto).
    assert (J : join_with [59] ((d :: n) :: ns) ++ [f] ++ rest = d :: n ++ concat (map (cons 59) ns) ++ f :: rest).
    { destruct ns as [|m ns]; [reflexivity|]. change (join_with [59] ((d :: n) :: m :: ns)) with ((d :: n) ++ [59] ++ join_with [59] (m :: ns)). rewrite join_concat by discriminate. rewrite <- !app_assoc. reflexivity. }
    rewrite <- !app_assoc. change ([f] ++ rest) with (f :: rest) in J |- *. rewrite J. apply digit_iff in Dd. destruct L as [-> | ->].
    + cbn [app ansi_code]. change ((27 =? 27) && (91 =? 91)) with true. cbv iota. cbn [code_start]. rewrite Dd. exact C.
    + cbn [app ansi_code]. change ((27 =? 27) && (91 =? 91)) with true. cbv iota. cbn [code_start]. change (is_digit 59) with false. change (59 =? 59) with true. cbv iota. rewrite Dd. exact C.
Qed.
(** Stripping takes out the escape codes, and nothing else. *)
Theorem C111_codes_are_stripped : forall s t, strip_ansi s = t <-> without_codes s t.
Proof.
  assert (G : forall n s, (length s <= n)%nat -> without_codes s (strip_codes n s)).
  { induction n as [|n IH]; intros s L; destruct s as [|c s]; try constructor; [cbn in L; lia|]. cbn [strip_codes]. destruct (ansi_code (c :: s)) as [rest|] eqn:E.
    - apply ansi_code_iff in E as (code & C & E). rewrite E. apply wc_code; [exact C|]. apply IH. assert (NE : (1 <= length code)%nat) by (destruct C; cbn; lia).
      apply (f_equal (@length _)) in E. rewrite app_length in E. cbn in E, L. lia.
    - apply wc_char; [|apply IH; cbn in L; lia]. intros code rest Q C. assert (Z : ansi_code (c :: s) = Some rest) by (apply ansi_code_iff; exists code; auto). congruence. }
  assert (F : forall s t, without_codes s t -> forall n, (length s <= n)%nat -> strip_codes n s = t).
  { intros s t W. induction W as [|code rest t C W IH|c s t NC W IH]; intros n L.
    - destruct n; reflexivity.
    - assert (Q : exists c s, code ++ rest = c :: s) by (destruct C; eexists; eexists; reflexivity). destruct Q as (c & s & Q).
      assert (NE : (1 <= length code)%nat) by (destruct C; cbn; lia). assert (LL : length (code ++ rest) = (length code + length rest)%nat) by apply app_length.
      destruct n as [|n]; [lia|]. assert (A : ansi_code (c :: s) = Some rest) by (apply ansi_code_iff; exists code; split; [exact C | symmetry; exact Q]).
      rewrite Q. cbn [strip_codes]. rewrite A. apply IH. lia.
    - destruct n as [|n]; [cbn in L; lia|]. cbn [strip_codes]. destruct (ansi_code (c :: s)) as [rest|] eqn:E; [apply ansi_code_iff in E as (code & C & E); destruct (NC code rest E C)|]. f_equal. apply IH. cbn in L. lia. }
  intros s t. split; [intros <-; apply G; constructor | intro W; exact (F s t W (length s) ltac:(constructor))].
Qed.

(** ** Selectors *)
Definition field_value (v : option json) : option json := match v with Some JNull => None | _ => v end.
Lemma str_field : forall k o x, de_default (de_option de_str) None o = Some x -> if_set k JStr x = match field_value o with Some v => [(k, v)] | None => [] end.
Proof. intros k [[]|] x H; cbn in H; try discriminate; injection H as <-; reflexivity. Qed.
Lemma bool_field : forall k o x, de_default (de_option de_bool) None o = Some x -> if_set k JBool x = match field_value o with Some v => [(k, v)] | None => [] end.
Proof. intros k [[]|] x H; cbn in H; try discriminate; injection H as <-; reflexivity. Qed.

Lemma str_kind : forall o, (exists x, de_default (de_option de_str) None o = Some x) <-> (forall v, o = Some v -> right_kind true v).
Proof.
  intro o. unfold right_kind. split.
  - intros [x H] v ->. destruct v; cbn in H; try discriminate; [left; reflexivity | right; eexists; reflexivity].
  - intro H. destruct o as [v|]; [|eexists; reflexivity]. destruct (H v eq_refl) as [-> | [s ->]]; eexists; reflexivity.
Qed.
Lemma bool_kind : forall o, (exists x, de_default (de_option de_bool) None o = Some x) <-> (forall v, o = Some v -> right_kind false v).
Proof.
  intro o. unfold right_kind. split.
  - intros [x H] v ->. destruct v; cbn in H; try discriminate; [left; reflexivity | right; eexists; reflexivity].
  - intro H. destruct o as [v|]; [|eexists; reflexivity]. destruct (H v eq_refl) as [-> | [s ->]]; eexists; reflexivity.
Qed.
Definition sent (m : list (str * json)) (k : str) : list (str * json) := match field_value (obj_get k m) with Some v => [(k, v)] | None => [] end.
Lemma selector_sent : forall m s, de_selector (JObj m) = Some s -> selector_json s = object (flat_map (sent m) selector_names).
Proof.
  intros m s H. unfold de_selector in H. cbn [struct_fields selector_names map] in H. cbv zeta in H.
  repeat match type of H with match ?x with Some _ => _ | None => _ end = _ => destruct x eqn:?; [|discriminate] end.
  injection H as <-. unfold selector_json. cbn [sel_consumer sel_tag sel_fallback_tag sel_latest sel_deployed_or_released sel_deployed sel_released sel_environment sel_main_branch sel_branch sel_matching_branch sel_fallback_branch].
  f_equal. cbn [selector_names flat_map]. rewrite app_nil_r. unfold sent.
  repeat match goal with E : de_default (de_option de_str) None ?o = Some ?x |- context[if_set ?k JStr ?x] => rewrite (str_field k o x E); clear E end.
  repeat match goal with E : de_default (de_option de_bool) None ?o = Some ?x |- context[if_set ?k JBool ?x] => rewrite (bool_field k o x E); clear E end.
  reflexivity.
Qed.
Lemma sent_get : forall m k ks, NoDup ks -> last_entry k (flat_map (sent m) ks) = if existsb (str_eqb k) ks then field_value (obj_get k m) else None.
Proof.
  intros m k. induction ks as [|k' ks IH]; intro ND; [reflexivity|]. inversion ND as [|? ? NI ND']; subst. cbn [flat_map existsb]. rewrite last_entry_app, (IH ND').
  destruct (str_eqb_spec k k') as [->|NE]; cbn [orb].
  - assert (X : existsb (str_eqb k') ks = false). { destruct (existsb (str_eqb k') ks) eqn:X; [|reflexivity]. apply existsb_exists in X as (x & J & E). apply str_eqb_eq in E. subst x. contradiction. }
    rewrite X. unfold sent. destruct (field_value (obj_get k' m)) as [v|]; [|reflexivity]. cbn [last_entry]. rewrite str_eqb_refl. reflexivity.
  - destruct (existsb (str_eqb k) ks).
    + destruct (field_value (obj_get k m)) as [v|]; [reflexivity|]. unfold sent. destruct (field_value (obj_get k' m)); [|reflexivity]. cbn [last_entry]. destruct (str_eqb_spec k k'); [congruence | reflexivity].
    + unfold sent. destruct (field_value (obj_get k' m)); [|reflexivity]. cbn [last_entry]. destruct (str_eqb_spec k k'); [congruence | reflexivity].
Qed.
Lemma names_nodup : NoDup selector_names.
Proof. unfold selector_names. repeat (constructor; [cbn; intro H; repeat (destruct H as [H|H]; [discriminate H|]); exact H|]). constructor. Qed.
(** A selector given as an object is used exactly when its known entries have the right kind, else it is left out without a word; what
    is sent to the broker are its known entries that are not null. *)
Theorem C111_selectors : forall m,
  ((exists s, de_selector (JObj m) = Some s) <-> (forall k text v, In (k, text) selector_fields -> obj_get k m = Some v -> right_kind text v)) /\
  (forall s, de_selector (JObj m) = Some s -> exists out, selector_json s = JObj out /\
     forall k v, obj_get k out = Some v <-> (obj_get k m = Some v /\ v <> JNull /\ exists text, In (k, text) selector_fields)).
Proof.
  intro m. split.
  - split.
    + intros [s H]. unfold de_selector in H. cbn [struct_fields selector_names map] in H. cbv zeta in H.
      repeat match type of H with match ?x with Some _ => _ | None => _ end = _ => destruct x eqn:?; [|discriminate] end. clear H.
      intros k text v J G. cbn [selector_fields In] in J.
      repeat (destruct J as [J|J]; [injection J as <- <-; match type of G with ?o = _ => first [refine (proj1 (str_kind o) _ v G); eexists; eassumption | refine (proj1 (bool_kind o) _ v G); eexists; eassumption] end|]). destruct J.
    + intro H. assert (HS : forall k, In (k, true) selector_fields -> exists x, de_default (de_option de_str) None (obj_get k m) = Some x) by (intros k J; apply str_kind; intros v G; exact (H k true v J G)).
      assert (HB : forall k, In (k, false) selector_fields -> exists x, de_default (de_option de_bool) None (obj_get k m) = Some x) by (intros k J; apply bool_kind; intros v G; exact (H k false v J G)).
      unfold de_selector. cbn [struct_fields selector_names map]. cbv zeta.
      repeat match goal with |- context[de_default (de_option de_str) None (obj_get ?k m)] => let x := fresh in let E := fresh in destruct (HS k ltac:(cbn; tauto)) as [x E]; rewrite E; clear E end.
      repeat match goal with |- context[de_default (de_option de_bool) None (obj_get ?k m)] => let x := fresh in let E := fresh in destruct (HB k ltac:(cbn; tauto)) as [x E]; rewrite E; clear E end.
      eexists. reflexivity.
  - intros s H. rewrite (selector_sent m s H). eexists. split; [reflexivity|]. intros k v. rewrite get_object, (sent_get m k selector_names names_nodup).
    assert (X : existsb (str_eqb k) selector_names = true <-> exists text, In (k, text) selector_fields).
    { rewrite existsb_exists. split.
      - intros (x & J & E). apply str_eqb_eq in E. subst x. cbn [selector_names In] in J. repeat (destruct J as [<-|J]; [eexists; cbn; tauto|]). destruct J.
      - intros [text J]. exists k. split; [|apply str_eqb_refl]. cbn [selector_fields In] in J. repeat (destruct J as [J|J]; [injection J as <- <-; cbn; tauto|]). destruct J. }
    destruct (existsb (str_eqb k) selector_names) eqn:B.
    + assert (Y : exists text, In (k, text) selector_fields) by (apply X; reflexivity). unfold field_value. split.
      * intro G. destruct (obj_get k m) as [u|] eqn:O; [|discriminate]. destruct u; try discriminate; injection G as <-; (split; [reflexivity|]; split; [discriminate | exact Y]).
      * intros (-> & NN & _). destruct v; congruence.
    + split; [discriminate|]. intros (_ & _ & Y). apply X in Y. discriminate.
Qed.
