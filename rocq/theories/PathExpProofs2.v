(** More about the parser of path expressions: when it aborts, and which printed paths it reads back. *)
From Coq Require Import Ascii String List Arith NArith Lia Bool.
From Verif Require Import Base PathExp PathExpProofs.
Import ListNotations.
Open Scope N_scope.

Section WithUnicode.
Variable ua un : N -> bool.
Notation path_exp := (path_exp ua un).
Notation path_identifier := (path_identifier ua un).
Notation bracket_path := (bracket_path un).

(** ** Fuel *)
Lemma path_exp_fuel : forall f g cs, (length cs <= f)%nat -> (length cs <= g)%nat -> path_exp f cs = path_exp g cs.
Proof.
  induction f as [|f IH]; intros g [|c cs] Lf Lg; cbn [length] in *; try lia; [destruct g; reflexivity|destruct g; reflexivity|].
  destruct g as [|g]; [lia|]. cbn [PathExp.path_exp]. destruct (c =? 46).
  - destruct (path_identifier cs) as [r|e|] eqn:E; cbn [bind]; [|reflexivity|reflexivity].
    apply path_identifier_len in E. rewrite (IH g) by lia. reflexivity.
  - destruct (c =? 91); [|reflexivity].
    destruct (bracket_path cs) as [r|e|] eqn:E; cbn [bind]; [|reflexivity|reflexivity].
    apply bracket_path_len in E. rewrite (IH g) by lia. reflexivity.
Qed.

(** ** Steps *)
Lemma ident_loop_cut : forall cs r, ident_loop ua un cs = Ok r -> forall x, stops x -> ident_loop ua un (fst r ++ x) = Ok (fst r, x).
Proof.
  intros cs r H x Hx. apply ident_loop_suffix in H. destruct H as [_ H]. induction (fst r) as [|c s IH].
  - cbn [app]. destruct x as [|c x]; [reflexivity|]. cbn [stops] in Hx. cbn [ident_loop]. destruct Hx as [-> | ->]; reflexivity.
  - cbn [forallb] in H. apply andb_true_iff in H. destruct H as [A B]. cbn [app ident_loop]. rewrite A, IH by exact B. reflexivity.
Qed.
Lemma path_identifier_cut : forall cs r, path_identifier cs = Ok r ->
  exists a, cs = a ++ snd r /\ forall x, stops x -> path_identifier (a ++ x) = Ok (fst r, x).
Proof.
  intros [|c cs] r H; cbn [PathExp.path_identifier] in H; [discriminate|]. destruct (c =? 42) eqn:S0.
  - injection H as <-. exists [c]. split; [reflexivity|]. intros x _. cbn [app PathExp.path_identifier fst]. rewrite S0. reflexivity.
  - destruct (is_identifier_char ua un c) eqn:Ic; [|discriminate]. unfold identifier in H.
    destruct (ident_loop ua un cs) as [q|e|] eqn:E; cbn [bind] in H; try discriminate. injection H as <-. cbn [fst snd].
    pose proof (ident_loop_suffix _ _ _ _ E) as [A _]. exists (c :: fst q). split; [cbn [app]; f_equal; exact A|].
    intros x Hx. cbn [app PathExp.path_identifier]. rewrite S0, Ic. unfold identifier. rewrite (ident_loop_cut _ _ E x Hx). reflexivity.
Qed.
Lemma bracket_path_cut : forall cs r, bracket_path cs = Ok r ->
  exists a, cs = a ++ snd r /\ forall x, bracket_path (a ++ x) = Ok (fst r, x).
Proof.
  intros [|c cs] r H; cbn [PathExp.bracket_path] in H; [discriminate|].
  destruct (bracket_inner un c cs) as [q|e|] eqn:E; cbn [bind] in H; try discriminate.
  destruct (snd q) as [|d rest] eqn:Q; [discriminate|]. destruct (N.eqb_spec d 93) as [->|]; [|discriminate]. injection H as <-. cbn [fst snd].
  assert (X : exists b, cs = b ++ 93 :: rest /\ forall x, bracket_inner un c (b ++ 93 :: x) = Ok (fst q, 93 :: x)).
  { unfold bracket_inner in *. destruct (c =? 39).
    - destruct cs as [|d cs]; cbn [string_path] in E; [discriminate|].
      destruct (string_loop d cs []) as [[id ch] rest'] eqn:SL. destruct (N.eqb_spec ch 39) as [->|]; [|discriminate].
      pose proof (string_loop_inv _ _ _ _ _ _ SL eq_refl) as (mid & M1 & M2 & M3). cbn [app] in M1. subst id.
      destruct mid as [|m mid]; [discriminate|]. injection E as <-. cbn [fst snd] in *. subst rest'.
      cbn [app] in M2. injection M2 as -> ->. exists (m :: mid ++ [39]). cbn [app]. rewrite <- app_assoc. split; [reflexivity|].
      intro x. rewrite <- app_assoc. cbn [app string_path]. rewrite string_loop_spec by exact M3. reflexivity.
    - destruct (is_numeric un c).
      + unfold index_path in *. destruct (index_loop_split un cs) as [S1 S2].
        assert (F : parse_usize (c :: fst (index_loop un cs)) = match fst q with TIndex i => Some i | _ => None end /\ snd (index_loop un cs) = 93 :: rest /\ exists i, fst q = TIndex i).
        { destruct (parse_usize (c :: fst (index_loop un cs))) as [i|] eqn:P.
          - destruct (snd (index_loop un cs)) as [|z zs] eqn:Z; [injection E as <-; cbn [snd] in Q; discriminate|].
            destruct (z =? 93); [|discriminate]. injection E as <-. cbn [fst snd] in *. rewrite Q. eauto.
          - destruct (snd (index_loop un cs)) as [|z zs]; [discriminate|]. destruct (z =? 93); discriminate. }
        destruct F as [F1 [F2 [i F3]]]. rewrite F3 in *. exists (fst (index_loop un cs)). rewrite <- F2, <- S1. split; [reflexivity|].
        intro x. assert (IL : forall ds, forallb (is_numeric un) ds = true -> index_loop un (ds ++ 93 :: x) = (ds, 93 :: x)).
        { induction ds as [|y ds IH]; intro D; [reflexivity|]. cbn [forallb] in D. apply andb_true_iff in D. destruct D as [D1 D2].
          cbn [app index_loop]. rewrite D1, IH by exact D2. reflexivity. }
        rewrite IL by exact S2. cbn [fst snd]. rewrite F1. reflexivity.
      + destruct (c =? 42); [|destruct (c =? 93); discriminate]. injection E as <-. cbn [fst snd] in *. subst cs. exists []. split; reflexivity. }
  destruct X as [b [-> X]]. exists (c :: b ++ [93]). split; [cbn [app]; rewrite <- app_assoc; reflexivity|].
  intro x. cbn [app PathExp.bracket_path]. rewrite <- app_assoc. cbn [app]. rewrite X. reflexivity.
Qed.
Lemma path_exp_stops : forall f cs, (exists ts, path_exp f cs = Ok ts) \/ path_exp f cs = Panic -> stops cs.
Proof.
  intros [|f] [|c cs] H; cbn [PathExp.path_exp stops] in *; auto; [destruct H as [[? H]|H]; discriminate|].
  destruct (N.eqb_spec c 46); [left; assumption|]. destruct (N.eqb_spec c 91); [right; assumption|]. destruct H as [[? H]|H]; discriminate.
Qed.
(** ** A complete expression can be continued *)
Lemma path_exp_app : forall f pre ts, path_exp f pre = Ok ts -> forall x g, stops x -> (length (pre ++ x) <= g)%nat ->
  path_exp g (pre ++ x) = bind (path_exp (length x) x) (fun us => Ok (ts ++ us)).
Proof.
  induction f as [|f IH]; intros [|c pre] ts H x g Hx Lg; cbn [PathExp.path_exp] in H; try discriminate.
  - injection H as <-. cbn [app]. rewrite (path_exp_fuel g (length x)) by (cbn [app] in *; lia). destruct (path_exp (length x) x); reflexivity.
  - injection H as <-. cbn [app]. rewrite (path_exp_fuel g (length x)) by (cbn [app] in *; lia). destruct (path_exp (length x) x); reflexivity.
  - cbn [app length] in Lg. destruct g as [|g]; [lia|]. cbn [app PathExp.path_exp]. destruct (c =? 46).
    + destruct (path_identifier pre) as [r|e|] eqn:E; cbn [bind] in H; try discriminate.
      destruct (path_exp f (snd r)) as [us|e|] eqn:P; cbn [bind] in H; try discriminate. injection H as <-.
      pose proof (path_exp_stops f (snd r) (or_introl (ex_intro _ us P))) as St.
      destruct (path_identifier_cut _ _ E) as [a [A C]]. rewrite A, <- app_assoc, C.
      * cbn [bind fst snd]. rewrite (IH _ _ P x g Hx); [destruct (path_exp (length x) x); reflexivity|].
        rewrite app_length in *. rewrite A, app_length in Lg. lia.
      * destruct (snd r); [exact Hx|exact St].
    + destruct (c =? 91); [|discriminate].
      destruct (bracket_path pre) as [r|e|] eqn:E; cbn [bind] in H; try discriminate.
      destruct (path_exp f (snd r)) as [us|e|] eqn:P; cbn [bind] in H; try discriminate. injection H as <-.
      destruct (bracket_path_cut _ _ E) as [a [A C]]. rewrite A, <- app_assoc, C.
      cbn [bind fst snd]. rewrite (IH _ _ P x g Hx); [destruct (path_exp (length x) x); reflexivity|].
      rewrite app_length in *. rewrite A, app_length in Lg. lia.
Qed.

(** ** When it aborts *)
Definition bad_run (ds post : str) : Prop :=
  ds <> [] /\ forallb (is_numeric un) ds = true /\ parse_usize ds = None /\ (post = [] \/ exists q, post = 93 :: q).
Lemma bracket_panic_iff : forall cs, bracket_path cs = Panic <-> exists ds post, cs = ds ++ post /\ bad_run ds post.
Proof.
  intro cs. split.
  - destruct cs as [|c cs]; cbn [PathExp.bracket_path]; intro H; [discriminate|].
    unfold bracket_inner in H. destruct (c =? 39).
    { destruct cs as [|d cs]; cbn [string_path bind] in H; [discriminate|].
      destruct (string_loop d cs []) as [[id ch] rest]. destruct (ch =? 39); [|discriminate].
      destruct id as [|x id]; cbn [bind] in H; [discriminate|].
      cbn [snd] in H. destruct rest as [|e rest]; [discriminate|]. destruct (e =? 93); discriminate. }
    destruct (is_numeric un c) eqn:En.
    + unfold index_path in H. destruct (index_loop_split un cs) as [S1 S2].
      assert (P : parse_usize (c :: fst (index_loop un cs)) = None /\ (snd (index_loop un cs) = [] \/ exists q, snd (index_loop un cs) = 93 :: q)).
      { destruct (parse_usize (c :: fst (index_loop un cs))) as [i|] eqn:Ep.
        - destruct (snd (index_loop un cs)) as [|d r] eqn:E2; cbn [bind snd] in H; try discriminate.
          destruct (d =? 93) eqn:E3; cbn [bind snd fst] in H; [rewrite E3 in H|]; discriminate.
        - split; [reflexivity|]. destruct (snd (index_loop un cs)) as [|d r]; [left; reflexivity|].
          destruct (N.eqb_spec d 93) as [->|]; [right; eauto|discriminate]. }
      exists (c :: fst (index_loop un cs)), (snd (index_loop un cs)). split; [cbn [app]; rewrite <- S1; reflexivity|].
      split; [discriminate|]. split; [cbn [forallb]; rewrite En, S2; reflexivity|exact P].
    + destruct (c =? 42); cbn [bind snd] in H.
      * destruct cs as [|d r]; [discriminate|]. destruct (d =? 93); discriminate.
      * destruct (c =? 93); discriminate.
  - intros (ds & post & -> & NE & D & P & PO). destruct ds as [|c ds]; [contradiction|].
    cbn [forallb] in D. apply andb_true_iff in D. destruct D as [D1 D2]. cbn [app PathExp.bracket_path]. unfold bracket_inner.
    assert (c <> 39) by (intros ->; cbv in D1; discriminate). destruct (N.eqb_spec c 39); [contradiction|]. rewrite D1.
    assert (IL : index_loop un (ds ++ post) = (ds, post)).
    { clear - D2 PO. induction ds as [|y ds IH].
      - cbn [app]. destruct PO as [->|[q ->]]; reflexivity.
      - cbn [forallb] in D2. apply andb_true_iff in D2. destruct D2 as [A B]. cbn [app index_loop]. rewrite A, IH by exact B. reflexivity. }
    unfold index_path. rewrite IL. cbn [fst snd]. rewrite P. destruct PO as [->|[q ->]]; reflexivity.
Qed.
Lemma path_exp_panic_iff : forall f cs, (length cs <= f)%nat ->
  (path_exp f cs = Panic <->
   exists pre ts ds post, cs = pre ++ 91 :: ds ++ post /\ path_exp (length pre) pre = Ok ts /\ bad_run ds post).
Proof.
  intros f cs L. split.
  - revert cs L. induction f as [|f IH]; intros [|c cs] L H; cbn [PathExp.path_exp length] in *; try discriminate.
    destruct (c =? 46) eqn:C0; [|destruct (c =? 91) eqn:C1; [|discriminate]].
    + destruct (path_identifier cs) as [r|e|] eqn:E; cbn [bind] in H; try discriminate; [|destruct (path_identifier_no_panic _ _ _ E)].
      destruct (path_exp f (snd r)) as [us|e|] eqn:P; cbn [bind] in H; try discriminate.
      destruct (path_identifier_cut _ _ E) as [a [A C]].
      assert (LL : (length (snd r) <= f)%nat) by (rewrite A, app_length in L; lia).
      destruct (IH _ LL P) as (pre & ts & ds & post & E1 & E2 & E3).
      exists (c :: a ++ pre), (fst r :: ts), ds, post. split; [cbn [app]; rewrite <- app_assoc, <- E1, <- A; reflexivity|]. split; [|exact E3].
      cbn [length PathExp.path_exp]. rewrite C0, C by (apply (path_exp_stops (length pre)); left; eauto). cbn [bind fst snd].
      rewrite (path_exp_fuel _ (length pre)) by (rewrite ?app_length; lia). rewrite E2. reflexivity.
    + destruct (bracket_path cs) as [r|e|] eqn:E; cbn [bind] in H; try discriminate.
      * destruct (path_exp f (snd r)) as [us|e|] eqn:P; cbn [bind] in H; try discriminate.
        destruct (bracket_path_cut _ _ E) as [a [A C]].
        assert (LL : (length (snd r) <= f)%nat) by (rewrite A, app_length in L; lia).
        destruct (IH _ LL P) as (pre & ts & ds & post & E1 & E2 & E3).
        exists (c :: a ++ pre), (fst r :: ts), ds, post. split; [cbn [app]; rewrite <- app_assoc, <- E1, <- A; reflexivity|]. split; [|exact E3].
        cbn [length PathExp.path_exp]. rewrite C0, C1, C. cbn [bind fst snd].
        rewrite (path_exp_fuel _ (length pre)) by (rewrite ?app_length; lia). rewrite E2. reflexivity.
      * apply bracket_panic_iff in E. destruct E as (ds & post & -> & B). apply N.eqb_eq in C1. subst c.
        exists [], [], ds, post. split; [reflexivity|]. split; [reflexivity|exact B].
  - intros (pre & ts & ds & post & -> & E & B). rewrite (path_exp_app _ _ _ E (91 :: ds ++ post) f (or_intror eq_refl) L).
    cbn [length PathExp.path_exp]. change (91 =? 46) with false. change (91 =? 91) with true. cbv iota.
    assert (P : bracket_path (ds ++ post) = Panic) by (apply bracket_panic_iff; eauto). rewrite P. reflexivity.
Qed.
Lemma parse_panic_iff : forall s, parse_path_exp ua un s = Panic <->
  exists pre ts ds post, s = pre ++ 91 :: ds ++ post /\ pre <> [] /\ parse_path_exp ua un pre = Ok ts /\ bad_run ds post.
Proof.
  intro s. split.
  - destruct s as [|c cs]; cbn [parse_path_exp]; intro H; [discriminate|].
    destruct (c =? 36) eqn:C0.
    + destruct (path_exp (length cs) cs) as [us|e|] eqn:E; cbn [bind] in H; try discriminate.
      apply (path_exp_panic_iff (length cs) cs (le_n _)) in E. destruct E as (pre & ts & ds & post & -> & E & B).
      exists (c :: pre), (TRoot :: ts), ds, post. split; [reflexivity|]. split; [discriminate|]. split; [|exact B].
      cbn [parse_path_exp]. rewrite C0, E. reflexivity.
    + destruct (is_alphabetic ua c || is_numeric un c) eqn:C1; [|discriminate].
      unfold identifier in H. destruct (ident_loop ua un cs) as [q|e|] eqn:E; cbn [bind] in H; try discriminate; [|destruct (ident_loop_no_panic _ _ _ E)].
      cbn [fst snd] in H. destruct (path_exp (length (snd q)) (snd q)) as [us|e|] eqn:P; cbn [bind] in H; try discriminate.
      apply (path_exp_panic_iff _ _ (le_n _)) in P. destruct P as (pre & ts & ds & post & E1 & E2 & B).
      pose proof (ident_loop_suffix _ _ _ _ E) as [A _].
      exists (c :: fst q ++ pre), (TRoot :: TField (c :: fst q) :: ts), ds, post.
      split; [cbn [app]; rewrite <- app_assoc, <- E1, <- A; reflexivity|]. split; [discriminate|]. split; [|exact B].
      cbn [parse_path_exp]. rewrite C0, C1. unfold identifier. rewrite (ident_loop_cut _ _ E pre) by (apply (path_exp_stops (length pre)); left; eauto).
      cbn [bind fst snd]. rewrite E2. reflexivity.
  - intros (pre & ts & ds & post & -> & NE & E & B). destruct pre as [|c pre]; [contradiction|].
    assert (X : path_exp (length (91 :: ds ++ post)) (91 :: ds ++ post) = Panic).
    { apply path_exp_panic_iff; [apply le_n|]. exists [], [], ds, post. split; [reflexivity|]. split; [reflexivity|exact B]. }
    cbn [app parse_path_exp] in *. destruct (c =? 36).
    + destruct (path_exp (length pre) pre) as [us|e|] eqn:P; cbn [bind] in E; try discriminate.
      rewrite (path_exp_app _ _ _ P (91 :: ds ++ post) _ (or_intror eq_refl) (le_n _)), X. reflexivity.
    + destruct (is_alphabetic ua c || is_numeric un c); [|discriminate]. unfold identifier in *.
      destruct (ident_loop ua un pre) as [q|e|] eqn:I0; cbn [bind] in E; try discriminate. cbn [fst snd] in E.
      destruct (path_exp (length (snd q)) (snd q)) as [us|e|] eqn:P; cbn [bind] in E; try discriminate.
      pose proof (ident_loop_suffix _ _ _ _ I0) as [A _]. rewrite A, <- app_assoc.
      rewrite (ident_loop_cut _ _ I0).
      * cbn [bind fst snd]. rewrite (path_exp_app _ _ _ P (91 :: ds ++ post) _ (or_intror eq_refl) (le_n _)), X. reflexivity.
      * pose proof (path_exp_stops _ _ (or_introl (ex_intro _ us P))) as St. destruct (snd q); [right; reflexivity|exact St].
Qed.

(** ** Which printed paths are read back *)
Lemma escape_key_length : forall s, (length s <= length (escape_key s))%nat /\ (length (escape_key s) = length s -> ~ In 92 s).
Proof.
  induction s as [|c s [IH1 IH2]]; [split; [apply le_n|intros _ []]|]. cbn [escape_key].
  destruct (N.eqb_spec c 92) as [->|N1]; cbn [orb].
  - cbn [length]. split; [lia|]. intro H. lia.
  - destruct (c =? 39); cbn [length]; (split; [lia|]); intro H; [lia|]. intros [E|I]; [congruence|]. apply IH2; [lia|exact I].
Qed.
Lemma escape_key_noquote : forall s, ~ In 39 s -> ~ In 39 (escape_key s).
Proof.
  induction s as [|c s IH]; intro H; [exact H|]. cbn [escape_key]. assert (~ In 39 s) by (intro I; apply H; right; exact I).
  destruct (N.eqb_spec c 92) as [->|N1]; cbn [orb].
  - intros [E|[E|I]]; [discriminate|discriminate|apply IH; assumption].
  - destruct (N.eqb_spec c 39) as [->|N2]; [destruct H; left; reflexivity|]. intros [E|I]; [congruence|apply IH; assumption].
Qed.
Lemma path_exp_build_inv : forall ts f s, path_exp f (build_expr ts) = Ok ts -> Forall (parsed_token s) ts -> Forall printable ts.
Proof.
  induction ts as [|t ts IH]; intros f s H F; [constructor|]. inversion F as [|? ? F1 F2]; subst.
  assert (NR : ~ In TRoot ts) by (intro I; rewrite Forall_forall in F2; exact (F2 _ I)).
  pose proof (build_expr_stops ts NR) as St.
  destruct f as [|f]; [cbn [build_expr] in H; pose proof (token_expr_len t); destruct (token_expr t); [cbn in *; lia|discriminate]|].
  assert (P : printable t).
  { destruct t as [|n|i| |]; try exact I; [destruct F1| |exact F1]. destruct F1 as (A & B & _). split; [exact A|]. split; [exact B|].
    destruct (ident_match n) eqn:Im.
    - intro I92. apply ident_match_rest in Im. rewrite forallb_forall in Im. apply Im in I92. cbv in I92. discriminate.
    - cbn [build_expr token_expr] in H. unfold obj_key_for_path in H. rewrite Im in H.
      change (S_ "['") with [91; 39] in H. change (S_ "']") with [39; 93] in H. rewrite <- !app_assoc in H. cbn [app PathExp.path_exp] in H.
      change (91 =? 46) with false in H. change (91 =? 91) with true in H. cbv iota in H.
      unfold PathExp.bracket_path, bracket_inner in H. change (39 =? 39) with true in H. cbv iota in H.
      pose proof (escape_key_length n) as [EL1 EL2]. pose proof (escape_key_noquote n B) as EQ.
      destruct (escape_key n) as [|c k] eqn:K; [destruct n; [congruence|cbn in EL1; lia]|].
      cbn [app string_path] in H. rewrite string_loop_spec in H by exact EQ. change (39 =? 39) with true in H. cbn [app bind fst snd] in H.
      change (93 =? 93) with true in H. cbv iota in H. cbn [bind fst snd] in H.
      destruct (path_exp f (build_expr ts)) as [us|e|]; cbn [bind] in H; try discriminate. injection H as X _. apply EL2. rewrite X. reflexivity. }
  constructor; [exact P|]. cbn [build_expr] in H. rewrite (parse_step _ _ t _ f P St) in H.
  destruct (path_exp f (build_expr ts)) as [us|e|] eqn:E; cbn [bind] in H; try discriminate. injection H as <-. exact (IH f s E F2).
Qed.
Lemma parse_print_iff : forall ts, parse_path_exp ua un (build_expr (TRoot :: ts)) = Ok (TRoot :: ts) <-> Forall printable ts.
Proof.
  intro ts. split; [|apply parse_print]. intro H. cbn [build_expr token_expr] in H. change (S_ "$") with [36] in H. cbn [app parse_path_exp] in H.
  change (36 =? 36) with true in H. cbv iota in H.
  destruct (path_exp (length (build_expr ts)) (build_expr ts)) as [us|e|] eqn:E; cbn [bind] in H; try discriminate. injection H as ->.
  exact (path_exp_build_inv _ _ _ E (path_exp_inv _ _ _ _ _ E)).
Qed.
End WithUnicode.
