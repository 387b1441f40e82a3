(** C125: matching definitions through the C interface, over histories. *)
From Coq Require Import Ascii String List Arith NArith ZArith Lia Bool.
From Verif Require Import Base PathExp Json Text TextProofs MatchingRules Generators RuleExpr FfiRead DefFfi SpecDefFfi PropDefFfi.
From Verif Require TimeFormat SpecTimeFormat PropTimeFormat PropPattern3.
Import ListNotations.
Open Scope N_scope.

Section Proofs.
Variable junk : str -> nat.
Variable w : world.
Variable message : str -> str.
Variable abbreviations zones : str -> bool.
Notation step := (step junk w message abbreviations zones).
Notation runs := (runs junk w message abbreviations zones).
Notation definition_of := (definition_of junk w message).
Lemma parsed : forall h b p h', step h (Parse (Some b)) = Some (h', ADef (Gave p)) -> exists t, from_utf8 b = Some t /\ nth_error (defs h') p = Some (Some (definition_of t)).
Proof.
  intros h b p h' H. destruct (C125_parse junk w message abbreviations zones h (Some b)) as (h2 & a & E & F & G & _). rewrite H in E. injection E as <- <-.
  destruct (from_utf8 b) as [t|] eqn:U.
  - destruct (G b t eq_refl U) as (p' & E & _ & N1). injection E as <-. eauto.
  - assert (X : Gave p = @Failed nat) by (apply F; intros b' t E; injection E as <-; congruence). discriminate.
Qed.
Lemma there : forall tr1 b p tr2 h, runs no_heap (tr1 ++ (Parse (Some b), ADef (Gave p)) :: tr2) h -> ~ deletes p tr2 ->
  exists t, from_utf8 b = Some t /\ nth_error (defs h) p = Some (Some (definition_of t)).
Proof.
  intros tr1 b p tr2 h H ND. apply runs_app in H. destruct H as (h1 & _ & H). inversion H as [|s0 c h2 r tr h3 ST R]; subst.
  apply parsed in ST. destruct ST as (t & U & N1). exists t. split; [exact U|]. exact (kept_def _ _ _ _ _ _ _ _ R p _ N1 ND).
Qed.
(** What a definition shows as long as it is not deleted, whatever else was called. *)
Theorem C125_definition : forall tr1 b p tr2 h, runs no_heap (tr1 ++ (Parse (Some b), ADef (Gave p)) :: tr2) h -> ~ deletes p tr2 ->
  exists t, from_utf8 b = Some t /\ (wrong junk w t \/ exists d, stands_for junk w t d) /\
  (wrong junk w t -> (exists a, step h (DefError (Some p)) = Some (h, AText a) /\ a <> Null) /\ step h (DefValue (Some p)) = Some (h, AText Null) /\
     step h (DefType (Some p)) = Some (h, AType (Gave VUnknown)) /\ step h (DefGenerator (Some p)) = Some (h, AGenerator Null) /\ step h (DefIter (Some p)) = Some (h, AIter Null)) /\
  (forall d, stands_for junk w t d -> step h (DefError (Some p)) = Some (h, AText Null) /\
     (for_c (x_value d) -> step h (DefValue (Some p)) = Some (h, AText (Gave (utf8 (x_value d))))) /\
     (~ for_c (x_value d) -> step h (DefValue (Some p)) = Some (h, AText Failed)) /\
     step h (DefType (Some p)) = Some (h, AType (Gave (x_type d))) /\
     step h (DefGenerator (Some p)) = Some (h, AGenerator match x_gen d with Some g => Gave g | None => Null end) /\
     (Exists hides (x_rules d) -> step h (DefIter (Some p)) = Some (h, AIter Failed)) /\
     (~ Exists hides (x_rules d) -> exists h' i, step h (DefIter (Some p)) = Some (h', AIter (Gave i)))).
Proof.
  intros tr1 b p tr2 h H ND. destruct (there _ _ _ _ _ H ND) as (t & U & P). exists t. split; [exact U|].
  assert (L : lookup (defs h) (Some p) = Some (Some (definition_of t))) by (cbn; now rewrite P).
  split; [destruct (definition_of t) as [m|d] eqn:D; [left; apply (definition_left junk w message); eauto|right; exists d; now apply (definition_right junk w message)]|]. split.
  - intro W. apply (definition_left junk w message) in W. destruct W as (m & W). rewrite W in L. cbn [DefFfi.step]. rewrite L. cbn [option_map].
    repeat (split; [try reflexivity|]); try reflexivity. eexists. split; [reflexivity|]. unfold to_c. destruct (existsb _ m); discriminate.
  - intros d SF. apply (definition_right junk w message) in SF. rewrite SF in L. cbn [DefFfi.step]. rewrite L. cbn [option_map].
    split; [reflexivity|]. split; [intro F; apply for_c_iff in F; unfold to_c; now rewrite F|].
    split; [intro F; rewrite for_c_iff in F; apply not_false_iff_true in F; unfold to_c; now rewrite F|]. split; [reflexivity|]. split; [reflexivity|].
    rewrite <- items_none. destruct (items_of (x_rules d)); split; try congruence; eauto.
Qed.
(** An iterator gives the rules and references of its definition in order, each once, and then NULL, whatever is called in between and even if
    the definition is deleted. *)
Theorem C125_iterator : forall tr1 b p tr2 i tr3 h, runs no_heap (tr1 ++ (Parse (Some b), ADef (Gave p)) :: tr2 ++ (DefIter (Some p), AIter (Gave i)) :: tr3) h -> ~ deletes p tr2 ->
  exists t d is, from_utf8 b = Some t /\ stands_for junk w t d /\ Forall2 shown (x_rules d) is /\ in_turn is (nexts i tr3).
Proof.
  intros tr1 b p tr2 i tr3 h H ND.
  change (tr1 ++ (Parse (Some b), ADef (Gave p)) :: tr2 ++ (DefIter (Some p), AIter (Gave i)) :: tr3) with (tr1 ++ ((Parse (Some b), ADef (Gave p)) :: tr2) ++ (DefIter (Some p), AIter (Gave i)) :: tr3) in H.
  rewrite app_assoc in H. apply runs_app in H. destruct H as (h1 & R & H). destruct (there _ _ _ _ _ R ND) as (t & U & P).
  inversion H as [|s0 c h2 r tr h3 ST R3]; subst. cbn [DefFfi.step lookup] in ST. rewrite P in ST. destruct (definition_of t) as [m|d] eqn:D; [discriminate|].
  destruct (items_of (x_rules d)) as [is|] eqn:I; [|discriminate]. injection ST as <- <-. exists t, d, is. split; [exact U|]. split; [now apply (definition_right junk w message)|].
  split; [now apply items_some|]. intros k r K.
  pose proof (iterated junk w message abbreviations zones _ _ _ R3 (length (iters h1)) is 0%nat (nth_last _ (iters h1) _) k r K) as E. cbn [Nat.add] in E.
  destruct (nth_error is k) as [x|] eqn:N1; [left; eauto|right]. split; [now apply nth_error_None|exact E].
Qed.
(** The calls on NULL, and on no text. *)
Theorem C125_null : forall h, step h (Parse None) = Some (h, ADef Failed) /\ step h (DefError None) = Some (h, AText Failed) /\ step h (DefValue None) = Some (h, AText Failed) /\
  step h (DefType None) = Some (h, AType Failed) /\ step h (DefGenerator None) = Some (h, AGenerator Failed) /\ step h (DefIter None) = Some (h, AIter Failed) /\ step h (IterNext None) = Some (h, AItem Failed).
Proof. intro h. repeat split. Qed.
(** A date or time is valid exactly if there is one and it follows the format (C95), of which there is one too. *)
Theorem C125_datetime : forall h value format, exists z, step h (ValidateDatetime value format) = Some (h, ACode z) /\ In z [0; 1; 2]%Z /\
  (z = 0%Z <-> exists b c v f, value = Some b /\ format = Some c /\ from_utf8 b = Some v /\ from_utf8 c = Some f /\ v <> [] /\ f <> [] /\ SpecTimeFormat.follows abbreviations zones v f) /\
  (z = 2%Z <-> (forall b v, value = Some b -> from_utf8 b <> Some v) \/ (forall c f, format = Some c -> from_utf8 c <> Some f) \/
     exists b c v f, value = Some b /\ format = Some c /\ from_utf8 b = Some v /\ from_utf8 c = Some f /\ v <> [] /\ f <> [] /\ TimeFormat.validate_datetime abbreviations zones v f = Panic).
Proof.
  intros h value format. eexists. split; [reflexivity|].
  assert (TX : forall c, (exists b t, c = Some b /\ from_utf8 b = Some t /\ text_of c = Some t) \/ ((forall b t, c = Some b -> from_utf8 b <> Some t) /\ text_of c = None)).
  { intros [b|]; cbn; [|right; split; [discriminate|reflexivity]]. destruct (from_utf8 b) as [t|] eqn:U; [left; eauto|right; split; [intros b' t E; injection E as <-; congruence|reflexivity]]. }
  destruct (TX value) as [(b & v & -> & U & TV)|[NV TV]]; rewrite TV.
  2: { split; [cbn; auto|]. split; [split; [discriminate|intros (b & c & v & f & E & _ & U & _); exfalso; now apply (NV b v)]|]. split; auto. }
  destruct (TX format) as [(c & f & -> & U' & TF)|[NF TF]]; rewrite TF.
  2: { split; [cbn; auto|]. split; [split; [discriminate|intros (b' & c & v' & f & _ & E & _ & U' & _); exfalso; now apply (NF c f)]|]. split; auto. }
  set (z := match v with [] => 1%Z | _ => _ end).
  assert (IFF : forall P : str -> str -> Prop, (exists b' c' v' f', Some b = Some b' /\ Some c = Some c' /\ from_utf8 b' = Some v' /\ from_utf8 c' = Some f' /\ v' <> [] /\ f' <> [] /\ P v' f') <-> (v <> [] /\ f <> [] /\ P v f)).
  { intro P. split.
    - intros (b' & c' & v' & f' & E & E' & X & X' & Y). injection E as <-. injection E' as <-. rewrite U in X. rewrite U' in X'. injection X as <-. injection X' as <-. exact Y.
    - intro Y. exists b, c, v, f. auto. }
  rewrite (IFF (SpecTimeFormat.follows abbreviations zones)), (IFF (fun v f => TimeFormat.validate_datetime abbreviations zones v f = Panic)). clear IFF.
  assert (NB : ~ (forall b' v', Some b = Some b' -> from_utf8 b' <> Some v')) by (intro X; now apply (X b v)).
  assert (NC : ~ (forall c' f', Some c = Some c' -> from_utf8 c' <> Some f')) by (intro X; now apply (X c f)).
  rewrite <- PropTimeFormat.C95_accepted. subst z. destruct v as [|v0 v]; [split; [cbn; auto|]; split; [split; [discriminate|tauto]|split; [discriminate|tauto]]|].
  destruct f as [|f0 f]; [split; [cbn; auto|]; split; [split; [discriminate|tauto]|split; [discriminate|tauto]]|].
  assert (V0 : v0 :: v <> []) by discriminate. assert (F0 : f0 :: f <> []) by discriminate.
  destruct (TimeFormat.validate_datetime abbreviations zones (v0 :: v) (f0 :: f)) as [[]|[]|] eqn:VD; (split; [cbn; auto|]); split; split; intro X; try discriminate; try reflexivity; try tauto.
  - destruct X as [X|[X|(_ & _ & X)]]; [tauto|tauto|discriminate].
  - destruct X as (_ & _ & X). discriminate.
  - destruct X as [X|[X|(_ & _ & X)]]; [tauto|tauto|discriminate].
  - destruct X as (_ & _ & X). discriminate.
Qed.
End Proofs.

(** ** Examples *)
Section Examples.
Definition ex_junk (s : str) : nat := 0%nat.
Definition never (s : str) : bool := false.
Notation ex_step := (step ex_junk PropPattern3.digits_world (fun e => S_ "wrong: " ++ e) never never).
Fixpoint doing (h : heap) (cs : list call) : trace * heap :=
  match cs with
  | [] => ([], h)
  | c :: cs' => match ex_step h c with Some (h', r) => let '(tr, h2) := doing h' cs' in ((c, r) :: tr, h2) | None => ([], h) end
  end.
Lemma doing_runs : forall cs h, runs ex_junk PropPattern3.digits_world (fun e => S_ "wrong: " ++ e) never never h (fst (doing h cs)) (snd (doing h cs)).
Proof.
  induction cs as [|c cs IH]; intro h; cbn [doing]; [constructor|]. destruct (ex_step h c) as [[h' r]|] eqn:ST; [|constructor].
  specialize (IH h'). destruct (doing h' cs) as [tr h2]. now apply runs_one with (h1 := h').
Qed.
Definition bytes_of (s : string) : option (list N) := Some (utf8 (S_ s)).
(** Two definitions and their iterators in turn: a rule, a reference, and a text that is no definition. *)
Example C125_example_history : map snd (fst (doing no_heap [Parse (bytes_of "matching(type,'x'), matching($'k')"); DefIter (Some 0%nat); IterNext (Some 0%nat);
      Parse (bytes_of "plain"); DefIter (Some 1%nat); IterNext (Some 0%nat); IterNext (Some 1%nat); IterNext (Some 0%nat); DefValue (Some 1%nat)])) =
  [ADef (Gave 0%nat); AIter (Gave 0%nat); AItem (Gave (IRule 3 None (XRule RType)));
   ADef (Gave 1%nat); AIter (Gave 1%nat); AItem (Gave (IReference (utf8 (S_ "k")))); AItem Null; AItem Null; AText (Gave (utf8 (S_ "plain")))].
Proof. vm_compute. reflexivity. Qed.
(** Two iterators over one definition, which is deleted between the calls. *)
Example C125_example_regex : map snd (fst (doing no_heap [Parse (bytes_of "matching(regex,'\d+','10')"); DefValue (Some 0%nat); DefType (Some 0%nat); DefError (Some 0%nat); DefIter (Some 0%nat); DefIter (Some 0%nat);
      IterNext (Some 0%nat); DefDelete 0%nat; IterNext (Some 1%nat); IterNext (Some 0%nat); IterNext (Some 0%nat)])) =
  let it := AItem (Gave (IRule 2 (bytes_of "\d+") (XRule (RRegex (S_ "\d+"))))) in
  [ADef (Gave 0%nat); AText (Gave (utf8 (S_ "10"))); AType (Gave VString); AText Null; AIter (Gave 0%nat); AIter (Gave 1%nat); it; ANothing; it; AItem Null; AItem Null].
Proof. vm_compute. reflexivity. Qed.
(** A definition that cannot be parsed, and a pointer to something deleted. *)
Example C125_example_wrong : map snd (fst (doing no_heap [Parse (bytes_of "matching(regex"); DefValue (Some 0%nat); DefIter (Some 0%nat); DefType (Some 0%nat); DefError (Some 0%nat)])) =
    [ADef (Gave 0%nat); AText Null; AIter Null; AType (Gave VUnknown); AText (Gave (utf8 (S_ "wrong: matching(regex")))] /\
  ex_step (snd (doing no_heap [Parse (bytes_of "x"); DefDelete 0%nat])) (DefValue (Some 0%nat)) = None.
Proof. vm_compute. split; reflexivity. Qed.
(** Found: a rule with an escaped zero has no iterator, and neither has anything else of its definition; the value is not given either. *)
Example C125_why_no_iterator : map snd (fst (doing no_heap [Parse (bytes_of "matching(include,'a\u{0}b')"); DefError (Some 0%nat); DefValue (Some 0%nat); DefIter (Some 0%nat)])) =
  [ADef (Gave 0%nat); AText Null; AText Failed; AIter Failed].
Proof. vm_compute. reflexivity. Qed.
End Examples.
