(** Proofs about the builders of the consumer DSL: what the calls leave in the request. *)
From Coq Require Import Ascii String List Arith NArith ZArith Lia Bool Permutation Sorted.
From Verif Require Import Base PathExp PathExpProofs SpecPath PropPath Json Text TextProofs MatchingRules RulesV2 SpecRules Matchers JsonCompare SpecMatch SpecValues
  CompareProofs2 SpecBody BodyProofs Headers Query ContentType SpecXml SpecQuery SpecHeaders SpecHttp Http QueryProofs PropHttp Pattern SpecPattern PatternProofs PropPattern
  SpecParams PropParams PropParams2 Generators Builder SpecBuilder.
Import ListNotations.
Open Scope N_scope.
Local Opaque show_N.

(** ** The rules of a text pattern *)
Fixpoint s_rules (p : string_pattern) : list rule :=
  match p with
  | SLiteral _ => []
  | SLike q => RType :: s_rules q
  | STerm re _ => [RRegex re]
  | SDateTime f _ => [RTimestamp f]
  end.
Lemma has_rule_iff : forall p, has_rule p <-> s_rules p <> [].
Proof. intros [| | |]; cbn; split; intros; try discriminate; try contradiction; auto. Qed.
Lemma asks_iff : forall w p y e b, asks w p y <-> forall r, In r (s_rules p) -> xtext_satisfies w r b e y.
Proof.
  intros w p y e b. induction p as [s|q IH|re ex|f ex]; cbn [asks s_rules].
  - split; [intros _ r []|auto].
  - rewrite IH. split; [intros H r [<-|J]; [exact I | exact (H r J)] | intros H r J; apply H; right; exact J].
  - split; [intros H r [<-|[]]; exact H | intro H; exact (H _ (or_introl eq_refl))].
  - split; [intros H r [<-|[]]; exact H | intro H; exact (H _ (or_introl eq_refl))].
Qed.
Lemma s_rules_simple : forall p r, In r (s_rules p) -> simple r.
Proof. induction p as [s|q IH|re ex|f ex]; cbn [s_rules]; intros r J; [destruct J| | |]; (destruct J as [<-|J]; [exact I|]); [exact (IH r J) | destruct J | destruct J]. Qed.
Definition push_rules (path : docpath) (l : list (docpath * rulelist)) (rs : list rule) : list (docpath * rulelist) :=
  fold_left (fun l r => hm_push path r And l) rs l.
Lemma s_extract_rules : forall p path c, cat_rules (s_extract p path c) = push_rules path (cat_rules c) (s_rules p).
Proof. induction p; intros path c; cbn [s_extract s_rules push_rules fold_left]; try reflexivity. rewrite IHp. reflexivity. Qed.
Lemma s_extract_name : forall p path c, cat_name (s_extract p path c) = cat_name c.
Proof. induction p; intros path c; cbn [s_extract]; try reflexivity. rewrite IHp. reflexivity. Qed.
Lemma add_all_name : forall path l c, cat_name (add_all path l c) = cat_name c.
Proof. intros path. induction l as [|e l IH]; intro c; [reflexivity|]. unfold add_all in *. cbn [fold_left]. rewrite IH. reflexivity. Qed.
Definition push_steps (path : docpath) (l : list (docpath * rulelist)) (rs : list (list token * rule)) : list (docpath * rulelist) :=
  fold_left (fun l e => hm_push (push_all path (fst e)) (snd e) And l) rs l.
Lemma add_all_rules : forall path l c, cat_rules (add_all path l c) = push_steps path (cat_rules c) l.
Proof. intros path. induction l as [|e l IH]; intro c; [reflexivity|]. unfold add_all, push_steps in *. cbn [fold_left]. rewrite IH. reflexivity. Qed.

(** ** Categories *)
Definition content (n : category_name) (m : matching_rules) : list (docpath * rulelist) := cat_rules (rules_for n m).
Lemma cat_eqb_refl : forall n, cat_eqb n n = true.
Proof. destruct n; reflexivity. Qed.
Lemma content_same : forall n f g m, (forall c, cat_rules (f c) = g (cat_rules c)) -> content n (with_category n f m) = g (content n m).
Proof.
  intros n f g m H. unfold content. induction m as [|[n' c] m IH]; cbn [with_category rules_for].
  - rewrite cat_eqb_refl. rewrite H. reflexivity.
  - destruct (cat_eqb n n') eqn:E; cbn [rules_for]; rewrite E; [apply H | exact IH].
Qed.
Lemma content_other : forall n n' f m, n <> n' -> content n' (with_category n f m) = content n' m.
Proof.
  intros n n' f m H. unfold content. assert (cat_eqb n' n = false) as Ne.
  { destruct (cat_eqb n' n) eqn:E; [|reflexivity]. apply cat_eqb_true in E. congruence. }
  induction m as [|[n0 c] m IH]; cbn [with_category rules_for].
  - rewrite Ne. reflexivity.
  - destruct (cat_eqb n n0) eqn:E; cbn [rules_for].
    + apply cat_eqb_true in E. destruct E. rewrite Ne. reflexivity.
    + destruct (cat_eqb n' n0); [reflexivity | exact IH].
Qed.
Definition placed (m : matching_rules) : Prop := forall n c, In (n, c) m -> cat_name c = n.
Lemma placed_with : forall n f m, (forall c, cat_name (f c) = cat_name c) -> placed m -> placed (with_category n f m).
Proof.
  intros n f m H. induction m as [|[n' c] m IH]; intros P n0 c0 J; cbn [with_category] in J.
  - destruct J as [J|[]]. injection J as <- <-. rewrite H. reflexivity.
  - destruct (cat_eqb n n').
    + destruct J as [J|J]; [|apply P; right; exact J]. injection J as <- <-. rewrite H. apply P. left. reflexivity.
    + destruct J as [J|J]; [apply P; left; exact J|]. apply IH; [|exact J]. intros n1 c1 J1. apply P. right. exact J1.
Qed.
Lemma content_in : forall n m, content n m <> [] -> exists c, In (n, c) m /\ rules_for n m = c.
Proof.
  intros n m. unfold content. induction m as [|[n' c] m IH]; cbn [rules_for]; [intro H; destruct (H eq_refl)|].
  destruct (cat_eqb n n') eqn:E; intro H.
  - apply cat_eqb_true in E. subst. exists c. split; [left; reflexivity | reflexivity].
  - destruct (IH H) as (c' & J & R). exists c'. split; [right; exact J | exact R].
Qed.
Lemma shuffled_content : forall m m' n, shuffled m m' -> Permutation (content n m) (content n m') /\ cat_name (rules_for n m) = cat_name (rules_for n m').
Proof.
  intros m m' n S. unfold content. induction S as [|[n1 c1] [n2 c2] m m' (E & N & P) S IH]; [split; [constructor | reflexivity]|]. cbn [fst snd] in *. subst.
  cbn [rules_for]. destruct (cat_eqb n n2); [split; assumption | exact IH].
Qed.
Lemma shuffled_in : forall m m' n c, shuffled m m' -> In (n, c) m' -> exists c0, In (n, c0) m /\ cat_name c = cat_name c0 /\ Permutation (cat_rules c0) (cat_rules c).
Proof.
  intros m m' n c S. induction S as [|[n1 c1] [n2 c2] m m' (E & N & P) S IH]; [intros []|]. cbn [fst snd] in *. subst. intros [J|J].
  - injection J as <- <-. exists c1. split; [left; reflexivity|]. split; [symmetry; exact N | exact P].
  - destruct (IH J) as (c0 & J0 & R). exists c0. split; [right; exact J0 | exact R].
Qed.

(** ** What the calls leave *)
Section Calls.
Variable w : world.
Variable x : externals.
Definition query_calls (h : list request_call) : list (str * string_pattern) := flat_map (fun c => match c with RQuery n v => [(n, v)] | _ => [] end) h.
Definition push_named (l : list (docpath * rulelist)) (nv : str * string_pattern) : list (docpath * rulelist) :=
  push_rules (named_path (fst nv)) l (s_rules (snd nv)).
Definition push_path (l : list (docpath * rulelist)) (p : string_pattern) : list (docpath * rulelist) := push_rules path_empty l (s_rules p).
Definition push_body (l : list (docpath * rulelist)) (c : part_call) : list (docpath * rulelist) :=
  match c with
  | PJsonBody p => push_steps path_root l (rel p)
  | PBodyMatching p | PBodyMatching2 p _ => push_rules path_root l (s_rules p)
  | _ => l
  end.
Lemma part_content : forall l b, bodies_sane l ->
  let b' := fold_left (part_step w x) l b in
  content CHeader (pb_rules b') = fold_left push_named (header_calls l) (content CHeader (pb_rules b)) /\
  content CBody (pb_rules b') = fold_left push_body (body_calls l) (content CBody (pb_rules b)) /\
  content CPath (pb_rules b') = content CPath (pb_rules b) /\ content CQuery (pb_rules b') = content CQuery (pb_rules b) /\
  content CStatus (pb_rules b') = content CStatus (pb_rules b) /\
  (placed (pb_rules b) -> placed (pb_rules b')).
Proof.
  induction l as [|c l IH]; intros b S b'; [subst b'; cbn; auto 10|].
  assert (bodies_sane l) as S' by (intros p J; apply S; right; exact J).
  subst b'. cbn [fold_left]. specialize (IH (part_step w x b c) S'). cbv zeta in IH. destruct IH as (H1 & H2 & H3 & H4 & H5 & H6).
  rewrite H1, H2, H3, H4, H5. clear H1 H2 H3 H4 H5.
  assert (forall n v (m : matching_rules), content CHeader (with_category CHeader (s_extract v (named_path n)) m) = push_named (content CHeader m) (n, v)) as HH.
  { intros n v m. unfold push_named. cbn [fst snd]. apply (content_same CHeader _ (fun l => push_rules (named_path n) l (s_rules v))). intro c0. apply s_extract_rules. }
  assert (forall v (m : matching_rules), content CBody (with_category CBody (s_extract v path_root) m) = push_rules path_root (content CBody m) (s_rules v)) as HB.
  { intros v m. apply (content_same CBody _ (fun l => push_rules path_root l (s_rules v))). intro c0. apply s_extract_rules. }
  destruct c as [n v|n ex v|t|t ct|p|p|p ct];
    cbn [part_step header_call set_body add_body_rules header_calls body_calls flat_map filter app fold_left pb_rules push_body] in *.
  - rewrite HH, !content_other by discriminate. do 5 (split; [reflexivity|]). intro P. apply H6, placed_with; [intro; apply s_extract_name | exact P].
  - rewrite HH, !content_other by discriminate. do 5 (split; [reflexivity|]). intro P. apply H6, placed_with; [intro; apply s_extract_name | exact P].
  - auto 10.
  - auto 10.
  - assert (proper p) as Pr by (apply S; left; reflexivity).
    rewrite (content_same CBody (extract p path_root) (fun l => push_steps path_root l (rel p))) by (intro c0; rewrite (extract_rel p Pr); apply add_all_rules).
    rewrite !content_other by discriminate. do 5 (split; [reflexivity|]). intro P. apply H6, placed_with; [|exact P]. intro c0. rewrite (extract_rel p Pr). apply add_all_name.
  - rewrite HB, !content_other by discriminate. do 5 (split; [reflexivity|]). intro P. apply H6, placed_with; [intro; apply s_extract_name | exact P].
  - rewrite HB, !content_other by discriminate. do 5 (split; [reflexivity|]). intro P. apply H6, placed_with; [intro; apply s_extract_name | exact P].
Qed.
Lemma request_content : forall h b, bodies_sane (part_calls h) ->
  let b' := fold_left (request_step w x) h b in
  let m := pb_rules (rb_part b) in
  let m' := pb_rules (rb_part b') in
  content CHeader m' = fold_left push_named (header_calls (part_calls h)) (content CHeader m) /\
  content CBody m' = fold_left push_body (body_calls (part_calls h)) (content CBody m) /\
  content CPath m' = fold_left push_path (paths h) (content CPath m) /\
  content CQuery m' = fold_left push_named (query_calls h) (content CQuery m) /\
  (placed m -> placed m').
Proof.
  induction h as [|c h IH]; intros b S b' m m'; [subst b' m m'; cbn; auto|].
  assert (bodies_sane (part_calls h)) as S' by (intros p J; apply S; unfold part_calls; cbn [flat_map]; apply in_or_app; right; exact J).
  subst b' m'. cbn [fold_left]. specialize (IH (request_step w x b c) S'). cbv zeta in IH. destruct IH as (H1 & H2 & H3 & H4 & H6).
  rewrite H1, H2, H3, H4. clear H1 H2 H3 H4.
  assert (forall p, content CPath (with_category CPath (s_extract p path_empty) m) = push_path (content CPath m) p) as HP.
  { intro p. unfold push_path. apply (content_same CPath _ (fun l => push_rules path_empty l (s_rules p))). intro c0. apply s_extract_rules. }
  destruct c as [me|p|ex p|n v|pc].
  - cbn. auto.
  - cbn [request_step path_call with_rules rb_part pb_rules part_calls paths query_calls flat_map app fold_left] in *. fold m in H6. fold m.
    rewrite HP, !content_other by discriminate. do 4 (split; [reflexivity|]). intro P. apply H6, placed_with; [intro; apply s_extract_name | exact P].
  - cbn [request_step path_call with_rules rb_part pb_rules part_calls paths query_calls flat_map app fold_left] in *. fold m in H6. fold m.
    rewrite HP, !content_other by discriminate. do 4 (split; [reflexivity|]). intro P. apply H6, placed_with; [intro; apply s_extract_name | exact P].
  - cbn [request_step with_rules rb_part pb_rules part_calls paths query_calls flat_map app fold_left] in *. fold m in H6. fold m.
    rewrite (content_same CQuery _ (fun l => push_named l (n, v))) by (intro c0; apply s_extract_rules).
    rewrite !content_other by discriminate. do 4 (split; [reflexivity|]). intro P. apply H6, placed_with; [intro; apply s_extract_name | exact P].
  - cbn [request_step rb_part] in *. unfold part_calls, paths, query_calls in *. cbn [flat_map app fold_left] in *.
    assert (bodies_sane [pc]) as Sp by (intros p [->|[]]; apply S; left; reflexivity).
    pose proof (part_content [pc] (rb_part b) Sp) as (H1 & H2 & H3 & H4 & _ & H5). cbn [fold_left] in *.
    rewrite H1, H2, H3, H4. fold m. split; [destruct pc; reflexivity|].
    split; [destruct pc; reflexivity|]. split; [reflexivity|]. split; [reflexivity|]. intro P. apply H6, H5, P.
Qed.
End Calls.
