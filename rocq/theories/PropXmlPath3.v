(** C108, concluded: an example; the root; names with other characters. *)
From Coq Require Import Ascii String List Arith NArith ZArith Lia Bool Sorted.
From Verif Require Import Base PathExp Json Text TextProofs XmlPath SpecXmlPath PropXmlPath PropXmlPath2.
Import ListNotations.
Open Scope N_scope.

(** The root expression stands for nothing. *)
Theorem C108_the_root : forall e expression, path_tokens expression = [TRoot] -> resolve_path e expression = [].
Proof. intros e [ts s] E. cbn in E. subst ts. reflexivity. Qed.

(** ** Names with other characters: only what follows the last of them is looked up *)
Section Names.
Variables (uni_word uni_digit : N -> bool) (text : node -> str).
Notation word := (is_word uni_word).
Local Opaque show_N.
Lemma span_word : forall (p : N -> bool) a c s, forallb p a = true -> p c = false -> span p (a ++ c :: s) = (a, c :: s).
Proof.
  intros p. induction a as [|x a IH]; intros c s H1 H2; cbn [app span].
  - rewrite H2. reflexivity.
  - cbn in H1. apply andb_true_iff in H1 as [Hx H1]. rewrite Hx, (IH c s H1 H2). reflexivity.
Qed.
Lemma captures_after : forall a c s, forallb word a = true -> word c = false -> c <> 91 ->
  captures uni_word uni_digit (a ++ c :: s) = captures uni_word uni_digit s.
Proof.
  induction a as [|x a IH]; intros c s W Wc N1; cbn [app].
  - cbn [captures]. unfold match_here at 1. cbn [span]. rewrite Wc. reflexivity.
  - cbn [captures]. assert (match_here uni_word uni_digit (x :: a ++ c :: s) = None) as ->.
    { unfold match_here. rewrite (span_word word (x :: a) c s W Wc : span word (x :: a ++ c :: s) = _). destruct (N.eqb_spec c 91); [contradiction | reflexivity]. }
    apply IH; [|assumption..]. cbn in W. apply andb_true_iff in W as [_ W]. exact W.
Qed.
(** An element [a-b] is looked up as the element [b] at the same position. *)
Theorem C108_other_characters : forall root a c b i, is_element root = true -> xml_name (el_name root) -> forallb word (el_name root) = true ->
  xml_name (a ++ c :: b) -> forallb word a = true -> word c = false -> b <> [] -> forallb word b = true -> i < two64 ->
  resolve_matching_node uni_word uni_digit text root (pointer [SElement (el_name root) 0; SElement (a ++ c :: b) i]) =
  match nth_error (children_named b root) (N.to_nat i) with Some d => Some (ElementNode d) | None => None end.
Proof.
  intros root a c b i El (NR & SR & BR & XR) WR (NN & SN & BN & XN) Wa Wc NB Wb L. unfold resolve_matching_node.
  rewrite <- pointer_join by discriminate.
  assert (SL : forall n j, ~ In 47 n -> ~ In 47 (show_step (SElement n j))).
  { intros n j NS. cbn [show_step]. rewrite !in_app_iff. intros [K|[[K|[]]|[K|[K|[]]]]]; [exact (NS K) | discriminate | exact (no_slash_digits j K) | discriminate]. }
  rewrite split_join; [|discriminate | repeat constructor; [intros [] | apply SL; exact SR | apply SL; exact SN]].
  unfold shown. cbn [map filter]. rewrite <- !label_show.
  assert (LN : forall n j, label n j <> []) by (intros n j Z; unfold label in Z; apply app_eq_nil in Z as [_ Z]; discriminate).
  destruct (label (el_name root) 0) as [|y0 l0] eqn:E0; [exfalso; exact (LN _ _ E0)|]. rewrite <- E0.
  destruct (label (a ++ c :: b) i) as [|y1 l1] eqn:E1; [exfalso; exact (LN _ _ E1)|].
  rewrite (captures_label uni_word uni_digit (el_name root) 0 NR WR). rewrite (index_show 0) by reflexivity. replace (0 =? 0) with true by reflexivity.
  destruct (str_eqb_spec (el_name root) (el_name root)) as [_|Z]; [|congruence]. cbn [andb match_next].
  assert (y1 <> 64 /\ y1 <> 35) as [X1 X2].
  { unfold label in E1. destruct (a ++ c :: b) as [|y m]; [congruence|]. injection E1 as -> _. exact (XN y1 m eq_refl). }
  destruct (N.eqb_spec y1 64) as [Z|_]; [contradiction|]. destruct (str_eqb_spec (y1 :: l1) (S_ "#text")) as [Z|_]. { exfalso. injection Z as Z _. apply X2, Z. }
  rewrite <- E1. assert (captures uni_word uni_digit (label (a ++ c :: b) i) = Some (b, show_N i)) as ->.
  { replace (label (a ++ c :: b) i) with (a ++ c :: label b i) by (unfold label; rewrite <- app_assoc; reflexivity).
    rewrite captures_after; [apply captures_label; assumption | exact Wa | exact Wc|]. intros ->. apply BN. apply in_or_app. right. left. reflexivity. }
  rewrite groups_get, (index_show i L). destruct (children_named b root) as [|d ds] eqn:EC.
  - destruct (N.to_nat i); reflexivity.
  - destruct (nth_error (d :: ds) (N.to_nat i)); reflexivity.
Qed.
End Names.

(** ** An example *)
Definition config : node :=
  NElem (S_ "config") []
    [NText (S_ " "); NElem (S_ "name") [] [NText (S_ "My Settings")];
     NElem (S_ "sound") []
       [NElem (S_ "property") [(S_ "name", S_ "volume"); (S_ "value", S_ "11")] [];
        NElem (S_ "property") [(S_ "name", S_ "mixer"); (S_ "value", S_ "standard")] []];
     NOther; NElem (S_ "with-hyphen") [] []; NElem (S_ "hyphen") [] [NText (S_ "x")]].
Definition own_text (e : node) : str := flat_map (fun c => match c with NText t => t | _ => [] end) (el_children e).
Definition path (ts : list token) : docpath := mkPath (TRoot :: ts) [].
Definition tf (s : string) : token := TField (S_ s).
Lemma name_by : forall n, (match n with [] => false | c :: _ => negb (c =? 64) && negb (c =? 35) end) && negb (existsb (N.eqb 47) n) && negb (existsb (N.eqb 91) n) = true -> xml_name n.
Proof.
  intros n H. apply andb_true_iff in H as [H H3]. apply andb_true_iff in H as [H1 H2]. apply negb_true_iff in H2, H3.
  assert (G : forall c, existsb (N.eqb c) n = false -> ~ In c n).
  { intros c E J. assert (existsb (N.eqb c) n = true) by (apply existsb_exists; exists c; split; [exact J | apply N.eqb_refl]). congruence. }
  split; [destruct n; [discriminate | discriminate]|]. split; [apply G, H2|]. split; [apply G, H3|]. intros c n' ->. apply andb_true_iff in H1 as [A B].
  apply negb_true_iff, N.eqb_neq in A, B. auto.
Qed.
Lemma config_proper : proper_names config.
Proof.
  assert (A : forall ats : list (str * str), existsb (fun av => existsb (N.eqb 47) (fst av)) ats = false -> forall a v, In (a, v) ats -> ~ In 47 a).
  { intros ats E a v J K. assert (existsb (fun av => existsb (N.eqb 47) (fst av)) ats = true); [|congruence]. apply existsb_exists. exists (a, v). split; [exact J|]. apply existsb_exists. exists 47. split; [exact K | reflexivity]. }
  assert (B : forall n ats cs, xml_name n -> existsb (fun av => existsb (N.eqb 47) (fst av)) ats = false -> NoDup (keys ats) -> Forall proper_names cs -> proper_names (NElem n ats cs)).
  { intros n ats cs H1 H2 H3 H4. constructor; [exact H1 | apply A; exact H2 | exact H3 | rewrite Forall_forall in H4; exact H4]. }
  assert (ND : forall x y : str * str, str_eqb (fst x) (fst y) = false -> NoDup (keys [x; y])).
  { intros x y E. cbn. constructor; [|constructor; [intros []|constructor]]. intros [J|[]]. destruct (str_eqb_spec (fst x) (fst y)); congruence. }
  unfold config. repeat (apply B || apply name_by || apply pn_text || apply pn_other || apply ND || reflexivity || apply Forall_nil || apply NoDup_nil || apply Forall_cons).
Qed.
Example C108_example :
  is_element config = true /\ proper_names config /\ (forall d, has_text d -> own_text d <> []) /\ (exists sound, nth_error (el_children config) 2 = Some sound /\ word_names (is_word (fun _ => false)) sound) /\
  map (fun ts => resolve_path config (path ts))
    [[]; [tf "config"]; [tf "config"; tf "sound"; tf "property"]; [tf "config"; tf "sound"; TIndex 0; tf "property"; TIndex 1]; [tf "config"; TStar];
     [tf "config"; TStarIndex]; [tf "config"; tf "sound"; TStar; tf "@name"]; [tf "config"; TStar; tf "#text"]; [tf "config"; tf "sound"; tf "property"; TIndex 2; tf "@name"]] =
  [[]; [S_ "/config[0]"]; [S_ "/config[0]/sound[0]/property[0]"; S_ "/config[0]/sound[0]/property[1]"]; [S_ "/config[0]/sound[0]/property[1]"];
   [S_ "/config[0]/hyphen[0]"; S_ "/config[0]/name[0]"; S_ "/config[0]/sound[0]"; S_ "/config[0]/with-hyphen[0]"];
   [S_ "/config[0]/hyphen[0]"; S_ "/config[0]/name[0]"; S_ "/config[0]/sound[0]"; S_ "/config[0]/with-hyphen[0]"];
   [S_ "/config[0]/sound[0]/property[0]/@name"; S_ "/config[0]/sound[0]/property[1]/@name"];
   [S_ "/config[0]/hyphen[0]/#text"; S_ "/config[0]/name[0]/#text"]; []] /\
  regular [tf "config"; tf "sound"; TIndex 0; tf "property"; TIndex 1; tf "@name"] /\
  resolve_matching_node (fun _ => false) (fun _ => false) own_text config (S_ "/config[0]/sound[0]/property[1]/@name") = Some (AttributeNode (S_ "name") (S_ "mixer")) /\
  resolve_matching_node (fun _ => false) (fun _ => false) own_text config (S_ "/config[0]/name[0]/#text") = Some (TextNode (S_ "My Settings")) /\
  resolve_matching_node (fun _ => false) (fun _ => false) own_text config (S_ "/config[0]/with-hyphen[0]") = Some (ElementNode (NElem (S_ "hyphen") [] [NText (S_ "x")])) /\
  resolve_matching_node (fun _ => false) (fun _ => false) own_text config (S_ "/config[0]/sound[0]/property[2]") = None.
Proof.
  split; [reflexivity|]. split; [apply config_proper|]. split.
  { intros d (t & J & NT) Z. unfold own_text in Z. apply NT. destruct t as [|c t]; [reflexivity|]. exfalso.
    assert (In c (flat_map (fun c => match c with NText t => t | _ => [] end) (el_children d))) as K by (apply in_flat_map; exists (NText (c :: t)); split; [exact J | left; reflexivity]).
    rewrite Z in K. destruct K. }
  split.
  { eexists. split; [reflexivity|]. apply wn_element; [reflexivity | reflexivity|]. intros c [<-|[<-|[]]]; (apply wn_element; [reflexivity | reflexivity | intros d []]). }
  split; [vm_compute; reflexivity|]. split; [apply rg_field, rg_indexed, rg_indexed, rg_field, rg_end|]. vm_compute. auto.
Qed.
