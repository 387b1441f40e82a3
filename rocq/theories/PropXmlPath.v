(** C108: path expressions in XML documents. *)
From Coq Require Import Ascii String List Arith NArith ZArith Lia Bool Sorted.
From Verif Require Import Base PathExp Json Text TextProofs XmlPath SpecXmlPath.
Import ListNotations.
Open Scope N_scope.
Local Opaque show_N.

(** ** The children of an element *)
Definition named (n : str) (l : list node) : list node := filter (fun c => str_eqb (el_name c) n) l.
Lemma group_spec : forall l m, (forall c, In c l -> is_element c = true) -> StronglySorted str_lt (keys m) ->
  let m' := fold_left (fun m c => obj_insert (el_name c) (match obj_get (el_name c) m with Some l => l ++ [c] | None => [c] end) m) l m in
  StronglySorted str_lt (keys m') /\
  forall n, obj_get n m' = match obj_get n m, named n l with
                           | Some g, h => Some (g ++ h)
                           | None, [] => None
                           | None, h => Some h
                           end.
Proof.
  induction l as [|c l IH]; intros m E St m'.
  - subst m'. cbn. split; [exact St|]. intro n. destruct (obj_get n m) as [g|]; [rewrite app_nil_r|]; reflexivity.
  - subst m'. cbn [fold_left].
    destruct (IH (obj_insert (el_name c) (match obj_get (el_name c) m with Some l => l ++ [c] | None => [c] end) m)) as [S1 S2].
    { intros d J. apply E. right. exact J. } { apply obj_insert_sorted, St. }
    split; [exact S1|]. intro n. rewrite S2, obj_insert_get. cbn [named filter].
    destruct (str_eqb_spec n (el_name c)) as [->|NE].
    + destruct (str_eqb_spec (el_name c) (el_name c)) as [_|Z]; [|congruence].
      destruct (obj_get (el_name c) m) as [g|]; [rewrite <- app_assoc; reflexivity|]. reflexivity.
    + destruct (str_eqb_spec (el_name c) n) as [Z|_]; [congruence|]. reflexivity.
Qed.
Lemma child_is : forall e c, In c (child_elements e) -> is_element c = true.
Proof. intros e c J. apply filter_In in J as [_ J]. exact J. Qed.
Lemma children_named_eq : forall n e, children_named n e = named n (child_elements e).
Proof.
  intros n e. unfold children_named, named, child_elements. induction (el_children e) as [|c l IH]; [reflexivity|]. cbn [filter].
  destruct c as [m a cs|t|]; cbn [is_element]; [|exact IH | exact IH]. cbn [filter el_name]. rewrite IH. reflexivity.
Qed.
Lemma groups_get : forall e n, obj_get n (group_children e) = match children_named n e with [] => None | l => Some l end.
Proof.
  intros e n. destruct (group_spec (child_elements e) [] (child_is e)) as [_ H]; [constructor|]. cbv zeta in H.
  unfold group_children. rewrite H. cbn [obj_get]. rewrite children_named_eq. reflexivity.
Qed.
Lemma groups_nodup : forall e, NoDup (keys (group_children e)).
Proof. intro e. apply sorted_nodup. apply (group_spec (child_elements e) [] (child_is e)). constructor. Qed.
Lemma groups_in : forall e n l, In (n, l) (group_children e) <-> l = children_named n e /\ l <> [].
Proof.
  intros e n l. split.
  - intro J. apply (obj_get_nodup _ n l _ (groups_nodup e)) in J. rewrite groups_get in J. destruct (children_named n e); [discriminate|]. injection J as <-. split; [reflexivity | discriminate].
  - intros [-> NE]. apply obj_get_in. rewrite groups_get. destruct (children_named n e); congruence.
Qed.
Lemma numbered_in : forall A (l : list A) i j v, In (j, v) (numbered i l) <-> i <= j /\ nth_error l (N.to_nat (j - i)) = Some v.
Proof.
  induction l as [|y l IH]; intros i j v; cbn [numbered In].
  - split; [intros [] | intros [_ H]]. destruct (N.to_nat (j - i)); discriminate.
  - rewrite IH. split.
    + intros [E|[L H]].
      * injection E as <- <-. split; [lia|]. rewrite N.sub_diag. reflexivity.
      * split; [lia|]. replace (N.to_nat (j - i)) with (S (N.to_nat (j - (i + 1)))) by lia. exact H.
    + intros [L H]. destruct (N.eq_dec i j) as [->|NE].
      * left. rewrite N.sub_diag in H. cbn in H. injection H as ->. reflexivity.
      * right. split; [lia|]. replace (N.to_nat (j - i)) with (S (N.to_nat (j - (i + 1)))) in H by lia. exact H.
Qed.
Lemma all_children_in : forall e i c, In (i, c) (all_children e) <-> nth_error (children_named (el_name c) e) (N.to_nat i) = Some c /\ is_element c = true.
Proof.
  intros e i c. unfold all_children. rewrite in_flat_map. split.
  - intros ([n l] & J & K). apply groups_in in J as [-> NE]. cbn [snd] in K. apply numbered_in in K as [_ K]. rewrite N.sub_0_r in K.
    assert (In c (children_named n e)) as Jc by exact (nth_error_In _ _ K). rewrite children_named_eq in Jc. apply filter_In in Jc as [J1 J2]. apply str_eqb_eq in J2.
    rewrite J2. split; [exact K | exact (child_is e c J1)].
  - intros [H El]. exists (el_name c, children_named (el_name c) e). split.
    + apply groups_in. split; [reflexivity|]. intro Z. rewrite Z in H. destruct (N.to_nat i); discriminate.
    + cbn [snd]. apply numbered_in. split; [lia|]. rewrite N.sub_0_r. exact H.
Qed.
Lemma child_of : forall e n i c, nth_error (children_named n e) (N.to_nat i) = Some c -> el_name c = n /\ is_element c = true /\ In c (el_children e).
Proof.
  intros e n i c H. apply nth_error_In in H. unfold children_named in H. apply filter_In in H as [J K]. destruct c as [m a cs|t|]; try discriminate.
  apply str_eqb_eq in K. cbn. auto.
Qed.

(** ** What the search appends *)
Lemma fold_both : forall (f : N * node -> found) l a, fold_left (fun acc ic => both acc (f ic)) l a =
  (fst a ++ flat_map (fun ic => fst (f ic)) l, snd a || existsb (fun ic => snd (f ic)) l).
Proof.
  intros f. induction l as [|ic l IH]; intro a; cbn [fold_left flat_map existsb].
  - rewrite app_nil_r, orb_false_r. destruct a; reflexivity.
  - rewrite IH. unfold both. cbn [fst snd]. rewrite <- app_assoc, orb_assoc. reflexivity.
Qed.
(** Below a node, for the tokens that remain. *)
Definition inner (ts : list token) (e : node) : found :=
  match ts with
  | [] => nothing
  | _ => both (query_attributes ts e ++ query_text ts e, false)
              (fold_left (fun acc ic => both acc (query_graph ts (fst ic) (snd ic))) (all_children e) nothing)
  end.
Lemma inner_eq : forall ts e, ts <> [] -> inner ts e =
  (query_attributes ts e ++ query_text ts e ++ flat_map (fun ic => fst (query_graph ts (fst ic) (snd ic))) (all_children e),
   existsb (fun ic => snd (query_graph ts (fst ic) (snd ic))) (all_children e)).
Proof.
  intros ts e NE. unfold inner. rewrite (fold_both (fun ic => query_graph ts (fst ic) (snd ic))). unfold both, nothing. destruct ts; [congruence|].
  cbn [fst snd orb app]. rewrite <- app_assoc. reflexivity.
Qed.
Lemma graph_field : forall n ts i e, regular ts -> query_graph (TField n :: ts) i e = if str_eqb (el_name e) n then append_node (label n i) (inner ts e) else nothing.
Proof. intros n ts i e R. cbn [query_graph]. destruct (str_eqb (el_name e) n); [|reflexivity]. inversion R; subst; reflexivity. Qed.
Lemma graph_indexed : forall n j ts i e, query_graph (TField n :: TIndex j :: ts) i e =
  if str_eqb (el_name e) n then if j =? i then append_node (label n i) (inner ts e) else nothing else nothing.
Proof.
  intros n j ts i e. cbn [query_graph]. destruct (str_eqb (el_name e) n); [|reflexivity]. cbn [query_attributes query_text app].
  destruct (j =? i); [|reflexivity]. destruct ts as [|t ts]; [reflexivity|]. set (q := both _ _). 
  replace (both ([], false) q) with q by (destruct q; reflexivity). reflexivity.
Qed.
Lemma graph_star : forall t ts i e, t = TStar \/ t = TStarIndex -> query_graph (t :: ts) i e = append_node (label (el_name e) i) (inner ts e).
Proof. intros t ts i e [-> | ->]; destruct ts; reflexivity. Qed.

(** Nothing is detached, and at most one node is appended, with the label of the element. *)
Lemma graph_one : forall ts, regular ts -> forall i e, snd (query_graph ts i e) = false /\
  (fst (query_graph ts i e) = [] \/ exists ts', regular ts' /\ fst (query_graph ts i e) = [Tree (label (el_name e) i) (fst (inner ts' e))]).
Proof.
  assert (IN : forall ts, (forall i e, snd (query_graph ts i e) = false) -> forall e, snd (inner ts e) = false).
  { intros ts H e. destruct ts as [|t ts]; [reflexivity|]. rewrite inner_eq by discriminate. cbn [snd]. induction (all_children e) as [|ic l IH]; [reflexivity|].
    cbn [existsb]. rewrite H, IH. reflexivity. }
  induction 1 as [|n ts R IH|n j ts R IH|ts R IH|ts R IH]; intros i e.
  - split; [reflexivity | left; reflexivity].
  - rewrite graph_field by exact R. destruct (str_eqb_spec (el_name e) n) as [<-|_]; [|split; [reflexivity | left; reflexivity]].
    unfold append_node. rewrite (IN ts (fun i e => proj1 (IH i e)) e). split; [reflexivity|]. right. exists ts. split; [exact R | reflexivity].
  - rewrite graph_indexed. destruct (str_eqb_spec (el_name e) n) as [<-|_]; [|split; [reflexivity | left; reflexivity]]. destruct (j =? i); [|split; [reflexivity | left; reflexivity]].
    unfold append_node. rewrite (IN ts (fun i e => proj1 (IH i e)) e). split; [reflexivity|]. right. exists ts. split; [exact R | reflexivity].
  - rewrite graph_star by auto. unfold append_node. rewrite (IN ts (fun i e => proj1 (IH i e)) e). split; [reflexivity|]. right. exists ts. split; [exact R | reflexivity].
  - rewrite graph_star by auto. unfold append_node. rewrite (IN ts (fun i e => proj1 (IH i e)) e). split; [reflexivity|]. right. exists ts. split; [exact R | reflexivity].
Qed.
Lemma inner_kept : forall ts e, regular ts -> snd (inner ts e) = false.
Proof.
  intros ts e R. destruct ts as [|t ts]; [reflexivity|]. rewrite inner_eq by discriminate. cbn [snd]. induction (all_children e) as [|ic l IH]; [reflexivity|].
  cbn [existsb]. rewrite (proj1 (graph_one _ R _ _)), IH. reflexivity.
Qed.

(** ** The ways found *)
Definition deep (ts : list token) : nat := length (filter (fun t => negb (is_index t)) ts).
(** Label lists from a forest. *)
Definition ways (f : list tree) : list (list str) := flat_map (leaves []) f.
Lemma leaves_above : forall t above, leaves above t = map (app above) (leaves [] t).
Proof.
  fix IH 1. intros [l kids] above. destruct kids as [|k kids]; [reflexivity|]. cbn [leaves].
  assert (forall ks a, flat_map (leaves (a ++ [l])) ks = map (app a) (flat_map (leaves ([] ++ [l])) ks)) as H; [|apply H].
  clear k kids. induction ks as [|k ks IHk]; intro a; [reflexivity|]. cbn [flat_map]. rewrite map_app, <- IHk. f_equal.
  rewrite (IH k (a ++ [l])), (IH k ([] ++ [l])), map_map. apply map_ext. intro p. cbn [app]. rewrite <- app_assoc. reflexivity.
Qed.
Lemma leaves_tree : forall l kids, leaves [] (Tree l kids) = match kids with [] => [[l]] | _ => map (cons l) (ways kids) end.
Proof.
  intros l [|k kids]; [reflexivity|]. unfold ways. cbn [leaves]. generalize (k :: kids) as ks. induction ks as [|t ks IH]; [reflexivity|].
  cbn [flat_map]. rewrite map_app, IH, leaves_above. reflexivity.
Qed.
Lemma ways_length : forall t p, In p (leaves [] t) -> p <> [].
Proof. intros [l [|k kids]] p J; rewrite leaves_tree in J; [destruct J as [<-|[]]; discriminate|]. apply in_map_iff in J as (q & <- & _). discriminate. Qed.

Section Found.
Variable text : node -> str.
Definition shown (l : list step) : list str := map show_step l.
Lemma label_show : forall n i, label n i = show_step (SElement n i).
Proof. reflexivity. Qed.
Lemma deep_pos : forall ts, regular ts -> ts <> [] -> (0 < deep ts)%nat.
Proof. intros ts R NE. destruct R; try congruence; unfold deep; cbn; lia. Qed.
Lemma text_nodes_iff : forall e, text_nodes e <> [] <-> has_text e.
Proof.
  intro e. unfold text_nodes, has_text. induction (el_children e) as [|c l IH]; cbn [flat_map].
  - split; [congruence | intros (t & [] & _)].
  - destruct c as [m a cs|[|d t]|]; cbn [app].
    + rewrite IH. split; intros (t & J & N); exists t; (split; [|exact N]); [right; exact J | destruct J as [J|J]; [discriminate | exact J]].
    + rewrite IH. split; intros (t & J & N); exists t; (split; [|exact N]); [right; exact J | destruct J as [J|J]; [injection J as <-; congruence | exact J]].
    + split; [intros _; exists (d :: t); split; [left; reflexivity | discriminate] | discriminate].
    + rewrite IH. split; intros (t & J & N); exists t; (split; [|exact N]); [right; exact J | destruct J as [J|J]; [discriminate | exact J]].
Qed.

(** Soundness and completeness together: the label lists of full depth. *)
Definition P (ts : list token) : Prop := forall i e, is_element e = true -> proper_names e -> forall p, length p = deep ts ->
  (In p (ways (fst (query_graph ts i e))) <-> exists l r, stands_for ts (SElement (el_name e) i :: l) /\ below text e l r /\ p = shown (SElement (el_name e) i :: l)).
Definition Q (ts : list token) : Prop := forall e, is_element e = true -> proper_names e -> forall p, p <> [] -> length p = deep ts ->
  (In p (ways (fst (inner ts e))) <-> exists l r, stands_for ts l /\ below text e l r /\ p = shown l).
Lemma ways_app : forall f g, ways (f ++ g) = ways f ++ ways g.
Proof. intros f g. unfold ways. apply flat_map_app. Qed.
Lemma ways_flat : forall A (f : A -> list tree) l p, In p (ways (flat_map f l)) <-> exists a, In a l /\ In p (ways (f a)).
Proof.
  intros A f l p. induction l as [|a l IH]; cbn [flat_map]; [split; [intros [] | intros (a & [] & _)]|]. rewrite ways_app, in_app_iff, IH. split.
  - intros [H|(b & J & H)]; [exists a | exists b]; (split; [|exact H]); [left; reflexivity | right; exact J].
  - intros (b & [<-|J] & H); [left; exact H | right; exists b; auto].
Qed.
Lemma proper_child : forall e c, proper_names e -> In c (el_children e) -> proper_names c.
Proof. intros e c Pe J. destruct Pe as [| |n ats cs H1 H2 H3 H4]; cbn in J; [destruct J | destruct J | apply H4, J]. Qed.
Lemma P_Q : forall ts, regular ts -> P ts -> Q ts.
Proof.
  intros ts R HP e El Pe p NE Lp. destruct ts as [|t ts]. { cbn in Lp. destruct p; [congruence | discriminate]. }
  rewrite inner_eq by discriminate. cbn [fst]. rewrite !ways_app, !in_app_iff, ways_flat.
  assert (IG : length p = 1%nat -> (forall n, t = TField n -> ignored ts)).
  { intros L1 n ->. rewrite L1 in Lp. inversion R as [|n0 ts0 R0|n0 i0 ts0 R0| |]; subst.
    - destruct ts as [|t' ts]; [left; reflexivity|]. pose proof (deep_pos (t' :: ts) R0 ltac:(discriminate)) as D. change (deep (TField n :: t' :: ts)) with (S (deep (t' :: ts))) in Lp. lia.
    - right. exists i0. destruct ts0 as [|t' ts]; [reflexivity|]. pose proof (deep_pos (t' :: ts) R0 ltac:(discriminate)) as D. change (deep (TField n :: TIndex i0 :: t' :: ts)) with (S (deep (t' :: ts))) in Lp. lia. }
  assert (A : In p (ways (query_attributes (t :: ts) e)) <-> exists n v, t = TField (S_ "@" ++ n) /\ ignored ts /\ obj_get n (el_attributes e) = Some v /\ p = [S_ "@" ++ n]).
  { unfold query_attributes. destruct t as [|[|c n]|i| |]; try (split; [intros [] | intros (n' & v & Z & _); discriminate]).
    destruct (N.eqb_spec c 64) as [->|NC]; cbn [andb].
    - destruct (obj_get n (el_attributes e)) as [v|] eqn:G.
      + cbn [ways flat_map leaves app In]. split.
        * intros [<-|[]]. exists n, v. split; [reflexivity|]. split; [eapply IG; reflexivity|]. split; [exact G | reflexivity].
        * intros (n' & v' & Z & _ & G' & ->). injection Z as ->. left. reflexivity.
      + split; [intros [] | intros (n' & v' & Z & _ & G' & _)]. injection Z as ->. rewrite G in G'. discriminate.
    - split; [intros [] | intros (n' & v' & Z & _)]. injection Z as Z _. contradiction. }
  assert (B : In p (ways (query_text (t :: ts) e)) <-> t = TField (S_ "#text") /\ ignored ts /\ has_text e /\ p = [S_ "#text"]).
  { unfold query_text. destruct t as [|n|i| |]; try (split; [intros [] | intros (Z & _); discriminate]).
    destruct (str_eqb_spec n (S_ "#text")) as [->|NC]; cbn [andb].
    - pose proof (text_nodes_iff e) as TN. destruct (text_nodes e) as [|y ys].
      + split; [intros [] | intros (_ & _ & H & _)]. apply TN in H. congruence.
      + cbn [ways flat_map leaves app In]. split.
        * intros [<-|[]]. split; [reflexivity|]. split; [eapply IG; reflexivity|]. split; [apply TN; discriminate | reflexivity].
        * intros (_ & _ & _ & ->). left. reflexivity.
    - split; [intros [] | intros (Z & _)]. injection Z as Z. contradiction. }
  rewrite A, B. clear A B. split.
  - intros [(n & v & -> & Ig & G & ->)|[(-> & Ig & H & ->)|([i c] & J & H)]].
    + exists [SAttribute n], (AttributeNode n v). split; [constructor; exact Ig|]. split; [constructor; exact G | reflexivity].
    + exists [SText], (TextNode (text e)). split; [constructor; exact Ig|]. split; [constructor; exact H | reflexivity].
    + apply all_children_in in J as [J Ec]. cbn [fst snd] in H. destruct (child_of _ _ _ _ J) as (_ & _ & Jc).
      apply (HP i c Ec (proper_child e c Pe Jc) p Lp) in H as (l & r & SF & BL & ->). exists (SElement (el_name c) i :: l), r. split; [exact SF|]. split; [|reflexivity].
      exact (bl_child text e (el_name c) i c l r J BL).
  - intros (l & r & SF & BL & ->). destruct BL as [e|e n v G|e H|e n i c l r J BL].
    + cbn in NE. congruence.
    + left. exists n, v. inversion SF; subst. auto.
    + right. left. inversion SF; subst. auto.
    + right. right. exists (i, c). destruct (child_of _ _ _ _ J) as (En & Ec & Jc). subst n. split; [apply all_children_in; split; assumption|]. cbn [fst snd].
      apply (HP i c Ec (proper_child e c Pe Jc) _ Lp). exists l, r. auto.
Qed.
Lemma stands_deep : forall ts l, stands_for ts l -> length (shown l) = deep ts.
Proof.
  induction 1 as [|n i ts l H IH|n i ts l H IH|n i ts l H IH|n i ts l H IH|n ts Ig|ts Ig]; unfold deep, shown in *; cbn [map length filter is_index negb] in *; try (rewrite IH; reflexivity); try reflexivity.
  - destruct Ig as [-> |[i ->]]; reflexivity.
  - destruct Ig as [-> |[i ->]]; reflexivity.
Qed.
Lemma append_ways : forall ts e lab p, regular ts -> Q ts -> is_element e = true -> proper_names e -> length p = S (deep ts) ->
  (In p (ways (fst (append_node lab (inner ts e)))) <-> exists l r, stands_for ts l /\ below text e l r /\ p = lab :: shown l).
Proof.
  intros ts e lab p R HQ El Pe Lp. unfold append_node. rewrite (inner_kept ts e R). cbn [fst ways flat_map]. rewrite app_nil_r, leaves_tree.
  destruct ts as [|t ts].
  - cbn [inner nothing fst]. split.
    + intros [<-|[]]. exists [], (ElementNode e). split; [constructor|]. split; [constructor | reflexivity].
    + intros (l & r & SF & BL & ->). inversion SF; subst. left. reflexivity.
  - assert (D := deep_pos (t :: ts) R ltac:(discriminate)).
    assert (forall q, q <> [] -> length q = deep (t :: ts) -> (In q (ways (fst (inner (t :: ts) e))) <-> exists l r, stands_for (t :: ts) l /\ below text e l r /\ q = shown l)) as H by (intros q N L; apply HQ; assumption).
    destruct p as [|y q]; [discriminate|]. injection Lp as Lq. assert (q <> []) as NE by (destruct q; [cbn [length] in Lq; lia | discriminate]). specialize (H q NE Lq).
    destruct (fst (inner (t :: ts) e)) as [|k ks] eqn:E.
    + split.
      * intros [Z|[]]. injection Z as _ <-. congruence.
      * intros (l & r & SF & BL & Z). injection Z as _ ->. exfalso. apply (proj2 H). exists l, r. auto.
    + rewrite in_map_iff. split.
      * intros (q' & Z & J). injection Z as <- <-. apply H in J as (l & r & SF & BL & ->). exists l, r. auto.
      * intros (l & r & SF & BL & Z). injection Z as -> ->. exists (shown l). split; [reflexivity|]. apply H. exists l, r. auto.
Qed.
Lemma not_special : forall e n, is_element e = true -> proper_names e -> el_name e <> S_ "@" ++ n /\ el_name e <> S_ "#text".
Proof.
  intros e n El Pe. destruct Pe as [| |m ats cs X _ _ _]; try discriminate. cbn [el_name]. destruct X as (_ & _ & _ & X). split; intro Z; rewrite Z in X.
  - destruct (X _ _ eq_refl) as [X1 _]. apply X1. reflexivity.
  - destruct (X _ _ eq_refl) as [_ X1]. apply X1. reflexivity.
Qed.
Theorem graph_ways : forall ts, regular ts -> ts <> [] -> P ts.
Proof.
  assert (Qnil : Q []) by (intros e El Pe p NE Lp; cbn in Lp; destruct p; [congruence | discriminate]).
  assert (QQ : forall ts, regular ts -> (ts <> [] -> P ts) -> Q ts).
  { intros ts R H. destruct ts as [|t ts]; [exact Qnil|]. apply P_Q; [exact R|]. apply H. discriminate. }
  induction 1 as [|n ts R IH|n j ts R IH|ts R IH|ts R IH]; intro NE; [congruence| | | |]; intros i e El Pe p Lp; pose proof (QQ ts R IH) as HQ.
  - rewrite graph_field by exact R. destruct (str_eqb_spec (el_name e) n) as [<-|Nn].
    + rewrite (append_ways ts e _ p R HQ El Pe); [|exact Lp]. split; intros (l & r & SF & BL & ->).
      * exists l, r. split; [constructor; exact SF|]. split; [exact BL | reflexivity].
      * exists l, r. split; [|split; [exact BL | reflexivity]]. inversion SF; subst; try assumption. exfalso. inversion R.
    + split; [intros []|]. intros (l & r & SF & BL & ->). exfalso. inversion SF; subst; congruence.
  - rewrite graph_indexed. destruct (str_eqb_spec (el_name e) n) as [<-|Nn].
    + destruct (N.eqb_spec j i) as [->|Nj].
      * rewrite (append_ways ts e _ p R HQ El Pe); [|exact Lp]. split; intros (l & r & SF & BL & ->).
        -- exists l, r. split; [apply sf_indexed; exact SF|]. split; [exact BL | reflexivity].
        -- exists l, r. split; [|split; [exact BL | reflexivity]]. inversion SF as [|? ? ? ? Z| | | | |]; subst; try assumption. inversion Z.
      * split; [intros []|]. intros (l & r & SF & BL & ->). exfalso. inversion SF as [|? ? ? ? Z| | | | |]; subst; [inversion Z | congruence].
    + split; [intros []|]. intros (l & r & SF & BL & ->). exfalso. inversion SF; subst; congruence.
  - rewrite graph_star by auto. rewrite (append_ways ts e _ p R HQ El Pe); [|exact Lp]. split; intros (l & r & SF & BL & ->).
    + exists l, r. split; [constructor; exact SF|]. split; [exact BL | reflexivity].
    + exists l, r. split; [|split; [exact BL | reflexivity]]. inversion SF; subst; assumption.
  - rewrite graph_star by auto. rewrite (append_ways ts e _ p R HQ El Pe); [|exact Lp]. split; intros (l & r & SF & BL & ->).
    + exists l, r. split; [constructor; exact SF|]. split; [exact BL | reflexivity].
    + exists l, r. split; [|split; [exact BL | reflexivity]]. inversion SF; subst; assumption.
Qed.
Lemma pointer_join : forall l, l <> [] -> join_with [47] ([] :: shown l) = pointer l.
Proof.
  intros l. assert (H : forall l s, join_with [47] (s :: shown l) = s ++ pointer l).
  { clear l. induction l as [|a l IH]; intro s; [cbn; rewrite app_nil_r; reflexivity|]. cbn [shown map] in *. unfold shown in IH.
    change (join_with [47] (s :: show_step a :: map show_step l)) with (s ++ [47] ++ join_with [47] (show_step a :: map show_step l)). rewrite IH. reflexivity. }
  intros _. apply H.
Qed.
Lemma show_nonempty : forall s, show_step s <> [].
Proof. intros [n i|n|] Z; try discriminate. cbn [show_step] in Z. apply app_eq_nil in Z as [_ Z]. discriminate. Qed.

(** The pointers of an expression are exactly those of the ways it stands for that lead somewhere. *)
Theorem C108_pointers : forall e expression ts s, is_element e = true -> proper_names e ->
  path_tokens expression = TRoot :: ts -> regular ts ->
  (In s (resolve_path e expression) <-> exists l r, stands_for ts l /\ leads_to text e l r /\ s = pointer l).
Proof.
  intros e ex ts s El Pe Et R. unfold resolve_path. rewrite Et. cbn [query_graph]. cbv zeta.
  change (length (filter (fun t => negb (is_index t)) (TRoot :: ts))) with (S (deep ts)). rewrite leaves_tree, in_map_iff.
  assert (F : forall p, In p (filter (fun p => (match last p [] with [] => false | _ => true end) && Nat.eqb (length p) (S (deep ts)))
      (match fst (query_graph ts 0 e) with [] => [[[]]] | _ => map (cons []) (ways (fst (query_graph ts 0 e))) end)) <->
      exists l r, stands_for ts l /\ leads_to text e l r /\ p = [] :: shown l).
  { intro p. rewrite filter_In, andb_true_iff, Nat.eqb_eq. destruct ts as [|t ts].
    - cbn [query_graph nothing fst]. split.
      + intros [[<-|[]] [Z _]]. discriminate.
      + intros (l & r & SF & (l' & -> & _) & _). inversion SF.
    - pose proof (graph_ways (t :: ts) R ltac:(discriminate) 0 e El Pe) as H. split.
      + intros [J [_ L]]. destruct (fst (query_graph (t :: ts) 0 e)) as [|k ks] eqn:E.
        { destruct J as [<-|[]]. cbn [length] in L. pose proof (deep_pos (t :: ts) R ltac:(discriminate)). lia. }
        rewrite <- E in *. apply in_map_iff in J as (q & <- & J). injection L as L. apply (H q L) in J as (l & r & SF & BL & ->).
        exists (SElement (el_name e) 0 :: l), r. split; [exact SF|]. split; [exists l; auto | reflexivity].
      + intros (l & r & SF & (l' & -> & BL) & ->). pose proof (stands_deep _ _ SF) as L. split; [|split].
        * assert (In (shown (SElement (el_name e) 0 :: l')) (ways (fst (query_graph (t :: ts) 0 e)))) as J by (apply (H _ L); exists l', r; auto).
          destruct (fst (query_graph (t :: ts) 0 e)) as [|k ks] eqn:E; [destruct J|]. apply in_map. exact J.
        * destruct (@exists_last _ (SElement (el_name e) 0 :: l') ltac:(discriminate)) as (l1 & a & E). rewrite E. unfold shown. rewrite map_app. cbn [map].
          rewrite app_comm_cons, last_last. pose proof (show_nonempty a). destruct (show_step a); congruence.
        * exact (f_equal Datatypes.S L). }
  split.
  - intros (p & <- & J). apply F in J as (l & r & SF & LT & ->). exists l, r. split; [exact SF|]. split; [exact LT|]. apply pointer_join. destruct LT as (l' & -> & _). discriminate.
  - intros (l & r & SF & LT & ->). exists ([] :: shown l). split; [apply pointer_join; destruct LT as (l' & -> & _); discriminate|]. apply F. exists l, r. auto.
Qed.
End Found.
