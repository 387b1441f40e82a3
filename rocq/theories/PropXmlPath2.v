(** C108, continued: no pointer twice, pointers lead back to what they were found for. *)
From Coq Require Import Ascii String List Arith NArith ZArith Lia Bool Sorted.
From Verif Require Import Base PathExp Json Text TextProofs XmlPath SpecXmlPath PropXmlPath RulesV2.
Import ListNotations.
Open Scope N_scope.
Local Opaque show_N.

(** ** Labels *)
Lemma app_cut : forall (c : N) a b s t, ~ In c a -> ~ In c b -> a ++ c :: s = b ++ c :: t -> a = b /\ s = t.
Proof.
  intros c. induction a as [|x a IH]; intros [|y b] s t Ha Hb H; cbn in H; injection H.
  - intros ->. auto.
  - intros _ <-. exfalso. apply Hb. left. reflexivity.
  - intros _ ->. exfalso. apply Ha. left. reflexivity.
  - intros H' <-. destruct (IH b s t) as [-> ->]; auto; intro J; [apply Ha | apply Hb]; right; exact J.
Qed.
Lemma label_inj : forall n m i j, ~ In 91 n -> ~ In 91 m -> label n i = label m j -> n = m /\ i = j.
Proof.
  intros n m i j Hn Hm H. unfold label in H. cbn [app] in H. apply app_cut in H as [-> H]; [|assumption..]. split; [reflexivity|].
  apply app_inv_tail in H. exact (show_N_inj _ _ H).
Qed.
Lemma name_ok : forall e, is_element e = true -> proper_names e -> xml_name (el_name e).
Proof. intros e El Pe. destruct Pe as [| |n ats cs H1 H2 H3 H4]; [discriminate | discriminate | exact H1]. Qed.
Lemma proper_below : forall e c, proper_names e -> In c (el_children e) -> proper_names c.
Proof. intros e c Pe J. destruct Pe as [| |n ats cs H1 H2 H3 H4]; cbn in J; [destruct J | destruct J | apply H4, J]. Qed.
Lemma numbered_nodup : forall A (l : list A) i, NoDup (map fst (numbered i l)).
Proof.
  induction l as [|a l IH]; intro i; cbn [numbered map]; [constructor|]. constructor; [|apply IH]. cbn [fst]. intro J. apply in_map_iff in J as ([j v] & E & J).
  apply numbered_in in J as [L _]. cbn in E. lia.
Qed.
Lemma all_children_nodup : forall e, NoDup (map (fun ic => (fst ic, el_name (snd ic))) (all_children e)).
Proof.
  intro e. unfold all_children. pose proof (groups_nodup e) as ND.
  assert (H : forall n l, In (n, l) (group_children e) -> forall c, In c l -> el_name c = n).
  { intros n l J c K. apply groups_in in J as [-> _]. rewrite children_named_eq in K. apply filter_In in K as [_ K]. apply str_eqb_eq in K. exact K. }
  induction (group_children e) as [|[n l] g IH]; [constructor|]. cbn [flat_map]. rewrite map_app. cbn [keys map fst] in ND. inversion ND as [|? ? N1 N2]; subst.
  apply nodup_app; [|apply IH; [exact N2 | intros m k J; apply (H m k); right; exact J]|].
  - cbn [snd]. apply (NoDup_map_inv fst). rewrite map_map. cbn [fst]. apply numbered_nodup.
  - intros [i m] J K. apply in_map_iff in J as ([i1 c1] & E1 & J). apply in_map_iff in K as ([i2 c2] & E2 & K). cbn [fst snd] in E1, E2, J.
    injection E1 as -> E1. injection E2 as -> E2. apply numbered_in in J as [_ J]. apply nth_error_In in J. apply (H n l (or_introl eq_refl)) in J.
    apply in_flat_map in K as ([m2 l2] & K1 & K2). cbn [snd] in K2. apply numbered_in in K2 as [_ K2]. apply nth_error_In in K2. apply (H m2 l2 (or_intror K1)) in K2.
    apply N1. apply in_map_iff. exists (m2, l2). split; [cbn; congruence | exact K1].
Qed.
Lemma nodup_flat : forall A B (f : A -> list B) l, (forall a, In a l -> NoDup (f a)) -> NoDup l ->
  (forall a b y, In a l -> In b l -> In y (f a) -> In y (f b) -> a = b) -> NoDup (flat_map f l).
Proof.
  intros A B f. induction l as [|a l IH]; intros H1 H2 H3; cbn [flat_map]; [constructor|]. inversion H2 as [|? ? N1 N2]; subst. apply nodup_app.
  - apply H1. left. reflexivity.
  - apply IH; [intros b J; apply H1; right; exact J | exact N2 | intros b c y Jb Jc; apply H3; right; assumption].
  - intros y Ja Jb. apply in_flat_map in Jb as (b & Jb & Jy). assert (a = b) by (apply (H3 a b y); [left; reflexivity | right; exact Jb | exact Ja | exact Jy]). subst. contradiction.
Qed.
Lemma graph_starts : forall ts, regular ts -> forall i e p, In p (ways (fst (query_graph ts i e))) -> exists q, p = label (el_name e) i :: q.
Proof.
  intros ts R i e p J. destruct (graph_one ts R i e) as [_ [E|(ts' & _ & E)]]; rewrite E in J; [destruct J|].
  unfold ways in J. cbn [flat_map] in J. rewrite app_nil_r, leaves_tree in J. destruct (fst (inner ts' e)) as [|k ks].
  - destruct J as [<-|[]]. exists []. reflexivity.
  - apply in_map_iff in J as (q & <- & _). exists q. reflexivity.
Qed.
Lemma ways_flat_map : forall A (f : A -> list tree) l, ways (flat_map f l) = flat_map (fun a => ways (f a)) l.
Proof. intros A f. induction l as [|a l IH]; [reflexivity|]. cbn [flat_map]. rewrite ways_app, IH. reflexivity. Qed.
Lemma inner_nodup : forall ts, regular ts -> (forall i e, is_element e = true -> proper_names e -> NoDup (ways (fst (query_graph ts i e)))) ->
  forall e, is_element e = true -> proper_names e -> NoDup (ways (fst (inner ts e))).
Proof.
  intros ts R H e El Pe. destruct ts as [|t ts]; [constructor|]. rewrite inner_eq by discriminate. cbn [fst]. rewrite !ways_app, ways_flat_map.
  assert (CH : forall i c, In (i, c) (all_children e) -> is_element c = true /\ proper_names c).
  { intros i c J. apply all_children_in in J as [J Ec]. split; [exact Ec|]. destruct (child_of _ _ _ _ J) as (_ & _ & Jc). exact (proper_below e c Pe Jc). }
  assert (CD : NoDup (flat_map (fun ic => ways (fst (query_graph (t :: ts) (fst ic) (snd ic)))) (all_children e))).
  { apply nodup_flat.
    - intros [i c] J. destruct (CH i c J) as [Ec Pc]. apply H; assumption.
    - apply (NoDup_map_inv (fun ic => (fst ic, el_name (snd ic)))). apply all_children_nodup.
    - intros [i c] [j d] p Jc Jd Kc Kd. cbn [fst snd] in *. destruct (CH i c Jc) as [Ec Pc]. destruct (CH j d Jd) as [Ed Pd].
      apply (graph_starts _ R) in Kc as (q & ->). apply (graph_starts _ R) in Kd as (q' & E). injection E as E _.
      apply label_inj in E as [E1 E2]; [|apply name_ok; assumption..]. subst j.
      pose proof (all_children_in e i c) as A. pose proof (all_children_in e i d) as B. apply A in Jc as [Jc _]. apply B in Jd as [Jd _]. rewrite E1 in Jc. congruence. }
  assert (EL : forall p, In p (flat_map (fun ic => ways (fst (query_graph (t :: ts) (fst ic) (snd ic)))) (all_children e)) -> exists c s q, p = (c :: s) :: q /\ c <> 64 /\ c <> 35).
  { intros p J. apply in_flat_map in J as ([i c] & Jc & J). apply (graph_starts _ R) in J as (q & ->). destruct (CH i c Jc) as [Ec Pc]. destruct (name_ok c Ec Pc) as (NE & _ & _ & X).
    cbn [snd fst]. unfold label. destruct (el_name c) as [|x s]; [congruence|]. exists x. eexists. exists q. split; [reflexivity | exact (X x s eq_refl)]. }
  assert (AT : forall p, In p (ways (query_attributes (t :: ts) e)) -> exists s, p = [64 :: s]).
  { intros p. unfold query_attributes. destruct t as [|[|c n]|i| |]; try (intros []). destruct (N.eqb_spec c 64) as [->|_]; [|intros []]. destruct (obj_get n (el_attributes e)); [|intros []].
    cbn [andb ways flat_map leaves app]. intros [<-|[]]. exists n. reflexivity. }
  assert (TX : forall p, In p (ways (query_text (t :: ts) e)) -> p = [S_ "#text"]).
  { intros p. unfold query_text. destruct t as [|n|i| |]; try (intros []). destruct (str_eqb_spec n (S_ "#text")) as [->|_]; [|intros []]. destruct (text_nodes e); [intros []|].
    cbn [andb ways flat_map leaves app]. intros [<-|[]]. reflexivity. }
  apply nodup_app; [|apply nodup_app; [|exact CD|]|].
  - unfold query_attributes. destruct t as [|[|c n]|i| |]; try constructor. destruct ((c =? 64) && _); [|constructor]. cbn. constructor; [intros [] | constructor].
  - unfold query_text. destruct t as [|n|i| |]; try constructor. destruct (str_eqb n (S_ "#text") && _); [|constructor]. cbn [ways flat_map leaves app]. constructor; [intros [] | constructor].
  - intros p J K. apply TX in J. apply EL in K as (c & s & q & -> & _ & N35). injection J as -> _ _. apply N35. reflexivity.
  - intros p J K. apply AT in J as (s & ->). apply in_app_or in K as [K|K].
    + apply TX in K. discriminate.
    + apply EL in K as (c & s' & q & E & N64 & _). injection E as <- _ _. apply N64. reflexivity.
Qed.
Lemma append_nodup : forall lab ts e, regular ts -> NoDup (ways (fst (inner ts e))) -> NoDup (ways (fst (append_node lab (inner ts e)))).
Proof.
  intros lab ts e R H. unfold append_node. rewrite (inner_kept ts e R). cbn [fst ways flat_map]. rewrite app_nil_r, leaves_tree.
  destruct (fst (inner ts e)) as [|k ks]; [constructor; [intros [] | constructor]|]. apply FinFun.Injective_map_NoDup; [|exact H]. intros p q E. injection E as E. exact E.
Qed.
Lemma graph_nodup : forall ts, regular ts -> forall i e, is_element e = true -> proper_names e -> NoDup (ways (fst (query_graph ts i e))).
Proof.
  induction 1 as [|n ts R IH|n j ts R IH|ts R IH|ts R IH]; intros i e El Pe; pose proof (fun ts R IH => inner_nodup ts R IH e El Pe) as HI.
  - constructor.
  - rewrite graph_field by exact R. destruct (str_eqb (el_name e) n); [apply append_nodup; [exact R | exact (HI ts R IH)] | constructor].
  - rewrite graph_indexed. destruct (str_eqb (el_name e) n); [|constructor]. destruct (j =? i); [apply append_nodup; [exact R | exact (HI ts R IH)] | constructor].
  - rewrite graph_star by auto. apply append_nodup; [exact R | exact (HI ts R IH)].
  - rewrite graph_star by auto. apply append_nodup; [exact R | exact (HI ts R IH)].
Qed.
Lemma nodup_filter : forall A (f : A -> bool) l, NoDup l -> NoDup (filter f l).
Proof. intros A f. induction 1 as [|a l H1 H2 IH]; cbn; [constructor|]. destruct (f a); [constructor; [rewrite filter_In; tauto | exact IH] | exact IH]. Qed.
Lemma nodup_map_on : forall A B (f : A -> B) l, (forall a b, In a l -> In b l -> f a = f b -> a = b) -> NoDup l -> NoDup (map f l).
Proof.
  intros A B f. induction l as [|a l IH]; intros H ND; cbn; [constructor|]. inversion ND as [|? ? N1 N2]; subst. constructor.
  - intro J. apply in_map_iff in J as (b & E & J). assert (a = b) by (apply H; [left; reflexivity | right; exact J | congruence]). subst. contradiction.
  - apply IH; [intros b c Jb Jc; apply H; right; assumption | exact N2].
Qed.
Lemma no_slash_digits : forall n, ~ In 47 (show_N n).
Proof. intros n J. pose proof (show_N_digits n) as D. unfold all_digits in D. rewrite forallb_forall in D. specialize (D 47 J). discriminate. Qed.
Lemma show_no_slash : forall text e l r, proper_names e -> below text e l r -> Forall (fun s => ~ In 47 s) (shown l).
Proof.
  intros text e l r Pe BL. induction BL as [e|e n v G|e H|e n i c l r J BL IH]; unfold shown; cbn [map].
  - constructor.
  - constructor; [|constructor]. cbn [show_step]. intro K. apply in_app_or in K as [[K|[]]|K]; [discriminate|]. destruct Pe as [| |m ats cs H1 H2 H3 H4]; try discriminate.
    cbn [el_attributes] in G. apply obj_get_in in G. exact (H2 n v G K).
  - constructor; [|constructor]. cbn. intros [K|[K|[K|[K|[K|[]]]]]]; discriminate.
  - destruct (child_of _ _ _ _ J) as (En & Ec & Jc). pose proof (proper_below e c Pe Jc) as Pc. constructor; [|exact (IH Pc)]. destruct (name_ok c Ec Pc) as (_ & NS & _). subst n.
    cbn [show_step]. rewrite !in_app_iff. intros [K|[[K|[]]|[K|[K|[]]]]]; [exact (NS K) | discriminate | exact (no_slash_digits i K) | discriminate].
Qed.
Lemma leads_no_slash : forall text e l r, is_element e = true -> proper_names e -> leads_to text e l r -> Forall (fun s => ~ In 47 s) (shown l).
Proof.
  intros text e l r El Pe (l' & -> & BL). unfold shown. cbn [map]. constructor; [|exact (show_no_slash text e l' r Pe BL)]. destruct (name_ok e El Pe) as (_ & NS & _).
  cbn [show_step]. rewrite !in_app_iff. intros [K|[[K|[]]|[K|[K|[]]]]]; [exact (NS K) | discriminate | exact (no_slash_digits 0 K) | discriminate].
Qed.
(** No pointer is found twice. *)
Theorem C108_no_pointer_twice : forall e expression ts, is_element e = true -> proper_names e ->
  path_tokens expression = TRoot :: ts -> regular ts -> NoDup (resolve_path e expression).
Proof.
  intros e ex ts El Pe Et R. unfold resolve_path. rewrite Et. cbn [query_graph]. cbv zeta. rewrite leaves_tree.
  change (length (filter (fun t => negb (is_index t)) (TRoot :: ts))) with (Datatypes.S (deep ts)).
  match goal with |- NoDup (map _ (filter ?g _)) => set (f := g) end.
  assert (NW : NoDup (match fst (query_graph ts 0 e) with [] => [[[]]] | _ => map (cons []) (ways (fst (query_graph ts 0 e))) end : list (list str))).
  { destruct (fst (query_graph ts 0 e)) as [|k ks] eqn:E; [constructor; [intros [] | constructor]|]. rewrite <- E. apply FinFun.Injective_map_NoDup; [intros p q Z; injection Z as Z; exact Z|]. apply graph_nodup; assumption. }
  assert (SH : forall p, In p (filter f (match fst (query_graph ts 0 e) with [] => [[[]]] | _ => map (cons []) (ways (fst (query_graph ts 0 e))) end)) -> p <> [] /\ Forall (fun s => ~ In 47 s) p).
  { intros p J. apply filter_In in J as [J F]. subst f. cbv beta in F. apply andb_true_iff in F as [_ L]. apply Nat.eqb_eq in L.
    destruct (fst (query_graph ts 0 e)) as [|k ks] eqn:E.
    - destruct J as [<-|[]]. split; [discriminate|]. constructor; [intros []|constructor].
    - rewrite <- E in J. apply in_map_iff in J as (q & <- & J). split; [discriminate|]. constructor; [intros []|]. injection L as L.
      assert (ts <> []) as NE by (intros ->; discriminate). apply (graph_ways el_name ts R NE 0 e El Pe q L) in J as (l & r & SF & BL & ->).
      apply (leads_no_slash el_name e _ r El Pe). exists l. split; [reflexivity | exact BL]. }
  apply nodup_map_on; [|apply nodup_filter; exact NW]. intros p q Jp Jq E. apply SH in Jp as [P1 P2]. apply SH in Jq as [Q1 Q2].
  rewrite <- (split_join 47 p P1 P2), <- (split_join 47 q Q1 Q2), E. reflexivity.
Qed.

(** ** Following a pointer *)
Section Follow.
Variables (uni_word uni_digit : N -> bool) (text : node -> str).
Notation word := (is_word uni_word).
Lemma span_all : forall (p : N -> bool) a c s, forallb p a = true -> p c = false -> span p (a ++ c :: s) = (a, c :: s).
Proof.
  intros p. induction a as [|x a IH]; intros c s H1 H2; cbn [app span].
  - rewrite H2. reflexivity.
  - cbn in H1. apply andb_true_iff in H1 as [Hx H1]. rewrite Hx, (IH c s H1 H2). reflexivity.
Qed.
Lemma digits_number : forall n, forallb (is_number uni_digit) (show_N n) = true.
Proof.
  intro n. pose proof (show_N_digits n) as D. unfold all_digits in D. rewrite forallb_forall in D |- *. intros c J. unfold is_number. rewrite (D c J). reflexivity.
Qed.
Lemma captures_label : forall n i, n <> [] -> forallb word n = true -> captures uni_word uni_digit (label n i) = Some (n, show_N i).
Proof.
  intros n i NE W. assert (H : match_here uni_word uni_digit (label n i) = Some (n, show_N i)).
  { unfold match_here, label. change ([91] ++ show_N i ++ [93]) with (91 :: (show_N i ++ [93])). rewrite (span_all word n 91 _ W) by reflexivity.
    destruct n as [|x n]; [congruence|]. replace (91 =? 91) with true by reflexivity. rewrite (span_all _ (show_N i) 93 [] (digits_number i)) by reflexivity.
    pose proof (show_N_nonempty i) as SN. destruct (show_N i) as [|d ds]; [congruence|]. reflexivity. }
  destruct (label n i) as [|c s] eqn:E; cbn [captures]; rewrite H; reflexivity.
Qed.
Lemma index_show : forall i, i < two64 -> index_of (show_N i) = i.
Proof. intros i L. unfold index_of. rewrite (parse_usize_show i L). reflexivity. Qed.
Lemma word_child : forall e c, word_names word e -> In c (el_children e) -> word_names word c.
Proof. intros e c We J. destruct We as [| |n ats cs H1 H2 H3]; cbn in J; [destruct J | destruct J | apply H3, J]. Qed.
Lemma few : forall e n i c, word_names word e -> nth_error (children_named n e) (N.to_nat i) = Some c -> i < two64.
Proof.
  intros e n i c We H. assert (N.to_nat i < length (children_named n e))%nat as L by (apply nth_error_Some; congruence).
  assert (F : forall f (l : list node), (length (filter f l) <= length l)%nat).
  { intros f. induction l as [|y l IHl]; cbn; [lia|]. destruct (f y); cbn; lia. }
  unfold children_named in L. match type of L with (_ < length (filter ?f ?l))%nat => pose proof (F f l) end. 
  destruct We as [| |m ats cs H1 H2 H3]; cbn [el_children filter length] in *; [lia | lia|]. lia.
Qed.
Lemma follow : forall e l r, proper_names e -> word_names word e -> (forall d, has_text d -> text d <> []) -> below text e l r -> l <> [] ->
  match_next uni_word uni_digit text (shown l) e = Some r.
Proof.
  intros e l r Pe We TO BL. induction BL as [e|e n v G|e H|e n i c l r J BL IH]; intro NE; [congruence|..].
  - cbn. rewrite G. reflexivity.
  - unfold shown. cbn [map show_step]. specialize (TO e H). cbn [match_next S_]. replace (_ =? 64) with false by reflexivity.
    replace (str_eqb _ _) with true by reflexivity. destruct (text e); [congruence | reflexivity].
  - destruct (child_of _ _ _ _ J) as (En & Ec & Jc). pose proof (proper_below e c Pe Jc) as Pc. pose proof (word_child e c We Jc) as Wc.
    destruct (name_ok c Ec Pc) as (NN & _ & _ & X). subst n.
    assert (Wn : forallb word (el_name c) = true) by (destruct Wc as [| |m ats cs W1 W2 W3]; [reflexivity | reflexivity | exact W1]).
    unfold shown. cbn [map]. rewrite <- label_show.
    pose proof (captures_label (el_name c) i NN Wn) as CL.
    destruct (label (el_name c) i) as [|x s] eqn:EL. { unfold label in EL. apply app_eq_nil in EL as [_ EL]. discriminate. }
    assert (x <> 64 /\ x <> 35) as [X1 X2]. { unfold label in EL. destruct (el_name c) as [|y m]; [congruence|]. injection EL as -> _. exact (X x m eq_refl). }
    cbn [match_next]. destruct (N.eqb_spec x 64) as [Z|_]; [contradiction|].
    destruct (str_eqb_spec (x :: s) (S_ "#text")) as [Z|_]. { exfalso. injection Z as Z _. apply X2, Z. }
    rewrite CL, groups_get. pose proof (few e (el_name c) i c We J) as F. rewrite (index_show i F).
    destruct (children_named (el_name c) e) as [|y ys] eqn:EC. { destruct (N.to_nat i); discriminate. }
    rewrite J. destruct l as [|a l]; [inversion BL; subst; reflexivity|]. cbn [map]. apply (IH Pc Wc). discriminate.
Qed.
(** A pointer to something in the document leads to it, if the names consist of letters, digits and underscores. *)
Theorem C108_pointers_lead_back : forall e l r, is_element e = true -> proper_names e -> word_names word e -> (forall d, has_text d -> text d <> []) ->
  leads_to text e l r -> resolve_matching_node uni_word uni_digit text e (pointer l) = Some r.
Proof.
  intros e l r El Pe We TO LT. pose proof (leads_no_slash text e l r El Pe LT) as NS. destruct LT as (l' & -> & BL).
  set (l := SElement (el_name e) 0 :: l') in *. unfold resolve_matching_node.
  rewrite <- (pointer_join l) by discriminate. rewrite split_join; [|discriminate | constructor; [intros [] | exact NS]].
  cbn [filter]. assert (FS : filter (fun s : str => match s with [] => false | _ => true end) (shown l) = shown l).
  { clear. induction l as [|a l IH]; [reflexivity|]. unfold shown in *. cbn [map filter]. pose proof (show_nonempty a). destruct (show_step a) eqn:E; [congruence|]. rewrite IH. reflexivity. }
  match goal with |- context [filter ?f (shown ?k)] => replace (filter f (shown k)) with (shown l) by (symmetry; exact FS) end. subst l. unfold shown. cbn [map]. rewrite <- label_show. destruct (name_ok e El Pe) as (NN & _ & _ & X).
  assert (Wn : forallb word (el_name e) = true) by (destruct We as [| |m ats cs W1 W2 W3]; [reflexivity | reflexivity | exact W1]).
  rewrite (captures_label (el_name e) 0 NN Wn). rewrite (index_show 0) by reflexivity. replace (0 =? 0) with true by reflexivity.
  destruct (str_eqb_spec (el_name e) (el_name e)) as [_|Z]; [|congruence]. cbn [andb].
  destruct l' as [|a l']; [inversion BL; subst; reflexivity|]. cbn [map]. exact (follow e (a :: l') r Pe We TO BL ltac:(discriminate)).
Qed.
(** What an expression finds can be looked up. *)
Theorem C108_found_and_looked_up : forall e expression ts s, is_element e = true -> proper_names e -> word_names word e -> (forall d, has_text d -> text d <> []) ->
  path_tokens expression = TRoot :: ts -> regular ts -> In s (resolve_path e expression) ->
  exists l r, stands_for ts l /\ s = pointer l /\ leads_to text e l r /\ resolve_matching_node uni_word uni_digit text e s = Some r.
Proof.
  intros e ex ts s El Pe We TO Et R J. apply (C108_pointers text e ex ts s El Pe Et R) in J as (l & r & SF & LT & ->). exists l, r. repeat (split; [assumption || reflexivity|]).
  apply C108_pointers_lead_back; assumption.
Qed.
End Follow.
