(** The texts that are date and time expressions, exactly. *)
From Coq Require Import Ascii String List Arith NArith ZArith Lia Bool.
From Verif Require Import Base Json Text TextProofs DateExpr SpecDateText DateTextProofs.
Import ListNotations.
Open Scope N_scope.

Lemma str_same : forall a b : str, str_eqb a b = true <-> a = b.
Proof. intros a b. destruct (str_eqb_spec a b); split; congruence. Qed.
Fixpoint lookup {A} (v : str) (l : list (str * A)) : option A :=
  match l with [] => None | (k, x) :: l' => if str_eqb v k then Some x else lookup v l' end.
Fixpoint distinctb (l : list str) : bool :=
  match l with [] => true | v :: l' => negb (existsb (str_eqb v) l') && distinctb l' end.
Lemma existsb_in : forall v l, existsb (str_eqb v) l = true <-> In v l.
Proof. intros v l. rewrite existsb_exists. split; [intros (x & i & E); apply str_same in E; subst; exact i|]. intro i. exists v. split; [exact i|]. apply str_same. reflexivity. Qed.
Lemma distinctb_spec : forall l, distinctb l = true -> NoDup l.
Proof.
  induction l as [|v l IH]; intro H; [constructor|]. cbn [distinctb] in H. apply andb_true_iff in H. destruct H as [A B]. constructor; [|apply IH, B].
  intro i. apply existsb_in in i. rewrite i in A. discriminate.
Qed.
Lemma lookup_in : forall A (l : list (str * A)) v x, distinctb (map fst l) = true -> (lookup v l = Some x <-> In (v, x) l).
Proof.
  intros A l v x D. apply distinctb_spec in D. induction l as [|[k y] l IH]; cbn [lookup]; [split; [discriminate|intros []]|]. cbn [map fst] in D. inversion D as [|? ? Nk D']; subst.
  destruct (str_eqb v k) eqn:E.
  - apply str_same in E. subst k. split; [intro H; injection H as ->; left; reflexivity|]. intros [H|H]; [congruence|]. exfalso. apply Nk. apply (in_map fst _ _ H).
  - rewrite (IH D'). split; [intro H; right; exact H|]. intros [H|H]; [|exact H]. injection H as -> ->. assert (str_eqb v v = true) by (apply str_same; reflexivity). congruence.
Qed.
(** The tokens' words mean what the tables say. *)
Lemma table : forall T A (words : list (str * T)) (tbl : list (str * A)) (f : T -> option A), distinctb (map fst tbl) = true ->
  Forall (fun e => f (snd e) = lookup (fst e) tbl) words -> forall v t x, In (v, t) words -> (f t = Some x <-> In (v, x) tbl).
Proof. intros T A words tbl f D F v t x i. rewrite Forall_forall in F. pose proof (F _ i) as E. cbn [fst snd] in E. rewrite E. apply lookup_in, D. Qed.
Ltac tabulated := vm_compute; repeat (apply Forall_cons; [reflexivity|]); apply Forall_nil.

Section Date.
Variable w : world.
Variable after_error : str -> str.
Notation next := (date_next after_error).
Lemma date_distinct : NoDup (map fst date_words).
Proof. apply distinctb_spec. vm_compute. reflexivity. Qed.
Lemma mutual : forall l l', forallb (fun v => existsb (str_eqb v) l') l && forallb (fun v => existsb (str_eqb v) l) l' = true -> forall v : str, In v l <-> In v l'.
Proof.
  intros l l' H v. apply andb_true_iff in H. destruct H as [A B]. rewrite forallb_forall in A, B. split; intro i; apply existsb_in; auto.
Qed.
Lemma date_same : forall v, In v date_vocabulary <-> In v (map fst date_words).
Proof. apply mutual. vm_compute. reflexivity. Qed.
Lemma starts : forall l : list str, Forall (fun v => match v with c :: _ => negb (blank c) && negb (is_digit c) = true | [] => False end) l ->
  forall v, In v l -> exists c v', v = c :: v' /\ blank c = false /\ is_digit c = false.
Proof.
  intros l F v i. rewrite Forall_forall in F. specialize (F v i). destruct v as [|c v']; [destruct F|]. exists c, v'. apply andb_true_iff in F. destruct F as [A B]. split; [reflexivity|]. split; [apply negb_true_iff, A|apply negb_true_iff, B].
Qed.
Lemma date_starts : forall v, In v date_vocabulary -> exists c v', v = c :: v' /\ blank c = false /\ is_digit c = false.
Proof. apply starts. tabulated. Qed.
Lemma date_op_words : forall v t o, In (v, t) date_words -> (date_op t = Some o <-> In (v, o) ops).
Proof. apply table; [vm_compute; reflexivity|tabulated]. Qed.
Lemma date_unit_words : forall v t o, In (v, t) date_words -> (date_unit t = Some o <-> In (v, o) date_units).
Proof. apply table; [vm_compute; reflexivity|tabulated]. Qed.
Lemma date_base_words : forall v t o, In (v, t) date_words -> (date_base_of t = Some o <-> In (v, o) date_bases).
Proof. apply table; [vm_compute; reflexivity|tabulated]. Qed.
Lemma date_offset_words : forall v t o, In (v, t) date_words -> (date_offset_of t = Some o <-> In (v, o) date_offsets).
Proof. apply table; [vm_compute; reflexivity|tabulated]. Qed.
Definition direction_of (t : date_token) : option operation := match t with KNext => Some Plus | KLast => Some Minus | _ => None end.
Lemma date_direction_words : forall v t o, In (v, t) date_words -> (direction_of t = Some o <-> In (v, o) directions).
Proof. apply table; [vm_compute; reflexivity|tabulated]. Qed.
Lemma date_number_words : forall v t, In (v, t) date_words -> date_number t = None.
Proof. intros v t i. assert (Forall (fun e : str * date_token => date_number (snd e) = None) date_words) as F by tabulated. rewrite Forall_forall in F. apply (F _ i). Qed.

Let cases := next_cases date_words KInt after_error date_vocabulary date_distinct date_same.
Let token := word_token date_words KInt after_error date_vocabulary date_distinct date_same date_starts.
Let fin := finished_more date_words KInt after_error date_vocabulary date_distinct date_same date_starts date_op date_number date_unit date_units
  date_op_words (fun n => eq_refl) date_number_words (fun n => eq_refl) date_unit_words (fun n => eq_refl) w.
Lemma finished_map : forall A B (f : A -> B) (r : option (A * str)) x, finished w (option_map (fun r => (f (fst r), snd r)) r) = Some x <->
  exists a, finished w r = Some a /\ x = f a.
Proof.
  intros A B f r x. unfold finished. destruct r as [[a s]|]; cbn [option_map fst snd]; [|split; [discriminate|intros (a & H & _); discriminate]].
  destruct (nothing_left w s); [|split; [discriminate|intros (a' & H & _); discriminate]]. split.
  - intro H. injection H as <-. eauto.
  - intros (a' & H & ->). injection H as <-. reflexivity.
Qed.

(** A text is read as an expression exactly if it is a sentence for it. *)
Theorem C92_date_expressions : forall s e, parse_date_expression w after_error s = Some e <-> date_sentence w after_error e s.
Proof.
  intros s e. unfold parse_date_expression, date_sentence. split.
  - destruct (next s) as [|t s1|s1] eqn:E; try discriminate. pose proof (cases s) as C. unfold date_next in E. rewrite E in C.
    destruct (date_base_of t) as [b|] eqn:Bt.
    + intro H. apply (finished_map _ _ (fun r => (b, r))) in H. destruct H as (l & H & ->). apply fin in H. destruct H as (s2 & RA & En).
      destruct C as [(v & i & R)|(n & -> & R)]; [|discriminate]. exists b, [], true, l, s1, s2. repeat (match goal with |- _ /\ _ => split end); auto. apply (ds_base v); [exact R|apply (date_base_words v t b i), Bt].
    + assert (forall o, direction_of t = Some o -> finished w (date_offset_expr after_error o s1) = Some e -> exists b pre present l t1 t2,
        e = (b, pre ++ l) /\ date_start b pre present s t1 /\ read_adjustments date_vocabulary date_units l t1 t2 /\ (present = true \/ l <> []) /\ ended date_vocabulary after_error w true l t2) as Off.
      { intros o Ot H. destruct C as [(v & i & R)|(n & -> & R)]; [|discriminate]. unfold date_offset_expr in H. destruct (next s1) as [|t' s2|] eqn:E2; try discriminate. pose proof (cases s1) as C2. unfold date_next in E2. rewrite E2 in C2.
        destruct (date_offset_of t') as [[u n]|] eqn:Ot'; [|discriminate]. apply (finished_map _ _ (fun r => (DNow, mkAdj u n o :: r))) in H. destruct H as (l & H & ->). apply fin in H. destruct H as (s3 & RA & En).
        destruct C2 as [(v' & i' & R')|(m & -> & R')]; [|discriminate]. exists DNow, [mkAdj u n o], true, l, s2, s3. repeat (match goal with |- _ /\ _ => split end); auto.
        apply (ds_offset v o v' u n s s1 s2); [exact R|apply (date_direction_words v t o i), Ot|exact R'|apply (date_offset_words v' t' (u, n) i'), Ot']. }
      destruct t; try discriminate.
      * intro H. apply (finished_map _ _ (fun r => (DNow, r))) in H. destruct H as (l & H & ->). unfold date_more in H. rewrite <- E in H. apply fin in H. destruct H as (s2 & RA & En).
        exists DNow, [], false, l, s, s2. repeat (match goal with |- _ /\ _ => split end); auto; [constructor|]. right. intros ->. inversion RA; subst.
        destruct En as [B|(r & O & [(Un & _)|[_ N]])]; [| |contradiction].
        -- apply (next_end date_words KInt after_error) in B. congruence.
        -- apply (unreadable_next date_words KInt after_error date_vocabulary date_same) in Un. congruence.
      * apply Off. reflexivity.
      * apply Off. reflexivity.
  - intros (b & pre & present & l & s1 & s2 & -> & St & RA & Pr & En). pose proof (proj2 (fin s1 l) (ex_intro _ s2 (conj RA En))) as F.
    destruct St as [v b s s1 R i|v o v' u n s s1 s2' R i R' i'|s].
    + destruct (token v s s1 R) as (t & it & E). unfold date_next. rewrite E. apply (date_base_words v t b it) in i. rewrite i. apply (finished_map _ _ (fun r => (b, r))). exists l. split; [exact F|reflexivity].
    + destruct (token v s s1 R) as (t & it & E). unfold date_next. rewrite E. apply (date_direction_words v t o it) in i.
      destruct (token v' s1 s2' R') as (t' & it' & E'). apply (date_offset_words v' t' (u, n) it') in i'.
      assert (finished w (date_offset_expr after_error o s1) = Some (DNow, [mkAdj u n o] ++ l)) as O.
      { unfold date_offset_expr, date_next. rewrite E', i'. apply (finished_map _ _ (fun r => (DNow, mkAdj u n o :: r))). exists l. split; [exact F|reflexivity]. }
      destruct t; try discriminate; cbn [date_base_of]; injection i as <-; exact O.
    + destruct Pr as [Pr|Pr]; [discriminate|]. destruct RA as [|vo o n vu u l s s1' s2' s3 s4 Ro io Rn Ru iu RA]; [contradiction|].
      destruct (token vo s s1' Ro) as (t & it & E). unfold date_next. rewrite E. apply (date_op_words vo t o it) in io. destruct t; try discriminate. cbn [date_base_of].
      apply (finished_map _ _ (fun r => (DNow, r))). exists (mkAdj u n o :: l). split; [|reflexivity]. unfold date_more. rewrite <- E. exact F.
Qed.
End Date.
