(** JSON values as serde_json represents them, and rust/pact_models/src/json_utils.rs.

    [serde_json::Value] is built without the [preserve_order] feature in this
    workspace (Cargo.lock: no indexmap dependency), so an object is a
    [BTreeMap<String, Value>]: its entries in strictly ascending key order. *)
From Coq Require Import String List NArith ZArith Lia Bool Floats.SpecFloat Sorted.
From Verif Require Import Base.
Import ListNotations.
Open Scope N_scope.

(** * Strings: byte order of UTF-8 is code point order *)
Fixpoint str_compare (a b : str) : comparison :=
  match a, b with
  | [], [] => Eq
  | [], _ => Lt
  | _, [] => Gt
  | x :: a', y :: b' =>
      match x ?= y with
      | Eq => str_compare a' b'
      | c => c
      end
  end.
Definition str_lt (a b : str) : Prop := str_compare a b = Lt.

(** * Numbers *)
(** serde_json [Number]: [PosInt(u64)], [NegInt(i64 < 0)] or a finite [Float(f64)]. *)
Inductive num :=
| PosInt (n : N)
| NegInt (z : Z)
| Float (f : spec_float).

(** Derived [PartialEq] of serde_json's [N]; floats compare with IEEE [==]. *)
Definition num_eqb (a b : num) : bool :=
  match a, b with
  | PosInt x, PosInt y => x =? y
  | NegInt x, NegInt y => Z.eqb x y
  | Float x, Float y => SFeqb x y
  | _, _ => false
  end.

(** [Number::is_i64], [is_u64], [is_f64]. *)
Definition num_is_i64 (n : num) : bool :=
  match n with
  | PosInt v => v <? 9223372036854775808
  | NegInt _ => true
  | Float _ => false
  end.
Definition num_is_u64 (n : num) : bool := match n with PosInt _ => true | _ => false end.
Definition num_is_f64 (n : num) : bool := match n with Float _ => true | _ => false end.

(** * Values *)
Inductive json :=
| JNull
| JBool (b : bool)
| JNum (n : num)
| JStr (s : str)
| JArr (l : list json)
| JObj (m : list (str * json)).

(** Induction principle with hypotheses for the children. *)
Section JsonInd.
  Variable P : json -> Prop.
  Hypothesis Hnull : P JNull.
  Hypothesis Hbool : forall b, P (JBool b).
  Hypothesis Hnum : forall n, P (JNum n).
  Hypothesis Hstr : forall s, P (JStr s).
  Hypothesis Harr : forall l, Forall P l -> P (JArr l).
  Hypothesis Hobj : forall m, Forall (fun kv => P (snd kv)) m -> P (JObj m).
  Fixpoint json_ind' (j : json) : P j :=
    match j with
    | JNull => Hnull
    | JBool b => Hbool b
    | JNum n => Hnum n
    | JStr s => Hstr s
    | JArr l => Harr l ((fix go l : Forall P l :=
        match l with
        | [] => Forall_nil P
        | x :: l' => Forall_cons x (json_ind' x) (go l')
        end) l)
    | JObj m => Hobj m ((fix go m : Forall (fun kv => P (snd kv)) m :=
        match m with
        | [] => Forall_nil _
        | kv :: m' => Forall_cons kv (json_ind' (snd kv)) (go m')
        end) m)
    end.
End JsonInd.

(** [PartialEq for Value]; a [BTreeMap] compares entry by entry in key order. *)
Fixpoint json_eqb (a b : json) : bool :=
  match a, b with
  | JNull, JNull => true
  | JBool x, JBool y => Bool.eqb x y
  | JNum x, JNum y => num_eqb x y
  | JStr x, JStr y => str_eqb x y
  | JArr x, JArr y =>
      (fix go (x y : list json) : bool :=
         match x, y with
         | [], [] => true
         | u :: x', v :: y' => json_eqb u v && go x' y'
         | _, _ => false
         end) x y
  | JObj x, JObj y =>
      (fix go (x y : list (str * json)) : bool :=
         match x, y with
         | [], [] => true
         | (k, u) :: x', (k', v) :: y' => str_eqb k k' && json_eqb u v && go x' y'
         | _, _ => false
         end) x y
  | _, _ => false
  end.

(** Well-formed values: what serde_json can hold. *)
Definition float_finite (f : spec_float) : bool :=
  match f with
  | S754_zero _ => true
  | S754_finite _ _ _ => true
  | _ => false
  end.
Definition num_wf (n : num) : Prop :=
  match n with
  | PosInt v => v < two64
  | NegInt z => (- 9223372036854775808 <= z < 0)%Z
  | Float f => float_finite f = true
  end.
Definition keys {A} (m : list (str * A)) : list str := map fst m.
Fixpoint json_wf (j : json) : Prop :=
  match j with
  | JNull | JBool _ | JStr _ => True
  | JNum n => num_wf n
  | JArr l => (fix go l := match l with [] => True | x :: l' => json_wf x /\ go l' end) l
  | JObj m =>
      StronglySorted str_lt (keys m) /\
      (fix go (m : list (str * json)) := match m with [] => True | kv :: m' => json_wf (snd kv) /\ go m' end) m
  end.

(** Nesting depth, used as a recursion bound. *)
Fixpoint json_depth (j : json) : nat :=
  match j with
  | JArr l => S ((fix go (l : list json) : nat := match l with [] => O | x :: l' => Nat.max (json_depth x) (go l') end) l)
  | JObj m => S ((fix go (m : list (str * json)) : nat := match m with [] => O | kv :: m' => Nat.max (json_depth (snd kv)) (go m') end) m)
  | _ => 1%nat
  end.

(** * Maps with string keys *)
(** [BTreeMap::get] / [Map::get] (first entry with the key; keys are unique). *)
Fixpoint obj_get {A} (k : str) (m : list (str * A)) : option A :=
  match m with
  | [] => None
  | (k', v) :: m' => if str_eqb k k' then Some v else obj_get k m'
  end.
Definition obj_has {A} (k : str) (m : list (str * A)) : bool :=
  match obj_get k m with Some _ => true | None => false end.

(** [BTreeMap::insert]: replaces the value of an existing key, otherwise
    inserts in key order. *)
Fixpoint obj_insert {A} (k : str) (v : A) (m : list (str * A)) : list (str * A) :=
  match m with
  | [] => [(k, v)]
  | (k', v') :: m' =>
      match str_compare k k' with
      | Eq => (k, v) :: m'
      | Lt => (k, v) :: m
      | Gt => (k', v') :: obj_insert k v m'
      end
  end.
(** [collect()] of pairs into a [BTreeMap]. *)
Definition obj_of_list {A} (l : list (str * A)) : list (str * A) :=
  fold_left (fun m kv => obj_insert (fst kv) (snd kv) m) l [].

(** [Value::get(&str)]: [None] unless an object. *)
Definition json_get (k : str) (j : json) : option json :=
  match j with JObj m => obj_get k m | _ => None end.

(** * The outside world: functions of external crates, arbitrary in every theorem *)
Record world := mkWorld {
  uni_alpha : N -> bool;      (* char::is_alphabetic, non-ASCII part *)
  uni_numeric : N -> bool;    (* char::is_numeric, non-ASCII part *)
  uni_upper : N -> str;       (* char::to_uppercase, non-ASCII part *)
  uni_lower : str -> N -> str -> str; (* lower case of a non-ASCII char with its context *)
  uni_space : N -> bool;      (* char::is_whitespace, non-ASCII part *)
  show_float : spec_float -> str;   (* decimal form serde_json (ryu) prints *)
  display_float : spec_float -> str; (* Display for f64 *)
  parse_float_ok : str -> bool;     (* str::parse::<f64>().is_ok() *)
  regex_match : str -> str -> option bool; (* None: the pattern does not compile *)
  semver_ok : str -> bool;
  datetime_ok : str -> str -> bool; (* validate_datetime(value, format).is_ok() *)
  content_type_ok : str -> str -> bool;      (* match_content_type on a string's bytes *)
  json_content_type_ok : json -> str -> bool (* match_content_type (convert_data j) *)
}.

Section Chars.
Variable w : world.
Definition ascii_up (c : N) : N := if is_lower c then c - 32 else c.
Definition ascii_low (c : N) : N := if is_upper c then c + 32 else c.
(** [str::to_uppercase]: character by character. *)
Definition to_upper (s : str) : str :=
  flat_map (fun c => if c <? 128 then [ascii_up c] else uni_upper w c) s.
(** [str::to_lowercase]: character by character, except that the final sigma
    depends on its context. *)
Fixpoint lower_go (pre s : str) : str :=
  match s with
  | [] => []
  | c :: s' => (if c <? 128 then [ascii_low c] else uni_lower w pre c s') ++ lower_go (c :: pre) s'
  end.
Definition to_lower (s : str) : str := lower_go [] s.
End Chars.

(** * Printing ([Value::to_string], compact form) *)
Definition hex_digit (n : N) : N := if n <? 10 then 48 + n else 87 + n.
(** serde_json's [format_escaped_str]. *)
Definition escape_char (c : N) : str :=
  if c =? 34 then [92; 34]
  else if c =? 92 then [92; 92]
  else if c =? 8 then [92; 98]
  else if c =? 9 then [92; 116]
  else if c =? 10 then [92; 110]
  else if c =? 12 then [92; 102]
  else if c =? 13 then [92; 114]
  else if c <? 32 then [92; 117; 48; 48; hex_digit (c / 16); hex_digit (c mod 16)]
  else [c].
Definition quote (s : str) : str := [34] ++ flat_map escape_char s ++ [34].
(** [Display] for [i64]. *)
Definition show_Z (z : Z) : str :=
  match z with
  | Zneg p => 45 :: show_N (Npos p)
  | Z0 => show_N 0
  | Zpos p => show_N (Npos p)
  end.
Section Print.
Variable w : world.
Definition show_num (n : num) : str :=
  match n with
  | PosInt v => show_N v
  | NegInt z => show_Z z
  | Float f => show_float w f
  end.
Fixpoint json_show (j : json) : str :=
  match j with
  | JNull => S_ "null"
  | JBool b => if b then S_ "true" else S_ "false"
  | JNum n => show_num n
  | JStr s => quote s
  | JArr l =>
      [91] ++ (fix go (first : bool) (l : list json) : str :=
         match l with
         | [] => []
         | x :: l' => (if first then [] else [44]) ++ json_show x ++ go false l'
         end) true l ++ [93]
  | JObj m =>
      [123] ++ (fix go (first : bool) (m : list (str * json)) : str :=
         match m with
         | [] => []
         | (k, x) :: m' => (if first then [] else [44]) ++ quote k ++ [58] ++ json_show x ++ go false m'
         end) true m ++ [125]
  end.

(** json_utils.rs:55-61 [json_to_string]. *)
Definition json_to_string (j : json) : str :=
  match j with
  | JStr s => s
  | JNull => []
  | _ => json_show j
  end.
End Print.

(** [f64 as usize]: truncation, saturating at the ends. *)
Definition float_to_usize (f : spec_float) : N :=
  match f with
  | S754_finite false m e =>
      let v := match e with
               | Zneg p => N.div (Npos m) (2 ^ Npos p)
               | Z0 => Npos m
               | Zpos p => Npos m * 2 ^ Npos p
               end in
      if v <? two64 then v else two64 - 1
  | S754_infinity false => two64 - 1
  | _ => 0
  end.

(** json_utils.rs:64-77 [json_to_num]. *)
Definition json_to_num (v : option json) : option N :=
  match v with
  | Some (JNum n) =>
      match n with
      | PosInt v => Some v     (* i64 > 0, or u64 *)
      | NegInt _ => None       (* i64 but not > 0, not f64, not u64 *)
      | Float f => Some (float_to_usize f)
      end
  | Some (JStr s) => parse_usize s
  | _ => None
  end.

(** json_utils.rs:230-239 [is_empty]. *)
Definition json_is_empty (j : json) : bool :=
  match j with
  | JNull => true
  | JStr [] => true
  | JArr [] => true
  | JObj [] => true
  | _ => false
  end.

(** json_utils.rs:202-227 [json_deep_merge]. Keys of [entries] are unique, so
    the first half of the fold over the chain rebuilds [entries]; the model
    starts from there. *)
Fixpoint json_deep_merge (value other : json) {struct other} : json :=
  match value, other with
  | JArr items, JArr other_items => JArr (items ++ other_items)
  | JObj entries, JObj other_entries =>
      JObj ((fix go (m os : list (str * json)) {struct os} : list (str * json) :=
               match os with
               | [] => m
               | (k, v) :: os' =>
                   go (obj_insert k (match obj_get k m with
                                     | Some x => json_deep_merge x v
                                     | None => v
                                     end) m) os'
               end) entries other_entries)
  | _, _ => other
  end.

(** * Basic facts *)
Lemma str_compare_refl : forall a, str_compare a a = Eq.
Proof. induction a as [|x a IH]; [reflexivity|]. cbn. rewrite N.compare_refl. exact IH. Qed.

Lemma str_compare_eq : forall a b, str_compare a b = Eq <-> a = b.
Proof.
  intros a b; split; [|intros ->; apply str_compare_refl].
  revert b; induction a as [|x a IH]; destruct b as [|y b]; cbn; try congruence.
  destruct (N.compare_spec x y); try congruence. subst. intro H0. f_equal. apply IH, H0.
Qed.

Lemma str_compare_antisym : forall a b, str_compare b a = CompOpp (str_compare a b).
Proof.
  induction a as [|x a IH]; destruct b as [|y b]; cbn; try reflexivity.
  rewrite (N.compare_antisym x y). destruct (x ?= y); cbn; [apply IH | reflexivity | reflexivity].
Qed.

Lemma str_lt_trans : forall a b c, str_lt a b -> str_lt b c -> str_lt a c.
Proof.
  unfold str_lt. induction a as [|x a IH]; destruct b as [|y b], c as [|z c]; cbn; try congruence.
  destruct (N.compare_spec x y), (N.compare_spec y z); intros H1 H2; try congruence; subst.
  - rewrite N.compare_refl. eauto.
  - apply N.compare_lt_iff in H0. rewrite H0. reflexivity.
  - apply N.compare_lt_iff in H. rewrite H. reflexivity.
  - assert (x < z) as L by lia. apply N.compare_lt_iff in L. rewrite L. reflexivity.
Qed.

Lemma str_lt_irrefl : forall a, ~ str_lt a a.
Proof. unfold str_lt. intros a H. rewrite str_compare_refl in H. congruence. Qed.

Lemma str_lt_neq : forall a b, str_lt a b -> a <> b.
Proof. intros a b H ->. exact (str_lt_irrefl _ H). Qed.

Lemma json_eqb_refl : forall j, json_wf j -> json_eqb j j = true.
Proof.
  induction j using json_ind'; intro W; cbn; auto using str_eqb_refl.
  - destruct b; reflexivity.
  - destruct n as [v|z|f]; cbn.
    + apply N.eqb_refl.
    + apply Z.eqb_refl.
    + cbn in W. destruct f as [s|s| |s m e]; cbn in W; try discriminate; cbn.
      * reflexivity.
      * unfold SFeqb, SFcompare. destruct s; rewrite Z.compare_refl; unfold Pcompare; rewrite ?Pos.compare_cont_refl; reflexivity.
  - cbn in W. induction l as [|x l IH]; [reflexivity|].
    inversion H; subst. destruct W as [W1 W2]. rewrite H2 by exact W1. cbn. apply IH; assumption.
  - cbn in W. destruct W as [_ W]. induction m as [|[k x] m IH]; [reflexivity|].
    inversion H; subst. cbn in W. destruct W as [W1 W2]. rewrite str_eqb_refl. cbn in H2. rewrite H2 by exact W1.
    cbn. apply IH; assumption.
Qed.

Lemma json_wf_arr : forall l, json_wf (JArr l) <-> Forall json_wf l.
Proof.
  intro l. cbn. induction l as [|x l IH]; split; intro H.
  - constructor.
  - exact I.
  - destruct H as [H1 H2]. constructor; [exact H1 | apply IH, H2].
  - inversion H; subst. split; [assumption | apply IH; assumption].
Qed.

Lemma json_wf_obj : forall m, json_wf (JObj m) <-> StronglySorted str_lt (keys m) /\ Forall (fun kv => json_wf (snd kv)) m.
Proof.
  intro m. cbn.
  assert (forall m : list (str * json),
    (fix go (m : list (str * json)) := match m with [] => True | kv :: m' => json_wf (snd kv) /\ go m' end) m
    <-> Forall (fun kv => json_wf (snd kv)) m) as E.
  { clear. induction m as [|kv m IH]; split; intro H.
    - constructor.
    - exact I.
    - destruct H as [H1 H2]. constructor; [exact H1 | apply IH, H2].
    - inversion H; subst. split; [assumption | apply IH; assumption]. }
  rewrite E. reflexivity.
Qed.

Lemma obj_get_in : forall A k (m : list (str * A)) v, obj_get k m = Some v -> In (k, v) m.
Proof.
  induction m as [|[k' x] m IH]; cbn; intros v H; [discriminate|].
  destruct (str_eqb_spec k k') as [->|N].
  - injection H as ->. left; reflexivity.
  - right. apply IH, H.
Qed.

Lemma obj_get_none : forall A k (m : list (str * A)), obj_get k m = None <-> ~ In k (keys m).
Proof.
  induction m as [|[k' x] m IH]; cbn; split; intro H; auto.
  - destruct (str_eqb_spec k k') as [->|N]; [discriminate|]. intros [E|E]; [congruence|]. apply IH in H. contradiction.
  - destruct (str_eqb_spec k k') as [->|N]; [exfalso; auto|]. apply IH. auto.
Qed.

Lemma obj_get_some_in : forall A k (m : list (str * A)), In k (keys m) -> exists v, obj_get k m = Some v.
Proof.
  intros A k m H. destruct (obj_get k m) eqn:E; [eauto|]. apply obj_get_none in E. contradiction.
Qed.

Lemma in_keys : forall A k v (m : list (str * A)), In (k, v) m -> In k (keys m).
Proof. intros. unfold keys. apply in_map_iff. exists (k, v). auto. Qed.

Lemma obj_get_nodup : forall A k v (m : list (str * A)), NoDup (keys m) -> In (k, v) m -> obj_get k m = Some v.
Proof.
  induction m as [|[k' x] m IH]; cbn; intros ND H; [contradiction|].
  inversion ND; subst. destruct H as [H|H].
  - injection H as -> ->. rewrite str_eqb_refl. reflexivity.
  - destruct (str_eqb_spec k k') as [->|N].
    + apply in_keys in H. contradiction.
    + apply IH; assumption.
Qed.

Lemma sorted_nodup : forall l, StronglySorted str_lt l -> NoDup l.
Proof.
  induction 1 as [|a l H IH F]; constructor; [|exact IH].
  intro I. rewrite Forall_forall in F. apply F in I. exact (str_lt_irrefl _ I).
Qed.

Lemma obj_insert_get : forall A k (v : A) m j,
  obj_get j (obj_insert k v m) = if str_eqb j k then Some v else obj_get j m.
Proof.
  induction m as [|[k' x] m IH]; intro j; cbn; [reflexivity|].
  destruct (str_compare k k') eqn:C; cbn.
  - apply str_compare_eq in C. subst k'. destruct (str_eqb j k); reflexivity.
  - reflexivity.
  - rewrite IH. destruct (str_eqb_spec j k') as [->|N]; [|reflexivity].
    destruct (str_eqb_spec k' k) as [->|N']; [|reflexivity].
    rewrite str_compare_refl in C. discriminate.
Qed.

Lemma obj_insert_keys : forall A k (v : A) m j, In j (keys (obj_insert k v m)) <-> j = k \/ In j (keys m).
Proof.
  intros A k v m j.
  assert (forall B (n : list (str * B)), In j (keys n) <-> obj_get j n <> None) as E.
  { intros B n. split; intro H.
    - apply obj_get_some_in in H. destruct H as [x ->]. discriminate.
    - destruct (obj_get j n) eqn:G; [|congruence]. eapply in_keys, obj_get_in, G. }
  rewrite !E, obj_insert_get. destruct (str_eqb_spec j k); split; intro H; auto; try discriminate.
  destruct H; congruence.
Qed.

Lemma obj_insert_sorted : forall A k (v : A) m, StronglySorted str_lt (keys m) -> StronglySorted str_lt (keys (obj_insert k v m)).
Proof.
  induction m as [|[k' x] m IH]; cbn; intro H.
  - constructor; constructor.
  - inversion H; subst. destruct (str_compare k k') eqn:C; cbn.
    + apply str_compare_eq in C. subst. exact H.
    + constructor; [exact H|]. constructor; [exact C|]. rewrite Forall_forall in *. intros z Z. eapply str_lt_trans; [exact C | apply H3, Z].
    + constructor; [apply IH; assumption|]. rewrite Forall_forall in *. intros z Z.
      change (In z (keys (obj_insert k v m))) in Z. apply obj_insert_keys in Z. destruct Z as [->|Z].
      * unfold str_lt. rewrite str_compare_antisym, C. reflexivity.
      * apply H3, Z.
Qed.

(** Two sorted maps with the same lookups are the same list. *)
Lemma sorted_ext : forall A (m n : list (str * A)),
  StronglySorted str_lt (keys m) -> StronglySorted str_lt (keys n) ->
  (forall k, obj_get k m = obj_get k n) -> m = n.
Proof.
  induction m as [|[k x] m IH]; intros [|[k' y] n] Sm Sn E.
  - reflexivity.
  - specialize (E k'). cbn in E. rewrite str_eqb_refl in E. discriminate.
  - specialize (E k). cbn in E. rewrite str_eqb_refl in E. discriminate.
  - cbn in Sm, Sn. inversion Sm as [|? ? Sm' Fm]; inversion Sn as [|? ? Sn' Fn]; subst.
    assert (k = k') as ->.
    { pose proof (E k) as E1. pose proof (E k') as E2. cbn in E1, E2. rewrite str_eqb_refl in E1, E2.
      destruct (str_eqb_spec k k') as [->|N]; [reflexivity|].
      destruct (str_eqb_spec k' k) as [->|N']; [reflexivity|].
      symmetry in E1. apply obj_get_in, in_keys in E1. apply obj_get_in, in_keys in E2.
      rewrite Forall_forall in Fm, Fn. apply Fn in E1. apply Fm in E2.
      exfalso. exact (str_lt_irrefl _ (str_lt_trans _ _ _ E1 E2)). }
    pose proof (E k') as E1. cbn in E1. rewrite str_eqb_refl in E1. injection E1 as ->.
    f_equal. apply IH; auto. intro j. specialize (E j). cbn in E.
    destruct (str_eqb_spec j k') as [e|N]; [|exact E]. subst j. clear E.
    assert (~ In k' (keys m)). { intro I. rewrite Forall_forall in Fm. exact (str_lt_irrefl _ (Fm _ I)). }
    assert (~ In k' (keys n)). { intro I. rewrite Forall_forall in Fn. exact (str_lt_irrefl _ (Fn _ I)). }
    apply obj_get_none in H, H0. congruence.
Qed.
