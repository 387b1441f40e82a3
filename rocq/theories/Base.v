(** Base definitions shared by all model files.

    Rust strings are modelled as lists of Unicode code points ([str]); a Rust
    panic is an explicit outcome ([Panic]); machine words are [N] with explicit
    bounds. *)
From Coq Require Import Ascii String List NArith ZArith Lia Bool.
Import ListNotations.
Open Scope list_scope.
Open Scope N_scope.

(** A Rust [String]/[&str]: its sequence of [char]s (Unicode code points). *)
Definition str := list N.

(** String literal helper: ASCII Coq literal to code points. *)
Fixpoint S_ (s : string) : str :=
  match s with
  | EmptyString => []
  | String a s' => N_of_ascii a :: S_ s'
  end.

Arguments S_ s%string_scope.

(** Result of a Rust function that may return [Ok], return [Err] or panic. *)
Inductive outcome (A E : Type) : Type :=
| Ok (a : A)
| Err (e : E)
| Panic.
Arguments Ok {A E} a.
Arguments Err {A E} e.
Arguments Panic {A E}.

Definition bind {A B E} (m : outcome A E) (f : A -> outcome B E) : outcome B E :=
  match m with
  | Ok a => f a
  | Err e => Err e
  | Panic => Panic
  end.

(** [==] on strings. *)
Fixpoint str_eqb (a b : str) : bool :=
  match a, b with
  | [], [] => true
  | x :: a', y :: b' => (x =? y) && str_eqb a' b'
  | _, _ => false
  end.

Lemma str_eqb_spec : forall a b, reflect (a = b) (str_eqb a b).
Proof.
  induction a as [|x a IH]; destruct b as [|y b]; simpl; try (constructor; congruence).
  destruct (N.eqb_spec x y) as [->|H]; simpl.
  - destruct (IH b) as [->|H]; constructor; congruence.
  - constructor; congruence.
Qed.

Lemma str_eqb_refl : forall a, str_eqb a a = true.
Proof. intro a; destruct (str_eqb_spec a a); congruence. Qed.

Lemma str_eqb_eq : forall a b, str_eqb a b = true <-> a = b.
Proof. intros a b; destruct (str_eqb_spec a b); split; congruence. Qed.

Lemma str_eqb_neq : forall a b, str_eqb a b = false <-> a <> b.
Proof. intros a b; destruct (str_eqb_spec a b); split; congruence. Qed.

Lemma str_eqb_sym : forall a b, str_eqb a b = str_eqb b a.
Proof.
  intros a b; destruct (str_eqb_spec a b), (str_eqb_spec b a); congruence.
Qed.

(** ASCII character classes. *)
Definition is_digit (c : N) : bool := (48 <=? c) && (c <=? 57).
Definition is_upper (c : N) : bool := (65 <=? c) && (c <=? 90).
Definition is_lower (c : N) : bool := (97 <=? c) && (c <=? 122).
Definition ascii_alpha (c : N) : bool := is_upper c || is_lower c.

(** [usize] / [u64] are 64 bit words. *)
Definition two64 : N := 18446744073709551616.

Lemma two64_eq : two64 = 2 ^ 64.
Proof. reflexivity. Qed.

(** Decimal rendering of an unsigned integer ([Display] for integers). *)
Fixpoint show_aux (fuel : nat) (n : N) (acc : str) : str :=
  match fuel with
  | O => acc
  | S f =>
      let acc' := (48 + n mod 10) :: acc in
      if n / 10 =? 0 then acc' else show_aux f (n / 10) acc'
  end.

Definition show_N (n : N) : str := show_aux (S (N.size_nat n)) n [].

(** Decimal value of a digit string. *)
Fixpoint dec_value (s : str) (acc : N) : N :=
  match s with
  | [] => acc
  | c :: s' => dec_value s' (acc * 10 + (c - 48))
  end.

Definition all_digits (s : str) : bool := forallb is_digit s.

(** Rust [str::parse::<usize>()] / [parse::<u64>()]: an optional leading [+],
    then at least one ASCII digit, value below 2^64 ([None] is [Err]). *)
Definition parse_usize (s : str) : option N :=
  let ds := match s with
            | c :: s' => if c =? 43 then s' else s
            | [] => s
            end in
  match ds with
  | [] => None
  | _ => if all_digits ds
         then let v := dec_value ds 0 in if v <? two64 then Some v else None
         else None
  end.

(** * Lemmas on decimal rendering *)

Lemma dec_value_app : forall a b acc, dec_value (a ++ b) acc = dec_value b (dec_value a acc).
Proof. induction a; simpl; intros; auto. Qed.

Lemma show_aux_app : forall f n acc, show_aux f n acc = show_aux f n [] ++ acc.
Proof.
  induction f as [|f IH]; intros n acc; [reflexivity|].
  cbn [show_aux]. destruct (n / 10 =? 0); [reflexivity|].
  rewrite IH. rewrite (IH (n / 10) [48 + n mod 10]). rewrite <- app_assoc. reflexivity.
Qed.

Lemma show_aux_digits : forall f n acc, all_digits acc = true -> all_digits (show_aux f n acc) = true.
Proof.
  induction f as [|f IH]; intros n acc H; [exact H|].
  cbn [show_aux].
  assert (Hd : all_digits ((48 + n mod 10) :: acc) = true).
  { unfold all_digits in *. cbn [forallb]. rewrite H, andb_true_r. unfold is_digit.
    assert (n mod 10 < 10) by (apply N.mod_lt; lia).
    revert H0. generalize (n mod 10). intros m Hm. apply andb_true_iff; split; apply N.leb_le; lia. }
  destruct (n / 10 =? 0); [exact Hd|]. apply IH, Hd.
Qed.

Lemma show_aux_value : forall f n, n < 2 ^ N.of_nat f -> (0 < f)%nat -> dec_value (show_aux f n []) 0 = n.
Proof.
  induction f as [|f IH]; intros n Hn Hf; [lia|].
  cbn [show_aux].
  assert (Hdiv : n = 10 * (n / 10) + n mod 10) by (apply N.div_mod; lia).
  assert (Hm : n mod 10 < 10) by (apply N.mod_lt; lia).
  revert Hdiv Hm. generalize (n mod 10). intros m Hdiv Hm.
  destruct (N.eqb_spec (n / 10) 0) as [E|E].
  - cbn [dec_value]. rewrite E in Hdiv. lia.
  - rewrite show_aux_app, dec_value_app. rewrite IH.
    + cbn [dec_value]. revert Hdiv. generalize (n / 10). lia.
    + rewrite Nat2N.inj_succ, N.pow_succ_r' in Hn. revert Hdiv Hn.
      generalize (n / 10), (2 ^ N.of_nat f). lia.
    + destruct f; [|lia]. exfalso. change (2 ^ N.of_nat 1) with 2 in Hn.
      apply E. apply N.div_small. lia.
Qed.

Lemma show_aux_nonempty : forall f n acc, (0 < f)%nat -> show_aux f n acc <> [].
Proof.
  intros f n acc Hf. destruct f; [lia|]. cbn [show_aux].
  destruct (n / 10 =? 0); [congruence|].
  rewrite show_aux_app. intro H. apply app_eq_nil in H. destruct H; congruence.
Qed.

Lemma N_size_nat_bound : forall n, n < 2 ^ N.of_nat (S (N.size_nat n)).
Proof.
  intro n. rewrite Nat2N.inj_succ, N.pow_succ_r'.
  assert (n < 2 ^ N.of_nat (N.size_nat n)) as H.
  { destruct n as [|p]; [simpl; lia|].
    change (N.size_nat (N.pos p)) with (Pos.size_nat p).
    pose proof (Pos.size_gt p) as G.
    assert (Heq : N.of_nat (Pos.size_nat p) = N.pos (Pos.size p)).
    { clear. induction p; simpl Pos.size_nat; simpl Pos.size; rewrite ?Nat2N.inj_succ, ?IHp; lia. }
    rewrite Heq. change (2 ^ N.pos (Pos.size p)) with (N.pos (2 ^ Pos.size p)%positive). exact G. }
  revert H. generalize (2 ^ N.of_nat (N.size_nat n)). lia.
Qed.

Lemma show_N_value : forall n, dec_value (show_N n) 0 = n.
Proof. intro n. apply show_aux_value; [apply N_size_nat_bound | lia]. Qed.

Lemma show_N_digits : forall n, all_digits (show_N n) = true.
Proof. intro n. apply show_aux_digits. reflexivity. Qed.

Lemma show_N_nonempty : forall n, show_N n <> [].
Proof. intro n. apply show_aux_nonempty. lia. Qed.

Lemma show_N_inj : forall a b, show_N a = show_N b -> a = b.
Proof. intros a b H. rewrite <- (show_N_value a), <- (show_N_value b), H. reflexivity. Qed.

Lemma is_digit_range : forall c, is_digit c = true -> 48 <= c <= 57.
Proof. intros c H. unfold is_digit in H. apply andb_true_iff in H. destruct H as [A B]. apply N.leb_le in A, B. lia. Qed.

Lemma parse_usize_digits : forall s, s <> [] -> all_digits s = true ->
  parse_usize s = if dec_value s 0 <? two64 then Some (dec_value s 0) else None.
Proof.
  intros s Hne Hd. unfold parse_usize.
  destruct s as [|c s']; [congruence|].
  assert (c <> 43).
  { unfold all_digits in Hd. cbn [forallb] in Hd. apply andb_true_iff in Hd. destruct Hd as [Hd _].
    apply is_digit_range in Hd. lia. }
  apply N.eqb_neq in H. rewrite H, Hd. reflexivity.
Qed.

Lemma parse_usize_show : forall n, n < two64 -> parse_usize (show_N n) = Some n.
Proof.
  intros n H. rewrite parse_usize_digits by (apply show_N_nonempty || apply show_N_digits).
  rewrite show_N_value. apply N.ltb_lt in H. rewrite H. reflexivity.
Qed.
