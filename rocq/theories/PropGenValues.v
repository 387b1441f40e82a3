(** C73: the values generators produce. *)
From Coq Require Import Ascii String List Arith NArith ZArith Lia Bool Floats.SpecFloat.
From Coq Require Import ZifyBool ZifyN ZifyNat.
From Verif Require Import Base PathExp Json Text MatchingRules Matchers JsonCompare Expr Generators GenApply GenValues SpecGenValues.
Import ListNotations.
Open Scope N_scope.
Local Opaque show_N.
Ltac Zify.zify_post_hook ::= Z.div_mod_to_equations.

(** * Choosing *)
Lemma pick_in : forall cs n, cs <> [] -> In (pick cs n) cs.
Proof.
  intros cs n Ne. unfold pick. apply nth_In. destruct cs as [|c cs]; [contradiction|].
  assert (0 < N.of_nat (length (c :: cs))) by (cbn [length]; lia). lia.
Qed.
Lemma pick_any : forall cs c, In c cs -> exists n, pick cs n = c.
Proof.
  intros cs c H. apply In_nth with (d := 0) in H. destruct H as (i & L & E). exists (N.of_nat i). unfold pick.
  rewrite N.mod_small by lia. rewrite Nat2N.id. exact E.
Qed.
Lemma picks_length : forall cs r n, length (picks cs r n) = n.
Proof. intros. unfold picks. rewrite map_length, seq_length. reflexivity. Qed.
Lemma picks_in : forall cs r n, cs <> [] -> Forall (fun c => In c cs) (picks cs r n).
Proof. intros cs r n Ne. unfold picks. apply Forall_forall. intros c H. apply in_map_iff in H. destruct H as (i & <- & _). apply pick_in; assumption. Qed.
(** For given texts there are draws. *)
Lemma picks_any : forall cs s, Forall (fun c => In c cs) s -> exists d : nat -> N, forall r, (forall i, (i < length s)%nat -> draw r i = d i) -> picks cs r (length s) = s.
Proof.
  intros cs s F.
  assert (H : exists d : nat -> N, forall i, (i < length s)%nat -> pick cs (d i) = nth i s 0).
  { induction F as [|c s Hc F IH]; [exists (fun _ => 0); cbn; lia|].
    destruct IH as [d Hd]. destruct (pick_any cs c Hc) as [n Hn].
    exists (fun i => match i with O => n | S j => d j end). intros [|i] L; cbn in *; [exact Hn|apply Hd; lia]. }
  destruct H as [d Hd]. exists d. intros r E. unfold picks.
  apply nth_ext with (d := 0) (d' := 0); [rewrite map_length, seq_length; reflexivity|].
  intros i L. rewrite map_length, seq_length in L.
  rewrite (nth_indep _ 0 (pick cs (draw r O))) by (rewrite map_length, seq_length; exact L).
  rewrite (map_nth (fun i => pick cs (draw r i))), seq_nth by exact L. cbn. rewrite E by exact L. apply Hd. exact L.
Qed.

Lemma digit_in : forall c, In c digit_charset <-> 48 <= c <= 57.
Proof.
  intro c. unfold digit_charset. cbn [S_ In]. split.
  - intro H. repeat (destruct H as [<-|H]; [cbv; split; discriminate|]). destruct H.
  - intro H. assert (Hc : c = 48 \/ c = 49 \/ c = 50 \/ c = 51 \/ c = 52 \/ c = 53 \/ c = 54 \/ c = 55 \/ c = 56 \/ c = 57) by lia.
    intuition subst; cbv; tauto.
Qed.
Lemma nonzero_digit_in : forall c, In c (tl digit_charset) <-> 49 <= c <= 57.
Proof.
  intro c. unfold digit_charset. cbn [S_ tl In]. split.
  - intro H. repeat (destruct H as [<-|H]; [cbv; split; discriminate|]). destruct H.
  - intro H. assert (Hc : c = 49 \/ c = 50 \/ c = 51 \/ c = 52 \/ c = 53 \/ c = 54 \/ c = 55 \/ c = 56 \/ c = 57) by lia.
    intuition subst; cbv; tauto.
Qed.
Lemma alphanumeric_in : forall c, In c alphanumeric <-> letter_or_digit c.
Proof.
  intro c. unfold letter_or_digit. split.
  - intro H. change (In c (map N.of_nat (map (fun n => (n + 65)%nat) (seq 0 26) ++ map (fun n => (n + 97)%nat) (seq 0 26) ++ map (fun n => (n + 48)%nat) (seq 0 10)))) in H.
    apply in_map_iff in H. destruct H as (i & <- & H). rewrite !in_app_iff, !in_map_iff in H.
    destruct H as [(j & <- & H)|[(j & <- & H)|(j & <- & H)]]; apply in_seq in H; lia.
  - intro H. change (In c (map N.of_nat (map (fun n => (n + 65)%nat) (seq 0 26) ++ map (fun n => (n + 97)%nat) (seq 0 26) ++ map (fun n => (n + 48)%nat) (seq 0 10)))).
    apply in_map_iff. exists (N.to_nat c). split; [lia|]. rewrite !in_app_iff, !in_map_iff.
    destruct H as [H|[H|H]]; [right; right; exists (N.to_nat c - 48)%nat|left; exists (N.to_nat c - 65)%nat|right; left; exists (N.to_nat c - 97)%nat];
      (split; [lia|apply in_seq; lia]).
Qed.

(** * Decimals *)
Lemma Forall_firstn : forall A (P : A -> Prop) n l, Forall P l -> Forall P (firstn n l).
Proof. intros A P n l H. revert n. induction H; intros [|n]; cbn; constructor; auto. Qed.
Lemma Forall_skipn : forall A (P : A -> Prop) n l, Forall P l -> Forall P (skipn n l).
Proof. intros A P n l H. revert n. induction H; intros [|n]; cbn; auto. Qed.
Lemma picks_digits : forall r n, digits_only (picks digit_charset r n).
Proof.
  intros r n. unfold digits_only. eapply Forall_impl; [|apply picks_in; discriminate].
  intros c H. apply digit_in. exact H.
Qed.
Lemma picks_pair : forall r n, exists a b t, picks digit_charset r (S (S n)) = a :: b :: t.
Proof. intros r n. unfold picks. cbn. eauto. Qed.

Lemma decimal_sound : forall r n, decimal_text n (generate_decimal r n).
Proof.
  intros r n. destruct n as [|[|[|n]]].
  - reflexivity.
  - exists (pick digit_charset (draw (sub r 0) 0)). split; [reflexivity|]. apply digit_in, pick_in. discriminate.
  - exists (pick digit_charset (draw (sub r 0) 0)), (pick digit_charset (draw (sub r 0) 1)). split; [reflexivity|]. split; apply digit_in, pick_in; discriminate.
  - set (m := S (S (S n))). unfold generate_decimal. subst m. cbv iota beta.
    set (drawn := picks digit_charset (sub r 0) (S (S (S n)) + 1)).
    assert (Ld : length drawn = (n + 4)%nat) by (unfold drawn; rewrite picks_length; lia).
    assert (Dd : digits_only drawn) by apply picks_digits.
    cbv zeta. set (sample := no_two_zeros (pick (tl digit_charset) (draw (sub r 1) 0)) drawn).
    set (pos := (1 + N.to_nat (draw (sub r 1) 1 mod N.of_nat (S (S (S n)) - 2)))%nat).
    assert (Hp : (1 <= pos <= n + 1)%nat).
    { unfold pos. replace (S (S (S n)) - 2)%nat with (n + 1)%nat by lia. lia. }
    assert (Hs : exists c d u, sample = c :: d :: u /\ digits_only sample /\ (n + 2 <= length u)%nat /\ (c = 48 -> d <> 48)).
    { unfold sample. destruct drawn as [|a [|b t]]; [cbn in Ld; lia|cbn in Ld; lia|]. unfold no_two_zeros. destruct ((a =? 48) && (b =? 48)) eqn:E.
      - do 3 eexists. split; [reflexivity|]. assert (P : 49 <= pick (tl digit_charset) (draw (sub r 1) 0) <= 57) by (apply nonzero_digit_in, pick_in; discriminate).
        split; [constructor; [lia|exact Dd]|]. cbn [length] in *. split; [lia|]. lia.
      - do 3 eexists. split; [reflexivity|]. split; [exact Dd|]. cbn [length] in *. split; [lia|]. lia. }
    destruct Hs as (c & d & u & Es & Ds & Lu & Hz). clearbody sample pos. subst sample.
    set (selected := select_digits (S (S (S n))) pos (c :: d :: u)).
    assert (Hsel : exists e f v, selected = e :: f :: v /\ digits_only selected /\ length selected = S (S (S n)) /\ (e = 48 -> pos = 1%nat /\ f <> 48)).
    { unfold selected, select_digits. destruct (negb (Nat.eqb pos 1) && (c =? 48)) eqn:E.
      - destruct u as [|f u]; [cbn in Lu; lia|]. exists d, f, (firstn (S n) u). change (firstn (S (S (S n))) (skipn 1 (c :: d :: f :: u))) with (d :: f :: firstn (S n) u). split; [reflexivity|].
        split; [|split].
        + inversion Ds as [|? ? _ D2]; subst. apply (Forall_firstn _ _ (S (S (S n))) _ D2).
        + cbn [length] in Lu |- *. rewrite firstn_length. lia.
        + intro. exfalso. apply Hz; lia.
      - exists c, d, (firstn (S n) u). change (firstn (S (S (S n))) (c :: d :: u)) with (c :: d :: firstn (S n) u). split; [reflexivity|]. split; [|split].
        + apply (Forall_firstn _ _ (S (S (S n))) _ Ds).
        + cbn [length]. rewrite firstn_length. lia.
        + intro H. split; [lia|exact (Hz H)]. }
    destruct Hsel as (e & f & v & Ee & De & Le & He). clearbody selected. subst selected.
    destruct pos as [|pos]; [lia|].
    exists (firstn (S pos) (e :: f :: v)), (skipn (S pos) (e :: f :: v)).
    split; [reflexivity|]. rewrite firstn_skipn. split; [exact De|]. split; [exact Le|].
    rewrite firstn_length, skipn_length. split; [cbn [length] in *; lia|]. split; [lia|].
    cbn [firstn hd]. intro H. destruct (He H) as [Hp1 Hf]. split; [lia|].
    replace pos with O by lia. cbn [skipn hd]. exact Hf.
Qed.

(** A source with given draws. *)
Definition source2 (f g : nat -> N) : rng :=
  fun l => match l with
           | [O; i] => f i
           | [S _; i] => g i
           | _ => 0
           end.
Lemma decimal_complete : forall n s, decimal_text n s -> exists r, generate_decimal r n = s.
Proof.
  intros n s H. destruct n as [|[|[|n]]].
  - exists (fun _ => 0). symmetry. exact H.
  - destruct H as (d & -> & H). destruct (pick_any digit_charset d) as [k Hk]; [apply digit_in; exact H|].
    exists (fun _ => k). unfold generate_decimal, draw, sub. rewrite Hk. reflexivity.
  - destruct H as (d & e & -> & Hd & He). destruct (pick_any digit_charset d) as [k Hk]; [apply digit_in; exact Hd|].
    destruct (pick_any digit_charset e) as [j Hj]; [apply digit_in; exact He|].
    exists (source2 (fun i => match i with O => k | _ => j end) (fun _ => 0)). unfold generate_decimal, draw, sub, source2. rewrite Hk, Hj. reflexivity.
  - destruct H as (a & b & -> & D & L & La & Lb & Hz).
    assert (F : Forall (fun c => In c digit_charset) (a ++ b ++ [48])).
    { rewrite app_assoc. apply Forall_app. split; [|constructor; [apply digit_in; lia|constructor]].
      eapply Forall_impl; [|exact D]. intros c Hc. apply digit_in. exact Hc. }
    destruct (picks_any _ _ F) as [d Hd].
    exists (source2 d (fun _ => N.of_nat (length a - 1))).
    rewrite app_length in L.
    assert (Hn : (n + 4)%nat = length (a ++ b ++ [48])) by (rewrite !app_length; cbn; lia).
    unfold generate_decimal. cbv iota beta. replace (S (S (S n)) + 1)%nat with (n + 4)%nat by lia.
    rewrite Hn, Hd by reflexivity. cbv zeta.
    change (draw (sub (source2 d (fun _ => N.of_nat (length a - 1))) 1) 1) with (N.of_nat (length a - 1)).
    replace (S (S (S n)) - 2)%nat with (n + 1)%nat by lia. rewrite N.mod_small by lia. rewrite Nat2N.id.
    replace (1 + (length a - 1))%nat with (length a) by lia.
    destruct a as [|c a]; [cbn in La; lia|].
    assert (Hab : exists e t, a ++ b ++ [48] = e :: t /\ (c = 48 -> e <> 48)).
    { destruct a as [|e a]; [|exists e, (a ++ b ++ [48]); split; [reflexivity|intros Hc; destruct (Hz Hc) as [H1 _]; cbn in H1; lia]].
      destruct b as [|e b]; [cbn in Lb; lia|]. exists e, (b ++ [48]). split; [reflexivity|]. intro Hc. exact (proj2 (Hz Hc)). }
    destruct Hab as (e & t & Eab & Hce).
    set (l := (c :: a) ++ b ++ [48]).
    assert (El : l = c :: e :: t) by (unfold l; cbn [app]; rewrite Eab; reflexivity).
    assert (E1 : forall k, no_two_zeros k l = l).
    { intro k. rewrite El. unfold no_two_zeros. destruct ((c =? 48) && (e =? 48)) eqn:E1; [exfalso; apply Hce; lia|reflexivity]. }
    rewrite E1.
    assert (Es : select_digits (S (S (S n))) (length (c :: a)) l = (c :: a) ++ b).
    { unfold select_digits.
      assert (E2 : negb (Nat.eqb (length (c :: a)) 1) && match l with x :: _ => x =? 48 | [] => false end = false).
      { rewrite El. destruct (c =? 48) eqn:E; [|apply andb_false_r]. apply N.eqb_eq in E. destruct (Hz E) as [-> _]. reflexivity. }
      rewrite E2. unfold l. rewrite app_assoc.
      replace (S (S (S n))) with (length ((c :: a) ++ b) + 0)%nat by (rewrite app_length; lia). rewrite firstn_app_2. cbn [firstn]. apply app_nil_r. }
    rewrite Es. rewrite firstn_app, firstn_all, Nat.sub_diag. rewrite skipn_app, skipn_all, Nat.sub_diag. cbn [firstn skipn app]. rewrite app_nil_r. reflexivity.
Qed.

(** * Hexadecimal *)
Lemma set_nth_length : forall k c l, length (set_nth k c l) = length l.
Proof. intros k c l. revert k. induction l; intros [|k]; cbn; congruence. Qed.
Lemma set_nth_in : forall k c l x, In x (set_nth k c l) -> x = c \/ In x l.
Proof. intros k c l. revert k. induction l as [|y l IH]; intros [|k] x; cbn; try tauto; intros [H|H]; auto. apply IH in H. tauto. Qed.
Lemma set_nth_nodup : forall k c l, NoDup l -> ~ In c l -> NoDup (set_nth k c l).
Proof.
  intros k c l. revert k. induction l as [|y l IH]; intros [|k] N H; cbn; try exact N.
  - inversion N; subst. constructor; [|assumption]. intro. apply H. right. assumption.
  - inversion N; subst. constructor; [|apply IH; [assumption|intro; apply H; right; assumption]].
    intro Hy. apply set_nth_in in Hy. destruct Hy as [->|Hy]; [|contradiction]. apply H. left. reflexivity.
Qed.
Lemma reservoir_ok : forall r amount rest i res, NoDup (res ++ rest) ->
  NoDup (reservoir r amount i res rest) /\ length (reservoir r amount i res rest) = length res /\
  (forall c, In c (reservoir r amount i res rest) -> In c (res ++ rest)).
Proof.
  intros r amount rest. induction rest as [|c rest IH]; intros i res N; cbn [reservoir].
  - rewrite app_nil_r in *. auto.
  - set (res' := set_nth _ c res).
    assert (Nc : ~ In c (res ++ rest) /\ NoDup (res ++ rest)) by (apply NoDup_remove in N; tauto). destruct Nc as [Nc Nr].
    assert (N' : NoDup (res' ++ rest)).
    { assert (Hnd : NoDup res /\ NoDup rest /\ forall x, In x res -> ~ In x rest).
      { clear - Nr. induction res as [|y res IH]; cbn in *; [split; [constructor|]; split; [exact Nr|tauto]|].
        inversion Nr; subst. destruct (IH H2) as (A & B & C). split; [constructor; [|exact A]; intro; apply H1; apply in_or_app; auto|].
        split; [exact B|]. intros x [->|Hx] Hr; [apply H1; apply in_or_app; auto|exact (C x Hx Hr)]. }
      destruct Hnd as (A & B & C). rewrite in_app_iff in Nc.
      assert (A' : NoDup res') by (apply set_nth_nodup; [exact A|tauto]).
      assert (C' : forall x, In x res' -> ~ In x rest).
      { intros x Hx Hr. apply set_nth_in in Hx. destruct Hx as [->|Hx]; [tauto|exact (C x Hx Hr)]. }
      clear - A' B C'. induction res' as [|y l IHl]; [exact B|]. cbn. inversion A'; subst. constructor.
      - rewrite in_app_iff. intros [H|H]; [contradiction|]. exact (C' y (or_introl eq_refl) H).
      - apply IHl; [assumption|]. intros x Hx. apply C'. right. exact Hx. }
    destruct (IH (S i) res' N') as (I1 & I2 & I3). split; [exact I1|]. split; [rewrite I2; apply set_nth_length|].
    intros x Hx. apply I3 in Hx. rewrite in_app_iff in *. destruct Hx as [Hx|Hx]; [|right; right; exact Hx].
    apply set_nth_in in Hx. destruct Hx as [->|Hx]; [right; left; reflexivity|left; exact Hx].
Qed.
Lemma hex_nodup : NoDup hex_charset.
Proof. unfold hex_charset. cbn [S_]. repeat (constructor; [cbn; intuition discriminate|]). constructor. Qed.
Lemma hexadecimal_ok : forall r n,
  NoDup (generate_hexadecimal r n) /\ length (generate_hexadecimal r n) = Nat.min n 16 /\
  (forall c, In c (generate_hexadecimal r n) -> In c hex_charset).
Proof.
  intros r n. unfold generate_hexadecimal, choose_multiple.
  assert (N : NoDup (firstn n hex_charset ++ skipn n hex_charset)) by (rewrite firstn_skipn; exact hex_nodup).
  assert (L : length (firstn n hex_charset) = Nat.min n 16) by (rewrite firstn_length; reflexivity).
  destruct (reservoir_ok r n (skipn n hex_charset) 0 (firstn n hex_charset) N) as (A & B & C).
  destruct (Nat.eqb (length (firstn n hex_charset)) n).
  - split; [exact A|]. split; [rewrite B; exact L|]. intros c H. apply C in H. rewrite firstn_skipn in H. exact H.
  - split; [|split; [exact L|]].
    + revert N. clear. generalize (skipn n hex_charset). induction (firstn n hex_charset) as [|c l IH]; intros l' N; [constructor|]. cbn in N. inversion N; subst. constructor; [intro; apply H1, in_or_app; auto|eapply IH; eassumption].
    + intros c H. rewrite <- (firstn_skipn n). apply in_or_app. left. exact H.
Qed.

(** * Uuid *)
Lemma hex_digit_lower : forall n, n < 16 -> 48 <= hex_digit n <= 57 \/ 97 <= hex_digit n <= 102.
Proof. intros n H. unfold hex_digit. destruct (n <? 10) eqn:E; lia. Qed.
Lemma fits_x : forall n, n < 16 -> fits_char 120 (hex_digit n).
Proof. intros. apply hex_digit_lower. assumption. Qed.
Definition pattern_simple : str := S_ "xxxxxxxxxxxx4xxxyxxxxxxxxxxxxxxx".
Definition pattern_lower : str := S_ "xxxxxxxx-xxxx-4xxx-yxxx-xxxxxxxxxxxx".
Definition pattern_upper : str := S_ "XXXXXXXX-XXXX-4XXX-YXXX-XXXXXXXXXXXX".
Ltac fit :=
  repeat match goal with
         | |- Forall2 fits_char [] [] => constructor
         | |- Forall2 fits_char (120 :: _) _ => constructor; [apply fits_x; lia|]
         | |- Forall2 fits_char _ _ => constructor
         end.
Lemma fits_four : forall b, fits_char 52 (hex_digit ((64 + b mod 16) / 16)).
Proof. intro b. change (hex_digit ((64 + b mod 16) / 16) = 52). assert ((64 + b mod 16) / 16 = 4) as -> by lia. reflexivity. Qed.
Lemma fits_y : forall b, fits_char 121 (hex_digit ((128 + b mod 64) / 16)).
Proof.
  intro b. set (h := hex_digit ((128 + b mod 64) / 16)). change (h = 56 \/ h = 57 \/ h = 97 \/ h = 98). subst h. assert (H : (128 + b mod 64) / 16 = 8 \/ (128 + b mod 64) / 16 = 9 \/ (128 + b mod 64) / 16 = 10 \/ (128 + b mod 64) / 16 = 11) by lia.
  destruct H as [->|[->|[->| ->]]]; [left|right; left|right; right; left|right; right; right]; reflexivity.
Qed.
Lemma fits_same : forall c, (c =? 120) = false -> (c =? 88) = false -> (c =? 121) = false -> (c =? 89) = false -> fits_char c c.
Proof. intros c A B C D. unfold fits_char. rewrite A, B, C, D. reflexivity. Qed.
Ltac fit2 :=
  repeat first
    [ apply Forall2_nil
    | apply Forall2_cons; [first [apply fits_x; lia | apply fits_four | apply fits_y | apply fits_same; reflexivity]|] ].
Lemma simple_fits : forall r, fits pattern_simple (uuid_simple r).
Proof.
  intro r. unfold fits, uuid_simple, uuid_bytes, pattern_simple. cbn [seq map Nat.eqb]. cbn [S_ flat_map app hex_byte].
  unfold hex_byte. cbn [app]. fit2.
Qed.
Lemma hyphenated_fits : forall r, fits pattern_lower (uuid_hyphenated r).
Proof.
  intro r. unfold fits, uuid_hyphenated, uuid_bytes, pattern_lower. cbn [seq map Nat.eqb firstn skipn]. cbn [S_ flat_map app].
  unfold hex_byte. cbn [app]. fit2.
Qed.
