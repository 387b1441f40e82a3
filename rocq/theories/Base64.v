(** The standard alphabet of base64 with padding, as the crate [base64] writes and reads it
    ([general_purpose::STANDARD]): padding is required and has to be in its place, the bits that are left over have to be zero. *)
From Coq Require Import Ascii String List Arith NArith ZArith Lia Bool.
From Verif Require Import Base.
Import ListNotations.
Open Scope N_scope.

Definition b64_char (n : N) : N :=
  if n <? 26 then 65 + n else if n <? 52 then 71 + n else if n <? 62 then n - 4 else if n =? 62 then 43 else 47.
Definition b64_value (c : N) : option N :=
  if (65 <=? c) && (c <=? 90) then Some (c - 65)
  else if (97 <=? c) && (c <=? 122) then Some (c - 71)
  else if (48 <=? c) && (c <=? 57) then Some (c + 4)
  else if c =? 43 then Some 62 else if c =? 47 then Some 63 else None.

(** [Engine::encode]. *)
Fixpoint b64_encode (l : list N) : str :=
  match l with
  | [] => []
  | [a] => [b64_char (a / 4); b64_char (a mod 4 * 16); 61; 61]
  | [a; b] => [b64_char (a / 4); b64_char (a mod 4 * 16 + b / 16); b64_char (b mod 16 * 4); 61]
  | a :: b :: c :: l' =>
      [b64_char (a / 4); b64_char (a mod 4 * 16 + b / 16); b64_char (b mod 16 * 4 + c / 64); b64_char (c mod 64)] ++ b64_encode l'
  end.
(** [Engine::decode]; [None] is the error. *)
Fixpoint b64_decode (s : str) : option (list N) :=
  match s with
  | [] => Some []
  | p :: q :: r :: t :: s' =>
      match b64_value p, b64_value q with
      | Some x, Some y =>
          match b64_value r, b64_value t with
          | Some z, Some u =>
              match b64_decode s' with
              | Some l => Some (x * 4 + y / 16 :: y mod 16 * 16 + z / 4 :: z mod 4 * 64 + u :: l)
              | None => None
              end
          | Some z, None =>
              if (t =? 61) && (z mod 4 =? 0) && (match s' with [] => true | _ => false end)
              then Some [x * 4 + y / 16; y mod 16 * 16 + z / 4] else None
          | None, _ =>
              if (r =? 61) && (t =? 61) && (y mod 16 =? 0) && (match s' with [] => true | _ => false end)
              then Some [x * 4 + y / 16] else None
          end
      | _, _ => None
      end
  | _ => None
  end.

Lemma b64_value_char : forall n, n < 64 -> b64_value (b64_char n) = Some n.
Proof.
  intros n H. unfold b64_char, b64_value.
  destruct (N.ltb_spec n 26); [|destruct (N.ltb_spec n 52); [|destruct (N.ltb_spec n 62); [|destruct (N.eqb_spec n 62)]]].
  - replace ((65 <=? 65 + n) && (65 + n <=? 90)) with true by (symmetry; apply andb_true_iff; split; apply N.leb_le; lia). f_equal; lia.
  - replace ((65 <=? 71 + n) && (71 + n <=? 90)) with false by (symmetry; apply andb_false_iff; right; apply N.leb_gt; lia).
    replace ((97 <=? 71 + n) && (71 + n <=? 122)) with true by (symmetry; apply andb_true_iff; split; apply N.leb_le; lia). f_equal; lia.
  - replace ((65 <=? n - 4) && (n - 4 <=? 90)) with false by (symmetry; apply andb_false_iff; left; apply N.leb_gt; lia).
    replace ((97 <=? n - 4) && (n - 4 <=? 122)) with false by (symmetry; apply andb_false_iff; left; apply N.leb_gt; lia).
    replace ((48 <=? n - 4) && (n - 4 <=? 57)) with true by (symmetry; apply andb_true_iff; split; apply N.leb_le; lia). f_equal; lia.
  - subst. reflexivity.
  - assert (n = 63) by lia. subst. reflexivity.
Qed.

From Coq Require Import ZifyBool ZifyN ZifyNat.
Ltac Zify.zify_post_hook ::= Z.div_mod_to_equations.
Lemma three_ind : forall (P : list N -> Prop), P [] -> (forall a, P [a]) -> (forall a b, P [a; b]) ->
  (forall a b c l, P l -> P (a :: b :: c :: l)) -> forall l, P l.
Proof.
  intros P H0 H1 H2 H3. assert (forall n l, (length l <= n)%nat -> P l) as G.
  { induction n as [|n IH]; intros l L; [destruct l; [exact H0|cbn in L; lia]|].
    destruct l as [|a [|b [|c l]]]; auto. apply H3, IH. cbn in L. lia. }
  intro l. apply (G (length l)). lia.
Qed.
Lemma b64_round : forall l, Forall (fun b => b < 256) l -> b64_decode (b64_encode l) = Some l.
Proof.
  intro l. induction l using three_ind; intro F.
  - reflexivity.
  - inversion F; subst. cbn [b64_encode b64_decode]. rewrite !b64_value_char by lia.
    change (b64_value 61) with (@None N). change (61 =? 61) with true. cbn [andb].
    replace (a mod 4 * 16 mod 16 =? 0) with true by lia. cbn [andb]. do 2 f_equal. lia.
  - inversion F as [|? ? A F1]; subst. inversion F1; subst. cbn [b64_encode b64_decode]. rewrite !b64_value_char by lia.
    change (b64_value 61) with (@None N). change (61 =? 61) with true. cbn [andb].
    replace (b mod 16 * 4 mod 4 =? 0) with true by lia. cbn [andb]. do 2 f_equal; [lia|]. f_equal. lia.
  - inversion F as [|? ? A F1]; subst. inversion F1 as [|? ? B F2]; subst. inversion F2 as [|? ? C F3]; subst.
    cbn [b64_encode app b64_decode]. rewrite !b64_value_char by lia. rewrite IHl by exact F3. do 2 f_equal; [lia|]. f_equal; [lia|]. f_equal. lia.
Qed.
Lemma b64_encode_nil : forall l, b64_encode l = [] -> l = [].
Proof. intros [|a [|b [|c l]]] H; try discriminate. reflexivity. Qed.
