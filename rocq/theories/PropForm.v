(** The form encoding: what is written is read back. *)
From Coq Require Import Ascii String List Arith NArith ZArith Lia Bool ZifyBool ZifyN ZifyNat.
From Verif Require Import Base PathExp Json Text TextProofs QueryString FormJson.
Import ListNotations.
Open Scope N_scope.
Local Ltac Zify.zify_post_hook ::= Z.div_mod_to_equations.

Lemma utf8_char_byte : forall c b, scalar c = true -> In b (utf8_char c) -> b < 256.
Proof.
  intros c b S J. unfold scalar in S. unfold utf8_char in J.
  destruct (N.ltb_spec c 128); [destruct J as [<-|[]]; lia|].
  destruct (N.ltb_spec c 2048); [destruct J as [<-|[<-|[]]]; lia|].
  destruct (N.ltb_spec c 65536); [destruct J as [<-|[<-|[<-|[]]]]; lia|].
  destruct J as [<-|[<-|[<-|[<-|[]]]]]; lia.
Qed.
Lemma utf8_byte : forall s b, forallb scalar s = true -> In b (utf8 s) -> b < 256.
Proof. intros s b S J. apply in_flat_map in J as (c & Jc & J). rewrite forallb_forall in S. exact (utf8_char_byte c b (S c Jc) J). Qed.
Lemma big_hex_value : forall d, d < 16 -> hex_value (big_hex d) = Some d.
Proof.
  intros d L. unfold hex_value, big_hex, is_digit. destruct (N.ltb_spec d 10).
  - replace ((48 <=? 48 + d) && (48 + d <=? 57)) with true by lia. f_equal. lia.
  - replace ((48 <=? 55 + d) && (55 + d <=? 57)) with false by lia. replace ((97 <=? 55 + d) && (55 + d <=? 102)) with false by lia.
    replace ((65 <=? 55 + d) && (55 + d <=? 70)) with true by lia. f_equal. lia.
Qed.
Lemma big_hex_range : forall d, d < 16 -> 48 <= big_hex d <= 57 \/ 65 <= big_hex d <= 70.
Proof. intros d L. unfold big_hex. destruct (N.ltb_spec d 10); lia. Qed.
Lemma plain_range : forall b, form_plain b = true -> 65 <= b <= 90 \/ 97 <= b <= 122 \/ 48 <= b <= 57 \/ b = 42 \/ b = 45 \/ b = 46 \/ b = 95.
Proof. intros b H. unfold form_plain, is_upper, is_lower, is_digit in H. lia. Qed.
Lemma form_byte_chars : forall b c, b < 256 -> In c (form_byte b) -> c <> 38 /\ c <> 61.
Proof.
  intros b c L J. unfold form_byte in J. destruct (form_plain b) eqn:P.
  - destruct J as [<-|[]]. apply plain_range in P. lia.
  - destruct (N.eqb_spec b 32); [destruct J as [<-|[]]; lia|]. pose proof (big_hex_range (b / 16) ltac:(lia)). pose proof (big_hex_range (b mod 16) ltac:(lia)).
    destruct J as [<-|[<-|[<-|[]]]]; lia.
Qed.
Definition spaced (c : N) : N := if c =? 43 then 32 else c.
Lemma form_byte_back : forall b r, b < 256 -> percent_decode (map spaced (form_byte b) ++ r) = b :: percent_decode r.
Proof.
  intros b r L. unfold form_byte. destruct (form_plain b) eqn:P.
  - apply plain_range in P. cbn [map app]. unfold spaced. destruct (N.eqb_spec b 43); [lia|]. cbn [percent_decode]. destruct (N.eqb_spec b 37); [lia|reflexivity].
  - destruct (N.eqb_spec b 32) as [->|N32]; [reflexivity|]. cbn [map app]. pose proof (big_hex_range (b / 16) ltac:(lia)) as R1. pose proof (big_hex_range (b mod 16) ltac:(lia)) as R2.
    unfold spaced. replace (37 =? 43) with false by reflexivity. destruct (N.eqb_spec (big_hex (b / 16)) 43); [lia|]. destruct (N.eqb_spec (big_hex (b mod 16)) 43); [lia|].
    cbn [percent_decode]. replace (37 =? 37) with true by reflexivity. rewrite !big_hex_value by lia. f_equal. lia.
Qed.
Lemma form_bytes_back : forall l, Forall (fun b => b < 256) l -> percent_decode (map spaced (flat_map form_byte l)) = l.
Proof.
  induction 1 as [|b l Hb _ IH]; [reflexivity|]. cbn [flat_map]. rewrite map_app, form_byte_back by exact Hb. rewrite IH. reflexivity.
Qed.
Lemma encode_chars : forall s c, forallb scalar s = true -> In c (form_encode s) -> c <> 38 /\ c <> 61.
Proof. intros s c Sc J. unfold form_encode in J. apply in_flat_map in J as (b & Jb & J). exact (form_byte_chars b c (utf8_byte s b Sc Jb) J). Qed.
Lemma decode_encode : forall lossy s, forallb scalar s = true -> form_decode lossy (form_encode s) = s.
Proof.
  intros lossy s Sc. unfold form_decode, form_encode. change (fun c : N => if c =? 43 then 32 else c) with spaced. rewrite form_bytes_back.
  - cbv zeta. rewrite (from_utf8_utf8 s Sc). reflexivity.
  - apply Forall_forall. intros b J. exact (utf8_byte s b Sc J).
Qed.
(** Texts: Unicode scalar values only. *)
Definition text_pair (kv : str * str) : Prop := forallb scalar (fst kv) = true /\ forallb scalar (snd kv) = true.
(** A form that was written is read back as the same fields in the same order. *)
Theorem C109_forms_are_read_back : forall lossy l, Forall text_pair l -> form_parse lossy (form_to_string l) = l.
Proof.
  intros lossy l F. unfold form_parse, form_to_string. set (f := fun kv : str * str => form_encode (fst kv) ++ [61] ++ form_encode (snd kv)).
  destruct l as [|kv l]; [reflexivity|]. rewrite split_join.
  - replace (filter _ (map f (kv :: l))) with (map f (kv :: l)).
    + rewrite map_map. rewrite <- (map_id (kv :: l)) at 2. apply map_ext_in. intros [k v] J. rewrite Forall_forall in F. destruct (F (k, v) J) as [Sk Sv]. cbn [fst snd] in *.
      subst f. cbn [fst snd app]. rewrite split_once_app; [rewrite !decode_encode by assumption; reflexivity|]. intro Z. destruct (encode_chars k 61 Sk Z). congruence.
    + clear F. generalize (kv :: l) as l0. induction l0 as [|a l0 IH]; [reflexivity|]. cbn [map filter]. rewrite <- IH. destruct (f a) eqn:E; [|reflexivity].
      exfalso. subst f. cbv beta in E. apply app_eq_nil in E as [_ E]. discriminate.
  - discriminate.
  - apply Forall_map. revert F. apply Forall_impl. intros [k v] [Sk Sv] J. subst f. cbn [fst snd] in *. rewrite !in_app_iff in J.
    destruct J as [J|[[J|[]]|J]]; [destruct (encode_chars k 38 Sk J); congruence | discriminate | destruct (encode_chars v 38 Sv J); congruence].
Qed.

(** What is written has only the characters of forms: no space, nothing outside ASCII. *)
Definition form_char (c : N) : Prop :=
  65 <= c <= 90 \/ 97 <= c <= 122 \/ 48 <= c <= 57 \/ In c (S_ "*-._+%&=").
Theorem C109_form_characters : forall l, Forall text_pair l -> Forall form_char (form_to_string l).
Proof.
  intros l F. assert (E : forall s, forallb scalar s = true -> Forall form_char (form_encode s)).
  { intros s Sc. apply Forall_forall. intros c J. unfold form_encode in J. apply in_flat_map in J as (b & Jb & J). pose proof (utf8_byte s b Sc Jb) as L.
    unfold form_byte in J. unfold form_char. cbn [In S_]. destruct (form_plain b) eqn:P.
    - destruct J as [<-|[]]. apply plain_range in P. assert (Q : 65 <= b <= 90 \/ 97 <= b <= 122 \/ 48 <= b <= 57 \/ b = 42 \/ b = 45 \/ b = 46 \/ b = 95) by lia.
      destruct Q as [Q|[Q|[Q|[-> |[-> |[-> | ->]]]]]]; [left; exact Q | right; left; exact Q | right; right; left; exact Q | | | |]; right; right; right; vm_compute; tauto.
    - destruct (N.eqb_spec b 32); [destruct J as [<-|[]]; right; right; right; vm_compute; tauto|].
      pose proof (big_hex_range (b / 16) ltac:(lia)). pose proof (big_hex_range (b mod 16) ltac:(lia)). destruct J as [<-|[<-|[<-|[]]]]; [right; right; right; vm_compute; tauto | lia | lia]. }
  unfold form_to_string. induction l as [|[k v] l IH]; [constructor|]. inversion F as [|? ? [Sk Sv] F']; subst. cbn [fst snd] in *.
  assert (P : Forall form_char (form_encode k ++ [61] ++ form_encode v)).
  { apply Forall_app. split; [apply E, Sk|]. constructor; [right; right; right; vm_compute; tauto | apply E, Sv]. }
  cbn [map fst snd]. destruct l as [|kv l]; [exact P|]. cbn [map join_with] in *. apply Forall_app. split; [exact P|].
  constructor; [right; right; right; vm_compute; tauto|]. apply IH, F'.
Qed.
