(** An integer of at most 53 bits converted to a double keeps its value. *)
From Coq Require Import List NArith ZArith Lia Bool Floats.SpecFloat.
From Verif Require Import Base Json Expr FloatProofs.
Open Scope Z_scope.

Lemma digits2_shift : forall d p, Z.pos (digits2_pos (shift_pos d p)) = Z.pos (digits2_pos p) + Z.pos d.
Proof.
  assert (H : forall d p, Z.pos (digits2_pos (Pos.iter xO p d)) = Z.pos (digits2_pos p) + Z.pos d).
  { intros d. induction d as [|d IH] using Pos.peano_ind; intro p; [cbn; lia|].
    rewrite Pos.iter_succ. cbn [digits2_pos]. rewrite Pos2Z.inj_succ, IH. lia. }
  intros d p. unfold shift_pos. apply H.
Qed.
Lemma shr_fexp_exact : forall p e, fexp 53 1024 (Z.pos (digits2_pos p) + e) = e ->
  shr_fexp 53 1024 (Z.pos p) e loc_Exact = ({| shr_m := Z.pos p; shr_r := false; shr_s := false |}, e).
Proof. intros p e H. unfold shr_fexp. cbn [Zdigits2]. rewrite H, Z.sub_diag. reflexivity. Qed.
Lemma aux_exact : forall s p e, fexp 53 1024 (Z.pos (digits2_pos p) + e) = e -> e <= 0 ->
  binary_round_aux 53 1024 s (Z.pos p) e loc_Exact = S754_finite s p e.
Proof.
  intros s p e H He. unfold binary_round_aux. rewrite shr_fexp_exact by exact H. cbn [shr_m loc_of_shr_record shr_r shr_s round_nearest_even].
  rewrite shr_fexp_exact by exact H. cbn [shr_m]. assert (L : (e <=? 1024 - 53) = true) by (apply Z.leb_le; lia). rewrite L. reflexivity.
Qed.
Lemma round_exact : forall s p, Z.pos p < 2 ^ 53 ->
  exists m e, binary_round 53 1024 s p 0 = S754_finite s m e /\ e <= 0 /\ Z.pos m = Z.pos p * 2 ^ (- e).
Proof.
  intros s p H. unfold binary_round. pose proof (digits2_upper p 53 ltac:(lia) H) as D.
  assert (F : fexp 53 1024 (Z.pos (digits2_pos p) + 0) = Z.pos (digits2_pos p) - 53) by (unfold fexp, emin; lia).
  unfold shl_align. rewrite F, Z.sub_0_r.
  destruct (Z.pos (digits2_pos p) - 53) as [|d|d] eqn:E; [|lia|].
  - exists p, 0. split; [|split; [lia|cbn; lia]]. apply aux_exact; [|lia]. rewrite F. reflexivity.
  - exists (shift_pos d p), (Z.neg d). split; [|split; [lia|apply shift_pos_eq]].
    apply aux_exact; [|lia]. rewrite digits2_shift. unfold fexp, emin. lia.
Qed.

(** The value of a finite double times a power of two is this integer. *)
Definition is_integer (f : spec_float) (z : Z) : Prop :=
  match f with
  | S754_zero _ => z = 0
  | S754_finite neg m e => (if neg then - Z.pos m else Z.pos m) = z * 2 ^ (- e) /\ e <= 0
  | _ => False
  end.
Lemma Z_to_float_exact : forall z, - 2 ^ 53 < z < 2 ^ 53 -> is_integer (Z_to_float z) z.
Proof.
  intros [|p|p] H; unfold Z_to_float, binary_normalize; [reflexivity| |].
  - destruct (round_exact false p ltac:(lia)) as (m & e & -> & He & E). cbn. split; [exact E|exact He].
  - destruct (round_exact true p ltac:(lia)) as (m & e & -> & He & E). cbn [is_integer]. split; [|exact He].
    change (Z.neg p) with (- Z.pos p). change (Z.neg m) with (- Z.pos m). rewrite E. ring.
Qed.
