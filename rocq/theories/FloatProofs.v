(** A 64-bit integer converted to a double is a finite number. *)
From Coq Require Import List NArith ZArith Lia Bool Floats.SpecFloat.
From Verif Require Import Base Json Expr.
Open Scope Z_scope.

Lemma digits2_lower : forall p, 2 ^ (Z.pos (digits2_pos p) - 1) <= Z.pos p.
Proof.
  induction p as [p IH|p IH|]; cbn [digits2_pos].
  - rewrite Pos2Z.inj_succ. replace (Z.succ (Z.pos (digits2_pos p)) - 1) with (Z.succ (Z.pos (digits2_pos p) - 1)) by lia.
    rewrite Z.pow_succ_r by lia. lia.
  - rewrite Pos2Z.inj_succ. replace (Z.succ (Z.pos (digits2_pos p)) - 1) with (Z.succ (Z.pos (digits2_pos p) - 1)) by lia.
    rewrite Z.pow_succ_r by lia. lia.
  - cbn. lia.
Qed.
Lemma digits2_upper : forall p k, 0 <= k -> Z.pos p < 2 ^ k -> Z.pos (digits2_pos p) <= k.
Proof.
  intros p k Hk H. pose proof (digits2_lower p) as L.
  assert (X : 2 ^ (Z.pos (digits2_pos p) - 1) < 2 ^ k) by lia.
  apply Z.pow_lt_mono_r_iff in X; lia.
Qed.
Lemma Zdigits2_upper : forall m k, 0 <= k -> 0 <= m < 2 ^ k -> Zdigits2 m <= k.
Proof.
  intros [|p|p] k Hk H; cbn [Zdigits2]; [lia| |lia]. apply digits2_upper; lia.
Qed.

Lemma shr_1_bound : forall r, 0 <= shr_m r -> 0 <= shr_m (shr_1 r) <= shr_m r.
Proof.
  intros [m b s] H. cbn [shr_m] in *. destruct m as [|[p|p|]|p]; cbn; lia.
Qed.
Lemma iter_shr : forall p r, 0 <= shr_m r -> 0 <= shr_m (iter_pos shr_1 p r) <= shr_m r.
Proof.
  induction p as [p IH|p IH|]; intros r H; cbn [iter_pos].
  - pose proof (shr_1_bound r H). pose proof (IH (shr_1 r) ltac:(lia)).
    pose proof (IH (iter_pos shr_1 p (shr_1 r)) ltac:(lia)). lia.
  - pose proof (IH r H). pose proof (IH (iter_pos shr_1 p r) ltac:(lia)). lia.
  - apply shr_1_bound; exact H.
Qed.
Lemma shr_bound : forall r e n, 0 <= shr_m r ->
  0 <= shr_m (fst (shr r e n)) <= shr_m r /\ snd (shr r e n) = e + Z.max 0 n.
Proof.
  intros r e [|p|p] H; cbn [shr fst snd]; (split; [|lia]); try lia. apply iter_shr; exact H.
Qed.
Lemma record_of_loc_m : forall m l, shr_m (shr_record_of_loc m l) = m.
Proof. intros m [|[| |]]; reflexivity. Qed.
Lemma round_bound : forall m l, 0 <= m -> 0 <= round_nearest_even m l <= m + 1.
Proof. intros m l H. destruct l as [|[| |]]; cbn; try lia. destruct (Z.even m); lia. Qed.

Lemma fexp_upper : forall d, -1000 <= d -> fexp 53 1024 d <= Z.max (d - 53) (-1074) .
Proof. intros d H. unfold fexp, emin. lia. Qed.

Lemma shr_fexp_bound : forall m e l k, 0 <= m < 2 ^ k -> 0 <= k -> -1000 <= e ->
  0 <= shr_m (fst (shr_fexp 53 1024 m e l)) <= m /\
  e <= snd (shr_fexp 53 1024 m e l) <= Z.max e (k + e).
Proof.
  intros m e l k Hm Hk He. unfold shr_fexp.
  destruct (shr_bound (shr_record_of_loc m l) e (fexp 53 1024 (Zdigits2 m + e) - e)) as [A B].
  { rewrite record_of_loc_m. lia. }
  rewrite record_of_loc_m in A. split; [exact A|]. rewrite B.
  pose proof (Zdigits2_upper m k Hk Hm) as D.
  assert (D0 : 0 <= Zdigits2 m) by (destruct m; cbn [Zdigits2]; lia).
  pose proof (fexp_upper (Zdigits2 m + e)) as F. lia.
Qed.

Lemma binary_round_aux_finite : forall s m e, 0 <= m < 2 ^ 130 -> -1000 <= e <= 0 ->
  float_finite (binary_round_aux 53 1024 s m e loc_Exact) = true.
Proof.
  intros s m e Hm He. unfold binary_round_aux.
  pose proof (shr_fexp_bound m e loc_Exact 130 Hm ltac:(lia) ltac:(lia)) as [A B].
  destruct (shr_fexp 53 1024 m e loc_Exact) as [r1 e1]. cbn [fst snd] in A, B.
  pose proof (round_bound (shr_m r1) (loc_of_shr_record r1) ltac:(lia)) as R.
  set (m2 := round_nearest_even (shr_m r1) (loc_of_shr_record r1)) in *.
  assert (M2 : 0 <= m2 < 2 ^ 131).
  { change (2 ^ 131) with (2 * 2 ^ 130). change (2 ^ 130) with 1361129467683753853853498429727072845824 in *. lia. }
  pose proof (shr_fexp_bound m2 e1 loc_Exact 131 M2 ltac:(lia) ltac:(lia)) as [A2 B2].
  destruct (shr_fexp 53 1024 m2 e1 loc_Exact) as [r2 e2]. cbn [fst snd] in A2, B2.
  destruct (shr_m r2) as [|p|p]; [reflexivity| |lia].
  assert (L : (e2 <=? 1024 - 53) = true) by (apply Z.leb_le; lia).
  rewrite L. reflexivity.
Qed.

Lemma shift_pos_eq : forall d p, Z.pos (shift_pos d p) = Z.pos p * 2 ^ Z.pos d.
Proof. intros d p. rewrite Zpower.shift_pos_correct. cbn [Z.pow]. ring. Qed.

Lemma binary_round_finite : forall s p, Z.pos p <= 2 ^ 64 -> float_finite (binary_round 53 1024 s p 0) = true.
Proof.
  intros s p H. unfold binary_round.
  assert (D1 : 1 <= Z.pos (digits2_pos p)) by lia.
  assert (F : -53 <= fexp 53 1024 (Z.pos (digits2_pos p) + 0)) by (unfold fexp, emin; lia).
  set (e' := fexp 53 1024 (Z.pos (digits2_pos p) + 0)) in *.
  unfold shl_align. rewrite Z.sub_0_r.
  change (2 ^ 64) with 18446744073709551616 in H.
  destruct e' as [|d|d] eqn:E.
  - apply binary_round_aux_finite; [|lia]. split; [lia|]. change (2 ^ 130) with 1361129467683753853853498429727072845824. lia.
  - apply binary_round_aux_finite; [|lia]. split; [lia|]. change (2 ^ 130) with 1361129467683753853853498429727072845824. lia.
  - apply binary_round_aux_finite; [|lia].
    rewrite shift_pos_eq. split; [lia|].
    assert (P : 2 ^ Z.pos d <= 2 ^ 53) by (apply Z.pow_le_mono_r; lia).
    change (2 ^ 53) with 9007199254740992 in P.
    change (2 ^ 130) with 1361129467683753853853498429727072845824. nia.
Qed.

Lemma Z_to_float_finite : forall z, - 2 ^ 64 <= z <= 2 ^ 64 -> float_finite (Z_to_float z) = true.
Proof.
  intros [|p|p] H; unfold Z_to_float, binary_normalize; [reflexivity| |]; apply binary_round_finite; lia.
Qed.
