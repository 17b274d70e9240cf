From stdpp Require Import list list_numbers.
From Coq Require Import Reals Lra Lia.
From Verif Require Import Base Sampler SamplerSpec SamplerFade.
Open Scope R_scope.

(** the curve, also at and beyond its end *)
Definition curve (n p : nat) : R := 0.5 + 0.5 * sin ((2 * INR (p `min` n) / INR n - 1) * (PI / 2)).

Lemma gain_curve n p : (0 < n)%nat → fade_in_gain n p = curve n p.
Proof.
  intros Hn. assert (Hn' : 0 < INR n) by (apply (lt_INR 0); lia).
  unfold fade_in_gain, fade_value, fade_values, curve. rewrite list_lookup_fmap.
  destruct (decide (p < n)%nat).
  - rewrite lookup_seq_lt by lia. cbn. rewrite Nat.min_l by lia. done.
  - rewrite lookup_seq_ge by lia. cbn. rewrite Nat.min_r by lia.
    replace ((2 * INR n / INR n - 1) * (PI / 2)) with (PI / 2) by (field; lra). rewrite sin_PI2. lra.
Qed.
Lemma gain_empty p : fade_in_gain 0 p = 1.
Proof. done. Qed.

Lemma angle_range n p : (0 < n)%nat → - (PI / 2) <= (2 * INR (p `min` n) / INR n - 1) * (PI / 2) <= PI / 2.
Proof.
  intros Hn. assert (Hn' : 0 < INR n) by (apply (lt_INR 0); lia). pose proof PI_RGT_0.
  assert (0 <= INR (p `min` n) / INR n <= 1).
  { split.
    - apply Rmult_le_pos; [apply pos_INR|]. apply Rlt_le, Rinv_0_lt_compat. done.
    - apply (Rmult_le_reg_r (INR n)); [done|]. unfold Rdiv. rewrite Rmult_assoc, Rinv_l, Rmult_1_r, Rmult_1_l by lra.
      apply le_INR. lia. }
  replace (2 * INR (p `min` n) / INR n) with (2 * (INR (p `min` n) / INR n)) by (unfold Rdiv; ring).
  set (x := INR (p `min` n) / INR n) in *. split.
  - replace (- (PI / 2)) with (-1 * (PI / 2)) by ring. apply Rmult_le_compat_r; lra.
  - rewrite <-(Rmult_1_l (PI / 2)) at 2. apply Rmult_le_compat_r; lra.
Qed.

Lemma fade_range n p : 0 <= fade_in_gain n p <= 1.
Proof.
  destruct (decide (n = 0)%nat) as [-> |Hn]; [rewrite gain_empty; lra|]. rewrite gain_curve by lia. unfold curve.
  set (x := (_ * (PI / 2))). pose proof (SIN_bound x). lra.
Qed.
Lemma fade_mono n p q : (p <= q)%nat → fade_in_gain n p <= fade_in_gain n q.
Proof.
  intros Hpq. destruct (decide (n = 0)%nat) as [-> |Hn]; [rewrite !gain_empty; lra|]. rewrite !gain_curve by lia. unfold curve.
  pose proof (angle_range n p ltac:(lia)) as [A1 A2]. pose proof (angle_range n q ltac:(lia)) as [B1 B2].
  assert (sin ((2 * INR (p `min` n) / INR n - 1) * (PI / 2)) <= sin ((2 * INR (q `min` n) / INR n - 1) * (PI / 2))); [|lra].
  apply sin_incr_1; [done..|]. pose proof PI_RGT_0.
  apply Rmult_le_compat_r; [lra|]. apply Rplus_le_compat_r.
  assert (Hn' : 0 < INR n) by (apply (lt_INR 0); lia).
  apply Rmult_le_compat_r; [apply Rlt_le, Rinv_0_lt_compat; done|].
  apply Rmult_le_compat_l; [lra|]. apply le_INR. lia.
Qed.
Lemma fade_begin n : (0 < n)%nat → fade_in_gain n 0 = 0.
Proof.
  intros Hn. assert (Hn' : 0 < INR n) by (apply (lt_INR 0); lia).
  rewrite gain_curve by done. unfold curve. rewrite Nat.min_0_l. cbn [INR].
  replace ((2 * 0 / INR n - 1) * (PI / 2)) with (- (PI / 2)) by (field; lra). rewrite sin_neg, sin_PI2. lra.
Qed.
Lemma fade_end n p : (n <= p)%nat → fade_in_gain n p = 1.
Proof.
  intros Hp. unfold fade_in_gain, fade_value. rewrite lookup_ge_None_2; [done|].
  unfold fade_values. rewrite fmap_length, seq_length. lia.
Qed.
Lemma fade_out_ok n p : (p <= n)%nat → fade_out_gain n p = Ok (fade_in_gain n (n - p)).
Proof.
  intros Hp. unfold fade_out_gain, fade_out_value.
  assert (Hl : length (fade_values n) = n) by (unfold fade_values; by rewrite fmap_length, seq_length). rewrite Hl.
  destruct (Nat.ltb_spec n p); [lia|]. done.
Qed.
Lemma fade_complement n p : (0 < n)%nat → (p <= n)%nat → fade_in_gain n p + fade_in_gain n (n - p) = 1.
Proof.
  intros Hn Hp. assert (Hn' : 0 < INR n) by (apply (lt_INR 0); lia).
  rewrite !gain_curve by done. unfold curve. rewrite !Nat.min_l by lia. rewrite minus_INR by lia.
  replace ((2 * (INR n - INR p) / INR n - 1) * (PI / 2)) with (- ((2 * INR p / INR n - 1) * (PI / 2))) by (field; lra).
  rewrite sin_neg. lra.
Qed.
(** the two gains of a cross-fade *)
Lemma crossfade n k : (k < n)%nat → gain_in 1 (fade_values n) k + gain_out 1 (fade_values n) k = 1.
Proof.
  intros Hk. pose proof (fade_complement n k ltac:(lia) ltac:(lia)) as H.
  assert (Hl : length (fade_values n) = n) by (unfold fade_values; by rewrite fmap_length, seq_length).
  assert (Ho : gain_out 1 (fade_values n) k = fade_in_gain n (n - k)).
  { unfold gain_out. destruct k as [|k]; [rewrite fade_end by lia; done|]. by rewrite Hl. }
  rewrite Ho. exact H.
Qed.
