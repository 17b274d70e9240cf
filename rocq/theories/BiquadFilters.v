From stdpp Require Import list.
From Coq Require Import Reals Lra Lia Psatz.
From Verif Require Import Biquad BiquadSpec BiquadStable BiquadResponse.
Local Open Scope R_scope.

Lemma omega_range f sr : audible f sr → 0 < omega f sr < PI.
Proof.
  intros [H1 H2]. unfold omega. pose proof PI_RGT_0 as HP. assert (0 < sr) by lra. split.
  - apply Rdiv_lt_0_compat; [|done]. apply Rmult_lt_0_compat; lra.
  - apply (Rmult_lt_reg_r sr); [done|]. replace (2 * PI * f / sr * sr) with (2 * PI * f) by (field; lra).
    assert (PI * (2 * f) < PI * sr) by (apply Rmult_lt_compat_l; lra). lra.
Qed.
Lemma omega_sin f sr : audible f sr → 0 < sin (omega f sr).
Proof. intros H. destruct (omega_range f sr H). by apply sin_gt_0. Qed.
Lemma cos_strict w : 0 < w < PI → -1 < cos w < 1.
Proof.
  intros [H1 H2]. assert (Hs : 0 < sin w) by (by apply sin_gt_0). pose proof (sin2_cos2 w) as H. unfold Rsqr in H.
  assert (0 < sin w * sin w) by (by apply Rmult_lt_0_compat). split; nra.
Qed.
Lemma omega_cos f sr : audible f sr → -1 < cos (omega f sr) < 1.
Proof. intros H. apply cos_strict. by apply omega_range. Qed.
Lemma cos_above_Nyquist w : 0 <= w < PI → -1 < cos w <= 1.
Proof. intros [[H1|<-] H2]; [destruct (cos_strict w); lra|rewrite cos_0; lra]. Qed.

(** unscaled triangle *)
Lemma triangle_scaled a0 a1 a2 b0 b1 b2 : 0 < a0 → Rabs a1 < a0 + a2 → a2 < a0 → triangle (c_a1 (scaled_by a0 a1 a2 b0 b1 b2)) (c_a2 (scaled_by a0 a1 a2 b0 b1 b2)).
Proof.
  intros H0 H1 H2. unfold scaled_by, triangle. cbn [c_a1 c_a2]. assert (Hi : 0 < 1 / a0) by (apply Rdiv_lt_0_compat; lra).
  rewrite Rabs_mult, (Rabs_pos_eq (1 / a0)) by lra. split.
  - apply (Rmult_lt_reg_r a0); [done|]. replace (Rabs a1 * (1 / a0) * a0) with (Rabs a1) by (field; lra).
    replace ((1 + a2 * (1 / a0)) * a0) with (a0 + a2) by (field; lra). done.
  - apply (Rmult_lt_reg_r a0); [done|]. replace (a2 * (1 / a0) * a0) with a2 by (field; lra). lra.
Qed.
Lemma pass_triangle alpha co b0 b1 b2 : 0 < alpha → -1 < co < 1 →
  triangle (c_a1 (scaled_by (1 + alpha) (-2 * co) (1 - alpha) b0 b1 b2)) (c_a2 (scaled_by (1 + alpha) (-2 * co) (1 - alpha) b0 b1 b2)).
Proof. intros Ha Hc. apply triangle_scaled; [lra| |lra]. apply Rabs_def1; lra. Qed.

Lemma respond_scaled a0 a1 a2 b0 b1 b2 w g theta : 0 < a0 → Rabs a1 < a0 + a2 → a2 < a0 →
  g * (a0 * cos theta + a1 * cos (theta - w) + a2 * cos (theta - 2 * w)) = b0 + b1 * cos w + b2 * cos (2 * w) →
  g * (a0 * sin theta + a1 * sin (theta - w) + a2 * sin (theta - 2 * w)) = - b1 * sin w - b2 * sin (2 * w) →
  responds (scaled_by a0 a1 a2 b0 b1 b2) w g theta.
Proof.
  intros H0 H1 H2 Hr Hi. apply responds_if; [by apply triangle_scaled| |]; unfold scaled_by; cbn [c_a1 c_a2 c_b0 c_b1 c_b2].
  - transitivity (1 / a0 * (g * (a0 * cos theta + a1 * cos (theta - w) + a2 * cos (theta - 2 * w)))); [field; lra|]. rewrite Hr. ring.
  - transitivity (1 / a0 * (g * (a0 * sin theta + a1 * sin (theta - w) + a2 * sin (theta - 2 * w)))); [field; lra|]. rewrite Hi. ring.
Qed.
Lemma respond_dc a0 a1 a2 b0 b1 b2 g : 0 < a0 → Rabs a1 < a0 + a2 → a2 < a0 → g * (a0 + a1 + a2) = b0 + b1 + b2 →
  responds (scaled_by a0 a1 a2 b0 b1 b2) 0 g 0.
Proof.
  intros H0 H1 H2 Hg. apply respond_scaled; [done..| |].
  - rewrite !Rmult_0_r, !Rminus_0_r, !cos_0. lra.
  - rewrite !Rmult_0_r, !Rminus_0_r, !sin_0. lra.
Qed.
Lemma respond_nyquist a0 a1 a2 b0 b1 b2 g : 0 < a0 → Rabs a1 < a0 + a2 → a2 < a0 → g * (a0 - a1 + a2) = b0 - b1 + b2 →
  responds (scaled_by a0 a1 a2 b0 b1 b2) PI g 0.
Proof.
  intros H0 H1 H2 Hg. apply respond_scaled; [done..| |]; rewrite !Rminus_0_l.
  - rewrite !cos_neg, cos_0, cos_PI, cos_2PI. lra.
  - rewrite !sin_neg, sin_0, sin_PI, sin_2PI. lra.
Qed.
(** the squared amplitude, |B|^2/|A|^2, over cos w *)
Lemma respond_curve a0 a1 a2 b0 b1 b2 w n d : 0 < a0 → Rabs a1 < a0 + a2 → a2 < a0 → 0 < d → 0 <= n →
  let k := cos w in
  ((b1 + (b0 + b2) * k) ^ 2 + (b0 - b2) ^ 2 * (1 - k * k)) * d = n * ((a1 + (a0 + a2) * k) ^ 2 + (a0 - a2) ^ 2 * (1 - k * k)) →
  ∃ theta, responds (scaled_by a0 a1 a2 b0 b1 b2) w (sqrt (n / d)) theta.
Proof.
  intros H0 H1 H2 Hd Hn k Hq. assert (Ht : triangle (c_a1 (scaled_by a0 a1 a2 b0 b1 b2)) (c_a2 (scaled_by a0 a1 a2 b0 b1 b2))) by (by apply triangle_scaled).
  assert (Hs : sin w * sin w = 1 - k * k). { pose proof (sin2_cos2 w) as E. unfold Rsqr in E. fold k in E. lra. }
  assert (Hid : ∀ p0 p1 p2, (p0 + p1 * cos w + p2 * cos (2 * w)) * (p0 + p1 * cos w + p2 * cos (2 * w)) + (- p1 * sin w - p2 * sin (2 * w)) * (- p1 * sin w - p2 * sin (2 * w)) =
    (p1 + (p0 + p2) * k) ^ 2 + (p0 - p2) ^ 2 * (1 - k * k)).
  { intros p0 p1 p2. rewrite cos_2a_cos, sin_2a. fold k. set (s := sin w) in *.
    transitivity ((p0 + p1 * k + p2 * (2 * k * k - 1)) * (p0 + p1 * k + p2 * (2 * k * k - 1)) + (s * s) * (p1 + p2 * 2 * k) * (p1 + p2 * 2 * k)); [ring|]. rewrite Hs. ring. }
  apply (responds_everywhere _ w n d Ht Hd Hn); unfold scaled_by; cbn [c_a1 c_a2 c_b0 c_b1 c_b2].
  - rewrite Hid, Hid. transitivity ((1 / a0) ^ 2 * (((b1 + (b0 + b2) * k) ^ 2 + (b0 - b2) ^ 2 * (1 - k * k)) * d)); [ring|]. rewrite Hq. field. lra.
  - rewrite Hid. set (p1 := a1 * (1 / a0)). set (p2 := a2 * (1 / a0)). destruct Ht as [T1 T2]. cbn [c_a1 c_a2 scaled_by] in T1, T2. fold p1 p2 in T1, T2.
    intros E. pose proof (COS_bound w) as Hk. fold k in Hk. pose proof (Rle_0_sqr (p1 + (1 + p2) * k)) as Hq1. unfold Rsqr in Hq1.
    assert (Hkk : 0 <= 1 - k * k) by nra. assert (Hp : 0 < (1 - p2) ^ 2) by (apply pow_lt; lra).
    assert (Hz : (1 - p2) ^ 2 * (1 - k * k) = 0). { assert (0 <= (1 - p2) ^ 2 * (1 - k * k)) by (apply Rmult_le_pos; lra). lra. }
    assert (Hk1 : 1 - k * k = 0). { apply Rmult_integral in Hz as [Hz|Hz]; lra. }
    assert (Hl : p1 + (1 + p2) * k = 0). { apply Rsqr_0_uniq. unfold Rsqr. lra. }
    apply abs_lt_between in T1. assert (Hcase : k = 1 ∨ k = -1). { assert ((k - 1) * (k + 1) = 0) as Hm by lra. apply Rmult_integral in Hm as [?|?]; [left|right]; lra. }
    destruct Hcase as [Ek|Ek]; rewrite Ek in Hl; lra.
Qed.

Lemma tan_half w : 0 <= w < PI → (tan (w / 2)) ^ 2 = (1 - cos w) / (1 + cos w).
Proof.
  intros Hw. pose proof (cos_above_Nyquist w Hw) as Hc. set (h := w / 2). assert (Ew : w = 2 * h) by (unfold h; field). rewrite Ew in *.
  rewrite cos_2a_cos in *. assert (cos h ≠ 0) by (intros E; rewrite E in Hc; lra).
  unfold tan. pose proof (sin2_cos2 h) as H2. unfold Rsqr in H2. transitivity ((sin h * sin h) / (cos h * cos h)); [field; done|].
  replace (sin h * sin h) with (1 - cos h * cos h) by lra. field. split; [nra|done].
Qed.
(** detuning over the cosines *)
Lemma detuning_cos w f sr : 0 <= w < PI → audible f sr →
  detuning w f sr = (1 - cos w) * (1 + cos (omega f sr)) / ((1 + cos w) * (1 - cos (omega f sr))).
Proof.
  intros Hw Ha. pose proof (omega_range f sr Ha) as Ho. pose proof (omega_cos f sr Ha) as Hc. pose proof (cos_above_Nyquist w Hw) as Hk.
  unfold detuning. assert (E2 := tan_half (omega f sr) ltac:(lra)). assert (E1 := tan_half w Hw).
  assert (Ht : tan (omega f sr / 2) ≠ 0).
  { intros E. rewrite E in E2. assert ((1 - cos (omega f sr)) = 0); [|lra]. 
    transitivity ((1 - cos (omega f sr)) / (1 + cos (omega f sr)) * (1 + cos (omega f sr))); [field; lra|]. rewrite <-E2. ring. }
  unfold Rdiv at 1. rewrite Rpow_mult_distr, E1. rewrite pow_inv. rewrite E2. field. lra.
Qed.
Lemma detuning_pos w f sr : 0 <= detuning w f sr.
Proof. unfold detuning. apply pow2_ge_0. Qed.

Section pass.
  Context (f sr q : R) (Ha : audible f sr) (Hq : 0 < q).
  Local Notation co := (cos (omega f sr)).
  Local Notation so := (sin (omega f sr)).
  Local Notation alpha := (so / (2 * q)).
  Lemma alpha_pos : 0 < alpha.
  Proof. apply Rdiv_lt_0_compat; [by apply omega_sin|lra]. Qed.
  Lemma pass_abs : Rabs (-2 * co) < 1 + alpha + (1 - alpha).
  Proof. pose proof (omega_cos f sr Ha). apply Rabs_def1; lra. Qed.
  Lemma pass_stable b0 b1 b2 : is_stable (scaled_by (1 + alpha) (-2 * co) (1 - alpha) b0 b1 b2).
  Proof. apply triangle_stable, pass_triangle; [apply alpha_pos|by apply omega_cos]. Qed.
  Lemma low_stable : is_stable (low_pass f sr q).
  Proof. apply pass_stable. Qed.
  Lemma high_stable : is_stable (high_pass f sr q).
  Proof. apply pass_stable. Qed.
  Lemma band_stable : is_stable (band_pass f sr q).
  Proof. apply pass_stable. Qed.
  Lemma notch_stable : is_stable (notch f sr q).
  Proof. apply pass_stable. Qed.
  Ltac pass := pose proof alpha_pos; pose proof pass_abs; (lra || assumption).

  Lemma low_dc : responds (low_pass f sr q) 0 1 0.
  Proof. apply respond_dc; [pass|exact pass_abs|pass|]. field; lra. Qed.
  Lemma low_nyquist : responds (low_pass f sr q) PI 0 0.
  Proof. apply respond_nyquist; [pass|exact pass_abs|pass|]. field; lra. Qed.
  Lemma high_dc : responds (high_pass f sr q) 0 0 0.
  Proof. apply respond_dc; [pass|exact pass_abs|pass|]. field; lra. Qed.
  Lemma high_nyquist : responds (high_pass f sr q) PI 1 0.
  Proof. apply respond_nyquist; [pass|exact pass_abs|pass|]. field; lra. Qed.
  Lemma band_dc : responds (band_pass f sr q) 0 0 0.
  Proof. apply respond_dc; [pass|exact pass_abs|pass|]. field; lra. Qed.
  Lemma band_nyquist : responds (band_pass f sr q) PI 0 0.
  Proof. apply respond_nyquist; [pass|exact pass_abs|pass|]. field; lra. Qed.
  Lemma notch_dc : responds (notch f sr q) 0 1 0.
  Proof. apply respond_dc; [pass|exact pass_abs|pass|]. field; lra. Qed.
  Lemma notch_nyquist : responds (notch f sr q) PI 1 0.
  Proof. apply respond_nyquist; [pass|exact pass_abs|pass|]. field; lra. Qed.

  Lemma so2 : so * so = 1 - co * co.
  Proof. pose proof (sin2_cos2 (omega f sr)) as H. unfold Rsqr in H. lra. Qed.
  Lemma low_centre : responds (low_pass f sr q) (omega f sr) q (- (PI / 2)).
  Proof.
    apply respond_scaled; [pass|exact pass_abs|pass| |]; set (w := omega f sr) in *.
    - replace (- (PI / 2) - w) with (- (PI / 2 + w)) by ring. replace (- (PI / 2) - 2 * w) with (- (PI / 2 + 2 * w)) by ring.
      rewrite !cos_neg, cos_PI2, (cos_plus (PI / 2) w), (cos_plus (PI / 2) (2 * w)), cos_PI2, sin_PI2, cos_2a_cos, sin_2a.
      set (s := sin w) in *. set (c := cos w) in *. assert (E : s * s = 1 - c * c) by exact so2. transitivity ((s * s) * c); [field; lra|rewrite E; field].
    - replace (- (PI / 2) - w) with (- (PI / 2 + w)) by ring. replace (- (PI / 2) - 2 * w) with (- (PI / 2 + 2 * w)) by ring.
      rewrite !sin_neg, sin_PI2, (sin_plus (PI / 2) w), (sin_plus (PI / 2) (2 * w)), cos_PI2, sin_PI2, cos_2a_cos, sin_2a.
      set (s := sin w) in *. set (c := cos w) in *. assert (E : s * s = 1 - c * c) by exact so2.
      field_simplify; [|lra..]. assert (E2 : c ^ 2 = 1 - s ^ 2) by (cbn [pow]; lra). try (rewrite E2; field; lra). 
  Qed.
  Lemma high_centre : responds (high_pass f sr q) (omega f sr) q (PI / 2).
  Proof.
    apply respond_scaled; [pass|exact pass_abs|pass| |]; set (w := omega f sr) in *.
    - rewrite (cos_minus (PI / 2) w), (cos_minus (PI / 2) (2 * w)), cos_PI2, sin_PI2, cos_2a_cos, sin_2a.
      set (s := sin w) in *. set (c := cos w) in *. assert (E : s * s = 1 - c * c) by exact so2. transitivity (- (s * s) * c); [field; lra|rewrite E; field].
    - rewrite (sin_minus (PI / 2) w), (sin_minus (PI / 2) (2 * w)), cos_PI2, sin_PI2, cos_2a_cos, sin_2a.
      set (s := sin w) in *. set (c := cos w) in *. assert (E : s * s = 1 - c * c) by exact so2.
      field_simplify; [|lra..]. assert (E2 : c ^ 2 = 1 - s ^ 2) by (cbn [pow]; lra). try (rewrite E2; field; lra).
  Qed.
  Lemma band_centre : responds (band_pass f sr q) (omega f sr) 1 0.
  Proof.
    apply respond_scaled; [pass|exact pass_abs|pass| |]; set (w := omega f sr) in *; rewrite !Rminus_0_l, ?cos_neg, ?sin_neg, ?cos_0, ?sin_0, ?cos_2a_cos, ?sin_2a.
    - field. lra.
    - field. lra.
  Qed.
  Lemma notch_centre : responds (notch f sr q) (omega f sr) 0 0.
  Proof.
    apply respond_scaled; [pass|exact pass_abs|pass| |]; rewrite ?cos_2a_cos, ?sin_2a; ring.
  Qed.

  (** the curves *)
  Context (w : R) (Hw : 0 <= w < PI).
  Local Notation t := (detuning w f sr).
  Lemma curve_pos : 0 < (1 - t) ^ 2 + t / q ^ 2.
  Proof.
    pose proof (detuning_pos w f sr) as H. pose proof (pow2_ge_0 (1 - t)) as H1. assert (Hq2 : 0 < / q ^ 2) by (apply Rinv_0_lt_compat, pow_lt; done).
    destruct (Req_dec t 0) as [E|Hne].
    - rewrite E. unfold Rdiv. lra.
    - assert (0 < t * / q ^ 2) by (apply Rmult_lt_0_compat; [lra|done]). unfold Rdiv. lra.
  Qed.
  Lemma pass_curve b0 b1 b2 n : 0 <= n → let k := cos w in
    (b1 + (b0 + b2) * k) ^ 2 + (b0 - b2) ^ 2 * (1 - k * k) = n * ((1 + k) ^ 2 * (1 - co) ^ 2) →
    ∃ theta, responds (scaled_by (1 + alpha) (-2 * co) (1 - alpha) b0 b1 b2) w (sqrt (n / ((1 - t) ^ 2 + t / q ^ 2))) theta.
  Proof.
    intros Hn k Hb. pose proof (cos_above_Nyquist w Hw) as Hk. fold k in Hk. pose proof (omega_cos f sr Ha) as Hc.
    apply respond_curve; [pass|exact pass_abs|pass|apply curve_pos|done|]. fold k. rewrite Hb.
    rewrite detuning_cos by done. fold k. set (c := cos (omega f sr)) in *. set (s := sin (omega f sr)) in *.
    assert (E : s * s = 1 - c * c) by exact so2.
    transitivity (n * ((2 * (k - c)) ^ 2 + (1 - k * k) * (1 - c * c) / q ^ 2)); [field; repeat split; lra|].
    rewrite <-E. field. lra.
  Qed.
  Lemma low_curve : ∃ theta, responds (low_pass f sr q) w (sqrt (1 / ((1 - t) ^ 2 + t / q ^ 2))) theta.
  Proof. apply pass_curve; [lra|]. field; lra. Qed.
  Lemma high_curve : ∃ theta, responds (high_pass f sr q) w (sqrt (t ^ 2 / ((1 - t) ^ 2 + t / q ^ 2))) theta.
  Proof.
    pose proof (cos_above_Nyquist w Hw) as Hk. pose proof (omega_cos f sr Ha) as Hc.
    apply pass_curve; [apply pow2_ge_0|]. rewrite detuning_cos by done. field. lra.
  Qed.
  Lemma band_curve : ∃ theta, responds (band_pass f sr q) w (sqrt (t / q ^ 2 / ((1 - t) ^ 2 + t / q ^ 2))) theta.
  Proof.
    pose proof (cos_above_Nyquist w Hw) as Hk. pose proof (omega_cos f sr Ha) as Hc.
    apply pass_curve. { apply Rmult_le_pos; [apply detuning_pos|]. left. apply Rinv_0_lt_compat, pow_lt. done. }
    rewrite detuning_cos by done. set (s := sin (omega f sr)) in *. set (c := cos (omega f sr)) in *. assert (E : s * s = 1 - c * c) by exact so2.
    transitivity (s * s / q ^ 2 * (1 - cos w * cos w)); [field; lra|]. rewrite E. field. lra.
  Qed.
  Lemma notch_curve : ∃ theta, responds (notch f sr q) w (sqrt ((1 - t) ^ 2 / ((1 - t) ^ 2 + t / q ^ 2))) theta.
  Proof.
    pose proof (cos_above_Nyquist w Hw) as Hk. pose proof (omega_cos f sr Ha) as Hc.
    apply pass_curve; [apply pow2_ge_0|]. rewrite detuning_cos by done. field. lra.
  Qed.
End pass.

Section shelf.
  Context (f sr G : R) (Ha : audible f sr) (HG : 0 < G).
  Local Notation co := (cos (omega f sr)).
  Local Notation so := (sin (omega f sr)).
  Local Notation a := (sqrt G).
  Lemma a_pos : 0 < a.
  Proof. by apply sqrt_lt_R0. Qed.
  Lemma a_sqr : a * a = G.
  Proof. apply sqrt_sqrt. lra. Qed.
  Lemma low_den : 0 < a + 1 + (a - 1) * co ∧ 0 < sqrt (2 * a) * so ∧ Rabs (-2 * (a - 1 + (a + 1) * co)) < 2 * (a + 1 + (a - 1) * co).
  Proof.
    pose proof a_pos as Hp. pose proof (omega_cos f sr Ha) as Hc. assert (0 < a * (1 + co)) by (apply Rmult_lt_0_compat; lra).
    split; [lra|]. split; [|apply Rabs_def1; lra]. apply Rmult_lt_0_compat; [apply sqrt_lt_R0; lra|by apply omega_sin].
  Qed.
  Lemma high_den : 0 < a + 1 - (a - 1) * co ∧ 0 < sqrt (a + a) * so ∧ Rabs (2 * (a - 1 - (a + 1) * co)) < 2 * (a + 1 - (a - 1) * co).
  Proof.
    pose proof a_pos as Hp. pose proof (omega_cos f sr Ha) as Hc. assert (0 < a * (1 - co)) by (apply Rmult_lt_0_compat; lra).
    split; [lra|]. split; [|apply Rabs_def1; lra]. apply Rmult_lt_0_compat; [apply sqrt_lt_R0; lra|by apply omega_sin].
  Qed.
  Ltac lows := destruct low_den as (L1 & L2 & L3); match goal with |- Rabs _ < _ => eapply Rlt_le_trans; [exact L3|lra] | _ => lra end.
  Ltac highs := destruct high_den as (L1 & L2 & L3); match goal with |- Rabs _ < _ => eapply Rlt_le_trans; [exact L3|lra] | _ => lra end.
  Lemma low_shelf_stable : is_stable (low_shelf f sr G).
  Proof. apply triangle_stable, triangle_scaled; lows. Qed.
  Lemma high_shelf_stable : is_stable (high_shelf f sr G).
  Proof. apply triangle_stable, triangle_scaled; highs. Qed.
  Lemma low_shelf_dc : responds (low_shelf f sr G) 0 G 0.
  Proof. apply respond_dc; [lows|lows|lows|]. pose proof a_sqr as E. rewrite <-E at 1. ring. Qed.
  Lemma low_shelf_nyquist : responds (low_shelf f sr G) PI 1 0.
  Proof. apply respond_nyquist; [lows|lows|lows|]. ring. Qed.
  Lemma high_shelf_dc : responds (high_shelf f sr G) 0 1 0.
  Proof. apply respond_dc; [highs|highs|highs|]. ring. Qed.
  Lemma high_shelf_nyquist : responds (high_shelf f sr G) PI G 0.
  Proof. apply respond_nyquist; [highs|highs|highs|]. pose proof a_sqr as E. rewrite <-E at 1. ring. Qed.

  Context (w : R) (Hw : 0 <= w < PI).
  Local Notation t := (detuning w f sr).
  Lemma beta_sqr : sqrt (2 * a) * sqrt (2 * a) = 2 * a.
  Proof. pose proof a_pos. apply sqrt_sqrt. lra. Qed.
  Lemma low_shelf_curve : ∃ theta, responds (low_shelf f sr G) w (sqrt (G * (G + t ^ 2) / (1 + G * t ^ 2))) theta.
  Proof.
    pose proof (cos_above_Nyquist w Hw) as Hk. pose proof (omega_cos f sr Ha) as Hc. pose proof (pow2_ge_0 t) as Ht.
    assert (0 <= G * t ^ 2) by (apply Rmult_le_pos; lra).
    apply respond_curve; [lows|lows|lows|lra|apply Rmult_le_pos; lra|]. rewrite detuning_cos by done.
    pose proof a_sqr as EG. pose proof beta_sqr as EB. pose proof (so2 f sr) as ES. 
    set (x := sqrt G) in *. set (b := sqrt (2 * x)) in *. set (c := cos (omega f sr)) in *. set (s := sin (omega f sr)) in *. set (k := cos w) in *.
    replace ((x + 1 + (x - 1) * c + b * s - (x + 1 + (x - 1) * c - b * s)) ^ 2) with (4 * (b * b) * (s * s)) by ring.
    replace ((x * (x + 1 - (x - 1) * c + b * s) - x * (x + 1 - (x - 1) * c - b * s)) ^ 2) with (4 * (x * x) * (b * b) * (s * s)) by ring.
    rewrite EB, ES, <-EG. field. lra.
  Qed.
  Lemma high_shelf_curve : ∃ theta, responds (high_shelf f sr G) w (sqrt (G * (1 + G * t ^ 2) / (G + t ^ 2))) theta.
  Proof.
    pose proof (cos_above_Nyquist w Hw) as Hk. pose proof (omega_cos f sr Ha) as Hc. pose proof (pow2_ge_0 t) as Ht.
    assert (0 <= G * t ^ 2) by (apply Rmult_le_pos; lra).
    apply respond_curve; [highs|highs|highs|lra|apply Rmult_le_pos; lra|]. rewrite detuning_cos by done.
    pose proof a_sqr as EG. pose proof beta_sqr as EB. pose proof (so2 f sr) as ES. replace (2 * a) with (a + a) in EB by ring.
    set (x := sqrt G) in *. set (b := sqrt (x + x)) in *. set (c := cos (omega f sr)) in *. set (s := sin (omega f sr)) in *. set (k := cos w) in *.
    replace ((x + 1 - (x - 1) * c + b * s - (x + 1 - (x - 1) * c - b * s)) ^ 2) with (4 * (b * b) * (s * s)) by ring.
    replace ((x * (x + 1 + (x - 1) * c + b * s) - x * (x + 1 + (x - 1) * c - b * s)) ^ 2) with (4 * (x * x) * (b * b) * (s * s)) by ring.
    rewrite EB, ES, <-EG. field. lra.
  Qed.
End shelf.
