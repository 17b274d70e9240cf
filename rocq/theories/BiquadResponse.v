(** Responses of the filters. *)
From stdpp Require Import list.
From Coq Require Import Reals Lra Lia Psatz.
From Verif Require Import Biquad BiquadSpec BiquadStable.
Local Open Scope R_scope.

Lemma flushed_error delta x : 0 <= delta → Rabs (flushed delta x - x) <= delta.
Proof.
  intros Hd. unfold flushed. destruct (Rle_dec _ _) as [H|].
  - rewrite Rminus_0_l, Rabs_Ropp. done.
  - rewrite Rminus_diag_eq, Rabs_R0 by done. done.
Qed.
Lemma flushed_le delta x : Rabs (flushed delta x) <= Rabs x.
Proof. unfold flushed. destruct (Rle_dec _ _); [rewrite Rabs_R0; apply Rabs_pos|lra]. Qed.
Lemma abs_add3 x y z a b c : Rabs x <= a → Rabs y <= b → Rabs z <= c → Rabs (x + y + z) <= a + b + c.
Proof. intros H1 H2 H3. apply abs_between in H1. apply abs_between in H2. apply abs_between in H3. apply Rabs_le. lra. Qed.
Lemma abs_add4 x y z t a b c d : Rabs x <= a → Rabs y <= b → Rabs z <= c → Rabs t <= d → Rabs (x + y + z + t) <= a + b + c + d.
Proof. intros H1 H2 H3 H4. apply abs_between in H1. apply abs_between in H2. apply abs_between in H3. apply abs_between in H4. apply Rabs_le. lra. Qed.
Lemma abs_scale k x b : Rabs x <= b → Rabs (k * x) <= Rabs k * b.
Proof. intros H. rewrite Rabs_mult. apply Rmult_le_compat_l; [apply Rabs_pos|done]. Qed.
Lemma at_out l n : (length l ≤ n)%nat → at_ l n = 0.
Proof. intros H. unfold at_. by rewrite lookup_ge_None_2. Qed.

Section filter.
  Context (c : coefficients).
  Local Notation B := (Rabs (c_b0 c) + Rabs (c_b1 c) + Rabs (c_b2 c)).
  (** the first two samples *)
  Lemma first_samples delta n x y M : follows delta (replicate n c) x y → (∀ i, Rabs (at_ x i) <= M) →
    Rabs (at_ y 0) <= B * (1 + Rabs (c_a1 c)) * M ∧ Rabs (at_ y 1) <= B * (1 + Rabs (c_a1 c)) * M.
  Proof.
    intros (L1 & L2 & H) Hx. rewrite replicate_length in *. pose proof (Rabs_pos (c_b0 c)) as P0. pose proof (Rabs_pos (c_b1 c)) as P1. pose proof (Rabs_pos (c_b2 c)) as P2. pose proof (Rabs_pos (c_a1 c)) as PA.
    assert (HM : 0 <= M) by (eapply Rle_trans; [apply Rabs_pos|exact (Hx 0%nat)]).
    assert (HBM : 0 <= B * M) by (apply Rmult_le_pos; lra).
    assert (H0 : Rabs (at_ y 0) <= Rabs (c_b0 c) * M).
    { destruct n as [|n]; [rewrite at_out, Rabs_R0 by lia; by apply Rmult_le_pos|]. rewrite (H 0%nat c) by done. unfold earlier. rewrite !decide_False by lia.
      assert (F : flushed delta 0 = 0) by (unfold flushed; destruct (Rle_dec _ _); done). rewrite F, !Rmult_0_r, !Rminus_0_r, !Rplus_0_r. apply abs_scale. apply Hx. }
    split.
    - assert (0 <= B * Rabs (c_a1 c) * M) by (apply Rmult_le_pos; [apply Rmult_le_pos; lra|done]).
      assert (0 <= (Rabs (c_b1 c) + Rabs (c_b2 c)) * M) by (apply Rmult_le_pos; lra). lra.
    - destruct (decide (1 < n)%nat) as [Hn|]; cycle 1.
      { rewrite at_out, Rabs_R0 by lia. apply Rmult_le_pos; [apply Rmult_le_pos; lra|done]. }
      rewrite (H 1%nat c) by (by apply lookup_replicate_2). unfold earlier. rewrite !(decide_True (P := (1 ≤ 1)%nat)), !(decide_False (P := (2 ≤ 1)%nat)) by lia.
      assert (F : flushed delta 0 = 0) by (unfold flushed; destruct (Rle_dec _ _); done). rewrite F, !Rmult_0_r, !Rminus_0_r, !Rplus_0_r. cbn [Nat.sub].
      pose proof (abs_add3 (c_b0 c * at_ x 1) (c_b1 c * flushed delta (at_ x 0)) (- c_a1 c * flushed delta (at_ y 0)) (Rabs (c_b0 c) * M) (Rabs (c_b1 c) * M) (Rabs (c_a1 c) * (Rabs (c_b0 c) * M))) as HA.
      replace (c_b0 c * at_ x 1 + c_b1 c * flushed delta (at_ x 0) - c_a1 c * flushed delta (at_ y 0)) with (c_b0 c * at_ x 1 + c_b1 c * flushed delta (at_ x 0) + - c_a1 c * flushed delta (at_ y 0)) by ring.
      eapply Rle_trans; [apply HA|].
      + apply abs_scale, Hx.
      + apply abs_scale. eapply Rle_trans; [apply flushed_le|apply Hx].
      + rewrite <-(Rabs_Ropp (c_a1 c)). apply abs_scale. eapply Rle_trans; [apply flushed_le|done].
      + assert (0 <= (Rabs (c_b1 c) + Rabs (c_b2 c)) * Rabs (c_a1 c) * M) by (apply Rmult_le_pos; [apply Rmult_le_pos; lra|done]).
        assert (0 <= Rabs (c_b2 c) * M) by (by apply Rmult_le_pos). lra.
  Qed.

  Lemma triangle_stable : triangle (c_a1 c) (c_a2 c) → is_stable c.
  Proof.
    intros Ht. destruct (forced _ _ Ht) as (C & r & K & HC & Hr & HK & HF).
    pose proof (Rabs_pos (c_b0 c)) as P0. pose proof (Rabs_pos (c_b1 c)) as P1. pose proof (Rabs_pos (c_b2 c)) as P2. pose proof (Rabs_pos (c_a1 c)) as PA. pose proof (Rabs_pos (c_a2 c)) as PA2.
    set (E := B * (1 + Rabs (c_a1 c))). set (W := B + Rabs (c_a1 c) + Rabs (c_a2 c)). assert (HE : 0 <= E) by (apply Rmult_le_pos; lra). assert (HW : 0 <= W) by (unfold W; lra).
    exists (C * E + K * W). intros delta M n x y Hd Hf Hx i.
    assert (HM : 0 <= M) by (eapply Rle_trans; [apply Rabs_pos|exact (Hx 0%nat)]).
    destruct (first_samples delta n x y M Hf Hx) as [H0 H1]. fold E in H0, H1. destruct Hf as (L1 & L2 & H). rewrite replicate_length in *.
    assert (HCE : 0 <= C * E) by (by apply Rmult_le_pos). assert (HKW : 0 <= K * W) by (by apply Rmult_le_pos).
    destruct (decide (i < n)%nat) as [Hi|]; cycle 1.
    { rewrite at_out, Rabs_R0 by lia. apply Rmult_le_pos; lra. }
    assert (HEM : E * M <= E * (M + delta)) by (apply Rmult_le_compat_l; lra).
    assert (G : Rabs (at_ y i) <= C * (E * (M + delta)) * r ^ i + K * (W * (M + delta))).
    { apply (HF (at_ y) n (W * (M + delta)) (E * (M + delta))); [apply Rmult_le_pos; lra|lra|lra| |done].
      intros m Hm. rewrite (H (m + 2)%nat c) by (by apply lookup_replicate_2). unfold earlier. rewrite !decide_True by lia.
      replace (m + 2 - 1)%nat with (m + 1)%nat by lia. replace (m + 2 - 2)%nat with m by lia.
      pose proof (flushed_error delta (at_ y (m + 1)) Hd) as Q1. pose proof (flushed_error delta (at_ y m) Hd) as Q2.
      set (u1 := flushed delta (at_ y (m + 1))) in *. set (u2 := flushed delta (at_ y m)) in *.
      match goal with |- Rabs ?t <= _ => replace t with (c_b0 c * at_ x (m + 2) + c_b1 c * flushed delta (at_ x (m + 1)) + c_b2 c * flushed delta (at_ x m) + ((- c_a1 c) * (u1 - at_ y (m + 1)) + (- c_a2 c) * (u2 - at_ y m))) by ring end.
      eapply Rle_trans; [apply (abs_add4 _ _ _ _ (Rabs (c_b0 c) * M) (Rabs (c_b1 c) * M) (Rabs (c_b2 c) * M) (Rabs (c_a1 c) * delta + Rabs (c_a2 c) * delta))|].
      - apply abs_scale, Hx.
      - apply abs_scale. eapply Rle_trans; [apply flushed_le|apply Hx].
      - apply abs_scale. eapply Rle_trans; [apply flushed_le|apply Hx].
      - eapply Rle_trans; [apply Rabs_triang|]. apply Rplus_le_compat; [rewrite <-(Rabs_Ropp (c_a1 c))|rewrite <-(Rabs_Ropp (c_a2 c))]; by apply abs_scale.
      - unfold W. assert (0 <= B * delta) by (apply Rmult_le_pos; lra). assert (0 <= (Rabs (c_a1 c) + Rabs (c_a2 c)) * M) by (apply Rmult_le_pos; lra). lra. }
    eapply Rle_trans; [exact G|]. assert (Hri : r ^ i <= 1). { rewrite <-(pow1 i). apply pow_incr. lra. }
    assert (C * (E * (M + delta)) * r ^ i <= C * (E * (M + delta)) * 1). { apply Rmult_le_compat_l; [|done]. apply Rmult_le_pos; [done|apply Rmult_le_pos; lra]. }
    lra.
  Qed.

  Lemma responds_if w g theta : triangle (c_a1 c) (c_a2 c) →
    g * (cos theta + c_a1 c * cos (theta - w) + c_a2 c * cos (theta - 2 * w)) = c_b0 c + c_b1 c * cos w + c_b2 c * cos (2 * w) →
    g * (sin theta + c_a1 c * sin (theta - w) + c_a2 c * sin (theta - 2 * w)) = - c_b1 c * sin w - c_b2 c * sin (2 * w) →
    responds c w g theta.
  Proof.
    intros Ht Hre Him. destruct (forced _ _ Ht) as (C & r & K & HC & Hr & HK & HF).
    pose proof (Rabs_pos (c_b0 c)) as P0. pose proof (Rabs_pos (c_b1 c)) as P1. pose proof (Rabs_pos (c_b2 c)) as P2. pose proof (Rabs_pos (c_a1 c)) as PA. pose proof (Rabs_pos (c_a2 c)) as PA2. pose proof (Rabs_pos g) as Pg.
    set (E := B * (1 + Rabs (c_a1 c)) + Rabs g). set (W := Rabs (c_b1 c) + Rabs (c_b2 c) + Rabs (c_a1 c) + Rabs (c_a2 c)).
    exists (C * E), r, (K * W). split; [done|]. intros delta A phi n x y Hd Hf Hx i Hi.
    assert (Hcos : ∀ t, Rabs (cos t) <= 1) by (intros t; apply Rabs_le, COS_bound).
    assert (HxA : ∀ j, Rabs (at_ x j) <= Rabs A).
    { intros j. destruct (decide (j < n)%nat).
      - rewrite Hx by done. rewrite Rabs_mult. rewrite <-(Rmult_1_r (Rabs A)) at 2. apply Rmult_le_compat_l; [apply Rabs_pos|apply Hcos].
      - destruct Hf as (L1 & _). rewrite replicate_length in L1. rewrite at_out, Rabs_R0 by lia. apply Rabs_pos. }
    destruct (first_samples delta n x y (Rabs A) Hf HxA) as [H0 H1]. destruct Hf as (L1 & L2 & H). rewrite replicate_length in *.
    set (p := λ j : nat, g * A * cos (w * INR j + phi + theta)).
    assert (Hp : ∀ j, Rabs (p j) <= Rabs g * Rabs A).
    { intros j. unfold p. rewrite Rabs_mult, Rabs_mult. rewrite <-(Rmult_1_r (Rabs g * Rabs A)) at 2. apply Rmult_le_compat_l; [apply Rmult_le_pos; apply Rabs_pos|apply Hcos]. }
    assert (Hsub : ∀ u v a b, Rabs u <= a → Rabs v <= b → Rabs (u - v) <= a + b).
    { intros u v a b Hu Hv. apply abs_between in Hu. apply abs_between in Hv. apply Rabs_le. lra. }
    change (g * A * cos (w * INR i + phi + theta)) with (p i).
    replace (C * E * Rabs A * r ^ i + K * W * delta) with (C * (E * Rabs A) * r ^ i + K * (W * delta)) by ring.
    apply (HF (λ j, at_ y j - p j) n (W * delta) (E * Rabs A)); [unfold W; apply Rmult_le_pos; lra| | | |done].
    - unfold E. rewrite Rmult_plus_distr_r. apply Hsub; [done|apply Hp].
    - unfold E. rewrite Rmult_plus_distr_r. apply Hsub; [done|apply Hp].
    - intros m Hm. cbv beta. rewrite (H (m + 2)%nat c) by (by apply lookup_replicate_2). unfold earlier. rewrite !decide_True by lia.
      replace (m + 2 - 1)%nat with (m + 1)%nat by lia. replace (m + 2 - 2)%nat with m by lia.
      pose proof (flushed_error delta (at_ y (m + 1)) Hd) as Q1. pose proof (flushed_error delta (at_ y m) Hd) as Q2.
      pose proof (flushed_error delta (at_ x (m + 1)) Hd) as Q3. pose proof (flushed_error delta (at_ x m) Hd) as Q4.
      set (u1 := flushed delta (at_ y (m + 1))) in *. set (u2 := flushed delta (at_ y m)) in *. set (u3 := flushed delta (at_ x (m + 1))) in *. set (u4 := flushed delta (at_ x m)) in *.
      assert (Eq : p (m + 2)%nat + c_a1 c * p (m + 1)%nat + c_a2 c * p m = c_b0 c * at_ x (m + 2) + c_b1 c * at_ x (m + 1) + c_b2 c * at_ x m).
      { rewrite !Hx by lia. unfold p. set (psi := w * INR (m + 2) + phi).
        replace (w * INR (m + 1) + phi) with (psi - w) by (unfold psi; rewrite !plus_INR; cbn [INR]; ring).
        replace (w * INR m + phi) with (psi - 2 * w) by (unfold psi; rewrite !plus_INR; cbn [INR]; ring).
        replace (psi - w + theta) with (psi + (theta - w)) by ring. replace (psi - 2 * w + theta) with (psi + (theta - 2 * w)) by ring.
        rewrite (cos_plus psi theta), (cos_plus psi (theta - w)), (cos_plus psi (theta - 2 * w)), (cos_minus psi w), (cos_minus psi (2 * w)).
        set (S0 := sin psi) in *. set (C0 := cos psi) in *.
        transitivity (A * (C0 * (g * (cos theta + c_a1 c * cos (theta - w) + c_a2 c * cos (theta - 2 * w))) - S0 * (g * (sin theta + c_a1 c * sin (theta - w) + c_a2 c * sin (theta - 2 * w))))); [ring|].
        rewrite Hre, Him. ring. }
      match goal with |- Rabs ?t <= _ => replace t with ((c_b0 c * at_ x (m + 2) + c_b1 c * at_ x (m + 1) + c_b2 c * at_ x m) - (p (m + 2)%nat + c_a1 c * p (m + 1)%nat + c_a2 c * p m) + (c_b1 c * (u3 - at_ x (m + 1)) + c_b2 c * (u4 - at_ x m) + - c_a1 c * (u1 - at_ y (m + 1)) + - c_a2 c * (u2 - at_ y m))) by ring end.
      rewrite Eq, Rminus_diag_eq, Rplus_0_l by done.
      eapply Rle_trans; [apply (abs_add4 _ _ _ _ (Rabs (c_b1 c) * delta) (Rabs (c_b2 c) * delta) (Rabs (c_a1 c) * delta) (Rabs (c_a2 c) * delta))|unfold W; lra];
        [..|rewrite <-(Rabs_Ropp (c_a1 c))|rewrite <-(Rabs_Ropp (c_a2 c))]; by apply abs_scale.
  Qed.
End filter.

(** every pair of reals has polar coordinates *)
Lemma polar X Y : ∃ theta, X = sqrt (X * X + Y * Y) * cos theta ∧ Y = sqrt (X * X + Y * Y) * sin theta.
Proof.
  pose proof (Rle_0_sqr X) as HX. pose proof (Rle_0_sqr Y) as HY. unfold Rsqr in *. set (rho := sqrt (X * X + Y * Y)).
  assert (Hr2 : rho * rho = X * X + Y * Y) by (apply sqrt_sqrt; lra). assert (Hr0 : 0 <= rho) by apply sqrt_pos.
  destruct (Req_dec rho 0) as [E|Hne].
  { exists 0. rewrite E in *. assert (X * X = 0) by lra. assert (Y * Y = 0) by lra. assert (X = 0) by (apply Rsqr_0_uniq; done). assert (Y = 0) by (apply Rsqr_0_uniq; done). lra. }
  assert (Hr : 0 < rho) by lra. set (k := X / rho). assert (Ek : X = rho * k) by (unfold k; field; lra).
  assert (Hk : -1 <= k <= 1).
  { assert (rho * rho * (k * k) <= rho * rho * 1) by (rewrite Ek in Hr2; lra). assert (k * k <= 1) by (apply (Rmult_le_reg_l (rho * rho)); nra). nra. }
  assert (Es : Y * Y = (rho * rho) * (1 - k * k)) by (rewrite Ek in Hr2; lra).
  assert (Hsin : sin (acos k) = sqrt (1 - k²)) by (apply sin_acos; lra).
  assert (Eabs : Rabs Y = rho * sqrt (1 - k²)).
  { rewrite <-(Rabs_pos_eq rho), <-(Rabs_pos_eq (sqrt (1 - k²))) by (done || apply sqrt_pos). rewrite <-Rabs_mult.
    apply Rsqr_eq_abs_0. unfold Rsqr. replace (rho * sqrt (1 - k * k) * (rho * sqrt (1 - k * k))) with (rho * rho * (sqrt (1 - k * k) * sqrt (1 - k * k))) by ring.
    rewrite sqrt_sqrt by nra. done. }
  destruct (Rle_dec 0 Y) as [H|H].
  - exists (acos k). rewrite cos_acos, Hsin by done. rewrite Rabs_pos_eq in Eabs by done. done.
  - exists (- acos k). rewrite cos_neg, sin_neg, cos_acos, Hsin by done. rewrite Rabs_left in Eabs by lra. split; [done|lra].
Qed.
(** at every frequency: amplitude |B|/|A| *)
Lemma responds_everywhere c w n d : triangle (c_a1 c) (c_a2 c) → 0 < d → 0 <= n →
  let br := c_b0 c + c_b1 c * cos w + c_b2 c * cos (2 * w) in let bi := - c_b1 c * sin w - c_b2 c * sin (2 * w) in
  let ar := 1 + c_a1 c * cos w + c_a2 c * cos (2 * w) in let ai := - c_a1 c * sin w - c_a2 c * sin (2 * w) in
  (br * br + bi * bi) * d = n * (ar * ar + ai * ai) → ar * ar + ai * ai ≠ 0 → ∃ theta, responds c w (sqrt (n / d)) theta.
Proof.
  intros Ht Hd Hn br bi ar ai Hq Hne. pose proof (Rle_0_sqr ar) as Har. pose proof (Rle_0_sqr ai) as Hai. unfold Rsqr in *.
  set (D := ar * ar + ai * ai) in *. assert (HD : 0 < D) by (apply Rnot_le_lt; intros H; apply Hne; unfold D in *; lra).
  set (X := (br * ar + bi * ai) / D). set (Y := (bi * ar - br * ai) / D).
  destruct (polar X Y) as (theta & EX & EY). exists theta.
  assert (Es : X * X + Y * Y = n / d).
  { unfold X, Y. apply (Rmult_eq_reg_r (D * d)); [|apply Rgt_not_eq, Rmult_lt_0_compat; lra].
    transitivity ((br * br + bi * bi) * d).
    - unfold D. field. fold D. lra.
    - rewrite Hq. field. lra. }
  rewrite Es in EX, EY. apply responds_if; [done| |].
  - replace (cos (theta - w)) with (cos theta * cos w + sin theta * sin w) by (rewrite cos_minus; ring).
    replace (cos (theta - 2 * w)) with (cos theta * cos (2 * w) + sin theta * sin (2 * w)) by (rewrite cos_minus; ring).
    transitivity ((sqrt (n / d) * cos theta) * ar - (sqrt (n / d) * sin theta) * ai); [unfold ar, ai; ring|]. rewrite <-EX, <-EY. fold br.
    unfold X, Y. unfold D. field. fold D. lra.
  - replace (sin (theta - w)) with (sin theta * cos w - cos theta * sin w) by (rewrite sin_minus; ring).
    replace (sin (theta - 2 * w)) with (sin theta * cos (2 * w) - cos theta * sin (2 * w)) by (rewrite sin_minus; ring).
    transitivity ((sqrt (n / d) * sin theta) * ar + (sqrt (n / d) * cos theta) * ai); [unfold ar, ai; ring|]. rewrite <-EX, <-EY. fold bi.
    unfold X, Y. unfold D. field. fold D. lra.
Qed.
