(** Second-order recurrences inside the stability triangle decay exponentially. *)
From stdpp Require Import list.
From Coq Require Import Reals Lra Lia Psatz.
From Verif Require Import Biquad BiquadSpec.
Local Open Scope R_scope.

Definition triangle (a1 a2 : R) : Prop := Rabs a1 < 1 + a2 ∧ a2 < 1.

Lemma abs_sum x a b : 0 <= a → 0 <= b → x * x <= a * a + b * b → Rabs x <= a + b.
Proof.
  intros Ha Hb H. apply Rnot_lt_le. intros Hlt. assert ((a + b) * (a + b) < Rabs x * Rabs x).
  { apply Rmult_le_0_lt_compat; lra. }
  assert (E : Rabs x * Rabs x = x * x) by (unfold Rabs; destruct (Rcase_abs x); ring). nra.
Qed.
Lemma abs_between x b : Rabs x <= b → - b <= x <= b.
Proof. unfold Rabs. destruct (Rcase_abs x); lra. Qed.
Lemma abs_lt_between x b : Rabs x < b → - b < x < b.
Proof. unfold Rabs. destruct (Rcase_abs x); lra. Qed.

(** the energy *)
Definition energy (p1 p2 u v : R) : R := (1 + p2) * (u * u + v * v) + 2 * p1 * u * v.
Lemma energy_step p1 p2 u v : energy p1 p2 (- p1 * u - p2 * v) u = energy p1 p2 u v - (1 - p2) * ((- p1 * u - p2 * v - v) * (- p1 * u - p2 * v - v)).
Proof. unfold energy. ring. Qed.
Lemma energy_lower p1 p2 u v : Rabs p1 < 1 + p2 → (1 + p2 - Rabs p1) * (u * u + v * v) <= energy p1 p2 u v.
Proof.
  intros H. unfold energy. assert (- (Rabs p1 * (u * u + v * v)) <= 2 * p1 * u * v); [|lra].
  unfold Rabs. destruct (Rcase_abs p1).
  - assert (0 <= - p1 * ((u - v) * (u - v))) by (apply Rmult_le_pos; [lra|apply Rle_0_sqr]). lra.
  - assert (0 <= p1 * ((u + v) * (u + v))) by (apply Rmult_le_pos; [lra|apply Rle_0_sqr]). lra.
Qed.
Lemma energy_upper p1 p2 u v : Rabs p1 < 1 + p2 → p2 < 1 → energy p1 p2 u v <= 4 * (u * u + v * v).
Proof.
  intros H1 H2. unfold energy. pose proof (Rle_0_sqr u) as Hu. pose proof (Rle_0_sqr v) as Hv. unfold Rsqr in *. apply abs_lt_between in H1.
  assert ((1 + p2) * (u * u + v * v) <= 2 * (u * u + v * v)) by (apply Rmult_le_compat_r; lra).
  assert (2 * p1 * u * v <= 2 * (u * u + v * v)); [|lra].
  destruct (Rle_dec 0 (u * v)).
  - assert (2 * p1 * u * v <= 4 * (u * v)). { replace (2 * p1 * u * v) with ((2 * p1) * (u * v)) by ring. apply Rmult_le_compat_r; lra. }
    pose proof (Rle_0_sqr (u - v)) as Hd. unfold Rsqr in Hd. lra.
  - assert (2 * p1 * u * v <= 4 * (- (u * v))). { replace (2 * p1 * u * v) with ((- (2 * p1)) * (- (u * v))) by ring. apply Rmult_le_compat_r; lra. }
    pose proof (Rle_0_sqr (u + v)) as Hd. unfold Rsqr in Hd. lra.
Qed.
Lemma energy_add p1 p2 u v w eps : Rabs p1 < 1 + p2 → 0 < eps →
  energy p1 p2 (u + w) v <= (1 + eps) * energy p1 p2 u v + (1 + / eps) * ((1 + p2) * (w * w)).
Proof.
  intros H He. pose proof (energy_lower p1 p2 (eps * u - w) (eps * v) H) as HL.
  assert (0 <= energy p1 p2 (eps * u - w) (eps * v)).
  { eapply Rle_trans; [|exact HL]. apply Rmult_le_pos; [lra|]. pose proof (Rle_0_sqr (eps * u - w)). pose proof (Rle_0_sqr (eps * v)). unfold Rsqr in *. lra. }
  assert (E : (1 + eps) * energy p1 p2 u v + (1 + / eps) * ((1 + p2) * (w * w)) - energy p1 p2 (u + w) v = / eps * energy p1 p2 (eps * u - w) (eps * v)).
  { unfold energy. field. lra. }
  assert (0 <= / eps * energy p1 p2 (eps * u - w) (eps * v)); [|lra]. apply Rmult_le_pos; [|done]. left. by apply Rinv_0_lt_compat.
Qed.

(** the recurrence divided by r^n is still inside *)
Lemma shrink a1 a2 : triangle a1 a2 → ∃ r, 0 < r < 1 ∧ triangle (a1 / r) (a2 / (r * r)).
Proof.
  intros [H1 H2]. pose proof (Rabs_pos a1) as H0. set (d := Rmin (1 - a2) (1 + a2 - Rabs a1)).
  assert (Hd : 0 < d) by (unfold d; apply Rmin_glb_lt; lra). assert (d <= 1 - a2) by apply Rmin_l. assert (d <= 1 + a2 - Rabs a1) by apply Rmin_r.
  exists (1 - d / 4). assert (Hr : 0 < 1 - d / 4 < 1) by lra. split; [done|]. set (r := 1 - d / 4) in *.
  assert (Hrr : 1 - d / 2 <= r * r). { unfold r. pose proof (Rle_0_sqr (d / 4)) as Hq. unfold Rsqr in Hq. lra. }
  assert (Hr2 : 0 < r * r) by (apply Rmult_lt_0_compat; lra). split.
  - unfold Rdiv. rewrite Rabs_mult, (Rabs_pos_eq (/ r)) by (left; apply Rinv_0_lt_compat; lra).
    apply (Rmult_lt_reg_r (r * r)); [done|]. replace (Rabs a1 * / r * (r * r)) with (Rabs a1 * r) by (field; lra).
    replace ((1 + a2 * / (r * r)) * (r * r)) with (r * r + a2) by (field; lra).
    assert (Rabs a1 * r <= Rabs a1 * 1) by (apply Rmult_le_compat_l; lra). lra.
  - apply (Rmult_lt_reg_r (r * r)); [done|]. replace (a2 / (r * r) * (r * r)) with a2 by (field; lra). lra.
Qed.

Lemma forced a1 a2 : triangle a1 a2 → ∃ C r K, 0 <= C ∧ 0 <= r < 1 ∧ 0 <= K ∧
  ∀ (e : nat → R) N W E, 0 <= W → Rabs (e 0%nat) <= E → Rabs (e 1%nat) <= E →
    (∀ n, (n + 2 < N)%nat → Rabs (e (n + 2)%nat + a1 * e (n + 1)%nat + a2 * e n) <= W) →
    ∀ n, (n < N)%nat → Rabs (e n) <= C * E * r ^ n + K * W.
Proof.
  intros Ht. destruct (shrink a1 a2 Ht) as (r & Hr & [T1 T2]). set (p1 := a1 / r) in *. set (p2 := a2 / (r * r)) in *.
  set (c := 1 + p2 - Rabs p1). assert (Hc : 0 < c) by (unfold c; lra).
  set (s := sqrt r). assert (Hs : 0 < s) by (apply sqrt_lt_R0; lra). assert (Ess : s * s = r) by (apply sqrt_sqrt; lra).
  assert (Hs1 : s < 1). { apply Rnot_le_lt. intros H. assert (1 * 1 <= s * s) by (apply Rmult_le_compat; lra). lra. }
  set (k1 := sqrt (8 / c)). assert (Hk1 : 0 <= k1) by apply sqrt_pos.
  assert (E1 : k1 * k1 = 8 / c). { apply sqrt_sqrt. left. apply Rdiv_lt_0_compat; lra. }
  set (k2 := sqrt (2 / c) / (1 - r)). assert (Hk2 : 0 <= k2). { unfold k2. apply Rmult_le_pos; [apply sqrt_pos|left; apply Rinv_0_lt_compat; lra]. }
  assert (E2 : k2 * k2 = 2 / c / ((1 - r) * (1 - r))).
  { unfold k2. replace (sqrt (2 / c) / (1 - r) * (sqrt (2 / c) / (1 - r))) with (sqrt (2 / c) * sqrt (2 / c) / ((1 - r) * (1 - r))) by (field; lra).
    rewrite sqrt_sqrt; [done|]. left. apply Rdiv_lt_0_compat; lra. }
  exists (1 + k1 / s), s, k2. assert (Hk1s : 0 <= k1 / s) by (apply Rmult_le_pos; [done|left; by apply Rinv_0_lt_compat]).
  split; [lra|]. split; [lra|]. split; [done|]. intros e N W E HW He0 He1 Hrec.
  assert (HE : 0 <= E) by (eapply Rle_trans; [apply Rabs_pos|exact He0]).
  (* energy of the state *)
  assert (HV : ∀ n, (n + 1 < N)%nat → energy p1 p2 (e (n + 1)%nat) (r * e n) <= 8 * (E * E) * r ^ n + 2 * (W * W) / ((1 - r) * (1 - r))).
  { induction n as [|n IH]; intros Hn.
    - cbn [Nat.add pow]. pose proof (energy_upper p1 p2 (e 1%nat) (r * e 0%nat) T1 T2) as HU.
      apply abs_between in He0. apply abs_between in He1.
      assert (e 1%nat * e 1%nat <= E * E) by nra. assert (e 0%nat * e 0%nat <= E * E) by nra.
      assert (r * e 0%nat * (r * e 0%nat) <= E * E).
      { replace (r * e 0%nat * (r * e 0%nat)) with ((r * r) * (e 0%nat * e 0%nat)) by ring.
        assert (r * r <= 1) by nra. pose proof (Rle_0_sqr (e 0%nat)) as Hq. unfold Rsqr in Hq. 
        assert (r * r * (e 0%nat * e 0%nat) <= 1 * (e 0%nat * e 0%nat)) by (apply Rmult_le_compat_r; lra). lra. }
      assert (0 <= 2 * (W * W) / ((1 - r) * (1 - r))).
      { apply Rmult_le_pos; [nra|]. left. apply Rinv_0_lt_compat. nra. }
      lra.
    - specialize (IH ltac:(lia)). specialize (Hrec n ltac:(lia)). set (w := e (n + 2)%nat + a1 * e (n + 1)%nat + a2 * e n) in *.
      replace (S n + 1)%nat with (n + 2)%nat by lia. replace (S n) with (n + 1)%nat by lia.
      assert (Ee : e (n + 2)%nat = r * (- p1 * e (n + 1)%nat - p2 * (r * e n)) + w) by (unfold w, p1, p2; field; lra).
      rewrite Ee. pose proof (energy_add p1 p2 (r * (- p1 * e (n + 1)%nat - p2 * (r * e n))) (r * e (n + 1)%nat) w ((1 - r) / r) T1 ltac:(apply Rdiv_lt_0_compat; lra)) as HA.
      replace (energy p1 p2 (r * (- p1 * e (n + 1)%nat - p2 * (r * e n))) (r * e (n + 1)%nat))
        with (r * r * energy p1 p2 (- p1 * e (n + 1)%nat - p2 * (r * e n)) (e (n + 1)%nat)) in HA by (unfold energy; ring).
      rewrite energy_step in HA. set (V := energy p1 p2 (e (n + 1)%nat) (r * e n)) in *.
      set (q := - p1 * e (n + 1)%nat - p2 * (r * e n) - r * e n) in *.
      assert (Hq : 0 <= (1 - p2) * (q * q)) by (apply Rmult_le_pos; [lra|apply Rle_0_sqr]).
      replace (1 + (1 - r) / r) with (/ r) in HA by (field; lra). replace (1 + / ((1 - r) / r)) with (/ (1 - r)) in HA by (field; lra).
      replace (/ r * (r * r * (V - (1 - p2) * (q * q)))) with (r * V - r * ((1 - p2) * (q * q))) in HA by (field; lra).
      assert (0 <= r * ((1 - p2) * (q * q))) by (apply Rmult_le_pos; lra).
      assert (HrV : r * V <= r * (8 * (E * E) * r ^ n + 2 * (W * W) / ((1 - r) * (1 - r)))) by (apply Rmult_le_compat_l; lra).
      assert (Hw : w * w <= W * W). { apply abs_between in Hrec. nra. }
      assert (H1 : 0 < / (1 - r)) by (apply Rinv_0_lt_compat; lra).
      assert (Hww : / (1 - r) * ((1 + p2) * (w * w)) <= / (1 - r) * (2 * (W * W))).
      { apply Rmult_le_compat_l; [lra|]. apply Rmult_le_compat; [pose proof (Rabs_pos p1); lra|nra|lra|done]. }
      rewrite Nat.add_1_r in *. cbn [pow].
      replace (8 * (E * E) * (r * r ^ n) + 2 * (W * W) / ((1 - r) * (1 - r))) with (r * (8 * (E * E) * r ^ n + 2 * (W * W) / ((1 - r) * (1 - r))) + / (1 - r) * (2 * (W * W))) by (field; lra).
      lra. }
  intros [|n] Hn.
  { cbn [pow]. assert (0 <= k1 / s * E) by (apply Rmult_le_pos; lra). assert (0 <= k2 * W) by (by apply Rmult_le_pos). lra. }
  specialize (HV n ltac:(lia)). rewrite Nat.add_1_r in HV. pose proof (energy_lower p1 p2 (e (S n)) (r * e n) T1) as HL. fold c in HL.
  assert (Hsn : 0 <= s ^ n) by (apply pow_le; lra). assert (Ern : s ^ n * s ^ n = r ^ n) by (by rewrite <-Rpow_mult_distr, Ess).
  assert (Hb : Rabs (e (S n)) <= k1 * E * s ^ n + k2 * W).
  { apply abs_sum; [apply Rmult_le_pos; [by apply Rmult_le_pos|done]|by apply Rmult_le_pos|].
    replace (k1 * E * s ^ n * (k1 * E * s ^ n) + k2 * W * (k2 * W)) with ((k1 * k1) * (E * E) * (s ^ n * s ^ n) + (k2 * k2) * (W * W)) by ring.
    rewrite E1, E2, Ern. apply (Rmult_le_reg_l c); [done|].
    replace (c * (8 / c * (E * E) * r ^ n + 2 / c / ((1 - r) * (1 - r)) * (W * W))) with (8 * (E * E) * r ^ n + 2 * (W * W) / ((1 - r) * (1 - r))) by (field; lra).
    pose proof (Rle_0_sqr (r * e n)) as Hq. unfold Rsqr in Hq. assert (0 <= c * (r * e n * (r * e n))) by (apply Rmult_le_pos; lra). lra. }
  eapply Rle_trans; [exact Hb|]. cbn [pow]. apply Rplus_le_compat_r.
  replace ((1 + k1 / s) * E * (s * s ^ n)) with (k1 * E * s ^ n + E * (s * s ^ n)) by (field; lra).
  assert (0 <= E * (s * s ^ n)) by (apply Rmult_le_pos; [done|apply Rmult_le_pos; lra]). lra.
Qed.
