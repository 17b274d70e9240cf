(** Properties of levels and of the compressor (C46, C47, C73, C74). *)
From stdpp Require Import list.
From Coq Require Import Reals Lra.
From Verif Require Import Base Buffer BufferSpec EffectSpec Envelope EnvelopeSpec Level LevelProofs Compressor CompressorSpec CompressorProofs CompressorNode CompressorCases.
Local Open Scope R_scope.

(** ** C47: decibels and linear levels *)
Theorem C47_db_round_trip db : -128 < db → as_db (from_db db) = db.
Proof. exact (as_db_from_db db). Qed.
Print Assumptions C47_db_round_trip.
Example C47_db_round_trip_case : as_db (from_db (-6)) = -6.
Proof. apply C47_db_round_trip. lra. Qed.

(** 10^-6.4 is -128 dB *)
Theorem C47_linear_round_trip level : Rpower 10 (-64 / 10) < level → from_db (as_db level) = level.
Proof. exact (from_db_as_db level). Qed.
Print Assumptions C47_linear_round_trip.
Example C47_linear_round_trip_case : from_db (as_db (/ 2)) = / 2.
Proof.
  apply C47_linear_round_trip. apply Rlt_trans with (Rpower 10 (- INR 1)); [apply Rpower10_lt; cbn; lra|]. rewrite Rpower10_neg. lra.
Qed.

Theorem C47_monotone :
  (∀ x y, x <= y → from_db x <= from_db y) ∧
  (∀ x y, -128 < x → x < y → from_db x < from_db y) ∧
  (∀ x y, / 10 ^ 9 < x → x <= y → as_db x <= as_db y).
Proof. exact (conj from_db_mono (conj from_db_strict as_db_mono_above)). Qed.
Print Assumptions C47_monotone.
Theorem C47_zero_db_is_unity : from_db 0 = 1 ∧ as_db 1 = 0.
Proof. exact (conj from_db_zero as_db_unity). Qed.
Print Assumptions C47_zero_db_is_unity.
(** below the floor the conversion is not monotone, and levels between 10^-9 and 10^-6.4 are lost *)
Theorem C47_refuted : as_db (2 / 10 ^ 9) < as_db 0 ∧ from_db (as_db (2 / 10 ^ 9)) = 0.
Proof. exact (conj as_db_not_mono round_trip_lost). Qed.
Print Assumptions C47_refuted.

(** ** C46: the gain *)
Theorem C46_never_amplifies envelope knee threshold ratio gain :
  0 <= knee → 1 <= ratio → gain_reduction envelope knee threshold ratio = Some gain → 0 <= gain <= 1.
Proof. intros Hk Hr H. rewrite gain_reduction_law in H by lra. by eapply gain_law_unit. Qed.
Print Assumptions C46_never_amplifies.
Theorem C46_quiet_unchanged envelope knee threshold ratio :
  0 <= knee → 1 <= ratio → -128 <= threshold - knee / 2 → 0 <= envelope → envelope < from_db (threshold - knee / 2) →
  gain_reduction envelope knee threshold ratio = Some 1.
Proof. intros. rewrite gain_reduction_law by lra. by apply quiet_unity. Qed.
Print Assumptions C46_quiet_unchanged.
Example C46_quiet_case : gain_reduction (/ 2) 0 0 3 = Some 1.
Proof. apply C46_quiet_unchanged; try lra. replace (0 - 0 / 2) with 0 by field. rewrite from_db_zero. lra. Qed.
Theorem C46_gain_law envelope knee threshold ratio : ratio ≠ 0 → gain_reduction envelope knee threshold ratio = gain_law envelope knee threshold ratio.
Proof. exact (gain_reduction_law envelope knee threshold ratio). Qed.
Print Assumptions C46_gain_law.
Example C46_gain_case : ∃ g, gain_reduction 10 0 0 2 = Some g ∧ g * g = / 10.
Proof.
  rewrite C46_gain_law by lra. unfold gain_law. cbn zeta. assert (as_db 10 = 20) as ->.
  { unfold as_db. destruct (Rle_dec _ _); [lra|]. unfold log10. pose proof ln10_pos. field. lra. }
  destruct (Rlt_dec _ _); [lra|]. destruct (Req_EM_T _ _); [lra|]. eexists. split; [done|].
  unfold from_db, minus_infinity_db. destruct (Rle_dec _ _); [lra|]. rewrite <-Rpower_plus. replace (_ + _) with (- INR 1) by (cbn; field).
  rewrite Rpower10_neg. field.
Qed.
(** A sample at full scale with the threshold, knee, ratio, wet and dry the node starts
    with, and no attack time, comes out as NaN. *)
Theorem C46_refuted :
  (∃ envelope threshold ratio, 0 <= envelope ∧ 1 <= ratio ∧ gain_reduction envelope 0 threshold ratio = None) ∧
  cblock_ok 1 1 full_scale ∧
  ∃ out c', comp_session (new_compressor 1 1 1) [full_scale] = Ok ([out], c') ∧ seen out Whole 0 0 = Some None.
Proof.
  split; [|split; [exact full_scale_ok|]].
  - exists 1, 0, 3. split; [lra|]. split; [lra|]. rewrite gain_reduction_law by lra. exact nan_at_threshold.
  - destruct full_scale_nan as (outs & c' & E & out & Ho & Hs). exists out, c'. split; [|done]. rewrite E. do 2 f_equal.
    destruct (session_compressed 1 1 1 [full_scale]) as (outs' & c'' & E' & L & _); [done|apply Forall_singleton, full_scale_ok|].
    rewrite E in E'. injection E' as <- <-. destruct outs as [|o [|]]; try done. by injection Ho as ->.
Qed.
Print Assumptions C46_refuted.

(** ** C73: a louder level gives a louder output *)
Theorem C73_hard_knee_monotone e1 e2 threshold ratio g1 g2 :
  / 10 ^ 9 < e1 → e1 <= e2 → 1 <= ratio → as_db e2 - threshold < 128 →
  gain_reduction e1 0 threshold ratio = Some g1 → gain_reduction e2 0 threshold ratio = Some g2 → e1 * g1 <= e2 * g2.
Proof. intros H1 H2 Hr. rewrite !gain_reduction_law by lra. by apply hard_mono. Qed.
Print Assumptions C73_hard_knee_monotone.
Example C73_hard_knee_case : ∃ g1 g2, gain_reduction (/ 2) 0 0 3 = Some g1 ∧ gain_reduction 10 0 0 3 = Some g2 ∧ / 2 * g1 <= 10 * g2.
Proof.
  assert (A : as_db 10 = 20). { unfold as_db. destruct (Rle_dec _ _); [lra|]. unfold log10. pose proof ln10_pos. field. lra. }
  destruct (gain_reduction 10 0 0 3) as [g2|] eqn:E2.
  - exists 1, g2. split; [exact C46_quiet_case|]. split; [done|]. eapply C73_hard_knee_monotone; [| | | |exact C46_quiet_case|exact E2]; lra.
  - rewrite C46_gain_law in E2 by lra. unfold gain_law in E2. cbn zeta in E2. rewrite A in E2. destruct (Rlt_dec _ _); [done|]. destruct (Req_EM_T _ _); [lra|done].
Qed.
(** with a knee of 20 dB, 2 dB louder in gives more than 5 dB less out *)
Theorem C73_refuted : ¬ (∀ e1 e2 knee threshold ratio g1 g2, / 10 ^ 9 < e1 → e1 <= e2 → 0 <= knee → 1 <= ratio → as_db e2 - threshold < 128 →
  gain_reduction e1 knee threshold ratio = Some g1 → gain_reduction e2 knee threshold ratio = Some g2 → e1 * g1 <= e2 * g2).
Proof.
  intros H. destruct soft_knee_falls as (e1 & e2 & g1 & g2 & H1 & H2 & G1 & G2 & Hf & Hd).
  specialize (H e1 e2 20 (-20) 3 g1 g2). rewrite !gain_reduction_law in H by lra. specialize (H H1 ltac:(lra) ltac:(lra) ltac:(lra) ltac:(lra) G1 G2). lra.
Qed.
Print Assumptions C73_refuted.

(** ** C74: whole sessions *)
Theorem C74_session n limit rate blocks : n ≠ 0%nat → Forall (cblock_ok n limit) blocks →
  ∃ outs c', comp_session (new_compressor n rate limit) blocks = Ok (outs, c') ∧ length outs = length blocks ∧
    ∀ k b out, blocks !! k = Some b → outs !! k = Some out → compressed n (follower_at rate blocks k) b out.
Proof. exact (session_compressed n limit rate blocks). Qed.
Print Assumptions C74_session.
Example C74_case : ∃ outs c', comp_session (new_compressor 1 1 1) [full_scale; full_scale] = Ok (outs, c') ∧ length outs = 2%nat.
Proof.
  destruct (C74_session 1 1 1 [full_scale; full_scale]) as (outs & c' & E & L & _); [done|by repeat apply Forall_cons_2; try apply Forall_nil_2; try apply full_scale_ok|].
  exists outs, c'. done.
Qed.
