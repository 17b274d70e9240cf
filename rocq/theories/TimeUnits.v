(** Proofs of C107: seconds and beats as times. *)
From Coq Require Import ZArith Lia.
From Verif Require Import Float FloatProofs Timestamp TimestampProofs.
Local Open Scope Z_scope.

Lemma to_f64_exact t : Z.abs t <= 2 ^ 53 -> fixed_to_f64 t = t * tick64.
Proof.
  intros Ht. unfold fixed_to_f64. apply rnd_exact1; [lia|].
  unfold tick64. rewrite Z.shiftl_1_l. apply repr_pow; [lia|]. apply repr_small; lia.
Qed.

Lemma tick64_pos : 0 < tick64.
Proof. pose proof tick64_big. lia. Qed.

Lemma seconds_round_trip t : Z.abs t <= 2 ^ 53 ->
  as_seconds t = t * tick64 /\ from_seconds (as_seconds t) = t.
Proof.
  intros Ht. unfold as_seconds, from_seconds, fixed_from_f64. rewrite to_f64_exact by exact Ht.
  split; [reflexivity|]. rewrite Z.mul_comm. apply rne_exact, tick64_pos.
Qed.

Lemma nearest_of_half (k x q u : Z) : 0 < k -> 2 * Z.abs (k * q - x) <= k -> Z.abs (k * q - x) <= Z.abs (k * u - x).
Proof.
  intros Hk H. destruct (Z.eq_dec q u) as [->|Hn]; [lia|].
  assert (k <= Z.abs (k * q - k * u)).
  { replace (k * q - k * u) with (k * (q - u)) by ring. rewrite Z.abs_mul. nia. }
  lia.
Qed.

Lemma seconds_nearest x u : Z.abs (tick64 * from_seconds x - x) <= Z.abs (tick64 * u - x).
Proof. apply nearest_of_half; [apply tick64_pos|]. apply rne_error, tick64_pos. Qed.

Lemma seconds_added_nearest t x u :
  Z.abs (tick64 * incremented_by_seconds t x - (tick64 * t + x)) <= Z.abs (tick64 * u - (tick64 * t + x)).
Proof.
  apply nearest_of_half; [apply tick64_pos|]. unfold incremented_by_seconds, fixed_from_f64.
  pose proof (rne_error x tick64 tick64_pos) as H.
  replace (tick64 * (t + rne x tick64) - (tick64 * t + x)) with (tick64 * rne x tick64 - x) by ring. exact H.
Qed.

Lemma seconds_added_mono t u x y : t <= u -> x <= y -> incremented_by_seconds t x <= incremented_by_seconds u y.
Proof.
  intros Ht Hx. unfold incremented_by_seconds, fixed_from_f64. pose proof tick64_pos.
  pose proof (rne_mono x tick64 y tick64 ltac:(lia) ltac:(lia) ltac:(nia)). lia.
Qed.

(** beats per second *)
Definition beat_freq (m : Z) : Z := f64_div m (f64_of_Z 60).

Lemma beat_freq_eq m : beat_freq m = rnd 53 (m * one64) (60 * one64).
Proof.
  unfold beat_freq, f64_div. rewrite f64_of_Z_exact by lia. pose proof one64_pos.
  destruct (Z.ltb_spec (60 * one64) 0); [lia|reflexivity].
Qed.

Lemma beat_freq_error m : one64 <= m -> Z.abs (60 * beat_freq m - m) * 2 ^ 52 <= m.
Proof.
  intros Hm. rewrite beat_freq_eq. pose proof one64_pos as HU.
  pose proof (rnd_error_sum 53 (m * one64) (60 * one64) ltac:(lia) ltac:(lia)) as H.
  pose proof tick64_big as Hk. pose proof one64_tick as Hu. set (r := rnd 53 _ _) in *. clearbody r.
  assert (2 ^ 232 <= one64) by lia. set (U := one64) in *. clearbody U. clear Hk Hu.
  replace (60 * U * r - m * U) with (U * (60 * r - m)) in H by ring.
  rewrite Z.abs_mul, (Z.abs_eq U), (Z.abs_eq (m * U)) in H by nia.
  set (e := Z.abs (60 * r - m)) in *.
  assert (e * 2 ^ 53 <= m + 2 ^ 53 * 60) by (apply (Z.mul_le_mono_pos_l _ _ U HU); lia).
  lia.
Qed.

Lemma beat_freq_pos m : one64 <= m -> 0 < beat_freq m.
Proof. intros Hm. pose proof (beat_freq_error m Hm). pose proof one64_pos. lia. Qed.

Lemma from_beats_eq b m : one64 <= m -> from_beats b m = rne (rnd 53 (b * one64) (beat_freq m)) tick64.
Proof.
  intros Hm. unfold from_beats, fixed_from_f64. fold (beat_freq m). unfold f64_div at 1.
  pose proof (beat_freq_pos m Hm). destruct (Z.ltb_spec (beat_freq m) 0); [lia|reflexivity].
Qed.

Lemma from_beats_mono b c m : one64 <= m -> b <= c -> from_beats b m <= from_beats c m.
Proof.
  intros Hm Hb. rewrite !from_beats_eq by exact Hm. pose proof (beat_freq_pos m Hm). pose proof tick64_pos. pose proof one64_pos.
  apply rne_mono; [lia|lia|]. apply Z.mul_le_mono_nonneg_r; [lia|]. apply rnd_mono; try lia.
  apply Z.mul_le_mono_nonneg_r; [lia|]. nia.
Qed.

Lemma beats_algebra (k m b f s T : Z) : 2 ^ 200 <= k -> 0 < m -> 0 < f ->
  Z.abs (60 * f - m) * 2 ^ 52 <= m ->
  Z.abs (f * s - b * (k * 2 ^ 32)) * 2 ^ 53 <= Z.abs b * (k * 2 ^ 32) + 2 ^ 53 * f ->
  2 * Z.abs (k * T - s) <= k ->
  2 ^ 51 * Z.abs (m * T - 60 * b * 2 ^ 32) <= (2 ^ 50 + 1) * m + 60 * Z.abs b * 2 ^ 32.
Proof.
  intros Hk Hm Hf H1 H2 H3.
  apply (Z.mul_le_mono_pos_l _ _ k ltac:(lia)).
  set (B := Z.abs b * (k * 2 ^ 32)) in *.
  assert (HB : 0 <= B) by (unfold B; apply Z.mul_nonneg_nonneg; lia).
  assert (Hs : f * Z.abs s * 2 ^ 53 <= (2 ^ 53 + 1) * B + 2 ^ 53 * f).
  { assert (Z.abs (f * s) = f * Z.abs s) by (rewrite Z.abs_mul, (Z.abs_eq f) by lia; reflexivity).
    assert (Z.abs (b * (k * 2 ^ 32)) = B) by (unfold B; rewrite Z.abs_mul, (Z.abs_eq (k * 2 ^ 32)) by lia; reflexivity).
    lia. }
  assert (Hms : m * Z.abs s <= 61 * (f * Z.abs s)).
  { replace (61 * (f * Z.abs s)) with (61 * f * Z.abs s) by ring. apply Z.mul_le_mono_nonneg_r; lia. }
  set (e1 := m * (k * T - s)). set (e2 := (m - 60 * f) * s). set (e3 := 60 * (f * s - b * (k * 2 ^ 32))).
  assert (E : k * (m * T - 60 * b * 2 ^ 32) = e1 + e2 + e3) by (unfold e1, e2, e3; ring).
  assert (A1 : 2 * Z.abs e1 <= m * k) by (unfold e1; rewrite Z.abs_mul, (Z.abs_eq m) by lia;
    replace (2 * (m * Z.abs (k * T - s))) with (m * (2 * Z.abs (k * T - s))) by ring; apply Z.mul_le_mono_nonneg_l; lia).
  assert (A2 : Z.abs e2 * 2 ^ 52 <= m * Z.abs s).
  { unfold e2. rewrite Z.abs_mul.
    replace (Z.abs (m - 60 * f) * Z.abs s * 2 ^ 52) with (Z.abs (m - 60 * f) * 2 ^ 52 * Z.abs s) by ring.
    apply Z.mul_le_mono_nonneg_r; lia. }
  assert (A3 : Z.abs e3 * 2 ^ 53 <= 60 * (B + 2 ^ 53 * f)) by (unfold e3; rewrite Z.abs_mul; lia).
  assert (Hkm : 2 ^ 200 * m <= m * k) by (rewrite (Z.mul_comm m k); apply Z.mul_le_mono_nonneg_r; lia).
  replace (k * (2 ^ 51 * Z.abs (m * T - 60 * b * 2 ^ 32))) with (2 ^ 51 * Z.abs (k * (m * T - 60 * b * 2 ^ 32)))
    by (rewrite (Z.abs_mul k), (Z.abs_eq k) by lia; ring).
  rewrite E.
  replace (k * ((2 ^ 50 + 1) * m + 60 * Z.abs b * 2 ^ 32)) with ((2 ^ 50 + 1) * (m * k) + 60 * B) by (unfold B; ring).
  pose proof (Z.abs_triangle (e1 + e2) e3). pose proof (Z.abs_triangle e1 e2).
  set (mk := m * k) in *. set (ms := m * Z.abs s) in *. set (fs := f * Z.abs s) in *.
  clearbody mk ms fs B e1 e2 e3. clear E. lia.
Qed.

Lemma from_beats_error b m : one64 <= m ->
  2 ^ 51 * Z.abs (m * from_beats b m - 60 * b * 2 ^ 32) <= (2 ^ 50 + 1) * m + 60 * Z.abs b * 2 ^ 32.
Proof.
  intros Hm. rewrite from_beats_eq by exact Hm. pose proof one64_pos as HU.
  apply (beats_algebra tick64 m b (beat_freq m) (rnd 53 (b * one64) (beat_freq m))).
  - apply tick64_big.
  - lia.
  - apply beat_freq_pos, Hm.
  - apply beat_freq_error, Hm.
  - rewrite <- one64_tick. pose proof (rnd_error_sum 53 (b * one64) (beat_freq m) (beat_freq_pos m Hm) ltac:(lia)) as H.
    rewrite (Z.abs_mul b), (Z.abs_eq one64) in H by lia. exact H.
  - apply rne_error, tick64_pos.
Qed.

Lemma as_beats_error t m : one64 <= m -> Z.abs t <= 2 ^ 53 ->
  2 ^ 51 * Z.abs (60 * 2 ^ 32 * as_beats t m - t * m) <= Z.abs t * m.
Proof.
  intros Hm Ht. unfold as_beats, f64_mul. fold (beat_freq m). rewrite to_f64_exact by exact Ht.
  pose proof (beat_freq_pos m Hm) as Hf. pose proof (beat_freq_error m Hm) as H1.
  pose proof one64_pos as HU. pose proof tick64_big as Hk. pose proof one64_tick as Hu.
  destruct (Z.eq_dec t 0) as [->|Hn]; [rewrite !Z.mul_0_l, rnd_0 by lia; cbn; lia|].
  pose proof (rnd_error_sum 53 (t * tick64 * beat_freq m) one64 HU ltac:(lia)) as H2.
  set (r := rnd 53 _ _) in *. clearbody r. set (f := beat_freq m) in *. clearbody f.
  rewrite Hu in *. clear Hu. set (k := tick64) in *. clearbody k.
  assert (Htm : 2 ^ 232 <= Z.abs t * m) by (apply Z.le_trans with (1 * m); [lia|apply Z.mul_le_mono_nonneg_r; lia]).
  apply (Z.mul_le_mono_pos_l _ _ k ltac:(lia)).
  set (e1 := 60 * (k * 2 ^ 32 * r - t * k * f)). set (e2 := t * k * (60 * f - m)).
  assert (E : k * (60 * 2 ^ 32 * r - t * m) = e1 + e2) by (unfold e1, e2; ring).
  set (X := Z.abs t * k) in *.
  assert (HX : Z.abs (t * k) = X) by (unfold X; rewrite Z.abs_mul, (Z.abs_eq k) by lia; reflexivity).
  assert (HX0 : 0 <= X) by (unfold X; apply Z.mul_nonneg_nonneg; lia).
  assert (A1 : Z.abs e1 * 2 ^ 53 <= 60 * (X * f + 2 ^ 53 * (k * 2 ^ 32))).
  { unfold e1. rewrite Z.abs_mul. rewrite (Z.abs_mul (t * k)), HX, (Z.abs_eq f) in H2 by lia. lia. }
  assert (A2 : Z.abs e2 * 2 ^ 52 <= X * m) by (unfold e2; rewrite Z.abs_mul, HX, <- Z.mul_assoc; apply Z.mul_le_mono_nonneg_l; lia).
  assert (A3 : 2 ^ 52 * (60 * (X * f)) <= (2 ^ 52 + 1) * (X * m)).
  { replace (2 ^ 52 * (60 * (X * f))) with (X * (2 ^ 52 * (60 * f))) by ring.
    replace ((2 ^ 52 + 1) * (X * m)) with (X * ((2 ^ 52 + 1) * m)) by ring. apply Z.mul_le_mono_nonneg_l; lia. }
  assert (A4 : 2 ^ 232 * k <= X * m) by (unfold X; replace (Z.abs t * k * m) with (Z.abs t * m * k) by ring; apply Z.mul_le_mono_nonneg_r; lia).
  replace (k * (2 ^ 51 * Z.abs (60 * 2 ^ 32 * r - t * m))) with (2 ^ 51 * Z.abs (k * (60 * 2 ^ 32 * r - t * m)))
    by (rewrite (Z.abs_mul k), (Z.abs_eq k) by lia; ring).
  rewrite E. replace (k * (Z.abs t * m)) with (X * m) by (unfold X; ring).
  pose proof (Z.abs_triangle e1 e2). set (Xm := X * m) in *. set (Xf := X * f) in *. clearbody Xm Xf e1 e2. lia.
Qed.

Lemma beats_round_trip b m : one64 <= m -> Z.abs (from_beats b m) <= 2 ^ 53 ->
  2 ^ 50 * (60 * 2 ^ 32 * Z.abs (as_beats (from_beats b m) m - b)) <= (2 ^ 49 + 1) * m + 61 * Z.abs b * 2 ^ 32.
Proof.
  intros Hm Ht. pose proof (as_beats_error _ m Hm Ht) as H1. pose proof (from_beats_error b m Hm) as H2.
  set (T := from_beats b m) in *. set (r := as_beats T m) in *. clearbody T r. pose proof one64_pos.
  assert (E : Z.abs T * m = Z.abs (m * T)) by (rewrite Z.abs_mul, (Z.abs_eq m) by lia; ring).
  rewrite E in H1. replace (T * m) with (m * T) in H1 by ring. set (mT := m * T) in *. clearbody mT. lia.
Qed.

Lemma beats_added t b m : incremented_by_beats t b m - t = from_beats b m.
Proof. unfold incremented_by_beats. lia. Qed.

Lemma beats_added_error t b m : one64 <= m ->
  2 ^ 51 * Z.abs (m * (incremented_by_beats t b m - t) - 60 * b * 2 ^ 32) <= (2 ^ 50 + 1) * m + 60 * Z.abs b * 2 ^ 32.
Proof. intros Hm. rewrite beats_added. apply from_beats_error, Hm. Qed.

Lemma beats_added_mono t u b c m : one64 <= m -> t <= u -> b <= c -> incremented_by_beats t b m <= incremented_by_beats u c m.
Proof. intros Hm Ht Hb. unfold incremented_by_beats. pose proof (from_beats_mono b c m Hm Hb). lia. Qed.
