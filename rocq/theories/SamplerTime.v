(** The sampler's time arithmetic: rounding to whole frames is right as long as
    the accumulated errors stay below half a frame. *)
From Coq Require Import ZArith Lia Psatz.
From Coq Require Import ZifyBool ZifyNat.
From Verif Require Import Float FloatProofs Timestamp TimestampProofs Sampler.
Local Open Scope Z_scope.

Lemma rnd_nonpos p a b : 0 < b -> 0 < p -> a <= 0 -> rnd p a b <= 0.
Proof. intros Hb Hp Ha. apply rnd_le_repr; [lia|lia|apply repr_0; lia|lia]. Qed.

Lemma as_samples_nonpos t sr : t <= 0 -> 0 < sr <= 2 ^ 53 -> as_samples t sr <= 0.
Proof.
  intros Ht Hs. unfold as_samples, f64_mul. rewrite f64_of_Z_exact by lia.
  pose proof one64_pos. pose proof tick64_big.
  assert (fixed_to_f64 t <= 0) by (apply rnd_nonpos; nia).
  apply rnd_nonpos; nia.
Qed.

(** rounding an interval to whole frames *)
Lemma round_near d n sr : 0 < sr <= 2 ^ 29 -> n <= 2 ^ 41 ->
  2 * Z.abs (d * sr - n * 2 ^ 32) <= 2 ^ 32 - 2 ^ 26 ->
  f64_round_usize (as_samples d sr) = Z.max 0 n.
Proof.
  intros Hs Hn E. unfold f64_round_usize.
  destruct (Z_le_gt_dec d 0) as [Hd|Hd].
  { pose proof (as_samples_nonpos d sr Hd ltac:(lia)) as H.
    destruct (as_samples d sr <=? 0) eqn:E2; [|lia].
    assert (d * sr <= 0) by nia. lia. }
  assert (Hd2 : d <= 2 ^ 74).
  { assert (d * 1 <= d * sr) by (apply Z.mul_le_mono_nonneg_l; lia). lia. }
  assert (Hd3 : d * sr <= 2 ^ 73 + 2 ^ 32) by lia.
  assert (E1 : Z.abs (as_samples d sr - d * sr * tick64) * 2 ^ 51 <= d * sr * tick64).
  { destruct (Z_le_gt_dec d (2 ^ 63)) as [H63|H63].
    - apply as_samples_error; lia.
    - (* the bound 2^63 of the lemma is not needed *)
      rewrite as_samples_eq by lia. unfold fixed_to_f64. pose proof tick64_big as Hb.
      pose proof (rnd_error_sum 53 (d * tick64) 1 ltac:(lia) ltac:(lia)) as F1.
      rewrite Z.mul_1_l, Z.mul_1_r in F1. set (f := rnd 53 (d * tick64) 1) in *. clearbody f.
      pose proof (rnd_error_sum 53 (f * sr) 1 ltac:(lia) ltac:(lia)) as F2.
      rewrite Z.mul_1_l, Z.mul_1_r in F2. set (S := rnd 53 (f * sr) 1) in *. clearbody S.
      set (T := d * tick64) in *. assert (HT : tick64 <= T) by (unfold T; nia).
      replace (d * sr * tick64) with (T * sr) by (unfold T; ring). clearbody T.
      assert (F3 : Z.abs (f * sr - T * sr) * 2 ^ 53 <= (Z.abs T + 2 ^ 53) * sr).
      { replace (f * sr - T * sr) with ((f - T) * sr) by ring. rewrite Z.abs_mul, (Z.abs_eq sr) by lia. nia. }
      assert (HR : 2 ^ 200 * sr <= T * sr) by nia.
      assert (F4 : (Z.abs T + 2 ^ 53) * sr = T * sr + 2 ^ 53 * sr) by (rewrite Z.abs_eq by lia; ring).
      rewrite F4 in F3. set (P := T * sr) in *. set (Q := f * sr) in *. clearbody P Q. clear F4 F1 HT Hb.
      assert (0 <= P) by lia. lia. }
  rewrite one64_tick. pose proof tick64_big as Hb.
  set (S := as_samples d sr) in *. clearbody S. set (P := d * sr) in *. clearbody P.
  assert (HP : P * tick64 <= (2 ^ 73 + 2 ^ 32) * tick64) by nia.
  set (PT := P * tick64) in *. 
  assert (E3 : Z.abs (S - PT) <= 2 ^ 23 * tick64) by lia.
  set (N := n * tick64).
  assert (E4 : 2 * Z.abs (PT - N * 2 ^ 32) <= (2 ^ 32 - 2 ^ 26) * tick64).
  { replace (PT - N * 2 ^ 32) with ((P - n * 2 ^ 32) * tick64) by (unfold PT, N; ring).
    rewrite Z.abs_mul, (Z.abs_eq tick64) by lia. nia. }
  destruct (S <=? 0) eqn:E5.
  - assert (N * 2 ^ 32 < 1 * tick64 * 2 ^ 32) by lia. assert (n < 1) by (unfold N in *; nia). lia.
  - destruct (Z_le_gt_dec n 0) as [Hn0|Hn0].
    + rewrite Z.max_l by lia. apply Z.div_small. assert (N <= 0) by (unfold N; nia). lia.
    + rewrite Z.max_r by lia. symmetry. apply (Z.div_unique _ _ _ (2 * S + tick64 * 2 ^ 32 - n * (2 * (tick64 * 2 ^ 32)))).
      * left. replace (n * (2 * (tick64 * 2 ^ 32))) with (2 * 2 ^ 32 * N) by (unfold N; ring). lia.
      * ring.
Qed.

(** [t] is within [e] half units of frame [n]; a unit is 2^-32 of a frame *)
Definition within (sr t n e : Z) : Prop := 2 * Z.abs (t * sr - n * 2 ^ 32) <= e.

Lemma within_le sr t n e e' : e <= e' -> within sr t n e -> within sr t n e'.
Proof. unfold within. lia. Qed.

Lemma within_from_samples sr n : 0 < sr <= 2 ^ 29 -> 0 <= n <= 2 ^ 20 ->
  within sr (from_samples (f64_of_Z n) sr) n (sr + 1).
Proof.
  intros Hs Hn. pose proof (frame_time_error n sr ltac:(lia) ltac:(lia)) as E. unfold frame_time in E.
  unfold within. rewrite (Z.mul_comm _ sr). lia.
Qed.
Lemma within_frame_count sr n : 0 < sr <= 2 ^ 29 -> 0 <= n <= 2 ^ 40 ->
  within sr (from_samples (f64_of_Z n) sr) n (sr + 1 + 2 ^ 21).
Proof.
  intros Hs Hn. pose proof (frame_time_error n sr ltac:(lia) ltac:(lia)) as E. unfold frame_time in E.
  unfold within. rewrite (Z.mul_comm _ sr). lia.
Qed.

(** conversions of sums and products of intervals, of either sign *)
Lemma from_samples_error x sr : 0 < sr <= 2 ^ 29 ->
  Z.abs x <= 2 ^ 43 * one64 ->
  2 * Z.abs (from_samples x sr * sr * tick64 - x) <= (sr + 1 + 2 ^ 24) * tick64.
Proof.
  intros Hs Hx. unfold from_samples, fixed_from_f64, f64_div. pose proof one64_pos as Ho.
  rewrite f64_of_Z_exact by lia.
  assert (sr * one64 <? 0 = false) as -> by (apply Z.ltb_ge; nia).
  rewrite rnd_scale by (lia || nia).
  pose proof (rnd_error_sum 53 x sr ltac:(lia) ltac:(lia)) as E1.
  set (v := rnd 53 x sr) in *. clearbody v. pose proof tick64_big as Ht.
  pose proof (rne_error v tick64 ltac:(lia)) as E2. set (t := rne v tick64) in *. clearbody t.
  rewrite one64_tick in Hx. clear Ho.
  assert (E3 : 2 * (sr * Z.abs (tick64 * t - v)) <= sr * tick64) by nia.
  assert (E4 : Z.abs (t * sr * tick64 - x) <= sr * Z.abs (tick64 * t - v) + Z.abs (sr * v - x)) by nia.
  assert (E5 : Z.abs (sr * v - x) <= 2 ^ 23 * tick64) by lia. lia.
Qed.

Lemma as_samples_error_abs t sr m : 0 < sr <= 2 ^ 29 -> Z.abs (t * sr) <= m * 2 ^ 32 ->  m <= 2 ^ 42 -> 1 <= m ->
  Z.abs (as_samples t sr - t * sr * tick64) * 2 ^ 19 <= m * tick64.
Proof.
  intros Hs Hm Hm2 Hm1. unfold as_samples, f64_mul. rewrite f64_of_Z_exact by lia. pose proof one64_pos as Ho.
  rewrite Z.mul_assoc. rewrite <- (Z.mul_1_l one64) at 2. rewrite rnd_scale by lia.
  unfold fixed_to_f64. pose proof tick64_big as Hb.
  pose proof (rnd_error_sum 53 (t * tick64) 1 ltac:(lia) ltac:(lia)) as E1.
  rewrite Z.mul_1_l, Z.mul_1_r in E1. set (f := rnd 53 (t * tick64) 1) in *. clearbody f.
  pose proof (rnd_error_sum 53 (f * sr) 1 ltac:(lia) ltac:(lia)) as E2.
  rewrite Z.mul_1_l, Z.mul_1_r in E2. set (S := rnd 53 (f * sr) 1) in *. clearbody S.
  assert (E3 : Z.abs (f * sr - t * sr * tick64) * 2 ^ 53 <= Z.abs (t * sr * tick64) + 2 ^ 53 * sr).
  { replace (f * sr - t * sr * tick64) with ((f - t * tick64) * sr) by ring.
    replace (t * sr * tick64) with (t * tick64 * sr) by ring.
    rewrite !(Z.abs_mul _ sr), (Z.abs_eq sr) by lia.
    pose proof (Z.mul_le_mono_nonneg_r _ _ sr ltac:(lia) E1). lia. }
  assert (E4 : Z.abs (t * sr * tick64) <= m * 2 ^ 32 * tick64).
  { rewrite Z.abs_mul, (Z.abs_eq tick64) by lia. apply Z.mul_le_mono_nonneg_r; lia. }
  set (P := t * sr * tick64) in *. set (Q := f * sr) in *. clearbody P Q.
  set (M := m * tick64) in *. assert (HM : 1 * 2 ^ 200 <= M) by (unfold M; apply Z.mul_le_mono_nonneg; lia).
  replace (m * 2 ^ 32 * tick64) with (2 ^ 32 * M) in E4 by (unfold M; ring). clearbody M.
  assert (sr <= 2 ^ 29) by lia. lia.
Qed.

(** the loop boundary: [loops] copies of the loop after the first pass *)
Lemma within_boundary sr first len nf nl loops :
  0 < sr <= 2 ^ 29 -> 0 <= loops <= 2 ^ 30 ->
  within sr first nf (2 * (sr + 1)) -> within sr len nl (2 * (sr + 1)) ->
  Z.abs nf <= 2 ^ 40 -> 0 <= nl -> nl * loops <= 2 ^ 40 -> nl <= 2 ^ 40 ->
  within sr (from_samples (f64_add (as_samples first sr) (f64_mul (as_samples len sr) (f64_of_Z loops))) sr)
    (nf + nl * loops) ((2 * loops + 3) * (sr + 1) + 2 ^ 26).
Proof.
  intros Hs Hl Hf Hn Bf Bn0 Bn Bn2. unfold within in *. unfold f64_add, f64_mul.
  rewrite (f64_of_Z_exact loops) by lia.
  rewrite Z.mul_assoc. pose proof one64_pos as Ho. rewrite <- (Z.mul_1_l one64) at 2. rewrite rnd_scale by lia.
  pose proof tick64_big as Hb.
  assert (A1 : Z.abs (first * sr) <= 2 ^ 41 * 2 ^ 32) by lia.
  pose proof (as_samples_error_abs first sr (2 ^ 41) Hs A1 ltac:(lia) ltac:(lia)) as E1.
  assert (A2 : Z.abs (len * sr) <= (nl + 1) * 2 ^ 32) by lia.
  pose proof (as_samples_error_abs len sr (nl + 1) Hs A2 ltac:(lia) ltac:(lia)) as E2.
  set (X1 := as_samples first sr) in *. set (X2 := as_samples len sr) in *. clearbody X1 X2.
  set (F := first * sr) in *. set (L := len * sr) in *. clearbody F L.
  (* exact values, in ticks *)
  assert (E3 : Z.abs (X2 * loops - L * loops * tick64) <= 2 ^ 22 * tick64).
  { replace (X2 * loops - L * loops * tick64) with ((X2 - L * tick64) * loops) by ring.
    rewrite Z.abs_mul, (Z.abs_eq loops) by lia.
    pose proof (Z.mul_le_mono_nonneg_r _ _ loops (proj1 Hl) E2) as G1.
    assert (G2 : (nl * loops + loops) * tick64 <= 2 ^ 41 * tick64) by (apply Z.mul_le_mono_nonneg_r; lia).
    lia. }
  assert (E4 : Z.abs (L * loops - nl * loops * 2 ^ 32) * 2 <= 2 * loops * (sr + 1)).
  { replace (L * loops - nl * loops * 2 ^ 32) with ((L - nl * 2 ^ 32) * loops) by ring.
    rewrite Z.abs_mul, (Z.abs_eq loops) by lia.
    pose proof (Z.mul_le_mono_nonneg_r _ _ loops (proj1 Hl) Hn) as G1. lia. }
  assert (Hsl : loops * (sr + 1) <= 2 ^ 30 * 2 ^ 30) by (apply Z.mul_le_mono_nonneg; lia).
  assert (B0 : 0 <= nl * loops) by (apply Z.mul_nonneg_nonneg; lia).
  set (LL := L * loops) in *. set (X3 := X2 * loops) in *. set (NL := nl * loops) in *.
  set (LS := loops * (sr + 1)) in *.
  replace (2 * loops * (sr + 1)) with (2 * LS) in E4 by (unfold LS; ring).
  replace ((2 * loops + 3) * (sr + 1)) with (2 * LS + 3 * (sr + 1)) by (unfold LS; ring).
  clearbody LL X3 NL LS.
  assert (E5 : Z.abs X3 <= 2 ^ 73 * tick64).
  { assert (Z.abs (LL * tick64) <= (2 ^ 72 + 2 ^ 61) * tick64).
    { rewrite Z.abs_mul, (Z.abs_eq tick64) by lia. apply Z.mul_le_mono_nonneg_r; lia. }
    lia. }
  pose proof (rnd_error_sum 53 X3 1 ltac:(lia) ltac:(lia)) as E6. rewrite Z.mul_1_l, Z.mul_1_r in E6.
  set (X4 := rnd 53 X3 1) in *. clearbody X4.
  assert (E7 : Z.abs X1 <= (2 ^ 73 + 2 ^ 60) * tick64).
  { assert (Z.abs (F * tick64) <= 2 ^ 73 * tick64).
    { rewrite Z.abs_mul, (Z.abs_eq tick64) by lia. apply Z.mul_le_mono_nonneg_r; lia. }
    lia. }
  pose proof (rnd_error_sum 53 (X1 + X4) 1 ltac:(lia) ltac:(lia)) as E8. rewrite Z.mul_1_l, Z.mul_1_r in E8.
  set (X5 := rnd 53 (X1 + X4) 1) in *. clearbody X5.
  assert (E9 : Z.abs (X5 - (F + LL) * tick64) <= 2 ^ 24 * tick64).
  { replace ((F + LL) * tick64) with (F * tick64 + LL * tick64) by ring.
    clear Hf Hn A1 A2 E4 E2. set (FT := F * tick64) in *. set (LT := LL * tick64) in *. clearbody FT LT. lia. }
  assert (E10 : Z.abs X5 <= 2 ^ 43 * one64).
  { rewrite one64_tick. clear - E8 E7 E6 E5 Hb. lia. }
  pose proof (from_samples_error X5 sr Hs E10) as E11.
  set (t := from_samples X5 sr) in *. clearbody t. set (T := t * sr) in *. clearbody T. clear E10.
  assert (E12 : 2 * Z.abs ((T - (F + LL)) * tick64) <= (sr + 1 + 2 ^ 24 + 2 ^ 25) * tick64).
  { replace ((T - (F + LL)) * tick64) with (T * tick64 - (F + LL) * tick64) by ring.
    clear - E11 E9. set (FT := (F + LL) * tick64) in *. set (TT := T * tick64) in *. clearbody FT TT. lia. }
  rewrite Z.abs_mul, (Z.abs_eq tick64) in E12 by lia.
  assert (E13 : 2 * Z.abs (T - (F + LL)) <= sr + 1 + 2 ^ 24 + 2 ^ 25).
  { clear - E12 Hb. apply (Z.mul_le_mono_pos_r _ _ tick64); lia. }
  clear - E13 E4 Hf. lia.
Qed.
