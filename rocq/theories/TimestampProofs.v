(** Conversion between frames and timestamps. *)
From Coq Require Import ZArith Lia Psatz.
From Coq Require Import ZifyBool ZifyNat.
From Verif Require Import Float FloatProofs Timestamp.
Local Open Scope Z_scope.

(** The timestamp of frame [n] of a stream: Timestamp::from_samples(n as f64). *)
Definition frame_time (n sr : Z) : timestamp := from_samples (f64_of_Z n) sr.

Lemma one64_tick : one64 = tick64 * 2 ^ 32.
Proof. unfold one64, tick64. rewrite !Z.shiftl_1_l, <- Z.pow_add_r by lia. reflexivity. Qed.

Lemma tick64_big : 2 ^ 200 <= tick64.
Proof. unfold tick64. rewrite Z.shiftl_1_l. apply Z.pow_le_mono_r; lia. Qed.

Lemma one64_pos : 0 < one64.
Proof. unfold one64. rewrite Z.shiftl_1_l. apply pow_pos. lia. Qed.

Lemma f64_of_Z_exact n : Z.abs n <= 2 ^ 53 -> f64_of_Z n = n * one64.
Proof.
  intros Hn. unfold f64_of_Z. apply rnd_exact1; [lia|].
  unfold one64. rewrite Z.shiftl_1_l. apply repr_pow; [lia|]. apply repr_small; lia.
Qed.

Opaque one64 tick64.

(** rounding error of either branch, in one bound *)
Lemma rnd_error_sum p a b : 0 < b -> 0 < p ->
  Z.abs (b * rnd p a b - a) * 2 ^ p <= Z.abs a + 2 ^ p * b.
Proof.
  intros Hb Hp. pose proof (pow_pos p ltac:(lia)).
  destruct (rnd_rel_error p a b Hb Hp) as [H1|[_ ->]]; [nia|].
  pose proof (rne_error a b Hb). nia.
Qed.

Lemma frame_time_eq n sr : 0 <= n <= 2 ^ 53 -> 0 < sr <= 2 ^ 53 ->
  frame_time n sr = rne (rnd 53 (n * one64) sr) tick64.
Proof.
  intros Hn Hs. unfold frame_time, from_samples, fixed_from_f64, f64_div.
  pose proof one64_pos as Ho.
  rewrite !f64_of_Z_exact by lia.
  assert (sr * one64 <? 0 = false) as -> by (apply Z.ltb_ge; nia).
  rewrite rnd_scale by (lia || nia). reflexivity.
Qed.

Lemma frame_time_mono n m sr : 0 <= n <= m -> m <= 2 ^ 53 -> 0 < sr <= 2 ^ 53 ->
  frame_time n sr <= frame_time m sr.
Proof.
  intros Hn Hm Hs. rewrite !frame_time_eq by lia.
  pose proof one64_pos. pose proof tick64_big.
  apply rne_mono; try lia. apply Z.mul_le_mono_nonneg_r; [lia|].
  apply rnd_mono; [lia|lia|lia|]. apply Z.mul_le_mono_nonneg_r; nia.
Qed.

Lemma frame_time_0 sr : 0 < sr <= 2 ^ 53 -> frame_time 0 sr = 0.
Proof.
  intros Hs. rewrite frame_time_eq by lia. rewrite Z.mul_0_l, rnd_0 by lia.
  pose proof tick64_big. replace 0 with (tick64 * 0) at 1 by ring. apply rne_exact. lia.
Qed.

Lemma frame_time_nonneg n sr : 0 <= n <= 2 ^ 53 -> 0 < sr <= 2 ^ 53 -> 0 <= frame_time n sr.
Proof. intros Hn Hs. rewrite <- (frame_time_0 sr Hs). apply frame_time_mono; lia. Qed.

(** error of the conversion: half a tick, plus the 2^-53 of the division *)
Lemma frame_time_error n sr : 0 <= n <= 2 ^ 53 -> 0 < sr <= 2 ^ 53 ->
  2 ^ 22 * Z.abs (sr * frame_time n sr - n * 2 ^ 32) <= 2 ^ 21 * sr + 2 * n.
Proof.
  intros Hn Hs. rewrite frame_time_eq by lia.
  pose proof one64_pos as Ho. pose proof one64_tick as Et. pose proof tick64_big as Ht.
  pose proof (rnd_error_sum 53 (n * one64) sr ltac:(lia) ltac:(lia)) as E1.
  set (v := rnd 53 (n * one64) sr) in *. clearbody v.
  pose proof (rne_error v tick64 ltac:(lia)) as E2. set (t := rne v tick64) in *. clearbody t.
  rewrite Et in E1. clear Et Ho.
  (* multiply out: everything is a multiple of the tick *)
  assert (E3 : 2 * (sr * Z.abs (tick64 * t - v)) <= sr * tick64) by nia.
  assert (E4 : Z.abs (tick64 * (sr * t - n * 2 ^ 32)) <=
               sr * Z.abs (tick64 * t - v) + Z.abs (sr * v - n * (tick64 * 2 ^ 32))) by nia.
  rewrite Z.abs_mul, (Z.abs_eq tick64) in E4 by lia.
  rewrite (Z.abs_eq (n * (tick64 * 2 ^ 32))) in E1 by nia.
  set (X := Z.abs (sr * t - n * 2 ^ 32)) in *. set (A := Z.abs (tick64 * t - v)) in *.
  set (B := Z.abs (sr * v - n * (tick64 * 2 ^ 32))) in *.
  assert (HX : 0 <= X) by (subst X; lia). clearbody X A B. clear E2.
  destruct (Z_le_gt_dec (2 ^ 22 * X) (2 ^ 21 * sr + 2 * n)) as [|Hgt]; [assumption|exfalso].
  assert (H5 : tick64 * (2 ^ 21 * sr + 2 * n + 1) <= tick64 * (2 ^ 22 * X)) by nia.
  set (N := tick64 * n) in *. set (Y := tick64 * X) in *. set (R := sr * tick64) in *.
  set (SA := sr * A) in *.
  assert (H6 : 2 ^ 21 * R + 2 * N + tick64 <= 2 ^ 22 * Y) by (unfold R, N, Y; lia).
  assert (H7 : B * 2 ^ 53 <= N * 2 ^ 32 + 2 ^ 53 * sr) by (unfold N; lia).
  clearbody N Y R SA. lia.
Qed.

(** order is kept strictly *)
Lemma frame_time_strict n m sr : 0 <= n < m -> m <= 2 ^ 50 -> 0 < sr <= 2 ^ 31 ->
  frame_time n sr < frame_time m sr.
Proof.
  intros Hn Hm Hs.
  pose proof (frame_time_error n sr ltac:(lia) ltac:(lia)) as E1.
  pose proof (frame_time_error m sr ltac:(lia) ltac:(lia)) as E2.
  assert (sr * frame_time n sr < sr * frame_time m sr) by lia.
  nia.
Qed.

(** ** Back to frames *)
Lemma as_samples_eq t sr : 0 <= t -> 0 < sr <= 2 ^ 53 ->
  as_samples t sr = rnd 53 (fixed_to_f64 t * sr) 1.
Proof.
  intros Ht Hs. unfold as_samples, f64_mul. rewrite f64_of_Z_exact by lia.
  rewrite Z.mul_assoc. rewrite <- (Z.mul_1_l one64) at 2.
  pose proof one64_pos. apply rnd_scale; lia.
Qed.

Lemma as_samples_mono t u sr : 0 <= t <= u -> 0 < sr <= 2 ^ 53 -> as_samples t sr <= as_samples u sr.
Proof.
  intros Ht Hs. rewrite !as_samples_eq by lia. apply rnd_mono; try lia.
  unfold fixed_to_f64. pose proof tick64_big.
  assert (rnd 53 (t * tick64) 1 <= rnd 53 (u * tick64) 1) by (apply rnd_mono; nia). nia.
Qed.

(** Relative error of going back: two roundings of 2^-53. *)
Lemma as_samples_error t sr : 0 <= t <= 2 ^ 63 -> 0 < sr <= 2 ^ 53 ->
  Z.abs (as_samples t sr - t * sr * tick64) * 2 ^ 51 <= t * sr * tick64.
Proof.
  intros Ht Hs. rewrite as_samples_eq by lia. unfold fixed_to_f64.
  pose proof tick64_big as Hb.
  destruct (Z.eq_dec t 0) as [->|Hz].
  { rewrite !Z.mul_0_l. lia. }
  pose proof (rnd_error_sum 53 (t * tick64) 1 ltac:(lia) ltac:(lia)) as E1.
  rewrite Z.mul_1_l, Z.mul_1_r in E1. set (f := rnd 53 (t * tick64) 1) in *. clearbody f.
  pose proof (rnd_error_sum 53 (f * sr) 1 ltac:(lia) ltac:(lia)) as E2.
  rewrite Z.mul_1_l, Z.mul_1_r in E2. set (S := rnd 53 (f * sr) 1) in *. clearbody S.
  set (T := t * tick64) in *. assert (HT : tick64 <= T) by (unfold T; nia).
  replace (t * sr * tick64) with (T * sr) by (unfold T; ring). clearbody T.
  assert (E3 : Z.abs (f * sr - T * sr) * 2 ^ 53 <= (Z.abs T + 2 ^ 53) * sr).
  { replace (f * sr - T * sr) with ((f - T) * sr) by ring. rewrite Z.abs_mul, (Z.abs_eq sr) by lia. nia. }
  assert (HR : 2 ^ 200 * sr <= T * sr) by nia.
  assert (E4 : (Z.abs T + 2 ^ 53) * sr = T * sr + 2 ^ 53 * sr) by (rewrite Z.abs_eq by lia; ring).
  rewrite E4 in E3. set (P := T * sr) in *. set (Q := f * sr) in *. clearbody P Q. clear E4 E1 HT Hb.
  assert (0 <= P) by lia. lia.
Qed.

(** Round trip, in units of 2^-32 frames.  One half of a tick per second of
    rounding in the timestamp, 2^-51 relative in the arithmetic. *)
Lemma roundtrip_error n sr : 0 <= n <= 2 ^ 48 -> 0 < sr <= 2 ^ 31 ->
  n <= sr * 2 ^ 30 ->
  8 * Z.abs (as_samples (frame_time n sr) sr - n * one64) < 4 * one64.
Proof.
  intros Hn Hs Hr.
  pose proof (frame_time_error n sr ltac:(lia) ltac:(lia)) as E1.
  pose proof (frame_time_nonneg n sr ltac:(lia) ltac:(lia)) as Ht.
  assert (Ht2 : frame_time n sr <= 2 ^ 63).
  { destruct (Z_le_gt_dec (frame_time n sr) (2 ^ 63)) as [|Hgt]; [assumption|exfalso].
    assert (sr * 2 ^ 63 <= sr * frame_time n sr) by nia. lia. }
  pose proof (as_samples_error (frame_time n sr) sr ltac:(lia) ltac:(lia)) as E2.
  set (S := as_samples (frame_time n sr) sr) in *. clearbody S.
  set (t := frame_time n sr) in *. clearbody t. rewrite one64_tick. pose proof tick64_big as Hb.
  set (P := t * sr) in *. replace (sr * t) with P in E1 by (unfold P; ring). clearbody P.
  set (N := n * tick64). set (PT := P * tick64) in *. 
  assert (E3 : 2 ^ 22 * Z.abs (PT - N * 2 ^ 32) <= (2 ^ 21 * sr + 2 * n) * tick64).
  { replace (PT - N * 2 ^ 32) with ((P - n * 2 ^ 32) * tick64) by (unfold PT, N; ring).
    rewrite Z.abs_mul, (Z.abs_eq tick64) by lia. nia. }
  assert (Hs2 : sr * tick64 <= 2 ^ 31 * tick64) by nia.
  assert (Hn2 : N <= 2 ^ 48 * tick64) by (unfold N; nia).
  assert (Hn0 : 0 <= N) by (unfold N; nia).
  replace ((2 ^ 21 * sr + 2 * n) * tick64) with (2 ^ 21 * (sr * tick64) + 2 * N) in E3 by (unfold N; ring).
  replace (n * (tick64 * 2 ^ 32)) with (N * 2 ^ 32) by (unfold N; ring).
  set (ST := sr * tick64) in *. clearbody N PT ST. lia.
Qed.

(** the nearest integer is the frame *)
Lemma near_integer U S q n : 0 < U -> 8 * Z.abs (S - n * U) < 4 * U -> 2 * Z.abs (U * q - S) <= U -> q = n.
Proof.
  intros HU E E2. assert (Z.abs (U * q - U * n) < U) by lia.
  replace (U * q - U * n) with (U * (q - n)) in H by ring.
  rewrite Z.abs_mul, (Z.abs_eq U) in H by lia. nia.
Qed.

Lemma roundtrip n sr : 0 <= n <= 2 ^ 48 -> 0 < sr <= 2 ^ 31 -> n <= sr * 2 ^ 30 ->
  rne (as_samples (frame_time n sr) sr) one64 = n.
Proof.
  intros Hn Hs Hr.
  exact (near_integer _ _ _ _ one64_pos (roundtrip_error n sr Hn Hs Hr) (rne_error _ _ one64_pos)).
Qed.

(** ** Position of an event in a block *)

(** error of a sum of timestamps given as frame counts *)
Lemma position_bounds d k sr : 0 <= d <= 2 ^ 63 -> 0 <= k <= 2 ^ 46 -> 0 < sr <= 2 ^ 29 ->
  2 ^ 22 * Z.abs (sr * d - k * 2 ^ 32) <= 2 ^ 23 * sr + 2 ^ 51 ->
  k - 1 <= f64_floor (as_samples d sr) <= k.
Proof.
  intros Hd Hk Hs E1. pose proof (as_samples_error d sr Hd ltac:(lia)) as E2.
  unfold f64_floor. set (S := as_samples d sr) in *. clearbody S.
  pose proof one64_tick as Eo. pose proof tick64_big as Hb.
  assert (HS : (k - 1) * one64 <= S < (k + 1) * one64).
  { rewrite Eo. set (P := d * sr) in *. replace (sr * d) with P in E1 by (unfold P; ring). clearbody P.
    set (N := k * tick64). set (PT := P * tick64) in *.
    assert (E3 : 2 ^ 22 * Z.abs (PT - N * 2 ^ 32) <= (2 ^ 23 * sr + 2 ^ 51) * tick64).
    { replace (PT - N * 2 ^ 32) with ((P - k * 2 ^ 32) * tick64) by (unfold PT, N; ring).
      rewrite Z.abs_mul, (Z.abs_eq tick64) by lia. nia. }
    assert (Hs2 : sr * tick64 <= 2 ^ 29 * tick64) by nia.
    assert (Hn2 : N <= 2 ^ 46 * tick64) by (unfold N; nia).
    assert (Hn0 : 0 <= N) by (unfold N; nia).
    replace ((2 ^ 23 * sr + 2 ^ 51) * tick64) with (2 ^ 23 * (sr * tick64) + 2 ^ 51 * tick64) in E3 by ring.
    replace ((k - 1) * (tick64 * 2 ^ 32)) with (N * 2 ^ 32 - tick64 * 2 ^ 32) by (unfold N; ring).
    replace ((k + 1) * (tick64 * 2 ^ 32)) with (N * 2 ^ 32 + tick64 * 2 ^ 32) by (unfold N; ring).
    set (ST := sr * tick64) in *. clearbody N PT ST. lia. }
  pose proof one64_pos as Ho. split.
  - apply Z.div_le_lower_bound; lia.
  - assert (S / one64 < k + 1); [|lia]. apply Z.div_lt_upper_bound; lia.
Qed.

Lemma roundtrip_half n sr : 0 <= n <= 2 ^ 48 -> 0 < sr <= 2 ^ 31 -> n <= sr * 2 ^ 30 ->
  2 * Z.abs (as_samples (frame_time n sr) sr - n * one64) < one64.
Proof.
  intros Hn Hs Hr. pose proof (roundtrip_error n sr Hn Hs Hr) as E.
  revert E. generalize (Z.abs (as_samples (frame_time n sr) sr - n * one64)) one64. intros. lia.
Qed.

(** start of a block [o] frames into a callback at frame [p] *)
Lemma block_start_error p o sr : 0 <= p -> 0 <= o -> p + o <= 2 ^ 46 -> 0 < sr <= 2 ^ 29 ->
  2 ^ 22 * Z.abs (sr * (frame_time p sr + frame_time o sr) - (p + o) * 2 ^ 32) <= 2 ^ 22 * sr + 2 * (p + o).
Proof.
  intros Hp Ho Hpo Hs.
  pose proof (frame_time_error p sr ltac:(lia) ltac:(lia)) as E1.
  pose proof (frame_time_error o sr ltac:(lia) ltac:(lia)) as E2.
  revert E1 E2. generalize (frame_time p sr) (frame_time o sr). intros t u E1 E2.
  replace (sr * (t + u)) with (sr * t + sr * u) by ring.
  revert E1 E2. generalize (sr * t) (sr * u). intros. lia.
Qed.

Lemma event_frame n p o sr :
  0 <= p -> 0 <= o -> p + o <= n -> n <= 2 ^ 46 -> 0 < sr <= 2 ^ 29 -> n <= sr * 2 ^ 30 ->
  let start := incremented_by_samples (frame_time p sr) o sr in
  let t := frame_time n sr in
  start <= t ->
  let frame := p + o + position_in_frame start t sr in
  frame = n \/ frame = n - 1.
Proof.
  intros Hp Ho Hn Hb Hs Hr start t Hst frame.
  pose proof (block_start_error p o sr Hp Ho ltac:(lia) Hs) as E1.
  pose proof (frame_time_error n sr ltac:(lia) ltac:(lia)) as E2.
  change (frame_time p sr + frame_time o sr) with start in E1. fold t in E2.
  assert (Ht0 : 0 <= start).
  { unfold start, incremented_by_samples. fold (frame_time o sr).
    pose proof (frame_time_nonneg p sr ltac:(lia) ltac:(lia)).
    pose proof (frame_time_nonneg o sr ltac:(lia) ltac:(lia)). lia. }
  assert (Ht63 : t <= 2 ^ 63).
  { destruct (Z_le_gt_dec t (2 ^ 63)) as [|Hgt]; [assumption|exfalso].
    assert (sr * 2 ^ 63 <= sr * t) by nia. lia. }
  assert (Hd : n - (p + o) - 1 <= f64_floor (as_samples (t - start) sr) <= n - (p + o)).
  { apply position_bounds; [lia|lia|lia|].
    replace (sr * (t - start)) with (sr * t - sr * start) by ring.
    revert E1 E2. generalize (sr * t) (sr * start). intros x y E1 E2. lia. }
  unfold frame, position_in_frame. lia.
Qed.

Lemma event_before_end n p o c sr :
  0 <= p -> 0 <= o -> 0 <= c -> p + o <= n < p + o + c -> p + o + c <= 2 ^ 46 -> 0 < sr <= 2 ^ 29 ->
  frame_time n sr <
  incremented_by_samples (incremented_by_samples (frame_time p sr) o sr) c sr.
Proof.
  intros Hp Ho Hc Hn Hb Hs. unfold incremented_by_samples. fold (frame_time o sr) (frame_time c sr).
  pose proof (block_start_error p o sr Hp Ho ltac:(lia) Hs) as E1.
  pose proof (frame_time_error n sr ltac:(lia) ltac:(lia)) as E2.
  pose proof (frame_time_error c sr ltac:(lia) ltac:(lia)) as E3.
  revert E1 E2 E3. generalize (frame_time p sr + frame_time o sr) (frame_time n sr) (frame_time c sr).
  intros s t u E1 E2 E3.
  assert (sr * t < sr * (s + u)); [|nia]. replace (sr * (s + u)) with (sr * s + sr * u) by ring.
  revert E1 E2 E3. generalize (sr * s) (sr * t) (sr * u). intros. lia.
Qed.

Lemma event_after_end n p o c sr :
  0 <= p -> 0 <= o -> 0 <= c -> p + o + c < n -> n <= 2 ^ 46 -> 0 < sr <= 2 ^ 29 ->
  incremented_by_samples (incremented_by_samples (frame_time p sr) o sr) c sr <=
  frame_time n sr.
Proof.
  intros Hp Ho Hc Hn Hb Hs. unfold incremented_by_samples. fold (frame_time o sr) (frame_time c sr).
  pose proof (block_start_error p o sr Hp Ho ltac:(lia) Hs) as E1.
  pose proof (frame_time_error n sr ltac:(lia) ltac:(lia)) as E2.
  pose proof (frame_time_error c sr ltac:(lia) ltac:(lia)) as E3.
  revert E1 E2 E3. generalize (frame_time p sr + frame_time o sr) (frame_time n sr) (frame_time c sr).
  intros s t u E1 E2 E3.
  assert (sr * (s + u) <= sr * t); [|nia]. replace (sr * (s + u)) with (sr * s + sr * u) by ring.
  revert E1 E2 E3. generalize (sr * s) (sr * t) (sr * u). intros. lia.
Qed.

(** ** Sample rates dividing 2^32 *)
Lemma frame_time_exact n sr q : 0 <= n -> sr * q = 2 ^ 32 -> 0 < q -> 0 < sr -> n * q <= 2 ^ 53 ->
  frame_time n sr = n * q.
Proof.
  intros Hn Hq Hq0 Hs Hb. rewrite frame_time_eq by nia.
  rewrite one64_tick, <- Hq.
  replace (n * (tick64 * (sr * q))) with (sr * (n * q * tick64)) by ring.
  rewrite rnd_exact; [|lia|lia|].
  2:{ replace tick64 with (2 ^ 1042) by reflexivity. apply repr_pow; [lia|]. apply repr_small; nia. }
  rewrite Z.mul_comm. apply rne_exact. pose proof tick64_big. lia.
Qed.

Lemma as_samples_exact t sr : 0 <= t -> 0 < sr <= 2 ^ 53 -> t * sr <= 2 ^ 53 * 2 ^ 32 ->
  t <= 2 ^ 53 -> (exists k, t * sr = k * 2 ^ 32) -> as_samples t sr = t * sr * tick64.
Proof.
  intros Ht Hs Hb Hb2 [k Hk]. rewrite as_samples_eq by lia. unfold fixed_to_f64.
  rewrite (rnd_exact1 53 (t * tick64)); [|lia|].
  2:{ replace tick64 with (2 ^ 1042) by reflexivity. apply repr_pow; [lia|]. apply repr_small; lia. }
  replace (t * tick64 * sr) with (t * sr * tick64) by ring. apply rnd_exact1; [lia|].
  rewrite Hk. replace tick64 with (2 ^ 1042) by reflexivity. apply repr_pow; [lia|]. apply repr_pow; [lia|].
  apply repr_small; nia.
Qed.

Lemma event_frame_exact n p o sr q :
  0 <= p -> 0 <= o -> p + o <= n -> sr * q = 2 ^ 32 -> 0 < q -> 0 < sr -> n * q <= 2 ^ 53 ->
  let start := incremented_by_samples (frame_time p sr) o sr in
  let t := frame_time n sr in
  p + o + position_in_frame start t sr = n.
Proof.
  intros Hp Ho Hn Hq Hq0 Hs Hb. cbv zeta. unfold incremented_by_samples. fold (frame_time o sr).
  rewrite !(frame_time_exact _ sr q) by nia. unfold position_in_frame, f64_floor.
  replace (n * q - (p * q + o * q)) with ((n - p - o) * q) by ring.
  assert (Hsr : sr <= 2 ^ 32) by nia.
  assert (Hk : (n - p - o) * q * sr = (n - p - o) * 2 ^ 32) by (rewrite <- Hq; ring).
  rewrite as_samples_exact; [|nia|lia| |nia|eauto].
  2:{ rewrite Hk. nia. }
  rewrite Hk, one64_tick. replace ((n - p - o) * 2 ^ 32 * tick64) with ((n - p - o) * (tick64 * 2 ^ 32)) by ring.
  rewrite Z.div_mul by (pose proof tick64_big; lia). lia.
Qed.
