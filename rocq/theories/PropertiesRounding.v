(** Ramps in binary64 arithmetic: how far they are from the exact ramp; exponential ramps at any sample rate. *)
From stdpp Require Import list list_numbers sorting.
From Coq Require Import ZArith Lia ZifyNat Reals Lra.
From Verif Require Import Base Float Timestamp AudioParam AudioParamSpec AudioParamR AudioParamProofs AudioParamRProofs Binary64 RoundedProofs ExponentialProofs RoundingCases.
Local Open Scope R_scope.

(** C22, C25, with the rounding of binary64: at a sample rate that divides 2^32, over any blocks, frame number [n] of a linear ramp is off by at most
    [(n + 3) * 2^-51] of the larger end, and the frames before the ramp and from its end on are exact.  C22_rounding_refuted shows that the error is there. *)
Theorem C22_rounding_bound (exp64 ln64 : R -> R) (sr : nat) (q : Z) (i0 : nat) (s : timestamp) (ns : list nat) (j m : nat) (v0 target : R) (p : param R) :
  (Z.of_nat sr * q = 2 ^ 32)%Z -> (0 < q)%Z -> Forall (fun n => (Z.of_nat n * q <= 2 ^ 53)%Z) ns ->
  let time : timestamp := (Z.of_nat i0 * q)%Z in
  (forall i, (i < j)%nat -> (time + Z.of_nat i * q < s)%Z) -> (s <= time + Z.of_nat j * q)%Z ->
  (0 < Z.of_nat m <= 2 ^ 50)%Z -> (Z.of_nat (i0 + j + m) * q < 2 ^ 53)%Z ->
  pa_changes p = [Change target (time + Z.of_nat (j + m) * q)%Z (Linear s)] -> at_rest (b64_num exp64 ln64) p -> pa_value p = v0 ->
  close64 (rnd64 (rnd64 (target - v0) / INR m)) 0 = false ->
  exists p' out, run_param (b64_num exp64 ln64) sr p (blocks (consecutive q time ns)) = Ok (p', out) /\ length out = sum_list ns /\
    forall k x, out !! k = Some x ->
      ((k < j)%nat -> x = v0) /\ ((j + m <= k)%nat -> x = target) /\
      ((j <= k < j + m)%nat -> Rabs (x - (v0 + INR (k - j + 1) / INR m * (target - v0))) <= / 2 ^ 51 * INR (k - j + 4) * Rmax (Rabs v0) (Rabs target)).
Proof. intros Hq Hq0 Hns time Hpre Hj Hm Hend. exact (linear_rounded exp64 ln64 sr q i0 s ns j m Hq Hq0 Hns Hpre Hj Hm Hend v0 target p). Qed.
Print Assumptions C22_rounding_bound.

Example C22_rounding_case :
  let p := add_change (Change 3 (5 * 2 ^ 30)%Z (Linear (2 ^ 30)%Z)) (new_param (b64_num exp ln) 1) in
  pa_changes p = [Change 3 (0 + Z.of_nat (1 + 4) * 2 ^ 30)%Z (Linear (2 ^ 30)%Z)] /\ at_rest (b64_num exp ln) p /\ pa_value p = 1 /\
  close64 (rnd64 (rnd64 (3 - 1) / INR 4)) 0 = false.
Proof. exact linear_case. Qed.

(** C24, with the rounding of binary64 and a library whose exp and ln have relative errors up to [delta]: the frames of an exponential ramp between values
    from 2^-300 to 2^300 are those of the exact ramp up to a factor of [exp (ramp_error ...)], and the frames before the ramp and from its end on are exact. *)
Theorem C24_rounding_bound (exp64 ln64 : R -> R) (sr : nat) (q : Z) (i0 : nat) (s : timestamp) (ns : list nat) (j m : nat) (delta v0 target : R) (p : param R) :
  (Z.of_nat sr * q = 2 ^ 32)%Z -> (0 < q)%Z -> Forall (fun n => (Z.of_nat n * q <= 2 ^ 53)%Z) ns ->
  let time : timestamp := (Z.of_nat i0 * q)%Z in
  (forall i, (i < j)%nat -> (time + Z.of_nat i * q < s)%Z) -> (s <= time + Z.of_nat j * q)%Z ->
  (0 < Z.of_nat m <= 2 ^ 50)%Z -> (Z.of_nat (i0 + j + m) * q < 2 ^ 53)%Z ->
  accurate delta exp64 ln64 -> / 2 ^ 300 <= v0 <= 2 ^ 300 -> / 2 ^ 300 <= target <= 2 ^ 300 -> ramp_error delta (target / v0) m <= 1 ->
  pa_changes p = [Change target (time + Z.of_nat (j + m) * q)%Z (Exponential s)] -> at_rest (b64_num exp64 ln64) p -> pa_value p = v0 ->
  close64 (exp64 (rnd64 (ln64 (rnd64 (target / v0)) / INR m))) 1 = false ->
  exists p' out, run_param (b64_num exp64 ln64) sr p (blocks (consecutive q time ns)) = Ok (p', out) /\ length out = sum_list ns /\
    forall k x, out !! k = Some x ->
      ((k < j)%nat -> x = v0) /\ ((j + m <= k)%nat -> x = target) /\
      ((j <= k < j + m)%nat -> near (ramp_error delta (target / v0) (k - j + 1)) x (v0 * Rpower (target / v0) (INR (k - j + 1) / INR m))).
Proof. intros Hq Hq0 Hns time Hpre Hj Hm Hend. exact (exponential_rounded exp64 ln64 sr q i0 s ns j m Hq Hq0 Hns Hpre Hj Hm Hend delta v0 target p). Qed.
Print Assumptions C24_rounding_bound.

Example C24_rounding_case :
  let p := add_change (Change 2 (2 * 2 ^ 30)%Z (Exponential (2 ^ 30)%Z)) (new_param (b64_num exp ln) 1) in
  pa_changes p = [Change 2 (0 + Z.of_nat (1 + 1) * 2 ^ 30)%Z (Exponential (2 ^ 30)%Z)] /\ at_rest (b64_num exp ln) p /\ pa_value p = 1 /\
  accurate 0 exp ln /\ ramp_error 0 (2 / 1) 1 <= 1 /\ close64 (exp (rnd64 (ln (rnd64 (2 / 1)) / INR 1))) 1 = false.
Proof. exact exponential_case. Qed.

(** C24, without rounding, one block at any sample rate and any start and end: the exact value of every frame, and how far a ramp passes its target. *)
Theorem C24_exponential_ramp_block_partial (sr : nat) time n j s e v0 target (p : param R) :
  (Z.of_nat n <= 2 ^ 53)%Z -> (0 < Z.of_nat sr <= 2 ^ 53)%Z -> (Z.of_nat n <= 2 ^ 20 * Z.of_nat sr)%Z -> 0 < v0 -> 0 < target ->
  pa_changes p = [Change target e (Exponential s)] -> at_rest R_num p -> pa_value p = v0 ->
  let time_of k := incremented_by_samples time (Z.of_nat k) (Z.of_nat sr) in
  (j < n)%nat -> (forall i, (i < j)%nat -> (time_of i < s)%Z) -> (s <= time_of j < e)%Z ->
  let d := lengthR (time_of j) e sr in
  exists p' out, process R_num time n sr p = Ok (p', out) /\ length out = n /\
    forall k x, out !! k = Some x ->
      x = (if (k <? j)%nat then v0
           else if (e <=? time_of k)%Z then target
           else v0 * Rpower (target / v0) (INR (k - j + 1) / d)) /\
      between v0 (target * Rpower (target / v0) ((1 + 2 * INR sr / 2 ^ 32) / d)) x.
Proof. exact (exponential_block sr time n j s e v0 target p). Qed.
Print Assumptions C24_exponential_ramp_block_partial.

(** C24 is false at 48000 Hz, where frames fall between ticks: a ramp from 1 at frame 0 to 2 at frame 1 passes 2 before it is there. *)
Theorem C24_48000_refuted : exists p' out x, let sr := Z.to_nat 48000 in
  let e := incremented_by_samples 0%Z 1%Z 48000%Z in
  process R_num 0%Z 1 sr (add_change (Change 2 e (Exponential 0%Z)) (new_param R_num 1)) = Ok (p', out) /\
  out !! 0%nat = Some x /\ 2 < x.
Proof. exact exponential_48000. Qed.
Print Assumptions C24_48000_refuted.

(** C24 is false of slow ramps, at any sample rate: a ramp from 1 to [1 + 2^-52] over eight frames stops at the end of the block it starts in and never
    reaches its target. *)
Theorem C24_slow_ramp_refuted : exists p1 out1 x, let target := 1 + epsR in
  let p := add_change (Change target (8 * 2 ^ 30)%Z (Exponential 0%Z)) (new_param R_num 1) in
  process R_num 0%Z 1 4 p = Ok (p1, out1) /\
  (forall time n, process R_num time n 4 p1 = Ok (p1, replicate n x)) /\ x < target.
Proof. exact exponential_slow. Qed.
Print Assumptions C24_slow_ramp_refuted.
