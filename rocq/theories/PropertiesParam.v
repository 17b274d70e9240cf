(** Property theorems about parameters. *)
From stdpp Require Import list list_numbers sorting.
From Coq Require Import ZArith Lia ZifyNat Reals Lra.
From Verif Require Import Base Float FloatProofs Timestamp TimestampProofs AudioParam AudioParamSpec AudioParamProofs
  AudioParamR AudioParamRProofs.

(** C19: whichever setter is used, the requested target lies in the declared range, and
    is the value asked for if that does. *)
Theorem C19_requests_in_range d lo hi r v t1 t2 :
  range_new d lo hi = Ok r →
  Forall (λ req, ∃ c, req = Ok c ∧ (lo <= c_value c <= hi)%Z ∧ ((lo <= v <= hi)%Z → c_value c = v))
    [set_value_now r v; set_value_at_time r v t1; linear_ramp_to_value r v t1 t2;
     exponential_ramp_to_value r v t1 t2].
Proof. exact (requests_in_range d lo hi r v t1 t2). Qed.
Print Assumptions C19_requests_in_range.

Example C19_example : ∃ r, range_new 5 0 10 = Ok r ∧
  set_value_now r 12 = Ok (Change 10%Z ts_zero Immediate) ∧ set_value_now r 7 = Ok (Change 7%Z ts_zero Immediate).
Proof. eexists. vm_compute. done. Qed.

(** C20: from a new parameter, whatever immediate changes arrive whenever and whatever the
    blocks, if no two changes take effect on the same frame then every frame has the
    value of the change that took effect last. *)
Theorem C20_immediate_changes {V} (N : num V) (sr : nat) (initial : V) (os : list (aop V)) :
  steady N initial → all_immediate os → all_steady N os → distinct_frames (timeline sr os) →
  ∃ p out, run_param N sr (new_param N initial) os = Ok (p, out) ∧
    Forall2 (value_is initial (timeline sr os)) (frame_positions (timeline sr os)) out.
Proof. exact (run_param_value N sr initial os). Qed.
Print Assumptions C20_immediate_changes.

(** [steady] holds of every binary64 number. *)
Theorem C20_binary64_steady v : repr 53 v → steady f64_num v.
Proof. exact (f64_steady v). Qed.
Print Assumptions C20_binary64_steady.

Local Definition sr4 : nat := 4.
Local Definition at4 (k : Z) : timestamp := (k * 2 ^ 30)%Z.
Local Definition two64 : Z := (2 * one64)%Z.

Example C20_example :
  let os := [AAdd (Change one64 (at4 2) Immediate); ABlock 0%Z 1; AAdd (Change two64 (at4 1) Immediate);
             ABlock (at4 1) 3] in
  timeline sr4 os = [IAdd (Change one64 (at4 2) Immediate); IFrame 0%Z; IAdd (Change two64 (at4 1) Immediate);
                     IFrame (at4 1); IFrame (at4 2); IFrame (at4 3)] ∧
  takes_effect (timeline sr4 os) 0 4 (Change one64 (at4 2) Immediate) ∧
  takes_effect (timeline sr4 os) 2 3 (Change two64 (at4 1) Immediate) ∧
  ∃ p, run_param f64_num sr4 (new_param f64_num 0%Z) os = Ok (p, [0%Z; two64; one64; one64]).
Proof.
  cbv zeta. assert (timeline sr4 [AAdd (Change one64 (at4 2) Immediate); ABlock 0%Z 1; AAdd (Change two64 (at4 1) Immediate);
             ABlock (at4 1) 3] = [IAdd (Change one64 (at4 2) Immediate); IFrame 0%Z; IAdd (Change two64 (at4 1) Immediate);
                     IFrame (at4 1); IFrame (at4 2); IFrame (at4 3)]) as -> by (by vm_compute).
  split; [done|]. split; [|split].
  - split; [lia|]. split; [done|]. split; [exists (at4 2); split; [done|cbn; lia]|].
    intros g t Hg. destruct g as [|[|[|[|g]]]]; cbn; try lia; intros Hl; inversion Hl; vm_compute; done.
  - split; [lia|]. split; [done|]. split; [exists (at4 1); split; [done|cbn; lia]|]. intros g t Hg. lia.
  - eexists. vm_compute. done.
Qed.

(** C21 is false of the code: of two changes due at once the first is heard for a frame. *)
Theorem C21_last_due_wins_refuted :
  ∃ p p' out, let c1 := Change one64 0%Z Immediate in let c2 := Change two64 0%Z Immediate in
    p = add_change c2 (add_change c1 (new_param f64_num 0%Z)) ∧
    pa_changes p = [c1; c2] ∧
    process f64_num 0%Z 2 sr4 p = Ok (p', out) ∧ out = [c_value c1; c_value c2] ∧ c_value c1 ≠ c_value c2.
Proof. eexists _, _, _. cbv zeta. split; [reflexivity|]. split; [vm_compute; done|]. split; [vm_compute; done|]. vm_compute. done. Qed.
Print Assumptions C21_last_due_wins_refuted.

(** C21, what the code does: of the changes due at the start of a block one is
    applied per frame, so the last is reached after as many frames as there are changes. *)
Theorem C21_one_per_frame_partial {V} (N : num V) (sr : nat) time d rest (p : param V) :
  pa_changes p = d ++ rest → d ≠ [] →
  Forall (λ c, c_method c = Immediate ∧ (c_end c <= time)%Z) d →
  (Z.of_nat (length d) <= 2 ^ 53)%Z → (0 < Z.of_nat sr <= 2 ^ 53)%Z →
  ∃ p', process N time (length d) sr p = Ok (p', c_value <$> d) ∧ pa_changes p' = rest.
Proof. exact (due_process N sr time d rest p). Qed.
Print Assumptions C21_one_per_frame_partial.

Example C21_example : ∃ p, pa_changes p = [Change one64 0%Z Immediate; Change two64 0%Z Immediate] ++ [] ∧
  Forall (λ c, c_method c = Immediate ∧ (c_end c <= 0)%Z) [Change one64 0%Z Immediate; Change two64 0%Z Immediate] ∧
  p = add_change (Change two64 0%Z Immediate) (add_change (Change one64 0%Z Immediate) (new_param f64_num 0%Z)).
Proof.
  eexists. split; [|split; [|reflexivity]]; [vm_compute; done|].
  constructor; [done|]. constructor; [done|]. constructor.
Qed.

(** C22, without rounding and at a sample rate that divides 2^32: over any
    consecutive blocks, a linear ramp that starts at frame [j] and ends at frame
    [j + m] moves by equal steps, is at its target from frame [j + m - 1] on and never
    leaves the interval between start and target.  [epsR] is the tolerance of the test
    for a resting parameter. *)
Theorem C22_linear_ramp_aligned (sr : nat) (q : Z) (time s : timestamp) (ns : list nat) (j m : nat)
    (v0 target : R) (p : param R) :
  (Z.of_nat sr * q = 2 ^ 32)%Z → (0 < q)%Z → Forall (λ n, (Z.of_nat n * q <= 2 ^ 53)%Z) ns →
  (∀ i, i < j → (time + Z.of_nat i * q < s)%Z) → (s <= time + Z.of_nat j * q)%Z → 0 < m →
  pa_changes p = [Change target (time + Z.of_nat (j + m) * q)%Z (Linear s)] → at_rest R_num p → pa_value p = v0 →
  (target = v0 ∨ epsR < Rabs ((target - v0) / INR m))%R →
  ∃ p' out, run_param R_num sr p (blocks (consecutive q time ns)) = Ok (p', out) ∧
    length out = sum_list ns ∧
    ∀ k x, out !! k = Some x →
      x = (if k <? j then v0
           else if k <? j + m then (v0 + INR (k - j + 1) / INR m * (target - v0))%R
           else target) ∧ between v0 target x.
Proof. intros Hq Hq0 Hns Hpre Hj. exact (linear_even sr q time s ns j Hq Hq0 Hns Hpre Hj m v0 target p). Qed.
Print Assumptions C22_linear_ramp_aligned.

Example C22_aligned_example :
  let p := add_change (Change 3%R (at4 5) (Linear (at4 1))) (new_param R_num 1%R) in
  (Z.of_nat sr4 * 2 ^ 30 = 2 ^ 32)%Z ∧
  pa_changes p = [Change 3%R (0 + Z.of_nat (1 + 4) * 2 ^ 30)%Z (Linear (at4 1))] ∧ at_rest R_num p ∧ pa_value p = 1%R ∧
  (∀ i, i < 1 → (0 + Z.of_nat i * 2 ^ 30 < at4 1)%Z) ∧ (at4 1 <= 0 + Z.of_nat 1 * 2 ^ 30)%Z ∧
  (epsR < Rabs ((3 - 1) / INR 4))%R.
Proof.
  cbv zeta. split; [done|]. split; [done|]. split; [split; [done|split; [done|split; [done|apply R_steady]]]|].
  split; [done|]. split; [intros i Hi; unfold at4; lia|]. split; [unfold at4; lia|].
  rewrite Rabs_right by (cbn; lra). pose proof epsR_lt_1.
  assert (epsR <= / 2 ^ 2)%R by (unfold epsR; apply Rinv_le_contravar; [apply pow_lt; lra|apply Rle_pow; [lra|lia]]).
  cbn in *. lra.
Qed.

(** C22, without rounding, one block at any sample rate and any start and end: the exact
    value of every frame; and the bound of how far a ramp overshoots. *)
Theorem C22_C23_linear_ramp_block_partial (sr : nat) time n j s e v0 target (p : param R) :
  (Z.of_nat n <= 2 ^ 53)%Z → (0 < Z.of_nat sr <= 2 ^ 53)%Z → (Z.of_nat n <= 2 ^ 20 * Z.of_nat sr)%Z →
  pa_changes p = [Change target e (Linear s)] → at_rest R_num p → pa_value p = v0 →
  let time_of k := incremented_by_samples time (Z.of_nat k) (Z.of_nat sr) in
  j < n → (∀ i, i < j → (time_of i < s)%Z) → (s <= time_of j < e)%Z →
  let d := lengthR (time_of j) e sr in
  ∃ p' out, process R_num time n sr p = Ok (p', out) ∧ length out = n ∧
    ∀ k x, out !! k = Some x →
      x = (if k <? j then v0
           else if (e <=? time_of k)%Z then target
           else v0 + INR (k - j + 1) / d * (target - v0))%R ∧
      between v0 (target + (1 + 2 * INR sr / 2 ^ 32) / d * (target - v0)) x.
Proof. exact (linear_block sr time n j s e v0 target p). Qed.
Print Assumptions C22_C23_linear_ramp_block_partial.

(** C22 is false of binary64 arithmetic: increments accumulate their rounding.  At a
    sample rate that divides 2^32, a ramp from 0 to 1 over nine frames passes 1. *)
Theorem C22_rounding_refuted : ∃ p' out x,
  process f64_num 0%Z 9 sr4 (add_change (Change one64 (at4 9) (Linear 0%Z)) (new_param f64_num 0%Z)) = Ok (p', out) ∧
  out !! 8 = Some x ∧ (one64 < x)%Z.
Proof. eexists _, _, _. split; [vm_compute; reflexivity|]. vm_compute. done. Qed.
Print Assumptions C22_rounding_refuted.

(** C22 is false at 48000 Hz, where frames fall between ticks: a ramp from
    frame 0 to frame 1 already passes its target. *)
Theorem C22_48000_refuted : ∃ p' out x, let sr := Z.to_nat 48000 in
  let e := incremented_by_samples 0%Z 1%Z 48000%Z in
  process f64_num 0%Z 1 sr (add_change (Change one64 e (Linear 0%Z)) (new_param f64_num 0%Z)) = Ok (p', out) ∧
  out !! 0 = Some x ∧ (one64 < x)%Z.
Proof. eexists _, _, _. cbv zeta. split; [vm_compute; reflexivity|]. vm_compute. done. Qed.
Print Assumptions C22_48000_refuted.

(** C22, C25 are false of slow ramps: one whose increment is at most 2^-52 stops at
    the end of the block it starts in and never reaches its target. *)
Theorem C22_slow_ramp_refuted : ∃ p1 p2 out1 out2, let target := Z.shiftl 1 1024 in
  let p := add_change (Change target (at4 8) (Linear 0%Z)) (new_param f64_num 0%Z) in
  process f64_num 0%Z 1 sr4 p = Ok (p1, out1) ∧
  (∀ time n, process f64_num time n sr4 p1 = Ok (p1, replicate n (pa_value p1))) ∧ (pa_value p1 < target)%Z ∧
  process f64_num 0%Z 9 sr4 p = Ok (p2, out2) ∧ out2 !! 8 = Some target.
Proof.
  eexists _, _, _, _. cbv zeta. split; [vm_compute; reflexivity|]. split.
  { intros time n. unfold process.
    match goal with |- context [is_static f64_num ?q] => assert (is_static f64_num q = true) as -> by (by vm_compute) end.
    done. }
  split; [vm_compute; done|]. split; [vm_compute; reflexivity|]. vm_compute. done.
Qed.
Print Assumptions C22_slow_ramp_refuted.

(** C23 is false of the code: a ramp that ends between two frames goes past its target:
    from 0 to 1 in 1.5 frames gives 2/3 and then 4/3. *)
Theorem C23_in_range_refuted : ∃ p' out x, let sr := 2 in let e := (3 * 2 ^ 30)%Z in
  process f64_num 0%Z 2 sr (add_change (Change one64 e (Linear 0%Z)) (new_param f64_num 0%Z)) = Ok (p', out) ∧
  out !! 1 = Some x ∧ (4 * one64 <= 3 * x + 1 * Z.shiftl 1 1024)%Z ∧ (one64 < x)%Z.
Proof. eexists _, _, _. cbv zeta. split; [vm_compute; reflexivity|]. vm_compute. done. Qed.
Print Assumptions C23_in_range_refuted.

(** C23, without rounding: over any consecutive blocks a ramp with any end passes its
    target by at most one step, and only before its end. *)
Theorem C23_one_step_partial (sr : nat) (q : Z) (time s : timestamp) (ns : list nat) (j : nat) e
    (v0 target : R) (p : param R) :
  (Z.of_nat sr * q = 2 ^ 32)%Z → (0 < q)%Z → Forall (λ n, (Z.of_nat n * q <= 2 ^ 53)%Z) ns →
  (∀ i, i < j → (time + Z.of_nat i * q < s)%Z) → (s <= time + Z.of_nat j * q)%Z → (time + Z.of_nat j * q < e)%Z →
  pa_changes p = [Change target e (Linear s)] → at_rest R_num p → pa_value p = v0 →
  let d := lengthR (time + Z.of_nat j * q) e sr in
  (target = v0 ∨ epsR < Rabs ((target - v0) / d))%R →
  ∃ p' out, run_param R_num sr p (blocks (consecutive q time ns)) = Ok (p', out) ∧
    length out = sum_list ns ∧
    ∀ k x, out !! k = Some x →
      (e <= time + Z.of_nat k * q → x = target)%Z ∧
      between v0 (target + (target - v0) / d) x.
Proof. intros Hq Hq0 Hns Hpre Hj. exact (linear_overshoot sr q time s ns j Hq Hq0 Hns Hpre Hj e v0 target p). Qed.
Print Assumptions C23_one_step_partial.

(** C24, without rounding and at a sample rate that divides 2^32: the ramp is
    geometric, stays between its ends and keeps its target. *)
Theorem C24_exponential_ramp_aligned (sr : nat) (q : Z) (time s : timestamp) (ns : list nat) (j m : nat)
    (v0 target : R) (p : param R) :
  (Z.of_nat sr * q = 2 ^ 32)%Z → (0 < q)%Z → Forall (λ n, (Z.of_nat n * q <= 2 ^ 53)%Z) ns →
  (∀ i, i < j → (time + Z.of_nat i * q < s)%Z) → (s <= time + Z.of_nat j * q)%Z → 0 < m →
  (0 < v0)%R → (0 < target)%R →
  pa_changes p = [Change target (time + Z.of_nat (j + m) * q)%Z (Exponential s)] → at_rest R_num p → pa_value p = v0 →
  (target = v0 ∨ closeR (Rpower (target / v0) (/ INR m)) 1 = false)%R →
  ∃ p' out, run_param R_num sr p (blocks (consecutive q time ns)) = Ok (p', out) ∧
    length out = sum_list ns ∧
    ∀ k x, out !! k = Some x →
      x = (if k <? j then v0
           else if k <? j + m then (v0 * Rpower (target / v0) (INR (k - j + 1) / INR m))%R
           else target) ∧ between v0 target x.
Proof. intros Hq Hq0 Hns Hpre Hj. exact (exponential_even sr q time s ns j Hq Hq0 Hns Hpre Hj m v0 target p). Qed.
Print Assumptions C24_exponential_ramp_aligned.

Example C24_example : closeR (Rpower (16 / 1) (/ INR 4)) 1 = false.
Proof.
  assert (Rpower (16 / 1) (/ INR 4) = 2)%R as ->.
  { replace (16 / 1)%R with (2 ^ 4)%R by (cbn; lra). rewrite <- Rpower_pow by lra. rewrite Rpower_mult.
    replace (INR 4 * / INR 4)%R with 1%R by (cbn; field). apply Rpower_1. lra. }
  assert (epsR <= / 2 ^ 2)%R by (unfold epsR; apply Rinv_le_contravar; [apply pow_lt; lra|apply Rle_pow; [lra|lia]]).
  cbn in H. unfold closeR. rewrite !Rabs_right by lra. rewrite Rmax_left by lra.
  destruct (Rle_dec _ _); [lra|]. destruct (Rle_dec _ _); [lra|done].
Qed.

(** C24: the values of an exponential ramp from or to zero are not defined: the
    assertion of the code fails. *)
Theorem C24_zero_panics {V} (N : num V) t sr v (p : param V) c s rest :
  pa_changes p = c :: rest → c_method c = Exponential s → (s <= t)%Z →
  n_is_zero N (c_value c) = true ∨ n_is_zero N v = true →
  value_at_time N t sr v p = Panic AssertFailed.
Proof. exact (zero_panics N t sr v p c s rest). Qed.
Print Assumptions C24_zero_panics.

(** C25: a block may be split wherever the times of the frames agree, if the
    states on either side are not mistaken for resting ones. *)
Theorem C25_split_partial {V} (N : num V) (sr : nat) time n m (p p1 : param V) out1 :
  (∀ k, k < m → incremented_by_samples time (Z.of_nat (n + k)) (Z.of_nat sr) =
     incremented_by_samples (incremented_by_samples time (Z.of_nat n) (Z.of_nat sr)) (Z.of_nat k) (Z.of_nat sr)) →
  (is_static N p = true → at_rest N p) →
  process N time n sr p = Ok (p1, out1) →
  (is_static N p1 = true → at_rest N p1) →
  process N time (n + m) sr p =
  let? (p2, out2) := process N (incremented_by_samples time (Z.of_nat n) (Z.of_nat sr)) m sr p1 in
  Ok (p2, out1 ++ out2).
Proof. exact (process_split N sr time n m p p1 out1). Qed.
Print Assumptions C25_split_partial.

(** the condition on the times holds at every rate that divides 2^32 *)
Theorem C25_times_agree sr q time n k : (Z.of_nat sr * q = 2 ^ 32)%Z → (0 < q)%Z → (Z.of_nat (n + k) * q <= 2 ^ 53)%Z →
  incremented_by_samples time (Z.of_nat (n + k)) (Z.of_nat sr) =
  incremented_by_samples (incremented_by_samples time (Z.of_nat n) (Z.of_nat sr)) (Z.of_nat k) (Z.of_nat sr).
Proof. exact (times_agree sr q time n k). Qed.
Print Assumptions C25_times_agree.

Example C25_example : ∃ p1 out1,
  let p := add_change (Change one64 (at4 3) Immediate) (new_param f64_num 0%Z) in
  is_static f64_num p = false ∧ process f64_num 0%Z 2 sr4 p = Ok (p1, out1) ∧ is_static f64_num p1 = false.
Proof. eexists _, _. cbv zeta. split; [vm_compute; done|]. split; [vm_compute; reflexivity|]. vm_compute. done. Qed.

(** C25 is false at 44100 Hz: a change at the time of frame 12 takes effect on frame 12
    if the block starts at frame 0, and one frame later if it starts at frame 2. *)
Theorem C25_split_refuted : ∃ p1 p2 p3 out out1 out2,
  let sr := Z.to_nat 44100 in let t k := incremented_by_samples 0%Z k 44100%Z in
  let p := add_change (Change one64 (t 12%Z) Immediate) (new_param f64_num 0%Z) in
  process f64_num 0%Z 13 sr p = Ok (p3, out) ∧
  process f64_num 0%Z 2 sr p = Ok (p1, out1) ∧ process f64_num (t 2%Z) 11 sr p1 = Ok (p2, out2) ∧
  out !! 12 = Some one64 ∧ (out1 ++ out2) !! 12 = Some 0%Z.
Proof.
  eexists _, _, _, _, _, _. cbv zeta. split; [vm_compute; reflexivity|]. split; [vm_compute; reflexivity|].
  split; [vm_compute; reflexivity|]. vm_compute. done.
Qed.
Print Assumptions C25_split_refuted.

(** C26 is false of the code: it keeps what ends after the time and removes what ends before. *)
Theorem C26_cancel_after_refuted : ∃ (p : param Z) c1 c2 t,
  pa_changes p = [c1; c2] ∧ (c_end c1 < t < c_end c2)%Z ∧ pa_changes (cancel_after t p) = [c2].
Proof.
  exists (add_change (Change 2%Z 30%Z Immediate) (add_change (Change 1%Z 10%Z Immediate) (new_param f64_num 0%Z))).
  eexists _, _, 20%Z. split; [reflexivity|]. split; [cbn; lia|]. vm_compute. done.
Qed.
Print Assumptions C26_cancel_after_refuted.

(** C26, what the code does: exactly the pending changes that end before the time are
    removed; cancelling everything removes all; neither touches the value or a ramp in
    progress. *)
Theorem C26_cancel_partial {V} t (p : param V) :
  (∀ c, c ∈ pa_changes (cancel_after t p) ↔ c ∈ pa_changes p ∧ (t <= c_end c)%Z) ∧
  sublist (pa_changes (cancel_after t p)) (pa_changes p) ∧
  pa_changes (cancel_changes p) = [] ∧
  Forall (λ p', pa_value p' = pa_value p ∧ pa_inc p' = pa_inc p ∧ pa_coef p' = pa_coef p ∧ pa_current p' = pa_current p)
    [cancel_after t p; cancel_changes p].
Proof. exact (cancel_spec t p). Qed.
Print Assumptions C26_cancel_partial.

(** After a ramp has started, cancelling does not stop it. *)
Theorem C26_ramp_not_cancelled_refuted : ∃ p1 p2 out1 out2,
  let p := add_change (Change one64 (at4 4) (Linear 0%Z)) (new_param f64_num 0%Z) in
  process f64_num 0%Z 1 sr4 p = Ok (p1, out1) ∧
  process f64_num (at4 1) 4 sr4 (cancel_changes p1) = Ok (p2, out2) ∧ out2 !! 3 = Some one64.
Proof. eexists _, _, _, _. cbv zeta. split; [vm_compute; reflexivity|]. split; [vm_compute; reflexivity|]. vm_compute. done. Qed.
Print Assumptions C26_ramp_not_cancelled_refuted.

(** C62 is false of the code: pending changes are ordered by their ends and only the
    first is looked at, so a ramp waits behind an immediate change that ends before it.
    Here a ramp over frames 1 to 8 is scheduled together with an immediate change at frame 6. *)
Theorem C62_ramp_starts_on_time_refuted : ∃ p' out,
  let ramp := Change (Z.shiftl 1 1077) (at4 8) (Linear (at4 1)) in
  let p := add_change ramp (add_change (Change one64 (at4 6) Immediate) (new_param f64_num 0%Z)) in
  process f64_num 0%Z 9 sr4 p = Ok (p', out) ∧ take 6 out = replicate 6 0%Z ∧ out !! 8 = Some (Z.shiftl 1 1077).
Proof. eexists _, _. cbv zeta. split; [vm_compute; reflexivity|]. vm_compute. done. Qed.
Print Assumptions C62_ramp_starts_on_time_refuted.

(** C62: a ramp with no other change pending starts at the first frame whose time has
    reached its start, whatever the numbers are. *)
Theorem C62_ramp_starts_on_time_partial {V} (N : num V) sr time n j c s v0 (p : param V) :
  (Z.of_nat n <= 2 ^ 53)%Z → (0 < Z.of_nat sr <= 2 ^ 53)%Z →
  pa_changes p = [c] → ramp_start c = Some s → at_rest N p → pa_value p = v0 →
  let time_of k := incremented_by_samples time (Z.of_nat k) (Z.of_nat sr) in
  j < n → (∀ i, i < j → (time_of i < s)%Z) → (s <= time_of j)%Z →
  (∀ s', c_method c = Exponential s' → n_is_zero N (c_value c) = false ∧ n_is_zero N v0 = false) →
  ∃ p' out q', process N time n sr p = Ok (p', out) ∧ length out = n ∧
    ramp_started N sr (time_of j) v0 c q' ∧
    ∀ k x, out !! k = Some x →
      x = if k <? j then v0
          else if (c_end c <=? time_of k)%Z then c_value c else iter (k - j + 1) (ramp_step N q') v0.
Proof. exact (ramp_block N sr time n j c s v0 p). Qed.
Print Assumptions C62_ramp_starts_on_time_partial.
