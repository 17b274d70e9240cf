(** Exponential ramps at any sample rate, and where they fail. *)
From stdpp Require Import list list_numbers sorting.
From Coq Require Import ZArith Reals Lra Lia ZifyBool ZifyNat Psatz.
From Verif Require Import Base Float FloatProofs Timestamp TimestampProofs AudioParam AudioParamSpec AudioParamR AudioParamProofs AudioParamRProofs.
Local Open Scope R_scope.

(** a frame before the end is at most one step past the length of the ramp *)
Lemma steps_bound sr time n j k e : (Z.of_nat n <= 2 ^ 53)%Z -> (0 < Z.of_nat sr <= 2 ^ 53)%Z -> (Z.of_nat n <= 2 ^ 20 * Z.of_nat sr)%Z ->
  let time_of k := incremented_by_samples time (Z.of_nat k) (Z.of_nat sr) in
  (j <= k < n)%nat -> (time_of k < e)%Z -> INR (k - j + 1) <= lengthR (time_of j) e sr + (1 + 2 * INR sr / 2 ^ 32).
Proof.
  intros Hn Hsr Hns time_of [Hjk Hk] Hlt. rewrite plus_INR. cbn [INR]. enough (INR (k - j) <= lengthR (time_of j) e sr + 2 * INR sr / 2 ^ 32) by lra.
  unfold lengthR. apply (Rmult_le_reg_r (2 ^ 32)); [apply pow_lt; lra|].
  rewrite Rmult_plus_distr_r. unfold Rdiv. rewrite !Rmult_assoc, Rinv_l, !Rmult_1_r by (apply pow_nonzero; lra).
  replace (2 ^ 32) with (IZR (2 ^ 32)) by (rewrite (pow_IZR 2 32); done).
  rewrite !INR_IZR_INZ. change 2 with (IZR 2). rewrite <- !mult_IZR, <- plus_IZR. apply IZR_le.
  pose proof (frame_time_tick (Z.of_nat k) (Z.of_nat sr) ltac:(lia) ltac:(lia) ltac:(lia)) as Hk1.
  pose proof (frame_time_tick (Z.of_nat j) (Z.of_nat sr) ltac:(lia) ltac:(lia) ltac:(lia)) as Hj1.
  unfold time_of, incremented_by_samples in Hlt |- *. unfold frame_time in Hk1, Hj1.
  set (a := from_samples (f64_of_Z (Z.of_nat k)) (Z.of_nat sr)) in *.
  set (b := from_samples (f64_of_Z (Z.of_nat j)) (Z.of_nat sr)) in *.
  assert (Z.of_nat sr * (a - b) <= Z.of_nat sr * (e - (time + b)))%Z by (apply Z.mul_le_mono_nonneg_l; lia).
  nia.
Qed.

Lemma exponential_block sr time n j s e v0 target (p : param R) :
  (Z.of_nat n <= 2 ^ 53)%Z -> (0 < Z.of_nat sr <= 2 ^ 53)%Z -> (Z.of_nat n <= 2 ^ 20 * Z.of_nat sr)%Z -> 0 < v0 -> 0 < target ->
  pa_changes p = [Change target e (Exponential s)] -> at_rest R_num p -> pa_value p = v0 ->
  let time_of k := incremented_by_samples time (Z.of_nat k) (Z.of_nat sr) in
  (j < n)%nat -> (forall i, (i < j)%nat -> (time_of i < s)%Z) -> (s <= time_of j < e)%Z ->
  let d := lengthR (time_of j) e sr in
  exists p' out, process R_num time n sr p = Ok (p', out) /\ length out = n /\
    forall k x, out !! k = Some x ->
      x = (if (k <? j)%nat then v0
           else if (e <=? time_of k)%Z then target
           else v0 * Rpower (target / v0) (INR (k - j + 1) / d)) /\
      between v0 (target * Rpower (target / v0) ((1 + 2 * INR sr / 2 ^ 32) / d)) x.
Proof.
  intros Hn Hsr Hns Hv0 Ht0 Hc Hr Hv time_of Hj Hpre [Hst He] d.
  destruct (ramp_block R_num sr time n j _ s v0 p Hn Hsr Hc eq_refl Hr Hv Hj Hpre Hst) as (p' & out & q' & E & Hl & Hq & Hval).
  { intros s' _. cbn. destruct (Req_EM_T target 0), (Req_EM_T v0 0); try lra; done. }
  exists p', out. split; [done|]. split; [done|]. intros k x Hx. pose proof (lookup_lt_Some _ _ _ Hx) as Hk.
  apply Hval in Hx as ->. cbn [c_end c_value]. fold (time_of k).
  assert (0 < d) as Hd by (apply lengthR_pos; lia).
  set (w := 1 + 2 * INR sr / 2 ^ 32). assert (1 <= w) as Hw.
  { unfold w. assert (0 <= 2 * INR sr / 2 ^ 32); [|lra]. apply Rmult_le_pos; [pose proof (pos_INR sr); lra|].
    left. apply Rinv_0_lt_compat, pow_lt. lra. }
  assert (0 < w / d) as Hwd by (apply Rmult_lt_0_compat; [lra|by apply Rinv_0_lt_compat]).
  set (far := target * Rpower (target / v0) (w / d)). assert (0 < far) as Hfar by (apply Rmult_lt_0_compat; [done|apply exp_pos]).
  assert (0 < target / v0) as Hr0 by (apply Rmult_lt_0_compat; [done|by apply Rinv_0_lt_compat]).
  assert (Efar : far / v0 = Rpower (target / v0) (1 + w / d)).
  { unfold far. rewrite Rpower_plus, Rpower_1 by done. field. lra. }
  assert (forall y, 0 <= y <= 1 + w / d -> between v0 far (v0 * Rpower (target / v0) y)) as Hb.
  { intros y Hy. replace (Rpower (target / v0) y) with (Rpower (far / v0) (y / (1 + w / d))).
    - apply between_power; [done|done|]. split.
      + apply Rmult_le_pos; [lra|left; apply Rinv_0_lt_compat; lra].
      + apply (Rmult_le_reg_r (1 + w / d)); [lra|]. unfold Rdiv at 1. rewrite Rmult_assoc, Rinv_l by lra. lra.
    - rewrite Efar, Rpower_mult. f_equal. field. lra. }
  destruct (Nat.ltb_spec k j) as [Hkj|Hkj]; [split; [done|apply between_l]|].
  destruct (Z.leb_spec e (time_of k)) as [Hle|Hlt].
  - split; [done|]. specialize (Hb 1 ltac:(lra)). rewrite Rpower_1 in Hb by done. by replace (v0 * (target / v0)) with target in Hb by (field; lra).
  - rewrite (exponential_iter _ _ _ _ _ _ _ _ Hq). fold (time_of j); fold d.
    split; [done|]. apply Hb. split.
    { apply Rmult_le_pos; [apply pos_INR|left; by apply Rinv_0_lt_compat]. }
    apply (Rmult_le_reg_r d); [done|]. unfold Rdiv at 1. rewrite Rmult_assoc, Rinv_l, Rmult_1_r by lra.
    replace ((1 + w / d) * d) with (d + w) by (field; lra). apply (steps_bound sr time n j k e Hn Hsr Hns); [split; [exact Hkj|by rewrite <- Hl]|exact Hlt].
Qed.

Lemma exponential_48000 : exists p' out x, let sr := Z.to_nat 48000 in
  let e := incremented_by_samples 0%Z 1%Z 48000%Z in
  process R_num 0%Z 1 sr (add_change (Change 2 e (Exponential 0%Z)) (new_param R_num 1)) = Ok (p', out) /\
  out !! 0%nat = Some x /\ 2 < x.
Proof.
  set (sr := Z.to_nat 48000). set (e := incremented_by_samples 0%Z 1%Z 48000%Z). assert (Ee : e = 89478%Z) by (vm_compute; reflexivity).
  assert (Hsr : Z.of_nat sr = 48000%Z) by (unfold sr; lia). clearbody sr.
  destruct (exponential_block sr 0%Z 1 0 0%Z e 1 2 (add_change (Change 2 e (Exponential 0%Z)) (new_param R_num 1))) as (p' & out & E & L & H);
    [lia|lia|lia|lra|lra|done| |done|lia|lia| |].
  { split; [done|]. split; [done|]. split; [done|]. apply R_steady. }
  { rewrite Ee, Hsr. assert (incremented_by_samples 0%Z (Z.of_nat 0) 48000 = 0%Z) as -> by (vm_compute; reflexivity). lia. }
  destruct (lookup_lt_is_Some_2 out 0) as [x Hx]; [lia|]. exists p', out, x. cbv zeta. split; [done|]. split; [done|].
  apply H in Hx as [-> _]. cbn [Nat.ltb Nat.leb]. rewrite Hsr, Ee.
  assert (incremented_by_samples 0%Z (Z.of_nat 0) 48000 = 0%Z) as -> by (vm_compute; reflexivity).
  cbn [Z.leb Z.compare Nat.sub Nat.add]. assert (Ed : lengthR 0 89478 sr = 89478 * 48000 / 2 ^ 32) by (unfold lengthR; rewrite INR_IZR_INZ, Hsr; done).
  rewrite Ed. set (d := 89478 * 48000 / 2 ^ 32). assert (Hd : 0 < d < 1) by (unfold d; split; lra). clearbody d.
  rewrite Rmult_1_l. replace (2 / 1) with 2 by lra. cbn [INR]. rewrite <- (Rpower_1 2) at 1 by lra. apply Rpower_lt; [lra|].
  apply (Rmult_lt_reg_r d); [lra|]. unfold Rdiv. rewrite Rmult_assoc, Rinv_l; lra.
Qed.

Lemma exponential_slow : exists p1 out1 x, let target := 1 + epsR in
  let p := add_change (Change target (8 * 2 ^ 30)%Z (Exponential 0%Z)) (new_param R_num 1) in
  process R_num 0%Z 1 4 p = Ok (p1, out1) /\
  (forall time n, process R_num time n 4 p1 = Ok (p1, replicate n x)) /\ x < target.
Proof.
  assert (Heps : 0 < epsR) by (unfold epsR; apply Rinv_0_lt_compat, pow_lt; lra).
  set (t := 1 + epsR). cbv zeta. set (p := add_change _ _).
  assert (Eft : frame_times 0%Z 1 4 = [0%Z]) by (vm_compute; reflexivity). assert (Hst : is_static R_num p = false) by apply andb_false_r.
  set (c := exp (ln (t / 1) / (samplesR (8 * 2 ^ 30)%Z 4 - samplesR 0%Z 4))).
  assert (Hc : 1 < c < t).
  { unfold c. assert (samplesR (8 * 2 ^ 30)%Z 4 - samplesR 0%Z 4 = 8) as ->.
    { unfold samplesR. replace (INR 4) with 4 by (cbn [INR]; lra).
      change (8 * 2 ^ 30)%Z with 8589934592%Z. lra. }
    replace (t / 1) with t by lra. assert (Hl : 0 < ln t) by (rewrite <- ln_1; apply ln_increasing; unfold t; lra).
    split; [rewrite <- exp_0; apply exp_increasing; lra|]. rewrite <- (exp_ln t) at 2 by (unfold t; lra). apply exp_increasing. lra. }
  assert (exists p1 out1, process R_num 0%Z 1 4 p = Ok (p1, out1) /\ pa_value p1 = c /\ pa_coef p1 = c /\ pa_inc p1 = 0 /\ pa_changes p1 = [])
    as (p1 & out1 & E & H1 & H2 & H3 & H4).
  { unfold process. rewrite Hst, Eft. unfold p. cbn -[t c exp ln samplesR]. unfold value_at_time, start_change. cbn -[t c exp ln samplesR].
    destruct (Req_EM_T t 0); [unfold t in *; lra|]. destruct (Req_EM_T 1 0); [lra|]. cbn -[t c exp ln samplesR]. fold c.
    eexists _, _. split; [reflexivity|]. cbn -[t c].
    split; [|split; [reflexivity|split; reflexivity]]. assert (Eb : (8 * 2 ^ 30 <=? 0)%Z = false) by reflexivity. rewrite Eb. ring. }
  exists p1, out1, (pa_value p1).
  split; [done|]. split; [|rewrite H1; exact (proj2 Hc)].
  intros time n. unfold process, is_static. rewrite H2, H3, H4. cbn [R_num n_close n_one n_zero].
  assert (closeR c 1 = true) as ->.
  { unfold closeR. rewrite Rabs_right by lra. destruct (Rle_dec _ _); [done|]. unfold t in *. lra. }
  assert (closeR 0 0 = true) as ->; [|done]. unfold closeR. rewrite Rminus_0_r, Rabs_R0. destruct (Rle_dec _ _); [done|]. lra.
Qed.
