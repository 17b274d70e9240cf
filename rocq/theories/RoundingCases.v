(** Cases that meet the hypotheses of PropertiesRounding.v. *)
From stdpp Require Import list list_numbers sorting.
From Coq Require Import ZArith Lia ZifyNat Reals Lra.
From Verif Require Import Base Float Timestamp AudioParam AudioParamSpec AudioParamR Binary64 RoundedProofs.
Local Open Scope R_scope.

Lemma rest64 exp64 ln64 c (n : Z) : (Z.abs n < 2 ^ 53)%Z -> at_rest (b64_num exp64 ln64) (add_change c (new_param (b64_num exp64 ln64) (IZR n))).
Proof.
  intros H. split; [done|]. split; [done|]. split; [done|]. unfold steady. cbn. by rewrite Rmult_1_r, Rplus_0_r, !rnd_Z by done.
Qed.
Lemma pow52 : / 2 ^ 52 < / 1000.
Proof. apply Rinv_lt_contravar; [apply Rmult_lt_0_compat; [lra|apply pow_lt; lra]|]. lra. Qed.
Lemma not_close a b : a <= 4 -> 0 <= b <= 1 -> b + / 2 <= a -> close64 a b = false.
Proof.
  intros Ha Hb Hab. pose proof pow52 as Hp. assert (H : / 2 <= rnd64 (a - b)).
  { replace (/ 2) with (IZR 1 / 2 ^ 1) by (cbn [pow]; lra). rewrite <- rnd_dyadic by lia. apply rnd_mono. cbn [pow]. lra. }
  assert (H2 : rnd64 (Rmax (Rabs a) (Rabs b) * / 2 ^ 52) <= 4 / 2 ^ 52).
  { rewrite <- (rnd_dyadic 4 52) by lia. apply rnd_mono. unfold Rdiv. apply Rmult_le_compat_r; [left; apply inv_pow_pos|]. rewrite !Rabs_right by lra. apply Rmax_lub; lra. }
  unfold close64. rewrite (Rabs_right (rnd64 (a - b))) by lra. set (w := / 2 ^ 52) in *. clearbody w. unfold Rdiv in H2.
  destruct (Req_EM_T a b); [lra|]. destruct (Rle_dec _ _); [lra|]. destruct (Rle_dec _ _); [lra|done].
Qed.

Lemma linear_case :
  let p := add_change (Change 3 (5 * 2 ^ 30)%Z (Linear (2 ^ 30)%Z)) (new_param (b64_num exp ln) 1) in
  pa_changes p = [Change 3 (0 + Z.of_nat (1 + 4) * 2 ^ 30)%Z (Linear (2 ^ 30)%Z)] /\ at_rest (b64_num exp ln) p /\ pa_value p = 1 /\
  close64 (rnd64 (rnd64 (3 - 1) / INR 4)) 0 = false.
Proof.
  cbv zeta. split; [done|]. split; [by apply (rest64 exp ln _ 1)|]. split; [done|].
  replace (3 - 1) with (IZR 2) by lra. rewrite rnd_Z by lia. replace (IZR 2 / INR 4) with (IZR 1 / 2 ^ 1) by (cbn [INR pow]; lra).
  rewrite rnd_dyadic by lia. cbn [pow]. apply not_close; lra.
Qed.

Lemma exponential_case :
  let p := add_change (Change 2 (2 * 2 ^ 30)%Z (Exponential (2 ^ 30)%Z)) (new_param (b64_num exp ln) 1) in
  pa_changes p = [Change 2 (0 + Z.of_nat (1 + 1) * 2 ^ 30)%Z (Exponential (2 ^ 30)%Z)] /\ at_rest (b64_num exp ln) p /\ pa_value p = 1 /\
  accurate 0 exp ln /\ ramp_error 0 (2 / 1) 1 <= 1 /\ close64 (exp (rnd64 (ln (rnd64 (2 / 1)) / INR 1))) 1 = false.
Proof.
  cbv zeta. split; [done|]. split; [by apply (rest64 exp ln _ 1)|]. split; [done|].
  assert (Hln : / 2 <= ln 2 <= 1).
  { split; [pose proof ln_lt_2; lra|]. rewrite <- (ln_exp 1). left. apply ln_increasing; [lra|]. pose proof (exp_ineq1 1 ltac:(lra)). lra. }
  replace (2 / 1) with (IZR 2) by lra. split; [|split].
  - split; [lra|]. split; intros x Hx; rewrite Rminus_eq_0, Rabs_R0; lra.
  - unfold ramp_error. rewrite Rabs_right by lra. pose proof u64_small as [H1 H2]. assert (/ 2 ^ 10 <= / 1000) by (cbn [pow]; lra). cbn [INR]. set (u := u64) in *. clearbody u. nra.
  - rewrite rnd_Z by lia. cbn [INR]. replace (ln 2 / 1) with (ln 2) by lra.
    assert (H1 : / 2 <= rnd64 (ln 2)).
    { replace (/ 2) with (IZR 1 / 2 ^ 1) by (cbn [pow]; lra). rewrite <- rnd_dyadic by lia. apply rnd_mono. cbn [pow]. lra. }
    assert (H2 : rnd64 (ln 2) <= 1) by (rewrite <- (rnd_Z 1) by lia; apply rnd_mono; lra).
    pose proof (exp_ge (rnd64 (ln 2))). pose proof (exp_le _ _ H2). pose proof exp_le_3. apply not_close; lra.
Qed.
