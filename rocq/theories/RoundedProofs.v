(** Ramps with the rounding of binary64. *)
From stdpp Require Import list list_numbers sorting.
From Coq Require Import ZArith Reals Lra Lia ZifyBool ZifyNat Psatz.
From Flocq Require Import Core Relative.
From Verif Require Import Base Float Timestamp AudioParam AudioParamSpec AudioParamR AudioParamProofs AudioParamRProofs Binary64.
Local Open Scope R_scope.

(** ** The rounding *)
Notation u64 := (/ 2 ^ 53).
Lemma bpow_nat n : bpow radix2 (Z.of_nat n) = 2 ^ n.
Proof. destruct n as [|n]; [done|]. rewrite <- (IZR_Zpower radix2) by lia. change (radix_val radix2) with 2%Z. by rewrite <- pow_IZR. Qed.
Lemma bpow_neg n : bpow radix2 (- Z.of_nat n) = / 2 ^ n.
Proof. by rewrite bpow_opp, bpow_nat. Qed.
Lemma pow2_pos n : 0 < 2 ^ n.
Proof. apply pow_lt. lra. Qed.

Global Instance prec53 : Prec_gt_0 53.
Proof. done. Qed.

Lemma rnd_idem x : rnd64 (rnd64 x) = rnd64 x.
Proof. unfold rnd64. apply round_generic; [apply valid_rnd_N|]. apply generic_format_round; [apply FLT_exp_valid; done|apply valid_rnd_N]. Qed.
Lemma rnd_0 : rnd64 0 = 0.
Proof. apply round_0. apply valid_rnd_N. Qed.
Lemma rnd_mono x y : x <= y -> rnd64 x <= rnd64 y.
Proof. intros H. apply round_le; [apply FLT_exp_valid; done|apply valid_rnd_N|done]. Qed.

Lemma rnd_dyadic (n : Z) (e : nat) : (Z.abs n < 2 ^ 53)%Z -> (e <= 1074)%nat -> rnd64 (IZR n / 2 ^ e) = IZR n / 2 ^ e.
Proof.
  intros H He. unfold rnd64. apply round_generic; [apply valid_rnd_N|]. apply generic_format_FLT.
  exists (Defs.Float radix2 n (- Z.of_nat e)).
  - unfold F2R. cbn [Defs.Fnum Defs.Fexp]. by rewrite bpow_neg.
  - done.
  - cbn [Defs.Fexp]. lia.
Qed.
Lemma rnd_Z (n : Z) : (Z.abs n < 2 ^ 53)%Z -> rnd64 (IZR n) = IZR n.
Proof. intros H. pose proof (rnd_dyadic n 0 H ltac:(lia)) as E. cbn [pow] in E. by replace (IZR n / 1) with (IZR n) in E by field. Qed.

Lemma rnd_rel x : / 2 ^ 1022 <= Rabs x -> Rabs (rnd64 x - x) <= u64 * Rabs x.
Proof.
  intros H. assert (E : / 2 * bpow radix2 (- (53) + 1) = u64).
  { change (- (53) + 1)%Z with (- Z.of_nat 52)%Z. rewrite bpow_neg. rewrite <- Rinv_mult. by rewrite <- tech_pow_Rmult. }
  rewrite <- E. apply relative_error_N_FLT; [done|].
  change (-1074 + 53 - 1)%Z with (- Z.of_nat 1022)%Z. by rewrite bpow_neg.
Qed.
Lemma rnd_abs x : Rabs (rnd64 x - x) <= u64 * Rabs x + / 2 ^ 1075.
Proof.
  destruct (error_N_FLT radix2 (-1074) 53 ltac:(done) (fun n => negb (Z.even n)) x) as (eps & eta & H1 & H2 & _ & E).
  fold (rnd64 x) in E. rewrite E. replace (x * (1 + eps) + eta - x) with (x * eps + eta) by ring.
  eapply Rle_trans; [apply Rabs_triang|]. rewrite Rabs_mult.
  assert (E1 : / 2 * bpow radix2 (- (53) + 1) = u64).
  { change (- (53) + 1)%Z with (- Z.of_nat 52)%Z. rewrite bpow_neg. rewrite <- Rinv_mult. by rewrite <- tech_pow_Rmult. }
  assert (E2 : / 2 * bpow radix2 (-1074) = / 2 ^ 1075).
  { change (-1074)%Z with (- Z.of_nat 1074)%Z. rewrite bpow_neg. rewrite <- Rinv_mult. by rewrite <- tech_pow_Rmult. }
  rewrite E1 in H1. rewrite E2 in H2. pose proof (Rabs_pos x). apply Rplus_le_compat; [|done]. rewrite Rmult_comm. by apply Rmult_le_compat_r.
Qed.

Lemma u64_small : 0 < u64 <= / 2 ^ 10.
Proof.
  split; [apply Rinv_0_lt_compat, pow2_pos|]. apply Rinv_le_contravar; [apply pow2_pos|]. apply Rle_pow; [lra|lia].
Qed.
Lemma inv_pow_le a b : (a <= b)%nat -> / 2 ^ b <= / 2 ^ a.
Proof. intros H. apply Rinv_le_contravar; [apply pow2_pos|]. apply Rle_pow; [lra|lia]. Qed.
Lemma inv_pow_pos a : 0 < / 2 ^ a.
Proof. apply Rinv_0_lt_compat, pow2_pos. Qed.
Lemma inv_pow_mult a b : / 2 ^ a * / 2 ^ b = / 2 ^ (a + b).
Proof. by rewrite pow_add, Rinv_mult. Qed.

Lemma samples_exact sr q k : (Z.of_nat sr * q = 2 ^ 32)%Z -> (0 < q)%Z -> (Z.of_nat k * q < 2 ^ 53)%Z -> samples64 (Z.of_nat k * q)%Z sr = INR k.
Proof.
  intros Hq Hq0 Hk. unfold samples64. rewrite (rnd_dyadic _ 32) by lia.
  replace (IZR (Z.of_nat k * q) / 2 ^ 32 * INR sr) with (IZR (Z.of_nat k)).
  - rewrite rnd_Z by nia. by rewrite <- INR_IZR_INZ.
  - rewrite (INR_IZR_INZ sr), mult_IZR. unfold Rdiv. rewrite !Rmult_assoc, (Rmult_comm (/ _)), <- Rmult_assoc, <- Rmult_assoc.
    rewrite (Rmult_assoc (IZR (Z.of_nat k))). rewrite <- mult_IZR, (Z.mul_comm q), Hq, (pow_IZR 2 32 : IZR 2 ^ 32 = _). change (2 ^ Z.of_nat 32)%Z with (2 ^ 32)%Z.
    rewrite Rmult_assoc, Rinv_r by (apply not_0_IZR; lia). ring.
Qed.

Lemma iter_last {V} (f : V -> V) n v : iter (S n) f v = f (iter n f v).
Proof. revert v. induction n as [|n IH]; intros v; [done|]. cbn [iter] in *. apply IH. Qed.

(** ** A linear ramp *)
Lemma linear_drift inc a d M v n : rnd64 v = v -> Rabs (inc - a) <= d -> / 2 ^ 1075 <= u64 * M -> (forall i, (i <= n)%nat -> Rabs (v + INR i * a) <= M) ->
  let x := iter n (fun x => rnd64 (rnd64 (x * 1) + inc)) v in
  rnd64 x = x /\ Rabs (x - (v + INR n * a)) <= INR n * (d + 2 * u64 * M) * (1 + u64) ^ n.
Proof.
  intros Hv Hd He. induction n as [|n IH]; intros HM; cbv zeta.
  - cbn [iter INR]. split; [done|]. rewrite !Rmult_0_l, Rplus_0_r, Rminus_eq_0, Rabs_R0. lra.
  - destruct IH as [IH1 IH2]; [intros i Hi; apply HM; lia|]. rewrite iter_last. set (x := iter n _ v) in *. rewrite Rmult_1_r, IH1.
    split; [apply rnd_idem|]. specialize (HM (S n) ltac:(lia)).
    pose proof (rnd_abs (x + inc)) as Hr. pose proof u64_small as Hu. set (u := u64) in *. clearbody u.
    set (E := INR n * (d + 2 * u * M) * (1 + u) ^ n) in *. pose proof (Rabs_pos (inc - a)) as Hd0.
    assert (HM0 : 0 <= M) by (eapply Rle_trans; [apply Rabs_pos|exact HM]).
    set (I' := v + INR (S n) * a) in *. set (eta := / 2 ^ 1075) in *. clearbody eta.
    assert (H1 : Rabs (x + inc - I') <= E + d).
    { replace (x + inc - I') with ((x - (v + INR n * a)) + (inc - a)) by (unfold I'; rewrite S_INR; ring).
      eapply Rle_trans; [apply Rabs_triang|]. lra. }
    assert (H2 : Rabs (x + inc) <= M + (E + d)).
    { replace (x + inc) with (I' + (x + inc - I')) by ring. eapply Rle_trans; [apply Rabs_triang|]. lra. }
    assert (H3 : Rabs (rnd64 (x + inc) - I') <= (u * (M + (E + d)) + u * M) + (E + d)).
    { replace (rnd64 (x + inc) - I') with ((rnd64 (x + inc) - (x + inc)) + (x + inc - I')) by ring. eapply Rle_trans; [apply Rabs_triang|].
      apply Rplus_le_compat; [|done]. eapply Rle_trans; [exact Hr|]. apply Rplus_le_compat; [|done]. apply Rmult_le_compat_l; lra. }
    eapply Rle_trans; [exact H3|]. set (K := d + 2 * u * M) in *.
    assert (HK : 0 <= K) by (unfold K; assert (0 <= u * M) by (apply Rmult_le_pos; lra); lra).
    assert (Hp : 1 <= (1 + u) ^ n) by (apply pow_R1_Rle; lra). rewrite S_INR. cbn [pow]. pose proof (pos_INR n).
    replace (u * (M + (E + d)) + u * M + (E + d)) with (E * (1 + u) + (d * (1 + u) + 2 * u * M)) by ring.
    replace ((INR n + 1) * K * ((1 + u) * (1 + u) ^ n)) with (E * (1 + u) + K * (1 + u) * (1 + u) ^ n) by (unfold E; ring).
    apply Rplus_le_compat_l. apply Rle_trans with (K * (1 + u)).
    + unfold K. assert (0 <= 2 * u * M * u) by (apply Rmult_le_pos; [apply Rmult_le_pos|]; lra). lra.
    + rewrite <- (Rmult_1_r (K * (1 + u))) at 1. apply Rmult_le_compat_l; [|done]. apply Rmult_le_pos; lra.
Qed.

Lemma growth n : (Z.of_nat n <= 2 ^ 50)%Z -> (1 + u64) ^ n <= 2.
Proof.
  intros H. pose proof u64_small as Hu. apply Rle_trans with (exp u64 ^ n).
  - apply pow_incr. split; [lra|]. left. apply exp_ineq1. lra.
  - rewrite exp_pow. apply Rle_trans with (exp (/ 2)).
    + assert (Hle : INR n * u64 <= / 2).
      { apply (Rmult_le_reg_r (2 ^ 53)); [apply pow2_pos|]. rewrite Rmult_assoc, Rinv_l, Rmult_1_r by (apply Rgt_not_eq, pow2_pos).
        rewrite INR_IZR_INZ. apply Rle_trans with (IZR (2 ^ 50)); [by apply IZR_le|].
        replace (/ 2 * 2 ^ 53) with (IZR (2 ^ 52)); [apply IZR_le; lia|]. rewrite (pow_IZR 2 53 : IZR 2 ^ 53 = _). change (2 ^ Z.of_nat 53)%Z with (2 * 2 ^ 52)%Z. rewrite mult_IZR. field. }
      destruct Hle as [Hlt|E]; [left; by apply exp_increasing|rewrite E; right; done].
    + assert (H2 : exp (/ 2) * exp (/ 2) <= 2 * 2) by (rewrite <- exp_plus; replace (/ 2 + / 2) with 1 by field; pose proof exp_le_3; lra).
      pose proof (exp_pos (/ 2)). nra.
Qed.

Lemma close_0 x : rnd64 x = x -> close64 x 0 = false -> / 2 ^ 52 < Rabs x.
Proof.
  intros Hx. unfold close64. rewrite Rminus_0_r, Hx. destruct (Req_EM_T x 0); [done|]. destruct (Rle_dec _ _) as [|H]; [done|]. intros _. lra.
Qed.

Lemma increment_error D m : 1 <= m -> let inc := rnd64 (rnd64 D / m) in / 2 ^ 52 < Rabs inc ->
  / 2 ^ 56 <= Rabs D /\ Rabs (inc - D / m) <= 3 * u64 * (Rabs D / m).
Proof.
  intros Hm inc Hinc. pose proof u64_small as Hu.
  pose proof (rnd_abs D) as A1. pose proof (rnd_abs (rnd64 D / m)) as A2. fold inc in A2. set (y := rnd64 D / m) in *.
  pose proof (inv_pow_le 56 1075 ltac:(lia)) as P1. pose proof (inv_pow_le 56 1022 ltac:(lia)) as P2. pose proof (inv_pow_pos 56) as P0.
  assert (P3 : / 2 ^ 52 = 16 * / 2 ^ 56) by (field; apply Rgt_not_eq, pow2_pos).
  rewrite P3 in Hinc. pose proof (rnd_rel D) as R1. pose proof (rnd_rel y) as R2. fold inc in R2.
  set (w := / 2 ^ 56) in *. clearbody w. set (eta := / 2 ^ 1075) in *. clearbody eta. set (low := / 2 ^ 1022) in *. clearbody low. clear P3.
  set (u := u64) in *. clearbody u. cbn [pow] in Hu.
  assert (Hy : 8 * w <= Rabs y).
  { assert (Rabs inc <= Rabs (inc - y) + Rabs y) by (replace inc with (inc - y + y) at 1 by ring; apply Rabs_triang). pose proof (Rabs_pos y). nra. }
  assert (Ey : Rabs y = Rabs (rnd64 D) / m).
  { unfold y, Rdiv. rewrite Rabs_mult. f_equal. apply Rabs_right. apply Rle_ge. left. apply Rinv_0_lt_compat. lra. }
  assert (H1 : 8 * w <= Rabs (rnd64 D)).
  { eapply Rle_trans; [exact Hy|]. rewrite Ey. unfold Rdiv. rewrite <- (Rmult_1_r (Rabs (rnd64 D))) at 2. apply Rmult_le_compat_l; [apply Rabs_pos|].
    rewrite <- Rinv_1. apply Rinv_le_contravar; lra. }
  assert (HD : w <= Rabs D).
  { assert (Rabs (rnd64 D) <= Rabs (rnd64 D - D) + Rabs D) by (replace (rnd64 D) with (rnd64 D - D + D) at 1 by ring; apply Rabs_triang). pose proof (Rabs_pos D). nra. }
  split; [done|]. specialize (R1 ltac:(lra)). specialize (R2 ltac:(lra)).
  assert (H2 : Rabs (y - D / m) <= u * (Rabs D / m)).
  { replace (y - D / m) with ((rnd64 D - D) * / m) by (unfold y; field; lra). rewrite Rabs_mult, (Rabs_right (/ m)) by (apply Rle_ge; left; apply Rinv_0_lt_compat; lra).
    unfold Rdiv. rewrite <- Rmult_assoc. apply Rmult_le_compat_r; [left; apply Rinv_0_lt_compat; lra|done]. }
  assert (E : Rabs (D / m) = Rabs D / m).
  { unfold Rdiv. rewrite Rabs_mult. f_equal. apply Rabs_right. apply Rle_ge. left. apply Rinv_0_lt_compat. lra. }
  assert (H3 : Rabs y <= Rabs (y - D / m) + Rabs (D / m)) by (replace y with (y - D / m + D / m) at 1 by ring; apply Rabs_triang).
  assert (H4 : Rabs (inc - D / m) <= Rabs (inc - y) + Rabs (y - D / m)) by (replace (inc - D / m) with ((inc - y) + (y - D / m)) by ring; apply Rabs_triang).
  rewrite E in H3. assert (0 <= Rabs D / m) by (rewrite <- E; apply Rabs_pos). set (g := Rabs D / m) in *.
  assert (u * Rabs y <= u * (u * g + g)) by (apply Rmult_le_compat_l; lra). assert (u * (u * g) <= u * g) by (apply Rmult_le_compat_l; [lra|]; rewrite <- (Rmult_1_l g) at 2; apply Rmult_le_compat_r; lra). lra.
Qed.

(** ** An exponential ramp *)
Lemma exp_ge x : 1 + x <= exp x.
Proof. destruct (Req_dec x 0) as [-> | H]; [rewrite exp_0; lra|left; by apply exp_ineq1]. Qed.
Lemma exp_le a b : a <= b -> exp a <= exp b.
Proof. intros [H| ->]; [left; by apply exp_increasing|lra]. Qed.
Lemma exp_opp_mul b : exp (- b) * exp b = 1.
Proof. rewrite <- exp_plus. replace (- b + b) with 0 by ring. apply exp_0. Qed.

Lemma near_rel b x y : 0 < y -> b <= / 2 -> Rabs (x - y) <= b * y -> near (2 * b) x y.
Proof.
  intros Hy Hb H. assert (Hb0 : 0 <= b) by (pose proof (Rabs_pos (x - y)); nra).
  apply Rabs_le_inv in H.
  pose proof (exp_ge (2 * b)) as H1. pose proof (exp_opp_mul (2 * b)) as H2. pose proof (exp_pos (- (2 * b))) as H3.
  assert (H4 : exp (- (2 * b)) <= 1 - b).
  { apply Rle_trans with (exp (- (2 * b)) * ((1 + 2 * b) * (1 - b))).
    - rewrite <- (Rmult_1_r (exp _)) at 1. apply Rmult_le_compat_l; nra.
    - rewrite <- Rmult_assoc. rewrite <- (Rmult_1_l (1 - b)) at 2. apply Rmult_le_compat_r; [lra|]. rewrite <- H2. apply Rmult_le_compat_l; lra. }
  split; nra.
Qed.
Lemma near_mono a b x y : 0 <= y -> a <= b -> near a x y -> near b x y.
Proof.
  intros Hy Hab [H1 H2]. pose proof (exp_le a b Hab). pose proof (exp_le (- b) (- a) ltac:(lra)). split; nra.
Qed.
Lemma near_trans a b x y z : near a x y -> near b y z -> near (a + b) x z.
Proof.
  intros [H1 H2] [H3 H4]. unfold near. rewrite Ropp_plus_distr, !exp_plus. pose proof (exp_pos a). pose proof (exp_pos (- a)). split.
  - apply Rle_trans with (y * exp (- a)); [|done]. rewrite (Rmult_comm (exp (- a))), <- Rmult_assoc. apply Rmult_le_compat_r; lra.
  - apply Rle_trans with (y * exp a); [done|]. rewrite (Rmult_comm (exp a)), <- Rmult_assoc. apply Rmult_le_compat_r; lra.
Qed.
Lemma near_pos b x y : 0 < y -> near b x y -> 0 < x.
Proof. intros Hy [H _]. pose proof (exp_pos (- b)). nra. Qed.
Lemma near_mul a b x x' y y' : 0 < y -> 0 < y' -> near a x y -> near b x' y' -> near (a + b) (x * x') (y * y').
Proof.
  intros Hy Hy' Ha Hb. pose proof (near_pos _ _ _ Hy Ha). pose proof (near_pos _ _ _ Hy' Hb). destruct Ha as [A1 A2], Hb as [B1 B2].
  unfold near. rewrite Ropp_plus_distr, !exp_plus. pose proof (exp_pos a). pose proof (exp_pos (- a)). pose proof (exp_pos b). pose proof (exp_pos (- b)). split.
  - replace (y * y' * (exp (- a) * exp (- b))) with (y * exp (- a) * (y' * exp (- b))) by ring. apply Rmult_le_compat; [nra|nra|done|done].
  - replace (y * y' * (exp a * exp b)) with (y * exp a * (y' * exp b)) by ring. apply Rmult_le_compat; [lra|lra|done|done].
Qed.
Lemma near_exp b x y : Rabs (x - y) <= b -> near b (exp x) (exp y).
Proof. intros H. unfold near. rewrite <- !exp_plus. apply Rabs_le_inv in H. split; apply exp_le; lra. Qed.
Lemma near_ln b x y : 0 < y -> near b x y -> Rabs (ln x - ln y) <= b.
Proof.
  intros Hy Hn. pose proof (near_pos _ _ _ Hy Hn) as Hx. destruct Hn as [H1 H2]. apply Rabs_le.
  assert (G : forall p q, 0 < p -> p <= q -> ln p <= ln q) by (intros p q Hp [Hl| ->]; [left; by apply ln_increasing|lra]).
  assert (H0 : 0 < y * exp (- b)) by (apply Rmult_lt_0_compat; [done|apply exp_pos]). pose proof (G _ _ H0 H1) as G1. pose proof (G _ _ Hx H2) as G2.
  rewrite ln_mult, ln_exp in G1, G2 by (done || apply exp_pos). lra.
Qed.
Lemma rnd_near x : / 2 ^ 1022 <= x -> near (2 * u64) (rnd64 x) x.
Proof.
  intros H. pose proof (inv_pow_pos 1022). apply near_rel; [lra|pose proof u64_small as Hu; cbn [pow] in Hu; lra|].
  rewrite <- (Rabs_right x) at 3 by lra. apply rnd_rel. by rewrite Rabs_right by lra.
Qed.

Lemma exponential_drift c' c b v n : 0 < v -> 0 < c -> rnd64 v = v -> near b c' c -> 0 <= b ->
  (forall i, (i <= n)%nat -> / 2 ^ 1022 <= v * c ^ i * exp (- (INR n * (b + 2 * u64)))) ->
  let x := iter n (fun x => rnd64 (rnd64 (x * c') + 0)) v in rnd64 x = x /\ near (INR n * (b + 2 * u64)) x (v * c ^ n).
Proof.
  intros Hv Hc Hrv Hn Hb. pose proof u64_small as Hu. induction n as [|n IH]; intros HL; cbv zeta.
  - cbn [iter INR pow]. split; [done|]. unfold near. rewrite Rmult_0_l, Ropp_0, exp_0. lra.
  - rewrite S_INR in *. destruct IH as [_ IH].
    { intros i Hi. eapply Rle_trans; [apply (HL i); lia|]. apply Rmult_le_compat_l; [apply Rmult_le_pos; [lra|apply pow_le; lra]|]. apply exp_le. pose proof (pos_INR n). lra. }
    rewrite iter_last. set (x := iter n _ v) in *. rewrite Rplus_0_r, !rnd_idem. split; [done|].
    assert (Hvn : 0 < v * c ^ n) by (apply Rmult_lt_0_compat; [done|by apply pow_lt]).
    pose proof (near_mul _ _ _ _ _ _ Hvn Hc IH Hn) as H1. replace (v * c ^ n * c) with (v * c ^ S n) in H1 by (cbn [pow]; ring).
    assert (HS : 0 < v * c ^ S n) by (apply Rmult_lt_0_compat; [done|by apply pow_lt]).
    assert (H2 : / 2 ^ 1022 <= x * c').
    { eapply Rle_trans; [apply (HL (S n)); lia|]. eapply Rle_trans; [|exact (proj1 H1)]. apply Rmult_le_compat_l; [lra|]. apply exp_le. lra. }
    replace ((INR n + 1) * (b + 2 * u64)) with (2 * u64 + (INR n * (b + 2 * u64) + b)) by ring. eapply near_trans; [by apply rnd_near|done].
Qed.

Lemma coefficient_error delta exp64 ln64 v target (m : nat) : accurate delta exp64 ln64 -> delta <= / 2 ->
  / 2 ^ 300 <= v <= 2 ^ 300 -> / 2 ^ 300 <= target <= 2 ^ 300 -> (0 < Z.of_nat m <= 2 ^ 50)%Z ->
  (delta + 2 * u64) * Rabs (ln (target / v)) + 5 * u64 <= 1 ->
  near (2 * delta + ((delta + 2 * u64) * Rabs (ln (target / v)) + 5 * u64) / INR m)
    (exp64 (rnd64 (ln64 (rnd64 (target / v)) / INR m))) (exp (ln (target / v) / INR m)).
Proof.
  intros (Hd0 & Hexp & Hln) Hd Hv Ht Hm HA. pose proof (inv_pow_pos 300) as P0. pose proof u64_small as Hu. assert (Hk : / 2 ^ 10 <= / 1000) by (cbn [pow]; lra).
  assert (Hr : / 2 ^ 600 <= target / v <= 2 ^ 600).
  { change 600%nat with (300 + 300)%nat. rewrite <- inv_pow_mult, pow_add. pose proof (Rinv_inv (2 ^ 300)) as Hii. pose proof (pow2_pos 300) as P1. clear Hexp Hln HA.
    set (t := 2 ^ 300) in *. set (t' := / t) in *. clearbody t'. clearbody t. unfold Rdiv. assert (Hiv : t' <= / v <= t).
    { split; [|rewrite <- Hii; apply Rinv_le_contravar; lra]. apply (Rmult_le_reg_l v); [lra|]. rewrite Rinv_r by lra.
      assert (t * t' = 1) by (rewrite <- Hii; apply Rinv_l; lra). nra. }
    split; apply Rmult_le_compat; lra. }
  pose proof (inv_pow_pos 600) as P6. set (r := target / v) in *. set (L := ln r) in *. assert (Hr0 : 0 < r) by (eapply Rlt_le_trans; [exact P6|apply Hr]).
  assert (HL : Rabs L <= 600).
  { assert (H2 : 0 <= ln 2 <= 1).
    { split; [pose proof (ln_lt_2); lra|]. rewrite <- (ln_exp 1). left. apply ln_increasing; [lra|]. pose proof (exp_ineq1 1 ltac:(lra)). lra. }
    assert (E : ln (2 ^ 600) = INR 600 * ln 2) by (apply ln_pow; lra).
    assert (E' : ln (/ 2 ^ 600) = - (INR 600 * ln 2)) by (rewrite ln_Rinv by apply pow2_pos; by rewrite E).
    assert (E6 : INR 600 = 600) by (rewrite INR_IZR_INZ; done). rewrite E6 in E, E'.
    assert (G : forall p q, 0 < p -> p <= q -> ln p <= ln q) by (intros p q Hp [Hl| ->]; [left; by apply ln_increasing|lra]).
    pose proof (G _ _ P6 (proj1 Hr)) as G1. pose proof (G r (2 ^ 600) Hr0 (proj2 Hr)) as G2. fold L in G1, G2. rewrite E' in G1. rewrite E in G2.
    clear -G1 G2 H2. clearbody L. apply Rabs_le. lra. }
  assert (Hr22 : / 2 ^ 1022 <= r) by (eapply Rle_trans; [apply (inv_pow_le 600 1022); lia|apply Hr]).
  assert (Hn1 : near (2 * u64) (rnd64 r) r) by (by apply rnd_near).
  pose proof (near_ln _ (rnd64 r) r Hr0 Hn1) as Hl1. fold L in Hl1.
  assert (Hr1 : / 2 ^ 1000 <= rnd64 r <= 2 ^ 1000).
  { pose proof (rnd_rel r) as H. rewrite Rabs_right in H by (left; apply Hr0). specialize (H Hr22). apply Rabs_le_inv in H.
    assert (H3 : / 2 ^ 1000 <= / 2 ^ 1 * / 2 ^ 600) by (rewrite inv_pow_mult; apply inv_pow_le; lia). rewrite pow_1 in H3.
    assert (H4 : 2 * 2 ^ 600 <= 2 ^ 1000) by (rewrite tech_pow_Rmult; apply Rle_pow; [lra|lia]).
    destruct Hu as [Hu1 Hu2]. pose proof (Rle_trans _ _ _ Hu2 Hk) as Hu3. clear - H H3 H4 Hr Hr0 Hu1 Hu3.
    set (t := 2 ^ 600) in *. set (t' := / t) in *. set (w := 2 ^ 1000) in *. set (w' := / w) in *. set (u := u64) in *. clearbody r t' t w' w u. nra. }
  specialize (Hln _ Hr1). set (Lr := ln (rnd64 r)) in *. set (l := ln64 (rnd64 r)) in *.
  assert (Hm1 : 1 <= INR m) by (change 1 with (INR 1); apply le_INR; lia).
  pose proof (rnd_abs (l / INR m)) as Ha. set (a := rnd64 (l / INR m)) in *.
  assert (HlA : Rabs Lr <= Rabs L + 2 * u64).
  { replace Lr with (L + (Lr - L)) by ring. eapply Rle_trans; [apply Rabs_triang|]. lra. }
  assert (Heta : INR m * / 2 ^ 1075 <= u64).
  { apply Rle_trans with (2 ^ 50 * / 2 ^ 1075).
    - apply Rmult_le_compat_r; [left; apply inv_pow_pos|]. rewrite INR_IZR_INZ, (pow_IZR 2 50 : IZR 2 ^ 50 = _). apply IZR_le. lia.
    - replace 1075%nat with (50 + 1025)%nat by done. rewrite <- inv_pow_mult, <- Rmult_assoc, Rinv_r, Rmult_1_l by (apply Rgt_not_eq, pow2_pos). apply inv_pow_le. lia. }
  assert (HaA : INR m * Rabs (a - L / INR m) <= (delta + 2 * u64) * Rabs L + 5 * u64).
  { assert (El : Rabs (l / INR m) = Rabs l / INR m).
    { unfold Rdiv. rewrite Rabs_mult. f_equal. apply Rabs_right. apply Rle_ge. left. apply Rinv_0_lt_compat. lra. }
    rewrite El in Ha. assert (H1 : Rabs (a - L / INR m) <= Rabs (a - l / INR m) + Rabs (l - L) / INR m).
    { replace (a - L / INR m) with ((a - l / INR m) + (l - L) / INR m) by (field; lra). eapply Rle_trans; [apply Rabs_triang|]. apply Rplus_le_compat_l.
      unfold Rdiv. rewrite Rabs_mult. right. f_equal. apply Rabs_right. apply Rle_ge. left. apply Rinv_0_lt_compat. lra. }
    assert (H2 : Rabs (l - L) <= delta * Rabs Lr + 2 * u64).
    { replace (l - L) with ((l - Lr) + (Lr - L)) by ring. eapply Rle_trans; [apply Rabs_triang|]. lra. }
    assert (H3 : Rabs l <= Rabs Lr + delta * Rabs Lr).
    { replace l with (Lr + (l - Lr)) by ring. eapply Rle_trans; [apply Rabs_triang|]. lra. }
    set (eta := / 2 ^ 1075) in *. clearbody eta. set (u := u64) in *. clearbody u.
    assert (H4 : INR m * Rabs (a - L / INR m) <= u * Rabs l + u + Rabs (l - L)).
    { apply Rle_trans with (INR m * (u * (Rabs l / INR m) + eta + Rabs (l - L) / INR m)); [apply Rmult_le_compat_l; lra|].
      replace (INR m * (u * (Rabs l / INR m) + eta + Rabs (l - L) / INR m)) with (u * Rabs l + INR m * eta + Rabs (l - L)) by (field; lra). lra. }
    pose proof (Rabs_pos Lr). pose proof (Rabs_pos L).
    assert (Hu1 : 0 < u <= / 1000) by (destruct Hu as [Hua Hub]; split; [done|by eapply Rle_trans]). clear - H2 H3 H4 HlA Hu1 Hd0 Hd H H0.
    set (xl := Rabs l) in *. set (xL := Rabs L) in *. set (xr := Rabs Lr) in *. set (xd := Rabs (l - L)) in *. clearbody xl xL xr xd.
    assert (H5 : delta * xr <= delta * xL + u).
    { apply Rle_trans with (delta * (xL + 2 * u)); [apply Rmult_le_compat_l; lra|]. assert (delta * u <= / 2 * u) by (apply Rmult_le_compat_r; lra). lra. }
    assert (H6 : u * xl <= 2 * u * xL + u).
    { assert (Hdr : delta * xr <= / 2 * xr) by (apply Rmult_le_compat_r; lra).
      apply Rle_trans with (u * (2 * xL + 4 * u)); [apply Rmult_le_compat_l; lra|]. assert (u * u <= / 1000 * u) by (apply Rmult_le_compat_r; lra). lra. }
    lra. }
  assert (Hdiv : Rabs (a - L / INR m) <= ((delta + 2 * u64) * Rabs L + 5 * u64) / INR m).
  { apply (Rmult_le_reg_l (INR m)); [lra|]. replace (INR m * (((delta + 2 * u64) * Rabs L + 5 * u64) / INR m)) with ((delta + 2 * u64) * Rabs L + 5 * u64) by (field; lra). done. }
  assert (Ha7 : Rabs a <= 700).
  { assert (Rabs (a - L / INR m) <= 1) by (pose proof (Rabs_pos (a - L / INR m)); nra).
    assert (Rabs (L / INR m) <= 600).
    { unfold Rdiv. rewrite Rabs_mult, (Rabs_right (/ INR m)) by (apply Rle_ge; left; apply Rinv_0_lt_compat; lra).
      assert (/ INR m <= 1) by (rewrite <- Rinv_1; apply Rinv_le_contravar; lra). assert (0 < / INR m) by (apply Rinv_0_lt_compat; lra). pose proof (Rabs_pos L). nra. }
    replace a with ((a - L / INR m) + L / INR m) by ring. eapply Rle_trans; [apply Rabs_triang|]. lra. }
  eapply near_trans; [apply (near_rel delta); [apply exp_pos|done|by apply Hexp]|]. by apply near_exp.
Qed.

Section ramps.
  Context (exp64 ln64 : R -> R) (sr : nat) (q : Z) (i0 : nat) (s : timestamp) (ns : list nat) (j m : nat).
  Context (Hq : (Z.of_nat sr * q = 2 ^ 32)%Z) (Hq0 : (0 < q)%Z) (Hns : Forall (fun n => (Z.of_nat n * q <= 2 ^ 53)%Z) ns).
  Let time : timestamp := (Z.of_nat i0 * q)%Z.
  Let N := b64_num exp64 ln64.
  Context (Hpre : forall i, (i < j)%nat -> (time + Z.of_nat i * q < s)%Z) (Hj : (s <= time + Z.of_nat j * q)%Z).
  Context (Hm : (0 < Z.of_nat m <= 2 ^ 50)%Z) (Hend : (Z.of_nat (i0 + j + m) * q < 2 ^ 53)%Z).

  Lemma duration_exact : rnd64 (samples64 (time + Z.of_nat (j + m) * q)%Z sr - samples64 (time + Z.of_nat j * q)%Z sr) = INR m.
  Proof.
    unfold time. replace (Z.of_nat i0 * q + Z.of_nat (j + m) * q)%Z with (Z.of_nat (i0 + j + m) * q)%Z by lia.
    replace (Z.of_nat i0 * q + Z.of_nat j * q)%Z with (Z.of_nat (i0 + j) * q)%Z by lia.
    rewrite !(samples_exact sr q) by (done || nia). rewrite (plus_INR (i0 + j)). replace (INR (i0 + j) + INR m - INR (i0 + j)) with (INR m) by ring.
    rewrite INR_IZR_INZ. apply rnd_Z. lia.
  Qed.

  Lemma linear_rounded v0 target (p : param R) :
    pa_changes p = [Change target (time + Z.of_nat (j + m) * q)%Z (Linear s)] -> at_rest N p -> pa_value p = v0 ->
    close64 (rnd64 (rnd64 (target - v0) / INR m)) 0 = false ->
    exists p' out, run_param N sr p (blocks (consecutive q time ns)) = Ok (p', out) /\ length out = sum_list ns /\
      forall k x, out !! k = Some x ->
        ((k < j)%nat -> x = v0) /\ ((j + m <= k)%nat -> x = target) /\
        ((j <= k < j + m)%nat -> Rabs (x - (v0 + INR (k - j + 1) / INR m * (target - v0))) <= / 2 ^ 51 * INR (k - j + 4) * Rmax (Rabs v0) (Rabs target)).
  Proof.
    intros Hc Hr Hv Hcl. assert (Hm1 : 1 <= INR m) by (change 1 with (INR 1); apply le_INR; lia).
    pose proof (close_0 _ (rnd_idem _) Hcl) as Hbig. destruct (increment_error _ _ Hm1 Hbig) as [HD Hinc].
    assert (Hv0 : rnd64 v0 = v0).
    { destruct Hr as (_ & _ & _ & Hst). rewrite Hv in Hst. unfold steady in Hst. cbn in Hst. rewrite <- Hst at 1. rewrite rnd_idem. exact Hst. }
    destruct (ramp_even N sr q time ns j (Change target (time + Z.of_nat (j + m) * q)%Z (Linear s)) s v0 p) as (p' & out & E & L & R1 & R2); [done..| |].
    { intros q' (_ & _ & Hco & Hi) Hst. cbn [c_value c_end N b64_num n_div n_sub n_samples] in Hi. rewrite duration_exact in Hi.
      unfold is_static in Hst. apply andb_true_iff in Hst as [Hst _]. apply andb_true_iff in Hst as [_ Hst]. cbn [N b64_num n_close n_zero] in Hst. rewrite Hi in Hst. congruence. }
    exists p', out. split; [done|]. split; [done|]. intros k x Hx. pose proof (lookup_lt_Some _ _ _ Hx) as Hk. rewrite L in Hk.
    split; [intros H; by eapply R2|]. destruct (decide (j <= k)%nat) as [Hjk|]; [|split; intros; lia].
    destruct R1 as (q' & (_ & _ & Hco & Hi) & R1); [lia|]. specialize (R1 k x Hjk Hx). cbn [c_end c_value] in R1.
    split; [intros H; rewrite R1; destruct (Z.leb_spec (time + Z.of_nat (j + m) * q) (time + Z.of_nat k * q)); [done|nia]|].
    intros H. destruct (Z.leb_spec (time + Z.of_nat (j + m) * q) (time + Z.of_nat k * q)) as [?|_]; [nia|].
    cbn [c_value c_end N b64_num n_div n_sub n_samples n_one] in Hi, Hco. rewrite duration_exact in Hi.
    set (inc := rnd64 (rnd64 (target - v0) / INR m)) in *. set (M := Rmax (Rabs v0) (Rabs target)).
    assert (HDM : Rabs (target - v0) <= 2 * M).
    { unfold M. pose proof (Rmax_l (Rabs v0) (Rabs target)). pose proof (Rmax_r (Rabs v0) (Rabs target)).
      eapply Rle_trans; [apply Rabs_triang|]. rewrite Rabs_Ropp. lra. }
    set (n := (k - j + 1)%nat) in *.
    destruct (linear_drift inc ((target - v0) / INR m) (3 * u64 * (Rabs (target - v0) / INR m)) M v0 n Hv0 Hinc) as [_ B].
    - assert (/ 2 ^ 1075 <= u64 * / 2 ^ 57) by (rewrite inv_pow_mult; apply inv_pow_le; lia). eapply Rle_trans; [eassumption|].
      apply Rmult_le_compat_l; [pose proof u64_small; lra|]. assert (/ 2 ^ 57 = / 2 * / 2 ^ 56) as -> by (rewrite <- Rinv_mult; by rewrite <- tech_pow_Rmult). lra.
    - intros i Hi'. replace (INR i * ((target - v0) / INR m)) with (INR i / INR m * (target - v0)) by (field; lra).
      assert (Hw : 0 <= INR i / INR m <= 1).
      { split; [apply Rmult_le_pos; [apply pos_INR|left; apply Rinv_0_lt_compat; lra]|]. apply (Rmult_le_reg_r (INR m)); [lra|].
        unfold Rdiv. rewrite Rmult_assoc, Rinv_l, Rmult_1_r, Rmult_1_l by lra. apply le_INR. unfold n in Hi'. lia. }
      pose proof (between_convex v0 target _ Hw) as [B1 B2]. unfold M. clear -B1 B2. set (z := v0 + _) in *. clearbody z. unfold Rmin, Rmax in *.
      destruct (Rle_dec v0 target), (Rle_dec (Rabs v0) (Rabs target)); unfold Rabs in *; repeat destruct (Rcase_abs _); lra.
    - cbv zeta in B. assert (Ex : x = iter n (fun x => rnd64 (rnd64 (x * 1) + inc)) v0).
      { rewrite R1. apply iter_ext. intros y. unfold ramp_step. cbn [N b64_num n_add n_mul]. by rewrite Hco, Hi. }
      rewrite <- Ex in B. replace (INR n / INR m * (target - v0)) with (INR n * ((target - v0) / INR m)) by (field; lra).
      eapply Rle_trans; [exact B|]. pose proof (growth n ltac:(unfold n; lia)) as G. pose proof u64_small as Hu.
      assert (E4 : / 2 ^ 51 = 4 * u64) by (field; apply Rgt_not_eq, pow2_pos). rewrite E4. replace (k - j + 4)%nat with (n + 3)%nat by (unfold n; lia). rewrite plus_INR.
      set (u := u64) in *. clearbody u. clear E4. set (g := Rabs (target - v0) / INR m).
      assert (Hg : INR n * g <= 2 * M).
      { apply Rle_trans with (INR m * g); [|unfold g; replace (INR m * (Rabs (target - v0) / INR m)) with (Rabs (target - v0)) by (field; lra); done].
        apply Rmult_le_compat_r; [|apply le_INR; unfold n; lia]. apply Rmult_le_pos; [apply Rabs_pos|left; apply Rinv_0_lt_compat; lra]. }
      assert (HM : 0 <= M) by (pose proof (Rabs_pos (target - v0)); lra). pose proof (pos_INR n) as Hn.
      assert (HnM : 0 <= INR n * M) by (by apply Rmult_le_pos).
      apply Rle_trans with ((INR n * (3 * u * g + 2 * u * M)) * 2).
      + apply Rmult_le_compat_l; [|done]. apply Rmult_le_pos; [done|]. assert (0 <= g) by (apply Rmult_le_pos; [apply Rabs_pos|left; apply Rinv_0_lt_compat; lra]).
        assert (0 <= u * g) by (apply Rmult_le_pos; lra). assert (0 <= u * M) by (apply Rmult_le_pos; lra). lra.
      + replace (INR n * (3 * u * g + 2 * u * M) * 2) with (u * (6 * (INR n * g) + 4 * (INR n * M))) by ring.
        replace (4 * u * (INR n + INR 3) * M) with (u * (4 * (INR n * M) + 12 * M)) by (cbn [INR]; ring). apply Rmult_le_compat_l; lra.
  Qed.

  Lemma exponential_rounded delta v0 target (p : param R) : accurate delta exp64 ln64 ->
    / 2 ^ 300 <= v0 <= 2 ^ 300 -> / 2 ^ 300 <= target <= 2 ^ 300 -> ramp_error delta (target / v0) m <= 1 ->
    pa_changes p = [Change target (time + Z.of_nat (j + m) * q)%Z (Exponential s)] -> at_rest N p -> pa_value p = v0 ->
    close64 (exp64 (rnd64 (ln64 (rnd64 (target / v0)) / INR m))) 1 = false ->
    exists p' out, run_param N sr p (blocks (consecutive q time ns)) = Ok (p', out) /\ length out = sum_list ns /\
      forall k x, out !! k = Some x ->
        ((k < j)%nat -> x = v0) /\ ((j + m <= k)%nat -> x = target) /\
        ((j <= k < j + m)%nat -> near (ramp_error delta (target / v0) (k - j + 1)) x (v0 * Rpower (target / v0) (INR (k - j + 1) / INR m))).
  Proof.
    intros Hacc Hv1 Ht1 Herr Hc Hr Hv Hcl. assert (Hm1 : 1 <= INR m) by (change 1 with (INR 1); apply le_INR; lia).
    pose proof (inv_pow_pos 300) as P0. pose proof u64_small as Hu. unfold ramp_error in Herr. rewrite Rplus_assoc in Herr. pose proof (Rabs_pos (ln (target / v0))) as HL0.
    assert (Hd0 : 0 <= delta) by (by destruct Hacc). set (A := (delta + 2 * u64) * Rabs (ln (target / v0)) + 5 * u64) in *.
    assert (HA0 : 0 <= A) by (unfold A; assert (0 <= (delta + 2 * u64) * Rabs (ln (target / v0))) by (apply Rmult_le_pos; lra); lra).
    assert (HmA : 2 * (delta + u64) <= 2 * INR m * (delta + u64)) by nra.
    assert (Hcoef := coefficient_error delta exp64 ln64 v0 target m Hacc ltac:(unfold A in *; lra) Hv1 Ht1 Hm ltac:(fold A; unfold A in *; lra)). fold A in Hcoef.
    assert (Hv0 : rnd64 v0 = v0).
    { destruct Hr as (_ & _ & _ & Hst). rewrite Hv in Hst. unfold steady in Hst. cbn in Hst. rewrite <- Hst at 1. rewrite rnd_idem. exact Hst. }
    destruct (ramp_even N sr q time ns j (Change target (time + Z.of_nat (j + m) * q)%Z (Exponential s)) s v0 p) as (p' & out & E & L & R1 & R2); [done..| | |].
    { intros s' _. cbn. destruct (Req_EM_T target 0); [lra|]. destruct (Req_EM_T v0 0); [lra|]. done. }
    { intros q' (_ & _ & Hi & Hco) Hst. cbn [c_value c_end N b64_num n_div n_sub n_samples n_exp n_ln] in Hco. rewrite duration_exact in Hco.
      unfold is_static in Hst. apply andb_true_iff in Hst as [Hst _]. apply andb_true_iff in Hst as [Hst _]. cbn [N b64_num n_close n_one] in Hst. rewrite Hco in Hst. congruence. }
    exists p', out. split; [done|]. split; [done|]. intros k x Hx. pose proof (lookup_lt_Some _ _ _ Hx) as Hk. rewrite L in Hk.
    split; [intros H; by eapply R2|]. destruct (decide (j <= k)%nat) as [Hjk|]; [|split; intros; lia].
    destruct R1 as (q' & (_ & _ & Hi & Hco) & R1); [lia|]. specialize (R1 k x Hjk Hx). cbn [c_end c_value] in R1.
    split; [intros H; rewrite R1; destruct (Z.leb_spec (time + Z.of_nat (j + m) * q) (time + Z.of_nat k * q)); [done|nia]|].
    intros H. destruct (Z.leb_spec (time + Z.of_nat (j + m) * q) (time + Z.of_nat k * q)) as [?|_]; [nia|].
    cbn [c_value c_end N b64_num n_div n_sub n_samples n_exp n_ln n_zero] in Hi, Hco. rewrite duration_exact in Hco.
    set (c' := exp64 _) in *. set (n := (k - j + 1)%nat) in *. set (c := exp (ln (target / v0) / INR m)) in *.
    assert (Hpow : forall i, v0 * c ^ i = v0 * Rpower (target / v0) (INR i / INR m)).
    { intros i. unfold c. rewrite exp_pow. unfold Rpower. do 2 f_equal. field. lra. }
    assert (Hnm : INR n <= INR m) by (apply le_INR; unfold n; lia). pose proof (pos_INR n) as Hn0.
    assert (Hle : INR n * (2 * delta + A / INR m + 2 * u64) <= ramp_error delta (target / v0) n).
    { unfold ramp_error. rewrite (Rplus_assoc (2 * INR n * (delta + u64))). fold A. assert (INR n * (A / INR m) <= A); [|lra].
      apply Rle_trans with (INR m * (A / INR m)); [|right; field; lra]. apply Rmult_le_compat_r; [|done]. apply Rmult_le_pos; [done|]. left. apply Rinv_0_lt_compat. lra. }
    assert (Hle1 : ramp_error delta (target / v0) n <= 1).
    { unfold ramp_error. rewrite Rplus_assoc. fold A. assert (2 * INR n * (delta + u64) <= 2 * INR m * (delta + u64)) by (apply Rmult_le_compat_r; lra). lra. }
    destruct (exponential_drift c' c (2 * delta + A / INR m) v0 n) as [_ B]; [lra|apply exp_pos|done|done| | |].
    - assert (0 <= A / INR m) by (apply Rmult_le_pos; [done|left; apply Rinv_0_lt_compat; lra]). lra.
    - intros i Hi'. rewrite Hpow.
      assert (Hw : 0 <= INR i / INR m <= 1).
      { split; [apply Rmult_le_pos; [apply pos_INR|left; apply Rinv_0_lt_compat; lra]|]. apply (Rmult_le_reg_r (INR m)); [lra|].
        unfold Rdiv. rewrite Rmult_assoc, Rinv_l, Rmult_1_r, Rmult_1_l by lra. apply le_INR. unfold n in Hi'. lia. }
      destruct (between_power v0 target _ ltac:(lra) ltac:(lra) Hw) as [B1 _].
      assert (B2 : / 2 ^ 300 <= Rmin v0 target) by (apply Rmin_glb; lra). set (z := v0 * _) in *.
      assert (B3 : / 3 <= exp (- (INR n * (2 * delta + A / INR m + 2 * u64)))).
      { apply Rle_trans with (exp (Ropp 1)); [|apply exp_le; lra]. rewrite exp_Ropp. apply Rinv_le_contravar; [apply exp_pos|apply exp_le_3]. }
      apply Rle_trans with (/ 2 ^ 300 * / 3); [|apply Rmult_le_compat; lra].
      apply Rle_trans with (/ 2 ^ 300 * / 2 ^ 2); [rewrite inv_pow_mult; apply inv_pow_le; lia|]. apply Rmult_le_compat_l; [lra|]. cbn [pow]. lra.
    - cbv zeta in B. assert (Ex : x = iter n (fun x => rnd64 (rnd64 (x * c') + 0)) v0).
      { rewrite R1. apply iter_ext. intros y. unfold ramp_step. cbn [N b64_num n_add n_mul]. by rewrite Hco, Hi. }
      rewrite <- Ex in B. rewrite <- Hpow. eapply near_mono; [|exact Hle|exact B].
      apply Rmult_le_pos; [lra|]. apply pow_le. left. apply exp_pos.
  Qed.
End ramps.
