(** Ramps over the real numbers. *)
From stdpp Require Import list list_numbers.
From Coq Require Import ZArith Lia ZifyBool ZifyNat Reals Lra.
From Verif Require Import Base Float FloatProofs Timestamp TimestampProofs AudioParam AudioParamSpec AudioParamProofs AudioParamR.
Local Open Scope R_scope.

Lemma epsR_pos : 0 < epsR.
Proof. unfold epsR. apply Rinv_0_lt_compat. apply pow_lt. lra. Qed.
Lemma epsR_lt_1 : epsR < 1.
Proof.
  unfold epsR. apply (Rmult_lt_reg_l (2 ^ 52)); [apply pow_lt; lra|].
  rewrite Rinv_r by (apply pow_nonzero; lra). rewrite Rmult_1_r. apply Rlt_pow_R1; [lra|lia].
Qed.

Lemma closeR_0 a : closeR a 0 = true -> Rabs a <= epsR.
Proof.
  unfold closeR. rewrite Rminus_0_r. destruct (Rle_dec (Rabs a) epsR) as [|Hn]; [done|].
  destruct (Rle_dec _ _) as [Hr|]; [|done]. intros _. exfalso. apply Hn.
  rewrite Rabs_R0, Rmax_left in Hr by apply Rabs_pos. pose proof epsR_pos. pose proof epsR_lt_1. pose proof (Rabs_pos a).
  destruct (Req_dec (Rabs a) 0) as [E|E]; [lra|].
  assert (Rabs a * epsR < Rabs a * 1) by (apply Rmult_lt_compat_l; lra). lra.
Qed.

Lemma R_steady v : steady R_num v.
Proof. unfold steady. cbn. ring. Qed.

Arguments not_slow {V} N sr c v0 t%Z_scope.
Arguments ramp_started {V} N sr t%Z_scope v c p.

Lemma samplesR_diff t e sr : samplesR e sr - samplesR t sr = lengthR t e sr.
Proof. unfold samplesR, lengthR. rewrite minus_IZR. field. Qed.

Lemma lengthR_pos t e sr : (t < e)%Z -> (0 < sr)%nat -> 0 < lengthR t e sr.
Proof.
  intros Ht Hs. unfold lengthR. apply Rmult_lt_0_compat; [apply Rmult_lt_0_compat|].
  - apply IZR_lt. lia.
  - by apply lt_0_INR.
  - apply Rinv_0_lt_compat, pow_lt. lra.
Qed.

(** ** Linear *)
Lemma iter_linear inc n v : iter n (fun x => x * 1 + inc) v = v + INR n * inc.
Proof.
  revert v. induction n as [|n IH]; intros v; cbn [iter]; [cbn; ring|]. rewrite IH, S_INR. ring.
Qed.

Lemma iter_ext {V} (f g : V -> V) n v : (forall x, f x = g x) -> iter n f v = iter n g v.
Proof. intros H. revert v. induction n as [|n IH]; intros v; cbn [iter]; [done|]. by rewrite H. Qed.

Lemma linear_iter sr t v target e s q n :
  ramp_started R_num sr t v (Change target e (Linear s)) q ->
  iter n (ramp_step R_num q) v = v + INR n * ((target - v) / lengthR t e sr).
Proof.
  intros (_ & _ & Hco & Hi). cbn in Hco, Hi. rewrite samplesR_diff in Hi.
  rewrite (iter_ext _ (fun x => x * 1 + (target - v) / lengthR t e sr)); [apply iter_linear|].
  intros x. unfold ramp_step. rewrite Hco, Hi. done.
Qed.

Lemma linear_not_slow sr t v target e s :
  target = v \/ epsR < Rabs ((target - v) / lengthR t e sr) ->
  not_slow R_num sr (Change target e (Linear s)) v t.
Proof.
  intros Hr q (_ & _ & Hco & Hi) Hst. cbn in Hco, Hi. rewrite samplesR_diff in Hi.
  unfold is_static in Hst. apply andb_true_iff in Hst as [Hst _]. apply andb_true_iff in Hst as [_ Hst].
  cbn [R_num n_close n_zero] in Hst. apply closeR_0 in Hst. rewrite Hi in Hst.
  destruct Hr as [->|Hr]; [|lra]. cbn. rewrite Hi. split; [unfold Rdiv; ring|]. split; [done|].
  split; [done|]. apply R_steady.
Qed.

(** ** Exponential *)
Lemma iter_exponential a n v : iter n (fun x => x * a + 0) v = v * a ^ n.
Proof.
  revert v. induction n as [|n IH]; intros v; cbn [iter]; [cbn; ring|]. rewrite IH. cbn. ring.
Qed.

Lemma exp_pow x n : exp x ^ n = exp (INR n * x).
Proof.
  induction n as [|n IH]; [cbn; by rewrite Rmult_0_l, exp_0|]. rewrite S_INR. cbn [pow]. rewrite IH, <- exp_plus.
  f_equal. ring.
Qed.

Lemma exponential_iter sr t v target e s q n :
  ramp_started R_num sr t v (Change target e (Exponential s)) q ->
  iter n (ramp_step R_num q) v = v * Rpower (target / v) (INR n / lengthR t e sr).
Proof.
  intros (_ & _ & Hi & Hco). cbn in Hco, Hi. rewrite samplesR_diff in Hco.
  rewrite (iter_ext _ (fun x => x * exp (ln (target / v) / lengthR t e sr) + 0)).
  - rewrite iter_exponential, exp_pow. unfold Rpower. do 2 f_equal. unfold Rdiv. ring.
  - intros x. unfold ramp_step. rewrite Hco, Hi. done.
Qed.

Lemma exponential_not_slow sr t v target e s : v <> 0 ->
  target = v \/ closeR (exp (ln (target / v) / lengthR t e sr)) 1 = false ->
  not_slow R_num sr (Change target e (Exponential s)) v t.
Proof.
  intros Hv Hr q (_ & _ & Hi & Hco) Hst. cbn in Hco, Hi. rewrite samplesR_diff in Hco.
  unfold is_static in Hst. apply andb_true_iff in Hst as [Hst _]. apply andb_true_iff in Hst as [Hst _].
  cbn [R_num n_close n_one] in Hst. rewrite Hco in Hst. destruct Hr as [->|Hr]; [|congruence].
  cbn. rewrite Hco, Hi. split; [done|]. split; [|split; [done|apply R_steady]].
  unfold Rdiv at 2. rewrite Rinv_r, ln_1 by done. unfold Rdiv. by rewrite Rmult_0_l, exp_0.
Qed.

(** ** Blocks that follow one another at a sample rate dividing 2^32 *)
Lemma frame_times_exact sr q time n : (Z.of_nat sr * q = 2 ^ 32)%Z -> (0 < q)%Z -> (Z.of_nat n * q <= 2 ^ 53)%Z ->
  frame_times time n sr = (fun k => (time + Z.of_nat k * q)%Z) <$> seq 0 n.
Proof.
  intros Hq Hq0 Hn. apply list_eq. intros k. rewrite list_lookup_fmap.
  destruct (decide (k < n)%nat) as [Hk|Hk].
  - assert (seq 0 n !! k = Some k) as -> by (by apply lookup_seq). cbn.
    apply frame_times_lookup. split; [done|]. unfold incremented_by_samples. f_equal. symmetry.
    apply (frame_time_exact (Z.of_nat k) (Z.of_nat sr) q); nia.
  - assert (seq 0 n !! k = None) as -> by (apply lookup_ge_None; rewrite seq_length; lia). cbn.
    apply lookup_ge_None. rewrite frame_times_length. lia.
Qed.

Lemma consecutive_times sr q time ns : (Z.of_nat sr * q = 2 ^ 32)%Z -> (0 < q)%Z ->
  Forall (fun n => (Z.of_nat n * q <= 2 ^ 53)%Z) ns ->
  blocks_times sr (consecutive q time ns) = (fun k => (time + Z.of_nat k * q)%Z) <$> seq 0 (sum_list ns).
Proof.
  intros Hq Hq0 Hns. revert time. induction Hns as [|n ns Hn Hns IH]; intros time; [done|].
  cbn [consecutive]. change (blocks_times sr ((time, n) :: ?l)) with (frame_times time n sr ++ blocks_times sr l).
  rewrite IH, (frame_times_exact sr q) by done. change (sum_list (n :: ns)) with (n + sum_list ns)%nat. rewrite seq_app, fmap_app. f_equal. symmetry.
  apply seq_shift_fmap. intros k _. cbv beta. lia.
Qed.

Definition even_times (q : Z) (time : timestamp) (n : nat) : list timestamp :=
  (fun k => (time + Z.of_nat k * q)%Z) <$> seq 0 n.

Arguments even_times (_ _)%Z_scope _%nat_scope.

Lemma even_times_nondecreasing q time n : (0 < q)%Z -> nondecreasing (even_times q time n).
Proof.
  intros Hq i j t u Hij Ht Hu. unfold even_times in Ht, Hu. rewrite list_lookup_fmap in Ht, Hu.
  apply fmap_Some in Ht as (i' & [-> Hi]%lookup_seq & ->). apply fmap_Some in Hu as (j' & [-> Hj]%lookup_seq & ->).
  cbn. nia.
Qed.

Lemma nondecreasing_drop ts1 ts2 : nondecreasing (ts1 ++ ts2) -> nondecreasing ts2.
Proof. apply nondecreasing_app. Qed.

Lemma even_times_split q time n j : (j < n)%nat ->
  even_times q time n = even_times q time j ++ (time + Z.of_nat j * q)%Z :: even_times q (time + Z.of_nat (S j) * q) (n - S j).
Proof.
  intros Hj. unfold even_times. replace n with (j + (1 + (n - S j)))%nat at 1 by lia.
  rewrite !seq_app, !fmap_app. f_equal. cbn [plus seq fmap list_fmap app]. f_equal.
  apply seq_shift_fmap. intros k _. cbv beta. lia.
Qed.

Lemma even_times_lookup q time n k : (k < n)%nat -> even_times q time n !! k = Some (time + Z.of_nat k * q)%Z.
Proof.
  intros Hk. unfold even_times. rewrite list_lookup_fmap.
  assert (seq 0 n !! k = Some k) as -> by (by apply lookup_seq). done.
Qed.

Lemma even_times_length q time n : length (even_times q time n) = n.
Proof. unfold even_times. by rewrite fmap_length, seq_length. Qed.

(** a ramp over consecutive blocks: frame [j] is its first *)
Lemma ramp_even {V} (N : num V) sr q time ns j c s v0 (p : param V) :
  (Z.of_nat sr * q = 2 ^ 32)%Z -> (0 < q)%Z -> Forall (fun n => (Z.of_nat n * q <= 2 ^ 53)%Z) ns ->
  pa_changes p = [c] -> ramp_start c = Some s -> at_rest N p -> pa_value p = v0 ->
  (forall i, (i < j)%nat -> (time + Z.of_nat i * q < s)%Z) -> (s <= time + Z.of_nat j * q)%Z ->
  (forall s', c_method c = Exponential s' -> n_is_zero N (c_value c) = false /\ n_is_zero N v0 = false) ->
  not_slow N sr c v0 (time + Z.of_nat j * q) ->
  exists p' out, run_param N sr p (blocks (consecutive q time ns)) = Ok (p', out) /\
    length out = sum_list ns /\
    ((j < sum_list ns)%nat -> exists q', ramp_started N sr (time + Z.of_nat j * q) v0 c q' /\
       forall k x, (j <= k)%nat -> out !! k = Some x ->
         x = if (c_end c <=? time + Z.of_nat k * q)%Z then c_value c else iter (k - j + 1) (ramp_step N q') v0) /\
    forall k x, (k < j)%nat -> out !! k = Some x -> x = v0.
Proof.
  intros Hq Hq0 Hns Hc Hs Hr Hv Hpre Hj Hz Hn.
  pose proof (consecutive_times sr q time ns Hq Hq0 Hns) as HT. fold (even_times q time (sum_list ns)) in HT.
  destruct (decide (j < sum_list ns)%nat) as [Hlt|Hge].
  - pose proof (even_times_split q time _ j Hlt) as Hsp.
    destruct (run_ramp N sr c s v0 Hs (consecutive q time ns) _ _ _ p Hc Hr Hv (eq_trans HT Hsp)) as (p' & q' & Hst & E).
    + apply Forall_lookup. intros i u Hu. pose proof (lookup_lt_Some _ _ _ Hu) as Hi. rewrite even_times_length in Hi.
      rewrite even_times_lookup in Hu by done. injection Hu as <-. by apply Hpre.
    + done.
    + pose proof (even_times_nondecreasing q time (sum_list ns) Hq0) as Hnd. rewrite Hsp in Hnd.
      exact (nondecreasing_drop _ _ Hnd).
    + done.
    + done.
    + eexists p', _. split; [exact E|]. rewrite even_times_length.
      split; [rewrite app_length, replicate_length, imap_length; cbn [length]; rewrite even_times_length; lia|].
      split.
      * intros _. exists q'. split; [done|]. intros k x Hk Hx.
        rewrite lookup_app_r, replicate_length in Hx by (rewrite replicate_length; done).
        rewrite list_lookup_imap in Hx. apply fmap_Some in Hx as (u & Hu & ->).
        assert (u = time + Z.of_nat k * q)%Z as ->.
        { destruct (k - j)%nat as [|d] eqn:Ed.
          - cbn in Hu. injection Hu as <-. do 2 f_equal. lia.
          - cbn in Hu. pose proof (lookup_lt_Some _ _ _ Hu) as Hi. rewrite even_times_length in Hi.
            rewrite even_times_lookup in Hu by done. injection Hu as <-.
            replace (Z.of_nat k) with (Z.of_nat (S j) + Z.of_nat d)%Z by lia. lia. }
        destruct (_ <=? _)%Z; [done|]. f_equal. lia.
      * intros k x Hk Hx. rewrite lookup_app_l in Hx by (rewrite replicate_length; done).
        by apply lookup_replicate in Hx as [-> _].
  - rewrite (run_blocks N sr (ramp_inv N sr c s v0) (ramp_inv_static N sr c s v0) (ramp_inv_step N sr c s v0 Hs)).
    + assert (Forall (fun u => (u < s)%Z) (even_times q time (sum_list ns))) as Hall.
      { apply Forall_lookup. intros i u Hu. pose proof (lookup_lt_Some _ _ _ Hu) as Hi. rewrite even_times_length in Hi.
        rewrite even_times_lookup in Hu by done. injection Hu as <-. apply Hpre. lia. }
      rewrite HT, (ramp_waits N sr _ p c s Hc Hs Hr Hall). cbn [rbind].
      eexists _, _. split; [reflexivity|]. rewrite even_times_length, replicate_length. split; [done|]. split; [lia|].
      intros k x Hk Hx. apply lookup_replicate in Hx as [-> _]. done.
    + left. do 3 (split; [done|]). rewrite HT. intros pre t post E _ Ht. exfalso.
      assert (even_times q time (sum_list ns) !! length pre = Some t) as El by (rewrite E; by apply list_lookup_middle).
      pose proof (lookup_lt_Some _ _ _ El) as Hi. rewrite even_times_length in Hi.
      rewrite even_times_lookup in El by done. injection El as <-. specialize (Hpre (length pre) ltac:(lia)). lia.
Qed.

Lemma lengthR_even sr q time j m : (Z.of_nat sr * q = 2 ^ 32)%Z ->
  lengthR (time + Z.of_nat j * q) (time + Z.of_nat (j + m) * q) sr = INR m.
Proof.
  intros Hq. unfold lengthR. replace (time + Z.of_nat (j + m) * q - (time + Z.of_nat j * q))%Z with (Z.of_nat m * q)%Z by lia.
  rewrite mult_IZR, <- INR_IZR_INZ.
  replace (INR m * IZR q * INR sr) with (INR m * (IZR (Z.of_nat sr) * IZR q)) by (rewrite <- INR_IZR_INZ; ring).
  rewrite <- mult_IZR, Hq. replace (IZR (2 ^ 32)) with (2 ^ 32) by (rewrite (pow_IZR 2 32); done).
  field.
Qed.

(** ** The two ramps, frame by frame *)
Lemma between_convex a b w : 0 <= w <= 1 -> between a b (a + w * (b - a)).
Proof.
  intros Hw. unfold between. destruct (Rle_dec a b) as [H|H].
  - rewrite Rmin_left, Rmax_right by lra. assert (0 <= w * (b - a)) by (apply Rmult_le_pos; lra).
    assert (w * (b - a) <= 1 * (b - a)) by (apply Rmult_le_compat_r; lra). lra.
  - rewrite Rmin_right, Rmax_left by lra. assert (0 <= w * (a - b)) by (apply Rmult_le_pos; lra).
    assert (w * (a - b) <= 1 * (a - b)) by (apply Rmult_le_compat_r; lra). lra.
Qed.

Lemma between_l a b : between a b a.
Proof. split; [apply Rmin_l|apply Rmax_l]. Qed.
Lemma between_r a b : between a b b.
Proof. split; [apply Rmin_r|apply Rmax_r]. Qed.

Lemma between_power a b w : 0 < a -> 0 < b -> 0 <= w <= 1 -> between a b (a * Rpower (b / a) w).
Proof.
  intros Ha Hb Hw.
  assert (a = exp (ln a)) as Ea by (by rewrite exp_ln).
  assert (a * Rpower (b / a) w = exp (ln a + w * (ln b - ln a))) as ->.
  { rewrite exp_plus, <- Ea. f_equal. unfold Rpower. f_equal. f_equal. unfold Rdiv. rewrite ln_mult, ln_Rinv; [ring|done|done|].
    by apply Rinv_0_lt_compat. }
  pose proof (between_convex (ln a) (ln b) w Hw) as [H1 H2].
  assert (Hexp : forall x y, x <= y -> exp x <= exp y).
  { intros x y [Hl| ->]; [left; by apply exp_increasing|right; done]. }
  unfold between. destruct (Rle_dec a b) as [H|H].
  - assert (ln a <= ln b) by (destruct H as [H|H]; [left; by apply ln_increasing|rewrite H; right; done]).
    rewrite Rmin_left in H1 by lra. rewrite Rmax_right in H2 by lra. rewrite Rmin_left, Rmax_right by lra.
    apply Hexp in H1, H2. rewrite exp_ln in H1, H2 by done. done.
  - assert (ln b <= ln a) by (left; apply ln_increasing; lra).
    rewrite Rmin_right in H1 by lra. rewrite Rmax_left in H2 by lra. rewrite Rmin_right, Rmax_left by lra.
    apply Hexp in H1, H2. rewrite exp_ln in H1, H2 by done. done.
Qed.

Lemma weight_range (k j m : nat) : (j <= k < j + m)%nat -> 0 <= INR (k - j + 1) / INR m <= 1.
Proof.
  intros H. assert (0 < INR m) by (apply lt_0_INR; lia).
  assert (INR (k - j + 1) <= INR m) by (apply le_INR; lia). pose proof (pos_INR (k - j + 1)).
  split; [apply Rmult_le_pos; [lra|left; by apply Rinv_0_lt_compat]|].
  apply (Rmult_le_reg_r (INR m)); [done|]. unfold Rdiv. rewrite Rmult_assoc, Rinv_l by lra. lra.
Qed.

Section ramps.
  Context (sr : nat) (q : Z) (time s : timestamp) (ns : list nat) (j : nat).
  Context (Hq : (Z.of_nat sr * q = 2 ^ 32)%Z) (Hq0 : (0 < q)%Z) (Hns : Forall (fun n => (Z.of_nat n * q <= 2 ^ 53)%Z) ns).
  Context (Hpre : forall i, (i < j)%nat -> (time + Z.of_nat i * q < s)%Z) (Hj : (s <= time + Z.of_nat j * q)%Z).

  Lemma linear_even m v0 target (p : param R) : (0 < m)%nat ->
    pa_changes p = [Change target (time + Z.of_nat (j + m) * q)%Z (Linear s)] -> at_rest R_num p -> pa_value p = v0 ->
    target = v0 \/ epsR < Rabs ((target - v0) / INR m) ->
    exists p' out, run_param R_num sr p (blocks (consecutive q time ns)) = Ok (p', out) /\
      length out = sum_list ns /\
      forall k x, out !! k = Some x ->
        x = (if (k <? j)%nat then v0
             else if (k <? j + m)%nat then v0 + INR (k - j + 1) / INR m * (target - v0)
             else target) /\ between v0 target x.
  Proof.
    intros Hm Hc Hr Hv Hsl.
    destruct (ramp_even R_num sr q time ns j _ s v0 p Hq Hq0 Hns Hc eq_refl Hr Hv Hpre Hj) as (p' & out & E & Hl & Hin & Hbe).
    { done. }
    { apply linear_not_slow. by rewrite lengthR_even. }
    exists p', out. split; [done|]. split; [done|]. intros k x Hx.
    destruct (Nat.ltb_spec k j) as [Hk|Hk].
    - apply (Hbe k x Hk) in Hx as ->. split; [done|apply between_l].
    - assert (j < sum_list ns)%nat as Hjn by (apply lookup_lt_Some in Hx; lia).
      destruct (Hin Hjn) as (q' & Hst & Hval). apply (Hval k x Hk) in Hx as ->. cbn [c_end c_value].
      destruct (Nat.ltb_spec k (j + m)) as [Hkm|Hkm].
      + rewrite (proj2 (Z.leb_gt _ _)) by nia. rewrite (linear_iter _ _ _ _ _ _ _ _ Hst), lengthR_even by done.
        replace (v0 + INR (k - j + 1) * ((target - v0) / INR m)) with (v0 + INR (k - j + 1) / INR m * (target - v0))
          by (unfold Rdiv; ring).
        split; [done|]. apply between_convex, weight_range. lia.
      + rewrite (proj2 (Z.leb_le _ _)) by nia. split; [done|apply between_r].
  Qed.

  Lemma exponential_even m v0 target (p : param R) : (0 < m)%nat -> 0 < v0 -> 0 < target ->
    pa_changes p = [Change target (time + Z.of_nat (j + m) * q)%Z (Exponential s)] -> at_rest R_num p -> pa_value p = v0 ->
    target = v0 \/ closeR (Rpower (target / v0) (/ INR m)) 1 = false ->
    exists p' out, run_param R_num sr p (blocks (consecutive q time ns)) = Ok (p', out) /\
      length out = sum_list ns /\
      forall k x, out !! k = Some x ->
        x = (if (k <? j)%nat then v0
             else if (k <? j + m)%nat then v0 * Rpower (target / v0) (INR (k - j + 1) / INR m)
             else target) /\ between v0 target x.
  Proof.
    intros Hm Hv0 Ht0 Hc Hr Hv Hsl.
    destruct (ramp_even R_num sr q time ns j _ s v0 p Hq Hq0 Hns Hc eq_refl Hr Hv Hpre Hj) as (p' & out & E & Hl & Hin & Hbe).
    { intros s' _. cbn. destruct (Req_EM_T target 0), (Req_EM_T v0 0); try lra; done. }
    { apply exponential_not_slow; [lra|]. rewrite lengthR_even by done.
      replace (exp (ln (target / v0) / INR m)) with (Rpower (target / v0) (/ INR m)); [done|].
      unfold Rpower. f_equal. unfold Rdiv. ring. }
    exists p', out. split; [done|]. split; [done|]. intros k x Hx.
    destruct (Nat.ltb_spec k j) as [Hk|Hk].
    - apply (Hbe k x Hk) in Hx as ->. split; [done|apply between_l].
    - assert (j < sum_list ns)%nat as Hjn by (apply lookup_lt_Some in Hx; lia).
      destruct (Hin Hjn) as (q' & Hst & Hval). apply (Hval k x Hk) in Hx as ->. cbn [c_end c_value].
      destruct (Nat.ltb_spec k (j + m)) as [Hkm|Hkm].
      + rewrite (proj2 (Z.leb_gt _ _)) by nia. rewrite (exponential_iter _ _ _ _ _ _ _ _ Hst), lengthR_even by done.
        split; [done|]. apply between_power; [done|done|]. apply weight_range. lia.
      + rewrite (proj2 (Z.leb_le _ _)) by nia. split; [done|apply between_r].
  Qed.

  (** ends anywhere *)
  Lemma linear_overshoot e v0 target (p : param R) : (time + Z.of_nat j * q < e)%Z ->
    pa_changes p = [Change target e (Linear s)] -> at_rest R_num p -> pa_value p = v0 ->
    let d := lengthR (time + Z.of_nat j * q) e sr in
    target = v0 \/ epsR < Rabs ((target - v0) / d) ->
    exists p' out, run_param R_num sr p (blocks (consecutive q time ns)) = Ok (p', out) /\
      length out = sum_list ns /\
      forall k x, out !! k = Some x ->
        (e <= time + Z.of_nat k * q -> x = target)%Z /\
        between v0 (target + (target - v0) / d) x.
  Proof.
    intros He Hc Hr Hv d Hsl. assert (0 < sr)%nat as Hs0 by lia.
    assert (0 < d) as Hd by (by apply lengthR_pos).
    destruct (ramp_even R_num sr q time ns j _ s v0 p Hq Hq0 Hns Hc eq_refl Hr Hv Hpre Hj) as (p' & out & E & Hl & Hin & Hbe).
    { done. }
    { by apply linear_not_slow. }
    exists p', out. split; [done|]. split; [done|]. intros k x Hx.
    assert (forall w, 0 <= w <= 1 + / d -> between v0 (target + (target - v0) / d) (v0 + w * (target - v0))) as Hb.
    { intros w Hw. assert (0 < 1 + / d) as Hp by (pose proof (Rinv_0_lt_compat d Hd); lra).
      replace (v0 + w * (target - v0)) with
        (v0 + (w / (1 + / d)) * ((target + (target - v0) / d) - v0)) by (field; lra).
      apply between_convex. split.
      - apply Rmult_le_pos; [lra|left; by apply Rinv_0_lt_compat].
      - apply (Rmult_le_reg_r (1 + / d)); [done|]. unfold Rdiv. rewrite Rmult_assoc, Rinv_l by lra. lra. }
    destruct (Nat.ltb_spec k j) as [Hk|Hk].
    - apply (Hbe k x Hk) in Hx as ->. split; [nia|apply between_l].
    - assert (j < sum_list ns)%nat as Hjn by (apply lookup_lt_Some in Hx; lia).
      destruct (Hin Hjn) as (q' & Hst & Hval). apply (Hval k x Hk) in Hx as ->. cbn [c_end c_value].
      destruct (Z.leb_spec e (time + Z.of_nat k * q)) as [Hle|Hlt].
      + split; [done|]. pose proof (Rinv_0_lt_compat d Hd). specialize (Hb 1 ltac:(lra)).
        by replace (v0 + 1 * (target - v0)) with target in Hb by ring.
      + split; [lia|]. rewrite (linear_iter _ _ _ _ _ _ _ _ Hst). fold d.
        replace (v0 + INR (k - j + 1) * ((target - v0) / d)) with (v0 + INR (k - j + 1) / d * (target - v0))
          by (field; lra).
        apply Hb. split.
        { apply Rmult_le_pos; [apply pos_INR|left; by apply Rinv_0_lt_compat]. }
        apply (Rmult_le_reg_r d); [done|]. unfold Rdiv. rewrite Rmult_assoc, Rinv_l, Rmult_1_r by lra.
        rewrite Rmult_plus_distr_r, Rinv_l by lra.
        rewrite plus_INR. cbn [INR]. apply Rplus_le_compat_r. rewrite Rmult_1_l.
        (* k - j <= d *)
        unfold d. unfold lengthR. apply (Rmult_le_reg_r (2 ^ 32)); [apply pow_lt; lra|].
        unfold Rdiv. rewrite Rmult_assoc, Rinv_l, Rmult_1_r by (apply pow_nonzero; lra).
        replace (2 ^ 32) with (IZR (2 ^ 32)) by (rewrite (pow_IZR 2 32); done).
        rewrite <- Hq. rewrite !INR_IZR_INZ, <- !mult_IZR. apply IZR_le.
        assert (0 < Z.of_nat sr)%Z by lia. assert (Z.of_nat (k - j) * q <= e - (time + Z.of_nat j * q))%Z by nia. nia.
  Qed.
End ramps.

(** ** One block at any sample rate *)
Lemma imap_lookup_Some {A B} (f : nat -> A -> B) l k y : imap f l !! k = Some y -> exists x, l !! k = Some x /\ y = f k x.
Proof. rewrite list_lookup_imap. intros (x & Hx & ->)%fmap_Some. by exists x. Qed.

Lemma ramp_block {V} (N : num V) sr time n j c s v0 (p : param V) :
  (Z.of_nat n <= 2 ^ 53)%Z -> (0 < Z.of_nat sr <= 2 ^ 53)%Z ->
  pa_changes p = [c] -> ramp_start c = Some s -> at_rest N p -> pa_value p = v0 ->
  let time_of k := incremented_by_samples time (Z.of_nat k) (Z.of_nat sr) in
  (j < n)%nat -> (forall i, (i < j)%nat -> (time_of i < s)%Z) -> (s <= time_of j)%Z ->
  (forall s', c_method c = Exponential s' -> n_is_zero N (c_value c) = false /\ n_is_zero N v0 = false) ->
  exists p' out q', process N time n sr p = Ok (p', out) /\ length out = n /\
    ramp_started N sr (time_of j) v0 c q' /\
    forall k x, out !! k = Some x ->
      x = if (k <? j)%nat then v0
          else if (c_end c <=? time_of k)%Z then c_value c else iter (k - j + 1) (ramp_step N q') v0.
Proof.
  intros Hn Hsr Hc Hs Hr Hv time_of Hj Hpre Hst Hz. unfold process.
  assert (is_static N p = false) as -> by (unfold is_static; rewrite Hc; apply andb_false_r).
  assert (exists pre post, frame_times time n sr = pre ++ time_of j :: post /\ length pre = j) as (pre & post & Eft & Hlp).
  { exists (take j (frame_times time n sr)), (drop (S j) (frame_times time n sr)). split.
    - symmetry. apply take_drop_middle. apply frame_times_lookup. done.
    - rewrite take_length, frame_times_length. lia. }
  rewrite Eft.
  destruct (frame_loop_ramp N sr c s v0 Hs pre (time_of j) post p Hc Hr Hv) as (p' & v' & q' & Hq & E); [|done| |done|].
  - apply Forall_lookup. intros i u Hu. pose proof (lookup_lt_Some _ _ _ Hu) as Hi.
    assert (frame_times time n sr !! i = Some u) as Hf by (rewrite Eft; by rewrite lookup_app_l).
    apply frame_times_lookup in Hf as [_ ->]. apply Hpre. rewrite <- Hlp. exact Hi.
  - pose proof (frame_times_nondecreasing sr time n Hn Hsr) as Hnd. rewrite Eft in Hnd. exact (nondecreasing_app _ _ Hnd).
  - rewrite E. cbn [rbind]. eexists _, _, q'. split; [reflexivity|].
    assert (length (frame_times time n sr) = n) as Hln by apply frame_times_length.
    rewrite Eft, app_length in Hln.
    split; [rewrite app_length, replicate_length, imap_length; done|]. split; [done|].
    intros k x Hx. destruct (Nat.ltb_spec k j) as [Hk|Hk].
    + rewrite lookup_app_l in Hx by (rewrite replicate_length; lia). by apply lookup_replicate in Hx as [-> _].
    + rewrite lookup_app_r, replicate_length, Hlp in Hx by (rewrite replicate_length; lia).
      apply imap_lookup_Some in Hx as (u & Hu & ->).
      assert (frame_times time n sr !! k = Some u) as Hf.
      { rewrite Eft, lookup_app_r by (unfold timestamp in *; lia). rewrite <- Hu. f_equal. unfold timestamp in *. lia. }
      apply frame_times_lookup in Hf as [_ ->]. fold (time_of k). destruct (_ <=? _)%Z; [done|]. f_equal. lia.
Qed.

Lemma frame_time_tick n sr : (0 <= n <= 2 ^ 53)%Z -> (0 < sr <= 2 ^ 53)%Z -> (n <= 2 ^ 20 * sr)%Z ->
  (Z.abs (sr * frame_time n sr - n * 2 ^ 32) <= sr)%Z.
Proof. intros Hn Hs Hb. pose proof (frame_time_error n sr Hn Hs). lia. Qed.

Lemma linear_block sr time n j s e v0 target (p : param R) :
  (Z.of_nat n <= 2 ^ 53)%Z -> (0 < Z.of_nat sr <= 2 ^ 53)%Z -> (Z.of_nat n <= 2 ^ 20 * Z.of_nat sr)%Z ->
  pa_changes p = [Change target e (Linear s)] -> at_rest R_num p -> pa_value p = v0 ->
  let time_of k := incremented_by_samples time (Z.of_nat k) (Z.of_nat sr) in
  (j < n)%nat -> (forall i, (i < j)%nat -> (time_of i < s)%Z) -> (s <= time_of j < e)%Z ->
  let d := lengthR (time_of j) e sr in
  exists p' out, process R_num time n sr p = Ok (p', out) /\ length out = n /\
    forall k x, out !! k = Some x ->
      x = (if (k <? j)%nat then v0
           else if (e <=? time_of k)%Z then target
           else v0 + INR (k - j + 1) / d * (target - v0)) /\
      between v0 (target + (1 + 2 * INR sr / 2 ^ 32) / d * (target - v0)) x.
Proof.
  intros Hn Hsr Hns Hc Hr Hv time_of Hj Hpre [Hst He] d.
  destruct (ramp_block R_num sr time n j _ s v0 p Hn Hsr Hc eq_refl Hr Hv Hj Hpre Hst) as (p' & out & q' & E & Hl & Hq & Hval);
    [done|].
  exists p', out. split; [done|]. split; [done|]. intros k x Hx. pose proof (lookup_lt_Some _ _ _ Hx) as Hk.
  apply Hval in Hx as ->. cbn [c_end c_value]. fold (time_of k).
  assert (0 < d) as Hd by (apply lengthR_pos; lia).
  set (w := 1 + 2 * INR sr / 2 ^ 32). assert (1 <= w) as Hw.
  { unfold w. assert (0 <= 2 * INR sr / 2 ^ 32); [|lra]. apply Rmult_le_pos; [pose proof (pos_INR sr); lra|].
    left. apply Rinv_0_lt_compat, pow_lt. lra. }
  assert (forall y, 0 <= y <= 1 + w / d -> between v0 (target + w / d * (target - v0)) (v0 + y * (target - v0))) as Hb.
  { intros y Hy. assert (0 < w / d) as Hp by (apply Rmult_lt_0_compat; [lra|by apply Rinv_0_lt_compat]).
    replace (v0 + y * (target - v0)) with
      (v0 + (y / (1 + w / d)) * ((target + w / d * (target - v0)) - v0)) by (field; lra).
    apply between_convex. split.
    - apply Rmult_le_pos; [lra|left; apply Rinv_0_lt_compat; lra].
    - apply (Rmult_le_reg_r (1 + w / d)); [lra|]. unfold Rdiv at 1. rewrite Rmult_assoc, Rinv_l by lra. lra. }
  assert (0 < w / d) as Hwd by (apply Rmult_lt_0_compat; [lra|by apply Rinv_0_lt_compat]).
  destruct (Nat.ltb_spec k j) as [Hkj|Hkj]; [split; [done|apply between_l]|].
  destruct (Z.leb_spec e (time_of k)) as [Hle|Hlt].
  - split; [done|]. specialize (Hb 1 ltac:(lra)). by replace (v0 + 1 * (target - v0)) with target in Hb by ring.
  - rewrite (linear_iter _ _ _ _ _ _ _ _ Hq). fold (time_of j); fold d.
    replace (v0 + INR (k - j + 1) * ((target - v0) / d)) with (v0 + INR (k - j + 1) / d * (target - v0)) by (field; lra).
    split; [done|]. apply Hb. split.
    { apply Rmult_le_pos; [apply pos_INR|left; by apply Rinv_0_lt_compat]. }
    apply (Rmult_le_reg_r d); [done|]. unfold Rdiv at 1. rewrite Rmult_assoc, Rinv_l, Rmult_1_r by lra.
    replace ((1 + w / d) * d) with (d + w) by (field; lra).
    rewrite plus_INR. unfold w. cbn [INR]. enough (INR (k - j) <= d + 2 * INR sr / 2 ^ 32) by lra.
    unfold d, lengthR. apply (Rmult_le_reg_r (2 ^ 32)); [apply pow_lt; lra|].
    rewrite Rmult_plus_distr_r. unfold Rdiv. rewrite !Rmult_assoc, Rinv_l, !Rmult_1_r by (apply pow_nonzero; lra).
    replace (2 ^ 32) with (IZR (2 ^ 32)) by (rewrite (pow_IZR 2 32); done).
    rewrite !INR_IZR_INZ. change 2 with (IZR 2). rewrite <- !mult_IZR, <- plus_IZR. apply IZR_le.
    pose proof (frame_time_tick (Z.of_nat k) (Z.of_nat sr) ltac:(lia) ltac:(lia) ltac:(lia)) as Hk1.
    pose proof (frame_time_tick (Z.of_nat j) (Z.of_nat sr) ltac:(lia) ltac:(lia) ltac:(lia)) as Hj1.
    unfold time_of, incremented_by_samples in Hlt |- *. unfold frame_time in Hk1, Hj1.
    set (a := from_samples (f64_of_Z (Z.of_nat k)) (Z.of_nat sr)) in *.
    set (b := from_samples (f64_of_Z (Z.of_nat j)) (Z.of_nat sr)) in *.
    assert (Z.of_nat sr * (a - b) <= Z.of_nat sr * (e - (time + b)))%Z by (apply Z.mul_le_mono_nonneg_l; lia).
    nia.
Qed.
