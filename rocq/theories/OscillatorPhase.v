(** The phase in binary64. *)
From stdpp Require Import list.
From Coq Require Import ZArith Lia Psatz.
From Coq Require Import ZifyBool ZifyNat.
From Verif Require Import Base Float FloatProofs TimestampProofs Arith Oscillator OscillatorSpec.
Local Open Scope Z_scope.

Lemma is_f64_repr x : is_f64 x ↔ repr 53 x.
Proof. done. Qed.

Transparent one64.
Lemma one64_pow : one64 = 2 ^ 1074.
Proof. unfold one64. by rewrite Z.shiftl_1_l. Qed.
Opaque one64.
Lemma pow2_split a b : 0 <= a → 0 <= b → 2 ^ (a + b) = 2 ^ a * 2 ^ b.
Proof. intros. by apply Z.pow_add_r. Qed.

(** subtracting a whole cycle is exact *)
Lemma sub_one_exact p : repr 53 p → one64 < p → p <= 2 ^ 53 * one64 → f64_sub p one64 = p - one64.
Proof.
  intros (m & e & He & -> & Hm) Hlt Hle. unfold f64_sub. apply rnd_exact1; [lia|].
  rewrite one64_pow in *. destruct (Z_le_gt_dec e 1074) as [H|H].
  - exists (m - 2 ^ (1074 - e)), e. split; [done|]. 
    assert (E : 2 ^ 1074 = 2 ^ (1074 - e) * 2 ^ e) by (rewrite <-pow2_split by lia; f_equal; lia).
    rewrite E in *. pose proof (pow_pos e He). pose proof (pow_pos (1074 - e) ltac:(lia)). split; [ring|].
    assert (2 ^ (1074 - e) < m) by nia. lia.
  - exists (m * 2 ^ (e - 1074) - 1), 1074. 
    assert (E : 2 ^ e = 2 ^ (e - 1074) * 2 ^ 1074) by (rewrite <-pow2_split by lia; f_equal; lia).
    rewrite E in *. pose proof (pow_pos 1074 ltac:(lia)) as HP. set (P := 2 ^ 1074) in *. clearbody P.
    split; [lia|]. split; [ring|]. assert (1 < m * 2 ^ (e - 1074)) by nia. assert (m * 2 ^ (e - 1074) <= 2 ^ 53) by nia. lia.
Qed.

Lemma sub_one_repr p : repr 53 p → one64 < p → p <= 2 ^ 53 * one64 → repr 53 (p - one64).
Proof. intros H1 H2 H3. rewrite <-sub_one_exact by done. apply rnd_repr; lia. Qed.

Lemma wrap_ok fuel : ∀ p, repr 53 p → 0 <= p → p <= (Z.of_nat fuel + 1) * one64 → Z.of_nat fuel + 1 <= 2 ^ 53 →
  ∃ q k, wrap_phase binary64 fuel p = Ok q ∧ repr 53 q ∧ 0 <= q <= one64 ∧ p = q + k * one64 ∧ 0 <= k ∧ (p = 0 ∨ 0 < q).
Proof.
  pose proof one64_pos as Ho.
  induction fuel as [|fuel IH]; intros p Hr Hp Hle Hf; cbn [wrap_phase binary64 a_ltb a_one a_sub].
  - destruct (Z.ltb_spec one64 p); [lia|]. exists p, 0. split; [done|]. split; [done|]. lia.
  - destruct (Z.ltb_spec one64 p).
    + assert (p <= 2 ^ 53 * one64) by nia. rewrite sub_one_exact by done. 
      destruct (IH (p - one64)) as (q & k & E & H1 & H2 & H3 & H4 & H5); [by apply sub_one_repr|lia|lia|lia|].
      exists q, (k + 1). split; [done|]. split; [done|]. lia.
    + exists p, 0. split; [done|]. split; [done|]. lia.
Qed.

Lemma of_Z_pos n : 0 < n <= 2 ^ 53 → f64_of_Z n = n * one64.
Proof. intros. apply f64_of_Z_exact. lia. Qed.

Lemma repr_whole n : 0 <= n <= 2 ^ 53 → repr 53 (n * one64).
Proof. intros. rewrite one64_pow. apply repr_pow; [lia|]. apply repr_small; lia. Qed.

Lemma cycle_div f rate : 0 < rate <= 2 ^ 53 → f64_div f (f64_of_Z rate) = rnd 53 f rate.
Proof.
  intros Hr. rewrite of_Z_pos by done. unfold f64_div. pose proof one64_pos.
  destruct (Z.ltb_spec (rate * one64) 0); [nia|]. apply rnd_scale; lia.
Qed.

Lemma increment_ok fuel limit rate p f : repr 53 p → 0 <= p <= one64 → 0 < rate <= 2 ^ 53 → 0 <= f <= limit * one64 →
  limit <= 2 ^ 52 → limit <= Z.of_nat fuel → Z.of_nat fuel < 2 ^ 53 →
  ∃ q k, increment_phase binary64 fuel p f rate = Ok q ∧ repr 53 q ∧ 0 <= q <= one64 ∧ f64_add p (rnd 53 f rate) = q + k * one64.
Proof.
  intros Hr Hp Hrate Hf Hl Hfu Hfu2. pose proof one64_pos as Ho. unfold increment_phase. cbn [binary64 a_add a_div a_of].
  rewrite cycle_div by done. assert (0 <= limit) by nia.
  assert (0 <= rnd 53 f rate). { apply rnd_ge_repr; [lia|lia|apply repr_0; lia|lia]. }
  assert (rnd 53 f rate <= limit * one64). { apply rnd_le_repr; [lia|lia|apply repr_whole; lia|nia]. }
  assert (0 <= f64_add p (rnd 53 f rate)). { unfold f64_add. apply rnd_ge_repr; [lia|lia|apply repr_0; lia|lia]. }
  assert (f64_add p (rnd 53 f rate) <= (limit + 1) * one64). { unfold f64_add. apply rnd_le_repr; [lia|lia|apply repr_whole; lia|nia]. }
  destruct (wrap_ok fuel (f64_add p (rnd 53 f rate))) as (q & k & E & W1 & W2 & W3 & _); [apply rnd_repr; lia|done|nia|lia|].
  exists q, k. done.
Qed.

(** ** The table index *)
Lemma below_one q : repr 53 q → q < one64 → q <= one64 - 2 ^ 1021.
Proof.
  intros (m & e & He & -> & Hm) Hlt. rewrite one64_pow in *.
  assert (E1 : 2 ^ 1074 = 2 ^ 53 * 2 ^ 1021) by (rewrite <-pow2_split by lia; done).
  destruct (Z_le_gt_dec 1021 e) as [H|H].
  - assert (E : 2 ^ e = 2 ^ (e - 1021) * 2 ^ 1021) by (rewrite <-pow2_split by lia; f_equal; lia).
    rewrite E, E1 in *. pose proof (pow_pos 1021 ltac:(lia)). set (P := 2 ^ 1021) in *. clearbody P.
    assert (m * 2 ^ (e - 1021) < 2 ^ 53) by nia. nia.
  - assert (2 ^ 53 * 2 ^ e <= 2 ^ 53 * 2 ^ 1020). { apply Z.mul_le_mono_nonneg_l; [lia|]. apply Z.pow_le_mono_r; lia. }
    assert (E2 : 2 ^ 1021 = 2 * 2 ^ 1020) by (rewrite <-Z.pow_succ_r by lia; done). rewrite E1, E2.
    pose proof (pow_pos 1020 ltac:(lia)). set (P := 2 ^ 1020) in *. clearbody P. pose proof (pow_pos e He). nia.
Qed.

Lemma mul_whole q n : 0 < n <= 2 ^ 53 → f64_mul q (f64_of_Z n) = rnd 53 (q * n) 1.
Proof.
  intros Hn. rewrite of_Z_pos by done. unfold f64_mul. pose proof one64_pos.
  rewrite Z.mul_assoc. rewrite <-(Z.mul_1_l one64) at 2. apply rnd_scale; lia.
Qed.

(** rounding never carries a phase below 1 to the end of the table *)
Lemma offset_below q n : repr 53 q → q < one64 → 0 < n <= 2 ^ 53 → rnd 53 (q * n) 1 < n * one64.
Proof.
  intros Hr Hlt Hn. pose proof (below_one q Hr Hlt) as Hq.
  set (q0 := one64 - 2 ^ 1021) in *.
  apply Z.le_lt_trans with (rnd 53 (q0 * n) 1). { apply rnd_mono; nia. }
  set (k := Z.log2 n). pose proof (Z.log2_spec n ltac:(lia)) as [Hk1 Hk2]. fold k in Hk1, Hk2.
  assert (Hk0 : 0 <= k) by apply Z.log2_nonneg. 
  assert (Hk53 : k <= 53). { unfold k. rewrite <-(Z.log2_pow2 53) by lia. apply Z.log2_le_mono. lia. }
  assert (E1 : one64 = 2 ^ 53 * 2 ^ 1021) by (rewrite one64_pow, <-pow2_split by lia; done).
  destruct (Z.eq_dec n (2 ^ k)) as [En|En].
  - rewrite rnd_exact1; [unfold q0; pose proof (pow_pos 1021 ltac:(lia)); nia|lia|].
    exists (2 ^ 53 - 1), (1021 + k). split; [lia|]. rewrite pow2_split by lia. split; [|lia]. unfold q0. rewrite E1, <-En. ring.
  - assert (Hk52 : k <= 52). { destruct (Z.eq_dec k 53) as [H|H]; [|lia]. rewrite H in *. lia. }
    replace (Z.succ k) with (1 + k) in Hk2 by lia. rewrite pow2_split in Hk2 by lia.
    set (x := (n * 2 ^ (52 - k) - 1) * 2 ^ (1022 + k)).
    assert (Ekk : 2 ^ 52 = 2 ^ (52 - k) * 2 ^ k) by (rewrite <-pow2_split by lia; f_equal; lia).
    pose proof (pow_pos (52 - k) ltac:(lia)) as Hp52. pose proof (pow_pos k Hk0) as Hpk.
    assert (Hx : repr 53 x). { exists (n * 2 ^ (52 - k) - 1), (1022 + k). split; [lia|]. split; [done|]. nia. }
    assert (Ex : x = n * one64 - 2 ^ k * (2 * 2 ^ 1021)).
    { unfold x. rewrite E1. rewrite pow2_split by lia. change (2 ^ 1022) with (2 ^ (1 + 1021)). rewrite pow2_split by lia.
      replace (2 ^ 53) with (2 * 2 ^ 52) by reflexivity. rewrite Ekk. ring. }
    destruct (rnd_nearest 53 (q0 * n) 1 x) as [_ Hnear]; [lia|lia|done|].
    destruct (Z_lt_le_dec (rnd 53 (q0 * n) 1) (n * one64)) as [|Hge]; [done|]. exfalso.
    rewrite Ex in Hnear. unfold q0 in *. pose proof (pow_pos 1021 ltac:(lia)). set (P := 2 ^ 1021) in *. clearbody P.
    rewrite E1 in *. clear E1 Ex Hx x q0. set (r := rnd 53 ((2 ^ 53 * P - P) * n) 1) in *. clearbody r. 
    rewrite !Z.mul_1_l in Hnear. nia.
Qed.

Lemma offset_floor q n : repr 53 q → 0 <= q < one64 → 0 < n <= 2 ^ 53 → 0 <= f64_floor (f64_mul q (f64_of_Z n)) < n.
Proof.
  intros Hr Hq Hn. rewrite mul_whole by done. unfold f64_floor. pose proof one64_pos.
  pose proof (offset_below q n Hr ltac:(lia) Hn). assert (0 <= rnd 53 (q * n) 1). { apply rnd_ge_repr; [lia|lia|apply repr_0; lia|nia]. }
  split; [apply Z.div_pos; lia|]. apply Z.div_lt_upper_bound; lia.
Qed.
Lemma offset_end n : 0 < n <= 2 ^ 53 → f64_floor (f64_mul one64 (f64_of_Z n)) = n.
Proof.
  intros Hn. rewrite mul_whole by done. unfold f64_floor. pose proof one64_pos. rewrite Z.mul_comm.
  rewrite rnd_exact1; [by apply Z.div_mul; lia|lia|]. apply repr_whole. lia.
Qed.

Lemma table_value_inside table q : repr 53 q → 0 <= q < one64 → 0 < Z.of_nat (length table) <= 2 ^ 53 →
  ∃ y, table_value binary64 table q = Ok y.
Proof.
  intros Hr Hq Hn. unfold table_value. cbn [binary64 a_mul a_of a_floor].
  pose proof (offset_floor q _ Hr Hq Hn). destruct (lookup_lt_is_Some_2 table (Z.to_nat (f64_floor (f64_mul q (f64_of_Z (Z.of_nat (length table))))))) as [y ->]; [lia|].
  cbn [runwrap rbind]. by eexists.
Qed.
Lemma table_value_end table : 0 < Z.of_nat (length table) <= 2 ^ 53 → table_value binary64 table one64 = Panic IndexOutOfRange.
Proof.
  intros Hn. unfold table_value. cbn [binary64 a_mul a_of a_floor]. rewrite offset_end by done.
  rewrite lookup_ge_None_2 by lia. done.
Qed.

(** ** A run *)
Section run.
  Context (fuel : nat) (limit rate : Z) (table : list Z).
  Context (Hrate : 0 < rate <= 2 ^ 53) (Hl : limit <= 2 ^ 52) (Hf1 : limit <= Z.of_nat fuel) (Hf2 : Z.of_nat fuel < 2 ^ 53).
  Context (Ht : 0 < Z.of_nat (length table) <= 2 ^ 53).

  Lemma phase_after_ok fs : ∀ p, repr 53 p → 0 <= p <= one64 → frequencies_ok limit fs →
    ∃ q, phase_after binary64 fuel rate p fs = Ok q ∧ repr 53 q ∧ 0 <= q <= one64.
  Proof.
    induction fs as [|f fs IH]; intros p Hr Hp Hfs; unfold phase_after in *; cbn [rfold].
    { by exists p. }
    apply Forall_cons in Hfs as [[_ Hf] Hfs].
    destruct (increment_ok fuel limit rate p f Hr Hp Hrate Hf Hl Hf1 Hf2) as (q & k & -> & H1 & H2 & _). cbn [rbind]. by apply IH.
  Qed.

  Lemma osc_samples_spec fs : ∀ p, repr 53 p → 0 <= p < one64 → frequencies_ok limit fs →
    match osc_samples binary64 fuel rate table p fs with
    | Ok (q, ys) => length ys = length fs ∧ phase_after binary64 fuel rate p fs = Ok q ∧
        ∀ n r, (n ≤ length fs)%nat → phase_after binary64 fuel rate p (take n fs) = Ok r → 0 <= r < one64
    | Panic e => e = IndexOutOfRange ∧ ∃ n, (0 < n ≤ length fs)%nat ∧ phase_after binary64 fuel rate p (take n fs) = Ok one64
    end.
  Proof.
    induction fs as [|f fs IH]; intros p Hr Hp Hfs; cbn [osc_samples].
    { split; [done|]. split; [done|]. intros n r _. rewrite take_nil. intros H. injection H as <-. done. }
    apply Forall_cons in Hfs as [[_ Hf] Hfs].
    destruct (increment_ok fuel limit rate p f Hr ltac:(lia) Hrate Hf Hl Hf1 Hf2) as (q & k & E & H1 & H2 & _). rewrite E. cbn [rbind].
    destruct (Z.eq_dec q one64) as [->|Hne].
    { rewrite table_value_end by done. split; [done|]. exists 1%nat. split; [cbn [length]; lia|]. cbn [take].
      unfold phase_after. cbn [rfold]. by rewrite E. }
    destruct (table_value_inside table q H1 ltac:(lia) Ht) as [y ->]. cbn [rbind].
    specialize (IH q H1 ltac:(lia) Hfs). destruct (osc_samples binary64 fuel rate table q fs) as [[q' ys]|e]; cbn [rbind].
    - destruct IH as (I1 & I2 & I3). split; [cbn [length]; lia|]. unfold phase_after in *. cbn [rfold]. rewrite E. cbn [rbind].
      split; [done|]. intros [|n] r Hn; cbn [take rfold].
      + intros H. injection H as <-. done.
      + rewrite E. cbn [rbind]. apply I3. cbn [length] in Hn. lia.
    - destruct IH as (-> & n & Hn & I). split; [done|]. exists (S n). split; [cbn [length]; lia|]. cbn [take].
      unfold phase_after in *. cbn [rfold]. by rewrite E.
  Qed.
End run.

(** ** Accuracy *)
Lemma add_error a b : 0 <= a + b <= 2 * one64 → 2 ^ 53 * Z.abs (f64_add a b - (a + b)) <= one64.
Proof.
  intros H. unfold f64_add. pose proof one64_pos as Ho.
  destruct (rnd_rel_error 53 (a + b) 1 ltac:(lia) ltac:(lia)) as [He|[_ ->]]; [|rewrite rne_1; lia].
  rewrite Z.mul_1_l in He.
  (* half a unit in the last place is at most 2^-53 below 2 *)
  pose proof (rnd_error 53 (a + b) 1 ltac:(lia)) as Hu. rewrite Z.mul_1_l in Hu. rewrite Z.mul_1_l in Hu.
  destruct (Z.eq_dec (a + b) (2 * one64)) as [E|E].
  { rewrite E in *. rewrite rnd_exact1; [lia|lia|]. apply repr_whole. lia. }
  assert (lsb 53 (a + b) 1 <= 1022).
  { rewrite lsb_unfold by lia. rewrite Z.div_1_r. assert (Z.log2 (Z.abs (a + b)) <= 1074); [|lia].
    destruct (Z.eq_dec (a + b) 0) as [E0|]; [rewrite E0; change (Z.log2 (Z.abs 0)) with 0; lia|]. assert (Z.log2 (Z.abs (a + b)) < 1075); [|lia]. apply Z.log2_lt_pow2; [lia|].
    change 1075 with (1 + 1074). rewrite pow2_split, <-one64_pow by lia. lia. }
  assert (2 ^ lsb 53 (a + b) 1 <= 2 ^ 1022) by (apply Z.pow_le_mono_r; lia).
  assert (E1 : one64 = 2 ^ 52 * 2 ^ 1022) by (rewrite one64_pow, <-pow2_split by lia; done).
  rewrite E1. set (P := 2 ^ 1022) in *. clearbody P. lia.
Qed.

Lemma div_error f rate : 0 < rate → 0 <= f <= rate * one64 → 2 ^ 54 * Z.abs (rate * rnd 53 f rate - f) <= rate * one64.
Proof.
  intros Hr H. pose proof one64_pos as Ho. pose proof (rnd_error 53 f rate Hr) as Hu.
  destruct (Z.eq_dec f (rate * one64)) as [E|E].
  { rewrite E in *. rewrite rnd_exact; [|lia|lia|rewrite <-(Z.mul_1_l one64); apply repr_whole; lia].
    rewrite Z.sub_diag. change (Z.abs 0) with 0. nia. }
  assert (lsb 53 f rate <= 1021).
  { rewrite lsb_unfold by lia. assert (Z.log2 (Z.abs f / rate) <= 1073); [|lia].
    destruct (Z.eq_dec (Z.abs f / rate) 0) as [->|]; [cbn; lia|]. assert (Z.log2 (Z.abs f / rate) < 1074); [|lia].
    apply Z.log2_lt_pow2; [assert (0 <= Z.abs f / rate) by (apply Z.div_pos; lia); lia|]. rewrite <-one64_pow. apply Z.div_lt_upper_bound; lia. }
  assert (2 ^ lsb 53 f rate <= 2 ^ 1021) by (apply Z.pow_le_mono_r; lia).
  assert (E1 : one64 = 2 ^ 53 * 2 ^ 1021) by (rewrite one64_pow, <-pow2_split by lia; done).
  rewrite E1. set (P := 2 ^ 1021) in *. clearbody P. nia.
Qed.

Lemma increment_error fuel rate p f q : repr 53 p → 0 <= p <= one64 → 0 < rate <= 2 ^ 52 → 0 <= f <= rate * one64 →
  rate <= Z.of_nat fuel → Z.of_nat fuel < 2 ^ 53 →
  increment_phase binary64 fuel p f rate = Ok q →
  ∃ k, 2 ^ 52 * Z.abs (rate * (q + k * one64) - (rate * p + f)) <= rate * one64.
Proof.
  intros Hr Hp Hrate Hf Hfu Hfu2 E. pose proof one64_pos as Ho.
  destruct (increment_ok fuel rate rate p f Hr Hp ltac:(lia) Hf ltac:(lia) Hfu Hfu2) as (q' & k & E' & _ & _ & H). rewrite E in E'.
  injection E' as <-. exists k. pose proof (div_error f rate ltac:(lia) Hf) as Hd.
  assert (0 <= rnd 53 f rate). { apply rnd_ge_repr; [lia|lia|apply repr_0; lia|lia]. }
  assert (rnd 53 f rate <= one64). { apply rnd_le_repr; [lia|lia|rewrite <-(Z.mul_1_l one64); apply repr_whole; lia|lia]. }
  pose proof (add_error p (rnd 53 f rate) ltac:(lia)) as Ha. rewrite <-H.
  replace (rate * f64_add p (rnd 53 f rate) - (rate * p + f))
    with (rate * (f64_add p (rnd 53 f rate) - (p + rnd 53 f rate)) + (rate * rnd 53 f rate - f)) by ring.
  set (x := f64_add p (rnd 53 f rate) - (p + rnd 53 f rate)) in *. clearbody x. set (y := rate * rnd 53 f rate - f) in *. clearbody y.
  assert (2 ^ 53 * Z.abs (rate * x) <= rate * one64). { rewrite Z.abs_mul, (Z.abs_eq rate) by lia. nia. }
  lia.
Qed.

Lemma phase_error fuel rate : 0 < rate <= 2 ^ 52 → rate <= Z.of_nat fuel → Z.of_nat fuel < 2 ^ 53 → ∀ fs p q,
  repr 53 p → 0 <= p <= one64 → frequencies_ok rate fs → phase_after binary64 fuel rate p fs = Ok q →
  ∃ k, 2 ^ 52 * Z.abs (rate * (q + k * one64) - (rate * p + total fs)) <= Z.of_nat (length fs) * rate * one64.
Proof.
  intros Hrate Hfu Hfu2. pose proof one64_pos as Ho. induction fs as [|f fs IH]; intros p q Hr Hp Hfs; unfold phase_after in *; cbn [rfold].
  { intros E. injection E as <-. exists 0. unfold total. cbn [foldr length]. lia. }
  apply Forall_cons in Hfs as [[_ Hf] Hfs].
  destruct (increment_ok fuel rate rate p f Hr Hp ltac:(lia) Hf ltac:(lia) Hfu Hfu2) as (q1 & k1 & E1 & H1 & H2 & _). rewrite E1. cbn [rbind].
  intros E. destruct (increment_error fuel rate p f q1 Hr Hp Hrate Hf Hfu Hfu2 E1) as [k2 He1].
  destruct (IH q1 q H1 H2 Hfs E) as [k3 He2]. exists (k2 + k3). unfold total in *. cbn [foldr length].
  set (T := foldr Z.add 0 fs) in *. clearbody T. rewrite Nat2Z.inj_succ. unfold Z.succ. rewrite !Z.mul_add_distr_r.
  replace (rate * (q + (k2 + k3) * one64) - (rate * p + (f + T)))
    with ((rate * (q + k3 * one64) - (rate * q1 + T)) + (rate * (q1 + k2 * one64) - (rate * p + f))) by ring.
  lia.
Qed.
