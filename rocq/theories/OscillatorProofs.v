From stdpp Require Import list list_numbers.
From Coq Require Import Reals ZArith Lra Lia.
From Verif Require Import Base Buffer BufferSpec BufferProofs EffectSpec EffectProofs Envelope Arith Oscillator OscillatorSpec.
From Verif Require Import Mixer MixerR GainProofs EnvelopeProofs.
Local Open Scope R_scope.

(** ** Integer parts *)
Lemma int_part_unique x k : IZR k <= x → x < IZR k + 1 → Int_part x = k.
Proof.
  intros H1 H2. destruct (base_Int_part x) as [B1 B2].
  assert (Int_part x < k + 1)%Z by (apply lt_IZR; rewrite plus_IZR; lra).
  assert (k < Int_part x + 1)%Z by (apply lt_IZR; rewrite plus_IZR; lra). lia.
Qed.
Lemma int_part_spec x : IZR (Int_part x) <= x < IZR (Int_part x) + 1.
Proof. destruct (base_Int_part x). lra. Qed.
Lemma frac_range x : 0 <= frac x < 1.
Proof. unfold frac. pose proof (int_part_spec x). lra. Qed.
Lemma frac_of x q k : x = q + IZR k → 0 <= q < 1 → frac x = q.
Proof. intros -> H. unfold frac. rewrite (int_part_unique (q + IZR k) k) by lra. lra. Qed.
Lemma ceiling_frac x : ceiling x = if Req_EM_T (frac x) 0 then Int_part x else (Int_part x + 1)%Z.
Proof.
  unfold ceiling, frac. pose proof (int_part_spec x). destruct (Req_EM_T _ _) as [E|E].
  - rewrite (int_part_unique (- x) (- Int_part x)); [lia|rewrite opp_IZR; lra|rewrite opp_IZR; lra].
  - rewrite (int_part_unique (- x) (- (Int_part x + 1))); [lia|rewrite opp_IZR, plus_IZR; lra|rewrite opp_IZR, plus_IZR; lra].
Qed.

(** ** The phase over the real numbers *)
Lemma wrap_R fuel : ∀ x, 0 <= x <= INR fuel + 1 → ∃ q k, wrap_phase exact fuel x = Ok q ∧ 0 <= q <= 1 ∧ x = q + IZR k ∧ (q = 0 → x = 0).
Proof.
  induction fuel as [|fuel IH]; intros x Hx; cbn [wrap_phase exact a_ltb a_one a_sub].
  - change (INR 0) with 0 in Hx. destruct (Rlt_dec 1 x); [lra|]. exists x, 0%Z. split; [done|]. split; [lra|]. split; [lra|done].
  - rewrite S_INR in Hx. destruct (Rlt_dec 1 x) as [Hl|Hl].
    + destruct (IH (x - 1)) as (q & k & E & H1 & H2 & H3); [lra|]. exists q, (k + 1)%Z. split; [done|]. split; [done|].
      split; [rewrite plus_IZR; lra|]. intros Hq. apply H3 in Hq. lra.
    + exists x, 0%Z. split; [done|]. split; [lra|]. split; [lra|done].
Qed.

Lemma table_value_R table q : 0 <= q < 1 → table ≠ [] → head table = Some 0 → ∀ x k, x = q + IZR k →
  table_value exact table q = Ok (wave table x).
Proof.
  intros Hq Hne Hh x k Hx. unfold wave. rewrite (frac_of x q k Hx Hq). unfold table_value. cbn [exact a_mul a_of a_floor a_ceil a_zero a_sub].
  rewrite <-INR_IZR_INZ. set (p := q * INR (length table)).
  assert (HL : 0 < INR (length table)). { apply lt_0_INR. destruct table; [done|cbn [length]; lia]. }
  assert (Hp : 0 <= p < INR (length table)). { unfold p. split; [apply Rmult_le_pos; lra|]. rewrite <-(Rmult_1_l (INR (length table))) at 2. apply Rmult_lt_compat_r; lra. }
  pose proof (int_part_spec p) as Hi. set (K := Int_part p) in *.
  assert (HK : (0 <= K < Z.of_nat (length table))%Z).
  { split; [apply Z.lt_succ_r; apply lt_IZR; unfold Z.succ; rewrite plus_IZR; lra|]. apply lt_IZR. rewrite <-INR_IZR_INZ. lra. }
  assert (Hent : table !! Z.to_nat K = Some (entry table (Z.to_nat K))).
  { unfold entry. rewrite Nat.mod_small by lia. destruct (lookup_lt_is_Some_2 table (Z.to_nat K)) as [y Hy]; [lia|].
    rewrite Hy. f_equal. symmetry. by apply nth_lookup_Some. }
  rewrite Hent. cbn [runwrap rbind]. f_equal. unfold interpolate. cbn [exact a_add a_mul a_sub a_one].
  change (p - IZR K) with (frac p). rewrite ceiling_frac. fold K. destruct (Req_EM_T (frac p) 0) as [E|E]; [rewrite E; lra|].
  f_equal. f_equal. replace (Z.to_nat (K + 1)) with (S (Z.to_nat K)) by lia.
  destruct (decide (S (Z.to_nat K) < length table)%nat) as [Hlt|Hge].
  - destruct (lookup_lt_is_Some_2 table (S (Z.to_nat K)) Hlt) as [y Hy]. rewrite Hy. unfold entry. rewrite Nat.mod_small by lia.
    cbn. symmetry. by apply nth_lookup_Some.
  - rewrite lookup_ge_None_2 by lia. unfold entry. replace (S (Z.to_nat K)) with (length table) by lia.
    rewrite Nat.mod_same by lia. destruct table as [|y t]; [done|]. cbn in Hh. injection Hh as ->. done.
Qed.

Lemma table_value_R_end table : table ≠ [] → table_value exact table 1 = Panic IndexOutOfRange.
Proof.
  intros Hne. unfold table_value. cbn [exact a_mul a_of a_floor a_ceil a_zero a_sub]. rewrite Rmult_1_l.
  rewrite (int_part_unique _ (Z.of_nat (length table))) by lra. rewrite lookup_ge_None_2 by lia. done.
Qed.

Lemma cycles_nil r : cycles r [] = 0.
Proof. unfold cycles. cbn [foldr]. unfold Rdiv. lra. Qed.
Lemma cycles_cons r f fs : cycles r (f :: fs) = f / INR r + cycles r fs.
Proof. unfold cycles. cbn [foldr]. unfold Rdiv. lra. Qed.
Lemma cycles_app r fs gs : cycles r (fs ++ gs) = cycles r fs + cycles r gs.
Proof. induction fs as [|f fs IH]; cbn [app]; [rewrite cycles_nil; lra|]. rewrite !cycles_cons, IH. lra. Qed.

Section run.
  Context (fuel : nat) (limit : R) (r : nat) (table : list R).
  Context (Hr : (0 < r)%nat) (Hfuel : limit <= INR fuel) (Hne : table ≠ []).

  Lemma increment_R p f : 0 <= p < 1 → 0 < f <= limit * INR r →
    ∃ q k, increment_phase exact fuel p f (Z.of_nat r) = Ok q ∧ 0 < q <= 1 ∧ p + f / INR r = q + IZR k.
  Proof.
    intros Hp Hf. assert (0 < INR r) by (apply lt_0_INR; lia). unfold increment_phase. cbn [exact a_add a_div a_of]. rewrite <-INR_IZR_INZ.
    assert (0 < f / INR r) by (apply Rmult_lt_0_compat; [lra|]; by apply Rinv_0_lt_compat).
    assert (f / INR r <= limit). { apply Rmult_le_reg_r with (INR r); [done|]. unfold Rdiv. rewrite Rmult_assoc, Rinv_l by lra. lra. }
    destruct (wrap_R fuel (p + f / INR r)) as (q & k & E & W1 & W2 & W3); [lra|]. exists q, k. split; [done|]. split; [|done]. destruct (Req_EM_T q 0) as [Hq0|]; [apply W3 in Hq0; lra|lra].
  Qed.

  Lemma osc_samples_R fs : ∀ p c k0, 0 <= p < 1 → c = p + IZR k0 → Forall (λ f, 0 < f <= limit * INR r) fs →
    match osc_samples exact fuel (Z.of_nat r) table p fs with
    | Ok (q, ys) => length ys = length fs ∧ 0 <= q < 1 ∧ (∃ k, c + cycles r fs = q + IZR k) ∧
        (∀ n, (0 < n ≤ length fs)%nat → ∀ k : Z, c + cycles r (take n fs) ≠ IZR k) ∧
        (head table = Some 0 → ∀ i, (i < length fs)%nat → ys !! i = Some (wave table (c + cycles r (take (S i) fs))))
    | Panic e => e = IndexOutOfRange ∧ ∃ n k, (0 < n ≤ length fs)%nat ∧ c + cycles r (take n fs) = IZR k
    end.
  Proof.
    induction fs as [|f fs IH]; intros p c k0 Hp Hc Hfs; cbn [osc_samples].
    { split; [done|]. split; [done|]. split; [exists k0; rewrite cycles_nil; lra|]. split; [intros n; cbn [length]; lia|]. intros _ i; cbn [length]; lia. }
    apply Forall_cons in Hfs as [Hf Hfs].
    destruct (increment_R p f Hp Hf) as (q & k & E & Hq & Hk). rewrite E. cbn [rbind].
    assert (Hc1 : c + cycles r [f] = q + IZR (k + k0)). { rewrite cycles_cons, cycles_nil, plus_IZR. lra. }
    destruct (Req_EM_T q 1) as [->|Hq1].
    { rewrite table_value_R_end by done. split; [done|]. exists 1%nat, (1 + (k + k0))%Z. split; [cbn [length]; lia|]. change (take 1 (f :: fs)) with [f]. rewrite Hc1, (plus_IZR 1). done. }
    assert (Hq' : 0 <= q < 1) by lra.
    destruct (table_value exact table q) as [y|e] eqn:Ey; cbn [rbind].
    2:{ exfalso. unfold table_value in Ey. cbn [exact a_mul a_of a_floor] in Ey. rewrite <-INR_IZR_INZ in Ey.
        assert (HL : 0 < INR (length table)). { apply lt_0_INR. destruct table; [done|cbn [length]; lia]. }
        pose proof (int_part_spec (q * INR (length table))) as Hi.
        assert (0 <= q * INR (length table) < INR (length table)).
        { split; [apply Rmult_le_pos; lra|]. rewrite <-(Rmult_1_l (INR (length table))) at 2. apply Rmult_lt_compat_r; lra. }
        assert (Int_part (q * INR (length table)) < Z.of_nat (length table))%Z. { apply lt_IZR. rewrite <-INR_IZR_INZ. lra. }
        assert (0 <= Int_part (q * INR (length table)))%Z. { apply Z.lt_succ_r; apply lt_IZR; unfold Z.succ; rewrite plus_IZR; lra. }
        destruct (lookup_lt_is_Some_2 table (Z.to_nat (Int_part (q * INR (length table))))) as [z Hz]; [lia|]. rewrite Hz in Ey. done. }
    specialize (IH q (c + cycles r [f]) (k + k0)%Z Hq' Hc1 Hfs).
    assert (Hsplit : ∀ n, c + cycles r (take (S n) (f :: fs)) = c + cycles r [f] + cycles r (take n fs)).
    { intros n. cbn [take]. rewrite !cycles_cons, cycles_nil. lra. }
    destruct (osc_samples exact fuel (Z.of_nat r) table q fs) as [[q' ys]|e]; cbn [rbind].
    - destruct IH as (I1 & I2 & (k' & I3) & I4 & I5). split; [cbn [length]; lia|]. split; [done|].
      split; [exists k'; rewrite cycles_cons; rewrite cycles_cons, cycles_nil in I3; lra|]. split.
      + intros [|n] Hn k1; [lia|]. cbn [length] in Hn. rewrite Hsplit. destruct n as [|n].
        * cbn [take]. rewrite cycles_nil, Rplus_0_r, Hc1. intros Hk1.
          assert (IZR (k1 - (k + k0)) = q) by (rewrite minus_IZR; lra).
          assert (0 < k1 - (k + k0))%Z by (apply lt_IZR; lra). assert (k1 - (k + k0) < 1)%Z by (apply lt_IZR; lra). lia.
        * apply I4. lia.
      + intros Hh [|i] Hi; cbn [lookup list_lookup].
        * f_equal. rewrite Hsplit. cbn [take]. rewrite cycles_nil, Rplus_0_r.
          rewrite (table_value_R table q Hq' Hne Hh (c + cycles r [f]) (k + k0)%Z Hc1) in Ey. by injection Ey.
        * cbn [length] in Hi. rewrite Hsplit. apply I5; [done|lia].
    - destruct IH as (-> & n & k1 & Hn & I). split; [done|]. exists (S n), k1. split; [cbn [length]; lia|]. by rewrite Hsplit.
  Qed.
End run.
