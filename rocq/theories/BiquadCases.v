From stdpp Require Import list list_numbers.
From Coq Require Import Reals Lra Lia.
From Verif Require Import Base Buffer BufferSpec BufferProofs EffectSpec EffectProofs ResampleSpec ResampleCases Mixer MixerR Biquad BiquadSpec BiquadStable BiquadResponse BiquadFilters BiquadProofs.
Local Open Scope R_scope.

Lemma at_replicate x n i : (i < n)%nat → at_ (replicate n x) i = x.
Proof. intros H. unfold at_. by rewrite lookup_replicate_2. Qed.
Lemma click_ok fs qs ss n sr : length fs = S n → length qs = S n → length ss = S n → qblock_ok 1 (click fs qs ss n sr).
Proof.
  intros H1 H2 H3. unfold qblock_ok, qframes, click. cbn [qb_in qb_iv qb_out qb_ov qb_frequency qb_q qb_shelf qb_gain v_channels v_frames new_buffer channels frames].
  repeat split; try (unfold wf; cbn; rewrite ?replicate_length; lia).
Qed.
Lemma click_received fs qs ss n sr i : (i ≤ n)%nat → at_ (received [click fs qs ss n sr] 0) i = if decide (i = 0%nat) then 1 else 0.
Proof.
  intros Hi. unfold received. cbn [fmap list_fmap concat]. rewrite app_nil_r. unfold at_. rewrite row_from_lookup; cbn [click qb_in qb_iv]; [|unfold wf; cbn; rewrite ?replicate_length; lia|done|cbn; lia|cbn; lia].
  change (0 + i)%nat with i. rewrite seen_eq by (cbn; lia). unfold sample. cbn [off_ch off_fr data frames channels]. rewrite decide_True by lia.
  change ((0 + 0) * S n + (0 + i))%nat with i. destruct i as [|i]; [done|]. change ((1 :: replicate n 0) !! S i) with (replicate n 0 !! i).
  rewrite lookup_replicate_2 by lia. done.
Qed.
Lemma click_settings t fs qs ss n sr i : (i ≤ n)%nat →
  settings t sr [click fs qs ss n sr] !! i = Some (calculate_coefficients t (FilterParameters (at_ fs i) (at_ qs i) (at_ ss i)) sr).
Proof.
  intros Hi. unfold settings. cbn [fmap list_fmap concat]. rewrite app_nil_r. unfold block_settings. rewrite list_lookup_fmap, lookup_seq_lt; [done|]. cbn. lia.
Qed.
Lemma flushed_big x : 1 <= Rabs x → flushed (/ 10 ^ 8) x = x.
Proof.
  intros H. unfold flushed. destruct (Rle_dec _ _) as [H'|]; [|done]. assert (/ 10 ^ 8 <= / 10).
  { apply Rinv_le_contravar; [lra|]. cbn [pow]. lra. }
  lra.
Qed.

(** a single sample of full scale *)
Lemma click_grows t sr fs qs ss (n k : nat) (M : R) : length fs = S n → length qs = S n → length ss = S n → (k ≤ n)%nat →
  (∀ y, follows (/ 10 ^ 8) (settings t sr [click fs qs ss n sr]) (received [click fs qs ss n sr] 0) y → 2 * Rabs M < Rabs (at_ y k)) →
  ∃ out z, qsession (new_biquad sr 1 t) [click fs qs ss n sr] = Ok [out] ∧ seen out Whole 0 k = Some z ∧ Rabs M < Rabs z.
Proof.
  intros H1 H2 H3 Hk Hy. destruct (session_ok t sr 1 [click fs qs ss n sr]) as (outs & y & E & Hf & Hl & Hs); [by apply Forall_singleton, click_ok|].
  destruct outs as [|out [|? ?]]; [done| |done]. specialize (Hs 0%nat _ out eq_refl eq_refl). cbn [click qb_out qb_ov qb_gain] in Hs.
  destruct Hs as (_ & _ & _ & Hs). destruct (Hs 0%nat k) as (x & z & _ & Hz & g & v & Hg & Hv & Hb); [cbn; lia|cbn; lia|].
  rewrite lookup_replicate_2 in Hg by lia. injection Hg as <-. change (played (take 0 [click fs qs ss n sr]) + k)%nat with k in Hv.
  exists out, z. split; [done|]. split; [done|]. specialize (Hy (y 0%nat) (Hf 0%nat ltac:(lia))). unfold at_ in Hy. rewrite Hv in Hy. cbn [default] in Hy. unfold Datatypes.id, id in Hy.
  rewrite Rmult_1_r in Hb. assert (/ 2 ^ 22 * Rabs v <= / 2 * Rabs v). { apply Rmult_le_compat_r; [apply Rabs_pos|]. apply Rinv_le_contravar; [lra|]. cbn [pow]. lra. }
  pose proof (Rabs_triang (v - z) z) as T. replace (v - z + z) with v in T by ring. rewrite Rabs_minus_sym in T. lra.
Qed.

(** ** A frequency above half the sample rate *)
Definition high : list coefficients → Prop := λ cs, ∀ i c, cs !! i = Some c → c = Coefficients 0 3 1 2 1.
Lemma three_quarters : low_pass 18000 24000 1 = Coefficients 0 3 1 2 1.
Proof.
  unfold low_pass, omega. replace (2 * PI * 18000 / 24000) with (3 * (PI / 2)) by field. rewrite cos_3PI2, sin_3PI2. unfold scaled_by. f_equal; field.
Qed.
Lemma rate_24000 : INR (Z.to_nat 24000) = 24000.
Proof. rewrite INR_IZR_INZ, Z2Nat.id by lia. done. Qed.
Lemma rate_48000 : INR (Z.to_nat 48000) = 48000.
Proof. rewrite INR_IZR_INZ, Z2Nat.id by lia. done. Qed.
Lemma pow3_big k : 1 <= Rabs (2 * (-3) ^ k) ∧ Rabs (2 * (-3) ^ k) = 2 * 3 ^ k.
Proof.
  assert (Rabs (2 * (-3) ^ k) = 2 * 3 ^ k) as ->. { rewrite Rabs_mult, <-RPow_abs, (Rabs_pos_eq 2), (Rabs_left (-3)) by lra. f_equal. f_equal. ring. }
  pose proof (pow_R1_Rle 3 k). lra.
Qed.
Lemma high_grows n y : follows (/ 10 ^ 8) (settings LowPass (Z.to_nat 24000) [click (replicate (S n) 18000) (replicate (S n) 1) (replicate (S n) 1) n (Z.to_nat 24000)])
    (received [click (replicate (S n) 18000) (replicate (S n) 1) (replicate (S n) 1) n (Z.to_nat 24000)] 0) y →
  ∀ k, (2 * k + 1 ≤ n)%nat → at_ y (2 * k + 1) = 2 * (-3) ^ k.
Proof.
  intros (_ & _ & H) k Hk. set (x := received _ 0) in *.
  assert (Hx : ∀ i, (i ≤ n)%nat → at_ x i = if decide (i = 0%nat) then 1 else 0) by (intros; by apply click_received).
  assert (Hy : ∀ i, (i ≤ n)%nat → at_ y i = at_ x i + 2 * flushed (/ 10 ^ 8) (earlier x i 1) + flushed (/ 10 ^ 8) (earlier x i 2) - 3 * flushed (/ 10 ^ 8) (earlier y i 2)).
  { intros i Hi. rewrite (H i (Coefficients 0 3 1 2 1)).
    - cbn [c_b0 c_b1 c_b2 c_a1 c_a2]. ring.
    - rewrite click_settings by done. f_equal. rewrite !at_replicate by lia. cbn [calculate_coefficients p_frequency p_q]. rewrite rate_24000. apply three_quarters. }
  induction k as [|k IH].
  - rewrite Hy by lia. cbn [Nat.mul Nat.add]. unfold earlier. rewrite !(decide_True (P := (1 ≤ 1)%nat)) by lia. rewrite !(decide_False (P := (2 ≤ 1)%nat)) by lia. rewrite flushed_zero, !Hx by lia. cbn [Nat.sub].
    rewrite decide_False, decide_True by lia. rewrite flushed_big by (rewrite Rabs_R1; lra). cbn [pow]. ring.
  - rewrite Hy by lia. unfold earlier. rewrite !decide_True by lia. rewrite !Hx by lia. rewrite !decide_False by lia. rewrite !flushed_zero.
    replace (2 * S k + 1 - 2)%nat with (2 * k + 1)%nat by lia. rewrite IH by lia. rewrite flushed_big by apply pow3_big. cbn [pow]. ring.
Qed.
Lemma pow3_unbounded M : ∃ k, M < 3 ^ k.
Proof.
  destruct (Pow_x_infinity 3) with (b := M + 1) as [k Hk]; [rewrite Rabs_pos_eq; lra|]. exists k. specialize (Hk k (le_n k)).
  rewrite Rabs_pos_eq in Hk by (apply pow_le; lra). lra.
Qed.
Lemma high_frequency_unstable M : ∃ n k out z, let b := click (replicate (S n) 18000) (replicate (S n) 1) (replicate (S n) 1) n (Z.to_nat 24000) in
  qblock_ok 1 b ∧ accepted b ∧ qsession (new_biquad (Z.to_nat 24000) 1 LowPass) [b] = Ok [out] ∧ seen out Whole 0 k = Some z ∧ M < Rabs z.
Proof.
  destruct (pow3_unbounded (Rabs M)) as [k Hk]. set (n := (2 * k + 1)%nat). 
  destruct (click_grows LowPass (Z.to_nat 24000) (replicate (S n) 18000) (replicate (S n) 1) (replicate (S n) 1) n (2 * k + 1) M) as (out & z & E & Hz & Hm); [by rewrite replicate_length..|done| |].
  { intros y Hy. rewrite (high_grows n y Hy k) by done. destruct (pow3_big k) as [_ ->]. lra. }
  exists n, (2 * k + 1)%nat, out, z. cbv zeta. split; [apply click_ok; by rewrite replicate_length|]. split.
  { unfold accepted, click. cbn [qb_frequency qb_q qb_shelf qb_gain]. repeat split; apply Forall_replicate; lra. }
  split; [done|]. split; [done|]. pose proof (Rle_abs M). lra.
Qed.

(** ** A shelf gain of 0 *)
Lemma unity_shelf f sr : audible f sr → low_shelf f sr 1 = Coefficients (c_a1 (low_shelf f sr 1)) (c_a2 (low_shelf f sr 1)) 1 (c_a1 (low_shelf f sr 1)) (c_a2 (low_shelf f sr 1)).
Proof.
  intros Ha. destruct (low_den f sr 1 Ha) as (L1 & L2 & _); [lra|]. rewrite sqrt_1 in L1, L2. unfold low_shelf, scaled_by. rewrite sqrt_1. cbn [c_a1 c_a2].
  f_equal; field; lra.
Qed.
Lemma zero_shelf f sr : audible f sr → low_shelf f sr 0 = Coefficients 2 1 0 0 0.
Proof.
  intros Ha. pose proof (omega_cos f sr Ha) as Hc. unfold low_shelf, scaled_by. rewrite sqrt_0, Rmult_0_r, sqrt_0. f_equal; field; lra.
Qed.
Lemma zero_shelf_grows f sr n y : audible f (INR sr) →
  follows (/ 10 ^ 8) (settings LowShelf sr [click (replicate (S n) f) (replicate (S n) 1) (1 :: replicate n 0) n sr])
    (received [click (replicate (S n) f) (replicate (S n) 1) (1 :: replicate n 0) n sr] 0) y →
  ∀ k, (k ≤ n)%nat → at_ y k = (-1) ^ k * INR (k + 1).
Proof.
  intros Ha (_ & _ & H). set (x := received _ 0) in *.
  assert (Hx : ∀ i, (i ≤ n)%nat → at_ x i = if decide (i = 0%nat) then 1 else 0) by (intros; by apply click_received).
  assert (H0 : at_ y 0 = 1).
  { rewrite (H 0%nat (low_shelf f (INR sr) 1)).
    - rewrite unity_shelf by done. cbn [c_b0 c_b1 c_b2 c_a1 c_a2]. unfold earlier. rewrite !decide_False by lia. rewrite flushed_zero, Hx by lia. rewrite decide_True by done. ring.
    - by rewrite click_settings by lia. }
  assert (Hy : ∀ i, (1 ≤ i ≤ n)%nat → at_ y i = - 2 * flushed (/ 10 ^ 8) (earlier y i 1) - flushed (/ 10 ^ 8) (earlier y i 2)).
  { intros i Hi. rewrite (H i (Coefficients 2 1 0 0 0)).
    - cbn [c_b0 c_b1 c_b2 c_a1 c_a2]. ring.
    - rewrite click_settings by lia. f_equal. rewrite !at_replicate by lia. cbn [calculate_coefficients p_frequency p_shelf_gain].
      replace (at_ (1 :: replicate n 0) i) with 0; [by apply zero_shelf|]. destruct i as [|i]; [lia|]. unfold at_. change ((1 :: replicate n 0) !! S i) with (replicate n 0 !! i). by rewrite lookup_replicate_2 by lia. }
  assert (Hbig : ∀ k, 1 <= Rabs ((-1) ^ k * INR (k + 1))).
  { intros k. rewrite Rabs_mult, pow_1_abs, Rmult_1_l, Rabs_pos_eq by apply pos_INR. rewrite plus_INR. cbn [INR]. pose proof (pos_INR k). lra. }
  intros k. induction k as [k IH] using lt_wf_ind. intros Hk. destruct k as [|[|k]].
  - rewrite H0. cbn. ring.
  - rewrite Hy by lia. unfold earlier. rewrite decide_True, decide_False by lia. cbn [Nat.sub]. rewrite H0, flushed_zero, flushed_big by (rewrite Rabs_R1; lra). cbn. ring.
  - rewrite Hy by lia. unfold earlier. rewrite !decide_True by lia. replace (S (S k) - 1)%nat with (S k) by lia. replace (S (S k) - 2)%nat with k by lia.
    rewrite !IH by lia. rewrite !flushed_big by apply Hbig. rewrite !plus_INR, !S_INR. cbn [pow INR]. ring.
Qed.
Lemma zero_shelf_unstable M : ∃ n k out z, let b := click (replicate (S n) 1000) (replicate (S n) 1) (1 :: replicate n 0) n (Z.to_nat 48000) in
  qblock_ok 1 b ∧ accepted b ∧ qsession (new_biquad (Z.to_nat 48000) 1 LowShelf) [b] = Ok [out] ∧ seen out Whole 0 k = Some z ∧ M < Rabs z.
Proof.
  assert (∃ n, 2 * Rabs M < INR n) as [n Hn].
  { exists (Z.to_nat (up (2 * Rabs M))). pose proof (archimed (2 * Rabs M)) as [Hu _]. pose proof (Rabs_pos M).
    assert (0 < up (2 * Rabs M))%Z by (apply lt_IZR; lra). rewrite INR_IZR_INZ, Z2Nat.id by lia. lra. }
  assert (Ha : audible 1000 (INR (Z.to_nat 48000))) by (rewrite rate_48000; unfold audible; lra).
  destruct (click_grows LowShelf (Z.to_nat 48000) (replicate (S n) 1000) (replicate (S n) 1) (1 :: replicate n 0) n n M) as (out & z & E & Hz & Hm); [by rewrite replicate_length..|cbn; by rewrite replicate_length|done| |].
  { intros y Hy. rewrite (zero_shelf_grows 1000 (Z.to_nat 48000) n y Ha Hy n) by done. rewrite Rabs_mult, pow_1_abs, Rmult_1_l, (Rabs_pos_eq (INR (n + 1))) by apply pos_INR. rewrite plus_INR. cbn [INR]. lra. }
  exists n, n, out, z. cbv zeta. split; [apply click_ok; [by rewrite replicate_length..|cbn; by rewrite replicate_length]|]. split.
  { unfold accepted, click. cbn [qb_frequency qb_q qb_shelf qb_gain]. repeat split; try (apply Forall_replicate; lra). constructor; [lra|]. apply Forall_replicate; lra. }
  split; [done|]. split; [done|]. pose proof (Rle_abs M). lra.
Qed.

(** ** Unchanging parameters *)
Lemma at_constant x l i : Forall (eq x) l → (i < length l)%nat → at_ l i = x.
Proof. intros H Hi. unfold at_. destruct (lookup_lt_is_Some_2 l i Hi) as [y Hy]. rewrite Hy. rewrite Forall_lookup in H. symmetry. exact (H i y Hy). Qed.
Lemma settings_constant t sr n f q s l : Forall (qblock_ok n) l → unchanging f q s l →
  settings t sr l = replicate (played l) (calculate_coefficients t (FilterParameters f q s) sr).
Proof.
  intros Hl Hu. induction l as [|b l IH]; [done|]. apply Forall_cons in Hl as [Hb Hl]. apply Forall_cons in Hu as [(U1 & U2 & U3) Hu].
  unfold settings, played in *. cbn [fmap list_fmap concat foldr]. rewrite IH by done. rewrite replicate_add. f_equal.
  destruct Hb as (_ & _ & _ & _ & _ & _ & _ & L1 & L2 & L3 & _). apply list_eq. intros i. destruct (decide (i < qframes b)%nat).
  - unfold block_settings. rewrite list_lookup_fmap, lookup_seq_lt by done. cbn [fmap option_fmap option_map]. rewrite lookup_replicate_2 by done.
    by rewrite (at_constant f), (at_constant q), (at_constant s) by (done || lia).
  - rewrite !lookup_ge_None_2; [done|by rewrite replicate_length; lia|by rewrite block_settings_length; lia].
Qed.
Lemma tone_ok t sr f q s w g theta : responds (calculate_coefficients t (FilterParameters f q s) sr) w g theta →
  ∃ C r K, 0 <= r < 1 ∧ ∀ n l A phi, Forall (qblock_ok n) l → unchanging f q s l →
    (∀ ch i, (ch < n)%nat → (i < played l)%nat → at_ (received l ch) i = A * cos (w * INR i + phi)) →
    ∃ outs y, qsession (new_biquad sr n t) l = Ok outs ∧ sounds y l outs ∧
      ∀ ch i, (ch < n)%nat → (i < played l)%nat → Rabs (at_ (y ch) i - g * A * cos (w * INR i + phi + theta)) <= C * Rabs A * r ^ i + K.
Proof.
  intros (C & r & K & Hr & H). exists C, r, (K * / 10 ^ 8). split; [done|]. intros n l A phi Hl Hu Hx.
  destruct (session_ok t sr n l Hl) as (outs & y & E & Hf & Hs). exists outs, y. split; [done|]. split; [done|]. intros ch i Hch Hi.
  pose proof (Hf ch Hch) as Hfc. rewrite (settings_constant t sr n f q s l Hl Hu) in Hfc. pose proof D_pos. eapply H; [lra|exact Hfc| |done]. intros j Hj. by apply Hx.
Qed.
Lemma bounded_ok t sr f q s : is_stable (calculate_coefficients t (FilterParameters f q s) sr) →
  ∃ K, ∀ n l M, Forall (qblock_ok n) l → unchanging f q s l → 0 <= M → (∀ ch i, (ch < n)%nat → Rabs (at_ (received l ch) i) <= M) →
    ∃ outs y, qsession (new_biquad sr n t) l = Ok outs ∧ sounds y l outs ∧ ∀ ch i, (ch < n)%nat → Rabs (at_ (y ch) i) <= K * (M + / 10 ^ 8).
Proof.
  intros (K & H). exists K. intros n l M Hl Hu HM Hx.
  destruct (session_ok t sr n l Hl) as (outs & y & E & Hf & Hs). exists outs, y. split; [done|]. split; [done|]. intros ch i Hch.
  pose proof (Hf ch Hch) as Hfc. rewrite (settings_constant t sr n f q s l Hl Hu) in Hfc. pose proof D_pos. eapply H; [lra|exact Hfc|]. intros j. by apply Hx.
Qed.
