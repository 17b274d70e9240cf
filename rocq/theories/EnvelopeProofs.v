From stdpp Require Import sets list list_numbers.
From Coq Require Import Reals Lra Lia ZArith.
From Verif Require Import Base Buffer BufferSpec EffectSpec BufferProofs EffectProofs Envelope EnvelopeSpec.
Local Open Scope R_scope.

(** ** Follower *)
Lemma follow_coefficient_range rate t : 0 <= rate → 0 <= t → 0 <= follow_coefficient rate t < 1.
Proof.
  intros Hr Ht. unfold follow_coefficient. destruct (Req_EM_T _ _); [lra|]. split; [left; apply exp_pos|].
  assert (0 < rate * t) by (assert (0 <= rate * t) by (by apply Rmult_le_pos); lra).
  rewrite <-exp_0. apply exp_increasing. unfold Rdiv. assert (0 < / (rate * t)) by (by apply Rinv_0_lt_compat). lra.
Qed.
Definition finv (f : follower) : Prop := 0 <= fl_rate f ∧ 0 <= fl_attack f < 1 ∧ 0 <= fl_release f < 1.
Lemma finv_new rate a r : 0 <= rate → 0 <= a → 0 <= r → finv (new_follower rate a r).
Proof. intros. split; [done|]. split; by apply follow_coefficient_range. Qed.
Lemma finv_step f o : finv f → fop_ok o → finv (fstep f o).
Proof.
  intros (H1 & H2 & H3) Ho. destruct o as [x|t|t]; cbn [fstep].
  - done.
  - unfold set_attack_time. destruct (Req_EM_T _ _); [done|]. split; [done|]. split; [by apply follow_coefficient_range|done].
  - unfold set_release_time. destruct (Req_EM_T _ _); [done|]. split; [done|]. split; [done|by apply follow_coefficient_range].
Qed.
Lemma finv_run ops : ∀ f, finv f → Forall fop_ok ops → finv (frun f ops).
Proof.
  induction ops as [|o ops IH]; intros f Hf Ho; [done|]. apply Forall_cons in Ho as [H1 H2]. cbn. apply IH; [|done]. by apply finv_step.
Qed.
Lemma mixture c a b : 0 <= c <= 1 → between a b (a * c + b * (1 - c)).
Proof.
  intros Hc. destruct (Rle_dec a b).
  - left. assert (0 <= c * (b - a)) by (apply Rmult_le_pos; lra). assert (0 <= (1 - c) * (b - a)) by (apply Rmult_le_pos; lra). lra.
  - right. assert (0 <= c * (a - b)) by (apply Rmult_le_pos; lra). assert (0 <= (1 - c) * (a - b)) by (apply Rmult_le_pos; lra). lra.
Qed.
Lemma follow_between f x : finv f → between (fl_level f) (Rabs x) (fl_level (follow f x)).
Proof.
  intros (_ & H2 & H3). unfold follow. cbn [fl_level]. destruct (Rlt_dec _ _); apply mixture; lra.
Qed.
Lemma follow_bound ops : ∀ f M, finv f → Forall fop_ok ops → (∀ x, FSample x ∈ ops → Rabs x <= M) → 0 <= fl_level f <= M →
  Forall (λ v, 0 <= v <= M) (levels f ops) ∧ 0 <= fl_level (frun f ops) <= M.
Proof.
  induction ops as [|o ops IH]; intros f M Hf Ho HM Hl; cbn [levels]; [done|]. apply Forall_cons in Ho as [H1 H2].
  assert (Hl2 : 0 <= fl_level (fstep f o) <= M).
  { destruct o as [x|t|t]; cbn [fstep].
    - pose proof (Rabs_pos x). pose proof (HM x ltac:(left)). destruct (follow_between f x Hf); lra.
    - unfold set_attack_time. by destruct (Req_EM_T _ _).
    - unfold set_release_time. by destruct (Req_EM_T _ _). }
  destruct (IH (fstep f o) M) as [I1 I2]; [by apply finv_step|done|intros x Hx; apply HM; by right|done|].
  split; [|done]. apply Forall_app. split; [|done]. destruct o; [|constructor|constructor]. apply Forall_singleton. apply Hl2.
Qed.
Lemma constant_input f x n : finv f →
  let c := if Rlt_dec (fl_level f) (Rabs x) then fl_attack f else fl_release f in
  fl_level (frun f (replicate n (FSample x))) - Rabs x = c ^ n * (fl_level f - Rabs x).
Proof.
  intros Hf c. set (g := frun f (replicate n (FSample x))).
  assert (H : fl_attack g = fl_attack f ∧ fl_release g = fl_release f ∧ fl_level g - Rabs x = c ^ n * (fl_level f - Rabs x)); [|apply H].
  unfold g. clear g. induction n as [|n IH].
  { cbn [replicate frun fold_left pow]. do 2 (split; [done|]). lra. }
  replace (replicate (S n) (FSample x)) with (replicate n (FSample x) ++ [FSample x]) by (by rewrite <-replicate_cons_app).
  unfold frun in *. rewrite fold_left_app. cbn [fold_left fstep]. destruct IH as (I1 & I2 & I3). set (g := fold_left _ _ _) in *.
  unfold follow. cbn [fl_level fl_attack fl_release]. split; [done|]. split; [done|]. rewrite I1, I2. cbn [pow]. rewrite Rmult_assoc, <-I3.
  assert (Hc : 0 <= c ^ n) by (apply pow_le; unfold c; destruct Hf as (_ & ? & ?); destruct (Rlt_dec _ _); lra).
  unfold c in *. clear c. destruct (Rlt_dec (fl_level f) (Rabs x)) as [Hlt|Hge].
  - destruct (Rlt_dec (fl_level g) (Rabs x)); [lra|].
    assert (0 <= fl_attack f ^ n * (Rabs x - fl_level f)) by (apply Rmult_le_pos; lra).
    assert (Hz : fl_level g = Rabs x) by lra. rewrite Hz. ring.
  - assert (0 <= fl_release f ^ n * (fl_level f - Rabs x)) by (apply Rmult_le_pos; lra).
    destruct (Rlt_dec (fl_level g) (Rabs x)); lra.
Qed.
Lemma follow_coefficient_pow rate t n : 0 < rate * t → follow_coefficient rate t ^ n = exp (- (INR n / (rate * t))).
Proof.
  intros H. unfold follow_coefficient. destruct (Req_EM_T _ _); [lra|]. induction n as [|n IH].
  - cbn [pow INR]. unfold Rdiv. by rewrite Rmult_0_l, Ropp_0, exp_0.
  - cbn [pow]. rewrite IH, <-exp_plus. f_equal. rewrite S_INR. field. split; intros ->; lra.
Qed.

(** ** Notifications *)
Lemma catch_up_ok I fuel : 0 < I → ∀ x, 0 < INR fuel * I + x →
  ∃ k, catch_up fuel I x = Ok (x + I * INR k) ∧ 0 < x + I * INR k ∧ (k = 0%nat ∨ x + I * INR k <= I).
Proof.
  intros HI. induction fuel as [|fuel IH]; intros x Hx; cbn [catch_up]; destruct (Rle_dec x 0) as [Hle|Hgt].
  - cbn in Hx. lra.
  - exists 0%nat. cbn. rewrite Rmult_0_r, Rplus_0_r. split; [done|]. split; [lra|by left].
  - destruct (IH (x + I)) as (k & E & Hp & Hk).
    { rewrite S_INR in Hx. lra. }
    exists (S k). rewrite S_INR. replace (x + I * (INR k + 1)) with (x + I + I * INR k) by ring. split; [done|]. split; [done|].
    right. destruct Hk as [->|Hk]; [cbn; lra|lra].
  - exists 0%nat. cbn. rewrite Rmult_0_r, Rplus_0_r. split; [done|]. split; [lra|by left].
Qed.
Section ticks.
  Context (I : R) (HI : 0 < I).
  Lemma ticks_mono n b k k' : ticks I n k → ticks I (n + b) k' → (k <= k')%nat.
  Proof.
    intros [H1 H2] [H3 H4]. rewrite plus_INR in *. pose proof (pos_INR b). apply INR_le.
    destruct (Rle_dec (INR k) (INR k')) as [|Hn]; [done|]. exfalso.
    assert (INR (S k') <= INR k) by (apply le_INR; apply INR_lt; lra).
    assert (I * INR (S k') <= I * INR k) by (apply Rmult_le_compat_l; lra). lra.
  Qed.
  Lemma ticks_unique n k k' : ticks I n k → ticks I n k' → k = k'.
  Proof.
    intros H1 H2. apply Nat.le_antisymm; eapply (ticks_mono n 0); rewrite ?Nat.add_0_r; done.
  Qed.
  Lemma ticks_floor n k : ticks I n k → Int_part (INR n / I) = Z.of_nat k.
  Proof.
    intros [H1 H2]. assert (Hz : IZR (Z.of_nat k) <= INR n / I < IZR (Z.of_nat k) + 1).
    { rewrite <-INR_IZR_INZ. rewrite S_INR in H2. split; apply (Rmult_le_reg_r I) || apply (Rmult_lt_reg_r I); try done; unfold Rdiv; rewrite Rmult_assoc, Rinv_l by lra; lra. }
    set (y := INR n / I) in *. destruct (base_Int_part y) as [B1 B2].
    assert (IZR (Int_part y) < IZR (Z.of_nat k + 1)) by (rewrite plus_IZR; lra).
    assert (IZR (Z.of_nat k) < IZR (Int_part y + 1)) by (rewrite plus_IZR; lra).
    apply lt_IZR in H, H0. lia.
  Qed.
  Lemma advance_ok n k fuel b : ticks I n k → INR b <= INR fuel * I →
    ∃ k', ticks I (n + b) k' ∧ pn_advance fuel b (Periodic I (I * INR (S k) - INR n)) = Ok (Periodic I (I * INR (S k') - INR (n + b)), (k <? k')%nat).
  Proof.
    intros [H1 H2] Hf. unfold pn_advance. cbn [pn_next pn_interval].
    destruct (catch_up_ok I fuel HI (I * INR (S k) - INR n - INR b)) as (j & E & Hp & Hj); [lra|].
    rewrite E. cbn [rbind]. exists (k + j)%nat. rewrite !S_INR in *. rewrite !plus_INR in *.
    assert (Ht : ticks I (n + b) (k + j)).
    { unfold ticks. rewrite S_INR, !plus_INR. split; [|lra]. destruct Hj as [->|Hj]; [cbn [INR]; pose proof (pos_INR b); lra|lra]. }
    split; [done|]. f_equal. f_equal; [f_equal; lra|]. destruct (Rle_dec _ 0) as [Hle|Hgt].
    - symmetry. apply Nat.ltb_lt. destruct j as [|j]; [cbn in Hp; lra|lia].
    - symmetry. apply Nat.ltb_ge. destruct Hj as [->|Hj]; [lia|]. destruct j as [|j]; [lia|]. rewrite S_INR in Hj.
      pose proof (pos_INR j). assert (0 <= I * INR j) by (apply Rmult_le_pos; lra). lra.
  Qed.
  Lemma advances_ok fuel bs : Forall (λ b, INR b <= INR fuel * I) bs → ∀ n k, ticks I n k →
    ∃ answers k', advances fuel (Periodic I (I * INR (S k) - INR n)) bs = Ok (answers, Periodic I (I * INR (S k') - INR (n + sum_list bs))) ∧
      notified I n bs answers ∧ ticks I (n + sum_list bs) k' ∧
      (length (filter (λ a, a = true) answers) <= k' - k)%nat ∧
      (Forall (λ b, INR b <= I) bs → length (filter (λ a, a = true) answers) = (k' - k)%nat).
  Proof.
    induction 1 as [|b bs Hb _ IH]; intros n k Hk; cbn [advances sum_list].
    { exists [], k. rewrite Nat.add_0_r. split; [done|]. do 2 (split; [done|]). cbn. split; [lia|intros; lia]. }
    destruct (advance_ok n k fuel b Hk Hb) as (k1 & Hk1 & ->). cbn [rbind].
    destruct (IH _ _ Hk1) as (ans & k2 & -> & Hn & Hk2 & Hc & Hc2). cbn [rbind].
    pose proof (ticks_mono n b k k1 Hk Hk1) as Hm. pose proof (ticks_mono _ _ k1 k2 Hk1 Hk2) as Hm2.
    exists ((k <? k1)%nat :: ans), k2. cbn [foldr]. change (foldr Init.Nat.add 0%nat bs) with (sum_list bs). rewrite <-Nat.add_assoc in *. split; [done|]. split; [|split; [done|split]].
    - cbn [notified]. split; [|done]. rewrite Nat.ltb_lt. destruct Hk as [A1 A2], Hk1 as [A3 A4]. split.
      + intros Hlt. exists k. split; [done|]. assert (I * INR (S k) <= I * INR k1); [|lra]. apply Rmult_le_compat_l; [lra|]. apply le_INR. lia.
      + intros (j & B1 & B2). assert (k <= j)%nat.
        { destruct (decide (k <= j)%nat); [done|]. assert (INR (S j) <= INR k) by (apply le_INR; lia). assert (I * INR (S j) <= I * INR k) by (apply Rmult_le_compat_l; lra). lra. }
        destruct (decide (k < k1)%nat); [done|]. assert (INR (S k1) <= INR (S j)) by (apply le_INR; lia).
        assert (I * INR (S k1) <= I * INR (S j)) by (apply Rmult_le_compat_l; lra). lra.
    - rewrite filter_cons. destruct (Nat.ltb_spec k k1); case_decide; cbn [length]; first [done|lia].
    - intros Hf. apply Forall_cons in Hf as [Hf1 Hf2]. specialize (Hc2 Hf2). rewrite filter_cons.
      assert (k1 <= S k)%nat.
      { destruct (decide (k1 <= S k)%nat); [done|]. destruct Hk as [A1 A2], Hk1 as [A3 A4].
        assert (INR (S (S k)) <= INR k1) by (apply le_INR; lia). rewrite (S_INR (S k)) in *.
        assert (I * (INR (S k) + 1) <= I * INR k1) by (apply Rmult_le_compat_l; lra). rewrite plus_INR in *. lra. }
      destruct (Nat.ltb_spec k k1); case_decide; cbn [length]; first [done|lia].
  Qed.
End ticks.
