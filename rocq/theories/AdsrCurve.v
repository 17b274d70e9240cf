From stdpp Require Import sets list list_numbers.
From Coq Require Import Reals Lra Lia.
From Verif Require Import Base Adsr AdsrSpec AdsrProofs.
Local Open Scope R_scope.

(** ** Coefficients *)
Section coefficients.
  Context (sr : nat) (Hsr : (0 < sr)%nat).
  Lemma sr_pos : 0 < INR sr.
  Proof. by apply lt_0_INR. Qed.

  Lemma coefficient_range term t : 0 < term <= 1 → 0 <= coefficient sr term t <= 1.
  Proof.
    intros Ht. unfold coefficient. destruct (Rle_dec t 0); [lra|]. pose proof sr_pos. split; [left; apply exp_pos|].
    rewrite <-exp_0. assert (ln term <= 0).
    { rewrite <-ln_1. destruct (Req_dec term 1) as [->|]; [lra|]. left. apply ln_increasing; lra. }
    assert (0 < t * INR sr) by (apply Rmult_lt_0_compat; lra).
    destruct (Req_dec (ln term / (t * INR sr)) 0) as [->|Hne]; [lra|]. left. apply exp_increasing.
    assert (ln term / (t * INR sr) <= 0); [|lra]. unfold Rdiv. assert (0 < / (t * INR sr)) by (by apply Rinv_0_lt_compat).
    rewrite <-(Rmult_0_l (/ (t * INR sr))). apply Rmult_le_compat_r; lra.
  Qed.
  Lemma coefficient_pow term t k : 0 < t → coefficient sr term t ^ k = Rpower term (INR k / (t * INR sr)).
  Proof.
    intros Ht. unfold coefficient. destruct (Rle_dec t 0); [lra|]. unfold Rpower. pose proof sr_pos.
    induction k as [|k IH].
    - cbn [pow INR]. unfold Rdiv. rewrite !Rmult_0_l, exp_0. done.
    - cbn [pow]. rewrite IH, <-exp_plus. f_equal. rewrite S_INR. field. split; lra.
  Qed.

  Lemma attack_term : (attack_target - 1) / attack_target = 1 / 11.
  Proof. unfold attack_target. field. Qed.
  Lemma decay_term s : (s - decay_target) / (1 - decay_target) = (s + 1 / 10) / (11 / 10).
  Proof. unfold decay_target. field. Qed.
  Lemma release_term s : (- release_target) / (s - release_target) = (1 / 10) / (s + 1 / 10).
  Proof. unfold release_target. rewrite Ropp_involutive. f_equal. lra. Qed.
  Lemma decay_term_range s : 0 <= s <= 1 → 0 < (s + 1 / 10) / (11 / 10) <= 1.
  Proof. lra. Qed.
  Lemma release_term_range s : 0 <= s → 0 < (1 / 10) / (s + 1 / 10) <= 1.
  Proof.
    intros Hs. split; [apply Rdiv_lt_0_compat; lra|]. apply Rmult_le_reg_r with (s + 1 / 10); [lra|]. unfold Rdiv at 1. rewrite Rmult_assoc, Rinv_l; lra.
  Qed.

  Lemma Rpower_base b : 0 < b → Rpower b 1 = b.
  Proof. apply Rpower_1. Qed.
  Lemma power_above b n k : 0 < b < 1 → 0 < n → k < n → b < Rpower b (k / n).
  Proof.
    intros Hb Hn Hk. rewrite <-(Rpower_1 b) at 1 by lra. unfold Rpower. apply exp_increasing.
    assert (ln b < 0) by (rewrite <-ln_1; apply ln_increasing; lra).
    assert (k / n < 1). { apply Rmult_lt_reg_r with n; [done|]. unfold Rdiv. rewrite Rmult_assoc, Rinv_l; lra. }
    assert (0 < (1 - k / n) * (- ln b)) by (apply Rmult_lt_0_compat; lra). lra.
  Qed.
  Lemma power_below b n k : 0 < b <= 1 → 0 < n → n <= k → Rpower b (k / n) <= b.
  Proof.
    intros Hb Hn Hk. rewrite <-(Rpower_1 b) at 2 by lra. unfold Rpower.
    assert (ln b <= 0). { rewrite <-ln_1. destruct (Req_dec b 1) as [->|]; [lra|]. left. apply ln_increasing; lra. }
    assert (1 <= k / n). { apply Rmult_le_reg_r with n; [done|]. unfold Rdiv. rewrite Rmult_assoc, Rinv_l; lra. }
    assert (0 <= (k / n - 1) * (- ln b)) by (apply Rmult_le_pos; lra).
    destruct (Req_dec (k / n * ln b) (1 * ln b)) as [->|]; [lra|]. left. apply exp_increasing. lra.
  Qed.
End coefficients.

(** ** C39: the invariant *)
Definition env_inv (sr : nat) (e : env) : Prop :=
  0 <= en_level e <= 1 ∧ 0 <= en_attack e <= 1 ∧ 0 <= en_decay e <= 1 ∧ 0 <= en_sustain e <= 1 ∧ 0 <= en_release e <= 1 ∧
  (en_phase e = Idle → en_level e = 0).

Lemma shrink c x : 0 <= c <= 1 → 0 <= x → 0 <= c * x <= x.
Proof.
  intros Hc Hx. split; [apply Rmult_le_pos; lra|]. rewrite <-(Rmult_1_l x) at 2. apply Rmult_le_compat_r; lra.
Qed.
Section inv.
  Context (sr : nat) (Hsr : (0 < sr)%nat).
  Lemma inv_new : env_inv sr (new_env sr).
  Proof.
    unfold env_inv, new_env. cbn. split; [lra|]. split; [apply coefficient_range; [done|]; rewrite attack_term; lra|].
    split; [apply coefficient_range; [done|]; rewrite decay_term; lra|]. split; [lra|].
    split; [apply coefficient_range; [done|]; rewrite release_term; lra|]. done.
  Qed.
  Lemma inv_act e a : env_inv sr e → action_ok a → env_inv sr (env_act sr e a).
  Proof.
    destruct e as [p l ca cd s cr dt rt]. intros (H1 & H2 & H3 & H4 & H5 & H6) Ha.
    unfold env_inv. destruct a as [| |t|t|s'|t]; cbn in *.
    - do 5 (split; [done|]). by destruct p.
    - by do 5 (split; [done|]).
    - split; [done|]. split; [apply coefficient_range; [done|]; rewrite attack_term; lra|]. done.
    - do 2 (split; [done|]). split; [apply coefficient_range; [done|]; rewrite decay_term; lra|]. done.
    - do 2 (split; [done|]). split; [apply coefficient_range; [done|]; rewrite decay_term; lra|]. split; [done|].
      split; [apply coefficient_range; [done|]; rewrite release_term; apply release_term_range; lra|done].
    - do 4 (split; [done|]). split; [apply coefficient_range; [done|]; rewrite release_term; apply release_term_range; lra|done].
  Qed.
  Lemma inv_process e : env_inv sr e → env_inv sr (env_process e).
  Proof.
    destruct e as [p l ca cd s cr dt rt]. intros (H1 & H2 & H3 & H4 & H5 & H6). unfold env_inv. cbn in *.
    destruct p; cbn.
    - do 5 (split; [first [done|lra]|]). done.
    - unfold process_exponential, attack_target. pose proof (shrink ca (11 / 10 - l) H2 ltac:(lra)) as Hs.
      split.
      { split; [apply Rmin_glb; lra|]. eapply Rle_trans; [apply Rmin_r|lra]. }
      do 4 (split; [done|]). by destruct (Rle_dec _ _).
    - unfold process_exponential, decay_target. pose proof (shrink cd (l + 1 / 10) H3 ltac:(lra)) as Hs.
      split.
      { split; [eapply Rle_trans; [|apply Rmax_r]; lra|]. apply Rmax_lub; lra. }
      do 4 (split; [done|]). by destruct (Rle_dec _ _).
    - done.
    - unfold process_exponential, release_target. pose proof (shrink cr (l + 1 / 10) H5 ltac:(lra)) as Hs.
      split.
      { split; [apply Rmax_r|]. apply Rmax_lub; lra. }
      do 4 (split; [done|]). destruct (Rle_dec _ _) as [Hle|]; [|done]. intros _. pose proof (Rmax_r (- (1 / 10) + cr * (l - - (1 / 10))) 0). lra.
  Qed.
  Lemma inv_run ops : ∀ e, env_inv sr e → Forall op_ok ops →
    Forall (λ v, 0 <= v <= 1) (env_run sr e ops).1 ∧ env_inv sr (env_run sr e ops).2.
  Proof.
    induction ops as [|o ops IH]; intros e He Hok; cbn [env_run]; [by split; [constructor|]|].
    apply Forall_cons in Hok as [Ho Hok]. destruct o as [a|].
    - apply IH; [|done]. by apply inv_act.
    - pose proof (inv_process e He) as Hp. destruct (IH (env_process e) Hp Hok) as [I1 I2].
      destruct (env_run sr (env_process e) ops) as [vs e2]. cbn [fst snd] in *. split; [|done]. constructor; [apply Hp|done].
  Qed.
End inv.

(** ** Frames without events *)
Definition env_iter (n : nat) (e : env) : env := Nat.iter n env_process e.
Lemma frames_iter sr n : ∀ e, env_run sr e (replicate n AFrame) = ((λ k, en_level (env_iter (S k) e)) <$> seq 0 n, env_iter n e).
Proof.
  induction n as [|n IH]; intros e; cbn [replicate env_run seq]; [done|]. rewrite IH. cbn [fmap list_fmap]. f_equal.
  - f_equal. rewrite <-(fmap_S_seq 0 n). unfold env_iter. rewrite <-list_fmap_compose. apply list_fmap_ext. intros i k Hk. unfold compose.
    by rewrite <-Nat.iter_succ_r.
  - unfold env_iter. by rewrite <-Nat.iter_succ_r.
Qed.
Lemma iter_add a b e : env_iter (a + b) e = env_iter b (env_iter a e).
Proof. unfold env_iter. rewrite Nat.add_comm. apply Nat.iter_add. Qed.

Definition with_level (p : phase) (l : R) (e : env) : env :=
  Env p l (en_attack e) (en_decay e) (en_sustain e) (en_release e) (en_decay_time e) (en_release_time e).

Definition glide (target c l : R) (k : nat) : R := target + c ^ k * (l - target).
Lemma glide_S target c l k : process_exponential (glide target c l k) target c = glide target c l (S k).
Proof. unfold process_exponential, glide. cbn [pow]. ring. Qed.

Lemma attack_iter n e : en_phase e = Attack → (∀ j, (1 <= j <= n)%nat → glide attack_target (en_attack e) (en_level e) j < 1) →
  env_iter n e = with_level Attack (glide attack_target (en_attack e) (en_level e) n) e.
Proof.
  intros Hp. induction n as [|n IH]; intros Hj.
  { destruct e. cbn in *. subst. unfold with_level, glide. cbn. f_equal. ring. }
  change (env_iter (S n) e) with (env_process (env_iter n e)). rewrite IH by (intros; apply Hj; lia). unfold with_level. cbn [env_process]. rewrite glide_S.
  specialize (Hj (S n) ltac:(lia)). rewrite Rmin_left by lra. destruct (Rle_dec 1 _); [lra|]. done.
Qed.
Lemma attack_done n e : en_phase e = Attack → (∀ j, (1 <= j <= n)%nat → glide attack_target (en_attack e) (en_level e) j < 1) →
  1 <= glide attack_target (en_attack e) (en_level e) (S n) → env_iter (S n) e = with_level Decay 1 e.
Proof.
  intros Hp Hj Hd. change (env_iter (S n) e) with (env_process (env_iter n e)). rewrite (attack_iter n e Hp Hj). unfold with_level. cbn [env_process].
  rewrite glide_S, Rmin_right by lra. destruct (Rle_dec 1 1); [done|lra].
Qed.
Lemma decay_iter n e : en_phase e = Decay → (∀ j, (1 <= j <= n)%nat → en_sustain e < glide decay_target (en_decay e) (en_level e) j) →
  env_iter n e = with_level Decay (glide decay_target (en_decay e) (en_level e) n) e.
Proof.
  intros Hp. induction n as [|n IH]; intros Hj.
  { destruct e. cbn in *. subst. unfold with_level, glide. cbn. f_equal. ring. }
  change (env_iter (S n) e) with (env_process (env_iter n e)). rewrite IH by (intros; apply Hj; lia). unfold with_level. cbn [env_process]. rewrite glide_S.
  specialize (Hj (S n) ltac:(lia)). rewrite Rmax_left by lra. destruct (Rle_dec _ (en_sustain e)); [lra|]. done.
Qed.
Lemma decay_done n e : en_phase e = Decay → (∀ j, (1 <= j <= n)%nat → en_sustain e < glide decay_target (en_decay e) (en_level e) j) →
  glide decay_target (en_decay e) (en_level e) (S n) <= en_sustain e → env_iter (S n) e = with_level Sustain (en_sustain e) e.
Proof.
  intros Hp Hj Hd. change (env_iter (S n) e) with (env_process (env_iter n e)). rewrite (decay_iter n e Hp Hj). unfold with_level. cbn [env_process].
  rewrite glide_S, Rmax_right by lra. destruct (Rle_dec _ _); [done|lra].
Qed.
Lemma release_iter n e : en_phase e = Release → (∀ j, (1 <= j <= n)%nat → 0 < glide release_target (en_release e) (en_level e) j) →
  env_iter n e = with_level Release (glide release_target (en_release e) (en_level e) n) e.
Proof.
  intros Hp. induction n as [|n IH]; intros Hj.
  { destruct e. cbn in *. subst. unfold with_level, glide. cbn. f_equal. ring. }
  change (env_iter (S n) e) with (env_process (env_iter n e)). rewrite IH by (intros; apply Hj; lia). unfold with_level. cbn [env_process]. rewrite glide_S.
  specialize (Hj (S n) ltac:(lia)). rewrite Rmax_left by lra. destruct (Rle_dec _ 0); [lra|]. done.
Qed.
Lemma release_done n e : en_phase e = Release → (∀ j, (1 <= j <= n)%nat → 0 < glide release_target (en_release e) (en_level e) j) →
  glide release_target (en_release e) (en_level e) (S n) <= 0 → env_iter (S n) e = with_level Idle 0 e.
Proof.
  intros Hp Hj Hd. change (env_iter (S n) e) with (env_process (env_iter n e)). rewrite (release_iter n e Hp Hj). unfold with_level. cbn [env_process].
  rewrite glide_S, Rmax_right by lra. destruct (Rle_dec _ _); [done|lra].
Qed.
Lemma sustain_iter n e : en_phase e = Sustain → en_level e = en_sustain e → env_iter n e = e.
Proof.
  intros Hp Hl. induction n as [|n IH]; [done|]. change (env_iter (S n) e) with (env_process (env_iter n e)). rewrite IH.
  destruct e. cbn in *. by subst.
Qed.
Lemma idle_iter n e : en_phase e = Idle → en_level e = 0 → env_iter n e = e.
Proof.
  intros Hp Hl. induction n as [|n IH]; [done|]. change (env_iter (S n) e) with (env_process (env_iter n e)). rewrite IH.
  destruct e. cbn in *. by subst.
Qed.
