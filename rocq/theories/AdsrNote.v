From stdpp Require Import sets list list_numbers.
From Coq Require Import Reals Lra Lia.
From Verif Require Import Base Adsr AdsrSpec AdsrProofs AdsrCurve.
Global Instance phase_dec : EqDecision phase.
Proof. solve_decision. Defined.
Local Open Scope R_scope.

Lemma least (P : nat → Prop) n : (∀ j, P j ∨ ¬ P j) →
  (∀ j, (1 <= j <= n)%nat → ¬ P j) ∨ ∃ k, (k < n)%nat ∧ P (S k) ∧ ∀ j, (1 <= j <= k)%nat → ¬ P j.
Proof.
  intros Hd. induction n as [|n [IH|(k & Hk & Hp & Hj)]].
  - left. intros; lia.
  - destruct (Hd (S n)) as [Hp|Hp].
    + right. exists n. split; [lia|]. done.
    + left. intros j Hj. destruct (decide (j = S n)) as [->|]; [done|]. apply IH. lia.
  - right. exists k. split; [lia|done].
Qed.

Lemma stage_one n k : is_stage n k → n <= 0 → k = 1%nat.
Proof.
  intros (H1 & H2 & H3) Hn. destruct (decide (k = 1%nat)); [done|]. specialize (H3 1%nat ltac:(lia)). cbn in H3. lra.
Qed.
Lemma with_level_twice p l p' l' e : with_level p l (with_level p' l' e) = with_level p l e.
Proof. done. Qed.

Section note.
  Context (sr : nat) (Hsr : (0 < sr)%nat).

  Definition inn (t : R) : R := t * INR sr.
  Lemma inn_pos t : 0 < t → 0 < inn t.
  Proof. intros Ht. apply Rmult_lt_0_compat; [done|]. by apply sr_pos. Qed.

  (** ** Attack *)
  Lemma attack_glide t k : 0 < t → glide attack_target (attack_coefficient sr t) 0 k = attack_curve (inn t) (INR k).
  Proof.
    intros Ht. unfold glide, attack_coefficient, attack_curve. rewrite coefficient_pow, attack_term by done. unfold attack_target, inn. lra.
  Qed.
  Lemma attack_below t a j : 0 <= t → is_stage (inn t) a → (1 <= j < a)%nat → attack_curve (inn t) (INR j) < 1.
  Proof.
    intros Ht Ha Hj. destruct (Req_dec t 0) as [->|].
    { pose proof (stage_one _ _ Ha ltac:(unfold inn; lra)). lia. }
    pose proof (power_above (1 / 11) (inn t) (INR j) ltac:(lra) (inn_pos t ltac:(lra)) ltac:(by apply Ha)). unfold attack_curve. lra.
  Qed.
  Lemma attack_end t a : 0 <= t → is_stage (inn t) a → 1 <= glide attack_target (attack_coefficient sr t) 0 a.
  Proof.
    intros Ht Ha. destruct (Req_dec t 0) as [->|].
    { rewrite (stage_one _ _ Ha ltac:(unfold inn; lra)). unfold glide, attack_coefficient, coefficient, attack_target. destruct (Rle_dec 0 0); [|lra]. cbn. lra. }
    rewrite attack_glide by lra.
    pose proof (power_below (1 / 11) (inn t) (INR a) ltac:(lra) (inn_pos t ltac:(lra)) ltac:(apply Ha)). unfold attack_curve. lra.
  Qed.
  Lemma attack_stage t a e : 0 <= t → is_stage (inn t) a → en_phase e = Attack → en_level e = 0 → en_attack e = attack_coefficient sr t →
    (∀ j, (1 <= j < a)%nat → env_iter j e = with_level Attack (attack_curve (inn t) (INR j)) e) ∧ env_iter a e = with_level Decay 1 e.
  Proof.
    intros Ht Ha Hp Hl Hc.
    assert (Hb : ∀ j, (1 <= j < a)%nat → glide attack_target (en_attack e) (en_level e) j < 1).
    { intros j Hj. rewrite Hc, Hl. destruct (Req_dec t 0) as [->|].
      { pose proof (stage_one _ _ Ha ltac:(unfold inn; lra)). lia. }
      rewrite attack_glide by lra. by apply (attack_below t a). }
    split.
    - intros j Hj. rewrite (attack_iter j e Hp) by (intros; apply Hb; lia). f_equal. rewrite Hc, Hl. destruct (Req_dec t 0) as [->|].
      { pose proof (stage_one _ _ Ha ltac:(unfold inn; lra)). lia. }
      apply attack_glide. lra.
    - destruct a as [|a]; [destruct Ha; lia|]. apply attack_done; [done|intros; apply Hb; lia|]. rewrite Hc, Hl. by apply attack_end.
  Qed.
  Lemma attack_any t a e : 0 <= t → is_stage (inn t) a → en_phase e = Attack → 0 <= en_level e → en_attack e = attack_coefficient sr t →
    ∃ k, (k < a)%nat ∧ env_iter (S k) e = with_level Decay 1 e.
  Proof.
    intros Ht Ha Hp Hl Hc.
    destruct (least (λ j, 1 <= glide attack_target (en_attack e) (en_level e) j) a) as [Hn|(k & Hk & Hd & Hj)].
    { intros j. destruct (Rle_dec 1 (glide attack_target (en_attack e) (en_level e) j)); auto. }
    - exfalso. apply (Hn a); [destruct Ha; lia|]. eapply Rle_trans; [by apply (attack_end t a)|]. rewrite <-Hc. unfold glide.
      assert (0 <= en_attack e).
      { rewrite Hc. apply coefficient_range; [done|]. rewrite attack_term. lra. }
      assert (0 <= en_attack e ^ a) by (by apply pow_le). assert (0 <= en_attack e ^ a * en_level e) by (by apply Rmult_le_pos). lra.
    - exists k. split; [done|]. apply attack_done; [done| |done]. intros j Hjk. specialize (Hj j Hjk). lra.
  Qed.

  (** ** Decay *)
  Lemma decay_glide t s k : 0 < t → glide decay_target (decay_coefficient sr t s) 1 k = decay_curve s (inn t) (INR k).
  Proof.
    intros Ht. unfold glide, decay_coefficient, decay_curve. rewrite coefficient_pow, decay_term by done. unfold decay_target, inn. lra.
  Qed.
  Lemma power_one x : Rpower 1 x = 1.
  Proof. unfold Rpower. by rewrite ln_1, Rmult_0_r, exp_0. Qed.
  Lemma decay_stage t s d e : 0 <= t → 0 <= s <= 1 → is_stage (inn t) d → en_phase e = Decay → en_level e = 1 → en_sustain e = s →
    en_decay e = decay_coefficient sr t s →
    (∀ j, (1 <= j < d)%nat → en_level (env_iter j e) = decay_curve s (inn t) (INR j)) ∧
    ∀ j, (d <= j)%nat → env_iter j e = with_level Sustain s e.
  Proof.
    intros Ht Hs Hd Hp Hl Hsus Hc.
    assert (Hsettle : ∀ k j, env_iter k e = with_level Sustain s e → (k <= j)%nat → env_iter j e = with_level Sustain s e).
    { intros k j Hk Hkj. replace j with (k + (j - k))%nat by lia. rewrite iter_add, Hk. by apply sustain_iter. }
    assert (Hd1 : (1 <= d)%nat) by (destruct Hd; lia).
    destruct (Req_dec t 0) as [Ht0|Ht0].
    { subst t. pose proof (stage_one _ _ Hd ltac:(unfold inn; lra)) as ->. split; [intros; lia|]. intros j Hj. apply (Hsettle 1%nat); [|done].
      rewrite <-Hsus. apply decay_done; [done|intros; lia|]. rewrite Hl, Hc, Hsus. unfold glide, decay_coefficient, coefficient, decay_target. destruct (Rle_dec 0 0); [|lra]. cbn. lra. }
    destruct (Req_dec s 1) as [Hs1|Hs1].
    { assert (Hall : ∀ j, (1 <= j)%nat → env_iter j e = with_level Sustain s e).
      { intros j Hj. apply (Hsettle 1%nat); [|done]. rewrite <-Hsus. apply decay_done; [done|intros; lia|]. rewrite Hl, Hc, Hsus, decay_glide by lra.
        unfold decay_curve. rewrite Hs1. replace ((1 + 1 / 10) / (11 / 10)) with 1 by field. rewrite power_one. lra. }
      split; [|intros; apply Hall; lia]. intros j Hj. rewrite Hall by lia. cbn. unfold decay_curve. rewrite Hs1. replace ((1 + 1 / 10) / (11 / 10)) with 1 by field. rewrite power_one. lra. }
    assert (Hb : ∀ j, (1 <= j < d)%nat → s < glide decay_target (en_decay e) (en_level e) j).
    { intros j Hj. rewrite Hc, Hl, decay_glide by lra.
      pose proof (power_above ((s + 1 / 10) / (11 / 10)) (inn t) (INR j) ltac:(lra) (inn_pos t ltac:(lra)) ltac:(by apply Hd)). unfold decay_curve. lra. }
    split.
    - intros j Hj. rewrite (decay_iter j e Hp) by (rewrite Hsus; intros; apply Hb; lia). cbn. rewrite Hc, Hl. apply decay_glide. lra.
    - intros j Hj. apply (Hsettle d); [|done]. destruct d as [|d]; [lia|]. rewrite <-Hsus.
      apply decay_done; [done|rewrite Hsus; intros; apply Hb; lia|]. rewrite Hc, Hl, Hsus, decay_glide by lra.
      pose proof (power_below ((s + 1 / 10) / (11 / 10)) (inn t) (INR (S d)) ltac:(lra) (inn_pos t ltac:(lra)) ltac:(apply Hd)). unfold decay_curve. lra.
  Qed.

  (** ** Release *)
  Lemma release_glide t s k : 0 < t → glide release_target (release_coefficient sr t s) s k = release_curve s (inn t) (INR k).
  Proof.
    intros Ht. unfold glide, release_coefficient, release_curve. rewrite coefficient_pow, release_term by done. unfold release_target, inn. lra.
  Qed.
  Lemma release_end t s r : 0 <= t → 0 <= s → is_stage (inn t) r → glide release_target (release_coefficient sr t s) s r <= 0.
  Proof.
    intros Ht Hs Hr. destruct (Req_dec t 0) as [->|].
    { rewrite (stage_one _ _ Hr ltac:(unfold inn; lra)). unfold glide, release_coefficient, coefficient, release_target. destruct (Rle_dec 0 0); [|lra]. cbn. lra. }
    rewrite release_glide by lra.
    pose proof (power_below ((1 / 10) / (s + 1 / 10)) (inn t) (INR r) (release_term_range s Hs) (inn_pos t ltac:(lra)) ltac:(apply Hr)) as Hp. unfold release_curve.
    apply (Rmult_le_compat_l (s + 1 / 10)) in Hp; [|lra]. replace ((s + 1 / 10) * (1 / 10 / (s + 1 / 10))) with (1 / 10) in Hp by (field; lra). lra.
  Qed.
  Lemma release_above t s r j : 0 <= t → 0 < s → is_stage (inn t) r → (1 <= j < r)%nat → 0 < release_curve s (inn t) (INR j).
  Proof.
    intros Ht Hs Hr Hj. destruct (Req_dec t 0) as [->|].
    { pose proof (stage_one _ _ Hr ltac:(unfold inn; lra)). lia. }
    assert (1 / 10 / (s + 1 / 10) < 1).
    { apply Rmult_lt_reg_r with (s + 1 / 10); [lra|]. unfold Rdiv at 1. rewrite Rmult_assoc, Rinv_l; lra. }
    pose proof (power_above ((1 / 10) / (s + 1 / 10)) (inn t) (INR j) ltac:(split; [apply release_term_range; lra|lra]) (inn_pos t ltac:(lra)) ltac:(by apply Hr)) as Hp.
    unfold release_curve. apply (Rmult_lt_compat_l (s + 1 / 10)) in Hp; [|lra]. replace ((s + 1 / 10) * (1 / 10 / (s + 1 / 10))) with (1 / 10) in Hp by (field; lra). lra.
  Qed.
  Lemma release_any t s r e : 0 <= t → 0 <= s → is_stage (inn t) r → en_phase e = Release → 0 <= en_level e <= s →
    en_release e = release_coefficient sr t s → ∃ k, (k < r)%nat ∧ env_iter (S k) e = with_level Idle 0 e.
  Proof.
    intros Ht Hs Hr Hp Hl Hc.
    destruct (least (λ j, glide release_target (en_release e) (en_level e) j <= 0) r) as [Hn|(k & Hk & Hd & Hj)].
    { intros j. destruct (Rle_dec (glide release_target (en_release e) (en_level e) j) 0); auto. }
    - exfalso. apply (Hn r); [destruct Hr; lia|]. eapply Rle_trans; [|by apply (release_end t s r)]. rewrite <-Hc. unfold glide.
      assert (0 <= en_release e).
      { rewrite Hc. apply coefficient_range; [done|]. rewrite release_term. by apply release_term_range. }
      assert (0 <= en_release e ^ r) by (by apply pow_le). assert (0 <= en_release e ^ r * (s - en_level e)) by (apply Rmult_le_pos; lra). lra.
    - exists k. split; [done|]. apply release_done; [done| |done]. intros j Hjk. specialize (Hj j Hjk). lra.
  Qed.
  Lemma idle_stays k j e : env_iter k e = with_level Idle 0 e → (k <= j)%nat → env_iter j e = with_level Idle 0 e.
  Proof. intros Hk Hkj. replace j with (k + (j - k))%nat by lia. rewrite iter_add, Hk. by apply idle_iter. Qed.
  Lemma release_stage t s r e : 0 <= t → 0 <= s → is_stage (inn t) r → en_phase e = Release → en_level e = s →
    en_release e = release_coefficient sr t s →
    (∀ j, (1 <= j < r)%nat → en_level (env_iter j e) = release_curve s (inn t) (INR j)) ∧
    ∀ j, (r <= j)%nat → env_iter j e = with_level Idle 0 e.
  Proof.
    intros Ht Hs Hr Hp Hl Hc.
    destruct (release_any t s r e Ht Hs Hr Hp ltac:(lra) Hc) as (k0 & Hk0 & Hi0).
    split; [|intros j Hj; apply (idle_stays (S k0)); [done|lia]].
    intros j Hj. destruct (Req_dec t 0) as [->|].
    { pose proof (stage_one _ _ Hr ltac:(unfold inn; lra)). lia. }
    destruct (Req_dec s 0) as [Hs0|Hs0].
    { assert (Hone : ∀ x, release_curve s (inn t) x = 0).
      { intros x. unfold release_curve. rewrite Hs0. replace (1 / 10 / (0 + 1 / 10)) with 1 by field. rewrite power_one. lra. }
      rewrite Hone. rewrite (idle_stays 1 j e); [done| |lia]. apply release_done; [done|intros; lia|].
      rewrite Hc, Hl, release_glide by lra. rewrite Hone. lra. }
    rewrite (release_iter j e Hp); [cbn; rewrite Hc, Hl; apply release_glide; lra|].
    intros i Hi. rewrite Hc, Hl, release_glide by lra. apply (release_above t s r); [lra|lra|done|lia].
  Qed.

  (** ** A whole note *)
  Lemma quiet_level ops : Forall op_ok ops → quiet sr ops → en_level (env_run sr (new_env sr) ops).2 = 0.
  Proof.
    intros Hok Hq. destruct (inv_run sr Hsr ops (new_env sr) (inv_new sr Hsr) Hok) as (_ & _ & _ & _ & _ & _ & Hi). by apply Hi.
  Qed.
  Lemma run_app e a b : env_run sr e (a ++ b) =
    ((env_run sr e a).1 ++ (env_run sr (env_run sr e a).2 b).1, (env_run sr (env_run sr e a).2 b).2).
  Proof. rewrite env_run_app. destruct (env_run sr e a) as [va e1]. cbn [fst snd]. by destruct (env_run sr e1 b). Qed.
  Lemma run_frames_app n e rest : env_run sr e (replicate n AFrame ++ rest) =
    (((λ k, en_level (env_iter (S k) e)) <$> seq 0 n) ++ (env_run sr (env_iter n e) rest).1, (env_run sr (env_iter n e) rest).2).
  Proof. rewrite run_app. by rewrite frames_iter. Qed.

  Lemma note_ok ta td s tr a d r n m e :
    0 <= ta → 0 <= td → 0 <= tr → 0 <= s <= 1 →
    is_stage (inn ta) a → is_stage (inn td) d → is_stage (inn tr) r → (a + d <= n)%nat →
    en_phase e = Idle → en_level e = 0 →
    (env_run sr e (note_ops ta td s tr n m)).1 =
      (held_value (inn ta) a (inn td) d s <$> seq 0 n) ++ (released_value (inn tr) r s <$> seq 0 m) ∧
    ((r <= m)%nat → en_phase (env_run sr e (note_ops ta td s tr n m)).2 = Idle).
  Proof.
    intros Hta Htd Htr Hs Ha Hd Hr Hn Hp Hl. unfold note_ops.
    destruct e as [p l ca cd s0 cr dt rt]. cbn in Hp, Hl. subst p l. cbn [app env_run env_act].
    set (e1 := Env Attack _ _ _ _ _ _ _). rewrite run_frames_app. cbn [fst snd].
    destruct (attack_stage ta a e1 Hta Ha eq_refl eq_refl eq_refl) as [A1 A2].
    destruct (decay_stage td s d (with_level Decay 1 e1) Htd Hs Hd eq_refl eq_refl eq_refl eq_refl) as [D1 D2].
    assert (Hn2 : env_iter n e1 = with_level Sustain s e1).
    { replace n with (a + (n - a))%nat by lia. rewrite iter_add, A2, D2 by lia. done. }
    rewrite Hn2. cbn [app env_run]. set (e2 := env_act _ _ _).
    destruct (release_stage tr s r e2 Htr ltac:(lra) Hr eq_refl eq_refl eq_refl) as [R1 R2].
    rewrite frames_iter. cbn [fst snd]. split.
    - f_equal.
      + apply list_fmap_ext. intros i k Hk. apply lookup_seq in Hk as [-> Hk]. cbn [Nat.add]. unfold held_value.
        destruct (Nat.ltb_spec (S i) a); [by rewrite A1 by lia|]. destruct (Nat.eqb_spec (S i) a) as [->|]; [by rewrite A2|].
        replace (S i) with (a + (S i - a))%nat at 1 by lia. rewrite iter_add, A2.
        destruct (Nat.ltb_spec (S i - a) d); [by rewrite D1 by lia|]. by rewrite D2 by lia.
      + apply list_fmap_ext. intros i k Hk. apply lookup_seq in Hk as [-> Hk]. cbn [Nat.add]. unfold released_value.
        destruct (Nat.ltb_spec (S i) r); [by rewrite R1 by lia|]. by rewrite R2 by lia.
    - intros Hm. by rewrite R2 by lia.
  Qed.
  Lemma note_after ops ta td s tr a d r n m :
    Forall op_ok ops → quiet sr ops →
    0 <= ta → 0 <= td → 0 <= tr → 0 <= s <= 1 →
    is_stage (inn ta) a → is_stage (inn td) d → is_stage (inn tr) r → (a + d <= n)%nat →
    env_values sr (ops ++ note_ops ta td s tr n m) =
      env_values sr ops ++ (held_value (inn ta) a (inn td) d s <$> seq 0 n) ++ (released_value (inn tr) r s <$> seq 0 m) ∧
    ((r <= m)%nat → quiet sr (ops ++ note_ops ta td s tr n m)).
  Proof.
    intros Hok Hq Hta Htd Htr Hs Ha Hd Hr Hn. unfold env_values, quiet. rewrite run_app. cbn [fst snd].
    destruct (note_ok ta td s tr a d r n m _ Hta Htd Htr Hs Ha Hd Hr Hn Hq (quiet_level ops Hok Hq)) as [N1 N2]. by rewrite N1.
  Qed.

  Lemma reached ops : Forall op_ok ops → env_inv sr (env_run sr (new_env sr) ops).2.
  Proof. intros Hok. by apply (inv_run sr Hsr ops (new_env sr) (inv_new sr Hsr) Hok). Qed.
  Lemma attack_reaches ops t a : Forall op_ok ops → 0 <= t → is_stage (inn t) a →
    ∃ k, (k < a)%nat ∧
      env_values sr (ops ++ [AAct (SetAttack t); AAct NoteOn] ++ replicate a AFrame) !! (length (env_values sr ops) + k)%nat = Some 1.
  Proof.
    intros Hok Ht Ha. unfold env_values. rewrite run_app. cbn [fst snd app env_run]. pose proof (reached ops Hok) as Hi.
    set (e := (env_run sr (new_env sr) ops).2) in *. rewrite frames_iter. cbn [fst].
    destruct (attack_any t a (env_act sr (env_act sr e (SetAttack t)) NoteOn) Ht Ha) as (k & Hk & Hd); [by destruct e|by destruct e, Hi as [[? ?] ?]|by destruct e|].
    exists k. split; [done|]. rewrite lookup_app_r by lia. rewrite Nat.add_sub_swap, Nat.sub_diag by lia. cbn [Nat.add].
    rewrite list_lookup_fmap, lookup_seq_lt by done. cbn [fmap option_fmap option_map Nat.add]. by rewrite Hd.
  Qed.
  Lemma release_reaches ops s t r m : Forall op_ok ops → 0 <= t → 0 <= s <= 1 → is_stage (inn t) r →
    en_level (env_run sr (new_env sr) ops).2 <= s → 
    ∀ k, (r <= S k)%nat → (k < m)%nat →
      env_values sr (ops ++ [AAct (SetSustain s); AAct (SetRelease t); AAct NoteOff] ++ replicate m AFrame) !! (length (env_values sr ops) + k)%nat = Some 0.
  Proof.
    intros Hok Ht Hs Hr Hle k Hk Hm. unfold env_values. rewrite run_app. cbn [fst snd app env_run]. pose proof (reached ops Hok) as Hi.
    set (e := (env_run sr (new_env sr) ops).2) in *. rewrite frames_iter. cbn [fst].
    rewrite lookup_app_r by lia. rewrite Nat.add_sub_swap, Nat.sub_diag by lia. cbn [Nat.add].
    rewrite list_lookup_fmap, lookup_seq_lt by done. cbn [fmap option_fmap option_map Nat.add]. f_equal.
    set (e1 := env_act sr (env_act sr (env_act sr e (SetSustain s)) (SetRelease t)) NoteOff).
    destruct Hi as ((Hl0 & Hl1) & _ & _ & _ & _ & Hidle).
    destruct (decide (en_phase e1 = Idle)) as [Hp|Hp].
    { rewrite idle_iter; [|done|].
      - destruct e as [p l ? ? ? ? ? ?]. cbn in *. destruct p; try done. by apply Hidle.
      - destruct e as [p l ? ? ? ? ? ?]. cbn in *. destruct p; try done. by apply Hidle. }
    destruct (release_any t s r e1 Ht ltac:(lra) Hr) as (k0 & Hk0 & Hd).
    - destruct e as [p l ? ? ? ? ? ?]. cbn in *. by destruct p.
    - destruct e as [p l ? ? ? ? ? ?]. cbn in *. done.
    - by destruct e.
    - by rewrite (idle_stays (S k0) (S k) e1) by (done || lia).
  Qed.
End note.

(** ** Release from above the sustain level *)
Section release.
  Context (sr : nat) (Hsr : (0 < sr)%nat).

  Lemma release_ends ops s t K m : Forall op_ok ops → 0 < t → 0 < s <= 1 → (1 <= K)%nat → inn sr t * (ln 11 / ln (10 * s + 1)) <= INR K →
    ∀ k, (K <= S k)%nat → (k < m)%nat →
      env_values sr (ops ++ [AAct (SetSustain s); AAct (SetRelease t); AAct NoteOff] ++ replicate m AFrame) !! (length (env_values sr ops) + k)%nat = Some 0.
  Proof.
    intros Hok Ht Hs HK1 HK k Hk Hm. unfold env_values. rewrite run_app. cbn [fst snd app env_run]. pose proof (reached sr Hsr ops Hok) as Hi.
    set (e := (env_run sr (new_env sr) ops).2) in *. rewrite frames_iter. cbn [fst].
    rewrite lookup_app_r by lia. rewrite Nat.add_sub_swap, Nat.sub_diag by lia. cbn [Nat.add].
    rewrite list_lookup_fmap, lookup_seq_lt by done. cbn [fmap option_fmap option_map Nat.add]. f_equal.
    set (e1 := env_act sr (env_act sr (env_act sr e (SetSustain s)) (SetRelease t)) NoteOff).
    destruct Hi as ((Hl0 & Hl1) & _ & _ & _ & _ & Hidle).
    assert (Hlev : en_level e1 = en_level e) by (by destruct e).
    destruct (decide (en_phase e1 = Idle)) as [Hp|Hp].
    { assert (en_level e = 0). { destruct e as [p l ? ? ? ? ? ?]. cbn in *. destruct p; try done. by apply Hidle. }
      rewrite idle_iter; [|done|]; lra. }
    assert (Hr : en_phase e1 = Release) by (destruct e as [p l ? ? ? ? ? ?]; cbn in *; by destruct p).
    assert (Hc : en_release e1 = release_coefficient sr t s) by (by destruct e).
    destruct (least (λ j, glide release_target (en_release e1) (en_level e1) j <= 0) K) as [Hn|(k0 & Hk0 & Hd & Hj)].
    { intros j. destruct (Rle_dec (glide release_target (en_release e1) (en_level e1) j) 0); auto. }
    - exfalso. apply (Hn K); [lia|]. unfold glide. rewrite Hc, Hlev. unfold release_coefficient. rewrite coefficient_pow, release_term by done. unfold release_target, Rpower.
      fold (inn sr t). pose proof (inn_pos sr Hsr t Ht) as Hnp.
      replace (ln (1 / 10 / (s + 1 / 10))) with (- ln (10 * s + 1)).
      2: { rewrite <-ln_Rinv by lra. f_equal. field. lra. }
      assert (HL : 0 < ln (10 * s + 1)) by (rewrite <-ln_1; apply ln_increasing; lra).
      assert (Hx : ln 11 <= INR K / inn sr t * ln (10 * s + 1)).
      { apply Rmult_le_reg_r with (inn sr t / ln (10 * s + 1)); [by apply Rdiv_lt_0_compat|].
        replace (ln 11 * (inn sr t / ln (10 * s + 1))) with (inn sr t * (ln 11 / ln (10 * s + 1))) by (field; lra).
        replace (INR K / inn sr t * ln (10 * s + 1) * (inn sr t / ln (10 * s + 1))) with (INR K) by (field; lra). done. }
      assert (He : exp (INR K / inn sr t * - ln (10 * s + 1)) <= 1 / 11).
      { replace (1 / 11) with (exp (- ln 11)) by (rewrite exp_Ropp, exp_ln by lra; lra).
        destruct (Req_dec (INR K / inn sr t * - ln (10 * s + 1)) (- ln 11)) as [->|]; [lra|]. left. apply exp_increasing. lra. }
      pose proof (exp_pos (INR K / inn sr t * - ln (10 * s + 1))) as Hep.
      set (x := exp _) in *. assert (x * (en_level e - - (1 / 10)) <= 1 / 11 * (11 / 10)) by (apply Rmult_le_compat; lra). lra.
    - rewrite (idle_stays sr Hsr (S k0) (S k) e1); [done| |lia]. apply release_done; [done| |done]. intros j Hjk. specialize (Hj j Hjk). lra.
  Qed.

  (** with sustain level 0 a released note does not move *)
  Lemma release_stuck ops t m : Forall op_ok ops → 0 < t → 0 < en_level (env_run sr (new_env sr) ops).2 →
    env_values sr (ops ++ [AAct (SetSustain 0); AAct (SetRelease t); AAct NoteOff] ++ replicate m AFrame) =
    env_values sr ops ++ replicate m (en_level (env_run sr (new_env sr) ops).2).
  Proof.
    intros Hok Ht Hlev. unfold env_values. rewrite run_app. cbn [fst snd app env_run]. f_equal. pose proof (reached sr Hsr ops Hok) as Hi.
    set (e := (env_run sr (new_env sr) ops).2) in *. rewrite frames_iter. cbn [fst].
    set (e1 := env_act sr (env_act sr (env_act sr e (SetSustain 0)) (SetRelease t)) NoteOff).
    assert (Hl1 : en_level e1 = en_level e) by (by destruct e).
    destruct Hi as (_ & _ & _ & _ & _ & Hidle).
    assert (Hr : en_phase e1 = Release).
    { destruct e as [p l ? ? ? ? ? ?]; cbn in *. destruct p; try done. specialize (Hidle eq_refl). lra. }
    assert (Hc : en_release e1 = 1).
    { assert (en_release e1 = release_coefficient sr t 0) as -> by (by destruct e). unfold release_coefficient, coefficient. destruct (Rle_dec t 0); [lra|].
      rewrite release_term. replace (1 / 10 / (0 + 1 / 10)) with 1 by field. rewrite ln_1. unfold Rdiv. by rewrite Rmult_0_l, exp_0. }
    assert (Hg : ∀ j, glide release_target (en_release e1) (en_level e1) j = en_level e).
    { intros j. unfold glide. rewrite Hc, pow1, Hl1. ring. }
    apply list_eq_same_length with m; [by rewrite replicate_length|by rewrite fmap_length, seq_length|]. intros i x y Hi Hx Hy.
    apply lookup_replicate in Hy as [-> _]. rewrite list_lookup_fmap, lookup_seq_lt in Hx by done. cbn [fmap option_fmap option_map] in Hx. apply (inj Some) in Hx as <-. cbn [Nat.add].
    rewrite (release_iter (S i) e1); [cbn; apply Hg|done|]. intros j _. rewrite Hg. done.
  Qed.
End release.

Lemma glide_two c l target : glide target c l 2 = target + c * c * (l - target).
Proof. unfold glide. cbn [pow]. ring. Qed.
(** attack time 0: one frame to full level *)
Lemma instant_attack sr s tr rest :
  env_values sr ([AAct (SetSustain s); AAct (SetRelease tr); AAct NoteOn; AFrame] ++ rest) =
  1 :: (env_run sr (with_level Decay 1 (env_act sr (env_act sr (new_env sr) (SetSustain s)) (SetRelease tr))) rest).1.
Proof.
  unfold env_values. cbn [app env_run]. unfold new_env. cbn [env_act env_process].
  assert (Hm : Rmin (process_exponential 0 attack_target (attack_coefficient sr 0)) 1 = 1).
  { apply Rmin_right. unfold process_exponential, attack_coefficient, coefficient, attack_target. destruct (Rle_dec 0 0); lra. }
  rewrite Hm. destruct (Rle_dec 1 1); [|lra]. unfold with_level. cbn. by destruct (env_run _ _ rest).
Qed.
Lemma slow_release :
  env_values 1 [AAct (SetSustain (1 / 10)); AAct (SetRelease 2); AAct NoteOn; AFrame;
    AAct (SetSustain (1 / 10)); AAct (SetRelease 2); AAct NoteOff; AFrame; AFrame] !! 2%nat = Some (9 / 20).
Proof.
  pose proof (instant_attack 1 (1 / 10) 2 ([AAct (SetSustain (1 / 10)); AAct (SetRelease 2); AAct NoteOff] ++ replicate 2 AFrame)) as E. cbn [app replicate] in E. rewrite E. cbn [lookup list_lookup].
  change [AAct (SetSustain (1 / 10)); AAct (SetRelease 2); AAct NoteOff; AFrame; AFrame]
    with ([AAct (SetSustain (1 / 10)); AAct (SetRelease 2); AAct NoteOff] ++ replicate 2 AFrame). cbn [app env_run].
  rewrite frames_iter. cbn [fst]. set (e := env_act _ _ _).
  assert (Hc : en_release e * en_release e = 1 / 2).
  { change (en_release e) with (release_coefficient 1 2 (1 / 10)). unfold release_coefficient.
    replace (coefficient 1 (- release_target / (1 / 10 - release_target)) 2 * coefficient 1 (- release_target / (1 / 10 - release_target)) 2)
      with (coefficient 1 (- release_target / (1 / 10 - release_target)) 2 ^ 2) by (cbn [pow]; ring).
    rewrite coefficient_pow, release_term by (lia || lra). replace (INR 2 / (2 * INR 1)) with 1 by (cbn; lra). rewrite Rpower_1 by lra. lra. }
  assert (Hlt : 0 < en_release e).
  { change (en_release e) with (release_coefficient 1 2 (1 / 10)). unfold release_coefficient, coefficient. destruct (Rle_dec 2 0); [lra|apply exp_pos]. }
  assert (Hc1 : en_release e > 1 / 2).
  { destruct (Rle_dec (en_release e) (1 / 2)) as [Hle|]; [|lra]. exfalso.
    assert (en_release e * en_release e <= 1 / 2 * (1 / 2)) by (apply Rmult_le_compat; lra). lra. }
  cbn [seq fmap list_fmap lookup list_lookup]. f_equal. rewrite (release_iter 2 e eq_refl).
  - cbn [with_level en_level]. rewrite glide_two. change (en_level e) with 1. rewrite Hc. unfold release_target. lra.
  - intros j Hj. change (en_level e) with 1. destruct (decide (j = 1%nat)) as [->|].
    + unfold glide, release_target. cbn [pow]. lra.
    + replace j with 2%nat by lia. rewrite glide_two, Hc. unfold release_target. lra.
Qed.
