(** Notes that are cut short or started again while one sounds. *)
From stdpp Require Import sets list list_numbers.
From Coq Require Import Reals Lra Lia.
From Verif Require Import Base Adsr AdsrSpec AdsrProofs AdsrCurve AdsrNote AdsrCutSpec.
Local Open Scope R_scope.

Lemma power_mono c i j : 0 <= c <= 1 → (i <= j)%nat → c ^ j <= c ^ i.
Proof.
  intros Hc Hij. replace j with (i + (j - i))%nat by lia. rewrite pow_add. assert (0 <= c ^ i) by (apply pow_le; lra).
  assert (0 <= c ^ (j - i) <= 1). { split; [apply pow_le; lra|]. rewrite <- (pow1 (j - i)). apply pow_incr. lra. } nra.
Qed.
Lemma act_level sr e a : en_level (env_act sr e a) = en_level e.
Proof. by destruct e, a. Qed.
Lemma last_level sr ops : ∀ e, en_level (env_run sr e ops).2 = default (en_level e) (last (env_run sr e ops).1).
Proof.
  induction ops as [|[a|] ops IH]; intros e; [done| |].
  - cbn [env_run]. rewrite IH. by rewrite act_level.
  - cbn [env_run]. specialize (IH (env_process e)). destruct (env_run sr (env_process e) ops) as [vs e2]. cbn [fst snd] in *. rewrite last_cons, IH. by destruct (last vs).
Qed.
Lemma level_after_ok sr ops : level_after sr ops = en_level (env_run sr (new_env sr) ops).2.
Proof. unfold level_after, env_values. by rewrite last_level. Qed.

Lemma release_from e j : en_phase e = Release ∨ en_phase e = Idle ∧ en_level e = 0 → 0 <= en_level e → 0 <= en_release e <= 1 → (1 <= j)%nat →
  en_level (env_iter j e) = Rmax 0 (glide release_target (en_release e) (en_level e) j).
Proof.
  intros Hp Hl Hc Hj. assert (Hpw : 0 <= en_release e ^ j <= 1).
  { split; [apply pow_le; lra|]. apply (power_mono _ 0 j); [done|lia]. }
  destruct Hp as [Hp|[Hp H0]].
  - destruct (least (λ j, glide release_target (en_release e) (en_level e) j <= 0) j) as [Hn|(k & Hk & Hd & Hlt)].
    { intros i. destruct (Rle_dec (glide release_target (en_release e) (en_level e) i) 0); auto. }
    + rewrite release_iter; [|done|]; [|intros i Hi; specialize (Hn i Hi); lra]. cbn [en_level with_level]. specialize (Hn j ltac:(lia)). rewrite Rmax_right; [done|lra].
    + rewrite (idle_stays 1 Nat.lt_0_1 (S k) j e); [|apply release_done; [done| |done]; intros i Hi; specialize (Hlt i Hi); lra|lia]. cbn [en_level with_level].
      rewrite Rmax_left; [done|]. eapply Rle_trans; [|exact Hd]. unfold glide. apply Rplus_le_compat_l. apply Rmult_le_compat_r; [unfold release_target; lra|]. apply power_mono; [done|lia].
  - rewrite idle_iter by done. rewrite H0. rewrite Rmax_left; [done|]. unfold glide, release_target. lra.
Qed.

Section cut.
  Context (sr : nat) (Hsr : (0 < sr)%nat).

  Lemma cut_ok ops s t m : Forall op_ok ops → 0 < t → 0 <= s <= 1 →
    env_values sr (ops ++ [AAct (SetSustain s); AAct (SetRelease t); AAct NoteOff] ++ replicate m AFrame) =
    env_values sr ops ++ (falls_from (level_after sr ops) s (t * INR sr) <$> seq 0 m).
  Proof.
    intros Hok Ht Hs. rewrite level_after_ok. unfold env_values. rewrite run_app. cbn [fst snd app env_run]. pose proof (reached sr Hsr ops Hok) as Hi.
    set (e := (env_run sr (new_env sr) ops).2) in *. rewrite frames_iter. cbn [fst]. f_equal.
    set (e1 := env_act sr (env_act sr (env_act sr e (SetSustain s)) (SetRelease t)) NoteOff).
    destruct Hi as ((Hl0 & Hl1) & _ & _ & _ & _ & Hidle).
    assert (Hlev : en_level e1 = en_level e) by (by destruct e).
    assert (Hc : en_release e1 = release_coefficient sr t s) by (by destruct e).
    assert (Hp : en_phase e1 = Release ∨ en_phase e1 = Idle ∧ en_level e1 = 0).
    { rewrite Hlev. destruct e as [p l ? ? ? ? ? ?]. cbn in *. destruct p; auto. }
    assert (Hcr : 0 <= en_release e1 <= 1).
    { rewrite Hc. unfold release_coefficient. rewrite <- (pow_1 (coefficient _ _ _)), coefficient_pow, release_term by done.
      pose proof (release_term_range s ltac:(lra)) as Hr. unfold Rpower. split; [left; apply exp_pos|].
      assert (Hln : ln (1 / 10 / (s + 1 / 10)) <= 0). { rewrite <- ln_1. destruct (proj2 Hr) as [H|H]; [left; apply ln_increasing; lra|rewrite H; right; done]. }
      assert (Hn : 0 < t * INR sr) by (apply Rmult_lt_0_compat; [done|by apply lt_0_INR]).
      assert (0 < INR 1 / (t * INR sr)) by (apply Rdiv_lt_0_compat; [cbn; lra|done]).
      assert (Hz : INR 1 / (t * INR sr) * ln (1 / 10 / (s + 1 / 10)) <= 0) by nra. destruct Hz as [Hz|Hz]; [apply exp_increasing in Hz; rewrite exp_0 in Hz; lra|rewrite Hz, exp_0; lra]. }
    apply list_fmap_ext. intros i k Hk. rewrite release_from by (done || lia || lra). unfold falls_from, glide. rewrite Hc, Hlev. unfold release_coefficient.
    rewrite coefficient_pow, release_term by done. unfold release_target. f_equal. rewrite Rmult_comm. lra.
  Qed.

  Lemma retrigger_ok ops t m : Forall op_ok ops → 0 < t → (∀ k, (S k < m)%nat → rises_from (level_after sr ops) (t * INR sr) k < 1) →
    env_values sr (ops ++ [AAct (SetAttack t); AAct NoteOn] ++ replicate m AFrame) =
    env_values sr ops ++ (rises_from (level_after sr ops) (t * INR sr) <$> seq 0 m).
  Proof.
    intros Hok Ht. rewrite level_after_ok. intros Hlt. unfold env_values. rewrite run_app. cbn [fst snd app env_run].
    set (e := (env_run sr (new_env sr) ops).2) in *. rewrite frames_iter. cbn [fst]. f_equal.
    set (e1 := env_act sr (env_act sr e (SetAttack t)) NoteOn).
    assert (Hlev : en_level e1 = en_level e) by (by destruct e). assert (Hp : en_phase e1 = Attack) by (by destruct e).
    assert (Hc : en_attack e1 = attack_coefficient sr t) by (by destruct e).
    assert (Hg : ∀ k, rises_from (en_level e) (t * INR sr) k = Rmin 1 (glide attack_target (en_attack e1) (en_level e1) (S k))).
    { intros k. unfold rises_from, glide. rewrite Hc, Hlev. unfold attack_coefficient. rewrite coefficient_pow, attack_term by done. unfold attack_target. f_equal. rewrite Rmult_comm. lra. }
    assert (Hb : ∀ j, (1 <= j < m)%nat → glide attack_target (en_attack e1) (en_level e1) j < 1).
    { intros j Hj. specialize (Hlt (j - 1)%nat ltac:(lia)). rewrite Hg in Hlt. replace (S (j - 1)) with j in Hlt by lia. unfold Rmin in Hlt. destruct (Rle_dec 1 _); lra. }
    apply list_fmap_ext. intros i k Hk. apply lookup_seq in Hk as [-> Hi]. cbn [Nat.add]. rewrite Hg.
    destruct (Rlt_dec (glide attack_target (en_attack e1) (en_level e1) (S i)) 1) as [H1|H1].
    - rewrite attack_iter; [|done|]; [cbn [en_level with_level]; rewrite Rmin_right; lra|]. intros j Hj. destruct (decide (j = S i)) as [->|]; [done|]. apply Hb. lia.
    - rewrite attack_done; [|done|intros j Hj; apply Hb; lia|lra]. cbn [en_level with_level]. rewrite Rmin_left; lra.
  Qed.

  Lemma staccato_ok ops ta s tr n m : Forall op_ok ops → 0 < ta → 0 < tr → 0 <= s <= 1 → (0 < n)%nat →
    (∀ k, (S k < n)%nat → rises_from (level_after sr ops) (ta * INR sr) k < 1) →
    env_values sr (ops ++ ([AAct (SetAttack ta); AAct NoteOn] ++ replicate n AFrame) ++ [AAct (SetSustain s); AAct (SetRelease tr); AAct NoteOff] ++ replicate m AFrame) =
    env_values sr ops ++ (rises_from (level_after sr ops) (ta * INR sr) <$> seq 0 n) ++
      (falls_from (rises_from (level_after sr ops) (ta * INR sr) (n - 1)) s (tr * INR sr) <$> seq 0 m).
  Proof.
    intros Hok Hta Htr Hs Hn Hlt. rewrite app_assoc, cut_ok; [|apply Forall_app; split; [done|]|done|done].
    2: { apply Forall_app. split; [repeat constructor; cbn; lra|]. by apply Forall_replicate. }
    rewrite retrigger_ok by done. rewrite <- app_assoc. do 2 f_equal. f_equal. unfold level_after at 1. rewrite retrigger_ok by done.
    assert (Hlast : ∀ (l : list R) f, last (l ++ (f <$> seq 0 n)) = Some (f (n - 1)%nat)).
    { intros l f. destruct n as [|n']; [lia|]. rewrite seq_S, fmap_app, app_assoc. cbn [fmap list_fmap]. rewrite last_snoc. cbn. by rewrite Nat.sub_0_r. }
    by rewrite Hlast.
  Qed.
End cut.
