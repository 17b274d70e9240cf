(** Consequences of the refinement, as used by the property theorems. *)
From stdpp Require Import list list_numbers sorting.
From Coq Require Import ZArith ZifyBool ZifyNat.
From Verif Require Import Base Float Timestamp TimestampProofs EventProcessor EventProcessorSpec EventProcessorProofs
  Buffer BufferSpec BufferProofs Sampler SamplerSpec SamplerTime SamplerVoice SamplerProofs SamplerScenes SamplerStop SamplerDemo SamplerRefuted.

Section cases.
  Context {A : Type} (one : A) (add mul : A → A → A) (smp : owned A) (fade : list A) (sr : nat).

  Lemma sampler_is_ideal bs : wf smp → 0 < length fade → (Z.of_nat (frames smp) <= 2 ^ 40)%Z → (0 < Z.of_nat sr <= 2 ^ 29)%Z →
    Forall (sblock_ok sr) bs → ∃ ds, handled sr [] bs ds ∧
    (accurate_run one smp fade sr 0 new_ideal bs ds →
     ∃ fuel outs, sampler_run one add mul smp fade fuel sr (new_evproc sr) new_sampler bs = Ok outs ∧
       Forall3 (λ b hs out, mixed add mul smp (sb_view b) 0 hs (sb_out b) out) bs (ideal_run one smp fade sr new_ideal bs ds) outs).
  Proof.
    intros H1 H2 H3 H4 Hbs. destruct (sampler_refines one add mul smp fade sr H1 H2 H3 H4 bs [] Hbs) as (ds & Hh & H); [constructor|].
    exists ds. split; [done|]. intros Ha. apply (H 0%Z new_sampler new_ideal); [|done]. by apply new_sampler_rel.
  Qed.

  Lemma whole_sample b bs e : wf smp → 0 < length fade → (Z.of_nat (frames smp) <= 2 ^ 40)%Z → (0 < Z.of_nat sr <= 2 ^ 29)%Z →
    Forall (sblock_ok sr) (b :: bs) → unattended bs → sb_sent b = [e] → ev_clear e = false →
    ev_data e = SStartImmediate → (ev_time e <= sb_start b)%Z →
    ((Z.of_nat (length bs) + 5) * (Z.of_nat sr + 1) <= 2 ^ 32 - 2 ^ 27)%Z → (Z.of_nat (total (b :: bs)) <= 2 ^ 40)%Z →
    ∃ fuel outs, sampler_run one add mul smp fade fuel sr (new_evproc sr) new_sampler (b :: bs) = Ok outs ∧
      ∀ j blk out ch fr, (b :: bs) !! j = Some blk → outs !! j = Some out → sb_view blk = Whole →
        ch < channels (sb_out blk) → fr < frames (sb_out blk) →
        sample out ch fr =
          (λ x, match sample smp ch (total (take j (b :: bs)) + fr) with Some y => add x y | None => x end)
          <$> sample (sb_out blk) ch fr.
  Proof.
    intros H1 H2 H3 H4 Hbs Hu Hs Hc He Ht Hw Htot.
    assert (Hfr : frame_of sr (sb_start b) e = 0) by (unfold frame_of; rewrite position_late; lia).
    destruct (plays_from one add mul smp fade sr H1 H2 H3 H4 b bs e 0%Z 0%Z 0 0%Z) as (fuel & outs & R & H);
      try (done || lia).
    - by right.
    - apply Forall_cons in Hbs as [(_ & _ & (Hb1 & Hb2 & _)) _]. unfold block_end, incremented_by_samples.
      pose proof (within_from_samples (Z.of_nat sr) (Z.of_nat (frames_in b)) H4 ltac:(unfold frames_in; lia)) as W.
      unfold SamplerTime.within in W. fold (frames_in b) in Hb1. set (t := from_samples _ _) in *. clearbody t.
      assert (0 < t * Z.of_nat sr)%Z as Hp by lia. apply Z.mul_pos_cancel_r in Hp; lia.
    - cbn zeta. by rewrite He.
    - unfold on_grid. by rewrite He.
    - exists fuel, outs. split; [done|]. intros j blk out ch fr Hj Ho Hv Hch Hf.
      rewrite (hears_at _ _ _ _ _ _ 0 j H blk out ch fr) by (done || unfold frames_in; by rewrite Hv).
      destruct (sample (sb_out blk) ch fr) as [x|]; [|done]. cbn [fmap option_fmap option_map]. f_equal.
      rewrite decide_False by lia. unfold play_plan, mix. change (Z.to_nat (nearest_frame sr 0%Z + 0)) with 0.
      rewrite (decide_False (P := 0 < 0 ∧ _)) by lia. cbn [fold_left]. unfold mix_one. cbn [fst snd].
      replace (0 + (0 + total (take j (b :: bs)) + fr - 0)) with (total (take j (b :: bs)) + fr) by lia. done.
  Qed.

  Lemma silent_until_started bs : wf smp → 0 < length fade → (0 < Z.of_nat sr <= 2 ^ 29)%Z → Forall (sblock_ok sr) bs →
    Forall (λ b, Forall quietening (sb_sent b)) bs →
    ∃ fuel outs, sampler_run one add mul smp fade fuel sr (new_evproc sr) new_sampler bs = Ok outs ∧ silent_from 0 0 bs outs.
  Proof.
    intros H1 H2 H3 Hbs Hq. apply (stays_silent one add mul smp fade sr H1 H2 H3 bs [] 0 0); try done; [constructor|].
    split; [done|]. split; [by repeat constructor|]. left. by repeat constructor.
  Qed.

  Lemma reachable_ok bs fuel q s : wf smp → 0 < length fade → (0 < Z.of_nat sr <= 2 ^ 29)%Z → Forall (sblock_ok sr) bs →
    sampler_after one add mul smp fade fuel sr (new_evproc sr) new_sampler bs = Ok (q, s) → Forall (voice_ok fade) (sa_voices s).
  Proof.
    intros H1 H2 H3 Hbs. apply (states_ok one add mul smp fade sr H1 H2 H3 bs fuel []); [done|constructor|by repeat constructor].
  Qed.
End cases.

Lemma demo_unique smp f1 f2 bs o1 o2 : demo smp f1 bs = Ok o1 → demo smp f2 bs = Ok o2 → o1 = o2.
Proof.
  intros H1 H2. unfold demo in *. apply (sampler_run_fuel _ _ _ _ _ _ f2) in H1. apply (sampler_run_fuel _ _ _ _ _ _ f1) in H2.
  rewrite Nat.add_comm in H2. congruence.
Qed.
Lemma demo_data smp f1 f2 bs outs l : demo smp f1 bs = Ok outs →
  match demo smp f2 bs with Ok o => data <$> o = l | _ => False end → data <$> outs = l.
Proof.
  intros H1 H2. destruct (demo smp f2 bs) as [o|] eqn:E; [|done]. by rewrite (demo_unique smp f1 f2 bs outs o H1 E).
Qed.
