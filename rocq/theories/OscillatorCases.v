From stdpp Require Import list list_numbers.
From Coq Require Import Reals ZArith Lra Lia.
From Verif Require Import Base Buffer BufferSpec BufferProofs EffectSpec EffectProofs Float FloatProofs TimestampProofs Arith Oscillator OscillatorSpec OscillatorPhase OscillatorProofs OscillatorNode.
From Verif Require Import Envelope Mixer MixerR GainProofs AudioParamR.

(** ** Frequencies that hit 1.0 *)
Lemma hit_samples (rate : Z) (hz n : nat) (fuel : nat) (table : list Z) (limit : Z) :
  (0 < rate <= 2 ^ 53)%Z → (Z.of_nat hz <= limit)%Z → (limit <= 2 ^ 52)%Z → (limit <= Z.of_nat fuel)%Z → (Z.of_nat fuel < 2 ^ 53)%Z →
  (0 < Z.of_nat (length table) <= 2 ^ 53)%Z →
  phase_after binary64 fuel rate 0%Z (replicate n (Z.of_nat hz * one64)%Z) = Ok one64 →
  osc_samples binary64 fuel rate table 0%Z (replicate n (Z.of_nat hz * one64)%Z) = Panic IndexOutOfRange.
Proof.
  intros H1 H2 H3 H4 H5 H6 HP. pose proof one64_pos as Ho.
  pose proof (osc_samples_spec fuel limit rate table H1 H3 H4 H5 H6 (replicate n (Z.of_nat hz * one64)%Z) 0%Z) as H.
  destruct (osc_samples _ _ _ _ _ _) as [[q ys]|e].
  - destruct H as (_ & E & H); [apply repr_0; lia|lia| |].
    { apply Forall_replicate. split; [apply is_f64_repr, repr_whole; lia|]. split; [lia|]. apply Z.mul_le_mono_nonneg_r; lia. }
    specialize (H (length (replicate n (Z.of_nat hz * one64)%Z)) one64 ltac:(lia)). rewrite take_ge in H by lia. apply H in HP. lia.
  - destruct H as (-> & _); [apply repr_0; lia|lia| |done].
    apply Forall_replicate. split; [apply is_f64_repr, repr_whole; lia|]. split; [lia|]. apply Z.mul_le_mono_nonneg_r; lia.
Qed.

(** more fuel does not change a result *)
Lemma wrap_fuel {N} (a : arith N) fuel : ∀ fuel' p q, fuel ≤ fuel' → wrap_phase a fuel p = Ok q → wrap_phase a fuel' p = Ok q.
Proof.
  induction fuel as [|fuel IH]; intros fuel' p q Hf; cbn [wrap_phase].
  - destruct fuel'; cbn [wrap_phase]; by destruct (a_ltb a (a_one a) p).
  - destruct fuel' as [|fuel']; [lia|]. cbn [wrap_phase]. destruct (a_ltb a (a_one a) p); [|done]. apply IH. lia.
Qed.
Lemma phase_fuel {N} (a : arith N) fuel fuel' rate fs : fuel ≤ fuel' → ∀ p q, phase_after a fuel rate p fs = Ok q → phase_after a fuel' rate p fs = Ok q.
Proof.
  intros Hf. unfold phase_after. induction fs as [|f fs IH]; intros p q; cbn [rfold]; [done|].
  unfold increment_phase. destruct (wrap_phase a fuel (a_add a p (a_div a f (a_of a rate)))) as [p'|] eqn:E; [|done].
  rewrite (wrap_fuel a fuel fuel' _ p' Hf E). cbn [rbind]. apply IH.
Qed.

Lemma hit_750 : phase_after binary64 2 48000 0%Z (replicate 64 (Z.of_nat 750 * one64)%Z) = Ok one64.
Proof. vm_compute. reflexivity. Qed.
Lemma hit_784 : phase_after binary64 2 44100 0%Z (replicate 225 (Z.of_nat 784 * one64)%Z) = Ok one64.
Proof. vm_compute. reflexivity. Qed.

Section block.
  Context (narrow : Z → Z) (is_zero is_one : Z → bool) (mul : Z → Z → Z).
  Lemma hit_block (rate_ : nat) (hz n fuel : nat) (table : list Z) (gains : list Z) (out : owned Z) ov : 
    (0 < Z.of_nat rate_ <= 2 ^ 53)%Z → (Z.of_nat hz <= 2 ^ 15)%Z → (2 ^ 15 <= Z.of_nat fuel)%Z → (Z.of_nat fuel < 2 ^ 53)%Z →
    (0 < Z.of_nat (length table) <= 2 ^ 53)%Z →
    phase_after binary64 2 (Z.of_nat rate_) 0%Z (replicate n (Z.of_nat hz * one64)%Z) = Ok one64 →
    wf out → valid_view out ov → rate out = rate_ → 0 < v_channels out ov → v_frames out ov = n →
    osc_process binary64 f64_of_f32 narrow 0%Z is_zero is_one mul fuel table 0%Z (replicate n (Z.of_nat hz * one32)%Z) gains out ov = Panic IndexOutOfRange.
  Proof.
    intros H1 H2 H3 H4 H5 HP Hw Hv Hr Hc Hn.
    apply osc_process_panic; [done|done|done|by rewrite replicate_length|]. rewrite Hr.
    assert (E : f64_of_f32 <$> replicate n (Z.of_nat hz * one32)%Z = replicate n (Z.of_nat hz * one64)%Z).
    { rewrite fmap_replicate. f_equal. unfold f64_of_f32. rewrite Z.shiftl_mul_pow2 by lia. rewrite <-Z.mul_assoc. f_equal. }
    rewrite E. apply (hit_samples _ hz n fuel table (2 ^ 15)); [done|done|lia|done|done|done|].
    eapply phase_fuel; [|exact HP]. lia.
  Qed.
End block.

(** ** The last interval of the table *)
Local Open Scope R_scope.
Definition flat_table : list R := [1; 1; 1; 1].
Lemma flat_wave x : wave flat_table x = 1.
Proof.
  unfold wave. cbv zeta. assert (H : ∀ k, entry flat_table k = 1).
  { intros k. unfold entry. change (length flat_table) with 4%nat. pose proof (Nat.mod_upper_bound k 4 ltac:(lia)) as Hk.
    destruct (k mod 4)%nat as [|[|[|[|n]]]]; [done..|lia]. }
  rewrite !H. lra.
Qed.
Lemma flat_value : table_value exact flat_table (7 / 8) = Ok (1 / 2).
Proof.
  unfold table_value. cbn [exact a_mul a_of a_floor a_ceil a_zero a_sub]. change (Z.of_nat (length flat_table)) with 4%Z.
  assert (E : Int_part (7 / 8 * 4) = 3%Z) by (apply int_part_unique; lra).
  assert (Ec : ceiling (7 / 8 * 4) = 4%Z). { rewrite ceiling_frac. unfold frac. rewrite E. destruct (Req_EM_T _ _); [lra|done]. }
  rewrite E. unfold Envelope.ceiling in *. rewrite Ec. change (Z.to_nat 3) with 3%nat. change (Z.to_nat 4) with 4%nat.
  change (flat_table !! 3%nat) with (Some 1). change (flat_table !! 4%nat) with (@None R). cbn [runwrap rbind]. f_equal. unfold interpolate.
  cbn [exact a_add a_mul a_sub a_one from_option]. change (default 0 None) with 0. lra.
Qed.
Lemma flat_samples : osc_samples exact 1 8 flat_table 0 [7] = Ok (7 / 8, [1 / 2]).
Proof.
  cbn [osc_samples]. assert (E : increment_phase exact 1 0 7 8 = Ok (7 / 8)).
  { unfold increment_phase. cbn [wrap_phase exact a_ltb a_one a_sub a_add a_div a_of]. destruct (Rlt_dec 1 (0 + 7 / 8)); [lra|]. f_equal. lra. }
  rewrite E. cbn [rbind]. rewrite flat_value. done.
Qed.
