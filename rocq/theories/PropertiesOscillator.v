(** C43, C71, C72: the oscillator. *)
From stdpp Require Import list list_numbers.
From Coq Require Import Reals ZArith Lra Lia.
From Verif Require Import Base Buffer BufferSpec BufferProofs EffectSpec EffectProofs Float FloatProofs TimestampProofs Arith Oscillator OscillatorSpec
  OscillatorPhase OscillatorProofs OscillatorNode OscillatorCases.
From Verif Require Import Mixer MixerR GainProofs AudioParamR.

(** ** C43 *)
(** In binary64, for every list of frequencies between 0 and [limit] Hz, every sample rate
    and every table, and from any phase in [0,1): either every sample is produced and the
    phase is in [0,1) after each of them, or the phase came out as exactly 1.0 after one of
    them and the processor aborts there.  (Missing: the latter happens, see below.) *)
Theorem C43_phase_partial (fuel : nat) (limit rate : Z) (table frequencies : list Z) (p : Z) :
  (0 < rate <= 2 ^ 53)%Z → (limit <= 2 ^ 52)%Z → (limit <= Z.of_nat fuel < 2 ^ 53)%Z → (0 < Z.of_nat (length table) <= 2 ^ 53)%Z →
  is_f64 p → (0 <= p < one64)%Z → frequencies_ok limit frequencies →
  match osc_samples binary64 fuel rate table p frequencies with
  | Ok (q, ys) => length ys = length frequencies ∧ phase_after binary64 fuel rate p frequencies = Ok q ∧
      ∀ n r, n ≤ length frequencies → phase_after binary64 fuel rate p (take n frequencies) = Ok r → (0 <= r < one64)%Z
  | Panic e => e = IndexOutOfRange ∧
      ∃ n, 0 < n ≤ length frequencies ∧ phase_after binary64 fuel rate p (take n frequencies) = Ok one64
  end.
Proof. intros H1 H2 [H3 H4] H5 H6 H7 H8. exact (osc_samples_spec fuel limit rate table H1 H2 H3 H4 H5 frequencies p H6 H7 H8). Qed.
Print Assumptions C43_phase_partial.

(** concert pitch at 44.1 kHz, 50 samples of a four-entry table *)
Example C43_phase_case : frequencies_ok 20000 (replicate 50 (440 * one64)%Z) ∧ is_f64 0 ∧
  ∃ q ys, osc_samples binary64 (Z.to_nat 20000) 44100 [0; one64; 0; - one64]%Z 0%Z (replicate 50 (440 * one64)%Z) = Ok (q, ys).
Proof.
  split; [|split].
  - apply Forall_replicate. split; [apply is_f64_repr, repr_whole; lia|]. pose proof one64_pos. lia.
  - exists 0%Z, 0%Z. cbn. lia.
  - eexists _, _. vm_compute. reflexivity.
Qed.

(** The property itself fails: 750 Hz at 48 kHz aborts on the 64th sample and 784 Hz at
    44.1 kHz on the 225th, whatever the table, the gains and the output. *)
Theorem C43_phase_one_refuted (narrow : Z → Z) (is_zero is_one : Z → bool) (mul : Z → Z → Z) (fuel : nat) (table gains : list Z) (out : owned Z) (ov : view) :
  (2 ^ 15 <= Z.of_nat fuel < 2 ^ 53)%Z → (0 < Z.of_nat (length table) <= 2 ^ 53)%Z →
  wf out → valid_view out ov → 0 < v_channels out ov →
  (Z.of_nat (rate out) = 48000%Z → v_frames out ov = 64 →
     osc_process binary64 f64_of_f32 narrow 0%Z is_zero is_one mul fuel table 0%Z (replicate 64 (750 * one32)%Z) gains out ov = Panic IndexOutOfRange) ∧
  (Z.of_nat (rate out) = 44100%Z → v_frames out ov = 225 →
     osc_process binary64 f64_of_f32 narrow 0%Z is_zero is_one mul fuel table 0%Z (replicate 225 (784 * one32)%Z) gains out ov = Panic IndexOutOfRange).
Proof.
  intros [F1 F2] Ht Hw Hv Hc. split; intros Hr Hn.
  - apply (hit_block narrow is_zero is_one mul (rate out) 750 64 fuel table gains out ov); [lia|lia|done|done|done|rewrite Hr; exact hit_750|done..].
  - apply (hit_block narrow is_zero is_one mul (rate out) 784 225 fuel table gains out ov); [lia|lia|done|done|done|rewrite Hr; exact hit_784|done..].
Qed.
Print Assumptions C43_phase_one_refuted.

Example C43_refuted_case : ∃ out : owned Z, wf out ∧ Z.of_nat (rate out) = 48000%Z ∧ v_frames out Whole = 64 ∧ 0 < v_channels out Whole.
Proof. exists (new_buffer 0%Z 64 2 (Z.to_nat 48000)). split; [apply new_buffer_wf|]. cbn [rate frames channels new_buffer v_frames v_channels]. lia. Qed.

(** ** C71 *)
(** In exact arithmetic, a session of blocks plays the table, stretched to the frequency and
    linearly interpolated, continuously across blocks, on every channel, times the gain -- if
    the table starts with 0 and no sample falls on a whole number of cycles.  (Missing: other
    tables; see below.) *)
Theorem C71_plays_table_partial (fuel : nat) (limit : R) (rate_ : nat) (table : list R) (bs : list osc_block) :
  0 < rate_ → (limit <= INR fuel)%R → head table = Some 0%R → Forall (osc_block_ok rate_ limit) bs →
  never_whole rate_ (concat (ob_freq <$> bs)) →
  ∃ q outs, rfold (osc_step fuel table) bs (0%R, []) = Ok (q, outs) ∧ plays_all table rate_ [] bs outs.
Proof.
  intros Hr Hf Hh Hb Hw. assert (table ≠ []) by (by intros ->).
  destruct (osc_session fuel limit rate_ table Hr Hf H Hh bs [] 0%R [] 0%Z) as (q & outs & E & HP); [lra|rewrite cycles_nil; lra|done|done|].
  exists q, outs. done.
Qed.
Print Assumptions C71_plays_table_partial.

(** two stereo blocks of 3 and 2 frames at 1/8 cycle per sample *)
Definition eighth (n : nat) : osc_block := OscBlock (replicate n 1%R) (replicate n 1%R) (new_buffer 0%R n 2 8) Whole.
Example C71_case : Forall (osc_block_ok 8 1) [eighth 3; eighth 2] ∧ never_whole 8 (concat (ob_freq <$> [eighth 3; eighth 2])) ∧
  head [0; 1; 0; -1]%R = Some 0%R.
Proof.
  split; [|split; [|done]].
  - assert (∀ n, osc_block_ok 8 1 (eighth n)) as H.
    { intros n. unfold osc_block_ok, eighth. cbn [ob_freq ob_gain ob_out ob_view v_channels v_frames new_buffer rate channels frames].
      split; [apply new_buffer_wf|]. split; [done|]. split; [done|]. split; [lia|]. rewrite replicate_length. split; [done|]. split; [done|].
      apply Forall_replicate. cbn [INR]. lra. }
    repeat (apply Forall_cons; split; [apply H|]). constructor.
  - intros n Hn k. cbn [fmap list_fmap concat eighth ob_freq replicate app length] in *. unfold cycles.
    assert (IZR 0 < foldr Rplus 0 (take n [1; 1; 1; 1; 1]) / INR 8 < IZR 1)%R as [H1 H2].
    { destruct n as [|[|[|[|[|[|n]]]]]]; try lia; cbn [firstn foldr INR]; lra. }
    intros E. rewrite E in H1, H2. apply lt_IZR in H1, H2. lia.
Qed.

(** A sample that falls on a whole number of cycles aborts: the hypothesis above is needed. *)
Theorem C71_whole_cycle_aborts (fuel : nat) (limit : R) (rate_ : nat) (table frequencies : list R) :
  0 < rate_ → (limit <= INR fuel)%R → table ≠ [] → Forall (λ f, 0 < f <= limit * INR rate_)%R frequencies →
  ¬ never_whole rate_ frequencies → osc_samples exact fuel (Z.of_nat rate_) table 0%R frequencies = Panic IndexOutOfRange.
Proof.
  intros Hr Hf Hne Hfs Hw. pose proof (osc_samples_R fuel limit rate_ table Hr Hf Hne frequencies 0%R 0%R 0%Z) as H.
  specialize (H ltac:(lra) ltac:(lra) Hfs). destruct (osc_samples _ _ _ _ _ _) as [[q ys]|e].
  - destruct H as (_ & _ & _ & H & _). exfalso. apply Hw. intros n Hn k. specialize (H n Hn k). by rewrite Rplus_0_l in H.
  - by destruct H as [-> _].
Qed.
Print Assumptions C71_whole_cycle_aborts.
Example C71_abort_case : ¬ never_whole 4 [1; 1; 1; 1]%R ∧ Forall (λ f, 0 < f <= 1 * INR 4)%R [1; 1; 1; 1]%R.
Proof.
  split.
  - intros H. apply (H 4%nat ltac:(cbn; lia) 1%Z). unfold cycles. cbn [firstn foldr INR]. lra.
  - repeat (apply Forall_cons; split; [cbn [INR]; lra|]). constructor.
Qed.

(** A table that does not start with 0 is not played as it is: between its last entry and its
    first the code interpolates towards 0.  A constant table of ones comes out as 1/2. *)
Theorem C71_last_interval_refuted : ∃ (table : list R) (b : osc_block) (out' : owned R) (q : R),
  (2 < length table)%nat ∧ osc_block_ok 8 1 b ∧ never_whole 8 (ob_freq b) ∧ Forall (λ g, g = 1%R) (ob_gain b) ∧
  rfold (osc_step 1 table) [b] (0%R, []) = Ok (q, [out']) ∧
  (∀ x, wave table x = 1%R) ∧ sample out' 0 0 = Some (1 / 2)%R.
Proof.
  set (b := OscBlock [7%R] [1%R] (new_buffer 0%R 1 1 8) Whole).
  assert (Hok : osc_block_ok 8 1 b).
  { unfold osc_block_ok, b. cbn [ob_freq ob_gain ob_out ob_view v_channels v_frames new_buffer rate channels frames].
    split; [apply new_buffer_wf|]. split; [done|]. split; [done|]. split; [lia|]. split; [done|]. split; [done|].
    apply Forall_cons. split; [cbn [INR]; lra|constructor]. }
  pose proof Hok as (W1 & W2 & _).
  destruct (osc_process_ok exact (λ x, x) (λ x, x) 0%R (λ g, close32R g 0) (λ g, close32R g 1) Rmult 1 flat_table 0%R [7%R] [1%R]
    (ob_out b) (ob_view b) (7 / 8)%R [(1 / 2)%R]) as (out' & E & W); [done|done|cbn; lia|done|exact flat_samples|done|].
  exists flat_table, b, out', (7 / 8)%R. split; [cbn; lia|]. split; [done|]. split; [|split; [|split; [|split]]].
  - intros n Hn k. cbn [b ob_freq length] in *. assert (n = 1%nat) as -> by lia. unfold cycles. cbn [firstn foldr INR].
    intros Ek. assert (IZR 0 < IZR k < IZR 1)%R as [H1 H2] by (rewrite <-Ek; lra). apply lt_IZR in H1, H2. lia.
  - apply Forall_cons. done.
  - cbn [rfold]. unfold osc_step. cbn [fst snd]. unfold osc_process_R. cbn [b ob_freq ob_gain]. rewrite E. done.
  - apply flat_wave.
  - destruct W as (_ & Hd & _ & W). destruct (W 0 0) as (x & y & _ & S2 & s & Hs & ->); [cbn; lia|cbn; lia|].
    rewrite (seen_dims (ob_out b) out') in S2 by (try done; cbn; lia). cbn [b ob_view off_ch off_fr Nat.add] in S2. rewrite S2. f_equal.
    injection Hs as <-. rewrite (gained_exact [1%R] 0 1%R (1 / 2)%R); [lra|done|]. right. left. intros h Hh. by apply elem_of_list_singleton in Hh.
Qed.
Print Assumptions C71_last_interval_refuted.

(** ** C72 *)
(** In binary64, for frequencies up to the sample rate, the phase after [n] samples differs
    from the exact number of cycles, up to whole cycles, by at most [n] / 2^52 of a cycle.
    Both sides are multiplied by the sample rate; [total] is the sum of the frequencies. *)
Theorem C72_pitch (fuel : nat) (rate : Z) (frequencies : list Z) (q : Z) :
  (0 < rate <= 2 ^ 52)%Z → (rate <= Z.of_nat fuel < 2 ^ 53)%Z → frequencies_ok rate frequencies →
  phase_after binary64 fuel rate 0%Z frequencies = Ok q →
  ∃ k, (2 ^ 52 * Z.abs (rate * (q + k * one64) - total frequencies) <= Z.of_nat (length frequencies) * (rate * one64))%Z.
Proof.
  intros H1 [H2 H3] H4 H5. pose proof one64_pos as Ho.
  destruct (phase_error fuel rate H1 H2 H3 frequencies 0%Z q) as [k Hk]; [apply repr_0; lia|lia|done|done|].
  exists k. rewrite Z.mul_0_r, Z.add_0_l in Hk. by rewrite Z.mul_assoc.
Qed.
Print Assumptions C72_pitch.
Example C72_case : frequencies_ok 44100 (replicate 50 (440 * one64)%Z) ∧ ∃ q, phase_after binary64 (Z.to_nat 44100) 44100 0%Z (replicate 50 (440 * one64)%Z) = Ok q ∧ q ≠ 0%Z.
Proof.
  split; [|eexists; split; [vm_compute; reflexivity|done]].
  apply Forall_replicate. split; [apply is_f64_repr, repr_whole; lia|]. pose proof one64_pos. lia.
Qed.
