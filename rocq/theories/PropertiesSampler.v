(** Property theorems about the sampler. *)
From stdpp Require Import list list_numbers sorting.
From Coq Require Import ZArith Reals Lra ZifyBool ZifyNat Lia.
From Verif Require Import Base Float Timestamp EventProcessor EventProcessorSpec Buffer BufferSpec
  Sampler SamplerSpec SamplerVoice SamplerProofs SamplerScenes SamplerStop SamplerFade SamplerFadeProofs SamplerDemo SamplerRefuted SamplerCases.
Local Open Scope nat_scope.

(** C31, C33, C34: as long as rounding errors do not add up to half a frame, the
    sampler does, frame by frame, what the machine of SamplerSpec.v does
    ([ideal_frame] plays one frame, [ideal_act] carries out a request), for all requests, samples and block
    partitions; in particular it does not abort and its loop ends. *)
Theorem C31_C33_C34_sampler_refines {A : Type} (one : A) (add mul : A → A → A) (smp : owned A) (fade : list A) (sr : nat)
    (bs : list sblock) :
  wf smp → 0 < length fade → (Z.of_nat (frames smp) <= 2 ^ 40)%Z → (0 < Z.of_nat sr <= 2 ^ 29)%Z → Forall (sblock_ok sr) bs →
  ∃ ds, handled sr [] bs ds ∧
    (accurate_run one smp fade sr 0 new_ideal bs ds →
     ∃ fuel outs, sampler_run one add mul smp fade fuel sr (new_evproc sr) new_sampler bs = Ok outs ∧
       Forall3 (λ b hs out, mixed add mul smp (sb_view b) 0 hs (sb_out b) out) bs (ideal_run one smp fade sr new_ideal bs ds) outs).
Proof. exact (sampler_is_ideal one add mul smp fade sr bs). Qed.
Print Assumptions C31_C33_C34_sampler_refines.

(** C31: one request to start, at once or at a time, from anywhere in the sample:
    from the frame [f] the event time falls on, frame [q + k] of the sample is
    added to frame [f + k], [q] being the start position ([d] frames later if the
    request is handled late), with a fade in unless [q] is 0 ([play_plan]).  Before
    [f] and after the end of the sample nothing is added. *)
Theorem C31_plays_from {A : Type} (one : A) (add mul : A → A → A) (smp : owned A) (fade : list A) (sr : nat)
    (b : sblock) (bs : list sblock) (e : event sample_action) (p : timestamp) (w : Z) (f : nat) (d : Z) :
  wf smp → 0 < length fade → (Z.of_nat (frames smp) <= 2 ^ 40)%Z → (0 < Z.of_nat sr <= 2 ^ 29)%Z →
  Forall (sblock_ok sr) (b :: bs) → unattended bs → sb_sent b = [e] →
  ev_clear e = false → ev_data e = SStart p ∨ ev_data e = SStartImmediate ∧ p = 0%Z →
  (ev_time e < block_end sr (sb_start b) (frames_in b))%Z →
  f = frame_of sr (sb_start b) e →
  let t := incremented_by_samples (sb_start b) (Z.of_nat f) (Z.of_nat sr) in
  d = match ev_data e with SStartImmediate => 0%Z | _ => nearest_frame sr (t - ev_time e)%Z end →
  on_grid sr w e t →
  (0 <= w)%Z → ((w + Z.of_nat (length bs) + 5) * (Z.of_nat sr + 1) <= 2 ^ 32 - 2 ^ 27)%Z →
  (Z.max 0 d + Z.of_nat (total (b :: bs)) <= 2 ^ 40)%Z →
  ∃ fuel outs, sampler_run one add mul smp fade fuel sr (new_evproc sr) new_sampler (b :: bs) = Ok outs ∧
    hears add mul smp (λ k, if decide (k < f) then [] else play_plan one fade (Z.to_nat (nearest_frame sr p + d)) (k - f)) (b :: bs) outs.
Proof. intros H1 H2 H3 H4. exact (plays_from one add mul smp fade sr H1 H2 H3 H4 b bs e p w f d). Qed.
Print Assumptions C31_plays_from.

(** C31, spelled out for [start_now] on whole buffers: frame [k] of the stream gets
    frame [k] of the sample, in every block partition. *)
Theorem C31_whole_sample {A : Type} (one : A) (add mul : A → A → A) (smp : owned A) (fade : list A) (sr : nat)
    (b : sblock) (bs : list sblock) (e : event sample_action) :
  wf smp → 0 < length fade → (Z.of_nat (frames smp) <= 2 ^ 40)%Z → (0 < Z.of_nat sr <= 2 ^ 29)%Z →
  Forall (sblock_ok sr) (b :: bs) → unattended bs → sb_sent b = [e] → ev_clear e = false →
  ev_data e = SStartImmediate → (ev_time e <= sb_start b)%Z →
  ((Z.of_nat (length bs) + 5) * (Z.of_nat sr + 1) <= 2 ^ 32 - 2 ^ 27)%Z → (Z.of_nat (total (b :: bs)) <= 2 ^ 40)%Z →
  ∃ fuel outs, sampler_run one add mul smp fade fuel sr (new_evproc sr) new_sampler (b :: bs) = Ok outs ∧
    ∀ j blk out ch fr, (b :: bs) !! j = Some blk → outs !! j = Some out → sb_view blk = Whole →
      ch < channels (sb_out blk) → fr < frames (sb_out blk) →
      sample out ch fr =
        (λ x, match sample smp ch (total (take j (b :: bs)) + fr) with Some y => add x y | None => x end)
        <$> sample (sb_out blk) ch fr.
Proof. exact (whole_sample one add mul smp fade sr b bs e). Qed.
Print Assumptions C31_whole_sample.

Definition case31 : list (sblock (A := Z)) := script 80 0
  [([sampler_event (at_frame 80 5) 0 (SStart (at_frame 80 5))], 6); ([], 3); ([], 8)].
Example C31_case : ∃ fuel outs, demo (ramp 80 12) fuel case31 = Ok outs ∧
  hears Z.add quarter (ramp 80 12) (λ k, if decide (k < 5) then [] else play_plan 4%Z fade4 5 (k - 5)) case31 outs ∧
  data <$> outs = [[0; 0; 0; 0; 0; 0]; [1; 4; 6]; [10; 11; 12; 0; 0; 0; 0; 0]]%Z.
Proof.
  destruct (C31_plays_from 4%Z Z.add quarter (ramp 80 12) fade4 80 
    (SBlock [sampler_event (at_frame 80 5) 0 (SStart (at_frame 80 5))] (at_frame 80 0) (mono 80 (replicate 6 0%Z)) Whole)
    (script 80 6 [([], 3); ([], 8)]) (sampler_event (at_frame 80 5) 0 (SStart (at_frame 80 5))) (at_frame 80 5) 1 5 0) as (fuel & outs & R & H).
  - done.
  - cbn. lia.
  - cbn. lia.
  - lia.
  - apply (script_ok 80 [([sampler_event (at_frame 80 5) 0 (SStart (at_frame 80 5))], 6); ([], 3); ([], 8)]). repeat constructor; cbn; lia.
  - by repeat constructor.
  - done.
  - done.
  - by left.
  - done.
  - vm_compute. done.
  - vm_compute. done.
  - unfold on_grid. vm_compute. repeat split; congruence || lia.
  - lia.
  - cbn. lia.
  - cbn. lia.
  - exists fuel, outs. split; [exact R|]. split; [exact H|]. apply (demo_data _ _ 20 _ _ _ R). vm_compute. reflexivity.
Qed.

(** C31 fails when blocks are many: positions are summed up as rounded time
    stamps, and after 109999 blocks of one frame at 44100 Hz the sum is half a
    frame ahead; the last frame of the sample is never played.  All other
    hypotheses of [C31_whole_sample] hold. *)
Theorem C31_drift_refuted :
  Forall (sblock_ok rate44) long_run ∧ wf long_smp ∧ total long_run = frames long_smp ∧
  ∃ fuel outs, sampler_run 4%Z Z.add quarter long_smp fade4 fuel rate44 (new_evproc rate44) new_sampler long_run = Ok outs ∧
    ¬ hears Z.add quarter long_smp (play_plan 4%Z fade4 0) long_run outs.
Proof. exact (conj long_run_ok (conj long_smp_wf (conj long_run_total long_run_loses_frame))). Qed.
Print Assumptions C31_drift_refuted.

(** C31 fails for a start that comes while an earlier one is still being
    cross-faded: it is dropped, and the sampler falls silent although frames
    from 40 on of the sample are to be played from frame 5 on.  [ramp 80 60] is
    the sample 1, 2, …, 60. *)
Theorem C31_start_dropped_refuted :
  (Forall (sblock_ok 80) third_start ∧
   sb_sent <$> third_start = [[now 0 SStartImmediate]; [sampler_event (at_frame 80 3) 1 (SStart (at_frame 80 20))];
     [sampler_event (at_frame 80 5) 2 (SStart (at_frame 80 40))]; []]) ∧
  frames (ramp 80 60) = 60 ∧
  (∃ fuel outs, demo (ramp 80 60) fuel third_start = Ok outs ∧
    data <$> outs = [[1; 2; 3]; [4; 8]; [26; 19]; [12; 6; 0; 0; 0; 0; 0; 0]]%Z).
Proof. exact third_start_dropped. Qed.
Print Assumptions C31_start_dropped_refuted.

(** C32, over the reals: the gains of a fade of [n] frames. *)
Theorem C32_gains_bounded (n p : nat) : (0 <= fade_in_gain n p <= 1)%R.
Proof. exact (fade_range n p). Qed.
Print Assumptions C32_gains_bounded.
Theorem C32_fade_in_rises (n : nat) : 0 < n →
  fade_in_gain n 0 = 0%R ∧ (∀ p q, p ≤ q → (fade_in_gain n p <= fade_in_gain n q)%R) ∧ ∀ p, n ≤ p → fade_in_gain n p = 1%R.
Proof. exact (λ Hn, conj (fade_begin n Hn) (conj (fade_mono n) (fade_end n))). Qed.
Print Assumptions C32_fade_in_rises.
Theorem C32_fade_out_complements (n p : nat) : 0 < n → p ≤ n →
  ∃ g, fade_out_gain n p = Ok g ∧ (fade_in_gain n p + g = 1)%R.
Proof. exact (λ Hn Hp, ex_intro _ _ (conj (fade_out_ok n p Hp) (fade_complement n p Hn Hp))). Qed.
Print Assumptions C32_fade_out_complements.
(** the gains that [C33_loops] mixes sum to one *)
Theorem C32_crossfade (n k : nat) : k < n → (gain_in 1 (fade_values n) k + gain_out 1 (fade_values n) k = 1)%R.
Proof. exact (crossfade n k). Qed.
Print Assumptions C32_crossfade.
Example C32_case : fade_in_gain 4 2 = 0.5%R.
Proof.
  pose proof (fade_complement 4 2 ltac:(lia) ltac:(lia)) as H. cbn [Nat.sub] in H. lra.
Qed.

(** C33: a loop of at least the length of the fade, enabled before the start: up
    to the loop end the sample is played as it is; then, for as many loops as
    there is room for, playback jumps to the loop start exactly when the loop end is reached,
    and what follows the loop end is heard only in the cross-fade ([loop_plan]). *)
Theorem C33_loops {A : Type} (one : A) (add mul : A → A → A) (smp : owned A) (fade : list A) (sr : nat)
    (ls le : nat) (b : sblock) (bs : list sblock) (e1 e2 : event sample_action) (ts te : timestamp) (n : nat) :
  wf smp → 0 < length fade → (Z.of_nat (frames smp) <= 2 ^ 40)%Z → (0 < Z.of_nat sr <= 2 ^ 29)%Z →
  ls < le → length fade ≤ le - ls → (Z.of_nat le <= 2 ^ 39)%Z →
  Forall (sblock_ok sr) (b :: bs) → unattended bs → sb_sent b = [e1; e2] →
  ev_data e1 = SEnableLoop ts te → ev_data e2 = SStartImmediate →
  ev_clear e1 = false → ev_clear e2 = false → ev_before e1 e2 → ev_seq e1 ≠ ev_seq e2 →
  (ev_time e1 <= sb_start b)%Z → (ev_time e2 <= sb_start b)%Z →
  nearest_frame sr ts = Z.of_nat ls → off_grid sr ts (Z.of_nat ls) (Z.of_nat sr + 1) →
  nearest_frame sr te = Z.of_nat le → off_grid sr te (Z.of_nat le) (Z.of_nat sr + 1) →
  total (b :: bs) ≤ le + n * (le - ls) →
  ((Z.of_nat (length bs) + 4 * Z.of_nat n + 6) * (Z.of_nat sr + 1) <= 2 ^ 32 - 2 ^ 27)%Z →
  (Z.of_nat (total (b :: bs)) <= 2 ^ 40)%Z → (Z.of_nat (le - ls) * Z.of_nat n <= 2 ^ 40)%Z →
  ∃ fuel outs, sampler_run one add mul smp fade fuel sr (new_evproc sr) new_sampler (b :: bs) = Ok outs ∧
    hears add mul smp (loop_plan one fade ls le) (b :: bs) outs.
Proof. intros H1 H2 H3 H4 H5 H6 H7. exact (loops_back one add mul smp fade sr H1 H2 H3 H4 ls le H5 H6 H7 b bs e1 e2 ts te n). Qed.
Print Assumptions C33_loops.

Definition case33 : list (sblock (A := Z)) := script 80 0
  [([now 0 (SEnableLoop (at_frame 80 3) (at_frame 80 8)); now 1 SStartImmediate], 6); ([], 10); ([], 5)].
Example C33_case : ∃ fuel outs, demo (ramp 80 60) fuel case33 = Ok outs ∧
  hears Z.add quarter (ramp 80 60) (loop_plan 4%Z fade4 3 8) case33 outs ∧
  data <$> outs = [[1; 2; 3; 4; 5; 6]; [7; 8; 9; 8; 8; 8; 8; 9; 8; 8]; [8; 8; 9; 8; 8]]%Z.
Proof.
  destruct (C33_loops 4%Z Z.add quarter (ramp 80 60) fade4 80 3 8
    (SBlock [now 0 (SEnableLoop (at_frame 80 3) (at_frame 80 8)); now 1 SStartImmediate] (at_frame 80 0) (mono 80 (replicate 6 0%Z)) Whole)
    (script 80 6 [([], 10); ([], 5)]) (now 0 (SEnableLoop (at_frame 80 3) (at_frame 80 8))) (now 1 SStartImmediate)
    (at_frame 80 3) (at_frame 80 8) 3) as (fuel & outs & R & H).
  1: reflexivity. 1-6: cbn; lia.
  - apply (script_ok 80 [([now 0 (SEnableLoop (at_frame 80 3) (at_frame 80 8)); now 1 SStartImmediate], 6); ([], 10); ([], 5)]).
    repeat constructor; cbn; lia.
  - by repeat constructor.
  - reflexivity.
  - reflexivity.
  - reflexivity.
  - reflexivity.
  - reflexivity.
  - right. split; cbn; lia.
  - discriminate.
  - vm_compute. discriminate.
  - vm_compute. discriminate.
  - vm_compute. reflexivity.
  - vm_compute. discriminate.
  - vm_compute. reflexivity.
  - vm_compute. discriminate.
  - cbn. lia.
  - cbn. lia.
  - cbn. lia.
  - cbn. lia.
  - exists fuel, outs. split; [exact R|]. split; [exact H|].
    apply (demo_data _ _ 20 _ _ _ R). vm_compute. reflexivity.
Qed.

(** C33 fails for a loop shorter than the fade: the loop from 3 to 5 is soon not
    heard as [C33_loops] says. *)
Theorem C33_short_loop_refuted : ∃ fuel outs, demo (ramp 80 60) fuel short_loop = Ok outs ∧
  ¬ hears Z.add quarter (ramp 80 60) (loop_plan 4%Z fade4 3 5) short_loop outs.
Proof. exact short_loop_fails. Qed.
Print Assumptions C33_short_loop_refuted.
(** C33 fails for an empty loop: the audio callback does not return. *)
Theorem C33_empty_loop_refuted : Forall (sblock_ok 80) empty_loop ∧ ∀ fuel, demo (ramp 80 60) fuel empty_loop = Panic OutOfFuel.
Proof. exact (conj empty_loop_ok empty_loop_hangs). Qed.
Print Assumptions C33_empty_loop_refuted.
(** It is so for every sampler that reaches the end of a loop that does not end after it begins. *)
Theorem C33_backward_loop_refuted {A : Type} (one : A) (add mul : A → A → A) (smp : owned A) (fade : list A) (sr : nat)
    (s : sampler) (ts te : timestamp) (out : owned A) (ov : view) (fp fuel : nat) :
  (0 < Z.of_nat sr <= 2 ^ 29)%Z → (te <= ts)%Z → sa_loop s = Some (ts, te) → sa_loops s = 0 →
  fp < v_frames out ov → render_count smp sr s (v_frames out ov - fp) = 0 →
  process_sample one add mul smp fade sr fuel s out ov fp = Panic OutOfFuel.
Proof. exact (λ Hsr H1 H2 H3 H4 H5, empty_loop_stuck one add mul smp fade sr Hsr s ts te out ov fp H1 H2 H3 H4 H5 fuel s eq_refl eq_refl eq_refl). Qed.
Print Assumptions C33_backward_loop_refuted.

(** C34: a sampler that is not looping, in whatever state its history has left it,
    receives a stop: the length of a fade later nothing is heard any more, until
    something else than a stop or a cancellation is requested.  The same holds
    for [cancel_all], whether it is looping or not. *)
Theorem C34_stops_partial {A : Type} (one : A) (add mul : A → A → A) (smp : owned A) (fade : list A) (sr : nat)
    (b : sblock) (bs : list sblock) (e : event sample_action) (s : sampler) :
  wf smp → 0 < length fade → (0 < Z.of_nat sr <= 2 ^ 29)%Z →
  Forall (sblock_ok sr) (b :: bs) → sb_sent b = [e] → Forall (λ b, Forall quietening (sb_sent b)) bs →
  ev_data e = SStop ∧ ev_clear e = false ∧ sa_loop s = None ∨ ev_data e = SCancelAll ∧ ev_clear e = true →
  (ev_time e <= sb_start b)%Z → Forall (voice_ok fade) (sa_voices s) →
  ∃ fuel outs, sampler_run one add mul smp fade fuel sr (new_evproc sr) s (b :: bs) = Ok outs ∧
    silent_from (length fade) 0 (b :: bs) outs.
Proof. intros H1 H2 H3. exact (stops one add mul smp fade sr H1 H2 H3 b bs e s). Qed.
Print Assumptions C34_stops_partial.
(** every history leaves the sampler in a state of that kind *)
Theorem C34_reachable_states {A : Type} (one : A) (add mul : A → A → A) (smp : owned A) (fade : list A) (sr : nat)
    (bs : list sblock) (fuel : nat) (q : evproc sample_action) (s : sampler) :
  wf smp → 0 < length fade → (0 < Z.of_nat sr <= 2 ^ 29)%Z → Forall (sblock_ok sr) bs →
  sampler_after one add mul smp fade fuel sr (new_evproc sr) new_sampler bs = Ok (q, s) →
  Forall (voice_ok fade) (sa_voices s).
Proof. intros H1 H2 H3. exact (reachable_ok one add mul smp fade sr bs fuel q s H1 H2 H3). Qed.
Print Assumptions C34_reachable_states.
(** a playing sampler is such a state *)
Example C34_case : ∃ q s, sampler_after 4%Z Z.add quarter (ramp 80 60) fade4 20 80 (new_evproc 80) new_sampler
  (script 80 0 [([now 0 SStartImmediate], 7)]) = Ok (q, s) ∧ sa_voices s = [Voice 7 Playing; Voice 0 Stopped] ∧ sa_loop s = None.
Proof. do 2 eexists. split; [vm_compute; reflexivity|]. split; reflexivity. Qed.
(** C34 fails while looping: playback resumes at the loop end by itself. *)
Theorem C34_loop_outlives_stop_refuted : ∃ fuel outs, demo (ramp 80 60) fuel stop_looping = Ok outs ∧
  ¬ silent_from (length fade4) 0 (drop 1 stop_looping) (drop 1 outs).
Proof. exact stop_looping_sounds. Qed.
Print Assumptions C34_loop_outlives_stop_refuted.

(** C63: a new sampler is silent as long as nothing but stops and cancellations are requested. *)
Theorem C63_silent_until_started_partial {A : Type} (one : A) (add mul : A → A → A) (smp : owned A) (fade : list A) (sr : nat)
    (bs : list sblock) :
  wf smp → 0 < length fade → (0 < Z.of_nat sr <= 2 ^ 29)%Z → Forall (sblock_ok sr) bs →
  Forall (λ b, Forall quietening (sb_sent b)) bs →
  ∃ fuel outs, sampler_run one add mul smp fade fuel sr (new_evproc sr) new_sampler bs = Ok outs ∧ silent_from 0 0 bs outs.
Proof. exact (silent_until_started one add mul smp fade sr bs). Qed.
Print Assumptions C63_silent_until_started_partial.
Example C63_case : Forall (sblock_ok 80) (script 80 0 [([now 0 SStop; now 1 SCancelLoop], 4); ([], 9)]).
Proof. apply script_ok. repeat constructor; cbn; lia. Qed.
(** C63 fails when a loop is enabled: it starts playing at the loop end. *)
Theorem C63_loop_starts_itself_refuted : ∃ fuel outs, demo (ramp 80 60) fuel never_started = Ok outs ∧
  ¬ silent_from 0 0 never_started outs.
Proof. exact never_started_sounds. Qed.
Print Assumptions C63_loop_starts_itself_refuted.

(** C64 fails: after two loops from 0 to 8 and a cancellation of the loop, the
    sample of 16 frames is cut off instead of played to its end, since it is deemed
    to have ended 16 frames after its start. *)
Theorem C64_cancel_loop_refuted : ∃ fuel outs, demo (ramp 80 16) fuel cancel_looping = Ok outs ∧
  data <$> outs = [[1; 2; 3; 4; 5; 6; 7; 8; 10; 9; 8; 7; 5; 6; 7; 8; 10; 9]; replicate 16 0]%Z.
Proof. exact cancel_loop_cuts. Qed.
Print Assumptions C64_cancel_loop_refuted.

(** C65 fails: cancelling the scheduled events stops the sample that is playing. *)
Theorem C65_cancel_all_refuted : ∃ fuel outs, demo (ramp 80 16) fuel cancel_playing = Ok outs ∧
  ¬ hears Z.add quarter (ramp 80 16) (play_plan 4%Z fade4 0) cancel_playing outs.
Proof. exact cancel_all_stops. Qed.
Print Assumptions C65_cancel_all_refuted.
