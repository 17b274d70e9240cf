(** C100: clips of a sample, from the calls to the samples; C33 from the calls. *)
From stdpp Require Import gmap list list_numbers strings sorting.
From Coq Require Import ZArith Reals Lra Lia ZifyBool ZifyNat.
From Verif Require Import Base Graph GraphSpec TopoSort TopoSortSpec TopoSortProofs Buffer BufferSpec DspGraph DspGraphSpec Timestamp EventProcessor EventProcessorSpec Recorder RecorderSpec Processor ProcessorSpec AudioParam AudioParamR BiquadSpec Node NodeSpec
  NodeExamples Chain ChainSpec Effects EffectsSpec StreamSpec LibraryExamples NetSpec NetProofs NetExamples NetLibrary
  Sampler SamplerSpec EventChannel LoopCalls SamplerDemo MelodySpec TrackSpec NetTrack.
Local Open Scope nat_scope.

(** C100: a sampler anywhere in a network; the start and the end of every clip are asked for by the times of their frames and the start by the time of
    its first frame in the sample, at any time before.  The next clip begins later than the fade after the one before it.  Then every clip is played on the
    frames asked for, or one early (and not early if the rate divides 2^32), in the order of the calls, and every sample of the output is that of the clip:
    the sample from the clip's first frame on, faded in unless that is the beginning of the sample, faded out from the clip's end on, and silence between
    the clips.  One start that lands early also begins one frame earlier in the sample.  The number of blocks is limited ([clock_holds]): see
    C31_drift_refuted. *)
Theorem C100_track (nbuf max_ch max_fr sr : nat) (sh : nat → oracle) (dr : nat → list endpoint → list endpoint)
    (ds : list (id * device)) (ks : list (link R effect)) (ws before after : list (nop R R effect))
    (st : processor R (dspstate R effect)) (l : list (owned R))
    (n : id) (outputs fuel : nat) (smp : owned R) (fade : list R) (number : nat) (score : list (list cue)) (clips : list clip) :
  let os := before ++ (create <$> ks) ++ ws ++ after in
  made sr max_fr ds ks →
  good_setup (dsp_process R_num (λ v, v) effect_run) nbuf max_fr sr sh dr (to_pop <$> os) →
  settled ks ws before after → unprocessed [] (to_pop <$> os) = [] →
  prun 0%R Rplus (dsp_process R_num (λ v, v) effect_run) sh dr (new_processor 0%R nbuf sr max_ch max_fr) (to_pop <$> os) = Ok (st, l) →
  let on := running false (sent (to_pop <$> before)) in
  let pos := frames_played false (to_pop <$> before) in
  let blocks := blocks_of max_fr sr on pos after in
  (n, DSampler outputs fuel smp fade (requests sampler_sends number (track_calls sr score))) ∈ ds →
  concat score = cues clips → cued pos score blocks → apart (length fade) (frames smp) clips → Forall (clip_ok sr) clips →
  clock_frame sr (pos + length_of blocks) → clock_holds sr (length blocks) (2 * length clips) →
  ∃ played (xs ys : id → stream R),
    Forall2 (clip_as sr) clips played ∧
    (∀ ch i, ch < outputs → i < length_of blocks → at_ (ys n ch) i = track_value smp fade ch played (pos + i)) ∧
    (∀ n d, (n, d) ∈ ds → performs sr blocks (λ name, events_of max_fr sr n name on pos after) d (xs n) (ys n)) ∧
    (∀ n d ch i, (n, d) ∈ ds → ch < device_inputs d → i < length_of blocks →
       at_ (xs n ch) i = mix_of (λ m c, at_ (ys m c) i) (at_ (input_stream 0%R max_ch (bool_decide (net_input ws = Some n)) on after ch) i) (connections_into n ws) ch) ∧
    (∀ o, net_output ws = Some o → o ∈ ds.*1 → heard_as 0%R max_ch on after (drop (callbacks before) l) (ys o)).
Proof. exact (library_track nbuf max_ch max_fr sr sh dr ds ks ws before after st l n outputs fuel smp fade number score clips). Qed.
Print Assumptions C100_track.

(** A sampler plays to the output and into a recorder.  Two clips: frames 1 and 2 of the sample on frames 3 and 4 of the stream, then two frames of fade; frames
    0 and 1 on frames 8 and 9, the second in the fade.  The start of the second is asked for in the last block but one and its end in the last: the program runs. *)
Example C100_case :
  made 100 4 deck deck_links ∧
  good_setup (dsp_process R_num (λ v, v) effect_run) 8 4 100 (λ _, rev_order) (λ _ l, l) (to_pop <$> deck_history) ∧
  settled deck_links deck_calls solo_before solo_after ∧ unprocessed [] (to_pop <$> deck_history) = [] ∧
  (0, DSampler 2 10 deck_sample [0; 1]%R (requests sampler_sends 1 (track_calls 100 deck_score))) ∈ deck ∧
  let pos := frames_played false (to_pop <$> solo_before) in
  let blocks := blocks_of 4 100 (running false (sent (to_pop <$> solo_before))) pos solo_after in
  pos = 2 ∧ blocks.*2 = [4; 2; 2] ∧
  concat deck_score = cues [Clip 3 1 5; Clip 8 0 9] ∧ cued pos deck_score blocks ∧ apart 2 5 [Clip 3 1 5; Clip 8 0 9] ∧
  Forall (clip_ok 100) [Clip 3 1 5; Clip 8 0 9] ∧ clock_frame 100 10 ∧ clock_holds 100 3 4 ∧
  track_value deck_sample [0; 1]%R 0 [Clip 3 1 5; Clip 8 0 9] <$> seq 2 8 = [0; 0 * 2; 1 * 3; 1 * 4; 1 * 5; 0; 1; 1 * 2]%R ∧
  ∃ st l, prun 0%R Rplus (dsp_process R_num (λ v, v) effect_run) (λ _, rev_order) (λ _ l, l) (new_processor 0%R 8 100 2 4) (to_pop <$> deck_history) = Ok (st, l).
Proof.
  split; [exact deck_made|]. split; [exact deck_setup|]. split; [exact deck_settled|]. split; [reflexivity|]. split; [by left|].
  cbv zeta. split; [reflexivity|]. split; [vm_compute; reflexivity|]. split; [reflexivity|]. split; [|split; [|split; [|split; [|split; [|split]]]]].
  - cbn. repeat (split || constructor); cbn; lia.
  - cbn. lia.
  - do 2 (constructor; [unfold clip_ok, clock_frame; cbn; lia|]). constructor.
  - unfold clock_frame. lia.
  - unfold clock_holds. lia.
  - reflexivity.
  - exact deck_runs.
Qed.

(** C33, from the calls: enable_loop (or enable_loop_at_time for the beginning of time), then start_now. *)
Theorem C33_called {A : Type} (one : A) (add mul : A → A → A) (smp : owned A) (fade : list A) (sr : nat)
    (ls le : nat) (b : sblock) (bs : list sblock) (c : sampler_call) (number : nat) (ts te : timestamp) (n : nat) :
  wf smp → 0 < length fade → (Z.of_nat (frames smp) <= 2 ^ 40)%Z → (0 < Z.of_nat sr <= 2 ^ 29)%Z →
  ls < le → length fade ≤ le - ls → (Z.of_nat le <= 2 ^ 39)%Z →
  Forall (sblock_ok sr) (b :: bs) → unattended bs →
  sb_sent b = EventChannel.number number ([c; KStartNow] ≫= sampler_sends) → c = KEnableLoop ts te ∨ c = KEnableLoopAt 0%Z ts te → (0 <= sb_start b)%Z →
  nearest_frame sr ts = Z.of_nat ls → off_grid sr ts (Z.of_nat ls) (Z.of_nat sr + 1) →
  nearest_frame sr te = Z.of_nat le → off_grid sr te (Z.of_nat le) (Z.of_nat sr + 1) →
  total (b :: bs) ≤ le + n * (le - ls) →
  ((Z.of_nat (length bs) + 4 * Z.of_nat n + 6) * (Z.of_nat sr + 1) <= 2 ^ 32 - 2 ^ 27)%Z →
  (Z.of_nat (total (b :: bs)) <= 2 ^ 40)%Z → (Z.of_nat (le - ls) * Z.of_nat n <= 2 ^ 40)%Z →
  ∃ fuel outs, sampler_run one add mul smp fade fuel sr (new_evproc sr) new_sampler (b :: bs) = Ok outs ∧
    hears add mul smp (loop_plan one fade ls le) (b :: bs) outs.
Proof. exact (loops_called one add mul smp fade sr ls le b bs c number ts te n). Qed.
Print Assumptions C33_called.
(** The calls of C33_case, so that case meets the hypotheses. *)
Example C33_called_case :
  EventChannel.number 0 ([KEnableLoop (at_frame 80 3) (at_frame 80 8); KStartNow] ≫= sampler_sends) =
    [now 0 (SEnableLoop (at_frame 80 3) (at_frame 80 8)); now 1 SStartImmediate] ∧
  EventChannel.number 0 ([KEnableLoopAt 0%Z (at_frame 80 3) (at_frame 80 8); KStartNow] ≫= sampler_sends) =
    [now 0 (SEnableLoop (at_frame 80 3) (at_frame 80 8)); now 1 SStartImmediate].
Proof. by split. Qed.
