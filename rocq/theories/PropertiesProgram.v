(** C103: a whole program, from its calls to what is heard. *)
From stdpp Require Import gmap list list_numbers strings.
From Coq Require Import ZArith Reals Lra Lia.
From Verif Require Import Base Graph GraphSpec TopoSort TopoSortSpec TopoSortProofs Buffer BufferSpec DspGraph DspGraphSpec Timestamp EventProcessor Adsr AdsrSpec Sampler SamplerSpec EventChannel
  Processor ProcessorSpec AudioParam AudioParamR Biquad BiquadSpec Node NodeSpec NodeExamples Chain ChainSpec Effects EffectsSpec StreamSpec LibraryExamples NetProofs NetLibrary
  AutomationSpec AutomationCases NetAutomationSpec NetAutomation NetSpec MelodySpec TrackSpec ProgramSpec NetProgram.
Local Open Scope nat_scope.

(** C103: a program makes nodes of the library, wires them into any network, and asks, at a sample rate that divides 2^32 and each time before the frame
    concerned, for automations of parameters, for notes of ADSR nodes and for clips of samplers.  Then all of it is carried out on exactly the frames asked for, at
    once and whatever the sizes of the callbacks: every automated node has the values of its curves, every ADSR node multiplies its input by its melody, every
    sampler gives its clips, the nodes pass their sound on as wired, and what is heard is what the output node gives. *)
Theorem C103_program (nbuf max_ch max_fr sr : nat) (q : Z) (sh : nat → oracle) (dr : nat → list endpoint → list endpoint)
    (ds : list (id * device)) (ks : list (link R effect)) (ws before after : list (nop R R effect))
    (st : processor R (dspstate R effect)) (l : list (owned R)) :
  let os := before ++ (create <$> ks) ++ ws ++ after in
  (Z.of_nat sr * q = 2 ^ 32)%Z → (0 < q)%Z →
  made sr max_fr ds ks →
  good_setup (dsp_process R_num (λ v, v) effect_run) nbuf max_fr sr sh dr (to_pop <$> os) →
  settled ks ws before after → unprocessed [] (to_pop <$> os) = [] →
  prun 0%R Rplus (dsp_process R_num (λ v, v) effect_run) sh dr (new_processor 0%R nbuf sr max_ch max_fr) (to_pop <$> os) = Ok (st, l) →
  let on := running false (sent (to_pop <$> before)) in
  let pos := frames_played false (to_pop <$> before) in
  let blocks := blocks_of max_fr sr on pos after in
  exact_frame q (pos + length_of blocks) →
  ∃ xs ys : id → stream R,
    (∀ n d, (n, d) ∈ ds → follows_automation sr pos (length_of blocks) (asks_for q on pos after n) d (xs n) (ys n)) ∧
    (∀ n cc number ta td s tr a d r score notes, (n, DAdsr cc (requests adsr_sends number (score_calls sr ta td s tr score))) ∈ ds →
       asks_melody sr q pos blocks ta td s tr a d r score notes → ∀ ch i, ch < cc → i < length_of blocks →
       at_ (ys n ch) i = (at_ (xs n ch) i * melody_value (ta * INR sr) a (td * INR sr) d s (tr * INR sr) r notes (pos + i))%R) ∧
    (∀ n outputs fuel smp fade number score clips, (n, DSampler outputs fuel smp fade (requests sampler_sends number (track_calls sr score))) ∈ ds →
       asks_clips sr q pos blocks (length fade) (Buffer.frames smp) score clips → ∀ ch i, ch < outputs → i < length_of blocks →
       at_ (ys n ch) i = track_value smp fade ch clips (pos + i)) ∧
    (∀ n d, (n, d) ∈ ds → performs sr blocks (λ name, events_of max_fr sr n name on pos after) d (xs n) (ys n)) ∧
    (∀ n d ch i, (n, d) ∈ ds → ch < device_inputs d → i < length_of blocks →
       at_ (xs n ch) i = mix_of (λ m c, at_ (ys m c) i) (at_ (input_stream 0%R max_ch (bool_decide (net_input ws = Some n)) on after ch) i) (connections_into n ws) ch) ∧
    (∀ o, net_output ws = Some o → o ∈ ds.*1 → heard_as 0%R max_ch on after (drop (callbacks before) l) (ys o)).
Proof. exact (library_program nbuf max_ch max_fr sr q sh dr ds ks ws before after st l). Qed.
Print Assumptions C103_program.

(** The engine's input goes through a gain, which jumps, rises and falls, and an ADSR node that plays two notes; the rise and the second note are asked for
    while the program plays: it runs. *)
Example C103_case :
  (Z.of_nat 64 * 2 ^ 26 = 2 ^ 32)%Z ∧ made 64 4 tune tune_links ∧
  good_setup (dsp_process R_num (λ v, v) effect_run) 8 4 64 (λ _, rev_order) (λ _ l, l) (to_pop <$> tune_history) ∧
  settled tune_links tune_calls desk_before tune_after ∧ unprocessed [] (to_pop <$> tune_history) = [] ∧
  (∃ st l, prun 0%R Rplus (dsp_process R_num (λ v, v) effect_run) (λ _, rev_order) (λ _ l, l) (new_processor 0%R 8 64 2 4) (to_pop <$> tune_history) = Ok (st, l)) ∧
  let on := running false (sent (to_pop <$> desk_before)) in
  let pos := frames_played false (to_pop <$> desk_before) in
  let blocks := blocks_of 4 64 on pos tune_after in
  pos = 0 ∧ blocks.*2 = [2; 4; 2] ∧ exact_frame (2 ^ 26) (pos + length_of blocks) ∧
  asks_for (2 ^ 26) on pos tune_after 0 "gain" 1 straight_ride ∧
  (1, DAdsr 2 (requests adsr_sends 1 (score_calls 64 (/ 64) (/ 64) (/ 2) (/ 64) tune_score))) ∈ tune ∧
  asks_melody 64 (2 ^ 26) pos blocks (/ 64) (/ 64) (/ 2) (/ 64) 1 1 1 tune_score [(1, 4); (6, 9)].
Proof.
  split; [reflexivity|]. split; [exact tune_made|]. split; [exact tune_setup|]. split; [exact tune_settled|]. split; [reflexivity|]. split; [exact tune_runs|].
  cbv zeta. split; [reflexivity|]. split; [vm_compute; reflexivity|]. split; [split; apply Z.leb_le; reflexivity|]. split; [exact tune_gain|].
  split; [by right; left|exact tune_melody].
Qed.
(** A sampler plays frames 1 and 2 of its sample on frames 1 and 2, then a fade; and frame 0 on frame 6, then the fade.  The second clip is asked for while the
    first is playing. *)
Example C103_clips_case :
  made 64 4 [(0, play_device)] play_links ∧
  good_setup (dsp_process R_num (λ v, v) effect_run) 8 4 64 (λ _, rev_order) (λ _ l, l) (to_pop <$> play_history) ∧
  settled play_links play_calls desk_before play_after ∧ unprocessed [] (to_pop <$> play_history) = [] ∧
  (∃ st l, prun 0%R Rplus (dsp_process R_num (λ v, v) effect_run) (λ _, rev_order) (λ _ l, l) (new_processor 0%R 8 64 2 4) (to_pop <$> play_history) = Ok (st, l)) ∧
  let on := running false (sent (to_pop <$> desk_before)) in
  let pos := frames_played false (to_pop <$> desk_before) in
  let blocks := blocks_of 4 64 on pos play_after in
  exact_frame (2 ^ 26) (pos + length_of blocks) ∧
  asks_clips 64 (2 ^ 26) pos blocks 2 5 play_score [Clip 1 1 3; Clip 6 0 7] ∧
  track_value play_sample [0; 1]%R 0 [Clip 1 1 3; Clip 6 0 7] <$> seq pos (length_of blocks) = [0; 0 * 2; 1 * 3; 1 * 4; 1 * 5; 0; 1; 1 * 2]%R.
Proof.
  split; [exact play_made|]. split; [exact play_setup|]. split; [exact play_settled|]. split; [reflexivity|]. split; [exact play_runs|].
  cbv zeta. split; [split; apply Z.leb_le; reflexivity|]. split; [exact play_clips|]. vm_compute. reflexivity.
Qed.
