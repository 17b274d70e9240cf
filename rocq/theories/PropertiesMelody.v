(** C99: a melody, from the calls to the samples. *)
From stdpp Require Import gmap list list_numbers strings sorting.
From Coq Require Import ZArith Reals Lra Lia ZifyBool ZifyNat.
From Verif Require Import Base Graph GraphSpec TopoSort TopoSortSpec TopoSortProofs Buffer DspGraph DspGraphSpec Timestamp Recorder RecorderSpec Processor ProcessorSpec AudioParam AudioParamR BiquadSpec Node NodeSpec
  NodeExamples Chain ChainSpec Effects EffectsSpec StreamSpec LibraryExamples NetSpec NetProofs NetExamples NetLibrary
  Adsr AdsrSpec EventChannel MelodySpec NetMelody.
Local Open Scope nat_scope.

(** C99: an ADSR node anywhere in a network is given attack, decay, sustain and release, and the start and the end of every
    note is asked for by the time of its frame, at any time before that frame.  Every note is held for longer than attack
    and decay together and the next begins later than the release ends.  Then every note is played on the frames asked for,
    or one early (and not early if the rate divides 2^32), in the order of the calls, and every sample of the output is
    the one of the input in the same frame times the value of the melody: the curves of attack and decay from the start of
    a note, the sustain level, the release from its end, silence before and after. *)
Theorem C99_melody (nbuf max_ch max_fr sr : nat) (sh : nat → oracle) (dr : nat → list endpoint → list endpoint)
    (ds : list (id * device)) (ks : list (link R effect)) (ws before after : list (nop R R effect))
    (st : processor R (dspstate R effect)) (l : list (owned R))
    (n : id) (cc number : nat) (ta td s tr : R) (a d r : nat) (score : list (list mark)) (notes : list (nat * nat)) :
  let os := before ++ (create <$> ks) ++ ws ++ after in
  made sr max_fr ds ks →
  good_setup (dsp_process R_num (λ v, v) effect_run) nbuf max_fr sr sh dr (to_pop <$> os) →
  settled ks ws before after → unprocessed [] (to_pop <$> os) = [] →
  prun 0%R Rplus (dsp_process R_num (λ v, v) effect_run) sh dr (new_processor 0%R nbuf sr max_ch max_fr) (to_pop <$> os) = Ok (st, l) →
  let on := running false (sent (to_pop <$> before)) in
  let pos := frames_played false (to_pop <$> before) in
  let blocks := blocks_of max_fr sr on pos after in
  (n, DAdsr cc (requests adsr_sends number (score_calls sr ta td s tr score))) ∈ ds →
  (0 <= ta)%R → (0 <= td)%R → (0 <= tr)%R → (0 <= s <= 1)%R →
  is_stage (ta * INR sr) a → is_stage (td * INR sr) d → is_stage (tr * INR sr) r →
  concat score = marks notes → in_time pos score blocks → spaced (a + d) r notes →
  Forall (λ fg : nat * nat, reachable_frame sr fg.1 ∧ reachable_frame sr fg.2) notes → reachable_frame sr (pos + length_of blocks) →
  ∃ played (xs ys : id → stream R),
    Forall2 (λ note p : nat * nat, lands sr note.1 p.1 ∧ lands sr note.2 p.2) notes played ∧
    (∀ ch i, ch < cc → i < length_of blocks →
       at_ (ys n ch) i = (at_ (xs n ch) i * melody_value (ta * INR sr) a (td * INR sr) d s (tr * INR sr) r played (pos + i))%R) ∧
    (∀ n d, (n, d) ∈ ds → performs sr blocks (λ name, events_of max_fr sr n name on pos after) d (xs n) (ys n)) ∧
    (∀ n d ch i, (n, d) ∈ ds → ch < device_inputs d → i < length_of blocks →
       at_ (xs n ch) i = mix_of (λ m c, at_ (ys m c) i) (at_ (input_stream 0%R max_ch (bool_decide (net_input ws = Some n)) on after ch) i) (connections_into n ws) ch) ∧
    (∀ o, net_output ws = Some o → o ∈ ds.*1 → heard_as 0%R max_ch on after (drop (callbacks before) l) (ys o)).
Proof. exact (library_melody nbuf max_ch max_fr sr sh dr ds ks ws before after st l n cc number ta td s tr a d r score notes). Qed.
Print Assumptions C99_melody.

(** The engine's input goes through a gain and an ADSR node to the output.  Two notes; the second is asked for while the first is playing, and
    its end after that: the program runs. *)
Example C99_case :
  made 100 4 band band_links ∧
  good_setup (dsp_process R_num (λ v, v) effect_run) 8 4 100 (λ _, rev_order) (λ _ l, l) (to_pop <$> band_history) ∧
  settled band_links band_calls solo_before solo_after ∧ unprocessed [] (to_pop <$> band_history) = [] ∧
  (1, DAdsr 2 (requests adsr_sends 1 (score_calls 100 (/ 100) (/ 100) (/ 2) (/ 100) band_score))) ∈ band ∧
  is_stage (/ 100 * INR 100) 1 ∧
  let pos := frames_played false (to_pop <$> solo_before) in
  let blocks := blocks_of 4 100 (running false (sent (to_pop <$> solo_before))) pos solo_after in
  pos = 2 ∧ blocks.*2 = [4; 2; 2] ∧
  concat band_score = marks [(3, 6); (8, 11)] ∧ in_time pos band_score blocks ∧ spaced (1 + 1) 1 [(3, 6); (8, 11)] ∧
  reachable_frame 100 11 ∧
  ∃ st l, prun 0%R Rplus (dsp_process R_num (λ v, v) effect_run) (λ _, rev_order) (λ _ l, l) (new_processor 0%R 8 100 2 4) (to_pop <$> band_history) = Ok (st, l).
Proof.
  split; [exact band_made|]. split; [exact band_setup|]. split; [exact band_settled|]. split; [reflexivity|]. split; [by right; left|]. split; [exact band_stage|].
  cbv zeta. split; [reflexivity|]. split; [vm_compute; reflexivity|]. split; [reflexivity|]. split; [|split; [|split]].
  - cbn. repeat (split || constructor); cbn; lia.
  - cbn. lia.
  - split; lia.
  - exact band_runs.
Qed.
