(** C104: notes of any length and at any distance, from the calls to the samples. *)
From stdpp Require Import gmap list list_numbers strings sorting.
From Coq Require Import ZArith Reals Lra Lia ZifyBool ZifyNat.
From Verif Require Import Base Graph GraphSpec TopoSort TopoSortSpec TopoSortProofs Buffer DspGraph DspGraphSpec Timestamp Recorder RecorderSpec Processor ProcessorSpec AudioParam AudioParamR BiquadSpec Node NodeSpec
  NodeExamples Chain ChainSpec Effects EffectsSpec StreamSpec LibraryExamples NetProofs NetExamples NetLibrary NetAutomation NetSpec
  Adsr AdsrSpec EventChannel MelodySpec ProgramSpec AdsrCutSpec AnyNotesSpec AnyNotes ShortNotes ShortNotesExample.
Local Open Scope nat_scope.

(** C104: an ADSR node anywhere in a network is given attack, decay, sustain and release, and the starts and ends of notes are asked for in the order of
    their frames, each before its frame; notes may be cut short, begin again before they end, or end twice.  Then each start and end is carried out in that
    order on its frame, or one early (and not early if the rate divides 2^32), and every sample of the output is the one of the input in the same frame
    times the level of the envelope that has been given the settings and then exactly these starts and ends before their frames. *)
Theorem C104_any_notes (nbuf max_ch max_fr sr : nat) (sh : nat → oracle) (dr : nat → list endpoint → list endpoint)
    (ds : list (id * device)) (ks : list (link R effect)) (ws before after : list (nop R R effect))
    (st : processor R (dspstate R effect)) (l : list (owned R))
    (n : id) (cc number : nat) (ta td s tr : R) (score : list (list mark)) (asked : list mark) :
  let os := before ++ (create <$> ks) ++ ws ++ after in
  made sr max_fr ds ks → good_setup (dsp_process R_num (λ v, v) effect_run) nbuf max_fr sr sh dr (to_pop <$> os) → settled ks ws before after →
  unprocessed [] (to_pop <$> os) = [] →
  prun 0%R Rplus (dsp_process R_num (λ v, v) effect_run) sh dr (new_processor 0%R nbuf sr max_ch max_fr) (to_pop <$> os) = Ok (st, l) →
  let on := running false (sent (to_pop <$> before)) in
  let pos := frames_played false (to_pop <$> before) in
  let blocks := blocks_of max_fr sr on pos after in
  (n, DAdsr cc (requests adsr_sends number (score_calls sr ta td s tr score))) ∈ ds →
  concat score = asked → in_time pos score blocks → in_order pos asked →
  Forall (λ m, reachable_frame sr (frame_of_mark m)) asked → reachable_frame sr (pos + length_of blocks) →
  ∃ played (xs ys : id → stream R),
    Forall2 (played_mark sr) asked played ∧ in_order pos played ∧
    (∀ ch i, ch < cc → i < length_of blocks →
       at_ (ys n ch) i = (at_ (xs n ch) i * at_ (env_values sr (adsr_settings ta td s tr ++ notes_history pos played (length_of blocks))) i)%R) ∧
    (∀ n d, (n, d) ∈ ds → performs sr blocks (λ name, events_of max_fr sr n name on pos after) d (xs n) (ys n)) ∧
    (∀ n d ch i, (n, d) ∈ ds → ch < device_inputs d → i < length_of blocks →
       at_ (xs n ch) i = mix_of (λ m c, at_ (ys m c) i) (at_ (input_stream 0%R max_ch (bool_decide (net_input ws = Some n)) on after ch) i) (connections_into n ws) ch) ∧
    (∀ o, net_output ws = Some o → o ∈ ds.*1 → heard_as 0%R max_ch on after (drop (callbacks before) l) (ys o)).
Proof. exact (library_notes nbuf max_ch max_fr sr sh dr ds ks ws before after st l n cc number ta td s tr score asked). Qed.
Print Assumptions C104_any_notes.

(** C104: at a rate that divides 2^32, notes none of which is longer than it takes to reach full level: every sample of the output is the one of the input
    times the value of the notes.  Each note rises, along the curve of the attack, from the level at which it finds the envelope; when it ends the level falls from
    there along the curve of the release, until the next begins. *)
Theorem C104_short_notes (nbuf max_ch max_fr sr : nat) (sh : nat → oracle) (dr : nat → list endpoint → list endpoint)
    (ds : list (id * device)) (ks : list (link R effect)) (ws before after : list (nop R R effect))
    (st : processor R (dspstate R effect)) (l : list (owned R))
    (n : id) (cc number : nat) (ta td s tr : R) (score : list (list mark)) (notes : list (nat * nat)) (q : Z) :
  let os := before ++ (create <$> ks) ++ ws ++ after in
  made sr max_fr ds ks → good_setup (dsp_process R_num (λ v, v) effect_run) nbuf max_fr sr sh dr (to_pop <$> os) → settled ks ws before after →
  unprocessed [] (to_pop <$> os) = [] →
  prun 0%R Rplus (dsp_process R_num (λ v, v) effect_run) sh dr (new_processor 0%R nbuf sr max_ch max_fr) (to_pop <$> os) = Ok (st, l) →
  let on := running false (sent (to_pop <$> before)) in
  let pos := frames_played false (to_pop <$> before) in
  let blocks := blocks_of max_fr sr on pos after in
  (n, DAdsr cc (requests adsr_sends number (score_calls sr ta td s tr score))) ∈ ds →
  (0 < ta)%R → (0 <= td)%R → (0 < tr)%R → (0 <= s <= 1)%R → (Z.of_nat sr * q = 2 ^ 32)%Z →
  concat score = marks notes → in_time pos score blocks → short_notes (ta * INR sr) s (tr * INR sr) 0 pos notes →
  Forall (λ m, exact_frame q (frame_of_mark m)) (marks notes) → exact_frame q (pos + length_of blocks) →
  ∃ (xs ys : id → stream R),
    (∀ ch i, ch < cc → i < length_of blocks →
       at_ (ys n ch) i = (at_ (xs n ch) i * short_value (ta * INR sr) s (tr * INR sr) 0 pos notes (pos + i))%R) ∧
    (∀ n d, (n, d) ∈ ds → performs sr blocks (λ name, events_of max_fr sr n name on pos after) d (xs n) (ys n)) ∧
    (∀ n d ch i, (n, d) ∈ ds → ch < device_inputs d → i < length_of blocks →
       at_ (xs n ch) i = mix_of (λ m c, at_ (ys m c) i) (at_ (input_stream 0%R max_ch (bool_decide (net_input ws = Some n)) on after ch) i) (connections_into n ws) ch) ∧
    (∀ o, net_output ws = Some o → o ∈ ds.*1 → heard_as 0%R max_ch on after (drop (callbacks before) l) (ys o)).
Proof. exact (library_short nbuf max_ch max_fr sr sh dr ds ks ws before after st l n cc number ta td s tr score notes q). Qed.
Print Assumptions C104_short_notes.

(** The engine's input goes through a gain and an ADSR node to the output.  A note begins, begins again, ends, ends again, and another follows in the next frame. *)
Example C104_case :
  made 100 4 choir choir_links ∧
  good_setup (dsp_process R_num (λ v, v) effect_run) 8 4 100 (λ _, rev_order) (λ _ l, l) (to_pop <$> choir_history) ∧
  settled choir_links choir_calls solo_before solo_after ∧ unprocessed [] (to_pop <$> choir_history) = [] ∧
  (1, DAdsr 2 (requests adsr_sends 1 (score_calls 100 (/ 100) (/ 100) (/ 2) (/ 100) choir_score))) ∈ choir ∧
  let pos := frames_played false (to_pop <$> solo_before) in
  let blocks := blocks_of 4 100 (running false (sent (to_pop <$> solo_before))) pos solo_after in
  let asked := [On 3; On 4; Off 5; Off 6; On 7; Off 8] in
  pos = 2 ∧ blocks.*2 = [4; 2; 2] ∧
  concat choir_score = asked ∧ in_time pos choir_score blocks ∧ in_order pos asked ∧ Forall (λ m, reachable_frame 100 (frame_of_mark m)) asked ∧
  reachable_frame 100 (pos + length_of blocks) ∧
  notes_history 3 asked 3 = [AAct NoteOn; AFrame; AAct NoteOn; AFrame; AAct NoteOff; AFrame] ∧
  ∃ st l, prun 0%R Rplus (dsp_process R_num (λ v, v) effect_run) (λ _, rev_order) (λ _ l, l) (new_processor 0%R 8 100 2 4) (to_pop <$> choir_history) = Ok (st, l).
Proof.
  split; [exact choir_made|]. split; [exact choir_setup|]. split; [exact choir_settled|]. split; [reflexivity|]. split; [by right; left|].
  cbv zeta. split; [reflexivity|]. split; [vm_compute; reflexivity|]. split; [reflexivity|]. split; [|split; [|split; [|split; [|split]]]].
  - cbn. repeat (split || constructor); cbn; lia.
  - cbn. lia.
  - unfold reachable_frame. repeat (constructor; [cbn [frame_of_mark]; lia|]). constructor.
  - split; apply Z.leb_le; vm_compute; reflexivity.
  - reflexivity.
  - exact choir_runs.
Qed.

(** The same at a rate of 64, with an attack of four frames: a note of two frames and one of one frame, which is asked for after the first has begun. *)
Example C104_short_case :
  made 64 4 pluck pluck_links ∧
  good_setup (dsp_process R_num (λ v, v) effect_run) 8 4 64 (λ _, rev_order) (λ _ l, l) (to_pop <$> pluck_history) ∧
  settled pluck_links pluck_calls desk_before pluck_after ∧ unprocessed [] (to_pop <$> pluck_history) = [] ∧
  (∃ st l, prun 0%R Rplus (dsp_process R_num (λ v, v) effect_run) (λ _, rev_order) (λ _ l, l) (new_processor 0%R 8 64 2 4) (to_pop <$> pluck_history) = Ok (st, l)) ∧
  let on := running false (sent (to_pop <$> desk_before)) in
  let pos := frames_played false (to_pop <$> desk_before) in
  let blocks := blocks_of 4 64 on pos pluck_after in
  let notes := [(1, 3); (5, 6)] in
  (1, DAdsr 2 (requests adsr_sends 1 (score_calls 64 (/ 16) (/ 64) (/ 2) (/ 64) pluck_score))) ∈ pluck ∧
  (Z.of_nat 64 * 2 ^ 26 = 2 ^ 32)%Z ∧ pos = 0 ∧ blocks.*2 = [2; 4; 2] ∧
  concat pluck_score = marks notes ∧ in_time pos pluck_score blocks ∧ short_notes (/ 16 * INR 64) (/ 2) (/ 64 * INR 64) 0 pos notes ∧
  Forall (λ m, exact_frame (2 ^ 26) (frame_of_mark m)) (marks notes) ∧ exact_frame (2 ^ 26) (pos + length_of blocks).
Proof.
  split; [exact pluck_made|]. split; [exact pluck_setup|]. split; [exact pluck_settled|]. split; [reflexivity|]. split; [exact pluck_runs|].
  cbv zeta. split; [by right; left|]. split; [reflexivity|]. split; [reflexivity|]. split; [vm_compute; reflexivity|]. split; [reflexivity|]. split; [|split; [exact pluck_short|split]].
  - cbn. repeat (split || constructor); cbn; lia.
  - unfold exact_frame. cbn [marks mbind list_bind app]. repeat (constructor; [cbn [frame_of_mark]; lia|]). constructor.
  - split; apply Z.leb_le; vm_compute; reflexivity.
Qed.
