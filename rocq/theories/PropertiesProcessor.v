(** Property theorems about the audio callback. *)
From stdpp Require Import gmap list.
From Coq Require Import ZArith.
From Verif Require Import Base Graph GraphSpec TopoSort TopoSortSpec TopoSortProofs Buffer BufferSpec
  DspGraph DspGraphSpec DspGraphExamples Float Timestamp Processor ProcessorSpec ProcessorProofs
  ProcessorExamples.

(** C13-C16: every history of commands and callbacks that does not abort is a
    history of the abstract engine (ProcessorSpec.v): each callback applies the
    commands sent before it in order, is silent or renders all its chunks, and
    adds its frames to the time. *)
Theorem C13_C14_C15_C16_engine_refines {A St : Type} (zero : A) (add : A → A → A)
    (proc : timestamp → St → owned A → owned A → res (St * owned A)) (nbuf max_ch max_fr sr : nat)
    (sh : nat → oracle) (dr : nat → list endpoint → list endpoint)
    (os : list (pop A St)) (st : processor A St) (outputs : list (owned A)) :
  good_setup proc nbuf max_fr sr sh dr os →
  prun zero add proc sh dr (new_processor zero nbuf sr max_ch max_fr) os = Ok (st, outputs) →
  ∃ e, erun zero add proc max_ch max_fr sr einit os e outputs ∧
    observes (dg_graph (p_graph st)) (a_graph (e_graph e)) ∧
    dg_in (p_graph st) = a_in (e_graph e) ∧ dg_out (p_graph st) = a_out (e_graph e) ∧
    p_started st = e_started e ∧ p_queue st = e_sent e ∧ p_time st = time_of sr (e_frames e) ∧
    assigned (dg_pools (p_graph st)) = ∅ ∧
    free (dg_pools (p_graph st)) = replicate nbuf (new_buffer zero max_fr max_ch sr).
Proof. exact (engine_refines zero add proc nbuf max_ch max_fr sr sh dr os st outputs). Qed.
Print Assumptions C13_C14_C15_C16_engine_refines.

(** C13, C16: if the last start or stop sent is not a start, a callback leaves
    silence in its whole output region and everything else, the time included, as
    it was; the graph has only received the commands sent since the last
    callback, in order. *)
Theorem C13_stopped_engine_silent {A St : Type} (zero : A) (add : A → A → A)
    (proc : timestamp → St → owned A → owned A → res (St * owned A)) (nbuf max_ch max_fr sr : nat)
    (sh : nat → oracle) (dr : nat → list endpoint → list endpoint)
    (os : list (pop A St)) (st : processor A St) (outputs : list (owned A)) inp iv out ov st' out' :
  good_setup proc nbuf max_fr sr sh dr os → pop_ok (St := St) (PCallback inp iv out ov) →
  running false (sent os) = false →
  prun zero add proc sh dr (new_processor zero nbuf sr max_ch max_fr) os = Ok (st, outputs) →
  callback zero add proc sh dr st inp iv out ov = Ok (st', out') →
  silenced zero out ov out' ∧ p_time st' = p_time st ∧ p_queue st' = [] ∧ p_started st' = false ∧
  ∃ a a', graph_is st a ∧ graph_is st' a' ∧
    arun zero add proc max_ch max_fr sr a (graph_commands (unprocessed [] os)) a' [].
Proof. exact (stopped_engine zero add proc nbuf max_ch max_fr sr sh dr os st outputs inp iv out ov st' out'). Qed.
Print Assumptions C13_stopped_engine_silent.

(** C14, C16: if the last start or stop sent is a start, the commands sent since
    the last callback are applied in order (state 0), then chunk j = 0, 1, ... is rendered
    from frame j * max_fr of the input region on, at the time of that frame, and
    frame fr of the output region is frame fr mod max_fr of chunk fr / max_fr. *)
Theorem C14_C16_started_engine_renders {A St : Type} (zero : A) (add : A → A → A)
    (proc : timestamp → St → owned A → owned A → res (St * owned A)) (nbuf max_ch max_fr sr : nat)
    (sh : nat → oracle) (dr : nat → list endpoint → list endpoint)
    (os : list (pop A St)) (st : processor A St) (outputs : list (owned A)) inp iv out ov st' out' :
  good_setup proc nbuf max_fr sr sh dr os → pop_ok (St := St) (PCallback inp iv out ov) →
  running false (sent os) = true →
  prun zero add proc sh dr (new_processor zero nbuf sr max_ch max_fr) os = Ok (st, outputs) →
  callback zero add proc sh dr st inp iv out ov = Ok (st', out') →
  p_time st' = time_of sr (frames_played false os + v_frames out ov) ∧ p_queue st' = [] ∧
  p_started st' = true ∧
  ∃ a (state : nat → @astate St) (outs : nat → id → owned A),
    graph_is st a ∧
    arun zero add proc max_ch max_fr sr a (graph_commands (unprocessed [] os)) (state 0) [] ∧
    (∀ j, v_frames out ov ≤ j * max_fr → graph_is st' (state j)) ∧
    (∀ j, j * max_fr < v_frames out ov →
       block_equations zero add proc (a_graph (state j))
         (system_input zero (a_in (state j)) max_ch inp (chunk_view max_fr inp iv (v_frames out ov) j))
         (chunk_len max_fr (v_frames out ov) j) sr
         (time_of sr (frames_played false os) + time_of sr (j * max_fr))%Z
         (s_nodes (a_graph (state (S j)))) (outs j) ∧
       s_conns (a_graph (state (S j))) = s_conns (a_graph (state j)) ∧
       a_in (state (S j)) = a_in (state j) ∧ a_out (state (S j)) = a_out (state j)) ∧
    same_dims out out' ∧
    (∀ ch fr, ch < v_channels out ov → fr < v_frames out ov →
       sample out' (off_ch ov + ch) (off_fr ov + fr) =
       Some (match output_node (a_graph (state (fr / max_fr))) (a_out (state (fr / max_fr))) with
             | Some m => if decide (ch < max_ch)
                         then heard_at zero (outs (fr / max_fr) m) ch (fr mod max_fr) else zero
             | None => zero
             end)) ∧
    (∀ ch fr, ¬ in_rect (off_ch ov) (off_fr ov) (v_channels out ov) (v_frames out ov) ch fr →
       sample out' ch fr = sample out ch fr).
Proof. exact (started_engine zero add proc nbuf max_ch max_fr sr sh dr os st outputs inp iv out ov st' out'). Qed.
Print Assumptions C14_C16_started_engine_renders.

(** C14: a callback of any length does not abort and terminates if no command is
    waiting and the graph can be rendered (see C09). *)
Theorem C14_callback_does_not_abort {A St : Type} (zero : A) (add : A → A → A)
    (proc : timestamp → St → owned A → owned A → res (St * owned A)) (nbuf max_ch max_fr sr : nat)
    (sh : nat → oracle) (dr : nat → list endpoint → list endpoint) (node_ok : nat → nat → St → Prop)
    (os : list (pop A St)) (st : processor A St) (outputs : list (owned A)) inp iv out ov :
  good_setup proc nbuf max_fr sr sh dr os → proc_ok proc max_fr sr node_ok →
  pop_ok (St := St) (PCallback inp iv out ov) →
  prun zero add proc sh dr (new_processor zero nbuf sr max_ch max_fr) os = Ok (st, outputs) →
  unprocessed [] os = [] →
  ∃ a, graph_is st a ∧
    (renderable node_ok nbuf max_ch (a_graph a) →
     ∃ st' out', callback zero add proc sh dr st inp iv out ov = Ok (st', out')).
Proof. exact (callback_does_not_abort zero add proc nbuf max_ch max_fr sr sh dr node_ok os st outputs inp iv out ov). Qed.
Print Assumptions C14_callback_does_not_abort.

(** C14 needs a positive maximum block size: with 0 the callback of a started
    engine never returns, however long it runs. *)
Theorem C14_zero_maximum_never_returns {A St : Type} (zero : A) (add : A → A → A)
    (proc : timestamp → St → owned A → owned A → res (St * owned A)) (nbuf max_ch sr : nat)
    (sh : nat → oracle) (dr : nat → list endpoint → list endpoint) inp iv out ov fuel x :
  proc_shape proc → 0 < nbuf → (∀ k, any_order (sh k)) → (∀ k l, dr k l ≡ₚ l) →
  pop_ok (St := St) (PCallback inp iv out ov) → 0 < v_frames out ov →
  chunk_loop zero add proc fuel sh dr sr 0 (time_of sr 0) inp iv ov 0 0
    (new_dspgraph zero nbuf 0 max_ch sr) out ≠ Ok x.
Proof. exact (zero_maximum_hangs zero add proc nbuf max_ch sr sh dr inp iv out ov fuel x). Qed.
Print Assumptions C14_zero_maximum_never_returns.

(** C15: the current time is the number of frames played over the sample rate,
    converted once. *)
Theorem C15_time_is_frames_played {A St : Type} (zero : A) (add : A → A → A)
    (proc : timestamp → St → owned A → owned A → res (St * owned A)) (nbuf max_ch max_fr sr : nat)
    (sh : nat → oracle) (dr : nat → list endpoint → list endpoint)
    (os : list (pop A St)) (st : processor A St) (outputs : list (owned A)) :
  good_setup proc nbuf max_fr sr sh dr os →
  prun zero add proc sh dr (new_processor zero nbuf sr max_ch max_fr) os = Ok (st, outputs) →
  p_time st = from_samples (f64_of_Z (Z.of_nat (frames_played false os))) (Z.of_nat sr).
Proof. exact (current_time zero add proc nbuf max_ch max_fr sr sh dr os st outputs). Qed.
Print Assumptions C15_time_is_frames_played.

(** C15: it never decreases (for less than 2^53 frames). *)
Theorem C15_time_never_decreases {A St : Type} (zero : A) (add : A → A → A)
    (proc : timestamp → St → owned A → owned A → res (St * owned A)) (nbuf max_ch max_fr sr : nat)
    (sh : nat → oracle) (dr : nat → list endpoint → list endpoint)
    (os os' : list (pop A St)) (st st' : processor A St) (l l' : list (owned A)) :
  good_setup proc nbuf max_fr sr sh dr os → good_setup proc nbuf max_fr sr sh dr (os ++ os') →
  (Z.of_nat (frames_played false (os ++ os')) <= 2 ^ 53)%Z →
  prun zero add proc sh dr (new_processor zero nbuf sr max_ch max_fr) os = Ok (st, l) →
  prun zero add proc sh dr (new_processor zero nbuf sr max_ch max_fr) (os ++ os') = Ok (st', l') →
  (p_time st <= p_time st')%Z.
Proof. exact (current_time_monotone zero add proc nbuf max_ch max_fr sr sh dr os os' st l st' l'). Qed.
Print Assumptions C15_time_never_decreases.

(** ** A concrete history that meets the hypotheses *)
Example demo_meets :
  good_setup clock_proc 8 4 100 (λ _, rev_order) (λ _ l, l) demo_history ∧
  proc_ok clock_proc 4 100 toy_node_ok ∧
  frames_played false demo_history = 14 ∧
  running false (sent demo_history) = true ∧ running false (sent (take 9 demo_history)) = false ∧
  demo_outputs demo_history
  = Ok (time_of 100 14, [[0; 0]; [7; 7; 7; 7; 47; 47; 47; 47; 87; 87]; [107; 107; 107]; [0; 0]; [136]])%Z.
Proof.
  split; [exact demo_history_ok|]. split; [apply clock_ok|]. do 3 (split; [done|]). exact demo_history_outputs.
Qed.
