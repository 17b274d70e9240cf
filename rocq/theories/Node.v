(** Nodes with their parameters inside the engine, and the node interface clients use:
    src/graph/dsp.rs, dsp_parameters.rs, graph_node.rs, src/parameter/audio_parameter.rs. *)
From stdpp Require Import gmap list strings.
From Coq Require Import ZArith.
From Verif Require Import Base Graph Buffer DspGraph Float Timestamp Processor AudioParam.

Section node.
(** [V]: parameter values, [A]: samples, [to_sample]: the conversion of
    realtime_parameter.rs l.100 and l.105, [P]: states of processors *)
Context {V A P : Type} (N : num V) (to_sample : V → A).
(** DspProcessor::process_audio, dsp.rs l.33-35, of any processor: time, what
    get_parameter_values returns, input and output block *)
Context (run : P → timestamp → (string → res (list A)) → owned A → owned A → res (P * owned A)).

(** dsp.rs l.9-15 without the channel counts, which are in [dsp] (DspGraph.v) *)
Record dspstate := DspState { ds_params : gmap string (param V); ds_proc : P }.

(** dsp.rs l.82-88: every parameter is processed; the order, that of a hash map, does not
    matter *)
Definition process_params (t : timestamp) (frame_count sr : nat) (m : gmap string (param V)) : res (gmap string (param V * list V)) :=
  rfold (λ acc '(name, p), let? r := AudioParam.process N t frame_count sr p in Ok (<[name := r]> acc)) (map_to_list m) ∅.

(** dsp_parameters.rs l.40-42; every processor asks for as many values as its output block has
    frames, which are all of them *)
Definition parameter_values (m : gmap string (list V)) (name : string) : res (list A) :=
  let? vs := runwrap (m !! name) UnwrapNone in Ok (to_sample <$> vs).

(** Dsp::process_audio, dsp.rs l.73-96.  The assertions of l.79-80 hold: the callers pass
    slices with exactly the node's channels (dsp_graph.rs l.207-221). *)
Definition dsp_process (t : timestamp) (st : dspstate) (i o : owned A) : res (dspstate * owned A) :=
  let? m := process_params t (frames o) (rate o) (ds_params st) in
  let? (p', o') := run (ds_proc st) t (parameter_values (snd <$> m)) i o in
  Ok (DspState (fst <$> m) p', o').

(** dsp.rs l.98-103 *)
Definition request_parameter_change (name : string) (c : change V) (st : dspstate) : res dspstate :=
  let? p := runwrap (ds_params st !! name) UnwrapNone in
  Ok (DspState (<[name := add_change c p]> (ds_params st)) (ds_proc st)).
(** dsp.rs l.105-114 *)
Definition cancel_parameter_changes (name : string) (end_time : option timestamp) (st : dspstate) : res dspstate :=
  let? p := runwrap (ds_params st !! name) UnwrapNone in
  Ok (DspState (<[name := match end_time with Some t => cancel_after t p | None => cancel_changes p end]> (ds_params st)) (ds_proc st)).

(** What clients and host do.  [NNew]: GraphNode::new, graph_node.rs l.13-32; [NDrop]: drop,
    l.109-111; [NConnect]: connect_to and connect_channels_to, l.69-91 ([eid]: the id the
    connection will have); [NDisconnect]: l.93-105; [NInput], [NOutput]: l.43-66; [NChange]:
    audio_parameter.rs l.62-113 with the change these make; [NCancel]: l.116-133; [NStart],
    [NStop]: engine/root.rs l.14-20; [NCallback]: the audio callback. *)
Inductive nop :=
| NNew (n : id) (inputs outputs : nat) (st : dspstate)
| NDrop (n : id)
| NConnect (eid : id) (a b : id) (c : connection)
| NDisconnect (a b : id)
| NInput (n : id)
| NOutput (n : id)
| NChange (n : id) (name : string) (c : change V)
| NCancel (n : id) (name : string) (end_time : option timestamp)
| NStart
| NStop
| NCallback (inp : owned A) (iv : view) (out : owned A) (ov : view).

(** the commands they send, commands/command.rs, and what processor.rs l.86-113 and
    dsp_graph.rs l.110-172 do with them *)
Definition to_pop (o : nop) : pop A dspstate :=
  match o with
  | NNew n i o st => PSend (CGraph (GAddDsp n (Dsp i o st)))
  | NDrop n => PSend (CGraph (GRemoveDsp n))
  | NConnect eid a b c => PSend (CGraph (GAddConn eid a b c))
  | NDisconnect a b => PSend (CGraph (GRemoveConn a b))
  | NInput n => PSend (CGraph (GInput (EInput, n)))
  | NOutput n => PSend (CGraph (GOutput (EOutput, n)))
  | NChange n name c => PSend (CGraph (GParam n (request_parameter_change name c)))
  | NCancel n name e => PSend (CGraph (GParam n (cancel_parameter_changes name e)))
  | NStart => PSend CStart
  | NStop => PSend CStop
  | NCallback inp iv out ov => PCallback inp iv out ov
  end.
End node.
Arguments dspstate : clear implicits. Arguments DspState {V P}. Arguments nop : clear implicits.

(** ** The gain node: what its processor does with its parameter,
    gain_processor.rs l.12-31 *)
Definition gain_run {A} (gain_process : list A → owned A → view → owned A → view → res (owned A))
    (_ : unit) (_ : timestamp) (values : string → res (list A)) (i o : owned A) : res (unit * owned A) :=
  let? g := values "gain" in
  let? o' := gain_process g i Whole o Whole in Ok ((), o').
