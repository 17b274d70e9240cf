(** The parameters of the library's nodes: which exist, which the nodes' methods look up,
    and which their processors read. *)
From stdpp Require Import list strings gmap.
From Verif Require Import Base.
Local Open Scope string_scope.

Section parameters.
  (** what a parameter is does not matter here: each is made from its options *)
  Context {P : Type}.
  (** utility/create_parameters.rs l.5-27, parameters.rs with_parameter, dsp_parameters.rs
      l.21-24: the parameters of the node, and their realtime counterparts *)
  Definition create_parameters (options : list (string * P)) : gmap string P * gmap string P :=
    foldl (λ '(params, realtime) '(name, p), (<[name := p]> params, <[name := p]> realtime)) (∅, ∅) options.
  (** graph/dsp_node.rs l.11-28, graph/dsp_parameters.rs l.32-42 *)
  Definition get_parameter (params : gmap string P) (name : string) : res P := runwrap (params !! name) UnwrapNone.
End parameters.

(** src/effects: the nodes with parameters *)
Inductive node_kind := GainNode | PanNode | BiquadNode | CompressorNode | ConvolutionNode | OscillatorNode | WaveshaperNode.
(** The names given to create_parameters: gain_node.rs l.40-47, pan_node.rs l.39-43,
    biquad_node.rs l.34-57, compressor_node.rs l.39-50, convolution_node.rs l.34-41,
    oscillator_node.rs l.107-121, waveshaper_node.rs l.82-103. *)
Definition created (k : node_kind) : list string :=
  match k with
  | GainNode => ["gain"]
  | PanNode => ["pan"]
  | BiquadNode => ["frequency"; "q"; "shelf-gain"; "gain"]
  | CompressorNode => ["attack"; "release"; "ratio"; "threshold"; "knee"; "wet"; "dry"]
  | ConvolutionNode => ["wet"; "dry"]
  | OscillatorNode => ["frequency"; "gain"]
  | WaveshaperNode => ["overdrive"; "mix"]
  end.
(** The methods of the nodes and the names they look up: gain_node.rs l.64-67, pan_node.rs
    l.62-65, biquad_node.rs l.83-101, compressor_node.rs l.71-98, convolution_node.rs
    l.61-69, oscillator_node.rs l.140-148, waveshaper_node.rs l.124-132. *)
Definition methods (k : node_kind) : list (string * string) :=
  match k with
  | GainNode => [("gain", "gain")]
  | PanNode => [("pan", "pan")]
  | BiquadNode => [("frequency", "frequency"); ("q", "q"); ("shelf_gain", "shelf_gain"); ("gain", "gain")]
  | CompressorNode => [("attack", "attack"); ("release", "release"); ("ratio", "ratio"); ("threshold", "threshold"); ("knee", "knee"); ("wet", "wet"); ("dry", "dry")]
  | ConvolutionNode => [("wet", "wet"); ("dry", "dry")]
  | OscillatorNode => [("frequency", "frequency"); ("gain", "gain")]
  | WaveshaperNode => [("overdrive", "overdrive"); ("mix", "mix")]
  end.
(** The names the processors read: gain_processor.rs l.15, pan_processor.rs l.18,
    biquad_processor.rs l.72-83, compressor_processor.rs l.46-57, l.96-119, l.162-166,
    convolution_processor.rs l.199-203, oscillator_processor.rs l.53-56,
    waveshaper_processor.rs l.94-97. *)
Definition processor_reads (k : node_kind) : list string :=
  match k with
  | GainNode => ["gain"]
  | PanNode => ["pan"]
  | BiquadNode => ["frequency"; "q"; "shelf-gain"; "gain"]
  | CompressorNode => ["attack"; "release"; "knee"; "threshold"; "ratio"; "wet"; "dry"]
  | ConvolutionNode => ["wet"; "dry"]
  | OscillatorNode => ["frequency"; "gain"]
  | WaveshaperNode => ["overdrive"; "mix"]
  end.
(** A call of a method on a node made with the given options. *)
Definition call_method {P} (k : node_kind) (options : list (string * P)) (method : string) : res P :=
  let? key := runwrap (snd <$> list_find (λ m, m.1 = method) (methods k)) UnwrapNone in
  get_parameter (create_parameters options).1 key.2.

(** ** Specification *)
(** options for the parameters of a node *)
Definition options_for {P} (k : node_kind) (options : list (string * P)) : Prop := options.*1 = created k.
(** The documented parameters of the nodes, and the method that returns each: a Rust name
    has an underscore where the parameter's name has a hyphen. *)
Definition documented (k : node_kind) : list (string * string) :=
  match k with
  | GainNode => [("gain", "gain")]
  | PanNode => [("pan", "pan")]
  | BiquadNode => [("frequency", "frequency"); ("q", "q"); ("shelf_gain", "shelf-gain"); ("gain", "gain")]
  | CompressorNode => [("attack", "attack"); ("release", "release"); ("ratio", "ratio"); ("threshold", "threshold"); ("knee", "knee"); ("wet", "wet"); ("dry", "dry")]
  | ConvolutionNode => [("wet", "wet"); ("dry", "dry")]
  | OscillatorNode => [("frequency", "frequency"); ("gain", "gain")]
  | WaveshaperNode => [("overdrive", "overdrive"); ("mix", "mix")]
  end.
