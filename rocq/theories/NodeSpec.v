(** What a node and its parameters go through in an engine: their own events, in the order
    in which they were sent. *)
From stdpp Require Import gmap list strings.
From Coq Require Import ZArith Reals.
From Verif Require Import Base Graph Buffer BufferSpec DspGraph DspGraphSpec Float Timestamp Processor ProcessorSpec
  AudioParam AudioParamSpec Node.

(** ** A parameter on its own *)
Inductive pevent (V : Type) :=
| PChange (c : change V)
| PCancel (end_time : option timestamp)
| PBlock (time : timestamp) (frames : nat).
Arguments PChange {V}. Arguments PCancel {V}. Arguments PBlock {V}.

Fixpoint run_events {V} (N : num V) (sr : nat) (p : param V) (l : list (pevent V)) : res (param V * list V) :=
  match l with
  | [] => Ok (p, [])
  | PChange c :: l => run_events N sr (add_change c p) l
  | PCancel (Some t) :: l => run_events N sr (cancel_after t p) l
  | PCancel None :: l => run_events N sr (cancel_changes p) l
  | PBlock time frames :: l =>
      let? (p1, out) := AudioParam.process N time frames sr p in
      let? (p2, out') := run_events N sr p1 l in
      Ok (p2, out ++ out')
  end.

Section spec.
Context {V A P : Type} (N : num V) (to_sample : V → A) (zero : A).
Context (run : P → timestamp → (string → res (list A)) → owned A → owned A → res (P * owned A)).
Context (max_fr sr : nat).
Implicit Types os : list (nop V A P).

(** ** The blocks of a history *)
(** a callback of [n] frames that begins at frame [position] of the stream: times and sizes
    of its blocks *)
Definition callback_blocks (position n : nat) : list (timestamp * nat) :=
  (λ k, ((time_of sr position + time_of sr (k * max_fr))%Z, chunk_len max_fr n k)) <$> seq 0 ((n + (max_fr - 1)) / max_fr).

(** [on]: whether the engine runs, [position]: frames played before *)
Fixpoint blocks_of (on : bool) (position : nat) os : list (timestamp * nat) :=
  match os with
  | [] => []
  | NStart :: os => blocks_of true position os
  | NStop :: os => blocks_of false position os
  | NCallback _ _ out ov :: os =>
      if on then callback_blocks position (v_frames out ov) ++ blocks_of on (position + v_frames out ov) os
      else blocks_of on position os
  | _ :: os => blocks_of on position os
  end.

(** the events of parameter [name] of node [n] *)
Fixpoint events_of (n : id) (name : string) (on : bool) (position : nat) os : list (pevent V) :=
  match os with
  | [] => []
  | NStart :: os => events_of n name true position os
  | NStop :: os => events_of n name false position os
  | NCallback _ _ out ov :: os =>
      if on then ((λ b, PBlock b.1 b.2) <$> callback_blocks position (v_frames out ov)) ++ events_of n name on (position + v_frames out ov) os
      else events_of n name on position os
  | NChange n' name' c :: os =>
      (if decide (n' = n ∧ name' = name) then [PChange c] else []) ++ events_of n name on position os
  | NCancel n' name' e :: os =>
      (if decide (n' = n ∧ name' = name) then [PCancel e] else []) ++ events_of n name on position os
  | _ :: os => events_of n name on position os
  end.

(** ** A processor on its own *)
(** a block of a processor: time, size, values of its parameters, input and output *)
Record round := Round {
  r_time : timestamp; r_frames : nat; r_values : gmap string (list V); r_in : owned A; r_out : owned A }.

(** from one state to another through the rounds; the output is silent before each *)
Inductive runs (outputs : nat) : P → list round → P → Prop :=
| runs_nil p : runs outputs p [] p
| runs_cons p r p1 rs p2 :
    run p (r_time r) (parameter_values to_sample (r_values r)) (r_in r)
      (new_buffer zero (r_frames r) outputs sr) = Ok (p1, r_out r) →
    runs outputs p1 rs p2 → runs outputs p (r :: rs) p2.

(** the values a processor got for a parameter, frame by frame *)
Definition values_got (name : string) (rs : list round) : list V := rs ≫= λ r, default [] (r_values r !! name).

(** a block of a node of these channels with these parameters *)
Definition round_ok (inputs outputs : nat) (names : gset string) (r : round) : Prop :=
  is_block (r_in r) inputs (r_frames r) ∧ rate (r_in r) = sr ∧ is_block (r_out r) outputs (r_frames r) ∧
  dom (r_values r) = names ∧ ∀ name vs, r_values r !! name = Some vs → length vs = r_frames r.

(** from state [st] to [st'] through the rounds, every parameter going through its own events *)
Definition session (inputs outputs : nat) (st : dspstate V P) (events : string → list (pevent V)) (rs : list round) (st' : dspstate V P) : Prop :=
  runs outputs (ds_proc st) rs (ds_proc st') ∧ Forall (round_ok inputs outputs (dom (ds_params st))) rs ∧
  dom (ds_params st') = dom (ds_params st) ∧
  ∀ name p, ds_params st !! name = Some p →
    ∃ p', ds_params st' !! name = Some p' ∧ run_events N sr p (events name) = Ok (p', values_got name rs).

(** ** A node between the input and the output of the engine *)
(** the rounds of a callback: round [fr / max_fr] gets frame [fr] of the input and gives
    that of the output *)
Definition passes_through (max_ch inputs : nat) (inp : owned A) (iv : view) (out : owned A) (ov : view) (out' : owned A) (rs : list round) : Prop :=
  same_dims out out' ∧
  r_frames <$> rs = chunk_len max_fr (v_frames out ov) <$> seq 0 ((v_frames out ov + (max_fr - 1)) / max_fr) ∧
  (∀ ch fr, fr < v_frames out ov → ∃ r, rs !! (fr / max_fr) = Some r ∧
     (ch < inputs → sample (r_in r) ch (fr mod max_fr) =
        Some (if decide (ch < v_channels inp iv ∧ ch < max_ch) then heard_at zero inp (off_ch iv + ch) (off_fr iv + fr) else zero)) ∧
     (ch < v_channels out ov → sample out' (off_ch ov + ch) (off_fr ov + fr) =
        Some (if decide (ch < max_ch) then heard_at zero (r_out r) ch (fr mod max_fr) else zero))) ∧
  (∀ ch fr, ¬ in_rect (off_ch ov) (off_fr ov) (v_channels out ov) (v_frames out ov) ch fr → sample out' ch fr = sample out ch fr).

(** the outputs of the callbacks: silence while stopped *)
Fixpoint heard_through (max_ch inputs : nat) (on : bool) os (outputs : list (owned A)) (rs : list round) : Prop :=
  match os with
  | [] => outputs = [] ∧ rs = []
  | NStart :: os => heard_through max_ch inputs true os outputs rs
  | NStop :: os => heard_through max_ch inputs false os outputs rs
  | NCallback inp iv out ov :: os =>
      ∃ out' outputs', outputs = out' :: outputs' ∧
      if on then ∃ rs1 rs2, rs = rs1 ++ rs2 ∧ passes_through max_ch inputs inp iv out ov out' rs1 ∧
        heard_through max_ch inputs on os outputs' rs2
      else silenced zero out ov out' ∧ heard_through max_ch inputs on os outputs' rs
  | _ :: os => heard_through max_ch inputs on os outputs rs
  end.

(** number of callbacks *)
Fixpoint callbacks os : nat :=
  match os with [] => 0 | NCallback _ _ _ _ :: os => S (callbacks os) | _ :: os => callbacks os end.

(** nothing but the system is connected to node [n]'s input; [n] stays, and stays the node at
    the input and the output of the engine *)
Definition direct (n : id) (before after : list (nop V A P)) : Prop :=
  (∀ eid m c, NConnect eid m n c ∉ before ++ after) ∧ NDrop n ∉ after ∧
  (∀ m, NInput m ∈ after → m = n) ∧ (∀ m, NOutput m ∈ after → m = n).
End spec.

(** ** A gain node between the input and the output *)
(** a new node: its parameter as create_parameters makes it, utility/create_parameters.rs *)
Definition gain_state {V} (N : num V) (initial : V) : dspstate V unit := DspState {[ "gain" := new_param N initial ]} ().

(** the sample that reaches channel [ch] of the node: silence beyond the channels of the
    input, the engine and the node *)
Definition incoming {A} (zero : A) (max_ch inputs : nat) (inp : owned A) (iv : view) (ch fr : nat) : A :=
  if decide (ch < v_channels inp iv ∧ ch < max_ch ∧ ch < inputs) then heard_at zero inp (off_ch iv + ch) (off_fr iv + fr) else zero.

(** each frame that is played is the input times a value of the gain, in order; the output is silent
    while the engine is stopped *)
Fixpoint amplified {V P} (tolerance : R) (max_ch inputs : nat) (on : bool) (os : list (nop V R P)) (outputs : list (owned R)) (gains : list R) : Prop :=
  match os with
  | [] => outputs = [] ∧ gains = []
  | NStart :: os => amplified tolerance max_ch inputs true os outputs gains
  | NStop :: os => amplified tolerance max_ch inputs false os outputs gains
  | NCallback inp iv out ov :: os =>
      ∃ out' outputs', outputs = out' :: outputs' ∧
      if on then
        ∃ gains1 gains2, gains = gains1 ++ gains2 ∧ length gains1 = v_frames out ov ∧ same_dims out out' ∧
        (∀ ch fr, ch < v_channels out ov → fr < v_frames out ov → ∃ g y, gains1 !! fr = Some g ∧
           sample out' (off_ch ov + ch) (off_fr ov + fr) = Some y ∧
           let x := incoming 0%R max_ch inputs inp iv ch fr in (Rabs (y - x * g) <= tolerance * Rabs x)%R) ∧
        (∀ ch fr, ¬ in_rect (off_ch ov) (off_fr ov) (v_channels out ov) (v_frames out ov) ch fr → sample out' ch fr = sample out ch fr) ∧
        amplified tolerance max_ch inputs on os outputs' gains2
      else silenced 0%R out ov out' ∧ amplified tolerance max_ch inputs on os outputs' gains
  | _ :: os => amplified tolerance max_ch inputs on os outputs gains
  end.

(** events without cancellations as the histories of AudioParamSpec.v *)
Definition aops_of {V} (l : list (pevent V)) : list (aop V) :=
  l ≫= λ e, match e with PChange c => [AAdd c] | PCancel _ => [] | PBlock time frames => [ABlock time frames] end.
