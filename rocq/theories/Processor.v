(** Model of src/realtime/processor.rs: the audio callback. *)
From stdpp Require Import gmap list.
From Coq Require Import ZArith.
From Verif Require Import Base Graph TopoSort Buffer DspGraph Float Timestamp.

Section processor.
Context {A St : Type}.
Context (zero : A) (add : A → A → A).
Context (proc : timestamp → St → owned A → owned A → res (St * owned A)).

(** src/commands/command.rs; the commands that only concern the graph are the
    operations of DspGraph.v *)
Inductive command :=
| CStart
| CStop
| CGraph (c : gcmd St).

(** processor.rs l.7-17.  [p_queue] is the content of the command channel
    (unbounded, engine/root.rs l.148-153), oldest first.  [p_clock] numbers the
    graph operations; it only selects the hash order each of them uses. *)
Record processor := Processor {
  p_started : bool;
  p_rate : nat;
  p_queue : list command;
  p_position : nat;
  p_time : timestamp;
  p_graph : dspgraph A St;
  p_max : nat;
  p_clock : nat;
}.

(** processor.rs l.20-36; the shared time starts at 0 (engine/root.rs) *)
Definition new_processor (nbuf sample_rate max_channels max_frames : nat) : processor :=
  Processor false sample_rate [] 0 ts_zero (new_dspgraph zero nbuf max_frames max_channels sample_rate)
    max_frames 0.

Definition with_queue (st : processor) (q : list command) : processor :=
  Processor (p_started st) (p_rate st) q (p_position st) (p_time st) (p_graph st) (p_max st) (p_clock st).

(** sending a command: engine/root.rs and graph/graph_node.rs [command_queue.send] *)
Definition send (st : processor) (c : command) : processor := with_queue st (p_queue st ++ [c]).

(** processor.rs l.89-111: one command *)
Definition apply_command (sh : nat → oracle) (st : processor) (c : command) : res processor :=
  match c with
  | CStart => Ok (Processor true (p_rate st) (p_queue st) (p_position st) (p_time st) (p_graph st)
                    (p_max st) (p_clock st))
  | CStop => Ok (Processor false (p_rate st) (p_queue st) (p_position st) (p_time st) (p_graph st)
                   (p_max st) (p_clock st))
  | CGraph c =>
      let? g := gcmd_step (sh (p_clock st)) (p_clock st) (p_graph st) c in
      Ok (Processor (p_started st) (p_rate st) (p_queue st) (p_position st) (p_time st) g
            (p_max st) (S (p_clock st)))
  end.

(** processor.rs l.87-113: take the oldest command until the channel is empty.
    Commands sent while the loop runs are those of the next call here. *)
Definition process_commands (sh : nat → oracle) (st : processor) : res processor :=
  rfold (apply_command sh) (p_queue st) (with_queue st []).

(** processor.rs l.47-64; the state is the graph and the output buffer *)
Fixpoint chunk_loop (fuel : nat) (sh : nat → oracle) (dr : nat → list endpoint → list endpoint)
    (rate mx : nat) (time : timestamp) (inp : owned A) (iv : view) (ov : view)
    (offset clock : nat) (g : dspgraph A St) (out : owned A) : res (nat * dspgraph A St * owned A) :=
  if offset <? v_frames out ov then
    match fuel with
    | 0 => Panic OutOfFuel
    | S fuel =>
        let frame_count := (v_frames out ov - offset) `min` mx in
        let? is := slice_frames inp iv offset frame_count in
        let? os := slice_frames out ov offset frame_count in
        let start_time := incremented_by_samples time (Z.of_nat offset) (Z.of_nat rate) in
        let? (g', out') := process zero add proc (sh clock) (dr clock) g inp is out os start_time in
        chunk_loop fuel sh dr rate mx time inp iv ov (offset + frame_count) (S clock) g' out'
    end
  else Ok (clock, g, out).

(** processor.rs l.38-65 *)
Definition process_graph sh dr (st : processor) (inp : owned A) (iv : view) (out : owned A) (ov : view)
  : res (processor * owned A) :=
  let? (clock, g, out') :=
    chunk_loop (v_frames out ov) sh dr (p_rate st) (p_max st) (p_time st) inp iv ov 0 (p_clock st)
      (p_graph st) out in
  Ok (Processor (p_started st) (p_rate st) (p_queue st) (p_position st) (p_time st) g (p_max st) clock,
      out').

(** processor.rs l.115-121 *)
Definition update_position (st : processor) (frame_count : nat) : processor :=
  let position := p_position st + frame_count in
  Processor (p_started st) (p_rate st) (p_queue st) position
    (from_seconds (f64_div (f64_of_Z (Z.of_nat position)) (f64_of_Z (Z.of_nat (p_rate st)))))
    (p_graph st) (p_max st) (p_clock st).

(** processor.rs l.69-83 *)
Definition callback sh dr (st : processor) (inp : owned A) (iv : view) (out : owned A) (ov : view)
  : res (processor * owned A) :=
  rassert (v_frames inp iv =? v_frames out ov) AssertFailed
    (let? out0 := clear zero out ov in
     let? st1 := process_commands sh st in
     if p_started st1 then
       let? (st2, out') := process_graph sh dr st1 inp iv out0 ov in
       Ok (update_position st2 (v_frames out ov), out')
     else Ok (st1, out0)).

(** What happens to an engine: commands are sent, callbacks come.  Returns the
    output buffers of the callbacks. *)
Inductive pop :=
| PSend (c : command)
| PCallback (inp : owned A) (iv : view) (out : owned A) (ov : view).

Definition pstep sh dr (st : processor) (o : pop) : res (processor * list (owned A)) :=
  match o with
  | PSend c => Ok (send st c, [])
  | PCallback inp iv out ov =>
      let? (st', out') := callback sh dr st inp iv out ov in Ok (st', [out'])
  end.

Fixpoint prun sh dr (st : processor) (os : list pop) : res (processor * list (owned A)) :=
  match os with
  | [] => Ok (st, [])
  | o :: os =>
      let? (st', l) := pstep sh dr st o in
      let? (st'', l') := prun sh dr st' os in
      Ok (st'', l ++ l')
  end.

End processor.
Arguments command : clear implicits.
Arguments processor : clear implicits.
Arguments pop : clear implicits.
