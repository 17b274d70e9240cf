(** Model of src/realtime/dsp_graph.rs with src/buffer/buffer_pool.rs and
    src/graph/assigned_buffer_pool.rs: rendering one block of the audio graph.

    Samples [A] and their addition are abstract (no algebraic law is assumed, so
    everything holds for floating point), so are node states [St], times [T] and
    the node processors [proc]. *)
From stdpp Require Import gmap list.
From Verif Require Import Base Graph TopoSort Buffer.

(** src/graph/endpoint.rs l.3-13 *)
Inductive etype := EInput | EOutput.
Global Instance etype_eq_dec : EqDecision etype.
Proof. solve_decision. Defined.
Global Instance etype_countable : Countable etype.
Proof.
  apply (inj_countable (λ e, match e with EInput => true | EOutput => false end)
           (λ b : bool, Some (if b then EInput else EOutput))).
  by intros [].
Defined.
Notation endpoint := (etype * id)%type.

(** src/graph/connection.rs l.5-12; the two endpoints are the ends of the
    graph edge *)
Record connection := Connection {
  src_ch : nat;
  dst_ch : nat;
  ch_count : nat;
}.

Section dsp_graph.
Context {A St T : Type}.
Context (zero : A) (add : A → A → A).

(** src/graph/dsp.rs l.9-15; processor and parameters are the state *)
Record dsp := Dsp {
  d_in : nat;
  d_out : nat;
  d_state : St;
}.

(** Dsp::process_audio, src/graph/dsp.rs l.73-96: from the start time, state, input
    block and previous content of the output block to the new state and
    output block.  Blocks are buffers of exactly the node's channel counts and
    the block's frames: the processor is assumed to touch only the slices it
    is given. *)
Context (proc : T → St → owned A → owned A → res (St * owned A)).

(** dsp_graph.rs l.4-7; [free] is a stack, its head is the end of the Vec *)
Record pools := Pools {
  free : list (owned A);
  assigned : gmap endpoint (owned A);
}.

(** dsp_graph.rs l.9-19; the channel to the garbage collector is in Threads.v *)
Record dspgraph := DspGraph {
  dg_graph : graph dsp connection;
  dg_order : list id;
  dg_in : option endpoint;
  dg_out : option endpoint;
  dg_sort : bool;
  dg_pools : pools;
  dg_channels : nat;
  dg_frames : nat;
}.

(** dsp_graph.rs l.26-55, buffer_pool.rs l.8-19; [n] is MAXIMUM_BUFFER_COUNT *)
Definition new_dspgraph (n max_frames max_channels sample_rate : nat) : dspgraph :=
  DspGraph empty_graph [] None None false
    (Pools (replicate n (new_buffer zero max_frames max_channels sample_rate)) ∅)
    max_channels max_frames.

(** buffer_pool.rs l.21-23 with the expect of dsp_graph.rs l.320-323 *)
Definition free_remove (p : pools) : res (owned A * pools) :=
  match free p with
  | b :: l => Ok (b, Pools l (assigned p))
  | [] => Panic NoBuffers
  end.

(** buffer_pool.rs l.25-28 *)
Definition free_add (p : pools) (b : owned A) : res pools :=
  let? b' := clear zero b Whole in
  Ok (Pools (b' :: free p) (assigned p)).

(** assigned_buffer_pool.rs l.23-25 *)
Definition assigned_add (p : pools) (e : endpoint) (b : owned A) : pools :=
  Pools (free p) (<[e := b]> (assigned p)).

(** dsp_graph.rs l.314-325 *)
Definition get_buffer (p : pools) (e : endpoint) : res (owned A * pools) :=
  match assigned p !! e with
  | Some b => Ok (b, Pools (free p) (delete e (assigned p)))
  | None => free_remove p
  end.

(** dsp_graph.rs l.250-283; the buffer is removed from the pool, read and put
    back: the pool does not change *)
Definition mix_endpoint (p : pools) (e : endpoint) (out : owned A) (ov : view)
    (sc dc cc fc : nat) (overwrite : bool) : res (owned A) :=
  match assigned p !! e with
  | Some b =>
      if overwrite then copy_from out ov b Whole sc 0 dc 0 cc fc
      else add_from add out ov b Whole sc 0 dc 0 cc fc
  | None => Ok out
  end.

(** dsp_graph.rs l.285-312 *)
Definition copy_output_from_dependencies (p : pools) (g : graph dsp connection) (n : id)
    (dest : owned A) (fc : nat) : res (owned A) :=
  let? es := edge_iterator g n Incoming in
  let? r := rfold (λ '(dest, overwrite) e,
      let? ed := runwrap (get_edge g e) UnwrapNone in
      let? dest' := mix_endpoint p (EOutput, from_node_id ed) dest Whole
                      (src_ch (edge_data ed)) (dst_ch (edge_data ed))
                      (ch_count (edge_data ed)) fc overwrite in
      Ok (dest', false)) es (dest, true) in
  Ok (fst r).

(** dsp_graph.rs l.327-346 *)
Definition prepare_n_input_node (p : pools) (g : graph dsp connection) (n : id) (fc : nat)
  : res (owned A * endpoint * pools) :=
  let? (b, p') := get_buffer p (EInput, n) in
  let? b' := copy_output_from_dependencies p' g n b fc in
  Ok (b', (EInput, n), p').

(** dsp_graph.rs l.348-358 *)
Definition prepare_zero_input_node (p : pools) (n : id) : res (owned A * endpoint * pools) :=
  let? (b, p') := get_buffer p (EInput, n) in
  Ok (b, (EInput, n), p').

(** dsp_graph.rs l.360-383 *)
Definition prepare_single_input_node (p : pools) (g : graph dsp connection) (n : id) (fc : nat)
  : res (owned A * endpoint * pools) :=
  let? e := runwrap (edge_next g n None Incoming) UnwrapNone in
  let? ed := runwrap (get_edge g e) UnwrapNone in
  if Nat.eqb (dst_ch (edge_data ed)) 0 && Nat.eqb (src_ch (edge_data ed)) 0 then
    let ep := (EOutput, from_node_id ed) in
    let? (b, p') := get_buffer p ep in
    Ok (b, ep, p')
  else prepare_n_input_node p g n fc.

(** dsp_graph.rs l.385-396 *)
Definition prepare_input (p : pools) (g : graph dsp connection) (n : id) (fc : nat)
  : res (owned A * endpoint * pools) :=
  let? k := connection_count g n Incoming in
  match k with
  | 0 => prepare_zero_input_node p n
  | 1 => prepare_single_input_node p g n fc
  | _ => prepare_n_input_node p g n fc
  end.

(** dsp_graph.rs l.207-221: the processor works on slices of the two buffers.
    Reading the slices and writing the result back is made explicit. *)
Definition run_dsp (t : T) (d : dsp) (inb outb : owned A) (fc : nat) : res (St * owned A) :=
  let? ov := slice_channels_and_frames outb Whole fc (d_out d) in
  let? iv := slice_channels_and_frames inb Whole fc (d_in d) in
  let? i := from_buffer zero inb iv in
  let? o := from_buffer zero outb ov in
  let? (st', o') := proc t (d_state d) i o in
  let? outb' := copy_from outb ov o' Whole 0 0 0 0 (d_out d) fc in
  Ok (st', outb').

(** dsp_graph.rs l.194-230 *)
Definition process_dsp (t : T) (fc : nat) (pg : pools * graph dsp connection) (n : id)
  : res (pools * graph dsp connection) :=
  let '(p, g) := pg in
  let? (outb, p1) := get_buffer p (EOutput, n) in
  let? (inb, iep, p2) := prepare_input p1 g n fc in
  let? (outb', g') :=
    match get_node g n with
    | Some d =>
        let? (st', outb') := run_dsp t d inb outb fc in
        Ok (outb', set_node_data g n (Dsp (d_in d) (d_out d) st'))
    | None => Ok (outb, g)
    end in
  let p3 := assigned_add p2 (EOutput, n) outb' in
  let? p4 := match fst iep with
             | EInput => free_add p3 inb
             | EOutput => Ok (assigned_add p3 iep inb)
             end in
  Ok (p4, g').

(** dsp_graph.rs l.120-125 *)
Definition sort_graph (shuffle : oracle) (dg : dspgraph) : res (list id) :=
  if dg_sort dg then sort shuffle (dg_graph dg) else Ok (dg_order dg).

(** assigned_buffer_pool.rs l.35-44 and dsp_graph.rs l.103-105: repeatedly remove
    the first key of the hash map; [order] is the resulting order *)
Definition drain (order : list endpoint) (p : pools) : res pools :=
  rfold (λ p e, match assigned p !! e with
                | Some b => free_add (Pools (free p) (delete e (assigned p))) b
                | None => Ok p
                end) order p.

(** dsp_graph.rs l.57-108; [shuffle], [drain_order] are hash orders *)
Definition process (shuffle : oracle) (drain_order : list endpoint → list endpoint)
    (dg : dspgraph) (inp : owned A) (iv : view) (out : owned A) (ov : view) (t : T)
  : res (dspgraph * owned A) :=
  let icc := v_channels inp iv `min` dg_channels dg in
  let occ := v_channels out ov `min` dg_channels dg in
  let fc := v_frames out ov `min` dg_frames dg in
  let? order := sort_graph shuffle dg in
  let? p1 := match dg_in dg with
             | Some e =>
                 match free (dg_pools dg) with
                 | b :: l =>
                     let? b' := copy_from b Whole inp iv 0 0 0 0 icc fc in
                     Ok (assigned_add (Pools l (assigned (dg_pools dg))) e b')
                 | [] => Ok (dg_pools dg)
                 end
             | None => Ok (dg_pools dg)
             end in
  let? (p2, g') := rfold (process_dsp t fc) order (p1, dg_graph dg) in
  let? out' := match dg_out dg with
               | Some e => mix_endpoint p2 e out ov 0 0 occ fc true
               | None => Ok out
               end in
  let? p3 := drain (drain_order (elements (dom (assigned p2)))) p2 in
  Ok (DspGraph g' order (dg_in dg) (dg_out dg) false p3 (dg_channels dg) (dg_frames dg), out').

(** dsp_graph.rs l.110-172: the operations the commands perform.  [GAddConn]
    carries the edge id that Id::generate returns; [GParam] is a parameter
    change or cancellation, an arbitrary (partial: a missing parameter panics)
    update of one node's state. *)
Inductive gcmd :=
| GAddDsp (n : id) (d : dsp)
| GRemoveDsp (n : id)
| GAddConn (eid a b : id) (c : connection)
| GRemoveConn (a b : id)
| GOutput (e : endpoint)
| GInput (e : endpoint)
| GParam (n : id) (f : St → res St).

Definition with_graph (dg : dspgraph) (g : graph dsp connection) : dspgraph :=
  DspGraph g (dg_order dg) (dg_in dg) (dg_out dg) true (dg_pools dg) (dg_channels dg) (dg_frames dg).

Definition gcmd_step (shuffle : oracle) (k : nat) (dg : dspgraph) (c : gcmd) : res dspgraph :=
  match c with
  | GAddDsp n d =>
      let? g := gstep shuffle k (dg_graph dg) (AddNode n d) in Ok (with_graph dg g)
  | GRemoveDsp n =>
      let? g := gstep shuffle k (dg_graph dg) (RemoveNode n) in Ok (with_graph dg g)
  | GAddConn eid a b x =>
      let? g := gstep shuffle k (dg_graph dg) (AddEdge eid a b x) in Ok (with_graph dg g)
  | GRemoveConn a b =>
      let? g := gstep shuffle k (dg_graph dg) (RemoveEdge a b) in Ok (with_graph dg g)
  | GOutput e =>
      Ok (DspGraph (dg_graph dg) (dg_order dg) (dg_in dg) (Some e) (dg_sort dg) (dg_pools dg)
            (dg_channels dg) (dg_frames dg))
  | GInput e =>
      Ok (DspGraph (dg_graph dg) (dg_order dg) (Some e) (dg_out dg) (dg_sort dg) (dg_pools dg)
            (dg_channels dg) (dg_frames dg))
  | GParam n f =>
      match get_node (dg_graph dg) n with
      | Some d =>
          let? st := f (d_state d) in
          Ok (DspGraph (set_node_data (dg_graph dg) n (Dsp (d_in d) (d_out d) st)) (dg_order dg)
                (dg_in dg) (dg_out dg) (dg_sort dg) (dg_pools dg) (dg_channels dg) (dg_frames dg))
      | None => Ok dg
      end
  end.

(** A history of graph operations and blocks, as the audio thread performs
    them; returns the outputs of the blocks.  Step [k] uses the hash orders
    [sh k] and [dr k]. *)
Inductive hop :=
| HCmd (c : gcmd)
| HBlock (inp : owned A) (iv : view) (out : owned A) (ov : view) (t : T).

Definition hstep (sh : nat → oracle) (dr : nat → list endpoint → list endpoint) (k : nat)
    (dg : dspgraph) (o : hop) : res (dspgraph * list (owned A)) :=
  match o with
  | HCmd c => let? dg' := gcmd_step (sh k) k dg c in Ok (dg', [])
  | HBlock inp iv out ov t =>
      let? (dg', out') := process (sh k) (dr k) dg inp iv out ov t in Ok (dg', [out'])
  end.

Fixpoint hrun (sh : nat → oracle) (dr : nat → list endpoint → list endpoint) (k : nat)
    (dg : dspgraph) (os : list hop) : res (dspgraph * list (owned A)) :=
  match os with
  | [] => Ok (dg, [])
  | o :: os =>
      let? (dg', l) := hstep sh dr k dg o in
      let? (dg'', l') := hrun sh dr (S k) dg' os in
      Ok (dg'', l ++ l')
  end.

End dsp_graph.
Arguments dsp : clear implicits.
Arguments pools : clear implicits.
Arguments dspgraph : clear implicits.
Arguments gcmd : clear implicits.
Arguments hop : clear implicits.
