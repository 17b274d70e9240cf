(** What a block of audio is, stated on the abstract graph (nodes and
    connections) without buffers pools, orders or endpoints in flight. *)
From stdpp Require Import gmap list relations.
From Verif Require Import Base Graph GraphSpec TopoSortSpec Buffer BufferSpec DspGraph.

Section spec.
Context {A St T : Type}.
Context (zero : A) (add : A → A → A).
Context (proc : T → St → owned A → owned A → res (St * owned A)).
Implicit Types (s : sgraph (dsp St) connection) (b : owned A).

(** the sample of a block, silence outside the block *)
Definition heard_at b (ch fr : nat) : A := default zero (sample b ch fr).

(** a block of [cc] channels and [fc] frames *)
Definition is_block b (cc fc : nat) : Prop := wf b ∧ channels b = cc ∧ frames b = fc.

(** what the connection [c] delivers on channel [ch] of its destination, given
    the output of every node *)
Definition delivers (outs : id → owned A) (c : conn connection) (ch fr : nat) : option A :=
  if decide (dst_ch (c_data c) ≤ ch < dst_ch (c_data c) + ch_count (c_data c))
  then Some (heard_at (outs (c_from c)) (src_ch (c_data c) + (ch - dst_ch (c_data c))) fr)
  else None.

(** the first connection replaces what was there, the others add to it *)
Definition overwrite (old : A) (new : option A) : A := default old new.
Definition mix_in (old : A) (new : option A) : A :=
  match new with Some x => add old x | None => old end.

Definition mixed outs (cs : list (conn connection)) (acc : A) (ch fr : nat) : A :=
  foldl (λ acc c, mix_in acc (delivers outs c ch fr)) acc cs.

(** What a node hears on a channel and frame: [sys] is the system input
    presented to this node (silence for the others), [cs] its connections in
    the order they were made.
    - without connections: the system input;
    - with a single connection from channel 0 to channel 0: the output of the source,
      whatever the channel count of the connection (and not the system input);
    - otherwise: the first connection overwrites, the others add. *)
Definition heard outs (sys : nat → nat → A) (cs : list (conn connection)) (ch fr : nat) : A :=
  match cs with
  | [] => sys ch fr
  | c :: cs' =>
      if decide (cs' = [] ∧ src_ch (c_data c) = 0 ∧ dst_ch (c_data c) = 0)
      then heard_at (outs (c_from c)) ch fr
      else mixed outs cs' (overwrite (sys ch fr) (delivers outs c ch fr)) ch fr
  end.

(** the system input as presented to node [n] *)
Definition system_input (in_ep : option endpoint) (max_ch : nat) (inp : owned A) (iv : view)
    (n : id) (ch fr : nat) : A :=
  if decide (in_ep = Some (EInput, n) ∧ ch < v_channels inp iv `min` max_ch)
  then heard_at inp (ch + off_ch iv) (fr + off_fr iv) else zero.

(** The equations of a block of [fc] frames at time [t]: every node turns what
    it hears and a silent output block into its output [outs n], and changes its
    state.  Nodes keep their channel counts. *)
Definition block_equations s (sys : id → nat → nat → A) (fc r : nat) (t : T)
    (nodes' : gmap id (dsp St)) (outs : id → owned A) : Prop :=
  dom nodes' = dom (s_nodes s) ∧
  ∀ n d, s_nodes s !! n = Some d →
    ∃ i st', is_block i (d_in d) fc ∧ rate i = r ∧
      (∀ ch fr, ch < d_in d → fr < fc →
         sample i ch fr = Some (heard outs (sys n) (conns_of s n Incoming) ch fr)) ∧
      proc t (d_state d) i (new_buffer zero fc (d_out d) r) = Ok (st', outs n) ∧
      is_block (outs n) (d_out d) fc ∧
      nodes' !! n = Some (Dsp (d_in d) (d_out d) st').

(** Processors: an arbitrary notion of valid node under which they never panic
    and produce blocks of the right shape, for blocks of at most [max_fr] frames at rate [r] *)
Definition proc_ok (max_fr r : nat) (node_ok : nat → nat → St → Prop) : Prop :=
  ∀ t ni no st i o fc, fc ≤ max_fr → node_ok ni no st → is_block i ni fc → is_block o no fc → rate i = r → rate o = r →
    ∃ st' o', proc t st i o = Ok (st', o') ∧ is_block o' no fc ∧ node_ok ni no st'.

(** a processor writes into the block it is given: it cannot change its shape *)
Definition proc_shape : Prop :=
  ∀ t st i o st' o' ni no fc, proc t st i o = Ok (st', o') → is_block i ni fc → is_block o no fc → is_block o' no fc.

(** A graph that can be rendered with [nbuf] buffers of [max_ch] channels *)
Record renderable (node_ok : nat → nat → St → Prop) (nbuf max_ch : nat) s : Prop := {
  rd_acyclic : acyclic s;
  rd_no_parallel : no_parallel s;
  rd_buffers : size (s_nodes s) + 2 ≤ nbuf;
  rd_nodes n d : s_nodes s !! n = Some d →
    d_in d ≤ max_ch ∧ d_out d ≤ max_ch ∧ node_ok (d_in d) (d_out d) (d_state d);
  rd_conns c : c ∈ s_conns s →
    src_ch (c_data c) + ch_count (c_data c) ≤ max_ch ∧
    dst_ch (c_data c) + ch_count (c_data c) ≤ max_ch;
}.

(** the output buffer after the block: the output of the connected node on its
    first channels and frames, everything else untouched *)
Definition output_is (out out' : owned A) (ov : view) (occ fc : nat) (src : option (owned A)) : Prop :=
  wf out' ∧ same_dims out out' ∧
  ∀ ch fr, sample out' ch fr =
    match src with
    | Some b =>
        if decide (in_rect (off_ch ov) (off_fr ov) occ fc ch fr)
        then Some (heard_at b (ch - off_ch ov) (fr - off_fr ov))
        else sample out ch fr
    | None => sample out ch fr
    end.

(** the node connected to the output, if it is (still) in the graph *)
Definition output_node s (out_ep : option endpoint) : option id :=
  match out_ep with
  | Some (EOutput, n) => if decide (is_Some (s_nodes s !! n)) then Some n else None
  | _ => None
  end.

(** endpoints as the node API creates them (graph_node.rs l.43-66) *)
Definition in_ep_ok (e : option endpoint) : Prop := ∀ ty n, e = Some (ty, n) → ty = EInput.
Definition out_ep_ok (e : option endpoint) : Prop := ∀ ty n, e = Some (ty, n) → ty = EOutput.

(** all buffers are back in the pool and silent *)
Definition pool_clean (dg : dspgraph A St) (nbuf r : nat) : Prop :=
  assigned (dg_pools dg) = ∅ ∧
  free (dg_pools dg) = replicate nbuf (new_buffer zero (dg_frames dg) (dg_channels dg) r).

(** ids of connections made along a history *)
Definition gcmd_edge_ids (c : gcmd St) : list id :=
  match c with GAddConn eid _ _ _ => [eid] | _ => [] end.
Definition hop_edge_ids (o : hop A St T) : list id :=
  match o with HCmd c => gcmd_edge_ids c | _ => [] end.
Definition hist_edge_ids (os : list (hop A St T)) : list id := os ≫= hop_edge_ids.

(** The abstract engine: the graph and the two system endpoints *)
Record astate := AState {
  a_graph : sgraph (dsp St) connection;
  a_in : option endpoint;
  a_out : option endpoint;
}.

Definition ainit : astate := AState sempty None None.

(** One step of the abstract engine of [max_ch] channels and [max_fr] frames
    per block; the last argument is the list of rendered outputs.  A block is
    characterised by its equations alone. *)
Inductive astep (max_ch max_fr r : nat) : astate → hop A St T → astate → list (owned A) → Prop :=
| a_add_dsp a n d s' :
    sstep (a_graph a) (AddNode n d) (Ok s') →
    astep max_ch max_fr r a (HCmd (GAddDsp n d)) (AState s' (a_in a) (a_out a)) []
| a_remove_dsp a n s' :
    sstep (a_graph a) (RemoveNode n) (Ok s') →
    astep max_ch max_fr r a (HCmd (GRemoveDsp n)) (AState s' (a_in a) (a_out a)) []
| a_connect a eid x y c s' :
    sstep (a_graph a) (AddEdge eid x y c) (Ok s') →
    astep max_ch max_fr r a (HCmd (GAddConn eid x y c)) (AState s' (a_in a) (a_out a)) []
| a_disconnect a x y s' :
    sstep (a_graph a) (RemoveEdge x y) (Ok s') →
    astep max_ch max_fr r a (HCmd (GRemoveConn x y)) (AState s' (a_in a) (a_out a)) []
| a_set_output a e :
    astep max_ch max_fr r a (HCmd (GOutput e)) (AState (a_graph a) (a_in a) (Some e)) []
| a_set_input a e :
    astep max_ch max_fr r a (HCmd (GInput e)) (AState (a_graph a) (Some e) (a_out a)) []
| a_param a n f d st :
    s_nodes (a_graph a) !! n = Some d → f (d_state d) = Ok st →
    astep max_ch max_fr r a (HCmd (GParam n f))
      (AState (SGraph (<[n := Dsp (d_in d) (d_out d) st]> (s_nodes (a_graph a)))
                 (s_conns (a_graph a))) (a_in a) (a_out a)) []
| a_param_absent a n f :
    s_nodes (a_graph a) !! n = None →
    astep max_ch max_fr r a (HCmd (GParam n f)) a []
| a_block a inp iv out ov t out' nodes' outs :
    acyclic (a_graph a) → no_parallel (a_graph a) →
    block_equations (a_graph a) (system_input (a_in a) max_ch inp iv)
      (v_frames out ov `min` max_fr) r t nodes' outs →
    output_is out out' ov (v_channels out ov `min` max_ch) (v_frames out ov `min` max_fr)
      (outs <$> output_node (a_graph a) (a_out a)) →
    astep max_ch max_fr r a (HBlock inp iv out ov t)
      (AState (SGraph nodes' (s_conns (a_graph a))) (a_in a) (a_out a)) [out'].

Inductive arun (max_ch max_fr r : nat) : astate → list (hop A St T) → astate → list (owned A) → Prop :=
| arun_nil a : arun max_ch max_fr r a [] a []
| arun_cons a o a' l os a'' l' :
    astep max_ch max_fr r a o a' l → arun max_ch max_fr r a' os a'' l' →
    arun max_ch max_fr r a (o :: os) a'' (l ++ l').

(** no node lists the same destination twice *)
Definition single_destinations {ND ED} (g : graph ND ED) : Prop :=
  Forall (λ n, match node_iter g n Outgoing with Ok l => NoDup l | Panic _ => True end)
    (all_node_ids g).

(** operations as the node API issues them *)
Definition hop_ok (o : hop A St T) : Prop :=
  match o with
  | HCmd (GOutput (ty, _)) => ty = EOutput
  | HCmd (GInput (ty, _)) => ty = EInput
  | HBlock inp iv out ov _ => wf inp ∧ valid_view inp iv ∧ wf out ∧ valid_view out ov ∧
      v_frames out ov ≤ v_frames inp iv
  | _ => True
  end.

End spec.
