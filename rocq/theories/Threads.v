(** The engine with its threads: clients that send commands, read the time and draw ids, the
    audio thread, and the thread that destroys removed nodes.

    src/engine/root.rs, src/realtime/processor.rs, src/realtime/garbage_collector.rs,
    src/commands/id.rs.  A schedule is a list of steps of all threads, in any order.  Each
    step touches shared state at most once: the command channel (crossbeam, unbounded, first
    in first out), the atomic time, the atomic id counter, the channel of removed nodes
    (crossbeam, bounded).  Memory is sequentially consistent. *)
From stdpp Require Import gmap list.
From Coq Require Import ZArith.
From Verif Require Import Base Graph TopoSort Buffer DspGraph Float Timestamp Processor.

Section threads.
Context {A St : Type}.
Context (zero : A) (add : A → A → A).
Context (proc : timestamp → St → owned A → owned A → res (St * owned A)).
Context (sh : nat → oracle) (dr : nat → list endpoint → list endpoint).
(** dsp_graph.rs l.24 GARBAGE_COLLECTION_CHANNEL_CAPACITY, here any number *)
Context (capacity : nat).

(** where the audio thread is in AudioProcess::process, processor.rs l.69-83 *)
Inductive audio :=
| Outside
| Draining (inp : owned A) (iv : view) (out : owned A) (ov : view)   (* before try_recv, l.88 *)
| Drained (inp : owned A) (iv : view) (out : owned A) (ov : view)    (* try_recv found nothing; before l.76 *)
| Rendered (out : owned A) (frame_count : nat).                      (* after l.81 *)

(** [w_engine] holds the command channel ([p_queue]), the atomic time ([p_time]) and what only
    the audio thread uses; [w_next] is the counter of commands/id.rs l.12; [w_garbage] the
    channel of dsp_graph.rs l.32-33; [w_disposed] the nodes the collector destroyed;
    [w_outputs] the buffers of the calls that returned. *)
Record world := World {
  w_engine : processor A St;
  w_audio : audio;
  w_next : Z;
  w_garbage : list (dsp St);
  w_disposed : list (dsp St);
  w_outputs : list (owned A);
}.

(** engine/root.rs l.117-141 *)
Definition new_world (nbuf sample_rate max_channels max_frames : nat) : world :=
  World (new_processor zero nbuf sample_rate max_channels max_frames) Outside 0 [] [] [].

(** id.rs l.11-14: fetch_add wraps around *)
Definition draw_id (next : Z) : id * Z := (Z.to_nat next, (next + 1) mod 2 ^ 64)%Z.

(** dsp_graph.rs l.149-157, graph.rs add_edge: a connection gets its edge id when it is added.
    In the channel, the edge id of a command means nothing. *)
Definition with_edge_id (i : id) (c : command St) : command St :=
  match c with CGraph (GAddConn _ a b x) => CGraph (GAddConn i a b x) | c => c end.
Definition draws_id (c : command St) : bool :=
  match c with CGraph (GAddConn _ _ _ _) => true | _ => false end.

(** dsp_graph.rs l.127-132: the node a command removes *)
Definition removed (st : processor A St) (c : command St) : option (dsp St) :=
  match c with CGraph (GRemoveDsp n) => get_node (dg_graph (p_graph st)) n | _ => None end.

(** The steps *)
Inductive act :=
| ASend (c : command St)                                             (* a client: root.rs l.156-158 *)
| ARead                                                              (* a client: current_time, root.rs l.22-24 *)
| ADraw                                                              (* a client: Id::generate *)
| ABegin (inp : owned A) (iv : view) (out : owned A) (ov : view)     (* audio: l.70-72 *)
| AReceive                                                           (* audio: one turn of l.88-112 *)
| ARender                                                            (* audio: l.80-81 *)
| AStore                                                             (* audio: l.82, l.115-121 and return *)
| ASkip                                                              (* audio: l.76-78 *)
| ACollect.                                                          (* garbage_collector.rs l.16-17 *)

(** what a client gets to see *)
Inductive seen_by_client :=
| STime (t : timestamp)
| SId (i : id).

(** One step; [Panic Blocked]: the thread cannot make this step now.  The send of a removed
    node waits while the channel is full (dsp_graph.rs l.129-131); the wait is placed before
    the removal, which no other thread observes.  Rendering is one step because it only uses
    state of the audio thread: the time it loads (processor.rs l.45) is written by itself. *)
Definition tstep (w : world) (a : act) : res (world * list seen_by_client) :=
  let '(World e au next garbage disposed outputs) := w in
  match a, au with
  | ASend c, _ => Ok (World (send e c) au next garbage disposed outputs, [])
  | ARead, _ => Ok (w, [STime (p_time e)])
  | ADraw, _ =>
      let '(i, next') := draw_id next in
      Ok (World e au next' garbage disposed outputs, [SId i])
  | ABegin inp iv out ov, Outside =>
      rassert (v_frames inp iv =? v_frames out ov) AssertFailed
        (let? out0 := clear zero out ov in
         Ok (World e (Draining inp iv out0 ov) next garbage disposed outputs, []))
  | AReceive, Draining inp iv out ov =>
      match p_queue e with
      | [] => Ok (World e (Drained inp iv out ov) next garbage disposed outputs, [])
      | c :: q =>
          let garbage' := garbage ++ match removed e c with Some d => [d] | None => [] end in
          rassert (length garbage' <=? capacity) Blocked
            (let '(i, next') := if draws_id c then draw_id next else (0, next) in
             let? e' := apply_command sh (with_queue e q) (with_edge_id i c) in
             Ok (World e' au next' garbage' disposed outputs, []))
      end
  | ARender, Drained inp iv out ov =>
      rassert (p_started e) Blocked
        (let? (e', out') := process_graph zero add proc sh dr e inp iv out ov in
         Ok (World e' (Rendered out' (v_frames out ov)) next garbage disposed outputs, []))
  | AStore, Rendered out n =>
      Ok (World (update_position e n) Outside next garbage disposed (outputs ++ [out]), [])
  | ASkip, Drained _ _ out _ =>
      rassert (negb (p_started e)) Blocked
        (Ok (World e Outside next garbage disposed (outputs ++ [out]), []))
  | ACollect, _ =>
      match garbage with
      | [] => Panic Blocked
      | d :: l => Ok (World e au next l (disposed ++ [d]) outputs, [])
      end
  | _, _ => Panic Blocked
  end.

(** An execution; everything the clients have seen, in order *)
Definition tstep_log (s : world * list seen_by_client) (a : act) : res (world * list seen_by_client) :=
  let? (w', l) := tstep s.1 a in Ok (w', s.2 ++ l).
Definition trun (w : world) (schedule : list act) : res (world * list seen_by_client) :=
  rfold tstep_log schedule (w, []).

End threads.
Arguments audio : clear implicits.
Arguments world : clear implicits.
Arguments act : clear implicits.
