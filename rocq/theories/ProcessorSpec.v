(** What an engine does with commands and callbacks, stated on the abstract
    graph of DspGraphSpec.v. *)
From stdpp Require Import gmap list.
From Coq Require Import ZArith.
From Verif Require Import Base Graph GraphSpec TopoSort Buffer BufferSpec DspGraph DspGraphSpec
  Float Timestamp Processor.

Section spec.
Context {A St : Type}.
Context (zero : A) (add : A → A → A).
Context (proc : timestamp → St → owned A → owned A → res (St * owned A)).
Context (max_ch max_fr sample_rate : nat).

(** the graph operations among commands, in order *)
Definition graph_commands (q : list (command St)) : list (hop A St timestamp) :=
  q ≫= λ c, match c with CGraph g => [HCmd g] | _ => [] end.

(** whether the engine runs after the commands: the last start or stop decides *)
Fixpoint running (started : bool) (q : list (command St)) : bool :=
  match q with
  | [] => started
  | CStart :: q => running true q
  | CStop :: q => running false q
  | CGraph _ :: q => running started q
  end.

(** time of frame [n] of the stream: n / sample_rate seconds, converted once *)
Definition time_of (n : nat) : timestamp :=
  from_samples (f64_of_Z (Z.of_nat n)) (Z.of_nat sample_rate).

(** [out'] is [out] with silence in the region [ov] *)
Definition silenced (out : owned A) (ov : view) (out' : owned A) : Prop :=
  wf out' ∧ same_dims out out' ∧
  ∀ ch fr, sample out' ch fr =
    if decide (in_rect (off_ch ov) (off_fr ov) (v_channels out ov) (v_frames out ov) ch fr)
    then (λ _, zero) <$> sample out ch fr else sample out ch fr.

(** A callback of [n] frames is cut into the chunks k = 0, 1, ...: chunk [k] covers
    the frames from k * max_fr on, [chunk_len n k] of them. *)
Definition chunk_len (n k : nat) : nat := max_fr `min` (n - k * max_fr).
Definition chunk_view (b : owned A) (v : view) (n k : nat) : view :=
  Sub v (Range 0 (k * max_fr) (v_channels b v) (chunk_len n k)).

(** The chunks from [k] on of a callback that starts at frame [position] of the
    stream, as blocks of the abstract graph: [o] is the output buffer before,
    [o'] after.  They end when all [n] frames are covered. *)
Inductive chunks (inp : owned A) (iv ov : view) (n position : nat) :
    nat → astate → owned A → astate → owned A → Prop :=
| chunks_done k a o : n ≤ k * max_fr → chunks inp iv ov n position k a o a o
| chunks_next k a o a1 o1 a' o' :
    k * max_fr < n →
    astep zero add proc max_ch max_fr sample_rate a
      (HBlock inp (chunk_view inp iv n k) o (chunk_view o ov n k)
         (time_of position + time_of (k * max_fr))%Z) a1 [o1] →
    chunks inp iv ov n position (S k) a1 o1 a' o' →
    chunks inp iv ov n position k a o a' o'.

(** The abstract engine *)
Record estate := EState {
  e_started : bool;
  e_sent : list (command St);
  e_graph : @astate St;
  e_frames : nat;
}.

Definition einit : estate := EState false [] ainit 0.

Inductive estep : estate → pop A St → estate → list (owned A) → Prop :=
| e_send e c :
    estep e (PSend c) (EState (e_started e) (e_sent e ++ [c]) (e_graph e) (e_frames e)) []
| e_idle e inp iv out ov a' out' :
    arun zero add proc max_ch max_fr sample_rate (e_graph e) (graph_commands (e_sent e)) a' [] →
    running (e_started e) (e_sent e) = false →
    silenced out ov out' →
    estep e (PCallback inp iv out ov) (EState false [] a' (e_frames e)) [out']
| e_play e inp iv out ov a' a'' out0 out' :
    arun zero add proc max_ch max_fr sample_rate (e_graph e) (graph_commands (e_sent e)) a' [] →
    running (e_started e) (e_sent e) = true →
    silenced out ov out0 →
    chunks inp iv ov (v_frames out ov) (e_frames e) 0 a' out0 a'' out' →
    estep e (PCallback inp iv out ov) (EState true [] a'' (e_frames e + v_frames out ov)) [out'].

Inductive erun : estate → list (pop A St) → estate → list (owned A) → Prop :=
| erun_nil e : erun e [] e []
| erun_cons e o e' l os e'' l' :
    estep e o e' l → erun e' os e'' l' → erun e (o :: os) e'' (l ++ l').

(** number of frames played along a history: those of the callbacks that come
    while the last start or stop sent is a start *)
Fixpoint frames_played (on : bool) (os : list (pop A St)) : nat :=
  match os with
  | [] => 0
  | PSend CStart :: os => frames_played true os
  | PSend CStop :: os => frames_played false os
  | PSend (CGraph _) :: os => frames_played on os
  | PCallback _ _ out ov :: os => (if on then v_frames out ov else 0) + frames_played on os
  end.

(** operations as the API issues them *)
Definition pop_ok (o : pop A St) : Prop :=
  match o with
  | PSend (CGraph c) => hop_ok (T := timestamp) (HCmd (A := A) c)
  | PSend _ => True
  | PCallback inp iv out ov =>
      wf inp ∧ valid_view inp iv ∧ wf out ∧ valid_view out ov ∧ v_frames inp iv = v_frames out ov
  end.

Definition pop_edge_ids (o : pop A St) : list id :=
  match o with PSend (CGraph c) => gcmd_edge_ids c | _ => [] end.
Definition phist_edge_ids (os : list (pop A St)) : list id := os ≫= pop_edge_ids.

(** commands sent since the last callback *)
Fixpoint unprocessed (q : list (command St)) (os : list (pop A St)) : list (command St) :=
  match os with
  | [] => q
  | PSend c :: os => unprocessed (q ++ [c]) os
  | PCallback _ _ _ _ :: os => unprocessed [] os
  end.

Definition sent (os : list (pop A St)) : list (command St) :=
  os ≫= λ o, match o with PSend c => [c] | _ => [] end.

(** what the engine knows: its graph and endpoints *)
Definition graph_is (st : processor A St) (a : @astate St) : Prop :=
  observes (dg_graph (p_graph st)) (a_graph a) ∧ dg_in (p_graph st) = a_in a ∧ dg_out (p_graph st) = a_out a.

End spec.
Arguments estate : clear implicits.

(** a history that runs: the assumptions shared by the theorems *)
Definition good_setup {A St : Type} (proc : timestamp → St → owned A → owned A → res (St * owned A)) (nbuf max_fr sample_rate : nat)
    (sh : nat → oracle) (dr : nat → list endpoint → list endpoint) (os : list (pop A St)) : Prop :=
  proc_shape proc ∧ 0 < nbuf ∧ 0 < max_fr ∧ (0 < Z.of_nat sample_rate <= 2 ^ 53)%Z ∧
  (∀ k, any_order (sh k)) ∧ (∀ k l, dr k l ≡ₚ l) ∧
  Forall pop_ok os ∧ NoDup (phist_edge_ids os).
