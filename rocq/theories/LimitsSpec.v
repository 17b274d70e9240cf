(** Programs that keep within the limits of an engine. *)
From stdpp Require Import gmap list strings.
From Coq Require Import ZArith.
From Verif Require Import Base Graph GraphSpec TopoSort TopoSortSpec Buffer BufferSpec DspGraph DspGraphSpec Float Timestamp Processor ProcessorSpec
  AudioParam AudioParamSpec Node NodeSpec.

Section spec.
Context {V A P : Type}.
(** what a processor needs: channel counts, names of the parameters, its state *)
Context (good : nat → nat → gset string → P → Prop).
Context (run : P → timestamp → (string → res (list A)) → owned A → owned A → res (P * owned A)).
Context (nbuf max_ch : nat).
Implicit Types os : list (nop V A P).

(** a processor that has what it needs, and a value of every parameter for every frame, does not
    abort a block of at most [max_fr] frames at rate [sr], and has what it needs afterwards *)
Definition run_ok (max_fr sr : nat) : Prop :=
  ∀ ni no names p t values i o fc, fc ≤ max_fr → good ni no names p → is_block i ni fc → is_block o no fc →
    rate i = sr → rate o = sr →
    (∀ name, name ∈ names → ∃ vs, values name = Ok vs ∧ length vs = fc) →
    ∃ p' o', run p t values i o = Ok (p', o') ∧ is_block o' no fc ∧ good ni no names p'.

Definition exponential (c : change V) : Prop := ∃ start, c_method c = Exponential start.
(** no exponential ramp is pending: those abort from or to zero *)
Definition calm (p : param V) : Prop := Forall (λ c, ¬ exponential c) (pa_changes p).

Definition node_fit (inputs outputs : nat) (st : dspstate V P) : Prop :=
  (∀ name p, ds_params st !! name = Some p → calm p) ∧ good inputs outputs (dom (ds_params st)) (ds_proc st).

(** what a program knows of its graph: channels and parameters of its nodes, and the connections *)
Notation plan := (sgraph (nat * nat * gset string) connection).

(** [on]: the engine has been started *)
Fixpoint careful (s : plan) (on : bool) os : Prop :=
  match os with
  | [] => True
  | NNew n inputs outputs st :: os =>
      s_nodes s !! n = None ∧ inputs ≤ max_ch ∧ outputs ≤ max_ch ∧ node_fit inputs outputs st ∧
      careful (SGraph (<[n := (inputs, outputs, dom (ds_params st))]> (s_nodes s)) (s_conns s)) on os
  | NDrop n :: os =>
      (∀ c, c ∈ s_conns s → ¬ touches n c) ∧ careful (SGraph (delete n (s_nodes s)) (s_conns s)) on os
  | NConnect eid a b x :: os =>
      is_Some (s_nodes s !! a) ∧ is_Some (s_nodes s !! b) ∧
      (∀ c, c ∈ s_conns s → ¬ (c_from c = a ∧ c_to c = b)) ∧
      src_ch x + ch_count x ≤ max_ch ∧ dst_ch x + ch_count x ≤ max_ch ∧
      careful (SGraph (s_nodes s) (s_conns s ++ [Conn eid a b x])) on os
  | NDisconnect a b :: os =>
      careful (SGraph (s_nodes s) (filter (λ c, ¬ (c_from c = a ∧ c_to c = b)) (s_conns s))) on os
  | NInput _ :: os | NOutput _ :: os => careful s on os
  | NChange n name c :: os =>
      (∀ i o names, s_nodes s !! n = Some (i, o, names) → name ∈ names) ∧ ¬ exponential c ∧ careful s on os
  | NCancel n name _ :: os =>
      (∀ i o names, s_nodes s !! n = Some (i, o, names) → name ∈ names) ∧ careful s on os
  | NStart :: os => careful s true os
  | NStop :: os => careful s false os
  | NCallback inp iv out ov :: os =>
      wf inp ∧ valid_view inp iv ∧ wf out ∧ valid_view out ov ∧ v_frames inp iv = v_frames out ov ∧
      (on = true → acyclic s ∧ size (s_nodes s) + 2 ≤ nbuf) ∧
      careful s on os
  end.
End spec.
Notation plan := (sgraph (nat * nat * gset string) connection).

(** a gain node needs its gain *)
Definition gain_good (_ _ : nat) (names : gset string) (_ : unit) : Prop := "gain" ∈ names.
