(** A chain of nodes between the input and the output of the engine. *)
From stdpp Require Import gmap list strings.
From Coq Require Import ZArith.
From Verif Require Import Base Graph Buffer BufferSpec DspGraph DspGraphSpec Float Timestamp Processor ProcessorSpec
  AudioParam Node NodeSpec Chain.

(** a node of the chain: its id, channels and state when it is created *)
Record link (V P : Type) := Link { k_id : id; k_ins : nat; k_outs : nat; k_state : dspstate V P }.
Arguments Link {V P}. Arguments k_id {V P}. Arguments k_ins {V P}. Arguments k_outs {V P}. Arguments k_state {V P}.

Section spec.
Context {V A P : Type} (zero : A) (max_fr : nat).
Implicit Types (ks : list (link V P)) (os : list (nop V A P)).

Definition create (k : link V P) : nop V A P := NNew (k_id k) (k_ins k) (k_outs k) (k_state k).
(** "input" => first => … => last => "output"; without "input" if [from_input] is false *)
Definition chain_of (from_input : bool) ks : list element :=
  (if from_input then [EIn] else []) ++ ((λ k, ENode (k_id k) (k_outs k)) <$> ks) ++ [EOut].

(** nothing else is connected to the nodes of the chain, and it is not taken apart *)
Definition undisturbed (from_input : bool) ks (before after : list (nop V A P)) : Prop :=
  (∀ k eid m c, k ∈ ks → NConnect eid m (k_id k) c ∉ before ++ after) ∧
  (∀ k, k ∈ ks → NDrop (k_id k) ∉ after) ∧ (∀ k m, k ∈ ks → NDisconnect m (k_id k) ∉ after) ∧
  (∀ m, if from_input then NInput m ∈ after → head (k_id <$> ks) = Some m else NInput m ∈ before ++ after → head (k_id <$> ks) ≠ Some m) ∧
  (∀ m, NOutput m ∈ after → last (k_id <$> ks) = Some m).

(** block by block the second node hears the first: channel for channel, silence on channels the first
    does not have *)
Definition feeds (inputs : nat) (rs rs' : list (@round V A)) : Prop :=
  Forall2 (λ r r', ∀ ch fr, ch < inputs → fr < r_frames r' → sample (r_in r') ch fr = Some (heard_at zero (r_out r) ch fr)) rs rs'.

(** a callback: the first node gets its input, or silence, the last gives its output (as passes_through, NodeSpec.v) *)
Definition passes_between (from_input : bool) (max_ch inputs : nat) (inp : owned A) (iv : view) (out : owned A) (ov : view) (out' : owned A) (rs rs' : list (@round V A)) : Prop :=
  same_dims out out' ∧
  r_frames <$> rs = chunk_len max_fr (v_frames out ov) <$> seq 0 ((v_frames out ov + (max_fr - 1)) / max_fr) ∧
  r_frames <$> rs' = r_frames <$> rs ∧
  (∀ ch fr, ch < inputs → fr < v_frames out ov → ∃ r, rs !! (fr / max_fr) = Some r ∧ sample (r_in r) ch (fr mod max_fr) =
     Some (if decide (from_input = true ∧ ch < v_channels inp iv ∧ ch < max_ch) then heard_at zero inp (off_ch iv + ch) (off_fr iv + fr) else zero)) ∧
  (∀ ch fr, ch < v_channels out ov → fr < v_frames out ov → ∃ r, rs' !! (fr / max_fr) = Some r ∧ sample out' (off_ch ov + ch) (off_fr ov + fr) =
     Some (if decide (ch < max_ch) then heard_at zero (r_out r) ch (fr mod max_fr) else zero)) ∧
  (∀ ch fr, ¬ in_rect (off_ch ov) (off_fr ov) (v_channels out ov) (v_frames out ov) ch fr → sample out' ch fr = sample out ch fr).

(** all callbacks: rounds of the first and of the last node *)
Fixpoint heard_between (from_input : bool) (max_ch inputs : nat) (on : bool) os (outputs : list (owned A)) (rs rs' : list (@round V A)) : Prop :=
  match os with
  | [] => outputs = [] ∧ rs = [] ∧ rs' = []
  | NStart :: os => heard_between from_input max_ch inputs true os outputs rs rs'
  | NStop :: os => heard_between from_input max_ch inputs false os outputs rs rs'
  | NCallback inp iv out ov :: os =>
      ∃ out' outputs', outputs = out' :: outputs' ∧
      if on then ∃ rs1 rs2 rs1' rs2', rs = rs1 ++ rs2 ∧ rs' = rs1' ++ rs2' ∧ passes_between from_input max_ch inputs inp iv out ov out' rs1 rs1' ∧
        heard_between from_input max_ch inputs on os outputs' rs2 rs2'
      else silenced zero out ov out' ∧ heard_between from_input max_ch inputs on os outputs' rs rs'
  | _ :: os => heard_between from_input max_ch inputs on os outputs rs rs'
  end.
End spec.
