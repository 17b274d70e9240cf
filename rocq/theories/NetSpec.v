(** Networks of nodes: any number of nodes, connected in any way. *)
From stdpp Require Import gmap list strings.
From Coq Require Import ZArith Reals.
From Verif Require Import Base Graph GraphSpec Buffer BufferSpec DspGraph DspGraphSpec Float Timestamp Processor ProcessorSpec
  AudioParam BiquadSpec Node NodeSpec Chain ChainSpec Effects StreamSpec.

Section net.
Context {V A P : Type} (zero : A) (add : A → A → A).
Implicit Types (ks : list (link V P)) (ws : list (nop V A P)).

(** ** What the requests [ws] make of the nodes *)
Definition wires (o : nop V A P) : Prop := match o with NConnect _ _ _ _ | NInput _ | NOutput _ => True | _ => False end.
(** the connections into node [n], in the order of the requests *)
Definition connections_into (n : id) ws : list (conn connection) :=
  omap (λ o, match o with NConnect eid a b c => if decide (b = n) then Some (Conn eid a b c) else None | _ => None end) ws.
Definition net_input ws : option id := last (omap (λ o, match o with NInput n => Some n | _ => None end) ws).
Definition net_output ws : option id := last (omap (λ o, match o with NOutput n => Some n | _ => None end) ws).

(** the nodes [ks] are connected only among themselves and by [ws], and nothing is changed afterwards *)
Definition settled ks ws (before after : list (nop V A P)) : Prop :=
  Forall wires ws ∧ (∀ eid m n c, NConnect eid m n c ∈ ws → n ∈ k_id <$> ks → m ∈ k_id <$> ks) ∧
  (∀ k eid m c, k ∈ ks → NConnect eid m (k_id k) c ∉ before ++ after) ∧
  (∀ k, k ∈ ks → NDrop (k_id k) ∉ after) ∧ (∀ k m, k ∈ ks → NDisconnect m (k_id k) ∉ after) ∧
  match net_input ws with
  | Some i => ∀ m, NInput m ∈ after → m = i
  | None => ∀ m, NInput m ∈ before ++ after → m ∉ k_id <$> ks
  end ∧
  (∀ o m, net_output ws = Some o → NOutput m ∈ after → m = o).

(** ** One frame *)
(** [ys m c]: what node [m] gives on channel [c] *)
Definition carries (c : conn connection) (ch : nat) : Prop := dst_ch (c_data c) ≤ ch < dst_ch (c_data c) + ch_count (c_data c).
Global Instance carries_dec c ch : Decision (carries c ch). Proof. unfold carries. apply _. Defined.
Definition brought (ys : id → nat → A) (ch : nat) (c : conn connection) : A := ys (c_from c) (src_ch (c_data c) + (ch - dst_ch (c_data c))).
(** a connection from the first channel to the first *)
Definition straight (c : conn connection) : Prop := src_ch (c_data c) = 0 ∧ dst_ch (c_data c) = 0.
Global Instance straight_dec c : Decision (straight c). Proof. unfold straight. apply _. Defined.

(** what a node with connections [cs] hears on channel [ch]; [base] is what the callback hands to it *)
Definition hears (ys : id → nat → A) (base : A) (cs : list (conn connection)) (ch : nat) : A :=
  match cs with
  | [] => base
  | c :: cs' =>
      if decide (cs' = [] ∧ straight c) then ys (c_from c) ch
      else foldl add (if decide (carries c ch) then brought ys ch c else base) (brought ys ch <$> filter (λ c, carries c ch) cs')
  end.

(** frame [i] of streams *)
Definition frame_of (y : stream A) (i ch : nat) : A := default zero (y ch !! i).

(** the streams [xs] that the nodes hear are those [ys] they give, mixed by the connections that [ws] made *)
Definition connected (max_ch total : nat) (on : bool) ks ws (after : list (nop V A P)) (xs ys : id → stream A) : Prop :=
  ∀ k ch i, k ∈ ks → ch < k_ins k → i < total →
    xs (k_id k) ch !! i = Some (hears (λ m, frame_of (ys m) i)
      (frame_of (input_stream zero max_ch (bool_decide (net_input ws = Some (k_id k))) on after) i ch) (connections_into (k_id k) ws) ch).
End net.

(** ** Real samples: a sum.  With a single straight connection it is the source, whatever the number of channels
    of the connection; what the callback hands in is heard on channels that the first connection does not carry. *)
Definition alone (cs : list (conn connection)) : option id := match cs with [c] => if decide (straight c) then Some (c_from c) else None | _ => None end.
Definition first_carries (cs : list (conn connection)) (ch : nat) : Prop := match cs with c :: _ => carries c ch | [] => False end.
Global Instance first_carries_dec cs ch : Decision (first_carries cs ch). Proof. destruct cs; apply _. Defined.
Definition mix_of (ys : id → nat → R) (base : R) (cs : list (conn connection)) (ch : nat) : R :=
  match alone cs with
  | Some m => ys m ch
  | None => ((if decide (first_carries cs ch) then 0 else base) + foldr Rplus 0 (brought ys ch <$> filter (λ c, carries c ch) cs))%R
  end.
