(** A melody played by an ADSR node: note_on_at_time and note_off_at_time calls, and what is heard. *)
From stdpp Require Import list.
From Coq Require Import ZArith Reals.
From Verif Require Import Base Float Timestamp EventProcessor EventProcessorSpec ProcessorSpec Adsr AdsrSpec EventChannel StreamSpec.
Local Open Scope nat_scope.

(** Blocks of a stream that is at frame [pos]: each starts [o] frames into a callback that starts at frame [p]. *)
Fixpoint stream_blocks (sr pos : nat) (blocks : list (timestamp * nat)) : Prop :=
  match blocks with
  | [] => True
  | (t, fc) :: blocks => (∃ p o, p + o = pos ∧ t = (time_of sr p + time_of sr o)%Z) ∧ stream_blocks sr (pos + fc) blocks
  end.

(** ** What is called *)
(** note_on_at_time and note_off_at_time for a frame of the stream *)
Inductive mark := On (f : nat) | Off (f : nat).
Definition frame_of_mark (m : mark) : nat := match m with On f | Off f => f end.
Definition call_of (sr : nat) (m : mark) : adsr_call := match m with On f => ANoteOnAt (time_of sr f) | Off f => ANoteOffAt (time_of sr f) end.
(** notes, as the frames on which they begin and end *)
Definition marks (notes : list (nat * nat)) : list mark := '(f, g) ← notes; [On f; Off g].
(** the calls made before each block: set_adsr once, then the marks of [score] *)
Definition score_calls (sr : nat) (ta td s tr : R) (score : list (list mark)) : list (list adsr_call) :=
  match score with
  | [] => [[ASetAdsr ta td s tr]]
  | ms :: score => (ASetAdsr ta td s tr :: (call_of sr <$> ms)) :: ((λ ms : list mark, call_of sr <$> ms) <$> score)
  end.
(** every call is made before the frame that it asks for *)
Fixpoint in_time (pos : nat) (score : list (list mark)) (blocks : list (timestamp * nat)) : Prop :=
  match score, blocks with
  | [], _ => True
  | ms :: score, [] => Forall (λ m, pos ≤ frame_of_mark m) ms ∧ in_time pos score []
  | ms :: score, (_, fc) :: blocks => Forall (λ m, pos ≤ frame_of_mark m) ms ∧ in_time (pos + fc) score blocks
  end.
(** every note is held for more than [held] frames, and the next begins more than [off] frames after its end *)
Fixpoint spaced (held off : nat) (notes : list (nat * nat)) : Prop :=
  match notes with
  | [] => True
  | (f, g) :: notes => f + held < g ∧ match notes with [] => True | (f', _) :: _ => g + off < f' end ∧ spaced held off notes
  end.
(** the engine's times are good for the frame *)
Definition reachable_frame (sr f : nat) : Prop := (Z.of_nat f <= 2 ^ 46)%Z ∧ (Z.of_nat f <= Z.of_nat sr * 2 ^ 30)%Z.

(** ** What is heard *)
(** a request for frame [f] is carried out on frame [g]: this or the one before it, and this if the rate divides 2^32 *)
Definition lands (sr f g : nat) : Prop :=
  (g = f ∨ S g = f) ∧ ∀ q, (Z.of_nat sr * q = 2 ^ 32)%Z → (Z.of_nat f * q <= 2 ^ 53)%Z → g = f.
(** The value in frame [k] of the notes [played]: that of the last that has begun.  [na], [nd] and [nr] are attack, decay
    and release in frames, [a], [d] and [r] the frames after which these stages end. *)
Definition melody_value (na : R) (a : nat) (nd : R) (d : nat) (s nr : R) (r : nat) (played : list (nat * nat)) (k : nat) : R :=
  foldl (λ v '(f, g), if k <? f then v else if k <? g then held_value na a nd d s (k - f) else released_value nr r s (k - g)) 0%R played.
