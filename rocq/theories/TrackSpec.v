(** Clips of a sample played by a sampler: start_from_position_at_time and stop_at_time calls, and what is heard. *)
From stdpp Require Import list.
From Coq Require Import ZArith Reals.
From Verif Require Import Base Float Timestamp EventProcessor EventProcessorSpec ProcessorSpec Buffer BufferSpec Sampler SamplerSpec EventChannel StreamSpec MelodySpec.
Local Open Scope nat_scope.

(** ** What is called *)
(** start from frame [q] of the sample, or stop, on a frame of the stream *)
Inductive cue := Play (f q : nat) | Halt (f : nat).
Definition frame_of_cue (c : cue) : nat := match c with Play f _ | Halt f => f end.
Definition cue_call (sr : nat) (c : cue) : sampler_call := match c with Play f q => KStartAt (time_of sr f) (time_of sr q) | Halt f => KStopAt (time_of sr f) end.
(** a clip begins on a frame of the stream, with a frame of the sample, and ends on a frame of the stream *)
Record clip := Clip { cl_from : nat; cl_first : nat; cl_to : nat }.
Definition cues (clips : list clip) : list cue := c ← clips; [Play (cl_from c) (cl_first c); Halt (cl_to c)].
(** the calls made before each block *)
Definition track_calls (sr : nat) (score : list (list cue)) : list (list sampler_call) := (λ cs : list cue, cue_call sr <$> cs) <$> score.
(** every call is made before the frame that it asks for *)
Fixpoint cued (pos : nat) (score : list (list cue)) (blocks : list (timestamp * nat)) : Prop :=
  match score, blocks with
  | [], _ => True
  | cs :: score, [] => Forall (λ c, pos ≤ frame_of_cue c) cs ∧ cued pos score []
  | cs :: score, (_, fc) :: blocks => Forall (λ c, pos ≤ frame_of_cue c) cs ∧ cued (pos + fc) score blocks
  end.
(** every clip ends after it begins, is with a fade of [n] frames no longer than the sample, and the next begins after the fade *)
Fixpoint apart (n len : nat) (clips : list clip) : Prop :=
  match clips with
  | [] => True
  | c :: clips => cl_from c < cl_to c ∧ cl_to c - cl_from c + n ≤ len ∧
      match clips with [] => True | c' :: _ => cl_to c + n < cl_from c' end ∧ apart n len clips
  end.
(** frames of the stream for which the sampler's clock is good enough, and positions in a sample *)
Definition clock_frame (sr f : nat) : Prop := (Z.of_nat f <= 2 ^ 40)%Z ∧ (Z.of_nat f <= Z.of_nat sr * 2 ^ 30)%Z.
Definition clip_ok (sr : nat) (c : clip) : Prop := clock_frame sr (cl_from c) ∧ clock_frame sr (cl_to c) ∧ (Z.of_nat (cl_first c) <= 2 ^ 20)%Z.
(** The sampler's clock adds a rounding error in every block and for every request: [blocks] blocks and [cs] requests leave it good enough. *)
Definition clock_holds (sr blocks cs : nat) : Prop :=
  ((Z.of_nat blocks + 2 * Z.of_nat cs + 12) * (Z.of_nat sr + 1) <= 2 ^ 32 - 2 ^ 28)%Z.

(** ** What is heard *)
(** A clip is played on the frames asked for or the ones before them.  If it begins early, it begins earlier in the sample too (if that has a frame before). *)
Definition clip_as (sr : nat) (c p : clip) : Prop :=
  lands sr (cl_from c) (cl_from p) ∧ lands sr (cl_to c) (cl_to p) ∧ cl_first p = cl_first c + cl_from p - cl_from c.
(** The value of channel [ch] in frame [k], from the last clip that has begun: the sample from the clip's first frame on, faded in unless it starts at the
    beginning of the sample; from the clip's end on, faded out; then silence. *)
Definition clip_value (smp : owned R) (fade : list R) (ch : nat) (p : clip) (k : nat) : R :=
  let x := default 0%R (sample smp ch (cl_first p + (k - cl_from p))) in
  if k <? cl_to p then if (0 <? cl_first p) && (k - cl_from p <? length fade) then (gain_in 1%R fade (k - cl_from p) * x)%R else x
  else if k - cl_to p <? length fade then (gain_out 1%R fade (k - cl_to p) * x)%R else 0%R.
Definition track_value (smp : owned R) (fade : list R) (ch : nat) (played : list clip) (k : nat) : R :=
  foldl (λ v p, if k <? cl_from p then v else clip_value smp fade ch p k) 0%R played.
