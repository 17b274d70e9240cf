(** Scripted runs of the sampler on integer samples. *)
From stdpp Require Import list list_numbers.
From Coq Require Import ZArith.
From Verif Require Import Base Float Timestamp EventProcessor EventProcessorSpec Buffer BufferSpec Sampler SamplerSpec.

Definition mono (sr : nat) (l : list Z) : owned Z := Owned l 1 (length l) sr.
(** time of a frame *)
Definition at_frame (sr : nat) (k : Z) : timestamp := from_samples (f64_of_Z k) (Z.of_nat sr).
(** consecutive silent blocks: requests sent before each, and its frames *)
Fixpoint script (sr : nat) (k : Z) (l : list (list (event sample_action) * nat)) : list (sblock (A := Z)) :=
  match l with
  | [] => []
  | (es, n) :: l => SBlock es (at_frame sr k) (mono sr (replicate n 0%Z)) Whole :: script sr (k + Z.of_nat n)%Z l
  end.
(** a request without a time *)
Definition now (seq : nat) (a : sample_action) : event sample_action := sampler_event 0%Z seq a.

(** 1, 2, 3, … *)
Definition ramp (sr n : nat) : owned Z := mono sr ((λ k, Z.of_nat (S k)) <$> seq 0 n).
(** Gains in quarters; at 80 Hz a fade has four frames. *)
Definition fade4 : list Z := [0; 1; 2; 3]%Z.
Definition quarter (g x : Z) : Z := (g * x / 4)%Z.
Definition demo (smp : owned Z) (fuel : nat) (bs : list (sblock (A := Z))) : res (list (owned Z)) :=
  sampler_run 4%Z Z.add quarter smp fade4 fuel 80 (new_evproc 80) new_sampler bs.
