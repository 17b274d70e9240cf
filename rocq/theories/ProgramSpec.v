(** Whole programs: melodies, clips and automations together, at sample rates that divide 2^32. *)
From stdpp Require Import list.
From Coq Require Import ZArith Reals.
From Verif Require Import Base Timestamp Buffer Adsr AdsrSpec Sampler SamplerSpec EventChannel StreamSpec MelodySpec TrackSpec.
Local Open Scope nat_scope.

(** [q] ticks of time per frame: the time of the frame is exact *)
Definition exact_frame (q : Z) (f : nat) : Prop := (Z.of_nat f * q <= 2 ^ 53)%Z ∧ (Z.of_nat f <= 2 ^ 40)%Z.

(** [score] asks for the [notes] before their frames, of a node whose attack, decay and release (in seconds) take [a], [d] and [r] frames; every note is
    held for longer than attack and decay, and the next begins after the release *)
Definition asks_melody (sr : nat) (q : Z) (pos : nat) (blocks : list (timestamp * nat)) (ta td s tr : R) (a d r : nat) (score : list (list mark)) (notes : list (nat * nat)) : Prop :=
  (0 <= ta ∧ 0 <= td ∧ 0 <= tr ∧ 0 <= s <= 1)%R ∧
  is_stage (ta * INR sr) a ∧ is_stage (td * INR sr) d ∧ is_stage (tr * INR sr) r ∧
  concat score = marks notes ∧ in_time pos score blocks ∧ spaced (a + d) r notes ∧ Forall (λ fg : nat * nat, exact_frame q fg.1 ∧ exact_frame q fg.2) notes.

(** [score] asks for the [clips] before their frames, of a sampler with a fade of [fade] frames and a sample of [len] *)
Definition asks_clips (sr : nat) (q : Z) (pos : nat) (blocks : list (timestamp * nat)) (fade len : nat) (score : list (list cue)) (clips : list clip) : Prop :=
  concat score = cues clips ∧ cued pos score blocks ∧ apart fade len clips ∧
  Forall (λ c, exact_frame q (cl_from c) ∧ exact_frame q (cl_to c) ∧ (Z.of_nat (cl_first c) <= 2 ^ 20)%Z) clips ∧
  clock_holds sr (length blocks) (2 * length clips).
