(** Properties of the sample kernels and of notifiers (C54, C56). *)
From stdpp Require Import list list_numbers.
From Coq Require Import ZArith Lia.
From Verif Require Import Kernels KernelsSpec KernelsProofs Notifiers NotifiersSpec NotifiersProofs.

(** ** C54: every kernel is its scalar definition, whatever the addresses and the alignment
    of vectors, and writes nothing outside its destination *)
Section kernels.
  Context {A : Type} (align : nat) (add sub mul : A → A → A).
  Implicit Types (source destination samples : slice) (m : memory A).

  Theorem C54_mix_into source destination m : len source = len destination → disjoint source destination →
    scalar destination (λ i, add (nth_of m destination i) (nth_of m source i)) m (mix_into align add source destination m).
  Proof. exact (run2_scalar align (λ i o, add o i) source destination m). Qed.
  Theorem C54_mix_into_with_gain source destination gain m : len source = len destination → disjoint source destination →
    scalar destination (λ i, add (nth_of m destination i) (mul (nth_of m source i) gain)) m
      (mix_into_with_gain align add mul source destination gain m).
  Proof. exact (run2_scalar align (λ i o, add o (mul i gain)) source destination m). Qed.
  Theorem C54_mix_into_with_gains source destination (gain : slice) m :
    len source = len destination → len gain = len destination → disjoint source destination → disjoint gain destination →
    scalar destination (λ i, add (nth_of m destination i) (mul (nth_of m source i) (nth_of m gain i))) m
      (mix_into_with_gains align add mul source destination gain m).
  Proof. exact (run3_scalar align (λ i g o, add o (mul i g)) source gain destination m). Qed.
  Theorem C54_mix source_1 source_2 destination m :
    len source_1 = len destination → len source_2 = len destination → disjoint source_1 destination → disjoint source_2 destination →
    scalar destination (λ i, add (nth_of m source_1 i) (nth_of m source_2 i)) m (mix align add source_1 source_2 destination m).
  Proof. exact (run3_scalar align (λ i j _, add i j) source_1 source_2 destination m). Qed.
  Theorem C54_subtract_from source destination m : len source = len destination → disjoint source destination →
    scalar destination (λ i, sub (nth_of m destination i) (nth_of m source i)) m (subtract_from align sub source destination m).
  Proof. exact (run2_scalar align (λ i o, sub o i) source destination m). Qed.
  Theorem C54_multiply samples (gain : slice) m : len gain = len samples → disjoint gain samples →
    scalar samples (λ i, mul (nth_of m samples i) (nth_of m gain i)) m (multiply align mul samples gain m).
  Proof. exact (run2_scalar align (λ g s, mul s g) gain samples m). Qed.
  Theorem C54_multiply_by_value samples gain m :
    scalar samples (λ i, mul (nth_of m samples i) gain) m (multiply_by_value align mul samples gain m).
  Proof. exact (run1_scalar align mul gain samples m). Qed.
End kernels.
Print Assumptions C54_mix_into.
Print Assumptions C54_mix_into_with_gain.
Print Assumptions C54_mix_into_with_gains.
Print Assumptions C54_mix.
Print Assumptions C54_subtract_from.
Print Assumptions C54_multiply.
Print Assumptions C54_multiply_by_value.
(** slices of 40 samples at addresses with the same and with different remainders by 16 *)
Example C54_case : let m := (λ a, Z.of_nat a) : memory Z in
  mix_into 16 Z.add (Slice 5 40) (Slice 101 40) m 140 = 184%Z ∧
  mix_into 16 Z.add (Slice 5 40) (Slice 102 40) m 141 = 185%Z ∧
  mix_into 16 Z.add (Slice 5 40) (Slice 101 40) m 141 = 141%Z ∧
  disjoint (Slice 5 40) (Slice 101 40).
Proof. do 3 (split; [reflexivity|]). intros a [H1 H2] [H3 H4]. cbn in *. lia. Qed.
(** What equal lengths are needed for: with 33 samples of source and 17 of destination, sample
    16 of the destination gets sample 32 of the source, not sample 16.  Only a debug assertion
    excludes this. *)
Theorem C54_unequal_lengths : let m := (λ a, Z.of_nat a) : memory Z in
  mix_into 16 Z.add (Slice 0 33) (Slice 64 17) m (64 + 16) = (nth_of m (Slice 64 17) 16 + nth_of m (Slice 0 33) 32)%Z.
Proof. reflexivity. Qed.
Print Assumptions C54_unequal_lengths.

(** ** C56: which notifiers each call of process_notifications calls, and in which order *)
Theorem C56_notifiers answer (h : list nevent) :
  calls answer new_root h = (λ k, expected answer (take k h)) <$> filter (λ k, h !! k = Some Process) (seq 0 (length h)).
Proof. exact (calls_from answer h []). Qed.
Print Assumptions C56_notifiers.
(** the first notifier stops at its second call, the second never, the third at once *)
Example C56_case : let answer := λ id k, match id with 0 => k <? 1 | 1 => true | _ => false end in
  calls answer new_root [Process; Add; Process; Add; Process; Add; Process; Process] = [[]; [0]; [0; 1]; [1; 2]; [1]].
Proof. reflexivity. Qed.
