(** Scalar definitions of the kernels. *)
From stdpp Require Import list.
From Verif Require Import Kernels.

Section spec.
  Context {A : Type}.
  Definition inside (s : slice) (a : nat) : Prop := start s ≤ a < start s + len s.
  Definition disjoint (s t : slice) : Prop := ∀ a, inside s a → inside t a → False.
  (** [m'] is [m] except that the [i]-th sample of [d] is [f i] for every [i] *)
  Definition scalar (d : slice) (f : nat → A) (m m' : memory A) : Prop :=
    (∀ i, i < len d → m' (start d + i) = f i) ∧ (∀ a, ¬ inside d a → m' a = m a).
  (** the [i]-th sample of a slice *)
  Definition nth_of (m : memory A) (s : slice) (i : nat) : A := m (start s + i).
End spec.
