(** The curves of notes of any length and distance. *)
From stdpp Require Import list list_numbers.
From Coq Require Import Reals.
From Verif Require Import Base Adsr AdsrSpec AdsrCutSpec MelodySpec AnyNotesSpec.
Local Open Scope nat_scope.

(** a note from frame [n_on] to frame [n_off], which reaches full level after [n_full] frames if it has not ended by then *)
Record note := Note { n_on : nat; n_off : nat; n_full : nat }.
Definition frames_of_note (x : note) : nat * nat := (n_on x, n_off x).
(** Frame [k] of a note that starts at the level [v] and reaches full level after [m] frames: the attack from [v], then the decay, which takes [nd] and ends after
    [d] frames, then the sustain level *)
Definition sounding (na nd : R) (d : nat) (s v : R) (m k : nat) : R :=
  if S k <=? m then rises_from v na k else if S k - m <? d then decay_curve s nd (INR (S k - m)) else s.
(** full level is reached after [m] frames, or not before the end of the note after [n] *)
Definition full_after (na v : R) (n m : nat) : Prop :=
  (∀ k, S k < m → S k < n → (rises_from v na k < 1)%R) ∧ (m < n → 1 ≤ m ∧ rises_from v na (m - 1) = 1%R).
(** The value in frame [k] of the notes; before the first the envelope falls from [u] since frame [g]. *)
Fixpoint notes_value (na nd : R) (d : nat) (s nr u : R) (g : nat) (notes : list note) (k : nat) : R :=
  match notes with
  | [] => falls_from u s nr (k - g)
  | Note f g' m :: notes =>
      if k <? f then falls_from u s nr (k - g)
      else if k <? g' then sounding na nd d s (fallen s nr u g f) m (k - f)
      else notes_value na nd d s nr (sounding na nd d s (fallen s nr u g f) m (g' - 1 - f)) g' notes k
  end.
(** no note begins before the last has ended, and the frames in which full level is reached are right *)
Fixpoint notes_ok (na nd : R) (d : nat) (s nr u : R) (g : nat) (notes : list note) : Prop :=
  match notes with
  | [] => True
  | Note f g' m :: notes =>
      g ≤ f ∧ f < g' ∧ full_after na (fallen s nr u g f) (g' - f) m ∧
      notes_ok na nd d s nr (sounding na nd d s (fallen s nr u g f) m (g' - 1 - f)) g' notes
  end.
