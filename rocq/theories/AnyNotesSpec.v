(** Notes in any order and at any distance: the history that the envelope of an ADSR node goes through. *)
From stdpp Require Import list list_numbers.
From Coq Require Import Reals.
From Verif Require Import Base Adsr AdsrSpec AdsrCutSpec MelodySpec.
Local Open Scope nat_scope.

Definition note_action (m : mark) : adsr_action := match m with On _ => NoteOn | Off _ => NoteOff end.
(** asked for in the order of time *)
Fixpoint in_order (pos : nat) (ms : list mark) : Prop := match ms with [] => True | m :: ms => pos ≤ frame_of_mark m ∧ in_order (frame_of_mark m) ms end.
(** [n] frames from frame [pos]: each comes after the starts and ends of notes that are for it *)
Definition notes_history (pos : nat) (ms : list mark) (n : nat) : list adsr_op :=
  k ← seq pos n; ((λ m, AAct (note_action m)) <$> filter (λ m, frame_of_mark m = k) ms) ++ [AFrame].
(** the same start or end, on frame [g] *)
Definition played_mark (sr : nat) (m p : mark) : Prop := note_action p = note_action m ∧ lands sr (frame_of_mark m) (frame_of_mark p).
(** what set_adsr sets *)
Definition adsr_settings (ta td s tr : R) : list adsr_op := [AAct (SetAttack ta); AAct (SetDecay td); AAct (SetSustain s); AAct (SetRelease tr)].

(** ** Notes that are shorter than the attack *)
(** the level before frame [f] when it falls from [u] since frame [g] *)
Definition fallen (s nr u : R) (g f : nat) : R := if f <=? g then u else falls_from u s nr (f - 1 - g).
(** The value in frame [k] of the notes from [f] to [g']: each rises from the level at which it finds the envelope and falls from the one it has reached.
    Before the first the envelope falls from [u] since frame [g]. *)
Fixpoint short_value (na s nr u : R) (g : nat) (notes : list (nat * nat)) (k : nat) : R :=
  match notes with
  | [] => falls_from u s nr (k - g)
  | (f, g') :: notes =>
      if k <? f then falls_from u s nr (k - g)
      else if k <? g' then rises_from (fallen s nr u g f) na (k - f)
      else short_value na s nr (rises_from (fallen s nr u g f) na (g' - 1 - f)) g' notes k
  end.
(** no note begins before the last has ended, and each ends before or when it reaches full level *)
Fixpoint short_notes (na s nr u : R) (g : nat) (notes : list (nat * nat)) : Prop :=
  match notes with
  | [] => True
  | (f, g') :: notes =>
      g ≤ f ∧ f < g' ∧ (∀ k, S k < g' - f → (rises_from (fallen s nr u g f) na k < 1)%R) ∧
      short_notes na s nr (rises_from (fallen s nr u g f) na (g' - 1 - f)) g' notes
  end.
