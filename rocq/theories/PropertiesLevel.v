(** C105: clamping levels. *)
From stdpp Require Import base tactics.
From Coq Require Import Reals Lra.
From Verif Require Import Base Level LevelClamp.
Local Open Scope R_scope.

(** C105: a clamped level is the one in the range that is nearest to the given one, which is the given one if it is in the range. *)
Theorem C105_clamp (level lo hi : R) : lo <= hi →
  ∃ x, level_clamp_call level lo hi = Ok x ∧ lo <= x <= hi ∧ (lo <= level <= hi → x = level) ∧ ∀ y, lo <= y <= hi → y ≠ x → Rabs (level - x) < Rabs (level - y).
Proof. exact (clamp_nearest level lo hi). Qed.
Print Assumptions C105_clamp.

(** C105: the call aborts if and only if the bounds are not in order. *)
Theorem C105_clamp_aborts (level lo hi : R) : (∃ x, level_clamp_call level lo hi = Ok x) ↔ lo <= hi.
Proof. exact (clamp_aborts level lo hi). Qed.
Print Assumptions C105_clamp_aborts.

(** twice full level, between silence and full level *)
Example C105_clamp_case : level_clamp_call 2 0 1 = Ok 1 ∧ level_clamp_call (/ 2) 0 1 = Ok (/ 2) ∧ level_clamp_call 2 1 0 = Panic AssertFailed.
Proof.
  unfold level_clamp_call, level_clamp. repeat split; repeat (first [destruct (Rle_dec _ _)|destruct (Rlt_dec _ _)]); first [reflexivity|exfalso; lra].
Qed.
