(** Clamping a level: src/utility/level.rs. *)
From stdpp Require Import base tactics.
From Coq Require Import Reals Lra.
From Verif Require Import Base Level.
Local Open Scope R_scope.

(** l.63-67: f64::clamp asserts that the bounds are in order *)
Definition level_clamp_call (level lo hi : R) : res R := if Rle_dec lo hi then Ok (level_clamp level lo hi) else Panic AssertFailed.

Lemma clamp_nearest level lo hi : lo <= hi →
  ∃ x, level_clamp_call level lo hi = Ok x ∧ lo <= x <= hi ∧ (lo <= level <= hi → x = level) ∧ ∀ y, lo <= y <= hi → y ≠ x → Rabs (level - x) < Rabs (level - y).
Proof.
  intros H. unfold level_clamp_call, level_clamp. destruct (Rle_dec lo hi); [|lra]. eexists. split; [reflexivity|].
  destruct (Rlt_dec level lo) as [H1|H1]; [|destruct (Rlt_dec hi level) as [H2|H2]]; (split; [lra|]); (split; [intros; lra|]); intros y Hy Hne; unfold Rabs;
    destruct (Rcase_abs (level - y)), (Rcase_abs (level - _)); lra.
Qed.
Lemma clamp_aborts level lo hi : (∃ x, level_clamp_call level lo hi = Ok x) ↔ lo <= hi.
Proof. unfold level_clamp_call. destruct (Rle_dec lo hi); split; [by eauto|by eauto|intros [x H]; discriminate H|lra]. Qed.
