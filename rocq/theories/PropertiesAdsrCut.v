(** C40 for notes that are cut short or started again while one sounds. *)
From stdpp Require Import list list_numbers.
From Coq Require Import Reals Lra Lia.
From Verif Require Import Base Adsr AdsrSpec AdsrCutSpec AdsrCut.
Local Open Scope R_scope.

(** C40: a note that ends in whatever stage, after any history, falls from the level it has reached: the curve is the one of the release, which takes the release
    time from the sustain level, and from other levels longer or shorter. *)
Theorem C40_cut (sr : nat) (ops : list adsr_op) (s t : R) (m : nat) :
  (0 < sr)%nat → Forall op_ok ops → 0 < t → 0 <= s <= 1 →
  env_values sr (ops ++ [AAct (SetSustain s); AAct (SetRelease t); AAct NoteOff] ++ replicate m AFrame) =
  env_values sr ops ++ (falls_from (level_after sr ops) s (t * INR sr) <$> seq 0 m).
Proof. intros Hsr. exact (cut_ok sr Hsr ops s t m). Qed.
Print Assumptions C40_cut.

(** C40: a note that starts at whatever level, after any history, rises from there, up to the frame in which it reaches full level. *)
Theorem C40_retrigger (sr : nat) (ops : list adsr_op) (t : R) (m : nat) :
  (0 < sr)%nat → Forall op_ok ops → 0 < t → (∀ k, (S k < m)%nat → rises_from (level_after sr ops) (t * INR sr) k < 1) →
  env_values sr (ops ++ [AAct (SetAttack t); AAct NoteOn] ++ replicate m AFrame) =
  env_values sr ops ++ (rises_from (level_after sr ops) (t * INR sr) <$> seq 0 m).
Proof. intros Hsr. exact (retrigger_ok sr Hsr ops t m). Qed.
Print Assumptions C40_retrigger.

(** C40: a note that starts at whatever level and is cut short before or when it reaches full level. *)
Theorem C40_staccato (sr : nat) (ops : list adsr_op) (ta s tr : R) (n m : nat) :
  (0 < sr)%nat → Forall op_ok ops → 0 < ta → 0 < tr → 0 <= s <= 1 → (0 < n)%nat →
  (∀ k, (S k < n)%nat → rises_from (level_after sr ops) (ta * INR sr) k < 1) →
  env_values sr (ops ++ ([AAct (SetAttack ta); AAct NoteOn] ++ replicate n AFrame) ++ [AAct (SetSustain s); AAct (SetRelease tr); AAct NoteOff] ++ replicate m AFrame) =
  env_values sr ops ++ (rises_from (level_after sr ops) (ta * INR sr) <$> seq 0 n) ++
    (falls_from (rises_from (level_after sr ops) (ta * INR sr) (n - 1)) s (tr * INR sr) <$> seq 0 m).
Proof. intros Hsr. exact (staccato_ok sr Hsr ops ta s tr n m). Qed.
Print Assumptions C40_staccato.

(** Two frames of attack; cut when full level is reached, with a sustain level of 1/10 and two frames of release: after these the level is 9/20. *)
Example C40_staccato_case :
  (∀ k, (S k < 2)%nat → rises_from (level_after 2 []) (1 * INR 2) k < 1) ∧
  rises_from (level_after 2 []) (1 * INR 2) (2 - 1) = 1 ∧ falls_from 1 (1 / 10) (1 * INR 2) 1 = 9 / 20.
Proof.
  assert (E : INR 2 / (1 * INR 2) = 1) by (change (INR 2) with 2; lra).
  change (level_after 2 []) with 0. split; [|split].
  - intros k Hk. replace k with 0%nat by lia. unfold rises_from.
    eapply Rle_lt_trans; [apply Rmin_r|]. replace (INR 1 / (1 * INR 2)) with (/ 2) by (change (INR 2) with 2; change (INR 1) with 1; lra).
    rewrite Rpower_sqrt by lra. assert (H : 1 / 10 < sqrt (1 / 11)); [|lra]. replace (1 / 10) with (sqrt (1 / 10 * (1 / 10))) by (apply sqrt_square; lra). apply sqrt_lt_1; lra.
  - unfold rises_from. cbn [Nat.sub]. rewrite E, Rpower_1 by lra. rewrite Rmin_left; lra.
  - unfold falls_from. rewrite E, Rpower_1 by lra. rewrite Rmax_right; lra.
Qed.
