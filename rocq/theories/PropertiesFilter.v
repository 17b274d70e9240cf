(** C48 of the filter node: what becomes of a tone, for each type of filter and its parameters. *)
From stdpp Require Import list.
From Coq Require Import Reals Lra Lia.
From Verif Require Import Base Buffer BufferSpec EffectSpec Biquad BiquadSpec BiquadCases FilterSpec FilterProofs.
Local Open Scope R_scope.

(** With unchanging frequency, q and shelf gain a tone of [w] radians per frame leaves the node with the amplitude its type of filter is meant to give it,
    after a transient that dies away exponentially; [K] comes from the samples up to 10^-8 that the filter forgets. *)
Theorem C48_node (t : filter_type) (sample_rate : nat) (f q s w : R) : audible f (INR sample_rate) → 0 < q → 0 < s → 0 <= w < PI →
  ∃ theta C r K, 0 <= r < 1 ∧ ∀ n l A phi, Forall (qblock_ok n) l → unchanging f q s l →
    (∀ ch i, (ch < n)%nat → (i < played l)%nat → at_ (received l ch) i = A * cos (w * INR i + phi)) →
    ∃ outs y, qsession (new_biquad sample_rate n t) l = Ok outs ∧ sounds y l outs ∧
      ∀ ch i, (ch < n)%nat → (i < played l)%nat →
        Rabs (at_ (y ch) i - nominal_gain t q s (detuning w f (INR sample_rate)) * A * cos (w * INR i + phi + theta)) <= C * Rabs A * r ^ i + K.
Proof. exact (node_tone t sample_rate f q s w). Qed.
Print Assumptions C48_node.

(** a high shelf at 1000 Hz and 48 kHz that halves the high frequencies, and two frames *)
Example C48_node_case : audible 1000 (INR (Z.to_nat 48000)) ∧ 0 < 1 ∧ 0 < / 2 ∧ 0 <= PI / 2 < PI ∧
  let l := [click (replicate 2 1000) (replicate 2 1) (replicate 2 (/ 2)) 1 (Z.to_nat 48000)] in Forall (qblock_ok 1) l ∧ unchanging 1000 1 (/ 2) l.
Proof.
  split. { unfold audible. rewrite INR_IZR_INZ, Z2Nat.id by lia. lra. }
  split; [lra|]. split; [lra|]. split; [pose proof PI_RGT_0; lra|]. split; [constructor; [by apply click_ok|constructor]|]. repeat constructor.
Qed.
