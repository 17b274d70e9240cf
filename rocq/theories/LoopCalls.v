(** A loop, from the calls. *)
From stdpp Require Import list list_numbers sorting.
From Coq Require Import ZArith Lia ZifyBool ZifyNat.
From Verif Require Import Base Buffer BufferSpec Timestamp EventProcessor EventProcessorSpec Sampler SamplerSpec SamplerScenes EventChannel.
Local Open Scope nat_scope.
Lemma loops_called {A : Type} (one : A) (add mul : A → A → A) (smp : owned A) (fade : list A) (sr : nat)
    (ls le : nat) (b : sblock) (bs : list sblock) (c : sampler_call) (number : nat) (ts te : timestamp) (n : nat) :
  wf smp → 0 < length fade → (Z.of_nat (frames smp) <= 2 ^ 40)%Z → (0 < Z.of_nat sr <= 2 ^ 29)%Z →
  ls < le → length fade ≤ le - ls → (Z.of_nat le <= 2 ^ 39)%Z →
  Forall (sblock_ok sr) (b :: bs) → unattended bs →
  sb_sent b = EventChannel.number number ([c; KStartNow] ≫= sampler_sends) → c = KEnableLoop ts te ∨ c = KEnableLoopAt 0%Z ts te → (0 <= sb_start b)%Z →
  nearest_frame sr ts = Z.of_nat ls → off_grid sr ts (Z.of_nat ls) (Z.of_nat sr + 1) →
  nearest_frame sr te = Z.of_nat le → off_grid sr te (Z.of_nat le) (Z.of_nat sr + 1) →
  total (b :: bs) ≤ le + n * (le - ls) →
  ((Z.of_nat (length bs) + 4 * Z.of_nat n + 6) * (Z.of_nat sr + 1) <= 2 ^ 32 - 2 ^ 27)%Z →
  (Z.of_nat (total (b :: bs)) <= 2 ^ 40)%Z → (Z.of_nat (le - ls) * Z.of_nat n <= 2 ^ 40)%Z →
  ∃ fuel outs, sampler_run one add mul smp fade fuel sr (new_evproc sr) new_sampler (b :: bs) = Ok outs ∧
    hears add mul smp (loop_plan one fade ls le) (b :: bs) outs.
Proof.
  intros H1 H2 H3 H4 H5 H6 H7 H8 H9 Hs Hc Hb.
  assert (He : sb_sent b = [sampler_event 0%Z (number + 0) (SEnableLoop ts te); sampler_event 0%Z (number + 1) SStartImmediate]).
  { rewrite Hs. clear - Hc. destruct Hc as [-> | ->]; reflexivity. }
  refine (loops_back one add mul smp fade sr H1 H2 H3 H4 ls le H5 H6 H7 b bs _ _ ts te n H8 H9 He eq_refl eq_refl eq_refl eq_refl _ _ Hb Hb).
  - clear. right. cbn. split; [reflexivity|lia].
  - clear. cbn. lia.
Qed.
