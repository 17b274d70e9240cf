From stdpp Require Import list list_numbers.
From Coq Require Import Lia ZArith.
From Verif Require Import Base Buffer Float FloatProofs Arith Resample.
Local Open Scope Z_scope.

Lemma one32_pow : one32 = 2 ^ 149.
Proof. reflexivity. Qed.
Lemma one32_pos : 0 < one32.
Proof. reflexivity. Qed.
Lemma of_Z_exact n : Z.abs n <= 2 ^ 24 → f32_of_Z n = n * one32.
Proof. intros H. unfold f32_of_Z. apply rnd_exact1; [lia|]. rewrite one32_pow. apply repr_pow; [lia|]. by apply repr_small. Qed.
Lemma one32_repr : repr 24 one32.
Proof. rewrite one32_pow, <-(Z.mul_1_l (2 ^ 149)). apply repr_pow; [lia|]. apply repr_small; lia. Qed.
Lemma of_Z_pos n : 0 < n → 0 < f32_of_Z n.
Proof.
  intros H. unfold f32_of_Z. apply (Z.lt_le_trans _ one32); [done|]. assert (E : rnd 24 one32 1 = one32) by (apply rnd_exact1; [lia|apply one32_repr]).
  pose proof one32_pos. assert (M : rnd 24 one32 1 <= rnd 24 (n * one32) 1) by (apply rnd_mono; lia || nia). lia.
Qed.
Lemma equal_ratio r : 0 < r → f32_div (f32_of_Z r) (f32_of_Z r) = one32.
Proof.
  intros H. pose proof (of_Z_pos r H). unfold f32_div. destruct (Z.ltb_spec (f32_of_Z r) 0); [lia|].
  apply rnd_exact; [done|lia|apply one32_repr].
Qed.
Opaque one32.

(** the index as computed; [m] is the whole number it is rounded to *)
Lemma resampled_whole source (i m : nat) x : repr 24 x → f32_of_Z (Z.of_nat i) = Z.of_nat m * one32 → repr 24 (Z.of_nat m * one32) →
  (m < length source)%nat → source !! m = Some x → resampled binary32 source one32 i = Ok x.
Proof.
  intros Hx Ei Hm Hl Hs. unfold resampled. cbn [binary32 a_mul a_of a_sub a_add a_one a_floor a_ceil]. rewrite Ei. pose proof one32_pos as Hp.
  assert (E : f32_mul (Z.of_nat m * one32) one32 = Z.of_nat m * one32).
  { unfold f32_mul. rewrite (Z.mul_comm (Z.of_nat m * one32) one32). apply rnd_exact; [done|lia|done]. }
  rewrite E. unfold f32_floor, f32_ceil. rewrite <-Z.mul_opp_l, !Z.div_mul by lia. rewrite Z.opp_involutive, Nat2Z.id.
  destruct (Nat.ltb_spec 0 (length source)); [|lia]. cbn [rassert]. rewrite Nat.min_l by lia. rewrite Hs. cbn [runwrap rbind]. f_equal.
  assert (Em : f32_of_Z (Z.of_nat m) = Z.of_nat m * one32). { unfold f32_of_Z. by apply rnd_exact1. }
  rewrite Em. unfold f32_sub, f32_add, f32_mul. rewrite Z.sub_diag. rewrite !(rnd_exact1 24 0) by (lia || (apply repr_0; lia)).
  rewrite Z.sub_0_r, (rnd_exact1 24 one32) by (lia || apply one32_repr). rewrite (rnd_exact 24 x one32) by (done || lia).
  rewrite Z.mul_0_l. replace (rnd 24 0 one32) with 0. { rewrite Z.add_0_r. by apply rnd_exact1. }
  symmetry. rewrite <-(Z.mul_0_r one32) at 1. apply rnd_exact; [done|lia|apply repr_0; lia].
Qed.
Lemma resampled_equal source (i : nat) x : Z.of_nat i <= 2 ^ 24 → repr 24 x → source !! i = Some x → resampled binary32 source one32 i = Ok x.
Proof.
  intros Hi Hx Hs. apply (resampled_whole source i i x Hx); [apply of_Z_exact; lia| |by eapply lookup_lt_Some|done].
  rewrite one32_pow. apply repr_pow; [lia|]. apply repr_small; lia.
Qed.
Lemma rounded_index : f32_of_Z (2 ^ 24 + 1) = 2 ^ 24 * one32.
Proof. vm_compute. reflexivity. Qed.
Lemma resampled_repeats source x : repr 24 x → source !! Z.to_nat (2 ^ 24) = Some x → resampled binary32 source one32 (Z.to_nat (2 ^ 24 + 1)) = Ok x.
Proof.
  intros Hx Hs. apply (resampled_whole source _ (Z.to_nat (2 ^ 24)) x Hx); [| |by eapply lookup_lt_Some|done].
  - rewrite !Z2Nat.id by lia. apply rounded_index.
  - rewrite Z2Nat.id by lia. rewrite one32_pow. apply repr_pow; [lia|]. apply repr_small; lia.
Qed.
(** a step after 2^24 + 1 samples *)
Definition late_step : list Z := replicate (Z.to_nat (2 ^ 24 + 1)) 0 ++ [one32].
Lemma late_step_source : late_step !! Z.to_nat (2 ^ 24 + 1) = Some one32.
Proof. unfold late_step. rewrite lookup_app_r by (rewrite replicate_length; lia). by rewrite replicate_length, Nat.sub_diag. Qed.
Lemma late_step_lost : resampled binary32 late_step one32 (Z.to_nat (2 ^ 24 + 1)) = Ok 0.
Proof.
  apply resampled_repeats; [apply repr_0; lia|]. unfold late_step. rewrite lookup_app_l by (rewrite replicate_length; lia). apply lookup_replicate_2. lia.
Qed.
