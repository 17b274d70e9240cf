From stdpp Require Import list list_numbers.
From Coq Require Import Reals Lra Lia ZArith.
From Verif Require Import Base Buffer BufferSpec BufferProofs EffectSpec EffectProofs Float FloatProofs Envelope Arith Resample ResampleSpec ResampleProofs ResampleFloat.

Lemma row_from_lookup {N} (zero : N) (b : owned N) v ch fr i : wf b → valid_view b v → ch < v_channels b v → fr + i < v_frames b v →
  row_from zero b v ch fr !! i = seen b v ch (fr + i).
Proof.
  intros Hw Hv Hc Hf. unfold row_from. rewrite list_lookup_fmap, lookup_seq_lt by lia. cbn. destruct (seen_some b v ch (fr + i) Hw Hv Hc Hf) as [x Hx].
  by rewrite seen_eq, Hx by done.
Qed.
Lemma row_from_nonempty {N} (zero : N) (b : owned N) v ch fr : fr < v_frames b v → row_from zero b v ch fr ≠ [].
Proof. intros H. unfold row_from. destruct (v_frames b v - fr) eqn:E; [lia|done]. Qed.
Lemma row_from_length {N} (zero : N) (b : owned N) v ch fr : length (row_from zero b v ch fr) = v_frames b v - fr.
Proof. unfold row_from. by rewrite fmap_length, seq_length. Qed.


Lemma convert_linear (dst : owned R) dv src sv sc sf dc df cc : fitting dst dv src sv sc sf dc df cc → rate dst ≠ 0 →
  ∃ dst', sample_rate_convert_from exact dst dv src sv sc sf dc df cc = Ok dst' ∧
    written dst dv dst' (λ ch fr x y, if decide (dc ≤ ch < dc + cc ∧ df ≤ fr)
      then linear (row_from 0%R src sv (sc + (ch - dc)) sf) (INR (fr - df) * (INR (rate src) / INR (rate dst))) y else y = x).
Proof.
  intros (H1 & H2 & H3 & H4 & H5 & H6 & H7 & H8) Hr. destruct (convert_ok exact 0%R dst dv src sv sc sf dc df cc) as (dst' & E & W); try done.
  exists dst'. split; [done|]. eapply written_mono; [exact W|]. cbn beta. intros ch fr x y Hc Hf. case_decide as Hd; [|done]. intros Ey.
  unfold conv_ratio in Ey. cbn [exact a_div a_of] in Ey. rewrite <-!INR_IZR_INZ in Ey.
  destruct (resampled_linear (row_from 0%R src sv (sc + (ch - dc)) sf) (INR (rate src) / INR (rate dst)) (fr - df)) as (y' & E' & L).
  - by apply row_from_nonempty.
  - apply Rmult_le_pos; [apply pos_INR|]. left. apply Rinv_0_lt_compat, lt_0_INR. lia.
  - rewrite Ey in E'. by injection E' as <-.
Qed.
Lemma convert_equal (dst : owned R) dv src sv sc sf dc df cc : fitting dst dv src sv sc sf dc df cc → rate dst ≠ 0 → rate src = rate dst →
  ∃ dst', sample_rate_convert_from exact dst dv src sv sc sf dc df cc = Ok dst' ∧
    written dst dv dst' (λ ch fr x y, dc ≤ ch < dc + cc → df ≤ fr → sf + (fr - df) < v_frames src sv → seen src sv (sc + (ch - dc)) (sf + (fr - df)) = Some y).
Proof.
  intros Hf Hr He. destruct (convert_linear dst dv src sv sc sf dc df cc Hf Hr) as (dst' & E & W). exists dst'. split; [done|].
  destruct Hf as (H1 & H2 & H3 & H4 & H5 & H6 & H7 & H8). eapply written_mono; [exact W|]. cbn beta. intros ch fr x y Hc Hfr HL G1 G2 G3.
  rewrite decide_True in HL by done. rewrite He in HL. replace (INR (rate dst) / INR (rate dst))%R with 1%R in HL by (field; by apply not_0_INR).
  rewrite Rmult_1_r in HL. apply linear_at in HL; [|rewrite row_from_length; lia]. by rewrite row_from_lookup in HL by (done || lia).
Qed.
Lemma convert_equal32 (dst : owned Z) dv src sv sc sf dc df cc : fitting dst dv src sv sc sf dc df cc → rate dst ≠ 0 → rate src = rate dst → Forall is_f32 (data src) →
  ∃ dst', sample_rate_convert_from binary32 dst dv src sv sc sf dc df cc = Ok dst' ∧
    written dst dv dst' (λ ch fr x y, dc ≤ ch < dc + cc → df ≤ fr → sf + (fr - df) < v_frames src sv → (Z.of_nat (fr - df) <= 2 ^ 24)%Z →
      seen src sv (sc + (ch - dc)) (sf + (fr - df)) = Some y).
Proof.
  intros (H1 & H2 & H3 & H4 & H5 & H6 & H7 & H8) Hr He Hs. destruct (convert_ok binary32 0%Z dst dv src sv sc sf dc df cc) as (dst' & E & W); try done.
  exists dst'. split; [done|]. eapply written_mono; [exact W|]. cbn beta. intros ch fr x y Hc Hfr HL G1 G2 G3 G4.
  rewrite decide_True in HL by done. unfold conv_ratio in HL. rewrite He in HL. cbn [binary32 a_div a_of] in HL. rewrite equal_ratio in HL by lia.
  destruct (seen_some src sv (sc + (ch - dc)) (sf + (fr - df)) H3 H4) as [s Ss]; [lia|lia|]. rewrite seen_eq by lia. rewrite Ss.
  rewrite (resampled_equal _ _ s) in HL; [by injection HL as ->|done| |].
  - rewrite Forall_forall in Hs. apply Hs. unfold sample in Ss. case_decide; [|done]. by eapply elem_of_list_lookup_2.
  - rewrite row_from_lookup by (done || lia). by rewrite seen_eq by lia.
Qed.

Definition step_row (n : nat) : list Z := replicate n 0%Z ++ [one32].
Lemma step_len n : length (step_row n) = S n.
Proof. unfold step_row. rewrite app_length, replicate_length. cbn [length]. lia. Qed.
Lemma step_last n : step_row n !! n = Some one32.
Proof. unfold step_row. rewrite lookup_app_r by (rewrite replicate_length; lia). by rewrite replicate_length, Nat.sub_diag. Qed.
Lemma step_f32 n : Forall is_f32 (step_row n).
Proof.
  unfold step_row. apply Forall_app. split; [apply Forall_replicate|apply Forall_singleton].
  - exists 0%Z, 0%Z. split; [lia|]. split; [lia|]. cbn; lia.
  - exact one32_repr.
Qed.
Lemma step_seen n i x : step_row n !! i = Some x → seen (step_src n) Whole 0 i = Some x.
Proof.
  intros H. pose proof (lookup_lt_Some _ _ _ H) as Hl. rewrite step_len in Hl. unfold seen, sample, step_src. cbn [v_channels v_frames channels frames off_ch off_fr data].
  rewrite !decide_True by lia. cbn [Nat.add Nat.mul]. done.
Qed.
Lemma step_fitting n : fitting (step_dst n) Whole (step_src n) Whole 0 0 0 0 1.
Proof.
  unfold fitting. split; [apply new_buffer_wf|]. split; [done|]. split; [unfold wf, step_src; cbn [data channels frames]; fold (step_row n); rewrite step_len; lia|]. split; [done|].
  unfold step_dst, step_src, new_buffer. cbn [v_channels v_frames channels frames]. lia.
Qed.
Lemma step_lost n : resampled binary32 (step_row n) one32 n = Ok 0%Z →
  ∃ dst', sample_rate_convert_from binary32 (step_dst n) Whole (step_src n) Whole 0 0 0 0 1 = Ok dst' ∧
    seen (step_src n) Whole 0 n = Some one32 ∧ seen dst' Whole 0 n = Some 0%Z.
Proof.
  intros Hlost. destruct (step_fitting n) as (H1 & H2 & H3 & H4 & H5 & H6 & H7 & H8).
  destruct (convert_ok binary32 0%Z (step_dst n) Whole (step_src n) Whole 0 0 0 0 1) as (dst' & E & W); try done.
  exists dst'. split; [done|]. split; [apply step_seen, step_last|]. destruct W as (_ & _ & _ & W).
  destruct (W 0 n) as (x & y & _ & Sy & HL); [cbn; lia|cbn; lia|].
  rewrite decide_True in HL by lia. unfold conv_ratio in HL. cbn [binary32 a_div a_of] in HL.
  change (rate (step_src n)) with 1 in HL. change (rate (step_dst n)) with 1 in HL. rewrite equal_ratio in HL by lia. rewrite (Nat.sub_0_r n) in HL.
  assert (Erow : row_from 0%Z (step_src n) Whole (0 + (0 - 0)) 0 = step_row n).
  { apply list_eq. intros i. destruct (decide (i < length (step_row n))) as [Hi|Hi].
    - rewrite row_from_lookup by (done || (rewrite step_len in Hi; cbn; lia)). destruct (lookup_lt_is_Some_2 _ _ Hi) as [z Hz]. rewrite Hz. by apply step_seen.
    - rewrite !lookup_ge_None_2; [done|lia|]. rewrite row_from_length. rewrite step_len in Hi. unfold step_src. cbn [v_frames frames]. lia. }
  rewrite Erow, Hlost in HL. by injection HL as <-.
Qed.
Lemma late_lost_at : resampled binary32 (step_row (Z.to_nat (2 ^ 24 + 1))) one32 (Z.to_nat (2 ^ 24 + 1)) = Ok 0%Z.
Proof. exact late_step_lost. Qed.
Lemma tenth_range : let tenth := f32_div (f32_of_Z 1) (f32_of_Z 10) in
  let src := Owned (replicate 3 tenth) 1 3 (Z.to_nat 44100) in
  let dst := Owned (replicate 3 0%Z) 1 3 (Z.to_nat 48000) in
  fitting dst Whole src Whole 0 0 0 0 1 ∧ Forall (λ x, x <= tenth)%Z (data src) ∧
  ∃ dst' y, sample_rate_convert_from binary32 dst Whole src Whole 0 0 0 0 1 = Ok dst' ∧ seen dst' Whole 0 2 = Some y ∧ (tenth < y)%Z.
Proof.
  intros tenth src dst. split; [|split].
  - unfold fitting, wf, valid_view, src, dst. cbn [data channels frames v_channels v_frames]. rewrite !replicate_length. lia.
  - cbn [data src]. by apply Forall_replicate.
  - set (r := sample_rate_convert_from binary32 dst Whole src Whole 0 0 0 0 1).
    assert (H : match r with Ok d => match seen d Whole 0 2 with Some y => (tenth <? y)%Z | None => false end | _ => false end = true) by (vm_compute; reflexivity).
    destruct r as [d|]; [|done]. destruct (seen d Whole 0 2) as [y|] eqn:E; [|done]. exists d, y. split; [done|]. split; [done|]. by apply Z.ltb_lt.
Qed.
Lemma step_refuted n : resampled binary32 (step_row n) one32 n = Ok 0%Z →
  fitting (step_dst n) Whole (step_src n) Whole 0 0 0 0 1 ∧ rate (step_dst n) = rate (step_src n) ∧
  ∃ dst', sample_rate_convert_from binary32 (step_dst n) Whole (step_src n) Whole 0 0 0 0 1 = Ok dst' ∧
    seen (step_src n) Whole 0 n = Some one32 ∧ seen dst' Whole 0 n = Some 0%Z.
Proof. intros H. split; [apply step_fitting|]. split; [done|]. by apply step_lost. Qed.
