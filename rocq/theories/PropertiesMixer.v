(** Property theorems about the mixer, gain and pan nodes. *)
From stdpp Require Import sets list list_numbers.
From Coq Require Import Reals Lra Lia.
From Verif Require Import Base Buffer BufferSpec EffectSpec Mixer AudioParamR MixerR MixerSpec EffectProofs BufferProofs MixerProofs GainProofs.

(** C35, C36: whatever levels are set between whatever blocks, every block comes out
    as the sum over the inputs of input times level (added to what the output held),
    the levels being the ones set last before the block.  Exact unless a level
    differs from 0 or 1 by less than 2^-51. *)
Theorem C35_C36_matrix_product (inputs outputs : nat) (ops : list (mixer_op R R)) :
  inputs ≤ 8 → outputs ≤ 8 → Forall (mixer_op_ok inputs outputs) ops →
  (∀ n, n < length ops → (∃ i o l, ops !! n = Some (MSet i o l)) → unsent (take n ops) < 32) →
  (∀ i o l, MSet i o l ∈ ops → sharp l) →
  ∃ x x' outs, mixer_new 0%R inputs outputs = Ok x ∧ rfold (mixer_step mixer_process_R) ops (x, []) = Ok (x', outs) ∧
    mixer_blocks 0%R is_mix [] ops outs.
Proof. exact (mixer_session_exact inputs outputs ops). Qed.
Print Assumptions C35_C36_matrix_product.

(** C35: for all levels the error is at most 2^-51 of the sum of the magnitudes of the inputs. *)
Theorem C35_matrix_product_error (inputs outputs : nat) (ops : list (mixer_op R R)) :
  inputs ≤ 8 → outputs ≤ 8 → Forall (mixer_op_ok inputs outputs) ops →
  (∀ n, n < length ops → (∃ i o l, ops !! n = Some (MSet i o l)) → unsent (take n ops) < 32) →
  ∃ x x' outs, mixer_new 0%R inputs outputs = Ok x ∧ rfold (mixer_step mixer_process_R) ops (x, []) = Ok (x', outs) ∧
    mixer_blocks 0%R is_nearly_mix [] ops outs.
Proof. exact (mixer_session_near inputs outputs ops). Qed.
Print Assumptions C35_matrix_product_error.

(** Case: a 2x1 mixer, one level set before and one after the first block. *)
Definition two_ch : owned R := Owned [1; 2; 10; 20]%R 2 2 48.
Definition one_ch : owned R := Owned [0; 5]%R 1 2 48.
Definition demo_ops : list (mixer_op R R) :=
  [MSet 0 0 (1 / 2)%R; MProcess two_ch Whole one_ch Whole; MSet 1 0 1%R; MProcess two_ch Whole one_ch Whole].
Example C35_C36_case :
  (Forall (mixer_op_ok 2 1) demo_ops ∧ (∀ n, n < length demo_ops → (∃ i o l, demo_ops !! n = Some (MSet i o l)) → unsent (take n demo_ops) < 32) ∧
    ∀ i o l, MSet i o l ∈ demo_ops → sharp l) ∧
  mixed_down (table 0%R (take 1 demo_ops)) two_ch Whole 0 1 = 1%R ∧ mixed_down (table 0%R (take 3 demo_ops)) two_ch Whole 0 1 = 21%R.
Proof.
  split; [split; [|split]|split].
  - unfold demo_ops, two_ch, one_ch. repeat constructor; unfold wf, valid_view, v_frames, v_channels; cbn; lia.
  - intros n Hn _. cbn [demo_ops length] in Hn. do 4 (destruct n as [|n]; [cbn; lia|]). lia.
  - intros i o l Hl. unfold demo_ops in Hl. rewrite !elem_of_cons in Hl.
    destruct Hl as [E|[E|[E|[E|E]]]]; [|done| |done|by apply elem_of_nil in E]; injection E as -> -> ->.
    + right. right. split; [rewrite Rabs_right; lra|rewrite Rabs_left; lra].
    + right. by left.
  - unfold mixed_down, sum_over, table, demo_ops. cbn -[seen].
    rewrite (eq_refl : seen two_ch Whole 0 1 = Some 2%R), (eq_refl : seen two_ch Whole 1 1 = Some 20%R).
    repeat case_decide; cbn; lra || (exfalso; lia).
  - unfold mixed_down, sum_over, table, demo_ops. cbn -[seen].
    rewrite (eq_refl : seen two_ch Whole 0 1 = Some 2%R), (eq_refl : seen two_ch Whole 1 1 = Some 20%R).
    repeat case_decide; cbn; lra || (exfalso; lia).
Qed.

(** C36: reading back after setting, for every level type. *)
Theorem C36_independent_cells {L : Type} (zero : L) (m : matrix L) i o l m' i' o' :
  made zero m → set_level m i o l = Ok m' →
  get_level zero m' i' o' = if decide (i' = i ∧ o' = o) then Ok l else get_level zero m i' o'.
Proof.
  intros Hm E. rewrite (level_ok zero m' i' o' (made_well zero m' (made_set zero m i o l m' Hm E))), (level_ok zero m i' o' (made_well zero m Hm)).
  rewrite (set_get zero m i o l i' o' m' Hm E). by case_decide.
Qed.
Print Assumptions C36_independent_cells.
(** Setting works exactly for the pairs the mixer has. *)
Theorem C36_set_exists {L : Type} (zero : L) (m : matrix L) i o l :
  made zero m → (∃ m', set_level m i o l = Ok m') ↔ i < m_inputs m ∧ o < m_outputs m.
Proof.
  intros Hm. split.
  - intros [m' E]. destruct (decide (i < m_inputs m ∧ o < m_outputs m)); [done|]. by rewrite set_panics in E.
  - intros [Hi Ho]. destruct (set_ok m i o l (made_well zero m Hm) Hi Ho) as (m' & E & _). by exists m'.
Qed.
Print Assumptions C36_set_exists.
Example C36_case : ∃ m m', matrix_new 0 8 8 = Ok m ∧ set_level m 7 7 5 = Ok m' ∧ get_level 0 m' 7 7 = Ok 5 ∧ get_level 0 m' 7 6 = Ok 0.
Proof. eexists _, _. split; [reflexivity|]. split; [reflexivity|]. split; reflexivity. Qed.

(** C36: the two ready-made mixers have the documented levels, in the node and, once received, in the processor. *)
Theorem C36_splitter {L : Type} (zero unity : L) : ∃ x, mono_to_stereo_splitter zero unity = Ok x ∧
  ∀ i o, let l := if decide (i = 0 ∧ o < 2) then unity else zero in
    level_at zero (mx_matrix x) i o = l ∧ level_at zero (mx_proc (mixer_events x)) i o = l.
Proof.
  destruct (splitter_ok zero unity) as (x & E & _ & _ & _ & H1 & _ & H2 & _). exists x. split; [exact E|].
  intros i o. split; [apply H1|apply H2].
Qed.
Print Assumptions C36_splitter.
Theorem C36_unity {L : Type} (zero unity : L) n : n ≤ 8 → ∃ x, mixer_unity zero unity n = Ok x ∧
  ∀ i o, let l := if decide (i = o ∧ o < n) then unity else zero in
    level_at zero (mx_matrix x) i o = l ∧ level_at zero (mx_proc (mixer_events x)) i o = l.
Proof.
  intros Hn. destruct (unity_ok zero unity n Hn) as (x & E & _ & _ & _ & H1 & _ & H2 & _). exists x. split; [exact E|].
  intros i o. split; [apply H1|apply H2].
Qed.
Print Assumptions C36_unity.

(** C67 refuted: a mixer whose levels are set more than 32 times before a block is
    processed waits for ever (its channel holds 32 messages). *)
Theorem C67_many_levels_refuted {L A : Type} (zero : L) process (inputs outputs : nat) (ops : list (mixer_op L A)) :
  inputs ≤ 8 → outputs ≤ 8 → Forall (mixer_op_ok inputs outputs) ops → (∀ o, o ∈ ops → ∃ i j l, o = MSet i j l) → 32 < length ops →
  ∃ x, mixer_new zero inputs outputs = Ok x ∧ rfold (mixer_step process) ops (x, []) = Panic Blocked.
Proof.
  intros Hi Ho Hok Hall Hn. destruct (knows_new zero inputs outputs Hi Ho) as (x & E & Hk). exists x. split; [exact E|].
  exact (session_blocks zero process inputs outputs Hi Ho ops x Hk Hok Hall Hn).
Qed.
Print Assumptions C67_many_levels_refuted.
(** Case: setting each of the 36 levels of a 6x6 mixer once. *)
Definition all_levels : list (mixer_op nat nat) := i ← seq 0 6; (λ o, MSet i o 1) <$> seq 0 6.
Example C67_case : Forall (mixer_op_ok 6 6) all_levels ∧ (∀ o, o ∈ all_levels → ∃ i j l, o = MSet i j l) ∧ 32 < length all_levels.
Proof.
  split; [|split].
  - vm_compute. repeat constructor; lia.
  - intros o Ho. unfold all_levels in Ho. apply elem_of_list_bind in Ho as (i & Ho & _). apply elem_of_list_fmap in Ho as (j & -> & _). by eexists _, _, _.
  - vm_compute. lia.
Qed.

(** C37: each frame of the output is the input times the gain of that frame; exact when the gains of the
    block are all 0, all 1, or some gain is away from 0 and some away from 1. *)
Theorem C37_gain_exact (gain : list R) (inp : owned R) iv (out : owned R) ov :
  wf inp → valid_view inp iv → wf out → valid_view out ov → v_frames out ov ≤ v_frames inp iv → v_frames out ov ≤ length gain →
  ((∀ h, h ∈ gain → h = 0%R) ∨ (∀ h, h ∈ gain → h = 1%R) ∨
   (∃ h, h ∈ gain ∧ / 2 ^ 22 < Rabs h)%R ∧ (∃ h, h ∈ gain ∧ / 2 ^ 22 < Rabs (h - 1))%R) →
  ∃ out', gain_process_R gain inp iv out ov = Ok out' ∧ scaled 0 gain inp iv out ov out'.
Proof.
  intros H1 H2 H3 H4 H5 H6 Hc. 
  destruct (gain_process_ok 0%R (λ g, close32R g 0) (λ g, close32R g 1) Rmult gain inp iv out ov H1 H2 H3 H4 H5) as (out' & E & W).
  exists out'. split; [exact E|]. eapply written_mono; [exact W|]. cbv beta. intros ch fr x y Hch Hfr ->.
  destruct (lookup_lt_is_Some_2 gain fr) as [g Hg]; [lia|]. exists g. split; [done|]. cbv zeta.
  rewrite (gained_exact gain fr g _ Hg Hc). rewrite Rminus_diag_eq, Rabs_R0 by done. lra.
Qed.
Print Assumptions C37_gain_exact.
(** For all gains the error is at most 2^-22 of the input. *)
Theorem C37_gain_error (gain : list R) (inp : owned R) iv (out : owned R) ov :
  wf inp → valid_view inp iv → wf out → valid_view out ov → v_frames out ov ≤ v_frames inp iv → v_frames out ov ≤ length gain →
  ∃ out', gain_process_R gain inp iv out ov = Ok out' ∧ scaled (/ 2 ^ 22) gain inp iv out ov out'.
Proof.
  intros H1 H2 H3 H4 H5 H6. 
  destruct (gain_process_ok 0%R (λ g, close32R g 0) (λ g, close32R g 1) Rmult gain inp iv out ov H1 H2 H3 H4 H5) as (out' & E & W).
  exists out'. split; [exact E|]. eapply written_mono; [exact W|]. cbv beta. intros ch fr x y Hch Hfr ->.
  destruct (lookup_lt_is_Some_2 gain fr) as [g Hg]; [lia|]. exists g. split; [done|]. exact (gained_error gain fr g _ Hg).
Qed.
Print Assumptions C37_gain_error.
(** The tolerance is needed: a block of gains of 2^-23, which are not 0, is silent. *)
Theorem C37_small_gain_refuted : ∃ out',
  gain_process_R [/ 2 ^ 23]%R (Owned [1]%R 1 1 1) Whole (Owned [0]%R 1 1 1) Whole = Ok out' ∧
  sample out' 0 0 = Some 0%R ∧ (1 * / 2 ^ 23 <> 0)%R.
Proof.
  assert (Hc : close32R (/ 2 ^ 23) 0 = true).
  { unfold close32R, eps32R. destruct (Rle_dec _ _) as [|H]; [done|]. exfalso. apply H. rewrite Rminus_0_r, Rabs_right; lra. }
  eexists. split.
  - unfold gain_process_R, gain_process, apply_gain. cbn [forallb]. rewrite Hc. reflexivity.
  - split; [reflexivity|]. lra.
Qed.
Print Assumptions C37_small_gain_refuted.
Example C37_case :
  (wf two_ch ∧ valid_view two_ch Whole ∧ wf one_ch ∧ valid_view one_ch Whole ∧ v_frames one_ch Whole ≤ v_frames two_ch Whole) ∧
  (∃ h, h ∈ [1 / 2; 1 / 4]%R ∧ / 2 ^ 22 < Rabs h)%R ∧ (∃ h, h ∈ [1 / 2; 1 / 4]%R ∧ / 2 ^ 22 < Rabs (h - 1))%R.
Proof.
  split; [split; [done|]; split; [done|]; split; [done|]; split; [done|]; cbn; lia|].
  split; exists (1 / 2)%R; (split; [left|]).
  - rewrite Rabs_right; lra.
  - rewrite Rabs_left; lra.
Qed.

(** C38: the two channels are multiplied by the gains of the pan position, for every curve of positions in [-1, 1]... *)
Theorem C38_pan (pan : list R) (inp : owned R) iv (out : owned R) ov :
  wf inp → valid_view inp iv → wf out → valid_view out ov → v_channels inp iv = 2 → v_channels out ov = 2 →
  v_frames out ov ≤ v_frames inp iv → v_frames out ov ≤ length pan →
  ∃ out', pan_process_R pan inp iv out ov = Ok out' ∧ is_panned pan inp iv out ov out'.
Proof.
  intros H1 H2 H3 H4 H5 H6 H7 H8. destruct (pan_process_ok Rmult pan_gains pan inp iv out ov H1 H2 H3 H4 H5 H6 H7 H8) as (out' & E & W).
  exists out'. split; [exact E|]. eapply written_mono; [exact W|]. cbv beta. intros ch fr x y Hch Hfr (p & s & Hp & Hs & ->).
  exists p, s. split; [exact Hp|]. split; [exact Hs|]. unfold pan_gains, Rmin. cbn [fst snd].
  repeat case_decide; repeat destruct (Rle_dec _ _); lra || (exfalso; lra) || (f_equal; lra).
Qed.
Print Assumptions C38_pan.
(** ... the gains lie in [0,1], one of them is 1, both are 1 exactly in the centre, and a side is muted exactly at the other extreme. *)
Theorem C38_gains (p : R) : (-1 <= p <= 1 →
  (0 <= (pan_gains p).1 <= 1 ∧ 0 <= (pan_gains p).2 <= 1 ∧ ((pan_gains p).1 = 1 ∨ (pan_gains p).2 = 1) ∧
  ((pan_gains p).1 = 1 ∧ (pan_gains p).2 = 1 ↔ p = 0) ∧ ((pan_gains p).1 = 0 ↔ p = 1) ∧ ((pan_gains p).2 = 0 ↔ p = -1)))%R.
Proof. exact (pan_gains_range p). Qed.
Print Assumptions C38_gains.
Example C38_case : wf two_ch ∧ valid_view two_ch Whole ∧ v_channels two_ch Whole = 2 ∧ pan_gains (1 / 2)%R = (1 / 2, 1)%R.
Proof.
  do 3 (split; [done|]). unfold pan_gains, Rmin. repeat destruct (Rle_dec _ _); f_equal; lra || (exfalso; lra).
Qed.

(** C66 refuted: a pan node made with one input aborts at the first frame when its input buffer has one channel... *)
Theorem C66_mono_pan_refuted (pan : list R) (inp : owned R) (out : owned R) ov :
  wf inp → channels inp = 1 → 0 < v_frames out ov → ∃ e, pan_process_R pan inp Whole out ov = Panic e.
Proof.
  intros Hw Hc Hf. unfold pan_process_R, pan_process. destruct (v_frames out ov) as [|n]; [lia|]. cbn [seq rfold]. unfold pan_frame at 1.
  destruct (pan !! 0); [|by eexists]. cbn [runwrap rbind]. destruct (get_sample inp Whole 0 0); [|by eexists]. cbn [rbind].
  destruct (get_sample_panics inp Whole 1 0 Hw I) as [e E]; [cbn; lia|]. rewrite E. by eexists.
Qed.
Print Assumptions C66_mono_pan_refuted.
(** ... and when its input is the first channel of a wider buffer, which is what the graph gives it, the right
    side plays the second channel, which is not its input. *)
Theorem C66_mono_pan_leak_refuted :
  let mono := Sub Whole (Range 0 0 1 1) in let run b := pan_process_R [0]%R b mono (Owned [0; 0]%R 2 1 1) Whole in
  (∀ ch fr, seen (Owned [1; 7]%R 2 1 1) mono ch fr = seen (Owned [1; 0]%R 2 1 1) mono ch fr) ∧
  ∃ o1 o2, run (Owned [1; 7]%R 2 1 1) = Ok o1 ∧ run (Owned [1; 0]%R 2 1 1) = Ok o2 ∧ sample o1 1 0 ≠ sample o2 1 0.
Proof.
  cbv zeta. split.
  - intros ch fr. unfold seen. cbn [v_channels v_frames r_channels r_frames off_ch off_fr]. case_decide as H; [|done].
    destruct ch; [|cbn in H; lia]. destruct fr; [|cbn in H; lia]. done.
  - eexists _, _. split; [reflexivity|]. split; [reflexivity|]. cbn -[Rmult Rmin]. intros E. injection E. 
    unfold Rmin. destruct (Rle_dec _ _); lra.
Qed.
Print Assumptions C66_mono_pan_leak_refuted.
