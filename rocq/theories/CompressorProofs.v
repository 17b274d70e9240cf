From stdpp Require Import list list_numbers.
From Coq Require Import Reals Lra Lia.
From Verif Require Import Base Buffer BufferSpec BufferProofs EffectSpec EffectProofs Envelope EnvelopeSpec EnvelopeProofs EnvelopeNode.
From Verif Require Import Mixer MixerR MixerSpec MixerProofs GainProofs Level LevelProofs Compressor CompressorSpec.
Local Open Scope R_scope.

(** ** The static curve *)
Lemma gain_reduction_law e k t r : r ≠ 0 → gain_reduction e k t r = gain_law e k t r.
Proof.
  intros Hr. unfold gain_reduction, gain_law. set (l := as_db e). cbn zeta.
  replace (t + / 2 * k) with (t + k / 2) by field. destruct (Rlt_dec l (t + k / 2)) as [H|H].
  { cbn. by rewrite Rminus_diag_eq, from_db_zero by done. }
  destruct (Rlt_dec (t + k / 2) l) as [H1|H1].
  - destruct (Req_EM_T l _); [lra|]. cbn. do 2 f_equal. field. done.
  - assert (E : l = t + k / 2) by lra. destruct (Req_EM_T l _) as [_|]; [|done].
    destruct (Req_EM_T (2 * k) 0), (Req_EM_T k 0); try lra; [done|]. cbn. do 2 f_equal. rewrite E. field. lra.
Qed.
Lemma from_db_unit x : x <= 0 → 0 <= from_db x <= 1.
Proof.
  intros H. split; [|rewrite <-from_db_zero; by apply from_db_mono]. unfold from_db. destruct (Rle_dec _ _); [lra|]. left. apply Rpower10_pos.
Qed.
Lemma ratio_slope r : 1 <= r → 0 <= 1 - 1 / r < 1.
Proof.
  intros H. assert (0 < / r) by (apply Rinv_0_lt_compat; lra). assert (/ r <= 1). { rewrite <-Rinv_1. apply Rinv_le_contravar; lra. }
  unfold Rdiv. lra.
Qed.
Lemma gain_law_unit e k t r g : 0 <= k → 1 <= r → gain_law e k t r = Some g → 0 <= g <= 1.
Proof.
  intros Hk Hr. unfold gain_law. cbn zeta. set (l := as_db e). destruct (Rlt_dec _ _) as [|Hl]; [intros [= <-]; lra|].
  assert (H : - ((1 - 1 / r) * (l - t)) <= 0). { pose proof (ratio_slope r Hr). assert (0 <= (1 - 1 / r) * (l - t)) by (apply Rmult_le_pos; lra). lra. }
  destruct (Req_EM_T _ _); [destruct (Req_EM_T _ _); [done|]|]; intros [= <-]; by apply from_db_unit.
Qed.
Lemma as_db_lt e d : -128 <= d → 0 <= e → e < from_db d → as_db e < d.
Proof.
  intros Hd He H. unfold from_db, minus_infinity_db in H. destruct (Rle_dec d _) as [|Hn]; [lra|]. unfold as_db. destruct (Rle_dec _ _) as [|Hn'].
  { unfold minus_infinity_db. lra. }
  assert (0 < / 10 ^ 9) by (apply Rinv_0_lt_compat; lra).
  assert (log10 e < log10 (Rpower 10 (d / 20))) by (apply log10_lt; lra). rewrite log_Rpower10 in *. lra.
Qed.
Lemma quiet_unity e k t r : 0 <= k → -128 <= t - k / 2 → 0 <= e → e < from_db (t - k / 2) → gain_law e k t r = Some 1.
Proof.
  intros Hk Ht He H. apply as_db_lt in H; [|done|done]. unfold gain_law. cbn zeta. destruct (Rlt_dec _ _); [done|lra].
Qed.

(** output levels of a hard knee *)
Lemma from_db_as e : / 10 ^ 9 < e → e = Rpower 10 (as_db e / 20).
Proof.
  intros H. unfold as_db. destruct (Rle_dec _ _); [lra|]. assert (0 < / 10 ^ 9) by (apply Rinv_0_lt_compat; lra).
  replace (20 * log10 e / 20) with (log10 e) by field. rewrite Rpower10_log by lra. done.
Qed.
Definition out_db (t r l : R) : R := if Rlt_dec l t then l else t + (l - t) / r.
Lemma out_db_mono t r l1 l2 : 1 <= r → l1 <= l2 → out_db t r l1 <= out_db t r l2.
Proof.
  intros Hr H. unfold out_db. assert (0 < / r) by (apply Rinv_0_lt_compat; lra).
  destruct (Rlt_dec l1 t), (Rlt_dec l2 t); unfold Rdiv; try lra.
  - assert (0 <= (l2 - t) * / r) by (apply Rmult_le_pos; lra). lra.
  - assert ((l1 - t) * / r <= (l2 - t) * / r) by (apply Rmult_le_compat_r; lra). lra.
Qed.
Lemma hard_out e t r g : / 10 ^ 9 < e → 1 <= r → as_db e - t < 128 → gain_law e 0 t r = Some g → e * g = Rpower 10 (out_db t r (as_db e) / 20).
Proof.
  intros He Hr Hl. rewrite (from_db_as e He) at 2. set (l := as_db e) in *. unfold gain_law, out_db. fold l. cbn zeta.
  replace (t + 0 / 2) with t by field. destruct (Rlt_dec l t) as [|Hlt]; [intros [= <-]; ring|].
  destruct (Req_EM_T l t) as [|Hne]; [destruct (Req_EM_T _ _); [done|lra]|]. intros [= <-].
  pose proof (ratio_slope r Hr) as Hs. unfold from_db, minus_infinity_db. destruct (Rle_dec _ _) as [Hf|].
  { assert ((1 - 1 / r) * (l - t) <= 1 * (l - t)) by (apply Rmult_le_compat_r; lra). lra. }
  rewrite <-Rpower_plus. f_equal. field. lra.
Qed.
Lemma as_db_mono_pos e1 e2 : / 10 ^ 9 < e1 → e1 <= e2 → as_db e1 <= as_db e2.
Proof. apply as_db_mono_above. Qed.
Lemma hard_mono e1 e2 t r g1 g2 : / 10 ^ 9 < e1 → e1 <= e2 → 1 <= r → as_db e2 - t < 128 →
  gain_law e1 0 t r = Some g1 → gain_law e2 0 t r = Some g2 → e1 * g1 <= e2 * g2.
Proof.
  intros H1 H2 Hr Hl G1 G2. pose proof (as_db_mono_above e1 e2 H1 H2) as Hm.
  rewrite (hard_out e1 t r g1), (hard_out e2 t r g2) by (done || lra).
  pose proof (out_db_mono t r _ _ Hr Hm) as [Ho| ->]; [|lra]. left. apply Rpower10_lt. lra.
Qed.

(** ** The followers *)
Definition stages (l : list (R * (R * R))) : list fop :=
  concat ((λ '(x, (attack, release)), [FAttack (attack / 1000); FRelease (release / 1000); FSample x]) <$> l).
Lemma comp_follow_ok l : ∀ f, Forall (λ s, 0 <= s.2.1 ∧ 0 <= s.2.2) l → comp_follow f l = Ok (levels f (stages l), frun f (stages l)).
Proof.
  induction l as [|[x [a r]] l IH]; intros f Hl; [done|]. apply Forall_cons in Hl as [[Ha Hr] Hl]. cbn [fst snd] in Ha, Hr.
  cbn [comp_follow]. unfold duration. destruct (Rle_dec 0 a); [|lra]. destruct (Rle_dec 0 r); [|lra]. cbn [rassert rbind].
  rewrite IH by done. done.
Qed.
Lemma stages_levels l : ∀ f, length (levels f (stages l)) = length l.
Proof. induction l as [|[x [a r]] l IH]; intros f; [done|]. cbn. f_equal. apply IH. Qed.
Lemma told_stages b ch : told b ch = stages (zip (row_of (cb_in b, cb_iv b) ch) (zip (p_attack (cb_params b)) (p_release (cb_params b)))).
Proof. done. Qed.

Section block.
  Context (n limit : nat) (b : cblock) (Hb : cblock_ok n limit b).
  Local Notation p := (cb_params b).
  Local Notation F := (cframes b).

  Lemma told_levels f ch : length (levels f (told b ch)) = F.
  Proof.
    destruct Hb as (_ & _ & _ & _ & _ & _ & Hf & _ & Hl & _). rewrite told_stages, stages_levels, !zip_with_length, row_length. cbn [fst snd].
    rewrite (Hl (p_attack p)), (Hl (p_release p)) by (repeat constructor). lia.
  Qed.

  Lemma envelope_ok m : (m <= n)%nat → ∀ c, length (cp_envelopes c) = n → wf (cp_gain c) → channels (cp_gain c) = n → frames (cp_gain c) = limit →
    ∃ c', rfold (comp_envelope p (cb_in b) (cb_iv b)) (seq 0 m) c = Ok c' ∧
      length (cp_envelopes c') = n ∧ wf (cp_gain c') ∧ same_dims (cp_gain c) (cp_gain c') ∧
      ∀ ch f, cp_envelopes c !! ch = Some f →
        cp_envelopes c' !! ch = Some (if decide (ch < m)%nat then frun f (told b ch) else f) ∧
        ((ch < m)%nat → ∀ fr, (fr < F)%nat → sample (cp_gain c') ch fr = Some (levels f (told b ch) !! fr)).
  Proof.
    intros Hm c Hlen Hw Hc Hf. induction m as [|m IH].
    { exists c. do 3 (split; [done|]). split; [apply same_dims_refl|]. intros ch f E. rewrite decide_False by lia. split; [done|lia]. }
    destruct IH as (c1 & E & L1 & W1 & D1 & H1); [lia|]. rewrite seq_S, rfold_app, E. cbn [rbind rfold Nat.add].
    pose proof D1 as (Dc & Df & _).
    destruct Hb as (Hwi & Hvi & _ & _ & Hci & _ & Hfi & HF & Hpl & Ha & Hr & _).
    destruct (lookup_lt_is_Some_2 (cp_envelopes c) m) as [f Ef]; [lia|]. destruct (H1 m f Ef) as [E1 _]. rewrite decide_False in E1 by lia.
    unfold comp_envelope. pose proof (row_data (cb_in b, cb_iv b) m Hwi Hvi) as Er. cbn [fst snd] in Er. rewrite Er by lia. cbn [rbind].
    rewrite locate_ok by (done || cbn; lia). cbn [rbind]. rewrite E1. cbn [runwrap rbind].
    set (l := zip (row_of _ m) _). set (st := ((m + off_ch Whole) * frames (cp_gain c1) + (0 + off_fr Whole))%nat).
    assert (Hl : length l = F). { unfold l. rewrite !zip_with_length, row_length. cbn [fst snd]. rewrite (Hpl (p_attack p)), (Hpl (p_release p)) by (repeat constructor). lia. }
    rewrite take_ge by (cbn [v_frames]; lia). rewrite comp_follow_ok.
    2: { apply Forall_forall. intros [x [a r]] Hin. unfold l in Hin. apply elem_of_zip_r in Hin.
         cbn [fst snd]. split.
         - apply elem_of_zip_l in Hin. rewrite Forall_forall in Ha. by apply Ha.
         - apply elem_of_zip_r in Hin. rewrite Forall_forall in Hr. by apply Hr. }
    cbn [rbind]. change (stages l) with (told b m).
    destruct (zip_row (λ (y : R) (_ : option R), Some y) Whole (cp_gain c1) m (levels f (told b m))) as (g' & Eg & Wg); [done|done|cbn; lia|].
    rewrite locate_ok in Eg by (done || cbn; lia). cbn [rbind] in Eg. fold st in Eg.
    rewrite (take_ge (levels f (told b m))) in Eg by (rewrite told_levels; cbn [v_frames]; lia).
    apply (f_equal (λ r, match r with Ok x => x | Panic _ => g' end)) in Eg. cbn in Eg. rewrite Eg. eexists. split; [done|]. cbn [cp_envelopes cp_gain].
    rewrite insert_length. split; [done|]. destruct Wg as (Wg & Dg & _ & Sg). split; [done|]. split; [by eapply same_dims_trans|].
    assert (S' : ∀ ch fr, (ch < n)%nat → (fr < limit)%nat → sample g' ch fr =
      if decide (ch = m) then default (sample (cp_gain c1) ch fr) (Some <$> (Some <$> levels f (told b m) !! fr)) else sample (cp_gain c1) ch fr).
    { intros ch fr Hch Hfr. destruct (Sg ch fr) as (x & y & Sx & Sy & ->); [cbn; lia|cbn; lia|].
      rewrite (seen_dims (cp_gain c1)) in Sy by (done || cbn; lia). rewrite seen_eq in Sx by (cbn; lia). cbn [off_ch off_fr Nat.add] in Sx, Sy.
      rewrite Sx, Sy. case_decide; [|done]. destruct (levels _ _ !! fr); done. }
    intros ch f' Ef'. destruct (H1 ch f' Ef') as [E2 S2]. pose proof (lookup_lt_Some _ _ _ Ef') as Hch. split.
    - destruct (decide (ch = m)) as [->|Hne].
      + rewrite list_lookup_insert by lia. rewrite Ef in Ef'. injection Ef' as <-. by rewrite decide_True by lia.
      + rewrite list_lookup_insert_ne by done. rewrite E2. repeat case_decide; done || lia.
    - intros Hlt fr Hfr. rewrite S' by lia. destruct (decide (ch = m)) as [->|Hd].
      + rewrite Ef in Ef'. injection Ef' as <-. destruct (lookup_lt_is_Some_2 (levels f (told b m)) fr) as [v Ev]; [rewrite told_levels; lia|].
        by rewrite Ev.
      + rewrite S2 by lia. done.
  Qed.

  (** ** Gains *)
  Lemma mean_ok (gr : owned (option R)) fr (g : nat → R) m : wf gr → (m <= channels gr)%nat → (fr < frames gr)%nat → n ≠ 0%nat →
    (∀ ch, (ch < m)%nat → sample gr ch fr = Some (Some (g ch))) →
    rfold (λ e channel, let? x := get_sample gr Whole channel fr in Ok (nan_add e ((λ x, x / INR n) <$> x))) (seq 0 m) (Some 0) = Ok (Some (sum_over m g / INR n)).
  Proof.
    intros Hw Hc Hf Hn Hg. induction m as [|m IH].
    { cbn. unfold sum_over. cbn. do 2 f_equal. field. by apply not_0_INR. }
    rewrite seq_S, rfold_app, IH by (lia || (intros; apply Hg; lia)). cbn [rbind rfold Nat.add].
    destruct (get_sample_ok gr Whole m fr (Some (g m))) as [_ H]; [done|done|cbn; lia|cbn; lia|].
    rewrite H by (rewrite !Nat.add_0_r; apply Hg; lia). rewrite sum_over_S. cbn [rbind]. unfold nan_add. cbn [fmap option_fmap option_map mbind option_bind]. do 2 f_equal. field. by apply not_0_INR.
  Qed.

  Section gains.
    Context (level : nat → nat → R) (gain : nat → option R).
    Context (Hn : n ≠ 0%nat).
    Context (Hgain : ∀ fr k t r, (fr < F)%nat → p_knee p !! fr = Some k → p_threshold p !! fr = Some t → p_ratio p !! fr = Some r →
      gain fr = gain_reduction (sum_over n (λ ch, level ch fr) / INR n) k t r).
    Lemma frames_ok m : (m <= F)%nat → ∀ gr, wf gr → channels gr = n → frames gr = limit →
      (∀ ch fr, (ch < n)%nat → (fr < F)%nat → sample gr ch fr = Some (Some (level ch fr))) →
      ∃ gr', rfold (comp_frame p n) (seq 0 m) gr = Ok gr' ∧ wf gr' ∧ same_dims gr gr' ∧
        ∀ ch fr, (ch < n)%nat → (fr < F)%nat → sample gr' ch fr = Some (if decide (fr < m)%nat then gain fr else Some (level ch fr)).
    Proof.
      intros Hm gr Hw Hc Hf Hs. destruct Hb as (_ & _ & _ & _ & _ & _ & _ & HF & Hpl & _). induction m as [|m IH].
      { exists gr. split; [done|]. split; [done|]. split; [apply same_dims_refl|]. intros ch fr H1 H2. rewrite decide_False by lia. by apply Hs. }
      destruct IH as (g1 & E & W1 & D1 & S1); [lia|]. rewrite seq_S, rfold_app, E. cbn [rbind rfold Nat.add]. pose proof D1 as (Dc & Df & _).
      unfold comp_frame, comp_mean. rewrite (mean_ok g1 m (λ ch, level ch m) n) by
        (done || lia || (intros ch Hch; rewrite S1 by lia; by rewrite decide_False by lia)). cbn [rbind].
      destruct (lookup_lt_is_Some_2 (p_knee p) m) as [k Ek]; [rewrite Hpl by (repeat constructor); lia|].
      destruct (lookup_lt_is_Some_2 (p_threshold p) m) as [t Et]; [rewrite Hpl by (repeat constructor); lia|].
      destruct (lookup_lt_is_Some_2 (p_ratio p) m) as [r Err]; [rewrite Hpl by (repeat constructor); lia|].
      rewrite Ek, Et, Err. cbn [runwrap rbind]. change (Some ?x ≫= ?f) with (f x). cbn beta. rewrite <-(Hgain m k t r) by (done || lia).
      destruct (fill_rect_ok g1 Whole 0 m n 1 (gain m) W1 I) as (g2 & E2 & W2 & D2 & S2).
      { right. split; [cbn; lia|]. right. cbn. lia. }
      unfold set_sample. rewrite E2. cbn [rbind]. exists g2. split; [done|]. split; [done|]. split; [by eapply same_dims_trans|].
      intros ch fr Hch Hfr. rewrite S2. cbn [off_ch off_fr]. unfold in_rect. rewrite S1 by done. case_decide as Hd.
      - cbn. do 2 f_equal. assert (fr = m) as -> by lia. by rewrite decide_True by lia.
      - do 2 f_equal. repeat case_decide; done || lia.
    Qed.
  End gains.
End block.
