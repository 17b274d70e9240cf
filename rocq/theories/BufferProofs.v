From stdpp Require Import list numbers sets.
From Verif Require Import Base Buffer BufferSpec.

Lemma rfold_app {A S} (f : S → A → res S) l1 l2 s :
  rfold f (l1 ++ l2) s = let? s' := rfold f l1 s in rfold f l2 s'.
Proof.
  revert s. induction l1 as [|a l1 IH]; intros s; [done|]. cbn.
  destruct (f s a); cbn; [apply IH|done].
Qed.

Lemma seq_S_end n : seq 0 (S n) = seq 0 n ++ [n].
Proof. by rewrite seq_S. Qed.

Section proofs.
Context {A : Type}.
Implicit Types (b : owned A) (v : view) (zero : A).

Lemma seg_zip_length {B} (f : B → A → A) d st src :
  st + length src ≤ length d → length (seg_zip f d st src) = length d.
Proof.
  intros H. unfold seg_zip. rewrite !app_length, zip_with_length, !take_length, !drop_length.
  lia.
Qed.

Lemma seg_zip_lookup {B} (f : B → A → A) d st src i :
  st + length src ≤ length d →
  seg_zip f d st src !! i =
    if decide (st ≤ i < st + length src)
    then x ← src !! (i - st); f x <$> d !! i
    else d !! i.
Proof.
  intros H. unfold seg_zip.
  destruct (decide (i < st)) as [Hi|Hi].
  - rewrite decide_False by lia. rewrite lookup_app_l by (rewrite take_length; lia).
    by rewrite lookup_take.
  - rewrite lookup_app_r by (rewrite take_length; lia). rewrite take_length.
    rewrite Nat.min_l by lia.
    destruct (decide (i < st + length src)) as [Hi2|Hi2].
    + rewrite decide_True by lia.
      rewrite lookup_app_l by (rewrite zip_with_length, take_length, drop_length; lia).
      rewrite lookup_zip_with, lookup_take, lookup_drop by lia.
      replace (st + (i - st)) with i by lia.
      destruct (src !! (i - st)); cbn; [|done]. by destruct (d !! i).
    + rewrite decide_False by lia.
      rewrite lookup_app_r by (rewrite zip_with_length, take_length, drop_length; lia).
      rewrite zip_with_length, take_length, drop_length, lookup_drop.
      f_equal. lia.
Qed.

Lemma pos_unique ch fr ch' fr' F : fr < F → fr' < F →
  ch * F + fr = ch' * F + fr' → ch = ch' ∧ fr = fr'.
Proof.
  intros H1 H2 E. assert (ch = ch') as ->; [|lia].
  destruct (Nat.lt_trichotomy ch ch') as [H|[H|H]]; [exfalso|done|exfalso].
  - assert ((ch + 1) * F ≤ ch' * F) by (apply Nat.mul_le_mono_r; lia). lia.
  - assert ((ch' + 1) * F ≤ ch * F) by (apply Nat.mul_le_mono_r; lia). lia.
Qed.

Lemma pos_in_data b ch fr : wf b → ch < channels b → fr < frames b →
  ch * frames b + fr < length (data b).
Proof.
  intros Hwf H1 H2. rewrite Hwf.
  assert ((ch + 1) * frames b ≤ channels b * frames b) by (apply Nat.mul_le_mono_r; lia). lia.
Qed.

Lemma sample_lookup b ch fr : ch < channels b → fr < frames b →
  sample b ch fr = data b !! (ch * frames b + fr).
Proof. intros. unfold sample. by rewrite decide_True. Qed.

Lemma sample_is_Some b ch fr : wf b →
  is_Some (sample b ch fr) ↔ ch < channels b ∧ fr < frames b.
Proof.
  intros Hwf. unfold sample. case_decide as H.
  - split; [done|]. intros [H1 H2]. apply lookup_lt_is_Some. by apply pos_in_data.
  - split; [intros [? ?]; done|tauto].
Qed.

Lemma sample_None b ch fr : ¬ (ch < channels b ∧ fr < frames b) → sample b ch fr = None.
Proof. intros H. unfold sample. by rewrite decide_False. Qed.

(** extensionality *)
Lemma buffer_ext b b' : wf b → wf b' → same_dims b b' →
  (∀ ch fr, sample b ch fr = sample b' ch fr) → b = b'.
Proof.
  intros H1 H2 (Hc & Hf & Hr) Hs. destruct b as [d c f r], b' as [d' c' f' r']. cbn in *.
  subst c' f' r'. f_equal. unfold wf in *. cbn in *.
  apply list_eq. intros i.
  destruct (decide (i < c * f)) as [Hi|Hi].
  - assert (f ≠ 0) by (intros ->; lia).
    specialize (Hs (i `div` f) (i `mod` f)). unfold sample in Hs. cbn in Hs.
    assert (i `div` f < c). { apply Nat.div_lt_upper_bound; [done|]. lia. }
    assert (i `mod` f < f) by (by apply Nat.mod_upper_bound).
    rewrite !decide_True in Hs by done.
    replace (i `div` f * f + i `mod` f) with i in Hs; [done|].
    rewrite Nat.mul_comm. by apply Nat.div_mod.
  - rewrite !lookup_ge_None_2 by lia. done.
Qed.

(** ** Views *)
Lemma valid_off b v : valid_view b v →
  off_ch v + v_channels b v ≤ channels b ∧ off_fr v + v_frames b v ≤ frames b.
Proof.
  induction v as [|v IH r]; cbn; [lia|]. intros (Hv & H1 & H2). specialize (IH Hv). lia.
Qed.

Lemma mul_le_inv a c F : F ≠ 0 → a * F ≤ c * F → a ≤ c.
Proof. intros HF H. destruct (decide (a ≤ c)) as [|Hn]; [done|]. exfalso.
  assert ((c + 1) * F ≤ a * F) by (apply Nat.mul_le_mono_r; lia). lia. Qed.

(** exactly when get_channel_data succeeds, and what it denotes *)
Lemma locate_spec b v ch fr : wf b → valid_view b v →
  (fr ≤ v_frames b v ∧ (frames b = 0 ∨ ch + off_ch v < channels b) →
    locate b v ch fr =
      Ok ((ch + off_ch v) * frames b + (fr + off_fr v),
          (ch + off_ch v) * frames b + (fr + off_fr v) + (v_frames b v - fr))) ∧
  (¬ (fr ≤ v_frames b v ∧ (frames b = 0 ∨ ch + off_ch v < channels b)) →
    ∃ p, locate b v ch fr = Panic p).
Proof.
  intros Hwf. revert ch fr. induction v as [|v IH r]; cbn [locate off_ch off_fr v_frames valid_view];
    intros ch fr Hv.
  - rewrite !Nat.add_0_r. split.
    + intros [H1 H2]. rewrite Hwf.
      assert ((ch + 1) * frames b ≤ channels b * frames b).
      { destruct H2 as [->|H2]; [lia|]. apply Nat.mul_le_mono_r. lia. }
      assert (E1 : ch * frames b + fr <=? (ch + 1) * frames b = true) by (apply Nat.leb_le; lia).
      assert (E2 : (ch + 1) * frames b <=? channels b * frames b = true) by (apply Nat.leb_le; lia).
      rewrite E1, E2. cbn. do 2 f_equal. lia.
    + intros Hn. rewrite Hwf.
      destruct (Nat.leb_spec (ch * frames b + fr) ((ch + 1) * frames b)) as [E1|E1];
        [|eexists; done].
      destruct (Nat.leb_spec ((ch + 1) * frames b) (channels b * frames b)) as [E2|E2];
        [|eexists; done].
      exfalso. apply Hn. split; [lia|].
      destruct (decide (frames b = 0)) as [|HF]; [by left|right].
      apply mul_le_inv in E2; [lia|done].
  - destruct Hv as (Hv & Hc & Hf).
    destruct (IH (ch + r_channel r) (fr + r_frame r) Hv) as [IH1 IH2].
    split.
    + intros [H1 H2]. rewrite IH1 by (split; [lia|]; destruct H2; [by left|right; lia]).
      cbn [rbind]. destruct (Nat.leb_spec fr (r_frames r)); [|lia].
      destruct (Nat.leb_spec (r_frames r - fr)
        ((ch + r_channel r + off_ch v) * frames b + (fr + r_frame r + off_fr v) +
           (v_frames b v - (fr + r_frame r)) -
         ((ch + r_channel r + off_ch v) * frames b + (fr + r_frame r + off_fr v)))); [|lia].
      replace (ch + r_channel r + off_ch v) with (ch + (off_ch v + r_channel r)) by lia.
      replace (fr + r_frame r + off_fr v) with (fr + (off_fr v + r_frame r)) by lia. done.
    + intros Hn.
      destruct (decide (fr + r_frame r ≤ v_frames b v ∧
                  (frames b = 0 ∨ ch + r_channel r + off_ch v < channels b))) as [Hin|Hin].
      * rewrite IH1 by done. cbn [rbind].
        destruct (Nat.leb_spec fr (r_frames r)) as [Hle|Hle]; [|eexists; done].
        exfalso. apply Hn. split; [done|]. destruct Hin as [_ [?|?]]; [by left|right; lia].
      * destruct (IH2 Hin) as [p ->]. eexists; done.
Qed.

Lemma locate_ok b v ch fr : wf b → valid_view b v →
  fr ≤ v_frames b v → (frames b = 0 ∨ ch + off_ch v < channels b) →
    locate b v ch fr =
      Ok ((ch + off_ch v) * frames b + (fr + off_fr v),
          (ch + off_ch v) * frames b + (fr + off_fr v) + (v_frames b v - fr)).
Proof. intros Hwf Hv H1 H2. by apply (locate_spec b v ch fr Hwf Hv). Qed.

Lemma seg_start_spec b v ch fr n : wf b → valid_view b v →
  (fr + n ≤ v_frames b v ∧ (frames b = 0 ∨ ch + off_ch v < channels b) →
    seg_start b v ch fr n = Ok ((ch + off_ch v) * frames b + (fr + off_fr v))) ∧
  (¬ (fr + n ≤ v_frames b v ∧ (frames b = 0 ∨ ch + off_ch v < channels b)) →
    ∃ p, seg_start b v ch fr n = Panic p).
Proof.
  intros Hwf Hv. destruct (locate_spec b v ch fr Hwf Hv) as [H1 H2]. unfold seg_start. split.
  - intros [Ha Hb]. rewrite H1 by (split; [lia|done]). cbn [rbind].
    destruct (Nat.leb_spec n ((ch + off_ch v) * frames b + (fr + off_fr v) + (v_frames b v - fr)
       - ((ch + off_ch v) * frames b + (fr + off_fr v)))); [done|lia].
  - intros Hn. destruct (decide (fr ≤ v_frames b v ∧ (frames b = 0 ∨ ch + off_ch v < channels b)))
      as [Hin|Hin].
    + rewrite H1 by done. cbn [rbind].
      destruct (Nat.leb_spec n ((ch + off_ch v) * frames b + (fr + off_fr v) + (v_frames b v - fr)
       - ((ch + off_ch v) * frames b + (fr + off_fr v)))) as [Hle|Hle]; [|eexists; done].
      exfalso. apply Hn. split; [lia|tauto].
    + destruct (H2 Hin) as [p ->]. eexists; done.
Qed.

Lemma seg_bound b v ch fr n : wf b → valid_view b v →
  fr + n ≤ v_frames b v → (frames b = 0 ∨ ch + off_ch v < channels b) →
  (ch + off_ch v) * frames b + (fr + off_fr v) + n ≤ length (data b).
Proof.
  intros Hwf Hv H1 H2. destruct (valid_off b v Hv) as [H3 H4]. rewrite Hwf.
  destruct H2 as [H2|H2]; [rewrite H2 in *; lia|].
  assert ((ch + off_ch v + 1) * frames b ≤ channels b * frames b)
    by (apply Nat.mul_le_mono_r; lia). lia.
Qed.

Lemma get_channel_data_ok b v ch fr : wf b → valid_view b v →
  fr ≤ v_frames b v → (frames b = 0 ∨ ch + off_ch v < channels b) →
  ∃ l, get_channel_data b v ch fr = Ok l ∧ length l = v_frames b v - fr ∧
    ∀ i, i < v_frames b v - fr →
      l !! i = sample b (ch + off_ch v) (fr + off_fr v + i).
Proof.
  intros Hwf Hv H1 H2. unfold get_channel_data. rewrite locate_ok by done. cbn [rbind].
  eexists. split; [done|].
  pose proof (seg_bound b v ch fr (v_frames b v - fr) Hwf Hv ltac:(lia) H2) as Hb.
  destruct (valid_off b v Hv) as [H3 H4].
  split.
  - rewrite take_length, drop_length. lia.
  - intros i Hi. rewrite lookup_take by lia. rewrite lookup_drop.
    destruct H2 as [H2|H2]; [lia|].
    rewrite sample_lookup by lia. f_equal. lia.
Qed.

Lemma read_seg_spec b v ch fr n : wf b → valid_view b v →
  (fr + n ≤ v_frames b v ∧ (frames b = 0 ∨ ch + off_ch v < channels b) →
    ∃ l, read_seg b v ch fr n = Ok l ∧ length l = n ∧
      ∀ i, i < n → l !! i = sample b (ch + off_ch v) (fr + off_fr v + i)) ∧
  (¬ (fr + n ≤ v_frames b v ∧ (frames b = 0 ∨ ch + off_ch v < channels b)) →
    ∃ p, read_seg b v ch fr n = Panic p).
Proof.
  intros Hwf Hv. split.
  - intros [H1 H2]. destruct (get_channel_data_ok b v ch fr Hwf Hv) as (l & E & Hl & Hi);
      [lia|done|]. unfold read_seg. rewrite E. cbn [rbind].
    destruct (Nat.leb_spec n (length l)); [|lia].
    exists (take n l). split; [done|]. split; [rewrite take_length; lia|].
    intros i Hn. rewrite lookup_take by done. apply Hi. lia.
  - intros Hn. unfold read_seg.
    destruct (decide (fr ≤ v_frames b v ∧ (frames b = 0 ∨ ch + off_ch v < channels b)))
      as [[H1 H2]|Hin].
    + destruct (get_channel_data_ok b v ch fr Hwf Hv H1 H2) as (l & E & Hl & Hi).
      rewrite E. cbn [rbind]. destruct (Nat.leb_spec n (length l)) as [Hle|Hle]; [|eexists; done].
      exfalso. apply Hn. split; [lia|done].
    + unfold get_channel_data. destruct (locate_spec b v ch fr Hwf Hv) as [_ H].
      destruct (H Hin) as [p ->]. eexists; done.
Qed.

(** ** One rectangle update *)

Lemma wf_with_data b d : length d = length (data b) → wf b → wf (with_data b d).
Proof. unfold wf, with_data. cbn. congruence. Qed.

Lemma write_row {B} (f : B → A → A) b c f0 (src : list B) :
  wf b → c < channels b ∨ frames b = 0 → f0 + length src ≤ frames b →
  rect_update f (λ _ j, src !! j) c f0 1 (length src)
    b (with_data b (seg_zip f (data b) (c * frames b + f0) src)).
Proof.
  intros Hwf Hc Hf.
  assert (Hb : c * frames b + f0 + length src ≤ length (data b)).
  { rewrite Hwf. destruct Hc as [Hc|Hc]; [|rewrite Hc in *; lia].
    assert ((c + 1) * frames b ≤ channels b * frames b) by (apply Nat.mul_le_mono_r; lia). lia. }
  split; [|split].
  - apply wf_with_data; [|done]. by apply seg_zip_length.
  - done.
  - intros ch fr. unfold sample. cbn [channels frames data with_data].
    case_decide as Hin.
    + rewrite seg_zip_lookup by done.
      destruct (decide (in_rect c f0 1 (length src) ch fr)) as [[H1 H2]|Hout].
      * assert (ch = c) as -> by lia. rewrite decide_True by lia. do 2 f_equal. lia.
      * rewrite decide_False; [done|]. intros Hpos. apply Hout.
        destruct (pos_unique ch fr c (ch * frames b + fr - c * frames b) (frames b)) as [-> Hfr];
          [lia|lia|lia|]. split; lia.
    + case_decide; [|done]. by destruct (src !! (fr - f0)).
Qed.

Lemma fits_le b v c0 f0 cc fc n : n ≤ cc → fits b v c0 f0 cc fc → fits b v c0 f0 n fc.
Proof. unfold fits. intros. destruct (decide (n = 0)); [by left|right]. lia. Qed.

Lemma same_dims_view b b' v : same_dims b b' →
  v_frames b' v = v_frames b v ∧ v_channels b' v = v_channels b v ∧
  (valid_view b v → valid_view b' v) ∧
  (∀ c0 f0 cc fc, fits b v c0 f0 cc fc → fits b' v c0 f0 cc fc).
Proof.
  intros (Hc & Hf & Hr).
  assert (Hvf : ∀ v, v_frames b' v = v_frames b v) by (intros []; done).
  assert (Hvc : ∀ v, v_channels b' v = v_channels b v) by (intros []; done).
  split; [done|]. split; [done|]. split.
  - induction v as [|v IH r]; cbn; [done|]. rewrite Hvf, Hvc. tauto.
  - intros c0 f0 cc fc. unfold fits. by rewrite Hvf, Hf, Hc.
Qed.

Lemma same_dims_refl b : same_dims b b.
Proof. done. Qed.
Lemma same_dims_trans b1 b2 b3 : same_dims b1 b2 → same_dims b2 b3 → same_dims b1 b3.
Proof. unfold same_dims. intuition congruence. Qed.

(** looping over channels *)
Lemma rect_loop {B} (f : B → A → A) (rows : nat → list B) b v c0 f0 cc fc :
  wf b → valid_view b v → fits b v c0 f0 cc fc →
  (∀ i, i < cc → length (rows i) = fc) →
  ∃ b', rfold (λ b i, let? st := seg_start b v (c0 + i) f0 fc in
                      Ok (with_data b (seg_zip f (data b) st (rows i)))) (seq 0 cc) b = Ok b' ∧
    rect_update f (λ i j, rows i !! j) (c0 + off_ch v) (f0 + off_fr v) cc fc b b'.
Proof.
  intros Hwf Hv. revert c0. induction cc as [|cc IH]; intros c0 Hfit Hrows.
  - exists b. split; [done|]. split; [done|]. split; [done|].
    intros ch fr. rewrite decide_False; [done|]. unfold in_rect. lia.
  - destruct (IH c0) as (b1 & E1 & Hwf1 & Hd1 & Hs1).
    { eapply fits_le; [|done]. lia. }
    { intros i Hi. apply Hrows. lia. }
    rewrite seq_S_end, rfold_app, E1. cbn [rbind rfold].
    destruct (same_dims_view b b1 v Hd1) as (Hvf & Hvc & Hvv & Hvfit).
    destruct Hfit as [Hfit|[Hfit1 Hfit2]]; [done|].
    destruct (valid_off b v Hv) as [Ho1 Ho2].
    destruct (seg_start_spec b1 v (c0 + cc) f0 fc Hwf1 (Hvv Hv)) as [Hst _].
    destruct Hd1 as (Hdc & Hdf & Hdr).
    rewrite Hst by (rewrite Hvf, Hdf, Hdc; split; [done|]; destruct Hfit2; [by left|right; lia]).
    cbn [rbind]. eexists. split; [done|].
    assert (Hrow : length (rows cc) = fc) by (apply Hrows; lia).
    destruct (write_row f b1 (c0 + cc + off_ch v) (f0 + off_fr v) (rows cc)) as (Hwf2 & Hd2 & Hs2).
    { done. }
    { rewrite Hdc, Hdf. destruct Hfit2; [by right|left; lia]. }
    { rewrite Hdf, Hrow. lia. }
    split; [done|]. split.
    { eapply same_dims_trans; [|exact Hd2]. done. }
    intros ch fr. rewrite Hs2, Hs1, Hrow.
    destruct (decide (in_rect (c0 + cc + off_ch v) (f0 + off_fr v) 1 fc ch fr)) as [Hin|Hout].
    + rewrite (decide_True (P := in_rect _ _ (S cc) _ _ _)) by (unfold in_rect in *; lia).
      rewrite (decide_False (P := in_rect _ _ cc _ _ _)) by (unfold in_rect in *; lia).
      unfold in_rect in Hin. replace (ch - (c0 + off_ch v)) with cc by lia. done.
    + destruct (decide (in_rect (c0 + off_ch v) (f0 + off_fr v) cc fc ch fr)) as [Hin2|Hout2].
      * rewrite decide_True by (unfold in_rect in *; lia). done.
      * rewrite decide_False by (unfold in_rect in *; lia). done.
Qed.

Lemma rfold_ext {X S} (f f' : S → X → res S) l s :
  (∀ s x, x ∈ l → f s x = f' s x) → rfold f l s = rfold f' l s.
Proof.
  revert s. induction l as [|x l IH]; intros s H; [done|]. cbn.
  rewrite H by set_solver. destruct (f' s x); cbn; [|done]. apply IH. set_solver.
Qed.

(** ** copy_from / add_from *)
Lemma combine_from_ok (f : A → A → A) (dst : owned A) dv (src : owned A) sv sc sf dc df cc fc :
  wf dst → valid_view dst dv → wf src → valid_view src sv →
  fits src sv sc sf cc fc → fits dst dv dc df cc fc →
  ∃ dst', combine_from f dst dv src sv sc sf dc df cc fc = Ok dst' ∧
    rect_update f (λ i j, sample src (sc + off_ch sv + i) (sf + off_fr sv + j))
      (dc + off_ch dv) (df + off_fr dv) cc fc dst dst'.
Proof.
  intros Hwd Hvd Hws Hvs Hfs Hfd.
  assert (Hrow : ∀ i, i < cc → ∃ l, read_seg src sv (sc + i) sf fc = Ok l ∧ length l = fc ∧
      ∀ j, j < fc → l !! j = sample src (sc + off_ch sv + i) (sf + off_fr sv + j)).
  { intros i Hi. destruct (read_seg_spec src sv (sc + i) sf fc Hws Hvs) as [H _].
    destruct H as (l & E & Hl & Hj).
    - destruct Hfs as [|[H1 H2]]; [lia|]. split; [done|]. destruct H2; [by left|right; lia].
    - exists l. split; [done|]. split; [done|]. intros j Hj'. rewrite Hj by done. f_equal. lia. }
  set (rows i := match read_seg src sv (sc + i) sf fc with Ok l => l | Panic _ => [] end).
  destruct (rect_loop f rows dst dv dc df cc fc Hwd Hvd Hfd) as (dst' & E & Hwf' & Hd' & Hs').
  { intros i Hi. unfold rows. destruct (Hrow i Hi) as (l & -> & Hl & _). done. }
  exists dst'. split.
  - rewrite <-E. unfold combine_from. apply rfold_ext. intros b i Hi.
    apply elem_of_seq in Hi. unfold rows. destruct (Hrow i) as (l & -> & _ & _); [lia|]. done.
  - split; [done|]. split; [done|]. intros ch fr. rewrite Hs'.
    destruct (decide (in_rect _ _ _ _ _ _)) as [Hin|Hin]; [|done].
    unfold in_rect in Hin. unfold rows.
    destruct (Hrow (ch - (dc + off_ch dv))) as (l & -> & _ & Hj); [lia|].
    by rewrite Hj by lia.
Qed.

Lemma combine_from_panics (f : A → A → A) (dst : owned A) dv (src : owned A) sv sc sf dc df cc fc :
  wf dst → valid_view dst dv → wf src → valid_view src sv →
  ¬ (fits src sv sc sf cc fc ∧ fits dst dv dc df cc fc) →
  ∃ p, combine_from f dst dv src sv sc sf dc df cc fc = Panic p.
Proof.
  intros Hwd Hvd Hws Hvs. revert Hvd Hwd. unfold combine_from.
  (* find the first channel that does not fit *)
  induction cc as [|cc IH]; intros Hvd Hwd Hn.
  { exfalso. apply Hn. split; by left. }
  rewrite seq_S_end, rfold_app.
  destruct (decide (fits src sv sc sf cc fc ∧ fits dst dv dc df cc fc)) as [[H1 H2]|Hno].
  - destruct (combine_from_ok f dst dv src sv sc sf dc df cc fc) as (b1 & E & Hwf1 & Hd1 & _);
      try done. unfold combine_from in E. rewrite E. cbn [rbind rfold].
    destruct (same_dims_view dst b1 dv Hd1) as (Hvf & _ & Hvv & _).
    destruct Hd1 as (Hdc & Hdf & _).
    destruct (read_seg_spec src sv (sc + cc) sf fc Hws Hvs) as [Hr1 Hr2].
    destruct (seg_start_spec b1 dv (dc + cc) df fc Hwf1 (Hvv Hvd)) as [Hs1 Hs2].
    destruct (decide (sf + fc ≤ v_frames src sv ∧
                (frames src = 0 ∨ sc + cc + off_ch sv < channels src))) as [Hr|Hr].
    + destruct (Hr1 Hr) as (l & -> & _ & _). cbn [rbind].
      destruct (decide (df + fc ≤ v_frames b1 dv ∧
                (frames b1 = 0 ∨ dc + cc + off_ch dv < channels b1))) as [Hs|Hs].
      * exfalso. apply Hn. rewrite Hvf, Hdf, Hdc in Hs. unfold fits. split; right.
        -- split; [tauto|]. destruct Hr as [_ [?|?]]; [by left|right; lia].
        -- split; [tauto|]. destruct Hs as [_ [?|?]]; [by left|right; lia].
      * destruct (Hs2 Hs) as [p ->]. eexists; done.
    + destruct (Hr2 Hr) as [p ->]. eexists; done.
  - destruct (IH Hvd Hwd Hno) as [p ->]. eexists; done.
Qed.

(** ** filling *)
Lemma locate_len b v ch st en : locate b v ch 0 = Ok (st, en) → en = st + v_frames b v.
Proof.
  destruct v as [|v r]; cbn [locate v_frames].
  - destruct (_ && _); [|done]. intros [= <- <-]. lia.
  - destruct (locate b v (ch + r_channel r) (0 + r_frame r)) as [[st' en']|]; cbn [rbind]; [|done].
    destruct (Nat.leb_spec 0 (r_frames r)); [|done].
    destruct (_ <=? _); [|done]. intros [= <- <-]. lia.
Qed.

Lemma fill_channel_seg b v ch x : fill_channel_with_value b v ch x = fill_seg b v ch 0 (v_frames b v) x.
Proof.
  unfold fill_channel_with_value, fill_seg, seg_start.
  destruct (locate b v ch 0) as [[st en]|] eqn:E; cbn [rbind]; [|done].
  apply locate_len in E as ->. replace (st + v_frames b v - st) with (v_frames b v) by lia.
  by rewrite Nat.leb_refl.
Qed.

Lemma rfold_map {X Y S} (g : X → Y) (f : S → Y → res S) l s :
  rfold f (map g l) s = rfold (λ s x, f s (g x)) l s.
Proof. revert s. induction l as [|x l IH]; intros s; [done|]. cbn.
  destruct (f s (g x)); cbn; [apply IH|done]. Qed.

Lemma seq_shift_map c n : seq c n = map (Nat.add c) (seq 0 n).
Proof. pose proof (fmap_add_seq c 0 n) as H. rewrite Nat.add_0_r in H. symmetry. exact H. Qed.

Lemma v_frames_with b v d : v_frames (with_data b d) v = v_frames b v.
Proof. by destruct v. Qed.
Lemma v_channels_with b v d : v_channels (with_data b d) v = v_channels b v.
Proof. by destruct v. Qed.

Lemma fill_rect_ok b v c0 f0 cc fc x : wf b → valid_view b v → fits b v c0 f0 cc fc →
  ∃ b', rfold (λ b ch, fill_seg b v ch f0 fc x) (seq c0 cc) b = Ok b' ∧
    rect_fill x (c0 + off_ch v) (f0 + off_fr v) cc fc b b'.
Proof.
  intros Hwf Hv Hf. rewrite seq_shift_map, rfold_map.
  destruct (rect_loop (λ (_ : nat) _, x) (λ _, seq 0 fc) b v c0 f0 cc fc Hwf Hv Hf)
    as (b' & E & Hw & Hd & Hs).
  { intros. apply seq_length. }
  exists b'. split; [exact E|]. split; [done|]. split; [done|]. intros ch fr. rewrite Hs.
  destruct (decide (in_rect _ _ _ _ _ _)) as [Hin|]; [|done]. unfold in_rect in Hin.
  by rewrite lookup_seq_lt by lia.
Qed.

Lemma fits_all b v : valid_view b v → fits b v 0 0 (v_channels b v) (v_frames b v).
Proof. intros Hv. right. split; [lia|]. right. destruct (valid_off b v Hv). lia. Qed.

Lemma fill_with_value_ok b v x : wf b → valid_view b v →
  ∃ b', fill_with_value b v x = Ok b' ∧
    rect_fill x (off_ch v) (off_fr v) (v_channels b v) (v_frames b v) b b'.
Proof.
  intros Hwf Hv.
  destruct (fill_rect_ok b v 0 0 (v_channels b v) (v_frames b v) x Hwf Hv (fits_all b v Hv))
    as (b' & E & H).
  exists b'. split; [|exact H]. rewrite <-E. unfold fill_with_value.
  assert (Hgen : ∀ l b0 n, v_frames b0 v = n →
      rfold (λ b ch, fill_channel_with_value b v ch x) l b0 =
      rfold (λ b ch, fill_seg b v ch 0 n x) l b0).
  { induction l as [|i l IH]; intros b0 n Hn; [done|]. cbn [rfold].
    rewrite fill_channel_seg, Hn.
    destruct (fill_seg b0 v i 0 n x) as [b1|] eqn:E1; cbn [rbind]; [|done]. apply IH.
    unfold fill_seg in E1. destruct (seg_start b0 v i 0 n); cbn [rbind] in E1; [|done].
    injection E1 as <-. by rewrite v_frames_with. }
  by apply Hgen.
Qed.

Lemma clear_range_ok zero b v r : wf b → valid_view b v →
  fits b v (r_channel r) (r_frame r) (r_channels r) (r_frames r) →
  ∃ b', clear_range zero b v r = Ok b' ∧
    rect_fill zero (r_channel r + off_ch v) (r_frame r + off_fr v) (r_channels r) (r_frames r) b b'.
Proof. intros. by apply fill_rect_ok. Qed.

(** ** single samples *)
Lemma get_sample_ok b v ch fr x : wf b → valid_view b v →
  ch + off_ch v < channels b → fr < v_frames b v →
  get_sample b v ch fr = Ok x ↔ sample b (ch + off_ch v) (fr + off_fr v) = Some x.
Proof.
  intros Hwf Hv Hc Hf. unfold get_sample.
  destruct (get_channel_data_ok b v ch fr Hwf Hv) as (l & -> & Hl & Hi); [lia|by right|].
  cbn [rbind]. specialize (Hi 0). rewrite Nat.add_0_r in Hi. rewrite <-Hi by lia.
  destruct l; cbn in *; [lia|]. split; congruence.
Qed.

Lemma get_sample_panics b v ch fr : wf b → valid_view b v →
  ¬ (ch + off_ch v < channels b ∧ fr < v_frames b v) →
  ∃ p, get_sample b v ch fr = Panic p.
Proof.
  intros Hwf Hv Hn. unfold get_sample, get_channel_data.
  destruct (locate_spec b v ch fr Hwf Hv) as [H1 H2].
  destruct (decide (fr ≤ v_frames b v ∧ (frames b = 0 ∨ ch + off_ch v < channels b))) as [Hd|Hd].
  - rewrite H1 by done. cbn [rbind].
    destruct (valid_off b v Hv).
    assert (v_frames b v - fr = 0) as -> by (destruct Hd as [? [?|?]]; lia).
    rewrite Nat.add_0_r, Nat.sub_diag. eexists; done.
  - destruct (H2 Hd) as [p ->]. eexists; done.
Qed.

Lemma set_sample_ok b v ch fr x : wf b → valid_view b v →
  ch + off_ch v < channels b → fr < v_frames b v →
  ∃ b', set_sample b v ch fr x = Ok b' ∧
    rect_fill x (ch + off_ch v) (fr + off_fr v) 1 1 b b'.
Proof.
  intros Hwf Hv Hc Hf.
  destruct (fill_rect_ok b v ch fr 1 1 x Hwf Hv) as (b' & E & H).
  { right. split; [lia|]. right. lia. }
  exists b'. split; [|exact H]. revert E. cbn. unfold set_sample.
  destruct (fill_seg b v ch fr 1 x); cbn; congruence.
Qed.

Lemma set_sample_panics b v ch fr x : wf b → valid_view b v →
  ¬ (ch + off_ch v < channels b ∧ fr < v_frames b v) →
  ∃ p, set_sample b v ch fr x = Panic p.
Proof.
  intros Hwf Hv Hn. unfold set_sample, fill_seg.
  destruct (seg_start_spec b v ch fr 1 Hwf Hv) as [_ H]. destruct H as [p ->]; [|eexists; done].
  intros [H1 H2]. apply Hn. destruct (valid_off b v Hv). split; [|lia]. lia.
Qed.

(** ** New buffers *)
Lemma new_buffer_wf zero n c r : wf (new_buffer zero n c r).
Proof. unfold wf, new_buffer. cbn. rewrite replicate_length. lia. Qed.

Lemma new_buffer_sample zero n c r ch fr :
  sample (new_buffer zero n c r) ch fr =
    if decide (ch < c ∧ fr < n) then Some zero else None.
Proof.
  unfold sample. cbn. case_decide as H; [|done]. apply lookup_replicate_2.
  assert ((ch + 1) * n ≤ c * n) by (apply Nat.mul_le_mono_r; lia). lia.
Qed.

Lemma from_buffer_ok zero (src : owned A) sv : wf src → valid_view src sv →
  ∃ b, from_buffer zero src sv = Ok b ∧ wf b ∧ channels b = v_channels src sv ∧
    frames b = v_frames src sv ∧ rate b = rate src ∧
    ∀ ch fr, ch < v_channels src sv → fr < v_frames src sv →
      sample b ch fr = sample src (ch + off_ch sv) (fr + off_fr sv).
Proof.
  intros Hwf Hv.
  destruct (combine_from_ok (λ s _, s) (new_buffer zero (v_frames src sv) (v_channels src sv) (rate src)) Whole
              src sv 0 0 0 0 (v_channels src sv) (v_frames src sv)) as (b & E & Hw & Hd & Hs).
  - apply new_buffer_wf.
  - done.
  - done.
  - done.
  - by apply fits_all.
  - right. cbn. split; [lia|]. right. lia.
  - exists b. split; [exact E|]. destruct Hd as (Hc & Hf & Hr). cbn in *.
    split; [done|]. split; [done|]. split; [done|]. split; [done|].
    intros ch fr H1 H2. rewrite Hs, decide_True by (unfold in_rect; lia).
    rewrite new_buffer_sample, decide_True, !Nat.sub_0_r by done. cbn.
    destruct (sample src (off_ch sv + ch) (off_fr sv + fr)) eqn:E2; cbn;
      rewrite (Nat.add_comm ch), (Nat.add_comm fr); done.
Qed.

(** *** appending *)
Lemma extended_ok zero b (src : owned A) sv : wf b → wf src → valid_view src sv →
  v_channels src sv = channels b → rate src = rate b →
  ∃ b', extended_with_buffer zero b src sv = Ok b' ∧ wf b' ∧ channels b' = channels b ∧
    frames b' = frames b + v_frames src sv ∧ rate b' = rate b ∧
    ∀ ch fr, ch < channels b →
      sample b' ch fr =
        if decide (fr < frames b) then sample b ch fr
        else if decide (fr < frames b + v_frames src sv)
        then sample src (ch + off_ch sv) (fr - frames b + off_fr sv) else None.
Proof.
  intros Hwb Hws Hv Hc Hr. unfold extended_with_buffer. rewrite Hc, Hr, !Nat.eqb_refl. cbn [rassert].
  destruct (combine_from_ok (λ s _, s)
     (new_buffer zero (frames b + v_frames src sv) (channels b) (rate b)) Whole
     b Whole 0 0 0 0 (channels b) (frames b)) as (b1 & E1 & Hw1 & Hd1 & Hs1).
  { apply new_buffer_wf. } { done. } { done. } { done. }
  { right. cbn. split; [lia|]. right. lia. }
  { right. cbn. split; [lia|]. right. lia. }
  unfold copy_from. rewrite E1. cbn [rbind]. destruct Hd1 as (Hd1c & Hd1f & Hd1r). cbn in *.
  destruct (combine_from_ok (λ s _, s) b1 Whole src sv 0 0 0 (frames b)
     (channels b) (v_frames src sv)) as (b2 & E2 & Hw2 & Hd2 & Hs2).
  { done. } { done. } { done. } { done. }
  { rewrite <-Hc. by apply fits_all. }
  { right. cbn. rewrite Hd1f, Hd1c. split; [lia|]. right. lia. }
  rewrite E2. destruct Hd2 as (Hd2c & Hd2f & Hd2r).
  exists b2. split; [done|]. split; [done|]. split; [congruence|]. split; [congruence|].
  split; [congruence|]. cbn in *. intros ch fr Hch. rewrite Hs2, Hs1, new_buffer_sample.
  destruct (decide (fr < frames b)) as [Hf|Hf].
  - rewrite (decide_False (P := in_rect _ (frames b + 0) _ _ _ _)) by (unfold in_rect; lia).
    rewrite decide_True by (unfold in_rect; lia). rewrite decide_True by lia.
    rewrite !Nat.sub_0_r. cbn. by destruct (sample b ch fr).
  - rewrite (decide_False (P := in_rect 0 0 _ _ _ _)) by (unfold in_rect; lia).
    destruct (decide (fr < frames b + v_frames src sv)) as [Hf2|Hf2].
    + rewrite decide_True by (unfold in_rect; lia). rewrite decide_True by lia.
      rewrite !Nat.add_0_r, !Nat.sub_0_r. cbn.
      rewrite (Nat.add_comm ch), (Nat.add_comm (fr - frames b)). by destruct (sample src _ _).
    + rewrite decide_False by (unfold in_rect; lia). by rewrite decide_False by lia.
Qed.

Lemma extended_panics zero b (src : owned A) sv :
  ¬ (v_channels src sv = channels b ∧ rate src = rate b) →
  extended_with_buffer zero b src sv = Panic AssertFailed.
Proof.
  intros Hn. unfold extended_with_buffer.
  destruct (Nat.eqb_spec (v_channels src sv) (channels b)); cbn [rassert]; [|done].
  destruct (Nat.eqb_spec (rate src) (rate b)); cbn [rassert]; [|done]. tauto.
Qed.

Lemma padded_ok zero b n : wf b → frames b ≤ n →
  ∃ b', padded_to_length zero b n = Ok b' ∧ wf b' ∧ channels b' = channels b ∧
    frames b' = n ∧ rate b' = rate b ∧
    ∀ ch fr, ch < channels b → fr < n →
      sample b' ch fr = if decide (fr < frames b) then sample b ch fr else Some zero.
Proof.
  intros Hwf Hn.
  destruct (combine_from_ok (λ s _, s) (new_buffer zero n (channels b) (rate b)) Whole
     b Whole 0 0 0 0 (channels b) (frames b)) as (b1 & E1 & Hw1 & Hd1 & Hs1).
  { apply new_buffer_wf. } { done. } { done. } { done. }
  { right. cbn. split; [lia|]. right. lia. }
  { right. cbn. split; [lia|]. right. lia. }
  destruct Hd1 as (Hd1c & Hd1f & Hd1r).
  exists b1. split; [exact E1|]. split; [done|]. split; [done|]. split; [done|]. split; [done|].
  intros ch fr H1 H2. cbn in *. rewrite Hs1, new_buffer_sample.
  rewrite (decide_True (P := ch < channels b ∧ fr < n)) by done.
  destruct (decide (fr < frames b)).
  - rewrite decide_True by (unfold in_rect; lia). rewrite !Nat.sub_0_r. cbn.
    by destruct (sample b ch fr).
  - by rewrite decide_False by (unfold in_rect; lia).
Qed.

Lemma padded_panics zero b n : wf b → channels b ≠ 0 → n < frames b →
  ∃ p, padded_to_length zero b n = Panic p.
Proof.
  intros Hwf Hc Hn. apply combine_from_panics; [apply new_buffer_wf|done|done|done|].
  intros [_ [H|[H _]]]; [done|]. cbn in H. lia.
Qed.

(** ** interleaving *)
Lemma seg_zip_snoc (d : list A) st row x :
  st + length row < length d →
  <[st + length row := x]> (seg_zip (λ y _, y) d st row) = seg_zip (λ y _, y) d st (row ++ [x]).
Proof.
  intros H. apply list_eq. intros i.
  assert (Hl : length (seg_zip (λ y (_ : A), y) d st row) = length d) by (apply seg_zip_length; lia).
  rewrite (seg_zip_lookup _ _ _ (row ++ [x])) by (rewrite app_length; cbn; lia).
  rewrite app_length. cbn [length].
  destruct (decide (i = st + length row)) as [->|Hne].
  - rewrite list_lookup_insert by lia. rewrite decide_True by lia.
    rewrite lookup_app_r by lia. replace (st + length row - st - length row) with 0 by lia. cbn.
    destruct (lookup_lt_is_Some_2 d (st + length row)) as [y ->]; [lia|]. done.
  - rewrite list_lookup_insert_ne by done. rewrite seg_zip_lookup by lia.
    destruct (decide (st ≤ i < st + length row)).
    + rewrite decide_True by lia. by rewrite lookup_app_l by lia.
    + by rewrite decide_False by lia.
Qed.

Lemma seg_zip_nil {B} (f : B → A → A) d st : seg_zip f d st [] = d.
Proof.
  unfold seg_zip. cbn. rewrite Nat.add_0_r. apply take_drop.
Qed.

Lemma fill_row_loop b st len (src : list A) cc ch row :
  st + length row ≤ length (data b) → length row ≤ len →
  (∀ j, j < length row → src !! (j * cc + ch) = row !! j) →
  rfold (λ b fr, let? x := runwrap (src !! (fr * cc + ch)) IndexOutOfRange in
                 if fr <? len then Ok (with_data b (<[st + fr := x]> (data b)))
                 else Panic IndexOutOfRange) (seq 0 (length row)) b
  = Ok (with_data b (seg_zip (λ y _, y) (data b) st row)).
Proof.
  induction row as [|x row IH] using rev_ind; intros Hb Hl Hs.
  - cbn [length seq rfold]. rewrite seg_zip_nil. by destruct b.
  - rewrite app_length in *. cbn [length] in *. rewrite Nat.add_1_r, seq_S_end, rfold_app.
    rewrite IH; [|lia|lia|].
    2:{ intros j Hj. rewrite Hs by lia. by rewrite lookup_app_l. }
    cbn [rbind rfold]. rewrite Hs by lia. rewrite lookup_app_r, Nat.sub_diag by lia.
    cbn [lookup list_lookup runwrap rbind].
    destruct (Nat.ltb_spec (length row) len); [|lia]. cbn [rbind]. f_equal.
    unfold with_data. cbn. f_equal. apply seg_zip_snoc. lia.
Qed.

Lemma row_of {X} (g : nat → option X) n : (∀ j, j < n → is_Some (g j)) →
  ∃ row, length row = n ∧ ∀ j, j < n → row !! j = g j.
Proof.
  induction n as [|n IH]; intros H.
  - exists []. split; [done|]. lia.
  - destruct IH as (row & Hl & Hr). { intros. apply H. lia. }
    destruct (H n) as [x Hx]; [lia|]. exists (row ++ [x]). split; [rewrite app_length; cbn; lia|].
    intros j Hj. destruct (decide (j = n)) as [->|].
    + rewrite lookup_app_r, Hl, Nat.sub_diag by lia. by rewrite Hx.
    + rewrite lookup_app_l by lia. apply Hr. lia.
Qed.

Lemma rows_of {X} (g : nat → nat → option X) cc n :
  (∀ i j, i < cc → j < n → is_Some (g i j)) →
  ∃ rows : nat → list X, ∀ i, i < cc → length (rows i) = n ∧ ∀ j, j < n → rows i !! j = g i j.
Proof.
  induction cc as [|cc IH]; intros H.
  - exists (λ _, []). lia.
  - destruct IH as (rows & Hr). { intros. apply H; lia. }
    destruct (row_of (g cc) n) as (row & Hl & Hrow). { intros. apply H; lia. }
    exists (λ i, if decide (i = cc) then row else rows i). intros i Hi.
    destruct (decide (i = cc)) as [->|]; [done|]. apply Hr. lia.
Qed.

Lemma fill_from_interleaved_ok b v (src : list A) n_ch n_fr :
  wf b → valid_view b v →
  let cc := n_ch `min` v_channels b v in let fc := n_fr `min` v_frames b v in
  cc * fc ≤ length src →
  ∃ b', fill_from_interleaved b v src n_ch n_fr = Ok b' ∧
    rect_update (λ x _, x) (λ i j, src !! (j * cc + i)) (off_ch v) (off_fr v) cc fc b b'.
Proof.
  intros Hwf Hv cc fc Hlen.
  assert (Hsrc : ∀ i j, i < cc → j < fc → is_Some (src !! (j * cc + i))).
  { intros i j Hi Hj. apply lookup_lt_is_Some.
    assert ((j + 1) * cc ≤ fc * cc) by (apply Nat.mul_le_mono_r; lia). lia. }
  destruct (rows_of (λ i j, src !! (j * cc + i)) cc fc Hsrc) as (rows & Hrows).
  destruct (rect_loop (λ x _, x) rows b v 0 0 cc fc Hwf Hv) as (b' & E & Hw & Hd & Hs).
  { right. split; [unfold fc; lia|]. right. destruct (valid_off b v Hv). unfold cc. lia. }
  { intros i Hi. by apply Hrows. }
  exists b'. split.
  - rewrite <-E. unfold fill_from_interleaved. fold cc fc.
    assert (Hgen : ∀ l b0, wf b0 → same_dims b b0 → (∀ i, i ∈ l → i < cc) →
      rfold (λ b ch,
        let? (st, en) := locate b v ch 0 in
        rfold (λ b fr, let? x := runwrap (src !! (fr * cc + ch)) IndexOutOfRange in
          if fr <? en - st then Ok (with_data b (<[st + fr := x]> (data b)))
          else Panic IndexOutOfRange) (seq 0 fc) b) l b0 =
      rfold (λ b i, let? st := seg_start b v (0 + i) 0 fc in
                    Ok (with_data b (seg_zip (λ x _, x) (data b) st (rows i)))) l b0).
    { induction l as [|i l IH]; intros b0 Hw0 Hd0 Hl; [done|]. cbn [rfold].
      destruct (same_dims_view b b0 v Hd0) as (Hvf & Hvc & Hvv & _).
      assert (Hi : i < cc) by (apply Hl; set_solver).
      assert (Hcc : cc ≤ v_channels b v) by (unfold cc; lia).
      assert (Hfc : fc ≤ v_frames b v) by (unfold fc; lia).
      destruct (valid_off b v Hv) as [Ho1 Ho2].
      pose proof Hd0 as (Hdc & Hdf & Hdr).
      assert (Hcb : frames b0 = 0 ∨ i + off_ch v < channels b0) by (right; lia).
      rewrite locate_ok by (auto; lia). cbn [rbind].
      destruct (seg_start_spec b0 v (0 + i) 0 fc Hw0 (Hvv Hv)) as [Hst _].
      rewrite Hst by (split; [lia|exact Hcb]). cbn [rbind].
      destruct (Hrows i Hi) as [Hrl Hrj].
      pose proof (seg_bound b0 v i 0 fc Hw0 (Hvv Hv) ltac:(lia) Hcb) as Hb.
      rewrite <-Hrl. rewrite (fill_row_loop b0 _ _ src cc i (rows i)); [|lia|lia|].
      2:{ intros j Hj. symmetry. apply Hrj. lia. }
      cbn [rbind]. rewrite Hrl. apply IH.
      - apply wf_with_data; [|done]. apply seg_zip_length. rewrite Hrl. lia.
      - exact Hd0.
      - intros j Hj. apply Hl. set_solver. }
    apply Hgen; [done|done|]. intros i Hi. apply elem_of_seq in Hi. lia.
  - split; [done|]. split; [done|]. intros ch fr. rewrite Hs. cbn [Nat.add].
    destruct (decide (in_rect _ _ _ _ _ _)) as [Hin|]; [|done]. unfold in_rect in Hin.
    destruct (Hrows (ch - off_ch v)) as [_ Hj]; [lia|]. by rewrite Hj by lia.
Qed.

(** copying out *)
Lemma copy_row_loop (dst cd : list A) cc ch n :
  (∀ j, j < n → j * cc + ch < length dst) → n ≤ length cd → cc ≠ 0 →
  ∃ dst', rfold (λ dst fr, let? x := runwrap (cd !! fr) IndexOutOfRange in
                 if (fr * cc + ch) <? length dst then Ok (<[fr * cc + ch := x]> dst)
                 else Panic IndexOutOfRange) (seq 0 n) dst = Ok dst' ∧
    length dst' = length dst ∧
    (∀ j, j < n → dst' !! (j * cc + ch) = cd !! j) ∧
    (∀ i, (∀ j, j < n → i ≠ j * cc + ch) → dst' !! i = dst !! i).
Proof.
  intros Hd Hcd Hcc. induction n as [|n IH].
  - exists dst. split; [done|]. split; [done|]. split; [lia|done].
  - destruct IH as (d1 & E & Hl & H1 & H2). { intros. apply Hd. lia. } { lia. }
    rewrite seq_S_end, rfold_app, E. cbn [rbind rfold].
    destruct (lookup_lt_is_Some_2 cd n) as [x Hx]; [lia|]. rewrite Hx. cbn [runwrap rbind].
    specialize (Hd n). rewrite Hl. destruct (Nat.ltb_spec (n * cc + ch) (length dst)); [|lia].
    cbn [rbind]. eexists. split; [done|]. split; [by rewrite insert_length|]. split.
    + intros j Hj. destruct (decide (j = n)) as [->|Hne].
      * rewrite list_lookup_insert by lia. done.
      * rewrite list_lookup_insert_ne; [apply H1; lia|]. intros Heq. apply Hne.
        assert (n * cc = j * cc) as Hm by lia. apply Nat.mul_cancel_r in Hm; done.
    + intros i Hi. rewrite list_lookup_insert_ne.
      * apply H2. intros j Hj. apply Hi. lia.
      * intros Heq. apply (Hi n); [lia|done].
Qed.

Lemma copy_to_interleaved_ok b v (dst : list A) n_ch n_fr :
  wf b → valid_view b v →
  let cc := n_ch `min` v_channels b v in let fc := n_fr `min` v_frames b v in
  cc * fc ≤ length dst →
  ∃ dst', copy_to_interleaved b v dst n_ch n_fr = Ok dst' ∧ length dst' = length dst ∧
    (∀ ch fr, ch < cc → fr < fc → dst' !! (fr * cc + ch) = sample b (ch + off_ch v) (fr + off_fr v)) ∧
    (∀ i, cc * fc ≤ i → dst' !! i = dst !! i).
Proof.
  intros Hwf Hv cc fc Hlen.
  assert (Hcc : cc ≤ v_channels b v) by (unfold cc; lia).
  assert (Hfc : fc ≤ v_frames b v) by (unfold fc; lia).
  destruct (valid_off b v Hv) as [Ho1 Ho2].
  unfold copy_to_interleaved. fold cc fc.
  enough (∀ n, n ≤ cc → ∃ dst',
    rfold (λ dst ch,
           let? cd := get_channel_data b v ch 0 in
           rfold (λ dst fr, let? x := runwrap (cd !! fr) IndexOutOfRange in
                    if (fr * cc + ch) <? length dst then Ok (<[fr * cc + ch := x]> dst)
                    else Panic IndexOutOfRange) (seq 0 fc) dst)
        (seq 0 n) dst = Ok dst' ∧ length dst' = length dst ∧
    (∀ ch fr, ch < n → fr < fc → dst' !! (fr * cc + ch) = sample b (ch + off_ch v) (fr + off_fr v)) ∧
    (∀ i, cc * fc ≤ i → dst' !! i = dst !! i)) as H.
  { exact (H cc (le_n _)). }
  induction n as [|n IH]; intros Hn.
  - exists dst. split; [done|]. split; [done|]. split; [lia|done].
  - destruct IH as (d1 & E & Hl & H1 & H2); [lia|].
    rewrite seq_S_end, rfold_app, E. cbn [rbind rfold].
    destruct (get_channel_data_ok b v n 0 Hwf Hv) as (cd & Ecd & Hcdl & Hcd); [lia|right; lia|].
    rewrite Ecd. cbn [rbind].
    destruct (copy_row_loop d1 cd cc n fc) as (d2 & E2 & Hl2 & H3 & H4).
    { intros j Hj. rewrite Hl.
      assert ((j + 1) * cc ≤ fc * cc) by (apply Nat.mul_le_mono_r; lia). lia. }
    { lia. } { lia. }
    rewrite E2. cbn [rbind]. exists d2. split; [done|]. split; [congruence|]. split.
    + intros ch fr Hch Hfr. destruct (decide (ch = n)) as [->|Hne].
      * rewrite H3, Hcd by lia. f_equal. lia.
      * rewrite H4; [apply H1; lia|]. intros j Hj Heq.
        destruct (pos_unique fr ch j n cc) as [_ ?]; lia.
    + intros i Hi. rewrite H4; [by apply H2|]. intros j Hj ->.
      assert ((j + 1) * cc ≤ fc * cc) by (apply Nat.mul_le_mono_r; lia). lia.
Qed.

Lemma interleaved_round_trip b (src dst : list A) :
  wf b → length src = channels b * frames b → length dst = length src →
  ∃ b', fill_from_interleaved b Whole src (channels b) (frames b) = Ok b' ∧ wf b' ∧ same_dims b b' ∧
    copy_to_interleaved b' Whole dst (channels b) (frames b) = Ok src.
Proof.
  intros Hwf Hs Hd.
  destruct (fill_from_interleaved_ok b Whole src (channels b) (frames b) Hwf I)
    as (b' & E & Hw & Hsd & Hsm).
  { cbn. lia. }
  exists b'. split; [done|]. split; [done|]. split; [done|].
  destruct Hsd as (Hc & Hf & Hr).
  destruct (copy_to_interleaved_ok b' Whole dst (channels b) (frames b) Hw I)
    as (dst' & E' & Hl' & H1 & H2).
  { cbn. rewrite Hc, Hf. lia. }
  rewrite E'. f_equal. apply list_eq. intros i. cbn in *. rewrite Hc, Hf, !Nat.min_id in *.
  destruct (decide (i < channels b * frames b)) as [Hi|Hi].
  - assert (channels b ≠ 0) by lia.
    pose proof (Nat.div_mod i (channels b) ltac:(done)) as Hdm.
    pose proof (Nat.mod_upper_bound i (channels b) ltac:(done)) as Hmod.
    assert (Hdiv : i `div` channels b < frames b) by (apply Nat.div_lt_upper_bound; lia).
    specialize (H1 _ _ Hmod Hdiv).
    replace (i `div` channels b * channels b + i `mod` channels b) with i in H1 by lia.
    rewrite H1, Hsm. rewrite !Nat.add_0_r, decide_True by (unfold in_rect; lia).
    rewrite !Nat.sub_0_r.
    replace (i `div` channels b * channels b + i `mod` channels b) with i by lia.
    destruct (proj2 (sample_is_Some b (i `mod` channels b) (i `div` channels b) Hwf)) as [y ->];
      [done|]. cbn. by destruct (src !! i).
  - rewrite !lookup_ge_None_2 by lia. done.
Qed.

(** ** gain *)
Lemma apply_gain_value_ok zero is_zero is_one mul b v r gain : wf b → valid_view b v →
  fits b v (r_channel r) (r_frame r) (r_channels r) (r_frames r) →
  is_zero gain = false → is_one gain = false →
  ∃ b', apply_gain_value zero is_zero is_one mul b v r gain = Ok b' ∧
    rect_update (λ (_ : nat) x, mul x gain) (λ _ j, Some j)
      (r_channel r + off_ch v) (r_frame r + off_fr v) (r_channels r) (r_frames r) b b'.
Proof.
  intros Hwf Hv Hf Hz Ho.
  destruct (rect_loop (λ (_ : nat) x, mul x gain) (λ _, seq 0 (r_frames r)) b v
     (r_channel r) (r_frame r) (r_channels r) (r_frames r) Hwf Hv Hf) as (b' & E & Hw & Hd & Hs).
  { intros. apply seq_length. }
  exists b'. split.
  - rewrite <-E. unfold apply_gain_value. rewrite seq_shift_map. clear E Hw Hd Hs Hf Hwf Hv.
    generalize (seq 0 (r_channels r)). intros l. revert b.
    induction l as [|i l IH]; intros b; [done|]. cbn [map apply_gain_value_loop rfold].
    destruct (seg_start b v (r_channel r + i) (r_frame r) (r_frames r)); cbn [rbind]; [|done].
    rewrite Hz, Ho. apply IH.
  - split; [done|]. split; [done|]. intros ch fr. rewrite Hs.
    destruct (decide (in_rect _ _ _ _ _ _)) as [Hin|]; [|done]. unfold in_rect in Hin.
    rewrite lookup_seq_lt by lia. done.
Qed.

Lemma apply_gain_value_zero zero is_zero is_one mul b v r gain : wf b → valid_view b v →
  fits b v (r_channel r) (r_frame r) (1 `min` r_channels r) (r_frames r) →
  is_zero gain = true →
  ∃ b', apply_gain_value zero is_zero is_one mul b v r gain = Ok b' ∧
    rect_fill zero (r_channel r + off_ch v) (r_frame r + off_fr v)
      (1 `min` r_channels r) (r_frames r) b b'.
Proof.
  intros Hwf Hv Hf Hz.
  destruct (fill_rect_ok b v _ _ _ _ zero Hwf Hv Hf) as (b' & E & H).
  exists b'. split; [|done]. rewrite <-E. unfold apply_gain_value.
  destruct (r_channels r) as [|n]; [done|]. cbn [Nat.min seq apply_gain_value_loop rfold].
  unfold fill_seg. rewrite Hz. by destruct (seg_start _ _ _ _ _).
Qed.

Lemma apply_gain_value_one zero is_zero is_one mul b v r gain : wf b → valid_view b v →
  fits b v (r_channel r) (r_frame r) (1 `min` r_channels r) (r_frames r) →
  is_zero gain = false → is_one gain = true →
  apply_gain_value zero is_zero is_one mul b v r gain = Ok b.
Proof.
  intros Hwf Hv Hf Hz Ho. unfold apply_gain_value.
  destruct (r_channels r) as [|n]; [done|]. cbn [Nat.min seq apply_gain_value_loop] in *.
  destruct (seg_start_spec b v (r_channel r) (r_frame r) (r_frames r) Hwf Hv) as [H _].
  rewrite H. { cbn. by rewrite Hz, Ho. }
  destruct Hf as [?|[H1 H2]]; [done|]. split; [done|]. destruct H2; [by left|right; lia].
Qed.

(** per-frame gain, on every channel *)
Lemma apply_gain_ok zero is_zero is_one mul b v gain : wf b → valid_view b v →
  forallb is_zero gain = false → forallb is_one gain = false →
  ∃ b', apply_gain zero is_zero is_one mul b v gain = Ok b' ∧
    rect_update (λ g x, mul x g) (λ _ j, gain !! j) (off_ch v) (off_fr v)
      (v_channels b v) (v_frames b v `min` length gain) b b'.
Proof.
  intros Hwf Hv Hz Ho. unfold apply_gain. rewrite Hz, Ho.
  destruct (rect_loop (λ g x, mul x g) (λ _, take (v_frames b v) gain) b v 0 0
    (v_channels b v) (v_frames b v `min` length gain) Hwf Hv) as (b' & E & Hw & Hd & Hs).
  { right. split; [lia|]. right. destruct (valid_off b v Hv). lia. }
  { intros i Hi. by rewrite take_length. }
  exists b'. split.
  - rewrite <-E.
    assert (Hgen : ∀ l b0 n, v_frames b0 v = n →
      rfold (λ b ch, let? (st, en) := locate b v ch 0 in
         Ok (with_data b (seg_zip (λ g x, mul x g) (data b) st (take (en - st) gain)))) l b0 =
      rfold (λ b i, let? st := seg_start b v (0 + i) 0 (n `min` length gain) in
         Ok (with_data b (seg_zip (λ g x, mul x g) (data b) st (take n gain)))) l b0).
    { induction l as [|i l IH]; intros b0 n Hn; [done|]. cbn [rfold].
      unfold seg_start at 1. cbn [Nat.add].
      destruct (locate b0 v i 0) as [[st en]|] eqn:El; cbn [rbind]; [|done].
      apply locate_len in El as ->. rewrite Hn.
      replace (st + n - st) with n by lia.
      destruct (Nat.leb_spec (n `min` length gain) n); [|lia]. cbn [rbind].
      apply IH. by rewrite v_frames_with. }
    by apply Hgen.
  - split; [done|]. split; [done|]. intros ch fr. rewrite Hs. cbn [Nat.add].
    destruct (decide (in_rect _ _ _ _ _ _)) as [Hin|]; [|done]. unfold in_rect in Hin.
    rewrite lookup_take by lia. done.
Qed.

(** ** duplicate_channel *)
Lemma duplicate_channel_ok b ch fr to_ch n : wf b →
  ch < channels b → to_ch < channels b → fr + n ≤ frames b →
  ∃ b', duplicate_channel b ch fr to_ch n = Ok b' ∧
    rect_update (λ x _, x) (λ _ j, sample b ch (fr + j)) to_ch fr 1 n b b'.
Proof.
  intros Hwf H1 H2 H3.
  assert (ch * frames b + fr + n ≤ length (data b)).
  { rewrite Hwf. assert ((ch + 1) * frames b ≤ channels b * frames b)
      by (apply Nat.mul_le_mono_r; lia). lia. }
  assert (to_ch * frames b + fr + n ≤ length (data b)).
  { rewrite Hwf. assert ((to_ch + 1) * frames b ≤ channels b * frames b)
      by (apply Nat.mul_le_mono_r; lia). lia. }
  unfold duplicate_channel, data_copy_within.
  rewrite (proj2 (Nat.leb_le _ _)) by lia. rewrite (proj2 (Nat.leb_le (to_ch * _ + _ + _) _)) by lia.
  cbn [andb rbind]. eexists. split; [done|].
  assert (Hl : length (take n (drop (ch * frames b + fr) (data b))) = n).
  { rewrite take_length, drop_length. lia. }
  destruct (write_row (λ x _, x) b to_ch fr (take n (drop (ch * frames b + fr) (data b))))
    as (Hw & Hd & Hs); [done|by left|lia|].
  split; [done|]. split; [done|]. intros c f. rewrite Hs, Hl.
  destruct (decide (in_rect _ _ _ _ _ _)) as [Hin|]; [|done]. unfold in_rect in Hin.
  rewrite lookup_take, lookup_drop by lia. rewrite (sample_lookup b ch) by lia.
  do 2 f_equal. lia.
Qed.

(** ** frame iteration *)
Definition all_locations (cc fc : nat) : list (nat * nat) :=
  ch ← seq 0 cc; pair ch <$> seq 0 fc.

Lemma frame_iter_row fuel cc fc ch fr :
  ch < cc → fr ≤ fc → fc ≠ 0 → fc - fr ≤ fuel →
  frame_iter_collect fuel cc fc (if decide (fr = fc) then (ch + 1, 0) else (ch, fr)) =
  let? l := frame_iter_collect (fuel - (fc - fr)) cc fc (ch + 1, 0) in
  Ok ((pair ch <$> seq fr (fc - fr)) ++ l).
Proof.
  intros Hch. remember (fc - fr) as n eqn:En. revert fr fuel En.
  induction n as [|n IH]; intros fr fuel En Hfr Hfc Hfuel.
  - rewrite decide_True by lia. rewrite Nat.sub_0_r.
    by destruct (frame_iter_collect fuel cc fc (ch + 1, 0)).
  - rewrite decide_False by lia. destruct fuel as [|fuel]; [lia|].
    cbn [frame_iter_collect frame_iter_next Nat.sub].
    rewrite (proj2 (Nat.ltb_lt ch cc)), (proj2 (Nat.ltb_lt fr fc)) by lia. cbn [andb].
    specialize (IH (fr + 1) fuel). rewrite decide_bool_decide in IH.
    replace (if fc <=? fr + 1 then (ch + 1, 0) else (ch, fr + 1))
      with (if decide (fr + 1 = fc) then (ch + 1, 0) else (ch, fr + 1)).
    2:{ destruct (Nat.leb_spec fc (fr + 1)); [by rewrite decide_True by lia|by rewrite decide_False by lia]. }
    rewrite decide_bool_decide. rewrite IH by lia. cbn [seq fmap list_fmap].
    replace (fr + 1) with (S fr) by lia.
    destruct (frame_iter_collect (fuel - n) cc fc (ch + 1, 0)); done.
Qed.

Lemma frame_iter_rows fuel cc fc ch n :
  fc ≠ 0 → ch + n = cc → n * fc < fuel →
  frame_iter_collect fuel cc fc (ch, 0) = Ok (ch ← seq ch n; pair ch <$> seq 0 fc).
Proof.
  intros Hfc. revert ch fuel. induction n as [|n IH]; intros ch fuel Hch Hfuel.
  - destruct fuel as [|fuel]; [lia|]. cbn [frame_iter_collect frame_iter_next].
    by rewrite (proj2 (Nat.ltb_ge ch cc)) by lia.
  - pose proof (frame_iter_row fuel cc fc ch 0) as Hrow. rewrite decide_False in Hrow by lia.
    rewrite Hrow by lia. rewrite Nat.sub_0_r.
    rewrite IH by lia. cbn [rbind seq mbind list_bind]. by rewrite Nat.add_1_r.
Qed.

Lemma frame_iter_all b v : frame_iter b v = Ok (all_locations (v_channels b v) (v_frames b v)).
Proof.
  unfold frame_iter, all_locations. set (cc := v_channels b v). set (fc := v_frames b v).
  destruct (decide (fc = 0)) as [->|Hfc].
  - rewrite Nat.mul_0_r. cbn. rewrite andb_false_r. f_equal.
    induction (seq 0 cc); [done|]. cbn. done.
  - apply frame_iter_rows; [done|lia|lia].
Qed.

Lemma elem_of_all_locations cc fc ch fr :
  (ch, fr) ∈ all_locations cc fc ↔ ch < cc ∧ fr < fc.
Proof.
  unfold all_locations. rewrite elem_of_list_bind. split.
  - intros (c & H1 & H2). apply elem_of_list_fmap in H1 as (f & [= <- <-] & H1).
    apply elem_of_seq in H1, H2. lia.
  - intros [H1 H2]. exists ch. split; [|apply elem_of_seq; lia].
    apply elem_of_list_fmap. exists fr. split; [done|]. apply elem_of_seq. lia.
Qed.

Lemma NoDup_all_locations cc fc : NoDup (all_locations cc fc).
Proof.
  unfold all_locations. assert (H : NoDup (seq 0 cc)) by apply NoDup_seq.
  induction H as [|c l Hc Hl IH]; [constructor|]. cbn. apply NoDup_app. split; [|split].
  - apply NoDup_fmap_2; [|apply NoDup_seq]. by intros ?? [=].
  - intros [c' f'] H1 H2. apply elem_of_list_fmap in H1 as (? & [= -> ->] & _).
    apply elem_of_list_bind in H2 as (c2 & H2 & H3).
    apply elem_of_list_fmap in H2 as (? & [= -> ->] & _). done.
  - exact IH.
Qed.

(** ** from_slice *)
Lemma from_slice_one zero (l : list A) r :
  ∃ b, from_slice zero l 1 r = Ok b ∧ wf b ∧ channels b = 1 ∧ frames b = length l ∧ rate b = r ∧
    data b = l.
Proof.
  unfold from_slice. cbn [seq rfold rbind].
  set (b0 := new_buffer zero (length l) 1 r).
  assert (Hwf : wf b0) by apply new_buffer_wf.
  unfold fill_from_slice. rewrite (locate_ok b0 Whole 0 0 Hwf I) by (cbn; lia).
  cbn [rbind off_ch off_fr]. cbn [v_frames b0 new_buffer frames].
  replace ((0 + 0) * length l + (0 + 0) + (length l - 0) - ((0 + 0) * length l + (0 + 0)))
    with (length l) by lia. rewrite Nat.eqb_refl. cbn [rbind].
  assert (Hlen : length (data b0) = length l). { rewrite Hwf. cbn. lia. }
  eexists. split; [done|]. split; [|split; [done|split; [done|split; [done|]]]].
  - apply wf_with_data; [|done]. apply seg_zip_length. lia.
  - cbn [data with_data]. unfold seg_zip. change ((0 + 0) * length l + (0 + 0)) with 0. 
    rewrite take_0, drop_0. cbn [app]. rewrite (take_ge (data b0) (length l)) by lia.
    cbn [Nat.add]. rewrite (drop_ge (data b0) (length l)) by lia. rewrite app_nil_r.
    revert Hlen. generalize (data b0). clear. intros d. revert d.
    induction l as [|x l IH]; intros [|y d] H; cbn in *; try lia; [done|]. f_equal. apply IH. lia.
Qed.

Lemma from_slice_multi zero (l : list A) n r : l ≠ [] → 2 ≤ n →
  ∃ p, from_slice zero l n r = Panic p.
Proof.
  intros Hl Hn. destruct n as [|[|n]]; [lia|lia|].
  destruct (from_slice_one zero l r) as (b & E & Hwf & Hc & Hf & _).
  unfold from_slice in *. cbn [seq] in *. cbn [rfold] in *.
  destruct (fill_from_slice (new_buffer zero (length l) 1 r) Whole l 0 0) as [b1|p];
    cbn [rbind] in *; [|done]. injection E as ->.
  unfold fill_from_slice.
  destruct (locate_spec b Whole 1 0 Hwf I) as [_ H]. destruct H as [p ->]; [|eexists; done].
  cbn. rewrite Hc, Hf. intros [_ [H|H]]; [|lia]. by apply nil_length_inv in H.
Qed.

(** ** slices *)
Lemma slice_spec b v r : valid_view b v →
  (∀ v', slice b v r = Ok v' → v' = Sub v r ∧ valid_view b v') ∧
  (∀ p, slice b v r = Panic p → p = AssertFailed ∧
     ¬ (r_channel r + r_channels r ≤ v_channels b v ∧ r_frame r + r_frames r ≤ v_frames b v)).
Proof.
  intros Hv. unfold slice, rassert, range_is_valid.
  destruct (Nat.leb_spec (r_channel r + r_channels r) (v_channels b v));
  destruct (Nat.leb_spec (r_frame r + r_frames r) (v_frames b v)); cbn;
  split; intros ? [= <-]; (split; [done|]; try lia; done).
Qed.

(** ** The properties in their final form *)
Lemma in_rect_sample b v c0 f0 cc fc ch fr : wf b → valid_view b v → fits b v c0 f0 cc fc →
  in_rect (c0 + off_ch v) (f0 + off_fr v) cc fc ch fr → is_Some (sample b ch fr).
Proof.
  intros Hwf Hv Hf Hin. apply sample_is_Some; [done|]. unfold in_rect, fits in *.
  destruct (valid_off b v Hv). destruct Hf as [?|[? [?|?]]]; lia.
Qed.

Lemma copy_exactly_region (dst : owned A) dv (src : owned A) sv sc sf dc df cc fc :
  wf dst → valid_view dst dv → wf src → valid_view src sv →
  (fits src sv sc sf cc fc ∧ fits dst dv dc df cc fc →
    ∃ dst', copy_from dst dv src sv sc sf dc df cc fc = Ok dst' ∧
      wf dst' ∧ same_dims dst dst' ∧
      ∀ ch fr, sample dst' ch fr =
        if decide (in_rect (dc + off_ch dv) (df + off_fr dv) cc fc ch fr)
        then sample src (sc + off_ch sv + (ch - (dc + off_ch dv)))
                        (sf + off_fr sv + (fr - (df + off_fr dv)))
        else sample dst ch fr) ∧
  (¬ (fits src sv sc sf cc fc ∧ fits dst dv dc df cc fc) →
    ∃ p, copy_from dst dv src sv sc sf dc df cc fc = Panic p).
Proof.
  intros Hwd Hvd Hws Hvs. split; [|by apply combine_from_panics].
  intros [Hfs Hfd].
  destruct (combine_from_ok (λ s _, s) dst dv src sv sc sf dc df cc fc) as (dst' & E & Hw & Hd & Hs);
    try done.
  exists dst'. split; [exact E|]. split; [done|]. split; [done|]. intros ch fr. rewrite Hs.
  destruct (decide (in_rect _ _ _ _ _ _)) as [Hin|]; [|done].
  destruct (in_rect_sample dst dv dc df cc fc ch fr Hwd Hvd Hfd Hin) as [y ->]. cbn.
  by destruct (sample src _ _).
Qed.

Lemma mix_exactly_region (f : A → A → A) (op : owned A → res (owned A))
    (dst : owned A) dv (src : owned A) sv sc sf dc df cc fc :
  (∀ dst, op dst = if (fc =? 0) || (cc =? 0) then Ok dst
     else combine_from f dst dv src sv sc sf dc df cc fc) →
  wf dst → valid_view dst dv → wf src → valid_view src sv →
  (cc = 0 ∨ fc = 0 → op dst = Ok dst) ∧
  (cc ≠ 0 ∧ fc ≠ 0 ∧ fits src sv sc sf cc fc ∧ fits dst dv dc df cc fc →
    ∃ dst', op dst = Ok dst' ∧
      wf dst' ∧ same_dims dst dst' ∧
      ∀ ch fr, sample dst' ch fr =
        if decide (in_rect (dc + off_ch dv) (df + off_fr dv) cc fc ch fr)
        then s ← sample src (sc + off_ch sv + (ch - (dc + off_ch dv)))
                            (sf + off_fr sv + (fr - (df + off_fr dv)));
             d ← sample dst ch fr; Some (f s d)
        else sample dst ch fr) ∧
  (cc ≠ 0 ∧ fc ≠ 0 ∧ ¬ (fits src sv sc sf cc fc ∧ fits dst dv dc df cc fc) →
    ∃ p, op dst = Panic p).
Proof.
  intros Hop Hwd Hvd Hws Hvs. rewrite !Hop. split; [|split].
  - intros [->| ->]; [by rewrite orb_true_r|done].
  - intros (Hc & Hf & Hfs & Hfd).
    rewrite (proj2 (Nat.eqb_neq fc 0)), (proj2 (Nat.eqb_neq cc 0)) by done. cbn [orb].
    destruct (combine_from_ok f dst dv src sv sc sf dc df cc fc) as (dst' & E & Hw & Hd & Hs);
      try done.
    exists dst'. split; [exact E|]. split; [done|]. split; [done|]. intros ch fr. rewrite Hs.
    destruct (decide (in_rect _ _ _ _ _ _)) as [Hin|]; [|done].
    destruct (sample src _ _); [|done]. cbn. by destruct (sample dst ch fr).
  - intros (Hc & Hf & Hn).
    rewrite (proj2 (Nat.eqb_neq fc 0)), (proj2 (Nat.eqb_neq cc 0)) by done. cbn [orb].
    by apply combine_from_panics.
Qed.

Lemma slice_translates b v r v' ch fr x : wf b → valid_view b v → slice b v r = Ok v' →
  valid_view b v' ∧ v_channels b v' = r_channels r ∧ v_frames b v' = r_frames r ∧
  (fr < r_frames r →
     get_sample b v' ch fr = get_sample b v (ch + r_channel r) (fr + r_frame r) ∧
     set_sample b v' ch fr x = set_sample b v (ch + r_channel r) (fr + r_frame r) x) ∧
  (r_frames r ≤ fr →
     (∃ p, get_sample b v' ch fr = Panic p) ∧ (∃ p, set_sample b v' ch fr x = Panic p)).
Proof.
  intros Hwf Hv Hsl. destruct (slice_spec b v r Hv) as [Hok _].
  destruct (Hok _ Hsl) as [-> Hv']. split; [done|]. split; [done|]. split; [done|]. split.
  - intros Hfr. pose proof Hv' as (_ & Hrc & Hrf). destruct (valid_off b v Hv) as [Ho1 Ho2].
    destruct (decide (ch + r_channel r + off_ch v < channels b)) as [Hc|Hc].
    + assert (is_Some (sample b (ch + r_channel r + off_ch v) (fr + r_frame r + off_fr v))) as [y Hy].
      { apply sample_is_Some; [done|]. lia. }
      split.
      * rewrite (proj2 (get_sample_ok b v (ch + r_channel r) (fr + r_frame r) y Hwf Hv Hc ltac:(lia)))
          by done.
        apply get_sample_ok; [done|done|cbn; lia|cbn; lia|]. rewrite <-Hy. cbn. f_equal; lia.
      * unfold set_sample, fill_seg.
        destruct (seg_start_spec b (Sub v r) ch fr 1 Hwf Hv') as [H1 _].
        destruct (seg_start_spec b v (ch + r_channel r) (fr + r_frame r) 1 Hwf Hv) as [H2 _].
        rewrite H1 by (cbn; split; [lia|right; lia]).
        rewrite H2 by (split; [lia|right; lia]). cbn [rbind off_ch off_fr].
        replace (ch + (off_ch v + r_channel r)) with (ch + r_channel r + off_ch v) by lia.
        replace (fr + (off_fr v + r_frame r)) with (fr + r_frame r + off_fr v) by lia. done.
    + assert (Hz : frames b ≠ 0) by lia.
      unfold get_sample, set_sample, fill_seg, get_channel_data, seg_start.
      cbn [locate].
      destruct (locate_spec b v (ch + r_channel r) (fr + r_frame r) Hwf Hv) as [_ H].
      destruct H as [p ->]; [tauto|]. done.
  - intros Hfr. split; [apply get_sample_panics|apply set_sample_panics]; cbn; try done; lia.
Qed.

Lemma frame_iter_exactly_once b v : ∃ l, frame_iter b v = Ok l ∧ NoDup l ∧
  ∀ ch fr, (ch, fr) ∈ l ↔ ch < v_channels b v ∧ fr < v_frames b v.
Proof.
  eexists. split; [apply frame_iter_all|]. split; [apply NoDup_all_locations|].
  intros. apply elem_of_all_locations.
Qed.

Lemma apply_gain_value_general zero is_zero is_one mul b v r gain : wf b → valid_view b v →
  fits b v (r_channel r) (r_frame r) (r_channels r) (r_frames r) →
  ∃ b', apply_gain_value zero is_zero is_one mul b v r gain = Ok b' ∧ wf b' ∧ same_dims b b' ∧
    ∀ ch fr, sample b' ch fr =
      if is_zero gain then
        if decide (in_rect (r_channel r + off_ch v) (r_frame r + off_fr v)
                     (1 `min` r_channels r) (r_frames r) ch fr)
        then (λ _, zero) <$> sample b ch fr else sample b ch fr
      else if is_one gain then sample b ch fr
      else
        if decide (in_rect (r_channel r + off_ch v) (r_frame r + off_fr v)
                     (r_channels r) (r_frames r) ch fr)
        then (λ x, mul x gain) <$> sample b ch fr else sample b ch fr.
Proof.
  intros Hwf Hv Hf.
  assert (Hf1 : fits b v (r_channel r) (r_frame r) (1 `min` r_channels r) (r_frames r))
    by (eapply fits_le; [|done]; lia).
  destruct (is_zero gain) eqn:Hz; [|destruct (is_one gain) eqn:Ho].
  - destruct (apply_gain_value_zero zero is_zero is_one mul b v r gain) as (b' & E & Hw & Hd & Hs);
      try done. by exists b'.
  - exists b. split; [by apply apply_gain_value_one|]. done.
  - destruct (apply_gain_value_ok zero is_zero is_one mul b v r gain) as (b' & E & Hw & Hd & Hs);
      try done. exists b'. split; [done|]. split; [done|]. split; [done|]. intros. rewrite Hs. done.
Qed.

Lemma apply_gain_general zero is_zero is_one mul b v gain : wf b → valid_view b v →
  (∀ g, is_zero g = true → ∀ x, mul x g = zero) → (∀ g, is_one g = true → ∀ x, mul x g = x) →
  length gain = v_frames b v →
  ∃ b', apply_gain zero is_zero is_one mul b v gain = Ok b' ∧ wf b' ∧ same_dims b b' ∧
    ∀ ch fr, sample b' ch fr =
      if decide (in_rect (off_ch v) (off_fr v) (v_channels b v) (v_frames b v) ch fr)
      then g ← gain !! (fr - off_fr v); x ← sample b ch fr; Some (mul x g)
      else sample b ch fr.
Proof.
  intros Hwf Hv Hz Ho Hl.
  destruct (forallb is_zero gain) eqn:Ez; [|destruct (forallb is_one gain) eqn:Eo].
  - unfold apply_gain, clear. rewrite Ez.
    destruct (fill_with_value_ok b v zero Hwf Hv) as (b' & E & Hw & Hd & Hs).
    exists b'. split; [done|]. split; [done|]. split; [done|]. intros ch fr. rewrite Hs.
    destruct (decide (in_rect _ _ _ _ _ _)) as [Hin|]; [|done]. unfold in_rect in Hin.
    destruct (lookup_lt_is_Some_2 gain (fr - off_fr v)) as [g Hg]; [lia|]. rewrite Hg. cbn.
    destruct (sample b ch fr) as [x|]; [|done]. cbn. rewrite Hz; [done|].
    rewrite forallb_forall in Ez. apply Ez. apply elem_of_list_In. by eapply elem_of_list_lookup_2.
  - unfold apply_gain. rewrite Ez, Eo. exists b. split; [done|]. split; [done|]. split; [done|].
    intros ch fr. destruct (decide (in_rect _ _ _ _ _ _)) as [Hin|]; [|done]. unfold in_rect in Hin.
    destruct (lookup_lt_is_Some_2 gain (fr - off_fr v)) as [g Hg]; [lia|]. rewrite Hg. cbn.
    destruct (sample b ch fr) as [x|]; [|done]. cbn. rewrite Ho; [done|].
    rewrite forallb_forall in Eo. apply Eo. apply elem_of_list_In. by eapply elem_of_list_lookup_2.
  - destruct (apply_gain_ok zero is_zero is_one mul b v gain) as (b' & E & Hw & Hd & Hs); try done.
    exists b'. split; [done|]. split; [done|]. split; [done|]. intros ch fr. rewrite Hs, Hl, Nat.min_id.
    destruct (decide (in_rect _ _ _ _ _ _)) as [Hin|]; [|done].
    destruct (gain !! _); [|done]. cbn. by destruct (sample b ch fr).
Qed.

Lemma interleaved_fill b v (src : list A) n_ch n_fr : wf b → valid_view b v →
  n_ch ≤ v_channels b v → n_fr ≤ v_frames b v → n_ch * n_fr ≤ length src →
  ∃ b', fill_from_interleaved b v src n_ch n_fr = Ok b' ∧ wf b' ∧ same_dims b b' ∧
    ∀ ch fr, sample b' ch fr =
      if decide (in_rect (off_ch v) (off_fr v) n_ch n_fr ch fr)
      then src !! ((fr - off_fr v) * n_ch + (ch - off_ch v))
      else sample b ch fr.
Proof.
  intros Hwf Hv Hc Hf Hl.
  destruct (fill_from_interleaved_ok b v src n_ch n_fr Hwf Hv) as (b' & E & Hw & Hd & Hs).
  { rewrite !Nat.min_l by done. done. }
  exists b'. split; [done|]. split; [done|]. split; [done|]. intros ch fr. rewrite Hs.
  rewrite !Nat.min_l by done.
  destruct (decide (in_rect _ _ _ _ _ _)) as [Hin|]; [|done].
  assert (is_Some (sample b ch fr)) as [y ->].
  { apply sample_is_Some; [done|]. unfold in_rect in Hin. destruct (valid_off b v Hv). lia. }
  by destruct (src !! _).
Qed.

Lemma interleaved_copy b v (dst : list A) n_ch n_fr : wf b → valid_view b v →
  n_ch ≤ v_channels b v → n_fr ≤ v_frames b v → n_ch * n_fr ≤ length dst →
  ∃ dst', copy_to_interleaved b v dst n_ch n_fr = Ok dst' ∧ length dst' = length dst ∧
    (∀ ch fr, ch < n_ch → fr < n_fr →
       dst' !! (fr * n_ch + ch) = sample b (ch + off_ch v) (fr + off_fr v)) ∧
    (∀ i, n_ch * n_fr ≤ i → dst' !! i = dst !! i).
Proof.
  intros Hwf Hv Hc Hf Hl.
  pose proof (copy_to_interleaved_ok b v dst n_ch n_fr Hwf Hv) as H. cbn zeta in H.
  rewrite !Nat.min_l in H by done. by apply H.
Qed.

Lemma mutable_slice_channels_ok b v off n v' :
  mutable_slice_channels b v off n = Ok v' →
  v' = Sub v (Range off 0 n (v_frames b v)) ∧ v_channels b v' = n ∧ v_frames b v' = v_frames b v.
Proof.
  unfold mutable_slice_channels, slice, rassert. destruct (range_is_valid _ _ _); [|done].
  by intros [= <-].
Qed.

Lemma borrowed_slice_channels_swapped b v off n v' :
  borrowed_slice_channels b v off n = Ok v' →
  v_channels b v' = v_frames b v ∧ v_frames b v' = n.
Proof.
  unfold borrowed_slice_channels, slice, rassert. destruct (range_is_valid _ _ _); [|done].
  by intros [= <-].
Qed.

End proofs.

(** ** Witnesses *)
(** two channels, three frames *)
Definition buf23 : owned nat := Owned [1; 2; 3; 4; 5; 6] 2 3 100.

Lemma slice_channels_refuted : ∃ (b : owned nat) off n, wf b ∧ off + n ≤ channels b ∧
  borrowed_slice_channels b Whole off n = Panic AssertFailed.
Proof. exists buf23, 0, 1. repeat split; cbn; lia. Qed.

Lemma slice_isolation_refuted : ∃ (b : owned nat) r v' ch x, wf b ∧ slice b Whole r = Ok v' ∧
  v_channels b v' ≤ ch ∧ get_sample b v' ch 0 = Ok x.
Proof. exists buf23, (Range 0 0 1 3), (Sub Whole (Range 0 0 1 3)), 1, 4. split; [done|]. split; [done|]. split; [done|]. reflexivity. Qed.

Lemma interleave_refuted : ∃ (b b' : owned nat) src n_ch n_fr ch fr, wf b ∧
  channels b < n_ch ∧ n_fr = frames b ∧ length src = n_ch * n_fr ∧
  fill_from_interleaved b Whole src n_ch n_fr = Ok b' ∧ ch < channels b ∧ fr < n_fr ∧
  sample b' ch fr ≠ src !! (fr * n_ch + ch).
Proof.
  exists (Owned [0; 0] 1 2 100), (Owned [10; 20] 1 2 100), [10; 20; 11; 21], 2, 2, 0, 1.
  repeat split; try reflexivity; try (cbn; lia). cbv. done.
Qed.

Lemma gain_zero_refuted : ∃ (b b' : owned nat) ch fr x, wf b ∧
  apply_gain_value 0 (Nat.eqb 0) (Nat.eqb 1) Nat.mul b Whole (Range 0 0 (channels b) (frames b)) 0
    = Ok b' ∧ sample b ch fr = Some x ∧ sample b' ch fr ≠ Some (x * 0).
Proof.
  exists buf23, (Owned [0; 0; 0; 4; 5; 6] 2 3 100), 1, 0, 4.
  repeat split; try reflexivity. cbv. done.
Qed.

Lemma from_slice_refuted : ∃ (l : list nat) n r, n ≠ 0 ∧ ∃ p, from_slice 0 l n r = Panic p.
Proof. exists [1; 2], 2, 100. split; [done|]. eexists. reflexivity. Qed.
