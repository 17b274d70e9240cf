From stdpp Require Import list list_numbers.
From Coq Require Import Reals Lra Lia.
From Verif Require Import Base Buffer BufferSpec BufferProofs EffectSpec EffectProofs Envelope EnvelopeSpec EnvelopeProofs EnvelopeNode.
From Verif Require Import Effect Mixer MixerR MixerSpec MixerProofs GainProofs Level LevelProofs Compressor CompressorSpec CompressorProofs.
Local Open Scope R_scope.

Lemma finite_wf b : wf b → wf (finite_buffer b).
Proof. unfold wf, finite_buffer. cbn. by rewrite fmap_length. Qed.
Lemma finite_channels b v : v_channels (finite_buffer b) v = v_channels b v.
Proof. by destruct v. Qed.
Lemma finite_frames b v : v_frames (finite_buffer b) v = v_frames b v.
Proof. by destruct v. Qed.
Lemma finite_valid b v : valid_view b v → valid_view (finite_buffer b) v.
Proof. induction v as [|v IH r]; cbn [valid_view]; [done|]. rewrite finite_channels, finite_frames. intuition. Qed.
Lemma finite_seen b v ch fr : seen (finite_buffer b) v ch fr = Some <$> seen b v ch fr.
Proof.
  unfold seen. rewrite finite_channels, finite_frames. case_decide; [|done]. unfold sample. cbn [channels frames data finite_buffer].
  case_decide; [|done]. by rewrite list_lookup_fmap.
Qed.

Local Notation gainedO := (gained (Some 0) (nan_close 0) (nan_close 1) nan_mul).
Lemma close_small g c : (c = 0 ∨ c = 1) → nan_close c (Some g) = true → Rabs (g - c) <= / 2 ^ 22.
Proof. intros Hc H. by apply close32_bound. Qed.
Lemma gainedO_some gain fr g x : gain !! fr = Some (Some g) → ∃ z, gainedO gain fr (Some x) = Some z ∧ Rabs (z - x * g) <= / 2 ^ 22 * Rabs x.
Proof.
  intros Hg. unfold gained. assert (0 < / 2 ^ 22) by lra. pose proof (Rabs_pos x).
  destruct (forallb (nan_close 0) gain) eqn:Ez; [|destruct (forallb (nan_close 1) gain) eqn:Eo].
  - eexists. split; [done|]. pose proof (forallb_lookup _ _ _ _ Ez Hg) as Hc. apply close_small in Hc; [|by left]. rewrite Rminus_0_r in Hc.
    replace (0 - x * g) with (- (g * x)) by ring. rewrite Rabs_Ropp, Rabs_mult. apply Rmult_le_compat_r; lra.
  - eexists. split; [done|]. pose proof (forallb_lookup _ _ _ _ Eo Hg) as Hc. apply close_small in Hc; [|by right].
    replace (x - x * g) with (- ((g - 1) * x)) by ring. rewrite Rabs_Ropp, Rabs_mult. apply Rmult_le_compat_r; lra.
  - rewrite Hg. cbn. eexists. split; [done|]. replace (x * g - x * g) with 0 by ring. rewrite Rabs_R0. apply Rmult_le_pos; lra.
Qed.
Lemma gainedO_none gain fr x : gain !! fr = Some None → gainedO gain fr x = None.
Proof.
  intros Hg. unfold gained. destruct (forallb (nan_close 0) gain) eqn:Ez; [|destruct (forallb (nan_close 1) gain) eqn:Eo].
  - by pose proof (forallb_lookup _ _ _ _ Ez Hg).
  - by pose proof (forallb_lookup _ _ _ _ Eo Hg).
  - rewrite Hg. cbn. unfold nan_mul. by destruct x.
Qed.
Lemma gainedO_nan (wet : list R) fr w : w ∈ wet → / 2 ^ 22 < Rabs w → gainedO (Some <$> wet) fr None = None.
Proof.
  intros Hw H. unfold gained. destruct (forallb (nan_close 0) _) eqn:Ez.
  - apply (elem_of_list_fmap_1 Some) in Hw. apply elem_of_list_lookup_1 in Hw as [i Hi].
    pose proof (forallb_lookup _ _ _ _ Ez Hi) as Hc. apply close_small in Hc; [|by left]. rewrite Rminus_0_r in Hc. lra.
  - destruct (forallb (nan_close 1) _); [done|]. destruct ((Some <$> wet) !! fr); reflexivity.
Qed.
Lemma gainedO_zero (wet : list R) fr x : Forall (λ w, w = 0) wet → gainedO (Some <$> wet) fr x = Some 0.
Proof.
  intros H. unfold gained. assert (forallb (nan_close 0) (Some <$> wet) = true) as ->; [|done].
  apply forallb_forall. intros y Hy. apply elem_of_list_In, elem_of_list_fmap in Hy as (w & -> & Hw).
  rewrite Forall_forall in H. rewrite (H w Hw). cbn. unfold close32R. destruct (Rle_dec _ _) as [|Hn]; [done|]. exfalso. apply Hn.
  rewrite Rminus_0_r, Rabs_R0. unfold eps32R. lra.
Qed.

(** what the chain of stages computes for a sample *)
Definition chain (gains : list (option R)) (wet dry : list R) (fr : nat) (x : R) : option R :=
  nan_add (gainedO (Some <$> wet) fr (gainedO gains fr (Some x))) ((λ d, x * d) <$> dry !! fr).
Lemma chain_some gains wet dry fr x g w d : gains !! fr = Some (Some g) → wet !! fr = Some w → dry !! fr = Some d → 0 <= g <= 1 →
  ∃ z, chain gains wet dry fr x = Some z ∧ Rabs (z - x * (g * w + d)) <= / 2 ^ 22 * (Rabs w + 2) * Rabs x.
Proof.
  intros Hg Hw Hd Hu. unfold chain. destruct (gainedO_some gains fr g x Hg) as (z1 & E1 & B1). rewrite E1.
  destruct (gainedO_some (Some <$> wet) fr w z1) as (z2 & E2 & B2); [by rewrite list_lookup_fmap, Hw|]. rewrite E2, Hd. cbn [fmap option_fmap option_map nan_add mbind option_bind]. eexists. split; [done|].
  set (e := / 2 ^ 22) in *. assert (0 < e <= 1) by (unfold e; lra).
  replace (z2 + x * d - x * (g * w + d)) with ((z2 - z1 * w) + (z1 - x * g) * w) by ring.
  eapply Rle_trans; [apply Rabs_triang|]. rewrite Rabs_mult. pose proof (Rabs_pos x). pose proof (Rabs_pos w).
  assert (Hz : Rabs z1 <= 2 * Rabs x).
  { replace z1 with ((z1 - x * g) + x * g) by ring. eapply Rle_trans; [apply Rabs_triang|]. rewrite Rabs_mult, (Rabs_right g) by lra.
    assert (Rabs x * g <= Rabs x * 1) by (apply Rmult_le_compat_l; lra). assert (e * Rabs x <= 1 * Rabs x) by (apply Rmult_le_compat_r; lra). lra. }
  assert (e * Rabs z1 <= e * (2 * Rabs x)) by (apply Rmult_le_compat_l; lra).
  assert (Rabs (z1 - x * g) * Rabs w <= e * Rabs x * Rabs w) by (by apply Rmult_le_compat_r). clearbody e. rewrite Rmult_plus_distr_l, Rmult_plus_distr_r. lra.
Qed.
Lemma chain_none gains wet dry fr x w : gains !! fr = Some None → w ∈ wet → / 2 ^ 22 < Rabs w → chain gains wet dry fr x = None.
Proof. intros Hg Hw H. unfold chain. rewrite (gainedO_none gains) by done. by rewrite (gainedO_nan wet fr w). Qed.
Lemma chain_dry gains wet dry fr x d : Forall (λ w, w = 0) wet → dry !! fr = Some d → chain gains wet dry fr x = Some (x * d).
Proof. intros Hw Hd. unfold chain. rewrite gainedO_zero, Hd by done. cbn. f_equal. ring. Qed.

Section block.
  Context (n limit : nat) (b : cblock) (Hb : cblock_ok n limit b) (Hn : n ≠ 0%nat).
  Local Notation p := (cb_params b).
  Local Notation F := (cframes b).

  Lemma dry_ok (out : owned (option R)) : wf out → same_dims (cb_out b) out →
    ∃ out', process_dry p (cb_in b) (cb_iv b) out (cb_ov b) = Ok out' ∧
      written out (cb_ov b) out' (λ ch fr x y, ∃ s d, seen (cb_in b) (cb_iv b) ch fr = Some s ∧ p_dry p !! fr = Some d ∧ y = nan_add x (Some (s * d))).
  Proof.
    intros Hw Hd. destruct Hb as (Hwi & Hvi & Hwo & Hvo & Hci & Hco & Hfi & HF & Hpl & _).
    destruct (same_dims_view _ _ (cb_ov b) Hd) as (Ef & Ec & Hv & _). specialize (Hv Hvo).
    assert (Hr : ∀ ch, (ch < n)%nat → get_channel_data (cb_in b) (cb_iv b) ch 0 = Ok (row_of (cb_in b, cb_iv b) ch)).
    { intros ch Hch. apply (row_data (cb_in b, cb_iv b)); [done|done|cbn; lia]. }
    destruct (zip_channels_ok (λ (y : R) (x : option R), nan_add x (Some y)) (λ ch, let? l := get_channel_data (cb_in b) (cb_iv b) ch 0 in Ok (zip_with Rmult l (p_dry p)))
      (cb_ov b) n out Hw Hv) as (out' & E & W); [lia| |].
    { intros ch Hch. rewrite Hr by done. by eexists. }
    exists out'. split.
    - rewrite <-E. unfold process_dry, zip_channels. rewrite Ec, Hco. apply rfold_ext. intros o ch Hin. apply elem_of_seq in Hin.
      rewrite Hr by lia. cbn [rbind]. destruct (locate o (cb_ov b) ch 0) as [[st en]|]; done.
    - eapply written_mono; [exact W|]. cbn beta. intros ch fr x y Hch Hfr. rewrite decide_True by lia. intros (l & El & ->).
      rewrite Hr in El by lia. cbn [rbind] in El. injection El as <-.
      destruct (seen_some (cb_in b) (cb_iv b) ch fr Hwi Hvi) as [s Hs]; [lia|unfold cframes in Hfi; lia|]. rewrite <-seen_eq in Hs by (unfold cframes in Hfi; lia).
      destruct (lookup_lt_is_Some_2 (p_dry p) fr) as [d Hdr]; [rewrite Hpl by (repeat constructor); unfold cframes; lia|].
      exists s, d. split; [done|]. split; [done|].
      assert (Hrow : row_of (cb_in b, cb_iv b) ch !! fr = Some s).
      { unfold row_of. rewrite list_lookup_fmap, lookup_seq_lt by (unfold cframes in Hfi; cbn; lia). cbn. by rewrite Hs. }
      rewrite lookup_zip_with, Hrow. cbn. by rewrite Hdr.
  Qed.

  Lemma process_ok c fs : length (cp_envelopes c) = n → wf (cp_gain c) → channels (cp_gain c) = n → frames (cp_gain c) = limit →
    (∀ ch, (ch < n)%nat → cp_envelopes c !! ch = Some (fs ch)) →
    ∃ c' out', comp_process p (cb_in b) (cb_iv b) (cb_out b) (cb_ov b) c = Ok (c', out') ∧
      length (cp_envelopes c') = n ∧ wf (cp_gain c') ∧ channels (cp_gain c') = n ∧ frames (cp_gain c') = limit ∧
      (∀ ch, (ch < n)%nat → cp_envelopes c' !! ch = Some (frun (fs ch) (told b ch))) ∧
      compressed n fs b out'.
  Proof.
    intros Hlen Hw Hc Hf Hfs. pose proof Hb as (Hwi & Hvi & Hwo & Hvo & Hci & Hco & Hfi & HF & Hpl & Ha & Hr & Hra & Hknee).
    unfold comp_process, process_envelope. rewrite Hci.
    destruct (envelope_ok n limit b Hb n (le_n n) c Hlen Hw Hc Hf) as (c1 & E1 & L1 & W1 & (D1 & D2 & D3) & H1). rewrite E1. cbn [rbind].
    unfold process_gain_reduction. rewrite Hco. fold F.
    set (level := λ ch fr, default 0 (levels (fs ch) (told b ch) !! fr)).
    set (gain := λ fr, gain_law (mean_level n fs b fr) (default 0 (p_knee p !! fr)) (default 0 (p_threshold p !! fr)) (default 0 (p_ratio p !! fr))).
    destruct (frames_ok n limit b Hb level gain Hn) with (m := F) (gr := cp_gain c1) as (g2 & E2 & W2 & (D4 & D5 & D6) & S2); [| |done|lia|lia| |].
    { intros fr k t r Hfr Hk Ht Hrr. unfold gain. rewrite Hk, Ht, Hrr. cbn [default]. rewrite gain_reduction_law; [done|].
      assert (1 <= r); [|lra]. rewrite Forall_forall in Hra. apply Hra. by eapply elem_of_list_lookup_2. }
    { done. }
    { intros ch fr Hch Hfr. destruct (H1 ch (fs ch)) as [_ Hs]; [by apply Hfs|]. rewrite Hs by lia. unfold level.
      destruct (lookup_lt_is_Some_2 (levels (fs ch) (told b ch)) fr) as [v Ev]; [by rewrite (told_levels n limit b Hb)|]. by rewrite Ev. }
    rewrite E2. cbn [rbind].
    destruct (gain_copy (finite_buffer (cb_in b)) (cb_iv b) (cb_out b) (cb_ov b)) as (o1 & Eo1 & Wo1);
      [by apply finite_wf|by apply finite_valid|done|done|rewrite finite_frames; unfold cframes in Hfi; lia|].
    rewrite finite_channels, Hci, Hco, Nat.min_id in Eo1. fold F in Eo1. rewrite Eo1. cbn [rbind].
    pose proof Wo1 as (W3 & Dm1 & _). destruct (same_dims_view _ _ (cb_ov b) Dm1) as (F1 & C1 & V1 & _).
    rewrite F1. fold F.
    destruct (read_seg_spec g2 Whole 0 0 F W2 I) as [(gains & Eg & Lg & Sg) _]; [cbn; lia|]. rewrite Eg. cbn [rbind].
    destruct (gain_apply (Some 0) (nan_close 0) (nan_close 1) nan_mul gains o1 (cb_ov b) W3 (V1 Hvo)) as (o2 & Eo2 & Wo2). rewrite Eo2. cbn [rbind].
    pose proof (written_trans _ _ _ _ _ _ Wo1 Wo2) as Wt2. pose proof Wt2 as (W4 & Dm2 & _). destruct (same_dims_view _ _ (cb_ov b) Dm2) as (F2 & C2 & V2 & _).
    destruct (gain_apply (Some 0) (nan_close 0) (nan_close 1) nan_mul (Some <$> p_wet p) o2 (cb_ov b) W4 (V2 Hvo)) as (o3 & Eo3 & Wo3). rewrite Eo3. cbn [rbind].
    pose proof (written_trans _ _ _ _ _ _ Wt2 Wo3) as Wt3. pose proof Wt3 as (W5 & Dm3 & _).
    destruct (dry_ok o3 W5 Dm3) as (o4 & Eo4 & Wo4). rewrite Eo4. cbn [rbind].
    pose proof (written_trans _ _ _ _ _ _ Wt3 Wo4) as Wt4. eexists _, o4. split; [done|]. cbn [cp_envelopes cp_gain].
    split; [done|]. split; [done|]. split; [lia|]. split; [lia|]. split.
    { intros ch Hch. destruct (H1 ch (fs ch)) as [E _]; [by apply Hfs|]. rewrite E. by rewrite decide_True. }
    unfold compressed. cbn zeta. eapply written_mono; [exact Wt4|]. cbn beta.
    intros ch fr x y Hch Hfr (y3 & (y2 & (y1 & -> & ->) & ->) & (s & d & Hs & Hd & ->)).
    destruct (lookup_lt_is_Some_2 (p_knee p) fr) as [k Ek]; [rewrite Hpl by (repeat constructor); done|].
    destruct (lookup_lt_is_Some_2 (p_threshold p) fr) as [t Et]; [rewrite Hpl by (repeat constructor); done|].
    destruct (lookup_lt_is_Some_2 (p_ratio p) fr) as [r Err]; [rewrite Hpl by (repeat constructor); done|].
    destruct (lookup_lt_is_Some_2 (p_wet p) fr) as [w Ew]; [rewrite Hpl by (repeat constructor); done|].
    exists s, k, t, r, w, d. do 6 (split; [done|]). rewrite finite_seen, Hs. cbn [fmap option_fmap option_map default].
    assert (Eq : nan_add (gainedO (Some <$> p_wet p) fr (gainedO gains fr (Some s))) (Some (s * d)) = chain gains (p_wet p) (p_dry p) fr s).
    { unfold chain. by rewrite Hd. }
    cbv [Datatypes.id] in *. rewrite Eq. split; [intros Hwet; by apply chain_dry|].
    assert (Hg : gains !! fr = Some (gain fr)).
    { rewrite Sg by done. cbn [off_ch off_fr Nat.add]. rewrite S2 by (done || lia). by rewrite decide_True. }
    assert (Hge : gain fr = gain_law (mean_level n fs b fr) k t r). { unfold gain. by rewrite Ek, Et, Err. }
    rewrite <-Hge. destruct (gain fr) as [g|] eqn:Egn.
    - apply chain_some; [done|done|done|]. symmetry in Hge. eapply gain_law_unit; [| |exact Hge].
      + rewrite Forall_forall in Hknee. apply Hknee. by eapply elem_of_list_lookup_2.
      + rewrite Forall_forall in Hra. apply Hra. by eapply elem_of_list_lookup_2.
    - intros (w' & Hw' & Hl'). by eapply chain_none.
  Qed.
End block.
