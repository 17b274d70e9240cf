From stdpp Require Import list list_numbers.
From Coq Require Import Reals Lra Lia ZArith.
From Verif Require Import Base Buffer BufferSpec BufferProofs EffectSpec EffectProofs Effect MixerSpec MixerProofs.
From Verif Require Import ResampleSpec ResampleProofs ResampleCases Complex ComplexProofs Convolution ConvolutionSpec.
Local Open Scope R_scope.

(** ** the last [L] samples of a signal *)
Definition tail (L : nat) (x : list R) : list R := drop (length x) (replicate L 0 ++ x).
Lemma tail_length L x : length (tail L x) = L.
Proof. unfold tail. rewrite drop_length, app_length, replicate_length. lia. Qed.
Lemma tail_app L x y : (length y ≤ L)%nat → tail L (x ++ y) = drop (length y) (tail L x) ++ y.
Proof.
  intros H. unfold tail. rewrite app_length, <-drop_drop. rewrite (app_assoc _ x y).
  rewrite (drop_app_le (replicate L 0 ++ x) y) by (rewrite app_length; lia).
  rewrite drop_app_le; [done|]. rewrite drop_length, app_length, replicate_length. lia.
Qed.
Lemma tail_lookup L x i : (i < L)%nat → default 0 (tail L x !! i) = if decide (L ≤ length x + i)%nat then default 0 (x !! (length x + i - L)%nat) else 0.
Proof.
  intros Hi. unfold tail. rewrite lookup_drop. case_decide as H.
  - by rewrite lookup_app_r, replicate_length by (rewrite replicate_length; lia).
  - rewrite lookup_app_l by (rewrite replicate_length; lia). by rewrite lookup_replicate_2 by lia.
Qed.

Lemma csum_real f g n : (∀ m, (m < n)%nat → f m = of_real (g m)) → csum f n = of_real (sum_over n g).
Proof.
  induction n as [|n IH]; intros H; cbn [csum]; [done|]. rewrite IH by (intros; apply H; lia). rewrite H by lia. rewrite sum_over_S. ceq.
Qed.
Lemma sum_over_pad k n g : (k ≤ n)%nat → (∀ m, (k ≤ m < n)%nat → g m = 0) → sum_over n g = sum_over k g.
Proof.
  intros Hk H. induction n as [|n IH]; [by assert (k = 0)%nat as -> by lia|]. destruct (decide (k = S n)) as [->|]; [done|].
  rewrite sum_over_S, IH, (H n) by (lia || (intros; apply H; lia)). ring.
Qed.
Lemma sum_over_ext n f g : (∀ m, (m < n)%nat → f m = g m) → sum_over n f = sum_over n g.
Proof. induction n as [|n IH]; intros H; [done|]. rewrite !sum_over_S, IH, H by (lia || (intros; apply H; lia)). done. Qed.
Lemma entry_real x i : entry (of_real <$> x) i = of_real (default 0 (x !! i)).
Proof. unfold entry. rewrite list_lookup_fmap. by destruct (x !! i). Qed.
Lemma padded_length L h : (length h ≤ L)%nat → length (padded L h) = L.
Proof. intros H. unfold padded. rewrite app_length, take_length, fmap_length, replicate_length. lia. Qed.
Lemma padded_entry L h i : (length h ≤ L)%nat → entry (padded L h) i = of_real (default 0 (h !! i)).
Proof.
  intros H. unfold padded. rewrite take_ge by (by rewrite fmap_length). destruct (decide (i < length h)%nat).
  - unfold entry. rewrite lookup_app_l by (by rewrite fmap_length). apply entry_real.
  - unfold entry. rewrite lookup_app_r by (rewrite fmap_length; lia). rewrite fmap_length, (lookup_ge_None_2 h) by lia.
    destruct (decide (i - length h < L - length h)%nat); [by rewrite lookup_replicate_2|]. by rewrite lookup_ge_None_2 by (rewrite replicate_length; lia).
Qed.

(** the end of the cyclic convolution is the linear one *)
Lemma cyclic_linear L (h x y : list R) j : (length h + length y ≤ L + 1)%nat → (length y ≤ L)%nat → (j < length y)%nat →
  re (entry (fft_inverse (zip_with cmul (fft_forward (of_real <$> tail L (x ++ y))) (fft_forward (padded L h)))) (L - length y + j)) =
  INR L * convolved_at h (x ++ y) (length x + j).
Proof.
  intros HL Hy Hj. assert (Lx : length (of_real <$> tail L (x ++ y)) = L) by (rewrite fmap_length; apply tail_length).
  assert (Lh : length (padded L h) = L) by (apply padded_length; lia).
  rewrite cyclic_convolution by lia. rewrite Lx.
  rewrite (csum_real _ (λ m, default 0 (h !! m) * default 0 (tail L (x ++ y) !! Z.to_nat ((Z.of_nat (L - length y + j) - Z.of_nat m) mod Z.of_nat L)))).
  2:{ intros m Hm. rewrite padded_entry, entry_real by lia. ceq. }
  cbn [re cmul of_real im]. rewrite Rmult_0_l, Rminus_0_r. f_equal. unfold convolved_at.
  rewrite (sum_over_pad (length h)); [|lia|].
  2:{ intros m Hm. rewrite (lookup_ge_None_2 h) by lia. cbn. ring. }
  apply sum_over_ext. intros m Hm. f_equal. rewrite Z.mod_small by lia. rewrite tail_lookup by lia. rewrite app_length.
  destruct (decide (m ≤ length x + j)%nat).
  - rewrite decide_True by lia. do 2 f_equal. lia.
  - by rewrite decide_False by lia.
Qed.
Lemma convolved_at_app h x y t : (t < length x)%nat → convolved_at h (x ++ y) t = convolved_at h x t.
Proof.
  intros Ht. unfold convolved_at. apply sum_over_ext. intros m Hm. f_equal. case_decide; [|done]. by rewrite lookup_app_l by lia.
Qed.

(** ** parts of slices *)
Section sub.
  Context {A : Type}.
  Implicit Types (b out : owned A).
  Lemma seen_sub b v off n ch i : (i < n)%nat → (off + n ≤ v_frames b v)%nat → (ch < v_channels b v)%nat →
    seen b (Sub v (Range 0 off (v_channels b v) n)) ch i = seen b v ch (off + i).
  Proof.
    intros H1 H2 H3. unfold seen. cbn [v_channels v_frames r_channels r_frames off_ch off_fr r_channel r_frame]. rewrite !decide_True by lia. f_equal; lia.
  Qed.
  Lemma row_sub zero b v off n ch : (off + n ≤ v_frames b v)%nat → (ch < v_channels b v)%nat →
    row_from zero b (Sub v (Range 0 off (v_channels b v) n)) ch 0 = take n (drop off (row_from zero b v ch 0)).
  Proof.
    intros H1 H2. apply list_eq_same_length with n; [rewrite take_length, drop_length, row_from_length; lia|rewrite row_from_length; cbn; lia|].
    intros i x y Hi Hx Hy. rewrite lookup_take, lookup_drop in Hy by done. unfold row_from in *. rewrite list_lookup_fmap, lookup_seq_lt in Hx by (cbn; lia).
    rewrite list_lookup_fmap, lookup_seq_lt in Hy by lia. cbn [fmap option_fmap option_map Nat.add] in *. injection Hx as <-. injection Hy as <-. by rewrite seen_sub.
  Qed.
  Lemma written_sub out v off n out' (P : nat → nat → A → A → Prop) : wf out → valid_view out v → (off + n ≤ v_frames out v)%nat →
    written out (Sub v (Range 0 off (v_channels out v) n)) out' P →
    written out v out' (λ ch fr x y, if decide (off ≤ fr < off + n)%nat then P ch (fr - off)%nat x y else y = x).
  Proof.
    intros Hw Hv Hn (H1 & H2 & H3 & H4). cbn [v_channels v_frames r_channels r_frames off_ch off_fr r_channel r_frame] in *.
    destruct (same_dims_view _ _ v H2) as (F & C & _). split; [done|]. split; [done|]. split.
    - intros ch fr Hn'. apply H3. unfold in_rect in *. lia.
    - intros ch fr Hc Hf. destruct (decide (off ≤ fr < off + n)%nat) as [Hin|Hout].
      + destruct (H4 ch (fr - off)%nat Hc ltac:(lia)) as (x & y & Sx & Sy & HP). exists x, y.
        rewrite seen_sub in Sx by lia. rewrite <-C in Sy. rewrite seen_sub in Sy by lia. replace (off + (fr - off))%nat with fr in * by lia. done.
      + destruct (seen_some out v ch fr Hw Hv Hc Hf) as [x Hx]. rewrite <-seen_eq in Hx by done. exists x, x. split; [done|]. split; [|done].
        rewrite (seen_dims out) by done. rewrite H3 by (unfold in_rect; lia). by rewrite <-seen_eq.
  Qed.
  Lemma slice_frames_ok b v off n : (off + n ≤ v_frames b v)%nat → slice_frames b v off n = Ok (Sub v (Range 0 off (v_channels b v) n)).
  Proof.
    intros H. unfold slice_frames, slice, range_is_valid. cbn [r_channel r_channels r_frame r_frames].
    destruct (Nat.leb_spec (0 + v_channels b v) (v_channels b v)); [|lia]. destruct (Nat.leb_spec (off + n) (v_frames b v)); [|lia]. done.
  Qed.
  Lemma sub_valid b v off n : valid_view b v → (off + n ≤ v_frames b v)%nat → valid_view b (Sub v (Range 0 off (v_channels b v) n)).
  Proof. intros Hv H. cbn. split; [done|]. lia. Qed.
End sub.
Lemma subslice_ok {A} (l : list A) off n : (off + n ≤ length l)%nat → subslice l off n = Ok (take n (drop off l)).
Proof. intros H. unfold subslice. by destruct (Nat.leb_spec (off + n) (length l)); [|lia]. Qed.
Lemma next_power_ge n : (n ≤ next_power_of_two n)%nat.
Proof.
  unfold next_power_of_two. destruct (decide (n ≤ 1)%nat).
  - assert (1 ≤ 2 ^ Nat.log2_up n)%nat; [|lia]. apply Nat.neq_0_lt_0, Nat.pow_nonzero. lia.
  - apply Nat.log2_up_spec. lia.
Qed.

Section node.
  Context (impulse : owned R) (Himp : wf impulse) (Hnz : frames impulse ≠ 0%nat) (mx : nat) (Hmx : mx ≠ 0%nat).
  Local Notation n := (channels impulse).
  Local Notation hrow ch := (row_from 0 impulse Whole ch 0).
  Definition clen : nat := next_power_of_two (frames impulse + mx - 1).
  Lemma hrow_length ch : length (hrow ch) = frames impulse.
  Proof. rewrite row_from_length. cbn. lia. Qed.
  Lemma clen_ge : (frames impulse + mx ≤ clen + 1)%nat.
  Proof. unfold clen. pose proof (next_power_ge (frames impulse + mx - 1)). lia. Qed.
  Lemma clen_pos : (0 < clen)%nat.
  Proof. unfold clen, next_power_of_two. apply Nat.neq_0_lt_0, Nat.pow_nonzero. lia. Qed.

  Definition cinv (past : nat → list R) (c : convolution) : Prop :=
    cv_impulse_fft c = (λ ch, fft_forward (padded clen (hrow ch))) <$> seq 0 n ∧
    length (cv_input c) = n ∧ (∀ ch, (ch < n)%nat → cv_input c !! ch = Some (of_real <$> tail clen (past ch))) ∧
    cv_scale c = 1 / INR clen ∧ cv_maximum c = mx.

  Lemma new_ok : ∃ c, new_convolution impulse mx = Ok c ∧ cinv (λ _, []) c.
  Proof.
    unfold new_convolution. destruct (Nat.leb_spec 1 (frames impulse + mx)); [|lia]. cbn [rassert]. fold clen.
    assert (E : ∀ k, (k ≤ n)%nat → rfold (λ l channel, let? h := get_channel_data impulse Whole channel 0 in Ok (l ++ [fft_forward (padded clen h)])) (seq 0 k) [] =
      Ok ((λ ch, fft_forward (padded clen (hrow ch))) <$> seq 0 k)).
    { induction k as [|k IH]; intros Hk; [done|]. rewrite (seq_S k 0), rfold_app, IH by lia. cbn [rbind rfold Nat.add].
      rewrite (row_from_data 0) by (done || (cbn; lia)). cbn [rbind]. by rewrite fmap_app. }
    unfold fft_impulse. rewrite E by done. cbn [rbind]. eexists. split; [done|]. unfold cinv. cbn [cv_impulse_fft cv_input cv_scale cv_maximum].
    split; [done|]. split; [by rewrite replicate_length|]. split; [|done]. intros ch Hch. rewrite lookup_replicate_2 by done. unfold tail. cbn [length]. rewrite app_nil_r, drop_0. clear. f_equal. induction clen as [|k IH]; [done|]. cbn [replicate fmap list_fmap]. f_equal. exact IH.
  Qed.

  Lemma consume_ok past inp iv input : wf inp → valid_view inp iv → v_channels inp iv = n → (v_frames inp iv ≤ clen)%nat → length input = n →
    (∀ ch, (ch < n)%nat → input !! ch = Some (of_real <$> tail clen (past ch))) →
    ∃ input', consume_input inp iv input = Ok input' ∧ length input' = n ∧
      ∀ ch, (ch < n)%nat → input' !! ch = Some (of_real <$> tail clen (past ch ++ row_from 0 inp iv ch 0)).
  Proof.
    intros Hw Hv Hc Hf Hl Hi. unfold consume_input. rewrite Hc.
    assert (E : ∀ k, (k ≤ n)%nat → ∃ input', rfold (consume_channel inp iv) (seq 0 k) input = Ok input' ∧ length input' = n ∧
      ∀ ch, (ch < n)%nat → input' !! ch = Some (of_real <$> tail clen (past ch ++ (if decide (ch < k)%nat then row_from 0 inp iv ch 0 else [])))).
    { induction k as [|k IH]; intros Hk.
      - exists input. split; [done|]. split; [done|]. intros ch Hch. rewrite decide_False by lia. rewrite app_nil_r. by apply Hi.
      - destruct IH as (i1 & E1 & L1 & H1); [lia|]. rewrite (seq_S k 0), rfold_app, E1. cbn [rbind rfold Nat.add]. unfold consume_channel at 1.
        rewrite H1 by lia. rewrite decide_False by lia. rewrite app_nil_r. cbn [runwrap rbind]. rewrite fmap_length, tail_length.
        destruct (Nat.leb_spec (v_frames inp iv) clen); [|lia]. cbn [rassert]. rewrite (row_from_data 0) by (done || lia). cbn [rbind].
        eexists. split; [done|]. split; [by rewrite insert_length|]. intros ch Hch. destruct (decide (ch = k)) as [->|Hne].
        + rewrite list_lookup_insert by lia. rewrite decide_True by lia. rewrite tail_app by (rewrite row_from_length; lia).
          rewrite fmap_app, fmap_drop, row_from_length, Nat.sub_0_r. done.
        + rewrite list_lookup_insert_ne by done. rewrite H1 by done. destruct (decide (ch < k)%nat).
          * by rewrite decide_True by lia.
          * by rewrite decide_False by lia. }
    destruct (E n) as (input' & E' & L' & H'); [lia|]. exists input'. split; [done|]. split; [done|]. intros ch Hch. rewrite H' by done. by rewrite decide_True.
  Qed.

  Section block.
    Context (b : vblock) (Hb : vblock_ok n b).
    Definition result (past : nat → list R) (ch fr : nat) (old new : R) : Prop := ∃ s w d,
      seen (vb_in b) (vb_iv b) ch fr = Some s ∧ vb_wet b !! fr = Some w ∧ vb_dry b !! fr = Some d ∧
      new = old + s * d + w * convolved_at (hrow ch) (past ch ++ heard b ch) (length (past ch) + fr).
    Lemma heard_length ch : length (heard b ch) = vframes b.
    Proof. destruct Hb as (_ & _ & _ & _ & _ & _ & H & _). unfold heard. rewrite row_from_length. lia. Qed.

    Lemma chunk_ok past c out off : (off < vframes b)%nat → wf out → same_dims (vb_out b) out →
      cinv (λ ch, past ch ++ take off (heard b ch)) c →
      ∃ c' out', conv_chunk (vb_wet b) (vb_dry b) (vb_in b) (vb_iv b) (vb_ov b) (c, out) off = Ok (c', out') ∧
        cinv (λ ch, past ch ++ take (off + mx) (heard b ch)) c' ∧
        written out (vb_ov b) out' (λ ch fr x y, if decide (off ≤ fr < off + mx)%nat then result past ch fr x y else y = x).
    Proof.
      intros Hoff Hwo Hd (I1 & I2 & I3 & I4 & I5). destruct Hb as (Hwi & Hvi & _ & Hvo & Hci & Hco & Hfi & Hwet & Hdry).
      destruct (same_dims_view _ _ (vb_ov b) Hd) as (F & C & V & _). specialize (V Hvo). unfold vframes in *.
      unfold conv_chunk. rewrite I5, Hfi. set (fc := (mx `min` (v_frames (vb_out b) (vb_ov b) - off))%nat). assert (Hfc : (0 < fc ≤ mx)%nat) by lia.
      rewrite !subslice_ok by lia. cbn [rbind]. rewrite slice_frames_ok by lia. cbn [rbind]. rewrite slice_frames_ok by lia. cbn [rbind].
      set (iv := Sub (vb_iv b) (Range 0 off (v_channels (vb_in b) (vb_iv b)) fc)). set (ov := Sub (vb_ov b) (Range 0 off (v_channels out (vb_ov b)) fc)).
      assert (Hiv : valid_view (vb_in b) iv) by (apply sub_valid; [done|lia]). assert (Hov : valid_view out ov) by (apply sub_valid; [done|lia]).
      assert (Fi : v_frames (vb_in b) iv = fc) by done. assert (Ci : v_channels (vb_in b) iv = n) by (cbn; lia).
      assert (Fo : v_frames out ov = fc) by done. assert (Co : v_channels out ov = n) by (cbn; lia).
      pose proof clen_ge as Hcl. pose proof clen_pos as Hcp.
      assert (Hfcl : (fc ≤ clen)%nat) by lia.
      destruct (consume_ok _ (vb_in b) iv (cv_input c) Hwi Hiv Ci ltac:(lia) I2 I3) as (input & Ei & Li & Hi). rewrite Ei. cbn [rbind].
      assert (Hrow : ∀ ch, (ch < n)%nat → row_from 0 (vb_in b) iv ch 0 = take fc (drop off (heard b ch))) by (intros ch Hch; apply row_sub; lia).
      set (past' := λ ch, past ch ++ take off (heard b ch)) in *.
      (* dry *)
      destruct (zip_channels_ok (λ y x : R, x + y) (λ channel, let? input := get_channel_data (vb_in b) iv channel 0 in Ok (zip_with Rmult input (take fc (drop off (vb_dry b)))))
        ov n out Hwo Hov) as (o1 & E1 & W1); [lia| |].
      { intros ch Hch. rewrite (row_from_data 0) by (done || lia). by eexists. }
      unfold copy_dry. rewrite Co, E1. cbn [rbind]. pose proof W1 as (Wf1 & D1 & _). destruct (same_dims_view _ _ ov D1) as (F1 & C1 & V1 & _).
      (* wet *)
      set (co := convolve input (cv_impulse_fft c)).
      assert (Hco' : ∀ ch, (ch < n)%nat → co !! ch = Some (fft_inverse (zip_with cmul (fft_forward (of_real <$> tail clen (past' ch ++ row_from 0 (vb_in b) iv ch 0))) (fft_forward (padded clen (hrow ch)))))).
      { intros ch Hch. unfold co, convolve. rewrite lookup_zip_with, Hi by done. cbn. rewrite I1, list_lookup_fmap, lookup_seq_lt by done. done. }
      assert (Hlen : ∀ ch l, (ch < n)%nat → co !! ch = Some l → length l = clen).
      { intros ch l Hch El. rewrite Hco' in El by done. injection El as <-. rewrite fft_inverse_length, zip_with_length, !fft_forward_length, fmap_length, tail_length, padded_length by (rewrite hrow_length; lia). lia. }
      unfold copy_processed. rewrite F1, Fo, C1, Co.
      destruct (zip_channels_ok (λ y x : R, x + y) (λ channel,
        let? convolution_output := runwrap (co !! channel) UnwrapNone in
        rassert (fc <=? length convolution_output)%nat Underflow
        (Ok (zip_with (λ z wet, re z * cv_scale c * wet) (drop (length convolution_output - fc) convolution_output) (take fc (drop off (vb_wet b))))))
        ov n o1 Wf1 (V1 Hov)) as (o2 & E2 & W2); [lia| |].
      { intros ch Hch. rewrite Hco' by done. cbn [runwrap rbind]. rewrite (Hlen ch) by (done || by apply Hco').
        destruct (Nat.leb_spec fc clen); [|lia]. cbn [rassert]. by eexists. }
      fold co. rewrite E2. cbn [rbind]. eexists _, o2. split; [done|]. split.
      { unfold cinv. cbn [cv_impulse_fft cv_input cv_scale cv_maximum]. split; [done|]. split; [done|]. split; [|done]. intros ch Hch. rewrite Hi by done. rewrite Hrow by done. unfold past'. rewrite <-app_assoc. do 4 f_equal.
        rewrite <-(take_drop off (take (off + mx) (heard b ch))). rewrite take_take, Nat.min_l by lia. f_equal.
        rewrite skipn_firstn_comm. replace (off + mx - off)%nat with mx by lia. pose proof (heard_length ch) as Hh. unfold vframes in Hh.
        destruct (decide (fc = mx)) as [->|Hne]; [done|]. rewrite !take_ge; [done|rewrite drop_length; lia|rewrite drop_length; lia]. }
      pose proof (written_trans _ _ _ _ _ _ W1 W2) as W. apply written_sub in W; [|done|done|lia]. eapply written_mono; [exact W|]. cbn beta. intros ch fr x y Hch Hfr.
      rewrite C, Hco in Hch. destruct (decide (off ≤ fr < off + fc)%nat) as [Hin|Hout]; cycle 1.
      { intros ->. rewrite decide_False by lia. done. }
      rewrite decide_True by lia. intros (z & Hz & Hy). rewrite decide_True in Hz, Hy by done.
      set (j := (fr - off)%nat) in *. assert (Hj : (j < fc)%nat) by lia.
      destruct Hz as (l & El & ->). rewrite (row_from_data 0) in El by (done || lia). cbn [rbind] in El. injection El as <-.
      destruct Hy as (l & El & ->). rewrite Hco' in El by done. cbn [runwrap rbind] in El. rewrite (Hlen ch) in El by (done || by apply Hco').
      destruct (Nat.leb_spec fc clen); [|lia]. cbn [rassert] in El. injection El as <-.
      destruct (seen_some (vb_in b) (vb_iv b) ch fr Hwi Hvi) as [s Hs]; [lia|lia|]. rewrite <-seen_eq in Hs by lia.
      destruct (lookup_lt_is_Some_2 (vb_wet b) fr) as [w Ew]; [lia|]. destruct (lookup_lt_is_Some_2 (vb_dry b) fr) as [d Ed]; [lia|].
      exists s, w, d. do 3 (split; [done|]).
      rewrite !lookup_zip_with, !lookup_take, !lookup_drop by done. replace (off + j)%nat with fr by lia. rewrite Ew, Ed.
      rewrite row_from_lookup by (done || (rewrite ?Fi; lia)). change (0 + j)%nat with j. assert (Hsj : seen (vb_in b) iv ch j = Some s) by (unfold iv; rewrite seen_sub by lia; by replace (off + j)%nat with fr by lia). rewrite Hsj.
      set (out_l := fft_inverse _). assert (Hll : length out_l = clen) by (apply (Hlen ch); [done|by apply Hco']).
      destruct (lookup_lt_is_Some_2 out_l (clen - fc + j)) as [z Ez]; [lia|]. rewrite Ez. cbn [option_bind mbind fmap option_fmap option_map default from_option].
      pose proof (cyclic_linear clen (hrow ch) (past' ch) (row_from 0 (vb_in b) iv ch 0) j) as Hcyc. rewrite hrow_length, row_from_length, Fi, Nat.sub_0_r in Hcyc.
      specialize (Hcyc ltac:(lia) Hfcl Hj). fold out_l in Hcyc. unfold entry in Hcyc. rewrite Ez in Hcyc. cbn [default from_option] in Hcyc. cbv [id Datatypes.id] in *. rewrite Hcyc, I4.
      assert (Ect : convolved_at (hrow ch) (past' ch ++ row_from 0 (vb_in b) iv ch 0) (length (past' ch) + j) = convolved_at (hrow ch) (past ch ++ heard b ch) (length (past ch) + fr)).
      { pose proof (heard_length ch) as Hh. unfold vframes in Hh. assert (Lp : length (past' ch) = (length (past ch) + off)%nat) by (unfold past'; rewrite app_length, take_length; lia).
        rewrite Lp. replace (length (past ch) + off + j)%nat with (length (past ch) + fr)%nat by lia.
        rewrite Hrow by done. symmetry. rewrite <-(take_drop off (heard b ch)) at 1. rewrite <-(take_drop fc (drop off (heard b ch))) at 1.
        rewrite !app_assoc. apply convolved_at_app. rewrite !app_length, !take_length, drop_length. lia. }
      rewrite Ect.
      assert (0 < INR clen) by (by apply lt_0_INR). field. lra.
    Qed.

    Lemma chunks_ok past c K : cinv past c → (∀ k, (k < K)%nat → (k * mx < vframes b)%nat) →
      ∃ c' out', rfold (conv_chunk (vb_wet b) (vb_dry b) (vb_in b) (vb_iv b) (vb_ov b)) ((λ k, (k * mx)%nat) <$> seq 0 K) (c, vb_out b) = Ok (c', out') ∧
        cinv (λ ch, past ch ++ take (K * mx) (heard b ch)) c' ∧
        written (vb_out b) (vb_ov b) out' (λ ch fr x y, if decide (fr < K * mx)%nat then result past ch fr x y else y = x).
    Proof.
      intros Hi. pose proof Hb as (_ & _ & Hwo & Hvo & _). induction K as [|K IH]; intros HK.
      { exists c, (vb_out b). split; [done|]. split.
        - destruct Hi as (I1 & I2 & I3 & I4). split; [done|]. split; [done|]. split; [|done]. intros ch Hch. rewrite take_0, app_nil_r. by apply I3.
        - apply written_refl; [done|done|]. intros. by rewrite decide_False by lia. }
      destruct IH as (c1 & o1 & E1 & J1 & W1); [intros; apply HK; lia|]. rewrite (seq_S K 0), fmap_app, rfold_app, E1. cbn [rbind rfold fmap list_fmap Nat.add].
      pose proof W1 as (Wf1 & D1 & _). destruct (chunk_ok past c1 o1 (K * mx)) as (c2 & o2 & E2 & J2 & W2); [apply HK; lia|done|done|done|].
      rewrite E2. cbn [rbind]. exists c2, o2. split; [done|]. split; [by replace (S K * mx)%nat with (K * mx + mx)%nat by lia|].
      eapply written_mono; [exact (written_trans _ _ _ _ _ _ W1 W2)|]. cbn beta. intros ch fr x y Hc Hf (z & H1 & H2).
      destruct (decide (fr < K * mx)%nat).
      - rewrite decide_False in H2 by lia. subst y. by rewrite decide_True by lia.
      - subst z. destruct (decide (K * mx ≤ fr < K * mx + mx)%nat).
        + by rewrite decide_True by lia.
        + by rewrite decide_False by lia.
    Qed.
    Lemma conv_ok past c : cinv past c → ∃ c' out', conv_process (vb_wet b) (vb_dry b) (vb_in b) (vb_iv b) (vb_out b) (vb_ov b) c = Ok (c', out') ∧
      cinv (λ ch, past ch ++ heard b ch) c' ∧ reverberated impulse past b out'.
    Proof.
      intros Hi. pose proof Hi as (_ & _ & _ & _ & I5). pose proof Hb as (_ & _ & _ & _ & _ & _ & Hfi & _). unfold conv_process, step_by. rewrite I5, Hfi.
      destruct (Nat.leb_spec 1 mx); [|lia]. cbn [rassert rbind]. set (F := vframes b). set (K := ((F + mx - 1) / mx)%nat).
      assert (HK1 : (K * mx ≤ F + mx - 1)%nat) by (unfold K; rewrite Nat.mul_comm; apply Nat.mul_div_le; lia).
      assert (HK2 : (F ≤ K * mx)%nat). { pose proof (Nat.mul_succ_div_gt (F + mx - 1) mx ltac:(lia)) as H1. fold K in H1. lia. }
      destruct (chunks_ok past c K Hi) as (c' & out' & E & J & W).
      { intros k Hk. fold F. assert (S k * mx ≤ K * mx)%nat by (apply Nat.mul_le_mono_r; lia). lia. }
      exists c', out'. split; [done|]. split.
      - destruct J as (J1 & J2 & J3 & J4). split; [done|]. split; [done|]. split; [|done]. intros ch Hch. rewrite J3 by done. by rewrite take_ge by (rewrite heard_length; fold F; lia).
      - unfold reverberated. eapply written_mono; [exact W|]. cbn beta. intros ch fr x y Hc Hf. fold (vframes b) in Hf. fold F in Hf. by rewrite decide_True by lia.
    Qed.
  End block.
  Lemma vsession_ok l : Forall (vblock_ok n) l → ∀ past c, cinv past c → ∃ outs, vsession c l = Ok outs ∧ all_reverberated impulse past l outs.
  Proof.
    induction l as [|b l IH]; intros Hl past c Hi; cbn [vsession]; [by exists []|]. apply Forall_cons in Hl as [Hb Hl].
    destruct (conv_ok b Hb past c Hi) as (c' & out' & E & J & W). rewrite E. cbn [rbind]. destruct (IH Hl _ c' J) as (outs & E' & H'). rewrite E'. cbn [rbind].
    exists (out' :: outs). done.
  Qed.
End node.
