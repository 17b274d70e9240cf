From stdpp Require Import list list_numbers.
From Coq Require Import Reals Lra Lia.
From Verif Require Import Base Buffer BufferSpec BufferProofs EffectSpec EffectProofs Effect Envelope EnvelopeSpec EnvelopeProofs EnvelopeNode Arith.
From Verif Require Import OscillatorPhase OscillatorProofs Resample ResampleSpec ResampleProofs ResampleCases Level LevelProofs Compressor CompressorProofs CompressorNode Waveshaper WaveshaperSpec.
Local Open Scope R_scope.

Lemma int_part_INR n : Int_part (INR n) = Z.of_nat n.
Proof. rewrite INR_IZR_INZ. apply int_part_unique; lra. Qed.
Lemma ceiling_INR n : ceiling (INR n) = Z.of_nat n.
Proof. unfold ceiling. rewrite INR_IZR_INZ, <-opp_IZR, (int_part_unique _ (- Z.of_nat n)) by lra. lia. Qed.

Lemma resampled_at source ratio i n s : nan_mul (Some (IZR (Z.of_nat i))) ratio = Some (INR n) → source !! n = Some s →
  resampled nan_arith source ratio i = Ok s.
Proof.
  intros Hr Hs. pose proof (lookup_lt_Some _ _ _ Hs). unfold resampled. cbn [nan_arith a_mul a_of a_sub a_add a_one a_floor a_ceil]. rewrite Hr.
  rewrite int_part_INR, ceiling_INR, Nat2Z.id. destruct (Nat.ltb_spec 0 (length source)); [|lia]. cbn [rassert]. rewrite Nat.min_l by lia. rewrite Hs. cbn [runwrap rbind].
  f_equal. rewrite <-INR_IZR_INZ. destruct s as [x|]; [|by cbn]. cbn. f_equal. ring.
Qed.

Lemma written_seen {A} (out : owned A) v out' (P Q : nat → nat → A → A → Prop) : written out v out' P →
  (∀ ch fr x y, (ch < v_channels out v)%nat → (fr < v_frames out v)%nat → seen out v ch fr = Some x → P ch fr x y → Q ch fr x y) → written out v out' Q.
Proof.
  intros (H1 & H2 & H3 & H4) HPQ. split; [done|]. split; [done|]. split; [done|]. intros ch fr Hc Hf.
  destruct (H4 ch fr Hc Hf) as (x & y & ? & ? & ?). exists x, y. eauto.
Qed.

Section shape.
  Context (table : list (option R)) (Ht : table ≠ []).
  Lemma index_range x : 0 <= wave_shape_index x (length table) <= INR (length table - 1).
  Proof.
    unfold wave_shape_index. pose proof (pos_INR (length table - 1)). unfold Rmin, Rmax. repeat destruct (Rle_dec _ _); lra.
  Qed.
  Lemma index_before x n : INR n <= wave_shape_index x (length table) < INR n + 1 → (n < length table)%nat.
  Proof.
    intros H. pose proof (index_range x). assert (L : INR n <= INR (length table - 1)) by lra. apply INR_le in L. destruct table; [done|]. cbn [length] in *. lia.
  Qed.
  Lemma index_after x n : INR n < wave_shape_index x (length table) → (S n < length table)%nat.
  Proof.
    intros H. pose proof (index_range x). assert (L : INR n < INR (length table - 1)) by lra. apply INR_lt in L. lia.
  Qed.
  Lemma shape_sample_ok s : ∃ y, shape_sample table s = Ok y.
  Proof.
    destruct s as [x|]; cbn [shape_sample].
    - destruct (decide _) as [E|E].
      + destruct (floor_exists (wave_shape_index x (length table))) as [n Hn]; [apply index_range|].
        destruct (to_nat_floor _ n Hn) as [-> _]. destruct (lookup_lt_is_Some_2 table n) as [y ->]; [by eapply index_before|]. by eexists.
      + repeat case_match; try (by eexists); destruct (last table) eqn:El; [by eexists|by apply last_None in El|by eexists|by apply last_None in El].
    - destruct table; [done|]. by eexists.
  Qed.
  Lemma shape_row_ok row : ∃ row', shape_row table row = Ok row' ∧ length row' = length row ∧
    ∀ i x, row !! i = Some x → ∃ y, row' !! i = Some y ∧ shape_sample table x = Ok y.
  Proof.
    unfold shape_row. induction row as [|x row IH] using rev_ind.
    { exists []. done. }
    destruct IH as (row' & E & L & H). rewrite rfold_app, E. cbn [rbind rfold]. destruct (shape_sample_ok x) as [y Ey]. rewrite Ey. cbn [rbind].
    exists (row' ++ [y]). split; [done|]. split; [rewrite !app_length; cbn; lia|]. intros i z Hi.
    destruct (decide (i < length row)%nat).
    - rewrite lookup_app_l in Hi by lia. rewrite lookup_app_l by lia. by apply H.
    - rewrite lookup_app_r in Hi by lia. rewrite lookup_app_r by lia. rewrite L. destruct (i - length row)%nat as [|k] eqn:Ei; cbn in Hi; [|done].
      injection Hi as <-. by exists y.
  Qed.
End shape.

Definition winv (table : list (option R)) (sr limit : nat) (w : waveshaper) : Prop :=
  ws_table w = table ∧ wf (ws_oversampling w) ∧ channels (ws_oversampling w) = 1%nat ∧ frames (ws_oversampling w) = (limit * 2)%nat ∧
  rate (ws_oversampling w) = (sr * 2)%nat.

Lemma apply_shape_ok table sr limit w (out : owned (option R)) ov channel : table ≠ [] → winv table sr limit w →
  wf out → valid_view out ov → rate out = sr → sr ≠ 0%nat → (channel < v_channels out ov)%nat → (0 < v_frames out ov ≤ limit)%nat →
  ∃ w' out', apply_shape w out ov channel = Ok (w', out') ∧ winv table sr limit w' ∧
    written out ov out' (λ c fr x y, if decide (c = channel) then shape_sample table x = Ok y else y = x).
Proof.
  intros Ht (Ht' & Hwo & Hco & Hfo & Hro) Hw Hv Hr Hsr Hch HF. unfold apply_shape. rewrite Ht'.
  assert (Hs : 0 < INR sr) by (apply lt_0_INR; lia).
  destruct (convert_ok nan_arith None (ws_oversampling w) Whole out ov channel 0 0 0 1) as (o1 & E1 & W1); [done|done|done|done|lia|cbn; lia|lia|cbn; lia|].
  rewrite E1. cbn [rbind]. pose proof W1 as (Wf1 & D1 & _ & S1). pose proof D1 as (Dc1 & Df1 & Dr1). cbn [v_channels v_frames] in S1.
  rewrite (row_from_data None) by (done || cbn; lia). cbn [rbind]. set (row := row_from None o1 Whole 0 0).
  destruct (shape_row_ok table Ht row) as (row' & Er & Lr & Hrow). rewrite Er. cbn [rbind].
  assert (Lrow : length row = (limit * 2)%nat) by (unfold row; rewrite row_from_length; cbn; lia).
  destruct (zip_row (λ (y _ : option R), y) Whole o1 0 row') as (o2 & E2 & W2); [done|done|cbn; lia|].
  unfold zip_one at 1. rewrite E2. cbn [rbind]. pose proof W2 as (Wf2 & D2 & _ & S2). pose proof D2 as (Dc2 & Df2 & Dr2). cbn [v_channels v_frames] in S2.
  destruct (convert_ok nan_arith None out ov o2 Whole 0 0 channel 0 1) as (out' & E3 & W3); [done|done|done|done|cbn; lia|lia|cbn; lia|lia|].
  rewrite E3. cbn [rbind]. eexists _, out'. split; [done|]. split.
  { split; [done|]. cbn [ws_oversampling]. split; [done|]. lia. }
  eapply written_seen; [exact W3|]. cbn beta. intros c fr x y Hc Hf Hx. destruct (decide (c = channel)) as [->|Hne]; [|rewrite decide_False by lia; done].
  rewrite decide_True by lia. intros E. rewrite (Nat.sub_0_r fr) in E.
  assert (Hi : (fr * 2 < limit * 2)%nat) by lia.
  (* the even samples of the oversampling buffer are the samples of the block *)
  destruct (S1 0%nat (fr * 2)%nat) as (a1 & b1 & _ & Sb1 & P1); [lia|lia|]. rewrite decide_True in P1 by lia. rewrite (Nat.sub_0_r (fr * 2)) in P1.
  rewrite (resampled_at _ _ _ fr x) in P1; cycle 1.
  { unfold conv_ratio. cbn [nan_arith a_div a_of]. rewrite Hro, Hr. rewrite <-!INR_IZR_INZ, !mult_INR. cbn [nan_div mbind option_bind].
    destruct (Req_EM_T _ _) as [Hz|Hz]; [exfalso; cbn [INR] in Hz; nra|]. cbn [nan_mul mbind option_bind INR]. f_equal. field. lra. }
  { rewrite row_from_lookup by (done || lia). by replace (channel + (0 - 0))%nat with channel by lia. }
  injection P1 as <-.
  assert (Hr1 : row !! (fr * 2)%nat = Some x). { unfold row. rewrite row_from_lookup by (done || (cbn; lia)). done. }
  destruct (Hrow _ _ Hr1) as (z & Hz & Ez).
  destruct (S2 0%nat (fr * 2)%nat) as (a2 & b2 & Sa2 & Sb2 & P2); [lia|lia|]. rewrite decide_True, Hz in P2 by done. cbn in P2. subst b2.
  rewrite (resampled_at _ _ _ (fr * 2)%nat z) in E; [by injection E as <-| |].
  - unfold conv_ratio. cbn [nan_arith a_div a_of]. rewrite Dr2, Dr1, Hro, Hr. rewrite <-!INR_IZR_INZ, !mult_INR. cbn [nan_div mbind option_bind].
    destruct (Req_EM_T _ _) as [Hq|Hq]; [exfalso; lra|]. cbn [nan_mul mbind option_bind INR]. f_equal. field. lra.
  - rewrite row_from_lookup by (done || (cbn; lia)). by replace (0 + (channel - channel))%nat with 0%nat by lia.
Qed.

Lemma overdrive_drive o : 0 <= o → overdrive_to_gain o = drive o.
Proof.
  intros Ho. unfold overdrive_to_gain, drive, from_db, minus_infinity_db. destruct (Rle_dec _ _); [lra|]. f_equal. field.
Qed.
Lemma drive_pos o : 0 < drive o.
Proof. apply exp_pos. Qed.

Section block.
  Context (table : list (option R)) (Ht : table ≠ []) (sr limit : nat) (Hsr : sr ≠ 0%nat).
  Context (b : wblock) (Hb : wblock_ok sr limit b).
  Local Notation shapes := (λ x y, shape_sample table (Some x) = Ok y).
  Definition finally (ch fr : nat) (z : option R) : Prop := ∃ x o m y,
    seen (wb_in b) (wb_iv b) ch fr = Some x ∧ wb_overdrive b !! fr = Some o ∧ wb_mix b !! fr = Some m ∧
    shape_sample table (Some (x * drive o)) = Ok y ∧ z = (y ← y; Some (m * (y / drive o) + (1 - m) * x)).

  Lemma ws_channel_ok w out channel : winv table sr limit w → wf out → same_dims (wb_out b) out → (channel < v_channels (wb_out b) (wb_ov b))%nat →
    ∃ w' out', ws_channel (wb_overdrive b) (wb_mix b) (wb_in b) (wb_iv b) (wb_ov b) (w, out) channel = Ok (w', out') ∧ winv table sr limit w' ∧
      written out (wb_ov b) out' (λ c fr x z, if decide (c = channel) then finally c fr z else z = x).
  Proof.
    intros Hi Hw Hd Hch. destruct Hb as (Hwi & Hvi & Hwo & Hvo & Hc & Hf & HF & Hr & Hlo & Hlm & Ho & Hm).
    destruct (same_dims_view _ _ (wb_ov b) Hd) as (Ef & Ec & Hv & _). specialize (Hv Hvo).
    unfold ws_channel. rewrite (row_from_data None) by (apply finite_wf || apply finite_valid || (rewrite finite_channels; lia) || lia; done). cbn [rbind].
    set (input := row_from None (finite_buffer (wb_in b)) (wb_iv b) channel 0).
    assert (Li : length input = wframes b) by (unfold input; rewrite row_from_length, finite_frames; lia).
    pose proof (valid_off _ _ Hv) as Hoff. rewrite locate_ok by (done || lia). cbn [rbind]. rewrite Li. unfold wframes in *.
    destruct (Nat.eqb_spec (v_frames (wb_out b) (wb_ov b)) ((channel + off_ch (wb_ov b)) * frames out + (0 + off_fr (wb_ov b)) + (v_frames out (wb_ov b) - 0) - ((channel + off_ch (wb_ov b)) * frames out + (0 + off_fr (wb_ov b)))))%nat as [_|Hne]; [|lia].
    cbn [rassert].
    destruct (zip_row (λ (y _ : option R), y) (wb_ov b) out channel input) as (o1 & E1 & W1); [done|done|lia|]. unfold zip_one at 1. rewrite E1. cbn [rbind].
    pose proof W1 as (Wf1 & D1 & _). destruct (same_dims_view _ _ (wb_ov b) D1) as (F1 & C1 & V1 & _).
    unfold apply_overdrive. destruct (zip_row (λ o sample, nan_mul sample (Some (overdrive_to_gain o))) (wb_ov b) o1 channel (wb_overdrive b)) as (o2 & E2 & W2); [done|auto|lia|].
    unfold zip_one at 1. rewrite E2. cbn [rbind]. pose proof (written_trans _ _ _ _ _ _ W1 W2) as T2.
    pose proof T2 as (Wf2 & D2 & _). destruct (same_dims_view _ _ (wb_ov b) D2) as (F2 & C2 & V2 & _).
    destruct (apply_shape_ok table sr limit w o2 (wb_ov b) channel) as (w' & o3 & E3 & Hi' & W3); [done|done|done|auto| |done|lia|lia|].
    { destruct D2 as (_ & _ & ->). destruct Hd as (_ & _ & ->). done. }
    rewrite E3. cbn [rbind]. pose proof (written_trans _ _ _ _ _ _ T2 W3) as T3.
    pose proof T3 as (Wf3 & D3 & _). destruct (same_dims_view _ _ (wb_ov b) D3) as (F3 & C3 & V3 & _).
    unfold reverse_overdrive. destruct (zip_row (λ o sample, nan_div sample (Some (overdrive_to_gain o))) (wb_ov b) o3 channel (wb_overdrive b)) as (o4 & E4 & W4); [done|auto|lia|].
    unfold zip_one at 1. rewrite E4. cbn [rbind]. pose proof (written_trans _ _ _ _ _ _ T3 W4) as T4.
    pose proof T4 as (Wf4 & D4 & _). destruct (same_dims_view _ _ (wb_ov b) D4) as (F4 & C4 & V4 & _).
    unfold mix_input. destruct (zip_row (λ '(i, m) o, nan_add (nan_mul o (Some m)) (nan_mul i (nan_sub (Some 1) (Some m)))) (wb_ov b) o4 channel (zip input (wb_mix b))) as (o5 & E5 & W5); [done|auto|lia|].
    unfold zip_one at 1. rewrite E5. cbn [rbind]. pose proof (written_trans _ _ _ _ _ _ T4 W5) as T5.
    exists w', o5. split; [done|]. split; [done|]. eapply written_mono; [exact T5|]. cbn beta. intros c fr x z Hcc Hfr.
    intros (y4 & (y3 & (y2 & (y1 & -> & ->) & Hs) & ->) & ->). destruct (decide (c = channel)) as [->|Hne]; [|by subst].
    destruct (seen_some (wb_in b) (wb_iv b) channel fr Hwi Hvi) as [s Hs']; [lia|lia|]. rewrite <-seen_eq in Hs' by lia.
    destruct (lookup_lt_is_Some_2 (wb_overdrive b) fr) as [o Eo]; [lia|]. destruct (lookup_lt_is_Some_2 (wb_mix b) fr) as [m Em]; [lia|].
    assert (Ein : input !! fr = Some (Some s)).
    { unfold input. rewrite row_from_lookup; [change (0 + fr)%nat with fr; by rewrite finite_seen, Hs'|by apply finite_wf|by apply finite_valid|rewrite finite_channels; lia|rewrite finite_frames; lia]. }
    rewrite Ein, Eo in Hs. cbn in Hs. assert (Hop : 0 <= o). { rewrite Forall_forall in Ho. apply Ho. by eapply elem_of_list_lookup_2. }
    rewrite overdrive_drive in Hs by done.
    rewrite Eo, lookup_zip_with, Ein, Em. cbn. rewrite overdrive_drive by done.
    exists s, o, m, y3. do 3 (split; [done|]). split; [done|]. destruct y3 as [y3|]; cbn; [|done]. pose proof (drive_pos o).
    destruct (Req_EM_T _ _); [lra|]. cbn. f_equal. ring.
  Qed.
  Lemma ws_channels_ok w n : winv table sr limit w → (n ≤ v_channels (wb_out b) (wb_ov b))%nat →
    ∃ w' out', rfold (ws_channel (wb_overdrive b) (wb_mix b) (wb_in b) (wb_iv b) (wb_ov b)) (seq 0 n) (w, wb_out b) = Ok (w', out') ∧ winv table sr limit w' ∧
      written (wb_out b) (wb_ov b) out' (λ c fr x z, if decide (c < n)%nat then finally c fr z else z = x).
  Proof.
    intros Hi. pose proof Hb as (_ & _ & Hwo & Hvo & _). induction n as [|n IH]; intros Hn.
    { exists w, (wb_out b). split; [done|]. split; [done|]. apply written_refl; [done|done|]. intros. by rewrite decide_False by lia. }
    destruct IH as (w1 & o1 & E & I1 & W1); [lia|]. rewrite (seq_S n 0), rfold_app, E. cbn [rbind rfold Nat.add]. pose proof W1 as (Wf1 & D1 & _).
    destruct (ws_channel_ok w1 o1 n I1 Wf1 D1) as (w2 & o2 & E2 & I2 & W2); [lia|]. rewrite E2. cbn [rbind]. exists w2, o2. split; [done|]. split; [done|].
    eapply written_mono; [exact (written_trans _ _ _ _ _ _ W1 W2)|]. cbn beta. intros c fr x z Hc Hf (y & H1 & H2).
    destruct (decide (c = n)) as [->|Hne]; [by rewrite decide_True by lia|]. subst z. destruct (decide (c < n)%nat).
    - by rewrite decide_True by lia.
    - by rewrite decide_False by lia.
  Qed.
  Lemma ws_process_ok w : winv table sr limit w →
    ∃ w' out', ws_process (wb_overdrive b) (wb_mix b) (wb_in b) (wb_iv b) (wb_out b) (wb_ov b) w = Ok (w', out') ∧ winv table sr limit w' ∧ waved shapes b out'.
  Proof.
    intros Hi. destruct (ws_channels_ok w (v_channels (wb_out b) (wb_ov b)) Hi (le_n _)) as (w' & out' & E & I & W).
    exists w', out'. split; [done|]. split; [done|]. unfold waved. eapply written_mono; [exact W|]. cbn beta. intros c fr x z Hc Hf. by rewrite decide_True by lia.
  Qed.
End block.

Lemma wsession_ok table sr limit l : table ≠ [] → sr ≠ 0%nat → ∀ w, winv table sr limit w → Forall (wblock_ok sr limit) l →
  ∃ outs, wsession w l = Ok outs ∧ Forall2 (waved (λ x y, shape_sample table (Some x) = Ok y)) l outs.
Proof.
  intros Ht Hsr. induction l as [|b l IH]; intros w Hi Hl; cbn [wsession].
  { exists []. split; [done|]. constructor. }
  apply Forall_cons in Hl as [Hb Hl]. destruct (ws_process_ok table Ht sr limit Hsr b Hb w Hi) as (w' & out' & E & I & W). rewrite E. cbn [rbind].
  destruct (IH w' I Hl) as (outs & E' & H'). rewrite E'. cbn [rbind]. exists (out' :: outs). split; [done|]. by constructor.
Qed.
Lemma new_winv shaper sr limit : winv (transfer_function shaper) sr limit (new_waveshaper shaper sr limit).
Proof. unfold winv, new_waveshaper. cbn [ws_table ws_oversampling]. split; [done|]. split; [apply new_buffer_wf|]. done. Qed.
Lemma transfer_nonempty shaper : transfer_function shaper ≠ [].
Proof. intros H. apply (f_equal length) in H. unfold transfer_function in H. rewrite fmap_length, seq_length in H. done. Qed.

(** ** shapes of finite tables *)
Lemma position_index n x : (1 < n)%nat → wave_shape_index x n = position n x.
Proof.
  intros Hn. unfold wave_shape_index, position. rewrite minus_INR by lia. change (INR 1) with 1. assert (0 < INR n - 1). { apply lt_INR in Hn. change (INR 1) with 1 in Hn. lra. }
  set (k := INR n - 1) in *. unfold Rmin, Rmax. repeat destruct (Rle_dec _ _); try nra.
Qed.
Lemma shaped_ok (table : list R) x : (1 < length table)%nat → ∃ y, shape_sample (Some <$> table) (Some x) = Ok (Some y) ∧ shaped table x y.
Proof.
  intros Hl. unfold shaped. cbn [shape_sample]. assert (Ht : Some <$> table ≠ []) by (destruct table; [cbn in Hl; lia|done]).
  pose proof (index_range (Some <$> table) x) as Hr. rewrite fmap_length in *. rewrite position_index in * by done. set (t := position (length table) x) in *.
  destruct (floor_exists t) as [n Hn]; [lra|]. destruct (to_nat_floor t n Hn) as [E1 E2]. rewrite E1.
  assert (Hnl : (n ≤ length table - 1)%nat). { apply INR_le. lra. }
  destruct (lookup_lt_is_Some_2 table n) as [p Hp]; [lia|].
  assert (Sn : signal table n = p) by (unfold signal; by rewrite Nat.min_l, Hp by lia).
  destruct (to_nat_ceil t n Hn) as [[Ec Et]|Ec]; rewrite Ec.
  - rewrite decide_True by done. rewrite list_lookup_fmap, Hp. exists p. split; [done|]. exists n. split; [done|]. rewrite Sn, <-Et. ring.
  - rewrite decide_False by lia. destruct (decide (S n < length table)%nat) as [Hs|Hs].
    + destruct (lookup_lt_is_Some_2 table (S n)) as [q Hq]; [lia|]. rewrite !list_lookup_fmap, Hp, Hq. cbn. eexists. split; [done|]. exists n. split; [done|].
      assert (signal table (S n) = q) as -> by (unfold signal; by rewrite Nat.min_l, Hq by lia). rewrite Sn. ring.
    + exfalso. assert (n = length table - 1)%nat as -> by lia. assert (t = INR (length table - 1)) as Et by lra. rewrite Et, ceiling_INR, Nat2Z.id in Ec. lia.
Qed.
