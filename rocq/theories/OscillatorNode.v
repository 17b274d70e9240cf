(** The oscillator's blocks. *)
From stdpp Require Import list list_numbers.
From Coq Require Import Reals ZArith Lra Lia.
From Verif Require Import Base Buffer BufferSpec BufferProofs EffectSpec EffectProofs Arith Oscillator OscillatorSpec OscillatorProofs.
From Verif Require Import Mixer MixerR GainProofs.

Section process.
  Context {N A : Type} (a : arith N) (wide : A → N) (narrow : N → A).
  Context (zero : A) (is_zero is_one : A → bool) (mul : A → A → A).

  Lemma duplicate_in (b : owned A) v ch : wf b → valid_view b v → 0 < ch < v_channels b v →
    ∃ b', duplicate_channel_in b v 0 0 ch (v_frames b v) = Ok b' ∧
      written b v b' (λ c fr x y, if decide (c = ch) then seen b v 0 fr = Some y else y = x).
  Proof.
    intros Hw Hv Hch. destruct (valid_off b v Hv) as [H1 H2]. unfold duplicate_channel_in. cbn [Nat.add].
    destruct (duplicate_channel_ok b (off_ch v) (off_fr v) (ch + off_ch v) (v_frames b v) Hw) as (b' & E & R); [lia..|].
    exists b'. split; [done|]. eapply (written_rect (λ x _, x) _ b v b' ch 0 1 (v_frames b v)); [done|done|exact R|lia|lia| |].
    - intros c fr x Hx (Hc & Hf). destruct (seen_some b v 0 fr Hw Hv) as [s Hs]; [lia|lia|]. exists s.
      rewrite Nat.sub_0_r. rewrite Nat.add_0_r in Hs. split; [done|]. rewrite decide_True by lia. by rewrite seen_eq, Nat.add_0_r by lia.
    - intros c fr x Hx Hn. unfold seen in Hx. case_decide; [|done]. unfold in_rect in Hn. rewrite decide_False by lia. done.
  Qed.

  Lemma duplicate_all n : ∀ k (b : owned A) v, wf b → valid_view b v → 0 < k → k + n ≤ v_channels b v →
    ∃ b', rfold (λ b ch, duplicate_channel_in b v 0 0 ch (v_frames b v)) (seq k n) b = Ok b' ∧
      written b v b' (λ c fr x y, if decide (k ≤ c < k + n) then seen b v 0 fr = Some y else y = x).
  Proof.
    induction n as [|n IH]; intros k b v Hw Hv Hk Hn; cbn [seq rfold].
    { exists b. split; [done|]. apply written_refl; [done..|]. intros. rewrite decide_False by lia. done. }
    destruct (duplicate_in b v k) as (b1 & E1 & W1); [done|done|lia|]. rewrite E1. cbn [rbind].
    pose proof W1 as (A1 & A2 & _). destruct (same_dims_view b b1 v A2) as (D1 & D2 & D3 & _).
    destruct (IH (S k) b1 v) as (b2 & E2 & W2); [done|by apply D3|lia|lia|]. exists b2. split; [done|].
    eapply written_mono; [eapply written_trans; [exact W1|exact W2]|]. cbv beta.
    intros c fr x y Hc Hfr (z & H1 & H2).
    assert (H0 : seen b1 v 0 fr = seen b v 0 fr).
    { destruct W1 as (_ & _ & _ & W). destruct (W 0 fr) as (x0 & y0 & S1 & S2 & HP); [lia|lia|].
      rewrite decide_False in HP by lia. by rewrite S1, S2, HP. }
    destruct (decide (c = k)) as [->|Hne].
    - rewrite decide_True by lia. rewrite decide_False in H2 by lia. by subst y.
    - destruct (decide (k ≤ c < k + S n)), (decide (S k ≤ c < S k + n)); try (exfalso; lia); [by rewrite <-H0|by subst].
  Qed.

  Lemma osc_process_ok fuel table phase fs gains (out : owned A) ov q row : wf out → valid_view out ov → 0 < v_channels out ov →
    length fs = v_frames out ov →
    osc_samples a fuel (Z.of_nat (rate out)) table phase (wide <$> fs) = Ok (q, row) → length row = v_frames out ov →
    ∃ out', osc_process a wide narrow zero is_zero is_one mul fuel table phase fs gains out ov = Ok (q, out') ∧
      written out ov out' (λ ch fr _ y, ∃ s, row !! fr = Some s ∧ y = gained zero is_zero is_one mul gains fr (narrow s)).
  Proof.
    intros Hw Hv Hc Hlf Hs Hlr. unfold osc_process.
    destruct (zip_row (λ y (_ : A), y) ov out 0 (narrow <$> row) Hw Hv Hc) as (o1 & E1 & W1).
    destruct (locate out ov 0 0) as [[st en]|] eqn:El; cbn [rbind] in *; [|done]. apply locate_len in El as ->.
    replace (st + v_frames out ov - st) with (v_frames out ov) in * by lia. rewrite take_ge by lia. rewrite Hs. cbn [rbind].
    rewrite take_ge in E1 by (rewrite fmap_length; lia). injection E1 as E1. rewrite E1.
    pose proof W1 as (A1 & A2 & _). destruct (same_dims_view out o1 ov A2) as (D1 & D2 & D3 & _).
    destruct (gain_apply zero is_zero is_one mul gains o1 ov) as (o2 & -> & W2); [done|by apply D3|]. cbn [rbind].
    pose proof W2 as (B1 & B2 & _). destruct (same_dims_view o1 o2 ov B2) as (F1 & F2 & F3 & _).
    destruct (duplicate_all (v_channels out ov - 1) 1 o2 ov) as (o3 & -> & W3); [done|by apply F3, D3|lia|lia|]. cbn [rbind].
    exists o3. split; [done|]. pose proof (written_trans _ _ _ _ _ _ W1 W2) as W12.
    eapply written_mono; [eapply written_trans; [exact W12|exact W3]|]. cbv beta.
    intros ch fr x y Hch Hfr (z & (z0 & Hz0 & Hz) & Hy).
    destruct (lookup_lt_is_Some_2 row fr) as [s Hrow]; [lia|]. exists s. split; [done|].
    destruct (decide (ch = 0)) as [->|Hne].
    - rewrite decide_False in Hy by lia. rewrite list_lookup_fmap, Hrow in Hz0. cbn in Hz0. by subst.
    - rewrite decide_True in Hy by lia. destruct W12 as (_ & _ & _ & W). destruct (W 0 fr) as (x1 & y1 & S1 & S2 & (w & Hw1 & Hw2)); [lia|lia|].
      rewrite S2 in Hy. injection Hy as <-. rewrite decide_True in Hw1 by done. rewrite list_lookup_fmap, Hrow in Hw1. cbn in Hw1. by subst.
  Qed.

  Lemma osc_process_panic fuel table phase fs gains (out : owned A) ov e : wf out → valid_view out ov → 0 < v_channels out ov →
    length fs = v_frames out ov →
    osc_samples a fuel (Z.of_nat (rate out)) table phase (wide <$> fs) = Panic e →
    osc_process a wide narrow zero is_zero is_one mul fuel table phase fs gains out ov = Panic e.
  Proof.
    intros Hw Hv Hc Hlf Hs. unfold osc_process.
    destruct (zip_row (λ y (_ : A), y) ov out 0 [] Hw Hv Hc) as (o1 & E1 & W1).
    destruct (locate out ov 0 0) as [[st en]|] eqn:El; cbn [rbind] in *; [|done]. apply locate_len in El as ->.
    replace (st + v_frames out ov - st) with (v_frames out ov) in * by lia. rewrite take_ge by lia. by rewrite Hs.
  Qed.
End process.

Local Open Scope R_scope.
Section session.
  Context (fuel : nat) (limit : R) (r : nat) (table : list R).
  Context (Hr : (0 < r)%nat) (Hfuel : limit <= INR fuel) (Hne : table ≠ []) (Hh : head table = Some 0).

  Lemma whole_split (fs gs : list R) : never_whole r (fs ++ gs) → ∀ n, (0 < n ≤ length gs)%nat → ∀ k : Z, cycles r fs + cycles r (take n gs) ≠ IZR k.
  Proof.
    intros H n Hn k. rewrite <-cycles_app. specialize (H (length fs + n)%nat). rewrite firstn_app_2 in H.
    apply H. rewrite app_length. lia.
  Qed.

  Lemma osc_session bs : ∀ before p outs k0, 0 <= p < 1 → cycles r before = p + IZR k0 → Forall (osc_block_ok r limit) bs →
    never_whole r (before ++ concat (ob_freq <$> bs)) →
    ∃ q outs', rfold (osc_step fuel table) bs (p, outs) = Ok (q, outs ++ outs') ∧ plays_all table r before bs outs'.
  Proof.
    induction bs as [|b bs IH]; intros before p outs k0 Hp Hk Hok Hw; cbn [rfold].
    { exists p, []. rewrite app_nil_r. done. }
    apply Forall_cons in Hok as [(B1 & B2 & B3 & B4 & B5 & B6 & B7) Hok].
    pose proof (osc_samples_R fuel limit r table Hr Hfuel Hne (ob_freq b) p (cycles r before) k0 Hp Hk B7) as HS.
    destruct (osc_samples exact fuel (Z.of_nat r) table p (ob_freq b)) as [[q ys]|e] eqn:Es.
    - destruct HS as (H1 & H2 & (k1 & H3) & _ & H5). unfold osc_step at 1. cbn [fst snd]. unfold osc_process_R.
      destruct (osc_process_ok exact (λ x, x) (λ x, x) 0 (λ g, close32R g 0) (λ g, close32R g 1) Rmult fuel table p (ob_freq b) (ob_gain b) (ob_out b) (ob_view b) q ys)
        as (out' & -> & W); [done|done|done|done|rewrite B3, list_fmap_id; done|lia|]. cbn [rbind].
      destruct (IH (before ++ ob_freq b) q (outs ++ [out']) k1) as (q' & outs' & -> & HP); [done|by rewrite cycles_app|done| |].
      { rewrite <-app_assoc. cbn [fmap list_fmap concat] in Hw. done. }
      exists q', (out' :: outs'). split; [by rewrite <-app_assoc|]. cbn [plays_all]. split; [|done].
      eapply written_mono; [exact W|]. cbv beta. intros ch fr x y Hc Hf (s & Hs & ->).
      destruct (lookup_lt_is_Some_2 (ob_gain b) fr) as [g Hg]; [lia|]. exists g. split; [done|]. cbv zeta.
      rewrite cycles_app. specialize (H5 Hh fr). rewrite H5 in Hs by lia. injection Hs as <-. by apply gained_error.
    - exfalso. destruct HS as (_ & n & k & Hn & E). revert E. cbn [fmap list_fmap concat] in Hw. rewrite app_assoc in Hw.
      apply (whole_split before (ob_freq b)); [|done]. intros m Hm k1. specialize (Hw m). rewrite app_length in Hm.
      rewrite take_app_le in Hw by (rewrite app_length; lia). apply Hw. rewrite !app_length. lia.
  Qed.
End session.
