(** Rendering a voice is playing it frame by frame. *)
From stdpp Require Import list list_numbers.
From Coq Require Import ZArith ZifyBool ZifyNat.
From Verif Require Import Base Float Timestamp EventProcessor EventProcessorSpec Buffer BufferSpec BufferProofs
  Sampler SamplerSpec.

Section proofs.
  Context {A : Type} (one : A) (add mul : A → A → A).
  Context (smp : owned A) (fade : list A).
  Context (Hsmp : wf smp) (Hfade : 0 < length fade).

  Local Notation mixed := (mixed add mul smp).
  Local Notation mix := (mix add mul smp).
  Local Notation heard := (heard A).
  Local Notation voice_ok := (voice_ok fade).
  Implicit Types (out : owned A) (ov : view) (hs : list (list heard)).

  Lemma mix_nil ch x : mix ch x [] = x.
  Proof. done. Qed.
  Lemma mix_app ch x h1 h2 : mix ch x (h1 ++ h2) = mix ch (mix ch x h1) h2.
  Proof. unfold SamplerSpec.mix. by rewrite fold_left_app. Qed.

  Lemma in_rect_empty c0 f0 cc ch fr : ¬ in_rect c0 f0 cc 0 ch fr.
  Proof. unfold in_rect. lia. Qed.

  Lemma mixed_refl ov f0 out : wf out → mixed ov f0 [] out out.
  Proof.
    intros Hw. split; [done|]. split; [done|]. intros ch fr. rewrite decide_False; [done|apply in_rect_empty].
  Qed.

  (** nothing is heard past the end of the sample *)
  Lemma mixed_noop ov f0 hs out : wf out → (∀ ch x h, h ∈ hs → mix ch x h = x) → mixed ov f0 hs out out.
  Proof.
    intros Hw H. split; [done|]. split; [done|]. intros ch fr. case_decide; [|done].
    destruct (sample out ch fr) as [x|]; [|done]. cbn. f_equal.
    destruct (hs !! _) as [h|] eqn:E; cbn; [|done]. symmetry. eapply H, elem_of_list_lookup_2, E.
  Qed.

  Lemma mixed_app ov f0 h1 h2 out out1 out2 :
    mixed ov f0 h1 out out1 → mixed ov (f0 + length h1) h2 out1 out2 → mixed ov f0 (h1 ++ h2) out out2.
  Proof.
    intros (W1 & D1 & S1) (W2 & D2 & S2). split; [done|]. split; [by eapply same_dims_trans|].
    intros ch fr. rewrite S2, S1, app_length. destruct (same_dims_view _ _ ov D1) as (_ & -> & _).
    unfold in_rect. repeat case_decide; try lia; try done.
    - rewrite lookup_app_r by lia. do 4 f_equal. lia.
    - rewrite lookup_app_l by lia. done.
  Qed.

  Lemma mixed_zip ov f0 h1 h2 out out1 out2 : length h1 = length h2 →
    mixed ov f0 h1 out out1 → mixed ov f0 h2 out1 out2 → mixed ov f0 (zip_with app h1 h2) out out2.
  Proof.
    intros Hl (W1 & D1 & S1) (W2 & D2 & S2). split; [done|]. split; [by eapply same_dims_trans|].
    intros ch fr. rewrite S2, S1. destruct (same_dims_view _ _ ov D1) as (_ & -> & _).
    rewrite zip_with_length, <-Hl, Nat.min_id. case_decide as Hr; [|done].
    destruct (sample out ch fr) as [x|]; [|done]. cbn. f_equal. unfold in_rect in Hr.
    destruct (lookup_lt_is_Some_2 h1 (fr - (off_fr ov + f0))) as [a Ha]; [lia|].
    destruct (lookup_lt_is_Some_2 h2 (fr - (off_fr ov + f0))) as [b Hb]; [lia|].
    rewrite lookup_zip_with, Ha, Hb. cbn [mbind option_bind default from_option]. unfold SamplerSpec.mix. cbn. by rewrite fold_left_app.
  Qed.

  Lemma mixed_sub ov f n hs out out' :
    mixed (Sub ov (Range 0 f (v_channels out ov) n)) 0 hs out out' → mixed ov f hs out out'.
  Proof.
    intros (W & D & S). split; [done|]. split; [done|]. intros ch fr. rewrite S. cbn. rewrite !Nat.add_0_r. done.
  Qed.

  Lemma mixed_valid ov f0 hs out out' : mixed ov f0 hs out out' → valid_view out ov →
    wf out' ∧ valid_view out' ov ∧ v_frames out' ov = v_frames out ov ∧ v_channels out' ov = v_channels out ov.
  Proof. intros (W & D & _) Hv. destruct (same_dims_view _ _ ov D) as (? & ? & H & _). auto. Qed.

  (** ** render_playing *)
  Lemma sample_smp_None ch p : frames smp ≤ p → sample smp ch p = None.
  Proof. intros. apply sample_None. lia. Qed.

  Lemma render_playing_ok v out ov offset : wf out → valid_view out ov → offset ≤ v_frames out ov →
    ∃ out', render_playing add smp v out ov offset = Ok out' ∧
      mixed ov offset ((λ j, [(vo_position v + j, None)]) <$> seq 0 (v_frames out ov - offset)) out out'.
  Proof.
    intros Hw Hv Ho. unfold render_playing.
    destruct (Nat.leb_spec (frames smp) (vo_position v)) as [Hp|Hp].
    { exists out. split; [done|]. apply mixed_noop; [done|]. intros ch x h Hh.
      apply elem_of_list_fmap in Hh as (j & -> & _). cbn. unfold mix_one. cbn. by rewrite sample_smp_None by lia. }
    destruct (Nat.ltb_spec (v_frames out ov) offset); [lia|].
    set (cc := channels smp `min` v_channels out ov).
    set (fc := (v_frames out ov - offset) `min` (frames smp - vo_position v)).
    assert (∃ out', add_from add out ov smp Whole 0 (vo_position v) 0 offset cc fc = Ok out' ∧
      rect_update (λ s d, add d s) (λ i j, sample smp i (vo_position v + j)) (off_ch ov) (offset + off_fr ov) cc fc out out')
      as (out' & -> & W & D & S).
    { unfold add_from. destruct ((fc =? 0) || (cc =? 0)) eqn:E.
      - exists out. split; [done|]. split; [done|]. split; [done|]. intros ch fr. rewrite decide_False; [done|].
        unfold in_rect. apply orb_true_iff in E as [E|E]; apply Nat.eqb_eq in E; lia.
      - destruct (combine_from_ok (λ s d, add d s) out ov smp Whole 0 (vo_position v) 0 offset cc fc) as (out' & E1 & E2);
          try done.
        + right. cbn. split; [lia|]. right. lia.
        + right. split; [lia|]. right. destruct (valid_off _ _ Hv). lia.
        + exists out'. split; [done|]. cbn in E2. by rewrite !Nat.add_0_r in E2. }
    exists out'. split; [done|]. split; [done|]. split; [done|]. intros ch fr. rewrite S, fmap_length, seq_length.
    destruct (decide (in_rect (off_ch ov) (offset + off_fr ov) cc fc ch fr)) as [Hr|Hr].
    - rewrite decide_True by (unfold in_rect in *; lia). unfold in_rect in Hr.
      destruct (sample out ch fr) as [x|]; cbn; [|by destruct (sample smp _ _)].
      rewrite list_lookup_fmap, lookup_seq_lt by lia. cbn. unfold mix_one. cbn.
      replace (vo_position v + (fr - (off_fr ov + offset))) with (vo_position v + (fr - (offset + off_fr ov))) by lia.
      destruct (sample smp (ch - off_ch ov) _) as [y|] eqn:E; [done|].
      destruct (proj2 (sample_is_Some smp (ch - off_ch ov) (vo_position v + (fr - (offset + off_fr ov))) Hsmp)) as [y Hy]; [lia|].
      congruence.
    - case_decide as Hr2; [|done]. unfold in_rect in *.
      destruct (sample out ch fr) as [x|]; cbn; [|done]. rewrite list_lookup_fmap, lookup_seq_lt by lia. cbn.
      unfold mix_one. cbn. by rewrite sample_None by lia.
  Qed.

  (** ** render_fade *)
  Lemma fade_channels p g ov pos : ∀ cc out, wf out → valid_view out ov → pos < v_frames out ov → p < frames smp →
    cc ≤ channels smp → cc ≤ v_channels out ov →
    ∃ out', rfold (λ out ch,
            let? o := get_sample out ov ch pos in
            let? x := get_sample smp Whole ch p in
            set_sample out ov ch pos (add o (mul g x))) (seq 0 cc) out = Ok out' ∧
      wf out' ∧ same_dims out out' ∧
      ∀ ch fr, sample out' ch fr =
        if decide (in_rect (off_ch ov) (off_fr ov + pos) cc 1 ch fr)
        then (λ x, mix (ch - off_ch ov) x [(p, Some g)]) <$> sample out ch fr else sample out ch fr.
  Proof.
    induction cc as [|cc IH]; intros out Hw Hv Hpos Hp Hc1 Hc2.
    { exists out. split; [done|]. split; [done|]. split; [done|]. intros. rewrite decide_False; [done|]. unfold in_rect. lia. }
    rewrite seq_S_end, rfold_app. destruct (IH out) as (o1 & -> & W1 & D1 & S1); try done; [lia|lia|]. cbn [rbind rfold].
    destruct (same_dims_view _ _ ov D1) as (Ef & Ec & Ev & _). destruct (valid_off out ov Hv) as [V1 V2].
    destruct D1 as (D1 & D2 & D3).
    destruct (proj2 (sample_is_Some out (cc + off_ch ov) (pos + off_fr ov) Hw)) as [x Hx]; [lia|].
    assert (Hx1 : get_sample o1 ov cc pos = Ok x).
    { apply get_sample_ok; [done|by apply Ev|lia|lia|]. rewrite S1, decide_False; [done|]. unfold in_rect. lia. }
    rewrite Hx1. cbn [rbind].
    destruct (proj2 (sample_is_Some smp cc p Hsmp)) as [y Hy]; [lia|].
    assert (Hy1 : get_sample smp Whole cc p = Ok y).
    { apply get_sample_ok; [done|done|cbn; lia|cbn; lia|]. cbn. by rewrite !Nat.add_0_r. }
    rewrite Hy1. cbn [rbind].
    destruct (set_sample_ok o1 ov cc pos (add x (mul g y))) as (o2 & -> & W2 & D4 & S2); [done|by apply Ev|lia|lia|].
    exists o2. split; [done|]. split; [done|]. split; [eapply same_dims_trans; [|exact D4]; done|].
    intros ch fr. rewrite S2, S1. unfold in_rect. repeat case_decide; try lia; try done.
    assert (ch = cc + off_ch ov) as -> by lia. assert (fr = pos + off_fr ov) as -> by lia. rewrite Hx. cbn.
    unfold mix_one. cbn. replace (cc + off_ch ov - off_ch ov) with cc by lia. by rewrite Hy.
  Qed.

  Lemma fade_frame p g ov pos out : wf out → valid_view out ov → pos < v_frames out ov → p < frames smp →
    ∃ out', rfold (λ out ch,
            let? o := get_sample out ov ch pos in
            let? x := get_sample smp Whole ch p in
            set_sample out ov ch pos (add o (mul g x))) (seq 0 (channels smp `min` v_channels out ov)) out = Ok out' ∧
      mixed ov pos [[(p, Some g)]] out out'.
  Proof.
    intros Hw Hv Hpos Hp.
    destruct (fade_channels p g ov pos (channels smp `min` v_channels out ov) out) as (o1 & -> & W & D & S); try done; try lia.
    exists o1. split; [done|]. split; [done|]. split; [done|]. intros ch fr. rewrite S. cbn [length].
    unfold in_rect. repeat case_decide; try lia; try done.
    - by replace (fr - (off_fr ov + pos)) with 0 by lia.
    - destruct (sample out ch fr); [|done]. cbn. replace (fr - (off_fr ov + pos)) with 0 by lia. cbn. unfold mix_one. cbn.
      by rewrite sample_None by lia.
  Qed.

  Definition fade_gain (fade_in : bool) (k : nat) : A := if fade_in then gain_in one fade k else gain_out one fade k.

  Lemma fade_value_ok (fade_in : bool) k : k ≤ length fade →
    (if fade_in then Ok (fade_value one fade k) else fade_out_value one fade k) = Ok (fade_gain fade_in k).
  Proof.
    intros Hk. destruct fade_in; cbn; [done|]. unfold fade_out_value. destruct (Nat.ltb_spec (length fade) k); [lia|].
    f_equal. unfold fade_value, gain_out. destruct k; [|done]. rewrite Nat.sub_0_r.
    by rewrite (lookup_ge_None_2 fade) by lia.
  Qed.

  Lemma render_fade_ok v out ov offset k fade_in : wf out → valid_view out ov → offset ≤ v_frames out ov →
    k ≤ length fade →
    ∃ out', render_fade one add mul smp fade v out ov offset k fade_in
        = Ok ((length fade - k) `min` (v_frames out ov - offset), out') ∧
      mixed ov offset ((λ j, [(vo_position v + j, Some (fade_gain fade_in (k + j)))])
        <$> seq 0 ((length fade - k) `min` (v_frames out ov - offset))) out out'.
  Proof.
    intros Hw Hv Ho Hk. unfold render_fade.
    destruct (Nat.ltb_spec (length fade) k); [lia|]. destruct (Nat.ltb_spec (v_frames out ov) offset); [lia|].
    set (fc := (length fade - k) `min` (v_frames out ov - offset)).
    set (cc := channels smp `min` v_channels out ov).
    match goal with |- ∃ out', (let? o := rfold ?f _ _ in _) = _ ∧ _ =>
      assert (∃ out', rfold f (seq 0 fc) out = Ok out' ∧
        mixed ov offset ((λ j, [(vo_position v + j, Some (fade_gain fade_in (k + j)))]) <$> seq 0 fc) out out')
        as (out' & -> & Hm); [|exists out'; done] end.
    assert (Hfc : offset + fc ≤ v_frames out ov ∧ k + fc ≤ length fade) by lia. clearbody fc.
    induction fc as [|n IH]; [exists out; split; [done|]; by apply mixed_refl|].
    rewrite seq_S_end, rfold_app, fmap_app. destruct IH as (o1 & -> & Hm); [lia|]. cbn [rbind rfold].
    destruct (mixed_valid _ _ _ _ _ Hm Hv) as (W1 & V1 & F1 & C1).
    destruct (Nat.leb_spec (frames smp) (n + vo_position v)) as [Hp|Hp].
    - exists o1. split; [done|]. eapply mixed_app; [exact Hm|]. apply mixed_noop; [done|].
      intros ch x h Hh. cbn in Hh. apply elem_of_list_singleton in Hh as ->. cbn. unfold mix_one. cbn.
      by rewrite sample_smp_None by lia.
    - rewrite fade_value_ok by lia. cbn [rbind].
      destruct (fade_frame (vo_position v + n) (fade_gain fade_in (k + n)) ov (offset + n) o1) as (o2 & E & Hm2);
        [done|done|lia|lia|].
      exists o2. rewrite C1 in E. fold cc in E. rewrite E. split; [done|]. eapply mixed_app; [exact Hm|].
      by rewrite fmap_length, seq_length.
  Qed.

  (** ** The whole voice *)
  Fixpoint voice_frames (n : nat) (v : voice) : list (list heard) * voice :=
    match n with
    | 0 => ([], v)
    | S n => let (h, v1) := voice_frame one fade v in let (l, v2) := voice_frames n v1 in (h :: l, v2)
    end.

  Lemma voice_frames_add n m v : voice_frames (n + m) v =
    let (l1, v1) := voice_frames n v in let (l2, v2) := voice_frames m v1 in (l1 ++ l2, v2).
  Proof.
    revert v. induction n as [|n IH]; intros v; [cbn; by destruct (voice_frames m v)|].
    cbn [plus voice_frames]. destruct (voice_frame one fade v) as [h v1]. rewrite IH.
    destruct (voice_frames n v1) as [l1 v2]. by destruct (voice_frames m v2).
  Qed.
  Lemma voice_frames_length n v : length (voice_frames n v).1 = n.
  Proof.
    revert v. induction n as [|n IH]; intros v; [done|]. cbn. destruct (voice_frame one fade v) as [h v1].
    specialize (IH v1). destruct (voice_frames n v1). cbn in *. congruence.
  Qed.

  Lemma voice_frame_ok v : voice_ok v → voice_ok (voice_frame one fade v).2.
  Proof.
    unfold SamplerSpec.voice_ok, voice_frame. destruct (vo_phase v) eqn:E; cbn; [by rewrite E|..]; intros; try case_decide; cbn; done.
  Qed.
  Lemma voice_frames_ok n v : voice_ok v → voice_ok (voice_frames n v).2.
  Proof.
    revert v. induction n as [|n IH]; intros v Hv; [done|]. cbn. pose proof (voice_frame_ok v Hv) as H.
    destruct (voice_frame one fade v) as [h v1]. specialize (IH v1 H). by destruct (voice_frames n v1).
  Qed.

  Lemma voice_frames_stopped n v : vo_phase v = Stopped → voice_frames n v = (replicate n [], v).
  Proof. intros Hs. induction n as [|n IH]; [done|]. cbn. unfold voice_frame. rewrite Hs, IH. done. Qed.

  Lemma seq_shift_fmap {B} (f : nat → B) a n : f <$> seq (S a) n = (λ j, f (S j)) <$> seq a n.
  Proof. rewrite <-seq_shift. by rewrite <-list_fmap_compose. Qed.

  Lemma voice_frames_playing n p : voice_frames n (Voice p Playing) = ((λ j, [(p + j, None)]) <$> seq 0 n, Voice (p + n) Playing).
  Proof.
    revert p. induction n as [|n IH]; intros p; [cbn; by rewrite Nat.add_0_r|].
    cbn [voice_frames]. unfold voice_frame at 1. cbn [vo_phase vo_position]. rewrite IH.
    cbn [seq fmap list_fmap]. rewrite Nat.add_0_r, seq_shift_fmap. f_equal; [f_equal|f_equal; lia].
    apply list_fmap_ext. intros i x Hx. do 2 f_equal. lia.
  Qed.

  Definition fading (fade_in : bool) (k : nat) : phase := if fade_in then FadingIn k else FadingOut k.
  Definition faded (fade_in : bool) : phase := if fade_in then Playing else Stopped.

  Lemma voice_frame_fading fade_in p k :
    voice_frame one fade (Voice p (fading fade_in k)) =
    ([(p, Some (fade_gain fade_in k))],
     Voice (S p) (if decide (S k < length fade) then fading fade_in (S k) else faded fade_in)).
  Proof. by destruct fade_in. Qed.

  Lemma voice_frames_fading fade_in n p k : 0 < n → k + n ≤ length fade →
    voice_frames n (Voice p (fading fade_in k)) =
      ((λ j, [(p + j, Some (fade_gain fade_in (k + j)))]) <$> seq 0 n,
       Voice (p + n) (if k + n <? length fade then fading fade_in (k + n) else faded fade_in)).
  Proof.
    revert p k. induction n as [|n IH]; intros p k Hn Hk; [lia|]. cbn [voice_frames].
    rewrite voice_frame_fading. destruct (decide (n = 0)) as [->|Hn0].
    - cbn [voice_frames seq fmap list_fmap]. rewrite !Nat.add_0_r. replace (p + 1) with (S p) by lia. replace (k + 1) with (S k) by lia.
      destruct (Nat.ltb_spec (S k) (length fade)); case_decide; try lia; done.
    - rewrite decide_True by lia. rewrite IH by lia. cbn [seq fmap list_fmap]. rewrite !Nat.add_0_r, seq_shift_fmap.
      f_equal; [f_equal|].
      + apply list_fmap_ext. intros i x Hx. replace (S p + x) with (p + S x) by lia. by replace (S k + x) with (k + S x) by lia.
      + replace (S k + n) with (k + S n) by lia. f_equal. lia.
  Qed.

  Lemma voice_loop_end fuel v out ov : voice_loop one add mul smp fade fuel v out ov (v_frames out ov) = Ok (v, out).
  Proof. destruct fuel; cbn [voice_loop]; (destruct (Nat.ltb_spec (v_frames out ov) (v_frames out ov)); [lia|done]). Qed.

  Definition phase_rank (ph : phase) : nat :=
    match ph with Stopped => 1 | FadingOut _ => 2 | Playing => 1 | FadingIn _ => 2 end.

  Lemma voice_loop_ok : ∀ fuel v out ov offset, wf out → valid_view out ov → voice_ok v → offset ≤ v_frames out ov →
    phase_rank (vo_phase v) ≤ fuel →
    ∃ out', voice_loop one add mul smp fade fuel v out ov offset
        = Ok ((voice_frames (v_frames out ov - offset) v).2, out') ∧
      mixed ov offset (voice_frames (v_frames out ov - offset) v).1 out out'.
  Proof.
    induction fuel as [|fuel IH]; intros v out ov offset Hw Hv Hok Ho Hr.
    { destruct (vo_phase v); cbn in Hr; lia. }
    cbn [voice_loop]. destruct (Nat.ltb_spec offset (v_frames out ov)) as [Hlt|Hge].
    2: { replace (v_frames out ov - offset) with 0 by lia. cbn. exists out. split; [done|]. by apply mixed_refl. }
    destruct v as [p ph]. cbn [vo_phase vo_position] in *.
    assert (Hfading : ∀ fade_in k, k < length fade → ph = fading fade_in k → phase_rank (faded fade_in) ≤ fuel →
      ∃ out', (let? (n, out') := render_fade one add mul smp fade (Voice p ph) out ov offset k fade_in in
               let ph := if k + n <? length fade then fading fade_in (k + n) else faded fade_in in
               voice_loop one add mul smp fade fuel (Voice (p + n) ph) out' ov (offset + n))
        = Ok ((voice_frames (v_frames out ov - offset) (Voice p ph)).2, out') ∧
      mixed ov offset (voice_frames (v_frames out ov - offset) (Voice p ph)).1 out out').
    { intros fade_in k Hk Eph Hf.
      destruct (render_fade_ok (Voice p ph) out ov offset k fade_in Hw Hv Ho) as (o1 & -> & Hm); [lia|].
      cbn [rbind]. cbn [vo_position] in Hm. cbv zeta.
      set (n := (length fade - k) `min` (v_frames out ov - offset)) in *.
      assert (Hn : 0 < n) by lia. assert (Hn2 : k + n ≤ length fade) by lia.
      assert (Hn3 : offset + n ≤ v_frames out ov) by lia.
      destruct (mixed_valid _ _ _ _ _ Hm Hv) as (W1 & V1 & F1 & C1).
      replace (v_frames out ov - offset) with (n + (v_frames out ov - (offset + n))) by lia.
      rewrite voice_frames_add, Eph, voice_frames_fading by lia.
      set (v1 := Voice (p + n) (if k + n <? length fade then fading fade_in (k + n) else faded fade_in)).
      destruct (Nat.ltb_spec (k + n) (length fade)) as [Hd|Hd].
      - (* the block is full *)
        assert (offset + n = v_frames out ov) as E by lia. rewrite E, <-F1, voice_loop_end.
        rewrite F1, Nat.sub_diag. cbn [voice_frames fst snd]. rewrite app_nil_r. exists o1. done.
      - destruct (IH v1 o1 ov (offset + n)) as (o2 & E2 & Hm2); [done|done|..].
        + unfold SamplerSpec.voice_ok, v1. cbn. by destruct fade_in.
        + lia.
        + done.
        + exists o2. rewrite F1 in E2, Hm2. destruct (voice_frames (v_frames out ov - (offset + n)) v1) as [l2 v2] eqn:El.
          cbn [fst snd] in *. split; [done|]. eapply mixed_app; [exact Hm|]. by rewrite fmap_length, seq_length. }
    destruct ph as [|k| |k]; cbn [phase_rank] in Hr.
    - exists out. rewrite voice_frames_stopped by done. split; [done|]. apply mixed_noop; [done|].
      intros ch x h Hh. apply elem_of_replicate in Hh as [-> _]. done.
    - apply (Hfading true k); [done|done|]. cbn. lia.
    - destruct (render_playing_ok (Voice p Playing) out ov offset Hw Hv Ho) as (o1 & -> & Hm). cbn [rbind vo_position] in *.
      destruct (mixed_valid _ _ _ _ _ Hm Hv) as (W1 & V1 & F1 & C1).
      pose proof (voice_loop_end fuel (Voice (p + (v_frames out ov - offset)) Playing) o1 ov) as El. rewrite F1 in El.
      rewrite El, voice_frames_playing. cbn [fst snd]. exists o1. done.
    - apply (Hfading false k); [done|done|]. cbn. lia.
  Qed.

  Lemma voice_render_ok v out ov : wf out → valid_view out ov → voice_ok v →
    ∃ out', voice_render one add mul smp fade v out ov = Ok ((voice_frames (v_frames out ov) v).2, out') ∧
      mixed ov 0 (voice_frames (v_frames out ov) v).1 out out'.
  Proof.
    intros Hw Hv Hok. unfold voice_render. destruct (voice_is_stopped v) eqn:E.
    - exists out. unfold voice_is_stopped in E. destruct (vo_phase v) eqn:Ep; try done.
      rewrite voice_frames_stopped by done. split; [done|]. apply mixed_noop; [done|].
      intros ch x h Hh. apply elem_of_replicate in Hh as [-> _]. done.
    - destruct (voice_loop_ok 4 v out ov 0 Hw Hv Hok) as (o & H1 & H2); [lia|destruct (vo_phase v); cbn; lia|].
      rewrite Nat.sub_0_r in *. eauto.
  Qed.

  (** ** All voices *)
  Fixpoint all_frames (n : nat) (vs : list voice) : list (list heard) * list voice :=
    match n with
    | 0 => ([], vs)
    | S n => let (h, vs1) := voices_frame one fade vs in let (l, vs2) := all_frames n vs1 in (h :: l, vs2)
    end.
  Lemma all_frames_length n vs : length (all_frames n vs).1 = n.
  Proof.
    revert vs. induction n as [|n IH]; intros vs; [done|]. cbn. 
    match goal with |- context [all_frames n ?x] => specialize (IH x); destruct (all_frames n x) end. cbn in *. congruence.
  Qed.

  Lemma all_frames_cons n v vs : all_frames n (v :: vs) =
    (zip_with app (voice_frames n v).1 (all_frames n vs).1, (voice_frames n v).2 :: (all_frames n vs).2).
  Proof.
    revert v vs. induction n as [|n IH]; intros v vs; [done|]. cbn [all_frames voice_frames].
    unfold voices_frame. cbn [fmap list_fmap concat]. rewrite IH.
    destruct (voice_frame one fade v) as [h v1]. cbn [fst snd].
    destruct (voice_frames n v1) as [l v2].
    destruct (all_frames n ((λ v0, (voice_frame one fade v0).2) <$> vs)) as [l' vs2]. done.
  Qed.
  Lemma all_frames_nil n : all_frames n [] = (replicate n [], []).
  Proof. induction n as [|n IH]; [done|]. cbn. by rewrite IH. Qed.

  Lemma render_voices_ok vs : ∀ out ov, wf out → valid_view out ov → Forall voice_ok vs →
    ∃ out', render_voices one add mul smp fade vs out ov = Ok ((all_frames (v_frames out ov) vs).2, out') ∧
      mixed ov 0 (all_frames (v_frames out ov) vs).1 out out'.
  Proof.
    induction vs as [|v vs IH]; intros out ov Hw Hv Hok.
    - exists out. rewrite all_frames_nil. split; [done|]. apply mixed_noop; [done|].
      intros ch x h Hh. apply elem_of_replicate in Hh as [-> _]. done.
    - apply Forall_cons in Hok as [H1 H2]. cbn [render_voices].
      destruct (voice_render_ok v out ov Hw Hv H1) as (o1 & -> & Hm). cbn [rbind].
      destruct (mixed_valid _ _ _ _ _ Hm Hv) as (W1 & V1 & F1 & C1).
      destruct (IH o1 ov W1 V1 H2) as (o2 & -> & Hm2). cbn [rbind]. rewrite F1 in *.
      rewrite all_frames_cons. cbn [fst snd]. exists o2. split; [done|].
      eapply mixed_zip; [|exact Hm|exact Hm2]. by rewrite voice_frames_length, all_frames_length.
  Qed.

  Lemma all_frames_ok n vs : Forall voice_ok vs → Forall voice_ok (all_frames n vs).2.
  Proof.
    induction vs as [|v vs IH]; intros H; [by rewrite all_frames_nil|]. apply Forall_cons in H as [H1 H2].
    rewrite all_frames_cons. constructor; [by apply voice_frames_ok|by apply IH].
  Qed.
End proofs.
