(** A stopped sampler without a loop falls silent. *)
From stdpp Require Import list list_numbers sorting.
From Coq Require Import ZArith ZifyBool ZifyNat.
From Verif Require Import Base Float Timestamp TimestampProofs EventProcessor EventProcessorSpec EventProcessorProofs
  Buffer BufferSpec BufferProofs Sampler SamplerSpec SamplerTime SamplerVoice SamplerProofs SamplerScenes.

Lemma round_mono x y : (x <= y)%Z → (f64_round_usize x <= f64_round_usize y)%Z.
Proof.
  intros H. unfold f64_round_usize. pose proof one64_pos as Ho.
  destruct (Z.leb_spec x 0), (Z.leb_spec y 0); try lia.
  - apply Z.div_pos; lia.
  - apply Z.div_le_mono; lia.
Qed.

Section proofs.
  Context {A : Type} (one : A) (add mul : A → A → A).
  Context (smp : owned A) (fade : list A) (sr : nat).
  Context (Hsmp : wf smp) (Hfade : 0 < length fade).
  Context (Hsr : (0 < Z.of_nat sr <= 2 ^ 29)%Z).

  Local Notation mixed := (mixed add mul smp).
  Local Notation heard := (heard A).
  Local Notation all_frames := (all_frames one fade).
  Local Notation voice_ok := (voice_ok fade).
  Local Notation render_count := (render_count smp sr).
  Local Notation process_sample := (process_sample one add mul smp fade sr).
  Local Notation sblock := (sblock (A := A)).
  Local Notation sampler_run := (sampler_run one add mul smp fade).
  Local Notation sampler_piece := (sampler_piece one add mul smp fade sr).
  Local Notation do_pieces fuel ov := (rfold (do_piece (sampler_piece fuel ov) (sampler_act sr) sr)).
  Local Notation silent_after R hs := (∀ j, R ≤ j → default [] (hs !! j) = []).
  Implicit Types (bs : list sblock) (s : sampler) (hs : list (list heard)).

  (** the fade out ends within [R] frames *)
  Definition ending (R : nat) (v : voice) : Prop :=
    match vo_phase v with Stopped => True | FadingOut k => length fade ≤ k + R | _ => False end.
  Definition finished s : Prop := ∀ rem, (0 < Z.of_nat rem <= 2 ^ 20)%Z → render_count s rem = 0.

  Lemma ending_mono R R' v : R ≤ R' → ending R v → ending R' v.
  Proof. unfold ending. destruct (vo_phase v); intros; lia || done. Qed.

  Lemma ending_frame R vs : Forall voice_ok vs → Forall (ending R) vs →
    (R = 0 → (voices_frame one fade vs).1 = []) ∧ Forall voice_ok (voices_frame one fade vs).2 ∧
    Forall (ending (R - 1)) (voices_frame one fade vs).2.
  Proof.
    induction vs as [|v vs IH]; intros Hok He; [by cbn; split; [done|split; constructor]|]. apply Forall_cons in Hok as [H1 H2]. apply Forall_cons in He as [E1 E2].
    destruct (IH H2 E2) as (I1 & I2 & I3). unfold voices_frame in *. cbn [fmap list_fmap concat fst snd] in *.
    pose proof (voice_frame_ok one fade v H1) as Hv.
    unfold voice_frame, SamplerSpec.voice_ok, ending in *. destruct (vo_phase v) as [|k| |k] eqn:Ep; try done; cbn [fst snd vo_phase] in *.
    - split; [done|]. split; constructor; try done; by rewrite Ep.
    - split; [lia|]. split; constructor; try done. cbn [vo_phase]. case_decide; [lia|done].
  Qed.

  Lemma ending_frames n : ∀ R vs, Forall voice_ok vs → Forall (ending R) vs →
    silent_after R (all_frames n vs).1 ∧ Forall (ending (R - n)) (all_frames n vs).2.
  Proof.
    induction n as [|n IH]; intros R vs Hok He.
    { cbn. split; [done|]. by rewrite Nat.sub_0_r. }
    destruct (ending_frame R vs Hok He) as (F1 & F2 & F3). cbn [SamplerVoice.all_frames].
    destruct (voices_frame one fade vs) as [h vs1]. cbn [fst snd] in *.
    destruct (IH (R - 1) vs1 F2 F3) as [I1 I2]. destruct (all_frames n vs1) as [l vs2]. cbn [fst snd] in *.
    split.
    - intros [|j] Hj; cbn; [apply F1; lia|]. apply I1. lia.
    - eapply Forall_impl; [exact I2|]. intros v. apply ending_mono. lia.
  Qed.

  Lemma count_zero_finished s rem : sa_loop s = None → (0 < Z.of_nat rem <= 2 ^ 20)%Z → render_count s rem = 0 → finished s.
  Proof.
    intros Hl Hrem H0 rem' Hrem'. unfold Sampler.render_count, get_render_interval, incremented_by_samples in *.
    set (E := next_loop_position smp sr s) in *. clearbody E.
    assert (Hround : ∀ n, (0 < Z.of_nat n <= 2 ^ 20)%Z →
      f64_round_usize (as_samples (from_samples (f64_of_Z (Z.of_nat n)) (Z.of_nat sr)) (Z.of_nat sr)) = Z.of_nat n).
    { intros n Hn. rewrite (round_near _ (Z.of_nat n)); [lia|lia|lia|].
      pose proof (within_from_samples (Z.of_nat sr) (Z.of_nat n) Hsr ltac:(lia)) as W. unfold SamplerTime.within in W. lia. }
    pose proof (Hround rem Hrem) as R1.
    set (pos := sa_position s) in *. clearbody pos. set (t := from_samples (f64_of_Z (Z.of_nat rem)) _) in *.
    set (t' := from_samples (f64_of_Z (Z.of_nat rem')) _) in *. clearbody t t'.
    destruct (Z.ltb_spec (pos + t) E) as [Hlt|Hge].
    { assert ((pos + t - pos)%Z = t) as Et by (unfold timestamp in *; lia). rewrite Et, R1 in H0. lia. }
    assert (Hz : (f64_round_usize (as_samples (E - pos) (Z.of_nat sr)) <= 0)%Z) by lia.
    destruct (Z.ltb_spec (pos + t') E) as [Hlt'|Hge']; [|lia].
    assert ((f64_round_usize (as_samples (pos + t' - pos) (Z.of_nat sr)) <= f64_round_usize (as_samples (E - pos) (Z.of_nat sr)))%Z); [|lia].
    apply round_mono, as_samples_mono_all; unfold timestamp in *; lia.
  Qed.

  Lemma process_no_loop rem : ∀ s out ov fp, sa_loop s = None → Forall voice_ok (sa_voices s) →
    wf out → valid_view out ov → (fp + rem)%nat = v_frames out ov → (Z.of_nat (v_frames out ov) <= 2 ^ 20)%Z →
    ∃ s' out' hs, process_sample (S rem) s out ov fp = Ok (s', out') ∧ mixed ov fp hs out out' ∧ length hs = rem ∧
      sa_loop s' = None ∧ Forall voice_ok (sa_voices s') ∧
      (finished s → s' = s ∧ silent_after 0 hs) ∧
      ∀ R, Forall (ending R) (sa_voices s) →
        silent_after R hs ∧ (Forall (ending (R - rem)) (sa_voices s') ∨ finished s').
  Proof.
    induction rem as [rem IH] using (well_founded_induction lt_wf).
    intros s out ov fp Hl Hok Hw Hv Hfp Hsz.
    assert (Hrep : ∀ n, silent_after 0 (replicate n ([] : list heard))).
    { intros n j _. destruct (replicate n [] !! j) eqn:E; [|done]. by apply lookup_replicate in E as [-> _]. }
    assert (Hno : mixed ov fp (replicate rem []) out out).
    { apply mixed_noop; [done|]. intros ch x h Hh. apply elem_of_replicate in Hh as [-> _]. done. }
    cbn [Sampler.process_sample]. destruct (Nat.ltb_spec fp (v_frames out ov)) as [Hlt|Hge].
    2: { assert (rem = 0) as -> by lia. exists s, out, []. split; [done|]. split; [done|].
         do 3 (split; [done|]). split; [done|]. intros R HR. split; [done|]. left. by rewrite Nat.sub_0_r. }
    replace (v_frames out ov - fp) with rem by lia.
    destruct (Nat.eqb_spec (render_count s rem) 0) as [H0|H0].
    { rewrite Hl. exists s, out, (replicate rem []). split; [done|]. split; [done|]. split; [apply replicate_length|].
      do 2 (split; [done|]). split; [intros _; split; [done|apply Hrep]|]. intros R HR. split; [intros j _; apply (Hrep rem j); lia|].
      right. apply (count_zero_finished s rem); [done|lia|done]. }
    set (n := render_count s rem) in *.
    assert (Hn : n ≤ rem) by (unfold n, Sampler.render_count; lia).
    set (r := Range 0 fp (v_channels out ov) n).
    assert (Hsl : slice_frames out ov fp n = Ok (Sub ov r)).
    { unfold slice_frames, slice, range_is_valid. cbn [r_channel r_channels r_frame r_frames].
      destruct (Nat.leb_spec (0 + v_channels out ov) (v_channels out ov)); [|lia].
      destruct (Nat.leb_spec (fp + n) (v_frames out ov)); [done|lia]. }
    assert (Hvs : valid_view out (Sub ov r)) by (cbn; split; [done|]; lia).
    destruct (render_voices_ok one add mul smp fade Hsmp Hfade (sa_voices s) out (Sub ov r) Hw Hvs Hok) as (o1 & Er & Hm1).
    change (v_frames out (Sub ov r)) with n in Er, Hm1.
    apply mixed_sub in Hm1. destruct (mixed_valid _ _ _ _ _ _ _ _ Hm1 Hv) as (W1 & V1 & F1 & C1).
    rewrite Hsl. cbn [rbind]. rewrite Er. cbn [rbind].
    set (s1 := Sampler (all_frames n (sa_voices s)).2 _ _ _ _ _).
    destruct (IH (rem - n) ltac:(lia) s1 o1 ov (fp + n)) as (s2 & o2 & h2 & P1 & P2 & P3 & P4 & P5 & P6 & P7); try done; try lia.
    { by apply all_frames_ok. }
    exists s2, o2, ((all_frames n (sa_voices s)).1 ++ h2).
    pose proof (all_frames_length one fade n (sa_voices s)) as Hlen.
    split.
    { replace rem with (S (rem - n) + (n - 1)) by lia. by apply process_sample_fuel. }
    split; [eapply mixed_app; [eassumption|exact Hm1|by rewrite Hlen]|].
    split; [rewrite app_length; lia|]. do 2 (split; [done|]).
    split.
    { intros Hfin. specialize (Hfin rem ltac:(lia)). done. }
    intros R HR. destruct (ending_frames n R _ Hok HR) as [E1 E2]. destruct (P7 (R - n) E2) as [E3 E4].
    split.
    - intros j Hj. destruct (decide (j < n)) as [Hjn|Hjn].
      + rewrite lookup_app_l by lia. by apply E1.
      + rewrite lookup_app_r by lia. apply E3. lia.
    - destruct E4 as [E4|E4]; [left|by right]. by replace (R - rem) with (R - n - (rem - n)) by lia.
  Qed.

  (** nothing is heard [R] frames from now, or ever *)
  Definition quiet (R : nat) s : Prop :=
    sa_loop s = None ∧ Forall voice_ok (sa_voices s) ∧ (Forall (ending R) (sa_voices s) ∨ finished s).

  Lemma piece_quiet R s out ov pos n : quiet R s → wf out → valid_view out ov → pos + n ≤ v_frames out ov →
    (Z.of_nat n <= 2 ^ 20)%Z →
    ∃ s' out' hs, (∀ k, sampler_piece (S n + k) ov (s, out) pos n = Ok (s', out')) ∧ quiet (R - n) s' ∧
      mixed ov pos hs out out' ∧ length hs = n ∧ silent_after R hs.
  Proof.
    intros (Hl & Hok & Hq) Hw Hv Hpos Hn. set (r := Range 0 pos (v_channels out ov) n).
    assert (Hsl : slice_frames out ov pos n = Ok (Sub ov r)).
    { unfold slice_frames, slice, range_is_valid. cbn [r_channel r_channels r_frame r_frames].
      destruct (Nat.leb_spec (0 + v_channels out ov) (v_channels out ov)); [|lia].
      destruct (Nat.leb_spec (pos + n) (v_frames out ov)); [done|lia]. }
    assert (Hvs : valid_view out (Sub ov r)) by (cbn; split; [done|]; lia).
    destruct (process_no_loop n s out (Sub ov r) 0) as (s' & o' & hs & P1 & P2 & P3 & P4 & P5 & P6 & P7); try done.
    exists s', o', hs. split.
    { intros k. unfold Sampler.sampler_piece. rewrite Hsl. cbn [rbind]. by apply process_sample_fuel. }
    split; [|split; [by eapply mixed_sub|split; [done|]]].
    - split; [done|]. split; [done|]. destruct Hq as [Hq|Hq]; [by apply P7|]. right. destruct (P6 Hq) as [-> _]. done.
    - destruct Hq as [Hq|Hq]; [by apply P7|]. destruct (P6 Hq) as [_ H]. intros j _. apply H. lia.
  Qed.

  Lemma stop_fade (vs : list voice) : voice_stop <$> vs = fade_out <$> vs.
  Proof. apply list_fmap_ext. intros i [p []] _; done. Qed.
  Lemma stop_ok vs : Forall voice_ok vs → Forall voice_ok (voice_stop <$> vs).
  Proof. rewrite stop_fade. eapply fade_out_ok; eassumption. Qed.
  Lemma stop_ending vs : Forall (ending (length fade)) (voice_stop <$> vs).
  Proof. apply Forall_fmap, Forall_true. intros [p []]; cbn; unfold ending; cbn; lia || done. Qed.
  Lemma stop_ending_again R vs : Forall (ending R) vs → Forall (ending R) (voice_stop <$> vs).
  Proof. intros H. apply Forall_fmap. eapply Forall_impl; [exact H|]. intros [p []]; done. Qed.

  Lemma handle_quiet R s e cur : quietening e → quiet R s → quiet R (sampler_handle sr s e cur).
  Proof.
    intros He (Hl & Hok & Hq). unfold quietening in He. unfold sampler_handle. destruct (ev_data e); try done; cbn.
    - split; [done|]. split; [by apply stop_ok|]. destruct Hq as [Hq|Hq]; [left; by apply stop_ending_again|right].
      intros rem Hrem. by apply (Hq rem).
    - unfold set_loop. split; [done|]. split; [done|]. destruct Hq as [Hq|Hq]; [by left|right].
      intros rem Hrem. specialize (Hq rem Hrem). unfold Sampler.render_count, get_render_interval, next_loop_position in *.
      cbn [sa_loop sa_position sa_start sa_loops]. by rewrite Hl in Hq.
    - split; [done|]. split; [by apply stop_ok|]. destruct Hq as [Hq|Hq]; [left; by apply stop_ending_again|right].
      intros rem Hrem. specialize (Hq rem Hrem). unfold Sampler.render_count, get_render_interval, next_loop_position in *.
      cbn [sa_loop sa_position sa_start sa_loops set_loop sampler_stop]. by rewrite Hl in Hq.
  Qed.

  Lemma pieces_quiet ov : ∀ l R s out cur pos, quiet R s → wf out → valid_view out ov →
    (Z.of_nat (v_frames out ov) <= 2 ^ 20)%Z → cut (v_frames out ov) pos l →
    Forall (λ p, from_option quietening True p.2) l →
    ∃ s' out' cur' hs, (∀ k, do_pieces (S (v_frames out ov) + k) ov l ((s, out), cur) = Ok ((s', out'), cur')) ∧
      quiet (R - (v_frames out ov - pos)) s' ∧ mixed ov pos hs out out' ∧ length hs = v_frames out ov - pos ∧ silent_after R hs.
  Proof.
    induction l as [|[[p n] e] l IH]; intros R s out cur pos Hq Hw Hv Hsz Hcut Hqu; [done|].
    apply Forall_cons in Hqu as [He Hqu]. cbn in He.
    assert (p = pos ∧ pos + n ≤ v_frames out ov) as [-> Hpn] by (cbn in Hcut; destruct e; lia).
    destruct (piece_quiet R s out ov pos n Hq Hw Hv) as (s1 & o1 & h1 & P1 & P2 & P3 & P4 & P5); [lia|lia|].
    destruct (mixed_valid _ _ _ _ _ _ _ _ P3 Hv) as (W1 & V1 & F1 & C1).
    assert (P1' : ∀ k, sampler_piece (S (v_frames out ov) + k) ov (s, out) pos n = Ok (s1, o1)).
    { intros k. rewrite <-(P1 (v_frames out ov - n + k)). f_equal. lia. }
    set (cur' := incremented_by_samples cur (Z.of_nat n) (Z.of_nat sr)) in *.
    destruct e as [e|].
    - cbn [cut] in Hcut. destruct Hcut as (_ & Hlt & Hcut). rewrite <-F1 in Hcut.
      destruct (IH (R - n) (sampler_handle sr s1 e cur') o1 cur' (pos + n)) as (s2 & o2 & cur2 & h2 & Q1 & Q2 & Q3 & Q4 & Q5); try done.
      { by apply handle_quiet. }
      { by rewrite F1. }
      rewrite F1 in Q1, Q2, Q4. exists s2, o2, cur2, (h1 ++ h2). split.
      { intros k. cbn [rfold]. unfold do_piece at 1. rewrite P1'. cbn [rbind sampler_act]. fold cur'. apply Q1. }
      split; [by replace (R - (v_frames out ov - pos)) with (R - n - (v_frames out ov - (pos + n))) by lia|].
      split; [eapply mixed_app; [eassumption|exact P3|by rewrite P4]|]. split; [rewrite app_length; lia|].
      intros j Hj. destruct (decide (j < n)) as [Hjn|Hjn].
      + rewrite lookup_app_l by lia. by apply P5.
      + rewrite lookup_app_r by lia. apply Q5. lia.
    - cbn [cut] in Hcut. destruct Hcut as (_ & Hend & ->). exists s1, o1, cur', h1. split.
      { intros k. cbn [rfold]. unfold do_piece. rewrite P1'. done. }
      split; [by replace (v_frames out ov - pos) with n by lia|]. split; [done|]. split; [lia|done].
  Qed.

  Lemma pieces_forall (P : event sample_action → Prop) start fc : ∀ d pos, Forall P d →
    Forall (λ p, from_option P True p.2) (pieces sr start fc pos d).
  Proof. induction d as [|e d IH]; intros pos H; cbn; [by repeat constructor|]. apply Forall_cons in H as [? ?]. constructor; [done|]. by apply IH. Qed.

  Lemma delivered_forall (P : event sample_action → Prop) waiting sent live start fc d rest :
    surviving waiting sent live → delivers sr start fc live d rest → Forall P waiting → Forall P sent →
    Forall P d ∧ Forall P rest.
  Proof.
    intros Hs (Hd & _) Hw Hse. apply Forall_app. rewrite <-Hd. destruct Hs as [[_ Hs]|(o & c & n & -> & _ & _ & Hs)]; rewrite Hs.
    - by apply Forall_app.
    - by apply Forall_app in Hse as [_ ?].
  Qed.

  Lemma mixed_silent R k ov hs out out' from : mixed ov 0 hs out out' → silent_after R hs → from ≤ k + R →
    ∀ ch fr, k + R ≤ k + (fr - off_fr ov) → sample out' ch fr = sample out ch fr.
  Proof.
    intros (_ & _ & S) Hs Hk ch fr Hfr. rewrite S. case_decide as Hr; [|done]. unfold in_rect in Hr.
    rewrite Hs by lia. by destruct (sample out ch fr).
  Qed.

  Lemma silent_from_all : ∀ bs outs from from' k, from ≤ k → silent_from from k bs outs → silent_from from' k bs outs.
  Proof.
    induction bs as [|b bs IH]; intros [|out outs] from from' k Hk H; try done. destruct H as [H1 H2]. split.
    - intros ch fr _. apply H1. lia.
    - eapply IH; [|exact H2]. lia.
  Qed.

  (** The run goes on silently: [R] frames from now at the latest. *)
  Lemma stays_silent : ∀ bs waiting R k s, Forall (sblock_ok sr) bs → StronglySorted ev_before waiting →
    Forall quietening waiting → Forall (λ b, Forall quietening (sb_sent b)) bs → quiet R s →
    ∃ fuel outs, sampler_run fuel sr (EvProc waiting [] sr) s bs = Ok outs ∧ silent_from (k + R) k bs outs.
  Proof.
    induction bs as [|b bs IH]; intros waiting R k s Hbs Hsort Hwq Hsq Hq.
    { exists 0, []. done. }
    apply Forall_cons in Hbs as [(Hw & Hv & Hbk) Hbs]. apply Forall_cons in Hsq as [Hsb Hsq].
    destruct (event_block_all sr Hsr (sb_start b) (v_frames (sb_out b) (sb_view b))
      (EvProc waiting (sb_sent b) sr) Hbk eq_refl Hsort) as (live & d & rest & D1 & D2 & D3 & D4 & D5).
    destruct (delivered_forall quietening _ _ _ _ _ _ _ D1 D2 Hwq Hsb) as [Hd Hrest].
    assert (Hsz : (Z.of_nat (v_frames (sb_out b) (sb_view b)) <= 2 ^ 20)%Z) by (destruct Hbk as (? & ? & ?); lia).
    destruct (pieces_quiet (sb_view b) _ R s (sb_out b) (sb_start b) 0 Hq Hw Hv Hsz D3 (pieces_forall _ _ _ _ _ Hd))
      as (s' & o' & cur' & hs & P1 & P2 & P3 & P4 & P5).
    rewrite Nat.sub_0_r in P2. fold (frames_in b) in *.
    destruct (IH rest (R - frames_in b) (k + frames_in b) s' Hbs D4 Hrest Hsq P2) as (f2 & outs & R1 & R2).
    exists (S (frames_in b) + f2), (o' :: outs). split.
    - cbn [SamplerSpec.sampler_run]. rewrite send_all. cbn [ep_pending ep_channel ep_rate app]. unfold sampler_block.
      rewrite D5. fold (frames_in b). rewrite P1. cbn [rbind].
      rewrite (Nat.add_comm (S (frames_in b)) f2), (sampler_run_fuel one add mul smp fade sr (S (frames_in b)) f2 _ _ _ _ R1). done.
    - cbn [silent_from]. split.
      + intros ch fr Hfr. eapply mixed_silent; [exact P3|exact P5|reflexivity|]. done.
      + destruct (decide (frames_in b ≤ R)) as [HR|HR].
        * by replace (k + R) with (k + frames_in b + (R - frames_in b)) by lia.
        * eapply silent_from_all; [|exact R2]. lia.
  Qed.

  (** ** The stop *)
  Theorem stops b bs e s : Forall (sblock_ok sr) (b :: bs) → sb_sent b = [e] →
    Forall (λ b, Forall quietening (sb_sent b)) bs →
    ev_data e = SStop ∧ ev_clear e = false ∧ sa_loop s = None ∨ ev_data e = SCancelAll ∧ ev_clear e = true →
    (ev_time e <= sb_start b)%Z → Forall voice_ok (sa_voices s) →
    ∃ fuel outs, sampler_run fuel sr (new_evproc sr) s (b :: bs) = Ok outs ∧
      silent_from (length fade) 0 (b :: bs) outs.
  Proof.
    intros Hbs Hsent Hsq He Ht Hok. apply Forall_cons in Hbs as [(Hw & Hv & Hbk) Hbs].
    destruct (event_block_all sr Hsr (sb_start b) (v_frames (sb_out b) (sb_view b))
      (EvProc [] (sb_sent b) sr) Hbk eq_refl) as (live & d & rest & D1 & D2 & D3 & D4 & D5); [constructor|].
    fold (frames_in b) in *.
    assert (Hend : (sb_start b < block_end sr (sb_start b) (frames_in b))%Z).
    { destruct Hbk as (Hb1 & Hb2 & _). unfold block_end, incremented_by_samples.
      pose proof (within_from_samples (Z.of_nat sr) (Z.of_nat (frames_in b)) Hsr ltac:(lia)) as W.
      unfold SamplerTime.within in W. set (t := from_samples _ _) in *. clearbody t.
      enough (0 < t * Z.of_nat sr)%Z as H by (apply Z.mul_pos_cancel_r in H; lia). lia. }
    assert (Hlive : live ≡ₚ [e]).
    { cbn [ep_pending ep_channel] in D1. rewrite Hsent in D1. destruct D1 as [[_ D1]|(o & c & n & E & _ & _ & D1)]; [done|].
      destruct o as [|x o]; cbn in E; [by injection E as <- <-|]. injection E as _ E. by destruct o. }
    destruct D2 as (D2 & _ & _ & D6). rewrite Hlive in D2. symmetry in D2. apply Permutation_singleton_r in D2.
    assert (d = [e] ∧ rest = []) as [-> ->].
    { destruct d as [|x d]; cbn in D2.
      - subst rest. apply Forall_cons in D6 as [D6 _]. lia.
      - injection D2 as -> D2. by apply app_eq_nil in D2 as [-> ->]. }
    assert (Hf : frame_of sr (sb_start b) e = 0) by (unfold frame_of; rewrite position_late; lia).
    cbn [pieces] in D3, D5. rewrite Hf in D3, D5. rewrite Nat.sub_0_r in D5. change (0 - 0) with 0 in D5.
    set (s1 := sampler_handle sr s e (incremented_by_samples (sb_start b) (Z.of_nat 0) (Z.of_nat sr))).
    assert (Hq1 : quiet (length fade) s1).
    { unfold s1, sampler_handle. destruct He as [(-> & _ & Hl)|(-> & _)]; cbn.
      - split; [done|]. split; [by apply stop_ok|]. left. apply stop_ending.
      - split; [done|]. split; [by apply stop_ok|]. left. apply stop_ending. }
    assert (Hsz : (Z.of_nat (frames_in b) <= 2 ^ 20)%Z) by (destruct Hbk as (? & ? & ?); lia).
    destruct (piece_quiet _ s1 (sb_out b) (sb_view b) 0 (frames_in b) Hq1 Hw Hv) as (s2 & o2 & hs & P1 & P2 & P3 & P4 & P5); [done|lia|].
    destruct (stays_silent bs [] (length fade - frames_in b) (frames_in b) s2 Hbs) as (f2 & outs & R1 & R2); try done.
    exists (S (frames_in b) + f2), (o2 :: outs). split.
    - cbn [SamplerSpec.sampler_run]. rewrite send_all. cbn [new_evproc ep_pending ep_channel ep_rate app]. unfold sampler_block.
      fold (frames_in b). rewrite D5. cbn [rfold]. unfold do_piece at 1.
      assert (sampler_piece (S (frames_in b) + f2) (sb_view b) (s, sb_out b) 0 0 = Ok (s, sb_out b)) as ->.
      { unfold Sampler.sampler_piece, slice_frames, slice, range_is_valid. cbn [r_channel r_channels r_frame r_frames].
        destruct (Nat.leb_spec (0 + v_channels (sb_out b) (sb_view b)) (v_channels (sb_out b) (sb_view b))); [|lia].
        destruct (Nat.leb_spec (0 + 0) (v_frames (sb_out b) (sb_view b))); [|lia]. cbn. done. }
      cbn [rbind sampler_act]. fold s1. unfold do_piece. rewrite ?Nat.sub_0_r. rewrite P1. cbn [rbind].
      rewrite (Nat.add_comm (S (frames_in b)) f2), (sampler_run_fuel one add mul smp fade sr (S (frames_in b)) f2 _ _ _ _ R1). done.
    - cbn [silent_from]. split.
      + intros ch fr Hfr. eapply (mixed_silent (length fade) 0); [exact P3|exact P5|reflexivity|]. done.
      + cbn [plus]. destruct (decide (frames_in b ≤ length fade)) as [HR|HR].
        * by replace (length fade) with (frames_in b + (length fade - frames_in b)) at 1 by lia.
        * eapply silent_from_all; [|exact R2]. lia.
  Qed.

  (** ** Fades never run out *)
  Lemma slice_valid (out : owned A) ov f n sv : slice_frames out ov f n = Ok sv → valid_view out ov →
    valid_view out sv ∧ sv = Sub ov (Range 0 f (v_channels out ov) n).
  Proof.
    unfold slice_frames, slice, range_is_valid. cbn [r_channel r_channels r_frame r_frames].
    destruct (Nat.leb_spec (0 + v_channels out ov) (v_channels out ov)); [|done].
    destruct (Nat.leb_spec (f + n) (v_frames out ov)); [|done]. intros [= <-] Hv. cbn. split; [|done]. split; [done|]. lia.
  Qed.

  Lemma assign_ok t s : Forall voice_ok (sa_voices s) → Forall voice_ok (sa_voices (assign_voice sr t s)).
  Proof.
    intros Hok. destruct (start_voice_move sr _ s t eq_refl) as (M1 & _).
    pose proof (move_to_ok one add mul smp fade sr Hfade (Z.to_nat (f64_round_usize (as_samples t (Z.of_nat sr)))) (sa_voices s) (sa_active s) Hok) as H.
    rewrite <-M1 in H. done.
  Qed.

  Lemma process_keeps : ∀ fuel s out ov fp s' out', Forall voice_ok (sa_voices s) → wf out → valid_view out ov →
    process_sample fuel s out ov fp = Ok (s', out') → Forall voice_ok (sa_voices s') ∧ wf out' ∧ same_dims out out'.
  Proof.
    induction fuel as [|fuel IH]; intros s out ov fp s' out' Hok Hw Hv; cbn [Sampler.process_sample];
      destruct (fp <? v_frames out ov); try done; try (by intros [= <- <-]).
    destruct (Nat.eqb _ 0).
    - destruct (sa_loop s) as [[ls le]|] eqn:El; [|by intros [= <- <-]]. intros H. eapply IH in H; [exact H| |done|done].
      unfold finish_sample. rewrite El. by apply assign_ok.
    - destruct (slice_frames out ov fp _) as [sv|] eqn:Es; cbn [rbind]; [|done].
      destruct (slice_valid _ _ _ _ _ Es Hv) as [Hvs ->].
      destruct (render_voices_ok one add mul smp fade Hsmp Hfade (sa_voices s) out _ Hw Hvs Hok) as (o1 & Er & Hm1).
      rewrite Er. cbn [rbind]. destruct Hm1 as (W1 & D1 & _). intros H. eapply IH in H as (H1 & H2 & H3); [| |done|].
      + split; [done|]. split; [done|]. by eapply same_dims_trans.
      + cbn [sa_voices]. by apply all_frames_ok.
      + by destruct (same_dims_view _ _ ov D1) as (? & ? & H' & _); apply H'.
  Qed.

  Lemma handle_keeps s e cur : Forall voice_ok (sa_voices s) → Forall voice_ok (sa_voices (sampler_handle sr s e cur)).
  Proof.
    intros Hok. unfold sampler_handle. destruct (ev_data e); cbn; try done; try (by apply stop_ok).
    - by apply assign_ok.
    - by apply assign_ok.
  Qed.

  Lemma pieces_keep fuel ov : ∀ l s out cur s' out' cur', Forall voice_ok (sa_voices s) → wf out → valid_view out ov →
    do_pieces fuel ov l ((s, out), cur) = Ok ((s', out'), cur') → Forall voice_ok (sa_voices s').
  Proof.
    induction l as [|[[p n] e] l IH]; intros s out cur s' out' cur' Hok Hw Hv; cbn [rfold]; [by intros [= <- _ _]|].
    unfold do_piece at 1. unfold Sampler.sampler_piece at 1.
    destruct (slice_frames out ov p n) as [sv|] eqn:Es; cbn [rbind]; [|done].
    destruct (slice_valid _ _ _ _ _ Es Hv) as [Hvs _].
    destruct (process_sample fuel s out sv 0) as [[s1 o1]|] eqn:Ep; cbn [rbind]; [|done].
    destruct (process_keeps _ _ _ _ _ _ _ Hok Hw Hvs Ep) as (K1 & K2 & K3).
    assert (valid_view o1 ov) by (by destruct (same_dims_view _ _ ov K3) as (? & ? & H' & _); apply H').
    destruct e as [e|]; cbn [rbind sampler_act]; intros H1; (eapply IH; [| | |exact H1]; [|done|done]); [by apply handle_keeps|done].
  Qed.

  Theorem states_ok : ∀ bs fuel waiting s q' s', Forall (sblock_ok sr) bs → StronglySorted ev_before waiting →
    Forall voice_ok (sa_voices s) → sampler_after one add mul smp fade fuel sr (EvProc waiting [] sr) s bs = Ok (q', s') →
    Forall voice_ok (sa_voices s').
  Proof.
    induction bs as [|b bs IH]; intros fuel waiting s q' s' Hbs Hsort Hok; cbn [sampler_after]; [by intros [= _ <-]|].
    apply Forall_cons in Hbs as [(Hw & Hv & Hbk) Hbs].
    destruct (event_block_all sr Hsr (sb_start b) (v_frames (sb_out b) (sb_view b))
      (EvProc waiting (sb_sent b) sr) Hbk eq_refl Hsort) as (live & d & rest & D1 & D2 & D3 & D4 & D5).
    rewrite send_all. cbn [ep_pending ep_channel ep_rate app]. unfold sampler_block. rewrite D5.
    destruct (do_pieces _ _ _ _) as [[[s1 o1] cur1]|] eqn:Ed; cbn [rbind]; [|done].
    intros H. eapply IH; [exact Hbs|exact D4| |exact H]. eapply pieces_keep; [exact Hok|exact Hw|exact Hv|exact Ed].
  Qed.
End proofs.
