(** No processor changes the shape of the block it writes to. *)
From stdpp Require Import gmap list list_numbers strings.
From Coq Require Import ZArith Lia ZifyBool ZifyNat Reals.
From Verif Require Import Base Buffer BufferSpec BufferProofs Effect Float Timestamp EventProcessor Mixer MixerR Biquad Convolution Arith Oscillator Adsr Sampler
  OscillatorSpec Compressor Resample Waveshaper DspGraph DspGraphSpec AudioParam AudioParamR Node Effects.

Local Open Scope nat_scope.
Definition kept {A} (o o' : owned A) : Prop := length (data o') = length (data o) ∧ same_dims o o'.
Section kept.
Context {A : Type}.
Implicit Types o b out : owned A.
Lemma kept_refl o : kept o o.
Proof. done. Qed.
Lemma kept_trans o o1 o2 : kept o o1 → kept o1 o2 → kept o o2.
Proof. intros (L1 & A1 & A2 & A3) (L2 & B1 & B2 & B3). split; [congruence|]. split; [congruence|]. split; congruence. Qed.
Lemma seg_zip_length {B} (f : B → A → A) d st src : length (seg_zip f d st src) = length d.
Proof. unfold seg_zip. rewrite !app_length, zip_with_length, !take_length, !drop_length. lia. Qed.
Lemma kept_zip {B} (f : B → A → A) o st src : kept o (with_data o (seg_zip f (data o) st src)).
Proof. split; [apply seg_zip_length|done]. Qed.

(** a computation that keeps the shape when it succeeds *)
Definition keeps {X} (out : X → owned A) (o : owned A) (r : res X) : Prop := match r with Ok x => kept o (out x) | Panic _ => True end.
Lemma keeps_bind {X Y} (out : Y → owned A) o (r : res X) (f : X → res Y) : (∀ x, r = Ok x → keeps out o (f x)) → keeps out o (let? x := r in f x).
Proof. destruct r as [x|]; cbn [rbind]; [|done]. intros H. by apply H. Qed.
Lemma keeps_rassert {X} (out : X → owned A) o (c : bool) p (r : res X) : keeps out o r → keeps out o (rassert c p r).
Proof. by destruct c. Qed.
Lemma keeps_trans {X} (out : X → owned A) o o1 (r : res X) : kept o o1 → keeps out o1 r → keeps out o r.
Proof. destruct r as [x|]; [|done]. apply kept_trans. Qed.
Lemma keeps_fold {X S} (out : S → owned A) (f : S → X → res S) l : (∀ s x, keeps out (out s) (f s x)) → ∀ s, keeps out (out s) (rfold f l s).
Proof.
  intros H. induction l as [|x l IH]; intros s; cbn [rfold]; [apply kept_refl|]. apply keeps_bind. intros s' E.
  eapply keeps_trans; [|apply IH]. specialize (H s x). by rewrite E in H.
Qed.

Notation keeps1 := (keeps (λ o, o)).
Lemma combine_keeps f o ov src sv sc sf dc df cc fc : keeps1 o (combine_from f o ov src sv sc sf dc df cc fc).
Proof. apply (keeps_fold (λ o, o)). intros s x. do 2 (apply keeps_bind; intros ? _). apply kept_zip. Qed.
Lemma copy_keeps o ov src sv sc sf dc df cc fc : keeps1 o (copy_from o ov src sv sc sf dc df cc fc).
Proof. apply combine_keeps. Qed.
Lemma add_keeps add o ov src sv sc sf dc df cc fc : keeps1 o (add_from add o ov src sv sc sf dc df cc fc).
Proof. unfold add_from. destruct (_ || _); [apply kept_refl|apply combine_keeps]. Qed.
Lemma add_gain_keeps add mul o ov src sv sc sf dc df cc fc g : keeps1 o (add_from_with_gain add mul o ov src sv sc sf dc df cc fc g).
Proof. unfold add_from_with_gain. destruct (_ || _); [apply kept_refl|apply combine_keeps]. Qed.
Lemma set_sample_keeps o ov ch fr x : keeps1 o (set_sample o ov ch fr x).
Proof. unfold set_sample, fill_seg. apply keeps_bind. intros ? _. apply kept_zip. Qed.
Lemma apply_gain_keeps zero is_zero is_one mul o ov gain : keeps1 o (apply_gain zero is_zero is_one mul o ov gain).
Proof.
  unfold apply_gain. destruct (forallb _ _); [|destruct (forallb _ _)]; [|apply kept_refl|].
  - apply (keeps_fold (λ o, o)). intros s x. unfold fill_channel_with_value. apply keeps_bind. intros [] _. apply kept_zip.
  - apply (keeps_fold (λ o, o)). intros s x. apply keeps_bind. intros [] _. apply kept_zip.
Qed.
Lemma zip_channels_keeps {B} (f : B → A → A) row ov cc o : keeps1 o (zip_channels f row ov cc o).
Proof. apply (keeps_fold (λ o, o)). intros s x. apply keeps_bind. intros [] _. apply keeps_bind. intros ? _. apply kept_zip. Qed.
Lemma duplicate_keeps o v ch fr to n : keeps1 o (duplicate_channel_in o v ch fr to n).
Proof.
  unfold duplicate_channel_in, duplicate_channel. apply keeps_bind. intros d E. unfold data_copy_within in E.
  destruct (_ && _); [|done]. injection E as <-. apply kept_zip.
Qed.

(** one step, then the rest *)
Lemma keeps_step {X} (out : X → owned A) o (r : res (owned A)) f : keeps1 o r → (∀ o1, keeps out o1 (f o1)) → keeps out o (let? x := r in f x).
Proof. intros H1 H2. apply keeps_bind. intros o1 E. eapply keeps_trans; [|apply H2]. by rewrite E in H1. Qed.
Lemma keeps_ok {X} (out : X → owned A) x : keeps out (out x) (Ok x).
Proof. apply kept_refl. Qed.

Lemma event_loop_keeps {P S} (render : S → nat → nat → res S) (handle : S → event P → timestamp → res S) (out : S → owned A) sr fc start :
  (∀ s p n, keeps out (out s) (render s p n)) → (∀ s e t, keeps out (out s) (handle s e t)) →
  ∀ fuel pending pos cur s, keeps (λ r, out r.2) (out s) (event_loop render handle fuel sr fc start pending pos cur s).
Proof.
  intros Hr Hh. induction fuel as [|fuel IH]; intros pending pos cur s; cbn [event_loop]; (destruct (pos <? fc); [|apply kept_refl]); [done|].
  destruct (next_event sr start cur fc pending) as [[ef e] rest]. destruct (ef <? pos); [done|].
  apply keeps_bind. intros s1 E1. specialize (Hr s pos (ef - pos)). rewrite E1 in Hr. eapply keeps_trans; [exact Hr|].
  destruct e as [e|]; [|cbn [rbind]; apply IH]. apply keeps_bind. intros s2 E2.
  specialize (Hh s1 e (incremented_by_samples cur (Z.of_nat (ef - pos)) (Z.of_nat sr))). rewrite E2 in Hh. eapply keeps_trans; [exact Hh|apply IH].
Qed.
Lemma event_block_keeps {P S} (render : S → nat → nat → res S) (handle : S → event P → timestamp → res S) (out : S → owned A) start fc q s :
  (∀ s p n, keeps out (out s) (render s p n)) → (∀ s e t, keeps out (out s) (handle s e t)) →
  keeps (λ r, out r.2) (out s) (event_block render handle start fc q s).
Proof.
  intros Hr Hh. unfold event_block. apply keeps_bind. intros [rest s'] E.
  pose proof (event_loop_keeps render handle out (ep_rate q) fc start Hr Hh (Datatypes.S (length (ep_pending (receive_events q)))) (ep_pending (receive_events q)) 0 start s) as H.
  rewrite E in H. exact H.
Qed.

(** ** The sampler *)
Section sampler.
Context (one : A) (add mul : A → A → A) (smp : owned A) (fade : list A) (sr : nat).
Lemma render_playing_keeps v out ov off : keeps1 out (render_playing add smp v out ov off).
Proof. unfold render_playing. destruct (_ <=? _); [apply kept_refl|]. destruct (_ <? _); [done|]. apply add_keeps. Qed.
Lemma render_fade_keeps v out ov off fp fi : keeps snd out (render_fade one add mul smp fade v out ov off fp fi).
Proof.
  unfold render_fade. destruct (_ <? _); [done|]. destruct (_ <? _); [done|]. apply (keeps_step snd); [|intros o1; apply kept_refl].
  apply (keeps_fold (λ o, o)). intros s x. destruct (_ <=? _); [apply kept_refl|]. apply keeps_bind. intros g _.
  apply (keeps_fold (λ o, o)). intros s1 x1. do 2 (apply keeps_bind; intros ? _). apply set_sample_keeps.
Qed.
Lemma voice_loop_keeps fuel : ∀ v out ov off, keeps snd out (voice_loop one add mul smp fade fuel v out ov off).
Proof.
  induction fuel as [|fuel IH]; intros v out ov off; cbn [voice_loop]; (destruct (off <? v_frames out ov); [|apply kept_refl]); [done|].
  destruct (vo_phase v) as [|k| |k]; [apply kept_refl| | |].
  - apply keeps_bind. intros [n o1] E. pose proof (render_fade_keeps v out ov off k true) as H. rewrite E in H. eapply keeps_trans; [exact H|apply IH].
  - apply keeps_bind. intros o1 E. pose proof (render_playing_keeps v out ov off) as H. rewrite E in H. eapply keeps_trans; [exact H|apply IH].
  - apply keeps_bind. intros [n o1] E. pose proof (render_fade_keeps v out ov off k false) as H. rewrite E in H. eapply keeps_trans; [exact H|apply IH].
Qed.
Lemma render_voices_keeps vs : ∀ out ov, keeps snd out (render_voices one add mul smp fade vs out ov).
Proof.
  induction vs as [|v vs IH]; intros out ov; cbn [render_voices]; [apply kept_refl|]. apply keeps_bind. intros [v' o1] E.
  eapply (keeps_trans _ _ o1).
  - unfold voice_render in E. destruct (voice_is_stopped v); [injection E as <- <-; apply kept_refl|].
    pose proof (voice_loop_keeps 4 v out ov 0) as H. by rewrite E in H.
  - apply keeps_bind. intros [vs' o2] E2. pose proof (IH o1 ov) as H. by rewrite E2 in H.
Qed.
Lemma process_sample_keeps fuel : ∀ s out ov fp, keeps snd out (process_sample one add mul smp fade sr fuel s out ov fp).
Proof.
  induction fuel as [|fuel IH]; intros s out ov fp; cbn [process_sample]; (destruct (fp <? v_frames out ov); [|apply kept_refl]); [done|].
  destruct (Nat.eqb _ 0).
  - destruct (sa_loop s); [apply IH|apply kept_refl].
  - apply keeps_bind. intros sv _. apply keeps_bind. intros [vs o1] E. pose proof (render_voices_keeps (sa_voices s) out sv) as H. rewrite E in H.
    eapply keeps_trans; [exact H|apply IH].
Qed.
Lemma sampler_block_keeps fuel start ov q s out : keeps snd out (sampler_block one add mul smp fade sr fuel start ov q s out).
Proof.
  unfold sampler_block. apply keeps_bind. intros [q' [s' o1]] E.
  pose proof (event_block_keeps (sampler_piece one add mul smp fade sr fuel ov) (sampler_act sr) snd start (v_frames out ov) q (s, out)) as H. rewrite E in H.
  apply H.
  - intros [s0 o0] p n. unfold sampler_piece. apply keeps_bind. intros sv _. apply process_sample_keeps.
  - intros [s0 o0] e t. apply kept_refl.
Qed.
End sampler.
End kept.

(** ** The processors *)
Notation keeps1 := (keeps (λ o, o)).
Lemma gain_keeps g i iv o ov : keeps1 o (gain_process_R g i iv o ov).
Proof. unfold gain_process_R, gain_process. apply keeps_step; [apply copy_keeps|]. intros o1. apply apply_gain_keeps. Qed.
Lemma pan_keeps g i iv o ov : keeps1 o (pan_process_R g i iv o ov).
Proof.
  unfold pan_process_R, pan_process. apply (keeps_fold (λ o, o)). intros s x. unfold pan_frame. do 3 (apply keeps_bind; intros ? _).
  apply keeps_step; [apply set_sample_keeps|]. intros o1. apply set_sample_keeps.
Qed.
Lemma mixer_keeps x i iv o ov : keeps snd o (mixer_process_R x i iv o ov).
Proof.
  unfold mixer_process_R, mixer_process. apply keeps_step; [|intros; apply kept_refl].
  apply (keeps_fold (λ o, o)). intros s ch. apply (keeps_fold (λ o, o)). intros s1 ch1. unfold mix_pair. apply keeps_bind. intros g _.
  destruct (level_is_zero g); [apply kept_refl|]. destruct (level_is_unity g); [apply add_keeps|apply add_gain_keeps].
Qed.
Lemma bq_channel_keeps c i iv ov fr s ch : keeps snd s.2 (bq_channel c i iv ov fr s ch).
Proof.
  destruct s as [ds o]. unfold bq_channel. do 2 (apply keeps_bind; intros ? _). apply keeps_step; [apply set_sample_keeps|]. intros; apply kept_refl.
Qed.
Lemma bq_frame_keeps f q g i iv ov s fr : keeps snd s.2 (bq_frame f q g i iv ov s fr).
Proof.
  destruct s as [b o]. unfold bq_frame. do 3 (apply keeps_bind; intros ? _). destruct (if same_parameters _ _ then _ else _) as [c last].
  apply keeps_bind. intros [ds o2] E. pose proof (keeps_fold snd _ (seq 0 (v_channels o ov)) (bq_channel_keeps c i iv ov fr) (bq_delays b, o)) as H.
  by rewrite E in H.
Qed.
Lemma biquad_keeps f q s g i iv o ov b : keeps snd o (bq_process f q s g i iv o ov b).
Proof.
  unfold bq_process. apply keeps_bind. intros [b1 o1] E. apply (keeps_trans _ _ o1).
  - pose proof (keeps_fold snd _ (seq 0 (v_frames o ov)) (bq_frame_keeps f q s i iv ov) (b, o)) as H. by rewrite E in H.
  - apply keeps_step; [apply apply_gain_keeps|]. intros; apply kept_refl.
Qed.
Lemma convolution_keeps wet dry i iv o ov c : keeps snd o (conv_process wet dry i iv o ov c).
Proof.
  unfold conv_process. apply keeps_bind. intros offsets _.
  apply (keeps_fold snd (conv_chunk wet dry i iv ov) offsets) with (s := (c, o)). intros [c0 o0] off. unfold conv_chunk.
  do 5 (apply keeps_bind; intros ? _). apply keeps_step; [apply zip_channels_keeps|]. intros o1. apply keeps_step; [apply zip_channels_keeps|]. intros; apply kept_refl.
Qed.
Lemma osc_keeps fuel table phase f g o ov : keeps snd o (osc_process_R fuel table phase f g o ov).
Proof.
  unfold osc_process_R, osc_process. apply keeps_bind. intros [st en] _. apply keeps_bind. intros [phase' row] _.
  eapply keeps_trans; [exact (kept_zip (λ y _, y) o st ((λ x, x) <$> row))|]. apply keeps_step; [apply apply_gain_keeps|]. intros o1. apply keeps_step; [|intros; apply kept_refl].
  apply (keeps_fold (λ o, o)). intros s x. apply duplicate_keeps.
Qed.
Lemma adsr_keeps sr t i iv o ov a : keeps snd o (adsr_process sr t i iv o ov a).
Proof.
  unfold adsr_process. apply keeps_bind. intros [q [e buf]] _. apply keeps_step; [apply zip_channels_keeps|]. intros; apply kept_refl.
Qed.

Lemma gain_reduction_keeps p i iv o ov gr : keeps snd o (process_gain_reduction p i iv o ov gr).
Proof.
  unfold process_gain_reduction. apply keeps_bind. intros gr' _. apply keeps_step; [apply copy_keeps|]. intros o2. apply keeps_bind. intros g _.
  apply keeps_step; [apply apply_gain_keeps|]. intros o3. apply keeps_step; [apply apply_gain_keeps|]. intros; apply kept_refl.
Qed.
Lemma compressor_keeps p i iv o ov c : keeps snd o (comp_process p i iv o ov c).
Proof.
  unfold comp_process. apply keeps_bind. intros c1 _. apply keeps_bind. intros [gr o1] E. apply (keeps_trans _ _ o1).
  - pose proof (gain_reduction_keeps p i iv o ov (cp_gain c1)) as H. by rewrite E in H.
  - apply keeps_step; [|intros; apply kept_refl]. apply (keeps_fold (λ o, o)). intros s ch. apply keeps_bind. intros l _. apply keeps_bind. intros [] _. apply kept_zip.
Qed.
Lemma zip_one_keeps {A B} (f : B → A → A) l ov ch o : keeps1 o (zip_one f l ov ch o).
Proof. unfold zip_one. apply keeps_bind. intros [] _. apply kept_zip. Qed.
Lemma convert_keeps {N} (a : Arith.arith N) o ov src sv sc sf dc df cc : keeps1 o (sample_rate_convert_from a o ov src sv sc sf dc df cc).
Proof. unfold sample_rate_convert_from. apply (keeps_fold (λ o, o)). intros s x. apply keeps_bind. intros ? _. apply keeps_bind. intros [] _. apply keeps_bind. intros ? _. apply kept_zip. Qed.
Lemma shape_keeps w o ov ch : keeps snd o (apply_shape w o ov ch).
Proof.
  unfold apply_shape. do 4 (apply keeps_bind; intros ? _). apply keeps_step; [apply convert_keeps|]. intros; apply kept_refl.
Qed.
Lemma waveshaper_keeps overdrive mix i iv o ov w : keeps snd o (ws_process overdrive mix i iv o ov w).
Proof.
  unfold ws_process. apply (keeps_fold snd _ _) with (s := (w, o)). intros [w0 o0] ch. unfold ws_channel. apply keeps_bind. intros ? _. apply keeps_bind. intros [] _.
  apply keeps_rassert. apply keeps_step; [apply zip_one_keeps|]. intros o1. apply keeps_step; [apply zip_one_keeps|]. intros o2.
  apply keeps_bind. intros [w3 o3] E. apply (keeps_trans _ _ o3). { pose proof (shape_keeps w0 o2 ov ch) as H. by rewrite E in H. }
  apply keeps_step; [apply zip_one_keeps|]. intros o4. apply keeps_step; [apply zip_one_keeps|]. intros; apply kept_refl.
Qed.
(** back to numbers *)
Lemma all_finite_inv b o : all_finite b = Ok o → data b = Some <$> data o ∧ channels b = channels o ∧ frames b = frames o ∧ rate b = rate o.
Proof.
  unfold all_finite. destruct (mapM _ _) as [l|] eqn:E; [|done]. intros H. injection H as <-. split; [|done]. cbn [data]. apply mapM_Some_1 in E.
  induction E as [|x y l l' H H1 IH]; [done|]. cbn. by rewrite H, IH.
Qed.
Lemma finite_keeps {X} (o : owned R) (r : res (X * owned (option R))) f : keeps snd (finite_buffer o) r →
  keeps snd o (let? (x, out) := r in let? o' := all_finite out in Ok (f x : effect, o')).
Proof.
  intros H. apply keeps_bind. intros [x out] E. rewrite E in H. apply keeps_bind. intros o' E'. apply all_finite_inv in E' as (D1 & D2 & D3 & D4).
  destruct H as (L & C1 & C2 & C3). cbn [snd] in *. split; [|split; [|split]].
  - rewrite D1 in L. unfold finite_buffer in L. cbn [data] in L. by rewrite !fmap_length in L.
  - cbn in C1 |- *. congruence. - cbn in C2 |- *. congruence. - cbn in C3 |- *. congruence.
Qed.

Lemma keeps_map {A X Y} (o : owned A) (r : res X) (f : X → Y) (out : X → owned A) (out' : Y → owned A) :
  keeps out o r → (∀ x, out' (f x) = out x) → keeps out' o (let? x := r in Ok (f x)).
Proof. destruct r; cbn; [|done]. intros H ->. done. Qed.
Lemma effect_keeps p t values i o : keeps snd o (effect_run p t values i o).
Proof.
  destruct p; cbn [effect_run].
  - apply keeps_bind. intros g _. apply keeps_step; [apply gain_keeps|]. intros; apply kept_refl.
  - apply keeps_bind. intros g _. apply keeps_step; [apply pan_keeps|]. intros; apply kept_refl.
  - apply keeps_bind. intros [x' o'] E. pose proof (mixer_keeps (mixer_deliver (default [] (head inbox)) x) i Whole o Whole) as H. by rewrite E in H.
  - do 4 (apply keeps_bind; intros ? _). apply keeps_bind. intros [b' o'] E. pose proof (biquad_keeps x x0 x1 x2 i Whole o Whole b) as H. by rewrite E in H.
  - do 2 (apply keeps_bind; intros ? _). apply keeps_bind. intros [c' o'] E. pose proof (convolution_keeps x x0 i Whole o Whole c) as H. by rewrite E in H.
  - do 2 (apply keeps_bind; intros ? _). apply keeps_bind. intros [ph o'] E. pose proof (osc_keeps fuel wavetable phase x x0 o Whole) as H. by rewrite E in H.
  - apply keeps_bind. intros [a' o'] E. pose proof (adsr_keeps (ep_rate (deliver (default [] (head inbox)) (as_queue a))) t i Whole o Whole
      (AdsrState (deliver (default [] (head inbox)) (as_queue a)) (as_env a) (as_buffer a))) as H. by rewrite E in H.
  - apply keeps_bind. intros [[q' s'] o'] E.
    pose proof (sampler_block_keeps 1%R Rplus Rmult smp fade (ep_rate q) fuel t Whole (deliver (default [] (head inbox)) q) s o) as H. by rewrite E in H.
  - do 7 (apply keeps_bind; intros ? _). apply (finite_keeps o _ FCompressor), compressor_keeps.
  - do 2 (apply keeps_bind; intros ? _). apply (finite_keeps o _ FWaveshaper), waveshaper_keeps.
  - apply keeps_bind. intros [r' got'] _. apply kept_refl.
  - apply keeps_bind. intros [[e' unread'] got'] _. apply kept_refl.
Qed.

Lemma effect_shape : proc_shape (dsp_process R_num (λ v, v) effect_run).
Proof.
  intros t st i o st' o' ni no fc E _ (Hw & Hc & Hf). unfold dsp_process in E.
  destruct (process_params _ _ _ _ _) as [m|]; [|done]. cbn [rbind] in E.
  pose proof (effect_keeps (ds_proc st) t (parameter_values (λ v, v) (snd <$> m)) i o) as H.
  destruct (effect_run _ _ _ _ _) as [[p' o1]|]; [|done]. cbn [rbind] in E. injection E as <- <-.
  destruct H as (L & D1 & D2 & D3). cbn [snd] in *. split; [|split; congruence]. unfold wf in *. congruence.
Qed.
