(** What the library's nodes make of their streams. *)
From stdpp Require Import gmap list list_numbers strings sorting.
From Coq Require Import ZArith Lia ZifyBool ZifyNat Reals Lra.
From Verif Require Import Base Graph Buffer BufferSpec BufferProofs EffectSpec EffectProofs DspGraph DspGraphSpec Float Timestamp EventProcessor EventProcessorSpec EventProcessorProofs
  Processor ProcessorSpec AudioParam AudioParamR Mixer MixerR MixerSpec MixerProofs GainProofs ResampleSpec Biquad BiquadSpec BiquadProofs
  Convolution ConvolutionSpec ConvolutionProofs ConvolutionCases Adsr AdsrSpec AdsrProofs Arith Oscillator OscillatorSpec OscillatorProofs OscillatorNode
  Sampler SamplerSpec SamplerProofs SamplerCases Envelope EnvelopeSpec Compressor CompressorSpec CompressorProofs CompressorNode
  Waveshaper WaveshaperSpec WaveshaperProofs WaveshaperCases Node NodeSpec NodeProofs Effects EffectShape EffectsSpec EffectsProofs StreamSpec StreamProofs.
Local Open Scope nat_scope.
Notation round := (@round R R).
Notation run := (runs (λ v : R, v) 0%R effect_run).

(** ** Rounds *)
Definition vals (name : string) (r : round) : list R := default [] (r_values r !! name).
Definition fresh (sr outs : nat) (r : round) : owned R := new_buffer 0%R (r_frames r) outs sr.
Lemma fresh_block sr outs r : is_block (fresh sr outs r) outs (r_frames r).
Proof. split; [apply new_buffer_wf|done]. Qed.
Lemma fresh_seen sr outs r ch fr x : seen (fresh sr outs r) Whole ch fr = Some x → x = 0%R.
Proof.
  unfold seen. case_decide; [|done]. unfold sample, fresh. intros E. cbn in E. case_decide; [|done]. apply lookup_replicate in E. apply E.
Qed.

Lemma vals_run names name (r : round) sr ins outs : round_ok sr ins outs names r → name ∈ names →
  parameter_values (λ v : R, v) (r_values r) name = Ok (vals name r) ∧ length (vals name r) = r_frames r.
Proof.
  intros (_ & _ & _ & Hd & Hl) Hn. assert (is_Some (r_values r !! name)) as [g Hg] by (apply elem_of_dom; by rewrite Hd).
  unfold parameter_values, vals. rewrite Hg. cbn. rewrite list_fmap_id. split; [done|]. by eapply Hl.
Qed.

Lemma at_bind (rs : list round) i : i < sum_list (r_frames <$> rs) → ∃ k r fr, rs !! k = Some r ∧ fr < r_frames r ∧ i = sum_list (r_frames <$> take k rs) + fr ∧
  (∀ ch, at_ (taken 0%R rs ch) i = heard_at 0%R (r_in r) ch fr) ∧ (∀ ch, at_ (given 0%R rs ch) i = heard_at 0%R (r_out r) ch fr) ∧
  ∀ name, (∀ r, r ∈ rs → length (vals name r) = r_frames r) → at_ (values_got name rs) i = at_ (vals name r) fr.
Proof.
  intros Hi. destruct (stream_at rs i Hi) as (k & r & fr & H1 & H2 & H3 & H4). exists k, r, fr. do 3 (split; [done|]).
  assert (Hl : ∀ b ch (r : round), length (heard_at 0%R b ch <$> seq 0 (r_frames r)) = r_frames r) by (intros; by rewrite fmap_length, seq_length).
  split; [|split].
  - intros ch. unfold at_, taken. rewrite (H4 R (λ r, heard_at 0%R (r_in r) ch <$> seq 0 (r_frames r))) by (intros; apply Hl). by rewrite heard_fmap.
  - intros ch. unfold at_, given. rewrite (H4 R (λ r, heard_at 0%R (r_out r) ch <$> seq 0 (r_frames r))) by (intros; apply Hl). by rewrite heard_fmap.
  - intros name Hn. unfold at_. change (values_got name rs) with (rs ≫= vals name). by rewrite (H4 R (vals name)).
Qed.

Lemma seen_heard (b : owned R) cc fc ch fr : is_block b cc fc → ch < cc → fr < fc → seen b Whole ch fr = Some (heard_at 0%R b ch fr).
Proof.
  intros (Hw & Hc & Hf) Hch Hfr. unfold seen. cbn. rewrite decide_True by lia. unfold heard_at.
  destruct (proj2 (sample_is_Some b ch fr Hw)) as [s Hs]; [lia|]. by rewrite Hs.
Qed.

(** the state does not matter *)
Lemma runs_stateless sr outs (p p' : effect) rs : (∀ t v i o p1 o1, effect_run p t v i o = Ok (p1, o1) → p1 = p) → run sr outs p rs p' →
  ∀ r, r ∈ rs → effect_run p (r_time r) (parameter_values (λ v : R, v) (r_values r)) (r_in r) (fresh sr outs r) = Ok (p, r_out r).
Proof.
  intros Hp H. induction H as [|p r p1 rs p2 E H IH]; intros r0 H0; [by apply elem_of_nil in H0|]. pose proof (Hp _ _ _ _ _ _ E) as ->.
  apply elem_of_cons in H0 as [->|H0]; [done|]. by apply IH.
Qed.

(** ** Gain *)
Lemma gain_stream sr cc rs p' names : run sr cc FGain rs p' → Forall (round_ok sr cc cc names) rs → "gain" ∈ names →
  ∀ ch i, ch < cc → i < sum_list (r_frames <$> rs) →
    (Rabs (at_ (given 0 rs ch) i - at_ (taken 0 rs ch) i * at_ (values_got "gain" rs) i) <= / 2 ^ 22 * Rabs (at_ (taken 0 rs ch) i))%R.
Proof.
  intros Hrun Hok Hn ch i Hch Hi. destruct (at_bind rs i Hi) as (k & r & fr & Hr & Hfr & _ & Ht & Hg & Hv).
  rewrite Forall_forall in Hok. rewrite Ht, Hg, Hv by (intros r' Hr'; by eapply vals_run; [apply Hok|]).
  assert (Hin : r ∈ rs) by (by eapply elem_of_list_lookup_2). pose proof (Hok r Hin) as (Hi1 & _ & Ho1 & _).
  destruct (vals_run names "gain" r sr cc cc (Hok r Hin) Hn) as [Ev Lv].
  pose proof (runs_stateless sr cc FGain p' rs) as E. specialize (E ltac:(intros t v i0 o p1 o1; cbn [effect_run]; destruct (v "gain"); [|done]; cbn [rbind]; destruct (gain_process_R _ _ _ _ _); [|done]; cbn [rbind]; intros Eq; by injection Eq as <- <-) Hrun r Hin).
  cbn [effect_run] in E. rewrite Ev in E. cbn [rbind] in E. pose proof Hi1 as (Wi & Ci & Fi). pose proof (fresh_block sr cc r) as (Wf & Cf & Ff).
  destruct (gain_process_ok 0%R (λ g, close32R g 0) (λ g, close32R g 1) Rmult (vals "gain" r) (r_in r) Whole (fresh sr cc r) Whole) as (o' & E' & W); [done..|cbn in *; lia|].
  unfold gain_process_R in E. rewrite E' in E. cbn [rbind] in E. injection E as ->. destruct W as (_ & _ & _ & W).
  destruct (W ch fr) as (x & y & _ & Hy & ->); [done|done|]. rewrite (seen_heard (r_in r) cc (r_frames r)) in Hy by done. cbn [default from_option] in Hy.
  rewrite (seen_heard (r_out r) cc (r_frames r)) in Hy by done. injection Hy as ->. destruct (lookup_lt_is_Some_2 (vals "gain" r) fr) as [v Ev']; [lia|].
  unfold at_ at 1. rewrite Ev'. cbn [default from_option]. by apply gained_error.
Qed.

(** ** Pan *)
Lemma pan_stream sr rs p' names : run sr 2 FPan rs p' → Forall (round_ok sr 2 2 names) rs → "pan" ∈ names →
  ∀ i, i < sum_list (r_frames <$> rs) → let p := at_ (values_got "pan" rs) i in
    (at_ (given 0 rs 0%nat) i = at_ (taken 0 rs 0%nat) i * (if Rle_dec p 0 then 1 else 1 - p) ∧
     at_ (given 0 rs 1%nat) i = at_ (taken 0 rs 1%nat) i * (if Rle_dec 0 p then 1 else 1 + p))%R.
Proof.
  intros Hrun Hok Hn i Hi p. destruct (at_bind rs i Hi) as (k & r & fr & Hr & Hfr & _ & Ht & Hg & Hv).
  rewrite Forall_forall in Hok. subst p. rewrite !Ht, !Hg, Hv by (intros r' Hr'; by eapply vals_run; [apply Hok|]).
  assert (Hin : r ∈ rs) by (by eapply elem_of_list_lookup_2). pose proof (Hok r Hin) as (Hi1 & _ & Ho1 & _).
  destruct (vals_run names "pan" r sr 2 2 (Hok r Hin) Hn) as [Ev Lv].
  pose proof (runs_stateless sr 2 FPan p' rs) as E. specialize (E ltac:(intros t v i0 o p1 o1; cbn [effect_run]; destruct (v "pan"); [|done]; cbn [rbind]; destruct (pan_process_R _ _ _ _ _); [|done]; cbn [rbind]; intros Eq; by injection Eq as <- <-) Hrun r Hin).
  cbn [effect_run] in E. rewrite Ev in E. cbn [rbind] in E. pose proof Hi1 as (Wi & Ci & Fi). pose proof (fresh_block sr 2 r) as (Wf & Cf & Ff).
  destruct (pan_process_ok Rmult pan_gains (vals "pan" r) (r_in r) Whole (fresh sr 2 r) Whole) as (o' & E' & W); [done..|cbn in *; lia|cbn in *; lia|].
  unfold pan_process_R in E. rewrite E' in E. cbn [rbind] in E. injection E as ->. destruct W as (_ & _ & _ & W).
  destruct (lookup_lt_is_Some_2 (vals "pan" r) fr) as [v Ev']; [lia|]. unfold at_. rewrite Ev'. cbn [default from_option].
  assert (Hw : ∀ ch, ch < 2 → panned Rmult pan_gains (vals "pan" r) (r_in r) Whole ch fr (heard_at 0%R (r_out r) ch fr)).
  { intros ch Hch. destruct (W ch fr) as (x & y & _ & Hy & HP); [done|done|]. rewrite (seen_heard (r_out r) 2 (r_frames r)) in Hy by done. injection Hy as <-. exact HP. }
  split.
  - destruct (Hw 0 ltac:(lia)) as (p1 & s1 & Hp1 & Hs1 & ->). rewrite Ev' in Hp1. injection Hp1 as <-. rewrite (seen_heard (r_in r) 2 (r_frames r)) in Hs1 by (done || lia). injection Hs1 as <-.
    rewrite decide_True by done. cbn [pan_gains fst]. f_equal. unfold Rmin, Datatypes.id. repeat destruct (Rle_dec _ _); lra.
  - destruct (Hw 1 ltac:(lia)) as (p1 & s1 & Hp1 & Hs1 & ->). rewrite Ev' in Hp1. injection Hp1 as <-. rewrite (seen_heard (r_in r) 2 (r_frames r)) in Hs1 by (done || lia). injection Hs1 as <-.
    rewrite decide_False by done. cbn [pan_gains snd]. f_equal. unfold Rmin, Datatypes.id. repeat destruct (Rle_dec _ _); lra.
Qed.

(** ** Mixer *)
Lemma last_fold {X} (m : X) l : fold_left (λ _ m, m) l m = default m (last l).
Proof. revert m. induction l as [|x l IH]; intros m; [done|]. cbn [fold_left]. rewrite IH, last_cons. by destruct (last l). Qed.
Lemma mixer_block sr ins outs x ms r p' : round_ok sr ins outs ∅ r → matrix_ok (mx_proc x) → mx_channel x = [] → Forall matrix_ok ms →
  mixer_process_R (mixer_deliver ms x) (r_in r) Whole (fresh sr outs r) Whole = Ok (p', r_out r) →
  let m := default (mx_proc x) (last ms) in matrix_ok m ∧ mx_channel p' = [] ∧ mx_proc p' = m ∧
  ∀ o fr, o < outs → fr < r_frames r →
    (Rabs (heard_at 0 (r_out r) o fr - sum_over ins (λ ch, level_at 0 m ch o * heard_at 0 (r_in r) ch fr)) <= / 2 ^ 51 * sum_over ins (λ ch, Rabs (heard_at 0 (r_in r) ch fr)))%R.
Proof.
  intros (Hi & _ & Ho & _) Hm Hc Hms E m. pose proof Hi as (Wi & Ci & Fi). pose proof (fresh_block sr outs r) as (Wf & Cf & Ff).
  assert (Em : mx_proc (mixer_events (mixer_deliver ms x)) = m). { cbn [mixer_events mixer_deliver mx_proc mx_channel]. rewrite Hc. cbn [app]. apply last_fold. }
  assert (Hmok : matrix_ok m). { unfold m. destruct (last ms) as [m1|] eqn:El; [|done]. cbn. rewrite Forall_forall in Hms. apply Hms. by apply last_Some_elem_of. }
  split; [done|]. unfold mixer_process_R, mixer_process, rbind in E.
  destruct (rows_ok 0%R level_is_zero level_is_unity (λ g : R, g) Rplus Rmult (mx_proc (mixer_events (mixer_deliver ms x))) (r_in r) Whole Whole ltac:(by rewrite Em) Wi I
    (v_channels (fresh sr outs r) Whole) 0 (fresh sr outs r)) as (o' & E' & W); [done|done|done|cbn in *; lia|].
  rewrite E' in E. injection E as <- ->. split; [done|]. split; [done|]. intros o fr Hoo Hfr. destruct W as (_ & _ & _ & W). destruct (W o fr) as (a & b & Ha & Hb & Hab); [done|done|].
  apply fresh_seen in Ha as ->. rewrite decide_True in Hab by (cbn in *; lia). rewrite (seen_heard (r_out r) outs (r_frames r)) in Hb by done. injection Hb as ->. rewrite Hab, Em.
  pose proof (fold_error (level_at 0%R m) (r_in r) Whole o fr (v_channels (r_in r) Whole) 0%R) as He.
  assert (Hs : ∀ n, n ≤ ins → sum_over n (λ i, level_at 0 m i o * default 0 (seen (r_in r) Whole i fr))%R = sum_over n (λ ch, level_at 0 m ch o * heard_at 0 (r_in r) ch fr)%R ∧
    sum_over n (λ i, Rabs (default 0%R (seen (r_in r) Whole i fr))) = sum_over n (λ ch, Rabs (heard_at 0%R (r_in r) ch fr))).
  { induction n as [|n IH]; intros Hn; [done|]. rewrite !sum_over_S. destruct IH as [-> ->]; [lia|]. rewrite (seen_heard (r_in r) ins (r_frames r)) by (done || lia). done. }
  destruct (Hs ins (le_n _)) as [Hs1 Hs2]. cbn [v_channels] in He. rewrite Ci, Hs1, Hs2, Rplus_0_l in He. cbn [v_channels]. rewrite Ci. exact He.
Qed.

Definition times (rs : list round) : list (timestamp * nat) := (λ r, (r_time r, r_frames r)) <$> rs.
Lemma mixer_stream sr ins outs rs p' : ∀ x inbox, run sr outs (FMixer x inbox) rs p' → Forall (round_ok sr ins outs ∅) rs →
  matrix_ok (mx_proc x) → mx_channel x = [] → Forall (Forall matrix_ok) inbox →
  ∀ o i m, o < outs → in_force (mx_proc x) inbox (times rs) !! i = Some m →
    (Rabs (at_ (given 0 rs o) i - sum_over ins (λ ch, level_at 0 m ch o * at_ (taken 0 rs ch) i)) <= / 2 ^ 51 * sum_over ins (λ ch, Rabs (at_ (taken 0 rs ch) i)))%R.
Proof.
  induction rs as [|r rs IH]; intros x inbox Hrun Hok Hm Hc Hin o i m Ho Hi; [done|]. inversion Hrun as [|? ? p1 ? ? E Hrest]; subst. apply Forall_cons in Hok as [Hr Hok].
  apply inbox_head in Hin as [Hms Hin]. cbn [effect_run] in E.
  destruct (mixer_process_R (mixer_deliver (default [] (head inbox)) x) (r_in r) Whole (new_buffer 0%R (r_frames r) outs sr) Whole) as [[x' o']|] eqn:Ep; [|done]. cbn [rbind] in E.
  injection E as <- ->. destruct (mixer_block sr ins outs x (default [] (head inbox)) r x' Hr Hm Hc Hms Ep) as (H1 & H2 & H3 & H4).
  change (in_force (mx_proc x) inbox (times (r :: rs))) with (replicate (r_frames r) (default (mx_proc x) (last (default [] (head inbox)))) ++
    in_force (default (mx_proc x) (last (default [] (head inbox)))) (tl inbox) (times rs)) in Hi.
  assert (Hcons : ∀ ch, taken 0%R (r :: rs) ch = (heard_at 0%R (r_in r) ch <$> seq 0 (r_frames r)) ++ taken 0%R rs ch) by done.
  assert (Hcons' : ∀ ch, given 0%R (r :: rs) ch = (heard_at 0%R (r_out r) ch <$> seq 0 (r_frames r)) ++ given 0%R rs ch) by done.
  assert (Hsum : ∀ f g : nat → R, (∀ ch, f ch = g ch) → sum_over ins f = sum_over ins g). { intros f g Hfg. unfold sum_over. f_equal. apply list_fmap_ext. done. }
  destruct (decide (i < r_frames r)) as [Hlt|Hge].
  - rewrite lookup_app_l in Hi by (by rewrite replicate_length). apply lookup_replicate in Hi as [-> _].
    assert (Hx : ∀ ch, at_ (taken 0%R (r :: rs) ch) i = heard_at 0%R (r_in r) ch i).
    { intros ch. unfold at_. rewrite Hcons, lookup_app_l by (by rewrite fmap_length, seq_length). by rewrite heard_fmap. }
    rewrite (Hsum _ (λ ch, level_at 0 (default (mx_proc x) (last (default [] (head inbox)))) ch o * heard_at 0 (r_in r) ch i)%R) by (intros; by rewrite Hx).
    rewrite (Hsum (λ ch, Rabs (at_ (taken 0 (r :: rs) ch) i))%R (λ ch, Rabs (heard_at 0 (r_in r) ch i))%R) by (intros; by rewrite Hx).
    assert (at_ (given 0%R (r :: rs) o) i = heard_at 0%R (r_out r) o i) as ->.
    { unfold at_. rewrite Hcons', lookup_app_l by (by rewrite fmap_length, seq_length). by rewrite heard_fmap. }
    by apply H4.
  - rewrite lookup_app_r in Hi by (rewrite replicate_length; lia). rewrite replicate_length in Hi.
    assert (Hx : ∀ ch, at_ (taken 0%R (r :: rs) ch) i = at_ (taken 0%R rs ch) (i - r_frames r)).
    { intros ch. unfold at_. rewrite Hcons, lookup_app_r by (rewrite fmap_length, seq_length; lia). by rewrite fmap_length, seq_length. }
    rewrite (Hsum (λ ch, level_at 0 m ch o * at_ (taken 0 (r :: rs) ch) i)%R (λ ch, level_at 0 m ch o * at_ (taken 0%R rs ch) (i - r_frames r))%R) by (intros; by rewrite Hx).
    rewrite (Hsum (λ ch, Rabs (at_ (taken 0 (r :: rs) ch) i))%R (λ ch, Rabs (at_ (taken 0%R rs ch) (i - r_frames r)))%R) by (intros; by rewrite Hx).
    assert (at_ (given 0%R (r :: rs) o) i = at_ (given 0%R rs o) (i - r_frames r)) as ->.
    { unfold at_. rewrite Hcons', lookup_app_r by (rewrite fmap_length, seq_length; lia). by rewrite fmap_length, seq_length. }
    eapply (IH x' (tl inbox)); [done|done|by rewrite H3|done|done|done|by rewrite H3].
Qed.

(** ** Biquad filter *)
Definition qb sr cc (r : round) : qblock := QBlock (vals "frequency" r) (vals "q" r) (vals "shelf-gain" r) (vals "gain" r) (r_in r) Whole (fresh sr cc r) Whole.
Definition biquad_names : gset string := {[ "frequency"; "q"; "shelf-gain"; "gain" ]}.
Lemma qb_run sr cc names rs p' : biquad_names ⊆ names → ∀ b, run sr cc (FBiquad b) rs p' → Forall (round_ok sr cc cc names) rs → qsession b (qb sr cc <$> rs) = Ok (r_out <$> rs).
Proof.
  intros Hn. induction rs as [|r rs IH]; intros b Hrun Hok; [done|]. inversion Hrun as [|? ? p1 ? ? E Hrest]; subst. apply Forall_cons in Hok as [Hr Hok]. cbn [effect_run] in E.
  assert (Hv : ∀ name, name ∈ biquad_names → parameter_values (λ v : R, v) (r_values r) name = Ok (vals name r)) by (intros name H1; by eapply vals_run; [|apply Hn]).
  rewrite !Hv in E by (unfold biquad_names; set_solver). cbn [rbind] in E.
  change (qsession b (qb sr cc <$> r :: rs)) with (let? (f, out) := bq_process (vals "frequency" r) (vals "q" r) (vals "shelf-gain" r) (vals "gain" r) (r_in r) Whole (fresh sr cc r) Whole b in
    let? outs := qsession f (qb sr cc <$> rs) in Ok (out :: outs)).
  unfold fresh. destruct (bq_process _ _ _ _ _ _ _ _ _) as [[b' o']|]; [|done]. cbn [rbind] in E |- *. injection E as <- ->. by rewrite (IH b').
Qed.
Lemma qb_ok sr cc names r : biquad_names ⊆ names → round_ok sr cc cc names r → qblock_ok cc (qb sr cc r).
Proof.
  intros Hn Hr. pose proof Hr as ((Wi & Ci & Fi) & _). pose proof (fresh_block sr cc r) as (Wf & Cf & Ff). unfold qblock_ok, qb, qframes.
  cbn [qb_frequency qb_q qb_shelf qb_gain qb_in qb_iv qb_out qb_ov v_channels v_frames valid_view].
  assert (Hl : ∀ name, name ∈ biquad_names → length (vals name r) = r_frames r) by (intros name H1; by eapply vals_run; [|apply Hn]).
  do 4 (split; [done|]). split; [done|]. split; [done|]. split; [congruence|]. rewrite !Hl by (unfold biquad_names; set_solver). done.
Qed.
Lemma row_heard (b : owned R) cc fc ch : is_block b cc fc → row_from 0%R b Whole ch 0 = heard_at 0%R b ch <$> seq 0 fc.
Proof.
  intros (Hw & Hc & Hf). unfold row_from. cbn [v_frames]. rewrite Hf, Nat.sub_0_r. apply list_fmap_ext. intros i fr Hi. apply lookup_seq in Hi as [-> Hi]. cbn [Nat.add].
  unfold seen, heard_at. cbn. case_decide as Hd; [done|]. destruct (sample b ch i) eqn:E; [|done]. destruct (proj1 (sample_is_Some b ch i Hw)); [by eexists|lia].
Qed.
Lemma received_taken sr cc names rs ch : Forall (round_ok sr cc cc names) rs → received (qb sr cc <$> rs) ch = taken 0%R rs ch.
Proof.
  induction 1 as [|r rs (Hi & _) Hok IH]; [done|]. change (row_from 0%R (r_in r) Whole ch 0 ++ received (qb sr cc <$> rs) ch = (heard_at 0%R (r_in r) ch <$> seq 0 (r_frames r)) ++ taken 0%R rs ch).
  rewrite IH. f_equal. by eapply row_heard.
Qed.
Lemma played_frames sr cc (rs : list round) : BiquadSpec.played (qb sr cc <$> rs) = sum_list (r_frames <$> rs).
Proof. induction rs as [|r rs IH]; [done|]. change (r_frames r + BiquadSpec.played (qb sr cc <$> rs) = r_frames r + sum_list (r_frames <$> rs)). by rewrite IH. Qed.
Lemma settings_at sr cc names t rs : biquad_names ⊆ names → Forall (round_ok sr cc cc names) rs → settings t sr (qb sr cc <$> rs) =
  (λ i, calculate_coefficients t (FilterParameters (at_ (values_got "frequency" rs) i) (at_ (values_got "q" rs) i) (at_ (values_got "shelf-gain" rs) i)) sr) <$> seq 0 (sum_list (r_frames <$> rs)).
Proof.
  intros Hn Hok. apply list_eq_same_length with (sum_list (r_frames <$> rs)); [by rewrite fmap_length, seq_length|by rewrite settings_length, played_frames|].
  intros i x y Hi Hx Hy. rewrite list_lookup_fmap, lookup_seq_lt in Hy by done. injection Hy as <-.
  destruct (stream_at rs i Hi) as (k & r & fr & Hr & Hfr & Hoff & Hv). rewrite Forall_forall in Hok.
  assert (Hvals : ∀ name, name ∈ biquad_names → at_ (values_got name rs) i = at_ (vals name r) fr).
  { intros name H1. unfold at_. change (values_got name rs) with (rs ≫= vals name). rewrite (Hv R (vals name)); [done|]. intros r' Hr'. by eapply vals_run; [apply Hok|apply Hn]. }
  cbn [Nat.add]. rewrite !Hvals by (unfold biquad_names; set_solver).
  assert (Es : settings t sr (qb sr cc <$> rs) = rs ≫= λ r, block_settings t sr (qb sr cc r)).
  { unfold settings. clear. induction rs as [|r rs IH]; [done|]. cbn. f_equal. exact IH. }
  rewrite Es, (Hv _ (λ r, block_settings t sr (qb sr cc r))) in Hx by (intros r' _; by rewrite block_settings_length).
  unfold block_settings in Hx. rewrite list_lookup_fmap, lookup_seq_lt in Hx by done. injection Hx as <-. done.
Qed.

Lemma biquad_stream sr cc t names rs p' : biquad_names ⊆ names → run sr cc (FBiquad (new_biquad sr cc t)) rs p' → Forall (round_ok sr cc cc names) rs →
  ∀ ch, ch < cc → ∃ v, follows (/ 10 ^ 8)%R ((λ i, calculate_coefficients t (FilterParameters (at_ (values_got "frequency" rs) i) (at_ (values_got "q" rs) i) (at_ (values_got "shelf-gain" rs) i)) sr)
      <$> seq 0 (sum_list (r_frames <$> rs))) (taken 0%R rs ch) v ∧
    ∀ i, i < sum_list (r_frames <$> rs) → (Rabs (at_ (given 0 rs ch) i - at_ v i * at_ (values_got "gain" rs) i) <= / 2 ^ 22 * Rabs (at_ v i))%R.
Proof.
  intros Hn Hrun Hok ch Hch. pose proof (qb_run sr cc names rs p' Hn _ Hrun Hok) as E.
  destruct (BiquadProofs.session_ok t sr cc (qb sr cc <$> rs)) as (outs & y & E' & Hf & Hs).
  { apply Forall_fmap. eapply Forall_impl; [exact Hok|]. intros r Hr. by eapply qb_ok. }
  rewrite E in E'. injection E' as <-. exists (y ch). rewrite <-(settings_at sr cc names t rs Hn Hok), <-(received_taken sr cc names rs ch Hok). split; [by apply Hf|].
  intros i Hi. destruct (at_bind rs i Hi) as (k & r & fr & Hr & Hfr & Hoff & Ht & Hg & Hv). rewrite Hg. rewrite Forall_forall in Hok.
  rewrite Hv by (intros r' Hr'; eapply vals_run; [by apply Hok|apply Hn; unfold biquad_names; set_solver]).
  destruct Hs as [_ Hs]. destruct (Hs k (qb sr cc r) (r_out r)) as (_ & _ & _ & W); [rewrite list_lookup_fmap, Hr; done|rewrite list_lookup_fmap, Hr; done|].
  destruct (W ch fr) as (a & b & _ & Hb & g & v & Hgv & Hyv & HP); [done|done|]. assert (Hin : r ∈ rs) by (by eapply elem_of_list_lookup_2).
  pose proof (Hok r Hin) as (_ & _ & Ho1 & _). cbn [qb qb_ov] in Hb. rewrite (seen_heard (r_out r) cc (r_frames r)) in Hb by done. injection Hb as <-. cbn [qb qb_gain] in Hgv.
  rewrite <-fmap_take, played_frames, <-Hoff in Hyv. unfold at_ at 1 2 3. rewrite Hgv, Hyv. exact HP.
Qed.

(** ** Convolution *)
Definition vb sr cc (r : round) : vblock := VBlock (vals "wet" r) (vals "dry" r) (r_in r) Whole (fresh sr cc r) Whole.
Definition wet_dry : gset string := {[ "wet"; "dry" ]}.
Lemma vb_run sr cc names rs p' : wet_dry ⊆ names → ∀ c, run sr cc (FConvolution c) rs p' → Forall (round_ok sr cc cc names) rs → vsession c (vb sr cc <$> rs) = Ok (r_out <$> rs).
Proof.
  intros Hn. induction rs as [|r rs IH]; intros c Hrun Hok; [done|]. inversion Hrun as [|? ? p1 ? ? E Hrest]; subst. apply Forall_cons in Hok as [Hr Hok]. cbn [effect_run] in E.
  assert (Hv : ∀ name, name ∈ wet_dry → parameter_values (λ v : R, v) (r_values r) name = Ok (vals name r)) by (intros name H1; by eapply vals_run; [|apply Hn]).
  rewrite !Hv in E by (unfold wet_dry; set_solver). cbn [rbind] in E.
  change (vsession c (vb sr cc <$> r :: rs)) with (let? (f, out) := conv_process (vals "wet" r) (vals "dry" r) (r_in r) Whole (fresh sr cc r) Whole c in
    let? outs := vsession f (vb sr cc <$> rs) in Ok (out :: outs)).
  unfold fresh. destruct (conv_process _ _ _ _ _ _ _) as [[b' o']|]; [|done]. cbn [rbind] in E |- *. injection E as <- ->. by rewrite (IH b').
Qed.
Lemma vb_ok sr cc names r : wet_dry ⊆ names → round_ok sr cc cc names r → vblock_ok cc (vb sr cc r).
Proof.
  intros Hn Hr. pose proof Hr as ((Wi & Ci & Fi) & _). pose proof (fresh_block sr cc r) as (Wf & Cf & Ff). unfold vblock_ok, vb, vframes.
  cbn [vb_wet vb_dry vb_in vb_iv vb_out vb_ov v_channels v_frames valid_view].
  assert (Hl : ∀ name, name ∈ wet_dry → length (vals name r) = r_frames r) by (intros name H1; by eapply vals_run; [|apply Hn]).
  do 4 (split; [done|]). split; [done|]. split; [done|]. split; [congruence|]. rewrite !Hl by (unfold wet_dry; set_solver). done.
Qed.
Lemma signal_taken sr cc names rs ch : Forall (round_ok sr cc cc names) rs → signal (vb sr cc <$> rs) ch = taken 0%R rs ch.
Proof.
  induction 1 as [|r rs (Hi & _) Hok IH]; [done|]. change (row_from 0%R (r_in r) Whole ch 0 ++ signal (vb sr cc <$> rs) ch = (heard_at 0%R (r_in r) ch <$> seq 0 (r_frames r)) ++ taken 0%R rs ch).
  rewrite IH. f_equal. by eapply row_heard.
Qed.
Lemma convolution_stream sr impulse maximum c names rs p' : wf impulse → 0 < frames impulse → 0 < maximum → new_convolution impulse maximum = Ok c →
  wet_dry ⊆ names → run sr (channels impulse) (FConvolution c) rs p' → Forall (round_ok sr (channels impulse) (channels impulse) names) rs →
  ∀ ch i, ch < channels impulse → i < sum_list (r_frames <$> rs) → (at_ (given 0 rs ch) i =
    at_ (taken 0 rs ch) i * at_ (values_got "dry" rs) i + at_ (values_got "wet" rs) i * convolved_at (row_from 0 impulse Whole ch 0) (taken 0 rs ch) i)%R.
Proof.
  intros Hw Hf Hm Ec Hn Hrun Hok ch i Hch Hi. set (cc := channels impulse) in *. pose proof (vb_run sr cc names rs p' Hn _ Hrun Hok) as E.
  destruct (session_reverberated impulse maximum (vb sr cc <$> rs)) as (c' & outs & Ec' & E' & Hr); [done|lia|lia| |].
  { apply Forall_fmap. eapply Forall_impl; [exact Hok|]. intros r Hr. by eapply vb_ok. }
  rewrite Ec in Ec'. injection Ec' as <-. rewrite E in E'. injection E' as <-.
  destruct (at_bind rs i Hi) as (k & r & fr & Hk & Hfr & Hoff & Ht & Hg & Hv). rewrite Hg, Ht.
  assert (Hin : r ∈ rs) by (by eapply elem_of_list_lookup_2). pose proof (proj1 (Forall_forall _ _) Hok r Hin) as Hrok.
  rewrite !Hv by (intros r' Hr'; eapply vals_run; [by apply (proj1 (Forall_forall _ _) Hok)|apply Hn; unfold wet_dry; set_solver]).
  destruct (whole_signal impulse (vb sr cc <$> rs) (r_out <$> rs) k (vb sr cc r) (r_out r) Hr) as (_ & _ & _ & W); [rewrite list_lookup_fmap, Hk; done|rewrite list_lookup_fmap, Hk; done|].
  destruct (W ch fr) as (a & b & Ha & Hb & s & w & d & Hs & Hwv & Hd & HP); [done|done|]. cbn [vb vb_out vb_ov vb_in vb_iv vb_wet vb_dry] in *.
  pose proof Hrok as (Hi1 & _ & Ho1 & _). apply fresh_seen in Ha as ->. rewrite (seen_heard (r_out r) cc (r_frames r)) in Hb by done. injection Hb as ->.
  rewrite (seen_heard (r_in r) cc (r_frames r)) in Hs by done. injection Hs as <-. rewrite HP. unfold at_. rewrite Hwv, Hd. cbn [default from_option].
  rewrite (signal_taken sr cc names rs ch Hok). rewrite <-fmap_take, (signal_taken sr cc names (take k rs) ch), taken_length, <-Hoff by (by apply Forall_take). unfold Datatypes.id. lra.
Qed.

(** ** ADSR *)
Lemma taken_cons (r : round) rs ch : taken 0%R (r :: rs) ch = (heard_at 0%R (r_in r) ch <$> seq 0 (r_frames r)) ++ taken 0%R rs ch.
Proof. done. Qed.
Lemma given_cons (r : round) rs ch : given 0%R (r :: rs) ch = (heard_at 0%R (r_out r) ch <$> seq 0 (r_frames r)) ++ given 0%R rs ch.
Proof. done. Qed.
Lemma at_app (l1 l2 : list R) i : at_ (l1 ++ l2) i = if decide (i < length l1) then at_ l1 i else at_ l2 (i - length l1).
Proof. unfold at_. case_decide; [by rewrite lookup_app_l|by rewrite lookup_app_r by lia]. Qed.
Lemma heard_length (b : owned R) ch n : length (heard_at 0%R b ch <$> seq 0 n) = n.
Proof. by rewrite fmap_length, seq_length. Qed.
Lemma at_heard (b : owned R) ch n i : i < n → at_ (heard_at 0%R b ch <$> seq 0 n) i = heard_at 0%R b ch i.
Proof. intros Hi. unfold at_. by rewrite heard_fmap. Qed.

Lemma adsr_stream sr MF cc rs p' : (0 < Z.of_nat sr <= 2 ^ 29)%Z → block_ok sr MF → ∀ w e buf inbox,
  run sr cc (FAdsr (AdsrState (EvProc w [] sr) e buf) inbox) rs p' → Forall (round_ok sr cc cc ∅) rs → Forall (λ r, 0 < r_frames r ≤ MF) rs →
  StronglySorted ev_before w → MF ≤ length buf → Forall (Forall (λ e, ev_clear e = false)) inbox →
  ∃ ds, arrives sr w inbox (times rs) ds ∧ ∀ ch i, ch < cc → i < sum_list (r_frames <$> rs) →
    (at_ (given 0 rs ch) i = at_ (taken 0 rs ch) i * at_ (env_run sr e (concat (zip_with (λ b d, block_history sr b.1 b.2 d) (times rs) ds))).1 i)%R.
Proof.
  intros Hsr (B1 & B2 & B3). induction rs as [|r rs IH]; intros w e buf inbox Hrun Hok Hfr Hw Hbuf Hin.
  { exists []. split; [done|]. intros ch i _ Hi. cbn in Hi. lia. }
  inversion Hrun as [|? ? p1 ? ? E Hrest]; subst. apply Forall_cons in Hok as [Hr Hok]. apply Forall_cons in Hfr as [Hf Hfr]. apply inbox_head in Hin as [Hms Hin].
  cbn [effect_run as_queue as_env as_buffer] in E. rewrite deliver_eq in E. cbn [ep_pending ep_channel ep_rate app] in E.
  pose proof Hr as ((Wi & Ci & Fi) & _ & Ho1 & _). pose proof (fresh_block sr cc r) as (Wf & Cf & Ff). pose proof Hr as (Hi1 & _).
  destruct (AdsrProofs.process_ok sr (r_time r) (r_in r) Whole (fresh sr cc r) Whole (EvProc w (default [] (head inbox)) sr) e buf) as (d & rest & buf' & o' & Hd & Hs & Hl & W); [done..| | |].
  { cbn [v_frames]. rewrite Fi, Ff, Nat.min_id. split; [lia|]. split; [lia|]. nia. } { cbn [v_frames]. lia. }
  cbn [v_frames] in *. rewrite Fi, Ff, Nat.min_id in *. cbn [ep_pending ep_channel] in Hd.
  destruct (env_run sr e (block_history sr (r_time r) (r_frames r) d)) as [vs e'] eqn:Ev. destruct W as (Ep & Lv & W). unfold fresh in Ep. rewrite Ep in E. cbn [rbind] in E. injection E as <- ->.
  destruct (IH rest e' buf' (tl inbox) Hrest Hok Hfr Hs ltac:(lia) Hin) as (ds & Ha & Hv). exists (d :: ds). split; [by exists rest|].
  intros ch i Hch Hi. change (concat (zip_with _ (times (r :: rs)) (d :: ds))) with (block_history sr (r_time r) (r_frames r) d ++ concat (zip_with (λ b d, block_history sr b.1 b.2 d) (times rs) ds)).
  rewrite env_run_app, Ev. specialize (Hv ch). destruct (env_run sr e' _) as [vs' e2]. cbn [fst] in *. rewrite given_cons, taken_cons, !at_app, !heard_length, Lv.
  change (i < r_frames r + sum_list (r_frames <$> rs)) in Hi. destruct (decide (i < r_frames r)) as [Hlt|Hge].
  - rewrite !at_heard by done. destruct W as (_ & _ & _ & W). destruct (W ch i) as (a & b & _ & Hb & HP); [done|done|].
    rewrite (seen_heard (r_out r) cc (r_frames r)) in Hb by done. injection Hb as <-. rewrite HP, (seen_heard (r_in r) cc (r_frames r)) by done.
    destruct (lookup_lt_is_Some_2 vs i) as [v Hvv]; [lia|]. unfold at_. by rewrite Hvv.
  - apply Hv; [done|lia].
Qed.

(** ** Oscillator *)
Lemma values_cons name (r : round) rs : values_got name (r :: rs) = vals name r ++ values_got name rs.
Proof. done. Qed.
Lemma oscillator_stream sr outs fuel table names rs p' : 0 < sr → 0 < outs → head table = Some 0%R → "frequency" ∈ names → "gain" ∈ names → ∀ before phase k0,
  (0 <= phase < 1)%R → cycles sr before = (phase + IZR k0)%R →
  run sr outs (FOscillator fuel table phase) rs p' → Forall (round_ok sr 0 outs names) rs →
  Forall (λ f, 0 < f <= INR fuel * INR sr)%R (values_got "frequency" rs) →
  (∀ n, 0 < n ≤ length (values_got "frequency" rs) → ∀ k : Z, (cycles sr before + cycles sr (take n (values_got "frequency" rs)) ≠ IZR k)%R) ∧
  ∀ ch i, ch < outs → i < sum_list (r_frames <$> rs) →
    let v := wave table (cycles sr before + cycles sr (take (S i) (values_got "frequency" rs)))%R in
    (Rabs (at_ (given 0 rs ch) i - v * at_ (values_got "gain" rs) i) <= / 2 ^ 22 * Rabs v)%R.
Proof.
  intros Hsr Hout Hh Hn1 Hn2. assert (Hne : table ≠ []) by (by intros ->). induction rs as [|r rs IH]; intros before phase k0 Hp Hc Hrun Hok Hfs.
  { split; [intros n Hn; cbn in Hn; lia|]. intros ch i _ Hi. cbn in Hi. lia. }
  inversion Hrun as [|? ? p1 ? ? E Hrest]; subst. apply Forall_cons in Hok as [Hr Hok]. rewrite values_cons in Hfs. apply Forall_app in Hfs as [Hf1 Hf2].
  cbn [effect_run] in E. destruct (vals_run names "frequency" r sr 0 outs Hr Hn1) as [E1 L1]. destruct (vals_run names "gain" r sr 0 outs Hr Hn2) as [E2 L2].
  rewrite E1, E2 in E. cbn [rbind] in E. pose proof Hr as (_ & _ & Ho1 & _). pose proof (fresh_block sr outs r) as (Wf & Cf & Ff).
  pose proof (osc_samples_R fuel (INR fuel) sr table Hsr (Rle_refl _) Hne (vals "frequency" r) phase (cycles sr before) k0 Hp Hc Hf1) as HS.
  destruct (osc_samples exact fuel (Z.of_nat sr) table phase (vals "frequency" r)) as [[q ys]|e] eqn:Es.
  2:{ exfalso. unfold osc_process_R in E. rewrite (osc_process_panic exact (λ x : R, x) (λ x : R, x) 0%R _ _ Rmult fuel table phase (vals "frequency" r) (vals "gain" r) _ Whole e) in E; [done|done|done|done|done|].
      rewrite list_fmap_id. exact Es. }
  destruct HS as (Hl & Hq & (k1 & Hk1) & Hnw & Hys). specialize (Hys Hh).
  destruct (osc_process_ok exact (λ x : R, x) (λ x : R, x) 0%R (λ g, close32R g 0) (λ g, close32R g 1) Rmult fuel table phase (vals "frequency" r) (vals "gain" r) (fresh sr outs r) Whole q ys) as (o' & Eo & W);
    [done|done|done|done|by rewrite list_fmap_id|cbn [v_frames]; lia|].
  unfold osc_process_R in E. unfold fresh in Eo. rewrite Eo in E. cbn [rbind] in E. injection E as <- ->.
  destruct (IH (before ++ vals "frequency" r) q k1 Hq) as [I1 I2]; [by rewrite cycles_app|done|done|done|]. rewrite cycles_app in I1, I2. split.
  - intros n Hn k. rewrite values_cons in Hn |- *. rewrite app_length in Hn. rewrite firstn_app. destruct (decide (n ≤ length (vals "frequency" r))) as [Hle|Hgt].
    + replace (n - length (vals "frequency" r)) with 0 by lia. rewrite take_0, app_nil_r. apply Hnw. lia.
    + rewrite take_ge by lia. rewrite cycles_app, <-Rplus_assoc. apply I1. lia.
  - intros ch i Hch Hi v. subst v. rewrite !values_cons, given_cons, !at_app, heard_length, L2, firstn_app, L1. change (i < r_frames r + sum_list (r_frames <$> rs)) in Hi.
    destruct (decide (i < r_frames r)) as [Hlt|Hge].
    + replace (S i - r_frames r) with 0 by lia. rewrite take_0, app_nil_r, at_heard by done. destruct W as (_ & _ & _ & W). destruct (W ch i) as (a & b & _ & Hb & s & Hrow & HP); [done|done|].
      rewrite (seen_heard (r_out r) outs (r_frames r)) in Hb by done. injection Hb as <-. rewrite Hys in Hrow by lia. injection Hrow as <-. rewrite HP.
      destruct (lookup_lt_is_Some_2 (vals "gain" r) i) as [g Hg]; [lia|]. unfold at_. rewrite Hg. cbn [default from_option]. by apply gained_error.
    + rewrite take_ge by lia. replace (S i - r_frames r) with (S (i - r_frames r)) by lia. rewrite cycles_app, <-Rplus_assoc. apply I2; [done|lia].
Qed.

(** ** Sampler *)
Lemma sampler_rate one add mul smp fade sr fuel t v q s (o : owned R) q' s' o' :
  sampler_block one add mul smp fade sr fuel t v q s o = Ok (q', s', o') → ep_rate q' = ep_rate q.
Proof.
  unfold sampler_block, event_block. destruct (event_loop _ _ _ _ _ _ _ _ _ _) as [[rest [s1 o1]]|]; [|done]. cbn [rbind]. intros E. by injection E as <- <- <-.
Qed.
Lemma sampler_runs sr outs fuel smp fade rs p' : ∀ q s inbox, ep_rate q = sr → run sr outs (FSampler fuel smp fade q s inbox) rs p' →
  sampler_run 1%R Rplus Rmult smp fade fuel sr q s (sampler_blocks sr outs inbox (times rs)) = Ok (r_out <$> rs).
Proof.
  induction rs as [|r rs IH]; intros q s inbox Hq Hrun; [done|]. inversion Hrun as [|? ? p1 ? ? E Hrest]; subst. cbn [effect_run] in E.
  change (sampler_run 1%R Rplus Rmult smp fade fuel (ep_rate q) q s (sampler_blocks (ep_rate q) outs inbox (times (r :: rs)))) with
    (let? (q', s', out) := sampler_block 1%R Rplus Rmult smp fade (ep_rate q) fuel (r_time r) Whole (deliver (default [] (head inbox)) q) s (new_buffer 0%R (r_frames r) outs (ep_rate q)) in
     let? outs := sampler_run 1%R Rplus Rmult smp fade fuel (ep_rate q) q' s' (sampler_blocks (ep_rate q) outs (tl inbox) (times rs)) in Ok (out :: outs)).
  destruct (sampler_block _ _ _ _ _ _ _ _ _ _ _ _) as [[[q' s'] o']|] eqn:Eb; [|done]. cbn [rbind] in *. injection E as <- ->.
  apply sampler_rate in Eb. rewrite deliver_eq in Eb. cbn [ep_rate] in Eb. rewrite (IH q' s' (tl inbox) Eb Hrest). done.
Qed.
Lemma sampler_blocks_at sr outs bs k b : ∀ inbox, bs !! k = Some b → ∃ sent, sampler_blocks sr outs inbox bs !! k = Some (SBlock sent b.1 (new_buffer 0%R b.2 outs sr) Whole).
Proof. revert k. induction bs as [|[t fc] bs IH]; intros [|k] inbox Hk; [done|done|injection Hk as <-; by eexists|]. by apply (IH k (tl inbox)). Qed.
Lemma sampler_blocks_ok sr outs MF bs : block_ok sr MF → Forall (λ b : timestamp * nat, 0 < b.2 ≤ MF) bs → ∀ inbox, Forall (sblock_ok sr) (sampler_blocks sr outs inbox bs).
Proof.
  intros (B1 & B2 & B3). induction 1 as [|[t fc] bs Hb Hbs IH]; intros inbox; [constructor|]. cbn [sampler_blocks]. constructor; [|apply IH].
  split; [apply new_buffer_wf|]. split; [done|]. cbn in *. split; [lia|]. split; [lia|]. nia.
Qed.
Lemma sampler_stream sr MF outs fuel smp fade inbox rs p' names : (0 < Z.of_nat sr <= 2 ^ 29)%Z → block_ok sr MF → wf smp → 0 < length fade → (Z.of_nat (frames smp) <= 2 ^ 40)%Z →
  run sr outs (FSampler fuel smp fade (new_evproc sr) new_sampler inbox) rs p' → Forall (round_ok sr 0 outs names) rs → Forall (λ b : timestamp * nat, 0 < b.2 ≤ MF) (times rs) →
  let bs := sampler_blocks sr outs inbox (times rs) in
  ∃ ds, handled sr [] bs ds ∧ (accurate_run 1%R smp fade sr 0 new_ideal bs ds →
    ∀ ch k b hs fr, ch < outs → times rs !! k = Some b → ideal_run 1%R smp fade sr new_ideal bs ds !! k = Some hs → fr < b.2 →
      at_ (given 0%R rs ch) (length_of (take k (times rs)) + fr) = mix Rplus Rmult smp ch 0%R (default [] (hs !! fr))).
Proof.
  intros Hsr Hb Hw Hf Hfr Hrun Hok Hbl bs. destruct (sampler_is_ideal 1%R Rplus Rmult smp fade sr bs Hw Hf Hfr Hsr) as (ds & Hh & Hi); [by eapply sampler_blocks_ok|].
  exists ds. split; [done|]. intros Hacc ch k b hs fr Hch Hk Hhs Hlt. destruct (Hi Hacc) as (fuel' & outs' & E & H3).
  pose proof (sampler_runs sr outs fuel smp fade rs p' (new_evproc sr) new_sampler inbox eq_refl Hrun) as E'.
  assert (outs' = r_out <$> rs) as ->.
  { apply (sampler_run_fuel 1%R Rplus Rmult smp fade sr fuel fuel') in E. apply (sampler_run_fuel 1%R Rplus Rmult smp fade sr fuel' fuel) in E'. rewrite (Nat.add_comm fuel fuel') in E'. unfold bs in E. rewrite E in E'. by injection E'. }
  unfold times in Hk. rewrite list_lookup_fmap in Hk. apply fmap_Some in Hk as (r & Hr & ->). cbn [fst snd] in *.
  destruct (sampler_blocks_at sr outs (times rs) k (r_time r, r_frames r) inbox) as [sent Hs]; [unfold times; by rewrite list_lookup_fmap, Hr|].
  assert (Hm : mixed Rplus Rmult smp Whole 0 hs (new_buffer 0%R (r_frames r) outs sr) (r_out r)).
  { assert (Hro : (r_out <$> rs) !! k = Some (r_out r)) by (by rewrite list_lookup_fmap, Hr).
    eapply (Forall3_lookup_lmr _ _ _ _ k _ _ _ H3 Hs Hhs Hro). }
  assert (Hoff : sum_list (r_frames <$> take k rs) = length_of (take k (times rs))).
  { unfold length_of, times. rewrite <-fmap_take, <-list_fmap_compose. done. }
  assert (Hn : length_of (take k (times rs)) + fr < sum_list (r_frames <$> rs)).
  { rewrite <-Hoff. rewrite <-(take_drop_middle rs k r Hr) at 2. rewrite fmap_app, sum_list_with_app. change (r_frames <$> r :: drop (S k) rs) with (r_frames r :: (r_frames <$> drop (S k) rs)).
    cbn [sum_list_with]. unfold Datatypes.id. unfold sum_list_with. lia. }
  assert (Hat : at_ (given 0%R rs ch) (length_of (take k (times rs)) + fr) = heard_at 0%R (r_out r) ch fr).
  { rewrite <-Hoff. rewrite <-(take_drop_middle rs k r Hr) at 1. rewrite given_app, given_cons, at_app, given_length, decide_False by lia.
    rewrite at_app, heard_length, decide_True by lia. rewrite at_heard by lia. f_equal. lia. }
  rewrite Hat. unfold heard_at. destruct Hm as (_ & _ & Hm). rewrite Hm.
  assert (Hz : sample (new_buffer 0%R (r_frames r) outs sr) ch fr = Some 0%R).
  { destruct (proj2 (sample_is_Some (new_buffer 0%R (r_frames r) outs sr) ch fr (new_buffer_wf _ _ _ _))) as [z Hz]; [cbn; lia|]. rewrite Hz. f_equal.
    eapply (fresh_seen sr outs r ch fr). unfold seen. rewrite decide_True by done. exact Hz. }
  rewrite Hz. cbn [off_ch off_fr v_channels Nat.add channels new_buffer]. case_decide as Hd.
  - cbn [fmap option_fmap option_map default from_option]. by rewrite !Nat.sub_0_r.
  - cbn [default from_option]. rewrite lookup_ge_None_2; [done|]. unfold in_rect in Hd. lia.
Qed.

(** ** Waveshaper *)
Lemma all_finite_heard b o cc fc ch fr z : all_finite b = Ok o → is_block o cc fc → ch < cc → fr < fc → seen b Whole ch fr = Some z → z = Some (heard_at 0%R o ch fr).
Proof.
  intros E Ho Hch Hfr Hz. apply all_finite_inv in E as (D1 & D2 & D3 & _). pose proof (seen_heard o cc fc ch fr Ho Hch Hfr) as Hs.
  assert (seen b Whole ch fr = Some <$> seen o Whole ch fr) as Hb.
  { unfold seen. cbn. rewrite D2, D3. case_decide; [|done]. unfold sample. rewrite D1, D2, D3. case_decide; [|done]. by rewrite list_lookup_fmap. }
  rewrite Hb, Hs in Hz. by injection Hz as <-.
Qed.
Definition wb sr cc (r : round) : wblock := WBlock (vals "overdrive" r) (vals "mix" r) (r_in r) Whole (finite_buffer (fresh sr cc r)) Whole.
Lemma waveshaper_stream sr MF cc curve names rs p' : 0 < sr → "overdrive" ∈ names → "mix" ∈ names → ∀ w, winv (transfer_function (λ x, Some (curve x))) sr MF w →
  run sr cc (FWaveshaper w) rs p' → Forall (round_ok sr cc cc names) rs → Forall (λ r, 0 < r_frames r ≤ MF) rs →
  Forall (λ o, 0 <= o <= 1)%R (values_got "overdrive" rs) → Forall (λ m, 0 <= m <= 1)%R (values_got "mix" rs) →
  ∀ ch i, ch < cc → i < sum_list (r_frames <$> rs) → let d := drive (at_ (values_got "overdrive" rs) i) in
    ∃ s, shaped (curve_table curve) (at_ (taken 0 rs ch) i * d)%R s ∧
      (at_ (given 0 rs ch) i = at_ (values_got "mix" rs) i * (s / d) + (1 - at_ (values_got "mix" rs) i) * at_ (taken 0 rs ch) i)%R.
Proof.
  intros Hsr Hn1 Hn2. induction rs as [|r rs IH]; intros w Hw Hrun Hok Hfr Ho Hm ch i Hch Hi; [cbn in Hi; lia|].
  inversion Hrun as [|? ? p1 ? ? E Hrest]; subst. apply Forall_cons in Hok as [Hr Hok]. apply Forall_cons in Hfr as [Hf Hfr].
  rewrite values_cons in Ho, Hm. apply Forall_app in Ho as [Ho1 Ho2]. apply Forall_app in Hm as [Hm1 Hm2].
  destruct (vals_run names "overdrive" r sr cc cc Hr Hn1) as [E1 L1]. destruct (vals_run names "mix" r sr cc cc Hr Hn2) as [E2 L2].
  cbn [effect_run] in E. rewrite E1, E2 in E. cbn [rbind] in E. pose proof Hr as (Hi1 & _ & Hout & _). pose proof Hi1 as (Wi & Ci & Fi). pose proof (fresh_block sr cc r) as (Wf & Cf & Ff).
  destruct (ws_process_ok _ (transfer_nonempty (λ x, Some (curve x))) sr MF ltac:(lia) (wb sr cc r)) with (w := w) as (w' & out & Ew & Hw' & W); [|done|].
  { unfold wblock_ok, wb, wframes. cbn [wb_in wb_iv wb_out wb_ov wb_overdrive wb_mix]. rewrite !finite_channels, !finite_frames. split; [done|]. split; [done|].
    split; [by apply finite_wf|]. split; [done|]. split; [cbn in *; lia|]. split; [cbn in *; lia|]. split; [cbn in *; lia|]. split; [done|]. split; [cbn in *; lia|]. split; [cbn in *; lia|]. done. }
  cbn [wb wb_in wb_iv wb_out wb_ov wb_overdrive wb_mix] in Ew. unfold fresh in Ew. rewrite Ew in E. cbn [rbind] in E.
  destruct (all_finite out) as [o'|] eqn:Ea; [|done]. cbn [rbind] in E. injection E as <- ->.
  change (i < r_frames r + sum_list (r_frames <$> rs)) in Hi. rewrite given_cons, taken_cons, !values_cons, !at_app, !heard_length, L1, L2.
  destruct (decide (i < r_frames r)) as [Hlt|Hge]; [|apply (IH w'); (done || lia)].
  rewrite !at_heard by done. destruct W as (_ & _ & _ & W). destruct (W ch i) as (a & z & _ & Hz & x & o & m & y & Hx & Eo & Em & Hy & Ez);
    [cbn [wb wb_out wb_ov]; rewrite finite_channels; done|cbn [wb wb_out wb_ov]; rewrite finite_frames; done|]. cbn [wb wb_in wb_iv wb_out wb_ov wb_overdrive wb_mix] in *.
  rewrite (transfer_table curve) in Hy by done. destruct (shaped_ok (curve_table curve) (x * drive o)%R) as (s & Es & Hs); [rewrite curve_length; lia|]. rewrite Es in Hy. injection Hy as <-.
  apply (all_finite_heard out (r_out r) cc (r_frames r)) in Hz; [|done..]. subst z. cbn in Ez. rewrite (seen_heard (r_in r) cc (r_frames r)) in Hx by done. injection Hx as <-. injection Ez as Ez.
  unfold at_. rewrite Eo, Em. cbn [default from_option]. unfold Datatypes.id. exists s. done.
Qed.

(** ** Compressor *)
Definition comp_values (r : round) : comp_params :=
  CompParams (vals "attack" r) (vals "release" r) (vals "knee" r) (vals "threshold" r) (vals "ratio" r) (vals "wet" r) (vals "dry" r).
Definition cb sr cc (r : round) : cblock := CBlock (comp_values r) (r_in r) Whole (finite_buffer (fresh sr cc r)) Whole.
Definition comp_names : gset string := {[ "attack"; "release"; "ratio"; "threshold"; "knee"; "wet"; "dry" ]}.
Lemma steered_app a1 r1 x1 a2 r2 x2 : length a1 = length x1 → length r1 = length x1 →
  steered (a1 ++ a2) (r1 ++ r2) (x1 ++ x2) = steered a1 r1 x1 ++ steered a2 r2 x2.
Proof. intros H1 H2. unfold steered. rewrite (zip_with_app pair) by lia. rewrite (zip_with_app _ x1) by (rewrite zip_with_length; lia). by rewrite concat_app. Qed.
Lemma levels_app f l1 l2 : levels f (l1 ++ l2) = levels f l1 ++ levels (frun f l1) l2.
Proof. revert f. induction l1 as [|o l1 IH]; intros f; [done|]. cbn [levels app]. rewrite IH, app_assoc. done. Qed.
Lemma told_steered sr cc r ch : round_ok sr cc cc comp_names r → told (cb sr cc r) ch = steered (vals "attack" r) (vals "release" r) (heard_at 0%R (r_in r) ch <$> seq 0 (r_frames r)).
Proof.
  intros Hr. pose proof Hr as (Hi & _). unfold told, steered. cbn [cb cb_in cb_iv cb_params comp_values p_attack p_release].
  assert (row_of (r_in r, Whole) ch = heard_at 0%R (r_in r) ch <$> seq 0 (r_frames r)) as -> by (rewrite <-(row_heard (r_in r) cc (r_frames r)) by done; unfold row_of, row_from; cbn; by rewrite Nat.sub_0_r).
  f_equal. generalize (heard_at 0%R (r_in r) ch <$> seq 0 (r_frames r)) (zip (vals "attack" r) (vals "release" r)). intros l1. induction l1 as [|x l1 IH]; intros [|[a b] l2]; [done..|]. cbn. by rewrite IH.
Qed.
Lemma compressor_stream sr MF cc rs p' : 0 < cc → ∀ c fs,
  length (cp_envelopes c) = cc → wf (cp_gain c) → channels (cp_gain c) = cc → frames (cp_gain c) = MF → (∀ ch, ch < cc → cp_envelopes c !! ch = Some (fs ch)) →
  run sr cc (FCompressor c) rs p' → Forall (round_ok sr cc cc comp_names) rs → Forall (λ r, 0 < r_frames r ≤ MF) rs →
  Forall (λ t, 0 <= t)%R (values_got "attack" rs) → Forall (λ t, 0 <= t)%R (values_got "release" rs) →
  Forall (λ t, 1 <= t)%R (values_got "ratio" rs) → Forall (λ t, 0 <= t)%R (values_got "knee" rs) →
  ∀ ch i, ch < cc → i < sum_list (r_frames <$> rs) →
    let wet := at_ (values_got "wet" rs) i in let dry := at_ (values_got "dry" rs) i in let x := at_ (taken 0%R rs ch) i in let y := at_ (given 0%R rs ch) i in
    let level := (sum_over cc (λ ch, at_ (levels (fs ch) (steered (values_got "attack" rs) (values_got "release" rs) (taken 0 rs ch))) i) / INR cc)%R in
    (Forall (λ w, w = 0%R) (values_got "wet" rs) → y = x * dry)%R ∧
    match gain_law level (at_ (values_got "knee" rs) i) (at_ (values_got "threshold" rs) i) (at_ (values_got "ratio" rs) i) with
    | Some gain => (Rabs (y - x * (gain * wet + dry)) <= / 2 ^ 22 * (Rabs wet + 2) * Rabs x)%R
    | None => (Rabs wet <= / 2 ^ 22)%R
    end.
Proof.
  intros Hcc. induction rs as [|r rs IH]; intros c fs Hc1 Hc2 Hc3 Hc4 Hc5 Hrun Hok Hfr Ha Hre Hra Hk ch i Hch Hi; [cbn in Hi; lia|].
  inversion Hrun as [|? ? p1 ? ? E Hrest]; subst. apply Forall_cons in Hok as [Hr Hok]. apply Forall_cons in Hfr as [Hf Hfr].
  rewrite values_cons in Ha, Hre, Hra, Hk. apply Forall_app in Ha as [Ha1 Ha2]. apply Forall_app in Hre as [Hre1 Hre2]. apply Forall_app in Hra as [Hra1 Hra2]. apply Forall_app in Hk as [Hk1 Hk2].
  set (cc := length (cp_envelopes c)) in *.
  assert (Hv : ∀ name, name ∈ comp_names → parameter_values (λ v : R, v) (r_values r) name = Ok (vals name r) ∧ length (vals name r) = r_frames r) by (intros name Hn; by eapply vals_run).
  cbn [effect_run] in E. rewrite !(λ n H, proj1 (Hv n H)) in E by (unfold comp_names; set_solver). cbn [rbind] in E.
  pose proof Hr as (Hi1 & _ & Hout & _). pose proof Hi1 as (Wi & Ci & Fi). pose proof (fresh_block sr cc r) as (Wf & Cf & Ff).
  assert (Hb : cblock_ok cc (frames (cp_gain c)) (cb sr cc r)).
  { unfold cblock_ok, cb, cframes. cbn [cb_in cb_iv cb_out cb_ov cb_params comp_values p_attack p_release p_knee p_threshold p_ratio p_wet p_dry]. rewrite !finite_channels, !finite_frames.
    split; [done|]. split; [done|]. split; [by apply finite_wf|]. split; [done|]. split; [cbn in *; lia|]. split; [cbn in *; lia|]. split; [cbn in *; lia|]. split; [cbn in *; lia|].
    split; [|done]. intros l Hl. repeat (apply elem_of_cons in Hl as [-> |Hl]; [rewrite (λ n H, proj2 (Hv n H)) by (unfold comp_names; set_solver); done|]). by apply elem_of_nil in Hl. }
  destruct (process_ok cc (frames (cp_gain c)) (cb sr cc r) Hb ltac:(lia) c fs) as (c' & out & Ew & I1 & I2 & I3 & I4 & I5 & W); [done..|].
  cbn [cb cb_in cb_iv cb_out cb_ov cb_params] in Ew. unfold fresh in Ew. unfold comp_values in Ew at 1. rewrite Ew in E. cbn [rbind] in E.
  destruct (all_finite out) as [o'|] eqn:Ea; [|done]. cbn [rbind] in E. injection E as <- ->.
  change (i < r_frames r + sum_list (r_frames <$> rs)) in Hi.
  assert (Hl : ∀ name, name ∈ comp_names → length (vals name r) = r_frames r) by (intros name Hn; by apply Hv).
  assert (Hlev : ∀ ch, at_ (levels (fs ch) (steered (values_got "attack" (r :: rs)) (values_got "release" (r :: rs)) (taken 0%R (r :: rs) ch))) i =
    if decide (i < r_frames r) then at_ (levels (fs ch) (told (cb sr cc r) ch)) i
    else at_ (levels (frun (fs ch) (told (cb sr cc r) ch)) (steered (values_got "attack" rs) (values_got "release" rs) (taken 0%R rs ch))) (i - r_frames r)).
  { intros ch1. rewrite !values_cons, taken_cons, steered_app by (rewrite heard_length; apply Hl; unfold comp_names; set_solver). rewrite <-(told_steered sr cc r) by done.
    rewrite levels_app, at_app, (told_levels cc (frames (cp_gain c)) (cb sr cc r) Hb). unfold cframes, cb. cbn [cb_out cb_ov]. by rewrite finite_frames. }
  cbv zeta. rewrite (sum_over_ext cc _ _ (λ m _, Hlev m)). rewrite given_cons, taken_cons, !values_cons, !at_app, !heard_length, !Hl by (unfold comp_names; set_solver).
  destruct (decide (i < r_frames r)) as [Hlt|Hge].
  - rewrite !at_heard by done. destruct W as (_ & _ & _ & W).
    destruct (W ch i) as (a & z & _ & Hz & x & kn & th & ra & we & dr & Hx & Ek & Et & Er & Ew' & Ed & Hdry & Hg);
      [cbn [cb cb_out cb_ov]; rewrite finite_channels; done|cbn [cb cb_out cb_ov]; rewrite finite_frames; done|].
    cbn [cb cb_in cb_iv cb_out cb_ov cb_params comp_values p_attack p_release p_knee p_threshold p_ratio p_wet p_dry] in *.
    apply (all_finite_heard out (r_out r) cc (r_frames r)) in Hz; [|done..]. subst z. rewrite (seen_heard (r_in r) cc (r_frames r)) in Hx by done. injection Hx as <-.
    assert (Hat : ∀ name v, vals name r !! i = Some v → at_ (vals name r) i = v) by (intros name v H; unfold at_; by rewrite H).
    rewrite (Hat _ _ Ek), (Hat _ _ Et), (Hat _ _ Er), (Hat _ _ Ew'), (Hat _ _ Ed). split.
    + intros H. apply Forall_app in H as [H _]. specialize (Hdry H). by injection Hdry as ->.
    + change (sum_over cc (λ m, at_ (levels (fs m) (told (cb sr cc r) m)) i) / INR cc)%R with (mean_level cc fs (cb sr cc r) i).
      destruct (gain_law _ _ _ _) as [g|].
      * destruct Hg as (z & [= <-] & Hg). exact Hg.
      * destruct (Rle_dec (Rabs we) (/ 2 ^ 22)) as [Hle|Hgt]; [done|]. exfalso. assert (Hn : Some (heard_at 0%R (r_out r) ch i) = None); [|done]. apply Hg. exists we.
        split; [by eapply elem_of_list_lookup_2|lra].
  - specialize (IH c' (λ ch, frun (fs ch) (told (cb sr cc r) ch)) I1 I2 I3 I4 I5 Hrest Hok Hfr Ha2 Hre2 Hra2 Hk2 ch (i - r_frames r) Hch ltac:(lia)).
    cbv zeta in IH. destruct IH as [IH1 IH2]. split; [|done]. intros H. apply Forall_app in H as [_ H]. by apply IH1.
Qed.

(** ** Envelope *)
Lemma envelope_gives sr cc ch rs p' : ∀ fuel e unread got inbox, run sr cc (FEnvelope fuel e unread got inbox) rs p' →
  given 0%R rs ch = replicate (sum_list (r_frames <$> rs)) 0%R.
Proof.
  induction rs as [|r rs IH]; intros fuel e unread got inbox Hrun; [done|]. inversion Hrun as [|? ? p1 ? ? E Hrest]; subst.
  cbn [effect_run] in E. destruct (rfold _ _ _) as [[[e' unread'] got']|]; [|done]. cbn [rbind] in E. injection E as <- Eo.
  rewrite given_cons, <-Eo, (IH _ _ _ _ _ Hrest). change (sum_list (r_frames <$> r :: rs)) with (r_frames r + sum_list (r_frames <$> rs)).
  rewrite replicate_add. f_equal. assert (H0 : ∀ l, heard_at 0%R (new_buffer 0%R (r_frames r) cc sr) ch <$> l = replicate (length l) 0%R); [|by rewrite H0, seq_length].
  intros l. induction l as [|fr l IHl]; [done|]. rewrite fmap_cons, IHl. cbn [length replicate]. f_equal. unfold heard_at, sample. case_decide; [|done]. cbn [data new_buffer].
  destruct (replicate _ 0%R !! _) eqn:El; [|done]. by apply lookup_replicate in El as [-> _].
Qed.

(** ** All of them *)
Lemma length_of_times (rs : list round) : length_of (times rs) = sum_list (r_frames <$> rs).
Proof. unfold length_of, times. by rewrite <-list_fmap_compose. Qed.
Lemma session_valued sr ins outs (st : dspstate R effect) events rs st' l name v :
  session R_num (λ v : R, v) 0%R effect_run sr ins outs st events rs st' → ds_params st = params l → NoDup l.*1 → (name, v) ∈ l →
  valued sr v (events name) (values_got name rs) ∧ name ∈@{gset string} dom (ds_params st).
Proof.
  intros (_ & _ & _ & H) Hp Hn Hin.
  assert (Hl : ds_params st !! name = Some (new_param R_num v)).
  { rewrite Hp. unfold params. apply elem_of_list_to_map_1.
    - rewrite <-list_fmap_compose. rewrite (list_fmap_ext _ fst l); [exact Hn|by intros ? []].
    - apply elem_of_list_fmap. by exists (name, v). }
  destruct (H name _ Hl) as (p' & _ & E). split; [by exists p'|]. apply elem_of_dom. by eexists.
Qed.
Ltac in_list := repeat first [apply elem_of_list_here|apply elem_of_list_further].
Ltac no_dup := repeat (constructor; [set_solver|]); constructor.
Ltac distinct := apply (bool_decide_unpack _); vm_compute; exact I.

Lemma device_performs sr MF d st events rs st' : device_ok sr MF d → device_state sr MF d = Ok st →
  session R_num (λ v : R, v) 0%R effect_run sr (device_inputs d) (device_outputs d) st events rs st' →
  Forall (λ b : timestamp * nat, 0 < b.2 ≤ MF) (times rs) → performs sr (times rs) events d (taken 0%R rs) (given 0%R rs).
Proof.
  intros Hok Est Hs Hb. pose proof Hs as (Hrun & Hr & _ & _). split; [intros ch; by rewrite given_length, length_of_times|].
  split; [intros ch Hch; rewrite length_of_times; by eapply given_beyond|]. rewrite length_of_times.
  destruct d as [cc gain|pan|ins outs inbox|cc t f q s g|impulse maximum wet dry|cc inbox|outs fuel table f g|outs fuel smp fade inbox|cc|cc curve|cc count size inbox|cc fuel attack release frequency inbox]; cbn [device_state] in Est;
    cbn [device_inputs device_outputs] in Hs, Hrun, Hr; cbn [device_ok] in Hok.
  - injection Est as <-. destruct (session_valued _ _ _ _ _ _ _ _ "gain" gain Hs eq_refl) as [H1 H2]; [no_dup|in_list|].
    exists (values_got "gain" rs). split; [done|]. by eapply gain_stream.
  - injection Est as <-. destruct (session_valued _ _ _ _ _ _ _ _ "pan" pan Hs eq_refl) as [H1 H2]; [no_dup|in_list|].
    exists (values_got "pan" rs). split; [done|]. by eapply pan_stream.
  - unfold mixer_new in Est. destruct (matrix_new 0%R ins outs) as [m0|] eqn:Em; [|done]. cbn [rbind] in Est. injection Est as <-.
    cbn [ds_params mixer_node] in Hr. rewrite dom_empty_L in Hr. intros o i m Ho Hi. refine (mixer_stream sr ins outs rs _ _ inbox Hrun Hr _ _ Hok o i m Ho Hi); [|done].
    unfold matrix_ok, matrix_empty. cbn [mx_proc m_inputs m_outputs m_cells]. rewrite replicate_length. cbn. lia.
  - injection Est as <-. destruct (session_valued _ _ _ _ _ _ _ _ "frequency" f Hs eq_refl) as [H1 H2]; [no_dup|in_list|].
    destruct (session_valued _ _ _ _ _ _ _ _ "q" q Hs eq_refl) as [H3 H4]; [no_dup|in_list|].
    destruct (session_valued _ _ _ _ _ _ _ _ "shelf-gain" s Hs eq_refl) as [H5 H6]; [no_dup|in_list|].
    destruct (session_valued _ _ _ _ _ _ _ _ "gain" g Hs eq_refl) as [H7 H8]; [no_dup|in_list|].
    exists (values_got "frequency" rs), (values_got "q" rs), (values_got "shelf-gain" rs), (values_got "gain" rs). do 4 (split; [done|]).
    eapply biquad_stream; [|done..]. unfold biquad_names. set_solver.
  - destruct (new_convolution impulse maximum) as [c|] eqn:Ec; [|done]. cbn [rbind] in Est. injection Est as <-.
    destruct (session_valued _ _ _ _ _ _ _ _ "wet" wet Hs eq_refl) as [H1 H2]; [no_dup|in_list|].
    destruct (session_valued _ _ _ _ _ _ _ _ "dry" dry Hs eq_refl) as [H3 H4]; [no_dup|in_list|]. destruct Hok as (Hw & Hf & Hm).
    exists (values_got "wet" rs), (values_got "dry" rs). do 2 (split; [done|]). eapply convolution_stream; [done..| |done|done]. unfold wet_dry. set_solver.
  - injection Est as <-. destruct Hok as (H1 & H2 & H3). cbn [ds_params adsr_node] in Hr. rewrite dom_empty_L in Hr.
    refine (adsr_stream sr MF cc rs _ H1 H2 [] (new_env sr) (replicate MF 0%R) inbox Hrun Hr _ _ _ H3).
    + unfold times in Hb. by rewrite Forall_fmap in Hb. + constructor. + rewrite replicate_length. lia.
  - injection Est as <-. destruct Hok as (H1 & H2 & H3). destruct (session_valued _ _ _ _ _ _ _ _ "frequency" f Hs eq_refl) as [H4 H5]; [no_dup|in_list|].
    destruct (session_valued _ _ _ _ _ _ _ _ "gain" g Hs eq_refl) as [H6 H7]; [no_dup|in_list|].
    exists (values_got "frequency" rs), (values_got "gain" rs). do 2 (split; [done|]). intros Hf.
    destruct (oscillator_stream sr outs fuel table _ rs _ H1 H2 H3 H5 H7 [] 0%R 0%Z ltac:(lra) ltac:(unfold cycles; cbn; lra) Hrun Hr Hf) as [I1 I2].
    assert (H0 : ∀ x, (cycles sr [] + x = x)%R) by (intros x; unfold cycles; cbn; lra). split.
    + intros n Hn k. rewrite <-(H0 (cycles sr _)). by apply I1.
    + intros ch i Hch Hi v. specialize (I2 ch i Hch Hi). cbv zeta in I2. rewrite H0 in I2. exact I2.
  - injection Est as <-. destruct Hok as (H1 & H2 & H3 & H4 & H5). exact (sampler_stream sr MF outs fuel smp fade inbox rs _ _ H1 H2 H3 H4 H5 Hrun Hr Hb).
  - injection Est as <-. destruct (session_valued _ _ _ _ _ _ _ _ "attack" 1%R Hs eq_refl) as [H1 _]; [distinct|by apply (elem_of_list_lookup_2 _ 0)|].
    destruct (session_valued _ _ _ _ _ _ _ _ "release" 10%R Hs eq_refl) as [H2 _]; [distinct|by apply (elem_of_list_lookup_2 _ 1)|].
    destruct (session_valued _ _ _ _ _ _ _ _ "ratio" 3%R Hs eq_refl) as [H3 _]; [distinct|by apply (elem_of_list_lookup_2 _ 2)|].
    destruct (session_valued _ _ _ _ _ _ _ _ "threshold" 0%R Hs eq_refl) as [H4 _]; [distinct|by apply (elem_of_list_lookup_2 _ 3)|].
    destruct (session_valued _ _ _ _ _ _ _ _ "knee" 0%R Hs eq_refl) as [H5 _]; [distinct|by apply (elem_of_list_lookup_2 _ 4)|].
    destruct (session_valued _ _ _ _ _ _ _ _ "wet" 1%R Hs eq_refl) as [H6 _]; [distinct|by apply (elem_of_list_lookup_2 _ 5)|].
    destruct (session_valued _ _ _ _ _ _ _ _ "dry" 0%R Hs eq_refl) as [H7 _]; [distinct|by apply (elem_of_list_lookup_2 _ 6)|].
    eexists _, _, _, _, _, _, _. do 7 (split; [eassumption|]). intros F1 F2 F3 F4 ch i Hch Hi.
    refine (compressor_stream sr MF cc rs _ _ _ (λ _, new_follower (INR sr) (1 / 1000) (10 / 1000)) _ _ _ _ _ Hrun _ _ F1 F2 F3 F4 ch i Hch Hi).
    + lia. + apply replicate_length. + apply new_buffer_wf. + done. + done. + intros c Hc. by apply lookup_replicate_2.
    + cbn [ds_params compressor_node] in Hr. rewrite params_dom in Hr. assert (list_to_set ([("attack", 1); ("release", 10); ("ratio", 3); ("threshold", 0); ("knee", 0); ("wet", 1); ("dry", 0)]%R.*1) = comp_names) as <-; [|exact Hr].
      unfold comp_names. cbn. rewrite !(assoc_L (∪)). by rewrite (right_id_L ∅ (∪)).
    + unfold times in Hb. by rewrite Forall_fmap in Hb.
  - injection Est as <-. destruct (session_valued _ _ _ _ _ _ _ _ "overdrive" 0%R Hs eq_refl) as [H1 H2]; [no_dup|in_list|].
    destruct (session_valued _ _ _ _ _ _ _ _ "mix" 1%R Hs eq_refl) as [H3 H4]; [no_dup|in_list|].
    exists (values_got "overdrive" rs), (values_got "mix" rs). do 2 (split; [done|]). intros Ho Hm.
    refine (waveshaper_stream sr MF cc curve _ rs _ Hok H2 H4 _ (new_winv _ sr MF) Hrun Hr _ Ho Hm). unfold times in Hb. by rewrite Forall_fmap in Hb.
  - done.
  - destruct (new_envelope _ _ _ _ _) as [e|]; [|done]. cbn [rbind] in Est. injection Est as <-. intros ch. exact (envelope_gives sr cc ch rs _ _ _ _ _ _ Hrun).
Qed.

(** what a node makes of [x] depends on its input channels only *)
Lemma performs_ext sr blocks events d x x' y : (∀ ch, ch < device_inputs d → x ch = x' ch) → performs sr blocks events d x y → performs sr blocks events d x' y.
Proof.
  intros Hx (H1 & H2 & H3). split; [done|]. split; [done|]. destruct d as [cc gain|pan|ins outs inbox|cc t f q s g|impulse maximum wet dry|cc inbox|outs fuel table f g|outs fuel smp fade inbox|cc|cc curve|cc count size inbox|cc fuel attack release frequency inbox]; cbn [device_inputs] in Hx.
  - destruct H3 as (v & Hv & H3). exists v. split; [done|]. intros ch i Hch Hi. rewrite <-Hx by done. by apply H3.
  - destruct H3 as (v & Hv & H3). exists v. split; [done|]. intros i Hi. rewrite <-!Hx by lia. by apply H3.
  - intros o i m Ho Hm. specialize (H3 o i m Ho Hm). rewrite (sum_over_ext ins _ (λ ch, level_at 0 m ch o * at_ (x' ch) i)%R), (sum_over_ext ins (λ ch, Rabs (at_ (x ch) i)) (λ ch, Rabs (at_ (x' ch) i))) in H3; [done|..]; intros ch Hch; by rewrite Hx.
  - destruct H3 as (fs & qs & ss & gs & E1 & E2 & E3 & E4 & H3). exists fs, qs, ss, gs. do 4 (split; [done|]). intros ch Hch. rewrite <-Hx by done. by apply H3.
  - destruct H3 as (ws & ds & E1 & E2 & H3). exists ws, ds. do 2 (split; [done|]). intros ch i Hch Hi. rewrite <-Hx by done. by apply H3.
  - destruct H3 as (ds & E & H3). exists ds. split; [done|]. cbv zeta in *. intros ch i Hch Hi. rewrite <-Hx by done. by apply H3.
  - done.
  - done.
  - destruct H3 as (v1 & v2 & v3 & v4 & v5 & v6 & v7 & E1 & E2 & E3 & E4 & E5 & E6 & E7 & H3). exists v1, v2, v3, v4, v5, v6, v7. do 7 (split; [done|]). intros F1 F2 F3 F4 ch i Hch Hi.
    specialize (H3 F1 F2 F3 F4 ch i Hch Hi). cbv zeta in *. rewrite <-Hx by done.
    rewrite (sum_over_ext cc _ (λ ch, at_ (levels (new_follower (INR sr) (1 / 1000) (10 / 1000)) (steered v1 v2 (x ch))) i)%R); [done|]. intros m Hm. by rewrite Hx.
  - destruct H3 as (v1 & v2 & E1 & E2 & H3). exists v1, v2. do 2 (split; [done|]). intros Ho Hm ch i Hch Hi. cbv zeta. rewrite <-Hx by done. by apply H3.
  - done.
  - done.
Qed.

Lemma blocks_fit {V A P} MF sr (os : list (nop V A P)) : 0 < MF → ∀ on position, Forall (λ b : timestamp * nat, 0 < b.2 ≤ MF) (blocks_of MF sr on position os).
Proof.
  intros Hm. induction os as [|o os IH]; intros on position; [constructor|]. destruct o; cbn [blocks_of]; try apply IH. destruct on; [|apply IH].
  apply Forall_app. split; [|apply IH]. unfold callback_blocks. apply Forall_fmap, Forall_forall. intros k Hk. apply elem_of_seq in Hk. cbn. unfold chunk_len.
  set (n := v_frames _ _) in *. assert (k * MF < n); [|lia]. assert (MF * ((n + (MF - 1)) / MF) ≤ n + (MF - 1)) by (apply Nat.mul_div_le; lia). nia.
Qed.
