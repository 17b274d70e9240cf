(** Compressors and waveshapers go on for ever on values in range. *)
From stdpp Require Import functions gmap list strings list_numbers.
From Coq Require Import ZArith Reals Lra Lia ZifyBool ZifyNat.
From Verif Require Import Base Graph Buffer BufferSpec BufferProofs DspGraph DspGraphSpec Float Timestamp Processor ProcessorSpec AudioParam AudioParamR
  EffectSpec EffectProofs MixerProofs Envelope EnvelopeSpec Compressor CompressorSpec CompressorProofs CompressorNode Waveshaper WaveshaperSpec WaveshaperProofs WaveshaperCases Node NodeSpec Effects EffectsSpec EffectsProofs EffectShape
  StreamSpec DeviceProofs.
Local Open Scope nat_scope.

Lemma all_finite_ok (b : owned (option R)) : wf b → (∀ ch fr, ch < channels b → fr < frames b → ∃ z, seen b Whole ch fr = Some (Some z)) → ∃ o, all_finite b = Ok o.
Proof.
  intros W H. unfold all_finite. assert (is_Some (mapM (λ x, x) (data b))) as [l ->]; [|eauto].
  apply mapM_is_Some_2, Forall_forall. intros x Hx. apply elem_of_list_lookup in Hx as [k Hk].
  assert (Hlt : k < channels b * frames b) by (apply lookup_lt_Some in Hk; unfold wf in W; lia).
  assert (0 < frames b) as Hf by lia.
  destruct (H (k / frames b) (k mod frames b)) as [z Hz].
  { apply Nat.div_lt_upper_bound; lia. } { apply Nat.mod_upper_bound. lia. }
  unfold seen in Hz. cbn in Hz. case_decide; [|done]. unfold sample in Hz. case_decide; [|done].
  replace (k / frames b * frames b + k mod frames b) with k in Hz by (rewrite (Nat.div_mod_eq k (frames b)) at 1; lia). rewrite Hk in Hz. injection Hz as ->. eauto.
Qed.

Lemma asked_vals sr MF d names r name : in_range_round sr MF d names r → name ∈ names →
  parameter_values (λ v : R, v) (r_values r) name = Ok (vals name r) ∧ length (vals name r) = r_frames r ∧ Forall (in_range d name) (vals name r).
Proof.
  intros (_ & _ & H) Hn. destruct (H name Hn) as (vs & E & L & F). unfold parameter_values, vals. rewrite E. cbn. by rewrite list_fmap_id.
Qed.

Definition answer (r : round) (o : owned R) : round := Round (r_time r) (r_frames r) (r_values r) (r_in r) o.

Lemma waveshaper_goes_on sr MF cc curve names asks : 0 < sr → "overdrive" ∈ names → "mix" ∈ names → Forall (in_range_round sr MF (DWaveshaper cc curve) names) asks →
  ∀ w, winv (transfer_function (λ x, Some (curve x))) sr MF w → ∃ rs p', run sr cc (FWaveshaper w) rs p' ∧ request_of <$> rs = request_of <$> asks.
Proof.
  intros Hsr Hn1 Hn2. induction asks as [|r asks IH]; intros Hok w Hw; [exists [], (FWaveshaper w); split; [constructor|done]|].
  apply Forall_cons in Hok as [Hr Hok]. destruct (asked_vals sr MF (DWaveshaper cc curve) names r "overdrive" Hr Hn1) as (E1 & L1 & F1).
  destruct (asked_vals sr MF (DWaveshaper cc curve) names r "mix" Hr Hn2) as (E2 & L2 & F2). cbn [in_range] in F1, F2.
  pose proof Hr as (Hi1 & Hf & _). pose proof Hi1 as (Wi & Ci & Fi). cbn [device_inputs] in Ci. pose proof (fresh_block sr cc r) as (Wf & Cf & Ff).
  destruct (ws_process_ok _ (transfer_nonempty (λ x, Some (curve x))) sr MF ltac:(lia) (wb sr cc r)) with (w := w) as (w' & out & Ew & Hw' & W); [|done|].
  { unfold wblock_ok, wb, wframes. cbn [wb_in wb_iv wb_out wb_ov wb_overdrive wb_mix]. rewrite !finite_channels, !finite_frames. split; [done|]. split; [done|].
    split; [by apply finite_wf|]. split; [done|]. split; [cbn in *; lia|]. split; [cbn in *; lia|]. split; [cbn in *; lia|]. split; [done|]. split; [cbn in *; lia|]. split; [cbn in *; lia|]. done. }
  cbn [wb wb_in wb_iv wb_out wb_ov wb_overdrive wb_mix] in Ew. unfold fresh in Ew.
  assert (∃ o, all_finite out = Ok o) as [o Ea].
  { destruct W as (Wo & (D1 & D2 & _) & _ & W). cbn in D1, D2. apply all_finite_ok; [done|]. intros ch fr Hch Hfr.
    destruct (W ch fr) as (a & z & _ & Hz & x & ov & m & y & Hx & Eo & Em & Hy & Ez); [cbn [wb wb_out wb_ov]; rewrite finite_channels; cbn in *; lia|cbn [wb wb_out wb_ov]; rewrite finite_frames; cbn in *; lia|].
    cbn [wb wb_ov] in Hz. rewrite (transfer_table curve) in Hy by done. destruct (shaped_ok (curve_table curve) (x * drive ov)%R) as (s & Es & Hs); [rewrite curve_length; lia|]. rewrite Es in Hy. injection Hy as <-.
    cbn in Ez. rewrite Hz, Ez. eauto. }
  destruct (IH Hok w' Hw') as (rs & p' & Hrun & Hq). exists (answer r o :: rs), p'. split.
  - eapply runs_cons; [|exact Hrun]. cbn [answer r_time r_values r_in r_frames r_out effect_run]. rewrite E1, E2. cbn [rbind]. rewrite Ew. cbn [rbind]. by rewrite Ea.
  - rewrite !fmap_cons. by f_equal.
Qed.

Lemma gain_law_some l knee threshold ratio : (0 < knee)%R → ∃ g, gain_law l knee threshold ratio = Some g.
Proof. intros H. unfold gain_law. destruct (Rlt_dec _ _); [eauto|]. destruct (Req_EM_T _ _); [|eauto]. destruct (Req_EM_T knee 0); [lra|eauto]. Qed.

Lemma compressor_goes_on sr MF cc asks : 0 < cc → Forall (in_range_round sr MF (DCompressor cc) comp_names) asks → ∀ c fs,
  length (cp_envelopes c) = cc → wf (cp_gain c) → channels (cp_gain c) = cc → frames (cp_gain c) = MF → (∀ ch, ch < cc → cp_envelopes c !! ch = Some (fs ch)) →
  ∃ rs p', run sr cc (FCompressor c) rs p' ∧ request_of <$> rs = request_of <$> asks.
Proof.
  intros Hcc. induction asks as [|r asks IH]; intros Hok c fs Hc1 Hc2 Hc3 Hc4 Hc5; [exists [], (FCompressor c); split; [constructor|done]|].
  apply Forall_cons in Hok as [Hr Hok]. set (d := DCompressor cc) in *.
  assert (Hv : ∀ name, name ∈ comp_names → parameter_values (λ v : R, v) (r_values r) name = Ok (vals name r) ∧ length (vals name r) = r_frames r ∧ Forall (in_range d name) (vals name r))
    by (intros name Hn; by eapply asked_vals).
  pose proof Hr as (Hi1 & Hf & _). pose proof Hi1 as (Wi & Ci & Fi). cbn [d device_inputs] in Ci. pose proof (fresh_block sr cc r) as (Wf & Cf & Ff).
  assert (Hk : Forall (λ k, 0 < k)%R (vals "knee" r)) by (destruct (Hv "knee") as (_ & _ & F); [unfold comp_names; set_solver|exact F]).
  assert (Hat : Forall (λ k, 0 <= k)%R (vals "attack" r)) by (destruct (Hv "attack") as (_ & _ & F); [unfold comp_names; set_solver|exact F]).
  assert (Hre : Forall (λ k, 0 <= k)%R (vals "release" r)) by (destruct (Hv "release") as (_ & _ & F); [unfold comp_names; set_solver|exact F]).
  assert (Hra : Forall (λ k, 1 <= k)%R (vals "ratio" r)) by (destruct (Hv "ratio") as (_ & _ & F); [unfold comp_names; set_solver|exact F]).
  assert (Hb : cblock_ok cc MF (cb sr cc r)).
  { unfold cblock_ok, cb, cframes. cbn [cb_in cb_iv cb_out cb_ov cb_params comp_values p_attack p_release p_knee p_threshold p_ratio p_wet p_dry]. rewrite !finite_channels, !finite_frames.
    split; [done|]. split; [done|]. split; [by apply finite_wf|]. split; [done|]. split; [cbn in *; lia|]. split; [cbn in *; lia|]. split; [cbn in *; lia|]. split; [cbn in *; lia|].
    split; [intros l Hl; repeat (apply elem_of_cons in Hl as [-> |Hl]; [rewrite (λ n H, proj1 (proj2 (Hv n H))) by (unfold comp_names; set_solver); done|]); by apply elem_of_nil in Hl|].
    do 3 (split; [done|]). eapply Forall_impl; [exact Hk|]. intros k H. cbn in *. lra. }
  destruct (process_ok cc MF (cb sr cc r) Hb ltac:(lia) c fs) as (c' & out & Ew & I1 & I2 & I3 & I4 & I5 & W); [done..|].
  cbn [cb cb_in cb_iv cb_out cb_ov cb_params] in Ew. unfold fresh in Ew. unfold comp_values in Ew at 1.
  assert (∃ o, all_finite out = Ok o) as [o Ea].
  { destruct W as (Wo & (D1 & D2 & _) & _ & W). cbn in D1, D2. apply all_finite_ok; [done|]. intros ch fr Hch Hfr.
    destruct (W ch fr) as (a & z & _ & Hz & x & kn & th & ra & we & dr & Hx & Ek & Et & Er & Ew' & Ed & Hdry & Hg); [cbn [cb cb_out cb_ov]; rewrite finite_channels; cbn in *; lia|cbn [cb cb_out cb_ov]; rewrite finite_frames; cbn in *; lia|].
    cbn [cb cb_ov cb_params comp_values p_knee] in Hz, Ek. apply (Forall_lookup_1 _ _ _ _ Hk) in Ek. destruct (gain_law_some (mean_level cc fs (cb sr cc r) fr) kn th ra Ek) as [g Eg].
    rewrite Eg in Hg. destruct Hg as (z' & -> & _). eauto. }
  destruct (IH Hok c' (λ ch, frun (fs ch) (told (cb sr cc r) ch)) I1 I2 I3 I4 I5) as (rs & p' & Hrun & Hq). exists (answer r o :: rs), p'. split.
  - eapply runs_cons; [|exact Hrun]. cbn [answer r_time r_values r_in r_frames r_out effect_run]. rewrite !(λ n H, proj1 (Hv n H)) by (unfold comp_names; set_solver).
    cbn [rbind]. rewrite Ew. cbn [rbind]. by rewrite Ea.
  - rewrite !fmap_cons. by f_equal.
Qed.

Lemma dynamics_go_on sr MF d st asks : match d with DCompressor cc => 0 < cc | DWaveshaper _ _ => True | _ => False end →
  device_ok sr MF d → device_state sr MF d = Ok st → Forall (in_range_round sr MF d (dom (ds_params st))) asks →
  ∃ rs p', runs (λ v : R, v) 0%R effect_run sr (device_outputs d) (ds_proc st) rs p' ∧ request_of <$> rs = request_of <$> asks.
Proof.
  intros Hd Hok Est H. destruct d as [| | | | | | | |cc|cc curve| |]; try done.
  - injection Est as <-. eapply (compressor_goes_on sr MF cc asks Hd) with (fs := λ _, new_follower (INR sr) (1 / 1000) (10 / 1000)).
    + cbn [ds_params compressor_node] in H. rewrite params_dom in H.
      assert (list_to_set ([("attack", 1); ("release", 10); ("ratio", 3); ("threshold", 0); ("knee", 0); ("wet", 1); ("dry", 0)]%R.*1) = comp_names) as <-; [|exact H].
      unfold comp_names. cbn. rewrite !(assoc_L (∪)). by rewrite (right_id_L ∅ (∪)).
    + apply replicate_length. + apply new_buffer_wf. + done. + done. + intros c Hc. by apply lookup_replicate_2.
  - injection Est as <-. refine (waveshaper_goes_on sr MF cc curve _ asks Hok _ _ H _ (new_winv _ sr MF)); cbn [ds_params waveshaper_node]; rewrite params_dom; set_solver.
Qed.

(** ** A compressor and a round *)
Definition squash_round : round :=
  Round (time_of 100 3) 2 (list_to_map [("attack", [1; 2]); ("release", [10; 0]); ("ratio", [3; 3]); ("threshold", [0; -20]); ("knee", [1; 6]); ("wet", [1; 1]); ("dry", [0; 0])]%R)
    (Owned [1; 0]%R 1 2 100) (Owned [] 0 0 0).
Lemma squash_in_range st : device_state 100 4 (DCompressor 1) = Ok st → Forall (in_range_round 100 4 (DCompressor 1) (dom (ds_params st))) [squash_round; squash_round].
Proof.
  intros [= <-]. cbn [ds_params compressor_node]. rewrite params_dom.
  assert (H : in_range_round 100 4 (DCompressor 1) (list_to_set [("attack", 1); ("release", 10); ("ratio", 3); ("threshold", 0); ("knee", 0); ("wet", 1); ("dry", 0)]%R.*1) squash_round);
    [|constructor; [exact H|constructor; [exact H|constructor]]].
  split; [done|]. split; [cbn; lia|]. intros name Hn. apply elem_of_list_to_set in Hn. cbn [fmap list_fmap fst] in Hn.
  repeat (apply elem_of_cons in Hn as [->|Hn]; [eexists; split; [reflexivity|]; split; [reflexivity|]; repeat (constructor; [unfold in_range; repeat case_decide; first [done|lra|naive_solver]|]); constructor|]).
  by apply elem_of_nil in Hn.
Qed.
