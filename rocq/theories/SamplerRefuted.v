(** Where the sampler does not do what its interface promises. *)
From stdpp Require Import list list_numbers sorting.
From Coq Require Import ZArith ZifyBool ZifyNat.
From Verif Require Import Base Float FloatProofs Timestamp TimestampProofs EventProcessor EventProcessorSpec EventProcessorProofs
  Buffer BufferSpec BufferProofs Sampler SamplerSpec SamplerTime SamplerVoice SamplerProofs SamplerScenes SamplerStop SamplerDemo.

(** ** Scripts *)
Lemma script_ok sr l : ∀ k, Forall (λ x, 0 < x.2 ∧ (Z.of_nat x.2 <= 2 ^ 16)%Z ∧ (Z.of_nat x.2 * Z.of_nat sr <= 2 ^ 32)%Z) l →
  Forall (sblock_ok sr) (script sr k l).
Proof.
  induction l as [|[es n] l IH]; intros k H; [constructor|]. apply Forall_cons in H as [(H1 & H2 & H3) H].
  cbn [snd] in *. constructor; [|by apply IH]. split; [|split; [done|]].
  - unfold wf. cbn. rewrite !replicate_length. lia.
  - cbn. rewrite replicate_length. done.
Qed.

Lemma hears_at {A} (add mul : A → A → A) smp f bs outs : ∀ k j, Forall3 (λ b hs out, mixed add mul smp (sb_view b) 0 hs (sb_out b) out) bs (spread f k bs) outs →
  ∀ b out ch fr, bs !! j = Some b → outs !! j = Some out → sb_view b = Whole → ch < channels (sb_out b) → fr < frames_in b →
  sample out ch fr = (λ x, mix add mul smp ch x (f (k + total (take j bs) + fr))) <$> sample (sb_out b) ch fr.
Proof.
  revert outs. induction bs as [|b bs IH]; intros outs k j H b0 out ch fr Hb Ho Hv Hch Hfr; [done|].
  apply Forall3_cons_inv_l in H as (hs & hss & o & os & E & -> & H1 & H2). cbn [spread] in E. injection E as <- <-.
  destruct j as [|j]; cbn in Hb, Ho.
  - injection Hb as <-. injection Ho as <-. destruct H1 as (_ & _ & S). rewrite S, Hv. cbn [off_ch off_fr v_channels].
    rewrite fmap_length, seq_length. rewrite decide_True by (unfold in_rect; lia).
    rewrite list_lookup_fmap, lookup_seq_lt by lia. cbn. rewrite !Nat.sub_0_r. cbn [take]. 
    change (total []) with 0. rewrite !Nat.add_0_r. done.
  - rewrite (IH os (k + frames_in b) j H2 b0 out ch fr) by done. cbn [take]. rewrite total_cons. do 3 f_equal. lia.
Qed.

(** ** A start is dropped while two voices sound *)
Definition third_start : list (sblock (A := Z)) := script 80 0
  [([now 0 SStartImmediate], 3); ([sampler_event (at_frame 80 3) 1 (SStart (at_frame 80 20))], 2);
   ([sampler_event (at_frame 80 5) 2 (SStart (at_frame 80 40))], 2); ([], 8)].
Lemma third_start_dropped :
  (Forall (sblock_ok 80) third_start ∧
  sb_sent <$> third_start = [[now 0 SStartImmediate]; [sampler_event (at_frame 80 3) 1 (SStart (at_frame 80 20))];
    [sampler_event (at_frame 80 5) 2 (SStart (at_frame 80 40))]; []]) ∧
  frames (ramp 80 60) = 60 ∧
  (∃ fuel outs, demo (ramp 80 60) fuel third_start = Ok outs ∧
    data <$> outs = [[1; 2; 3]; [4; 8]; [26; 19]; [12; 6; 0; 0; 0; 0; 0; 0]]%Z).
Proof.
  split; [split; [apply script_ok; repeat constructor; cbn; lia|done]|]. split; [done|].
  exists 10. eexists. split; vm_compute; reflexivity.
Qed.

(** ** A loop shorter than the fade *)
Definition short_loop : list (sblock (A := Z)) := script 80 0
  [([now 0 (SEnableLoop (at_frame 80 3) (at_frame 80 5)); now 1 SStartImmediate], 24)].
Lemma short_loop_fails : ∃ fuel outs, demo (ramp 80 60) fuel short_loop = Ok outs ∧
  ¬ hears Z.add quarter (ramp 80 60) (loop_plan 4%Z fade4 3 5) short_loop outs.
Proof.
  exists 60. eexists. split; [vm_compute; reflexivity|]. intros H.
  pose proof (hears_at _ _ _ _ _ _ 0 0 H _ _ 0 20 eq_refl eq_refl eq_refl ltac:(cbn; lia) ltac:(cbn; lia)) as E.
  vm_compute in E. done.
Qed.

(** ** An empty loop never ends *)
Lemma from_samples_mono x y sr : (0 < Z.of_nat sr <= 2 ^ 29)%Z → (x <= y)%Z →
  (from_samples x (Z.of_nat sr) <= from_samples y (Z.of_nat sr))%Z.
Proof.
  intros Hsr Hxy. pose proof one64_pos as Ho. pose proof tick64_big as Ht. unfold from_samples, fixed_from_f64, f64_div.
  rewrite f64_of_Z_exact by lia.
  assert (0 < Z.of_nat sr * one64)%Z by (apply Z.mul_pos_pos; lia).
  destruct (Z.ltb_spec (Z.of_nat sr * one64) 0); [lia|].
  apply rne_mono; [lia|lia|]. apply Z.mul_le_mono_nonneg_r; [lia|].
  apply rnd_mono; [lia|lia|lia|]. apply Z.mul_le_mono_nonneg_r; [lia|]. apply Z.mul_le_mono_nonneg_r; lia.
Qed.

Section stuck.
  Context {A : Type} (one : A) (add mul : A → A → A).
  Context (smp : owned A) (fade : list A) (sr : nat) (Hsr : (0 < Z.of_nat sr <= 2 ^ 29)%Z).

  Lemma next_loop_le (s s0 : sampler) (ts te : timestamp) :
    sa_loop s = Some (ts, te) → sa_loop s0 = Some (ts, te) → sa_start s = sa_start s0 → sa_loops s0 = 0 → (te <= ts)%Z →
    (next_loop_position smp sr s <= next_loop_position smp sr s0)%Z.
  Proof.
    intros H1 H2 H3 H4 Hle. unfold next_loop_position. rewrite H1, H2, H3, H4. apply from_samples_mono; [done|].
    pose proof one64_pos as Ho.
    assert (Hx : (as_samples (te - ts) (Z.of_nat sr) <= 0)%Z).
    { apply as_samples_nonpos; unfold timestamp in *; lia. }
    set (x := as_samples (te - ts)%Z _) in *. set (y := as_samples (te - sa_start s0)%Z _). clearbody x y.
    unfold f64_add, f64_mul. change (f64_of_Z (Z.of_nat 0)) with 0%Z. rewrite Z.mul_0_r, (rnd_0 53 one64) by done.
    apply rnd_mono; [lia|lia|lia|]. rewrite !Z.mul_1_r.
    assert (Hn : (0 <= f64_of_Z (Z.of_nat (sa_loops s)))%Z).
    { unfold f64_of_Z. apply rnd_ge_repr; [lia|lia|apply repr_0; lia|]. rewrite Z.mul_0_r. apply Z.mul_nonneg_nonneg; lia. }
    assert (rnd 53 (x * f64_of_Z (Z.of_nat (sa_loops s))) one64 <= 0)%Z; [|lia].
    apply rnd_nonpos; [lia|lia|]. apply Z.mul_nonpos_nonneg; lia.
  Qed.

  Lemma count_le (s s0 : sampler) rem : sa_position s = sa_position s0 →
    (next_loop_position smp sr s <= next_loop_position smp sr s0)%Z → render_count smp sr s rem ≤ render_count smp sr s0 rem.
  Proof.
    intros Hp Hn. unfold render_count, get_render_interval. rewrite Hp.
    set (E := next_loop_position smp sr s) in *. set (E0 := next_loop_position smp sr s0) in *.
    set (F := incremented_by_samples _ _ _). clearbody E E0 F. set (p := sa_position s0). clearbody p.
    assert (((if (F <? E)%Z then F else E) - p <= (if (F <? E0)%Z then F else E0) - p)%Z) as Hle.
    { destruct (Z.ltb_spec F E), (Z.ltb_spec F E0); unfold timestamp in *; lia. }
    assert (Hs : (0 < Z.of_nat sr <= 2 ^ 53)%Z) by lia.
    assert (Hm : ∀ x y r : Z, (x <= y)%Z → Z.to_nat (Z.min x r) ≤ Z.to_nat (Z.min y r)) by (clear; lia).
    apply Hm, round_mono, as_samples_mono_all; done.
  Qed.

  Lemma assign_keeps t (s : sampler) : let s' := assign_voice sr t s in
    sa_loop s' = sa_loop s ∧ sa_position s' = sa_position s ∧ sa_start s' = sa_start s ∧ sa_loops s' = sa_loops s.
  Proof. destruct (start_voice_move sr _ s t eq_refl) as (_ & M2 & M3 & M4 & M5). done. Qed.

  Lemma empty_loop_stuck s0 ts te out ov fp : (te <= ts)%Z → sa_loop s0 = Some (ts, te) → sa_loops s0 = 0 →
    fp < v_frames out ov → render_count smp sr s0 (v_frames out ov - fp) = 0 →
    ∀ fuel s, sa_loop s = sa_loop s0 → sa_position s = sa_position s0 → sa_start s = sa_start s0 →
      process_sample one add mul smp fade sr fuel s out ov fp = Panic OutOfFuel.
  Proof.
    intros Hle H0 Hl0 Hfp Hc. induction fuel as [|fuel IH]; intros s H1 H2 H3; cbn [process_sample];
      (destruct (Nat.ltb_spec fp (v_frames out ov)); [|lia]); [done|].
    assert (render_count smp sr s (v_frames out ov - fp) = 0) as ->.
    { rewrite H0 in H1. pose proof (next_loop_le s s0 ts te H1 H0 H3 Hl0 Hle) as Hn.
      pose proof (count_le s s0 (v_frames out ov - fp) H2 Hn). lia. }
    cbn [Nat.eqb]. rewrite H1, H0. unfold finish_sample. rewrite H1, H0. apply IH.
    all: match goal with |- context [assign_voice sr ?t ?x] => destruct (assign_keeps t x) as (K1 & K2 & K3 & K4) end.
    - rewrite K1. cbn. by rewrite H0.
    - by rewrite K2.
    - by rewrite K3.
  Qed.
End stuck.

Definition empty_loop : list (sblock (A := Z)) := script 80 0
  [([now 0 (SEnableLoop (at_frame 80 5) (at_frame 80 5)); now 1 SStartImmediate], 18)].
Lemma empty_loop_ok : Forall (sblock_ok 80) empty_loop.
Proof. apply script_ok. repeat constructor; cbn; lia. Qed.
Lemma empty_loop_hangs fuel : demo (ramp 80 60) fuel empty_loop = Panic OutOfFuel.
Proof.
  unfold demo, empty_loop. cbn [script SamplerSpec.sampler_run sb_sent sb_start sb_view sb_out]. rewrite send_all.
  set (es := [now 0 _; now 1 _]). set (out := mono 80 (replicate 18 0%Z)).
  assert (Hbk : block_ok 80 (v_frames out Whole)) by (unfold block_ok; cbn; lia).
  destruct (event_block_all 80 ltac:(lia) (at_frame 80 0) (v_frames out Whole) (EvProc [] es 80) Hbk eq_refl)
    as (live & d & rest & D1 & D2 & D3 & D4 & D5); [constructor|].
  assert (handled 80 [] [SBlock es (at_frame 80 0) out Whole] [d]) as Hh by (exists live, rest; done).
  apply (handled_first 4%Z Z.add quarter (ramp 80 60) fade4 80 ltac:(cbn; lia) _ [] [d] es) in Hh; [|by constructor|done|..].
  2: { apply SSorted_cons; [apply SSorted_cons; constructor|]. constructor; [|constructor]. right. split; cbn; lia. }
  2: { cbn. apply NoDup_cons. split; [|apply NoDup_singleton]. rewrite elem_of_list_singleton. done. }
  2: { by repeat constructor. }
  2: { repeat constructor. }
  injection Hh as ->. unfold sampler_block. cbn [new_evproc ep_pending ep_channel ep_rate app] in D5 |- *. rewrite D5.
  unfold es. cbn [pieces].
  replace (frame_of 80 (at_frame 80 0) (now 0 (SEnableLoop (at_frame 80 5) (at_frame 80 5)))) with 0 by (vm_compute; reflexivity).
  replace (frame_of 80 (at_frame 80 0) (now 1 SStartImmediate)) with 0 by (vm_compute; reflexivity).
  cbn [rfold].
  assert (Hz : ∀ s t e, do_piece (sampler_piece 4%Z Z.add quarter (ramp 80 60) fade4 80 fuel Whole) (sampler_act 80) 80 ((s, out), t) (0, 0, Some e)
    = Ok ((sampler_handle 80 s e (incremented_by_samples t 0 80), out), incremented_by_samples t 0 80)).
  { intros s t e. unfold do_piece, sampler_piece. cbn. by destruct fuel. }
  change (0 - 0) with 0. rewrite Hz. cbn [rbind]. rewrite Hz. cbn [rbind].
  set (s0 := sampler_handle 80 (sampler_handle 80 new_sampler _ _) _ _).
  assert (s0 = Sampler [Voice 0 Playing; Voice 0 Stopped] (Some 0) (Some (at_frame 80 5, at_frame 80 5)) 0%Z 0%Z 0) as ->
    by (vm_compute; reflexivity).
  unfold do_piece, sampler_piece. change (v_frames out Whole - 0) with 18.
  set (sv := Sub Whole (Range 0 0 1 18)).
  replace (slice_frames out Whole 0 18) with (Ok sv) by (vm_compute; reflexivity). cbn [rbind].
  enough (process_sample 4%Z Z.add quarter (ramp 80 60) fade4 80 fuel
    (Sampler [Voice 0 Playing; Voice 0 Stopped] (Some 0) (Some (at_frame 80 5, at_frame 80 5)) 0%Z 0%Z 0) out sv 0 = Panic OutOfFuel) as ->
    by done.
  destruct fuel as [|fuel]; [done|]. cbn [process_sample].
  replace (0 <? v_frames out sv) with true by (vm_compute; reflexivity).
  replace (render_count _ _ _ _) with 5 by (vm_compute; reflexivity). cbn [Nat.eqb sa_voices sa_active sa_loop sa_position sa_start sa_loops].
  set (sv5 := Sub sv (Range 0 0 1 5)).
  replace (slice_frames out sv 0 5) with (Ok sv5) by (vm_compute; reflexivity). cbn [rbind].
  set (out5 := mono 80 ([1; 2; 3; 4; 5] ++ replicate 13 0)%Z).
  replace (render_voices _ _ _ _ _ _ _ _) with (Ok ([Voice 5 Playing; Voice 0 Stopped], out5)) by (vm_compute; reflexivity).
  cbn [rbind]. 
  match goal with |- process_sample _ _ _ _ _ _ _ ?s _ _ _ = _ => eapply (empty_loop_stuck _ _ _ _ _ 80 ltac:(lia) s) end.
  2-3: reflexivity. 4-6: reflexivity.
  - apply Z.le_refl.
  - vm_compute. lia.
  - vm_compute. reflexivity.
Qed.

(** ** A loop outlives a stop, and starts by itself *)
Definition stop_looping : list (sblock (A := Z)) := script 80 0
  [([now 0 (SEnableLoop (at_frame 80 2) (at_frame 80 12)); now 1 SStartImmediate], 6); ([now 2 SStop], 6); ([], 12)].
Lemma stop_looping_sounds : ∃ fuel outs, demo (ramp 80 60) fuel stop_looping = Ok outs ∧
  ¬ silent_from (length fade4) 0 (drop 1 stop_looping) (drop 1 outs).
Proof.
  exists 20. eexists. split; [vm_compute; reflexivity|]. intros H. cbn [drop] in H. destruct H as (_ & H & _).
  specialize (H 0 4 ltac:(vm_compute; lia)). vm_compute in H. done.
Qed.
Definition never_started : list (sblock (A := Z)) := script 80 0
  [([now 0 (SEnableLoop (at_frame 80 2) (at_frame 80 8))], 12)].
Lemma never_started_sounds : ∃ fuel outs, demo (ramp 80 60) fuel never_started = Ok outs ∧
  ¬ silent_from 0 0 never_started outs.
Proof.
  exists 20. eexists. split; [vm_compute; reflexivity|]. intros (H & _).
  specialize (H 0 10 ltac:(lia)). vm_compute in H. done.
Qed.

(** ** Cancelling *)
Definition cancel_looping : list (sblock (A := Z)) := script 80 0
  [([now 0 (SEnableLoop (at_frame 80 0) (at_frame 80 8)); now 1 SStartImmediate], 18); ([now 2 SCancelLoop], 16)].
Lemma cancel_loop_cuts : ∃ fuel outs, demo (ramp 80 16) fuel cancel_looping = Ok outs ∧
  data <$> outs = [[1; 2; 3; 4; 5; 6; 7; 8; 10; 9; 8; 7; 5; 6; 7; 8; 10; 9]; replicate 16 0]%Z.
Proof. exists 20. eexists. split; vm_compute; reflexivity. Qed.
Definition cancel_playing : list (sblock (A := Z)) := script 80 0
  [([now 0 SStartImmediate], 4); ([now 1 SCancelAll], 12)].
Lemma cancel_all_stops : ∃ fuel outs, demo (ramp 80 16) fuel cancel_playing = Ok outs ∧
  ¬ hears Z.add quarter (ramp 80 16) (play_plan 4%Z fade4 0) cancel_playing outs.
Proof.
  exists 20. eexists. split; [vm_compute; reflexivity|]. intros H.
  pose proof (hears_at _ _ _ _ _ _ 0 1 H _ _ 0 6 eq_refl eq_refl eq_refl ltac:(cbn; lia) ltac:(cbn; lia)) as E.
  vm_compute in E. done.
Qed.

(** ** The clock drifts: a long sample loses its last frame *)
Section drift.
  Context (sr N : nat) (Hsr : Z.of_nat sr = 44100%Z) (HN : Z.of_nat N = 110000%Z).
  Let smp := mono sr (replicate N 1%Z).
  Let st (k : nat) : sampler := Sampler [Voice k Playing; Voice 0 Stopped] (Some 0) None (Z.of_nat k * 97392)%Z 0%Z 0.
  Local Notation out1 := (mono sr [0%Z]).
  Local Notation blocks k m := (script sr k (replicate m ([], 1))).

  Lemma drift_tick : from_samples (f64_of_Z 1) 44100 = 97392%Z.
  Proof. vm_compute. reflexivity. Qed.
  Lemma drift_count k : S k < N → render_count smp sr (st k) 1 = 1.
  Proof.
    intros Hk. unfold render_count, get_render_interval, next_loop_position, incremented_by_samples.
    cbn [sa_loop st sa_position]. change (frames smp) with (length (replicate N 1%Z)). rewrite replicate_length, Hsr, HN.
    change (Z.of_nat 1) with 1%Z. rewrite drift_tick.
    replace (from_samples (f64_of_Z 110000) 44100) with 10713070353%Z by (vm_compute; reflexivity).
    destruct (Z.ltb_spec (Z.of_nat k * 97392 + 97392) 10713070353); [|lia].
    replace (Z.of_nat k * 97392 + 97392 - Z.of_nat k * 97392)%Z with 97392%Z by lia.
    vm_compute. reflexivity.
  Qed.
  Lemma drift_last k : S k = N → render_count smp sr (st k) 1 = 0.
  Proof.
    intros Hk. unfold render_count, get_render_interval, next_loop_position, incremented_by_samples.
    cbn [sa_loop st sa_position]. change (frames smp) with (length (replicate N 1%Z)). rewrite replicate_length, Hsr, HN.
    change (Z.of_nat 1) with 1%Z. rewrite drift_tick.
    replace (from_samples (f64_of_Z 110000) 44100) with 10713070353%Z by (vm_compute; reflexivity).
    replace (Z.of_nat k) with 109999%Z by lia. vm_compute. reflexivity.
  Qed.

  Local Notation process fuel s out ov := (process_sample 4%Z Z.add quarter smp fade4 sr fuel s out ov 0).
  Lemma drift_step k : S k < N → ∃ out, process 2 (st k) out1 (Sub Whole (Range 0 0 1 1)) = Ok (st (S k), out).
  Proof.
    intros Hk. set (sv := Sub (Sub Whole (Range 0 0 1 1)) (Range 0 0 1 1)).
    assert (Hw : wf smp). { unfold wf, smp, mono. cbn. rewrite replicate_length. lia. }
    assert (Hv : valid_view out1 sv) by (cbn; lia).
    assert (Hok : Forall (voice_ok fade4) [Voice k Playing; Voice 0 Stopped]) by (repeat constructor; done).
    destruct (render_voices_ok 4%Z Z.add quarter smp fade4 Hw ltac:(cbn; lia) [Voice k Playing; Voice 0 Stopped] out1 sv eq_refl Hv Hok)
      as (out & R & Hm).
    exists out. cbn [process_sample]. change (v_frames out1 (Sub Whole (Range 0 0 1 1))) with 1. change (1 - 0) with 1.
    rewrite drift_count by done. change (0 <? 1) with true. cbn [Nat.eqb].
    change (slice_frames out1 (Sub Whole (Range 0 0 1 1)) 0 1) with (Ok sv). cbn [rbind].
    cbn [st sa_voices sa_active sa_loop sa_start sa_loops sa_position]. rewrite R. cbn [rbind].
    assert (Hf : v_frames out (Sub Whole (Range 0 0 1 1)) = 1) by done. rewrite Hf.
    change (0 + 1 <? 1) with false. cbv iota. do 2 f_equal. unfold st. f_equal.
    unfold incremented_by_samples. rewrite Hsr. change (Z.of_nat 1) with 1%Z. rewrite drift_tick. lia.
  Qed.

  Lemma drift_block k start (P : sampler → owned Z → Prop) :
    (∃ s' out, process 2 (st k) out1 (Sub Whole (Range 0 0 1 1)) = Ok (s', out) ∧ P s' out) →
    ∃ s' out, sampler_block 4%Z Z.add quarter smp fade4 sr 2 start Whole (EvProc [] [] sr) (st k) out1 = Ok (EvProc [] [] sr, s', out) ∧ P s' out.
  Proof.
    intros (s' & out & E & HP). exists s', out. split; [|done]. unfold sampler_block.
    assert (Hbk : block_ok sr (v_frames out1 Whole)) by (unfold block_ok; cbn; lia).
    destruct (event_block_all (P := sample_action) sr ltac:(lia) start (v_frames out1 Whole) (EvProc [] [] sr) Hbk eq_refl)
      as (live & d & rest & D1 & D2 & D3 & D4 & D5); [constructor|].
    destruct D1 as [[_ H1]|(o & c & n & H1 & _)]; [|by destruct o].
    apply Permutation_nil_r in H1 as ->. destruct D2 as (H2 & _).
    symmetry in H2. apply Permutation_nil_r, app_eq_nil in H2 as [-> ->].
    rewrite D5. cbn [pieces rfold]. unfold do_piece, sampler_piece. change (v_frames out1 Whole - 0) with 1.
    change (slice_frames out1 Whole 0 1) with (Ok (Sub Whole (Range 0 0 1 1))). cbn [rbind]. rewrite E. done.
  Qed.

  Lemma drift_run : ∀ m k x, k + S m = N → ∃ outs,
    sampler_run 4%Z Z.add quarter smp fade4 2 sr (EvProc [] [] sr) (st k) (blocks x (S m)) = Ok outs ∧ outs !! m = Some out1.
  Proof.
    induction m as [|m IH]; intros k x Hk.
    - cbn [replicate script SamplerSpec.sampler_run sb_sent sb_start sb_view sb_out fold_left].
      destruct (drift_block k (at_frame sr x) (λ _ out, out = out1)) as (s' & out & -> & ->).
      { exists (st k), out1. cbn [process_sample]. change (v_frames out1 (Sub Whole (Range 0 0 1 1))) with 1. change (1 - 0) with 1.
        rewrite drift_last by lia. done. }
      eexists. split; done.
    - destruct (IH (S k) (x + Z.of_nat 1)%Z) as (outs & R & Hl); [lia|].
      change (blocks x (S (S m))) with (SBlock [] (at_frame sr x) out1 Whole :: blocks (x + Z.of_nat 1)%Z (S m)).
      set (bs := blocks (x + Z.of_nat 1)%Z (S m)) in *. clearbody bs.
      cbn [SamplerSpec.sampler_run sb_sent sb_start sb_view sb_out fold_left].
      destruct (drift_block k (at_frame sr x) (λ s' _, s' = st (S k))) as (s' & out & -> & ->).
      { destruct (drift_step k) as [out E]; [lia|]. by exists (st (S k)), out. }
      cbn [rbind]. rewrite R. eexists. split; [done|]. done.
  Qed.

  Definition drift_blocks : list (sblock (A := Z)) := script sr 0 (([now 0 SStartImmediate], 1) :: replicate (N - 1) ([], 1)).
  Lemma drift_output : ∃ outs,
    sampler_run 4%Z Z.add quarter smp fade4 2 sr (new_evproc sr) new_sampler drift_blocks = Ok outs ∧ outs !! (N - 1) = Some out1.
  Proof.
    unfold drift_blocks. cbn [script SamplerSpec.sampler_run sb_sent sb_start sb_view sb_out]. rewrite send_all.
    set (e := now 0 SStartImmediate). unfold sampler_block.
    assert (Hbk : block_ok sr (v_frames out1 Whole)) by (unfold block_ok; cbn; lia).
    destruct (event_block_all sr ltac:(lia) (at_frame sr 0) (v_frames out1 Whole) (EvProc [] [e] sr) Hbk eq_refl)
      as (live & d & rest & D1 & D2 & D3 & D4 & D5); [constructor|].
    assert (handled sr [] [SBlock [e] (at_frame sr 0) out1 Whole] [d]) as Hh by (exists live, rest; done).
    assert (Hz : at_frame sr 0 = 0%Z). { unfold at_frame. rewrite Hsr. vm_compute. reflexivity. }
    apply (handled_first 4%Z Z.add quarter smp fade4 sr ltac:(cbn; lia) _ [] [d] [e]) in Hh; [|by constructor|done|..].
    2: { apply SSorted_cons; constructor. }
    2: { apply NoDup_singleton. }
    2: { by repeat constructor. }
    2: { constructor; [|constructor]. cbn [sb_start]. rewrite Hz. unfold block_end, incremented_by_samples. rewrite Hsr.
      change (Z.of_nat (frames_in _)) with 1%Z. rewrite drift_tick. done. }
    injection Hh as ->. 
    assert (rest = []) as ->.
    { destruct D2 as (H2 & _). destruct D1 as [[_ H1]|(o & c & n & H1 & H3 & _)].
      - cbn in H1. rewrite <-H1 in H2. apply Permutation_length in H2. rewrite app_length in H2. cbn in H2. destruct rest; [done|cbn in H2; lia].
      - cbn in H1. destruct o as [|? o]; [|by destruct o]. injection H1 as <- _. done. }
    cbn [new_evproc ep_pending ep_channel ep_rate app] in D5 |- *. change (Owned [0%Z] 1 1 sr) with out1.
    cbn [replicate]. rewrite D5. cbn [pieces].
    assert (Hfr : frame_of sr (at_frame sr 0) e = 0).
    { unfold frame_of. rewrite Hz, Hsr. vm_compute. reflexivity. }
    rewrite Hfr. cbn [rfold].
    assert (Hp : do_piece (sampler_piece 4%Z Z.add quarter smp fade4 sr 2 Whole) (sampler_act sr) sr ((new_sampler, out1), at_frame sr 0) (0, 0, Some e)
      = Ok ((st 0, out1), incremented_by_samples (at_frame sr 0) 0 (Z.of_nat sr))).
    { unfold do_piece, sampler_piece. change (slice_frames out1 Whole 0 0) with (Ok (Sub Whole (Range 0 0 1 0))). cbn [rbind].
      cbn [process_sample]. change (0 <? v_frames out1 (Sub Whole (Range 0 0 1 0))) with false. cbv iota. cbn [rbind].
      unfold sampler_act. cbn [rbind]. by do 3 f_equal. }
    change (0 - 0) with 0. rewrite Hp. cbn [rbind].
    destruct (drift_step 0) as [out E]; [lia|].
    unfold do_piece, sampler_piece. change (v_frames out1 Whole - 0) with 1.
    change (slice_frames out1 Whole 0 1) with (Ok (Sub Whole (Range 0 0 1 1))). cbn [rbind]. rewrite E. cbn [rbind].
    destruct (drift_run (N - 2) 1 (0 + Z.of_nat 1)%Z) as (outs & R & L); [lia|].
    replace (S (N - 2)) with (N - 1) in R by lia. rewrite R. cbn [rbind]. eexists. split; [done|].
    replace (N - 1) with (S (N - 2)) by lia. done.
  Qed.
End drift.

Lemma script_ones sr l : ∀ k j, Forall (λ x, x.2 = 1) l → j ≤ length l → total (take j (script sr k l)) = j.
Proof.
  induction l as [|[es n] l IH]; intros k [|j] H Hj; [done|cbn in Hj; lia|done|].
  apply Forall_cons in H as [H1 H]. cbn [snd] in H1. subst n. cbn [script take]. rewrite total_cons, IH by (done || (cbn in Hj; lia)). done.
Qed.
Lemma script_last sr l : ∀ k j, j < length l → Forall (λ x, x.2 = 1) l →
  ∃ b, script sr k l !! j = Some b ∧ sb_out b = mono sr [0%Z] ∧ sb_view b = Whole.
Proof.
  induction l as [|[es n] l IH]; intros k [|j] Hj H; cbn in Hj; try lia; apply Forall_cons in H as [H1 H]; cbn [snd] in H1; subst n.
  - eexists. done.
  - cbn. apply IH; [lia|done].
Qed.

Definition rate44 : nat := Z.to_nat 44100.
(** two and a half seconds, in blocks of one frame *)
Definition long_smp : owned Z := mono rate44 (replicate (Z.to_nat 110000) 1%Z).
Definition long_run : list (sblock (A := Z)) :=
  script rate44 0 (([now 0 SStartImmediate], 1) :: replicate (Z.to_nat 110000 - 1) ([], 1)).
Lemma long_run_ok : Forall (sblock_ok rate44) long_run.
Proof.
  apply script_ok. assert (Hr : Z.of_nat rate44 = 44100%Z) by (unfold rate44; rewrite Z2Nat.id; lia).
  constructor; [cbn [snd]; lia|]. apply Forall_replicate. cbn [snd]. lia.
Qed.
Lemma long_smp_wf : wf long_smp.
Proof. unfold wf, long_smp, mono. cbn [data channels frames]. rewrite replicate_length. lia. Qed.
Lemma long_run_total : total long_run = frames long_smp.
Proof.
  unfold long_run, long_smp, mono. cbn [frames]. rewrite replicate_length.
  set (N := Z.to_nat 110000). assert (0 < N) by (unfold N; lia). clearbody N. set (sr := rate44). clearbody sr.
  set (l := ([now 0 SStartImmediate], 1) :: replicate (N - 1) ([], 1)).
  assert (Hlen : length l = N) by (cbn; rewrite replicate_length; lia).
  assert (Hs : ∀ l k, length (script sr k l) = length l) by (intros l0; induction l0 as [|[es n] l0 IH]; intros k; cbn; [|rewrite IH]; done).
  rewrite <-(take_ge (script sr 0 l) N) by (rewrite Hs; lia).
  apply script_ones; [|lia]. constructor; [done|by apply Forall_replicate].
Qed.
Lemma long_run_loses_frame : ∃ fuel outs,
  sampler_run 4%Z Z.add quarter long_smp fade4 fuel rate44 (new_evproc rate44) new_sampler long_run = Ok outs ∧
  ¬ hears Z.add quarter long_smp (play_plan 4%Z fade4 0) long_run outs.
Proof.
  unfold long_smp, long_run. assert (Hr : Z.of_nat rate44 = 44100%Z) by (unfold rate44; rewrite Z2Nat.id; lia).
  assert (Hn : Z.of_nat (Z.to_nat 110000) = 110000%Z) by (rewrite Z2Nat.id; lia).
  generalize dependent rate44. generalize dependent (Z.to_nat 110000). intros N HN sr Hsr.
  destruct (drift_output sr N Hsr HN) as (outs & R & L). exists 2, outs. split; [exact R|]. clear R. intros H.
  set (l := ([now 0 SStartImmediate], 1) :: replicate (N - 1) ([], 1)) in *.
  assert (Hl : Forall (λ x, x.2 = 1) l) by (constructor; [done|by apply Forall_replicate]).
  assert (Hlen : length l = N) by (cbn; rewrite replicate_length; lia).
  destruct (script_last sr l 0 (N - 1)) as (b & Hb & Ho & Hv); [lia|done|].
  pose proof (hears_at _ _ _ _ _ _ 0 (N - 1) H _ _ 0 0 Hb L Hv ltac:(rewrite Ho; cbn; lia)
    ltac:(unfold frames_in; rewrite Ho, Hv; cbn; lia)) as E.
  rewrite script_ones in E by (done || lia). rewrite Ho in E. rewrite Nat.add_0_l, Nat.add_0_r in E.
  change (sample (mono sr [0%Z]) 0 0) with (Some 0%Z) in E. cbn [fmap option_fmap option_map] in E.
  apply (inj Some) in E. revert E. unfold play_plan, mix. rewrite decide_False by lia. cbn [fold_left].
  unfold mix_one. cbn [fst snd].
  assert (Hs : sample (mono sr (replicate N 1%Z)) 0 (0 + (N - 1)) = Some 1%Z).
  { unfold sample, mono. cbn [frames channels data]. rewrite replicate_length. cbn [Nat.mul Nat.add].
    destruct (decide _) as [|n]; [apply lookup_replicate; lia|]. exfalso. lia. }
  rewrite Hs. done.
Qed.
