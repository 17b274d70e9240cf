(** From calls to clips: the sampler plays the clips that are asked for. *)
From stdpp Require Import list list_numbers sorting.
From Coq Require Import ZArith Reals Lra Lia ZifyBool ZifyNat.
From Verif Require Import Base Float Timestamp TimestampProofs EventProcessor EventProcessorSpec EventProcessorProofs ProcessorSpec BiquadSpec Buffer BufferSpec
  Sampler SamplerSpec SamplerTime SamplerVoice SamplerProofs SamplerScenes EventChannel StreamSpec MelodySpec ScoreProofs TrackSpec.
Local Open Scope nat_scope.

(** ** Requests *)
Lemma handled_taken sr outs blocks : ∀ waiting inbox ds, Forall (Forall (λ e, ev_clear e = false)) inbox →
  handled sr waiting (sampler_blocks sr outs inbox blocks) ds → taken sr waiting inbox blocks ds.
Proof.
  induction blocks as [|[t fc] blocks IH]; intros waiting inbox [|d ds] Hc H; try done. cbn [sampler_blocks handled] in H. destruct H as (live & rest & H1 & H2 & H3).
  cbn [sb_sent sb_start sb_out sb_view v_frames new_buffer frames] in *. exists rest. split; [|apply IH; [by destruct inbox; [|apply Forall_cons in Hc as [_ Hc]]|done]].
  assert (Hh : Forall (λ e, ev_clear e = false) (default [] (head inbox))) by (destruct inbox; [constructor|by apply Forall_cons in Hc as [Hc _]]).
  destruct H1 as [[_ H1]|(o & c & n & H1 & H4 & _)].
  - destruct H2 as (D1 & D2). split; [by rewrite <-H1|done].
  - rewrite H1 in Hh. apply Forall_app in Hh as [_ Hh]. apply Forall_cons in Hh as [Hh _]. congruence.
Qed.
Lemma taken_length {P} sr blocks : ∀ (waiting : list (event P)) inbox ds, taken sr waiting inbox blocks ds → length (concat ds) ≤ length waiting + length (concat inbox).
Proof.
  induction blocks as [|[t fc] blocks IH]; intros waiting inbox [|d ds] H; try done; [cbn; lia|]. destruct H as (rest & (D1 & _) & H). apply IH in H. apply Permutation_length in D1.
  cbn [concat]. rewrite !app_length in *. destruct inbox as [|l inbox]; cbn [head tail default concat length] in *; rewrite ?app_length in *; cbn in *; lia.
Qed.
Lemma taken_Forall {P} (Q : event P → Prop) sr blocks : ∀ waiting inbox ds, taken sr waiting inbox blocks ds → Forall Q waiting → Forall Q (concat inbox) → Forall (Forall Q) ds.
Proof.
  induction blocks as [|[t fc] blocks IH]; intros waiting inbox [|d ds] H Hw Hi; try done. destruct H as (rest & (D1 & _) & H).
  assert (Ha : Forall Q (d ++ rest)).
  { rewrite <-D1. apply Forall_app. split; [done|]. destruct inbox as [|l inbox]; [constructor|]. cbn [concat] in Hi. by apply Forall_app in Hi as [Hi _]. }
  apply Forall_app in Ha as [Ha1 Ha2]. constructor; [done|]. eapply IH; [done|done|]. destruct inbox as [|l inbox]; [constructor|]. cbn [concat] in Hi. by apply Forall_app in Hi as [_ Hi].
Qed.

(** ** The ideal sampler, frame by frame *)
Section ops.
Context (smp : owned R) (fade : list R).
Notation ideal_frame := (ideal_frame 1%R smp fade).
Notation ideal_frames := (ideal_frames 1%R smp fade).
Notation ideal_pieces := (ideal_pieces 1%R smp fade).
Fixpoint run_ops (ops : list (option ideal_action)) (i : ideal) : list (list (heard R)) * ideal :=
  match ops with
  | [] => ([], i)
  | None :: ops => ((ideal_frame i).1 :: (run_ops ops (ideal_frame i).2).1, (run_ops ops (ideal_frame i).2).2)
  | Some a :: ops => run_ops ops (ideal_act a i)
  end.
Lemma run_ops_app ops ops' : ∀ i, run_ops (ops ++ ops') i = ((run_ops ops i).1 ++ (run_ops ops' (run_ops ops i).2).1, (run_ops ops' (run_ops ops i).2).2).
Proof.
  induction ops as [|[a|] ops IH]; intros i; cbn [app run_ops fst snd]; [by destruct (run_ops ops' i)|apply IH|]. by rewrite IH.
Qed.
Lemma run_ops_frames n : ∀ i, run_ops (replicate n None) i = ideal_frames n i.
Proof.
  induction n as [|n IH]; intros i; [done|]. cbn [replicate run_ops SamplerSpec.ideal_frames]. rewrite IH. destruct (ideal_frame i) as [h i1]. cbn [fst snd]. by destruct (ideal_frames n i1).
Qed.
Fixpoint expand (l : list (nat * option ideal_action)) : list (option ideal_action) :=
  match l with [] => [] | (n, a) :: l => replicate n None ++ match a with Some a => Some a :: expand l | None => expand l end end.
Lemma pieces_ops l : ∀ i, ideal_pieces l i = run_ops (expand l) i.
Proof.
  induction l as [|[n a] l IH]; intros i; [done|]. cbn [SamplerSpec.ideal_pieces expand]. rewrite run_ops_app, run_ops_frames. destruct (ideal_frames n i) as [h1 i1]. cbn [fst snd].
  destruct a as [a|]; cbn [run_ops]; rewrite IH; by destruct (run_ops (expand l) _).
Qed.
Lemma run_ops_length ops : ∀ i, length (run_ops ops i).1 = length (filter (λ o : option ideal_action, o = None) ops).
Proof. induction ops as [|[a|] ops IH]; intros i; [done|..]; cbn [run_ops]; [rewrite filter_cons_False by done; apply IH|rewrite filter_cons_True by done; cbn; by rewrite IH]. Qed.
End ops.

(** ** Times *)
Section times.
Context (sr : nat) (Hsr : (0 < Z.of_nat sr <= 2 ^ 29)%Z).
Notation unit := (Z.of_nat sr + 1)%Z.
Notation within := (within (Z.of_nat sr)).
Lemma nearest t n e : within t n e → (e < 2 ^ 32)%Z → nearest_frame sr t = n.
Proof.
  unfold SamplerTime.within, nearest_frame. intros H He. symmetry. apply (Z.div_unique _ _ _ (2 * t * Z.of_nat sr + 2 ^ 32 - 2 ^ 33 * n)); [left|ring]. lia.
Qed.
Lemma within_inc t n e k : (Z.of_nat k <= 2 ^ 20)%Z → within t n e → within (incremented_by_samples t (Z.of_nat k) (Z.of_nat sr)) (n + Z.of_nat k) (e + unit).
Proof.
  intros Hk Ht. pose proof (within_from_samples (Z.of_nat sr) (Z.of_nat k) ltac:(lia) ltac:(lia)) as H. unfold SamplerTime.within, incremented_by_samples in *. lia.
Qed.
Lemma within_time f : (Z.of_nat f <= 2 ^ 40)%Z → within (time_of sr f) (Z.of_nat f) (unit + 2 ^ 21).
Proof. intros Hf. apply (within_frame_count (Z.of_nat sr) (Z.of_nat f)); lia. Qed.

(** starts and stops of clips, carried out on frame [g] *)
Definition cue_event (e : event sample_action) (g : nat) : Prop :=
  (∃ f q, ev_time e = time_of sr f ∧ (Z.of_nat f <= 2 ^ 40)%Z ∧ (g = f ∨ S g = f) ∧ ev_data e = SStart (time_of sr q) ∧ (Z.of_nat q <= 2 ^ 20)%Z) ∨ ev_data e = SStop.
Definition op_at (x : option (nat * event sample_action)) : option ideal_action := (λ ge : nat * event sample_action, action_of sr ge.2 (time_of sr ge.1)) <$> x.
(** error of the block's clock after [k] pieces, and units that are enough for a start *)
Definition off (k : nat) : Z := ((Z.of_nat k + 2) * unit + 2 ^ 22)%Z.
Definition slack (n : nat) : Z := (Z.of_nat n + 5 + 3 * 2 ^ 21 / unit)%Z.
Lemma slack_enough n k : k ≤ S n → (off k + unit + 2 ^ 21 <= slack n * unit)%Z.
Proof.
  intros Hk. unfold off, slack. pose proof (Z.div_mod (3 * 2 ^ 21) unit ltac:(lia)) as E. pose proof (Z.mod_pos_bound (3 * 2 ^ 21) unit ltac:(lia)).
  set (x := (3 * 2 ^ 21 / unit)%Z) in *. assert ((Z.of_nat k + 2) * unit <= (Z.of_nat n + 3) * unit)%Z by (apply Z.mul_le_mono_nonneg_r; lia). lia.
Qed.
Lemma slack_fits n m : ((Z.of_nat n + 5 + Z.of_nat m) * unit <= 2 ^ 32 - 2 ^ 28)%Z → ((slack n + Z.of_nat m) * unit <= 2 ^ 32 - 2 ^ 27)%Z.
Proof.
  intros H. unfold slack. pose proof (Z.div_mod (3 * 2 ^ 21) unit ltac:(lia)) as E. pose proof (Z.mod_pos_bound (3 * 2 ^ 21) unit ltac:(lia)).
  set (x := (3 * 2 ^ 21 / unit)%Z) in *. lia.
Qed.
Lemma start_on_grid n k e cur g : k ≤ S n → ((Z.of_nat n + 6) * unit <= 2 ^ 32 - 2 ^ 28)%Z → (Z.of_nat g <= 2 ^ 41)%Z → cue_event e g → within cur (Z.of_nat g) (off k) →
  on_grid sr (slack n) e cur ∧ action_of sr e cur = action_of sr e (time_of sr g).
Proof.
  intros Hk Hn Hg He Hc. pose proof (slack_enough n k Hk) as S1. pose proof (slack_fits n 1 ltac:(lia)) as S2. change (Z.of_nat 1) with 1%Z in S2. unfold on_grid, action_of.
  destruct He as [(f & q & T & Ff & Hf & -> & Hq)| ->]; [|done].
  pose proof (within_time f Ff) as Wf. pose proof (within_from_samples (Z.of_nat sr) (Z.of_nat q) ltac:(lia) ltac:(lia)) as Wq. change (from_samples _ _) with (time_of sr q) in Wq.
  assert (Wd : within (cur - ev_time e) (Z.of_nat g - Z.of_nat f) (slack n * unit)) by (unfold SamplerTime.within in *; rewrite T; lia).
  assert (Hslack : (0 <= slack n)%Z) by (unfold slack; pose proof (Z.div_pos (3 * 2 ^ 21) unit ltac:(lia) ltac:(lia)); lia).
  assert (Wg : within (time_of sr g - ev_time e) (Z.of_nat g - Z.of_nat f) (slack n * unit)).
  { assert (Wg : within (time_of sr g) (Z.of_nat g) (unit + 2 ^ 21)) by (apply within_time; lia). unfold SamplerTime.within in *. rewrite T. unfold off in S1. lia. }
  rewrite (nearest _ _ _ Wq) by lia. rewrite (nearest _ _ _ Wd) by lia. rewrite (nearest _ _ _ Wg) by lia. split; [|done]. split; [done|]. split; [lia|]. split; [exact Wq|]. split; [lia|]. split; [exact Wd|]. lia.
Qed.
Fixpoint gridded (w : Z) (cur : timestamp) (l : list (nat * nat * option (event sample_action))) : Prop :=
  match l with
  | [] => True
  | (_, n, e) :: l => let cur' := incremented_by_samples cur (Z.of_nat n) (Z.of_nat sr) in
      match e with Some e => on_grid sr w e cur' ∧ (∃ g, cue_event e g) ∧ (∀ p, ev_data e = SStart p → (nearest_frame sr (cur' - ev_time e)%Z <= 0)%Z) | None => True end ∧ gridded w cur' l
  end.
Lemma block_ops n start fc pos d : ((Z.of_nat n + 6) * unit <= 2 ^ 32 - 2 ^ 28)%Z → (Z.of_nat fc <= 2 ^ 16)%Z → (Z.of_nat (pos + fc) <= 2 ^ 40)%Z → ∀ from cur k,
  StronglySorted (λ a b, frame_of sr start a ≤ frame_of sr start b) d → Forall (λ e, frame_of sr start e < fc) d → Forall (λ e, from ≤ frame_of sr start e) d → from ≤ fc →
  within cur (Z.of_nat (pos + from)) (off k) → Forall (λ e, cue_event e (pos + frame_of sr start e)) d → k + length d ≤ n →
  expand (acted sr cur (pieces sr start fc from d)) = op_at <$> cast (pos + from) ((λ e, (pos + frame_of sr start e, e)) <$> d) (fc - from) ∧
  gridded (slack n) cur (pieces sr start fc from d).
Proof.
  intros Hn Hfc Hpf. induction d as [|e d IH]; intros from cur k Hs Hf Hfrom Hle Hw He Hk.
  - cbn [pieces acted fmap list_fmap cast expand option_fmap option_map gridded]. split; [|done]. rewrite app_nil_r. by rewrite fmap_replicate.
  - inversion Hs as [|?? Hs1 Hs2]; subst. apply Forall_cons in Hf as [Hf1 Hf2]. apply Forall_cons in Hfrom as [Hr1 Hr2]. apply Forall_cons in He as [He1 He2]. cbn [length] in Hk.
    set (f := frame_of sr start e) in *. cbn [pieces acted expand gridded fmap list_fmap option_fmap option_map]. fold f.
    assert (Hw' : within (incremented_by_samples cur (Z.of_nat (f - from)) (Z.of_nat sr)) (Z.of_nat (pos + f)) (off (S k))).
    { pose proof (within_inc _ _ _ (f - from) ltac:(lia) Hw) as H. replace (Z.of_nat (pos + f)) with (Z.of_nat (pos + from) + Z.of_nat (f - from))%Z by lia. unfold off in *. replace ((Z.of_nat (S k) + 2) * unit + 2 ^ 22)%Z with ((Z.of_nat k + 2) * unit + 2 ^ 22 + unit)%Z by lia. done. }
    set (cur' := incremented_by_samples cur (Z.of_nat (f - from)) (Z.of_nat sr)) in *.
    destruct (start_on_grid n (S k) e cur' (pos + f) ltac:(lia) Hn ltac:(lia) He1 Hw') as [G1 G2].
    destruct (IH f cur' (S k) Hs1 Hf2 Hs2 ltac:(lia) Hw' He2 ltac:(lia)) as [I1 I2]. split.
    + cbn [cast]. destruct (Nat.ltb_spec (pos + f) (pos + from + (fc - from))); [|lia]. rewrite fmap_app, fmap_replicate. cbn [fmap list_fmap]. rewrite I1, G2.
      replace (pos + f - (pos + from)) with (f - from) by lia. f_equal. f_equal. f_equal. f_equal. lia.
    + split; [|done]. split; [done|]. split; [by eexists|]. intros p Ep. destruct He1 as [(f' & q & T & Ff & Hg & Ed & Hq)|Ed]; [|congruence].
      pose proof (within_time f' Ff) as Wf. pose proof (slack_enough n (S k) ltac:(lia)) as S1. pose proof (slack_fits n 1 ltac:(lia)) as S2. change (Z.of_nat 1) with 1%Z in S2.
      assert (Wd : within (cur' - ev_time e) (Z.of_nat (pos + f) - Z.of_nat f') (slack n * unit)) by (unfold SamplerTime.within in *; rewrite T; lia).
      rewrite (nearest _ _ _ Wd) by lia. lia.
Qed.
End times.

(** ** Accuracy *)
Section accuracy.
Context (smp : owned R) (fade : list R) (sr : nat) (Hfade : 0 < length fade) (Hsr : (0 < Z.of_nat sr <= 2 ^ 29)%Z).
Notation unit := (Z.of_nat sr + 1)%Z.
Notation ideal_frames := (ideal_frames 1%R smp fade).
Notation run_ops := (run_ops smp fade).
Lemma frames_unlooped n : ∀ i, id_loop i = None → id_loops i = 0%Z →
  let i' := (ideal_frames n i).2 in id_loop i' = None ∧ id_loops i' = 0%Z ∧ (id_elapsed i' <= Z.max (id_elapsed i) 0 + Z.of_nat n)%Z.
Proof.
  induction n as [|n IH]; intros i H1 H2; cbn zeta; cbn [SamplerSpec.ideal_frames snd]; [by split; [|split; [|lia]]|].
  assert (H : let i1 := (ideal_frame 1%R smp fade i).2 in id_loop i1 = None ∧ id_loops i1 = 0%Z ∧ (id_elapsed i1 <= Z.max (id_elapsed i) 0 + 1)%Z).
  { cbn zeta. unfold ideal_frame. case_decide as Hd; [cbn [snd]; by split; [|split; [|lia]]|]. destruct (decide (boundary smp i <= id_elapsed i)%Z) as [Hb|Hb]; [by destruct Hd|].
    destruct (voices_frame 1%R fade (id_voices i)) as [hs vs]. cbn [snd id_loop id_loops id_elapsed]. by split; [|split; [|lia]]. }
  cbn zeta in H. destruct (ideal_frame 1%R smp fade i) as [h i1]. cbn [snd] in H. destruct H as (A1 & A2 & A3). specialize (IH i1 A1 A2). cbn zeta in IH.
  destruct (ideal_frames n i1) as [l i2]. cbn [snd] in *. destruct IH as (B1 & B2 & B3). split; [done|]. split; [done|]. lia.
Qed.
Definition frames_of (l : list (nat * nat * option (event sample_action))) : nat := sum_list (l.*1).*2.
Lemma accurate_pieces w l : (0 <= w)%Z → ∀ u cur i (next : Z → ideal → Prop), id_loop i = None → id_loops i = 0%Z →
  (Z.max (id_elapsed i) 0 + Z.of_nat (frames_of l) <= 2 ^ 40)%Z → ((Z.max u w + Z.of_nat (length l) + 4) * unit <= 2 ^ 32 - 2 ^ 27)%Z → gridded sr w cur l →
  (∀ u' i', (u' <= Z.max u w + Z.of_nat (length l))%Z → i' = (run_ops (expand (acted sr cur l)) i).2 → id_loop i' = None → id_loops i' = 0%Z →
     (Z.max (id_elapsed i') 0 <= Z.max (id_elapsed i) 0 + Z.of_nat (frames_of l))%Z → next u' i') →
  accurate 1%R smp fade sr u cur l i next.
Proof.
  intros Hw. induction l as [|[[p n] e] l IH]; intros u cur i next Hl Hz Hel Hroom Hg Hn.
  - cbn [accurate]. apply Hn; [cbn; lia|done|done|done|lia].
  - change (frames_of ((p, n, e) :: l)) with (n + frames_of l) in *. cbn [length] in *. cbn [accurate gridded acted expand] in *.
    pose proof (frames_unlooped n i Hl Hz) as F. cbn zeta in F. rewrite run_ops_app, run_ops_frames in Hn. cbn [snd] in Hn. set (i1 := (ideal_frames n i).2) in *. destruct F as (F1 & F2 & F3).
    set (cur' := incremented_by_samples cur (Z.of_nat n) (Z.of_nat sr)) in *. rewrite F2, Hz. destruct Hg as [Hg1 Hg2]. split.
    + split; [rewrite F2|split; [lia|by rewrite F1]]. eapply Z.le_trans; [|exact Hroom]. apply Z.mul_le_mono_nonneg_r; lia.
    + destruct e as [e|]; cbn [fmap option_fmap option_map] in Hn.
      * destruct Hg1 as (G1 & (g & G2) & G3). exists w. split; [done|].
        assert (Ha : let i2 := ideal_act (action_of sr e cur') i1 in id_loop i2 = None ∧ id_loops i2 = 0%Z ∧ (Z.max (id_elapsed i2) 0 <= Z.max (id_elapsed i1) 0)%Z ∧ (units_after (u + 1 + (0 - 0)) w e <= Z.max (u + 1) w)%Z).
        { cbn zeta. unfold action_of, units_after. destruct G2 as [(f & q & _ & _ & _ & Ed & _)|Ed]; rewrite Ed; [|cbn; repeat split; (done || lia)]. specialize (G3 _ Ed).
          unfold ideal_act. destruct (move_to _ _) as [vs act]. cbn. split; [done|]. split; [done|]. lia. }
        cbn zeta in Ha. set (i2 := ideal_act (action_of sr e cur') i1) in *. destruct Ha as (A1 & A2 & A3 & A4). apply IH; [done|done|lia| |done|].
        -- eapply Z.le_trans; [|exact Hroom]. apply Z.mul_le_mono_nonneg_r; lia.
        -- intros u' i' Hu Hi' L1 L2 L3. apply Hn; [lia|exact Hi'|done|done|lia].
      * apply IH; [done|done|lia| |done|].
        -- eapply Z.le_trans; [|exact Hroom]. apply Z.mul_le_mono_nonneg_r; lia.
        -- intros u' i' Hu Hi' L1 L2 L3. apply Hn; [lia|exact Hi'|done|done|lia].
Qed.
Lemma pieces_state w l : ∀ cur i, id_loop i = None → id_loops i = 0%Z → gridded sr w cur l →
  let i' := (run_ops (expand (acted sr cur l)) i).2 in id_loop i' = None ∧ id_loops i' = 0%Z ∧ (Z.max (id_elapsed i') 0 <= Z.max (id_elapsed i) 0 + Z.of_nat (frames_of l))%Z.
Proof.
  induction l as [|[[p n] e] l IH]; intros cur i Hl Hz Hg; cbn zeta; [by split; [|split; [|cbn; lia]]|].
  change (frames_of ((p, n, e) :: l)) with (n + frames_of l). cbn [gridded acted expand] in *. pose proof (frames_unlooped n i Hl Hz) as F. cbn zeta in F. rewrite run_ops_app, run_ops_frames. cbn [snd].
  set (i1 := (ideal_frames n i).2) in *. destruct F as (F1 & F2 & F3). set (cur' := incremented_by_samples cur (Z.of_nat n) (Z.of_nat sr)) in *. destruct Hg as [Hg1 Hg2].
  destruct e as [e|]; cbn [fmap option_fmap option_map TrackProofs.run_ops].
  - destruct Hg1 as (G1 & (g & G2) & G3).
    assert (Ha : let i2 := ideal_act (action_of sr e cur') i1 in id_loop i2 = None ∧ id_loops i2 = 0%Z ∧ (Z.max (id_elapsed i2) 0 <= Z.max (id_elapsed i1) 0)%Z).
    { cbn zeta. unfold action_of. destruct G2 as [(f & q & _ & _ & _ & Ed & _)|Ed]; rewrite Ed; [|cbn; repeat split; (done || lia)]. specialize (G3 _ Ed).
      unfold ideal_act. destruct (move_to _ _) as [vs act]. cbn. split; [done|]. split; [done|]. lia. }
    cbn zeta in Ha. destruct Ha as (A1 & A2 & A3). destruct (IH cur' _ A1 A2 Hg2) as (I1 & I2 & I3). split; [done|]. split; [done|]. lia.
  - destruct (IH cur' i1 F1 F2 Hg2) as (I1 & I2 & I3). split; [done|]. split; [done|]. lia.
Qed.
Lemma pieces_count start fc d : ∀ from, StronglySorted (λ a b, frame_of sr start a ≤ frame_of sr start b) d → Forall (λ e, frame_of sr start e < fc) d → Forall (λ e, from ≤ frame_of sr start e) d → from ≤ fc →
  frames_of (pieces sr start fc from d) = fc - from ∧ length (pieces sr start fc from d) = S (length d).
Proof.
  induction d as [|e d IH]; intros from Hs Hf Hfrom Hle; [by split; [cbn; lia|]|]. inversion Hs as [|?? Hs1 Hs2]; subst. apply Forall_cons in Hf as [Hf1 Hf2]. apply Forall_cons in Hfrom as [Hr1 Hr2].
  destruct (IH (frame_of sr start e) Hs1 Hf2 Hs2 ltac:(lia)) as [I1 I2]. cbn [pieces]. cbn [length]. rewrite I2. split; [|done]. unfold frames_of in *. cbn. cbn in I1. lia.
Qed.
Lemma cast_frames {X} (l : list (nat * X)) : ∀ pos n, length (filter (λ o : option (nat * X), o = None) (cast pos l n)) = n.
Proof.
  clear.
  assert (H : ∀ n, length (filter (λ o : option (nat * X), o = None) (replicate n None)) = n) by (induction n as [|n IH]; [done|]; cbn [replicate]; rewrite filter_cons_True by done; cbn; by rewrite IH).
  induction l as [|[g x] l IH]; intros pos n; cbn [cast]; [apply H|]. destruct (Nat.ltb_spec g (pos + n)); [|apply H]. rewrite filter_app, app_length, H, filter_cons_False by done. rewrite IH. lia.
Qed.
Lemma filter_op_at (l : list (option (nat * event sample_action))) : length (filter (λ o : option ideal_action, o = None) (op_at sr <$> l)) = length (filter (λ o : option (nat * event sample_action), o = None) l).
Proof. induction l as [|[x|] l IH]; [done|..]; cbn [fmap list_fmap op_at option_fmap option_map]; [rewrite !filter_cons_False by done; exact IH|rewrite !filter_cons_True by done; cbn; f_equal; exact IH]. Qed.
(** the blocks, one after the other *)
Lemma run_blocks outs n blocks : ((Z.of_nat n + 6) * unit <= 2 ^ 32 - 2 ^ 28)%Z → ∀ pos0 pos inbox ds i u,
  stream_blocks sr pos blocks → Forall (λ b : timestamp * nat, block_ok sr b.2) blocks → (Z.of_nat (pos + length_of blocks) <= 2 ^ 40)%Z →
  in_order sr pos0 pos blocks ds → Forall (Forall (λ e, ∀ g, landed sr pos0 e g → cue_event sr e g)) ds → length (concat ds) ≤ n →
  id_loop i = None → id_loops i = 0%Z → (Z.max (id_elapsed i) 0 + Z.of_nat (length_of blocks) <= 2 ^ 40)%Z →
  ((Z.max u (slack sr n) + Z.of_nat (length blocks + length (concat ds)) + 4) * unit <= 2 ^ 32 - 2 ^ 27)%Z →
  let bs := sampler_blocks sr outs inbox blocks in
  accurate_run 1%R smp fade sr u i bs ds ∧ concat (ideal_run 1%R smp fade sr i bs ds) = (run_ops (op_at sr <$> concat (casts sr pos blocks ds)) i).1 ∧
  Forall2 (λ (hs : list (list (heard R))) (b : timestamp * nat), length hs = b.2) (ideal_run 1%R smp fade sr i bs ds) blocks.
Proof.
  intros Hn. induction blocks as [|[t fc] blocks IH]; intros pos0 pos inbox ds i u Hb Hok Hp Ho He Hlen Hl Hz Hel Hroom bs; destruct ds as [|d ds]; try (by destruct Ho); [by split; [|split; [|constructor]]|].
  destruct Hb as [(p & o & Hpo & Ht) Hb]. apply Forall_cons in Hok as [(Hf1 & Hf2 & Hf3) Hok]. cbn [snd] in *. destruct Ho as (O1 & O2 & O3 & O4). apply Forall_cons in He as [He He'].
  change (length_of ((t, fc) :: blocks)) with (fc + length_of blocks) in *. cbn [length concat] in *. rewrite app_length in *.
  assert (Hw : within (Z.of_nat sr) t (Z.of_nat (pos + 0)) (off sr 0)).
  { pose proof (within_time sr Hsr p ltac:(lia)) as W1. pose proof (within_time sr Hsr o ltac:(lia)) as W2. unfold within, off in *. rewrite Ht. lia. }
  assert (Hev : Forall (λ e, cue_event sr e (pos + frame_of sr t e)) d).
  { apply Forall_forall. intros e Hin. rewrite Forall_forall in He, O3. by apply He, O3. }
  assert (H0 : Forall (λ e, 0 ≤ frame_of sr t e) d) by (apply Forall_forall; lia).
  destruct (block_ops sr Hsr n t fc pos d Hn ltac:(lia) ltac:(lia) 0 t 0 O1 O2 H0 ltac:(lia) Hw Hev ltac:(lia)) as [B1 B2]. rewrite Nat.add_0_r, Nat.sub_0_r in B1.
  destruct (pieces_count t fc d 0 O1 O2 H0 ltac:(lia)) as [C1 C2]. rewrite Nat.sub_0_r in C1.
  assert (Hstep : ∀ u' i', (u' <= Z.max u (slack sr n) + Z.of_nat (S (length d)))%Z → id_loop i' = None → id_loops i' = 0%Z → (Z.max (id_elapsed i') 0 <= Z.max (id_elapsed i) 0 + Z.of_nat fc)%Z →
    let bs := sampler_blocks sr outs (tail inbox) blocks in
    accurate_run 1%R smp fade sr u' i' bs ds ∧ concat (ideal_run 1%R smp fade sr i' bs ds) = (run_ops (op_at sr <$> concat (casts sr (pos + fc) blocks ds)) i').1 ∧
    Forall2 (λ (hs : list (list (heard R))) (b : timestamp * nat), length hs = b.2) (ideal_run 1%R smp fade sr i' bs ds) blocks).
  { intros u' i' Hu L1 L2 L3. eapply IH; [done|done|lia|done|done|lia|done|done|lia|]. eapply Z.le_trans; [|exact Hroom]. apply Z.mul_le_mono_nonneg_r; lia. }
  assert (Hsl : (0 <= slack sr n)%Z) by (unfold slack; pose proof (Z.div_pos (3 * 2 ^ 21) unit ltac:(lia) ltac:(lia)); lia).
  unfold bs. cbn [sampler_blocks accurate_run ideal_run]. unfold block_pieces. cbn [sb_start sb_out sb_view v_frames new_buffer frames].
  rewrite pieces_ops, B1. cbn [casts concat]. rewrite fmap_app, run_ops_app. cbn [fst].
  assert (Hacc : ∀ Q : Z → ideal → Prop, (∀ u' i', (u' <= Z.max u (slack sr n) + Z.of_nat (S (length d)))%Z → i' = (run_ops (expand (acted sr t (pieces sr t fc 0 d))) i).2 → id_loop i' = None → id_loops i' = 0%Z →
     (Z.max (id_elapsed i') 0 <= Z.max (id_elapsed i) 0 + Z.of_nat fc)%Z → Q u' i') → accurate 1%R smp fade sr u t (pieces sr t fc 0 d) i Q).
  { intros Q HQ. apply (accurate_pieces (slack sr n)); [done|done|done|rewrite C1; lia| |done|rewrite C1, C2; exact HQ]. rewrite C2. eapply Z.le_trans; [|exact Hroom]. apply Z.mul_le_mono_nonneg_r; lia. }
  pose proof (run_ops_length smp fade (op_at sr <$> cast pos ((λ e, (pos + frame_of sr t e, e)) <$> d) fc) i) as Hlen1. rewrite filter_op_at, cast_frames in Hlen1.
  set (i1 := (run_ops (op_at sr <$> cast pos ((λ e, (pos + frame_of sr t e, e)) <$> d) fc) i).2) in *.
  assert (Hi1 : id_loop i1 = None ∧ id_loops i1 = 0%Z ∧ (Z.max (id_elapsed i1) 0 <= Z.max (id_elapsed i) 0 + Z.of_nat fc)%Z).
  { unfold i1. rewrite <-B1. pose proof (pieces_state (slack sr n) _ t i Hl Hz B2) as Hps. by rewrite C1 in Hps. }
  destruct Hi1 as (L1 & L2 & L3).
  destruct (run_ops (op_at sr <$> cast pos _ fc) i) as [hs i1'] eqn:Er. cbn [fst snd] in *. subst i1. 
  destruct (Hstep (slack sr n) i1' ltac:(lia) L1 L2 L3) as (S1 & S2 & S3). split; [|split].
  - apply Hacc. intros u' i' Hu Hi' K1 K2 K3. by apply Hstep.
  - cbn [concat]. by rewrite S2.
  - by constructor.
Qed.
End accuracy.

(** ** The clips *)
Fixpoint lay (pos : nat) (l : list (nat * ideal_action)) (n : nat) : list (option ideal_action) :=
  match l with
  | [] => replicate n None
  | (g, a) :: l => if g <? pos + n then replicate (g - pos) None ++ Some a :: lay g l (n - (g - pos)) else replicate n None
  end.
Lemma lay_cast sr l : ∀ pos n, op_at sr <$> cast pos l n = lay pos ((λ ge : nat * event sample_action, (ge.1, action_of sr ge.2 (time_of sr ge.1))) <$> l) n.
Proof.
  induction l as [|[g e] l IH]; intros pos n; cbn [fmap list_fmap cast lay fst snd]; [by rewrite fmap_replicate|]. destruct (g <? pos + n); [|by rewrite fmap_replicate].
  rewrite fmap_app, fmap_replicate. cbn [fmap list_fmap]. do 2 f_equal. apply IH.
Qed.
Lemma lay_prefix l : ∀ pos n n', n ≤ n' → lay pos l n `prefix_of` lay pos l n'.
Proof.
  induction l as [|[g a] l IH]; intros pos n n' Hn; cbn [lay].
  - exists (replicate (n' - n) None). rewrite <-replicate_add. f_equal. lia.
  - destruct (Nat.ltb_spec g (pos + n)), (Nat.ltb_spec g (pos + n')); try lia.
    + apply prefix_app, prefix_cons, IH. lia.
    + exists (replicate (g - pos - n) None ++ Some a :: lay g l (n' - (g - pos))). rewrite app_assoc, <-replicate_add. do 2 f_equal. lia.
    + exists (replicate (n' - n) None). rewrite <-replicate_add. f_equal. lia.
Qed.
Section clips.
Context (smp : owned R) (fade : list R) (Hfade : 0 < length fade).
Notation n := (length fade).
Notation run_ops := (run_ops smp fade).
Notation ideal_frames := (ideal_frames 1%R smp fade).
Notation voice_frames := (voice_frames 1%R fade).
Notation all_frames := (all_frames 1%R fade).
Notation frames_play := (ideal_frames_play 1%R Rplus Rmult smp fade 1 Hfade).
Definition clip_plan (p : clip) (k : nat) : list (heard R) :=
  if k <? cl_to p then play_plan 1%R fade (cl_first p) (k - cl_from p)
  else if k - cl_to p <? n then [(cl_first p + (k - cl_from p), Some (gain_out 1%R fade (k - cl_to p)))] else [].
Definition track_plan (played : list clip) (k : nat) : list (heard R) := foldl (λ v p, if k <? cl_from p then v else clip_plan p k) [] played.
Definition starts (c p : clip) : ideal_action := IStart (Z.of_nat (cl_first c)) (Z.of_nat (cl_from p) - Z.of_nat (cl_from c)).
Fixpoint clip_acts (clips played : list clip) : list (nat * ideal_action) :=
  match clips, played with
  | c :: clips, p :: played => (cl_from p, starts c p) :: (cl_to p, IStop) :: clip_acts clips played
  | _, _ => []
  end.
Fixpoint track (pos : nat) (clips played : list clip) (stop : nat) : list (option ideal_action) :=
  match clips, played with
  | c :: clips, p :: played => replicate (cl_from p - pos) None ++ Some (starts c p) :: replicate (cl_to p - cl_from p) None ++ Some IStop :: track (cl_to p) clips played stop
  | _, _ => replicate (stop - pos) None
  end.
Fixpoint track_ok (pos : nat) (clips played : list clip) (stop : nat) : Prop :=
  match clips, played with
  | [], [] => pos ≤ stop
  | c :: clips, p :: played => pos ≤ cl_from p ∧ cl_from p ≤ cl_to p ∧ cl_first p = cl_first c + cl_from p - cl_from c ∧ cl_from p ≤ cl_from c ∧ cl_from c ≤ S (cl_from p) ∧
      (Z.of_nat (cl_to p) - Z.of_nat (cl_from c) + Z.of_nat n <= Z.of_nat (frames smp))%Z ∧ track_ok (cl_to p + n) clips played stop
  | _, _ => False
  end.
Lemma lay_track clips : ∀ played pos stop, track_ok pos clips played stop → lay pos (clip_acts clips played) (stop - pos) = track pos clips played stop.
Proof.
  assert (Hst : ∀ clips played pos stop, track_ok pos clips played stop → pos ≤ stop).
  { clear. intros clips. induction clips as [|c clips IH]; intros [|p played] pos stop H; try done. destruct H as (H1 & H2 & _ & _ & _ & _ & H3). apply IH in H3. lia. }
  assert (Hle : ∀ clips played pos pos' stop, pos' ≤ pos → track_ok pos clips played stop → track_ok pos' clips played stop).
  { intros [|c cs] [|p ps] pos pos' stop Hp H; try done; [cbn in *; lia|]. destruct H as (H1 & H2). split; [lia|done]. }
  induction clips as [|c clips IH]; intros [|p played] pos stop H; try done. destruct H as (H1 & H2 & _ & _ & _ & _ & H3). pose proof (Hst _ _ _ _ H3) as H4.
  cbn [clip_acts lay track]. destruct (Nat.ltb_spec (cl_from p) (pos + (stop - pos))); [|lia]. destruct (Nat.ltb_spec (cl_to p) (cl_from p + (stop - pos - (cl_from p - pos)))); [|lia].
  do 4 f_equal. f_equal. rewrite <-(IH played (cl_to p) stop); [f_equal; lia|]. eapply Hle; [|done]. lia.
Qed.
Definition idle (i : ideal) : Prop := (∃ x y, id_voices i = [Voice x Stopped; Voice y Stopped]) ∧ id_active i = None ∧ id_loop i = None.
Lemma idle_frames m : ∀ i, idle i → (ideal_frames m i).1 = replicate m [] ∧ idle (ideal_frames m i).2.
Proof.
  induction m as [|m IH]; intros i Hi; [done|]. cbn [SamplerSpec.ideal_frames].
  assert (H : (ideal_frame 1%R smp fade i).1 = [] ∧ idle (ideal_frame 1%R smp fade i).2).
  { destruct Hi as ((x & y & Hv) & Ha & Hl). unfold ideal_frame. case_decide as Hd; [by split; [|split; [by exists x, y|]]|].
    destruct (decide (boundary smp i <= id_elapsed i)%Z) as [Hb|Hb]; [by destruct Hd|]. rewrite Hv. cbn. split; [done|]. split; [by exists x, y|done]. }
  destruct (ideal_frame 1%R smp fade i) as [h i1]. cbn [fst snd] in H. destruct H as [-> Hi1]. specialize (IH i1 Hi1). destruct (ideal_frames m i1) as [l i2]. cbn [fst snd] in *. destruct IH as [-> ?]. done.
Qed.
Lemma begin_voice m q : (voice_frames m (begin_at q)).2 = Voice (q + m) Playing ∨ ∃ k, (voice_frames m (begin_at q)).2 = Voice (q + m) (FadingIn k).
Proof.
  unfold begin_at. destruct (decide (q = 0)) as [->|Hq]; [left; by rewrite (voice_frames_playing 1%R Rplus Rmult fade Hfade)|].
  assert (H : ∀ m, (∀ p k, (voice_frames m (Voice p (FadingIn k))).2 = Voice (p + m) Playing ∨ ∃ k', (voice_frames m (Voice p (FadingIn k))).2 = Voice (p + m) (FadingIn k')) ∧
     ∀ p, (voice_frames m (Voice p Playing)).2 = Voice (p + m) Playing).
  { clear. induction m as [|m [IH1 IH2]]; [split; [intros p k; right; exists k; cbn; by rewrite Nat.add_0_r|intros p; cbn; by rewrite Nat.add_0_r]|]. split.
    - intros p k. cbn [SamplerVoice.voice_frames]. unfold voice_frame. cbn [vo_phase vo_position]. replace (p + S m) with (S p + m) by lia. case_decide.
      + specialize (IH1 (S p) (S k)). by destruct (voice_frames m (Voice (S p) (FadingIn (S k)))).
      + left. specialize (IH2 (S p)). by destruct (voice_frames m (Voice (S p) Playing)).
    - intros p. cbn [SamplerVoice.voice_frames]. unfold voice_frame. cbn [vo_phase vo_position]. replace (p + S m) with (S p + m) by lia. specialize (IH2 (S p)). by destruct (voice_frames m (Voice (S p) Playing)). }
  destruct (H m) as [H1 _]. apply H1.
Qed.
Lemma pad_silence m (l : list (list (heard R))) : length l = m → zip_with app l (zip_with app (replicate m []) (replicate m [])) = l.
Proof. revert l. induction m as [|m IH]; intros [|x l] H; try done. cbn. rewrite app_nil_r. f_equal. apply IH. by injection H. Qed.
Lemma with_silent m v y : all_frames m [v; Voice y Stopped] = ((voice_frames m v).1, [(voice_frames m v).2; Voice y Stopped]).
Proof.
  rewrite !all_frames_cons, all_frames_nil, (voice_frames_stopped 1%R fade m (Voice y Stopped)) by done. cbn [fst snd]. f_equal. apply pad_silence. apply voice_frames_length.
Qed.
Lemma clip_heard c p i : idle i → cl_from p ≤ cl_to p → cl_first p = cl_first c + cl_from p - cl_from c → cl_from p ≤ cl_from c → cl_from c ≤ S (cl_from p) →
  (Z.of_nat (cl_to p) - Z.of_nat (cl_from c) + Z.of_nat n <= Z.of_nat (frames smp))%Z →
  let ops := Some (starts c p) :: replicate (cl_to p - cl_from p) None ++ Some IStop :: replicate n None in
  (run_ops ops i).1 = clip_plan p <$> seq (cl_from p) (cl_to p - cl_from p + n) ∧ idle (run_ops ops i).2.
Proof.
  intros ((x & y & Hv) & Ha & Hl) Hft Hq Hd1 Hd2 Hfr. cbn zeta. cbn [TrackProofs.run_ops]. unfold starts.
  assert (Es : ideal_act (IStart (Z.of_nat (cl_first c)) (Z.of_nat (cl_from p) - Z.of_nat (cl_from c))) i =
    Ideal [begin_at (cl_first p); Voice y Stopped] (Some 0) None (Z.of_nat (cl_from p) - Z.of_nat (cl_from c)) (Z.of_nat (cl_first c)) 0).
  { unfold ideal_act. rewrite Hv, Ha, Hl. cbn. by replace (Z.to_nat (Z.of_nat (cl_first c) + (Z.of_nat (cl_from p) - Z.of_nat (cl_from c)))) with (cl_first p) by lia. }
  rewrite Es. rewrite run_ops_app, run_ops_frames. set (m := cl_to p - cl_from p). rewrite frames_play by (cbn; lia). cbn [fst snd id_voices]. rewrite with_silent. cbn [fst snd].
  unfold played. cbn [id_voices id_active id_loop id_elapsed id_start id_loops]. rewrite with_silent. cbn [fst snd TrackProofs.run_ops ideal_act id_voices id_active id_loop id_elapsed id_start id_loops].
  set (v := (voice_frames m (begin_at (cl_first p))).2).
  assert (Ev : fade_out <$> [v; Voice y Stopped] = [Voice (cl_first p + m) (FadingOut 0); Voice y Stopped]).
  { unfold v. destruct (begin_voice m (cl_first p)) as [Ev|[k Ev]]; rewrite Ev; done. }
  rewrite Ev, run_ops_frames, frames_play by (cbn; unfold m; lia). cbn [fst snd id_voices]. rewrite with_silent. unfold played. cbn [fst snd id_voices id_active id_loop]. rewrite with_silent. cbn [fst snd].
  change (FadingOut 0) with (fading false 0). rewrite (voice_frames_fading 1%R Rplus Rmult fade Hfade false) by lia. cbn [fst snd]. rewrite (voice_frames_begin 1%R Rplus Rmult smp fade 1 Hfade).
  split.
  - rewrite seq_app, fmap_app. f_equal.
    + apply list_eq. intros k. rewrite !list_lookup_fmap. destruct (decide (k < m)) as [Hk|Hk]; [|by rewrite !lookup_seq_ge by lia]. rewrite !lookup_seq_lt by done. cbn [fmap option_fmap option_map]. f_equal.
      unfold clip_plan. destruct (Nat.ltb_spec (cl_from p + k) (cl_to p)); [|unfold m in *; lia]. f_equal. lia.
    + apply list_eq. intros k. rewrite !list_lookup_fmap. destruct (decide (k < n)) as [Hk|Hk]; [|by rewrite !lookup_seq_ge by lia]. rewrite !lookup_seq_lt by done. cbn [fmap option_fmap option_map]. f_equal.
      unfold clip_plan. destruct (Nat.ltb_spec (cl_from p + m + k) (cl_to p)); [unfold m in *; lia|]. replace (cl_from p + m + k - cl_to p) with k by (unfold m; lia). destruct (Nat.ltb_spec k n); [|lia].
      cbn [plus fade_gain]. replace (cl_from p + m + k - cl_from p) with (m + k) by lia. by rewrite Nat.add_assoc.
  - split; [|done]. cbn [id_voices]. destruct (Nat.ltb_spec (0 + n) n); [lia|]. cbn [faded]. by eexists _, _.
Qed.
Lemma track_far v played k : Forall (λ p, k < cl_from p) played → foldl (λ v p, if k <? cl_from p then v else clip_plan p k) v played = v.
Proof. revert v. induction played as [|p played IH]; intros v H; [done|]. apply Forall_cons in H as [H1 H2]. cbn [foldl]. destruct (Nat.ltb_spec k (cl_from p)); [|lia]. by apply IH. Qed.
Lemma track_ge clips : ∀ played pos stop, track_ok pos clips played stop → pos ≤ stop ∧ Forall (λ p, pos ≤ cl_from p) played.
Proof.
  induction clips as [|c clips IH]; intros [|p played] pos stop H; try done. destruct H as (H1 & H2 & _ & _ & _ & _ & H3). apply IH in H3 as [I1 I2]. split; [lia|].
  constructor; [done|]. eapply Forall_impl; [exact I2|]. cbn. lia.
Qed.
Lemma track_heard clips : ∀ played pos stop i, idle i → track_ok pos clips played stop → (run_ops (track pos clips played stop) i).1 = track_plan played <$> seq pos (stop - pos).
Proof.
  induction clips as [|c clips IH]; intros [|p played] pos stop i Hi Ht; try done.
  - cbn [track]. rewrite run_ops_frames. destruct (idle_frames (stop - pos) i Hi) as [-> _]. generalize (stop - pos) as m. clear. intros m. revert pos. induction m as [|m IH]; intros pos; [done|]. cbn. f_equal. apply IH.
  - destruct Ht as (H1 & H2 & H3 & H4 & H5 & H6 & H7). pose proof (track_ge _ _ _ _ H7) as [H8 H9].
    assert (Et : track (cl_to p) clips played stop = replicate n None ++ track (cl_to p + n) clips played stop).
    { destruct clips as [|c' clips], played as [|p' played]; try done; cbn [track].
      - rewrite <-replicate_add. f_equal. lia.
      - destruct H7 as (Q1 & _). rewrite app_assoc, <-replicate_add. do 2 f_equal. lia. }
    cbn [track]. rewrite Et, run_ops_app, run_ops_frames. destruct (idle_frames (cl_from p - pos) i Hi) as [-> Hi1]. cbn [fst]. set (i1 := (ideal_frames (cl_from p - pos) i).2) in *.
    replace (Some (starts c p) :: replicate (cl_to p - cl_from p) None ++ Some IStop :: replicate n None ++ track (cl_to p + n) clips played stop)
      with ((Some (starts c p) :: replicate (cl_to p - cl_from p) None ++ Some IStop :: replicate n None) ++ track (cl_to p + n) clips played stop) by (cbn [app]; by rewrite <-app_assoc).
    rewrite run_ops_app. cbn [fst]. destruct (clip_heard c p i1 Hi1 H2 H3 H4 H5 H6) as [-> Hi2]. rewrite (IH played _ _ _ Hi2 H7).
    replace (stop - pos) with ((cl_from p - pos) + ((cl_to p - cl_from p + n) + (stop - (cl_to p + n)))) by lia. rewrite (seq_app (cl_from p - pos)), (seq_app (cl_to p - cl_from p + n)), !fmap_app.
    replace (pos + (cl_from p - pos)) with (cl_from p) by lia. replace (cl_from p + (cl_to p - cl_from p + n)) with (cl_to p + n) by lia.
    assert (Hfar : ∀ k, k < cl_to p + n → Forall (λ p, k < cl_from p) played) by (intros k Hk; eapply Forall_impl; [exact H9|]; cbn; lia).
    f_equal; [|f_equal].
    + apply list_eq. intros k. rewrite list_lookup_fmap. destruct (decide (k < cl_from p - pos)) as [Hk|Hk].
      * rewrite lookup_seq_lt, lookup_replicate_2 by done. cbn [fmap option_fmap option_map]. f_equal. unfold track_plan. cbn [foldl]. destruct (Nat.ltb_spec (pos + k) (cl_from p)); [|lia]. symmetry. apply track_far, Hfar. lia.
      * rewrite lookup_seq_ge by lia. apply lookup_replicate_None. lia.
    + apply list_fmap_ext. intros k j Hj. apply lookup_seq in Hj as [-> Hj]. unfold track_plan. cbn [foldl]. destruct (Nat.ltb_spec (cl_from p + k) (cl_from p)); [lia|]. symmetry. apply track_far, Hfar. lia.
    + apply list_fmap_ext. intros k j Hj. apply lookup_seq in Hj as [-> Hj]. unfold track_plan. cbn [foldl]. destruct (Nat.ltb_spec (cl_to p + n + k) (cl_from p)); [lia|].
      assert (En : clip_plan p (cl_to p + n + k) = []); [|by rewrite En]. unfold clip_plan. destruct (Nat.ltb_spec (cl_to p + n + k) (cl_to p)); [lia|]. by destruct (Nat.ltb_spec (cl_to p + n + k - cl_to p) n); [lia|].
Qed.
Lemma plan_value ch played k : mix Rplus Rmult smp ch 0%R (track_plan played k) = track_value smp fade ch played k.
Proof.
  unfold track_plan, track_value. assert (H : ∀ l x, mix Rplus Rmult smp ch 0%R l = x →
    mix Rplus Rmult smp ch 0%R (foldl (λ v p, if k <? cl_from p then v else clip_plan p k) l played) = foldl (λ v p, if k <? cl_from p then v else clip_value smp fade ch p k) x played).
  { induction played as [|p played IH]; intros l x Hx; [done|]. cbn [foldl]. apply IH. destruct (k <? cl_from p) eqn:E; [done|]. apply Nat.ltb_ge in E.
    unfold clip_plan, clip_value, play_plan. destruct (Nat.ltb_spec k (cl_to p)).
    - case_decide as Hd.
      + destruct (Nat.ltb_spec 0 (cl_first p)); [|lia]. destruct (Nat.ltb_spec (k - cl_from p) n); [|lia]. cbn. unfold mix_one. cbn. destruct (sample smp ch _); cbn; lra.
      + assert (Eb : (0 <? cl_first p) && (k - cl_from p <? n) = false) by (destruct (Nat.ltb_spec 0 (cl_first p)), (Nat.ltb_spec (k - cl_from p) n); cbn; (done || lia)). rewrite Eb. cbn. unfold mix_one. cbn. destruct (sample smp ch _); cbn; lra.
    - destruct (k - cl_to p <? n); [|done]. cbn. unfold mix_one. cbn [fst snd]. destruct (sample smp ch _); cbn; lra. }
  by apply H.
Qed.
End clips.

(** ** From calls to frames *)
Definition cue_action (sr : nat) (c : cue) : sample_action := match c with Play _ q => SStart (time_of sr q) | Halt _ => SStop end.
Definition cue_request (sr : nat) (c : cue) (k : nat) : event sample_action := sampler_event (time_of sr (frame_of_cue c)) k (cue_action sr c).
Lemma sends_cues sr cs : (cue_call sr <$> cs) ≫= sampler_sends = cue_request sr <$> cs.
Proof. induction cs as [|c cs IH]; [done|]. cbn [fmap list_fmap mbind list_bind]. change (list_bind _ _ sampler_sends) with (mbind (M := list) sampler_sends). change (list_fmap _ _ (cue_call sr) cs) with (cue_call sr <$> cs). rewrite IH. by destruct c. Qed.
Lemma track_concat sr score : concat (track_calls sr score) ≫= sampler_sends = cue_request sr <$> concat score.
Proof.
  rewrite <-sends_cues. f_equal. unfold track_calls. induction score as [|cs score IH]; [done|]. cbn [fmap list_fmap concat]. rewrite fmap_app. f_equal. exact IH.
Qed.
Lemma cued_ge score : ∀ pos blocks, cued pos score blocks → Forall (λ c, pos ≤ frame_of_cue c) (concat score).
Proof.
  induction score as [|cs score IH]; intros pos blocks H; [constructor|]. cbn [concat]. destruct blocks as [|[t fc] blocks]; destruct H as [H1 H2]; apply Forall_app; (split; [done|]).
  - by eapply IH.
  - eapply Forall_impl; [by eapply IH|]. cbn. lia.
Qed.
Lemma apart_sorted n len clips : apart n len clips → StronglySorted (λ x y, frame_of_cue x ≤ frame_of_cue y) (cues clips).
Proof.
  assert (H : ∀ clips, apart n len clips → StronglySorted (λ x y, frame_of_cue x ≤ frame_of_cue y) (cues clips) ∧ ∀ c l, clips = c :: l → Forall (λ x, cl_from c ≤ frame_of_cue x) (cues clips)).
  { clear clips. intros clips. induction clips as [|c clips IH]; intros H; [by split; [constructor|]|]. destruct H as (H1 & _ & H2 & H3). destruct (IH H3) as [I1 I2].
    change (cues (c :: clips)) with (Play (cl_from c) (cl_first c) :: Halt (cl_to c) :: cues clips).
    assert (Hg : Forall (λ x, cl_to c ≤ frame_of_cue x) (cues clips)).
    { destruct clips as [|c' l]; [constructor|]. eapply Forall_impl; [by eapply I2|]. cbn. lia. }
    assert (Hf : Forall (λ x, cl_from c ≤ frame_of_cue x) (Halt (cl_to c) :: cues clips)).
    { constructor; [cbn; lia|]. eapply Forall_impl; [exact Hg|]. cbn. lia. }
    split.
    - constructor; [|done]. by constructor.
    - intros c0 l E. injection E as <- <-. constructor; [done|exact Hf]. }
  intros Hn. by apply H.
Qed.
Definition clip_frames (played : list clip) : list nat := p ← played; [cl_from p; cl_to p].
Lemma number_sorted {P} (l : list (nat → event P)) : (∀ e k, e ∈ l → ev_seq (e k) = k) → StronglySorted (λ x y, ∀ j k, (ev_time (x j) <= ev_time (y k))%Z) l → ∀ n, StronglySorted comes_first (number n l).
Proof.
  intros Hq. induction 1 as [|x l Hs IH Hx]; intros n; [constructor|]. change (x :: l) with ([x] ++ l). rewrite number_app. cbn [number imap app].
  constructor; [apply IH; intros e k He; apply Hq; by right|]. apply Forall_lookup. intros i e He. cbn [length] in He. unfold number in He. rewrite list_lookup_imap in He.
  apply fmap_Some in He as (f & Hf & ->). rewrite Forall_lookup in Hx. specialize (Hx i f Hf). split; cbn; [apply Hx|].
  rewrite Hq by (by left). rewrite Hq by (right; by eapply elem_of_list_lookup_2). lia.
Qed.
Lemma find_frame {X} (run : list (list X)) blocks : Forall2 (λ (hs : list X) (b : timestamp * nat), length hs = b.2) run blocks → ∀ i, i < length_of blocks →
  ∃ k b hs fr, blocks !! k = Some b ∧ run !! k = Some hs ∧ fr < b.2 ∧ i = length_of (take k blocks) + fr ∧ hs !! fr = concat run !! i.
Proof.
  induction 1 as [|hs [t fc] run blocks Hl H IH]; intros i Hi; [cbn in Hi; lia|]. change (length_of ((t, fc) :: blocks)) with (fc + length_of blocks) in Hi. cbn [snd] in Hl. destruct (decide (i < fc)) as [Hlt|Hge].
  - exists 0, (t, fc), hs, i. split; [done|]. split; [done|]. split; [done|]. split; [done|]. cbn [concat]. by rewrite lookup_app_l by lia.
  - destruct (IH (i - fc) ltac:(lia)) as (k & b & hs' & fr & K1 & K2 & K3 & K4 & K5). exists (S k), b, hs', fr. split; [done|]. split; [done|]. split; [done|]. split.
    + cbn [take]. change (length_of ((t, fc) :: take k blocks)) with (fc + length_of (take k blocks)). lia.
    + rewrite K5. cbn [concat]. rewrite lookup_app_r by lia. by rewrite Hl.
Qed.
Section stream.
Context (sr : nat) (Hsr : (0 < Z.of_nat sr <= 2 ^ 29)%Z) (smp : owned R) (fade : list R) (Hfade : 0 < length fade).
Notation n := (length fade).
Notation unit := (Z.of_nat sr + 1)%Z.
Lemma clip_track clips : ∀ played pos stop, Forall2 (clip_as sr) clips played → apart n (frames smp) clips → ascending pos (clip_frames played) → Forall (λ p, cl_to p + n ≤ stop) played →
  pos ≤ stop → track_ok smp fade pos clips played stop.
Proof.
  induction clips as [|c clips IH]; intros played pos stop H2 Hsp Has Hst Hp; inversion H2 as [|? p ? played' (L1 & L2 & L3) H2']; subst; [done|].
  destruct Hsp as (S1 & S2 & S3 & S4). destruct Has as (A1 & A2 & A3). apply Forall_cons in Hst as [T1 T2]. cbn [track_ok]. destruct L1 as [L1 _]. destruct L2 as [L2 _].
  split; [done|]. split; [lia|]. split; [done|]. split; [lia|]. split; [lia|]. split; [lia|]. apply IH; [done|done| |done|done].
  destruct H2' as [|c' p' clips played M H2']; [done|]. destruct M as ([M1 _] & _). destruct A3 as [A3 A4]. split; [lia|done].
Qed.
Lemma clips_land pos clips : Forall (clip_ok sr) clips → Forall (λ c, pos ≤ frame_of_cue c) (cues clips) → ∀ k gs, Forall2 (landed sr pos) (number k (cue_request sr <$> cues clips)) gs →
  ∃ played, gs = clip_frames played ∧ Forall2 (clip_as sr) clips played ∧
    (λ ge : nat * event sample_action, (ge.1, action_of sr ge.2 (time_of sr ge.1))) <$> zip gs (number k (cue_request sr <$> cues clips)) = clip_acts clips played.
Proof.
  assert (Hl : ∀ c k g, reachable_frame sr (frame_of_cue c) → pos ≤ frame_of_cue c → landed sr pos (cue_request sr c k) g → lands sr (frame_of_cue c) g).
  { intros c k g Rm Pm [[Et ->]|(f & Et & Rf & Pf & Lf)]; cbn in Et.
    - assert (frame_of_cue c ≤ 0) by (apply (time_le sr Hsr); [done|by apply reachable_0|rewrite time_0 by done; lia]). replace (frame_of_cue c) with pos by lia. apply lands_self.
    - assert (frame_of_cue c = f) as -> by (apply (anti_symm (≤)); apply (time_le sr Hsr); (done || lia)). done. }
  induction 1 as [|c clips (O1 & O2 & O3) _ IH]; intros Hge k gs H; [inversion H; by exists []|].
  change (cues (c :: clips)) with (Play (cl_from c) (cl_first c) :: Halt (cl_to c) :: cues clips) in *.
  change (cue_request sr <$> Play (cl_from c) (cl_first c) :: Halt (cl_to c) :: cues clips) with ([cue_request sr (Play (cl_from c) (cl_first c)); cue_request sr (Halt (cl_to c))] ++ (cue_request sr <$> cues clips)) in *.
  rewrite number_app in *. cbn [number imap app] in H. inversion H as [|? g1 ? gs' L1 H']; subst. inversion H' as [|? g2 ? gs'' L2 H'']; subst. clear H H'.
  apply Forall_cons in Hge as [Ge1 Hge]. apply Forall_cons in Hge as [Ge2 Hge]. destruct (IH Hge _ _ H'') as (played & -> & P1 & P2).
  assert (R1 : reachable_frame sr (cl_from c)) by (destruct O1; split; lia). assert (R2 : reachable_frame sr (cl_to c)) by (destruct O2; split; lia).
  apply (Hl (Play (cl_from c) (cl_first c))) in L1; [|done|done]. apply (Hl (Halt (cl_to c))) in L2; [|done|done]. cbn [frame_of_cue] in L1, L2.
  exists (Clip g1 (cl_first c + g1 - cl_from c) g2 :: played). split; [done|]. split; [by constructor|]. cbn [number imap app zip_with fmap list_fmap clip_acts fst snd cl_from cl_to].
  f_equal; [|f_equal; exact P2]. f_equal. unfold starts, cue_request, sampler_event, action_of. cbn [ev_data ev_time cue_action frame_of_cue cl_from].
  destruct O1 as [O1 _]. destruct L1 as [L1 _]. f_equal.
  - eapply (nearest sr); [apply (within_time sr Hsr); lia|lia].
  - eapply (nearest sr _ _ (2 * (unit + 2 ^ 21))); [|lia]. pose proof (within_time sr Hsr g1 ltac:(lia)) as W1. pose proof (within_time sr Hsr (cl_from c) ltac:(lia)) as W2. unfold within in *. lia.
Qed.
Lemma track_stream outs pos blocks n0 score clips ds : stream_blocks sr pos blocks → Forall (λ b : timestamp * nat, block_ok sr b.2) blocks → clock_frame sr (pos + length_of blocks) →
  concat score = cues clips → cued pos score blocks → apart n (frames smp) clips → Forall (clip_ok sr) clips → clock_holds sr (length blocks) (2 * length clips) →
  let bs := sampler_blocks sr outs (requests sampler_sends n0 (track_calls sr score)) blocks in
  handled sr [] bs ds →
  ∃ played, Forall2 (clip_as sr) clips played ∧ accurate_run 1%R smp fade sr 0 new_ideal bs ds ∧
    Forall2 (λ (hs : list (list (heard R))) (b : timestamp * nat), length hs = b.2) (ideal_run 1%R smp fade sr new_ideal bs ds) blocks ∧
    ∀ i, i < length_of blocks → concat (ideal_run 1%R smp fade sr new_ideal bs ds) !! i = Some (track_plan fade played (pos + i)).
Proof.
  intros Hb Hok Hre Hc Hin Hsp Hcl Hclock bs Hh.
  assert (Hrm : Forall (λ c, reachable_frame sr (frame_of_cue c)) (cues clips)).
  { clear -Hcl. induction Hcl as [|c clips (H1 & H2 & _) _ IH]; [constructor|]. change (cues (c :: clips)) with (Play (cl_from c) (cl_first c) :: Halt (cl_to c) :: cues clips).
    constructor; [destruct H1; split; cbn; lia|]. constructor; [destruct H2; split; cbn; lia|done]. }
  assert (Hge : Forall (λ c, pos ≤ frame_of_cue c) (cues clips)) by (rewrite <-Hc; by eapply cued_ge).
  set (inbox := requests sampler_sends n0 (track_calls sr score)) in *.
  assert (Hcat : concat inbox = number n0 (cue_request sr <$> cues clips)) by (unfold inbox; by rewrite requests_concat, track_concat, Hc).
  assert (Hq : ∀ sc m p bl, cued p sc bl → pos ≤ p → Forall (λ c, reachable_frame sr (frame_of_cue c)) (concat sc) →
      inbox_due sr pos p (requests sampler_sends m (track_calls sr sc)) bl ∧ Forall (Forall (λ e, ev_clear e = false)) (requests sampler_sends m (track_calls sr sc))).
  { assert (Hone : ∀ cs m p, Forall (λ c, p ≤ frame_of_cue c) cs → pos ≤ p → Forall (λ c, reachable_frame sr (frame_of_cue c)) cs → Forall (due sr pos p) (number m ((cue_call sr <$> cs) ≫= sampler_sends))).
    { intros cs m p M1 M2 M3. rewrite sends_cues. apply number_Forall, Forall_fmap, Forall_forall. intros c Hm k. rewrite Forall_forall in M1, M3.
      right. exists (frame_of_cue c). split; [done|]. split; [by apply M3|]. specialize (M1 c Hm). lia. }
    assert (Hcls : ∀ cs m, Forall (λ e, ev_clear e = false) (number m ((cue_call sr <$> cs) ≫= sampler_sends))).
    { intros cs m. rewrite sends_cues. apply number_Forall, Forall_fmap, Forall_forall. intros c Hm k. by destruct c. }
    intros sc. induction sc as [|cs sc IH]; intros m p bl I1 I2 I3; [by split; [|constructor]|]. cbn [concat] in I3. apply Forall_app in I3 as [I3 I4]. unfold track_calls. cbn [fmap list_fmap requests].
    destruct bl as [|[t fc] bl]; destruct I1 as [I1 I5].
    - destruct (IH (m + length ((cue_call sr <$> cs) ≫= sampler_sends)) p [] I5 I2 I4) as [J1 J2]. split; [split; [by apply Hone|exact J1]|]. constructor; [apply Hcls|exact J2].
    - destruct (IH (m + length ((cue_call sr <$> cs) ≫= sampler_sends)) (p + fc) bl I5 ltac:(lia) I4) as [J1 J2]. split; [split; [by apply Hone|exact J1]|]. constructor; [apply Hcls|exact J2]. }
  destruct (Hq score n0 pos blocks Hin ltac:(lia) ltac:(by rewrite Hc)) as [Hdue Hclear]. fold inbox in Hdue, Hclear.
  pose proof (handled_taken sr outs blocks [] inbox ds Hclear Hh) as Htk.
  assert (Hlen : length (concat inbox) = 2 * length clips).
  { rewrite Hcat. unfold number. rewrite imap_length, fmap_length. clear. induction clips as [|c clips IH]; [done|]. change (cues (c :: clips)) with (Play (cl_from c) (cl_first c) :: Halt (cl_to c) :: cues clips). cbn [length]. lia. }
  pose proof (taken_length sr blocks [] inbox ds Htk) as Hd. rewrite Hlen in Hd. cbn [length plus] in Hd.
  assert (Hsort : StronglySorted comes_first (concat inbox)).
  { rewrite Hcat. apply number_sorted; [intros e k He; apply elem_of_list_fmap in He as (c & -> & _); done|].
    pose proof (apart_sorted _ _ _ Hsp) as H. clear -H Hrm Hsr. induction H as [|c cs Hs IH Hm]; [constructor|]. apply Forall_cons in Hrm as [R1 R2]. cbn [fmap list_fmap]. constructor; [by apply IH|].
    apply Forall_fmap. apply Forall_forall. intros c' Hm' j k. change (time_of sr (frame_of_cue c) <= time_of sr (frame_of_cue c'))%Z. rewrite Forall_forall in Hm. specialize (Hm c' Hm'). rewrite !time_frame. destruct R1.
    destruct (decide (frame_of_cue c = frame_of_cue c')) as [->|]; [lia|]. rewrite Forall_forall in R2. destruct (R2 c' Hm').
    pose proof (frame_time_strict (Z.of_nat (frame_of_cue c)) (Z.of_nat (frame_of_cue c')) (Z.of_nat sr) ltac:(lia) ltac:(lia) ltac:(lia)). lia. }
  assert (Hre' : reachable_frame sr (pos + length_of blocks)) by (destruct Hre; split; lia).
  destruct (play sr Hsr pos blocks pos [] [] inbox ds Hb Hok Hre' Htk) as (gs & G1 & G2 & G3 & G4); [done|done|constructor|done|done|]. rewrite app_nil_l in *. rewrite Hcat in G1, G4.
  destruct (clips_land pos clips Hcl Hge n0 gs G1) as (played & -> & P1 & P2). exists played. split; [done|].
  assert (Hcues : Forall (Forall (λ e, ∀ g, landed sr pos e g → cue_event sr e g)) ds).
  { eapply taken_Forall; [exact Htk|constructor|]. rewrite Hcat. clear -Hcl Hge Hsr. revert Hge. generalize n0. induction Hcl as [|c clips (O1 & O2 & O3) _ IH]; intros m Hge; [constructor|].
    change (cues (c :: clips)) with (Play (cl_from c) (cl_first c) :: Halt (cl_to c) :: cues clips) in *.
    change (cue_request sr <$> Play (cl_from c) (cl_first c) :: Halt (cl_to c) :: cues clips) with ([cue_request sr (Play (cl_from c) (cl_first c)); cue_request sr (Halt (cl_to c))] ++ (cue_request sr <$> cues clips)) in *.
    rewrite number_app. cbn [number imap app]. apply Forall_cons in Hge as [Ge1 Hge]. apply Forall_cons in Hge as [Ge2 Hge]. constructor; [|constructor; [intros g _; by right|by apply IH]].
    intros g Hg. left. exists (cl_from c), (cl_first c). split; [done|]. destruct O1 as [O1 O1']. split; [done|]. split; [|done].
    assert (Rc : reachable_frame sr (cl_from c)) by (split; lia). destruct Hg as [[Et ->]|(f & Et & Rf & Pf & Lf)]; cbn in Et.
    - assert (cl_from c ≤ 0) by (apply (time_le sr Hsr); [done|by apply reachable_0|rewrite time_0 by done; lia]). cbn in Ge1. lia.
    - assert (cl_from c = f) as -> by (apply (anti_symm (≤)); apply (time_le sr Hsr); (done || lia)). by destruct Lf. }
  unfold clock_holds in Hclock. set (C := 2 * length clips) in *.
  assert (Hm1 : ((Z.of_nat C + 6) * unit <= 2 ^ 32 - 2 ^ 28)%Z) by (eapply Z.le_trans; [|exact Hclock]; apply Z.mul_le_mono_nonneg_r; lia).
  pose proof (slack_fits sr Hsr C (length blocks + C + 4)) as Hfit. 
  destruct (run_blocks smp fade sr Hfade Hsr outs C blocks Hm1 pos pos inbox ds new_ideal 0) as (R1 & R2 & R3); [done|done|destruct Hre; lia|done|done|lia|done|done|destruct Hre; cbn; lia| |].
  { assert (Hsl : (0 <= slack sr C)%Z) by (unfold slack; pose proof (Z.div_pos (3 * 2 ^ 21) unit ltac:(lia) ltac:(lia)); lia). rewrite Z.max_r by done.
    eapply Z.le_trans; [|apply Hfit; eapply Z.le_trans; [|exact Hclock]; apply Z.mul_le_mono_nonneg_r; lia]. apply Z.mul_le_mono_nonneg_r; lia. }
  fold bs in R1, R2, R3. split; [done|]. split; [done|]. intros i Hi. rewrite R2, G4, lay_cast, P2.
  set (N := length_of blocks) in *. set (stop := pos + N + n + sum_list (cl_to <$> played)).
  assert (Hstop : Forall (λ p, cl_to p + n ≤ stop) played).
  { unfold stop. clear. generalize (pos + N). induction played as [|p played IH]; intros m; constructor; [cbn; lia|]. eapply Forall_impl; [apply (IH (m + cl_to p))|]. cbn. lia. }
  pose proof (clip_track clips played pos stop P1 Hsp G2 Hstop ltac:(unfold stop; lia)) as Htr.
  destruct (lay_prefix (clip_acts clips played) pos N (stop - pos)) as [rest Hrest]; [unfold stop; lia|]. rewrite (lay_track smp fade Hfade clips played pos stop Htr) in Hrest.
  assert (Hidle : idle new_ideal) by (split; [by exists 0, 0|done]).
  pose proof (track_heard smp fade Hfade clips played pos stop new_ideal Hidle Htr) as Hv. rewrite Hrest, run_ops_app in Hv. cbn [fst] in Hv.
  assert (Hll : length (run_ops smp fade (lay pos (clip_acts clips played) N) new_ideal).1 = N).
  { rewrite run_ops_length. rewrite <-P2, <-lay_cast, filter_op_at, cast_frames. done. }
  rewrite <-(lookup_app_l _ (run_ops smp fade rest (run_ops smp fade (lay pos (clip_acts clips played) N) new_ideal).2).1) by lia. rewrite Hv, list_lookup_fmap, lookup_seq_lt by (unfold stop; lia). done.
Qed.
End stream.
