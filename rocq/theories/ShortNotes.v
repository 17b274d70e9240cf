(** Short notes in a network: the curves that are heard. *)
From stdpp Require Import gmap list list_numbers strings sorting.
From Coq Require Import ZArith Lia ZifyBool ZifyNat Reals Lra.
From Verif Require Import Base Graph GraphSpec TopoSort TopoSortSpec TopoSortProofs Buffer BufferSpec DspGraph DspGraphSpec Float Timestamp TimestampProofs EventProcessor EventProcessorSpec EventProcessorProofs Adsr AdsrSpec AdsrProofs AdsrCurve AdsrNote AdsrCutSpec AdsrCut
  EventChannel Sampler Recorder Processor ProcessorSpec AudioParam AudioParamR BiquadSpec Node NodeSpec NodeProofs NodeExamples LimitsSpec LimitsProofs
  Chain ChainSpec ChainProofs Effects EffectShape EffectsSpec EffectsProofs StreamSpec StreamProofs DeviceProofs LibraryProofs LibraryExamples NetSpec NetProofs NetLibrary MelodySpec ScoreProofs MelodyProofs NetMelody ProgramSpec AnyNotesSpec AnyNotes AdsrCutSpec.
Local Open Scope nat_scope.

Section short.
Context (sr : nat) (Hsr : 0 < sr) (ta td s tr : R).
Context (Hta : (0 < ta)%R) (Htr : (0 < tr)%R) (Hs : (0 <= s <= 1)%R).
Notation value := (short_value (ta * INR sr) s (tr * INR sr)).
Notation state ops := (env_run sr (new_env sr) ops).2.

Lemma level_grows ops ops' f m : env_values sr ops' = env_values sr ops ++ (f <$> seq 0 m) → level_after sr ops' = if m =? 0 then level_after sr ops else f (m - 1).
Proof.
  intros E. unfold level_after. rewrite E. destruct m as [|m]; [by rewrite app_nil_r|]. rewrite seq_S, fmap_app, app_assoc. cbn [fmap list_fmap]. rewrite last_snoc. cbn. by rewrite Nat.sub_0_r.
Qed.
Lemma state_app a b : state (a ++ b) = (env_run sr (state a) b).2.
Proof. by rewrite run_app. Qed.
Lemma off_values ops m : Forall op_ok ops → tuned sr ta td s tr (state ops) →
  env_values sr (ops ++ AAct NoteOff :: replicate m AFrame) = env_values sr ops ++ (falls_from (level_after sr ops) s (tr * INR sr) <$> seq 0 m).
Proof.
  intros Hok (_ & _ & T3 & T4). rewrite <-(cut_ok sr Hsr ops s tr m Hok Htr Hs). unfold env_values. rewrite !run_app. cbn [fst snd app env_run]. by rewrite T3, T4.
Qed.
Lemma on_values ops m : Forall op_ok ops → tuned sr ta td s tr (state ops) → (∀ k, S k < m → (rises_from (level_after sr ops) (ta * INR sr) k < 1)%R) →
  env_values sr (ops ++ AAct NoteOn :: replicate m AFrame) = env_values sr ops ++ (rises_from (level_after sr ops) (ta * INR sr) <$> seq 0 m).
Proof.
  intros Hok (T1 & _) Hlt. rewrite <-(retrigger_ok sr Hsr ops ta m Hok Hta Hlt). unfold env_values. rewrite !run_app. cbn [fst snd app env_run]. by rewrite T1.
Qed.
Lemma play_tuned ops x m : tuned sr ta td s tr (state ops) → x = NoteOn ∨ x = NoteOff → tuned sr ta td s tr (state (ops ++ AAct x :: replicate m AFrame)).
Proof.
  intros T Hx. rewrite state_app. apply tuned_run; [|done]. constructor; [destruct Hx as [->| ->]; auto|]. apply Forall_replicate. by left.
Qed.
Lemma play_op_ok ops x m : Forall op_ok ops → x = NoteOn ∨ x = NoteOff → Forall op_ok (ops ++ AAct x :: replicate m AFrame).
Proof. intros H Hx. apply Forall_app. split; [done|]. constructor; [by destruct Hx as [->| ->]|]. by apply Forall_replicate. Qed.
Lemma seq_shift_fmap {A} (f h : nat → A) p n : (∀ i, i < n → f i = h (p + i)) → f <$> seq 0 n = h <$> seq p n.
Proof.
  intros H. apply list_eq. intros i. rewrite !list_lookup_fmap. destruct (decide (i < n)) as [Hi|Hi]; [|by rewrite !lookup_seq_ge by lia].
  rewrite !lookup_seq_lt by done. cbn. f_equal. by apply H.
Qed.
Fixpoint ends_before (notes : list (nat * nat)) (stop : nat) : Prop := match notes with [] => True | (_, g) :: notes => g ≤ stop ∧ ends_before notes stop end.
Lemma short_values notes : ∀ ops u g stop, Forall op_ok ops → tuned sr ta td s tr (state ops) → level_after sr ops = u →
  short_notes (ta * INR sr) s (tr * INR sr) u g notes → ends_before notes stop →
  env_values sr (ops ++ AAct NoteOff :: tune g notes stop) = env_values sr ops ++ (value u g notes <$> seq g (stop - g)).
Proof.
  induction notes as [|[f g'] notes IH]; intros ops u g stop Hok T Hu Hn He.
  - cbn [tune]. rewrite off_values by done. f_equal. rewrite Hu. apply seq_shift_fmap. intros i _. cbn [short_value]. f_equal. lia.
  - destruct Hn as (N1 & N2 & N3 & N4). destruct He as [E1 E2]. cbn [tune].
    set (ops1 := ops ++ AAct NoteOff :: replicate (f - g) AFrame). set (ops2 := ops1 ++ AAct NoteOn :: replicate (g' - f) AFrame).
    replace (ops ++ AAct NoteOff :: replicate (f - g) AFrame ++ AAct NoteOn :: replicate (g' - f) AFrame ++ AAct NoteOff :: tune g' notes stop)
      with (ops2 ++ AAct NoteOff :: tune g' notes stop) by (unfold ops2, ops1; by repeat (rewrite <-app_assoc; cbn [app])).
    pose proof (off_values ops (f - g) Hok T) as V1. fold ops1 in V1. rewrite Hu in V1.
    assert (L1 : level_after sr ops1 = fallen s (tr * INR sr) u g f).
    { rewrite (level_grows _ _ _ _ V1), Hu. unfold fallen. destruct (Nat.eqb_spec (f - g) 0), (Nat.leb_spec f g); try lia; [done|]. f_equal. lia. }
    assert (O1 : Forall op_ok ops1) by (apply play_op_ok; auto). assert (T1 : tuned sr ta td s tr (state ops1)) by (apply play_tuned; auto).
    assert (V2 : env_values sr ops2 = env_values sr ops1 ++ (rises_from (level_after sr ops1) (ta * INR sr) <$> seq 0 (g' - f))).
    { unfold ops2. apply on_values; [done|done|]. by rewrite L1. }
    assert (L2 : level_after sr ops2 = rises_from (fallen s (tr * INR sr) u g f) (ta * INR sr) (g' - 1 - f)).
    { rewrite (level_grows _ _ _ _ V2), L1. destruct (Nat.eqb_spec (g' - f) 0); [lia|]. f_equal. lia. }
    rewrite (IH ops2 _ g' stop) by (done || (apply play_op_ok; auto; done) || (apply play_tuned; auto; done)).
    rewrite V2, V1, L1, <-!app_assoc. f_equal.
    assert (Es : ∀ h : nat → R, h <$> seq g (stop - g) = (h <$> seq g (f - g)) ++ (h <$> seq f (g' - f)) ++ (h <$> seq g' (stop - g'))).
    { intros h. replace (stop - g) with ((f - g) + ((g' - f) + (stop - g'))) by lia. rewrite !seq_app, !fmap_app. replace (g + (f - g) + (g' - f)) with g' by lia. by replace (g + (f - g)) with f by lia. }
    rewrite Es. f_equal; [|f_equal].
    + apply seq_shift_fmap. intros i Hi. cbn [short_value]. destruct (Nat.ltb_spec (g + i) f); [|lia]. f_equal. lia.
    + apply seq_shift_fmap. intros i Hi. cbn [short_value]. destruct (Nat.ltb_spec (f + i) f); [lia|]. destruct (Nat.ltb_spec (f + i) g'); [|lia]. f_equal. lia.
    + apply list_fmap_ext. intros i k Hk. apply lookup_seq in Hk as [-> Hk]. cbn [short_value]. destruct (Nat.ltb_spec (g' + i) f); [lia|]. by destruct (Nat.ltb_spec (g' + i) g'); [lia|].
Qed.
Lemma ends_more notes : ∀ n n', n ≤ n' → ends_before notes n → ends_before notes n'.
Proof. induction notes as [|[f g] notes IH]; intros n n' H; [done|]. intros [H1 H2]. split; [lia|by eapply IH]. Qed.
Lemma ends_some notes : ∃ n, ends_before notes n ∧ Forall (λ gh : nat * nat, gh.2 < S n) notes.
Proof.
  induction notes as [|[f g] notes [n [H1 H2]]]; [by exists 0|]. exists (g + n). split; [split; [lia|by eapply ends_more, H1; lia]|].
  constructor; [cbn; lia|]. eapply Forall_impl; [exact H2|]. cbn. lia.
Qed.
Lemma short_order na nr notes : ∀ u g, short_notes na s nr u g notes → in_order g (marks notes) ∧ ascending g (note_frames notes).
Proof.
  induction notes as [|[f g'] notes IH]; intros u g H; [done|]. destruct H as (H1 & H2 & _ & H3). destruct (IH _ _ H3) as [I1 I2].
  change (marks ((f, g') :: notes)) with (On f :: Off g' :: marks notes). change (note_frames ((f, g') :: notes)) with (f :: g' :: note_frames notes).
  split; cbn [in_order ascending frame_of_mark]; (split; [done|]); (split; [lia|done]).
Qed.
Lemma marks_actions notes : (λ m, (frame_of_mark m, note_action m)) <$> marks notes = note_actions notes.
Proof. induction notes as [|[f g] notes IH]; [done|]. change (marks ((f, g) :: notes)) with (On f :: Off g :: marks notes). change (note_actions ((f, g) :: notes)) with ((f, NoteOn) :: (g, NoteOff) :: note_actions notes). cbn [fmap list_fmap]. by do 2 f_equal. Qed.
Lemma short_heard pos N notes i : (0 <= td)%R → short_notes (ta * INR sr) s (tr * INR sr) 0%R pos notes → i < N →
  at_ (env_values sr (adsr_settings ta td s tr ++ notes_history pos (marks notes) N)) i = value 0%R pos notes (pos + i).
Proof.
  intros Htd Hn Hi. destruct (short_order _ _ _ _ _ Hn) as [O1 O2]. rewrite history_spread, marks_actions by done.
  destruct (ends_some notes) as (n & E1 & E2). set (stop := pos + N + S n).
  destruct (spread_prefix (note_actions notes) pos N (stop - pos)) as [rest Hrest]; [unfold stop; lia|].
  rewrite (spread_tune notes pos stop O2) in Hrest; [|eapply Forall_impl; [exact E2|]; unfold stop; cbn; lia|unfold stop; lia].
  set (ops := adsr_settings ta td s tr).
  assert (Hops : Forall op_ok ops) by (unfold ops, adsr_settings; do 4 (apply Forall_cons; split; [cbn; try done; lra|]); by apply Forall_nil).
  assert (T : tuned sr ta td s tr (state ops)) by (apply tuned_set).
  pose proof (short_values notes ops 0%R pos stop Hops T eq_refl Hn (ends_more notes n stop ltac:(unfold stop; lia) E1)) as Hv.
  change (env_values sr ops) with (@nil R) in Hv. cbn [app] in Hv.
  assert (Eo : env_values sr (ops ++ AAct NoteOff :: tune pos notes stop) = env_values sr (ops ++ tune pos notes stop)) by done.
  rewrite Eo, Hrest, app_assoc in Hv. unfold env_values in Hv. rewrite run_app in Hv. cbn [fst] in Hv. unfold at_.
  assert (Hl : length (env_values sr (ops ++ spread pos (note_actions notes) N)) = N) by (unfold env_values; rewrite run_app; cbn [fst]; rewrite app_length, spread_length; done).
  fold (env_values sr (ops ++ spread pos (note_actions notes) N)) in Hv.
  match type of Hv with _ ++ ?l = _ => rewrite <-(lookup_app_l _ l) by lia end. rewrite Hv, list_lookup_fmap, lookup_seq_lt by (unfold stop; lia). done.
Qed.
End short.

Lemma library_short nbuf MC MF sr sh dr ds ks ws before after st l n cc n0 ta td s tr score notes (q : Z) :
  let os := before ++ (create <$> ks) ++ ws ++ after : list (nop R R effect) in
  made sr MF ds ks → good_setup (dsp_process R_num (λ v, v) effect_run) nbuf MF sr sh dr (to_pop <$> os) → settled ks ws before after →
  unprocessed [] (to_pop <$> os) = [] →
  prun 0%R Rplus (dsp_process R_num (λ v, v) effect_run) sh dr (new_processor 0%R nbuf sr MC MF) (to_pop <$> os) = Ok (st, l) →
  let on := running false (sent (to_pop <$> before)) in
  let pos := frames_played false (to_pop <$> before) in
  let blocks := blocks_of MF sr on pos after in
  (n, DAdsr cc (requests adsr_sends n0 (score_calls sr ta td s tr score))) ∈ ds →
  (0 < ta)%R → (0 <= td)%R → (0 < tr)%R → (0 <= s <= 1)%R → (Z.of_nat sr * q = 2 ^ 32)%Z →
  concat score = marks notes → in_time pos score blocks → short_notes (ta * INR sr) s (tr * INR sr) 0 pos notes →
  Forall (λ m, exact_frame q (frame_of_mark m)) (marks notes) → exact_frame q (pos + length_of blocks) →
  ∃ (xs ys : id → stream R),
    (∀ ch i, ch < cc → i < length_of blocks →
       at_ (ys n ch) i = (at_ (xs n ch) i * short_value (ta * INR sr) s (tr * INR sr) 0 pos notes (pos + i))%R) ∧
    (∀ n d, (n, d) ∈ ds → performs sr blocks (λ name, events_of MF sr n name on pos after) d (xs n) (ys n)) ∧
    (∀ n d ch i, (n, d) ∈ ds → ch < device_inputs d → i < length_of blocks →
       at_ (xs n ch) i = mix_of (λ m c, at_ (ys m c) i) (at_ (input_stream 0%R MC (bool_decide (net_input ws = Some n)) on after ch) i) (connections_into n ws) ch) ∧
    (∀ o, net_output ws = Some o → o ∈ ds.*1 → heard_as 0%R MC on after (drop (callbacks before) l) (ys o)).
Proof.
  intros os Hm Hg Hse Hun E on pos blocks Hd Hta Htd Htr Hs Hq Hc Hin Hn Hex Hend.
  assert (Hz : (Z.of_nat sr <> 0)%Z) by (intros Hz; rewrite Hz in Hq; discriminate). assert (Hsr : 0 < sr) by lia.
  assert (Hr : ∀ f, exact_frame q f → reachable_frame sr f) by (intros f [H1 H2]; split; nia).
  destruct (library_notes nbuf MC MF sr sh dr ds ks ws before after st l n cc n0 ta td s tr score (marks notes) Hm Hg Hse Hun E Hd Hc Hin) as (played & xs & ys & P1 & P2 & P3 & P4).
  - by eapply short_order.
  - eapply Forall_impl; [exact Hex|]. intros m. apply Hr.
  - by apply Hr.
  - assert (played = marks notes) as ->.
    { clear -P1 Hex Hq. induction P1 as [|m p ms ps [A L] _ IH]; [done|]. apply Forall_cons in Hex as [[X1 X2] Hex]. rewrite IH by done. f_equal.
      destruct L as [_ L]. specialize (L q Hq X1). destruct m, p; cbn in *; by subst. }
    exists xs, ys. split; [|done]. intros ch i Hch Hi. rewrite (P3 ch i Hch Hi). f_equal. by apply short_heard.
Qed.
