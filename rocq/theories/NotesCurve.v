(** Notes of any length and distance in a network: the curves that are heard. *)
From stdpp Require Import gmap list list_numbers strings sorting.
From Coq Require Import ZArith Lia ZifyBool ZifyNat Reals Lra.
From Verif Require Import Base Graph GraphSpec TopoSort TopoSortSpec TopoSortProofs Buffer BufferSpec DspGraph DspGraphSpec Float Timestamp TimestampProofs EventProcessor EventProcessorSpec EventProcessorProofs Adsr AdsrSpec AdsrProofs AdsrCurve AdsrNote AdsrCutSpec AdsrCut
  EventChannel Sampler Recorder Processor ProcessorSpec AudioParam AudioParamR BiquadSpec Node NodeSpec NodeProofs NodeExamples LimitsSpec LimitsProofs
  Chain ChainSpec ChainProofs Effects EffectShape EffectsSpec EffectsProofs StreamSpec StreamProofs DeviceProofs LibraryProofs LibraryExamples NetSpec NetProofs NetLibrary MelodySpec ScoreProofs MelodyProofs NetMelody ProgramSpec AnyNotesSpec AnyNotes ShortNotes NotesCurveSpec AdsrCutSpec.
Local Open Scope nat_scope.

Section curve.
Context (sr : nat) (Hsr : 0 < sr) (ta td s tr : R) (d : nat).
Context (Hta : (0 < ta)%R) (Htd : (0 <= td)%R) (Htr : (0 < tr)%R) (Hs : (0 <= s <= 1)%R) (Hd : is_stage (td * INR sr) d).
Notation value := (notes_value (ta * INR sr) (td * INR sr) d s (tr * INR sr)).
Notation state ops := (env_run sr (new_env sr) ops).2.

Lemma held_values ops n m : Forall op_ok ops → tuned sr ta td s tr (state ops) → full_after (ta * INR sr) (level_after sr ops) n m →
  env_values sr (ops ++ AAct NoteOn :: replicate n AFrame) = env_values sr ops ++ (sounding (ta * INR sr) (td * INR sr) d s (level_after sr ops) m <$> seq 0 n).
Proof.
  intros Hok T [F1 F2]. destruct (decide (n ≤ m)) as [Hnm|Hnm].
  { rewrite (on_values sr Hsr ta td s tr Hta) by (done || (intros k Hk; apply F1; lia)). f_equal. apply list_fmap_ext. intros i k Hk. apply lookup_seq in Hk as [-> Hk].
    unfold sounding. by destruct (Nat.leb_spec (S (0 + i)) m); [|lia]. }
  destruct F2 as [M1 M2]; [lia|].
  pose proof (on_values sr Hsr ta td s tr Hta ops m Hok T (λ k Hk, F1 k Hk ltac:(lia))) as V.
  rewrite level_after_ok in *. unfold env_values in *. rewrite run_app in *. cbn [fst snd env_run] in *. apply app_inv_head in V. f_equal.
  destruct T as (T1 & T2 & T3 & _). set (e := state ops) in *. set (e1 := env_act sr e NoteOn) in *.
  assert (Hp : en_phase e1 = Attack) by (by destruct e). assert (Hlev : en_level e1 = en_level e) by (by destruct e).
  assert (Hc : en_attack e1 = attack_coefficient sr ta) by (unfold e1; rewrite <-T1; by destruct e).
  assert (Hsu : en_sustain e1 = s) by (unfold e1; rewrite <-T3; by destruct e).
  assert (Hde : en_decay e1 = decay_coefficient sr td s).
  { rewrite <-Hsu. unfold e1. rewrite <-T2. by destruct e. }
  assert (Hg : ∀ k, rises_from (en_level e) (ta * INR sr) k = Rmin 1 (glide attack_target (en_attack e1) (en_level e1) (S k))).
  { intros k. unfold rises_from, glide. rewrite Hc, Hlev. unfold attack_coefficient. rewrite coefficient_pow, attack_term by done. unfold attack_target. f_equal. rewrite Rmult_comm. lra. }
  assert (A : env_iter m e1 = with_level Decay 1 e1).
  { destruct m as [|m]; [lia|]. apply attack_done; [done| |].
    - intros j Hj. specialize (F1 (j - 1) ltac:(lia) ltac:(lia)). rewrite Hg in F1. replace (S (j - 1)) with j in F1 by lia. unfold Rmin in F1. destruct (Rle_dec 1 _); lra.
    - rewrite Hg in M2. replace (S (S m - 1)) with (S m) in M2 by lia. unfold Rmin in M2. destruct (Rle_dec 1 _); lra. }
  destruct (decay_stage sr Hsr td s d (with_level Decay 1 e1) Htd Hs Hd eq_refl eq_refl Hsu Hde) as [D1 D2].
  rewrite frames_iter in *. cbn [fst] in *.
  apply list_fmap_ext. intros i k Hk. apply lookup_seq in Hk as [-> Hk]. cbn [Nat.add]. unfold sounding. destruct (Nat.leb_spec (S i) m) as [Hi|Hi].
  - apply (f_equal (λ l, l !! i)) in V. rewrite !list_lookup_fmap, lookup_seq_lt in V by lia. by injection V.
  - replace (env_iter (S i) e1) with (env_iter (S i - m) (with_level Decay 1 e1)) by (rewrite <-A, <-iter_add; f_equal; lia).
    destruct (Nat.ltb_spec (S i - m) d); [apply D1; lia|]. by rewrite D2 by lia.
Qed.
Lemma curve_values notes : ∀ ops u g stop, Forall op_ok ops → tuned sr ta td s tr (state ops) → level_after sr ops = u →
  notes_ok (ta * INR sr) (td * INR sr) d s (tr * INR sr) u g notes → ends_before (frames_of_note <$> notes) stop →
  env_values sr (ops ++ AAct NoteOff :: tune g (frames_of_note <$> notes) stop) = env_values sr ops ++ (value u g notes <$> seq g (stop - g)).
Proof.
  induction notes as [|[f g' m] notes IH]; intros ops u g stop Hok T Hu Hn He.
  - cbn [fmap list_fmap tune]. rewrite (off_values sr Hsr ta td s tr Htr Hs) by done. f_equal. rewrite Hu. apply (seq_shift_fmap sr Hsr). intros i _. cbn [notes_value]. f_equal. lia.
  - destruct Hn as (N1 & N2 & N3 & N4). destruct He as [E1 E2]. cbn [fmap list_fmap frames_of_note n_on n_off tune].
    set (ops1 := ops ++ AAct NoteOff :: replicate (f - g) AFrame). set (ops2 := ops1 ++ AAct NoteOn :: replicate (g' - f) AFrame).
    replace (ops ++ AAct NoteOff :: replicate (f - g) AFrame ++ AAct NoteOn :: replicate (g' - f) AFrame ++ AAct NoteOff :: tune g' (frames_of_note <$> notes) stop)
      with (ops2 ++ AAct NoteOff :: tune g' (frames_of_note <$> notes) stop) by (unfold ops2, ops1; by repeat (rewrite <-app_assoc; cbn [app])).
    pose proof (off_values sr Hsr ta td s tr Htr Hs ops (f - g) Hok T) as V1. fold ops1 in V1. rewrite Hu in V1.
    assert (L1 : level_after sr ops1 = fallen s (tr * INR sr) u g f).
    { rewrite (level_grows sr _ _ _ _ V1), Hu. unfold fallen. destruct (Nat.eqb_spec (f - g) 0), (Nat.leb_spec f g); try lia; [done|]. f_equal. lia. }
    assert (O1 : Forall op_ok ops1) by (apply play_op_ok; auto). assert (T1 : tuned sr ta td s tr (state ops1)) by (apply play_tuned; auto).
    assert (V2 : env_values sr ops2 = env_values sr ops1 ++ (sounding (ta * INR sr) (td * INR sr) d s (level_after sr ops1) m <$> seq 0 (g' - f))).
    { unfold ops2. apply held_values; [done|done|]. by rewrite L1. }
    assert (L2 : level_after sr ops2 = sounding (ta * INR sr) (td * INR sr) d s (fallen s (tr * INR sr) u g f) m (g' - 1 - f)).
    { rewrite (level_grows sr _ _ _ _ V2), L1. destruct (Nat.eqb_spec (g' - f) 0); [lia|]. f_equal. lia. }
    cbn [n_off] in E1. change (list_fmap note (nat * nat)%type frames_of_note notes) with (frames_of_note <$> notes) in *.
    rewrite (IH ops2 (sounding (ta * INR sr) (td * INR sr) d s (fallen s (tr * INR sr) u g f) m (g' - 1 - f)) g' stop); [|by apply play_op_ok; auto|by apply play_tuned; auto|exact L2|done|done].
    rewrite V2, V1, L1, <-!app_assoc. f_equal.
    assert (Es : ∀ h : nat → R, h <$> seq g (stop - g) = (h <$> seq g (f - g)) ++ (h <$> seq f (g' - f)) ++ (h <$> seq g' (stop - g'))).
    { intros h. replace (stop - g) with ((f - g) + ((g' - f) + (stop - g'))) by lia. rewrite !seq_app, !fmap_app. replace (g + (f - g) + (g' - f)) with g' by lia. by replace (g + (f - g)) with f by lia. }
    rewrite Es. f_equal; [|f_equal].
    + apply (seq_shift_fmap sr Hsr). intros i Hi. cbn [notes_value]. destruct (Nat.ltb_spec (g + i) f); [|lia]. f_equal. lia.
    + apply (seq_shift_fmap sr Hsr). intros i Hi. cbn [notes_value]. destruct (Nat.ltb_spec (f + i) f); [lia|]. destruct (Nat.ltb_spec (f + i) g'); [|lia]. f_equal. lia.
    + apply list_fmap_ext. intros i k Hk. apply lookup_seq in Hk as [-> Hk]. cbn [notes_value]. destruct (Nat.ltb_spec (g' + i) f); [lia|]. by destruct (Nat.ltb_spec (g' + i) g'); [lia|].
Qed.
Lemma curve_order na nd nr notes : ∀ u g, notes_ok na nd d s nr u g notes → in_order g (marks (frames_of_note <$> notes)) ∧ ascending g (note_frames (frames_of_note <$> notes)).
Proof.
  induction notes as [|[f g' m] notes IH]; intros u g H; [done|]. destruct H as (H1 & H2 & _ & H3). destruct (IH _ _ H3) as [I1 I2].
  change (marks (frames_of_note <$> Note f g' m :: notes)) with (On f :: Off g' :: marks (frames_of_note <$> notes)). change (note_frames (frames_of_note <$> Note f g' m :: notes)) with (f :: g' :: note_frames (frames_of_note <$> notes)).
  split; cbn [in_order ascending frame_of_mark]; (split; [done|]); (split; [lia|done]).
Qed.
Lemma curve_heard pos N notes i : notes_ok (ta * INR sr) (td * INR sr) d s (tr * INR sr) 0%R pos notes → i < N →
  at_ (env_values sr (adsr_settings ta td s tr ++ notes_history pos (marks (frames_of_note <$> notes)) N)) i = value 0%R pos notes (pos + i).
Proof.
  intros Hn Hi. destruct (curve_order _ _ _ _ _ _ Hn) as [O1 O2]. rewrite history_spread, marks_actions by done.
  destruct (ends_some sr Hsr (frames_of_note <$> notes)) as (n & E1 & E2). set (stop := pos + N + S n).
  destruct (spread_prefix (note_actions (frames_of_note <$> notes)) pos N (stop - pos)) as [rest Hrest]; [unfold stop; lia|].
  rewrite (spread_tune (frames_of_note <$> notes) pos stop O2) in Hrest; [|eapply Forall_impl; [exact E2|]; unfold stop; cbn; lia|unfold stop; lia].
  set (ops := adsr_settings ta td s tr).
  assert (Hops : Forall op_ok ops) by (unfold ops, adsr_settings; do 4 (apply Forall_cons; split; [cbn; try done; lra|]); by apply Forall_nil).
  assert (T : tuned sr ta td s tr (state ops)) by (apply tuned_set).
  pose proof (curve_values notes ops 0%R pos stop Hops T eq_refl Hn (ends_more sr Hsr (frames_of_note <$> notes) n stop ltac:(unfold stop; lia) E1)) as Hv.
  change (env_values sr ops) with (@nil R) in Hv. cbn [app] in Hv.
  assert (Eo : env_values sr (ops ++ AAct NoteOff :: tune pos (frames_of_note <$> notes) stop) = env_values sr (ops ++ tune pos (frames_of_note <$> notes) stop)) by done.
  rewrite Eo, Hrest, app_assoc in Hv. unfold env_values in Hv. rewrite run_app in Hv. cbn [fst] in Hv. unfold at_.
  assert (Hl : length (env_values sr (ops ++ spread pos (note_actions (frames_of_note <$> notes)) N)) = N) by (unfold env_values; rewrite run_app; cbn [fst]; rewrite app_length, spread_length; done).
  fold (env_values sr (ops ++ spread pos (note_actions (frames_of_note <$> notes)) N)) in Hv.
  match type of Hv with _ ++ ?l = _ => rewrite <-(lookup_app_l _ l) by lia end. rewrite Hv, list_lookup_fmap, lookup_seq_lt by (unfold stop; lia). done.
Qed.
End curve.

Lemma library_curves nbuf MC MF sr sh dr ds ks ws before after st l n cc n0 ta td s tr d score notes (q : Z) :
  let os := before ++ (create <$> ks) ++ ws ++ after : list (nop R R effect) in
  made sr MF ds ks → good_setup (dsp_process R_num (λ v, v) effect_run) nbuf MF sr sh dr (to_pop <$> os) → settled ks ws before after →
  unprocessed [] (to_pop <$> os) = [] →
  prun 0%R Rplus (dsp_process R_num (λ v, v) effect_run) sh dr (new_processor 0%R nbuf sr MC MF) (to_pop <$> os) = Ok (st, l) →
  let on := running false (sent (to_pop <$> before)) in
  let pos := frames_played false (to_pop <$> before) in
  let blocks := blocks_of MF sr on pos after in
  (n, DAdsr cc (requests adsr_sends n0 (score_calls sr ta td s tr score))) ∈ ds →
  (0 < ta)%R → (0 <= td)%R → (0 < tr)%R → (0 <= s <= 1)%R → is_stage (td * INR sr) d → (Z.of_nat sr * q = 2 ^ 32)%Z →
  concat score = marks (frames_of_note <$> notes) → in_time pos score blocks → notes_ok (ta * INR sr) (td * INR sr) d s (tr * INR sr) 0 pos notes →
  Forall (λ m, exact_frame q (frame_of_mark m)) (marks (frames_of_note <$> notes)) → exact_frame q (pos + length_of blocks) →
  ∃ (xs ys : id → stream R),
    (∀ ch i, ch < cc → i < length_of blocks →
       at_ (ys n ch) i = (at_ (xs n ch) i * notes_value (ta * INR sr) (td * INR sr) d s (tr * INR sr) 0 pos notes (pos + i))%R) ∧
    (∀ n d, (n, d) ∈ ds → performs sr blocks (λ name, events_of MF sr n name on pos after) d (xs n) (ys n)) ∧
    (∀ n d ch i, (n, d) ∈ ds → ch < device_inputs d → i < length_of blocks →
       at_ (xs n ch) i = mix_of (λ m c, at_ (ys m c) i) (at_ (input_stream 0%R MC (bool_decide (net_input ws = Some n)) on after ch) i) (connections_into n ws) ch) ∧
    (∀ o, net_output ws = Some o → o ∈ ds.*1 → heard_as 0%R MC on after (drop (callbacks before) l) (ys o)).
Proof.
  intros os Hm Hg Hse Hun E on pos blocks Hd Hta Htd Htr Hs Hst Hq Hc Hin Hn Hex Hend.
  assert (Hz : (Z.of_nat sr <> 0)%Z) by (intros Hz; rewrite Hz in Hq; discriminate). assert (Hsr : 0 < sr) by lia.
  assert (Hr : ∀ f, exact_frame q f → reachable_frame sr f) by (intros f [H1 H2]; split; nia).
  destruct (library_notes nbuf MC MF sr sh dr ds ks ws before after st l n cc n0 ta td s tr score (marks (frames_of_note <$> notes)) Hm Hg Hse Hun E Hd Hc Hin) as (played & xs & ys & P1 & P2 & P3 & P4).
  - by eapply curve_order.
  - eapply Forall_impl; [exact Hex|]. intros m. apply Hr.
  - by apply Hr.
  - assert (played = marks (frames_of_note <$> notes)) as ->.
    { clear -P1 Hex Hq. revert P1 Hex. generalize (marks (frames_of_note <$> notes)). intros ms0 P1 Hex. induction P1 as [|m p ms ps [A L] _ IH]; [done|]. apply Forall_cons in Hex as [[X1 X2] Hex]. rewrite IH by done. f_equal.
      destruct L as [_ L]. specialize (L q Hq X1). destruct m, p; cbn in *; by subst. }
    exists xs, ys. split; [|done]. intros ch i Hch Hi. rewrite (P3 ch i Hch Hi). f_equal. by apply curve_heard.
Qed.

(** ** Every note reaches full level after some number of frames, or ends before *)
Lemma full_exists na v n : ∃ m, full_after na v n m.
Proof.
  assert (H : ∀ n, (∃ k, k < n ∧ rises_from v na k = 1%R ∧ ∀ j, j < k → (rises_from v na j < 1)%R) ∨ ∀ j, j < n → (rises_from v na j < 1)%R).
  { clear n. intros n. induction n as [|n [(k & H1 & H2)|H]]; [right; lia|left; exists k; split; [lia|done]|].
    destruct (Rlt_dec (rises_from v na n) 1) as [Hl|Hl].
    - right. intros j Hj. destruct (decide (j = n)) as [->|]; [done|]. apply H. lia.
    - left. exists n. split; [lia|]. split; [|done]. apply Rle_antisym; [apply Rmin_l|lra]. }
  destruct (H n) as [(k & H1 & H2 & H3)|Hn].
  - exists (S k). split; [intros j Hj _; apply H3; lia|]. intros _. split; [lia|]. by replace (S k - 1) with k by lia.
  - exists n. split; [intros j _ Hj; apply Hn; lia|lia].
Qed.
Lemma curves_apply na nd d s nr pairs : ∀ u g, in_order g (marks pairs) → Forall (λ p : nat * nat, p.1 < p.2) pairs →
  ∃ notes, frames_of_note <$> notes = pairs ∧ notes_ok na nd d s nr u g notes.
Proof.
  induction pairs as [|[f g'] pairs IH]; intros u g Ho Hl; [by exists []|]. change (marks ((f, g') :: pairs)) with (On f :: Off g' :: marks pairs) in Ho.
  destruct Ho as (O1 & O2 & O3). apply Forall_cons in Hl as [L1 L2]. cbn [frame_of_mark] in *. destruct (full_exists na (fallen s nr u g f) (g' - f)) as [m Hm].
  destruct (IH (sounding na nd d s (fallen s nr u g f) m (g' - 1 - f)) g' O3 L2) as (notes & <- & Hn). exists (Note f g' m :: notes). split; [done|]. by split.
Qed.
