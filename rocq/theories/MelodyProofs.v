(** From calls to notes: the ADSR node plays the melody that is asked for. *)
From stdpp Require Import list list_numbers sorting.
From Coq Require Import ZArith Reals Lra Lia ZifyBool ZifyNat.
From Verif Require Import Base Float Timestamp TimestampProofs EventProcessor EventProcessorSpec EventProcessorProofs ProcessorSpec BiquadSpec
  Adsr AdsrSpec AdsrProofs AdsrCurve AdsrNote EventChannel StreamSpec MelodySpec ScoreProofs.
Local Open Scope nat_scope.

(** ** Actions on frames *)
Fixpoint spread (pos : nat) (l : list (nat * adsr_action)) (n : nat) : list adsr_op :=
  match l with
  | [] => replicate n AFrame
  | (g, a) :: l => if g <? pos + n then replicate (g - pos) AFrame ++ AAct a :: spread g l (n - (g - pos)) else replicate n AFrame
  end.
Lemma spread_prefix l : ∀ pos n n', n ≤ n' → spread pos l n `prefix_of` spread pos l n'.
Proof.
  induction l as [|[g a] l IH]; intros pos n n' Hn; cbn [spread].
  - exists (replicate (n' - n) AFrame). rewrite <-replicate_add. f_equal. lia.
  - destruct (Nat.ltb_spec g (pos + n)), (Nat.ltb_spec g (pos + n')); try lia.
    + apply prefix_app, prefix_cons, IH. lia.
    + exists (replicate (g - pos - n) AFrame ++ AAct a :: spread g l (n' - (g - pos))). rewrite app_assoc, <-replicate_add. do 2 f_equal. lia.
    + exists (replicate (n' - n) AFrame). rewrite <-replicate_add. f_equal. lia.
Qed.
(** one block *)
Lemma block_spread sr start fc pos (d : list (event adsr_action)) : StronglySorted (λ a b, frame_of sr start a ≤ frame_of sr start b) d →
  Forall (λ e, frame_of sr start e < fc) d →
  block_history sr start fc d = spread pos ((λ e, (pos + frame_of sr start e, ev_data e)) <$> d) fc.
Proof.
  intros Hs Hf. assert (H : ∀ d from, StronglySorted (λ a b, frame_of sr start a ≤ frame_of sr start b) d → Forall (λ e, frame_of sr start e < fc) d →
    Forall (λ e, from ≤ frame_of sr start e) d → from ≤ fc →
    history_from sr start fc from d = spread (pos + from) ((λ e, (pos + frame_of sr start e, ev_data e)) <$> d) (fc - from)).
  { clear Hs Hf d. intros d. induction d as [|e d IH]; intros from Hs Hf Hfrom Hle; cbn [fmap list_fmap spread].
    - rewrite (history_skip sr start fc from fc) by (done || constructor). unfold history_from. rewrite Nat.sub_diag. cbn [seq mbind list_bind]. by rewrite app_nil_r.
    - inversion Hs as [|?? Hs1 Hs2]; subst. apply Forall_cons in Hf as [Hf1 Hf2]. apply Forall_cons in Hfrom as [Hr1 Hr2].
      rewrite (history_skip sr start fc from (frame_of sr start e)) by (lia || (by constructor)).
      rewrite history_event by done. destruct (Nat.ltb_spec (pos + frame_of sr start e) (pos + from + (fc - from))); [|lia].
      f_equal; [f_equal; lia|]. f_equal. rewrite IH; [|done|done|done|lia]. f_equal. lia. }
  specialize (H d 0 Hs Hf). rewrite Nat.add_0_r, Nat.sub_0_r in H. rewrite <-H; [|apply Forall_forall; lia|lia]. unfold block_history, history_from. by rewrite Nat.sub_0_r.
Qed.

Definition op_of (x : option (nat * event adsr_action)) : adsr_op := match x with Some (_, e) => AAct (ev_data e) | None => AFrame end.
Lemma spread_cast l : ∀ pos n, spread pos ((λ ge : nat * event adsr_action, (ge.1, ev_data ge.2)) <$> l) n = op_of <$> cast pos l n.
Proof.
  induction l as [|[g e] l IH]; intros pos n; cbn [fmap list_fmap spread cast fst snd]; [by rewrite fmap_replicate|]. destruct (g <? pos + n); [|by rewrite fmap_replicate].
  change (list_fmap _ _ op_of) with (fmap (M := list) op_of). rewrite fmap_app, fmap_replicate. cbn [fmap list_fmap]. do 2 f_equal. apply IH.
Qed.
Lemma arrives_taken sr blocks : ∀ waiting inbox ds, arrives sr waiting inbox blocks ds → taken sr waiting inbox blocks ds.
Proof. induction blocks as [|[t fc] blocks IH]; intros waiting inbox [|d ds] H; try done. destruct H as (rest & H1 & H2). exists rest. split; [done|]. by apply IH. Qed.
Lemma play_ops sr (Hsr : (0 < Z.of_nat sr <= 2 ^ 29)%Z) pos blocks inbox ds : stream_blocks sr pos blocks → Forall (λ b : timestamp * nat, block_ok sr b.2) blocks →
  reachable_frame sr (pos + length_of blocks) → arrives sr [] inbox blocks ds → StronglySorted comes_first (concat inbox) → inbox_due sr pos pos inbox blocks →
  ∃ gs, Forall2 (landed sr pos) (concat inbox) gs ∧ ascending pos gs ∧
    concat (zip_with (λ b d, block_history sr b.1 b.2 d) blocks ds) = spread pos (zip gs (ev_data <$> concat inbox)) (length_of blocks).
Proof.
  intros Hb Hok Hr Har Hs Hd. destruct (play sr Hsr pos blocks pos [] [] inbox ds Hb Hok Hr (arrives_taken sr blocks [] inbox ds Har)) as (gs & G1 & G2 & G3 & G4); [done|done|constructor|done|done|].
  exists gs. split; [done|]. split; [done|]. rewrite app_nil_l in *.
  assert (Ez : zip gs (ev_data <$> concat inbox) = (λ ge : nat * event adsr_action, (ge.1, ev_data ge.2)) <$> zip gs (concat inbox)).
  { clear. revert gs. induction (concat inbox) as [|e l IH]; intros [|g gs]; try done. cbn. f_equal. apply IH. }
  rewrite Ez, spread_cast, <-G4. clear -G3. revert ds G3. generalize pos at 2 3. induction blocks as [|[t fc] blocks IH]; intros p ds G3; destruct ds as [|d ds]; try done; try by destruct G3.
  destruct G3 as (M1 & M2 & _ & M3). cbn [zip_with casts concat fst snd]. rewrite fmap_app, <-(IH (p + fc) ds M3). f_equal.
  rewrite (block_spread sr t fc p d M1 M2), <-spread_cast. f_equal. rewrite <-list_fmap_compose. done.
Qed.

(** ** The envelope through a melody *)
Fixpoint tune (pos : nat) (played : list (nat * nat)) (stop : nat) : list adsr_op :=
  match played with
  | [] => replicate (stop - pos) AFrame
  | (g, h) :: played => replicate (g - pos) AFrame ++ AAct NoteOn :: replicate (h - g) AFrame ++ AAct NoteOff :: tune h played stop
  end.
Section tune.
Context (sr : nat) (Hsr : 0 < sr) (ta td s tr : R) (a d r : nat).
Context (Hta : (0 <= ta)%R) (Htd : (0 <= td)%R) (Htr : (0 <= tr)%R) (Hs : (0 <= s <= 1)%R).
Context (Ha : is_stage (ta * INR sr) a) (Hd : is_stage (td * INR sr) d) (Hr : is_stage (tr * INR sr) r).
Notation value := (melody_value (ta * INR sr) a (td * INR sr) d s (tr * INR sr) r).
Fixpoint played_ok (pos : nat) (played : list (nat * nat)) (stop : nat) : Prop :=
  match played with
  | [] => pos ≤ stop
  | (g, h) :: played => pos ≤ g ∧ g + a + d ≤ h ∧ played_ok (match played with [] => h | _ => h + r end) played stop
  end.
Definition tuned (e : env) : Prop :=
  env_act sr e (SetAttack ta) = e ∧ env_act sr e (SetDecay td) = e ∧ env_act sr e (SetSustain s) = e ∧ env_act sr e (SetRelease tr) = e.
Lemma tuned_set e : tuned (env_act sr (env_act sr (env_act sr (env_act sr e (SetAttack ta)) (SetDecay td)) (SetSustain s)) (SetRelease tr)).
Proof. by destruct e. Qed.
Lemma tuned_note e : tuned e → tuned (env_act sr e NoteOn) ∧ tuned (env_act sr e NoteOff) ∧ tuned (env_process e).
Proof.
  destruct e as [p l ca cd s0 cr dt rt]. intros (H1 & H2 & H3 & H4). cbn in H1, H2, H3, H4. injection H1 as H1. injection H2 as H2 H2'. injection H3 as H3 H3' H3''. injection H4 as H4 H4'.
  subst. split; [|split]; [done|done|]. unfold tuned, env_process. destruct p; done.
Qed.
Lemma tuned_run ops : Forall (λ o, o = AFrame ∨ o = AAct NoteOn ∨ o = AAct NoteOff) ops → ∀ e, tuned e → tuned (env_run sr e ops).2.
Proof.
  induction 1 as [|o ops Ho _ IH]; intros e He; [done|]. pose proof (tuned_note e He) as (T1 & T2 & T3). destruct Ho as [->|[->| ->]]; cbn [env_run].
  - specialize (IH (env_process e) T3). by destruct (env_run sr (env_process e) ops).
  - by apply IH.
  - by apply IH.
Qed.
Lemma bare_note e n m : tuned e → env_run sr e (note_ops ta td s tr n m) = env_run sr e (AAct NoteOn :: replicate n AFrame ++ AAct NoteOff :: replicate m AFrame).
Proof. intros (H1 & H2 & H3 & H4). unfold note_ops. cbn [app env_run]. by rewrite H1, H2, H3, H4. Qed.
Definition resting (e : env) : Prop := en_phase e = Idle ∧ en_level e = 0%R ∧ tuned e ∧ env_inv sr e.
Lemma resting_frames e n : resting e → env_run sr e (replicate n AFrame) = (replicate n 0%R, e).
Proof.
  intros (H1 & H2 & _). assert (E : env_process e = e) by (destruct e; cbn in *; by subst). induction n as [|n IH]; [done|]. cbn [replicate env_run]. by rewrite E, IH, H2.
Qed.
Definition next_of (played : list (nat * nat)) (stop : nat) : nat := match played with [] => stop | (g, _) :: _ => g end.
Lemma tune_next played h stop : h ≤ next_of played stop → tune h played stop = replicate (next_of played stop - h) AFrame ++ tune (next_of played stop) played stop.
Proof.
  intros H. destruct played as [|[g' h'] played]; cbn [tune next_of] in *; rewrite Nat.sub_diag; cbn [replicate app]; [by rewrite app_nil_r|done].
Qed.
Lemma value_late v played k : Forall (λ gh : nat * nat, k < gh.1) played →
  foldl (λ v '(f, g), if k <? f then v else if k <? g then held_value (ta * INR sr) a (td * INR sr) d s (k - f) else released_value (tr * INR sr) r s (k - g)) v played = v.
Proof. revert v. induction played as [|[g h] played IH]; intros v H; [done|]. apply Forall_cons in H as [H1 H2]. cbn [foldl]. cbn in H1. destruct (Nat.ltb_spec k g); [|lia]. by apply IH. Qed.
Lemma played_ge played : ∀ pos stop, played_ok pos played stop → pos ≤ stop ∧ Forall (λ gh : nat * nat, pos ≤ gh.1) played.
Proof.
  induction played as [|[g h] played IH]; intros pos stop H; [by split; [|constructor]|]. destruct H as (H1 & H2 & H3). destruct (IH _ _ H3) as [I1 I2].
  split; [destruct played; lia|]. constructor; [done|]. eapply Forall_impl; [exact I2|]. cbn. destruct played; lia.
Qed.
Lemma tune_values played : ∀ pos stop e, resting e → played_ok pos played stop → (env_run sr e (tune pos played stop)).1 = value played <$> seq pos (stop - pos).
Proof.
  induction played as [|[g h] played IH]; intros pos stop e He Hp.
  - cbn [tune]. rewrite resting_frames by done. cbn [fst]. unfold melody_value. cbn [foldl]. generalize (stop - pos) as n. clear Hp. revert pos. intros q n. revert q. induction n as [|n IHn]; intros q; [done|]. cbn. f_equal. apply IHn.
  - destruct Hp as (P1 & P2 & P3). pose proof (played_ge _ _ _ P3) as [P4 P5]. set (nx := next_of played stop).
    assert (Hnx : h ≤ nx ∧ nx ≤ stop ∧ (played ≠ [] → h + r ≤ nx)).
    { unfold nx. destruct played as [|[g' h'] played]; cbn [next_of]; [by split; [lia|split; [lia|]]|]. destruct P3 as (Q1 & Q2 & Q3). apply played_ge in Q3 as [Q3 _]. destruct played; repeat split; lia. }
    destruct Hnx as (N1 & N2 & N3). cbn [tune]. rewrite (tune_next played h stop N1). fold nx.
    replace (AAct NoteOn :: replicate (h - g) AFrame ++ AAct NoteOff :: replicate (nx - h) AFrame ++ tune nx played stop)
      with ((AAct NoteOn :: replicate (h - g) AFrame ++ AAct NoteOff :: replicate (nx - h) AFrame) ++ tune nx played stop) by (cbn [app]; by rewrite <-app_assoc).
    rewrite run_app, resting_frames by done. cbn [fst snd]. rewrite run_app, <-bare_note by apply He. cbn [fst snd].
    assert (Hpl : a + d ≤ h - g) by lia.
    destruct (note_ok sr Hsr ta td s tr a d r (h - g) (nx - h) e Hta Htd Htr Hs Ha Hd Hr Hpl (proj1 He) (proj1 (proj2 He))) as [V1 V2]. rewrite V1.
    set (e2 := (env_run sr e (note_ops ta td s tr (h - g) (nx - h))).2) in *.
    assert (Hrest : (env_run sr e2 (tune nx played stop)).1 = value played <$> seq nx (stop - nx)).
    { destruct played as [|gh played].
      - cbn [tune]. unfold nx at 2 3. cbn [next_of]. rewrite Nat.sub_diag. unfold nx. cbn [next_of]. by rewrite Nat.sub_diag.
      - apply IH.
        + assert (Hop : Forall op_ok (note_ops ta td s tr (h - g) (nx - h))).
          { unfold note_ops. apply Forall_app. split; [by repeat (constructor; [done|])|]. apply Forall_app. split; [by apply Forall_replicate|]. constructor; [done|by apply Forall_replicate]. }
          destruct (inv_run sr Hsr (note_ops ta td s tr (h - g) (nx - h)) e (proj2 (proj2 (proj2 He))) Hop) as [_ Hi]. fold e2 in Hi.
          assert (Hidle : en_phase e2 = Idle) by (apply V2; specialize (N3 ltac:(done)); lia).
          split; [done|]. split; [destruct Hi as (_ & _ & _ & _ & _ & Hi); by apply Hi|]. split; [|done].
          unfold e2. rewrite bare_note by apply He. apply tuned_run; [|apply He]. constructor; [by right; left|]. apply Forall_app. split; [apply Forall_replicate; by left|].
          constructor; [by right; right|]. apply Forall_replicate. by left.
        + unfold nx. destruct gh as [g' h']. cbn [next_of]. destruct P3 as (Q1 & Q2 & Q3). by split. }
    rewrite Hrest. replace (stop - pos) with ((g - pos) + ((h - g) + ((nx - h) + (stop - nx)))) by lia. rewrite !seq_app, !fmap_app, <-!app_assoc.
    replace (pos + (g - pos)) with g by lia. replace (g + (h - g)) with h by lia. replace (h + (nx - h)) with nx by lia.
    assert (Hlt : ∀ k, k < nx → k < stop → Forall (λ gh : nat * nat, k < gh.1) played).
    { intros k Hk Hks. unfold nx in Hk. destruct played as [|[g' h'] played]; [constructor|]. cbn [next_of] in Hk. destruct P3 as (Q1 & Q2 & Q3). apply played_ge in Q3 as [_ Q3].
      constructor; [done|]. eapply Forall_impl; [exact Q3|]. cbn. destruct played; lia. }
    f_equal; [|f_equal; [|f_equal]].
    + symmetry. apply list_eq. intros i. rewrite list_lookup_fmap. destruct (decide (i < g - pos)) as [Hi|Hi].
      * rewrite lookup_seq_lt, lookup_replicate_2 by done. cbn [fmap option_fmap option_map]. f_equal. unfold melody_value. cbn [foldl]. destruct (Nat.ltb_spec (pos + i) g); [|lia]. apply value_late, Hlt; lia.
      * rewrite lookup_seq_ge by lia. symmetry. apply lookup_replicate_None. lia.
    + apply list_eq. intros i. rewrite !list_lookup_fmap. destruct (decide (i < h - g)) as [Hi|Hi]; [|by rewrite !lookup_seq_ge by lia].
      rewrite !lookup_seq_lt by done. cbn [fmap option_fmap option_map]. f_equal. unfold melody_value. cbn [foldl]. destruct (Nat.ltb_spec (g + i) g); [lia|]. destruct (Nat.ltb_spec (g + i) h); [|lia].
      rewrite value_late by (apply Hlt; lia). f_equal. lia.
    + apply list_eq. intros i. rewrite !list_lookup_fmap. destruct (decide (i < nx - h)) as [Hi|Hi]; [|by rewrite !lookup_seq_ge by lia].
      rewrite !lookup_seq_lt by done. cbn [fmap option_fmap option_map]. f_equal. unfold melody_value. cbn [foldl]. destruct (Nat.ltb_spec (h + i) g); [lia|]. destruct (Nat.ltb_spec (h + i) h); [lia|].
      rewrite value_late by (apply Hlt; lia). f_equal. lia.
    + apply list_fmap_ext. intros i k Hk. apply lookup_seq in Hk as [-> Hk]. unfold melody_value. cbn [foldl]. destruct played as [|[g' h'] played]; [unfold nx in Hk; cbn [next_of] in Hk; lia|].
      cbn [foldl]. unfold nx. cbn [next_of]. destruct (Nat.ltb_spec (g' + i) g'); [lia|done].
Qed.
End tune.

(** ** From requests to frames *)
Definition mark_action (m : mark) : adsr_action := match m with On _ => NoteOn | Off _ => NoteOff end.
Definition timed (sr : nat) (m : mark) : timestamp * adsr_action := (time_of sr (frame_of_mark m), mark_action m).
Definition settings (ta td s tr : R) : list (timestamp * adsr_action) := [(0%Z, SetAttack ta); (0%Z, SetDecay td); (0%Z, SetSustain s); (0%Z, SetRelease tr)].
Definition as_event (x : timestamp * adsr_action) : nat → event adsr_action := adsr_event x.1 x.2.
Lemma sends_marks sr ms : (call_of sr <$> ms) ≫= adsr_sends = (λ m, as_event (timed sr m)) <$> ms.
Proof. induction ms as [|m ms IH]; [done|]. cbn [fmap list_fmap mbind list_bind]. change (list_bind _ _ adsr_sends) with (mbind (M := list) adsr_sends). change (list_fmap _ _ (call_of sr) ms) with (call_of sr <$> ms). rewrite IH. by destruct m. Qed.
Lemma score_concat sr ta td s tr score : concat (score_calls sr ta td s tr score) ≫= adsr_sends = as_event <$> (settings ta td s tr ++ (timed sr <$> concat score)).
Proof.
  assert (H : ∀ sc : list (list mark), concat ((λ ms : list mark, call_of sr <$> ms) <$> sc) = call_of sr <$> concat sc).
  { intros sc. induction sc as [|ms sc IH]; [done|]. cbn [fmap list_fmap concat]. rewrite fmap_app. f_equal. exact IH. }
  rewrite fmap_app, <-list_fmap_compose. change (as_event ∘ timed sr) with (λ m, as_event (timed sr m)). rewrite <-sends_marks.
  destruct score as [|ms score]; [done|]. cbn [score_calls]. change (ASetAdsr ta td s tr :: (call_of sr <$> ms)) with ([ASetAdsr ta td s tr] ++ (call_of sr <$> ms)). rewrite !concat_cons, H, fmap_app, !bind_app, <-app_assoc. done.
Qed.
Lemma events_sorted l : StronglySorted (λ x y : timestamp * adsr_action, (x.1 <= y.1)%Z) l → ∀ n, StronglySorted comes_first (number n (as_event <$> l)).
Proof.
  induction 1 as [|x l Hs IH Hx]; intros n; [constructor|]. change (as_event <$> x :: l) with ([as_event x] ++ (as_event <$> l)). rewrite number_app. cbn [number imap app].
  constructor; [apply IH|]. apply Forall_lookup. intros i e He. cbn [length] in He. unfold number in He. rewrite list_lookup_imap, list_lookup_fmap in He.
  apply fmap_Some in He as (f & Hf & ->). apply fmap_Some in Hf as (y & Hy & ->). rewrite Forall_lookup in Hx. specialize (Hx i y Hy). split; cbn; [done|lia].
Qed.
Lemma events_data l : ∀ n, ev_data <$> number n (as_event <$> l) = l.*2.
Proof.
  induction l as [|x l IH]; intros n; [done|]. change (as_event <$> x :: l) with ([as_event x] ++ (as_event <$> l)). rewrite number_app, fmap_app, IH. done.
Qed.
Lemma in_time_ge score : ∀ pos blocks, in_time pos score blocks → Forall (λ m, pos ≤ frame_of_mark m) (concat score).
Proof.
  induction score as [|ms score IH]; intros pos blocks H; [constructor|]. cbn [concat]. destruct blocks as [|[t fc] blocks]; destruct H as [H1 H2]; apply Forall_app; (split; [done|]).
  - by eapply IH.
  - eapply Forall_impl; [by eapply IH|]. cbn. lia.
Qed.
Lemma spaced_sorted a b notes : spaced a b notes → StronglySorted (λ x y, frame_of_mark x ≤ frame_of_mark y) (marks notes).
Proof.
  assert (H : ∀ notes, spaced a b notes → StronglySorted (λ x y, frame_of_mark x ≤ frame_of_mark y) (marks notes) ∧ ∀ f g l, notes = (f, g) :: l → Forall (λ m, f ≤ frame_of_mark m) (marks notes)).
  { clear notes. intros notes. induction notes as [|[f g] notes IH]; intros H; [by split; [constructor|]|]. destruct H as (H1 & H2 & H3). destruct (IH H3) as [I1 I2].
    change (marks ((f, g) :: notes)) with (On f :: Off g :: marks notes).
    assert (Hg : Forall (λ m, g ≤ frame_of_mark m) (marks notes)).
    { destruct notes as [|[f' g'] l]; [constructor|]. eapply Forall_impl; [by eapply I2|]. cbn. lia. }
    assert (Hf : Forall (λ m, f ≤ frame_of_mark m) (Off g :: marks notes)).
    { constructor; [cbn; lia|]. eapply Forall_impl; [exact Hg|]. cbn. lia. }
    split.
    - constructor; [|done]. by constructor.
    - intros f0 g0 l E. injection E as <- <- <-. constructor; [done|exact Hf]. }
  intros Hn. by apply H.
Qed.

(** ** The notes that are played *)
Definition note_frames (played : list (nat * nat)) : list nat := '(g, h) ← played; [g; h].
Definition note_actions (played : list (nat * nat)) : list (nat * adsr_action) := '(g, h) ← played; [(g, NoteOn); (h, NoteOff)].
Lemma note_zip played notes : length played = length notes → zip (note_frames played) (mark_action <$> marks notes) = note_actions played.
Proof. revert notes. induction played as [|[g h] played IH]; intros [|[f f'] notes] H; try done. cbn. do 2 f_equal. apply IH. by injection H. Qed.
Lemma ascending_notes gs : ∀ pos pos', pos' ≤ pos → ascending pos gs → ascending pos' gs.
Proof. destruct gs as [|g gs]; intros pos pos' H1 H2; [done|]. destruct H2. split; [lia|done]. Qed.
Lemma spread_tune played : ∀ pos stop, ascending pos (note_frames played) → Forall (λ gh : nat * nat, gh.2 < stop) played → pos ≤ stop →
  spread pos (note_actions played) (stop - pos) = tune pos played stop.
Proof.
  induction played as [|[g h] played IH]; intros pos stop Ha Hs Hp; [done|]. change (note_actions ((g, h) :: played)) with ((g, NoteOn) :: (h, NoteOff) :: note_actions played).
  destruct Ha as (A1 & A2 & A3). apply Forall_cons in Hs as [S1 S2]. cbn [snd] in S1. cbn [spread tune]. destruct (Nat.ltb_spec g (pos + (stop - pos))); [|lia].
  destruct (Nat.ltb_spec h (g + (stop - pos - (g - pos)))); [|lia]. do 2 f_equal. do 3 f_equal. rewrite <-(IH h stop A3 S2) by lia. f_equal. lia.
Qed.
Lemma spread_length sr l : ∀ pos n e, length (env_run sr e (spread pos l n)).1 = n.
Proof.
  assert (H : ∀ n e, length (env_run sr e (replicate n AFrame)).1 = n).
  { induction n as [|n IH]; intros e; [done|]. cbn [replicate env_run]. specialize (IH (env_process e)). destruct (env_run sr (env_process e) (replicate n AFrame)). cbn in *. by rewrite IH. }
  induction l as [|[g a] l IH]; intros pos n e; cbn [spread]; [apply H|]. destruct (Nat.ltb_spec g (pos + n)); [|apply H]. rewrite run_app. cbn [fst env_run]. rewrite app_length, H, IH. lia.
Qed.
Section melody.
Context (sr : nat) (Hsr : (0 < Z.of_nat sr <= 2 ^ 29)%Z) (ta td s tr : R) (a d r : nat).
Context (Hta : (0 <= ta)%R) (Htd : (0 <= td)%R) (Htr : (0 <= tr)%R) (Hs : (0 <= s <= 1)%R).
Context (Ha : is_stage (ta * INR sr) a) (Hd : is_stage (td * INR sr) d) (Hr : is_stage (tr * INR sr) r).
Notation value := (melody_value (ta * INR sr) a (td * INR sr) d s (tr * INR sr) r).
Definition played_as (note played : nat * nat) : Prop := lands sr note.1 played.1 ∧ lands sr note.2 played.2.
Lemma played_fits notes : ∀ played pos stop, Forall2 played_as notes played → spaced (a + d) r notes → ascending pos (note_frames played) → Forall (λ gh : nat * nat, gh.2 < stop) played →
  pos ≤ stop → played_ok a d r pos played stop.
Proof.
  induction notes as [|[f g] notes IH]; intros played pos stop H2 Hsp Has Hst Hp; inversion H2 as [|? [f' g'] ? played' [L1 L2] H2']; subst; [done|].
  cbn [fst snd] in *. destruct Hsp as (S1 & S2 & S3). destruct Has as (A1 & A2 & A3). apply Forall_cons in Hst as [T1 T2]. cbn [snd] in T1. cbn [played_ok].
  destruct L1 as [L1 _]. destruct L2 as [L2 _]. split; [done|]. split; [lia|].
  destruct H2' as [|[n1 n2] [p1 p2] notes played [M1 M2] H2']; [cbn; lia|]. cbn [fst snd] in *. pose proof (proj1 M1) as M3. apply IH; [by constructor; [split|]|done| |done|].
  - destruct A3 as [A3 A4]. split; [lia|done].
  - apply Forall_cons in T2 as [T2 _]. cbn [snd] in T2. destruct A3 as (A3 & A4 & _). lia.
Qed.
Lemma settings_rest : resting sr ta td s tr (env_act sr (env_act sr (env_act sr (env_act sr (new_env sr) (SetAttack ta)) (SetDecay td)) (SetSustain s)) (SetRelease tr)).
Proof.
  assert (H0 : 0 < sr) by lia. split; [done|]. split; [done|]. split; [apply tuned_set|].
  do 4 (apply inv_act; [done| |done]). by apply inv_new.
Qed.
Lemma melody_heard pos blocks n0 score notes ds : stream_blocks sr pos blocks → Forall (λ b : timestamp * nat, block_ok sr b.2) blocks → reachable_frame sr (pos + length_of blocks) →
  concat score = marks notes → in_time pos score blocks → spaced (a + d) r notes → Forall (λ fg : nat * nat, reachable_frame sr fg.1 ∧ reachable_frame sr fg.2) notes →
  arrives sr [] (requests adsr_sends n0 (score_calls sr ta td s tr score)) blocks ds →
  ∃ played, Forall2 played_as notes played ∧
    ∀ i, i < length_of blocks → at_ (env_values sr (concat (zip_with (λ b d, block_history sr b.1 b.2 d) blocks ds))) i = value played (pos + i).
Proof.
  intros Hb Hok Hre Hc Hin Hsp Hrf Har. assert (H0 : 0 < sr) by lia.
  assert (Hrm : Forall (λ m, reachable_frame sr (frame_of_mark m)) (marks notes)).
  { clear -Hrf. induction Hrf as [|[f g] notes [H1 H2] _ IH]; [constructor|]. change (marks ((f, g) :: notes)) with (On f :: Off g :: marks notes). by do 2 (constructor; [done|]). }
  assert (Hge : Forall (λ m, pos ≤ frame_of_mark m) (marks notes)) by (rewrite <-Hc; by eapply in_time_ge).
  set (inbox := requests adsr_sends n0 (score_calls sr ta td s tr score)) in *.
  assert (Hcat : concat inbox = number n0 (as_event <$> (settings ta td s tr ++ (timed sr <$> marks notes)))) by (unfold inbox; by rewrite requests_concat, score_concat, Hc).
  destruct (play_ops sr Hsr pos blocks inbox ds Hb Hok Hre Har) as (gs & G1 & G2 & G3).
  { rewrite Hcat. apply events_sorted.
    assert (Hsm : StronglySorted (λ x y : timestamp * adsr_action, (x.1 <= y.1)%Z) (timed sr <$> marks notes)).
    { pose proof (spaced_sorted _ _ _ Hsp) as H. clear -H Hrm Hsr. induction H as [|m ms Hs IH Hm]; [constructor|]. apply Forall_cons in Hrm as [R1 R2]. cbn [fmap list_fmap]. constructor; [by apply IH|].
      apply Forall_fmap. apply Forall_forall. intros m' Hm'. change (time_of sr (frame_of_mark m) <= time_of sr (frame_of_mark m'))%Z. rewrite Forall_forall in Hm. specialize (Hm m' Hm'). rewrite !time_frame. destruct R1.
      destruct (decide (frame_of_mark m = frame_of_mark m')) as [->|]; [lia|]. rewrite Forall_forall in R2. destruct (R2 m' Hm').
      pose proof (frame_time_strict (Z.of_nat (frame_of_mark m)) (Z.of_nat (frame_of_mark m')) (Z.of_nat sr) ltac:(lia) ltac:(lia) ltac:(lia)). lia. }
    assert (Hpos : Forall (λ x : timestamp * adsr_action, (0 <= x.1)%Z) (timed sr <$> marks notes)).
    { apply Forall_fmap. eapply Forall_impl; [exact Hrm|]. intros m Hm. cbn [timed fst compose]. cbn. by apply (time_nonneg sr Hsr). }
    unfold settings. cbn [app]. do 4 (constructor; [|repeat (constructor; [done|]); exact Hpos]). exact Hsm. }
  { assert (Hq : ∀ sc n p bl, in_time p sc bl → pos ≤ p → Forall (λ m, reachable_frame sr (frame_of_mark m)) (concat sc) →
      inbox_due sr pos p (requests adsr_sends n ((λ ms : list mark, call_of sr <$> ms) <$> sc)) bl).
    { assert (Hone : ∀ ms n p, Forall (λ m, p ≤ frame_of_mark m) ms → pos ≤ p → Forall (λ m, reachable_frame sr (frame_of_mark m)) ms → Forall (due sr pos p) (number n ((call_of sr <$> ms) ≫= adsr_sends))).
      { intros ms n p M1 M2 M3. rewrite sends_marks. apply number_Forall, Forall_fmap, Forall_forall. intros m Hm k. rewrite Forall_forall in M1, M3.
        right. exists (frame_of_mark m). split; [done|]. split; [by apply M3|]. specialize (M1 m Hm). lia. }
      intros sc. induction sc as [|ms sc IH]; intros n p bl I1 I2 I3; [done|]. cbn [concat] in I3. apply Forall_app in I3 as [I3 I4]. cbn [fmap list_fmap requests].
      destruct bl as [|[t fc] bl]; destruct I1 as [I1 I5]; (split; [by apply Hone|]); apply IH; try done; lia. }
    unfold inbox. destruct score as [|ms score].
    - destruct blocks as [|[t fc] blocks]; split; try done; by repeat (constructor; [by left|]).
    - cbn [score_calls requests mbind list_bind]. rewrite <-Hc in Hrm. cbn [concat] in Hrm. apply Forall_app in Hrm as [Hr1 Hr2].
      assert (Hf : Forall (due sr pos pos) (number n0 ((call_of sr <$> ms) ≫= adsr_sends)) → True) by done. clear Hf.
      assert (Hfirst : in_time pos [ms] [] → Forall (due sr pos pos) (number n0 (adsr_sends (ASetAdsr ta td s tr) ++ ((call_of sr <$> ms) ≫= adsr_sends)))).
      { intros [M1 _]. rewrite number_app. apply Forall_app. split; [by repeat (constructor; [by left|])|]. rewrite sends_marks. apply number_Forall, Forall_fmap, Forall_forall. intros m Hm k.
        rewrite Forall_forall in M1, Hr1. right. exists (frame_of_mark m). split; [done|]. split; [by apply Hr1|]. specialize (M1 m Hm). lia. }
      destruct blocks as [|[t fc] blocks]; destruct Hin as [I1 I2]; (split; [by apply Hfirst|]); apply Hq; try done; lia. }
  rewrite Hcat in *. rewrite events_data in G3. rewrite fmap_app, number_app in G1. apply Forall2_app_inv_l in G1 as (gs1 & gs2 & F1 & F2 & ->).
  assert (E1 : gs1 = replicate 4 pos).
  { assert (Hall : Forall (λ g, g = pos) gs1).
    { assert (Hz : ∀ e g, ev_time e = 0%Z → landed (P := adsr_action) sr pos e g → g = pos).
      { intros e g E [[_ ?]|(f & Ef & Rf & Pf & [Lf _])]; [done|]. assert (f ≤ 0) by (apply (time_le sr Hsr); [done|by apply reachable_0|rewrite time_0 by done; lia]). lia. }
      unfold settings in F1. cbn [fmap list_fmap number imap] in F1. clear -F1 Hz.
      do 4 (inversion F1 as [|? ? ? ? X1 F1']; subst; clear F1; rename F1' into F1; constructor; [by eapply Hz; [|exact X1]|clear X1]). inversion F1. constructor. }
    apply Forall2_length in F1. cbn in F1. do 4 (destruct gs1 as [|? gs1]; [done|apply Forall_cons in Hall as [-> Hall]]). by destruct gs1. }
  assert (E2 : ∃ played, gs2 = note_frames played ∧ Forall2 played_as notes played).
  { assert (Hl : ∀ m n g, reachable_frame sr (frame_of_mark m) → pos ≤ frame_of_mark m → landed sr pos (as_event (timed sr m) n) g → lands sr (frame_of_mark m) g).
    { intros m n g Rm Pm [[Et ->]|(f & Et & Rf & Pf & Lf)]; cbn in Et.
      - assert (frame_of_mark m ≤ 0) by (apply (time_le sr Hsr); [done|by apply reachable_0|rewrite time_0 by done; lia]). replace (frame_of_mark m) with pos by lia. apply lands_self.
      - assert (frame_of_mark m = f) as -> by (apply (anti_symm (≤)); apply (time_le sr Hsr); (done || lia)). done. }
    revert gs2 F2 G2 G3. generalize (n0 + length (as_event <$> settings ta td s tr)). intros n gs2 F2 _ _. clear -F2 Hrm Hge Hl. revert n gs2 F2 Hrm Hge. 
    induction notes as [|[f g] notes IH]; intros n gs2 F2 Hrm Hge; [inversion F2; by exists []|].
    change (marks ((f, g) :: notes)) with (On f :: Off g :: marks notes) in *.
    change (as_event <$> (timed sr <$> On f :: Off g :: marks notes)) with ([as_event (timed sr (On f)); as_event (timed sr (Off g))] ++ (as_event <$> (timed sr <$> marks notes))) in F2.
    rewrite number_app in F2. cbn [number imap app] in F2. inversion F2 as [|? g1 ? gs' L1 F2']; subst. inversion F2' as [|? g2 ? gs'' L2 F2'']; subst.
    do 2 apply Forall_cons in Hrm as [?R Hrm]. do 2 apply Forall_cons in Hge as [?R Hge]. destruct (IH _ _ F2'' Hrm Hge) as (played & -> & Hp). exists ((g1, g2) :: played). split; [done|].
    constructor; [|done]. split; cbn [fst snd]; [by apply (Hl (On f)) in L1|by apply (Hl (Off g)) in L2]. }
  destruct E2 as (played & -> & Hp). exists played. split; [done|]. intros i Hi. rewrite G3. rewrite E1 in *.
  assert (Ez : zip (replicate 4 pos ++ note_frames played) (settings ta td s tr ++ (timed sr <$> marks notes)).*2 =
    [(pos, SetAttack ta); (pos, SetDecay td); (pos, SetSustain s); (pos, SetRelease tr)] ++ note_actions played).
  { cbn. do 4 f_equal. rewrite <-list_fmap_compose. apply (note_zip played notes). symmetry. by eapply Forall2_length. }
  rewrite Ez. set (N := length_of blocks) in *. 
  assert (Hact : ∀ x l, spread pos ((pos, x) :: l) N = AAct x :: spread pos l N).
  { intros x l. cbn [spread]. rewrite Nat.sub_diag, Nat.sub_0_r. by destruct (Nat.ltb_spec pos (pos + N)); [|lia]. }
  cbn [app]. rewrite !Hact. unfold env_values. cbn [env_run].
  assert (G2' : ascending pos (note_frames played)) by (by destruct G2 as (_ & _ & _ & _ & G2)).
  set (stop := pos + N + S (sum_list played.*2)). assert (Hstop : Forall (λ gh : nat * nat, gh.2 < stop) played).
  { unfold stop. clear. generalize (pos + N). induction played as [|[g h] played IH]; intros m; constructor; [cbn; lia|]. eapply Forall_impl; [apply (IH (m + h))|]. cbn. lia. }
  destruct (spread_prefix (note_actions played) pos N (stop - pos)) as [rest Hrest]; [unfold stop; lia|].
  rewrite (spread_tune played pos stop G2' Hstop) in Hrest by (unfold stop; lia).
  pose proof (tune_values sr H0 ta td s tr a d r Hta Htd Htr Hs Ha Hd Hr played pos stop _ settings_rest (played_fits notes played pos stop Hp Hsp G2' Hstop ltac:(unfold stop; lia))) as Hv.
  rewrite Hrest, run_app in Hv. cbn [fst] in Hv. unfold at_.
  assert (Hl : ∀ l l' : list R, l ++ l' = value played <$> seq pos (stop - pos) → length l = N → default 0%R (l !! i) = value played (pos + i)).
  { intros l l' El Hl. rewrite <-(lookup_app_l l l') by lia. rewrite El, list_lookup_fmap, lookup_seq_lt by (unfold stop; lia). done. }
  eapply Hl; [exact Hv|apply spread_length].
Qed.
End melody.
