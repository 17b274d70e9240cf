(** Playing from a position, looping and stopping. *)
From stdpp Require Import list list_numbers sorting.
From Coq Require Import ZArith ZifyBool ZifyNat.
From Verif Require Import Base Float Timestamp TimestampProofs EventProcessor EventProcessorSpec EventProcessorProofs
  Buffer BufferSpec BufferProofs Sampler SamplerSpec SamplerTime SamplerVoice SamplerProofs.

(** ** The requests of the first block *)
Lemma sorted_perm_unique {P} (l1 l2 : list (event P)) : NoDup (ev_seq <$> l1) →
  StronglySorted ev_before l1 → StronglySorted ev_before l2 → l1 ≡ₚ l2 → l1 = l2.
Proof.
  intros Hnd H1 H2 E. revert l2 H2 E. induction l1 as [|x l1 IH]; intros l2 H2 E.
  { symmetry in E. by apply Permutation_nil_r in E. }
  destruct l2 as [|y l2]; [by apply Permutation_nil_r in E|].
  cbn in Hnd. apply NoDup_cons in Hnd as [Hx Hnd].
  inversion_clear H1 as [|? ? H1a H1b]. inversion_clear H2 as [|? ? H2a H2b].
  assert (x = y) as ->.
  { assert (Hy : y ∈ x :: l1) by (rewrite E; left). apply elem_of_cons in Hy as [->|Hy]; [done|].
    assert (Hx' : x ∈ y :: l2) by (rewrite <-E; left). apply elem_of_cons in Hx' as [->|Hx']; [done|].
    rewrite Forall_forall in H1b, H2b. specialize (H1b y Hy). specialize (H2b x Hx').
    destruct Hx. apply elem_of_list_fmap. exists y. split; [|done]. unfold ev_before in *. lia. }
  f_equal. apply IH; [done|done|done|]. by apply Permutation_cons_inv in E.
Qed.

Section proofs.
  Context {A : Type} (one : A) (add mul : A → A → A).
  Context (smp : owned A) (fade : list A) (sr : nat).
  Context (Hsmp : wf smp) (Hfade : 0 < length fade) (Hlen : (Z.of_nat (frames smp) <= 2 ^ 40)%Z).
  Context (Hsr : (0 < Z.of_nat sr <= 2 ^ 29)%Z).

  Local Notation mixed := (mixed add mul smp).
  Local Notation heard := (heard A).
  Local Notation ideal_frames := (ideal_frames one smp fade).
  Local Notation ideal_frame := (ideal_frame one smp fade).
  Local Notation all_frames := (all_frames one fade).
  Local Notation voice_frames := (voice_frames one fade).
  Local Notation voice_ok := (voice_ok fade).
  Local Notation boundary := (boundary smp).
  Local Notation unit := (Z.of_nat sr + 1)%Z.
  Local Notation sblock := (sblock (A := A)).
  Local Notation room := (room sr).
  Local Notation sampler_run := (sampler_run one add mul smp fade).
  Local Notation hears := (hears add mul smp).
  Local Notation frames_same := (ideal_frames_same one add mul smp fade sr Hfade Hsr).
  Local Notation room_le := (room_le one add mul smp fade sr Hfade Hsr).
  Local Notation frames_play := (ideal_frames_play one add mul smp fade sr Hfade).
  Local Notation frames_playing := (voice_frames_playing one add mul fade Hfade).
  Local Notation frames_fading := (voice_frames_fading one add mul fade Hfade).
  Implicit Types (bs : list sblock).

  Lemma handled_quiet : ∀ bs ds, unattended bs → handled sr [] bs ds → ds = replicate (length bs) [].
  Proof.
    induction bs as [|b bs IH]; intros [|d ds] Hu Hh; try done.
    apply Forall_cons in Hu as [Hb Hu]. destruct Hh as (live & rest & H1 & H2 & H3). rewrite Hb in H1.
    destruct H1 as [[_ H1]|(o & c & n & H1 & _)]; [|by destruct o].
    apply Permutation_nil_r in H1 as ->. destruct H2 as (H2 & _).
    symmetry in H2. apply Permutation_nil_r, app_eq_nil in H2 as [-> ->]. cbn. f_equal. by apply IH.
  Qed.

  Lemma handled_first b bs ds es : unattended bs → sb_sent b = es → handled sr [] (b :: bs) ds →
    StronglySorted ev_before es → NoDup (ev_seq <$> es) → Forall (λ e, ev_clear e = false) es →
    Forall (λ e, ev_time e < block_end sr (sb_start b) (frames_in b))%Z es →
    ds = es :: replicate (length bs) [].
  Proof.
    intros Hu Hes Hh Hs Hnd Hc Ht. destruct ds as [|d ds]; [done|]. destruct Hh as (live & rest & H1 & H2 & H3).
    rewrite Hes in H1. destruct H1 as [[_ H1]|(o & c & n & -> & H1 & _)].
    2: { apply Forall_app in Hc as [_ Hc]. apply Forall_cons in Hc as [Hc _]. congruence. }
    cbn in H1. destruct H2 as (H2 & H4 & H5 & H6).
    assert (rest = []) as ->.
    { destruct rest as [|x rest]; [done|]. apply Forall_cons in H6 as [H6 _].
      assert (Hx : x ∈ es). { rewrite <-H1, H2. apply elem_of_app. right. left. }
      rewrite Forall_forall in Ht. specialize (Ht x Hx). unfold frames_in in Ht. lia. }
    rewrite app_nil_r in H2. rewrite (handled_quiet bs ds) by done. f_equal.
    symmetry. apply sorted_perm_unique; [done|done|done|]. by rewrite <-H1, H2.
  Qed.

  (** ** Blocks without requests *)
  Lemma total_cons b bs : total (b :: bs) = frames_in b + total bs.
  Proof. done. Qed.

  Lemma tail_accurate : ∀ bs u i n pos cur, unattended bs → loop_ok i →
    room (u + 1 + Z.of_nat (length bs) + (id_loops (ideal_frames (n + total bs) i).2 - id_loops i))
      (ideal_frames (n + total bs) i).2 →
    accurate one smp fade sr u cur [(pos, n, None)] i
      (λ u' i', accurate_run one smp fade sr u' i' bs (replicate (length bs) [])).
  Proof.
    induction bs as [|b bs IH]; intros u i n pos cur Hu Hl Hroom; cbn [accurate].
    { cbn [length total fmap list_fmap sum_list sum_list_with] in Hroom. split; [|done].
      change (total []) with 0 in Hroom. rewrite Nat.add_0_r in Hroom. cbn [length] in Hroom.
      by rewrite Z.add_0_r in Hroom. }
    apply Forall_cons in Hu as [Hb Hu]. rewrite ideal_frames_add in Hroom.
    destruct (frames_same n i Hl) as (I1 & I2 & I3 & I4).
    destruct (ideal_frames n i) as [h1 i1]. cbn [snd] in *.
    assert (Hl1 : loop_ok i1) by (unfold loop_ok; by rewrite I1).
    destruct (frames_same (total (b :: bs)) i1 Hl1) as (J1 & J2 & J3 & J4).
    assert (Hl2 : loop_ok (ideal_frames (total (b :: bs)) i1).2) by (unfold loop_ok; by rewrite J1).
    specialize (IH (u + 1 + (id_loops i1 - id_loops i))%Z i1 (frames_in b) 0 (sb_start b) Hu Hl1).
    rewrite <-total_cons in IH.
    destruct (ideal_frames (total (b :: bs)) i1) as [h2 i2]. cbn [snd fst length] in *. split.
    - eapply room_le; [..|exact Hroom]; try done; lia.
    - cbn [replicate accurate_run]. unfold block_pieces. cbn [pieces]. rewrite Nat.sub_0_r. fold (frames_in b).
      apply IH. eapply room_le; [..|exact Hroom]; try done; lia.
  Qed.

  Lemma seq_split {B} (f : nat → B) k n m l : l = f <$> seq k (n + m) →
    take n l = f <$> seq k n ∧ drop n l = f <$> seq (k + n) m.
  Proof.
    intros ->. rewrite seq_app, fmap_app. split.
    - apply take_app_alt. by rewrite fmap_length, seq_length.
    - apply drop_app_alt. by rewrite fmap_length, seq_length.
  Qed.

  Lemma tail_heard f : ∀ bs i k n, (ideal_frames (n + total bs) i).1 = f <$> seq k (n + total bs) →
    (ideal_frames n i).1 = f <$> seq k n ∧
    ideal_run one smp fade sr (ideal_frames n i).2 bs (replicate (length bs) []) = spread f (k + n) bs.
  Proof.
    induction bs as [|b bs IH]; intros i k n Hf; rewrite ideal_frames_add in Hf.
    { change (total []) with 0 in Hf. rewrite Nat.add_0_r in Hf. cbn [SamplerSpec.ideal_frames] in Hf.
      destruct (ideal_frames n i) as [h1 i1]. cbn [fst] in *. by rewrite app_nil_r in Hf. }
    pose proof (ideal_frames_length one smp fade n i) as Hl.
    destruct (ideal_frames n i) as [h1 i1]. cbn [fst snd] in *.
    specialize (IH i1 (k + n) (frames_in b)). rewrite <-total_cons in IH.
    destruct (ideal_frames (total (b :: bs)) i1) as [h2 i2]. cbn [fst] in *.
    destruct (seq_split _ _ _ _ _ Hf) as [E1 E2]. rewrite take_app_alt in E1 by done. rewrite drop_app_alt in E2 by done.
    split; [done|]. destruct (IH E2) as [IH1 IH2].
    cbn [length replicate ideal_run]. unfold block_pieces. cbn [pieces acted ideal_pieces fmap option_fmap option_map].
    rewrite Nat.sub_0_r. fold (frames_in b). destruct (ideal_frames (frames_in b) i1) as [h3 i3]. cbn [fst snd] in *.
    rewrite app_nil_r. cbn [spread]. by rewrite IH1, IH2.
  Qed.

  Lemma seq_from {B} (f : nat → B) k n : f <$> seq k n = (λ j, f (k + j)) <$> seq 0 n.
  Proof. rewrite <-(Nat.add_0_r k) at 1. by rewrite <-(fmap_add_seq k 0), <-list_fmap_compose. Qed.

  (** what cannot be heard does not matter *)
  Lemma mixed_ext ov f0 hs hs' out out' : length hs = length hs' →
    (∀ j ch x, mix add mul smp ch x (default [] (hs !! j)) = mix add mul smp ch x (default [] (hs' !! j))) →
    mixed ov f0 hs out out' → mixed ov f0 hs' out out'.
  Proof.
    intros Hl Hm (W & D & S). split; [done|]. split; [done|]. intros ch fr. rewrite S, Hl. case_decide; [|done].
    destruct (sample out ch fr); [|done]. cbn. by rewrite Hm.
  Qed.
  Lemma hears_ext f g bs outs : (∀ k ch x, mix add mul smp ch x (f k) = mix add mul smp ch x (g k)) →
    hears f bs outs → hears g bs outs.
  Proof.
    intros Hfg. unfold SamplerSpec.hears.
    enough (Hk : ∀ bs outs k, Forall3 (λ b hs out, mixed (sb_view b) 0 hs (sb_out b) out) bs (spread f k bs) outs →
      Forall3 (λ b hs out, mixed (sb_view b) 0 hs (sb_out b) out) bs (spread g k bs) outs) by apply Hk.
    clear bs outs. induction bs as [|b bs IH]; intros outs k H; cbn [spread] in *.
    { inversion H. constructor. }
    apply Forall3_cons_inv_l in H as (hs & hss & out & outs' & E & -> & H1 & H2). injection E as <- <-.
    constructor; [|by apply IH]. eapply mixed_ext; [|..|exact H1].
    - by rewrite !fmap_length.
    - intros j ch x. rewrite !list_lookup_fmap. destruct (seq k (frames_in b) !! j); cbn; [apply Hfg|done].
  Qed.

  (** ** One run: requests in the first block *)
  Lemma scene b bs es f : Forall (sblock_ok sr) (b :: bs) → unattended bs → sb_sent b = es →
    StronglySorted ev_before es → NoDup (ev_seq <$> es) → Forall (λ e, ev_clear e = false) es →
    Forall (λ e, ev_time e < block_end sr (sb_start b) (frames_in b))%Z es →
    accurate_run one smp fade sr 0 new_ideal (b :: bs) (es :: replicate (length bs) []) →
    ideal_run one smp fade sr new_ideal (b :: bs) (es :: replicate (length bs) []) = spread f 0 (b :: bs) →
    ∃ fuel outs, sampler_run fuel sr (new_evproc sr) new_sampler (b :: bs) = Ok outs ∧ hears f (b :: bs) outs.
  Proof.
    intros Hbs Hu Hes Hs Hnd Hc Ht Hacc Hf.
    destruct (sampler_refines one add mul smp fade sr Hsmp Hfade Hlen Hsr (b :: bs) [] Hbs) as (ds & Hds & Hrun); [constructor|].
    rewrite (handled_first b bs ds es) in Hrun by done.
    destruct (Hrun 0%Z new_sampler new_ideal) as (fuel & outs & R1 & R2); [by eapply new_sampler_rel|done|].
    rewrite Hf in R2. by exists fuel, outs.
  Qed.

  (** ** Playing from a position *)
  Lemma voice_frames_begin q n : (voice_frames n (begin_at q)).1 = play_plan one fade q <$> seq 0 n.
  Proof.
    unfold begin_at, play_plan. case_decide as Hq.
    - subst q. rewrite frames_playing. cbn [fst]. apply list_fmap_ext. intros i j Hj. rewrite decide_False by lia. done.
    - destruct (decide (n = 0)) as [->|Hn]; [done|]. destruct (decide (n ≤ length fade)) as [Hle|Hgt].
      + pose proof (frames_fading true n q 0 ltac:(lia) ltac:(lia)) as E. cbn [fading] in E.
        rewrite E. cbn [fst]. apply list_fmap_ext. intros i j Hj. apply lookup_seq in Hj as [-> Hi].
        rewrite decide_True by lia. done.
      + replace n with (length fade + (n - length fade)) by lia. rewrite voice_frames_add, seq_app, fmap_app.
        pose proof (frames_fading true (length fade) q 0 ltac:(lia) ltac:(lia)) as E. cbn [fading] in E.
        rewrite E, Nat.ltb_irrefl. cbn [faded]. rewrite frames_playing. cbn [fst]. f_equal.
        * apply list_fmap_ext. intros i j Hj. apply lookup_seq in Hj as [-> Hi]. rewrite decide_True by lia. done.
        * cbn [plus]. rewrite (seq_from _ (length fade)). apply list_fmap_ext.
          intros i j Hj. apply lookup_seq in Hj as [-> Hi]. cbn. rewrite decide_False by lia. do 2 f_equal. lia.
  Qed.

  Lemma zip_app_nil_r n (l : list (list heard)) : length l = n → zip_with app l (replicate n []) = l.
  Proof. intros <-. induction l as [|h l IH]; [done|]. cbn. by rewrite app_nil_r, IH. Qed.
  Lemma zip_app_nil_l n (l : list (list heard)) : length l = n → zip_with app (replicate n []) l = l.
  Proof. intros <-. induction l as [|h l IH]; [done|]. cbn. by rewrite IH. Qed.

  Lemma all_frames_one v x n : vo_phase x = Stopped →
    all_frames n [v; x] = ((voice_frames n v).1, [(voice_frames n v).2; x]).
  Proof.
    intros Hx. rewrite !all_frames_cons, all_frames_nil. cbn [fst snd]. rewrite (voice_frames_stopped _ _ _ x) by done.
    cbn [fst snd]. rewrite zip_app_nil_r by apply replicate_length. rewrite zip_app_nil_r; [done|].
    by rewrite voice_frames_length.
  Qed.

  (** the state after a start from frame [q], handled late by [d] frames *)
  Definition started (q d : Z) (i : ideal) : Prop :=
    id_voices i = [begin_at (Z.to_nat (q + d)); Voice 0 Stopped] ∧ id_loop i = None ∧
    id_elapsed i = d ∧ id_loops i = 0%Z.

  Lemma started_heard q d i n : started q d i →
    (ideal_frames n i).1 =
    (λ k, if decide (d + Z.of_nat k < Z.of_nat (frames smp))%Z then play_plan one fade (Z.to_nat (q + d)) k else [])
      <$> seq 0 n.
  Proof.
    intros (Hv & Hl & He & Hn). set (q' := Z.to_nat (q + d)) in *.
    assert (Hb : boundary i = Z.of_nat (frames smp)) by (unfold SamplerSpec.boundary; by rewrite Hl).
    destruct (decide (d + Z.of_nat n <= Z.of_nat (frames smp))%Z) as [Hle|Hgt].
    - rewrite frames_play by lia. cbn [fst]. rewrite Hv, all_frames_one by done. cbn [fst].
      rewrite voice_frames_begin. apply list_fmap_ext. intros j k Hk. apply lookup_seq in Hk as [-> Hk].
      rewrite decide_True by lia. done.
    - set (m := Z.to_nat (Z.of_nat (frames smp) - d)).
      assert (Hm : m ≤ n) by lia. replace n with (m + (n - m)) by lia.
      rewrite ideal_frames_add. rewrite seq_app, fmap_app. cbn [plus].
      destruct (decide (d < Z.of_nat (frames smp))%Z) as [Hd|Hd].
      + rewrite (frames_play m) by lia. rewrite ideal_frames_done; [|done|].
        2: { cbn. unfold SamplerSpec.boundary, played. cbn. rewrite Hl. lia. }
        cbn [fst]. rewrite Hv, all_frames_one by done. cbn [fst]. rewrite voice_frames_begin. f_equal.
        * apply list_fmap_ext. intros j k Hk. apply lookup_seq in Hk as [-> Hk]. rewrite decide_True by lia. done.
        * apply list_eq_same_length with (n := n - m); rewrite ?fmap_length, ?replicate_length, ?seq_length; try done.
          intros j x y Hj H1 H2. apply lookup_replicate in H1 as [-> _].
          rewrite list_lookup_fmap, lookup_seq_lt in H2 by lia. cbn in H2. rewrite decide_False in H2 by lia. congruence.
      + assert (m = 0) as Hm0 by lia. rewrite Hm0. cbn [SamplerSpec.ideal_frames seq fmap list_fmap app].
        rewrite ideal_frames_done; [|done|lia]. cbn [fst].
        apply list_eq_same_length with (n := n - 0); rewrite ?fmap_length, ?replicate_length, ?seq_length; try done.
        intros j x y Hj H1 H2. apply lookup_replicate in H1 as [-> _].
        rewrite list_lookup_fmap, lookup_seq_lt in H2 by lia. cbn in H2. rewrite decide_False in H2 by lia. congruence.
  Qed.

  Lemma started_new q d (n : nat) : started q d (ideal_act (IStart q d) (Ideal [Voice 0 Stopped; Voice 0 Stopped] None None (Z.of_nat n) 0 0)).
  Proof. done. Qed.
  Lemma new_ideal_frames n : ∃ m, ideal_frames n new_ideal = (replicate n [], Ideal [Voice 0 Stopped; Voice 0 Stopped] None None (Z.of_nat m) 0 0) ∧ m ≤ n.
  Proof.
    enough (H : ∀ k, ∃ m, ideal_frames n (Ideal [Voice 0 Stopped; Voice 0 Stopped] None None (Z.of_nat k) 0 0)
        = (replicate n [], Ideal [Voice 0 Stopped; Voice 0 Stopped] None None (Z.of_nat m) 0 0) ∧ m ≤ k + n) by apply (H 0).
    induction n as [|n IH]; intros k; [exists k; split; [done|lia]|].
    cbn [SamplerSpec.ideal_frames]. unfold SamplerSpec.ideal_frame. case_decide as H1.
    - destruct (IH k) as (m & -> & Hm). exists m. split; [done|lia].
    - rewrite decide_False by (cbn in *; tauto). cbn. replace (Z.of_nat k + 1)%Z with (Z.of_nat (S k)) by lia.
      destruct (IH (S k)) as (m & -> & Hm). exists m. split; [done|lia].
  Qed.

  Lemma no_loop_loops n : ∀ i, id_loop i = None → id_loops (ideal_frames n i).2 = id_loops i.
  Proof.
    induction n as [|n IH]; intros i Hl; [done|]. cbn [SamplerSpec.ideal_frames].
    unfold SamplerSpec.ideal_frame. case_decide.
    - specialize (IH i Hl). by destruct (ideal_frames n i).
    - rewrite decide_False by tauto. cbn.
      match goal with |- context [ideal_frames n ?x] => specialize (IH x Hl); by destruct (ideal_frames n x) end.
  Qed.

  (** *** Start at a time, from a position *)
  Theorem plays_from b bs e p w f d :
    Forall (sblock_ok sr) (b :: bs) → unattended bs → sb_sent b = [e] →
    ev_clear e = false → ev_data e = SStart p ∨ ev_data e = SStartImmediate ∧ p = 0%Z →
    (ev_time e < block_end sr (sb_start b) (frames_in b))%Z →
    f = frame_of sr (sb_start b) e →
    let t := incremented_by_samples (sb_start b) (Z.of_nat f) (Z.of_nat sr) in
    d = match ev_data e with SStartImmediate => 0%Z | _ => nearest_frame sr (t - ev_time e)%Z end →
    on_grid sr w e t →
    (0 <= w)%Z → ((w + Z.of_nat (length bs) + 5) * unit <= 2 ^ 32 - 2 ^ 27)%Z →
    (Z.max 0 d + Z.of_nat (total (b :: bs)) <= 2 ^ 40)%Z →
    ∃ fuel outs, sampler_run fuel sr (new_evproc sr) new_sampler (b :: bs) = Ok outs ∧
      hears (λ k, if decide (k < f) then [] else play_plan one fade (Z.to_nat (nearest_frame sr p + d)) (k - f)) (b :: bs) outs.
  Proof.
    intros Hbs Hu Hes Hc Hdata Ht Hf t Hd Hgrid Hw Hunits Htot.
    assert (Hact : action_of sr e t = IStart (nearest_frame sr p) d).
    { unfold action_of. destruct Hdata as [E|[E ->]]; rewrite E in *; subst d; [done|].
      by unfold nearest_frame. }
    assert (Hq : (0 <= nearest_frame sr p)%Z).
    { unfold on_grid in Hgrid. destruct Hdata as [E|[E ->]]; rewrite E in *; [lia|].
      by unfold nearest_frame. }
    assert (Hfc : f < frames_in b).
    { subst f. apply Forall_cons in Hbs as [(_ & _ & Hbk) _]. by apply frame_of_inside. }
    set (q' := Z.to_nat (nearest_frame sr p + d)).
    destruct (new_ideal_frames f) as (m & Em & Hm).
    set (i0 := Ideal [Voice 0 Stopped; Voice 0 Stopped] None None (Z.of_nat m) 0 0) in *.
    set (i1 := ideal_act (IStart (nearest_frame sr p) d) i0).
    assert (Hst : started (nearest_frame sr p) d i1) by apply started_new.
    set (g := λ k, if decide (d + Z.of_nat k < Z.of_nat (frames smp))%Z then play_plan one fade q' k else []).
    assert (Hl1 : loop_ok i1) by (unfold loop_ok; destruct Hst as (_ & -> & _); done).
    assert (Hnl : id_loop i1 = None) by apply Hst. assert (He1 : id_elapsed i1 = d) by apply Hst.
    set (n1 := frames_in b - f). set (fg := λ k, if decide (k < f) then [] else g (k - f)).
    assert (Hpieces : block_pieces sr b [e] = [(0, f, Some e); (f, n1, None)]).
    { unfold block_pieces. cbn [pieces]. rewrite <-Hf, Nat.sub_0_r. done. }
    assert (Htn : n1 + total bs ≤ total (b :: bs)) by (rewrite total_cons; lia).
    destruct (scene b bs [e] fg) as (fuel & outs & R1 & R2); try done.
    - repeat constructor.
    - cbn. apply NoDup_singleton.
    - by constructor.
    - by constructor.
    - cbn [accurate_run]. rewrite Hpieces. cbn [accurate]. fold t. rewrite Em. cbn [snd].
      change (id_loops new_ideal) with 0%Z. change (id_loops i0) with 0%Z. split.
      { unfold SamplerSpec.room. cbn. split; [|split; [|done]].
        - assert ((1 + 3 * 0 + 4) * unit <= (w + Z.of_nat (length bs) + 5) * unit)%Z; [|lia]. apply Z.mul_le_mono_nonneg_r; lia.
        - rewrite total_cons in Htot. lia. }
      exists w. split; [done|]. rewrite Hact. fold i1. refine (tail_accurate bs _ i1 n1 f t Hu Hl1 _).
      rewrite no_loop_loops by done. change (id_loops i1) with 0%Z.
      destruct (frames_same (n1 + total bs) i1 Hl1) as (I1 & I2 & I3 & I4).
      unfold SamplerSpec.room. rewrite I1, Hnl, no_loop_loops by done. change (id_loops i1) with 0%Z.
      assert (Hu1 : (0 <= units_after (0 + 1 + (0 - 0)) w e <= w + 1)%Z)
        by (unfold units_after; destruct Hdata as [->|[-> _]]; lia).
      split; [|split; [lia|done]].
      assert ((units_after (0 + 1 + (0 - 0)) w e + 1 + Z.of_nat (length bs) + (0 - 0) + 3 * 0 + 4) * unit
        <= (w + Z.of_nat (length bs) + 5) * unit)%Z; [|lia]. apply Z.mul_le_mono_nonneg_r; [lia|].
      unfold units_after in *. destruct Hdata as [->|[-> _]]; lia.
    - cbn [ideal_run]. rewrite Hpieces. cbn [acted ideal_pieces fmap option_fmap option_map].
      rewrite Em. fold t. rewrite Hact. fold i1.
      destruct (tail_heard fg bs i1 f n1) as [T1 T2].
      { rewrite (started_heard _ _ _ (n1 + total bs) Hst). fold q' g.
        rewrite (seq_from fg f). apply list_fmap_ext. intros j k Hk.
        apply lookup_seq in Hk as [-> Hk]. unfold fg. cbn [compose plus]. rewrite decide_False by lia.
        f_equal. lia. }
      destruct (ideal_frames n1 i1) as [h2 i2]. cbn [fst snd] in *. rewrite app_nil_r. cbn [spread].
      f_equal.
      + replace (frames_in b) with (f + n1) by lia. rewrite seq_app, fmap_app, T1. f_equal.
        apply list_eq_same_length with (n := f); rewrite ?fmap_length, ?replicate_length, ?seq_length; try done.
        intros j x y Hj H1 H2. apply lookup_replicate in H1 as [-> _].
        rewrite list_lookup_fmap, lookup_seq_lt in H2 by lia. cbn in H2. unfold fg in H2. rewrite decide_True in H2 by lia. congruence.
      + rewrite T2. f_equal. lia.
    - exists fuel, outs. split; [done|]. eapply hears_ext; [|exact R2]. intros k ch x. unfold fg, g. case_decide; [done|].
      case_decide as Hk; [done|]. cbn. unfold mix_one. cbn [fst snd].
      rewrite (sample_smp_None one add mul smp fade Hfade); [done|]. unfold q'. lia.
  Qed.

  (** ** Looping *)
  Section looping.
    Context (ls le : nat) (Hloop : ls < le) (Hshort : length fade ≤ le - ls) (Hle : (Z.of_nat le <= 2 ^ 39)%Z).
    Local Notation D := (le - ls).

    (** at the end of the loop for the [j+1]-st time *)
    Definition turn (j x : nat) : ideal :=
      if Nat.even j
      then Ideal [Voice le Playing; Voice x Stopped] (Some 0) (Some (Z.of_nat ls, Z.of_nat le)) (Z.of_nat (le + j * D)) 0 (Z.of_nat j)
      else Ideal [Voice x Stopped; Voice le Playing] (Some 1) (Some (Z.of_nat ls, Z.of_nat le)) (Z.of_nat (le + j * D)) 0 (Z.of_nat j).

    Lemma begin_end : (voice_frames D (begin_at ls)).2 = Voice le Playing.
    Proof.
      unfold begin_at. case_decide as Hq.
      - rewrite frames_playing. cbn [snd]. f_equal. lia.
      - replace D with (length fade + (D - length fade)) by lia. rewrite voice_frames_add.
        pose proof (frames_fading true (length fade) ls 0 ltac:(lia) ltac:(lia)) as E. cbn [fading] in E.
        rewrite E. cbn [plus]. rewrite Nat.ltb_irrefl. cbn [faded]. rewrite frames_playing. cbn [snd]. f_equal. lia.
    Qed.

    Definition tail_plan (m : nat) : list heard :=
      if decide (m < length fade) then [(le + m, Some (gain_out one fade m))] else [].
    Lemma tail_frames : voice_frames D (Voice le (FadingOut 0)) = (tail_plan <$> seq 0 D, Voice (le + length fade) Stopped).
    Proof.
      replace D with (length fade + (D - length fade)) by lia. rewrite voice_frames_add.
      pose proof (frames_fading false (length fade) le 0 ltac:(lia) ltac:(lia)) as E. cbn [fading] in E.
      rewrite E. cbn [plus]. rewrite Nat.ltb_irrefl. cbn [faded]. rewrite voice_frames_stopped by done.
      rewrite seq_app, fmap_app. f_equal. f_equal.
      - apply list_fmap_ext. intros i j Hj. apply lookup_seq in Hj as [-> Hi]. unfold tail_plan. rewrite decide_True by lia. done.
      - apply list_eq_same_length with (n := D - length fade); rewrite ?fmap_length, ?replicate_length, ?seq_length; try done.
        intros j x y Hj H1 H2. apply lookup_replicate in H1 as [-> _].
        rewrite list_lookup_fmap, lookup_seq_lt in H2 by lia. cbn in H2. unfold tail_plan in H2.
        rewrite decide_False in H2 by lia. congruence.
    Qed.

    Lemma zip_fmap {B} (f g : B → list heard) l : zip_with app (f <$> l) (g <$> l) = (λ j, f j ++ g j) <$> l.
    Proof. induction l as [|x l IH]; [done|]. cbn. by rewrite IH. Qed.

    Lemma plan_in_turn j m : m < D → loop_plan one fade ls le (le + j * D + m) =
      if Nat.even j then tail_plan m ++ play_plan one fade ls m else play_plan one fade ls m ++ tail_plan m.
    Proof.
      intros Hm. unfold loop_plan. rewrite decide_False by (generalize (j * D); lia).
      replace (le + j * D + m - le) with (m + j * D) by (generalize (j * D); lia).
      rewrite Nat.mod_add by lia. rewrite Nat.mod_small by lia. rewrite Nat.div_add by lia.
      rewrite (Nat.div_small m) by lia. done.
    Qed.

    Lemma turn_step j x : ideal_frames D (turn j x) =
      (loop_plan one fade ls le <$> seq (le + j * D) D, turn (S j) (le + length fade)).
    Proof.
      assert (Hlp : id_loop (turn j x) = Some (Z.of_nat ls, Z.of_nat le)) by (unfold turn; by destruct (Nat.even j)).
      assert (Hel : id_elapsed (turn j x) = Z.of_nat (le + j * D)) by (unfold turn; by destruct (Nat.even j)).
      assert (Hst : id_start (turn j x) = 0%Z) by (unfold turn; by destruct (Nat.even j)).
      assert (Hlo : id_loops (turn j x) = Z.of_nat j) by (unfold turn; by destruct (Nat.even j)).
      assert (Hb : boundary (turn j x) = Z.of_nat (le + j * D)).
      { unfold SamplerSpec.boundary. rewrite Hlp, Hst, Hlo. lia. }
      rewrite (ideal_frames_jump one add mul smp fade sr Hfade D (turn j x) _ _ Hlp) by lia.
      assert (Hj : jump (turn j x) =
        if Nat.even j
        then Ideal [Voice le (FadingOut 0); begin_at ls] (Some 1) (Some (Z.of_nat ls, Z.of_nat le)) (Z.of_nat (le + j * D)) 0 (Z.of_nat (S j))
        else Ideal [begin_at ls; Voice le (FadingOut 0)] (Some 0) (Some (Z.of_nat ls, Z.of_nat le)) (Z.of_nat (le + j * D)) 0 (Z.of_nat (S j))).
      { unfold jump. rewrite Hlp. rewrite Hel, Hst.
        assert (Hdiv : ((Z.of_nat (le + j * D) - (Z.of_nat le - 0)) `div` (Z.of_nat le - Z.of_nat ls) + 1)%Z = Z.of_nat (S j)).
        { replace (Z.of_nat (le + j * D) - (Z.of_nat le - 0))%Z with (Z.of_nat j * (Z.of_nat le - Z.of_nat ls))%Z by lia.
          rewrite Z.div_mul by lia. lia. }
        rewrite Hdiv, Nat2Z.id. unfold turn, move_to.
        destruct (Nat.even j); cbn [id_voices id_active mbind option_bind lookup list_lookup fmap option_fmap option_map vo_position list_fmap].
        - rewrite decide_False by (intros [= ?]; lia). unfold fade_out. cbn [vo_phase vo_position list_find].
          rewrite decide_False by done. rewrite decide_True by done. cbn. done.
        - rewrite decide_False by (intros [= ?]; lia). unfold fade_out. cbn [vo_phase vo_position list_find].
          rewrite decide_True by done. cbn. done. }
      rewrite Hj. rewrite frames_play.
      2: { unfold SamplerSpec.boundary. destruct (Nat.even j); cbn; lia. }
      assert (He : Nat.even (S j) = negb (Nat.even j)) by apply Nat.even_succ.
      rewrite (seq_from (loop_plan one fade ls le)).
      f_equal.
      - transitivity ((λ m, if Nat.even j then tail_plan m ++ play_plan one fade ls m
            else play_plan one fade ls m ++ tail_plan m) <$> seq 0 D).
        2: { apply list_fmap_ext. intros i m Hm. apply lookup_seq in Hm as [-> Hm]. symmetry. apply plan_in_turn. lia. }
        destruct (Nat.even j); cbn [id_voices]; rewrite !all_frames_cons, all_frames_nil; cbn [fst snd];
          rewrite tail_frames; cbn [fst]; rewrite voice_frames_begin, zip_app_nil_r by (by rewrite fmap_length, seq_length);
          by rewrite zip_fmap.
      - unfold played, turn. rewrite He. destruct (Nat.even j); cbn [negb id_voices id_active id_loop id_elapsed id_start id_loops];
          rewrite !all_frames_cons, all_frames_nil; cbn [fst snd]; rewrite tail_frames, begin_end; cbn [snd]; f_equal; lia.
    Qed.

    Lemma turns n : ∀ j x, ∃ y, ideal_frames (n * D) (turn j x) =
      (loop_plan one fade ls le <$> seq (le + j * D) (n * D), turn (j + n) y).
    Proof.
      induction n as [|n IH]; intros j x.
      { exists x. cbn [SamplerSpec.ideal_frames Nat.mul seq fmap list_fmap]. by rewrite Nat.add_0_r. }
      destruct (IH (S j) (le + length fade)) as (y & Hy). exists y. cbn [Nat.mul]. rewrite ideal_frames_add, turn_step, Hy.
      rewrite seq_app, fmap_app. f_equal; [|f_equal; lia]. f_equal. f_equal. f_equal. lia.
    Qed.

    Definition looping : ideal :=
      Ideal [Voice 0 Playing; Voice 0 Stopped] (Some 0) (Some (Z.of_nat ls, Z.of_nat le)) 0 0 0.

    Lemma looping_frames n : ∃ y, ideal_frames (le + n * D) looping =
      (loop_plan one fade ls le <$> seq 0 (le + n * D), turn n y).
    Proof.
      destruct (turns n 0 0) as (y & Hy). exists y. rewrite ideal_frames_add.
      rewrite frames_play by (unfold SamplerSpec.boundary; cbn; lia).
      assert (played one fade le looping = turn 0 0) as ->.
      { unfold played, turn, looping. cbn [Nat.even id_voices id_active id_loop id_elapsed id_start id_loops].
        rewrite all_frames_one by done. rewrite frames_playing. cbn [snd]. f_equal; lia. }
      rewrite Hy. rewrite seq_app, fmap_app. f_equal. f_equal.
      - cbn [looping id_voices]. rewrite all_frames_one by done. rewrite frames_playing. cbn [fst].
        apply list_fmap_ext. intros i j Hj. apply lookup_seq in Hj as [-> Hi]. unfold loop_plan. rewrite decide_True by lia. done.
      - by rewrite Nat.mul_0_l, Nat.add_0_r.
    Qed.

    Lemma looping_heard n : (ideal_frames n looping).1 = loop_plan one fade ls le <$> seq 0 n.
    Proof.
      destruct (looping_frames n) as (y & Hy).
      assert (Hn : n ≤ le + n * D) by (assert (n * 1 ≤ n * D) by (apply Nat.mul_le_mono_l; lia); lia).
      replace (le + n * D) with (n + (le + n * D - n)) in Hy by lia.
      pose proof (ideal_frames_length one smp fade n looping) as Hl.
      rewrite ideal_frames_add in Hy. destruct (ideal_frames n looping) as [l1 i1].
      destruct (ideal_frames _ i1) as [l2 i2]. injection Hy as Hy _. cbn [fst] in *.
      destruct (seq_split _ _ _ _ _ Hy) as [E _]. by rewrite take_app_alt in E by done.
    Qed.

    Lemma looping_loops n k : n ≤ le + k * D → (id_loops (ideal_frames n looping).2 <= Z.of_nat k)%Z.
    Proof.
      intros Hn. destruct (looping_frames k) as (y & Hy).
      assert (Hl : loop_ok looping) by (unfold loop_ok; cbn; lia).
      destruct (frames_same n looping Hl) as (I1 & _).
      replace (le + k * D) with (n + (le + k * D - n)) in Hy by lia. rewrite ideal_frames_add in Hy.
      destruct (ideal_frames n looping) as [l1 i1]. cbn [snd] in *.
      assert (Hl1 : loop_ok i1) by (unfold loop_ok; by rewrite I1).
      destruct (frames_same (le + k * D - n) i1 Hl1) as (_ & _ & J3 & _).
      destruct (ideal_frames _ i1) as [l2 i2]. cbn [snd] in *. injection Hy as _ ->.
      unfold turn in J3. destruct (Nat.even k); cbn in J3; lia.
    Qed.

    Theorem loops_back b bs e1 e2 ts te n :
      Forall (sblock_ok sr) (b :: bs) → unattended bs → sb_sent b = [e1; e2] →
      ev_data e1 = SEnableLoop ts te → ev_data e2 = SStartImmediate →
      ev_clear e1 = false → ev_clear e2 = false → ev_before e1 e2 → ev_seq e1 ≠ ev_seq e2 →
      (ev_time e1 <= sb_start b)%Z → (ev_time e2 <= sb_start b)%Z →
      nearest_frame sr ts = Z.of_nat ls → off_grid sr ts (Z.of_nat ls) unit →
      nearest_frame sr te = Z.of_nat le → off_grid sr te (Z.of_nat le) unit →
      total (b :: bs) ≤ le + n * D →
      ((Z.of_nat (length bs) + 4 * Z.of_nat n + 6) * unit <= 2 ^ 32 - 2 ^ 27)%Z →
      (Z.of_nat (total (b :: bs)) <= 2 ^ 40)%Z → (Z.of_nat D * Z.of_nat n <= 2 ^ 40)%Z →
      ∃ fuel outs, sampler_run fuel sr (new_evproc sr) new_sampler (b :: bs) = Ok outs ∧
        hears (loop_plan one fade ls le) (b :: bs) outs.
    Proof.
      intros Hbs Hu Hes Hd1 Hd2 Hc1 Hc2 Hbef Hseq Ht1 Ht2 Hn1 Hg1 Hn2 Hg2 Htot Hunits Htot2 Hspan.
      assert (Hend : (sb_start b < block_end sr (sb_start b) (frames_in b))%Z).
      { apply Forall_cons in Hbs as [(_ & _ & (Hb1 & Hb2 & _)) _]. unfold block_end, incremented_by_samples.
        pose proof (within_from_samples (Z.of_nat sr) (Z.of_nat (frames_in b)) Hsr ltac:(unfold frames_in; lia)) as W.
        unfold SamplerTime.within in W. fold (frames_in b) in Hb1.
        set (t := from_samples _ _) in *. clearbody t.
        enough (0 < t * Z.of_nat sr)%Z as H by (apply Z.mul_pos_cancel_r in H; lia). lia. }
      assert (Hf1 : frame_of sr (sb_start b) e1 = 0) by (unfold frame_of; rewrite position_late; lia).
      assert (Hf2 : frame_of sr (sb_start b) e2 = 0) by (unfold frame_of; rewrite position_late; lia).
      assert (Hpieces : block_pieces sr b [e1; e2] = [(0, 0, Some e1); (0, 0, Some e2); (0, frames_in b, None)]).
      { unfold block_pieces. cbn [pieces]. rewrite Hf1, Hf2, !Nat.sub_0_r. done. }
      assert (Ha1 : ∀ t, action_of sr e1 t = ILoop (Z.of_nat ls) (Z.of_nat le))
        by (intros t; unfold action_of; by rewrite Hd1, Hn1, Hn2).
      assert (Ha2 : ∀ t, action_of sr e2 t = IStart 0 0) by (intros t; unfold action_of; by rewrite Hd2).
      assert (Hi : ideal_act (IStart 0 0) (ideal_act (ILoop (Z.of_nat ls) (Z.of_nat le)) new_ideal) = looping) by done.
      assert (Hlk : loop_ok looping) by (unfold loop_ok; cbn; lia).
      assert (HU : (6 * unit <= 2 ^ 32 - 2 ^ 27)%Z).
      { assert (6 * unit <= (Z.of_nat (length bs) + 4 * Z.of_nat n + 6) * unit)%Z; [|lia]. apply Z.mul_le_mono_nonneg_r; lia. }
      apply (scene b bs [e1; e2]); try done.
      - apply SSorted_cons; [apply SSorted_cons; constructor|]. by constructor.
      - cbn. apply NoDup_cons. split; [|apply NoDup_singleton]. rewrite elem_of_list_singleton. done.
      - by repeat constructor.
      - repeat constructor; lia.
      - cbn [accurate_run]. rewrite Hpieces. cbn [accurate].
        set (t0 := incremented_by_samples _ _ _). set (t1 := incremented_by_samples t0 _ _).
        cbn [SamplerSpec.ideal_frames snd]. rewrite Ha1, Ha2, Hi.
        unfold units_after. rewrite Hd1, Hd2. unfold on_grid. rewrite Hd1, Hd2, Hn1, Hn2.
        split. { unfold SamplerSpec.room. cbn. lia. }
        exists 0%Z. split; [do 2 (split; [done|]); lia|].
        split. { unfold SamplerSpec.room. cbn. lia. }
        exists 0%Z. split; [done|].
        refine (tail_accurate bs 0%Z looping (frames_in b) 0 t1 Hu Hlk _). rewrite <-total_cons.
        destruct (frames_same (total (b :: bs)) looping Hlk) as (I1 & I2 & I3 & I4).
        pose proof (looping_loops _ _ Htot) as Hlb.
        set (i' := (ideal_frames (total (b :: bs)) looping).2) in *. clearbody i'. unfold SamplerSpec.room. rewrite I1.
        cbn [looping id_loop id_loops id_elapsed] in *.
        split; [|split; [lia|]].
        + assert ((0 + 1 + Z.of_nat (length bs) + (id_loops i' - 0) + 3 * id_loops i' + 4) * unit
            <= (Z.of_nat (length bs) + 4 * Z.of_nat n + 6) * unit)%Z; [|lia]. apply Z.mul_le_mono_nonneg_r; lia.
        + assert ((Z.of_nat le - Z.of_nat ls) * id_loops i' <= (Z.of_nat le - Z.of_nat ls) * Z.of_nat n)%Z; [|lia].
          apply Z.mul_le_mono_nonneg_l; lia.
      - cbn [ideal_run]. rewrite Hpieces. cbn [acted ideal_pieces fmap option_fmap option_map SamplerSpec.ideal_frames].
        rewrite Ha1, Ha2, Hi. destruct (tail_heard (loop_plan one fade ls le) bs looping 0 (frames_in b)) as [T1 T2].
        { apply looping_heard. }
        destruct (ideal_frames (frames_in b) looping) as [h2 i2]. cbn [fst snd app] in *. rewrite app_nil_r. cbn [spread].
        by rewrite T1, T2.
    Qed.
  End looping.
End proofs.
