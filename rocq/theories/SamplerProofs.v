(** The sampler plays as specified, as long as rounding errors stay small. *)
From stdpp Require Import list list_numbers sorting.
From Coq Require Import ZArith ZifyBool ZifyNat.
From Verif Require Import Base Float Timestamp TimestampProofs EventProcessor EventProcessorSpec EventProcessorProofs
  Buffer BufferSpec BufferProofs Sampler SamplerSpec SamplerTime SamplerVoice.

(** ** Moving playback *)
Lemma start_free_find p vs : ∀ i0, start_free p i0 vs =
  match list_find silent vs with
  | Some (i, _) => Some (i0 + i, <[i := begin_at p]> vs)
  | None => None
  end.
Proof.
  induction vs as [|v vs IH]; intros i0; [done|]. cbn [start_free list_find].
  unfold voice_is_stopped. destruct (decide (silent v)) as [Hs|Hs].
  - unfold silent in Hs. rewrite Hs. rewrite Nat.add_0_r. cbn. unfold voice_start, begin_at. by destruct p.
  - unfold silent in Hs. destruct (vo_phase v) eqn:E; [done|..]; rewrite IH;
      destruct (list_find silent vs) as [[i w]|]; cbn; try done; repeat f_equal; lia.
Qed.

Lemma voice_stop_fade v : voice_stop v = fade_out v.
Proof. done. Qed.

Lemma start_voice_move sr p c ts :
  Z.to_nat (f64_round_usize (as_samples ts (Z.of_nat sr))) = p →
  let c' := assign_voice sr ts c in
  (sa_voices c', sa_active c') = move_to p (sa_voices c, sa_active c) ∧
  sa_loop c' = sa_loop c ∧ sa_position c' = sa_position c ∧ sa_start c' = sa_start c ∧ sa_loops c' = sa_loops c.
Proof.
  intros Hp. cbn zeta. unfold assign_voice. rewrite Hp. unfold active_position.
  assert (Hsv : let c' := start_voice p c in
    (sa_voices c', sa_active c') =
      match list_find silent (fade_out <$> sa_voices c) with
      | Some (i, _) => (<[i := begin_at p]> (fade_out <$> sa_voices c), Some i)
      | None => (fade_out <$> sa_voices c, None)
      end ∧
    sa_loop c' = sa_loop c ∧ sa_position c' = sa_position c ∧ sa_start c' = sa_start c ∧ sa_loops c' = sa_loops c).
  { cbn zeta. unfold start_voice. rewrite start_free_find. cbn [sampler_stop sa_voices sa_active].
    change (voice_stop <$> sa_voices c) with (fade_out <$> sa_voices c).
    destruct (list_find silent (fade_out <$> sa_voices c)) as [[i w]|]; cbn; auto. }
  cbn zeta in Hsv. unfold move_to.
  destruct (sa_active c) as [i|] eqn:Ea; cbn [mbind option_bind fmap option_fmap option_map].
  - destruct (sa_voices c !! i) as [v|] eqn:Ev; cbn.
    + destruct (Nat.eqb_spec (vo_position v) p) as [->|Hn].
      * rewrite decide_True by done. rewrite Ea. done.
      * rewrite decide_False by congruence. exact Hsv.
    + exact Hsv.
  - cbn. exact Hsv.
Qed.

Lemma fade_out_twice v : fade_out (fade_out v) = fade_out v.
Proof. destruct v as [p []]; done. Qed.

(** repeating the move changes nothing *)
Lemma move_to_twice p va : move_to p (move_to p va) = move_to p va.
Proof.
  destruct va as [vs a]. unfold move_to at 2 3. case_decide as Hd; [unfold move_to; by rewrite decide_True|].
  destruct (list_find silent (fade_out <$> vs)) as [[i w]|] eqn:E.
  - unfold move_to. rewrite decide_True; [done|]. cbn.
    apply list_find_Some in E as (Hl & _). rewrite list_lookup_insert; [done|]. by eapply lookup_lt_Some.
  - unfold move_to. rewrite decide_False by (cbn; congruence).
    assert (fade_out <$> (fade_out <$> vs) = fade_out <$> vs) as ->.
    { rewrite <-list_fmap_compose. apply list_fmap_ext. intros. apply fade_out_twice. }
    by rewrite E.
Qed.

Section proofs.
  Context {A : Type} (one : A) (add mul : A → A → A).
  Context (smp : owned A) (fade : list A) (sr : nat).
  Context (Hsmp : wf smp) (Hfade : 0 < length fade) (Hlen : (Z.of_nat (frames smp) <= 2 ^ 40)%Z).
  Context (Hsr : (0 < Z.of_nat sr <= 2 ^ 29)%Z).

  Local Notation mixed := (mixed add mul smp).
  Local Notation heard := (heard A).
  Local Notation ideal_frames := (ideal_frames one smp fade).
  Local Notation ideal_frame := (ideal_frame one smp fade).
  Local Notation all_frames := (all_frames one fade).
  Local Notation voice_ok := (voice_ok fade).
  Local Notation process_sample := (process_sample one add mul smp fade sr).
  Local Notation boundary := (boundary smp).
  Local Notation render_count := (render_count smp sr).
  Local Notation within := (within (Z.of_nat sr)).
  Local Notation unit := (Z.of_nat sr + 1)%Z.

  Lemma move_to_ok p vs a : Forall voice_ok vs → Forall voice_ok (move_to p (vs, a)).1.
  Proof.
    intros H. unfold move_to. case_decide; [done|].
    assert (H1 : Forall voice_ok (fade_out <$> vs)).
    { apply Forall_fmap. eapply Forall_impl; [exact H|]. intros [q []] Hv; cbn; done. }
    destruct (list_find _ _) as [[i w]|]; cbn; [|done].
    apply Forall_insert; [done|]. unfold begin_at, SamplerSpec.voice_ok. cbn. case_decide; [done|lia].
  Qed.

  (** ** The ideal sampler between boundaries *)
  Definition loop_ok (i : ideal) : Prop :=
    match id_loop i with Some (ls, le) => (0 <= ls < le)%Z ∧ (le <= 2 ^ 39)%Z | None => True end.

  Lemma ideal_frames_add n m i : ideal_frames (n + m) i =
    let (l1, i1) := ideal_frames n i in let (l2, i2) := ideal_frames m i1 in (l1 ++ l2, i2).
  Proof.
    revert i. induction n as [|n IH]; intros i; [cbn; by destruct (ideal_frames m i)|].
    cbn [plus SamplerSpec.ideal_frames]. destruct (ideal_frame i) as [h i1]. rewrite IH.
    destruct (ideal_frames n i1) as [l1 i2]. by destruct (ideal_frames m i2).
  Qed.
  Lemma ideal_frames_length n i : length (ideal_frames n i).1 = n.
  Proof.
    revert i. induction n as [|n IH]; intros i; [done|]. cbn. destruct (ideal_frame i) as [h i1].
    specialize (IH i1). destruct (ideal_frames n i1). cbn in *. congruence.
  Qed.

  Definition played (n : nat) (i : ideal) : ideal :=
    Ideal (all_frames n (id_voices i)).2 (id_active i) (id_loop i) (id_elapsed i + Z.of_nat n) (id_start i) (id_loops i).

  Lemma boundary_played n i : boundary (played n i) = boundary i.
  Proof. done. Qed.

  Lemma ideal_frames_play n : ∀ i, (id_elapsed i + Z.of_nat n <= boundary i)%Z →
    ideal_frames n i = ((all_frames n (id_voices i)).1, played n i).
  Proof.
    induction n as [|n IH]; intros i Hb.
    { cbn. unfold played. cbn. rewrite Z.add_0_r. by destruct i. }
    cbn [SamplerSpec.ideal_frames]. unfold SamplerSpec.ideal_frame.
    rewrite decide_False by lia. rewrite decide_False by lia.
    destruct (voices_frame one fade (id_voices i)) as [h vs1] eqn:Ev.
    rewrite IH by (cbn; unfold SamplerSpec.boundary in *; cbn; lia). cbn [id_voices].
    unfold played. cbn [id_voices id_active id_loop id_elapsed id_start id_loops SamplerVoice.all_frames].
    rewrite Ev. destruct (SamplerVoice.all_frames one fade n vs1) as [l vs2]. cbn [fst snd]. f_equal. f_equal. lia.
  Qed.

  Lemma ideal_frames_done n i : id_loop i = None → (boundary i <= id_elapsed i)%Z →
    ideal_frames n i = (replicate n [], i).
  Proof.
    intros Hl Hb. induction n as [|n IH]; [done|]. cbn. unfold SamplerSpec.ideal_frame. rewrite decide_True by done.
    by rewrite IH.
  Qed.

  Lemma jump_facts i ls le : id_loop i = Some (ls, le) → (ls < le)%Z → (boundary i <= id_elapsed i)%Z →
    id_loop (jump i) = id_loop i ∧ id_elapsed (jump i) = id_elapsed i ∧ id_start (jump i) = id_start i ∧
    (id_voices (jump i), id_active (jump i)) = move_to (Z.to_nat ls) (id_voices i, id_active i) ∧
    (id_loops i < id_loops (jump i))%Z ∧ (id_elapsed i < boundary (jump i))%Z ∧
    (le - id_start i + (le - ls) * (id_loops (jump i) - 1) <= id_elapsed i)%Z.
  Proof.
    intros El Hl Hb. unfold SamplerSpec.boundary in Hb |- *. unfold jump. rewrite El in Hb |- *.
    destruct (move_to (Z.to_nat ls) (id_voices i, id_active i)) as [vs a]. cbn.
    set (d := (id_elapsed i - (le - id_start i))%Z) in *. set (n := (le - ls)%Z) in *.
    pose proof (Z.div_mod d n ltac:(lia)) as Hd. pose proof (Z.mod_pos_bound d n ltac:(lia)) as Hm.
    do 4 (split; [done|]).
    assert (id_loops i <= d / n)%Z by (apply Z.div_le_lower_bound; lia).
    split; [lia|]. split; [|lia]. lia.
  Qed.

  Lemma ideal_frames_jump n i ls le : id_loop i = Some (ls, le) → (ls < le)%Z → (boundary i <= id_elapsed i)%Z →
    0 < n → ideal_frames n i = ideal_frames n (jump i).
  Proof.
    intros El Hl Hb Hn. destruct n as [|n]; [lia|]. cbn [SamplerSpec.ideal_frames].
    destruct (jump_facts i ls le El Hl Hb) as (J1 & J2 & J3 & J4 & J5 & J6 & J7).
    assert (ideal_frame i = ideal_frame (jump i)) as ->; [|done].
    unfold SamplerSpec.ideal_frame. rewrite (decide_False (P := id_loop i = None ∧ _)) by (rewrite El; intros [? ?]; done).
    rewrite (decide_False (P := id_loop (jump i) = None ∧ _)) by (rewrite J1, El; intros [? ?]; done).
    rewrite (decide_True (P := (boundary i <= id_elapsed i)%Z)) by done.
    rewrite (decide_False (P := (boundary (jump i) <= id_elapsed (jump i))%Z)) by (rewrite J2; lia). done.
  Qed.

  Lemma ideal_frame_same i : loop_ok i →
    let i' := (ideal_frame i).2 in
    id_loop i' = id_loop i ∧ id_start i' = id_start i ∧ (id_loops i <= id_loops i')%Z ∧
    (id_elapsed i <= id_elapsed i' <= id_elapsed i + 1)%Z.
  Proof.
    intros Hl. cbn zeta. unfold SamplerSpec.ideal_frame. case_decide as H1; [cbn; split; [done|]; split; [done|]; lia|].
    case_decide as H2; cbn; [|split; [done|]; split; [done|]; lia].
    destruct (id_loop i) as [[ls le]|] eqn:El; [|tauto]. unfold loop_ok in Hl. rewrite El in Hl.
    destruct (jump_facts i ls le El ltac:(lia) H2) as (J1 & J2 & J3 & J4 & J5 & J6 & J7). rewrite J1, J2, J3. 
    split; [done|]. split; [done|]. lia.
  Qed.
  Lemma ideal_frames_same n : ∀ i, loop_ok i →
    let i' := (ideal_frames n i).2 in
    id_loop i' = id_loop i ∧ id_start i' = id_start i ∧ (id_loops i <= id_loops i')%Z ∧
    (id_elapsed i <= id_elapsed i' <= id_elapsed i + Z.of_nat n)%Z.
  Proof.
    induction n as [|n IH]; intros i Hl; [cbn; split; [done|]; split; [done|]; lia|]. cbn zeta. cbn [SamplerSpec.ideal_frames].
    pose proof (ideal_frame_same i Hl) as H. cbn zeta in H. destruct (ideal_frame i) as [h i1]. cbn [snd] in H.
    destruct H as (H1 & H2 & H3 & H4). assert (Hl1 : loop_ok i1) by (unfold loop_ok; by rewrite H1).
    specialize (IH i1 Hl1). cbn zeta in IH. destruct (ideal_frames n i1) as [l i2]. cbn [snd] in *.
    destruct IH as (I1 & I2 & I3 & I4). split; [congruence|]. split; [congruence|]. lia.
  Qed.

  (** ** The relation *)
  Record srel (u : Z) (c : sampler) (i : ideal) : Prop := SRel {
    sr_voices : sa_voices c = id_voices i;
    sr_active : sa_active c = id_active i;
    sr_ok : Forall voice_ok (id_voices i);
    sr_loop : match sa_loop c, id_loop i with
      | None, None => True
      | Some (a, b), Some (ls, le) => within a ls unit ∧ within b le unit
      | _, _ => False end;
    sr_position : within (sa_position c) (id_elapsed i) (u * unit);
    sr_start : within (sa_start c) (id_start i) unit;
    sr_loops : Z.of_nat (sa_loops c) = id_loops i;
    sr_loop_ok : loop_ok i;
    sr_bounds : (0 <= id_start i <= 2 ^ 39)%Z;
    sr_elapsed : (- 2 ^ 39 <= id_elapsed i)%Z;
    sr_units : (0 <= u)%Z }.

  Local Notation room := (room sr).

  Lemma room_le u i u' i' : (u' <= u)%Z → (id_loops i' <= id_loops i)%Z →
    (id_elapsed i' <= id_elapsed i)%Z → id_loop i' = id_loop i → loop_ok i → room u i → room u' i'.
  Proof.
    intros H1 H2 H3 H4 Hl (R1 & R2 & R3). unfold SamplerSpec.room. rewrite H4. unfold loop_ok in Hl.
    split; [|split; [lia|]].
    - assert ((u' + 3 * id_loops i' + 4) * unit <= (u + 3 * id_loops i + 4) * unit)%Z; [|lia].
      apply Z.mul_le_mono_nonneg_r; lia.
    - destruct (id_loop i) as [[ls le]|]; [|done].
      assert ((le - ls) * id_loops i' <= (le - ls) * id_loops i)%Z; [|lia]. apply Z.mul_le_mono_nonneg_l; lia.
  Qed.

  Lemma within_sub a b n m e e' : within a n e → within b m e' → within (a - b) (n - m) (e + e').
  Proof. unfold SamplerTime.within. intros. rewrite !Z.mul_sub_distr_r. lia. Qed.
  Lemma within_add a b n m e e' : within a n e → within b m e' → within (a + b) (n + m) (e + e').
  Proof. unfold SamplerTime.within. intros. rewrite !Z.mul_add_distr_r. lia. Qed.

  Lemma boundary_within u c i : srel u c i → room u i →
    within (next_loop_position smp sr c) (boundary i) ((2 * id_loops i + 3) * unit + 2 ^ 26) ∧
    (boundary i <= 2 ^ 39 + 2 ^ 40)%Z.
  Proof.
    intros [Hv Ha Hok Hl Hp Hs Hn Hlo Hb He Hu] (R1 & R2 & R3). unfold next_loop_position, SamplerSpec.boundary.
    assert (Hn0 : (0 <= id_loops i)%Z) by lia.
    assert (HU : (0 < unit)%Z) by lia.
    assert (Hli : (0 <= id_loops i * unit)%Z) by (apply Z.mul_nonneg_nonneg; lia).
    unfold loop_ok in Hlo. destruct (sa_loop c) as [[a b]|], (id_loop i) as [[ls le]|]; try done.
    - destruct Hl as [W1 W2]. split; [|lia].
      assert (Hloops : (id_loops i <= 2 ^ 30)%Z).
      { assert ((3 * id_loops i) * 2 <= (u + 3 * id_loops i + 4) * unit)%Z by (apply Z.mul_le_mono_nonneg; lia). lia. }
      replace ((le - id_start i + (le - ls) * id_loops i))%Z with ((le - id_start i) + (le - ls) * id_loops i)%Z by ring.
      rewrite <-Hn. apply within_boundary; try lia.
      + eapply within_le; [|eapply within_sub; [exact W2|exact Hs]]. lia.
      + eapply within_le; [|eapply within_sub; [exact W2|exact W1]]. lia.
    - split; [|lia]. eapply within_le; [|apply within_frame_count; lia]. lia.
  Qed.

  Lemma render_count_ok u c i rem : srel u c i → room u i → (0 < Z.of_nat rem <= 2 ^ 20)%Z →
    render_count c rem = Z.to_nat (Z.min (Z.max 0 (boundary i - id_elapsed i)) (Z.of_nat rem)).
  Proof.
    intros Hrel Hroom Hrem. destruct (boundary_within u c i Hrel Hroom) as [Wb Bb].
    destruct Hrel as [Hv Ha Hok Hl Hp Hs Hn Hlo Hb He Hu]. destruct Hroom as (R1 & R2 & R3).
    unfold Sampler.render_count, get_render_interval, incremented_by_samples.
    set (ft := from_samples (f64_of_Z (Z.of_nat rem)) (Z.of_nat sr)).
    assert (Wf : within ft (Z.of_nat rem) unit) by (apply within_from_samples; lia).
    set (E := next_loop_position smp sr c) in *. clearbody E. clearbody ft.
    set (pos := sa_position c) in *. clearbody pos.
    assert (Hn0 : (0 <= id_loops i)%Z) by lia.
    assert (HlU : (0 <= id_loops i * unit)%Z) by (apply Z.mul_nonneg_nonneg; lia).
    assert (HuU : (0 <= u * unit)%Z) by (apply Z.mul_nonneg_nonneg; lia).
    assert (Wd : within (E - pos) (boundary i - id_elapsed i) (2 ^ 32 - 2 ^ 26)).
    { eapply within_le; [|eapply within_sub; [exact Wb|exact Hp]]. lia. }
    assert (HU4 : (4 * unit <= 2 ^ 32 - 2 ^ 27)%Z) by lia.
    assert (Wr : ((2 * id_loops i + 3) * unit + 2 ^ 26 + u * unit + unit <= 2 ^ 32 - 2 ^ 26)%Z) by lia.
    assert (Wd2 : within (E - pos) (boundary i - id_elapsed i) ((2 * id_loops i + 3) * unit + 2 ^ 26 + u * unit)).
    { eapply within_sub; [exact Wb|exact Hp]. }
    destruct (Z.ltb_spec (pos + ft) E) as [Hlt|Hge].
    - assert ((pos + ft - pos)%Z = ft) as -> by (unfold timestamp in *; lia). rewrite (round_near ft (Z.of_nat rem)); [|lia|lia|].
      2: { unfold SamplerTime.within in Wf. lia. }
      assert (Z.of_nat rem <= boundary i - id_elapsed i)%Z; [|lia].
      unfold SamplerTime.within in *. assert (ft * Z.of_nat sr <= (E - pos) * Z.of_nat sr)%Z by (apply Z.mul_le_mono_nonneg_r; lia).
      lia.
    - rewrite (round_near (E - pos) (boundary i - id_elapsed i)); [|lia|lia|exact Wd]. lia.
  Qed.

  (** ** Fuel *)
  Lemma process_sample_fuel k : ∀ fuel c out ov fp r, process_sample fuel c out ov fp = Ok r →
    process_sample (fuel + k) c out ov fp = Ok r.
  Proof.
    induction fuel as [|fuel IH]; intros c out ov fp r H.
    - cbn [Sampler.process_sample] in H. destruct (fp <? v_frames out ov) eqn:E; [done|].
      destruct k; cbn [plus Sampler.process_sample]; rewrite E; done.
    - cbn [plus Sampler.process_sample] in *. destruct (fp <? v_frames out ov); [|done].
      destruct (Nat.eqb _ 0).
      + destruct (sa_loop c); [by apply IH|done].
      + destruct (slice_frames out ov fp _) as [sv|]; cbn [rbind] in *; [|done].
        destruct (render_voices _ _ _ _ _ _ _ sv) as [[vs o]|]; cbn [rbind] in *; [|done]. by apply IH.
  Qed.

  (** ** Jumping back *)
  Lemma finish_sample_rel u c i ls le : srel u c i → id_loop i = Some (ls, le) →
    srel u (finish_sample sr c)
      (let (vs, a) := move_to (Z.to_nat ls) (id_voices i, id_active i) in
       Ideal vs a (id_loop i) (id_elapsed i) (id_start i) (id_loops i + 1)).
  Proof.
    intros [Hv Ha Hok Hl Hp Hs Hn Hlo Hb He Hu] El. unfold finish_sample. rewrite El in Hl.
    unfold loop_ok in Hlo. rewrite El in Hlo.
    destruct (sa_loop c) as [[a b]|] eqn:Ec; [|done]. destruct Hl as [W1 W2].
    set (c0 := Sampler (sa_voices c) (sa_active c) (Some (a, b)) (sa_position c) (sa_start c) (S (sa_loops c))).
    assert (Hr : Z.to_nat (f64_round_usize (as_samples a (Z.of_nat sr))) = Z.to_nat ls).
    { rewrite (round_near a ls); [lia|lia|lia|]. unfold SamplerTime.within in W1. lia. }
    destruct (start_voice_move sr (Z.to_nat ls) c0 a Hr) as (M1 & M2 & M3 & M4 & M5).
    set (c1 := assign_voice sr a c0) in *. clearbody c1. cbn [c0 sa_voices sa_active sa_loop sa_position sa_start sa_loops] in *.
    rewrite Hv, Ha in M1. pose proof (move_to_ok (Z.to_nat ls) (id_voices i) (id_active i) Hok) as Hok'.
    destruct (move_to (Z.to_nat ls) (id_voices i, id_active i)) as [vs act]. cbn [fst] in Hok'.
    injection M1 as M1 M1'.
    constructor; cbn [id_voices id_active id_loop id_elapsed id_start id_loops]; try done.
    - rewrite M2, El. done.
    - rewrite M3. done.
    - rewrite M4. done.
    - rewrite M5. lia.
    - unfold loop_ok. cbn. by rewrite El.
  Qed.

  Lemma catch_up u ls le : ∀ t c i, srel u c i → id_loop i = Some (ls, le) → (boundary i <= id_elapsed i)%Z →
    (id_loops (jump i) - id_loops i = Z.of_nat (S t))%Z → room u (jump i) →
    ∃ c1, srel u c1 (jump i) ∧
      ∀ fuel out ov fp, fp < v_frames out ov → (Z.of_nat (v_frames out ov) <= 2 ^ 20)%Z →
        process_sample (S t + fuel) c out ov fp = process_sample fuel c1 out ov fp.
  Proof.
    induction t as [|t IH]; intros c i Hrel El Hb Ht Hroom.
    all: assert (Hll : (0 <= ls < le)%Z ∧ (le <= 2 ^ 39)%Z)
      by (pose proof (sr_loop_ok _ _ _ Hrel) as Hlo; unfold loop_ok in Hlo; by rewrite El in Hlo).
    all: destruct (jump_facts i ls le El ltac:(lia) Hb) as (J1 & J2 & J3 & J4 & J5 & J6 & J7).
    all: assert (Hroom0 : room u i)
      by (eapply (room_le u (jump i)); [lia|lia|lia|done|unfold loop_ok; by rewrite J1, El|done]).
    all: assert (Hstep : ∀ fuel out ov fp, fp < v_frames out ov → (Z.of_nat (v_frames out ov) <= 2 ^ 20)%Z →
        process_sample (S fuel) c out ov fp = process_sample fuel (finish_sample sr c) out ov fp).
    1,3: intros fuel out ov fp Hfp Hv; cbn [Sampler.process_sample];
      destruct (Nat.ltb_spec fp (v_frames out ov)); [|lia];
      rewrite (render_count_ok u c i) by (done || lia);
      replace (Z.to_nat _) with 0 by lia; cbn [Nat.eqb];
      pose proof (sr_loop _ _ _ Hrel) as Hl; rewrite El in Hl; destruct (sa_loop c); done.
    all: pose proof (finish_sample_rel u c i ls le Hrel El) as Hrel1.
    all: unfold jump in Ht, J4, J5, J6, J7, Hroom |- *; rewrite El in Ht, J4, J5, J6, J7, Hroom, Hrel1 |- *.
    all: pose proof (move_to_twice (Z.to_nat ls) (id_voices i, id_active i)) as Htw.
    all: destruct (move_to (Z.to_nat ls) (id_voices i, id_active i)) as [vs a] eqn:Em.
    all: cbn [id_voices id_active id_loop id_elapsed id_start id_loops] in *.
    - exists (finish_sample sr c). split.
      + replace ((id_elapsed i - (le - id_start i)) `div` (le - ls) + 1)%Z with (id_loops i + 1)%Z by lia. done.
      + intros fuel out ov fp Hfp Hv. apply Hstep; done.
    - set (i1 := Ideal vs a (Some (ls, le)) (id_elapsed i) (id_start i) (id_loops i + 1)) in *.
      assert (Hj : jump i1 = Ideal vs a (Some (ls, le)) (id_elapsed i) (id_start i)
                 ((id_elapsed i - (le - id_start i)) `div` (le - ls) + 1)).
      { unfold jump. cbn [i1 id_voices id_active id_loop id_elapsed id_start id_loops]. by rewrite Htw. }
      destruct (IH (finish_sample sr c) i1 Hrel1) as (c1 & Hc1 & Hp1).
      + done.
      + unfold SamplerSpec.boundary, i1. cbn.
        assert ((le - ls) * (id_loops i + 1) <= (le - ls) * ((id_elapsed i - (le - id_start i)) `div` (le - ls) + 1 - 1))%Z
          by (apply Z.mul_le_mono_nonneg_l; lia). lia.
      + rewrite Hj. cbn. lia.
      + by rewrite Hj.
      + rewrite Hj in Hc1. exists c1. split; [done|]. intros fuel out ov fp Hfp Hv.
        change (S (S t) + fuel) with (S (S t + fuel)). rewrite Hstep by done. by apply Hp1.
  Qed.

  (** ** Playing a piece *)
  Definition bonus (rem : nat) (i : ideal) : Z :=
    if decide (0 < rem ∧ (id_elapsed i < boundary i)%Z) then 1 else 0.
  Definition piece_ok (rem : nat) : Prop := ∀ u c i out ov fp,
    srel u c i → wf out → valid_view out ov → (fp + rem)%nat = v_frames out ov → (Z.of_nat (v_frames out ov) <= 2 ^ 20)%Z →
    room (u + bonus rem i + (id_loops (ideal_frames rem i).2 - id_loops i)) (ideal_frames rem i).2 →
    ∃ fuel c' out' u', process_sample fuel c out ov fp = Ok (c', out') ∧
      srel u' c' (ideal_frames rem i).2 ∧
      (u' <= u + bonus rem i + (id_loops (ideal_frames rem i).2 - id_loops i))%Z ∧
      mixed ov fp (ideal_frames rem i).1 out out'.

  Lemma piece_play rem : (∀ m, m < rem → piece_ok m) → ∀ u c i out ov fp,
    srel u c i → wf out → valid_view out ov → 0 < rem → (fp + rem)%nat = v_frames out ov →
    (Z.of_nat (v_frames out ov) <= 2 ^ 20)%Z → (id_elapsed i < boundary i)%Z →
    room (u + 1 + (id_loops (ideal_frames rem i).2 - id_loops i)) (ideal_frames rem i).2 →
    ∃ fuel c' out' u', process_sample fuel c out ov fp = Ok (c', out') ∧
      srel u' c' (ideal_frames rem i).2 ∧
      (u' <= u + 1 + (id_loops (ideal_frames rem i).2 - id_loops i))%Z ∧
      mixed ov fp (ideal_frames rem i).1 out out'.
  Proof.
    intros IH u c i out ov fp Hrel Hw Hv Hrem Hfp Hsz Hb Hroom.
    pose proof (sr_loop_ok _ _ _ Hrel) as Hlo. destruct (ideal_frames_same rem i Hlo) as (I1 & I2 & I3 & I4).
    assert (Hroom0 : room u i).
    { eapply room_le; [| | | |unfold loop_ok; rewrite I1; exact Hlo|exact Hroom]; [lia|lia|lia|done]. }
    set (j := Z.to_nat (Z.min (boundary i - id_elapsed i) (Z.of_nat rem))).
    assert (Hj : 0 < j ≤ rem) by lia.
    assert (Hjb : (id_elapsed i + Z.of_nat j <= boundary i)%Z) by lia.
    pose proof (ideal_frames_add j (rem - j) i) as Hadd. replace (j + (rem - j)) with rem in Hadd by lia.
    rewrite (ideal_frames_play j i Hjb) in Hadd.
    (* the slice *)
    destruct (ideal_frames (rem - j) (played j i)) as [l2 i2] eqn:E2.
    rewrite Hadd in *. cbn [fst snd] in *.
    set (r := Range 0 fp (v_channels out ov) j).
    assert (Hsl : slice_frames out ov fp j = Ok (Sub ov r)).
    { unfold slice_frames, slice, range_is_valid. cbn. destruct (Nat.leb_spec (v_channels out ov) (v_channels out ov)); [|lia].
      destruct (Nat.leb_spec (fp + j) (v_frames out ov)); [done|lia]. }
    assert (Hvs : valid_view out (Sub ov r)) by (cbn; split; [done|]; lia).
    pose proof (sr_ok _ _ _ Hrel) as Hok.
    destruct (render_voices_ok one add mul smp fade Hsmp Hfade (id_voices i) out (Sub ov r) Hw Hvs Hok) as (o1 & Er & Hm1).
    cbn [v_frames r r_frames] in Er, Hm1. change (v_frames out (Sub ov r)) with j in Er, Hm1.
    apply mixed_sub in Hm1. destruct (mixed_valid _ _ _ _ _ _ _ _ Hm1 Hv) as (W1 & V1 & F1 & C1).
    set (c1 := Sampler (all_frames j (id_voices i)).2 (sa_active c) (sa_loop c)
                 (incremented_by_samples (sa_position c) (Z.of_nat j) (Z.of_nat sr)) (sa_start c) (sa_loops c)).
    assert (Hstep : ∀ fuel, process_sample (S fuel) c out ov fp = process_sample fuel c1 o1 ov (fp + j)).
    { intros fuel. cbn [Sampler.process_sample]. destruct (Nat.ltb_spec fp (v_frames out ov)); [|lia].
      replace (v_frames out ov - fp) with rem by lia.
      rewrite (render_count_ok u c i) by (done || lia).
      replace (Z.to_nat _) with j by lia. destruct (Nat.eqb_spec j 0); [lia|].
      rewrite Hsl. cbn [rbind]. rewrite (sr_voices _ _ _ Hrel), Er. cbn [rbind]. done. }
    assert (Hrel1 : srel (u + 1) c1 (played j i)).
    { destruct Hrel as [Hvo Ha Hok' Hl Hp Hs Hn Hlo' Hbd He Hu].
      constructor; cbn [c1 played sa_voices sa_active sa_loop sa_position sa_start sa_loops
        id_voices id_active id_loop id_elapsed id_start id_loops]; try done; try lia.
      - by apply all_frames_ok.
      - unfold incremented_by_samples. eapply within_le; [|eapply within_add; [exact Hp|apply within_from_samples; lia]]. lia. }
    destruct (decide (rem - j = 0)) as [Hz|Hz].
    - rewrite Hz in E2. cbn in E2. injection E2 as <- <-. exists 1, c1, o1, (u + 1)%Z.
      split.
      { rewrite Hstep. cbn [Sampler.process_sample]. destruct (Nat.ltb_spec (fp + j) (v_frames o1 ov)); [lia|done]. }
      split; [done|]. split; [cbn; lia|]. by rewrite app_nil_r.
    - destruct (IH (rem - j) ltac:(lia) (u + 1)%Z c1 (played j i) o1 ov (fp + j)) as (fuel & c' & o' & u' & P1 & P2 & P3 & P4);
        try done; try lia.
      + unfold bonus. rewrite decide_False by (rewrite boundary_played; cbn; lia).
        rewrite E2. cbn [snd played id_loops]. by rewrite Z.add_0_r.
      + rewrite E2 in *. cbn [fst snd] in *. unfold bonus in P3. 
        rewrite decide_False in P3 by (rewrite boundary_played; cbn; lia). cbn [played id_loops] in P3.
        exists (S fuel), c', o', u'. split; [by rewrite Hstep|]. split; [done|]. split; [lia|].
        eapply mixed_app; [eassumption|exact Hm1|]. by rewrite all_frames_length.
  Qed.

  Lemma process_sample_ok rem : piece_ok rem.
  Proof.
    induction rem as [rem IH] using (well_founded_induction lt_wf).
    intros u c i out ov fp Hrel Hw Hv Hfp Hsz Hroom.
    destruct (decide (rem = 0)) as [->|Hrem].
    { cbn [SamplerSpec.ideal_frames fst snd] in *. exists 0, c, out, u. split.
      { cbn [Sampler.process_sample]. destruct (Nat.ltb_spec fp (v_frames out ov)); [lia|done]. }
      split; [done|]. split; [unfold bonus; rewrite decide_False by lia; lia|]. by eapply mixed_refl. }
    destruct (Z_lt_le_dec (id_elapsed i) (boundary i)) as [Hb|Hb].
    { unfold bonus in *. rewrite decide_True in * by lia. by apply piece_play; try lia. }
    unfold bonus in *. rewrite decide_False in * by lia.
    pose proof (sr_loop_ok _ _ _ Hrel) as Hlo. destruct (ideal_frames_same rem i Hlo) as (I1 & I2 & I3 & I4).
    destruct (id_loop i) as [[ls le]|] eqn:El.
    - assert (Hll : (ls < le)%Z) by (unfold loop_ok in Hlo; rewrite El in Hlo; lia).
      destruct (jump_facts i ls le El Hll Hb) as (J1 & J2 & J3 & J4 & J5 & J6 & J7).
      rewrite (ideal_frames_jump rem i ls le El Hll Hb) in * by lia.
      assert (Hlj : loop_ok (jump i)) by (unfold loop_ok in *; by rewrite J1).
      destruct (ideal_frames_same rem (jump i) Hlj) as (K1 & K2 & K3 & K4).
      set (i' := (ideal_frames rem (jump i)).2) in *.
      assert (Hroomj : room u (jump i)).
      { eapply room_le; [| | | |unfold loop_ok; rewrite K1; exact Hlj|exact Hroom]; [lia|lia|lia|done]. }
      destruct (catch_up u ls le (Z.to_nat (id_loops (jump i) - id_loops i - 1)) c i Hrel El Hb) as (c1 & Hc1 & Hp);
        [lia|done|].
      destruct (piece_play rem IH u c1 (jump i) out ov fp) as (fuel & c' & o' & u' & P1 & P2 & P3 & P4); try done; try lia.
      { fold i'. eapply room_le; [| | | |unfold loop_ok; rewrite K1; exact Hlj|exact Hroom]; [lia|lia|lia|done]. }
      exists (S (Z.to_nat (id_loops (jump i) - id_loops i - 1)) + fuel), c', o', u'.
      split; [rewrite Hp by lia; done|]. split; [done|]. split; [fold i' in P3; lia|done].
    - rewrite (ideal_frames_done rem i El Hb) in *. cbn [fst snd] in *.
      exists 1, c, out, u. split.
      { cbn [Sampler.process_sample]. destruct (Nat.ltb_spec fp (v_frames out ov)); [|lia].
        rewrite (render_count_ok u c i); [|done|eapply room_le; [| | | |exact Hlo|exact Hroom]; lia || done|lia].
        replace (Z.to_nat _) with 0 by lia. cbn [Nat.eqb].
        pose proof (sr_loop _ _ _ Hrel) as Hl. rewrite El in Hl. by destruct (sa_loop c) as [[? ?]|]. }
      split; [done|]. split; [lia|]. eapply mixed_noop; [eassumption..|].
      intros ch x h Hh. apply elem_of_replicate in Hh as [-> _]. done.
  Qed.

  (** ** Actions *)
  Lemma srel_mono u u' c i : (u <= u')%Z → srel u c i → srel u' c i.
  Proof.
    intros Hu [Hv Ha Hok Hl Hp Hs Hn Hlo Hb He Hu0]. constructor; try done; [|lia].
    eapply within_le; [|exact Hp]. apply Z.mul_le_mono_nonneg_r; lia.
  Qed.

  Lemma fade_out_ok vs : Forall voice_ok vs → Forall voice_ok (fade_out <$> vs).
  Proof. intros H. apply Forall_fmap. eapply Forall_impl; [exact H|]. intros [q []] Hv; cbn; done. Qed.

  Lemma start_rel u w c i p d q n : srel u c i →
    (0 <= w)%Z → ((w + 1) * unit <= 2 ^ 32 - 2 ^ 26)%Z →
    within p q unit → (0 <= q <= 2 ^ 39)%Z → within d n (w * unit) → (Z.abs n <= 2 ^ 39)%Z →
    srel w (sampler_start sr p d c) (ideal_act (IStart q n) i).
  Proof.
    intros [Hv Ha Hok Hl Hp Hs Hn Hlo Hb He Hu] Hw Hw2 Wp Hq Wd Hn'. unfold sampler_start.
    assert (Hr : Z.to_nat (f64_round_usize (as_samples (p + d)%Z (Z.of_nat sr))) = Z.to_nat (q + n)).
    { rewrite (round_near (p + d)%Z (q + n)%Z); [lia|lia|lia|].
      pose proof (within_add _ _ _ _ _ _ Wp Wd) as W. unfold SamplerTime.within in W. lia. }
    destruct (start_voice_move sr (Z.to_nat (q + n)) c (p + d)%Z Hr) as (M1 & M2 & M3 & M4 & M5).
    set (c1 := assign_voice sr (p + d)%Z c) in *. clearbody c1. rewrite Hv, Ha in M1. cbn [ideal_act].
    pose proof (move_to_ok (Z.to_nat (q + n)) (id_voices i) (id_active i) Hok) as Hok'.
    destruct (move_to (Z.to_nat (q + n)) (id_voices i, id_active i)) as [vs act]. cbn [fst] in Hok'.
    injection M1 as M1 M1'.
    constructor; cbn [sa_voices sa_active sa_loop sa_position sa_start sa_loops
      id_voices id_active id_loop id_elapsed id_start id_loops]; try done; try lia.
    by rewrite M2.
  Qed.

  Lemma within_zero e : (0 <= e)%Z → within 0 0 e.
  Proof. unfold SamplerTime.within. lia. Qed.

  Lemma handle_rel u w c i e cur : srel u c i → on_grid sr w e cur →
    srel (units_after u w e) (sampler_handle sr c e cur) (ideal_act (action_of sr e cur) i).
  Proof.
    intros Hrel. unfold on_grid, units_after, sampler_handle, action_of.
    destruct (ev_data e) as [p| | |ls le| |]; intros H.
    - destruct H as (H1 & H2 & H3 & H4 & H5 & H6). by eapply start_rel.
    - eapply start_rel; [exact Hrel|lia|lia|apply within_zero; lia|lia|apply within_zero; lia|lia].
    - destruct Hrel as [Hv Ha Hok Hl Hp Hs Hn Hlo Hb He Hu]. constructor; try done.
      + cbn. by rewrite Hv.
      + cbn. by apply fade_out_ok.
    - destruct H as (H1 & H2 & H3 & H4). destruct Hrel as [Hv Ha Hok Hl Hp Hs Hn Hlo Hb He Hu]. constructor; try done.
    - destruct Hrel as [Hv Ha Hok Hl Hp Hs Hn Hlo Hb He Hu]. constructor; try done.
    - destruct Hrel as [Hv Ha Hok Hl Hp Hs Hn Hlo Hb He Hu]. constructor; try done.
      + cbn. by rewrite Hv.
      + cbn. by apply fade_out_ok.
  Qed.

  (** ** A block *)
  Local Notation sampler_piece := (sampler_piece one add mul smp fade sr).
  Local Notation do_pieces fuel ov := (rfold (do_piece (sampler_piece fuel ov) (sampler_act sr) sr)).

  Lemma do_pieces_fuel k fuel ov l : ∀ x r, do_pieces fuel ov l x = Ok r → do_pieces (fuel + k) ov l x = Ok r.
  Proof.
    induction l as [|[[pos n] e] l IH]; intros [[c out] cur] r H; [done|]. cbn [rfold] in *.
    unfold do_piece at 1 in H. unfold do_piece at 1. unfold Sampler.sampler_piece in *.
    destruct (slice_frames out ov pos n) as [sv|]; cbn [rbind] in *; [|done].
    destruct (process_sample fuel c out sv 0) as [[c1 o1]|] eqn:E; cbn [rbind] in *; [|done].
    rewrite (process_sample_fuel k _ _ _ _ _ _ E). cbn [rbind].
    destruct e as [e|]; cbn [sampler_act rbind] in *; by apply IH.
  Qed.

  Lemma piece_refines u c i out ov pos n : srel u c i → wf out → valid_view out ov →
    pos + n ≤ v_frames out ov → (Z.of_nat n <= 2 ^ 20)%Z →
    room (u + 1 + (id_loops (ideal_frames n i).2 - id_loops i)) (ideal_frames n i).2 →
    ∃ fuel c' out', sampler_piece fuel ov (c, out) pos n = Ok (c', out') ∧
      srel (u + 1 + (id_loops (ideal_frames n i).2 - id_loops i)) c' (ideal_frames n i).2 ∧
      mixed ov pos (ideal_frames n i).1 out out'.
  Proof.
    intros Hrel Hw Hv Hpos Hn Hroom. set (r := Range 0 pos (v_channels out ov) n).
    assert (Hsl : slice_frames out ov pos n = Ok (Sub ov r)).
    { unfold slice_frames, slice, range_is_valid. cbn [r_channel r_channels r_frame r_frames].
      destruct (Nat.leb_spec (0 + v_channels out ov) (v_channels out ov)); [|lia].
      destruct (Nat.leb_spec (pos + n) (v_frames out ov)); [done|lia]. }
    assert (Hvs : valid_view out (Sub ov r)) by (cbn; split; [done|]; lia).
    pose proof (sr_loop_ok _ _ _ Hrel) as Hlo. destruct (ideal_frames_same n i Hlo) as (I1 & I2 & I3 & I4).
    assert (Hb : (0 <= bonus n i <= 1)%Z) by (unfold bonus; case_decide; lia).
    destruct (process_sample_ok n u c i out (Sub ov r) 0) as (fuel & c' & o' & u' & P1 & P2 & P3 & P4); try done.
    { eapply room_le; [| | | |unfold loop_ok; rewrite I1; exact Hlo|exact Hroom]; [lia|lia|lia|done]. }
    exists fuel, c', o'. unfold Sampler.sampler_piece. rewrite Hsl. cbn [rbind]. split; [done|].
    split; [eapply srel_mono; [|exact P2]; lia|]. by eapply mixed_sub.
  Qed.

  Lemma cut_length fc : ∀ l i cur pos, cut fc pos l →
    length (ideal_pieces one smp fade (acted sr cur l) i).1 = fc - pos.
  Proof.
    induction l as [|[[p n] e] l IH]; intros i cur pos Hc; [done|]. cbn [acted ideal_pieces].
    pose proof (ideal_frames_length n i) as Hl. destruct (ideal_frames n i) as [h1 i1]. cbn [fst] in Hl.
    destruct e as [e|]; cbn [fmap option_fmap option_map].
    - destruct Hc as (-> & Hlt & Hc).
      specialize (IH (ideal_act (action_of sr e (incremented_by_samples cur (Z.of_nat n) (Z.of_nat sr))) i1)
        (incremented_by_samples cur (Z.of_nat n) (Z.of_nat sr)) _ Hc).
      destruct (ideal_pieces _ _ _ _ _) as [h2 i2]. cbn [fst] in *. rewrite app_length. lia.
    - destruct Hc as (-> & Hlt & ->). cbn. rewrite app_nil_r. lia.
  Qed.

  Lemma pieces_refine ov (next : Z → ideal → Prop) : ∀ l u c i out cur pos,
    srel u c i → wf out → valid_view out ov → (Z.of_nat (v_frames out ov) <= 2 ^ 20)%Z →
    cut (v_frames out ov) pos l → accurate one smp fade sr u cur l i next →
    ∃ fuel c' out' cur' u', do_pieces fuel ov l ((c, out), cur) = Ok ((c', out'), cur') ∧
      srel u' c' (ideal_pieces one smp fade (acted sr cur l) i).2 ∧
      next u' (ideal_pieces one smp fade (acted sr cur l) i).2 ∧
      mixed ov pos (ideal_pieces one smp fade (acted sr cur l) i).1 out out'.
  Proof.
    induction l as [|[[p n] e] l IH]; intros u c i out cur pos Hrel Hw Hv Hsz Hcut Hacc; [done|].
    cbn [acted ideal_pieces]. cbn [accurate] in Hacc. destruct Hacc as [Hroom Hacc].
    assert (p = pos ∧ pos + n ≤ v_frames out ov) as [-> Hpn] by (cbn in Hcut; destruct e; lia).
    destruct (piece_refines u c i out ov pos n Hrel Hw Hv) as (f1 & c1 & o1 & P1 & P2 & P3); [lia|lia|done|].
    pose proof (ideal_frames_length n i) as Hl.
    destruct (ideal_frames n i) as [h1 i1] eqn:Ei. cbn [fst snd] in *.
    set (cur' := incremented_by_samples cur (Z.of_nat n) (Z.of_nat sr)) in *.
    destruct (mixed_valid _ _ _ _ _ _ _ _ P3 Hv) as (W1 & V1 & F1 & C1).
    destruct e as [e|]; cbn [fmap option_fmap option_map].
    - destruct Hacc as (w & Hgrid & Hacc). cbn [cut] in Hcut. destruct Hcut as (_ & Hlt & Hcut).
      destruct (IH (units_after (u + 1 + (id_loops i1 - id_loops i)) w e) (sampler_handle sr c1 e cur')
        (ideal_act (action_of sr e cur') i1) o1 cur' (pos + n)) as (f2 & c2 & o2 & cur2 & u2 & Q1 & Q2 & Q3 & Q4); try done.
      + by apply handle_rel.
      + by rewrite F1.
      + by rewrite F1.
      + exists (f1 + f2), c2, o2, cur2, u2.
        destruct (ideal_pieces one smp fade (acted sr cur' l) (ideal_act (action_of sr e cur') i1)) as [h2 i2].
        cbn [fst snd] in *. split.
        { cbn [rfold]. unfold do_piece at 1. unfold Sampler.sampler_piece in *.
          destruct (slice_frames out ov pos n) as [sv|]; cbn [rbind] in *; [|done].
          rewrite (process_sample_fuel f2 _ _ _ _ _ _ P1). cbn [rbind sampler_act]. fold cur'.
          rewrite (Nat.add_comm f1 f2). by apply do_pieces_fuel. }
        split; [done|]. split; [done|]. eapply mixed_app; [eassumption|exact P3|]. by rewrite Hl.
    - cbn [cut] in Hcut. destruct Hcut as (_ & Hend & ->). cbn [accurate] in Hacc. cbn [acted ideal_pieces fst snd].
      rewrite app_nil_r. exists f1, c1, o1, cur', (u + 1 + (id_loops i1 - id_loops i))%Z. split.
      { cbn [rfold]. unfold do_piece. rewrite P1. cbn [rbind]. done. }
      done.
  Qed.

  Local Notation sampler_run := (sampler_run one add mul smp fade).

  Lemma sampler_run_fuel k fuel : ∀ bs q c outs, sampler_run fuel sr q c bs = Ok outs →
    sampler_run (fuel + k) sr q c bs = Ok outs.
  Proof.
    induction bs as [|b bs IH]; intros q c outs H; [done|]. cbn [SamplerSpec.sampler_run] in *.
    set (q1 := fold_left _ _ q) in *. unfold sampler_block in *.
    destruct (event_block (sampler_piece fuel (sb_view b)) (sampler_act sr) (sb_start b)
      (v_frames (sb_out b) (sb_view b)) q1 (c, sb_out b)) as [[q' [c' o']]|] eqn:E; cbn [rbind] in *; [|done].
    assert (event_block (sampler_piece (fuel + k) (sb_view b)) (sampler_act sr) (sb_start b)
      (v_frames (sb_out b) (sb_view b)) q1 (c, sb_out b) = Ok (q', (c', o'))) as ->.
    { clear -E. unfold event_block in *. set (qr := receive_events q1) in *.
      destruct (event_loop (sampler_piece fuel (sb_view b)) (sampler_act sr) _ _ _ _ _ _ _ _) as [[rest x]|] eqn:El;
        cbn [rbind] in E; [|done].
      enough (Hm : ∀ f pending pos cur y r, event_loop (sampler_piece fuel (sb_view b)) (sampler_act sr) f (ep_rate q1)
          (v_frames (sb_out b) (sb_view b)) (sb_start b) pending pos cur y = Ok r →
        event_loop (sampler_piece (fuel + k) (sb_view b)) (sampler_act sr) f (ep_rate q1)
          (v_frames (sb_out b) (sb_view b)) (sb_start b) pending pos cur y = Ok r).
      { rewrite (Hm _ _ _ _ _ _ El). done. }
      clear. induction f as [|f IH]; intros pending pos cur [c out] r H; cbn [event_loop] in *.
      - done.
      - destruct (pos <? _); [|done]. destruct (next_event _ _ _ _ _) as [[ef e] rest].
        destruct (ef <? pos); [done|]. unfold Sampler.sampler_piece in *.
        destruct (slice_frames out (sb_view b) pos (ef - pos)) as [sv|]; cbn [rbind] in *; [|done].
        destruct (process_sample fuel c out sv 0) as [[c1 o1]|] eqn:E; cbn [rbind] in *; [|done].
        rewrite (process_sample_fuel k _ _ _ _ _ _ E). cbn [rbind].
        destruct e as [e|]; cbn [sampler_act rbind] in *; by apply IH. }
    cbn [rbind] in *. destruct (sampler_run fuel sr q' c' bs) as [outs'|] eqn:Er; cbn [rbind] in *; [|done].
    by rewrite (IH _ _ _ Er).
  Qed.

  Lemma send_all (es : list (event sample_action)) : ∀ q, fold_left (λ q e, send_event e q) es q
    = EvProc (ep_pending q) (ep_channel q ++ es) (ep_rate q).
  Proof.
    induction es as [|e es IH]; intros q; cbn; [rewrite app_nil_r; by destruct q|]. rewrite IH. cbn.
    by rewrite <-app_assoc.
  Qed.

  Theorem sampler_refines : ∀ bs waiting,
    Forall (sblock_ok sr) bs → StronglySorted ev_before waiting →
    ∃ ds, handled sr waiting bs ds ∧
      ∀ u c i, srel u c i → accurate_run one smp fade sr u i bs ds →
        ∃ fuel outs, sampler_run fuel sr (EvProc waiting [] sr) c bs = Ok outs ∧
          Forall3 (λ b hs out, mixed (sb_view b) 0 hs (sb_out b) out) bs (ideal_run one smp fade sr i bs ds) outs.
  Proof.
    induction bs as [|b bs IH]; intros waiting Hbs Hsort.
    { exists []. split; [done|]. intros u c i _ _. exists 0, []. split; [done|]. constructor. }
    apply Forall_cons in Hbs as [(Hw & Hv & Hbk) Hbs].
    destruct (event_block_all sr Hsr (sb_start b) (v_frames (sb_out b) (sb_view b))
      (EvProc waiting (sb_sent b) sr) Hbk eq_refl Hsort) as (live & d & rest & D1 & D2 & D3 & D4 & D5).
    destruct (IH rest Hbs D4) as (ds & Hds & Hrun).
    exists (d :: ds). split; [by exists live, rest|].
    intros u c i Hrel Hacc. cbn [accurate_run] in Hacc. unfold block_pieces in Hacc.
    assert (Hsz : (Z.of_nat (v_frames (sb_out b) (sb_view b)) <= 2 ^ 20)%Z) by (destruct Hbk as (? & ? & ?); lia).
    destruct (pieces_refine (sb_view b) _ _ u c i (sb_out b) (sb_start b) 0 Hrel Hw Hv Hsz D3 Hacc)
      as (f1 & c' & o' & cur' & u' & P1 & P2 & P3 & P4).
    cbn [ideal_run]. unfold block_pieces.
    destruct (ideal_pieces one smp fade _ i) as [hs i'] eqn:Ei. cbn [fst snd] in *.
    destruct (Hrun u' c' i' P2 P3) as (f2 & outs & R1 & R2).
    exists (f1 + f2), (o' :: outs). split; [|by constructor].
    cbn [SamplerSpec.sampler_run]. rewrite send_all. cbn [ep_pending ep_channel ep_rate app]. unfold sampler_block.
    rewrite D5. rewrite (do_pieces_fuel f2 f1 _ _ _ _ P1). cbn [rbind].
    rewrite (Nat.add_comm f1 f2), (sampler_run_fuel f1 f2 _ _ _ _ R1). done.
  Qed.

  Lemma new_sampler_rel : srel 0 new_sampler new_ideal.
  Proof.
    constructor; try done; try (cbn; lia).
    - repeat constructor.
    - cbn. apply within_zero. lia.
  Qed.
End proofs.
