(** Property theorems about the ADSR node. *)
From stdpp Require Import sets list list_numbers.
From Coq Require Import Reals Lra Lia.
From Verif Require Import Base Buffer BufferSpec EffectSpec Float Timestamp TimestampProofs EventProcessor EventProcessorSpec Adsr AdsrSpec AdsrProofs AdsrCurve AdsrNote AdsrRange.
Local Open Scope R_scope.

(** C39: the envelope stays between 0 and 1, whatever the history of notes and settings. *)
Theorem C39_range (sr : nat) (ops : list adsr_op) :
  (0 < sr)%nat → Forall op_ok ops → Forall (λ v, 0 <= v <= 1) (env_values sr ops).
Proof. intros Hsr Hok. exact (proj1 (inv_run sr Hsr ops (new_env sr) (inv_new sr Hsr) Hok)). Qed.
Print Assumptions C39_range.

(** C39, C40: the node.  Whatever is requested between whatever blocks, no block fails;
    the requests are delivered exactly once, in order, and each takes effect on the
    frame it was scheduled for: the output is the input times the values of the
    envelope for that history, hence the input times a factor in [0,1]. *)
Theorem C39_C40_node (sr maximum : nat) (bs : list ablock) :
  (0 < Z.of_nat sr <= 2 ^ 29)%Z → Forall (ablock_ok sr maximum) bs → Forall actions_ok bs →
  ∃ ds outs, adsr_handled sr [] bs ds ∧ adsr_run (new_adsr sr maximum) bs = Ok outs ∧ adsr_result sr (new_env sr) bs ds outs ∧
    Forall2 scaled bs outs.
Proof. exact (node_range sr maximum bs). Qed.
Print Assumptions C39_C40_node.

(** C40: a note played after any history in which the last note has ended follows the
    contour: the exponential curves of attack and decay, the sustain level, and from
    the end of the note the curve of the release; each reaches its end on the first
    frame not before its programmed time, and afterwards no note is sounding. *)
Theorem C40_contour (sr : nat) (ops : list adsr_op) (ta td s tr : R) (a d r n m : nat) :
  (0 < sr)%nat → Forall op_ok ops → quiet sr ops →
  0 <= ta → 0 <= td → 0 <= tr → 0 <= s <= 1 →
  is_stage (ta * INR sr) a → is_stage (td * INR sr) d → is_stage (tr * INR sr) r → (a + d <= n)%nat →
  env_values sr (ops ++ note_ops ta td s tr n m) =
    env_values sr ops ++ (held_value (ta * INR sr) a (td * INR sr) d s <$> seq 0 n) ++ (released_value (tr * INR sr) r s <$> seq 0 m) ∧
  ((r <= m)%nat → quiet sr (ops ++ note_ops ta td s tr n m)).
Proof. intros Hsr. exact (note_after sr Hsr ops ta td s tr a d r n m). Qed.
Print Assumptions C40_contour.

(** C40: from whatever level a note starts, full level is reached within the attack time. *)
Theorem C40_attack (sr : nat) (ops : list adsr_op) (t : R) (a : nat) :
  (0 < sr)%nat → Forall op_ok ops → 0 <= t → is_stage (t * INR sr) a →
  ∃ k, (k < a)%nat ∧
    env_values sr (ops ++ [AAct (SetAttack t); AAct NoteOn] ++ replicate a AFrame) !! (length (env_values sr ops) + k)%nat = Some 1.
Proof. intros Hsr. exact (attack_reaches sr Hsr ops t a). Qed.
Print Assumptions C40_attack.

(** C40: released at or below the sustain level, the envelope is 0 from the end of the
    release time on, in whatever stage the note was. *)
Theorem C40_release (sr : nat) (ops : list adsr_op) (s t : R) (r m : nat) :
  (0 < sr)%nat → Forall op_ok ops → 0 <= t → 0 <= s <= 1 → is_stage (t * INR sr) r →
  en_level (env_run sr (new_env sr) ops).2 <= s →
  ∀ k, (r <= S k)%nat → (k < m)%nat →
    env_values sr (ops ++ [AAct (SetSustain s); AAct (SetRelease t); AAct NoteOff] ++ replicate m AFrame) !! (length (env_values sr ops) + k)%nat = Some 0.
Proof. intros Hsr. exact (release_reaches sr Hsr ops s t r m). Qed.
Print Assumptions C40_release.

(** C40, C68: with a sustain level above 0 a released note ends from every level, but
    only after ln 11 / ln (10 s + 1) times the release time. *)
Theorem C40_C68_release_ends (sr : nat) (ops : list adsr_op) (s t : R) (K m : nat) :
  (0 < sr)%nat → Forall op_ok ops → 0 < t → 0 < s <= 1 → (1 <= K)%nat → t * INR sr * (ln 11 / ln (10 * s + 1)) <= INR K →
  ∀ k, (K <= S k)%nat → (k < m)%nat →
    env_values sr (ops ++ [AAct (SetSustain s); AAct (SetRelease t); AAct NoteOff] ++ replicate m AFrame) !! (length (env_values sr ops) + k)%nat = Some 0.
Proof. intros Hsr. exact (release_ends sr Hsr ops s t K m). Qed.
Print Assumptions C40_C68_release_ends.

(** C40 fails for notes released above the sustain level: two frames after the end of a
    note with a release of two frames the level is 9/20. *)
Theorem C40_release_time_refuted :
  ¬ ∀ (sr : nat) (ops : list adsr_op) (s t : R) (r : nat), (0 < sr)%nat → Forall op_ok ops → 0 <= t → 0 <= s <= 1 → is_stage (t * INR sr) r →
      env_values sr (ops ++ [AAct (SetSustain s); AAct (SetRelease t); AAct NoteOff] ++ replicate r AFrame) !! (length (env_values sr ops) + (r - 1))%nat = Some 0.
Proof.
  intros H. specialize (H 1%nat [AAct (SetSustain (1 / 10)); AAct (SetRelease 2); AAct NoteOn; AFrame] (1 / 10) 2 2%nat ltac:(lia)).
  cbn [app replicate] in H. rewrite (instant_attack 1 (1 / 10) 2 [] : env_values 1 [_; _; _; _] = _) in H.
  cbn [env_run fst length Nat.add Nat.sub] in H. rewrite slow_release in H.
  assert (E : Some (9 / 20) = Some 0); [|injection E as E; lra]. apply H; [|lra|lra|].
  - repeat (apply Forall_cons; split; [cbn; try done; lra|]). constructor.
  - split; [lia|]. split; [cbn; lra|]. intros j Hj. replace j with 1%nat by lia. cbn. lra.
Qed.
Print Assumptions C40_release_time_refuted.

(** C68 fails: with sustain level 0 a note released while it sounds never ends; the level
    stays where it is for ever.  In particular at full level: *)
Theorem C68_stuck_note (sr : nat) (ops : list adsr_op) (t : R) (m : nat) :
  (0 < sr)%nat → Forall op_ok ops → 0 < t → 0 < en_level (env_run sr (new_env sr) ops).2 →
  env_values sr (ops ++ [AAct (SetSustain 0); AAct (SetRelease t); AAct NoteOff] ++ replicate m AFrame) =
  env_values sr ops ++ replicate m (en_level (env_run sr (new_env sr) ops).2).
Proof. intros Hsr. exact (release_stuck sr Hsr ops t m). Qed.
Print Assumptions C68_stuck_note.

Theorem C68_release_ends_refuted :
  ¬ ∀ (sr : nat) (ops : list adsr_op) (s t : R), (0 < sr)%nat → Forall op_ok ops → 0 <= t → 0 <= s <= 1 →
      ∃ m, env_values sr (ops ++ [AAct (SetSustain s); AAct (SetRelease t); AAct NoteOff] ++ replicate m AFrame) !! (length (env_values sr ops) + (m - 1))%nat = Some 0 ∧ (0 < m)%nat.
Proof.
  intros H. set (ops := [AAct (SetSustain 0); AAct (SetRelease 1); AAct NoteOn; AFrame]).
  assert (Hv : env_values 48 ops = [1]) by (exact (instant_attack 48 0 1 [])).
  assert (Hok : Forall op_ok ops) by (repeat (apply Forall_cons; split; [cbn; try done; lra|]); constructor).
  assert (Hl : en_level (env_run 48 (new_env 48) ops).2 = 1).
  { pose proof Hv as Hv'. unfold env_values, ops in Hv' |- *. cbn [env_run fst snd] in Hv' |- *. by injection Hv'. }
  destruct (H 48%nat ops 0 1) as (m & E & Hm); [lia|done|lra|lra|].
  rewrite release_stuck in E; [|lia|done|lra|rewrite Hl; lra]. rewrite Hl, Hv in E. rewrite lookup_app_r in E by (cbn; lia).
  apply lookup_replicate in E as [E _]. lra.
Qed.
Print Assumptions C68_release_ends_refuted.

(** Cases *)
Example C40_case : (* attack 2 frames, decay 3.5, release 1, at rate 4, from the fresh node *)
  Forall op_ok [] ∧ quiet 4 [] ∧ is_stage (1 / 2 * INR 4) 2 ∧ is_stage (7 / 8 * INR 4) 4 ∧ is_stage (1 / 4 * INR 4) 1 ∧
  held_value 2 2 (7 / 2) 4 (1 / 2) 1 = 1 ∧ held_value 2 2 (7 / 2) 4 (1 / 2) 5 = 1 / 2 ∧
  0 < held_value 2 2 (7 / 2) 4 (1 / 2) 0 < 1.
Proof.
  assert (Hi : INR 4 = 4) by (cbn; lra). rewrite Hi.
  split; [constructor|]. split; [done|]. split; [|split; [|split; [|split; [done|split; [done|]]]]].
  - split; [lia|]. split; [cbn; lra|]. intros j Hj. replace j with 1%nat by lia. cbn. lra.
  - split; [lia|]. split; [cbn; lra|]. intros j Hj. assert (j = 1 ∨ j = 2 ∨ j = 3)%nat as [->|[->| ->]] by lia; cbn; lra.
  - split; [lia|]. split; [cbn; lra|]. intros j Hj. lia.
  - unfold held_value. cbn [Nat.ltb Nat.leb]. unfold attack_curve.
    pose proof (power_above (1 / 11) 2 1 ltac:(lra) ltac:(lra) ltac:(lra)) as H. change (INR 1) with 1.
    assert (Rpower (1 / 11) (1 / 2) < 1); [|lra]. unfold Rpower. rewrite <-exp_0 at 3. apply exp_increasing.
    assert (ln (1 / 11) < ln 1) as Hln by (apply ln_increasing; lra). rewrite ln_1 in Hln. lra.
Qed.

Definition demo_in : owned R := Owned [1; 1; 1; 1] 1 4 80.
Definition demo_ablocks : list ablock :=
  [ABlock [Event 0%Z 0 false (SetAttack 1); Event 0%Z 1 false NoteOn] 0%Z demo_in Whole demo_in Whole;
   ABlock [Event 0%Z 2 false NoteOff] 0%Z demo_in Whole demo_in Whole].
Example C39_case : Forall (ablock_ok 80 4) demo_ablocks ∧ Forall actions_ok demo_ablocks ∧
  Forall op_ok [AAct NoteOn; AFrame; AAct (SetSustain (1 / 2)); AFrame].
Proof.
  split; [|split].
  - unfold demo_ablocks, demo_in. repeat constructor; unfold ab_frames, v_frames, v_channels; cbn; try lia.
  - unfold demo_ablocks, actions_ok. repeat (apply Forall_cons; split; [cbn; repeat (apply Forall_cons; split; [cbn; try done; lra|]); constructor|]). constructor.
  - repeat (apply Forall_cons; split; [cbn; try done; lra|]). constructor.
Qed.
