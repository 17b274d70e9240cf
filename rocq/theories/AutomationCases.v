(** An automation of a gain: a jump, a line and a curve, asked for out of order and between two callbacks. *)
From stdpp Require Import gmap list list_numbers strings.
From Coq Require Import ZArith Reals Lra Lia ZifyBool ZifyNat.
From Verif Require Import Base Graph GraphSpec TopoSort TopoSortSpec TopoSortProofs Buffer BufferSpec BufferProofs DspGraph DspGraphSpec Float Timestamp Processor ProcessorSpec
  AudioParam AudioParamSpec AudioParamR Mixer MixerR MixerSpec Node NodeSpec NodeProofs NodeGain LimitsSpec LimitsProofs NodeExamples StreamSpec AutomationSpec.
Local Open Scope R_scope.

(** from 1: to 2 on frame 1, to 4 over frames 2 and 3, back to 1 over frames 5 and 6 *)
Definition jump_up : move := Move Jump 1 0 2.
Definition line_up : move := Move Line 2 2 4.
Definition curve_down : move := Move Curve 5 2 1.
Definition line_down : move := Move Line 5 2 1.
Definition ride : list move := [jump_up; line_up; curve_down].
Definition straight_ride : list move := [jump_up; line_up; line_down].
Definition call64 (n : nat) (x : R) : nop R R unit := NCallback (Owned (replicate n x) 1 n 64) Whole (Owned (replicate n 0%R) 1 n 64) Whole.
Definition ride_change (m : move) : nop R R unit := NChange 0%nat "gain" (change_of (2 ^ 26) m).
Definition ride_before : list (nop R R unit) := [NStart].
Definition ride_after : list (nop R R unit) := [ride_change line_down; ride_change jump_up; call64 2 10; ride_change line_up; call64 6 10].
Definition ride_history : list (nop R R unit) := ride_before ++ NNew 0%nat 1 1 (gain_state R_num 1) :: NInput 0%nat :: NOutput 0%nat :: ride_after.

(** the same by gestures: the curve and the jump are asked for first *)
Definition ride_gestures : list gesture := [Ask curve_down; Ask jump_up; Play 2; Ask line_up; Play 4; Play 2].
Lemma ride_in_turn : in_turn ride.
Proof. cbn. lia. Qed.
Lemma straight_in_turn : in_turn straight_ride.
Proof. cbn. lia. Qed.
Lemma ride_in_time : in_time 0 ride_gestures.
Proof. cbn. lia. Qed.
Lemma eps_small : 0 < epsR < 1 / 8.
Proof.
  unfold epsR. assert (8 < 2 ^ 52) by (replace 8 with (2 ^ 3) by ring; apply Rlt_pow; [lra|lia]). split; [apply Rinv_0_lt_compat; lra|].
  unfold Rdiv. rewrite Rmult_1_l. apply Rinv_lt_contravar; lra.
Qed.
Lemma quarter_root : Rpower (1 / 4) (/ 2) = 1 / 2.
Proof.
  rewrite Rpower_sqrt by lra. replace (1 / 4) with ((1 / 2) * (1 / 2)) by lra. apply sqrt_square. lra.
Qed.
Lemma ride_fit : all_fit 1 ride.
Proof.
  pose proof eps_small as He. split; [done|]. split; [|split; [|done]].
  - split; [cbn; lia|]. right. cbn [mv_to mv_frames line_up jump_up]. change (INR 2) with 2. rewrite Rabs_right; lra.
  - split; [cbn; lia|]. cbn [mv_to mv_frames line_up curve_down]. change (INR 2) with 2. split; [lra|]. split; [lra|]. right. rewrite quarter_root. unfold closeR.
    replace (1 / 2 - 1) with (- (1 / 2)) by lra. rewrite Rabs_Ropp, (Rabs_right (1 / 2)), (Rabs_right 1) by lra. rewrite (Rmax_right (1 / 2) 1) by lra.
    destruct (Rle_dec (1 / 2) epsR); [lra|]. destruct (Rle_dec (1 / 2) (1 * epsR)); [lra|done].
Qed.
Lemma straight_fit : all_fit 1 straight_ride.
Proof.
  pose proof eps_small as He. split; [done|]. split; [|split; [|done]]; (split; [cbn; lia|]); right; cbn [mv_to mv_frames line_up jump_up line_down]; change (INR 2) with 2.
  - rewrite Rabs_right; lra.
  - rewrite Rabs_left; lra.
Qed.
Lemma ride_called : calls_ask (2 ^ 26) 0%nat "gain" true 0 ride_after [line_down; jump_up; line_up].
Proof. cbn. repeat (split; [first [reflexivity|lia]|]). reflexivity. Qed.
Lemma ride_order m : [m; jump_up; line_up] ≡ₚ [jump_up; line_up; m].
Proof. etrans; [apply perm_swap|]. apply Permutation_skip. apply perm_swap. Qed.
(** the curve heard: 1, 2, 3, 4, 4, 2, 1, 1 *)
Lemma ride_curve : automation 1 ride <$> seq 0 8 = [1; 2; 3; 4; 4; 2; 1; 1].
Proof.
  cbn [seq fmap list_fmap automation ride mv_from mv_end mv_frames mv_to jump_up line_up curve_down Nat.ltb Nat.leb Nat.add along mv_shape Nat.sub].
  change (INR 2) with 2. change (INR 1) with 1. replace (2 / 2) with 1 by lra. replace (1 / 2) with (/ 2) by lra. rewrite quarter_root, Rpower_1 by lra.
  repeat (f_equal; try lra).
Qed.
Lemma straight_curve : automation 1 straight_ride <$> seq 0 8 = [1; 2; 3; 4; 4; 5 / 2; 1; 1].
Proof.
  cbn [seq fmap list_fmap automation straight_ride mv_from mv_end mv_frames mv_to jump_up line_up line_down Nat.ltb Nat.leb Nat.add along mv_shape Nat.sub].
  change (INR 2) with 2. change (INR 1) with 1. repeat (f_equal; try lra).
Qed.

Lemma call64_ok n x : pop_ok (to_pop (call64 n x)).
Proof. cbn. unfold wf. cbn. rewrite !replicate_length. repeat split; lia. Qed.
Lemma ride_ok : good_setup (dsp_process R_num (fun v => v) (gain_run gain_process_R)) 8 4 64 (fun _ => rev_order) (fun _ l => l) (to_pop <$> ride_history).
Proof.
  split; [exact gain_shape|]. do 3 (split; [lia|]). split; [intros _; apply rev_order_any|].
  split; [done|]. split; [|constructor].
  repeat (constructor; [first [exact (call64_ok _ _)|done]|]). constructor.
Qed.
Lemma ride_direct : direct 0%nat ride_before ride_after.
Proof.
  split; [|split; [|split]]; [intros eid m c Hin|intros Hin|intros m Hin|intros m Hin];
    repeat (apply elem_of_cons in Hin as [Hin|Hin]; [discriminate Hin|]); by apply elem_of_nil in Hin.
Qed.
Lemma do_call64 {P} (good : nat -> nat -> gset string -> P -> Prop) nbuf mc s on n (x y : R) rank os : (on = true -> (forall c, c ∈ s_conns s -> (rank (c_from c) < rank (c_to c))%nat) /\ (size (s_nodes s) + 2 <= nbuf)%nat) ->
  careful (V := R) good nbuf mc s on os -> careful good nbuf mc s on (NCallback (Owned (replicate n x) 1 n 64) Whole (Owned (replicate n y) 1 n 64) Whole :: os).
Proof.
  intros H Ho. cbn [LimitsSpec.careful]. unfold wf. cbn [data channels frames v_frames]. rewrite !replicate_length.
  do 5 (split; [cbn; lia|]). split; [|done]. intros E. destruct (H E) as [Ha Hs]. split; [by eapply ranked_acyclic|done].
Qed.
Lemma ride_careful : careful gain_good 8 2 sempty false ride_history.
Proof.
  unfold ride_history, ride_before, ride_after, ride_change, call64. cbn [app]. apply do_start. apply (do_new _ _ _ _ _ _ _ _ {["gain"]}); [|done|lia|lia| |].
  { unfold gain_state. cbn [ds_params]. by rewrite dom_singleton_L. }
  { split.
    - intros name p Hp. cbn in Hp. apply lookup_singleton_Some in Hp as [<- <-]. constructor.
    - unfold gain_good, gain_state. cbn [ds_params]. rewrite dom_singleton. set_solver. }
  apply do_input, do_output. cbn [s_nodes s_conns sempty].
  do 2 (apply do_change; [intros i o names E; cbn [s_nodes] in E; rewrite lookup_insert in E; injection E as <- <- <-; set_solver|by intros [s Hs]|]).
  apply (do_call64 _ _ _ _ _ _ _ _ (fun n => n)).
  { intros _. split; [intros c Hc; by apply elem_of_nil in Hc|]. cbn [s_nodes]. rewrite map_size_insert_None, map_size_empty; [lia|done]. }
  apply do_change; [intros i o names E; cbn [s_nodes] in E; rewrite lookup_insert in E; injection E as <- <- <-; set_solver|by intros [s Hs]|].
  apply (do_call64 _ _ _ _ _ _ _ _ (fun n => n)); [|done].
  intros _. split; [intros c Hc; by apply elem_of_nil in Hc|]. cbn [s_nodes]. rewrite map_size_insert_None, map_size_empty; [lia|done].
Qed.
Lemma ride_runs : exists st l, prun 0 Rplus (dsp_process R_num (fun v => v) (gain_run gain_process_R)) (fun _ => rev_order) (fun _ l => l)
  (new_processor 0 8 64 2 4) (to_pop <$> ride_history) = Ok (st, l).
Proof.
  apply (careful_never_aborts R_num (fun v => v) 0 Rplus (gain_run gain_process_R) gain_good 8 2 4 64 (fun _ => rev_order) (fun _ l => l));
    [apply gain_run_good|exact gain_shape|lia|lia|intros _; apply rev_order_any|done|lia|constructor|exact ride_careful].
Qed.
