(** The envelope follower (src/effects/utility/envelope_follower.rs), periodic
    notifications (src/effects/utility/periodic_notification.rs) and the envelope node
    (src/effects/envelope).  Computed over the real numbers. *)
From stdpp Require Import list.
From Coq Require Import Reals ZArith.
From Verif Require Import Base Buffer.
Local Open Scope R_scope.

(** ** Follower: envelope_follower.rs l.3-10 *)
Record follower := Follower {
  fl_level : R;
  fl_rate : R;
  fl_attack_time : R; fl_release_time : R;          (* seconds *)
  fl_attack : R; fl_release : R }.                  (* coefficients *)
(** l.12-14; for time 0 the code computes exp(-1/0) = exp(-infinity) = 0 *)
Definition follow_coefficient (rate time : R) : R :=
  if Req_EM_T (rate * time) 0 then 0 else exp (- 1 / (rate * time)).
(** l.17-26 *)
Definition new_follower (rate attack release : R) : follower :=
  Follower 0 rate attack release (follow_coefficient rate attack) (follow_coefficient rate release).
(** l.28-33 *)
Definition set_attack_time (t : R) (f : follower) : follower :=
  if Req_EM_T (fl_attack_time f) t then f
  else Follower (fl_level f) (fl_rate f) t (fl_release_time f) (follow_coefficient (fl_rate f) t) (fl_release f).
(** l.35-40 *)
Definition set_release_time (t : R) (f : follower) : follower :=
  if Req_EM_T (fl_release_time f) t then f
  else Follower (fl_level f) (fl_rate f) (fl_attack_time f) t (fl_attack f) (follow_coefficient (fl_rate f) t).
(** l.42-54; the new state, whose level is the result *)
Definition follow (f : follower) (sample : R) : follower :=
  let input := Rabs sample in
  let c := if Rlt_dec (fl_level f) input then fl_attack f else fl_release f in
  Follower (fl_level f * c + input * (1 - c)) (fl_rate f) (fl_attack_time f) (fl_release_time f) (fl_attack f) (fl_release f).

(** ** Periodic notifications: periodic_notification.rs l.1-4 *)
Record periodic := Periodic { pn_interval : R; pn_next : R }.
(** l.7-17 *)
Definition new_periodic (sample_rate : nat) (frequency : R) : res periodic :=
  rassert (0 <? sample_rate)%nat AssertFailed (
  rassert (if Rlt_dec 0 frequency then true else false) AssertFailed (
    let interval := INR sample_rate / frequency in Ok (Periodic interval interval))).
(** f64::ceil *)
Definition ceiling (x : R) : Z := (- Int_part (- x))%Z.
(** l.19-21 *)
Definition samples_until_next (p : periodic) : nat := Z.to_nat (ceiling (pn_next p)).
(** l.28-30 *)
Fixpoint catch_up (fuel : nat) (interval next : R) : res R :=
  if Rle_dec next 0 then
    match fuel with O => Panic OutOfFuel | S fuel => catch_up fuel interval (next + interval) end
  else Ok next.
(** l.23-33 *)
Definition pn_advance (fuel : nat) (sample_count : nat) (p : periodic) : res (periodic * bool) :=
  let next := pn_next p - INR sample_count in
  let should_notify := if Rle_dec next 0 then true else false in
  let? next' := catch_up fuel (pn_interval p) next in
  Ok (Periodic (pn_interval p) next', should_notify).

(** ** The node *)
(** envelope_notification.rs l.3-6: channel and peak level *)
Definition note : Type := nat * R.
(** envelope_node.rs l.21 *)
Definition note_capacity : nat := 64.
(** envelope_processor.rs l.5-10 (the transmitter is the list of notes in the channel) *)
Record envelope := Envelope {
  ev_followers : list follower;
  ev_notification : periodic;
  ev_peaks : list R;
  ev_channel : list note }.
(** envelope_processor.rs l.13-29 *)
Definition new_envelope (sample_rate channel_count : nat) (attack release frequency : R) : res envelope :=
  let? p := new_periodic sample_rate frequency in
  Ok (Envelope (replicate channel_count (new_follower (INR sample_rate) attack release)) p (replicate channel_count 0) []).
(** l.31-39; a send waits while the channel is full *)
Definition send_notifications (channel_count : nat) (peaks : list R) (queue : list note) : res (list R * list note) :=
  let? queue' := rfold (λ q channel,
    let? peak := runwrap (peaks !! channel) UnwrapNone in
    rassert (length q <? note_capacity)%nat Blocked (Ok (q ++ [(channel, peak)]))) (seq 0 channel_count) queue in
  Ok ((λ _, 0) <$> peaks, queue').
(** l.68-71 *)
Definition follow_peak (s : follower * R) (sample : R) : follower * R :=
  let f := follow s.1 sample in (f, Rmax s.2 (fl_level f)).
(** l.53-72, one channel of one pass *)
Definition envelope_channel (inp : owned R) (iv : view) (position frame_count : nat) (s : list follower * list R) (channel : nat) :
    res (list follower * list R) :=
  let? channel_data := get_channel_data inp iv channel 0 in
  rassert (position + frame_count <=? length channel_data)%nat IndexOutOfRange (
    let? f := runwrap (s.1 !! channel) UnwrapNone in
    let? peak := runwrap (s.2 !! channel) UnwrapNone in
    let (f', peak') := fold_left follow_peak (take frame_count (drop position channel_data)) (f, peak) in
    Ok (<[channel := f']> (s.1), <[channel := peak']> (s.2))).
(** l.43-83.  The loop runs while position < channel_count (not frame_count), and each
    pass advances the notification by the whole block. *)
Fixpoint envelope_loop (catch_fuel fuel : nat) (inp : owned R) (iv : view) (position : nat) (e : envelope) : res envelope :=
  if (position <? v_channels inp iv)%nat then
    match fuel with
    | O => Panic OutOfFuel
    | S fuel =>
        let frame_count := (v_frames inp iv `min` samples_until_next (ev_notification e))%nat in
        let? (fs, peaks) := rfold (envelope_channel inp iv position frame_count) (seq 0 (v_channels inp iv)) (ev_followers e, ev_peaks e) in
        let? (p, notify) := pn_advance catch_fuel (v_frames inp iv) (ev_notification e) in
        let? (peaks', queue) :=
          if notify then send_notifications (v_channels inp iv) peaks (ev_channel e) else Ok (peaks, ev_channel e) in
        envelope_loop catch_fuel fuel inp iv (position + frame_count) (Envelope fs p peaks' queue)
    end
  else Ok e.
Definition envelope_process (fuel : nat) (inp : owned R) (iv : view) (e : envelope) : res envelope :=
  envelope_loop fuel fuel inp iv 0 e.

(** The node with its control side (envelope_node.rs l.75-87): [notifications] *)
Definition drain (s : envelope * list note) : envelope * list note :=
  (Envelope (ev_followers s.1) (ev_notification s.1) (ev_peaks s.1) [], s.2 ++ ev_channel s.1).
Definition take_notes (s : envelope * list note) : (envelope * list note) * list note := ((s.1, []), s.2).
