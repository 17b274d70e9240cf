(** The sampler: fades, voices and the processor.

    /repo/src/effects/sampler/.  Samples are an abstract type [A] with the
    operations the code uses; the fade table is a list (its values are the
    subject of SamplerFade.v). *)
From stdpp Require Import list.
From Coq Require Import ZArith.
From Verif Require Import Base Float Timestamp EventProcessor Buffer.

(** f64::round (half away from zero) followed by [as usize] (negative values
    saturate at 0): sampler_processor.rs l.173, 238 *)
Definition f64_round_usize (x : Z) : Z :=
  (if x <=? 0 then 0 else (2 * x + one64) / (2 * one64))%Z.

(** sampler_voice.rs l.7-13 Phase, l.21-25 Voice *)
Inductive phase := Stopped | FadingIn (k : nat) | Playing | FadingOut (k : nat).
Record voice := Voice { vo_position : nat; vo_phase : phase }.

(** sampler_voice.rs l.15-19 and derive(Default) *)
Definition new_voice : voice := Voice 0 Stopped.
(** l.28-30 *)
Definition voice_is_stopped (v : voice) : bool := match vo_phase v with Stopped => true | _ => false end.
(** l.32-38 *)
Definition voice_start (position : nat) (_ : voice) : voice :=
  Voice position (match position with 0 => Playing | _ => FadingIn 0 end).
(** l.44-51 *)
Definition voice_stop (v : voice) : voice :=
  match vo_phase v with
  | FadingIn _ | Playing => Voice (vo_position v) (FadingOut 0)
  | _ => v
  end.

(** sampler_event.rs l.6-15 SampleEventType *)
Inductive sample_action :=
| SStart (position : timestamp)
| SStartImmediate
| SStop
| SEnableLoop (loop_start loop_end : timestamp)
| SCancelLoop
| SCancelAll.

(** sampler_event.rs l.29-123: the events the node's methods build
    (sampler_node.rs l.47-116); only CancelAll clears the queue *)
Definition sampler_event (t : timestamp) (seq : nat) (a : sample_action) : event sample_action :=
  Event t seq (match a with SCancelAll => true | _ => false end) a.

(** sampler_processor.rs l.19-32 SamplerDspProcess without the event queue, the
    sample and the fade, which do not change *)
Record sampler := Sampler {
  sa_voices : list voice;
  sa_active : option nat;
  sa_loop : option (timestamp * timestamp);
  sa_position : timestamp;
  sa_start : timestamp;
  sa_loops : nat }.

(** sampler_processor.rs l.34, 96-111 *)
Definition new_sampler : sampler := Sampler [new_voice; new_voice] None None 0%Z 0%Z 0.

Section model.
  Context {A : Type} (one : A) (add mul : A → A → A).
  (** the sample (its sample rate is that of the processor) and the fade table *)
  Context (smp : owned A) (fade : list A) (sr : nat).

  (** sampler_fade.rs l.31-44 *)
  Definition fade_value (position : nat) : A := default one (fade !! position).
  Definition fade_out_value (position : nat) : res A :=
    if length fade <? position then Panic Underflow else Ok (fade_value (length fade - position)).

  (** sampler_voice.rs l.114-141 render_playing *)
  Definition render_playing (v : voice) (out : owned A) (ov : view) (offset : nat) : res (owned A) :=
    let cc := channels smp `min` v_channels out ov in
    if frames smp <=? vo_position v then Ok out else
    if v_frames out ov <? offset then Panic Underflow else
    let fc := (v_frames out ov - offset) `min` (frames smp - vo_position v) in
    add_from add out ov smp Whole 0 (vo_position v) 0 offset cc fc.

  (** sampler_voice.rs l.143-188 render_fade: the frame count and the buffer.
      The [break] of l.160-162 is rendered as a test in every iteration (its
      condition stays true once it is). *)
  Definition render_fade (v : voice) (out : owned A) (ov : view) (offset fade_position : nat) (fade_in : bool) :
      res (nat * owned A) :=
    let cc := channels smp `min` v_channels out ov in
    if length fade <? fade_position then Panic Underflow else
    if v_frames out ov <? offset then Panic Underflow else
    let fc := (length fade - fade_position) `min` (v_frames out ov - offset) in
    let? out' := rfold (λ out frame,
        if frames smp <=? frame + vo_position v then Ok out else
        let? g := if fade_in then Ok (fade_value (fade_position + frame)) else fade_out_value (fade_position + frame) in
        rfold (λ out ch,
            let? o := get_sample out ov ch (offset + frame) in
            let? x := get_sample smp Whole ch (vo_position v + frame) in
            set_sample out ov ch (offset + frame) (add o (mul g x)))
          (seq 0 cc) out)
      (seq 0 fc) out in
    Ok (fc, out').

  (** sampler_voice.rs l.53-112 render: each phase is entered at most twice, so
      four iterations suffice *)
  Fixpoint voice_loop (fuel : nat) (v : voice) (out : owned A) (ov : view) (offset : nat) : res (voice * owned A) :=
    if offset <? v_frames out ov then
      match fuel with
      | 0 => Panic OutOfFuel
      | S fuel =>
          match vo_phase v with
          | Stopped => Ok (v, out)
          | FadingIn k =>
              let? (n, out') := render_fade v out ov offset k true in
              let ph := if k + n <? length fade then FadingIn (k + n) else Playing in
              voice_loop fuel (Voice (vo_position v + n) ph) out' ov (offset + n)
          | Playing =>
              let? out' := render_playing v out ov offset in
              voice_loop fuel (Voice (vo_position v + (v_frames out ov - offset)) Playing) out' ov (v_frames out ov)
          | FadingOut k =>
              let? (n, out') := render_fade v out ov offset k false in
              let ph := if k + n <? length fade then FadingOut (k + n) else Stopped in
              voice_loop fuel (Voice (vo_position v + n) ph) out' ov (offset + n)
          end
      end
    else Ok (v, out).
  Definition voice_render (v : voice) (out : owned A) (ov : view) : res (voice * owned A) :=
    if voice_is_stopped v then Ok (v, out) else voice_loop 4 v out ov 0.

  (** sampler_processor.rs l.200-206 process_voices *)
  Fixpoint render_voices (vs : list voice) (out : owned A) (ov : view) : res (list voice * owned A) :=
    match vs with
    | [] => Ok ([], out)
    | v :: vs =>
        let? (v', out1) := voice_render v out ov in
        let? (vs', out2) := render_voices vs out1 ov in
        Ok (v' :: vs', out2)
    end.

  (** l.123-138 next_loop_position *)
  Definition next_loop_position (s : sampler) : timestamp :=
    match sa_loop s with
    | None => from_samples (f64_of_Z (Z.of_nat (frames smp))) (Z.of_nat sr)
    | Some (loop_start, loop_end) =>
        let first := (loop_end - sa_start s)%Z in
        let subsequent := (loop_end - loop_start)%Z in
        from_samples (f64_add (as_samples first (Z.of_nat sr))
                        (f64_mul (as_samples subsequent (Z.of_nat sr)) (f64_of_Z (Z.of_nat (sa_loops s)))))
          (Z.of_nat sr)
    end.

  (** l.140-154 get_render_interval *)
  Definition get_render_interval (s : sampler) (samples_remaining : nat) : timestamp :=
    let end_of_frame := incremented_by_samples (sa_position s) (Z.of_nat samples_remaining) (Z.of_nat sr) in
    let end_of_sample := next_loop_position s in
    let end_point := if (end_of_frame <? end_of_sample)%Z then end_of_frame else end_of_sample in
    (end_point - sa_position s)%Z.

  (** l.172-175 *)
  Definition render_count (s : sampler) (samples_remaining : nat) : nat :=
    Z.to_nat (Z.min (f64_round_usize (as_samples (get_render_interval s samples_remaining) (Z.of_nat sr)))
                (Z.of_nat samples_remaining)).

  (** l.283-286 stop *)
  Definition sampler_stop (s : sampler) : sampler :=
    Sampler (voice_stop <$> sa_voices s) None (sa_loop s) (sa_position s) (sa_start s) (sa_loops s).

  (** l.248-256: the first stopped voice is started *)
  Fixpoint start_free (position index : nat) (vs : list voice) : option (nat * list voice) :=
    match vs with
    | [] => None
    | v :: vs =>
        if voice_is_stopped v then Some (index, voice_start position v :: vs)
        else match start_free position (S index) vs with
             | Some (i, vs') => Some (i, v :: vs')
             | None => None
             end
    end.

  (** l.259-269 *)
  Definition active_position (s : sampler) : option nat :=
    match sa_active s with
    | Some i => vo_position <$> sa_voices s !! i
    | None => None
    end.

  (** l.237-257 assign_voice *)
  Definition start_voice (position : nat) (s : sampler) : sampler :=
    let s1 := sampler_stop s in
    match start_free position 0 (sa_voices s1) with
    | Some (i, vs) => Sampler vs (Some i) (sa_loop s) (sa_position s) (sa_start s) (sa_loops s)
    | None => s1
    end.
  Definition assign_voice (start_position : timestamp) (s : sampler) : sampler :=
    let position := Z.to_nat (f64_round_usize (as_samples start_position (Z.of_nat sr))) in
    match active_position s with
    | Some p => if Nat.eqb p position then s else start_voice position s
    | None => start_voice position s
    end.

  (** l.271-276 start *)
  Definition sampler_start (from_position delay : timestamp) (s : sampler) : sampler :=
    let s1 := assign_voice (from_position + delay)%Z s in
    Sampler (sa_voices s1) (sa_active s1) (sa_loop s1) delay from_position 0.

  (** l.156-160 finish_sample, l.278-281 loop_back *)
  Definition finish_sample (s : sampler) : sampler :=
    match sa_loop s with
    | Some (loop_start, _) =>
        assign_voice loop_start
          (Sampler (sa_voices s) (sa_active s) (sa_loop s) (sa_position s) (sa_start s) (S (sa_loops s)))
    | None => s
    end.

  Definition set_loop (l : option (timestamp * timestamp)) (s : sampler) : sampler :=
    Sampler (sa_voices s) (sa_active s) l (sa_position s) (sa_start s) (sa_loops s).

  (** l.208-235 process_event *)
  Definition sampler_handle (s : sampler) (e : event sample_action) (current : timestamp) : sampler :=
    match ev_data e with
    | SStartImmediate => sampler_start 0%Z 0%Z s
    | SStart position => sampler_start position (current - ev_time e)%Z s
    | SStop => sampler_stop s
    | SEnableLoop loop_start loop_end => set_loop (Some (loop_start, loop_end)) s
    | SCancelLoop => set_loop None s
    | SCancelAll => set_loop None (sampler_stop s)
    end.

  (** l.166-198 process_sample; the loop need not end (a loop whose end is not
      after its start), so the fuel is a parameter *)
  Fixpoint process_sample (fuel : nat) (s : sampler) (out : owned A) (ov : view) (frame_position : nat) :
      res (sampler * owned A) :=
    if frame_position <? v_frames out ov then
      match fuel with
      | 0 => Panic OutOfFuel
      | S fuel =>
          let n := render_count s (v_frames out ov - frame_position) in
          if Nat.eqb n 0 then
            match sa_loop s with
            | Some _ => process_sample fuel (finish_sample s) out ov frame_position
            | None => Ok (s, out)
            end
          else
            let? sv := slice_frames out ov frame_position n in
            let? (vs, out') := render_voices (sa_voices s) out sv in
            process_sample fuel
              (Sampler vs (sa_active s) (sa_loop s) (incremented_by_samples (sa_position s) (Z.of_nat n) (Z.of_nat sr))
                 (sa_start s) (sa_loops s)) out' ov (frame_position + n)
      end
    else Ok (s, out).

  (** l.39-73 process_audio: the loop is [event_block]; rendering and events act on
      the sampler and the output buffer *)
  Definition sampler_piece (fuel : nat) (ov : view) (so : sampler * owned A) (position count : nat) :
      res (sampler * owned A) :=
    let '(s, out) := so in
    let? sv := slice_frames out ov position count in
    process_sample fuel s out sv 0.
  Definition sampler_act (so : sampler * owned A) (e : event sample_action) (current : timestamp) :
      res (sampler * owned A) :=
    let '(s, out) := so in Ok (sampler_handle s e current, out).
  Definition sampler_block (fuel : nat) (start : timestamp) (ov : view)
      (q : evproc sample_action) (s : sampler) (out : owned A) : res (evproc sample_action * sampler * owned A) :=
    let? (q', (s', out')) := event_block (sampler_piece fuel ov) sampler_act start (v_frames out ov) q (s, out) in
    Ok (q', s', out').
End model.
