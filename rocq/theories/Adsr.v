(** The ADSR node: src/effects/adsr.  Computed over the real numbers; a [Duration] is
    its number of seconds, a [Level] its linear gain. *)
From stdpp Require Import list.
From Coq Require Import Reals ZArith.
From Verif Require Import Base Buffer Float Timestamp EventProcessor Effect.
Local Open Scope R_scope.

(** ** Envelope: adsr_envelope.rs *)
(** l.5-11 *)
Inductive phase := Idle | Attack | Decay | Sustain | Release.
(** l.13-24 *)
Record env := Env {
  en_phase : phase;
  en_level : R;             (* envelope *)
  en_attack : R;            (* attack_coefficient *)
  en_decay : R;             (* decay_coefficient *)
  en_sustain : R;           (* sustain_level *)
  en_release : R;           (* release_coefficient *)
  en_decay_time : R;
  en_release_time : R }.

(** l.26-28 *)
Definition attack_target : R := 11 / 10.
Definition decay_target : R := - (1 / 10).
Definition release_target : R := - (1 / 10).

(** l.133-135 *)
Definition process_exponential (previous target coefficient : R) : R := target + coefficient * (previous - target).

Section envelope.
  Context (sample_rate : nat).

  (** l.137-143 *)
  Definition coefficient (log_term time : R) : R :=
    if Rle_dec time 0 then 0 else exp (ln log_term / (time * INR sample_rate)).
  (** l.145-151 *)
  Definition attack_coefficient (t : R) : R := coefficient ((attack_target - 1) / attack_target) t.
  (** l.153-163 *)
  Definition decay_coefficient (t s : R) : R := coefficient ((s - decay_target) / (1 - decay_target)) t.
  (** l.165-175 *)
  Definition release_coefficient (t s : R) : R := coefficient ((- release_target) / (s - release_target)) t.

  (** l.31-53, with the arguments of adsr_processor.rs l.34-40 *)
  Definition new_env : env :=
    Env Idle 0 (attack_coefficient 0) (decay_coefficient 0 1) 1 (release_coefficient 0 1) 0 0.

  (** adsr_event.rs l.9-17 *)
  Inductive adsr_action :=
  | NoteOff | NoteOn | SetAttack (t : R) | SetDecay (t : R) | SetSustain (s : R) | SetRelease (t : R).

  (** adsr_processor.rs l.45-58, adsr_envelope.rs l.55-88 *)
  Definition env_act (e : env) (a : adsr_action) : env :=
    let '(Env p l ca cd s cr dt rt) := e in
    match a with
    | NoteOn => Env Attack l ca cd s cr dt rt
    | NoteOff => Env (match p with Idle => Idle | _ => Release end) l ca cd s cr dt rt
    | SetAttack t => Env p l (attack_coefficient t) cd s cr dt rt
    | SetDecay t => Env p l ca (decay_coefficient t s) s cr t rt
    | SetSustain s' => Env p l ca (decay_coefficient dt s') s' (release_coefficient rt s') dt rt
    | SetRelease t => Env p l ca cd s (release_coefficient t s) dt t
    end.

  (** adsr_envelope.rs l.90-130; the new state, whose level is the result *)
  Definition env_process (e : env) : env :=
    let '(Env p l ca cd s cr dt rt) := e in
    match p with
    | Idle => Env Idle 0 ca cd s cr dt rt
    | Attack =>
        let output := Rmin (process_exponential l attack_target ca) 1 in
        Env (if Rle_dec 1 output then Decay else Attack) output ca cd s cr dt rt
    | Decay =>
        let output := Rmax (process_exponential l decay_target cd) s in
        Env (if Rle_dec output s then Sustain else Decay) output ca cd s cr dt rt
    | Sustain => Env Sustain s ca cd s cr dt rt
    | Release =>
        let output := Rmax (process_exponential l release_target cr) 0 in
        Env (if Rle_dec output 0 then Idle else Release) output ca cd s cr dt rt
    end.

  (** ** Processor: adsr_processor.rs.  The state of the loop is the envelope and the
      envelope buffer. *)
  (** l.73-76 *)
  Definition adsr_render (s : env * list R) (position count : nat) : res (env * list R) :=
    rfold (λ s frame,
      let '(e, buffer) := s in
      let e' := env_process e in
      rassert (frame + position <? length buffer)%nat IndexOutOfRange (Ok (e', <[frame + position := en_level e']>%nat buffer)))
      (seq 0 count) s.
  (** l.82-84 *)
  Definition adsr_handle (s : env * list R) (e : event adsr_action) (_ : timestamp) : res (env * list R) :=
    Ok (env_act s.1 (ev_data e), s.2).

  (** l.14-18 *)
  Record adsr := AdsrState { as_queue : evproc adsr_action; as_env : env; as_buffer : list R }.
  (** l.23-43 *)
  Definition new_adsr (maximum_frame_count : nat) : adsr :=
    AdsrState (new_evproc sample_rate) new_env (replicate maximum_frame_count 0).

  (** l.60-86 prepare_envelope, l.90-120 process_audio *)
  Definition adsr_process (start : timestamp) (inp : owned R) (iv : view) (out : owned R) (ov : view) (a : adsr) : res (adsr * owned R) :=
    let channel_count := (v_channels inp iv `min` v_channels out ov)%nat in
    let frame_count := (v_frames inp iv `min` v_frames out ov)%nat in
    let? (q, (e, buffer)) := event_block adsr_render adsr_handle start frame_count (as_queue a) (as_env a, as_buffer a) in
    let? out' := zip_channels (λ x _, x) (λ ch, let? l := get_channel_data inp iv ch 0 in Ok (zip_with Rmult l buffer)) ov channel_count out in
    Ok (AdsrState q e buffer, out').
End envelope.
