(** What the ADSR node does. *)
From stdpp Require Import list.
From Coq Require Import Reals ZArith.
From Verif Require Import Base Buffer BufferSpec EffectSpec Float Timestamp EventProcessor EventProcessorSpec Adsr.
Local Open Scope R_scope.

(** A history of the envelope: actions and frames.  The result is one value per frame. *)
Inductive adsr_op := AAct (a : adsr_action) | AFrame.
Fixpoint env_run (sr : nat) (e : env) (ops : list adsr_op) : list R * env :=
  match ops with
  | [] => ([], e)
  | AAct a :: ops => env_run sr (env_act sr e a) ops
  | AFrame :: ops =>
      let e' := env_process e in
      let (vs, e2) := env_run sr e' ops in (en_level e' :: vs, e2)
  end.
Definition env_values (sr : nat) (ops : list adsr_op) : list R := (env_run sr (new_env sr) ops).1.
(** times are not negative, sustain levels between 0 and 1 *)
Definition action_ok (a : adsr_action) : Prop :=
  match a with
  | SetAttack t | SetDecay t | SetRelease t => 0 <= t
  | SetSustain s => 0 <= s <= 1
  | NoteOn | NoteOff => True
  end.
Definition op_ok (o : adsr_op) : Prop := match o with AAct a => action_ok a | AFrame => True end.

(** ** Contour of a note *)
(** the first whole number of frames, at least one, that is not less than [n] *)
Definition is_stage (n : R) (k : nat) : Prop := (1 <= k)%nat ∧ n <= INR k ∧ ∀ j, (1 <= j < k)%nat → INR j < n.
(** exponential curves through their end points: 0 to 1, 1 to [s] and [s] to 0, in [n] frames *)
Definition attack_curve (n k : R) : R := 11 / 10 - 11 / 10 * Rpower (1 / 11) (k / n).
Definition decay_curve (s n k : R) : R := - (1 / 10) + 11 / 10 * Rpower ((s + 1 / 10) / (11 / 10)) (k / n).
Definition release_curve (s n k : R) : R := - (1 / 10) + (s + 1 / 10) * Rpower ((1 / 10) / (s + 1 / 10)) (k / n).
(** value of frame [k] (from 0) after the note starts; [a], [d] are the stages *)
Definition held_value (na : R) (a : nat) (nd : R) (d : nat) (s : R) (k : nat) : R :=
  if (S k <? a)%nat then attack_curve na (INR (S k))
  else if (S k =? a)%nat then 1
  else if (S k - a <? d)%nat then decay_curve s nd (INR (S k - a))
  else s.
(** value of frame [k] after the note ends *)
Definition released_value (nr : R) (r : nat) (s : R) (k : nat) : R :=
  if (S k <? r)%nat then release_curve s nr (INR (S k)) else 0.

(** ** The node *)
(** The history of the envelope in a block: in each frame first the actions of the
    events that fall on it, in order. *)
Definition block_history (sr : nat) (start : timestamp) (fc : nat) (delivered : list (event adsr_action)) : list adsr_op :=
  k ← seq 0 fc;
  ((λ e, AAct (ev_data e)) <$> filter (λ e, frame_of sr start e = k) delivered) ++ [AFrame].

Record ablock := ABlock {
  ab_sent : list (event adsr_action);     (* requests made since the last block *)
  ab_start : timestamp;
  ab_in : owned R; ab_iv : view; ab_out : owned R; ab_ov : view }.
Definition ab_frames (b : ablock) : nat := v_frames (ab_in b) (ab_iv b) `min` v_frames (ab_out b) (ab_ov b).
Definition ablock_ok (sr maximum : nat) (b : ablock) : Prop :=
  wf (ab_in b) ∧ valid_view (ab_in b) (ab_iv b) ∧ wf (ab_out b) ∧ valid_view (ab_out b) (ab_ov b) ∧
  block_ok sr (ab_frames b) ∧ (ab_frames b <= maximum)%nat ∧ Forall (λ e, ev_clear e = false) (ab_sent b).
Fixpoint adsr_run (a : adsr) (bs : list ablock) : res (list (owned R)) :=
  match bs with
  | [] => Ok []
  | b :: bs =>
      let q := fold_left (λ q e, send_event e q) (ab_sent b) (as_queue a) in
      let? (a', out) := adsr_process (ep_rate q) (ab_start b) (ab_in b) (ab_iv b) (ab_out b) (ab_ov b) (AdsrState q (as_env a) (as_buffer a)) in
      let? outs := adsr_run a' bs in Ok (out :: outs)
  end.
(** [ds] are the events delivered in each block *)
Fixpoint adsr_handled (sr : nat) (waiting : list (event adsr_action)) (bs : list ablock) (ds : list (list (event adsr_action))) : Prop :=
  match bs, ds with
  | [], [] => True
  | b :: bs, d :: ds => ∃ rest, delivers sr (ab_start b) (ab_frames b) (waiting ++ ab_sent b) d rest ∧ adsr_handled sr rest bs ds
  | _, _ => False
  end.
(** each output is the input times the envelope, on the channels and frames both have *)
Definition enveloped (b : ablock) (values : list R) (out' : owned R) : Prop :=
  length values = ab_frames b ∧
  written (ab_out b) (ab_ov b) out' (λ ch fr x y,
    y = match seen (ab_in b) (ab_iv b) ch fr, values !! fr with Some s, Some v => s * v | _, _ => x end).
Fixpoint adsr_result (sr : nat) (e : env) (bs : list ablock) (ds : list (list (event adsr_action))) (outs : list (owned R)) : Prop :=
  match bs, ds, outs with
  | [], [], [] => True
  | b :: bs, d :: ds, out :: outs =>
      let (vs, e') := env_run sr e (block_history sr (ab_start b) (ab_frames b) d) in
      enveloped b vs out ∧ adsr_result sr e' bs ds outs
  | _, _, _ => False
  end.

(** ** A played note *)
(** no note is sounding after [ops] *)
Definition quiet (sr : nat) (ops : list adsr_op) : Prop := en_phase (env_run sr (new_env sr) ops).2 = Idle.
(** the settings, a note held for [n] frames, and [m] further frames *)
Definition note_ops (ta td s tr : R) (n m : nat) : list adsr_op :=
  [AAct (SetAttack ta); AAct (SetDecay td); AAct (SetSustain s); AAct (SetRelease tr); AAct NoteOn] ++
  replicate n AFrame ++ [AAct NoteOff] ++ replicate m AFrame.
(** every output sample is the input sample times a factor between 0 and 1 *)
Definition scaled (b : ablock) (out : owned R) : Prop :=
  ∀ ch fr x y, seen (ab_in b) (ab_iv b) ch fr = Some x → seen out (ab_ov b) ch fr = Some y → ∃ v, 0 <= v <= 1 ∧ y = x * v.
Definition actions_ok (b : ablock) : Prop := Forall (λ ev, action_ok (ev_data ev)) (ab_sent b).
