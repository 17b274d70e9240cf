(** What a recorder is specified to record. *)
From stdpp Require Import list sorting.
From Coq Require Import ZArith.
From Verif Require Import Base Float Timestamp EventProcessor EventProcessorSpec Buffer BufferSpec Recorder.

Section frames.
  Context {A : Type}.

  (** one frame of a buffer seen through a view: the samples of its channels *)
  Definition frame_at (b : owned A) (v : view) (k : nat) : list A :=
    omap (λ ch, sample b (ch + off_ch v) (k + off_fr v)) (seq 0 (v_channels b v)).
  (** a buffer as the list of its frames *)
  Definition frames_of (b : owned A) (v : view) : list (list A) :=
    frame_at b v <$> seq 0 (v_frames b v).
End frames.

Section spec.
  Context {A : Type}.

  (** A request to record ([true]) or to stop ([false]) at a time. *)
  Definition request := event bool.

  (** is frame [k] of a block recorded?  The last request that acts on this
      frame or an earlier one decides. *)
  Definition on_at (sr : nat) (start : timestamp) (on : bool) (reqs : list request) (k : nat) : bool :=
    fold_left (λ on e, if decide (frame_of sr start e ≤ k) then ev_data e else on) reqs on.
  Definition on_after (on : bool) (reqs : list request) : bool :=
    fold_left (λ _ e, ev_data e) reqs on.

  (** the recorded frames of a block *)
  Definition recorded (sr : nat) (start : timestamp) (on : bool) (reqs : list request)
      (inp : owned A) (iv : view) : list (list A) :=
    frame_at inp iv <$> filter (λ k, on_at sr start on reqs k = true) (seq 0 (v_frames inp iv)).

  Definition newer (e : request) (l : list request) : Prop := Forall (λ e', ev_seq e' < ev_seq e) l.

  (** The specification: [w] requests wait and [s] were made since the last
      block; a history leads to other ones, and to the recorded [sound].
      Handling notifications and taking the recording do not matter. *)
  Inductive rec_run (sr : nat) : list request → list request → bool → list (rop A) →
      list request → list request → bool → list (list A) → Prop :=
  | rr_nil w s on : rec_run sr w s on [] w s on []
  | rr_request w s on o t b e os w' s' on' sound :
      (o, t, b) = (RecordNow, 0%Z, true) ∨ (o, t, b) = (StopNow, 0%Z, false) ∨ (o, t, b) = (StopAt t, t, false) →
      ev_time e = t → ev_data e = b → newer e (w ++ s) →
      rec_run sr w (s ++ [e]) on os w' s' on' sound →
      rec_run sr w s on (o :: os) w' s' on' sound
  | rr_other w s on o os w' s' on' sound :
      o = HandleNote ∨ o = TakeRecording →
      rec_run sr w s on os w' s' on' sound →
      rec_run sr w s on (o :: os) w' s' on' sound
  | rr_block w s on start inp iv reqs rest os w' s' on' sound :
      delivers sr start (v_frames inp iv) (w ++ s) reqs rest →
      rec_run sr rest [] (on_after on reqs) os w' s' on' sound →
      rec_run sr w s on (RecordBlock start inp iv :: os) w' s' on' (recorded sr start on reqs inp iv ++ sound).

  (** Blocks as the graph passes them: the buffer has the node's channels, the
      time is not negative. *)
  Definition rop_ok (cc sr : nat) (o : rop A) : Prop :=
    match o with
    | RecordBlock start inp iv => wf inp ∧ valid_view inp iv ∧ v_channels inp iv = cc ∧
        block_ok sr (v_frames inp iv) ∧ (0 <= start)%Z
    | _ => True
    end.

  (** ** Observations *)
  Definition recording_frames (o : option (owned A)) : list (list A) :=
    match o with Some b => frames_of b Whole | None => [] end.

  (** what the control thread holds: the recordings taken so far, then the one
      being assembled *)
  Definition received (taken : list (owned A)) (r : recorder A) : list (list A) :=
    concat ((λ b, frames_of b Whole) <$> taken) ++ recording_frames (rc_recording r).

  (** buffers of the recorder that are under way *)
  Definition filled (n : rec_note A) : bool := match n with NData _ _ => true | _ => false end.
  Definition returning (e : event (rec_action A)) : bool :=
    match ev_data e with RReturn _ => true | _ => false end.
  Definition stopping (e : event (rec_action A)) : bool :=
    match ev_data e with RStop => true | _ => false end.
  Definition starting (e : event (rec_action A)) : bool :=
    match ev_data e with RStart => true | _ => false end.
  Definition count_if {X} (f : X → bool) (l : list X) : nat := length (filter (λ x, f x = true) l).

  Definition queued (r : recorder A) : list (event (rec_action A)) :=
    ep_pending (rc_queue r) ++ ep_channel (rc_queue r).

  (** buffers in the pool, being recorded to, sent and not handled, returned
      and not received *)
  Definition buffers (r : recorder A) : nat :=
    length (rp_pool (rc_proc r)) + 1 + count_if filled (rp_notes (rc_proc r)) + count_if returning (queued r).

  (** most buffers a block can fill *)
  Definition fills (size fc : nat) : nat := (size - 1 + fc) `div` size.

  (** The control thread keeps up: the buffers not yet back in the pool leave
      enough for this block, and the notification channel has room for what it
      can send. *)
  Definition keeps_up (ncap count size : nat) (r : recorder A) (fc : nat) : Prop :=
    count_if filled (rp_notes (rc_proc r)) + count_if returning (queued r) +
      count_if stopping (queued r) + fills size fc ≤ count ∧
    length (rp_notes (rc_proc r)) + count_if starting (queued r) + 2 * count_if stopping (queued r) +
      fills size fc ≤ ncap.

  (** room for an operation *)
  Definition has_room (ncap ecap count size : nat) (r : recorder A) (o : rop A) : Prop :=
    match o with
    | RecordNow | StopNow | StopAt _ | HandleNote => length (ep_channel (rc_queue r)) < ecap
    | TakeRecording => True
    | RecordBlock _ inp iv => keeps_up ncap count size r (v_frames inp iv)
    end.

  (** the input of a history, block by block *)
  Definition input_of (o : rop A) : list (list A) :=
    match o with RecordBlock _ inp iv => frames_of inp iv | _ => [] end.
  Definition block_or_note (o : rop A) : Prop :=
    match o with RecordBlock _ _ _ | HandleNote => True | _ => False end.
End spec.
