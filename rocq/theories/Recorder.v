(** The recorder: the processor on the audio thread, the node on the control
    thread and the two bounded channels between them.

    /repo/src/effects/recorder/. *)
From stdpp Require Import list.
From Coq Require Import ZArith.
From Verif Require Import Base Float Timestamp EventProcessor Buffer.

Section model.
  Context {A : Type} (zero : A).

  (** recorder_event.rs l.7-11 RecorderEventType *)
  Inductive rec_action := RReturn (b : owned A) | RStop | RStart.

  (** recorder_notification.rs l.3-7 RecorderNotification *)
  Inductive rec_note := NStart | NData (b : owned A) (used : nat) | NStop.

  (** recorder_processor.rs l.7-15 RecorderProcessor without its event queue;
      [rp_notes] are the notifications sent and not yet received, oldest first *)
  Record recproc := RecProc {
    rp_notes : list rec_note;
    rp_pool : list (owned A);
    rp_cur : owned A;
    rp_pos : nat;
    rp_on : bool }.

  (** recorder_node.rs l.13-20 Recorder, together with the processor and the
      event queue it talks to; [rc_seq] is the static counter of
      recorder_event.rs l.22-25 (shared by all recorders: others advance it too,
      only the order of the numbers matters) *)
  Record recorder := Recorder {
    rc_queue : evproc rec_action;
    rc_proc : recproc;
    rc_recording : option (owned A);
    rc_is_recording : bool;
    rc_seq : nat }.

  (** crossbeam's bounded channel: a send on a full channel waits *)
  Definition send_note (cap : nat) (n : rec_note) (p : recproc) : res recproc :=
    if length (rp_notes p) <? cap
    then Ok (RecProc (rp_notes p ++ [n]) (rp_pool p) (rp_cur p) (rp_pos p) (rp_on p))
    else Panic Blocked.

  (** recorder_processor.rs l.43-57 next_buffer *)
  Definition next_buffer (cap : nat) (p : recproc) : res recproc :=
    match rp_pool p with
    | [] => Panic NoBuffers
    | b :: l => send_note cap (NData (rp_cur p) (rp_pos p)) (RecProc (rp_notes p) l b 0 (rp_on p))
    end.

  (** recorder_processor.rs l.71-94: the loop of process; fuel bounds the
      iterations *)
  Fixpoint record_loop (cap fuel : nat) (inp : owned A) (iv : view) (cc start fc : nat)
      (position : nat) (p : recproc) : res recproc :=
    if position <? start + fc then
      match fuel with
      | 0 => Panic OutOfFuel
      | S fuel =>
          if fc <? position then Panic Underflow else
          if frames (rp_cur p) <? rp_pos p then Panic Underflow else
          let n := (fc - position) `min` (frames (rp_cur p) - rp_pos p) in
          let? cur := copy_from (rp_cur p) Whole inp iv 0 position 0 (rp_pos p) cc n in
          let p1 := RecProc (rp_notes p) (rp_pool p) cur (rp_pos p + n) (rp_on p) in
          let? p2 := if frames cur <=? rp_pos p1 then next_buffer cap p1 else Ok p1 in
          record_loop cap fuel inp iv cc start fc (position + n) p2
      end
    else Ok p.

  (** recorder_processor.rs l.59-95 process; an iteration records a frame or
      finds no buffer, so one more than the frames is enough fuel *)
  Definition record_process (cap : nat) (inp : owned A) (iv : view) (p : recproc) (start fc : nat) :
      res recproc :=
    if rp_on p
    then record_loop cap (S fc) inp iv (v_channels inp iv `min` channels (rp_cur p)) start fc start p
    else Ok p.

  (** recorder_processor.rs l.97-107 start *)
  Definition record_start (cap : nat) (p : recproc) : res recproc :=
    if rp_on p then Ok p
    else send_note cap NStart (RecProc (rp_notes p) (rp_pool p) (rp_cur p) (rp_pos p) true).

  (** recorder_processor.rs l.109-120 stop *)
  Definition record_stop (cap : nat) (p : recproc) : res recproc :=
    if rp_on p then
      let? p1 := next_buffer cap p in
      send_note cap NStop (RecProc (rp_notes p1) (rp_pool p1) (rp_cur p1) (rp_pos p1) false)
    else Ok p.

  (** recorder_processor.rs l.122-124 return_buffer and buffer_pool.rs l.26-29
      (the pool is a stack; its top is the head here) *)
  Definition record_return (b : owned A) (p : recproc) : res recproc :=
    let? b' := clear zero b Whole in
    Ok (RecProc (rp_notes p) (b' :: rp_pool p) (rp_cur p) (rp_pos p) (rp_on p)).

  (** recorder_processor.rs l.126-132 process_event *)
  Definition record_event (cap : nat) (p : recproc) (e : event rec_action) (_ : timestamp) : res recproc :=
    match ev_data e with
    | RStart => record_start cap p
    | RStop => record_stop cap p
    | RReturn b => record_return b p
    end.

  (** recorder_processor.rs l.135-162 process_audio: the loop is [event_block] *)
  Definition record_block (cap : nat) (start : timestamp) (inp : owned A) (iv : view)
      (q : evproc rec_action) (p : recproc) : res (evproc rec_action * recproc) :=
    event_block (record_process cap inp iv) (record_event cap) start (v_frames inp iv) q p.

  (** recorder_processor.rs l.22-41 new and recorder_node.rs l.27-76 new: the
      code's [count] is 32, [size] 4096 (l.18-19) *)
  Definition new_recorder (count size cc sr : nat) : recorder :=
    Recorder (new_evproc sr)
      (RecProc [] (replicate count (new_buffer zero size cc sr)) (new_buffer zero size cc sr) 0 false)
      None false 0.

  (** send on the event channel (recorder_node.rs l.79-93, 115-119) of an event
      built by recorder_event.rs l.28-58; should_clear_queue is false (l.66-68) *)
  Definition send_action (cap : nat) (t : timestamp) (a : rec_action) (r : recorder) : res recorder :=
    if length (ep_channel (rc_queue r)) <? cap
    then Ok (Recorder (send_event (Event t (rc_seq r) false a) (rc_queue r)) (rc_proc r) (rc_recording r)
               (rc_is_recording r) (S (rc_seq r)))
    else Panic Blocked.

  (** recorder_node.rs l.107-113 append_buffer *)
  Definition append_buffer (rec : option (owned A)) (b : owned A) (used : nat) : res (owned A) :=
    let? v := slice_frames b Whole 0 used in
    match rec with
    | Some r => extended_with_buffer zero r b v
    | None => from_buffer zero b v
    end.

  (** recorder_node.rs l.121-132: one iteration of process_notifications;
      nothing happens when there is no notification *)
  Definition handle_note (cap : nat) (r : recorder) : res recorder :=
    let p := rc_proc r in
    match rp_notes p with
    | [] => Ok r
    | n :: l =>
        let p' := RecProc l (rp_pool p) (rp_cur p) (rp_pos p) (rp_on p) in
        match n with
        | NStart => Ok (Recorder (rc_queue r) p' (rc_recording r) true (rc_seq r))
        | NStop => Ok (Recorder (rc_queue r) p' (rc_recording r) false (rc_seq r))
        | NData b used =>
            let? rec := append_buffer (rc_recording r) b used in
            send_action cap 0%Z (RReturn b) (Recorder (rc_queue r) p' (Some rec) (rc_is_recording r) (rc_seq r))
        end
    end.

  (** What the two threads do, in any order: the methods of the node
      (recorder_node.rs l.79-105), one notification handled, one block.  A block
      is one step: a notification handled during a block could as well be
      handled after it, because returned buffers are only taken from the
      channel at the beginning of a block. *)
  Inductive rop :=
  | RecordNow
  | StopNow
  | StopAt (t : timestamp)
  | HandleNote
  | TakeRecording
  | RecordBlock (start : timestamp) (inp : owned A) (iv : view).

  Definition rstep (ncap ecap : nat) (r : recorder) (o : rop) : res (recorder * option (owned A)) :=
    match o with
    | RecordNow => let? r' := send_action ecap 0%Z RStart r in Ok (r', None)
    | StopNow => let? r' := send_action ecap 0%Z RStop r in Ok (r', None)
    | StopAt t => let? r' := send_action ecap t RStop r in Ok (r', None)
    | HandleNote => let? r' := handle_note ecap r in Ok (r', None)
    | TakeRecording => Ok (Recorder (rc_queue r) (rc_proc r) None (rc_is_recording r) (rc_seq r), rc_recording r)
    | RecordBlock start inp iv =>
        let? (q, p) := record_block ncap start inp iv (rc_queue r) (rc_proc r) in
        Ok (Recorder q p (rc_recording r) (rc_is_recording r) (rc_seq r), None)
    end.

  (** a history; the recordings taken are collected *)
  Fixpoint rrun (ncap ecap : nat) (r : recorder) (taken : list (owned A)) (os : list rop) :
      res (recorder * list (owned A)) :=
    match os with
    | [] => Ok (r, taken)
    | o :: os =>
        let? (r', t) := rstep ncap ecap r o in
        rrun ncap ecap r' (match t with Some b => taken ++ [b] | None => taken end) os
    end.
End model.
Arguments rec_action : clear implicits.
Arguments rec_note : clear implicits.
Arguments recproc : clear implicits.
Arguments recorder : clear implicits.
Arguments rop : clear implicits.

(** recorder_processor.rs l.18-19 and recorder_node.rs l.22-23 *)
Definition code_buffer_count : nat := 32.
Definition code_buffer_size : nat := Z.to_nat 4096.
Definition code_note_capacity : nat := 32.
Definition code_event_capacity : nat := 32.
