(** Property theorems about the recorder. *)
From stdpp Require Import list sorting.
From Coq Require Import ZArith Lia.
From Verif Require Import Base Float Timestamp EventProcessor EventProcessorSpec Buffer BufferSpec
  Recorder RecorderSpec RecorderProofs.

(** C29: whatever the two threads do in whatever order (requests, blocks of
    any sizes, handled notifications, taken recordings), what the control
    thread has received, in all the takes so far and the one being assembled, is
    the beginning of the recorded input (RecorderSpec.v: the frames of the
    blocks on which the last request is one to record), frame by frame and
    channel by channel.  Once recording is stopped and all notifications are handled it is all of it. *)
Theorem C29_recording_is_input {A : Type} (zero : A) (ncap ecap count size cc sr : nat)
    (os : list (rop A)) (r : recorder A) (taken : list (owned A)) :
  0 < size → (0 < Z.of_nat sr <= 2 ^ 29)%Z → Forall (rop_ok cc sr) os →
  rrun zero ncap ecap (new_recorder zero count size cc sr) [] os = Ok (r, taken) →
  ∃ w s on sound, rec_run sr [] [] false os w s on sound ∧
    received taken r `prefix_of` sound ∧
    (rp_notes (rc_proc r) = [] → rc_is_recording r = on ∧ (on = false → received taken r = sound)).
Proof. intros Hz Hs. exact (recorder_refines zero ncap ecap count size cc sr Hz Hs os r taken). Qed.
Print Assumptions C29_recording_is_input.

(** C29, one take: record, any blocks, stop, one more block, and everything is
    read: the recording is the concatenation of the blocks. *)
Theorem C29_take {A : Type} (zero : A) (ncap ecap count size cc sr : nat)
    (body notes : list (rop A)) (start : timestamp) (inp : owned A) (iv : view)
    (r : recorder A) (taken : list (owned A)) :
  0 < size → (0 < Z.of_nat sr <= 2 ^ 29)%Z →
  Forall (rop_ok cc sr) (body ++ [RecordBlock start inp iv]) → Forall block_or_note body →
  Forall (λ o, o = HandleNote ∨ o = TakeRecording) notes →
  rrun zero ncap ecap (new_recorder zero count size cc sr) []
    (RecordNow :: body ++ StopNow :: RecordBlock start inp iv :: notes) = Ok (r, taken) →
  rp_notes (rc_proc r) = [] →
  received taken r = concat (input_of <$> body) ∧ rc_is_recording r = false.
Proof. intros Hz Hs. exact (recorder_take zero ncap ecap count size cc sr Hz Hs body start inp iv notes r taken). Qed.
Print Assumptions C29_take.

(** C30: buffers are neither lost nor duplicated. *)
Theorem C30_buffers_conserved {A : Type} (zero : A) (ncap ecap count size cc sr : nat)
    (os : list (rop A)) (r : recorder A) (taken : list (owned A)) :
  0 < size → (0 < Z.of_nat sr <= 2 ^ 29)%Z → Forall (rop_ok cc sr) os →
  rrun zero ncap ecap (new_recorder zero count size cc sr) [] os = Ok (r, taken) →
  buffers r = count + 1.
Proof. intros Hz Hs. exact (recorder_buffers zero ncap ecap count size cc sr Hz Hs os r taken). Qed.
Print Assumptions C30_buffers_conserved.

(** C30: recording aborts for no other reason than an empty pool, and waits
    only on a full channel (in particular no copy is out of range and the loop ends)... *)
Theorem C30_only_starvation_aborts {A : Type} (zero : A) (ncap ecap count size cc sr : nat)
    (os : list (rop A)) (x : panic) :
  0 < size → (0 < Z.of_nat sr <= 2 ^ 29)%Z → Forall (rop_ok cc sr) os →
  rrun zero ncap ecap (new_recorder zero count size cc sr) [] os = Panic x → x = NoBuffers ∨ x = Blocked.
Proof. intros Hz Hs. exact (recorder_aborts zero ncap ecap count size cc sr Hz Hs os x). Qed.
Print Assumptions C30_only_starvation_aborts.

(** ...and neither happens as long as there is room for every operation: the
    event channel is not full, and the control thread has returned enough
    buffers and read enough notifications for the next block. *)
Theorem C30_never_runs_out {A : Type} (zero : A) (ncap ecap count size cc sr : nat) (os : list (rop A)) :
  0 < size → (0 < Z.of_nat sr <= 2 ^ 29)%Z → Forall (rop_ok cc sr) os →
  (∀ os1 o os2 r taken, os = os1 ++ o :: os2 →
     rrun zero ncap ecap (new_recorder zero count size cc sr) [] os1 = Ok (r, taken) →
     has_room ncap ecap count size r o) →
  ∃ r taken, rrun zero ncap ecap (new_recorder zero count size cc sr) [] os = Ok (r, taken).
Proof. intros Hz Hs. exact (recorder_keeps_up zero ncap ecap count size cc sr Hz Hs os). Qed.
Print Assumptions C30_never_runs_out.

(** A stereo take over buffers of 4 frames in blocks of 3 and 5 frames, and one
    more of 2; the notifications are read while recording. *)
Definition rec_in (n k : nat) : owned nat :=
  Owned (((λ i, 10 * k + i) <$> seq 0 n) ++ ((λ i, 100 + 10 * k + i) <$> seq 0 n)) 2 n 1.
Definition rec_history : list (rop nat) :=
  RecordNow :: [RecordBlock 0%Z (rec_in 3 1) Whole; RecordBlock (3 * 2 ^ 20)%Z (rec_in 5 2) Whole;
     HandleNote; HandleNote; RecordBlock (8 * 2 ^ 20)%Z (rec_in 3 3) Whole] ++
  StopNow :: RecordBlock (11 * 2 ^ 20)%Z (rec_in 2 4) Whole :: replicate 5 HandleNote ++ [TakeRecording].

Example rec_history_ok : Forall (rop_ok 2 (Z.to_nat 4096)) rec_history.
Proof. repeat (constructor; [cbn; unfold block_ok; repeat split; cbn; lia|]). constructor. Qed.

Example rec_history_take :
  (let? (r, taken) := rrun 0 32 32 (new_recorder 0 32 4 2 4096) [] rec_history in
   Ok (rp_notes (rc_proc r), (λ b, frames_of b Whole) <$> taken, rc_is_recording r, buffers r)) =
  Ok ([], [[[10; 110]; [11; 111]; [12; 112]; [20; 120]; [21; 121]; [22; 122]; [23; 123]; [24; 124];
           [30; 130]; [31; 131]; [32; 132]]], false, 33).
Proof. vm_compute. reflexivity. Qed.

(** the hypothesis of C30_never_runs_out, at 1 Hz with a pool of 4 *)
Example rec_has_room : ∀ os1 o os2 r taken,
  [RecordNow; RecordBlock 0%Z (rec_in 3 1) Whole; HandleNote] = os1 ++ o :: os2 →
  rrun 0 4 4 (new_recorder 0 4 4 2 1) [] os1 = Ok (r, taken) → has_room 4 4 4 4 r o.
Proof.
  intros os1 o os2 r taken E.
  destruct os1 as [|? [|? [|? [|? ?]]]]; cbn [app] in E; simplify_eq; intros H; vm_compute in H; injection H as <- _; vm_compute; lia.
Qed.

(** a stop inside a block: it lasts 2 frames of the second block *)
Example rec_stop_at :
  (let? (r, taken) := rrun 0 32 32 (new_recorder 0 32 4 2 4096) []
     ([RecordNow; StopAt (5 * 2 ^ 20)%Z; RecordBlock 0%Z (rec_in 3 1) Whole;
       RecordBlock (3 * 2 ^ 20)%Z (rec_in 5 2) Whole] ++ replicate 5 HandleNote) in
   Ok (received taken r, rc_is_recording r)) =
  Ok ([[10; 110]; [11; 111]; [12; 112]; [20; 120]; [21; 121]], false).
Proof. vm_compute. reflexivity. Qed.

(** With the code's sizes the audio thread waits in the 32nd buffer if nothing is
    read: the notification of the start and 31 buffers fill the channel. *)
Definition big_block : owned nat := Owned (replicate code_buffer_size 1) 1 code_buffer_size (Z.to_nat 48000).
Example rec_unread_waits :
  let run n := rrun 0 code_note_capacity code_event_capacity
                 (new_recorder 0 code_buffer_count code_buffer_size 1 (Z.to_nat 48000)) []
                 (RecordNow :: replicate n (RecordBlock 0%Z big_block Whole)) in
  is_ok (run 31) = true ∧ match run 32 with Panic x => x = Blocked | _ => False end.
Proof. vm_compute. done. Qed.
