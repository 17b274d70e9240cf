(** Property theorems about event delivery (sampler, recorder and ADSR share it). *)
From stdpp Require Import list sorting.
From Coq Require Import ZArith Lia.
From Verif Require Import Base Float Timestamp EventProcessor EventProcessorSpec EventProcessorProofs.

(** C27, one block: of the events that survive, exactly those due before the
    end of the block are handed over, in order of time and of creation, each at
    the frame of its time (0 if late); what is rendered between them are the pieces of the
    block in order, without gap or overlap.  Whatever the processor does, it
    is driven through exactly these pieces, and the loop terminates. *)
Theorem C27_block {P S : Type} (render : S → nat → nat → res S) (handle : S → event P → timestamp → res S)
    (sr : nat) (start : timestamp) (fc : nat) (q : evproc P) (s : S) :
  (0 < Z.of_nat sr <= 2 ^ 29)%Z → block_ok sr fc → ep_rate q = sr →
  StronglySorted ev_before (ep_pending q) →
  ∃ live delivered rest,
    surviving (ep_pending q) (ep_channel q) live ∧
    delivers sr start fc live delivered rest ∧
    cut fc 0 (pieces sr start fc 0 delivered) ∧
    StronglySorted ev_before rest ∧
    event_block render handle start fc q s =
      let? (s', _) := rfold (do_piece render handle sr) (pieces sr start fc 0 delivered) (s, start) in
      Ok (EvProc rest [] sr, s').
Proof. intros H. exact (event_block_ok render handle sr H start fc q s). Qed.
Print Assumptions C27_block.

(** C27, C28, histories: from a new queue, every sequence of sends and blocks is one of
    the abstract queue (EventProcessorSpec.v). *)
Theorem C27_C28_queue_refines {P : Type} (sr : nat) (os : list (hop P)) :
  (0 < Z.of_nat sr <= 2 ^ 29)%Z → Forall (hop_ok sr) os →
  ∃ w s log, run_queue (new_evproc sr) os [] = Ok (EvProc w s sr, log) ∧ hrun sr [] [] os w s log.
Proof. intros H. exact (queue_refines sr H os). Qed.
Print Assumptions C27_C28_queue_refines.

(** C27: without cancelling events, every event sent is delivered exactly once
    or still waits. *)
Theorem C27_exactly_once {P : Type} (sr : nat) (os : list (hop P)) w s r log :
  (0 < Z.of_nat sr <= 2 ^ 29)%Z → Forall (hop_ok sr) os →
  Forall (λ e, ev_clear e = false) (hsent os) →
  run_queue (new_evproc sr) os [] = Ok (EvProc w s r, log) →
  hsent os ≡ₚ (snd <$> log) ++ w ++ s.
Proof. intros H. exact (queue_once sr H os w s r log). Qed.
Print Assumptions C27_exactly_once.

(** C27: never before it is sent, never in a block that ends at or before its
    time, and on a frame of that block. *)
Theorem C27_not_early {P : Type} (sr : nat) (os : list (hop P)) w s r log :
  (0 < Z.of_nat sr <= 2 ^ 29)%Z → Forall (hop_ok sr) os →
  run_queue (new_evproc sr) os [] = Ok (EvProc w s r, log) →
  Forall (λ '(start, fc, e), e ∈ hsent os ∧ (ev_time e < block_end sr start fc)%Z ∧ frame_of sr start e < fc) log.
Proof. intros H. exact (queue_due sr H os w s r log). Qed.
Print Assumptions C27_not_early.

(** C27: never late: after a block only events due after its end wait. *)
Theorem C27_not_late {P : Type} (sr : nat) (os : list (hop P)) start fc w s r log :
  (0 < Z.of_nat sr <= 2 ^ 29)%Z → Forall (hop_ok sr) (os ++ [HBlock start fc]) →
  run_queue (new_evproc sr) (os ++ [HBlock start fc]) [] = Ok (EvProc w s r, log) →
  s = [] ∧ Forall (λ e, (block_end sr start fc <= ev_time e)%Z) w.
Proof. intros H. exact (queue_waits sr H os start fc w s r log). Qed.
Print Assumptions C27_not_late.

(** C28: after a cancelling event is sent only it and events sent after it are
    delivered; if none of those cancels, all of them are, or still wait. *)
Theorem C28_cancel_all {P : Type} (sr : nat) (os1 os2 : list (hop P)) c q1 log1 w s r log :
  (0 < Z.of_nat sr <= 2 ^ 29)%Z → Forall (hop_ok sr) (os1 ++ HSend c :: os2) → ev_clear c = true →
  run_queue (new_evproc sr) os1 [] = Ok (q1, log1) →
  run_queue (new_evproc sr) (os1 ++ HSend c :: os2) [] = Ok (EvProc w s r, log) →
  ∃ log2, log = log1 ++ log2 ∧ (snd <$> log2) ⊆ c :: hsent os2 ∧
    (Forall (λ e, ev_clear e = false) (hsent os2) → (∃ start fc, HBlock start fc ∈ os2) →
     c :: hsent os2 ≡ₚ (snd <$> log2) ++ w ++ s).
Proof. intros H. exact (queue_cancel sr H os1 c os2 q1 log1 w s r log). Qed.
Print Assumptions C28_cancel_all.

(** A concrete history at 4096 Hz (a frame is 2^20 ticks): blocks of 8 frames; an
    event for frame 10, two for frame 3 created in this order, one for a time already
    past, then a cancelling event that drops one for frame 40. *)
Definition at_frame (n : Z) (seq : nat) (clear : bool) : event nat := Event (n * 2 ^ 20)%Z seq clear seq.
Definition demo_events : list (hop nat) :=
  [HSend (at_frame 10 0 false); HSend (at_frame 3 1 false); HSend (at_frame 3 2 false);
   HBlock 0%Z 8; HSend (at_frame 1 3 false); HSend (at_frame 40 4 false); HBlock (8 * 2 ^ 20)%Z 8;
   HSend (at_frame 0 5 true); HSend (at_frame 20 6 false); HBlock (16 * 2 ^ 20)%Z 8].

Example demo_events_ok : Forall (hop_ok (Z.to_nat 4096)) demo_events.
Proof. repeat (constructor; [cbn; unfold block_ok; lia|]). constructor. Qed.

Example demo_events_log :
  (let? (_, log) := run_queue (new_evproc (Z.to_nat 4096)) demo_events [] in
   Ok ((λ '(start, fc, e), (start, frame_of (Z.to_nat 4096) start e, ev_data e)) <$> log)) =
  Ok [(0, 3%nat, 1%nat); (0, 3%nat, 2%nat); (8 * 2 ^ 20, 0%nat, 3%nat); (8 * 2 ^ 20, 2%nat, 0%nat);
      (16 * 2 ^ 20, 0%nat, 5%nat); (16 * 2 ^ 20, 4%nat, 6%nat)]%Z.
Proof. vm_compute. reflexivity. Qed.
