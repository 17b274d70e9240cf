(** Property theorems about the requests of ADSR and sampler nodes on their way to the
    processor. *)
From stdpp Require Import list.
From Coq Require Import ZArith Reals Lia.
From Verif Require Import Base Float Timestamp EventProcessor EventProcessorSpec EventProcessorProofs Buffer Adsr Sampler SamplerSpec SamplerDemo
  EventChannel EventChannelSpec EventChannelProofs.

(** C91: exactly if there are never more than [capacity] requests between two blocks no
    request waits, and then the requests are delivered as C27 and C28 say. *)
Theorem C91_bursts_partial {P : Type} (sr capacity : nat) (os : list (hop P)) :
  (0 < Z.of_nat sr <= 2 ^ 29)%Z → Forall (hop_ok sr) os →
  (bursts_fit capacity os → run_bounded capacity (new_evproc sr) os [] = run_queue (new_evproc sr) os []) ∧
  (¬ bursts_fit capacity os → run_bounded capacity (new_evproc sr) os [] = Panic Blocked).
Proof. intros H. exact (bounded_queue sr H capacity os). Qed.
Print Assumptions C91_bursts_partial.

(** C91 fails: any program that makes more than 32 requests of an ADSR node before the first
    block waits for it; setting all four parameters at once counts as four. *)
Theorem C91_adsr_refuted (sr n : nat) (l : list (cop adsr_call)) :
  (0 < Z.of_nat sr <= 2 ^ 29)%Z → Forall (λ o, match o with CBlock _ fc => block_ok sr fc | _ => True end) l →
  32 < opening adsr_cost l →
  run_bounded event_capacity (new_evproc sr) (program adsr_sends n l) [] = Panic Blocked.
Proof. exact (adsr_waits sr l n). Qed.
Print Assumptions C91_adsr_refuted.

(** C91: up to 32 requests between two blocks never wait. *)
Theorem C91_adsr_fits_partial (sr n : nat) (l : list (cop adsr_call)) :
  (0 < Z.of_nat sr <= 2 ^ 29)%Z → Forall (hop_ok sr) (program adsr_sends n l) → bursts_fit 32 (program adsr_sends n l) →
  run_bounded event_capacity (new_evproc sr) (program adsr_sends n l) [] = run_queue (new_evproc sr) (program adsr_sends n l) [].
Proof. exact (adsr_fits sr l n). Qed.
Print Assumptions C91_adsr_fits_partial.

(** C91 fails likewise for a sampler with the capacity it was created with. *)
Theorem C91_sampler_refuted (sr n capacity : nat) (l : list (cop sampler_call)) :
  (0 < Z.of_nat sr <= 2 ^ 29)%Z → Forall (λ o, match o with CBlock _ fc => block_ok sr fc | _ => True end) l →
  capacity < opening (λ c, length (sampler_sends c)) l →
  run_bounded capacity (new_evproc sr) (program sampler_sends n l) [] = Panic Blocked.
Proof. exact (opening_waits sampler_sends sr capacity l n). Qed.
Print Assumptions C91_sampler_refuted.

(** Nine times four settings wait; eight times four and a block, then one more, do not. *)
Definition settings : adsr_call := ASetAdsr (1 / 10) (1 / 5) (1 / 2) 1.
Example C91_case :
  run_bounded event_capacity (new_evproc (Z.to_nat 4096)) (program adsr_sends 0 (replicate 9 (CCall settings) ++ [CBlock 0%Z 8])) [] = Panic Blocked ∧
  bursts_fit 32 (program adsr_sends 0 (replicate 8 (CCall settings) ++ [CBlock 0%Z 8; CCall settings])) ∧
  run_bounded 2 (new_evproc (Z.to_nat 4096)) (program sampler_sends 0 [CCall KStartNow; CCall (KStopAt 5%Z); CCall KCancelAll]) [] = Panic Blocked.
Proof.
  split; [|split].
  - apply C91_adsr_refuted; [lia| |vm_compute; lia]. apply Forall_app. split; [by apply Forall_replicate|].
    constructor; [|constructor]. unfold block_ok. lia.
  - apply fits_iff. vm_compute. reflexivity.
  - apply C91_sampler_refuted; [lia| |vm_compute; lia]. repeat constructor.
Qed.

(** C92, ADSR and sampler: of two requests of one client the later takes effect before the
    earlier only if it was scheduled for an earlier time, whatever blocks come between. *)
Theorem C92_adsr_order_partial (sr n : nat) (l : list (cop adsr_call)) w s r log :
  (0 < Z.of_nat sr <= 2 ^ 29)%Z → Forall (hop_ok sr) (program adsr_sends n l) →
  run_queue (new_evproc sr) (program adsr_sends n l) [] = Ok (EvProc w s r, log) → overtakes_only_later log.
Proof. intros H Hok. exact (queue_order sr H _ w s r log Hok (program_numbered adsr_sends l n adsr_numbers)). Qed.
Print Assumptions C92_adsr_order_partial.

Theorem C92_sampler_order_partial (sr n : nat) (l : list (cop sampler_call)) w s r log :
  (0 < Z.of_nat sr <= 2 ^ 29)%Z → Forall (hop_ok sr) (program sampler_sends n l) →
  run_queue (new_evproc sr) (program sampler_sends n l) [] = Ok (EvProc w s r, log) → overtakes_only_later log.
Proof. intros H Hok. exact (queue_order sr H _ w s r log Hok (program_numbered sampler_sends l n sampler_numbers)). Qed.
Print Assumptions C92_sampler_order_partial.

(** C92 fails for requests without a time, which are given time 0: after
    start_from_position_at_time(current time) and then stop_now(), both before one block, the
    sampler plays, since the stop is carried out first. *)
Theorem C92_stop_now_refuted : ∃ fuel outs,
  demo (ramp 80 60) fuel (script 80 0 [([], 4); (start_then_stop, 8)]) = Ok outs ∧
  data <$> outs = [replicate 4 0; [1; 2; 3; 4; 5; 6; 7; 8]]%Z.
Proof. exact stop_overtakes. Qed.
Print Assumptions C92_stop_now_refuted.

(** A program that meets the hypotheses, in which a request overtakes another. *)
Definition overtaking : list (cop sampler_call) :=
  [CCall (KStartAt (at_frame 80 4) 0%Z); CCall KStopNow; CBlock (at_frame 80 4) 8; CCall (KStopAt (at_frame 80 20)); CCall KCancelLoop; CBlock (at_frame 80 12) 16].
Example C92_case : Forall (hop_ok 80) (program sampler_sends 0 overtaking) ∧
  (let? (_, log) := run_queue (new_evproc 80) (program sampler_sends 0 overtaking) [] in Ok (ev_seq ∘ snd <$> log)) = Ok [1; 0; 3; 2].
Proof.
  split; [|vm_compute; reflexivity]. repeat (constructor; [cbn; unfold block_ok; lia|]). constructor.
Qed.
