(** Property theorems about the engine's threads. *)
From stdpp Require Import gmap list.
From Coq Require Import ZArith Sorted.
From Verif Require Import Base Graph GraphSpec TopoSort TopoSortSpec TopoSortProofs Buffer BufferSpec
  DspGraph DspGraphSpec DspGraphExamples Float Timestamp Processor ProcessorSpec ProcessorExamples
  Threads ThreadsSpec ThreadsProofs ThreadsExamples.

(** C80: whatever the order in which the threads make their steps, the calls that have
    returned have produced what one sequential history of commands and callbacks produces
    (to which C13-C16 apply): the calls in order, the commands in the order they were sent, a
    command sent before a call begins before it, one sent after it returned after it. *)
Theorem C80_interleavings_are_sequential {A St : Type} (zero : A) (add : A → A → A)
    (proc : timestamp → St → owned A → owned A → res (St * owned A)) (sh : nat → oracle) (dr : nat → list endpoint → list endpoint)
    (capacity nbuf max_ch max_fr sr : nat) (s : list (act A St)) (w : world A St) (log : list seen_by_client) :
  good_threads proc nbuf max_fr sr sh dr s →
  trun zero add proc sh dr capacity (new_world zero nbuf sr max_ch max_fr) s = Ok (w, log) →
  ∃ os st pending, good_setup proc nbuf max_fr sr sh dr os ∧
    prun zero add proc sh dr (new_processor zero nbuf sr max_ch max_fr) os = Ok (st, w_outputs w) ∧
    amounts_to s os pending ∧ p_time (w_engine w) = p_time st ∧
    (w_audio w = Outside → w_engine w = with_queue st pending).
Proof. exact (sequential zero add proc sh dr capacity nbuf max_ch max_fr sr s w log). Qed.
Print Assumptions C80_interleavings_are_sequential.

(** C81: a callback takes at most one step more from the command channel than there are
    commands: those waiting when it begins and those sent while it runs. *)
Theorem C81_commands_taken_partial {A St : Type} (zero : A) (add : A → A → A)
    (proc : timestamp → St → owned A → owned A → res (St * owned A)) (sh : nat → oracle) (dr : nat → list endpoint → list endpoint)
    (capacity : nat) inp iv out ov (s : list (act A St)) (w0 w1 w : world A St) (l1 l : list seen_by_client) :
  trun zero add proc sh dr capacity w0 [ABegin inp iv out ov] = Ok (w1, l1) →
  trun zero add proc sh dr capacity w1 s = Ok (w, l) → begun s = [] →
  number is_receive s ≤ length (p_queue (w_engine w0)) + length (sends s) + 1.
Proof. exact (receives_bound zero add proc sh dr capacity inp iv out ov s w0 w1 l1 w l). Qed.
Print Assumptions C81_commands_taken_partial.

(** C81: there is no bound that does not depend on the clients: in any engine and for any
    number of commands, the first callback can have taken that many and still not render. *)
Theorem C81_bounded_callback_refuted {A St : Type} (zero : A) (add : A → A → A)
    (proc : timestamp → St → owned A → owned A → res (St * owned A)) (sh : nat → oracle) (dr : nat → list endpoint → list endpoint)
    (capacity nbuf max_ch max_fr sr : nat) inp iv out ov (n : nat) :
  pop_ok (St := St) (PCallback inp iv out ov) →
  ∃ (s : list (act A St)) w, Forall act_ok s ∧ begun s = [(inp, iv, out, ov)] ∧ number is_receive s = n ∧
    trun zero add proc sh dr capacity (new_world zero nbuf sr max_ch max_fr) s = Ok (w, []) ∧ draining w.
Proof. exact (flooded zero add proc sh dr capacity nbuf max_ch max_fr sr inp iv out ov n). Qed.
Print Assumptions C81_bounded_callback_refuted.

(** C82: the times the clients read, in the order in which they read them, never decrease,
    and each is the time of a number of frames played. *)
Theorem C82_times_read_never_decrease {A St : Type} (zero : A) (add : A → A → A)
    (proc : timestamp → St → owned A → owned A → res (St * owned A)) (sh : nat → oracle) (dr : nat → list endpoint → list endpoint)
    (capacity nbuf max_ch max_fr sr : nat) (s : list (act A St)) (w : world A St) (log : list seen_by_client) :
  Forall act_ok s → (Z.of_nat (frames_begun s) <= 2 ^ 53)%Z → (0 < Z.of_nat sr <= 2 ^ 53)%Z →
  trun zero add proc sh dr capacity (new_world zero nbuf sr max_ch max_fr) s = Ok (w, log) →
  StronglySorted Z.le (times_seen log) ∧
  Forall (λ t, ∃ n, n ≤ frames_begun s ∧ t = time_of sr n) (times_seen log).
Proof. exact (times_read zero add proc sh dr capacity nbuf max_ch max_fr sr s w log). Qed.
Print Assumptions C82_times_read_never_decrease.

(** C83: no id is given out twice (in fewer than 2^64 steps). *)
Theorem C83_ids_distinct {A St : Type} (zero : A) (add : A → A → A)
    (proc : timestamp → St → owned A → owned A → res (St * owned A)) (sh : nat → oracle) (dr : nat → list endpoint → list endpoint)
    (capacity nbuf max_ch max_fr sr : nat) (s : list (act A St)) (w : world A St) (log : list seen_by_client) :
  Forall act_ok s → (Z.of_nat (length s) <= 2 ^ 64)%Z →
  trun zero add proc sh dr capacity (new_world zero nbuf sr max_ch max_fr) s = Ok (w, log) →
  NoDup (ids_seen log).
Proof. exact (ids_distinct zero add proc sh dr capacity nbuf max_ch max_fr sr s w log). Qed.
Print Assumptions C83_ids_distinct.

(** C84: a client that reads the time three times and gets three different values after it
    sent a command knows that a callback has taken it: from any state [w], what is waiting
    was sent after. *)
Theorem C84_two_changes_confirm {A St : Type} (zero : A) (add : A → A → A)
    (proc : timestamp → St → owned A → owned A → res (St * owned A)) (sh : nat → oracle) (dr : nat → list endpoint → list endpoint)
    (capacity : nat) (w : world A St) (s2 s3 s4 : list (act A St)) w0 l0 t0 w1 l1 t1 w2 l2 t2 :
  trun zero add proc sh dr capacity w (s2 ++ [ARead]) = Ok (w0, l0 ++ [STime t0]) →
  trun zero add proc sh dr capacity w0 (s3 ++ [ARead]) = Ok (w1, l1 ++ [STime t1]) →
  trun zero add proc sh dr capacity w1 (s4 ++ [ARead]) = Ok (w2, l2 ++ [STime t2]) →
  t0 ≠ t1 → t1 ≠ t2 →
  ∃ taken, sends (s2 ++ s3 ++ s4) = taken ++ p_queue (w_engine w2).
Proof. exact (two_advances zero add proc sh dr capacity w s2 s3 s4 w0 l0 t0 w1 l1 t1 w2 l2 t2). Qed.
Print Assumptions C84_two_changes_confirm.

(** C84: one change is not enough: the stop command has been sent before both reads and no
    callback has taken it. *)
Theorem C84_one_change_confirms_refuted : ∃ (s s' : list (act Z Z)) w0 w1 l0 t0 l1 t1,
  demo_good (s ++ [ASend CStop] ++ [ARead] ++ s' ++ [ARead]) ∧ sends s' = [] ∧
  demo_trun (s ++ [ASend CStop] ++ [ARead]) = Ok (w0, l0 ++ [STime t0]) ∧
  trun 0%Z Z.add clock_proc (λ _, rev_order) (λ _ l, l) 512 w0 (s' ++ [ARead]) = Ok (w1, l1 ++ [STime t1]) ∧
  t0 ≠ t1 ∧ p_queue (w_engine w1) = [CStop].
Proof. exact one_change. Qed.
Print Assumptions C84_one_change_confirms_refuted.

(** C85: as long as no more removals have been sent than the channel to the collector holds
    and the collector has destroyed, no callback waits for the collector. *)
Theorem C85_no_wait_partial {A St : Type} (zero : A) (add : A → A → A)
    (proc : timestamp → St → owned A → owned A → res (St * owned A)) (sh : nat → oracle) (dr : nat → list endpoint → list endpoint)
    (capacity nbuf max_ch max_fr sr : nat) (s : list (act A St)) (w : world A St) (log : list seen_by_client) :
  trun zero add proc sh dr capacity (new_world zero nbuf sr max_ch max_fr) s = Ok (w, log) →
  number is_removal s ≤ capacity + number is_collect s →
  ¬ waits_for_collector capacity w.
Proof. exact (not_waiting zero add proc sh dr capacity nbuf max_ch max_fr sr s w log). Qed.
Print Assumptions C85_no_wait_partial.

(** C85: a callback that waits can make no step until the collector does. *)
Theorem C85_waiting_stalls {A St : Type} (zero : A) (add : A → A → A)
    (proc : timestamp → St → owned A → owned A → res (St * owned A)) (sh : nat → oracle) (dr : nat → list endpoint → list endpoint)
    (capacity : nat) (w : world A St) :
  waits_for_collector capacity w → stalled (tstep zero add proc sh dr capacity) w.
Proof. exact (waiting_stalls zero add proc sh dr capacity w). Qed.
Print Assumptions C85_waiting_stalls.

(** C85: with the channel of 512 nodes, 513 removals make a callback wait. *)
Theorem C85_callback_waits_refuted : ∃ s w log, demo_good s ∧ demo_trun s = Ok (w, log) ∧
  number is_removal s = 513 ∧ waits_for_collector 512 w ∧
  stalled (tstep 0%Z Z.add clock_proc (λ _, rev_order) (λ _ l, l) 512) w.
Proof. exact removals_stall. Qed.
Print Assumptions C85_callback_waits_refuted.

(** C86: every node sent to the engine is in exactly one place: in a command no callback has
    taken, in the graph, on its way to the collector or destroyed by the collector. *)
Theorem C86_nodes_accounted_for {A St : Type} (zero : A) (add : A → A → A)
    (proc : timestamp → St → owned A → owned A → res (St * owned A)) (sh : nat → oracle) (dr : nat → list endpoint → list endpoint)
    (capacity nbuf max_ch max_fr sr : nat) (s : list (act A St)) (w : world A St) (log : list seen_by_client) :
  trun zero add proc sh dr capacity (new_world zero nbuf sr max_ch max_fr) s = Ok (w, log) →
  size (nodes (dg_graph (p_graph (w_engine w)))) + length (w_garbage w) + length (w_disposed w)
    + number adds_node (p_queue (w_engine w)) = number adds_node (sends s).
Proof. exact (nodes_accounted zero add proc sh dr capacity nbuf max_ch max_fr sr s w log). Qed.
Print Assumptions C86_nodes_accounted_for.

(** ** A concrete schedule that meets the hypotheses *)
Example threads_demo :
  demo_good demo_schedule ∧ number is_return demo_schedule = 3 ∧ length (sends demo_schedule) = 8 ∧
  (Z.of_nat (frames_begun demo_schedule) <= 2 ^ 53)%Z ∧
  number is_removal demo_schedule = 1 ∧ number is_collect demo_schedule = 1 ∧
  demo_observed demo_schedule
  = Ok ([[0; 0]; [27; 27; 27; 27; 67; 67; 67; 67; 107; 107]; [127; 127; 127]]%Z,
        [0; 0; time_of 100 2; time_of 100 2; time_of 100 12; time_of 100 12; time_of 100 15]%Z,
        [0; 1; 2], 0, 1).
Proof.
  split; [exact demo_schedule_ok|]. do 5 (split; [done|]). exact demo_schedule_observed.
Qed.
