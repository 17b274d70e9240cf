(** What the threads' schedules mean: which sequential history of commands and callbacks
    (Processor.v) a schedule amounts to. *)
From stdpp Require Import gmap list list_numbers.
From Coq Require Import ZArith.
From Verif Require Import Base Graph GraphSpec TopoSort Buffer BufferSpec DspGraph DspGraphSpec
  Float Timestamp Processor ProcessorSpec Threads.

(** number of elements that satisfy [count] before the [k]-th one (from 0) that satisfies [mark] *)
Fixpoint count_before {X} (mark count : X → bool) (k : nat) (l : list X) : nat :=
  match l with
  | [] => 0
  | x :: l =>
      if mark x then match k with 0 => 0 | S k => (if count x then 1 else 0) + count_before mark count k l end
      else (if count x then 1 else 0) + count_before mark count k l
  end.
Definition number {X} (count : X → bool) (l : list X) : nat := length (List.filter count l).

Section spec.
Context {A St : Type}.

(** ** Schedules *)
(** the commands sent, in order *)
Definition sends (s : list (act A St)) : list (command St) := s ≫= λ a, match a with ASend c => [c] | _ => [] end.
(** the calls of the audio callback, in order: input and output buffer and regions *)
Definition call : Type := owned A * view * owned A * view.
Definition begun (s : list (act A St)) : list call := s ≫= λ a, match a with ABegin inp iv out ov => [(inp, iv, out, ov)] | _ => [] end.
Definition is_send (a : act A St) : bool := match a with ASend _ => true | _ => false end.
Definition is_begin (a : act A St) : bool := match a with ABegin _ _ _ _ => true | _ => false end.
(** the callback returns *)
Definition is_return (a : act A St) : bool := match a with AStore | ASkip => true | _ => false end.
Definition is_receive (a : act A St) : bool := match a with AReceive => true | _ => false end.
Definition is_collect (a : act A St) : bool := match a with ACollect => true | _ => false end.
(** commands that remove a node *)
Definition is_removal (a : act A St) : bool := match a with ASend (CGraph (GRemoveDsp _)) => true | _ => false end.
(** commands that add a node *)
Definition adds_node (c : command St) : bool := match c with CGraph (GAddDsp _ _) => true | _ => false end.
(** steps of the audio thread *)
Definition of_audio_thread (a : act A St) : bool :=
  match a with ABegin _ _ _ _ | AReceive | ARender | AStore | ASkip => true | _ => false end.

(** steps as the API and the host make them (see [pop_ok]) *)
Definition act_ok (a : act A St) : Prop :=
  match a with
  | ASend c => pop_ok (A := A) (PSend c)
  | ABegin inp iv out ov => pop_ok (St := St) (PCallback inp iv out ov)
  | _ => True
  end.

(** ** Sequential histories *)
Definition calls (os : list (pop A St)) : list call := os ≫= λ o, match o with PCallback inp iv out ov => [(inp, iv, out, ov)] | _ => [] end.
Definition is_command (o : pop A St) : bool := match o with PSend _ => true | _ => false end.
Definition is_call (o : pop A St) : bool := match o with PCallback _ _ _ _ => true | _ => false end.

(** the same command; the id of a new connection is drawn when it is added *)
Definition same_command (c c' : command St) : Prop :=
  match c, c' with
  | CGraph (GAddConn _ a b x), CGraph (GAddConn _ a' b' x') => a = a' ∧ b = b' ∧ x = x'
  | _, _ => c = c'
  end.

(** The sequential history [os] is what the schedule [s] amounts to; [pending] are the
    commands no callback has received yet.  It contains the calls that have returned, in order, and
    the commands in the order they were sent; a command sent before a call begins comes
    before that call, one sent after the call has returned comes after it. *)
Record amounts_to (s : list (act A St)) (os : list (pop A St)) (pending : list (command St)) : Prop := {
  at_calls : calls os = take (number is_return s) (begun s);
  at_commands : ∃ received, sends s = received ++ pending ∧ Forall2 same_command received (sent os);
  at_early : ∀ k, k < number is_return s → count_before is_begin is_send k s ≤ count_before is_call is_command k os;
  at_late : ∀ k, k < number is_return s → count_before is_call is_command k os ≤ count_before is_return is_send k s;
}.

(** ** What the clients see *)
Definition times_seen (l : list seen_by_client) : list timestamp := l ≫= λ x, match x with STime t => [t] | _ => [] end.
Definition ids_seen (l : list seen_by_client) : list id := l ≫= λ x, match x with SId i => [i] | _ => [] end.

(** frames of all calls of a schedule *)
Definition frames_begun (s : list (act A St)) : nat := sum_list ((λ '(_, _, out, ov), v_frames out ov) <$> begun s).

(** the audio thread is in a callback and still takes commands *)
Definition draining (w : world A St) : Prop := match w_audio w with Draining _ _ _ _ => True | _ => False end.
(** the audio thread has taken a command that removes a node, and the channel to the
    collector is full *)
Definition waits_for_collector (capacity : nat) (w : world A St) : Prop :=
  match w_audio w, p_queue (w_engine w) with
  | Draining _ _ _ _, c :: _ => removed (w_engine w) c ≠ None ∧ capacity ≤ length (w_garbage w)
  | _, _ => False
  end.
(** the audio thread is in a callback and can make no step of its own *)
Definition stalled (tstep : world A St → act A St → res (world A St * list seen_by_client)) (w : world A St) : Prop :=
  w_audio w ≠ Outside ∧ ∀ a, of_audio_thread a = true → tstep w a = Panic Blocked.
End spec.

(** the assumptions shared by the theorems: those of [good_setup], on the steps *)
Definition good_threads {A St : Type} (proc : timestamp → St → owned A → owned A → res (St * owned A)) (nbuf max_fr sample_rate : nat)
    (sh : nat → oracle) (dr : nat → list endpoint → list endpoint) (s : list (act A St)) : Prop :=
  proc_shape proc ∧ 0 < nbuf ∧ 0 < max_fr ∧ (0 < Z.of_nat sample_rate <= 2 ^ 53)%Z ∧
  (∀ k, any_order (sh k)) ∧ (∀ k l, dr k l ≡ₚ l) ∧
  Forall act_ok s ∧ (Z.of_nat (length s) <= 2 ^ 64)%Z.
