(** The event queue shared by the sampler, recorder and ADSR processors, and the
    loop by which they split a block at the events.

    /repo/src/effects/utility/event_processor.rs. *)
From stdpp Require Import list.
From Coq Require Import ZArith.
From Verif Require Import Base Float Timestamp.

(** EventProcessorEvent l.3-7: what the queue sees of an event *)
Record event (P : Type) := Event {
  ev_time : timestamp;      (* get_time *)
  ev_seq : nat;             (* sequence_number *)
  ev_clear : bool;          (* should_clear_queue *)
  ev_data : P }.
Arguments Event {P}. Arguments ev_time {P}. Arguments ev_seq {P}.
Arguments ev_clear {P}. Arguments ev_data {P}.

(** EventProcessor l.9-16; the channel is the list of events sent and not yet
    received (its capacity is not modelled) *)
Record evproc (P : Type) := EvProc {
  ep_pending : list (event P);
  ep_channel : list (event P);
  ep_rate : nat }.
Arguments EvProc {P}. Arguments ep_pending {P}. Arguments ep_channel {P}. Arguments ep_rate {P}.

Section model.
  Context {P : Type}.
  Local Notation ev := (event P).

  (** with_capacity l.22-32 *)
  Definition new_evproc (sample_rate : nat) : evproc P := EvProc [] [] sample_rate.

  (** Sender::send of the unbounded or bounded channel *)
  Definition send_event (e : ev) (q : evproc P) : evproc P :=
    EvProc (ep_pending q) (ep_channel q ++ [e]) (ep_rate q).

  (** the comparison of l.48-51 is [Less] *)
  Definition ev_less (a b : ev) : bool :=
    match (ev_time a ?= ev_time b)%Z with
    | Lt => true
    | Gt => false
    | Eq => ev_seq a <? ev_seq b
    end.

  (** Vec::sort_by is a stable sort: for this total preorder its result is that
      of inserting the elements one after another, each behind its equals *)
  Fixpoint insert_event (e : ev) (l : list ev) : list ev :=
    match l with
    | [] => [e]
    | x :: r => if ev_less e x then e :: l else x :: insert_event e r
    end.
  Definition sort_events (l : list ev) : list ev :=
    fold_left (λ acc e, insert_event e acc) l [].

  (** loop body l.38-42 *)
  Definition receive_one (pending : list ev) (e : ev) : list ev :=
    if ev_clear e then [e] else pending ++ [e].

  (** receive_events l.34-53 *)
  Definition receive_events (q : evproc P) : evproc P :=
    match ep_channel q with
    | [] => q
    | l => EvProc (sort_events (fold_left receive_one l (ep_pending q))) [] (ep_rate q)
    end.

  (** next_event_before l.55-63 *)
  Definition next_event_before (end_time : timestamp) (pending : list ev) : option ev * list ev :=
    match pending with
    | e :: r => if (ev_time e <? end_time)%Z then (Some e, r) else (None, pending)
    | [] => (None, [])
    end.

  (** next_event l.65-84 *)
  Definition next_event (sr : nat) (frame_start current : timestamp) (frame_count : nat)
      (pending : list ev) : nat * option ev * list ev :=
    let frame_end := incremented_by_samples frame_start (Z.of_nat frame_count) (Z.of_nat sr) in
    match next_event_before frame_end pending with
    | (Some e, rest) =>
        (Z.to_nat (position_in_frame frame_start (Z.max (ev_time e) current) (Z.of_nat sr)), Some e, rest)
    | (None, rest) => (frame_count, None, rest)
    end.

  (** The loop of the three processors: sampler_processor.rs l.44-72,
      adsr_processor.rs l.63-85 and recorder_processor.rs l.139-161.  [render] renders
      [count] frames at [position] (process_sample, envelope.process, process),
      [handle] is process_event.  Fuel bounds the iterations; the debug_assert of
      end_frame is left out (C27 shows that it holds). *)
  Section loop.
    Context {S : Type} (render : S → nat → nat → res S) (handle : S → ev → timestamp → res S).

    Fixpoint event_loop (fuel sr frame_count : nat) (start : timestamp) (pending : list ev)
        (position : nat) (current : timestamp) (s : S) : res (list ev * S) :=
      if position <? frame_count then
        match fuel with
        | 0 => Panic OutOfFuel
        | Datatypes.S fuel =>
            let '(end_frame, e, rest) := next_event sr start current frame_count pending in
            if end_frame <? position then Panic Underflow else
            let count := end_frame - position in
            let? s1 := render s position count in
            let current' := incremented_by_samples current (Z.of_nat count) (Z.of_nat sr) in
            let? s2 := match e with Some e => handle s1 e current' | None => Ok s1 end in
            event_loop fuel sr frame_count start rest (position + count) current' s2
        end
      else Ok (pending, s).

    (** one block: receive_events, then the loop.  An iteration consumes an event or is the
        last one, so the number of pending events and one more is enough fuel. *)
    Definition event_block (start : timestamp) (frame_count : nat) (q : evproc P) (s : S) :
        res (evproc P * S) :=
      let q1 := receive_events q in
      let? (rest, s') := event_loop (Datatypes.S (length (ep_pending q1))) (ep_rate q) frame_count start
                           (ep_pending q1) 0 start s in
      Ok (EvProc rest (ep_channel q1) (ep_rate q), s').
  End loop.
End model.
