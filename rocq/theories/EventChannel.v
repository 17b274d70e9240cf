(** The client side of the ADSR and the sampler node: what the methods send, and the
    bounded channel to the processor.

    /repo/src/effects/adsr/adsr_node.rs, /repo/src/effects/sampler/sampler_node.rs. *)
From stdpp Require Import list.
From Coq Require Import ZArith Reals.
From Verif Require Import Base Float Timestamp EventProcessor EventProcessorSpec Adsr Sampler.

(** adsr_node.rs l.15, sampler_node.rs l.11 EVENT_CHANNEL_CAPACITY *)
Definition event_capacity : nat := 32.

Section channel.
  Context {P : Type}.
  (** Sender::send of a bounded channel (adsr_node.rs l.22, sampler_node.rs l.22): if it is full
      the caller waits.  sampler_node.rs l.117-120 additionally asserts in debug builds
      that it is not full. *)
  Definition send_bounded (capacity : nat) (e : event P) (q : evproc P) : res (evproc P) :=
    rassert (length (ep_channel q) <? capacity) Blocked (Ok (send_event e q)).

  (** A history of one client thread and the blocks processed between its requests.  Nothing
      else empties the channel, so a client that waits here before the next block
      waits until one is processed. *)
  Fixpoint run_bounded (capacity : nat) (q : evproc P) (os : list (hop P)) (log : list (timestamp * nat * event P)) :
      res (evproc P * list (timestamp * nat * event P)) :=
    match os with
    | [] => Ok (q, log)
    | HSend e :: os => let? q := send_bounded capacity e q in run_bounded capacity q os log
    | HBlock start fc :: os =>
        let? (q', log') := event_block log_render (log_handle start fc) start fc q log in
        run_bounded capacity q' os log'
    end.

  (** next_sequence_number (adsr_event.rs l.19-22, sampler_event.rs l.18-21): a counter that every
      event takes one number of; the counter of other nodes' events is left out *)
  Definition number (n : nat) (es : list (nat → event P)) : list (event P) := imap (λ i e, e (n + i)) es.
End channel.

(** methods of Adsr, adsr_node.rs l.43-109; durations in seconds *)
Inductive adsr_call :=
| ANoteOnAt (t : timestamp) | ANoteOffAt (t : timestamp)
| ASetAttack (t : R) | ASetDecay (t : R) | ASetSustain (s : R) | ASetRelease (t : R)
| ASetAdsr (attack decay sustain release : R).
(** adsr_event.rs l.32-39, l.50-52 *)
Definition adsr_event (t : timestamp) (a : adsr_action) (seq : nat) : event adsr_action := Event t seq false a.
Definition adsr_sends (c : adsr_call) : list (nat → event adsr_action) :=
  match c with
  | ANoteOnAt t => [adsr_event t NoteOn]
  | ANoteOffAt t => [adsr_event t NoteOff]
  | ASetAttack t => [adsr_event 0%Z (SetAttack t)]
  | ASetDecay t => [adsr_event 0%Z (SetDecay t)]
  | ASetSustain s => [adsr_event 0%Z (SetSustain s)]
  | ASetRelease t => [adsr_event 0%Z (SetRelease t)]
  | ASetAdsr a d s r => [adsr_event 0%Z (SetAttack a); adsr_event 0%Z (SetDecay d); adsr_event 0%Z (SetSustain s); adsr_event 0%Z (SetRelease r)]
  end.

(** methods of Sampler, sampler_node.rs l.46-115 *)
Inductive sampler_call :=
| KStartNow | KStopNow | KStartAt (t position : timestamp) | KStopAt (t : timestamp)
| KEnableLoop (loop_start loop_end : timestamp) | KCancelLoop | KCancelAll
| KEnableLoopAt (t loop_start loop_end : timestamp) | KCancelLoopAt (t : timestamp).
Definition sampler_sends (c : sampler_call) : list (nat → event sample_action) :=
  let e t a seq := sampler_event t seq a in
  match c with
  | KStartNow => [e 0%Z SStartImmediate]
  | KStopNow => [e 0%Z SStop]
  | KStartAt t p => [e t (SStart p)]
  | KStopAt t => [e t SStop]
  | KEnableLoop a b => [e 0%Z (SEnableLoop a b)]
  | KCancelLoop => [e 0%Z SCancelLoop]
  | KCancelAll => [e 0%Z SCancelAll]
  | KEnableLoopAt t a b => [e t (SEnableLoop a b)]
  | KCancelLoopAt t => [e t SCancelLoop]
  end.

(** A client program: method calls, and the blocks processed between them. *)
Inductive cop (C : Type) := CCall (c : C) | CBlock (start : timestamp) (fc : nat).
Arguments CCall {C}. Arguments CBlock {C}.
Fixpoint program {C P} (sends : C → list (nat → event P)) (n : nat) (l : list (cop C)) : list (hop P) :=
  match l with
  | [] => []
  | CCall c :: l => (HSend <$> number n (sends c)) ++ program sends (n + length (sends c)) l
  | CBlock start fc :: l => HBlock start fc :: program sends n l
  end.
(** The requests of the calls made before each block, numbered in the order of the calls. *)
Fixpoint requests {C P} (sends : C → list (nat → event P)) (n : nat) (calls : list (list C)) : list (list (event P)) :=
  match calls with
  | [] => []
  | cs :: calls => let es := cs ≫= sends in number n es :: requests sends (n + length es) calls
  end.
