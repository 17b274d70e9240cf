(** What the event queue is specified to do. *)
From stdpp Require Import list sorting.
From Coq Require Import ZArith.
From Verif Require Import Base Float Timestamp EventProcessor.

Section spec.
  Context {P : Type}.
  Local Notation ev := (event P).

  (** earlier time, or same time and created earlier *)
  Definition ev_before (a b : ev) : Prop :=
    (ev_time a < ev_time b)%Z ∨ ev_time a = ev_time b ∧ ev_seq a ≤ ev_seq b.

  (** Events that can still be delivered, given the sends in order: a cancelling
      event drops those before it. *)
  Definition surviving (waiting sent live : list ev) : Prop :=
    (Forall (λ e, ev_clear e = false) sent ∧ live ≡ₚ waiting ++ sent) ∨
    (∃ old c new, sent = old ++ c :: new ∧ ev_clear c = true ∧
       Forall (λ e, ev_clear e = false) new ∧ live ≡ₚ c :: new).

  (** end of the block of [fc] frames starting at [start] *)
  Definition block_end (sr : nat) (start : timestamp) (fc : nat) : timestamp :=
    incremented_by_samples start (Z.of_nat fc) (Z.of_nat sr).

  (** frame of the block on which an event acts (0 if it is late) *)
  Definition frame_of (sr : nat) (start : timestamp) (e : ev) : nat :=
    Z.to_nat (position_in_frame start (ev_time e) (Z.of_nat sr)).

  (** blocks of at least one and at most 2^16 frames, and at most 2^32 over the sample rate *)
  Definition block_ok (sr fc : nat) : Prop :=
    0 < fc ∧ (Z.of_nat fc <= 2 ^ 16)%Z ∧ (Z.of_nat fc * Z.of_nat sr <= 2 ^ 32)%Z.

  (** Of the live events exactly those due before the end of the block are
      delivered, in order; the others wait. *)
  Definition delivers (sr : nat) (start : timestamp) (fc : nat) (live delivered rest : list ev) : Prop :=
    live ≡ₚ delivered ++ rest ∧
    StronglySorted ev_before delivered ∧
    Forall (λ e, (ev_time e < block_end sr start fc)%Z) delivered ∧
    Forall (λ e, (block_end sr start fc <= ev_time e)%Z) rest.

  (** The block cut at the events: pieces (position, length, event after it).  [current] is the
      processor's running time. *)
  Fixpoint pieces (sr : nat) (start : timestamp) (fc : nat) (pos : nat) (delivered : list ev) :
      list (nat * nat * option ev) :=
    match delivered with
    | [] => [(pos, fc - pos, None)]
    | e :: r => let f := frame_of sr start e in
        (pos, f - pos, Some e) :: pieces sr start fc f r
    end.

  (** what the processor does with one piece *)
  Definition do_piece {S} (render : S → nat → nat → res S) (handle : S → ev → timestamp → res S)
      (sr : nat) (sc : S * timestamp) (p : nat * nat * option ev) : res (S * timestamp) :=
    let '(s, current) := sc in
    let '(pos, count, e) := p in
    let? s1 := render s pos count in
    let current' := incremented_by_samples current (Z.of_nat count) (Z.of_nat sr) in
    let? s2 := match e with Some e => handle s1 e current' | None => Ok s1 end in
    Ok (s2, current').

  (** frames from 0 to [fc] in order, without gap or overlap; an event acts inside the block *)
  Fixpoint cut (fc pos : nat) (l : list (nat * nat * option ev)) : Prop :=
    match l with
    | [] => False
    | (p, n, None) :: r => p = pos ∧ p + n = fc ∧ r = []
    | (p, n, Some _) :: r => p = pos ∧ p + n < fc ∧ cut fc (p + n) r
    end.

  (** *** Histories *)
  Inductive hop := HSend (e : ev) | HBlock (start : timestamp) (fc : nat).

  (** The abstract queue: events waiting and events sent since the last block.
      [log] lists the deliveries as (start of the block, its frames, event). *)
  Inductive hrun (sr : nat) : list ev → list ev → list hop →
      list ev → list ev → list (timestamp * nat * ev) → Prop :=
  | hrun_nil w s : hrun sr w s [] w s []
  | hrun_send w s e os w' s' log :
      hrun sr w (s ++ [e]) os w' s' log →
      hrun sr w s (HSend e :: os) w' s' log
  | hrun_block w s start fc live delivered rest os w' s' log :
      surviving w s live →
      delivers sr start fc live delivered rest →
      hrun sr rest [] os w' s' log →
      hrun sr w s (HBlock start fc :: os) w' s' (((λ e, (start, fc, e)) <$> delivered) ++ log).

  Definition hsent (os : list hop) : list ev := omap (λ o, match o with HSend e => Some e | _ => None end) os.

  Definition hop_ok (sr : nat) (o : hop) : Prop :=
    match o with
    | HSend _ => True
    | HBlock _ fc => block_ok sr fc
    end.

  (** the model run over a history: the processor logs what it is handed *)
  Definition log_render (s : list (timestamp * nat * ev)) (_ _ : nat) : res (list (timestamp * nat * ev)) := Ok s.
  Definition log_handle (start : timestamp) (fc : nat) (s : list (timestamp * nat * ev)) (e : ev) (_ : timestamp) :
      res (list (timestamp * nat * ev)) := Ok (s ++ [(start, fc, e)]).
  Fixpoint run_queue (q : evproc P) (os : list hop) (log : list (timestamp * nat * ev)) :
      res (evproc P * list (timestamp * nat * ev)) :=
    match os with
    | [] => Ok (q, log)
    | HSend e :: os => run_queue (send_event e q) os log
    | HBlock start fc :: os =>
        let? (q', log') := event_block log_render (log_handle start fc) start fc q log in
        run_queue q' os log'
    end.
End spec.
Arguments hop : clear implicits.
