(** When a client of a node waits, and in which order its requests take effect. *)
From stdpp Require Import list.
From Coq Require Import ZArith.
From Verif Require Import Base Float Timestamp EventProcessor EventProcessorSpec Sampler SamplerDemo EventChannel.

Section spec.
  Context {P : Type}.
  Implicit Types os : list (hop P).
  (** never more than [capacity] requests in a row without a block between them *)
  Definition bursts_fit (capacity : nat) os : Prop :=
    ∀ before es after, os = before ++ (HSend <$> es) ++ after → length es ≤ capacity.
  (** numbered in the order in which they are made *)
  Definition numbered os : Prop :=
    ∀ i j e e', i < j → hsent os !! i = Some e → hsent os !! j = Some e' → ev_seq e < ev_seq e'.
  (** A request takes effect before one made earlier only if it is scheduled for an earlier time. *)
  Definition overtakes_only_later (log : list (timestamp * nat * event P)) : Prop :=
    ∀ i j b b' e e', i < j → log !! i = Some (b, e) → log !! j = Some (b', e') → ev_seq e' < ev_seq e →
      (ev_time e < ev_time e')%Z.
End spec.

(** requests of a program up to the first block *)
Fixpoint opening {C} (size : C → nat) (l : list (cop C)) : nat :=
  match l with
  | CCall c :: l => size c + opening size l
  | _ => 0
  end.

(** start_from_position_at_time at frame 4, then stop_now *)
Definition start_then_stop : list (event sample_action) :=
  number 0 (sampler_sends (KStartAt (at_frame 80 4) 0%Z) ++ sampler_sends KStopNow).
(** requests that a method of the ADSR node makes *)
Definition adsr_cost (c : adsr_call) : nat := match c with ASetAdsr _ _ _ _ => 4 | _ => 1 end.
