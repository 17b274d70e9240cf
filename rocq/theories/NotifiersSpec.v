(** When notifiers are called. *)
From stdpp Require Import list.
From Verif Require Import Notifiers.

Inductive nevent := Add | Process.
Global Instance nevent_eq_dec : EqDecision nevent.
Proof. solve_decision. Defined.

Section spec.
  Context (answer : nat → nat → bool).
  (** the notifiers called by each Process of a history *)
  Fixpoint calls (r : root) (h : list nevent) : list (list nat) :=
    match h with
    | [] => []
    | Add :: h => calls (add_notifier r) h
    | Process :: h => let (r', called) := process_notifications answer r in called :: calls r' h
    end.

  Definition adds (h : list nevent) : nat := length (filter (λ e, e = Add) h).
  Definition processes (h : list nevent) : nat := length (filter (λ e, e = Process) h).
  (** how many times Process occurs after the registration of the [id]-th notifier *)
  Fixpoint since (h : list nevent) (id : nat) : nat :=
    match h with
    | [] => 0
    | Add :: h => match id with 0 => processes h | S id => since h id end
    | Process :: h => since h id
    end.
  (** registered and never having answered stop *)
  Definition active (h : list nevent) (id : nat) : Prop := id < adds h ∧ ∀ k, k < since h id → answer id k = true.
  Global Instance active_dec h id : Decision (active h id).
  Proof.
    unfold active. apply and_dec; [apply _|]. destruct (decide (Forall (λ k, answer id k = true) (seq 0 (since h id)))) as [H|H].
    - left. intros k Hk. rewrite Forall_forall in H. apply H. apply elem_of_list_In, in_seq. lia.
    - right. intros H'. apply H. apply Forall_forall. intros k Hk. apply elem_of_list_In, in_seq in Hk. apply H'. lia.
  Defined.
  (** in the order of registration *)
  Definition expected (h : list nevent) : list nat := filter (active h) (seq 0 (adds h)).
End spec.
