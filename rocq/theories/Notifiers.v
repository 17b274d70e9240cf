(** Notifiers: src/engine/root.rs.  A notifier is a closure; its answers may depend on
    anything, so they are given by an oracle: [answer id k] is the answer of the [id]-th
    registered notifier to its [k]-th call ([true] is NotifierStatus::Continue,
    engine/context.rs l.4-10). *)
From stdpp Require Import list.

Section notifiers.
  Context (answer : nat → nat → bool).
  (** l.9: a registered notifier, with the number of calls so far *)
  Record notifier := Notifier { n_id : nat; n_calls : nat }.
  (** l.5-11, the fields used here; the number of notifiers ever registered *)
  Record root := Root { r_notifiers : list notifier; r_registered : nat }.
  Definition new_root : root := Root [] 0.
  (** l.34-36 *)
  Definition add_notifier (r : root) : root :=
    Root (r_notifiers r ++ [Notifier (r_registered r) 0]) (S (r_registered r)).
  (** l.38-41: Vec::retain calls the predicate once for every element, in order, and keeps
      those for which it is true; also the notifiers called *)
  Fixpoint retain (l : list notifier) : list notifier * list nat :=
    match l with
    | [] => ([], [])
    | n :: l =>
        let continue := answer (n_id n) (n_calls n) in
        let (kept, called) := retain l in
        (if continue then Notifier (n_id n) (S (n_calls n)) :: kept else kept, n_id n :: called)
    end.
  Definition process_notifications (r : root) : root * list nat :=
    let (kept, called) := retain (r_notifiers r) in (Root kept (r_registered r), called).
End notifiers.
