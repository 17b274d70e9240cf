(** Shared conventions of the model: results with explicit panics.

    Rust code that aborts (assert!, unwrap, expect, slice out of range, usize
    underflow) returns [Panic reason] here.  Recursion on fuel returns
    [Panic OutOfFuel] when the fuel is exhausted: this stands for a loop that
    does not terminate and is excluded explicitly by the theorems. *)

Inductive panic : Set :=
| AssertFailed        (* assert! / assert_eq! *)
| UnwrapNone          (* Option::unwrap / expect on None *)
| IndexOutOfRange     (* slice or index out of range *)
| Underflow           (* usize subtraction below zero *)
| DivByZero
| CycleDetected       (* the final assertion of TopologicalSort::sort *)
| NoBuffers           (* expect("No buffers available ...") *)
| Immutable           (* mutating an immutable borrowed buffer *)
| Blocked             (* send on a full bounded channel: the thread waits *)
| OutOfFuel           (* non-termination *)
| NotANumber.         (* no panic: a NaN where the model has only real numbers, see Effects.v *)

Inductive res (A : Type) : Type :=
| Ok : A -> res A
| Panic : panic -> res A.
Arguments Ok {A} a.
Arguments Panic {A} p.

Definition rbind {A B} (r : res A) (k : A -> res B) : res B :=
  match r with
  | Ok a => k a
  | Panic p => Panic p
  end.

Notation "'let?' x ':=' e 'in' k" := (rbind e (fun x => k))
  (at level 200, x pattern, e at level 100, k at level 200,
   format "'[v' 'let?'  x  ':='  e  'in' '/' k ']'").

(** assert!(b) followed by the continuation *)
Definition rassert {A} (b : bool) (p : panic) (k : res A) : res A :=
  if b then k else Panic p.

(** Option::unwrap / expect *)
Definition runwrap {A} (o : option A) (p : panic) : res A :=
  match o with
  | Some a => Ok a
  | None => Panic p
  end.

Definition is_ok {A} (r : res A) : bool :=
  match r with Ok _ => true | Panic _ => false end.

(** Fold with early panic: a Rust [for] loop over a list. *)
Fixpoint rfold {A S} (f : S -> A -> res S) (l : list A) (s : S) : res S :=
  match l with
  | nil => Ok s
  | cons a l => let? s' := f s a in rfold f l s'
  end.
