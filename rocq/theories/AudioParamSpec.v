(** What a schedule of parameter changes means, frame by frame. *)
From stdpp Require Import list.
From Coq Require Import ZArith.
From Verif Require Import Base Float Timestamp AudioParam.

Section spec.
  Context {V : Type}.
  Local Notation change := (change V).

  (** what the engine does with a parameter *)
  Inductive aop :=
  | AAdd (c : change)                          (* a change arrives *)
  | ABlock (time : timestamp) (frames : nat).  (* a block is processed *)

  Fixpoint run_param (N : num V) (sr : nat) (p : param V) (os : list aop) : res (param V * list V) :=
    match os with
    | [] => Ok (p, [])
    | AAdd c :: os => run_param N sr (add_change c p) os
    | ABlock time frames :: os =>
        let? (p1, out) := process N time frames sr p in
        let? (p2, out') := run_param N sr p1 os in
        Ok (p2, out ++ out')
    end.

  (** A history frame by frame: changes as they arrive and frames with their times. *)
  Inductive item := IAdd (c : change) | IFrame (t : timestamp).

  Definition timeline (sr : nat) (os : list aop) : list item :=
    o ← os; match o with
            | AAdd c => [IAdd c]
            | ABlock time frames => IFrame <$> frame_times time frames sr
            end.

  (** The change arriving at position [a] of the history takes effect at
      position [f]: the first frame after its arrival whose time has reached its own. *)
  Definition takes_effect (h : list item) (a f : nat) (c : change) : Prop :=
    a < f ∧ h !! a = Some (IAdd c) ∧
    (∃ t, h !! f = Some (IFrame t) ∧ (c_end c <= t)%Z) ∧
    (∀ g t, a < g < f → h !! g = Some (IFrame t) → (t < c_end c)%Z).

  (** The value at position [f] is that of the change which took effect last,
      or the initial one. *)
  Definition value_is (initial : V) (h : list item) (f : nat) (v : V) : Prop :=
    (∃ a f' c, takes_effect h a f' c ∧ f' ≤ f ∧ v = c_value c ∧
       ∀ a2 f2 c2, takes_effect h a2 f2 c2 → f2 ≤ f → f2 ≤ f') ∨
    (v = initial ∧ ∀ a f' c, takes_effect h a f' c → f < f').

  (** no two changes take effect on the same frame *)
  Definition distinct_frames (h : list item) : Prop :=
    ∀ a1 a2 f c1 c2, takes_effect h a1 f c1 → takes_effect h a2 f c2 → a1 = a2.

  (** positions of the frames *)
  Fixpoint frames_from (k : nat) (h : list item) : list nat :=
    match h with
    | [] => []
    | IAdd _ :: h => frames_from (S k) h
    | IFrame _ :: h => k :: frames_from (S k) h
    end.
  Definition frame_positions (h : list item) : list nat := frames_from 0 h.

  Definition all_immediate (os : list aop) : Prop :=
    ∀ c, AAdd c ∈ os → c_method c = Immediate.

  (** multiplying by one and adding zero leaves the value alone: true of every
      real number and of every binary64 number *)
  Definition steady (N : num V) (v : V) : Prop := n_add N (n_mul N v (n_one N)) (n_zero N) = v.

  Definition all_steady (N : num V) (os : list aop) : Prop :=
    ∀ c, AAdd c ∈ os → steady N (c_value c).

  (** the parameter rests at the target of the last change *)
  Definition at_rest (N : num V) (p : param V) : Prop :=
    pa_inc p = n_zero N ∧ pa_coef p = n_one N ∧ pa_value p = c_value (pa_current p) ∧ steady N (pa_value p).
End spec.
Arguments aop : clear implicits.
Arguments item : clear implicits.

(** a history of blocks only, and the times of its frames *)
Definition blocks {V} (bs : list (timestamp * nat)) : list (aop V) := (λ '(t, n), ABlock t n) <$> bs.
Definition blocks_times (sr : nat) (bs : list (timestamp * nat)) : list timestamp :=
  b ← bs; frame_times b.1 b.2 sr.

(** blocks of the given sizes that follow one another, [q] ticks a frame *)
Fixpoint consecutive (q : Z) (time : timestamp) (ns : list nat) : list (timestamp * nat) :=
  match ns with
  | [] => []
  | n :: ns => (time, n) :: consecutive q (time + Z.of_nat n * q)%Z ns
  end.


Definition nondecreasing (ts : list timestamp) : Prop :=
  ∀ i j t u, i ≤ j → ts !! i = Some t → ts !! j = Some u → (t <= u)%Z.

(** Ramps *)
Section ramps.
  Context {V : Type} (N : num V) (sr : nat).
  Fixpoint iter (n : nat) (f : V → V) (v : V) : V := match n with 0 => v | S n => iter n f (f v) end.

  (** one step of a ramp *)
  Definition ramp_step (p : param V) (v : V) : V := n_add N (n_mul N v (pa_coef p)) (pa_inc p).

  (** the state after a ramp [c] has started at [t] from [v] *)
  Definition ramp_started (t : timestamp) (v : V) (c : change V) (p : param V) : Prop :=
    pa_changes p = [] ∧ pa_current p = c ∧
    match c_method c with
    | Immediate => False
    | Linear _ => pa_coef p = n_one N ∧
        pa_inc p = n_div N (n_sub N (c_value c) v) (n_sub N (n_samples N (c_end c) sr) (n_samples N t sr))
    | Exponential _ => pa_inc p = n_zero N ∧
        pa_coef p = n_exp N (n_div N (n_ln N (n_div N (c_value c) v))
                                     (n_sub N (n_samples N (c_end c) sr) (n_samples N t sr)))
    end.

  Definition ramp_start (c : change V) : option timestamp :=
    match c_method c with Immediate => None | Linear s => Some s | Exponential s => Some s end.
End ramps.
