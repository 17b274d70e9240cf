(** Audio parameters: the ranges of the control side and the schedule of the
    audio side.

    /repo/src/parameter/.  The model is written once for any number type [V]
    with operations collected in [num]; it is used with exact binary64
    arithmetic (Float.v) and with real numbers. *)
From stdpp Require Import list.
From Coq Require Import ZArith.
From Verif Require Import Base Float Timestamp.

(** ** Ranges: parameter_range.rs.  Values are finite binary64 (Float.v): only
    their order matters. *)
Record prange := PRange { r_default : Z; r_min : Z; r_max : Z }.

(** is_valid l.24-34 *)
Definition range_valid (r : prange) : bool :=
  negb (r_max r <? r_min r)%Z && ((r_min r <=? r_default r) && (r_default r <=? r_max r))%Z.
(** new l.8-18 *)
Definition range_new (default minimum maximum : Z) : res prange :=
  let r := PRange default minimum maximum in
  rassert (range_valid r) AssertFailed (Ok r).
(** clamp l.36-38 and f64::clamp of the standard library: asserts min <= max, then
    two comparisons *)
Definition range_clamp (r : prange) (v : Z) : res Z :=
  rassert (r_min r <=? r_max r)%Z AssertFailed
    (Ok (let v := if (v <? r_min r)%Z then r_min r else v in
         if (r_max r <? v)%Z then r_max r else v)).

(** ** Operations of the number type *)
Record num (V : Type) := Num {
  n_zero : V; n_one : V;
  n_add : V → V → V; n_sub : V → V → V; n_mul : V → V → V; n_div : V → V → V;
  n_exp : V → V; n_ln : V → V;
  n_is_zero : V → bool;              (* == 0.0 *)
  n_close : V → V → bool;            (* relative_eq! of the approx crate, default epsilon *)
  n_samples : timestamp → nat → V    (* Timestamp::as_samples *) }.
Arguments n_zero {V}. Arguments n_one {V}. Arguments n_add {V}. Arguments n_sub {V}.
Arguments n_mul {V}. Arguments n_div {V}. Arguments n_exp {V}. Arguments n_ln {V}.
Arguments n_is_zero {V}. Arguments n_close {V}. Arguments n_samples {V}.

(** parameter_change.rs l.3-15 *)
Inductive method := Immediate | Linear (start : timestamp) | Exponential (start : timestamp).
Record change (V : Type) := Change { c_value : V; c_end : timestamp; c_method : method }.
Arguments Change {V}. Arguments c_value {V}. Arguments c_end {V}. Arguments c_method {V}.

(** RealtimeAudioParameter, realtime_parameter.rs l.41-49.  The buffer of values
    is what [process] returns; the shared atomic is [pa_value]. *)
Record param (V : Type) := Param {
  pa_value : V;
  pa_changes : list (change V);
  pa_inc : V;
  pa_coef : V;
  pa_current : change V }.
Arguments Param {V}. Arguments pa_value {V}. Arguments pa_changes {V}. Arguments pa_inc {V}.
Arguments pa_coef {V}. Arguments pa_current {V}.

Section model.
  Context {V : Type} (N : num V).
  Local Notation param := (param V).
  Local Notation change := (change V).

  (** new l.52-68 *)
  Definition new_param (initial : V) : param :=
    Param initial [] (n_zero N) (n_one N) (Change initial ts_zero Immediate).

  (** is_static l.78-92 *)
  Definition is_static (p : param) : bool :=
    n_close N (pa_coef p) (n_one N) && n_close N (pa_inc p) (n_zero N) &&
    match pa_changes p with [] => true | _ => false end.

  (** the first half of value_at_time, l.113-150: start the first pending
      change if it is due.  The debug_assert_ne of l.135-136 are assertions here. *)
  Definition start_change (t : timestamp) (sr : nat) (v : V) (p : param) : res param :=
    match pa_changes p with
    | [] => Ok p
    | c :: rest =>
        match c_method c with
        | Immediate =>
            if (c_end c <=? t)%Z then Ok (Param (pa_value p) rest (n_zero N) (n_one N) c) else Ok p
        | Linear start =>
            if (start <=? t)%Z then
              let duration := n_sub N (n_samples N (c_end c) sr) (n_samples N t sr) in
              let delta := n_sub N (c_value c) v in
              Ok (Param (pa_value p) rest (n_div N delta duration) (n_one N) c)
            else Ok p
        | Exponential start =>
            if (start <=? t)%Z then
              if n_is_zero N (c_value c) || n_is_zero N v then Panic AssertFailed else
              let ratio := n_div N (c_value c) v in
              let duration := n_sub N (n_samples N (c_end c) sr) (n_samples N t sr) in
              Ok (Param (pa_value p) rest (n_zero N) (n_exp N (n_div N (n_ln N ratio) duration)) c)
            else Ok p
        end
    end.

  (** value_at_time l.112-157 *)
  Definition value_at_time (t : timestamp) (sr : nat) (v : V) (p : param) : res (param * V) :=
    let? p' := start_change t sr v p in
    Ok (p', if (c_end (pa_current p') <=? t)%Z then c_value (pa_current p')
            else n_add N (n_mul N v (pa_coef p')) (pa_inc p')).

  (** the loop l.102-106 over the times of the frames *)
  Fixpoint frame_loop (times : list timestamp) (sr : nat) (v : V) (p : param) :
      res (param * V * list V) :=
    match times with
    | [] => Ok (p, v, [])
    | t :: times =>
        let? (p1, v1) := value_at_time t sr v p in
        let? (p2, v2, out) := frame_loop times sr v1 p1 in
        Ok (p2, v2, v1 :: out)
    end.

  (** time.incremented_by_samples(frame, sample_rate) for 0..frame_count, l.102-103 *)
  Definition frame_times (time : timestamp) (frame_count sr : nat) : list timestamp :=
    (λ k, incremented_by_samples time (Z.of_nat k) (Z.of_nat sr)) <$> seq 0 frame_count.

  Definition set_value (v : V) (p : param) : param :=
    Param v (pa_changes p) (pa_inc p) (pa_coef p) (pa_current p).

  (** process l.94-110: new state and the values of the frames, before their
      conversion to f32 *)
  Definition process (time : timestamp) (frame_count sr : nat) (p : param) : res (param * list V) :=
    if is_static p then Ok (p, replicate frame_count (pa_value p))
    else let? (p', v, out) := frame_loop (frame_times time frame_count sr) sr (pa_value p) p in
         Ok (set_value v p', out).

  (** Vec::sort_by is stable: pushing and sorting a sorted list inserts behind
      equal times.  [sort_changes] sorts any list by insertion. *)
  Fixpoint insert_change (c : change) (l : list change) : list change :=
    match l with
    | [] => [c]
    | x :: r => if (c_end c <? c_end x)%Z then c :: l else x :: insert_change c r
    end.
  Definition sort_changes (l : list change) : list change :=
    fold_left (λ acc c, insert_change c acc) l [].

  (** add_parameter_change l.167-172 *)
  Definition add_change (c : change) (p : param) : param :=
    Param (pa_value p) (sort_changes (pa_changes p ++ [c])) (pa_inc p) (pa_coef p) (pa_current p).

  (** cancel_scheduled_changes_ending_after l.174-177 *)
  Definition cancel_after (time : timestamp) (p : param) : param :=
    Param (pa_value p) (base.filter (λ c, (time <= c_end c)%Z) (pa_changes p)) (pa_inc p) (pa_coef p) (pa_current p).

  (** cancel_scheduled_changes l.179-181 *)
  Definition cancel_changes (p : param) : param :=
    Param (pa_value p) [] (pa_inc p) (pa_coef p) (pa_current p).
End model.

(** ** The control side: audio_parameter.rs.  What the setters send to the engine. *)
(** set_value_at_time l.62-74 (set_value_now l.55-57 with time zero),
    linear_ramp_to_value l.77-90, exponential_ramp_to_value l.95-113 *)
Definition request (r : prange) (m : method) (end_time : timestamp) (v : Z) : res (change Z) :=
  let? v' := range_clamp r v in Ok (Change v' end_time m).
Definition set_value_at_time r v at_time := request r Immediate at_time v.
Definition set_value_now r v := set_value_at_time r v ts_zero.
Definition linear_ramp_to_value r v start_time end_time := request r (Linear start_time) end_time v.
Definition exponential_ramp_to_value r v start_time end_time := request r (Exponential start_time) end_time v.

(** ** binary64 arithmetic.  exp and ln are not modelled: they return 0 here, so
    only statements without exponential ramps use this instance. *)
(** relative_eq!(a, b): |a - b| <= eps or |a - b| <= max(|a|,|b|) * eps with
    eps = 2^-52; the subtraction and the product are rounded *)
Definition eps64 : Z := Z.shiftl 1 1022.
Definition relative_eq64 (a b : Z) : bool :=
  if (a =? b)%Z then true else
  let d := Z.abs (f64_sub a b) in
  ((d <=? eps64)%Z || (d <=? f64_mul (Z.max (Z.abs a) (Z.abs b)) eps64)%Z).
Definition f64_num : num Z :=
  Num Z 0%Z one64 f64_add f64_sub f64_mul f64_div (λ _, 0%Z) (λ _, 0%Z) (λ x, x =? 0)%Z relative_eq64
    (λ t sr, as_samples t (Z.of_nat sr)).
