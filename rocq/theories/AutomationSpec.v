(** Automation of a parameter: the curve a user asks for by several changes, and the history of the engine that plays it. *)
From stdpp Require Import gmap list strings.
From Coq Require Import ZArith Reals.
From Verif Require Import Base Timestamp AudioParam AudioParamSpec AudioParamR Buffer Graph DspGraph Processor ProcessorSpec Node NodeSpec.
Local Open Scope R_scope.

(** one change: a jump, a straight line or an exponential curve, from a frame, over so many frames (none for a jump), to a value *)
Inductive shape := Jump | Line | Curve.
Record move := Move { mv_shape : shape; mv_from : nat; mv_frames : nat; mv_to : R }.
Definition mv_end (m : move) : nat := mv_from m + mv_frames m.

(** ** The curve *)
(** the value at frame [k] of a move that starts at the value [v] *)
Definition along (v : R) (m : move) (k : nat) : R :=
  let w := INR (k - mv_from m + 1) / INR (mv_frames m) in
  match mv_shape m with
  | Jump => mv_to m
  | Line => v + w * (mv_to m - v)
  | Curve => v * Rpower (mv_to m / v) w
  end.
(** the value at frame [k], [v] before the first move *)
Fixpoint automation (v : R) (l : list move) (k : nat) : R :=
  match l with
  | [] => v
  | m :: l => if (k <? mv_from m)%nat then v else if (k <? mv_end m)%nat then along v m k else automation (mv_to m) l k
  end.

(** ** Which automations *)
(** Each move starts when the one before has ended, and no two start or end together. *)
Fixpoint in_turn (l : list move) : Prop :=
  match l with
  | m :: ((m' :: _) as r) => ((mv_end m <= mv_from m')%nat /\ (mv_from m < mv_from m')%nat /\ (mv_end m < mv_end m')%nat) /\ in_turn r
  | _ => True
  end.
(** no line or curve is so slow that the engine takes it for rest (C22_slow_ramp_refuted, C24_slow_ramp_refuted); curves are between positive values *)
Definition fit (v : R) (m : move) : Prop :=
  match mv_shape m with
  | Jump => mv_frames m = 0%nat
  | Line => (0 < mv_frames m)%nat /\ (mv_to m = v \/ epsR < Rabs ((mv_to m - v) / INR (mv_frames m)))
  | Curve => (0 < mv_frames m)%nat /\ 0 < v /\ 0 < mv_to m /\ (mv_to m = v \/ closeR (Rpower (mv_to m / v) (/ INR (mv_frames m))) 1 = false)
  end.
Fixpoint all_fit (v : R) (l : list move) : Prop :=
  match l with [] => True | m :: l => fit v m /\ all_fit (mv_to m) l end.

(** ** Histories: moves are asked for, in any order and between any blocks, and frames are played *)
Inductive gesture := Ask (m : move) | Play (frames : nat).
Definition asked (gs : list gesture) : list move := g ← gs; match g with Ask m => [m] | Play _ => [] end.
Fixpoint played_frames (gs : list gesture) : nat := match gs with [] => 0 | Ask _ :: gs => played_frames gs | Play n :: gs => n + played_frames gs end.
(** no move is asked for when its first frame has been played; [k] frames have been played *)
Fixpoint in_time (k : nat) (gs : list gesture) : Prop :=
  match gs with
  | [] => True
  | Ask m :: gs => (k <= mv_from m)%nat /\ in_time k gs
  | Play n :: gs => in_time (k + n) gs
  end.

(** what reaches the engine, [q] ticks of time per frame *)
Definition change_of (q : Z) (m : move) : change R :=
  Change (mv_to m) (Z.of_nat (mv_end m) * q)%Z
    match mv_shape m with Jump => Immediate | Line => Linear (Z.of_nat (mv_from m) * q)%Z | Curve => Exponential (Z.of_nat (mv_from m) * q)%Z end.
Fixpoint engine_ops (q : Z) (k : nat) (gs : list gesture) : list (aop R) :=
  match gs with
  | [] => []
  | Ask m :: gs => AAdd (change_of q m) :: engine_ops q k gs
  | Play n :: gs => ABlock (Z.of_nat k * q)%Z n :: engine_ops q (k + n) gs
  end.

(** ** Programs: the calls of a program on parameter [name] of node [n] ask for the moves [l], in this order, each before its first frame is played;
    [on]: whether the engine runs, [pos]: frames played before *)
Fixpoint calls_ask {A P} (q : Z) (n : id) (name : string) (on : bool) (pos : nat) (os : list (nop R A P)) (l : list move) : Prop :=
  match os with
  | [] => l = []
  | NStart :: os => calls_ask q n name true pos os l
  | NStop :: os => calls_ask q n name false pos os l
  | NCallback _ _ out ov :: os => calls_ask q n name on (if on then pos + v_frames out ov else pos)%nat os l
  | NChange n' name' c :: os =>
      if decide (n' = n /\ name' = name) then match l with [] => False | m :: l => c = change_of q m /\ (pos <= mv_from m)%nat /\ calls_ask q n name on pos os l end
      else calls_ask q n name on pos os l
  | NCancel n' name' _ :: os => ~ (n' = n /\ name' = name) /\ calls_ask q n name on pos os l
  | _ :: os => calls_ask q n name on pos os l
  end.
