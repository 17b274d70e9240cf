(** What the mixer computes. *)
From stdpp Require Import list.
From Coq Require Import Reals.
From Verif Require Import Base Buffer BufferSpec EffectSpec Mixer.

(** A mixer as a table of levels *)
Definition level_at {L} (zero : L) (m : matrix L) (i o : nat) : L :=
  match get_level zero m i o with Ok l => l | Panic _ => zero end.
(** matrices made by the constructor and the setter *)
Inductive made {L} (zero : L) : matrix L → Prop :=
| made_new i o m : matrix_new zero i o = Ok m → made zero m
| made_set m i o l m' : made zero m → set_level m i o l = Ok m' → made zero m'.


(** A session: levels are set, blocks are processed *)
Inductive mixer_op (L A : Type) :=
| MSet (i o : nat) (l : L)
| MProcess (inp : owned A) (iv : view) (out : owned A) (ov : view).
Arguments MSet {L A}. Arguments MProcess {L A}.
Definition mixer_step {L A} (process : mixer L → owned A → view → owned A → view → res (mixer L * owned A))
    (s : mixer L * list (owned A)) (o : mixer_op L A) : res (mixer L * list (owned A)) :=
  let '(x, outs) := s in
  match o with
  | MSet i o l => let? x := mixer_set_level x i o l in Ok (x, outs)
  | MProcess inp iv out ov => let? (x, out') := process x inp iv out ov in Ok (x, outs ++ [out'])
  end.
(** the levels set so far, [zero] for the others *)
Definition table {L A} (zero : L) (ops : list (mixer_op L A)) : nat → nat → L :=
  fold_left (λ t op, match op with
                     | MSet i o l => λ i' o', if decide (i' = i ∧ o' = o) then l else t i' o'
                     | MProcess _ _ _ _ => t
                     end) ops (λ _ _, zero).
(** number of levels set since the last block *)
Definition unsent {L A} (ops : list (mixer_op L A)) : nat :=
  fold_left (λ n op, match op with MSet _ _ _ => S n | MProcess _ _ _ _ => 0 end) ops 0.
(** buffers of matching sizes, levels that exist *)
Definition mixer_op_ok {L A} (inputs outputs : nat) (o : mixer_op L A) : Prop :=
  match o with
  | MSet i o _ => i < inputs ∧ o < outputs
  | MProcess inp iv out ov => wf inp ∧ valid_view inp iv ∧ wf out ∧ valid_view out ov ∧ v_frames out ov ≤ v_frames inp iv
  end.
(** every block comes out as [P levels input slice output slice result] says, the levels being those
    set before it *)
Fixpoint mixer_blocks {L A} (zero : L) (P : (nat → nat → L) → owned A → view → owned A → view → owned A → Prop)
    (before ops : list (mixer_op L A)) (outs : list (owned A)) : Prop :=
  match ops with
  | [] => outs = []
  | MSet i o l :: ops => mixer_blocks zero P (before ++ [MSet i o l]) ops outs
  | MProcess inp iv out ov :: ops =>
      match outs with
      | out' :: outs => P (table zero before) inp iv out ov out' ∧ mixer_blocks zero P (before ++ [MProcess inp iv out ov]) ops outs
      | [] => False
      end
  end.

(** sum over the input channels *)
Definition sum_over (n : nat) (f : nat → R) : R := foldr Rplus 0%R (f <$> seq 0 n).
(** input times level, summed over the input channels *)
Definition mixed_down (level : nat → nat → R) (inp : owned R) (iv : view) (o fr : nat) : R :=
  sum_over (v_channels inp iv) (λ i, level i o * default 0 (seen inp iv i fr))%R.
Definition loudness (inp : owned R) (iv : view) (fr : nat) : R :=
  sum_over (v_channels inp iv) (λ i, Rabs (default 0%R (seen inp iv i fr))).
(** levels other than 0 and 1 are not within 2^-51 of them *)
Definition sharp (g : R) : Prop :=
  (g = 0 ∨ g = 1 ∨ (/ 2 ^ 51 < Rabs g ∧ / 2 ^ 51 < Rabs (g - 1)))%R.

(** frame [fr] of output channel [o] gets the sum of the inputs times their levels, added *)
Definition is_mix (level : nat → nat → R) (inp : owned R) (iv : view) (out : owned R) (ov : view) (out' : owned R) : Prop :=
  written out ov out' (λ o fr x y, y = x + mixed_down level inp iv o fr)%R.
Definition is_nearly_mix (level : nat → nat → R) (inp : owned R) (iv : view) (out : owned R) (ov : view) (out' : owned R) : Prop :=
  written out ov out' (λ o fr x y, Rabs (y - (x + mixed_down level inp iv o fr)) <= / 2 ^ 51 * loudness inp iv fr)%R.

(** A gain of one frame applied to every channel of the input; channels the input does
    not have keep what the output holds *)
Definition scaled (tolerance : R) (gain : list R) (inp : owned R) (iv : view) (out : owned R) (ov : view) (out' : owned R) : Prop :=
  written out ov out' (λ ch fr x y, ∃ g, gain !! fr = Some g ∧
    let s := default x (seen inp iv ch fr) in (Rabs (y - s * g) <= tolerance * Rabs s)%R).

(** Gains of the two sides for a pan position: linear on the far side, 1 on the near side *)
Definition is_panned (pan : list R) (inp : owned R) (iv : view) (out : owned R) (ov : view) (out' : owned R) : Prop :=
  written out ov out' (λ ch fr _ y, ∃ p s, pan !! fr = Some p ∧ seen inp iv ch fr = Some s ∧
    y = (s * if decide (ch = 0%nat) then (if Rle_dec p 0 then 1 else 1 - p) else (if Rle_dec 0 p then 1 else 1 + p))%R).
