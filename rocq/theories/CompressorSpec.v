(** What the compressor does. *)
From stdpp Require Import list.
From Coq Require Import Reals.
From Verif Require Import Base Buffer BufferSpec EffectSpec Envelope EnvelopeSpec MixerSpec Level Compressor.
Local Open Scope R_scope.

(** The gain for a level: unity below the upper end of the knee; from there on the level
    above the threshold is divided by the ratio; not a number exactly at a hard knee. *)
Definition gain_law (envelope knee threshold ratio : R) : option R :=
  let l := as_db envelope in
  if Rlt_dec l (threshold + knee / 2) then Some 1
  else if Req_EM_T l (threshold + knee / 2) then
    (if Req_EM_T knee 0 then None else Some (from_db (- ((1 - 1 / ratio) * (l - threshold)))))
  else Some (from_db (- ((1 - 1 / ratio) * (l - threshold)))).

(** ** A session: blocks processed one after the other *)
Record cblock := CBlock { cb_params : comp_params; cb_in : owned R; cb_iv : view; cb_out : owned (option R); cb_ov : view }.
Definition cframes (b : cblock) : nat := v_frames (cb_out b) (cb_ov b).
(** what the follower of a channel is told during a block *)
Definition told (b : cblock) (ch : nat) : list fop :=
  concat ((λ '(x, (attack, release)), [FAttack (attack / 1000); FRelease (release / 1000); FSample x]) <$>
    zip (row_of (cb_in b, cb_iv b) ch) (zip (p_attack (cb_params b)) (p_release (cb_params b)))).
(** the mean over the channels of the followers' levels at a frame; [fs] are the followers
    at the start of the block *)
Definition mean_level (n : nat) (fs : nat → follower) (b : cblock) (fr : nat) : R :=
  sum_over n (λ ch, default 0 (levels (fs ch) (told b ch) !! fr)) / INR n.

(** the block has [n] channels in and out, at most [limit] frames, and a value of every
    parameter for every frame, of which times and knees are not negative and ratios at least 1 *)
Definition cblock_ok (n limit : nat) (b : cblock) : Prop :=
  wf (cb_in b) ∧ valid_view (cb_in b) (cb_iv b) ∧ wf (cb_out b) ∧ valid_view (cb_out b) (cb_ov b) ∧
  v_channels (cb_in b) (cb_iv b) = n ∧ v_channels (cb_out b) (cb_ov b) = n ∧
  v_frames (cb_in b) (cb_iv b) = cframes b ∧ (cframes b <= limit)%nat ∧
  (∀ l, l ∈ [p_attack (cb_params b); p_release (cb_params b); p_knee (cb_params b); p_threshold (cb_params b);
             p_ratio (cb_params b); p_wet (cb_params b); p_dry (cb_params b)] → length l = cframes b) ∧
  Forall (λ t, 0 <= t) (p_attack (cb_params b)) ∧ Forall (λ t, 0 <= t) (p_release (cb_params b)) ∧ Forall (λ r, 1 <= r) (p_ratio (cb_params b)) ∧
  Forall (λ k, 0 <= k) (p_knee (cb_params b)).

(** the output of a block: the input times (gain * wet + dry), up to 2^-22 *)
Definition compressed (n : nat) (fs : nat → follower) (b : cblock) (out : owned (option R)) : Prop :=
  let p := cb_params b in
  written (cb_out b) (cb_ov b) out (λ ch fr _ y, ∃ x knee threshold ratio wet dry,
    seen (cb_in b) (cb_iv b) ch fr = Some x ∧ p_knee p !! fr = Some knee ∧ p_threshold p !! fr = Some threshold ∧
    p_ratio p !! fr = Some ratio ∧ p_wet p !! fr = Some wet ∧ p_dry p !! fr = Some dry ∧
    (* fully dry *)
    (Forall (λ w, w = 0) (p_wet p) → y = Some (x * dry)) ∧
    match gain_law (mean_level n fs b fr) knee threshold ratio with
    | Some gain => ∃ z, y = Some z ∧ Rabs (z - x * (gain * wet + dry)) <= / 2 ^ 22 * (Rabs wet + 2) * Rabs x
    | None => (∃ w, w ∈ p_wet p ∧ / 2 ^ 22 < Rabs w) → y = None
    end).

Fixpoint comp_session (c : compressor) (blocks : list cblock) : res (list (owned (option R)) * compressor) :=
  match blocks with
  | [] => Ok ([], c)
  | b :: blocks =>
      let? (c, out) := comp_process (cb_params b) (cb_in b) (cb_iv b) (cb_out b) (cb_ov b) c in
      let? (outs, c) := comp_session c blocks in Ok (out :: outs, c)
  end.
(** the follower of a channel before the [k]-th block of a session *)
Definition follower_at (rate : nat) (blocks : list cblock) (k ch : nat) : follower :=
  frun (new_follower (INR rate) (1 / 1000) (10 / 1000)) (concat ((λ b, told b ch) <$> take k blocks)).
