(** What a sampler is specified to play, frame by frame. *)
From stdpp Require Import list list_numbers.
From Coq Require Import ZArith.
From Verif Require Import Base Float Timestamp EventProcessor EventProcessorSpec Buffer BufferSpec Sampler.

(** The frame nearest to a time, and how far the time is from a whole frame:
    at most [e] units, a unit being 2^-33 of a frame. *)
Definition nearest_frame (sr : nat) (t : timestamp) : Z :=
  ((2 * t * Z.of_nat sr + 2 ^ 32) / 2 ^ 33)%Z.
Definition off_grid (sr : nat) (t : timestamp) (n e : Z) : Prop :=
  (2 * Z.abs (t * Z.of_nat sr - n * 2 ^ 32) <= e)%Z.

Section spec.
  Context {A : Type} (one : A) (add mul : A → A → A).
  Context (smp : owned A) (fade : list A).

  (** Something heard in one frame: a frame of the sample, as it is or with a gain. *)
  Definition heard : Type := nat * option A.

  (** gains of a fade: in, the table; out, the table backwards, starting from one *)
  Definition gain_in (k : nat) : A := default one (fade !! k).
  Definition gain_out (k : nat) : A := match k with 0 => one | _ => default one (fade !! (length fade - k)) end.

  (** ** One voice, one frame *)
  Definition voice_frame (v : voice) : list heard * voice :=
    let p := vo_position v in
    match vo_phase v with
    | Stopped => ([], v)
    | Playing => ([(p, None)], Voice (S p) Playing)
    | FadingIn k => ([(p, Some (gain_in k))], Voice (S p) (if decide (S k < length fade) then FadingIn (S k) else Playing))
    | FadingOut k => ([(p, Some (gain_out k))], Voice (S p) (if decide (S k < length fade) then FadingOut (S k) else Stopped))
    end.

  (** all voices, one frame *)
  Definition voices_frame (vs : list voice) : list heard * list voice :=
    (concat ((λ v, (voice_frame v).1) <$> vs), (λ v, (voice_frame v).2) <$> vs).

  (** what is heard is added to channel [ch] of the output; past the end of the
      sample nothing is *)
  Definition mix_one (ch : nat) (x : A) (h : heard) : A :=
    match sample smp ch h.1, h.2 with
    | None, _ => x
    | Some y, None => add x y
    | Some y, Some g => add x (mul g y)
    end.
  Definition mix (ch : nat) (x : A) (hs : list heard) : A := fold_left (mix_one ch) hs x.

  (** ** The sampler, one frame *)
  Record ideal := Ideal {
    id_voices : list voice;
    id_active : option nat;          (* the voice that is not being faded out *)
    id_loop : option (Z * Z);        (* loop points in frames *)
    id_elapsed : Z;                  (* frames since the start *)
    id_start : Z;                    (* frame of the sample started from *)
    id_loops : Z }.                  (* completed loops *)

  (** Playback moves to frame [p] of the sample, unless it is there already: the
      sounding voices fade out and the first silent one, if any, starts. *)
  Definition fade_out (v : voice) : voice :=
    match vo_phase v with
    | FadingIn _ | Playing => Voice (vo_position v) (FadingOut 0)
    | _ => v
    end.
  Definition begin_at (p : nat) : voice := Voice p (if decide (p = 0) then Playing else FadingIn 0).
  Definition silent (v : voice) : Prop := vo_phase v = Stopped.
  Global Instance silent_dec v : Decision (silent v).
  Proof. unfold silent. destruct (vo_phase v); [left|right|right|right]; congruence. Defined.
  Definition move_to (p : nat) (va : list voice * option nat) : list voice * option nat :=
    let '(vs, active) := va in
    if decide (vo_position <$> (active ≫= λ i, vs !! i) = Some p) then va else
    let vs1 := fade_out <$> vs in
    match list_find silent vs1 with
    | Some (i, _) => (<[i := begin_at p]> vs1, Some i)
    | None => (vs1, None)
    end.

  (** frame at which playback ends or jumps back *)
  Definition boundary (i : ideal) : Z :=
    match id_loop i with
    | None => Z.of_nat (frames smp)
    | Some (ls, le) => le - id_start i + (le - ls) * id_loops i
    end.

  (** at the end of the loop: as many loops as fit into the time elapsed are complete *)
  Definition jump (i : ideal) : ideal :=
    match id_loop i with
    | Some (ls, le) =>
        let (vs, active) := move_to (Z.to_nat ls) (id_voices i, id_active i) in
        Ideal vs active (id_loop i) (id_elapsed i) (id_start i)
          ((id_elapsed i - (le - id_start i)) / (le - ls) + 1)
    | None => i
    end.

  Definition ideal_frame (i : ideal) : list heard * ideal :=
    if decide (id_loop i = None ∧ (boundary i <= id_elapsed i)%Z) then ([], i) else
    let i := if decide (boundary i <= id_elapsed i)%Z then jump i else i in
    let (hs, vs) := voices_frame (id_voices i) in
    (hs, Ideal vs (id_active i) (id_loop i) (id_elapsed i + 1) (id_start i) (id_loops i)).

  Fixpoint ideal_frames (n : nat) (i : ideal) : list (list heard) * ideal :=
    match n with
    | 0 => ([], i)
    | S n => let (hs, i1) := ideal_frame i in let (l, i2) := ideal_frames n i1 in (hs :: l, i2)
    end.

  (** ** Actions *)
  Inductive ideal_action :=
  | IStart (from delay : Z)   (* in frames; delay: how late the start is handled *)
  | IStop
  | ILoop (loop_start loop_end : Z)
  | IUnloop
  | IReset.
  Definition ideal_act (a : ideal_action) (i : ideal) : ideal :=
    match a with
    | IStart from delay =>
        let (vs, active) := move_to (Z.to_nat (from + delay)) (id_voices i, id_active i) in
        Ideal vs active (id_loop i) delay from 0
    | IStop => Ideal (fade_out <$> id_voices i) None (id_loop i) (id_elapsed i) (id_start i) (id_loops i)
    | ILoop ls le => Ideal (id_voices i) (id_active i) (Some (ls, le)) (id_elapsed i) (id_start i) (id_loops i)
    | IUnloop => Ideal (id_voices i) (id_active i) None (id_elapsed i) (id_start i) (id_loops i)
    | IReset => Ideal (fade_out <$> id_voices i) None None (id_elapsed i) (id_start i) (id_loops i)
    end.

  (** the action a request stands for when it is handled at time [current] *)
  Definition action_of (sr : nat) (e : event sample_action) (current : timestamp) : ideal_action :=
    match ev_data e with
    | SStart p => IStart (nearest_frame sr p) (nearest_frame sr (current - ev_time e)%Z)
    | SStartImmediate => IStart 0 0
    | SStop => IStop
    | SEnableLoop ls le => ILoop (nearest_frame sr ls) (nearest_frame sr le)
    | SCancelLoop => IUnloop
    | SCancelAll => IReset
    end.

  (** a block cut into pieces: frames to play, then an action *)
  Fixpoint ideal_pieces (l : list (nat * option ideal_action)) (i : ideal) : list (list heard) * ideal :=
    match l with
    | [] => ([], i)
    | (n, a) :: l =>
        let (h1, i1) := ideal_frames n i in
        let i2 := match a with Some a => ideal_act a i1 | None => i1 end in
        let (h2, i3) := ideal_pieces l i2 in
        (h1 ++ h2, i3)
    end.

  Definition new_ideal : ideal := Ideal [Voice 0 Stopped; Voice 0 Stopped] None None 0 0 0.

  (** ** Output *)
  (** frames [f0] … of the view were mixed with what is heard; the rest is unchanged *)
  Definition mixed (ov : view) (f0 : nat) (hs : list (list heard)) (out out' : owned A) : Prop :=
    wf out' ∧ same_dims out out' ∧
    ∀ ch fr, sample out' ch fr =
      if decide (in_rect (off_ch ov) (off_fr ov + f0) (v_channels out ov) (length hs) ch fr)
      then (λ x, mix (ch - off_ch ov) x (default [] (hs !! (fr - (off_fr ov + f0))))) <$> sample out ch fr
      else sample out ch fr.

  (** ** Runs *)
  (** A block: what is sent before it, its start time, the buffer the graph passes. *)
  Record sblock := SBlock {
    sb_sent : list (event sample_action);
    sb_start : timestamp;
    sb_out : owned A;
    sb_view : view }.

  Definition sblock_ok (sr : nat) (b : sblock) : Prop :=
    wf (sb_out b) ∧ valid_view (sb_out b) (sb_view b) ∧ block_ok sr (v_frames (sb_out b) (sb_view b)).

  (** the processor over a sequence of blocks; the result is the buffers *)
  Fixpoint sampler_run (fuel sr : nat) (q : evproc sample_action) (s : sampler) (bs : list sblock) : res (list (owned A)) :=
    match bs with
    | [] => Ok []
    | b :: bs =>
        let q1 := fold_left (λ q e, send_event e q) (sb_sent b) q in
        let? (q', s', out) := sampler_block one add mul smp fade sr fuel (sb_start b) (sb_view b) q1 s (sb_out b) in
        let? outs := sampler_run fuel sr q' s' bs in
        Ok (out :: outs)
    end.

  (** the state it is left in *)
  Fixpoint sampler_after (fuel sr : nat) (q : evproc sample_action) (s : sampler) (bs : list sblock) :
      res (evproc sample_action * sampler) :=
    match bs with
    | [] => Ok (q, s)
    | b :: bs =>
        let q1 := fold_left (λ q e, send_event e q) (sb_sent b) q in
        let? (q', s', _) := sampler_block one add mul smp fade sr fuel (sb_start b) (sb_view b) q1 s (sb_out b) in
        sampler_after fuel sr q' s' bs
    end.

  (** [ds] lists, per block, the requests handled in it *)
  Fixpoint handled (sr : nat) (waiting : list (event sample_action)) (bs : list sblock)
      (ds : list (list (event sample_action))) : Prop :=
    match bs, ds with
    | [], [] => True
    | b :: bs, d :: ds => ∃ live rest,
        surviving waiting (sb_sent b) live ∧
        delivers sr (sb_start b) (v_frames (sb_out b) (sb_view b)) live d rest ∧
        handled sr rest bs ds
    | _, _ => False
    end.

  (** the pieces of a block, with the actions of the requests *)
  Fixpoint acted (sr : nat) (current : timestamp) (l : list (nat * nat * option (event sample_action))) :
      list (nat * option ideal_action) :=
    match l with
    | [] => []
    | (_, n, e) :: l =>
        let current' := incremented_by_samples current (Z.of_nat n) (Z.of_nat sr) in
        (n, (λ e, action_of sr e current') <$> e) :: acted sr current' l
    end.
  Definition block_pieces (sr : nat) (b : sblock) (d : list (event sample_action)) :=
    pieces sr (sb_start b) (v_frames (sb_out b) (sb_view b)) 0 d.
  Fixpoint ideal_run (sr : nat) (i : ideal) (bs : list sblock) (ds : list (list (event sample_action))) :
      list (list (list heard)) :=
    match bs, ds with
    | b :: bs, d :: ds =>
        let (hs, i') := ideal_pieces (acted sr (sb_start b) (block_pieces sr b d)) i in
        hs :: ideal_run sr i' bs ds
    | _, _ => []
    end.

  (** ** Accuracy *)
  (** The sampler adds up rounded time stamps.  [u] bounds the error so far, in
      units of 2^-33 (sample rate + 1) frames; the sum of errors must stay below
      half a frame.  Every piece and every completed loop adds one. *)
  Definition room (sr : nat) (u : Z) (i : ideal) : Prop :=
    ((u + 3 * id_loops i + 4) * (Z.of_nat sr + 1) <= 2 ^ 32 - 2 ^ 27)%Z ∧
    (id_elapsed i <= 2 ^ 40)%Z ∧
    match id_loop i with Some (ls, le) => ((le - ls) * id_loops i <= 2 ^ 40)%Z | None => True end.

  (** positions and delays are whole frames, up to rounding *)
  Definition on_grid (sr : nat) (w : Z) (e : event sample_action) (current : timestamp) : Prop :=
    let unit := (Z.of_nat sr + 1)%Z in
    match ev_data e with
    | SStart p =>
        let d := (current - ev_time e)%Z in
        (0 <= w)%Z ∧ ((w + 1) * unit <= 2 ^ 32 - 2 ^ 26)%Z ∧
        off_grid sr p (nearest_frame sr p) unit ∧ (0 <= nearest_frame sr p <= 2 ^ 39)%Z ∧
        off_grid sr d (nearest_frame sr d) (w * unit) ∧ (Z.abs (nearest_frame sr d) <= 2 ^ 39)%Z
    | SEnableLoop ls le =>
        off_grid sr ls (nearest_frame sr ls) unit ∧ off_grid sr le (nearest_frame sr le) unit ∧
        (0 <= nearest_frame sr ls < nearest_frame sr le)%Z ∧ (nearest_frame sr le <= 2 ^ 39)%Z
    | _ => True
    end.
  Definition units_after (u w : Z) (e : event sample_action) : Z :=
    match ev_data e with SStart _ => w | SStartImmediate => 0 | _ => u end.

  Fixpoint accurate (sr : nat) (u : Z) (current : timestamp) (l : list (nat * nat * option (event sample_action)))
      (i : ideal) (next : Z → ideal → Prop) : Prop :=
    match l with
    | [] => next u i
    | (_, n, e) :: l =>
        let i1 := (ideal_frames n i).2 in
        let u1 := (u + 1 + (id_loops i1 - id_loops i))%Z in
        let current' := incremented_by_samples current (Z.of_nat n) (Z.of_nat sr) in
        room sr u1 i1 ∧
        match e with
        | Some e => ∃ w, on_grid sr w e current' ∧
            accurate sr (units_after u1 w e) current' l (ideal_act (action_of sr e current') i1) next
        | None => accurate sr u1 current' l i1 next
        end
    end.
  Fixpoint accurate_run (sr : nat) (u : Z) (i : ideal) (bs : list sblock) (ds : list (list (event sample_action))) : Prop :=
    match bs, ds with
    | b :: bs, d :: ds =>
        accurate sr u (sb_start b) (block_pieces sr b d) i (λ u' i', accurate_run sr u' i' bs ds)
    | _, _ => True
    end.

  (** ** Scenes *)
  Definition frames_in (b : sblock) : nat := v_frames (sb_out b) (sb_view b).
  Definition total (bs : list sblock) : nat := sum_list (frames_in <$> bs).
  Definition unattended (bs : list sblock) : Prop := Forall (λ b, sb_sent b = []) bs.

  (** [f k] is heard in frame [k] of the stream, counted from the first block *)
  Fixpoint spread (f : nat → list heard) (k : nat) (bs : list sblock) : list (list (list heard)) :=
    match bs with
    | [] => []
    | b :: bs => (f <$> seq k (frames_in b)) :: spread f (k + frames_in b) bs
    end.
  Definition hears (f : nat → list heard) (bs : list sblock) (outs : list (owned A)) : Prop :=
    Forall3 (λ b hs out, mixed (sb_view b) 0 hs (sb_out b) out) bs (spread f 0 bs) outs.

  (** Played from frame [q] of the sample, after [k] frames: with a fade in unless
      it is the beginning of the sample. *)
  Definition play_plan (q k : nat) : list heard :=
    [(q + k, if decide (0 < q ∧ k < length fade) then Some (gain_in k) else None)].

  (** Played from the beginning with a loop: up to the loop end as it is; then,
      again and again, from the loop start, over the fade out of what follows the
      loop end.  The two voices take turns. *)
  Definition loop_plan (ls le k : nat) : list heard :=
    if decide (k < le) then [(k, None)] else
    let m := (k - le) mod (le - ls) in
    let tail := if decide (m < length fade) then [(le + m, Some (gain_out m))] else [] in
    if Nat.even ((k - le) / (le - ls)) then tail ++ play_plan ls m else play_plan ls m ++ tail.

  (** a voice's fade has not run out *)
  Definition voice_ok (v : voice) : Prop :=
    match vo_phase v with FadingIn k | FadingOut k => k < length fade | _ => True end.

  (** nothing is added to the frames from [from] on, frames being counted from [k] *)
  Fixpoint silent_from (from k : nat) (bs : list sblock) (outs : list (owned A)) : Prop :=
    match bs, outs with
    | [], [] => True
    | b :: bs, out :: outs =>
        (∀ ch fr, from ≤ k + (fr - off_fr (sb_view b)) → sample out ch fr = sample (sb_out b) ch fr) ∧
        silent_from from (k + frames_in b) bs outs
    | _, _ => False
    end.
  (** requests that start nothing *)
  Definition quietening (e : event sample_action) : Prop :=
    match ev_data e with SStop | SCancelLoop | SCancelAll => True | _ => False end.
End spec.
Arguments ideal_frames {A}. Arguments heard : clear implicits.
