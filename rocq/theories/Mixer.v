(** The mixer, gain and pan nodes: src/effects/mixer, gain, pan. *)
From stdpp Require Import list.
From Verif Require Import Base Buffer.

(** ** Matrix: effects/mixer/mixer_matrix.rs.  [L] is the type of levels. *)
(** l.3-4 MAX_INPUT_COUNT, MAX_OUTPUT_COUNT *)
Definition max_io : nat := 8.
(** l.7-11 *)
Record matrix (L : Type) := Matrix { m_inputs : nat; m_outputs : nat; m_cells : list L }.
Arguments Matrix {L}. Arguments m_inputs {L}. Arguments m_outputs {L}. Arguments m_cells {L}.

Section matrix.
  Context {L : Type} (zero unity : L).
  Implicit Types m : matrix L.

  (** l.14-23 new *)
  Definition matrix_new (inputs outputs : nat) : res (matrix L) :=
    rassert (inputs <=? max_io) AssertFailed (
    rassert (outputs <=? max_io) AssertFailed (
    Ok (Matrix inputs outputs (replicate (max_io * max_io) zero)))).
  (** l.25-27 empty *)
  Definition matrix_empty : matrix L := Matrix 0 0 (replicate (max_io * max_io) zero).
  (** l.43-47 get_index *)
  Definition get_index m (i o : nat) : res nat :=
    rassert (i <? m_inputs m) AssertFailed (
    rassert (o <? m_outputs m) AssertFailed (
    Ok (o * m_inputs m + i))).
  (** l.29-32 set_level *)
  Definition set_level m (i o : nat) (l : L) : res (matrix L) :=
    let? k := get_index m i o in
    if k <? length (m_cells m) then Ok (Matrix (m_inputs m) (m_outputs m) (<[k := l]> (m_cells m)))
    else Panic IndexOutOfRange.
  (** l.34-41 get_level *)
  Definition get_level m (i o : nat) : res L :=
    if (i <? m_inputs m) && (o <? m_outputs m) then
      let? k := get_index m i o in runwrap (m_cells m !! k) IndexOutOfRange
    else Ok zero.

  (** ** Node: effects/mixer/mixer_node.rs.  [mx_matrix] is the node's own matrix,
      [mx_channel] what it sent and the processor has not received, [mx_proc] the
      matrix of the processor. *)
  Record mixer := MixerNode { mx_matrix : matrix L; mx_channel : list (matrix L); mx_proc : matrix L }.
  (** l.26 EVENT_CHANNEL_CAPACITY *)
  Definition mixer_capacity : nat := 32.
  (** l.30-51; mixer_processor.rs l.11-16 *)
  Definition mixer_new (inputs outputs : nat) : res mixer :=
    let? m := matrix_new inputs outputs in Ok (MixerNode m [] matrix_empty).
  (** l.54-59; sending to a full channel waits *)
  Definition mixer_set_level (x : mixer) (i o : nat) (l : L) : res mixer :=
    let? m := set_level (mx_matrix x) i o l in
    rassert (length (mx_channel x) <? mixer_capacity) Blocked (
    Ok (MixerNode m (mx_channel x ++ [m]) (mx_proc x))).
  (** l.62-72 *)
  Definition mono_to_stereo_splitter : res mixer :=
    let? x := mixer_new 1 2 in
    let? x := mixer_set_level x 0 0 unity in
    mixer_set_level x 0 1 unity.
  (** l.78-86 *)
  Definition mixer_unity (channel_count : nat) : res mixer :=
    let? x := mixer_new channel_count channel_count in
    rfold (λ x ch, mixer_set_level x ch ch unity) (seq 0 channel_count) x.
End matrix.
Arguments mixer : clear implicits. Arguments MixerNode {L}. Arguments mx_matrix {L}. Arguments mx_channel {L}. Arguments mx_proc {L}.

(** ** Processor: effects/mixer/mixer_processor.rs.  [is_zero] and [is_unity] are
    the tests of utility/level.rs l.70-77, [linear] is as_linear_f32. *)
Section processor.
  Context {L A : Type} (zero : L) (is_zero is_unity : L → bool) (linear : L → A) (add mul : A → A → A).

  (** l.18-22 process_events: the last matrix wins *)
  Definition mixer_events (x : mixer L) : mixer L :=
    MixerNode (mx_matrix x) [] (fold_left (λ _ m, m) (mx_channel x) (mx_proc x)).

  (** l.30-61, one pair of channels *)
  Definition mix_pair (m : matrix L) (inp : owned A) (iv : view) (ov : view) (o : nat) (out : owned A) (i : nat) : res (owned A) :=
    let? g := get_level zero m i o in
    if is_zero g then Ok out else
    if is_unity g then add_from add out ov inp iv i 0 o 0 1 (v_frames out ov)
    else add_from_with_gain add mul out ov inp iv i 0 o 0 1 (v_frames out ov) (linear g).
  (** l.26-63 *)
  Definition mixer_process (x : mixer L) (inp : owned A) (iv : view) (out : owned A) (ov : view) : res (mixer L * owned A) :=
    let x := mixer_events x in
    let? out' := rfold (λ out o, rfold (mix_pair (mx_proc x) inp iv ov o) (seq 0 (v_channels inp iv)) out) (seq 0 (v_channels out ov)) out in
    Ok (x, out').
End processor.

(** ** Gain: effects/gain/gain_processor.rs l.12-31.  [gain] are the values of the
    parameter, one per frame; [is_zero] and [is_one] are the tests of apply_gain. *)
Definition gain_process {A} (zero : A) (is_zero is_one : A → bool) (mul : A → A → A) (gain : list A)
    (inp : owned A) (iv : view) (out : owned A) (ov : view) : res (owned A) :=
  let cc := v_channels out ov `min` v_channels inp iv in
  let? out1 := copy_from out ov inp iv 0 0 0 0 cc (v_frames out ov) in
  apply_gain zero is_zero is_one mul out1 ov gain.

(** ** Pan: effects/pan/pan_processor.rs l.12-38 (the debug assertions l.13-14
    omitted).  [gains] gives the gains of the two channels for a pan value. *)
Definition pan_frame {A} (mul : A → A → A) (gains : A → A * A) (pan : list A) (inp : owned A) (iv : view) (ov : view)
    (out : owned A) (frame : nat) : res (owned A) :=
  let? p := runwrap (pan !! frame) IndexOutOfRange in
  let? l := get_sample inp iv 0 frame in
  let? r := get_sample inp iv 1 frame in
  let? out1 := set_sample out ov 0 frame (mul l (gains p).1) in
  set_sample out1 ov 1 frame (mul r (gains p).2).
Definition pan_process {A} (mul : A → A → A) (gains : A → A * A) (pan : list A)
    (inp : owned A) (iv : view) (out : owned A) (ov : view) : res (owned A) :=
  rfold (pan_frame mul gains pan inp iv ov) (seq 0 (v_frames out ov)) out.
