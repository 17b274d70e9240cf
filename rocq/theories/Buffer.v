(** Model of src/buffer/: owned buffers, borrowed slices and the operations of
    the AudioBuffer trait that do not depend on sample arithmetic laws.
    Samples are an abstract type [A]; arithmetic is passed as a parameter. *)
From stdpp Require Import list numbers.
From Verif Require Import Base.

(** src/buffer/owned_audio_buffer.rs l.10-15; [data] is channel-major *)
Record owned (A : Type) := Owned {
  data : list A;
  channels : nat;
  frames : nat;
  rate : nat;
}.
Arguments Owned {A}.
Arguments data {A}.
Arguments channels {A}.
Arguments frames {A}.
Arguments rate {A}.

(** src/buffer/sample_location.rs l.64-69 SampleRange *)
Record range := Range {
  r_channel : nat;
  r_frame : nat;
  r_channels : nat;
  r_frames : nat;
}.

(** A [dyn AudioBuffer]: an owned buffer seen through nested slices
    (BorrowedAudioBuffer / MutableBorrowedAudioBuffer, which share
    their coordinate translation).  [Sub v r] is a slice of [v]. *)
Inductive view :=
| Whole
| Sub (v : view) (r : range).

Section buffer.
Context {A : Type}.
Implicit Types (b : owned A) (v : view).

Definition with_data b (d : list A) : owned A :=
  Owned d (channels b) (frames b) (rate b).

(** channel_count() / frame_count(): owned_audio_buffer.rs l.183-189,
    borrowed_audio_buffer.rs l.60-66, mutable_borrowed_audio_buffer.rs l.57-63 *)
Definition v_channels b v : nat :=
  match v with Whole => channels b | Sub _ r => r_channels r end.
Definition v_frames b v : nat :=
  match v with Whole => frames b | Sub _ r => r_frames r end.

(** audio_buffer.rs l.86-96 range_is_valid *)
Definition range_is_valid b v (r : range) : bool :=
  (r_channel r + r_channels r <=? v_channels b v) &&
  (r_frame r + r_frames r <=? v_frames b v).

(** borrowed_audio_buffer.rs l.53-56, mutable_borrowed_audio_buffer.rs l.50-53 *)
Definition slice b v (r : range) : res view :=
  rassert (range_is_valid b v r) AssertFailed (Ok (Sub v r)).

(** borrowed_audio_buffer.rs l.15-25, mutable l.12-22 *)
Definition slice_frames b v (frame_offset frame_count : nat) : res view :=
  slice b v (Range 0 frame_offset (v_channels b v) frame_count).

(** borrowed_audio_buffer.rs l.28-38: the last two arguments of
    SampleRange::new are swapped in the code *)
Definition borrowed_slice_channels b v (channel_offset channel_count : nat) : res view :=
  slice b v (Range channel_offset 0 (v_frames b v) channel_count).

(** mutable_borrowed_audio_buffer.rs l.25-35 *)
Definition mutable_slice_channels b v (channel_offset channel_count : nat) : res view :=
  slice b v (Range channel_offset 0 channel_count (v_frames b v)).

(** borrowed_audio_buffer.rs l.41-50, mutable l.38-47 *)
Definition slice_channels_and_frames b v (frame_count channel_count : nat) : res view :=
  slice b v (Range 0 0 channel_count frame_count).

(** get_channel_data / get_channel_data_mut: the half-open range of [data] a
    location denotes.  owned_audio_buffer.rs l.175-203 (slice indexing panics
    when start > end or end > len); borrowed_audio_buffer.rs l.72-80, mutable
    l.69-87 (the channel is not checked against the slice's channel count). *)
Fixpoint locate b v (ch fr : nat) : res (nat * nat) :=
  match v with
  | Whole =>
      let st := ch * frames b + fr in
      let en := (ch + 1) * frames b in
      if (st <=? en) && (en <=? length (data b)) then Ok (st, en)
      else Panic IndexOutOfRange
  | Sub v r =>
      let? (st, en) := locate b v (ch + r_channel r) (fr + r_frame r) in
      if fr <=? r_frames r then
        let e := r_frames r - fr in
        if e <=? en - st then Ok (st, st + e) else Panic IndexOutOfRange
      else Panic Underflow
  end.

(** get_channel_data *)
Definition get_channel_data b v (ch fr : nat) : res (list A) :=
  let? (st, en) := locate b v ch fr in
  Ok (take (en - st) (drop st (data b))).

(** `&data[..n]` of get_channel_data *)
Definition read_seg b v (ch fr n : nat) : res (list A) :=
  let? l := get_channel_data b v ch fr in
  if n <=? length l then Ok (take n l) else Panic IndexOutOfRange.

(** start of `&mut data[..n]` of get_channel_data_mut *)
Definition seg_start b v (ch fr n : nat) : res nat :=
  let? (st, en) := locate b v ch fr in
  if n <=? en - st then Ok st else Panic IndexOutOfRange.

(** overwrite [data] from [st] with the pointwise combination of [src] and the
    old values *)
Definition seg_zip {B} (f : B -> A -> A) (d : list A) (st : nat) (src : list B) : list A :=
  take st d ++ zip_with f src (take (length src) (drop st d)) ++ drop (st + length src) d.

(** the common shape of copy_from, add_from and add_from_with_gain:
    audio_buffer.rs l.172-181, 202-211, 225-234.  [f src old] is the new value. *)
Definition combine_from (f : A -> A -> A) (dst : owned A) (dv : view)
    (src : owned A) (sv : view) (sc sf dc df cc fc : nat) : res (owned A) :=
  rfold (fun dst i =>
           let? s := read_seg src sv (sc + i) sf fc in
           let? st := seg_start dst dv (dc + i) df fc in
           Ok (with_data dst (seg_zip f (data dst) st s)))
        (seq 0 cc) dst.

(** audio_buffer.rs l.217-235 copy_from *)
Definition copy_from (dst : owned A) (dv : view) (src : owned A) (sv : view)
    (sc sf dc df cc fc : nat) : res (owned A) :=
  combine_from (fun s _ => s) dst dv src sv sc sf dc df cc fc.

(** audio_buffer.rs l.156-182 add_from; [add dst src], as in mix_into
    (src/dsp/mod.rs: destination + source) *)
Definition add_from (add : A -> A -> A) (dst : owned A) (dv : view) (src : owned A) (sv : view)
    (sc sf dc df cc fc : nat) : res (owned A) :=
  if (fc =? 0) || (cc =? 0) then Ok dst
  else combine_from (fun s d => add d s) dst dv src sv sc sf dc df cc fc.

(** audio_buffer.rs l.185-212 add_from_with_gain *)
Definition add_from_with_gain (add mul : A -> A -> A) (dst : owned A) (dv : view)
    (src : owned A) (sv : view) (sc sf dc df cc fc : nat) (gain : A) : res (owned A) :=
  if (fc =? 0) || (cc =? 0) then Ok dst
  else combine_from (fun s d => add d (mul s gain)) dst dv src sv sc sf dc df cc fc.

(** the common shape of in-place loops over channels: audio_buffer.rs l.102-106
    (clear_range), l.116-120 (fill_with_value) *)
Definition fill_seg b v (ch fr n : nat) (x : A) : res (owned A) :=
  let? st := seg_start b v ch fr n in
  Ok (with_data b (seg_zip (fun (_ : nat) _ => x) (data b) st (seq 0 n))).

(** audio_buffer.rs l.110-113: fills to the end of the channel *)
Definition fill_channel_with_value b v (ch : nat) (x : A) : res (owned A) :=
  let? (st, en) := locate b v ch 0 in
  Ok (with_data b (seg_zip (fun (_ : nat) _ => x) (data b) st (seq 0 (en - st)))).

(** audio_buffer.rs l.116-120 *)
Definition fill_with_value b v (x : A) : res (owned A) :=
  rfold (fun b ch => fill_channel_with_value b v ch x) (seq 0 (v_channels b v)) b.

(** audio_buffer.rs l.81-83 *)
Definition clear (zero : A) b v : res (owned A) := fill_with_value b v zero.

(** audio_buffer.rs l.99-107 (debug_assert omitted) *)
Definition clear_range (zero : A) b v (r : range) : res (owned A) :=
  rfold (fun b ch => fill_seg b v ch (r_frame r) (r_frames r) zero)
        (seq (r_channel r) (r_channels r)) b.

(** audio_buffer.rs l.138-141 *)
Definition set_sample b v (ch fr : nat) (x : A) : res (owned A) :=
  fill_seg b v ch fr 1 x.

(** audio_buffer.rs l.150-153 *)
Definition get_sample b v (ch fr : nat) : res A :=
  let? l := get_channel_data b v ch fr in
  match l with x :: _ => Ok x | [] => Panic IndexOutOfRange end.

(** audio_buffer.rs l.144-147 *)
Definition add_sample (add : A -> A -> A) b v (ch fr : nat) (x : A) : res (owned A) :=
  let? y := get_sample b v ch fr in
  set_sample b v ch fr (add x y).

(** owned_audio_buffer.rs l.19-26 *)
Definition new_buffer (zero : A) (frame_count channel_count sample_rate : nat) : owned A :=
  Owned (replicate (frame_count * channel_count) zero) channel_count frame_count sample_rate.

(** audio_buffer.rs l.345-348: copy_from_slice panics on different lengths *)
Definition fill_from_slice b v (l : list A) (ch fr : nat) : res (owned A) :=
  let? (st, en) := locate b v ch fr in
  if Nat.eqb (length l) (en - st)
  then Ok (with_data b (seg_zip (fun x _ => x) (data b) st l))
  else Panic IndexOutOfRange.

(** owned_audio_buffer.rs l.31-39: the buffer is created with ONE channel *)
Definition from_slice (zero : A) (l : list A) (channel_count sample_rate : nat) : res (owned A) :=
  rfold (fun b ch => fill_from_slice b Whole l ch 0) (seq 0 channel_count)
        (new_buffer zero (length l) 1 sample_rate).

(** owned_audio_buffer.rs l.42-58 *)
Definition from_buffer (zero : A) (src : owned A) (sv : view) : res (owned A) :=
  copy_from (new_buffer zero (v_frames src sv) (v_channels src sv) (rate src)) Whole
    src sv 0 0 0 0 (v_channels src sv) (v_frames src sv).

(** owned_audio_buffer.rs l.63-90 *)
Definition extended_with_buffer (zero : A) (b src : owned A) (sv : view) : res (owned A) :=
  rassert (Nat.eqb (v_channels src sv) (channels b)) AssertFailed (
  rassert (Nat.eqb (rate src) (rate b)) AssertFailed (
  let? b1 := copy_from (new_buffer zero (frames b + v_frames src sv) (channels b) (rate b)) Whole
               b Whole 0 0 0 0 (channels b) (frames b) in
  copy_from b1 Whole src sv 0 0 0 (frames b) (v_channels src sv) (v_frames src sv))).

(** owned_audio_buffer.rs l.107-119 *)
Definition padded_to_length (zero : A) (b : owned A) (frame_count : nat) : res (owned A) :=
  copy_from (new_buffer zero frame_count (channels b) (rate b)) Whole
    b Whole 0 0 0 0 (channels b) (frames b).

(** owned_audio_buffer.rs l.205-212.  [Vec::copy_within] moves
    [st .. st+n) to [dst ..): panics if either is out of range.  Both start
    positions come from get_sample_location_range without a check. *)
Definition data_copy_within (d : list A) (st n dst : nat) : res (list A) :=
  if (st + n <=? length d) && (dst + n <=? length d)
  then Ok (seg_zip (fun x _ => x) d dst (take n (drop st d)))
  else Panic IndexOutOfRange.
Definition duplicate_channel b (ch fr to_ch n : nat) : res (owned A) :=
  let? d := data_copy_within (data b) (ch * frames b + fr) n (to_ch * frames b + fr) in
  Ok (with_data b d).

(** audio_buffer.rs l.12-33.  [src] is the interleaved data; the stride is the
    clamped channel count (debug_assert omitted). *)
Definition fill_from_interleaved b v (src : list A) (channel_count frame_count : nat)
  : res (owned A) :=
  let fc := frame_count `min` v_frames b v in
  let cc := channel_count `min` v_channels b v in
  rfold (fun b ch =>
           let? (st, en) := locate b v ch 0 in
           rfold (fun b fr =>
                    let? x := runwrap (src !! (fr * cc + ch)) IndexOutOfRange in
                    if fr <? en - st
                    then Ok (with_data b (<[st + fr := x]> (data b)))
                    else Panic IndexOutOfRange)
                 (seq 0 fc) b)
        (seq 0 cc) b.

(** audio_buffer.rs l.38-59 *)
Definition copy_to_interleaved b v (dst : list A) (channel_count frame_count : nat)
  : res (list A) :=
  let cc := channel_count `min` v_channels b v in
  let fc := frame_count `min` v_frames b v in
  rfold (fun dst ch =>
           let? cd := get_channel_data b v ch 0 in
           rfold (fun dst fr =>
                    let? x := runwrap (cd !! fr) IndexOutOfRange in
                    if (fr * cc + ch) <? length dst
                    then Ok (<[fr * cc + ch := x]> dst)
                    else Panic IndexOutOfRange)
                 (seq 0 fc) dst)
        (seq 0 cc) dst.

(** audio_buffer.rs l.250-266 apply_gain: [is_zero] / [is_one] stand for the
    relative_eq! tests, [mul] for the multiply kernel.  The gain has as many
    values as the slice has frames; what the kernel does otherwise is C54. *)
Definition apply_gain (zero : A) (is_zero is_one : A -> bool) (mul : A -> A -> A)
    b v (gain : list A) : res (owned A) :=
  if forallb is_zero gain then clear zero b v
  else if forallb is_one gain then Ok b
  else rfold (fun b ch =>
                let? (st, en) := locate b v ch 0 in
                Ok (with_data b (seg_zip (fun g x => mul x g) (data b) st (take (en - st) gain))))
             (seq 0 (v_channels b v)) b.

(** audio_buffer.rs l.269-285 apply_gain_value: the tests are inside the loop
    and return from the whole function *)
Fixpoint apply_gain_value_loop (zero : A) (is_zero is_one : A -> bool) (mul : A -> A -> A)
    b v (fr n : nat) (gain : A) (chs : list nat) : res (owned A) :=
  match chs with
  | [] => Ok b
  | ch :: chs =>
      let? st := seg_start b v ch fr n in
      if is_zero gain then
        Ok (with_data b (seg_zip (fun (_ : nat) _ => zero) (data b) st (seq 0 n)))
      else if is_one gain then Ok b
      else apply_gain_value_loop zero is_zero is_one mul
             (with_data b (seg_zip (fun (_ : nat) x => mul x gain) (data b) st (seq 0 n)))
             v fr n gain chs
  end.
Definition apply_gain_value (zero : A) (is_zero is_one : A -> bool) (mul : A -> A -> A)
    b v (r : range) (gain : A) : res (owned A) :=
  apply_gain_value_loop zero is_zero is_one mul b v (r_frame r) (r_frames r) gain
    (seq (r_channel r) (r_channels r)).

(** audio_buffer.rs l.351-377 FrameIterator: state (channel, frame) *)
Definition frame_iter_next (cc fc : nat) (st : nat * nat) : option (nat * nat) * (nat * nat) :=
  let '(ch, fr) := st in
  let loc := if (ch <? cc) && (fr <? fc) then Some (ch, fr) else None in
  let fr' := fr + 1 in
  (loc, if fc <=? fr' then (ch + 1, 0) else (ch, fr')).
Fixpoint frame_iter_collect (fuel cc fc : nat) (st : nat * nat) : res (list (nat * nat)) :=
  match fuel with
  | O => Panic OutOfFuel
  | S fuel =>
      match frame_iter_next cc fc st with
      | (None, _) => Ok []
      | (Some loc, st') => let? l := frame_iter_collect fuel cc fc st' in Ok (loc :: l)
      end
  end.
Definition frame_iter b v : res (list (nat * nat)) :=
  frame_iter_collect (S (v_channels b v * v_frames b v)) (v_channels b v) (v_frames b v) (0, 0).

(** audio_buffer.rs l.125-129; [is_zero] is == 0.0 *)
Definition channel_is_silent (is_zero : A -> bool) b v (ch : nat) : res bool :=
  let? l := get_channel_data b v ch 0 in Ok (forallb is_zero l).

End buffer.
