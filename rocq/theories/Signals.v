(** Moving audio inside a buffer, and buffers filled with a step or a sine. *)
From stdpp Require Import list.
From Coq Require Import Reals.
From Verif Require Import Base Buffer.

Section signals.
Context {A : Type}.
Implicit Types (b : owned A) (v : view).

(** audio_buffer.rs l.240-241: slice::copy_within on one channel of the view, [n] frames from [fr] to [dst]; it aborts unless both ranges are
    in the channel. The slice is the part from [st] to [en] of the samples of the owned buffer. *)
Definition channel_copy_within b v (ch fr n dst : nat) : res (owned A) :=
  let? (st, en) := locate b v ch 0 in
  if (fr + n <=? en - st) && (dst + n <=? en - st)
  then Ok (with_data b (seg_zip (fun x _ => x) (data b) (st + dst) (take n (drop (st + fr) (data b)))))
  else Panic IndexOutOfRange.
(** audio_buffer.rs l.238-243 copy_within *)
Definition copy_within b v (r : range) (destination_frame : nat) : res (owned A) :=
  rfold (fun b ch => channel_copy_within b v ch (r_frame r) (r_frames r) destination_frame) (seq (r_channel r) (r_channels r)) b.

(** owned_audio_buffer.rs l.131-145 and 155-172: the first channel is filled with [f frame] and copied to the others *)
Definition generated (zero : A) (f : nat -> A) (frame_count channel_count sample_rate : nat) : res (owned A) :=
  let b := new_buffer zero frame_count channel_count sample_rate in
  let? (st, en) := locate b Whole 0 0 in
  rfold (fun b ch => duplicate_channel b 0 0 ch frame_count) (seq 1 (channel_count - 1))
    (with_data b (seg_zip (fun x _ => x) (data b) st (f <$> seq 0 (en - st)))).
(** owned_audio_buffer.rs l.149-173 step; [first .. last) is [step_range] *)
Definition step (zero one : A) (frame_count channel_count sample_rate first last : nat) : res (owned A) :=
  generated zero (fun i => if (first <=? i) && (i <? last) then one else zero) frame_count channel_count sample_rate.
End signals.

(** owned_audio_buffer.rs l.122-146 sine, over the reals: without the rounding of the f64 operations and of the conversion to f32. The
    debug_assert is modelled. *)
Definition sine (frame_count channel_count sample_rate : nat) (frequency amplitude : R) : res (owned R) :=
  if 0 <? channel_count
  then generated 0%R (fun i => amplitude * sin (2 * PI * frequency * (INR i / INR sample_rate)))%R frame_count channel_count sample_rate
  else Panic AssertFailed.
