(** What the envelope follower, periodic notifications and the envelope node do. *)
From stdpp Require Import list.
From Coq Require Import Reals ZArith.
From Verif Require Import Base Buffer BufferSpec EffectSpec Envelope.
Local Open Scope R_scope.

(** ** Follower *)
Inductive fop := FSample (x : R) | FAttack (t : R) | FRelease (t : R).
Definition fstep (f : follower) (o : fop) : follower :=
  match o with FSample x => follow f x | FAttack t => set_attack_time t f | FRelease t => set_release_time t f end.
Definition frun (f : follower) (ops : list fop) : follower := fold_left fstep ops f.
Definition fop_ok (o : fop) : Prop := match o with FSample _ => True | FAttack t | FRelease t => 0 <= t end.
(** the values returned, one per sample *)
Fixpoint levels (f : follower) (ops : list fop) : list R :=
  match ops with
  | [] => []
  | o :: ops => match o with FSample _ => [fl_level (fstep f o)] | _ => [] end ++ levels (fstep f o) ops
  end.
(** [x] lies between [a] and [b], in either order *)
Definition between (a b x : R) : Prop := a <= x <= b ∨ b <= x <= a.

(** ** Notifications *)
Section periodic.
  Context (interval : R).
  (** number of whole intervals in [n] samples *)
  Definition ticks (n : nat) (k : nat) : Prop := interval * INR k <= INR n < interval * INR (S k).
  (** the answers for the blocks [bs] after [n] samples *)
  Fixpoint notified (n : nat) (bs : list nat) (answers : list bool) : Prop :=
    match bs, answers with
    | [], [] => True
    | b :: bs, a :: answers =>
        (a = true ↔ ∃ k, INR n < interval * INR (S k) <= INR (n + b)) ∧ notified (n + b) bs answers
    | _, _ => False
    end.
End periodic.
Fixpoint advances (fuel : nat) (p : periodic) (bs : list nat) : res (list bool * periodic) :=
  match bs with
  | [] => Ok ([], p)
  | b :: bs =>
      let? (p', a) := pn_advance fuel b p in
      let? (r, p2) := advances fuel p' bs in Ok (a :: r, p2)
  end.

(** ** The node *)
(** A meter for one channel: the follower runs over the samples of each block that come
    before the next notification; the peak since the last one is reported when the block
    contains the end of an interval. *)
Section meter.
  Context (interval : R).
  (** samples from the [n]-th to the end of the interval *)
  Definition remaining (n : nat) : nat := Z.to_nat (ceiling (interval * (IZR (Int_part (INR n / interval)) + 1) - INR n)).
  Definition completes (n b : nat) : bool :=
    (Int_part (INR n / interval) <? Int_part (INR (n + b) / interval))%Z.
  Fixpoint meter (n : nat) (f : follower) (peak : R) (blocks : list (list R)) : list (option R) :=
    match blocks with
    | [] => []
    | b :: blocks =>
        let heard := take (remaining n) b in
        let peak' := fold_left Rmax (levels f (FSample <$> heard)) peak in
        let f' := frun f (FSample <$> heard) in
        if completes n (length b) then Some peak' :: meter (n + length b) f' 0 blocks
        else None :: meter (n + length b) f' peak' blocks
    end.
  (** the meter one would expect: all samples count *)
  Fixpoint meter_all (n : nat) (f : follower) (peak : R) (blocks : list (list R)) : list (option R) :=
    match blocks with
    | [] => []
    | b :: blocks =>
        let peak' := fold_left Rmax (levels f (FSample <$> b)) peak in
        let f' := frun f (FSample <$> b) in
        if completes n (length b) then Some peak' :: meter_all (n + length b) f' 0 blocks
        else None :: meter_all (n + length b) f' peak' blocks
    end.
  (** no block goes on after the end of an interval *)
  Fixpoint aligned (n : nat) (blocks : list (list R)) : Prop :=
    match blocks with [] => True | b :: blocks => (length b <= remaining n)%nat ∧ aligned (n + length b) blocks end.
End meter.
(** the samples of a channel of a block *)
Definition row_of (b : owned R * view) (ch : nat) : list R :=
  (λ fr, default 0 (seen b.1 b.2 ch fr)) <$> seq 0 (v_frames b.1 b.2).
Definition block : Type := owned R * view.
Definition eblock_ok (cc : nat) (b : block) : Prop :=
  wf b.1 ∧ valid_view b.1 b.2 ∧ v_channels b.1 b.2 = cc.
Inductive eop := EBlock (b : block) | EDrain | ETake.
Definition estep (fuel : nat) (s : (envelope * list note) * list (list note)) (o : eop) : res ((envelope * list note) * list (list note)) :=
  match o with
  | EBlock b => let? e := envelope_process fuel b.1 b.2 s.1.1 in Ok ((e, s.1.2), s.2)
  | EDrain => Ok (drain s.1, s.2)
  | ETake => let (s', l) := take_notes s.1 in Ok (s', s.2 ++ [l])
  end.
Definition blocks_of (ops : list eop) : list block := omap (λ o, match o with EBlock b => Some b | _ => None end) ops.
(** Histories on which the node works: [n] samples have passed, [u] notes are unread.
    Every block has at least as many frames as channels, ahead of the next notification
    too, and the channel to the control side has room. *)
Fixpoint envelope_ok (interval : R) (cc n u : nat) (ops : list eop) : Prop :=
  match ops with
  | [] => True
  | EBlock b :: ops =>
      let c := completes interval n (v_frames b.1 b.2) in
      eblock_ok cc b ∧ (cc <= v_frames b.1 b.2)%nat ∧ (cc <= remaining interval n)%nat ∧ (c = true → u + cc <= 64)%nat ∧
      envelope_ok interval cc (n + v_frames b.1 b.2) (if c then u + cc else u)%nat ops
  | EDrain :: ops => envelope_ok interval cc n 0 ops
  | ETake :: ops => envelope_ok interval cc n u ops
  end.
(** the peaks in [l] for channel [ch] *)
Definition of_channel (ch : nat) (l : list note) : list R := omap (λ x : note, if decide (x.1 = ch) then Some x.2 else None) l.
(** [m] blocks, the notifications being collected after each *)
Definition drained (m : nat) (b : block) : list eop := concat (replicate m [EBlock b; EDrain]).
(** one channel with the samples [l] *)
Definition mono (l : list R) : block := (Owned l 1 (length l) 2, Whole).
