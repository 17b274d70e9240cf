(** A loop shape shared by the processors. *)
From stdpp Require Import list.
From Verif Require Import Base Buffer.

(** For each of the first [cc] channels, combine the output samples, from the first on,
    with a computed row: the [izip!] loops of adsr_processor.rs l.107-119,
    oscillator_processor.rs l.52-64 and others.  The shorter of the two decides the
    length. *)
Definition zip_channels {A B} (f : B → A → A) (row : nat → res (list B)) (ov : view) (cc : nat) (out : owned A) : res (owned A) :=
  rfold (λ out ch,
    let? (st, en) := locate out ov ch 0 in
    let? l := row ch in
    Ok (with_data out (seg_zip f (data out) st (take (en - st) l)))) (seq 0 cc) out.
