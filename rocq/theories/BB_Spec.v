(** * What a bit bucket should be: a queue of bits. *)
From Coq Require Import List NArith Bool Arith.
From Verif Require Import PyBase.
Import ListNotations.

(** All bits written so far, and how many of them have been read. *)
Record bitq := mk_q { q_bits : list bool; q_pos : nat }.
Definition q_new : bitq := mk_q [] 0.
Definition q_store (q : bitq) (l : list bool) : bitq := mk_q (q_bits q ++ l) (q_pos q).
(** Zeros up to the next multiple of eight. *)
Definition q_pad (q : bitq) : bitq := mk_q (q_bits q ++ repeat false ((8 - length (q_bits q) mod 8) mod 8)) (q_pos q).
Definition q_advance (q : bitq) : bitq := mk_q (q_bits q) (q_pos q + (8 - q_pos q mod 8) mod 8).
Definition q_get (q : bitq) (n : nat) : option (list bool * bitq) :=
  if (q_pos q + n <=? length (q_bits q))%nat then
    Some (firstn n (skipn (q_pos q) (q_bits q)), mk_q (q_bits q) (q_pos q + n))
  else None.

(** Operations and observations. *)
Inductive bop := OStore (l : list bool) | OPad | OAdvance | OGet (n : nat).

(** The answers a queue gives: to each read, the bits, or an error. *)
Fixpoint q_run (q : bitq) (ops : list bop) : list (option (list bool)) :=
  match ops with
  | [] => []
  | OStore l :: r => q_run (q_store q l) r
  | OPad :: r => q_run (q_pad q) r
  | OAdvance :: r => q_run (q_advance q) r
  | OGet n :: r =>
      match q_get q n with
      | Some (l, q') => Some l :: q_run q' r
      | None => None :: q_run q r
      end
  end.

(** Reading back what was written: a read of the same width for each store, a
    skip for each pad. *)
Definition mirror (o : bop) : bop :=
  match o with OStore l => OGet (length l) | OPad => OAdvance | OAdvance => OAdvance | OGet n => OGet n end.
Definition is_write (o : bop) : Prop := match o with OStore _ | OPad => True | _ => False end.
Fixpoint stored (w : list bop) : list (list bool) :=
  match w with [] => [] | OStore l :: r => l :: stored r | _ :: r => stored r end.
