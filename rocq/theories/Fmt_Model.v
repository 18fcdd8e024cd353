(** * Model of how a bit bucket is shown: compressor/delta2/common_utils.py,
      FormatAsBits, lines 28-50, and compressor/delta2/bit_bucket.py, __repr__,
      lines 279-280, and DebugFormat, lines 268-277 (Python 2).  The FormatAsBits,
      __repr__ and DebugFormat of bohe, delta, delta_bohe and delta2_bohe are the
      same code. *)
From Coq Require Import String List NArith Bool Arith.
From Verif Require Import PyBase PyNum PyStr BB_Model.
Import ListNotations.
Open Scope N_scope.
Open Scope py_scope.

(** '{0:08b}'.format(c): the binary digits, filled up with zeros on the left to
    at least eight. *)
Fixpoint bin_pos (p : positive) : str :=
  match p with xH => [49] | xO p => bin_pos p ++ [48] | xI p => bin_pos p ++ [49] end.
Definition bin_str (c : N) : str := match c with 0 => [48] | Npos p => bin_pos p end.
Definition fmt_08b (c : N) : str := repeat 48 (8 - length (bin_str c)) ++ bin_str c.

(** The loop of lines 40-45: one octet a turn, [turns] of them. *)
Fixpoint fmt_loop (turns idx : nat) (output : list N) : res (str * nat) :=
  match turns with
  | O => Ok ([], idx)
  | S t =>
      let* c := pynth output idx in
      let* (r, idx) := fmt_loop t (S idx) output in
      Ok (124 :: fmt_08b c ++ r, idx)
  end.

(** Lines 33-38: total_bits, which is negative for no octets and some bits; then
    the loop makes no turn. *)
Definition fmt_turns (output : list N) (bits : nat) : nat :=
  if (bits =? 0)%nat then length output
  else if (bits mod 8 =? 0)%nat then length output
  else (length output - 1)%nat.

(** FormatAsBits, lines 28-50. *)
Definition format_as_bits (output : list N) (bits : nat) : res str :=
  let* (r, idx) := fmt_loop (fmt_turns output bits) 0 output in
  let* rest := if (bits mod 8 =? 0)%nat then Ok []
               else let* c := pynth output idx in Ok (124 :: firstn (bits mod 8) (fmt_08b c)) in
  Ok (r ++ rest ++ lit " [" ++ dec (N.of_nat bits) ++ lit "]").

(** __repr__, lines 279-280; str(bb) is the same. *)
Definition bb_repr (b : bb) : res str := format_as_bits (bb_out b) (bb_boff b).

(** The loop of lines 273-276: for i in xrange(n), a bar at every eighth. *)
Fixpoint rule (n i : nat) : str :=
  match n with
  | O => []
  | S n => (if (i mod 8 =? 0)%nat then [124] else []) ++ 45 :: rule n (S i)
  end.

(** DebugFormat, lines 268-277: the two lines printed. *)
Definition debug_format (b : bb) : res (str * str) :=
  let* s := bb_repr b in
  Ok (s, rule (bb_ibyte b * 8 + bb_iboff b - 1) 0 ++ [94]).
