(** * Model of compressor/http2/__init__.py : the http2 processor.

    The codec itself is HTTP2_Model.  Parameter parsing (lines 31-47, 77-96)
    is in Params_Model: the buffer size is an argument.  A dictionary is an
    association list in iteration order. *)
From Coq Require Import String List NArith ZArith Bool.
From Verif Require Import PyBase PyStr PyMerge Lib_Model HTTP2_Model.
Import ListNotations.
Open Scope N_scope.
Open Scope py_scope.

(** The separator of the pieces of a value, lines 56-59 and 68-71. *)
Definition piece_sep (k : str) : N := if str_eqb k (lit "cookie") then 59 else 0.

Definition mem_header (h : header) (l : list header) : bool := existsb (header_eqb h) l.

(** lst.extend(h for h in hdrs if h not in lst), line 61: the generator is
    run while the list grows, so it also sees the pieces just added. *)
Fixpoint extend_new (lst hdrs : list header) : list header :=
  match hdrs with
  | [] => lst
  | h :: hs => extend_new (if mem_header h lst then lst else lst ++ [h]) hs
  end.

(** split_headers, lines 53-62. *)
Definition split_step (lst : list header) (kv : str * str) : list header :=
  extend_new lst (map (fun vs => (fst kv, strip is_space vs)) (split_on (piece_sep (fst kv)) (snd kv))).
Definition split_headers (d : hdict) : list header := fold_left split_step d [].

(** join_headers, lines 64-74; merge_step (PyMerge) is the loop body. *)
Definition join_headers (lst : list header) : hdict := fold_left (merge_step piece_sep) lst [].

(** Processor.compress and Processor.decompress, lines 99-107; one codec
    object holds the encoder's and the decoder's tables. *)
Definition http2_compress (fuel : nat) (max : Z) (st : encoder * decoder) (d : hdict)
  : res ((encoder * decoder) * str) :=
  let* (c, frame) := encode_headers fuel max (split_headers d) (fst st) in
  Ok ((c, snd st), frame).

Definition http2_decompress (max : Z) (st : encoder * decoder) (frame : str)
  : res ((encoder * decoder) * option hdict) :=
  match decode_headers max (snd st) frame with
  | (dec, Ok hs) => Ok ((fst st, dec), Some (join_headers hs))
  | (_, Err e) => Err e
  end.
