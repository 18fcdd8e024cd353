(** * Model of compressor/headerdiff/__init__.py : the headerdiff processor.

    Parameter parsing (lines 67-138) is in Params_Model: the codec's parameters
    are the argument [cfg].  A dictionary is an association list in iteration
    order. *)
From Coq Require Import String List NArith ZArith Bool.
From Verif Require Import PyBase PyStr PyMerge Lib_Model HD_Model.
Import ListNotations.
Open Scope N_scope.
Open Scope py_scope.

(** The separators of the pieces of a value, lines 55-58 and 152-155. *)
Definition hd_sep (k : str) : N := if str_eqb k (lit "cookie") then 59 else 0.

(** HeaderTuple.split_from_dict, lines 50-59. *)
Definition hd_split (d : hdict) : list hdr :=
  flat_map (fun '(k, v) => map (fun vs => (k, strip is_space vs)) (split_on (hd_sep k) v)) d.

(** The loop of decompress, lines 149-157; merge_step (PyMerge) is its body. *)
Definition hd_join (l : list hdr) : hdict := fold_left (merge_step hd_sep) l [].

(** Processor.compress, lines 140-145; one codec object has both tables. *)
Definition hdp_compress (ord : nat -> list ih -> list ih) (cfg : hcfg) (q : bool) (st : henc * hdec) (d : hdict)
  : res ((henc * hdec) * str) :=
  match hd_encode ord cfg q (fst st) (hd_split d) with
  | (e, Ok f) => Ok ((e, snd st), f)
  | (_, Err x) => Err x
  end.

(** Processor.decompress, lines 147-159. *)
Definition hdp_decompress (cfg : hcfg) (q : bool) (st : henc * hdec) (frame : str)
  : res ((henc * hdec) * option hdict) :=
  match hd_decode cfg q (snd st) frame with
  | (d, Ok hs) => Ok ((fst st, d), Some (hd_join hs))
  | (_, Err x) => Err x
  end.
