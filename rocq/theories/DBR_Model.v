(** * Model of compressor/delta_bohe: reading the operations of a message back
      (RealOpsToOps of spdy4_codec_impl.py).

    Line numbers refer to spdy4_codec_impl.py.  UnpackInt (lines 77-101), UnpackStr (lines
    103-154), the tables packing_order and opcodes and the reading of blocks (lines 461-489)
    are those of delta but for the names of variables: D1Wire_Model has them.  The frame has
    no group. *)
From Coq Require Import List NArith ZArith Bool Arith.
From Verif Require Import PyBase BB_Model D2Huff_Model D1Huff_Model D1Wire_Model.
Import ListNotations.
Open Scope N_scope.
Open Scope py_scope.

(** The loop of lines 453-489.  Every turn reads octets or raises. *)
Fixpoint read_framesb (fuel : nat) (h : huffman) (b : bb) (ops : list op1) : res (list op1) :=
  match fuel with
  | O => Err Diverge
  | S f =>
      let* (len, b) := bb_get16 b in
      let* (flags, b) := bb_get8 b in
      let* (_, b) := bb_get32 b in
      let* (_, b) := bb_get8 b in
      let* (ops, b) := read_frame1 (S (bb_num b)) h (Z.of_N len * 8) b ops in
      if flags =? 0 then read_framesb f h b ops else Ok ops
  end.

(** DeserializeInstructions, lines 443-491. *)
Definition deserializeb (h : huffman) (frame : bb) : res (list op1) :=
  let (o, n) := bb_all frame in
  let* b := bb_store bb_new o n in
  read_framesb (S (bb_num b)) h b [].

(** RealOpsToOps, lines 818-822, with UnpackOps, lines 237-242, and Decompress, lines 829-831. *)
Definition from_real (h : huffman) (blob : str) : res (list op1) :=
  let* b := bb_store bb_new blob (8 * length blob)%nat in
  deserializeb h b.
