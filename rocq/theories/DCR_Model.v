(** * Model of compressor/delta2_bohe: reading a message back (RealOpsToOps and
      RealOpsToOpAndExecute of spdy4_codec_impl.py, and the decompress of __init__.py,
      which is there as a comment).

    Line numbers refer to spdy4_codec_impl.py unless __init__.py is named.  No Python version
    can load the package (C80); here its functions are taken in isolation.  UnpackInt
    (lines 145-169), UnpackStr (lines 171-222), UnpackOps (lines 304-309) and
    DeserializeInstructions (lines 525-575) are those of delta but for the names of variables,
    and so are the tables packing_order and opcodes (lines 312-337): D1Wire_Model has them. *)
From Coq Require Import String List NArith ZArith Bool Arith.
From Verif Require Import PyBase BB_Model D2Huff_Model D1Huff_Model D1Wire_Model DB_Model DC_Model DCW_Model Lib_Model PyStr.
Import ListNotations.
Open Scope N_scope.
Open Scope py_scope.

(** An operation as it is read.  A kept-nowhere pair (eref) goes into a dictionary that
    RealOpsToOpAndExecute throws away (lines 893-894 and 936-937). *)
Definition op_read (o : op1) : list op :=
  match o with
  | Toggl i => [OToggl i]
  | Trang last first => [OTrang first last]
  | Clone n v => [OClone n v]
  | Kvsto k v => [OKvsto k v]
  | Eref _ _ => []
  end.

(** RealOpsToOps, lines 717-721, with Decompress, lines 728-730. *)
Definition real_to_ops (h : huffman) (blob : str) : res (N * list op) :=
  let* (gid, ops) := from_wire1 h blob in
  Ok (gid, flat_map op_read ops).

(** RealOpsToOpAndExecute, lines 881-888, and GenerateAllHeaders: lines 80-84 of __init__.py. *)
Definition receive (h : huffman) (d : code) (blob : str) : res (code * hdict) :=
  let* (gid, ops) := real_to_ops h blob in
  let* d := execute gid d ops in
  generate gid d.

(** MakeOperations, OpsToRealOps and Compress: lines 74-77 of __init__.py. *)
Definition send (has_encoder : str -> bool) (ord : list Z -> list Z) (enc : str -> str -> res str) (h : huffman) (gid : N) (c : code)
  (headers : list (str * str)) : res (code * str) :=
  let (gs, _) := gs_make (k_groups c) gid in
  let* fs := clone_flags has_encoder ord enc gid (mk_code (k_lru c) gs) (mk_instrs [] [] []) (split_headers headers) in
  let* (c, i) := make_operations ord enc gid c headers in
  let* blob := real_ops2 h (with_flags has_encoder fs i) gid in
  Ok (c, blob).

(** A conversation over octets. *)
Fixpoint over_octets (has_encoder : str -> bool) (ord : nat -> list Z -> list Z) (enc : str -> str -> res str) (h : huffman) (n : nat) (c d : code)
  (msgs : list (N * list (str * str))) : res (list hdict) :=
  match msgs with
  | [] => Ok []
  | (gid, headers) :: r =>
      let* (c, blob) := send has_encoder (ord n) enc h gid c headers in
      let* (d, out) := receive h d blob in
      let* outs := over_octets has_encoder ord enc h (S n) c d r in
      Ok (out :: outs)
  end.
