(** * Model of compressor/delta_bohe: the receiving codec of spdy4_codec_impl.py (Python 2).

    Line numbers refer to spdy4_codec_impl.py.  The methods are those that the commented-out
    Processor.decompress (lines 83-88 of __init__.py) would call, on the tables of DB_Model.  No
    ref_cnt is above 0 outside MakeOperations but the one that InsertVal holds, and the receiver's
    generation never grows.  What an exception leaves behind is not modelled. *)
From Coq Require Import String List NArith ZArith Bool Arith.
From Verif Require Import PyBase PyStr D1Huff_Model D2Huff_Model Lib_Model D1Wire_Model D2Code_Model Bohe_Model DB_Model DBR_Model.
From Verif Require DC_Model.
Import ListNotations.
Open Scope Z_scope.
Open Scope py_scope.

(** ExecuteOp, lines 968-996; the group exists (line 957).  ephemereal_headers is dropped. *)
Definition exec_op (gen : N) (t : table) (o : op1) : res table :=
  match o with
  | Toggl i => toggle gen t i
  | Trang last first => toggle_each gen t (map (fun n => first + Z.of_nat n) (seq 0 (Z.to_nat (last - first + 1))))
  | Clone n v => match key_at (b_keys t) n with None => Err StandardError | Some k => insert_val [] gen t k v end
  | Kvsto k v => insert_val [] gen t k v
  | Eref _ _ => Ok t
  end.
(** ExecuteOps, lines 955-963. *)
Fixpoint exec_ops (gen : N) (t : table) (ops : list op1) : res table :=
  match ops with [] => Ok t | o :: r => let* t := exec_op gen t o in exec_ops gen t r end.

(** sorted(header_group.GetEntries(), key=lambda x: x['lru_idx']), line 1005. *)
Fixpoint insert_e (x : entry) (l : list entry) : list entry :=
  match l with
  | [] => [x]
  | y :: r => if e_idx x <=? e_idx y then x :: l else y :: insert_e x r
  end.
Definition by_index (l : list entry) : list entry := fold_right insert_e [] l.

(** The headers of GenerateAllHeaders, lines 998-1014; adding one is delta2_bohe's code. *)
Definition headers_of (t : table) : hdict :=
  cookie_nul (fold_left (fun h e => DC_Model.add_header h (DC_Model.mk_kv (e_idx e) (e_key e) (e_val e))) (by_index (filter grouped (entries t))) []).

(** Decompress, RealOpsToOpAndExecute, lines 946-953, and GenerateAllHeaders, lines 998-1015:
    lines 85-88 of __init__.py. *)
Definition receive (h : huffman) (d : codec) (blob : str) : res (codec * hdict) :=
  let* ops := from_real h blob in
  let* t := exec_ops (c_gen d) (c_table d) ops in
  let t := unpin t in
  Ok (mk_codec (adjust t) (c_gen d), headers_of t).

(** Messages through Processor.compress and the other end. *)
Fixpoint talk (L : library) (ord : list Z -> list Z) (h : huffman) (s : state) (d : codec) (ms : list (list (str * str))) : res (list hdict) :=
  match ms with
  | [] => Ok []
  | m :: r =>
      let (s, o) := db_compress L ord h s m in
      let* blob := o in
      let* (d, out) := receive h d blob in
      let* outs := talk L ord h s d r in
      Ok (out :: outs)
  end.
