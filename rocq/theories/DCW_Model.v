(** * Model of compressor/delta2_bohe: the octets of a message (OpsToRealOps of
      spdy4_codec_impl.py) and Processor.compress of __init__.py (Python 2).

    Line numbers refer to spdy4_codec_impl.py unless __init__.py is named.  No Python version
    can load the package (C80); here its functions are taken in isolation.  PackInt, PackStr,
    PreProcessToggles, OutputOps and WriteOpData are those of delta_bohe but for the names of
    helpers and the printing of what raised, and header_freq_tables.py and bit_bucket.py are
    the same files: DB_Model has them.  The group id is the one difference.
    - strip_conn_headers, which the package imports from a module that does not define it, is
      any function on headers ([strip]);
    - what an exception leaves behind is not modelled: the session ends with it. *)
From Coq Require Import String List NArith ZArith Bool Arith.
From Verif Require Import PyBase BB_Model D2Huff_Model D1Huff_Model D1Wire_Model Small_Model LB_Model Host_Model DB_Model DC_Model Lib_Model PyStr.
Import ListNotations.
Open Scope N_scope.
Open Scope py_scope.

(** WriteControlFrameBoilerplate, lines 464-479, with WriteControlFrameStreamId, lines 459-462. *)
Definition frame_head2 (b : bb) (frame_len flags stream_id group_id frame_type : N) : res bb :=
  let* b := bb_store16 b frame_len in
  let* b := bb_store8 b flags in
  let* b := bb_store32 b (N.lor 0x80000000 stream_id) in
  let* b := bb_store8 b frame_type in
  bb_store8 b group_id.

(** The loop of lines 510-523 and SerializeInstructions, lines 481-524. *)
Fixpoint put_frames2 (gid : N) (fuel : nat) (b : bb) (payload : list N) (plen allowed : N) : res bb :=
  match fuel with
  | O => Err Diverge
  | S f =>
      let consume := N.min plen allowed in
      let* b := frame_head2 b consume (if consume <=? plen then 1 else 0) 1234 gid 8 in
      let* b := bb_store b payload (8 * N.to_nat consume)%nat in
      let payload := skipn (N.to_nat consume) payload in
      if plen <=? allowed then Ok b else put_frames2 gid f b payload (plen - allowed) allowed
  end.
Definition serialize2 (h : huffman) (i : DB_Model.instrs) (gid : N) : res bb :=
  let* pb := put_instrs h i in
  let (payload, nbits) := bb_all pb in
  let plen := N.of_nat ((nbits + 7) / 8)%nat in
  let* fb := frame_head2 bb_new 0 0 0 gid 0 in
  let allowed := 65536 - N.of_nat (bb_bytes fb) in
  put_frames2 gid (S (length payload)) bb_new payload plen allowed.

(** OpsToRealOps, lines 710-715, with PackOps, lines 295-302, and Compress, lines 723-726. *)
Definition real_ops2 (h : huffman) (i : DB_Model.instrs) (gid : N) : res str :=
  let* b := serialize2 h i gid in
  let (o, n) := bb_all b in
  let* d := bb_store bb_new o n in
  Ok (fst (bb_all d)).

(** The field 'huff', which DC_Model leaves out: line 814, for each clone that ProcessKV makes
    (lines 834-837), in their order; [has_encoder]: key in bohe.ENCODERS. *)
Fixpoint clone_flags (has_encoder : str -> bool) (ord : list Z -> list Z) (enc : str -> str -> res str) (gid : N) (c : code) (i : instrs)
  (pairs : list (str * str)) : res (list bool) :=
  match pairs with
  | [] => Ok []
  | (k, v) :: r =>
      let* w := enc k v in
      let* (c', i') := process_kv ord gid c i k w in
      let* fs := clone_flags has_encoder ord enc gid c' i' r in
      Ok (if (length (n_clone i) <? length (n_clone i'))%nat then negb (has_encoder k) :: fs else fs)
  end.
(** The instructions with that field. *)
Definition with_flags (has_encoder : str -> bool) (fs : list bool) (i : instrs) : DB_Model.instrs :=
  DB_Model.mk_instrs (n_toggl i) (combine (n_clone i) fs) (map (fun '(k, v) => (k, v, negb (has_encoder k))) (n_kvsto i)).

(** A processor between two calls: compressor, hosts and group_ids, lines 28-33 of __init__.py. *)
Record proc := mk_dproc { d_code : code; d_hosts : dict N; d_ids : idstore }.
Definition dproc_new : proc := mk_dproc code_new [] (ids_new (2 ^ 31)).

(** Processor.compress, lines 48-77 of __init__.py. *)
Definition dproc_compress (strip : list (str * str) -> list (str * str)) (has_encoder : str -> bool) (ord : list Z -> list Z) (enc : str -> str -> res str)
  (h : huffman) (p : proc) (headers : list (str * str)) (host : str) : res (proc * str) :=
  let x := norm_host host in
  let* (gid, hosts, ids) :=
    match dget (d_hosts p) x with
    | Some g => Ok (g, d_hosts p, d_ids p)
    | None => let (r, ids) := bids_get (fun _ => 0%nat) (d_ids p) in let* g := r in Ok (g, dset (d_hosts p) x g, ids)
    end in
  let headers := strip headers in
  let (gs, _) := gs_make (k_groups (d_code p)) gid in
  let* fs := clone_flags has_encoder ord enc gid (mk_code (k_lru (d_code p)) gs) (mk_instrs [] [] []) (split_headers headers) in
  let* (c, i) := make_operations ord enc gid (d_code p) headers in
  let* blob := real_ops2 h (with_flags has_encoder fs i) gid in
  Ok (mk_dproc c hosts ids, blob).
