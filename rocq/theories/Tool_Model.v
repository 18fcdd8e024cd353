(** * The tool with its own codecs: what lib/processors.py lines 47-64 makes of
      the module names, put together from the models of the single codecs.

    - http1, http2, headerdiff (without deflate), delta, delta2 and simple (without
      its zlib coder) are the models of H1_Model, HTTP2_Proc_Model, HD_Proc_Model,
      D1Code_Model, D2Code_Model and Simple_Model, made from their parameters as in
      Params_Model;
    - every other module, and headerdiff and simple when they use zlib, is an
      arbitrary object [other_new], [other_compress], [other_decompress] (the codecs
      without a decompress method - bohe, delta_bohe, http1_gzip, http1_huffman,
      spdy3 - answer [None]);
    - that a module can be loaded is taken for granted (C80 says when).

    What is outside the codecs is in the record [env]. *)
From Coq Require Import String List NArith ZArith Bool.
From Verif Require Import PyBase Lib_Model H1_Model HTTP2_Model HTTP2_Proc_Model HD_Model HD_Proc_Model HDHuff_Model
  D1Huff_Model D1Wire_Model D1Code_Model D2Huff_Model D2Wire_Model D2Store_Model D2Code_Model Simple_Model Params_Model PyStr.
Import ListNotations.
Open Scope N_scope.
Open Scope py_scope.

(** The orders in which dictionaries and sets are iterated (the n-th message may
    have its own), the Huffman coders of the two directions, the regular
    expression shortening host names, simple's date functions, and the turns
    allowed to http2's loop. *)
Record env := mk_env {
  e_fuel : nat;
  e_hd_order : nat -> list ih -> list ih;
  e_hd_codec : bool -> codec;
  e_norm : str -> str;
  e_d2_coder : bool -> huffman; e_d2_order : nat -> order; e_d2_refs : nat -> zset -> list Z;
  e_d1_coder : bool -> huffman; e_d1_order : nat -> order1; e_d1_refs : nat -> zset -> list Z;
  e_d1_name : str; e_d1_groups : list gop -> list N;
  e_simple_order : nat -> hdict -> hdict; e_date_in : str -> option str; e_date_out : str -> option str }.

Section Tool.
  Variable E : env.
  Variable O : Type.
  Variable other_new : str -> bool -> list str -> res O.
  Variable other_compress : str -> O -> hdict -> str -> res (O * str).
  Variable other_decompress : str -> O -> str -> res (O * option hdict).

  (** A processor object. *)
  Inductive pstate :=
  | PHttp1 (q : bool)
  | PHttp2 (max : Z) (st : encoder * decoder)
  | PHeaderdiff (cfg : hcfg) (q : bool) (st : henc * hdec)
  | PDelta2 (q : bool) (n : nat) (p : processor)
  | PDelta (q : bool) (n : nat) (p : processor1)
  | PSimple (o : s_opts) (n : nat) (c d : option hdict)
  | POther (x : O).

  Definition other (m : str) (q : bool) (ps : list str) : res pstate := let* x := other_new m q ps in Ok (POther x).

  (** The codec object of headerdiff/__init__.py lines 129-138. *)
  Definition hd_cfg (q : bool) (a : hd_args) : hcfg :=
    if ha_huffman a then mk_hcfg (ha_buffer a) (ha_delta a) (ha_dtype a) (HDHuff_Model.huff_encode (e_hd_codec E q)) (HDHuff_Model.huff_decode (e_hd_codec E q))
    else mk_hcfg (ha_buffer a) (ha_delta a) (ha_dtype a) hd_write_plain hd_read_plain.

  (** The coder of simple/__init__.py lines 93-104; None: zlib. *)
  Definition simple_opts (q : bool) (a : s_args) : option s_opts :=
    match sa_coding a with
    | Seven => Some (mk_s_opts seven_encode (fun b => Ok (seven_decode b)) (sa_dates a) (e_date_in E) (e_date_out E) (sa_max a) q)
    | Plain => Some (mk_s_opts (fun b => b) (fun b => Ok b) (sa_dates a) (e_date_in E) (e_date_out E) (sa_max a) q)
    | ZHuffman => None
    end.

  (** The constructors. *)
  Definition tool_new (m : str) (q : bool) (ps : list str) : res pstate :=
    if str_eqb m (lit "http1") then Ok (PHttp1 q)
    else if str_eqb m (lit "http2") then
      let* (max, r) := http2_args q ps in Ok (PHttp2 max (init_encoder r, init_decoder r))
    else if str_eqb m (lit "headerdiff") then
      let* a := hd_params ps in
      match ha_window a with None => Ok (PHeaderdiff (hd_cfg q a) q (henc_new, hdec_new)) | Some _ => other m q ps end
    else if str_eqb m (lit "delta2") then
      let* o := d2_params ps in let* p := proc_new o in Ok (PDelta2 q 0 p)
    else if str_eqb m (lit "delta") then
      let* (b, e) := d1_params ps in Ok (PDelta q 0 (proc1_new (e_d1_name E) b e))
    else if str_eqb m (lit "simple") then
      let* a := s_params ps in
      match simple_opts q a with Some o => Ok (PSimple o 0 None None) | None => other m q ps end
    else other m q ps.

  (** compress(headers, host); simple counts both calls. *)
  Definition tool_compress (m : str) (st : pstate) (d : hdict) (host : str) : res (pstate * str) :=
    match st with
    | PHttp1 q => Ok (PHttp1 q, http1_compress d)
    | PHttp2 max st => let* (st, c) := http2_compress (e_fuel E) max st d in Ok (PHttp2 max st, c)
    | PHeaderdiff cfg q st => let* (st, c) := hdp_compress (e_hd_order E) cfg q st d in Ok (PHeaderdiff cfg q st, c)
    | PDelta2 q n p => let* (p, c) := proc_compress (e_norm E) (e_d2_coder E q) (e_d2_order E n) p d host in Ok (PDelta2 q n p, c)
    | PDelta q n p => let* (p, c) := proc1_compress (e_d1_name E) (e_d1_groups E) (e_norm E) (e_d1_coder E q) (e_d1_order E n) p d host in
        Ok (PDelta q n p, c)
    | PSimple o n c b => let* (c, w) := s_compress o (e_simple_order E n) c d in Ok (PSimple o (S n) c b, w)
    | POther x => let* (x, c) := other_compress m x d host in Ok (POther x, c)
    end.

  (** decompress(text). *)
  Definition tool_decompress (m : str) (st : pstate) (c : str) : res (pstate * option hdict) :=
    match st with
    | PHttp1 q => let* d := http1_decompress q c in Ok (PHttp1 q, Some d)
    | PHttp2 max st => let* (st, d) := http2_decompress max st c in Ok (PHttp2 max st, d)
    | PHeaderdiff cfg q st => let* (st, d) := hdp_decompress cfg q st c in Ok (PHeaderdiff cfg q st, d)
    | PDelta2 q n p => let* (p, d) := proc_decompress (e_d2_coder E q) (e_d2_refs E n) p c in Ok (PDelta2 q (S n) p, Some d)
    | PDelta q n p => let* (p, d) := proc1_decompress (e_d1_name E) (e_d1_groups E) (e_d1_coder E q) (e_d1_refs E n) p c in
        Ok (PDelta q (S n) p, Some d)
    | PSimple o n lc b => let* (b, d) := s_decompress o (e_simple_order E n) b c in Ok (PSimple o (S n) lc b, Some d)
    | POther x => let* (x, d) := other_decompress m x c in Ok (POther x, d)
    end.
End Tool.
