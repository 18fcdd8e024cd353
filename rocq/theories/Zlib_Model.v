(** The codecs that keep a zlib stream: compressor/http1_gzip/__init__.py,
    compressor/http1_huffman/__init__.py, compressor/spdy3/__init__.py and the
    parameter [huffman] of compressor/simple/__init__.py.

    zlib itself is not modelled: a [zlib] below is any pair of stream objects with
    the four methods the code calls.  The theorems suppose only [faithful]
    (Prop_Zlib.v), what the documentation of zlib promises of a stream flushed
    with Z_SYNC_FLUSH. *)
From Coq Require Import String List NArith ZArith Bool.
From Verif Require Import PyBase PyStr Lib_Model H1_Model Simple_Model Small_Model.
Import ListNotations.
Open Scope N_scope.
Open Scope py_scope.

(** zlib.compressobj(...) with [compress] and [flush(Z_SYNC_FLUSH)];
    zlib.decompressobj() with [decompress] (None: zlib.error) and [flush].
    [z_new]: the objects as constructed (the level, window and strategy of
    http1_gzip lines 11-12, http1_huffman lines 11-12, spdy3 lines 12-13, simple
    lines 97-99, are part of which [zlib] is meant). *)
Record zlib := mk_zlib {
  zC : Type; zD : Type;
  z_new : zC; z_write : zC -> str -> zC * str; z_flush : zC -> zC * str;
  d_new : zD; d_read : zD -> str -> option (zD * str); d_flush : zD -> zD * str }.

(** [''.join([compressor.compress(x), compressor.flush(Z_SYNC_FLUSH)])]:
    http1_gzip and http1_huffman lines 18-21; simple lines 198-202; also spdy3
    lines 22-23. *)
Definition push (Z : zlib) (c : zC Z) (x : str) : zC Z * str :=
  let '(c1, a) := z_write Z c x in
  let '(c2, b) := z_flush Z c1 in
  (c2, a ++ b).

(** simple lines 204-208 (huffman_decode). *)
Definition feed (Z : zlib) (d : zD Z) (blob : str) : res (zD Z * str) :=
  match d_read Z d blob with
  | None => Err GenericException
  | Some (d1, a) => let '(d2, b) := d_flush Z d1 in Ok (d2, a ++ b)
  end.

(** ** http1_gzip and http1_huffman *)

(** __init__, lines 9-14: the dictionary goes in, what comes out is dropped. *)
Definition gz_new (Z : zlib) (spdy_dict : str) : zC Z := fst (push Z (z_new Z) spdy_dict).

(** compress, lines 16-21. *)
Definition gz_compress (Z : zlib) (c : zC Z) (in_headers : hdict) : zC Z * str := push Z c (http1_compress in_headers).

Fixpoint gz_session (Z : zlib) (c : zC Z) (msgs : list hdict) : list str :=
  match msgs with
  | [] => []
  | m :: ms => let '(c', out) := gz_compress Z c m in out :: gz_session Z c' ms
  end.

(** ** spdy3 *)

(** __init__, lines 10-16. *)
Definition sp_new (Z : zlib) (dict_param : bool) (spdy_dict : str) : zC Z :=
  if dict_param then fst (push Z (z_new Z) spdy_dict) else z_new Z.

(** compress, lines 18-24. *)
Definition sp_compress (Z : zlib) (c : zC Z) (in_headers : hdict) : res (zC Z * str) :=
  let* raw := spdy3_format in_headers in
  let '(c', out) := push Z c (skipn 12 raw) in
  Ok (c', firstn 12 raw ++ out).

Fixpoint sp_session (Z : zlib) (c : zC Z) (msgs : list hdict) : res (list str) :=
  match msgs with
  | [] => Ok []
  | m :: ms =>
      let* (c', out) := sp_compress Z c m in
      let* outs := sp_session Z c' ms in
      Ok (out :: outs)
  end.

(** ** simple with [huffman] (and possibly [date], [max_entries]) *)

(** compress, lines 113-150, with [self.encode = self.huffman_encode]; [o] has the
    identity for encoding and decoding. *)
Definition hz_compress (Z : zlib) (o : s_opts) (ord : hdict -> hdict) (st : option hdict * zC Z) (m : hdict)
  : res ((option hdict * zC Z) * str) :=
  let* (last, msg) := s_compress o ord (fst st) m in
  let '(c', out) := push Z (snd st) msg in
  Ok ((last, c'), out).

(** decompress, lines 152-191, with [self.decode = self.huffman_decode]. *)
Definition hz_decompress (Z : zlib) (o : s_opts) (ord : hdict -> hdict) (st : option hdict * zD Z) (wire : str)
  : res ((option hdict * zD Z) * hdict) :=
  let* (d', msg) := feed Z (snd st) wire in
  let* (last, out) := s_decompress o ord (fst st) msg in
  Ok ((last, d'), out).

Fixpoint hz_session (Z : zlib) (o : s_opts) (ord : nat -> hdict -> hdict) (i : nat)
  (c : option hdict * zC Z) (d : option hdict * zD Z) (msgs : list hdict) : res (list hdict) :=
  match msgs with
  | [] => Ok []
  | m :: ms =>
      let* (c', wire) := hz_compress Z o (ord i) c m in
      let* (d', out) := hz_decompress Z o (ord (S i)) d wire in
      let* outs := hz_session Z o ord (S (S i)) c' d' ms in
      Ok (out :: outs)
  end.
