(** * Model of delta2's wire format: compressor/delta2/spdy4_codec_impl.py
      lines 144-270, 295-304, 487-673 and 873-902 (Python 2).

    Line numbers refer to that file.  Simplifications:
    - an operation is a dictionary with the fields its opcode has; the model has
      one constructor per pair of opcodes, [e] telling the ephemeral one;
    - [instructions], a dictionary from opcode to operations, is the list of its
      items in the order in which it is iterated;
    - strings are Huffman coded and padded (g_strings_use_huffman and
      g_strings_padded_to_byte_boundary are 1 and deleted after use, and both
      ends always have a Huffman object);
    - printing (verbose) is left out;
    - what follows a frame that is not flagged as the last one and that a TypeError
      ended (a string running into a branch that an incomplete Huffman tree does
      not have) is not modelled ([Err Diverge]): the tables in use give complete
      trees. *)
From Coq Require Import List NArith ZArith Bool Arith.
From Verif Require Import PyBase BB_Model D2Huff_Model.
Import ListNotations.
Open Scope N_scope.
Open Scope py_scope.

(** ** Integers and strings *)

(** PackVarInt, lines 231-243: the loop, for a value of at most [fuel] nibbles. *)
Fixpoint pack_varint_loop (fuel : nat) (b : bb) (v : N) : res bb :=
  if 7 <? v then
    match fuel with
    | O => Err Diverge
    | S f => let* b := bb_store4 b (N.lor 8 (N.land v 7)) in pack_varint_loop f b (N.shiftr v 3)
    end
  else bb_store4 b (N.land v 7).
Definition pack_varint (b : bb) (val : Z) : res bb :=
  if (val <? 0)%Z then Err AssertionError
  else
    let v := Z.to_N val in
    if v <? 15 then bb_store4 b (N.land v 15)
    else
      let* b := bb_store4 b 15 in
      pack_varint_loop (N.size_nat v) b (v - 15).

(** UnpackVarInt, lines 144-158.  Every turn reads four bits or raises. *)
Fixpoint unpack_varint_loop (fuel : nat) (b : bb) (n : N) (shift : N) (val : N) : res (N * bb) :=
  if N.land n 8 =? 0 then Ok (val, b)
  else
    match fuel with
    | O => Err Diverge
    | S f =>
        let* (n, b) := bb_get4 b in
        let shift := shift + 3 in
        unpack_varint_loop f b n shift (val + N.shiftl (N.land n 7) shift)
    end.
Definition unpack_varint (b : bb) : res (N * bb) :=
  let* (val, b) := bb_get4 b in
  if val <? 15 then Ok (val, b)
  else
    let* (n, b) := bb_get4 b in
    unpack_varint_loop (bb_num b) b n 0 (val + N.shiftl (N.land n 7) 0).

(** The three ways to pack an index: lines 203-207 and 231-243, chosen in lines
    276-277 and 808-817. *)
Inductive iwidth := Int8 | Int16 | VarInt.
Definition pack_index (w : iwidth) (b : bb) (i : Z) : res bb :=
  match w with
  | VarInt => pack_varint b i
  | Int8 => if (i <? 0)%Z then Err StructError else bb_store8 b (Z.to_N i)
  | Int16 => if (i <? 0)%Z then Err StructError else bb_store16 b (Z.to_N i)
  end.
Definition unpack_index (w : iwidth) (b : bb) : res (Z * bb) :=
  let* (v, b) := match w with VarInt => unpack_varint b | Int8 => bb_get8 b | Int16 => bb_get16 b end in
  Ok (Z.of_N v, b).

(** PackStr, lines 245-270. *)
Definition pack_str (h : huffman) (b : bb) (s : str) : res bb :=
  let* (o, n) := huff_encode h s true in
  let* b := bb_store b o n in
  Ok (bb_pad b).

(** UnpackStr, lines 160-198. *)
Definition unpack_str (h : huffman) (b : bb) : res (str * bb) :=
  let* (s, b) := decode_from_bb h b true 0 in
  Ok (s, bb_advance b).

(** ** Operations *)

(** g_opcodes, lines 295-304: toggle, toggle a range, clone, store; each one
    stored ([false]) or ephemeral ([true]). *)
Inductive opkind := Toggl | Trang | Clone | Kvsto.
Definition opcode := (opkind * bool)%type.
Definition opcode_val (c : opcode) : N :=
  (match fst c with Toggl => 0 | Trang => 2 | Clone => 4 | Kvsto => 6 end) + (if snd c then 1 else 0).
Definition opcode_to_op (v : N) : res opcode :=
  match v with
  | 0 => Ok (Toggl, false) | 1 => Ok (Toggl, true) | 2 => Ok (Trang, false) | 3 => Ok (Trang, true)
  | 4 => Ok (Clone, false) | 5 => Ok (Clone, true) | 6 => Ok (Kvsto, false) | 7 => Ok (Kvsto, true)
  | _ => Err KeyError
  end.

Inductive op :=
| OToggl (e : bool) (index : Z)
| OTrang (e : bool) (index index_start : Z)
| OClone (e : bool) (index : Z) (val : str)
| OKvsto (e : bool) (key val : str).

(** WriteOpData, lines 522-538: the fields in the order of g_packing_order. *)
Definition write_op (w : iwidth) (h : huffman) (b : bb) (o : op) : res bb :=
  match o with
  | OToggl _ i => pack_index w b i
  | OTrang _ i s => let* b := pack_index w b i in pack_index w b s
  | OClone _ i v => let* b := pack_index w b i in pack_str h b v
  | OKvsto _ k v => let* b := pack_str h b k in pack_str h b v
  end.

(** The inner loop of OutputOps, lines 514-520. *)
Fixpoint write_ops (w : iwidth) (h : huffman) (b : bb) (ops : list op) : res bb :=
  match ops with
  | [] => Ok b
  | o :: r => let* b := write_op w h b o in write_ops w h b r
  end.

(** OutputOps, lines 487-520. *)
Fixpoint output_ops (fuel : nat) (w : iwidth) (h : huffman) (b : bb) (ops : list op) (c : opcode) : res bb :=
  match ops with
  | [] => Ok b
  | _ =>
    match fuel with
    | O => Err Diverge
    | S f =>
        let to_go := Nat.min (length ops) 16 in
        let* b := bb_store8 b (N.lor (N.shiftl (opcode_val c) 4) (N.land (N.of_nat to_go - 1) 15)) in
        let* b := write_ops w h b (firstn to_go ops) in
        output_ops f w h b (skipn to_go ops) c
    end
  end.

Definition instructions := list (opcode * list op).

(** Lines 583-584. *)
Fixpoint output_all (w : iwidth) (h : huffman) (b : bb) (is : instructions) : res bb :=
  match is with
  | [] => Ok b
  | (c, ops) :: r => let* b := output_ops (length ops) w h b ops c in output_all w h b r
  end.

(** WriteControlFrameBoilerplate, lines 540-558; the stream id has no top bit. *)
Definition boilerplate (b : bb) (frame_len flags stream_id group_id frame_type : N) : res bb :=
  let* b := bb_store16 b frame_len in
  let* b := bb_store8 b frame_type in
  let* b := bb_store8 b flags in
  let* b := bb_store32 b (N.lor 0x80000000 stream_id) in
  bb_store8 b group_id.

(** The loop of lines 599-613: [payload] octets of which [plen] are to be sent.
    It ends because [allowed] is positive. *)
Fixpoint frames (fuel : nat) (b : bb) (payload : list N) (plen allowed : N) (stream_id group_id : N) : res bb :=
  match fuel with
  | O => Err Diverge
  | S f =>
      let consume := N.min plen allowed in
      let* b := boilerplate b consume (if consume <=? plen then 1 else 0) stream_id group_id 8 in
      let* b := bb_store b payload (8 * N.to_nat consume)%nat in
      let payload := skipn (N.to_nat consume) payload in
      (* payload_len -= bytes_allowed; if payload_len <= 0: break *)
      if plen <=? allowed then Ok b else frames f b payload (plen - allowed) allowed stream_id group_id
  end.

(** SerializeInstructions, lines 560-618. *)
Definition serialize (w : iwidth) (h : huffman) (is : instructions) (stream_id group_id : N) : res bb :=
  let* pb := output_all w h bb_new is in
  let (payload, nbits) := bb_all pb in
  let plen := N.of_nat ((nbits + 7) / 8)%nat in
  let* fb := boilerplate bb_new 0 0 0 group_id 0 in
  let allowed := 65536 - N.of_nat (bb_bytes fb) in
  frames (S (length payload)) bb_new payload plen allowed stream_id group_id.

(** OpsToRealOps, lines 873-883, and Compress, lines 895-898: the octets. *)
Definition to_wire (w : iwidth) (h : huffman) (is : instructions) (group_id : N) : res str :=
  let* b := serialize w h is 0xffff group_id in
  let (o, n) := bb_all b in
  let* d := bb_store bb_new o n in
  Ok (fst (bb_all d)).

(** ** Reading *)

(** One operation, lines 652-659. *)
Definition read_op (w : iwidth) (h : huffman) (c : opcode) (b : bb) : res (op * bb) :=
  let (k, e) := c in
  match k with
  | Toggl => let* (i, b) := unpack_index w b in Ok (OToggl e i, b)
  | Trang => let* (i, b) := unpack_index w b in let* (s, b) := unpack_index w b in Ok (OTrang e i s, b)
  | Clone => let* (i, b) := unpack_index w b in let* (v, b) := unpack_str h b in Ok (OClone e i v, b)
  | Kvsto => let* (k, b) := unpack_str h b in let* (v, b) := unpack_str h b in Ok (OKvsto e k v, b)
  end.

(** The loop of lines 651-663: the operations appended so far survive an
    exception. *)
Fixpoint read_ops (n : nat) (w : iwidth) (h : huffman) (c : opcode) (b : bb) (ops : list op) : list op * res bb :=
  match n with
  | O => (ops, Ok b)
  | S m => match read_op w h c b with
           | Err e => (ops, Err e)
           | Ok (o, b) => read_ops m w h c b (ops ++ [o])
           end
  end.

(** Lines 645-664: the body of the try statement. *)
Definition read_chunk (w : iwidth) (h : huffman) (b : bb) (ops : list op) : list op * res bb :=
  match bb_get8 b with
  | Err e => (ops, Err e)
  | Ok (v, b) =>
      match opcode_to_op (N.shiftr v 4) with
      | Err e => (ops, Err e)
      | Ok c => read_ops (S (N.to_nat (N.land v 15))) w h c b ops
      end
  end.

(** BitsRemaining, lines 154-158 of bit_bucket.py, without the final -1 (only differences
    are used) and for buckets that were not read beyond their end. *)
Definition bb_remaining (b : bb) : nat := (bb_num b - (8 * bb_ibyte b + bb_iboff b))%nat.

(** The loop of lines 642-671.  It ends normally or by an exception that lines
    670-671 swallow; [Ok b] tells where the bucket then stands, [Err e] that the
    exception [e] left it somewhere inside an operation.  An unknown opcode
    (KeyError, line 648) leaves it after the octet read in line 645.  Every turn
    reads eight bits or raises. *)
Fixpoint read_frame (fuel : nat) (w : iwidth) (h : huffman) (frame_len : Z) (b : bb) (ops : list op) : res (list op * res bb) :=
  if (8 <? frame_len)%Z then
    match fuel with
    | O => Err Diverge
    | S f =>
        match read_chunk w h b ops with
        | (_, Err Diverge) => Err Diverge
        | (ops, Err KeyError) => let* (_, b') := bb_get8 b in Ok (ops, Ok b')
        | (ops, Err e) => Ok (ops, Err e)
        | (ops, Ok b') => read_frame f w h (frame_len - (Z.of_nat (bb_remaining b) - Z.of_nat (bb_remaining b'))) b' ops
        end
    end
  else Ok (ops, Ok b).

(** The loop of lines 631-671.  After a StandardError, raised by a read of at
    most sixteen bits for which not enough were left, the read of sixteen bits in
    line 632 raises it again. *)
Fixpoint read_frames (fuel : nat) (w : iwidth) (h : huffman) (b : bb) (ops : list op) : res (N * list op) :=
  match fuel with
  | O => Err Diverge
  | S f =>
      let* (len, b) := bb_get16 b in
      let* (_, b) := bb_get8 b in
      let* (flags, b) := bb_get8 b in
      let* (_, b) := bb_get32 b in
      let* (group_id, b) := bb_get8 b in
      let* (ops, r) := read_frame (S (bb_num b)) w h (Z.of_N len * 8) b ops in
      if flags =? 0 then
        match r with
        | Ok b => read_frames f w h b ops
        | Err StandardError => Err StandardError
        | Err _ => Err Diverge
        end
      else Ok (group_id, ops)
  end.

(** DeserializeInstructions, lines 620-673. *)
Definition deserialize (w : iwidth) (h : huffman) (frame : bb) : res (N * list op) :=
  let (o, n) := bb_all frame in
  let* b := bb_store bb_new o n in
  read_frames (S (bb_num b)) w h b [].

(** RealOpsToOps, lines 885-893, and Decompress, lines 900-902. *)
Definition from_wire (w : iwidth) (h : huffman) (blob : str) : res (N * list op) :=
  let* b := bb_store bb_new blob (8 * length blob)%nat in
  deserialize w h b.
