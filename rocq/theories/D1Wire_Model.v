(** * Model of delta v1's wire format: compressor/delta/spdy4_codec_impl.py
      lines 117-311, 357-554 and 851-870 (Python 2).

    Line numbers refer to that file.  The BitBucket of compressor/delta/bit_bucket.py has the
    same StoreBits and GetBits as delta2's ([BB_Model]); AdvanceToByteBoundary is
    [bb_advance].  Simplifications:
    - an operation is a dictionary with the fields of its opcode; the model has
      one constructor per opcode;
    - MutateTogglesToToggleRanges turns some dictionaries of instructions['toggl'] into
      ranges in place; the instructions are not used afterwards;
    - sorting those dictionaries (Python 2 compares dictionaries of the same
      length by the smallest key whose values differ, here 'index') is sorting the
      indices;
    - printing is left out. *)
From Coq Require Import List NArith ZArith Bool Arith.
From Verif Require Import PyBase BB_Model D2Huff_Model.
Import ListNotations.
Open Scope N_scope.
Open Scope py_scope.

(** ** Integers and strings *)

(** PackInt, lines 197-217, for bitlen = 16: [val != (val & ~(1 << 16))] says that bit
    16 is set; struct.pack('>H') takes 0..65535. *)
Definition pack_int16 (b : bb) (val : Z) : res bb :=
  if Z.testbit val 16 then Err StandardError
  else if (val <? 0)%Z then Err StructError
  else bb_store16 b (Z.to_N val).

(** UnpackInt, lines 117-141, for bitlen = 16. *)
Definition unpack_int16 (b : bb) : res (Z * bb) := let* (v, b) := bb_get16 b in Ok (Z.of_N v, b).

(** PackStr, lines 219-252, with the parameters of lines 254-255: an end symbol, no
    length, whole octets. *)
Definition pack_str1 (h : huffman) (b : bb) (s : str) : res bb :=
  let* (o, _) := huff_encode h s true in
  bb_store b o (8 * length o)%nat.

(** UnpackStr, lines 143-195, with the same parameters; ListToStr formats each
    symbol with %c, which raises OverflowError from 256 on. *)
Definition unpack_str1 (h : huffman) (b : bb) : res (str * bb) :=
  let* (s, b) := decode_from_bb h b true 0 in
  if forallb (fun c => c <? 256) s then Ok (s, bb_advance b) else Err OverflowError.

(** ** Operations *)

(** opcodes, lines 295-306. *)
Inductive kind := KToggl | KTrang | KClone | KKvsto | KEref.
Definition kind_val (k : kind) : N :=
  match k with KToggl => 1 | KTrang => 2 | KClone => 3 | KKvsto => 4 | KEref => 5 end.
(** opcode_to_op, lines 309-311: KeyError for anything else. *)
Definition val_kind (v : N) : res kind :=
  match v with
  | 1 => Ok KToggl | 2 => Ok KTrang | 3 => Ok KClone | 4 => Ok KKvsto | 5 => Ok KEref
  | _ => Err KeyError
  end.

Inductive op1 :=
| Toggl (index : Z)
| Trang (index index_start : Z)
| Clone (key_idx : Z) (val : str)
| Kvsto (key val : str)
| Eref (key val : str).

(** The dictionary that MakeOperations returns, line 920. *)
Record instr := mk_instr {
  i_toggl : list Z;               (* the indices to toggle *)
  i_clone : list (Z * str);
  i_kvsto : list (str * str);
  i_eref : list (str * str) }.

(** sorted, line 368. *)
Fixpoint insert_z (x : Z) (l : list Z) : list Z :=
  match l with
  | [] => [x]
  | y :: r => if (x <=? y)%Z then x :: l else y :: insert_z x r
  end.
Definition sort_z (l : list Z) : list Z := fold_right insert_z [] l.

(** The loop of lines 371-381; [ot] and [otr] (first, last) are kept in reverse. *)
Fixpoint merge_toggles (ts : list Z) (ot : list Z) (otr : list (Z * Z)) : list Z * list (Z * Z) :=
  match ts with
  | [] => (ot, otr)
  | idx :: ts' =>
      match otr, ot with
      | (s, e) :: otr', _ =>
          if (idx - e =? 1)%Z then merge_toggles ts' ot ((s, idx) :: otr')
          else match ot with
               | t :: ot' => if (idx - t =? 1)%Z then merge_toggles ts' ot' ((t, idx) :: otr)
                             else merge_toggles ts' (idx :: ot) otr
               | [] => merge_toggles ts' [idx] otr
               end
      | [], t :: ot' => if (idx - t =? 1)%Z then merge_toggles ts' ot' [(t, idx)]
                        else merge_toggles ts' (idx :: ot) []
      | [], [] => merge_toggles ts' [idx] []
      end
  end.

(** MutateTogglesToToggleRanges, lines 361-382: single toggles and ranges (first,
    last). *)
Definition toggle_ranges (toggl : list Z) : list Z * list (Z * Z) :=
  let (ot, otr) := merge_toggles (sort_z toggl) [] [] in (rev ot, rev otr).

(** ** Writing *)

(** WriteOpData, lines 418-434: the fields in the order of packing_order, lines
    286-292. *)
Definition write_op1 (h : huffman) (b : bb) (o : op1) : res bb :=
  match o with
  | Toggl i => pack_int16 b i
  | Trang i s => let* b := pack_int16 b i in pack_int16 b s
  | Clone i v => let* b := pack_int16 b i in pack_str1 h b v
  | Kvsto k v | Eref k v => let* b := pack_str1 h b k in pack_str1 h b v
  end.
Fixpoint write_ops1 (h : huffman) (b : bb) (ops : list op1) : res bb :=
  match ops with
  | [] => Ok b
  | o :: r => let* b := write_op1 h b o in write_ops1 h b r
  end.

(** OutputOps, lines 384-416.  The inner loop runs over all operations that
    are left, not just over the 256 announced, so the outer one runs once. *)
Definition output_ops1 (h : huffman) (b : bb) (ops : list op1) (k : kind) : res bb :=
  match ops with
  | [] => Ok b
  | _ =>
      let* b := bb_store8 b (kind_val k) in
      let* b := bb_store8 b (N.min 256 (lenN ops) - 1) in
      write_ops1 h b ops
  end.

(** The operations of each kind, as written by lines 470-479. *)
Definition wire_kinds (i : instr) : list (kind * list op1) :=
  let (ot, otr) := toggle_ranges (i_toggl i) in
  [(KToggl, map Toggl ot); (KTrang, map (fun '(s, e) => Trang e s) otr);
   (KClone, map (fun '(k, v) => Clone k v) (i_clone i));
   (KKvsto, map (fun '(k, v) => Kvsto k v) (i_kvsto i));
   (KEref, map (fun '(k, v) => Eref k v) (i_eref i))].
Fixpoint output_kinds (h : huffman) (b : bb) (l : list (kind * list op1)) : res bb :=
  match l with
  | [] => Ok b
  | (k, ops) :: r => let* b := output_ops1 h b ops k in output_kinds h b r
  end.

(** WriteControlFrameBoilerplate, lines 436-455; the stream ids used (0 and 1234)
    have no top bit. *)
Definition boilerplate1 (b : bb) (frame_len flags stream_id group_id frame_type : N) : res bb :=
  let* b := bb_store16 b frame_len in
  let* b := bb_store8 b flags in
  let* b := bb_store32 b (N.lor 0x80000000 stream_id) in
  let* b := bb_store8 b frame_type in
  bb_store8 b group_id.

(** The loop of lines 489-501.  It ends because [allowed] is positive. *)
Fixpoint frames1 (fuel : nat) (b : bb) (payload : list N) (plen allowed : N) (stream_id group_id : N) : res bb :=
  match fuel with
  | O => Err Diverge
  | S f =>
      let consume := N.min plen allowed in
      let* b := boilerplate1 b consume (if consume <=? plen then 1 else 0) stream_id group_id 8 in
      let* b := bb_store b payload (8 * N.to_nat consume)%nat in
      let payload := skipn (N.to_nat consume) payload in
      if plen <=? allowed then Ok b else frames1 f b payload (plen - allowed) allowed stream_id group_id
  end.

(** SerializeInstructions, lines 457-502. *)
Definition serialize1 (h : huffman) (i : instr) (stream_id group_id : N) : res bb :=
  let* pb := output_kinds h bb_new (wire_kinds i) in
  let (payload, nbits) := bb_all pb in
  let plen := N.of_nat ((nbits + 7) / 8)%nat in
  let* fb := boilerplate1 bb_new 0 0 0 group_id 0 in
  let allowed := 65536 - N.of_nat (bb_bytes fb) in
  frames1 (S (length payload)) bb_new payload plen allowed stream_id group_id.

(** OpsToRealOps, lines 851-855, with PackOps, lines 269-276, and Compress. *)
Definition to_wire1 (h : huffman) (i : instr) (group_id : N) : res str :=
  let* b := serialize1 h i 1234 group_id in
  let (o, n) := bb_all b in
  let* d := bb_store bb_new o n in
  Ok (fst (bb_all d)).

(** ** Reading *)

(** The fields of one operation, lines 535-545. *)
Definition read_op1 (h : huffman) (k : kind) (b : bb) : res (op1 * bb) :=
  match k with
  | KToggl => let* (i, b) := unpack_int16 b in Ok (Toggl i, b)
  | KTrang => let* (i, b) := unpack_int16 b in let* (s, b) := unpack_int16 b in Ok (Trang i s, b)
  | KClone => let* (i, b) := unpack_int16 b in let* (v, b) := unpack_str1 h b in Ok (Clone i v, b)
  | KKvsto => let* (k, b) := unpack_str1 h b in let* (v, b) := unpack_str1 h b in Ok (Kvsto k v, b)
  | KEref => let* (k, b) := unpack_str1 h b in let* (v, b) := unpack_str1 h b in Ok (Eref k v, b)
  end.
Fixpoint read_ops1 (n : nat) (h : huffman) (k : kind) (b : bb) : res (list op1 * bb) :=
  match n with
  | O => Ok ([], b)
  | S m =>
      let* (o, b) := read_op1 h k b in
      let* (ops, b) := read_ops1 m h k b in
      Ok (o :: ops, b)
  end.

(** Lines 527-545. *)
Definition read_chunk1 (h : huffman) (b : bb) : res (list op1 * bb) :=
  let* (v, b) := bb_get8 b in
  let* (c, b) := bb_get8 b in
  let* k := val_kind v in
  read_ops1 (S (N.to_nat c)) h k b.

(** BitsRemaining, up to a constant: only differences are used.  The position
    may lie beyond the end after AdvanceToByteBoundary. *)
Definition remaining (b : bb) : Z := (Z.of_nat (bb_num b) - (8 * Z.of_nat (bb_ibyte b) + Z.of_nat (bb_iboff b)))%Z.

(** The loop of lines 525-551.  Every turn reads sixteen bits or raises. *)
Fixpoint read_frame1 (fuel : nat) (h : huffman) (frame_len : Z) (b : bb) (ops : list op1) : res (list op1 * bb) :=
  if (16 <? frame_len)%Z then
    match fuel with
    | O => Err Diverge
    | S f =>
        let* (l, b') := read_chunk1 h b in
        read_frame1 f h (frame_len - (remaining b - remaining b')) b' (ops ++ l)
    end
  else Ok (ops, b).

(** The loop of lines 514-551. *)
Fixpoint read_frames1 (fuel : nat) (h : huffman) (b : bb) (ops : list op1) : res (N * list op1) :=
  match fuel with
  | O => Err Diverge
  | S f =>
      let* (len, b) := bb_get16 b in
      let* (flags, b) := bb_get8 b in
      let* (_, b) := bb_get32 b in
      let* (_, b) := bb_get8 b in
      let* (group_id, b) := bb_get8 b in
      let* (ops, b) := read_frame1 (S (bb_num b)) h (Z.of_N len * 8) b ops in
      if flags =? 0 then read_frames1 f h b ops else Ok (group_id, ops)
  end.

(** DeserializeInstructions, lines 504-554. *)
Definition deserialize1 (h : huffman) (frame : bb) : res (N * list op1) :=
  let (o, n) := bb_all frame in
  let* b := bb_store bb_new o n in
  read_frames1 (S (bb_num b)) h b [].

(** RealOpsToOps, lines 857-861, and Decompress. *)
Definition from_wire1 (h : huffman) (blob : str) : res (N * list op1) :=
  let* b := bb_store bb_new blob (8 * length blob)%nat in
  deserialize1 h b.
