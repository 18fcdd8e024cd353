(** * Model of compressor/http2/http2Codec.py (Python 2).

    Line numbers refer to /repo/compressor/http2/http2Codec.py.  The text
    follows the code branch by branch.  Simplifications:
    - the encoder only ever asks for the representations INDEXED,
      LITERAL_NOT_INDEXED and LITERAL_INCREMENTAL (determine_representation
      returns no other), so the dead substitution branch of encode_header
      (lines 377-395) is left out of [encode_header];
    - the encoder object and the decoder object of the class are two records
      (the code never mixes the encoder_* and decoder_* attributes). *)
From Coq Require Import String List NArith ZArith Bool.
From Verif Require Import PyBase.
Import ListNotations.
Open Scope N_scope.
Open Scope py_scope.

Definition header := (str * str)%type.

Definition header_eqb (a b : header) : bool :=
  str_eqb (fst a) (fst b) && str_eqb (snd a) (snd b).

(** class HeaderEntry, lines 31-39. *)
Record entry := mkEntry { e_hdr : header; e_age : nat; e_ref : bool; e_emit : bool }.

(** HeaderEntry.__init__ (age starts at 0), lines 35-39. *)
Definition new_entry (h : header) (ref emit : bool) : entry := mkEntry h 0 ref emit.

Definition set_ref (b : bool) (e : entry) : entry := mkEntry (e_hdr e) (e_age e) b (e_emit e).
Definition set_emit (b : bool) (e : entry) : entry := mkEntry (e_hdr e) (e_age e) (e_ref e) b.
Definition set_both (r m : bool) (e : entry) : entry := mkEntry (e_hdr e) (e_age e) r m.

(** entry_len, lines 88-91. *)
Definition entry_len (h : header) : Z :=
  (Z.of_nat (length (fst h)) + Z.of_nat (length (snd h)) + 32)%Z.

(** MAX_VALUES, lines 539-549: a dict, other keys raise KeyError. *)
Definition MAX_VALUES (prefix : N) : res N :=
  match prefix with
  | 0 => Ok 0 | 1 => Ok 1 | 2 => Ok 3 | 3 => Ok 7 | 4 => Ok 15 | 5 => Ok 31
  | 6 => Ok 63 | 7 => Ok 127 | 8 => Ok 255 | 14 => Ok 16383
  | _ => Err KeyError
  end.

(** DEFAULT_REQUEST_HEADERS / DEFAULT_RESPONSE_HEADERS, lines 473-537. *)
Definition DEFAULT_REQUEST_HEADERS : list header := [
  (lit ":scheme", lit "http"); (lit ":scheme", lit "https"); (lit ":host", lit "");
  (lit ":path", lit "/"); (lit ":method", lit "get"); (lit "accept", lit "");
  (lit "accept-charset", lit ""); (lit "accept-encoding", lit ""); (lit "accept-language", lit "");
  (lit "cookie", lit ""); (lit "if-modified-since", lit ""); (lit "user-agent", lit "");
  (lit "referer", lit ""); (lit "authorization", lit ""); (lit "allow", lit "");
  (lit "cache-control", lit ""); (lit "connection", lit ""); (lit "content-length", lit "");
  (lit "content-type", lit ""); (lit "date", lit ""); (lit "expect", lit ""); (lit "from", lit "");
  (lit "if-match", lit ""); (lit "if-none-match", lit ""); (lit "if-range", lit "");
  (lit "if-unmodified-since", lit ""); (lit "max-forwards", lit "");
  (lit "proxy-authorization", lit ""); (lit "range", lit ""); (lit "via", lit "") ].

Definition DEFAULT_RESPONSE_HEADERS : list header := [
  (lit ":status", lit "200"); (lit "age", lit ""); (lit "cache-control", lit "");
  (lit "content-length", lit ""); (lit "content-type", lit ""); (lit "date", lit "");
  (lit "etag", lit ""); (lit "expires", lit ""); (lit "last-modified", lit "");
  (lit "server", lit ""); (lit "set-cookie", lit ""); (lit "vary", lit ""); (lit "via", lit "");
  (lit "access-control-allow-origin", lit ""); (lit "accept-ranges", lit ""); (lit "allow", lit "");
  (lit "connection", lit ""); (lit "content-disposition", lit ""); (lit "content-encoding", lit "");
  (lit "content-language", lit ""); (lit "content-location", lit ""); (lit "content-range", lit "");
  (lit "link", lit ""); (lit "location", lit ""); (lit "proxy-authenticate", lit "");
  (lit "refresh", lit ""); (lit "retry-after", lit ""); (lit "strict-transport-security", lit "");
  (lit "transfer-encoding", lit ""); (lit "www-authenticate", lit "") ].

(** ** Integers *)

(** The [while value > 0] loop of write_integer, lines 456-463. *)
Fixpoint write_digits (fuel : nat) (value : N) : res str :=
  if value =? 0 then Ok []
  else match fuel with
       | O => Err Diverge
       | S f =>
           let q := N.shiftr value 7 in
           let byte := if 0 <? q then 128 else 0 in
           let* b := pack_B (N.lor byte (N.land value 127)) in
           let* r := write_digits f q in
           Ok (b ++ r)
       end.

(** write_integer, lines 439-463: the bytes appended to encoded_stream. *)
Definition write_integer (byte prefix value : N) : res str :=
  let* m := MAX_VALUES prefix in
  if value <? m then
    if prefix <=? 8 then pack_B (byte + value)
    else
      let byte := N.lor byte (N.shiftr value 8) in
      let byte := N.lor (N.shiftl byte 8) (N.land value 255) in
      pack_H byte
  else
    let* b0 := (if 0 <? prefix then pack_B (byte + m) else Ok []) in
    let value := value - m in
    if value =? 0 then
      let* b1 := pack_B 0 in Ok (b0 ++ b1)
    else
      let* ds := write_digits (N.to_nat (N.size value)) value in
      Ok (b0 ++ ds).

(** write_literal_string, lines 465-468. *)
Definition write_literal_string (value : str) : res str :=
  let* b := write_integer 0 0 (lenN value) in Ok (b ++ value).

(** read_next_byte, lines 213-217; the reader state is the unread suffix. *)
Definition read_next_byte (s : str) : res (N * str) :=
  match s with [] => Err IndexError | b :: r => Ok (b, r) end.

(** The continuation loop of read_integer, lines 229-235, entered with the
    byte [b] just read; structural in the unread suffix. *)
Fixpoint read_digits (b value shift : N) (s : str) : res (N * str) :=
  if 0 <? N.land b 128 then
    match s with
    | [] => Err IndexError
    | b' :: r => read_digits b' (value + N.shiftl (N.land b 127) shift) (shift + 7) r
    end
  else Ok (value + N.shiftl (N.land b 127) shift, s).

(** read_integer, lines 219-237. *)
Definition read_integer (byte prefix : N) (s : str) : res (N * str) :=
  let* m := MAX_VALUES prefix in
  let* (value, s) :=
    (if prefix <=? 8 then Ok (N.land byte m, s)
     else
       let* m8 := MAX_VALUES (prefix - 8) in
       let* (b, s) := read_next_byte s in
       Ok (N.lor (N.shiftl (N.land byte m8) 8) b, s)) in
  if value =? m then
    let* (b, s) := read_next_byte s in
    read_digits b value 0 s
  else Ok (value, s).

(** read_literal_string, lines 239-246: a short input is truncated silently. *)
Definition read_literal_string (s : str) : res (str * str) :=
  let* (n, s) := read_integer 0 0 s in
  Ok (takeN n s, dropN n s).

(** ** Decoder *)

(** decoder_table, decoder_table_size. *)
Record decoder := mkDec { d_tbl : list entry; d_size : Z }.

(** The eviction loop of append_decoded_header, lines 101-105. *)
Fixpoint dec_evict (max size : Z) (t : list entry) (tsize : Z) : list entry * Z :=
  match t with
  | [] => ([], tsize)
  | e :: t' =>
      if (tsize + size >? max)%Z then dec_evict max size t' (tsize - entry_len (e_hdr e))
      else (t, tsize)
  end.

(** append_decoded_header, lines 96-111. *)
Definition append_decoded_header (max : Z) (e : entry) (d : decoder) : decoder :=
  let size := entry_len (e_hdr e) in
  let '(t, ts) := dec_evict max size (d_tbl d) (d_size d) in
  if (ts + size <=? max)%Z then mkDec (t ++ [e]) (ts + size) else mkDec t ts.

(** The eviction loop of insert_decoded_header, lines 121-129. *)
Fixpoint ins_evict (max rsize : Z) (size idx : Z) (t : list entry) (tsize : Z)
  : Z * Z * list entry * Z :=
  match t with
  | [] => (size, idx, [], tsize)
  | e :: t' =>
      if (tsize + size >? max)%Z then
        let idx := (idx - 1)%Z in
        let size := (if idx =? -1 then size + rsize else size)%Z in
        ins_evict max rsize size idx t' (tsize - entry_len (e_hdr e))
      else (size, idx, t, tsize)
  end.

(** [l.insert(i, x)] of Python for any integer [i]. *)
Definition py_insert {A} (i : Z) (x : A) (l : list A) : list A :=
  let n := Z.of_nat (length l) in
  let i := (if i <? 0 then Z.max 0 (i + n) else Z.min i n)%Z in
  firstn (Z.to_nat i) l ++ x :: skipn (Z.to_nat i) l.

(** insert_decoded_header, lines 113-138. *)
Definition insert_decoded_header (max : Z) (e : entry) (index : N) (d : decoder) : res decoder :=
  match nthN (d_tbl d) index with
  | None => Err IndexError
  | Some old =>
      let rsize := entry_len (e_hdr old) in
      let size := (entry_len (e_hdr e) - rsize)%Z in
      let '(size, idx, t, ts) :=
        ins_evict max rsize size (Z.of_N index) (d_tbl d) (d_size d) in
      if (ts + size <=? max)%Z then
        if (0 <=? idx)%Z then Ok (mkDec (update_nth (Z.to_nat idx) (fun _ => e) t) (ts + size))
        else Ok (mkDec (py_insert idx e t) (ts + size))
      else Ok (mkDec t ts)
  end.

Inductive lit_mode := SUBSTITUTION | NOT_INDEXED | INCREMENTAL.

(** One iteration of the main loop of decode_headers, lines 153-203, after
    the first byte has been read: new decoder, headers emitted, unread bytes.
    An exception leaves the decoder as it was (all table changes of an
    iteration happen after its last read). *)
Definition decode_one (max : Z) (d : decoder) (byte : N) (s : str)
  : res (decoder * list header * str) :=
  if 0 <? N.land byte 128 then
    let* (index, s) := read_integer byte 7 s in
    match nthN (d_tbl d) index with
    | None => Err IndexError
    | Some e =>
        if e_ref e then
          Ok (mkDec (update_nth (N.to_nat index) (set_both false false) (d_tbl d)) (d_size d), [], s)
        else
          Ok (mkDec (update_nth (N.to_nat index) (set_both true true) (d_tbl d)) (d_size d),
              [e_hdr e], s)
    end
  else
    let* (mode, name_index, s) :=
      (if N.land byte 192 =? 0 then
         let* (i, s) := read_integer byte 6 s in Ok (SUBSTITUTION, i, s)
       else if N.land byte 224 =? 96 then
         let* (i, s) := read_integer byte 5 s in Ok (NOT_INDEXED, i, s)
       else
         let* (i, s) := read_integer byte 5 s in Ok (INCREMENTAL, i, s)) in
    let* (name, s) :=
      (if name_index =? 0 then read_literal_string s
       else match nthN (d_tbl d) (name_index - 1) with
            | None => Err IndexError
            | Some e => Ok (fst (e_hdr e), s)
            end) in
    let* (reference_index, s) :=
      (match mode with SUBSTITUTION => read_integer 0 0 s | _ => Ok (0, s) end) in
    let* (value, s) := read_literal_string s in
    match mode with
    | INCREMENTAL =>
        Ok (append_decoded_header max (new_entry (name, value) true true) d, [(name, value)], s)
    | SUBSTITUTION =>
        let* d := insert_decoded_header max (new_entry (name, value) true true) reference_index d in
        Ok (d, [(name, value)], s)
    | NOT_INDEXED => Ok (d, [(name, value)], s)
    end.

(** The main loop of decode_headers, lines 153-203.  Every iteration reads
    at least one byte, so the number of unread bytes is enough fuel.  The
    decoder is returned also when an exception is raised. *)
Fixpoint decode_loop (fuel : nat) (max : Z) (d : decoder) (acc : list header) (s : str)
  : decoder * res (list header) :=
  match s with
  | [] => (d, Ok acc)
  | byte :: s' =>
      match fuel with
      | O => (d, Err Diverge)
      | S f =>
          match decode_one max d byte s' with
          | Err e => (d, Err e)
          | Ok (d', hs, s'') => decode_loop f max d' (acc ++ hs) s''
          end
      end
  end.

(** decode_headers, lines 140-211. *)
Definition decode_headers (max : Z) (d : decoder) (stream : str) : decoder * res (list header) :=
  let body := skipn 8 stream in
  let d := mkDec (map (set_emit false) (d_tbl d)) (d_size d) in
  match decode_loop (length body) max d [] body with
  | (d, Err e) => (d, Err e)
  | (d, Ok hs) =>
      (d, Ok (hs ++ map e_hdr (filter (fun e => e_ref e && negb (e_emit e)) (d_tbl d))))
  end.

(** ** Encoder *)

(** encoder_table, encoder_table_size. *)
Record encoder := mkEnc { c_tbl : list entry; c_size : Z }.

(** find_header, lines 251-256 (-1 is [None]). *)
Fixpoint find_header (h : header) (t : list entry) : option nat :=
  match t with
  | [] => None
  | e :: t' => if header_eqb h (e_hdr e) then Some O else option_map S (find_header h t')
  end.

(** find_header_name, lines 258-264. *)
Fixpoint find_header_name (h : header) (t : list entry) : option nat :=
  match t with
  | [] => None
  | e :: t' => if str_eqb (fst h) (fst (e_hdr e)) then Some O
               else option_map S (find_header_name h t')
  end.

(** update_encoder_table, lines 266-273. *)
Definition update_entry (e : entry) : entry :=
  mkEntry (e_hdr e) (if e_ref e then O else S (e_age e)) (e_ref e) false.
Definition update_encoder_table (t : list entry) : list entry := map update_entry t.

(** The loop over the headers in compute_diff, lines 290-304. *)
Fixpoint diff_loop (hs : list header) (t : list entry) (kept remaining : list header)
  : list entry * list header * list header :=
  match hs with
  | [] => (t, kept, remaining)
  | h :: hs' =>
      match find_header h t with
      | None => diff_loop hs' t kept (remaining ++ [h])
      | Some i =>
          match nth_error t i with
          | None => diff_loop hs' t kept (remaining ++ [h]) (* impossible *)
          | Some e =>
              if e_ref e then
                if e_emit e then diff_loop hs' t kept (remaining ++ [h])
                else diff_loop hs' (update_nth i (set_emit true) t) (kept ++ [h]) remaining
              else diff_loop hs' t kept (remaining ++ [h])
          end
      end
  end.

(** The second loop of compute_diff, lines 307-313: indices of referenced
    entries that were not marked. *)
Fixpoint removed_from (i : nat) (t : list entry) : list nat :=
  match t with
  | [] => []
  | e :: t' => if e_ref e && negb (e_emit e) then i :: removed_from (S i) t'
               else removed_from (S i) t'
  end.

(** Resetting of marks in the same loop, line 313. *)
Definition unmark (e : entry) : entry := if e_ref e then set_emit false e else e.

(** compute_diff, lines 275-315: removed indices, kept headers, remaining
    headers, and the table after the marking. *)
Definition compute_diff (hs : list header) (t : list entry)
  : list nat * list header * list header * list entry :=
  let t0 := map (set_emit false) t in
  let '(t1, kept, remaining) := diff_loop hs t0 [] [] in
  (removed_from 0 t1, kept, remaining, map unmark t1).

(** The eviction loop of append_encoded_header, lines 320-323. *)
Fixpoint enc_evict (max size : Z) (t : list entry) (tsize : Z) : list entry * Z :=
  match t with
  | [] => ([], tsize)
  | e :: t' =>
      if (tsize + size >? max)%Z then enc_evict max size t' (tsize - entry_len (e_hdr e))
      else (t, tsize)
  end.

(** append_encoded_header, lines 317-327. *)
Definition append_encoded_header (max : Z) (e : entry) (c : encoder) : encoder :=
  let size := entry_len (e_hdr e) in
  let '(t, ts) := enc_evict max size (c_tbl c) (c_size c) in
  if (ts + size <=? max)%Z then mkEnc (t ++ [e]) (ts + size) else mkEnc t ts.

Inductive repr := INDEXED (i : nat) | LIT_NOT_INDEXED | LIT_INCREMENTAL.

(** determine_representation, lines 329-341. *)
Definition determine_representation (h : header) (t : list entry) : repr :=
  match find_header h t with
  | Some i => INDEXED i
  | None => if str_eqb (fst h) (lit ":path") then LIT_NOT_INDEXED else LIT_INCREMENTAL
  end.

(** [name_index + 1], where name_index is -1 when absent. *)
Definition name_code (o : option nat) : N := match o with None => 0 | Some i => N.of_nat i + 1 end.

(** The literal part shared by lines 361-364 and 368-371. *)
Definition write_literal (byte : N) (h : header) (t : list entry) : res str :=
  let ni := find_header_name h t in
  let* b := write_integer byte 5 (name_code ni) in
  let* n := (match ni with None => write_literal_string (fst h) | Some _ => Ok [] end) in
  let* v := write_literal_string (snd h) in
  Ok (b ++ n ++ v).

(** encode_header, lines 343-375: new encoder and the bytes written. *)
Definition encode_header (max : Z) (h : header) (c : encoder) : res (encoder * str) :=
  match determine_representation h (c_tbl c) with
  | INDEXED i =>
      match nth_error (c_tbl c) i with
      | None => Err IndexError (* impossible *)
      | Some e =>
          let* b1 := (if e_ref e then write_integer 128 7 (N.of_nat i) else Ok []) in
          let* b2 := write_integer 128 7 (N.of_nat i) in
          Ok (mkEnc (update_nth i (set_both true true) (c_tbl c)) (c_size c), b1 ++ b2)
      end
  | LIT_NOT_INDEXED =>
      let* b := write_literal 96 h (c_tbl c) in Ok (c, b)
  | LIT_INCREMENTAL =>
      let* b := write_literal 64 h (c_tbl c) in
      Ok (append_encoded_header max (new_entry h true true) c, b)
  end.

(** Lines 412-416: the removed headers. *)
Fixpoint encode_removed (ix : list nat) (c : encoder) : res (encoder * str) :=
  match ix with
  | [] => Ok (c, [])
  | i :: ix' =>
      let* b := write_integer 128 7 (N.of_nat i) in
      let* (c, r) := encode_removed ix'
          (mkEnc (update_nth i (set_both false false) (c_tbl c)) (c_size c)) in
      Ok (c, b ++ r)
  end.

(** Lines 419-420: the remaining headers. *)
Fixpoint encode_remaining (max : Z) (hs : list header) (c : encoder) : res (encoder * str) :=
  match hs with
  | [] => Ok (c, [])
  | h :: hs' =>
      let* (c, b) := encode_header max h c in
      let* (c, r) := encode_remaining max hs' c in
      Ok (c, b ++ r)
  end.

(** The inner [for] of lines 427-432; the list remaining_headers that it
    builds is never used and is left out. *)
Fixpoint reencode_pass (max : Z) (kept : list header) (c : encoder) (encoded : bool)
  : res (encoder * str * bool) :=
  match kept with
  | [] => Ok (c, [], encoded)
  | h :: kept' =>
      match find_header h (c_tbl c) with
      | None =>
          let* (c, b) := encode_header max h c in
          let* (c, r, encoded) := reencode_pass max kept' c true in
          Ok (c, b ++ r, encoded)
      | Some _ => reencode_pass max kept' c encoded
      end
  end.

(** The [while referenced_headers and encoded_headers] loop, lines 423-432. *)
Fixpoint reencode_loop (fuel : nat) (max : Z) (kept : list header) (encoded : bool) (c : encoder)
  : res (encoder * str) :=
  match kept with
  | [] => Ok (c, [])
  | _ =>
      if encoded then
        match fuel with
        | O => Err Diverge
        | S f =>
            let* (c, b, encoded) := reencode_pass max kept c false in
            let* (c, r) := reencode_loop f max kept encoded c in
            Ok (c, b ++ r)
        end
      else Ok (c, [])
  end.

(** pack("!HBBL", n, 0, 0, 0), line 436. *)
Definition frame_header (n : N) : res str :=
  let* b := pack_H n in Ok (b ++ [0; 0; 0; 0; 0; 0]).

(** encode_headers, lines 400-437. *)
Definition encode_headers (fuel : nat) (max : Z) (hs : list header) (c : encoder)
  : res (encoder * str) :=
  let '(removed, kept, remaining, t) := compute_diff hs (c_tbl c) in
  let c := mkEnc (update_encoder_table t) (c_size c) in
  let* (c, b1) := encode_removed removed c in
  let* (c, b2) := encode_remaining max remaining c in
  let* (c, b3) := reencode_loop fuel max kept true c in
  let stream := b1 ++ b2 ++ b3 in
  let* f := frame_header (lenN stream) in
  Ok (c, f ++ stream).

(** init_codec, lines 60-86. *)
Definition default_headers (is_request : bool) : list header :=
  if is_request then DEFAULT_REQUEST_HEADERS else DEFAULT_RESPONSE_HEADERS.
Definition sum_len (hs : list header) : Z := fold_right (fun h z => (entry_len h + z)%Z) 0%Z hs.
Definition init_encoder (is_request : bool) : encoder :=
  mkEnc (map (fun h => new_entry h false false) (default_headers is_request))
        (sum_len (default_headers is_request)).
Definition init_decoder (is_request : bool) : decoder :=
  mkDec (map (fun h => new_entry h false false) (default_headers is_request))
        (sum_len (default_headers is_request)).
