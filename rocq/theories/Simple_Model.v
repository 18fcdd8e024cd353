(** * Model of compressor/simple/__init__.py and compressor/simple/seven.py.

    [o_din] stands for ["%x" % parse_date(value)] (lines 135 and 216-230; [None]
    when it raises ValueError), [o_dout] for [format_date(int(value, 16))]
    (lines 169 and 232 onwards).  [o_enc] and [o_dec] are the message coders
    chosen on lines 93-104; the zlib ones (lines 198-208) are not modelled.
    [ord] is the iteration order of a dictionary built by the code; the order of
    an input dictionary is that of its list. *)
From Coq Require Import String List NArith ZArith Bool.
From Verif Require Import PyBase PyStr Bits PyMerge Lib_Model H1_Model.
Import ListNotations.
Open Scope N_scope.
Open Scope py_scope.

(** Lines 47-75. *)
Definition s_lookups : dict str :=
  [(lit "x-content-type-options", lit "xct"); (lit "content-encoding", lit "ce");
   (lit "access-control-allow-origin", lit "ac"); (lit "content-type", lit "ct");
   (lit "accept-language", lit "al"); (lit "accept-encoding", lit "ae"); (lit "accept-ranges", lit "ar");
   (lit "user-agent", lit "ua"); (lit "server", lit "s"); (lit "referer", lit "r"); (lit "accept", lit "a");
   (lit "cookie", lit "c"); (lit "last-modified", lit "lm"); (lit "cache-control", lit "cc");
   (lit "pragma", lit "p"); (lit "vary", lit "v"); (lit "date", lit "d"); (lit "expires", lit "x");
   (lit "content-length", lit "cl"); (lit "etag", lit "e"); (lit "content-language", lit "la");
   (lit "via", lit "vi"); (lit "set-cookie", lit "sc"); (lit "p3p", lit "p3");
   (lit "if-modified-since", lit "ims"); (lit "if-none-match", lit "inm"); (lit ":host", lit "h")].

(** Line 92. *)
Definition s_rev_lookups : dict str := map (fun kv : str * str => (snd kv, fst kv)) s_lookups.

(** Lines 77-84. *)
Definition s_date_hdrs : list str := [lit "last-modified"; lit "if-modified-since"; lit "date"; lit "expires"].
Definition s_ignore_hdrs : list str := [lit ":status-text"; lit ":version"].

(** The options of lines 88-111. *)
Record s_opts := mk_s_opts {
  o_enc : str -> str; o_dec : str -> res str;
  o_dates : bool; o_din : str -> option str; o_dout : str -> option str;
  o_max : Z; o_request : bool }.

(** hdr_name, lines 193-196. *)
Definition hdr_name (name : str) : res str :=
  match name with
  | [] => Err IndexError
  | c :: _ => if c =? 58 then Ok name
              else Ok (match dget s_lookups name with Some x => x | None => 33 :: name end)
  end.

Fixpoint hdr_names (l : list str) : res (list str) :=
  match l with
  | [] => Ok []
  | x :: l' => let* y := hdr_name x in let* ys := hdr_names l' in Ok (y :: ys)
  end.

(** [self.last_c and self.last_c.get(name, None) == value and len(refs) < self.max_entries]. *)
Definition s_same (o : s_opts) (last : option hdict) (refs : list str) (name value : str) : bool :=
  match last with
  | Some ((_ :: _) as d) =>
      match dget d name with
      | Some v => str_eqb v value && (Z.of_nat (length refs) <? o_max o)%Z
      | None => false
      end
  | _ => false
  end.

(** Lines 133-137. *)
Definition s_date_in (o : s_opts) (name value : str) : str :=
  if o_dates o && mem_str name s_date_hdrs then
    match o_din o value with Some x => x | None => value end
  else value.

(** The loop body, lines 117-138.  An empty name raises IndexError whichever
    test looks at name[0] first. *)
Definition s_step (o : s_opts) (last : option hdict) (acc : hdict * list str) (kv : str * str) : res (hdict * list str) :=
  let '(headers, refs) := acc in
  let '(name, value) := kv in
  match name with
  | [] => Err IndexError
  | c :: _ =>
      if negb (c =? 58) && s_same o last refs name value then Ok (headers, refs ++ [name])
      else if str_eqb name (lit ":host") && s_same o last refs name value then Ok (headers, refs ++ [lit "h"])
      else if mem_str name s_ignore_hdrs then Ok acc
      else let* n := hdr_name name in Ok (dset headers n (s_date_in o name value), refs)
  end.

Fixpoint s_loop (o : s_opts) (last : option hdict) (items : hdict) (acc : hdict * list str) : res (hdict * list str) :=
  match items with
  | [] => Ok acc
  | kv :: items' => let* acc' := s_step o last acc kv in s_loop o last items' acc'
  end.

(** compress, lines 113-150: the new [last_c] and the message. *)
Definition s_compress (o : s_opts) (ord : hdict -> hdict) (last_c : option hdict) (in_headers : hdict)
  : res (option hdict * str) :=
  let* (headers, refs) := s_loop o last_c in_headers ([], []) in
  let* headers := match refs with
                  | [] => Ok headers
                  | _ => let* ns := hdr_names refs in Ok (dset headers (lit "ref") (join [44] ns))
                  end in
  let headers := match dget headers (lit "h") with
                 | Some v => ddel (dset headers (lit ":host") v) (lit "h")
                 | None => headers
                 end in
  Ok (Some in_headers, o_enc o (format_http1 (ord headers) [10] [58] (lit "h") (lit "H/2"))).

(** The loop body of decompress, lines 157-173. *)
Definition d_step (o : s_opts) (out : hdict) (kv : str * str) : res hdict :=
  let '(name, value) := kv in
  if str_eqb name (lit "ref") then Ok out
  else if str_eqb name (lit ":host") then Ok (dset out (lit "h") value)
  else match name with
  | [] => Err IndexError
  | c :: rest =>
      if c =? 58 then Ok (dset out name value)
      else if c =? 33 then Ok (dset out rest value)
      else match dget s_rev_lookups name with
           | None => Err KeyError
           | Some e =>
               if o_dates o && mem_str e s_date_hdrs then
                 match o_dout o value with
                 | Some x => Ok (dset out e x)
                 | None => Ok (dset out e value)
                 end
               else Ok (dset out e value)
           end
  end.

Fixpoint d_loop (o : s_opts) (items : hdict) (out : hdict) : res hdict :=
  match items with
  | [] => Ok out
  | kv :: items' => let* out' := d_step o out kv in d_loop o items' out'
  end.

(** The references, lines 176-186. *)
Fixpoint d_refs (last : hdict) (refs : list str) (out : hdict) : res hdict :=
  match refs with
  | [] => Ok out
  | ref :: refs' =>
      let* name := match ref with
                   | [] => Err IndexError
                   | c :: rest => if c =? 33 then Ok rest
                                  else match dget s_rev_lookups ref with Some n => Ok n | None => Err KeyError end
                   end in
      match dget last name with
      | None => Err KeyError
      | Some v => d_refs last refs' (dset out name v)
      end
  end.

(** decompress, lines 152-191: the new [last_d] and the headers. *)
Definition s_decompress (o : s_opts) (ord : hdict -> hdict) (last_d : option hdict) (compressed : str)
  : res (option hdict * hdict) :=
  let* text := o_dec o compressed in
  let* headers := parse_http1 text (o_request o) (lit "h") in
  let* out := d_loop o (ord headers) [] in
  let* out := match dget headers (lit "ref"), last_d with
              | Some r, Some ((_ :: _) as l) => d_refs l (split_on 44 r) out
              | _, _ => Ok out
              end in
  Ok (Some out,
      match dget out (lit "h") with
      | Some v => ddel (dset out (lit ":host") v) (lit "h")
      | None => out
      end).

(** A session: every message through the sender's and then the receiver's
    processor, which keep their own state.  [ord i] is the iteration order of the
    [i]-th dictionary iterated over. *)
Fixpoint s_session (o : s_opts) (ord : nat -> hdict -> hdict) (i : nat) (c d : option hdict) (msgs : list hdict)
  : res (list hdict) :=
  match msgs with
  | [] => Ok []
  | m :: ms =>
      let* (c', wire) := s_compress o (ord i) c m in
      let* (d', out) := s_decompress o (ord (S i)) d wire in
      let* outs := s_session o ord (S (S i)) c' d' ms in
      Ok (out :: outs)
  end.

(** ** seven.py

    [bitarray()] is big-endian; [tobytes]/[tostring] pad with zero bits. *)

(** encode, lines 11-21. *)
Definition seven_encode (text : str) : str := bytes_of_bits (flat_map (fun c => skipn 1 (bits_of 8 c)) text).

(** The chunks of the loop of decode, lines 27-32, each with a zero in front. *)
Fixpoint seven_chunks (fuel : nat) (l : list bool) : list bool :=
  match fuel, l with
  | O, _ => []
  | _, [] => []
  | S f, _ => (false :: firstn 7 l) ++ seven_chunks f (skipn 7 l)
  end.

(** decode, lines 23-33: every octet starts with the appended zero, so
    [.encode('ascii')] never raises. *)
Definition seven_decode (bits : str) : str :=
  let ba := bits_of_bytes bits in
  removelast (bytes_of_bits (seven_chunks (length ba) ba)).

(** The two coders of lines 93-95 and 102-104 (without dates). *)
Definition opts_plain (is_request : bool) (max : Z) : s_opts :=
  mk_s_opts (fun a => a) (fun a => Ok a) false (fun _ => None) (fun _ => None) max is_request.
Definition opts_seven (is_request : bool) (max : Z) : s_opts :=
  mk_s_opts seven_encode (fun a => Ok (seven_decode a)) false (fun _ => None) (fun _ => None) max is_request.
