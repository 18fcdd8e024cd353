(** * Model of compressor/bohe: __init__.py (Processor.compress) and bohe.py
      (the encoders of header values), Python 2.

    Line numbers refer to bohe.py unless __init__.py is named.  Simplifications:
    - strings are lists of octets; BitBucket is [BB_Model] with bohe's
      StoreBits22, Huffman is [D1Huff_Model] (bohe/huffman.py differs from
      delta/huffman.py in comments and printing only, and
      bohe/header_freq_tables.py is the same file);
    - what the encoders take from other libraries is a parameter ([library]):
      datetime.strptime, md5, werkzeug's parsers, and the two cookie encoders as a
      whole (BoheCookie_Model models these two);
    - the literal '\u00' of __init__.py lines 46 and 62 is, in a Python-2 byte
      string, the four characters backslash, u, 0, 0;
    - the argument [typ] is never passed by encode (line 250), so the encoders see
      its default 'req'. *)
From Coq Require Import String List NArith ZArith Bool Arith.
From Verif Require Import PyBase PyStr BB_Model D2Huff_Model D1Huff_Model Small_Model.
Import ListNotations.
Open Scope N_scope.
Open Scope py_scope.

(** ID_TABLE, lines 255-313. *)
Definition id_table : list str := map lit [
  ":path"; "accept-language"; "accept-encoding"; "accept"; "user-agent"; ":scheme"; "connection"; ":method";
  ":host"; ":version"; "referer"; "cookie"; "x-requested-with"; "content-length"; "pragma"; "cache-control";
  "content-type"; ":status"; "keep-alive"; "server"; "location"; "date"; ":status-text"; "transfer-encoding";
  "set-cookie"; "expires"; "vary"; "p3p"; "content-encoding"; "x-amz-id-2"; "x-amz-id-1"; "x-amzn-requestid";
  "x-pad"; "nncoection"; "accept-ranges"; "last-modified"; "etag"; "x-frame-options"; "x-sap-pg";
  "if-modified-since"; "via"; "x-cache"; "age"; "x-amz-cf-id"; "cneonction"; "x-cache-lookup"; "x-xss-protection";
  "if-none-match"; "x-amz-request-id"; "x-amz-meta-jets3t-original-file-date-iso8601"; "x-amz-meta-md5-hash";
  "content-location"; "x-ocsp-reponder-id"; "content-transfer-encoding"; "x-content-type-options"; "x-host"; "dl_s"]%string.

(** ID_TABLE.index(k); None stands for [k not in ID_TABLE]. *)
Fixpoint index_of (k : str) (l : list str) : option N :=
  match l with
  | [] => None
  | x :: r => if str_eqb k x then Some 0 else option_map N.succ (index_of k r)
  end.

(** ** Numbers *)

(** int(s) for a text: white space around, one sign, decimal digits. *)
Definition is_digit (c : N) : bool := (48 <=? c) && (c <=? 57).
Definition dec_value (s : str) : Z := fold_left (fun a c => (10 * a + Z.of_N (c - 48))%Z) s 0%Z.
Definition py_int (s : str) : res Z :=
  let digits d := match d with [] => Err ValueError | _ => if forallb is_digit d then Ok (dec_value d) else Err ValueError end in
  match strip is_space s with
  | 43 :: d => digits d
  | 45 :: d => let* n := digits d in Ok (- n)%Z
  | d => digits d
  end.
Fixpoint map_res {A B} (f : A -> res B) (l : list A) : res (list B) :=
  match l with
  | [] => Ok []
  | x :: r => let* y := f x in let* r := map_res f r in Ok (y :: r)
  end.

(** enc_uvarint, lines 34-51, of an integer and of a text.  [uvarint_loop] stops by
    itself: seven bits a turn. *)
Definition uvarint_of (z : Z) : res str :=
  let v := Z.to_N (Z.max 0 z) in uvarint_loop (S (N.to_nat (N.size v))) v.
Fixpoint uvarints (vals : list Z) : res str :=
  match vals with
  | [] => Ok []
  | v :: r => let* a := uvarint_of v in let* b := uvarints r in Ok (a ++ b)
  end.
Definition enc_uvarint (val : str) : res str :=
  match val with
  | [] => uvarint_of 0
  | _ => let* vals := map_res py_int (split_on 0 val) in uvarints vals
  end.

(** ** The encoders *)

Record library := mk_library {
  lib_date : str -> option Z;                     (* epoch(datetime.strptime(val, '%a, ... GMT')), line 24 *)
  lib_md5 : str -> str;                           (* md5.new(val).digest(), line 171 *)
  lib_accept : str -> list (str * bool);          (* http.parse_accept_header(val): values, quality > 0; line 155 *)
  lib_dict : str -> list (str * option str);      (* http.parse_dict_header(val), line 191 *)
  lib_setcookie : str -> res str;                 (* enc_setcookie, lines 54-80 *)
  lib_cookie : str -> res str                     (* enc_cookie, lines 82-95 *)
}.

(** NEW_EPOCH, line 18: 1990-01-01 in seconds since 1970. *)
Definition new_epoch : Z := 631152000.

(** enc_date, lines 21-31.  A bare [except] catches what the inner call raises. *)
Definition enc_date (L : library) (val : str) : res str :=
  match lib_date L val with
  | Some t => uvarint_of (t - new_epoch)
  | None => match py_int val with Ok n => uvarint_of n | Err _ => uvarint_of 0 end
  end.

(** _parse_cache_control, lines 102-109: dict(parts_with_args + parts_wo_args); a later
    entry of the same name replaces an earlier one.  The value 1 of a part without
    argument is [inr 1]. *)
Definition cc_parts (cc : str) : list (str * (str + Z)) :=
  let parts := split_on 44 (map (fun c => if c =? 0 then 44 else c) cc) in
  let word s := lower (strip is_space s) in
  flat_map (fun p => match split_once 61 p with (n, Some v) => [(word n, inl (word v))] | (_, None) => [] end) parts
  ++ flat_map (fun p => match split_once 61 p with (_, Some _) => [] | (n, None) => [(word n, inr 1%Z)] end) parts.
(** The value of a key in dict(l): the last one. *)
Fixpoint last_value {V} (l : list (str * V)) (k : str) : option V :=
  match l with
  | [] => None
  | (k', v) :: r => match last_value r k with Some x => Some x | None => if str_eqb k k' then Some v else None end
  end.
(** enc_uvarint(valOrZero(parts, m)), lines 111-115. *)
Definition cc_number (parts : list (str * (str + Z))) (m : str) : res str :=
  match last_value parts m with
  | Some (inl s) => enc_uvarint s
  | Some (inr n) => uvarint_of n
  | None => uvarint_of 0
  end.
(** enc_cachecontrol, lines 117-135. *)
Definition enc_cachecontrol (val : str) : res str :=
  let parts := cc_parts val in
  let* a := cc_number parts (lit "max-age") in
  let* b := cc_number parts (lit "max-stale") in
  let* c := cc_number parts (lit "min-fresh") in
  let* d := uvarint_of 0 in
  Ok ([95] ++ a ++ b ++ c ++ d).

(** enc_method, lines 137-150. *)
Definition methods : list str := map lit ["get"; "post"; "put"; "patch"; "delete"; "options"; "connect"]%string.
Definition enc_method (val : str) : str :=
  match index_of val methods with Some i => [i + 1] | None => val end.

(** enc_accept, lines 154-162. *)
Fixpoint accept_loop (l : list (str * bool)) (acc : str) : str :=
  match l with
  | [] => acc
  | (v, true) :: r => accept_loop r ((match acc with [] => [] | _ => acc ++ [0] end) ++ v)
  | (_, false) :: r => accept_loop r acc
  end.
Definition enc_accept (L : library) (val : str) : str := accept_loop (lib_accept L val) [].

(** enc_etag, lines 166-173. *)
Definition enc_etag (L : library) (val : str) : res str :=
  let vals := split_on 0 val in
  let* n := uvarint_of (Z.of_nat (length vals)) in
  Ok (n ++ flat_map (fun v => 16 :: lib_md5 L v) vals).

(** p3p_table and enc_p3p, lines 176-213. *)
Definition p3p_table : list str := map lit [
  "NOI"; "ALL"; "CAO"; "IDC"; "OTI"; "NON"; "DSP"; "COR"; "MON"; "LAW"; "NID"; "CUR"; "ADM"; "DEV"; "TAI"; "PSA";
  "PSD"; "IVA"; "IVD"; "CON"; "HIS"; "TEL"; "OTP"; "OUR"; "DEL"; "SAM"; "UNR"; "PUB"; "OTR"; "NOR"; "STP"; "LEG";
  "BUS"; "IND"; "PHY"; "ONL"; "UNI"; "PUR"; "FIN"; "COM"; "NAV"; "INT"; "DEM"; "CNT"; "STA"; "POL"; "HEA"; "PRE";
  "LOC"; "GOV"; "OTC"; "TST"]%string.
Fixpoint p3p_loop (tokens : list str) (cp : str) : res str :=
  match tokens with
  | [] => Ok cp
  | t :: r =>
      match index_of (firstn 3 t) p3p_table with
      | None => Ok []
      | Some i =>
          let q := N.shiftl (i + 1) 2 in
          let* q := if (length t =? 4)%nat then
                      match index_of [last t 0] (map lit ["a"; "i"; "o"]%string) with
                      | Some j => Ok (N.lor q j)
                      | None => Err ValueError
                      end
                    else Ok q in
          let* s := pack_B q in
          p3p_loop r (cp ++ s)
      end
  end.
Definition enc_p3p (L : library) (val : str) : res str :=
  let d := lib_dict L val in
  let* ref := match last_value d (lit "policyref") with
              | Some (Some p) => let* n := uvarint_of (Z.of_nat (length p)) in Ok (n ++ p)
              | Some None => Err TypeError
              | None => uvarint_of 0
              end in
  let* cp := match last_value d (lit "CP") with
             | Some (Some c) => p3p_loop (split_on 32 c) []
             | Some None => Err AttributeError
             | None => Ok []
             end in
  Ok (ref ++ cp).

(** ENCODERS and encode, lines 225-252; None: no encoder. *)
Definition names (l : list string) : list str := map lit l.
Definition encoder (L : library) (k : str) : option (str -> res str) :=
  if mem_str k (names ["last-modified"; "date"; "expires"; "if-modified-since"; "if-unmodified-since"]%string) then Some (enc_date L)
  else if mem_str k (names [":status"; "content-length"; "age"]%string) then Some enc_uvarint
  else if str_eqb k (lit "set-cookie") then Some (lib_setcookie L)
  else if str_eqb k (lit "cookie") then Some (lib_cookie L)
  else if str_eqb k (lit "cache-control") then Some enc_cachecontrol
  else if str_eqb k (lit ":method") then Some (fun v => Ok (enc_method v))
  else if mem_str k (names ["accept"; "accept-language"; "accept-encoding"; "accept-charset"]%string) then Some (fun v => Ok (enc_accept L v))
  else if mem_str k (names ["etag"; "if-match"; "if-none-match"]%string) then Some (enc_etag L)
  else if str_eqb k (lit "p3p") then Some (enc_p3p L)
  else None.

(** ** Processor.compress, __init__.py lines 31-69 *)

(** '\u00' in v *)
Fixpoint starts (p s : str) : bool :=
  match p, s with
  | [], _ => true
  | x :: p', y :: s' => (x =? y) && starts p' s'
  | _ :: _, [] => false
  end.
Fixpoint contains (p s : str) : bool :=
  starts p s || match s with [] => false | _ :: s' => contains p s' end.
Definition multi_text : str := [92; 117; 48; 48].

(** do_huff, lines 71-75. *)
Definition do_huff (h : huffman) (val : str) : res (list N * nat) := huff_encode h val true.

Definition store_text (h : huffman) (b : bb) (val : str) : res bb :=
  let* (o, n) := do_huff h val in
  let* b := bb_store22 b (lenN o) in
  bb_store b o n.

(** The body of the loop, lines 35-68. *)
Definition bohe_header (L : library) (h : huffman) (b : bb) (kv : str * str) : res bb :=
  let '(k, v) := kv in
  match index_of k id_table with
  | Some i =>
      let* b := bb_store8 b (i + 1) in
      match encoder L k with
      | Some e =>
          let* b := bb_store1 b true in
          let* b := bb_store1 b (contains multi_text v) in
          let* val := e v in
          let* b := bb_store22 b (lenN val) in
          bb_store b val (8 * length val)%nat
      | None =>
          let* b := bb_store1 b (contains multi_text v) in
          store_text h b v
      end
  | None =>
      let* b := bb_store8 b (N.lor 128 (lenN k)) in
      let* b := bb_store b k (8 * length k)%nat in
      let* b := bb_store1 b false in
      let* b := bb_store1 b (contains multi_text v) in
      store_text h b v
  end.
Fixpoint bohe_headers (L : library) (h : huffman) (b : bb) (d : list (str * str)) : res bb :=
  match d with
  | [] => Ok b
  | kv :: r => let* b := bohe_header L h b kv in bohe_headers L h b r
  end.
Definition bohe_compress (L : library) (h : huffman) (d : list (str * str)) : res str :=
  let* b := bohe_headers L h bb_new d in Ok (bb_out b).

(** The constructor, lines 24-29. *)
Definition bohe_new (is_request : bool) : res huffman :=
  d1_huffman (if is_request then d1_request_table else d1_response_table).
