(** * Model of compressor/delta2_bohe/bohe.py: the encoders of header values, Python 2.

    Line numbers refer to that file.  Each call makes an encoder and with it asks for the year
    ([year], at least 1970).  attempt_decode, enc_uvarint of a number and of a text,
    _parse_cache_control, MethodEncoder, AcceptEncoder, EtagEncoder, CookieEncoder and
    P3PEncoder are the functions of compressor/bohe/bohe.py as methods: Bohe_Model and
    BoheCookie_Model have them.  As there, what the encoders take from other libraries is a
    parameter.  epoch gives seconds as a float, whole for every date that the format of line
    58 can name, which int() of line 44 turns back: here they are integers. *)
From Coq Require Import String List NArith ZArith Bool Arith.
From Verif Require Import PyBase Small_Model Bohe_Model BoheCookie_Model SDate_Model PyStr.
Import ListNotations.
Open Scope N_scope.
Open Scope py_scope.

(** sliding_epoch, lines 18-20, and NEW_EPOCH, line 15, with epoch, lines 53-54. *)
Definition sliding_epoch (year : Z) : Z := (year - year mod 21)%Z.
Definition new_epoch2 (year : Z) : Z := timegm (sliding_epoch year) 1 1 0 0 0.

(** enc_date, lines 56-66.  A bare [except] catches what the inner call raises. *)
Definition enc_date2 (year : Z) (L : library) (val : str) : res str :=
  match lib_date L val with
  | Some t => uvarint_of (t - new_epoch2 year)
  | None => match py_int val with Ok n => uvarint_of (Z.max 0 n) | Err _ => uvarint_of 0 end
  end.

(** SetCookieEncoder.encode, lines 91-117: one morsel, lines 100-116, and the loops. *)
Definition enc_morsel2 (year : Z) (L : library) (n : str) (m : morsel) : res str :=
  let* nl := uvarint_of (Z.of_nat (length n)) in
  let* value := attempt_decode (m_value m) in
  let* vl := uvarint_of (Z.of_nat (length value)) in
  let* path := enc_attribute (m_path m) in
  let* domain := enc_attribute (m_domain m) in
  let* age := match m_maxage m with [] => enc_date2 year L (m_expires m) | a => enc_uvarint a end in
  Ok ([46] ++ nl ++ n ++ vl ++ value ++ path ++ domain ++ age).
Fixpoint enc_morsels2 (year : Z) (L : library) (l : list (str * morsel)) (encoded : str) : res str :=
  match l with
  | [] => Ok encoded
  | (n, m) :: r => let* s := enc_morsel2 year L n m in enc_morsels2 year L r (encoded ++ s)
  end.
Fixpoint enc_setcookies2 (year : Z) (C : cookie_library) (L : library) (vals : list str) (encoded : str) : res str :=
  match vals with
  | [] => Ok encoded
  | v :: r =>
      let encoded := match encoded with [] => [] | _ => encoded ++ [0] end in
      let* cookie := cl_cookie C (no_brackets v) in
      let* encoded := enc_morsels2 year L cookie encoded in
      enc_setcookies2 year C L r encoded
  end.

(** CacheControlEncoder.encode, lines 162-180.  Line 173 asks a text (or the number 1) for an
    attribute 'len', which neither has, so the branch of lines 174-176 is never taken. *)
Definition has_attribute_len (v : str + Z) : bool := false.
Definition cc_list (parts : list (str * (str + Z))) (prt : str) : res str :=
  match last_value parts prt with
  | Some (inl s) => if has_attribute_len (inl s) && negb (lenN s =? 0)
                    then let* a := uvarint_of 1 in let* b := uvarint_of (Z.of_nat (length s)) in Ok (a ++ b ++ s)
                    else uvarint_of 0
  | _ => uvarint_of 0
  end.
Definition enc_cachecontrol2 (req : bool) (val : str) : res str :=
  let parts := cc_parts val in
  let* a := cc_number parts (lit "max-age") in
  let* rest :=
    if req then
      let* b := cc_number parts (lit "max-stale") in
      let* c := cc_number parts (lit "min-fresh") in
      let* d := uvarint_of 0 in
      Ok (b ++ c ++ d)
    else
      let* b := cc_number parts (lit "s-maxage") in
      let* c := cc_list parts (lit "no-cache") in
      let* d := cc_list parts (lit "private") in
      let* e := uvarint_of 0 in
      Ok (b ++ c ++ d ++ e) in
  Ok ([95] ++ a ++ rest).

(** ENCODERS and encode, lines 274-301. *)
Definition encode2 (year : Z) (req : bool) (C : cookie_library) (L : library) (k v : str) : res str :=
  if mem_str k (names ["last-modified"; "date"; "expires"; "if-modified-since"; "if-unmodified-since"]%string) then enc_date2 year L v
  else if mem_str k (names [":status"; "content-length"; "age"]%string) then enc_uvarint v
  else if str_eqb k (lit "set-cookie") then enc_setcookies2 year C L (split_on 0 v) []
  else if str_eqb k (lit "cookie") then enc_cookie C v
  else if str_eqb k (lit "cache-control") then enc_cachecontrol2 req v
  else if str_eqb k (lit ":method") then Ok (enc_method v)
  else if mem_str k (names ["accept"; "accept-language"; "accept-encoding"; "accept-charset"]%string) then Ok (enc_accept L v)
  else if mem_str k (names ["etag"; "if-match"; "if-none-match"]%string) then enc_etag L v
  else if str_eqb k (lit "p3p") then enc_p3p L v
  else Ok v.
