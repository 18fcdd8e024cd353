(** * Model of compressor/bohe/bohe.py: the cookie encoders (enc_setcookie,
      enc_cookie, attempt_decode), Python 2.

    Bohe_Model takes these two encoders as parameters; here they are modelled, on
    top of the two library calls they make.  Simplifications:
    - strings are lists of octets;
    - a library parse is a parameter: BaseCookie(v) gives names and morsels in the
      dictionary's order or raises; parse_dict_header gives names and values (or
      None) in the dictionary's order;
    - the two regular expressions are modelled as the sets of texts they match;
      [$] also matches in front of one newline at the end;
    - the base64 decoder is modelled on the texts the second expression matches
      (a2b_base64 skips the newline and takes groups of four). *)
From Coq Require Import String List NArith ZArith Bool Arith.
From Verif Require Import PyBase PyStr Bits BB_Model Small_Model Bohe_Model.
Import ListNotations.
Open Scope N_scope.
Open Scope py_scope.

(** The attributes of a Morsel that enc_setcookie reads; absent ones are ''. *)
Record morsel := mk_morsel { m_value : str; m_path : str; m_domain : str; m_maxage : str; m_expires : str }.
Record cookie_library := mk_cookie_library {
  cl_cookie : str -> res (list (str * morsel));   (* BaseCookie(v), line 63 *)
  cl_dict : str -> list (str * option str)        (* http.parse_dict_header(val), line 83 *)
}.

(** ** attempt_decode, lines 215-223 *)

(** [a-fA-F0-9] *)
Definition hex_digit (c : N) : option N :=
  if (48 <=? c) && (c <=? 57) then Some (c - 48)
  else if (97 <=? c) && (c <=? 102) then Some (c - 87)
  else if (65 <=? c) && (c <=? 70) then Some (c - 55)
  else None.
Definition is_hex (c : N) : bool := match hex_digit c with Some _ => true | None => false end.
(** [A-Za-z0-9+/] *)
Definition b64_digit (c : N) : option N :=
  if (65 <=? c) && (c <=? 90) then Some (c - 65)
  else if (97 <=? c) && (c <=? 122) then Some (c - 71)
  else if (48 <=? c) && (c <=? 57) then Some (c + 4)
  else if c =? 43 then Some 62
  else if c =? 47 then Some 63
  else None.
Definition is_b64 (c : N) : bool := match b64_digit c with Some _ => true | None => false end.

(** The text in front of [$]: one newline at the end may remain. *)
Definition dollar (s : str) : str := match rev s with 10 :: r => rev r | _ => s end.

(** ^([a-fA-F0-9]{2})*$, line 218; a newline is no hexadecimal digit. *)
Fixpoint hex_pairs (s : str) : bool :=
  match s with
  | [] => true
  | a :: b :: r => is_hex a && is_hex b && hex_pairs r
  | _ => false
  end.
(** ^(?:[A-Za-z0-9+/]{4})*(?:[A-Za-z0-9+/]{2}==|[A-Za-z0-9+/]{3}=)?$, line 220: groups of
    four, the last one may end in = or ==; = (61) is no digit. *)
Fixpoint b64_groups (s : str) : bool :=
  match s with
  | [] => true
  | a :: b :: c :: d :: r =>
      is_b64 a && is_b64 b &&
      (if is_b64 c && is_b64 d then b64_groups r
       else match r with [] => (is_b64 c || (c =? 61)) && (d =? 61) | _ => false end)
  | _ => false
  end.

(** value.decode('hex_codec'), line 219: binascii.a2b_hex. *)
Fixpoint unhex (s : str) : res str :=
  match s with
  | [] => Ok []
  | a :: b :: r =>
      match hex_digit a, hex_digit b with
      | Some x, Some y => let* t := unhex r in Ok (16 * x + y :: t)
      | _, _ => Err TypeError
      end
  | _ => Err TypeError
  end.
(** a2b_hex refuses texts of odd length before it looks at the digits. *)
Definition a2b_hex (s : str) : res str := if Nat.even (length s) then unhex s else Err TypeError.

(** value.decode('base64_codec'), line 221: six bits a digit, most significant
    first, the octets that are complete. *)
Definition b64_bits (c : N) : list bool := match b64_digit c with Some n => bits_of 6 n | None => [] end.
Fixpoint whole_octets (fuel : nat) (l : list bool) : str :=
  match fuel with
  | O => []
  | S f => if (length l <? 8)%nat then [] else val_of (firstn 8 l) :: whole_octets f (skipn 8 l)
  end.
Definition a2b_base64 (s : str) : str :=
  let l := flat_map b64_bits s in whole_octets (length l) l.

Definition attempt_decode (value : str) : res str :=
  if hex_pairs (dollar value) then a2b_hex value
  else if b64_groups (dollar value) then Ok (a2b_base64 (dollar value))
  else Ok value.

(** ** enc_setcookie, lines 54-80 *)

(** v.replace(']', '_').replace('[', '_'), lines 61-62. *)
Definition no_brackets (v : str) : str := map (fun c => if (c =? 93) || (c =? 91) then 95 else c) v.
(** Lines 72-76, one of the two attributes; [pack_H] is struct.pack('!H', .). *)
Definition enc_attribute (a : str) : res str :=
  let* l := pack_H (lenN a) in Ok (l ++ a).
(** Lines 64-80, one morsel. *)
Definition enc_morsel (L : library) (n : str) (m : morsel) : res str :=
  let* nl := uvarint_of (Z.of_nat (length n)) in
  let* value := attempt_decode (m_value m) in
  let* vl := uvarint_of (Z.of_nat (length value)) in
  let* path := enc_attribute (m_path m) in
  let* domain := enc_attribute (m_domain m) in
  let* age := match m_maxage m with [] => enc_date L (m_expires m) | a => enc_uvarint a end in
  Ok ([46] ++ nl ++ n ++ vl ++ value ++ path ++ domain ++ age).
Fixpoint enc_morsels (L : library) (l : list (str * morsel)) (encoded : str) : res str :=
  match l with
  | [] => Ok encoded
  | (n, m) :: r => let* s := enc_morsel L n m in enc_morsels L r (encoded ++ s)
  end.
Fixpoint enc_setcookies (C : cookie_library) (L : library) (vals : list str) (encoded : str) : res str :=
  match vals with
  | [] => Ok encoded
  | v :: r =>
      let encoded := match encoded with [] => [] | _ => encoded ++ [0] end in
      let* cookie := cl_cookie C (no_brackets v) in
      let* encoded := enc_morsels L cookie encoded in
      enc_setcookies C L r encoded
  end.
Definition enc_setcookie (C : cookie_library) (L : library) (val : str) : res str :=
  enc_setcookies C L (split_on 0 val) [].

(** ** enc_cookie, lines 82-95 *)
Fixpoint enc_pairs (l : list (str * option str)) : res str :=
  match l with
  | [] => Ok []
  | (k, v) :: r =>
      let* kl := uvarint_of (Z.of_nat (length k)) in
      let* body := match v with
                   | Some v => let* value := attempt_decode v in
                               let* vl := uvarint_of (Z.of_nat (length value)) in Ok (vl ++ value)
                   | None => uvarint_of 0
                   end in
      let* rest := enc_pairs r in
      Ok ([95] ++ kl ++ k ++ body ++ rest)
  end.
Definition enc_cookie (C : cookie_library) (val : str) : res str := enc_pairs (cl_dict C val).

(** Bohe_Model's library with its two cookie encoders. *)
Definition with_cookies (C : cookie_library) (L : library) : library :=
  mk_library (lib_date L) (lib_md5 L) (lib_accept L) (lib_dict L) (enc_setcookie C L) (enc_cookie C).
