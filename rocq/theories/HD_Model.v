(** * Model of compressor/headerdiff/headerDiffCodec.py (Python 2).

    Line numbers refer to that file.  Simplifications:
    - the encoder's and the decoder's attributes are two records (the code
      never mixes them); the constructor's parameters are a record [hcfg];
    - how literal strings are written and read (plain or Huffman, lines 327-343
      and 601-614) is part of [hcfg]; the plain functions are [hd_write_plain]
      and [hd_read_plain], the Huffman ones are in HDHuff_Model;
    - deflate (lines 122-136, 178-179, 457-459) is in [hd_encode_deflated] and
      [hd_decode_deflated]; otherwise windowSize is None;
    - the iteration order of the dict [headersTableEncoder] is arbitrary in
      Python 2: [ord t] is the order of the [t]-th iteration, any permutation. *)
From Coq Require Import String List NArith ZArith Bool Arith.
From Verif Require Import PyBase PyStr.
Import ListNotations.
Open Scope N_scope.
Open Scope py_scope.

Definition hdr := (str * str)%type.

(** common_prefix, lines 44-49. *)
Fixpoint common_prefix (s1 s2 : str) : nat :=
  match s1, s2 with
  | a :: s1', b :: s2' => if a =? b then S (common_prefix s1' s2') else O
  | _, _ => O
  end.

(** common_prefix_limited, lines 51-58: the loop [for i in range(l, 0, -1)]. *)
Fixpoint last_limit (s1 limits : str) (i : nat) : nat :=
  match i with
  | O => O
  | S j => match nth_error s1 j with
           | Some c => if existsb (N.eqb c) limits then S j else last_limit s1 limits j
           | None => last_limit s1 limits j
           end
  end.
Definition common_prefix_limited (s1 s2 limits : str) : nat := last_limit s1 limits (common_prefix s1 s2).

(** class IndexedHeader, lines 60-75; [i_full] is its key in the table. *)
Record ih := mk_ih { i_name : str; i_value : str; i_index : nat; i_age : nat; i_usage : Z }.
Definition i_full (h : ih) : str := i_name h ++ i_value h.
Definition new_ih (name value : str) (index : nat) : ih := mk_ih name value index 0 0.

(** DELTA_FULL, DELTA_BOUND and DELTA_MAX with their parameters, lines 38-42. *)
Inductive dtype := DFull | DBound (limits : str) | DMax (n : Z).

(** The constructor's parameters, lines 92-119. *)
Record hcfg := mk_hcfg {
  h_max : Z; h_delta : bool; h_dtype : dtype;
  h_write : str -> res str;                 (* the octets of a literal string *)
  h_read : str -> res (str * N)             (* the string and the octets used *)
}.

(** MAX_VALUES, line 619. *)
Definition HD_MAX (prefix : N) : res N :=
  match prefix with
  | 0 => Ok 0 | 4 => Ok 15 | 5 => Ok 31 | 6 => Ok 63 | 8 => Ok 255 | 14 => Ok 16383
  | _ => Err KeyError
  end.

(** ** Integers *)

(** The [while integerValue > 0] loop, lines 591-599. *)
Fixpoint hd_digits (fuel : nat) (v : N) : res str :=
  if v =? 0 then Ok []
  else match fuel with
       | O => Err Diverge
       | S f =>
           let q := v / 128 in
           let r := v - q * 128 in
           let b := if 0 <? q then 128 else 0 in
           let* s := pack_B (N.lor b r) in
           let* t := hd_digits f q in
           Ok (s ++ t)
       end.

(** writeInteger, lines 565-599: the octets appended. *)
Definition hd_write_int (b prefix v : N) : res str :=
  let* m := HD_MAX prefix in
  if v <? m then
    if prefix <=? 8 then pack_B (N.lor b v)
    else
      let b := N.lor b (N.shiftr v 8) in
      let b := N.lor (N.shiftl b 8) (N.land v 255) in
      pack_H b
  else
    let* p := if 0 <? prefix then pack_B (N.lor b m) else Ok [] in
    let v := v - m in
    let* z := if v =? 0 then pack_B 0 else Ok [] in
    let* ds := hd_digits (N.to_nat (N.size v)) v in
    Ok (p ++ z ++ ds).

(** readNextByte, lines 292-298; the reader's state is the unread suffix. *)
Definition hd_byte (s : str) : res (N * str) :=
  match s with [] => Err IndexError | b :: r => Ok (b, r) end.

(** The loop of lines 318-323, with [b] just read. *)
Fixpoint hd_read_digits (b value f : N) (s : str) : res (N * str) :=
  if 0 <? N.land b 128 then
    match s with
    | [] => Err IndexError
    | b' :: r => hd_read_digits b' (value + N.land b 127 * f) (f * 128) r
    end
  else Ok (value + b * f, s).

(** readInteger, lines 302-325. *)
Definition hd_read_int (b prefix : N) (s : str) : res (N * str) :=
  let* m := HD_MAX prefix in
  let* (value, s) :=
    if prefix <=? 8 then Ok (N.land b m, s)
    else
      let* m8 := HD_MAX (prefix - 8) in
      let* mb := HD_MAX 8 in
      let* (b2, s) := hd_byte s in
      Ok (N.lor (N.shiftl (N.land b m8) 8) (N.land b2 mb), s) in
  if value =? m then
    let* (b, s) := hd_byte s in
    hd_read_digits b m 1 s
  else Ok (value, s).

(** writeLiteralString and readLiteralString without Huffman, lines 612-614
    and 338-343. *)
Definition hd_write_plain (s : str) : res str := let* b := hd_write_int 0 0 (lenN s) in Ok (b ++ s).
Definition hd_read_plain (s : str) : res (str * N) :=
  let* (n, r) := hd_read_int 0 0 s in
  Ok (takeN n r, (lenN s - lenN r) + n).

(** Reading a literal at the head of the unread suffix. *)
Definition hd_literal (cfg : hcfg) (s : str) : res (str * str) :=
  let* (v, n) := h_read cfg s in Ok (v, dropN n s).

(** ** Tables *)

(** REGISTERED_HEADERS_REQUESTS and REGISTERED_HEADERS_RESPONSES, lines 630-714. *)
Definition REG_REQ : list str := map lit [
  "accept"; "accept-charset"; "accept-encoding"; "accept-language"; "cookie"; ":method"; "host";
  "if-modified-since"; "keep-alive"; ":host"; ":scheme"; ":path"; "user-agent"; ":version";
  "proxy-connection"; "referer"; "accept-datetime"; "authorization"; "allow"; "cache-control";
  "connection"; "content-length"; "content-md5"; "content-type"; "date"; "expect"; "from"; "if-match";
  "if-none-match"; "if-range"; "if-unmodified-since"; "max-forwards"; "pragma"; "proxy-authorization";
  "range"; "te"; "upgrade"; "via"; "warning" ]%string.
Definition REG_RES : list str := map lit [
  "age"; "cache-control"; "content-length"; "content-type"; "date"; "etag"; "expires"; "last-modified";
  "server"; "set-cookie"; ":status"; "vary"; ":version"; "via"; ":status-text";
  "access-control-allow-origin"; "accept-ranges"; "allow"; "connection"; "content-disposition";
  "content-encoding"; "content-language"; "content-location"; "content-md5"; "content-range"; "link";
  "location"; "p3p"; "pragma"; "proxy-authenticate"; "refresh"; "retry-after";
  "strict-transport-security"; "trailer"; "transfer-encoding"; "warning"; "www-authenticate" ]%string.

(** for i, name in enumerate(...): table[name] = i, lines 147-150. *)
Definition name_dict (names : list str) : dict nat :=
  fold_left (fun d '(i, n) => dset d n i) (combine (seq 0 (length names)) names) [].

(** Encoder variables, lines 137-150; [he_clock] counts iterations over the table. *)
Record henc := mk_henc {
  he_tbl : list ih; he_size : Z; he_req : dict nat; he_res : dict nat; he_clock : nat }.
Definition henc_new : henc := mk_henc [] 0 (name_dict REG_REQ) (name_dict REG_RES) 0.

(** Decoder variables, lines 151-164. *)
Record hdec := mk_hdec { hd_tbl : list hdr; hd_size : Z; hd_req : list str; hd_res : list str }.
Definition hdec_new : hdec := mk_hdec [] 0 REG_REQ REG_RES.

(** ** Encoder *)

Inductive indexing := NoIndexing | Incremental | Substitution.
Inductive hrep := RepLiteral | RepIndexed | RepDelta.
(** class HeaderRepresentation, lines 76-86. *)
Record hr := mk_hr { hr_rep : hrep; hr_ref : option ih; hr_idx : indexing; hr_len : nat }.

Definition zlen {A} (l : list A) : Z := Z.of_nat (length l).

(** Changing an object that is in the table (objects have different keys). *)
Definition touch (f : ih -> ih) (full : str) (t : list ih) : list ih :=
  map (fun h => if str_eqb (i_full h) full then f h else h) t.
Definition reset_age (h : ih) : ih := mk_ih (i_name h) (i_value h) (i_index h) 0 (i_usage h).
Definition grow_age (h : ih) : ih := mk_ih (i_name h) (i_value h) (i_index h) (S (i_age h)) (i_usage h).
Definition add_usage (h : ih) : ih := mk_ih (i_name h) (i_value h) (i_index h) (i_age h) (i_usage h + 1).

Definition find_full (full : str) (t : list ih) : option ih := find (fun h => str_eqb (i_full h) full) t.

(** The prefix length for one candidate, lines 498-506. *)
Definition prefix_for (cfg : hcfg) (value iv : str) : nat :=
  match h_dtype cfg with
  | DFull => common_prefix value iv
  | DBound limits => common_prefix_limited value iv limits
  | DMax _ => common_prefix value iv
  end.

(** The loop of lines 493-511. *)
Definition delta_step (cfg : hcfg) (name value : str) (acc : nat * option ih * Z) (h : ih) : nat * option ih * Z :=
  let '(best, ref, added) := acc in
  if str_eqb (i_name h) name then
    if match h_dtype cfg with DMax n => (n <=? i_usage h)%Z | _ => false end then acc
    else
      let k := prefix_for cfg value (i_value h) in
      if (best <=? k)%nat then (k, Some h, (zlen value - zlen (i_value h))%Z) else acc
  else acc.

(** The loop of lines 546-555. *)
Definition lru_step (max size : Z) (value : str) (acc : option ih) (h : ih) : option ih :=
  if (1 <? i_age h)%nat then
    if (zlen value - zlen (i_value h) <? max - size)%Z then
      match acc with
      | None => Some h
      | Some l => if (i_age l <? i_age h)%nat then Some h else acc
      end
    else acc
  else acc.

Section Encoder.
  Variable ord : nat -> list ih -> list ih.

  (** determineRepresentation, lines 467-561. *)
  Definition determine (cfg : hcfg) (name value : str) (is_request : bool) (e : henc) : hr * henc :=
    let full := name ++ value in
    match find_full full (he_tbl e) with
    | Some h =>
        (mk_hr RepIndexed (Some h) NoIndexing 0,
         mk_henc (touch reset_age full (he_tbl e)) (he_size e) (he_req e) (he_res e) (he_clock e))
    | None =>
        if negb (h_delta cfg) && str_eqb name (lit ":path") then (mk_hr RepLiteral None NoIndexing 0, e)
        else
          let '(k, dref, added) :=
            if h_delta cfg
            then fold_left (delta_step cfg name value) (ord (he_clock e) (he_tbl e)) (0%nat, None, 0%Z)
            else (0%nat, None, 0%Z) in
          let e' := mk_henc (he_tbl e) (he_size e) (he_req e) (he_res e) (S (S (he_clock e))) in
          let length_ok := (he_size e + zlen value <? h_max cfg)%Z in
          let delta_ok := (he_size e + added <? h_max cfg)%Z in
          let novelty := is_request && (h_max cfg <? 10000)%Z in
          if (1 <? k)%nat then
            let novel := if novelty then (15 <? added)%Z else true in
            (mk_hr RepDelta dref
               (if novel && length_ok then Incremental else if delta_ok then Substitution else NoIndexing) k, e')
          else if length_ok then (mk_hr RepLiteral None Incremental 0, e')
          else
            match fold_left (lru_step (h_max cfg) (he_size e) value) (ord (S (he_clock e)) (he_tbl e)) None with
            | Some l => (mk_hr RepLiteral (Some l) Substitution 0, e')
            | None => (mk_hr RepLiteral None NoIndexing 0, e')
            end
    end.

  Definition ref_of (r : hr) : res ih := match hr_ref r with Some h => Ok h | None => Err AttributeError end.

  Definition e_names (is_request : bool) (e : henc) : dict nat := if is_request then he_req e else he_res e.
  Definition set_e_names (is_request : bool) (e : henc) (d : dict nat) : henc :=
    if is_request then mk_henc (he_tbl e) (he_size e) d (he_res e) (he_clock e)
    else mk_henc (he_tbl e) (he_size e) (he_req e) d (he_clock e).
  Definition set_e_tbl (e : henc) (t : list ih) (n : Z) : henc := mk_henc t n (he_req e) (he_res e) (he_clock e).

  (** The body of the loop over headers, lines 363-454: the new state (also
      when an exception leaves the method) and the octets appended. *)
  Definition encode_one (cfg : hcfg) (is_request : bool) (e : henc) (h : hdr) : henc * res str :=
    let '(name, value) := h in
    let full := name ++ value in
    let '(r, e) := determine cfg name value is_request e in
    match hr_rep r with
    | RepIndexed =>
        (e, let* ref := ref_of r in
            if (i_index ref <? 64)%nat then pack_B (N.lor 128 (N.of_nat (i_index ref)))
            else hd_write_int 192 14 (N.of_nat (i_index ref - 64)))
    | rep =>
        let prefix := match hr_idx r with NoIndexing => 5 | _ => 4 end in
        let upd : res (N * henc) :=
          match hr_idx r with
          | Substitution =>
              let* ref := ref_of r in
              (* del raises KeyError when the key is missing *)
              let* _ := match find_full (i_full ref) (he_tbl e) with Some _ => Ok tt | None => Err KeyError end in
              let t := filter (fun x => negb (str_eqb (i_full x) (i_full ref))) (he_tbl e) in
              let t := filter (fun x => negb (str_eqb (i_full x) full)) t ++ [new_ih name value (i_index ref)] in
              Ok (48, set_e_tbl e t (he_size e - zlen (i_value ref) + zlen value))
          | Incremental =>
              let n := length (he_tbl e) in
              let t := filter (fun x => negb (str_eqb (i_full x) full)) (he_tbl e) ++ [new_ih name value n] in
              Ok (32, set_e_tbl e t (he_size e + zlen value))
          | NoIndexing => Ok (0, e)
          end in
        match upd with
        | Err x => (e, Err x)
        | Ok (b, e) =>
            if h_delta cfg && match rep with RepDelta => true | _ => false end then
              let b := N.lor b 64 in
              match (let* ref := ref_of r in
                     let* s1 := hd_write_int b prefix (N.of_nat (i_index ref)) in
                     let* s2 := hd_write_int b 0 (N.of_nat (hr_len r)) in
                     Ok (ref, s1 ++ s2)) with
              | Err x => (e, Err x)
              | Ok (ref, s12) =>
                  (set_e_tbl e (touch add_usage (i_full ref) (he_tbl e)) (he_size e),
                   let* s3 := h_write cfg (skipn (hr_len r) value) in Ok (s12 ++ s3))
              end
            else
              let names := e_names is_request e in
              let '(e, r1) :=
                match dget names name with
                | Some i => (e, hd_write_int b prefix (N.of_nat i + 1))
                | None =>
                    match (let* s := hd_write_int b prefix 0 in
                           let* t := h_write cfg name in Ok (s ++ t)) with
                    | Err x => (e, Err x)
                    | Ok s => (set_e_names is_request e (dset names name (length names)), Ok s)
                    end
                end in
              (e, let* s1 := r1 in
                  let* s2 := match hr_idx r with
                             | Substitution => let* ref := ref_of r in hd_write_int b 0 (N.of_nat (i_index ref))
                             | _ => Ok []
                             end in
                  let* s3 := h_write cfg value in
                  Ok (s1 ++ s2 ++ s3))
        end
    end.

  Fixpoint encode_list (cfg : hcfg) (is_request : bool) (e : henc) (hs : list hdr) : henc * res str :=
    match hs with
    | [] => (e, Ok [])
    | h :: hs' =>
        match encode_one cfg is_request e h with
        | (e, Err x) => (e, Err x)
        | (e, Ok s) =>
            let '(e, r) := encode_list cfg is_request e hs' in
            (e, let* t := r in Ok (s ++ t))
        end
    end.

  (** encodeHeaders, lines 349-454: the payload ... *)
  Definition hd_payload (cfg : hcfg) (is_request : bool) (e : henc) (hs : list hdr) : henc * res str :=
    let e := set_e_tbl e (map grow_age (he_tbl e)) (he_size e) in
    match pack_B (lenN hs) with
    | Err x => (e, Err x)
    | Ok n => let '(e, r) := encode_list cfg is_request e hs in (e, let* s := r in Ok (n ++ s))
    end.

  (** ... and the frame, lines 463-465: pack("!HBBL", len(data), 0, 0, 0) + data. *)
  Definition hd_frame (data : str) : res str :=
    let* n := pack_H (lenN data) in Ok (n ++ [0; 0; 0; 0; 0; 0] ++ data).
  Definition hd_encode (cfg : hcfg) (is_request : bool) (e : henc) (hs : list hdr) : henc * res str :=
    let '(e, r) := hd_payload cfg is_request e hs in
    (e, let* data := r in hd_frame data).

  (** With windowSize, lines 457-459; [deflate] is compress and flush. *)
  Definition hd_encode_deflated (deflate : str -> str) (cfg : hcfg) (is_request : bool) (e : henc) (hs : list hdr)
    : henc * res str :=
    let '(e, r) := hd_payload cfg is_request e hs in
    (e, let* s := r in hd_frame (deflate s)).
End Encoder.

(** ** Decoder *)

Definition d_names (is_request : bool) (d : hdec) : list str := if is_request then hd_req d else hd_res d.
Definition add_d_name (is_request : bool) (d : hdec) (n : str) : hdec :=
  if is_request then mk_hdec (hd_tbl d) (hd_size d) (hd_req d ++ [n]) (hd_res d)
  else mk_hdec (hd_tbl d) (hd_size d) (hd_req d) (hd_res d ++ [n]).

Definition at_index {A} (l : list A) (i : N) : res A :=
  match nthN l i with Some x => Ok x | None => Err IndexError end.

(** Lines 234-261: the name, the reference index (for delta and substitution)
    and the prefix taken from the reference; the name table may grow even if
    a later read fails. *)
Definition decode_name (cfg : hcfg) (is_request : bool) (d : hdec) (b0 prefix : N) (subst : bool) (s : str)
  : hdec * res (str * N * N * str) :=
  if 0 <? N.land b0 64 then
    (d, let* (ri, s) := hd_read_int b0 prefix s in
        let* h := at_index (hd_tbl d) ri in
        let* (pl, s) := hd_read_int b0 0 s in
        Ok (fst h, ri, pl, s))
  else
    match hd_read_int b0 prefix s with
    | Err e => (d, Err e)
    | Ok (ref, s) =>
        let '(d, r) :=
          if ref =? 0 then
            match hd_literal cfg s with
            | Err e => (d, Err e)
            | Ok (n, s) => (add_d_name is_request d n, Ok (n, s))
            end
          else (d, let* n := at_index (d_names is_request d) (ref - 1) in Ok (n, s)) in
        (d, let* (n, s) := r in
            if subst then let* (ri, s) := hd_read_int b0 0 s in Ok (n, ri, 0, s)
            else Ok (n, 0, 0, s))
    end.

Definition set_d_tbl (d : hdec) (t : list hdr) (n : Z) : hdec := mk_hdec t n (hd_req d) (hd_res d).

(** The body of the loop of decodeHeaders, lines 188-287. *)
Definition decode_one (cfg : hcfg) (is_request : bool) (d : hdec) (s : str) : hdec * res (hdr * str) :=
  if (h_max cfg <? hd_size d)%Z then (d, Err GenericException)
  else
    match hd_byte s with
    | Err e => (d, Err e)
    | Ok (b0, s) =>
        if 0 <? N.land b0 128 then
          (d, let* (i, s) :=
                if 0 <? N.land b0 64 then let* (i, s) := hd_read_int b0 14 s in Ok (i + 64, s)
                else Ok (N.land b0 63, s) in
              let* h := at_index (hd_tbl d) i in
              Ok (h, s))
        else
          let incr := N.land b0 48 =? 32 in
          let subst := N.land b0 48 =? 48 in
          let prefix := if incr || subst then 4 else 5 in
          match decode_name cfg is_request d b0 prefix subst s with
          | (d, Err e) => (d, Err e)
          | (d, Ok (name, ri, pl, s)) =>
              match
                (let* (v, s) := hd_literal cfg s in
                 let* v := if N.land b0 64 =? 64 then
                             let* h := at_index (hd_tbl d) ri in Ok (takeN pl (snd h) ++ v)
                           else Ok v in
                 Ok (v, s))
              with
              | Err e => (d, Err e)
              | Ok (v, s) =>
                  if subst then
                    match at_index (hd_tbl d) ri with
                    | Err e => (d, Err e)
                    | Ok h =>
                        (set_d_tbl d (update_nth (N.to_nat ri) (fun _ => (name, v)) (hd_tbl d))
                           (hd_size d + (zlen v - zlen (snd h))), Ok ((name, v), s))
                    end
                  else if incr then (set_d_tbl d (hd_tbl d ++ [(name, v)]) (hd_size d + zlen v), Ok ((name, v), s))
                  else (d, Ok ((name, v), s))
              end
          end
    end.

(** while len(headers) < nb, line 188. *)
Fixpoint decode_list (cfg : hcfg) (is_request : bool) (n : nat) (d : hdec) (s : str) : hdec * res (list hdr * str) :=
  match n with
  | O => (d, Ok ([], s))
  | S n' =>
      match decode_one cfg is_request d s with
      | (d, Err e) => (d, Err e)
      | (d, Ok (h, s)) =>
          match decode_list cfg is_request n' d s with
          | (d, Err e) => (d, Err e)
          | (d, Ok (hs, s)) => (d, Ok (h :: hs, s))
          end
      end
  end.

(** decodeHeaders from line 181 on, given the payload. *)
Definition hd_decode_payload (cfg : hcfg) (is_request : bool) (d : hdec) (s : str) : hdec * res (list hdr) :=
  match hd_byte s with
  | Err e => (d, Err e)
  | Ok (nb, s) =>
      match decode_list cfg is_request (N.to_nat nb) d s with
      | (d, Err e) => (d, Err e)
      | (d, Ok (hs, _)) => (d, Ok hs)
      end
  end.

(** Line 175: stream[8:]. *)
Definition hd_decode (cfg : hcfg) (is_request : bool) (d : hdec) (stream : str) : hdec * res (list hdr) :=
  hd_decode_payload cfg is_request d (skipn 8 stream).

(** Lines 178-179: the whole stream goes to the inflater. *)
Definition hd_decode_deflated (inflate : str -> res str) (cfg : hcfg) (is_request : bool) (d : hdec) (stream : str)
  : hdec * res (list hdr) :=
  match inflate stream with
  | Err e => (d, Err e)
  | Ok s => hd_decode_payload cfg is_request d s
  end.
