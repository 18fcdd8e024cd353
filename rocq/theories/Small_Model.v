(** * Models of small stand-alone parts: ID stores, SPDY/3 header blocks, bohe
    integers, and the table search of delta2_bohe. *)
From Coq Require Import List NArith ZArith Bool Arith.
From Verif Require Import PyBase BB_Model.
Import ListNotations.
Open Scope N_scope.
Open Scope py_scope.

(** ** compressor/delta2/common_utils.py, class IDStore, lines 53-76.
    [ids] is a set: a list without repetitions whose order means nothing.
    [set.pop] removes some element: [pick] says which. *)
Record idstore := mk_ids { is_ids : list N; is_next : N; is_max : N }.

(** __init__, lines 55-62 (a missing maximum raises; minimum_id is 0). *)
Definition ids_new (max_id : N) : idstore := mk_ids [] 0 max_id.

Definition memN (x : N) (l : list N) : bool := existsb (N.eqb x) l.
Definition removeN (x : N) (l : list N) : list N := filter (fun y => negb (x =? y)) l.

(** GetNext, lines 64-72. *)
Definition ids_get (pick : list N -> nat) (s : idstore) : N * idstore :=
  match is_ids s with
  | d :: _ =>
      let x := nth (pick (is_ids s) mod length (is_ids s)) (is_ids s) d in
      (x, mk_ids (removeN x (is_ids s)) (is_next s) (is_max s))
  | [] =>
      let n := is_next s + 1 in
      let n := if negb (is_max s =? 0) && (is_max s <=? n) then 0 else n in
      (n, mk_ids [] n (is_max s))
  end.

(** DoneWithId, lines 74-76. *)
Definition ids_done (s : idstore) (x : N) : idstore :=
  mk_ids (if memN x (is_ids s) then is_ids s else x :: is_ids s) (is_next s) (is_max s).

(** ** compressor/spdy3/__init__.py *)

(** key.encode('ascii') *)
Definition to_ascii (s : str) : res str :=
  if forallb (fun c => c <? 128) s then Ok s else Err UnicodeError.

(** Spdy3HeadersFormat, lines 26-48: the loop of lines 43-47 and the join
    ([request.items()] is the dictionary in its iteration order; the sums of
    lines 32-38 are not used). *)
Fixpoint spdy3_format (h : list (str * str)) : res str :=
  match h with
  | [] => Ok []
  | (k, v) :: r =>
      let* lk := pack_L (lenN k) in
      let* k' := to_ascii k in
      let* lv := pack_L (lenN v) in
      let* v' := to_ascii v in
      let* s := spdy3_format r in
      Ok (lk ++ k' ++ lv ++ v' ++ s)
  end.

(** compress, lines 18-24; [deflate] is compressor.compress + flush in its
    current state. *)
Definition spdy3_compress (deflate : str -> str) (h : list (str * str)) : res str :=
  let* raw := spdy3_format h in
  Ok (firstn 12 raw ++ deflate (skipn 12 raw)).

(** ** compressor/bohe/bohe.py, enc_uvarint, lines 34-51, on numbers. *)
Fixpoint uvarint_loop (fuel : nat) (val : N) : res str :=
  match fuel with
  | O => Err Diverge
  | S f =>
      let shift := N.shiftr val 7 in
      let c := N.lor (N.land val 127) (if shift =? 0 then 0 else 128) in
      if shift =? 0 then Ok [c] else let* r := uvarint_loop f shift in Ok (c :: r)
  end.

(** The values of a NUL-separated list, after int() and max(0, .). *)
Fixpoint uvarint_list (fuel : nat) (vals : list Z) : res str :=
  match vals with
  | [] => Ok []
  | v :: r => let* a := uvarint_loop fuel (Z.to_N (Z.max 0 v)) in let* b := uvarint_list fuel r in Ok (a ++ b)
  end.

(** ** compressor/delta2_bohe/lrustorage.py, FindKeyValEntries, lines 87-101.
    The ring is a list, oldest entry first.  The loop over [i] from the last
    index down to 1. *)
Definition kvpair := (str * str)%type.

(** Lines 95-99: [for j in xrange(i, 0, -1)] compares entry [i] each time. *)
Fixpoint b_find_inner (ring : list kvpair) (val : str) (i j : nat) : option kvpair :=
  match j with
  | O => None
  | S j' => match nth_error ring i with
            | Some e => if str_eqb (snd e) val then Some e else b_find_inner ring val i j'
            | None => None
            end
  end.

Fixpoint b_find_loop (ring : list kvpair) (key val : str) (i : nat) : option kvpair * option kvpair :=
  match i with
  | O => (None, None)
  | S i' =>
      match nth_error ring i with
      | Some e => if str_eqb (fst e) key then (Some e, b_find_inner ring val i i)
                  else b_find_loop ring key val i'
      | None => (None, None)
      end
  end.

Definition b_find (ring : list kvpair) (key val : str) : option kvpair * option kvpair :=
  b_find_loop ring key val (length ring - 1).
