(** * Model of compressor/delta2_bohe/lrustorage.py (all of it but
      FindKeyValEntries, for which see Small_Model.v, and printing), and of class
      IDStore of compressor/delta2_bohe/common_utils.py, lines 55-78 (Python 2).

    Simplifications: a limit that is None or 0 is never tested ("if
    self.max_items"), so limits are numbers and 0 is "none"; the callback of
    PopOne is left to its users; Reserve's two "return 0" cannot be reached, as
    PopOne either returns 1 or raises. *)
From Coq Require Import String List NArith ZArith Bool.
From Verif Require Import PyBase PyStr Small_Model.
Import ListNotations.
Open Scope Z_scope.
Open Scope py_scope.

(** class KV, lines 4-11. *)
Record bkv := mk_bkv { bk_key : str; bk_val : str; bk_seq : Z }.
Definition bk_size (e : bkv) : Z := Z.of_nat (length (bk_val e)) + Z.of_nat (length (bk_key e)).

(** class LruStorage, lines 18-30. *)
Record blim := mk_blim { lim_bytes : Z; lim_items : Z; lim_seq : Z; lim_off : Z }.
Record blru := mk_blru { bl_ring : list bkv; bl_bytes : Z; bl_next : Z }.
Definition blru_new (c : blim) : blru := mk_blru [] 0 (lim_off c).

(** PopOne, lines 46-52: popleft of an empty deque raises. *)
Definition b_pop (l : blru) : option blru :=
  match bl_ring l with [] => None | e :: r => Some (mk_blru r (bl_bytes l - bk_size e) (bl_next l)) end.

(** A loop of Reserve, lines 37-39 and 41-43; every turn makes the ring shorter. *)
Fixpoint b_pop_while (cond : blru -> bool) (fuel : nat) (l : blru) : res unit * blru :=
  if cond l then
    match b_pop l with
    | None => (Err IndexError, l)
    | Some l => match fuel with O => (Err IndexError, l) | S f => b_pop_while cond f l end
    end
  else (Ok tt, l).

(** Reserve, lines 35-44. *)
Definition b_reserve (c : blim) (l : blru) (size count : Z) : res unit * blru :=
  let (r, l) :=
    if lim_items c =? 0 then (Ok tt, l)
    else b_pop_while (fun l => lim_items c <? Z.of_nat (length (bl_ring l)) + count) (length (bl_ring l)) l in
  match r with
  | Err e => (Err e, l)
  | Ok _ =>
      if lim_bytes c =? 0 then (Ok tt, l)
      else b_pop_while (fun l => lim_bytes c <? bl_bytes l + size) (length (bl_ring l)) l
  end.

(** Store, lines 54-65. *)
Definition b_store (c : blim) (l : blru) (k v : str) : res blru :=
  let e := mk_bkv k v (bl_next l) in
  if negb (lim_bytes c =? 0) && (lim_bytes c <? bl_bytes l + bk_size e) then Err MemoryError
  else if negb (lim_items c =? 0) && (lim_items c <? Z.of_nat (length (bl_ring l)) + 1) then Err MemoryError
  else
    let n := bl_next l + 1 in
    let n := if negb (lim_seq c =? 0) && (lim_seq c <? n) then lim_off c else n in
    Ok (mk_blru (bl_ring l ++ [e]) (bl_bytes l + bk_size e) n).

(** d[i] for a deque: negative positions count from the right. *)
Definition b_at (r : list bkv) (i : Z) : res bkv :=
  let j := if i <? 0 then i + Z.of_nat (length r) else i in
  if j <? 0 then Err IndexError
  else match nth_error r (Z.to_nat j) with Some x => Ok x | None => Err IndexError end.

(** Lookup, lines 67-85. *)
Definition b_lookup (c : blim) (l : blru) (n : Z) : res bkv :=
  let* first := b_at (bl_ring l) 0 in
  if n <? lim_off c then Err IndexError
  else
    let* i := if n <? bk_seq first then
                if lim_seq c =? 0 then Err IndexError else Ok (lim_seq c - bk_seq first + n)
              else Ok (n - bk_seq first) in
    b_at (bl_ring l) i.

(** What a user can do; an exception is caught and the storage used further. *)
Inductive bop := BReserve (size count : Z) | BStore (k v : str) | BPop.
Definition b_step (c : blim) (l : blru) (o : bop) : blru :=
  match o with
  | BReserve size count => snd (b_reserve c l size count)
  | BStore k v => match b_store c l k v with Ok l => l | Err _ => l end
  | BPop => match b_pop l with Some l => l | None => l end
  end.
Definition b_run (c : blim) (l : blru) (ops : list bop) : blru := fold_left (b_step c) ops l.

(** ** IDStore, lines 55-78 of common_utils.py.  The same as delta2's (Small_Model.v)
    but for a letter: line 60 sets "mininum_id", line 73 reads "minimum_id". *)

(** GetNext, lines 66-74: next_idx has been counted up when line 73 raises. *)
Definition bids_get (pick : list N -> nat) (s : idstore) : res N * idstore :=
  match is_ids s with
  | d :: _ =>
      let x := nth (pick (is_ids s) mod length (is_ids s)) (is_ids s) d in
      (Ok x, mk_ids (removeN x (is_ids s)) (is_next s) (is_max s))
  | [] =>
      let n := (is_next s + 1)%N in
      let s := mk_ids [] n (is_max s) in
      if (negb (is_max s =? 0) && (is_max s <=? n))%N then (Err AttributeError, s) else (Ok n, s)
  end.
