(** * Model of delta2's tables: compressor/delta2/lrustorage.py (all of it) and
      class Storage of compressor/delta2/spdy4_codec_impl.py, lines 20-86 and
      693-772 (Python 2).

    Simplifications:
    - a RefCntString is a pair of a string and the number of its cell; the
      strings in cells never change, so only the reference counts are kept, in
      a list indexed by cell number ([heap]);
    - done() is called once per entry (when it is popped), so the [decr] field
      is left out;
    - the hashes of lines 31-34 only speed comparisons up (equal strings have
      equal hashes) and are left out, as is printing;
    - the callback of PopOne is called by the users of this file: the popped
      entries are returned, in order. *)
From Coq Require Import String List NArith ZArith Bool Arith.
From Verif Require Import PyBase PyStr.
Import ListNotations.
Open Scope Z_scope.
Open Scope py_scope.

(** ** Reference-counted strings, lines 4-29 *)

Definition heap := list Z.
Definition refcnt (h : heap) (c : nat) : Z := nth c h 0.

(** The argument of RefCntString(x): a string or another RefCntString. *)
Inductive rarg := RStr (s : str) | RRef (s : str) (c : nat).

Definition rarg_str (x : rarg) : str := match x with RStr s => s | RRef s _ => s end.

(** Lines 5-11. *)
Definition ref_new (h : heap) (x : rarg) : heap * nat :=
  match x with
  | RStr _ => (h ++ [1], length h)
  | RRef _ c => (update_nth c (fun n => n + 1) h, c)
  end.

(** Lines 16-18. *)
Definition ref_done (h : heap) (c : nat) : heap := update_nth c (fun n => n - 1) h.

(** Lines 26-29. *)
Definition ref_len (h : heap) (s : str) (c : nat) : Z :=
  if 1 <? refcnt h c then 0 else Z.of_nat (length s).

(** ** class KV, lines 36-58; seq_num is kept beside it *)

Record kv := mk_kv { kv_key : str; kv_kc : nat; kv_val : str; kv_vc : nat }.

(** Lines 37-41. *)
Definition kv_new (h : heap) (k v : rarg) : heap * kv :=
  let (h, kc) := ref_new h k in
  let (h, vc) := ref_new h v in
  (h, mk_kv (rarg_str k) kc (rarg_str v) vc).

(** Lines 43-45. *)
Definition kv_done (h : heap) (e : kv) : heap := ref_done (ref_done h (kv_kc e)) (kv_vc e).

(** Lines 53-54. *)
Definition kv_size (h : heap) (e : kv) : Z :=
  ref_len h (kv_val e) (kv_vc e) + ref_len h (kv_key e) (kv_kc e).

(** ** class LruStorage, lines 60-183 *)

(** An entry and its seq_num. *)
Notation entry := (kv * Z)%type.

Record lru := mk_lru {
  l_ring : list entry; l_bytes : Z; l_items : option Z; l_maxb : option Z;
  l_maxs : option Z; l_offset : Z; l_seq : Z }.

(** Lines 61-73. *)
Definition lru_new (maxb items maxs : option Z) (offset : Z) : lru :=
  mk_lru [] 0 items maxb maxs offset offset.

Definition ring_len (l : lru) : Z := Z.of_nat (length (l_ring l)).

Definition set_ring (l : lru) (r : list entry) (b : Z) : lru :=
  mk_lru r b (l_items l) (l_maxb l) (l_maxs l) (l_offset l) (l_seq l).

(** PopOne, lines 91-100; None when it returns 0. *)
Definition pop_one (h : heap) (l : lru) : option (heap * lru * entry) :=
  match l_ring l with
  | [] => None
  | e :: r => Some (kv_done h (fst e), set_ring l r (l_bytes l - kv_size h (fst e)), e)
  end.

(** The two loops of Reserve: while [cond]: if not self.PopOne(): return 0.
    Every turn makes the ring shorter, so [fuel] (its length) is never used up. *)
Fixpoint pop_while (cond : heap -> lru -> bool) (fuel : nat) (h : heap) (l : lru) (popped : list entry)
  : bool * heap * lru * list entry :=
  if cond h l then
    match pop_one h l with
    | None => (false, h, l, popped)
    | Some (h, l, e) =>
        match fuel with
        | O => (false, h, l, popped)
        | S f => pop_while cond f h l (popped ++ [e])
        end
    end
  else (true, h, l, popped).

Definition is_zero (o : option Z) : bool := match o with Some 0 => true | _ => false end.

(** Reserve, lines 78-89. *)
Definition reserve (h : heap) (l : lru) (e : kv) (count : Z) : bool * heap * lru * list entry :=
  if is_zero (l_items l) || is_zero (l_maxb l) then (false, h, l, [])
  else
    let '(ok, h, l, popped) :=
      match l_items l with
      | Some m => pop_while (fun _ l => m <? ring_len l + count) (length (l_ring l)) h l []
      | None => (true, h, l, [])
      end in
    if ok then
      match l_maxb l with
      | Some m => pop_while (fun h l => m <? l_bytes l + kv_size h e) (length (l_ring l)) h l popped
      | None => (true, h, l, popped)
      end
    else (false, h, l, popped).

(** Store, lines 102-118. *)
Definition store (h : heap) (l : lru) (e : kv) : res lru :=
  let size := kv_size h e in
  if match l_maxb l with Some m => m <? l_bytes l + size | None => false end then Err MemoryError
  else if match l_items l with Some m => negb (m =? 0) && (m <? ring_len l + 1) | None => false end then Err MemoryError
  else
    let seq := l_seq l + 1 in
    let seq := match l_maxs l with Some m => if m <=? seq then l_offset l else seq | None => seq end in
    Ok (mk_lru (l_ring l ++ [(e, l_seq l)]) (l_bytes l + size) (l_items l) (l_maxb l) (l_maxs l) (l_offset l) seq).

(** d[i] for a deque: negative positions count from the right. *)
Definition dq_get {A} (r : list A) (i : Z) : res A :=
  let j := if i <? 0 then i + Z.of_nat (length r) else i in
  if (0 <=? j) && (j <? Z.of_nat (length r)) then
    match nth_error r (Z.to_nat j) with Some x => Ok x | None => Err IndexError end
  else Err IndexError.

(** SeqNumToIdxFromLeft, lines 120-138. *)
Definition idx_from_left (l : lru) (seq : Z) : res Z :=
  let* (_, first) := dq_get (l_ring l) 0 in
  if seq <? l_offset l then Err IndexError
  else if seq <? first then
    match l_maxs l with
    | Some m => if m =? 0 then Err IndexError else Ok ((m - first) + (seq - l_offset l))
    | None => Err IndexError
    end
  else Ok (seq - first).

(** Lookup, lines 140-160. *)
Definition lookup (l : lru) (seq : Z) : res entry :=
  let* i := idx_from_left l seq in
  let* e := dq_get (l_ring l) i in
  if snd e =? seq then Ok e else Err StandardError.

(** The inner loop of FindKeyValEntries, lines 172-175, over the remaining ring
    from right to left. *)
Fixpoint find_exact (r : list entry) (key val : str) : option Z :=
  match r with
  | [] => None
  | (e, s) :: r => if str_eqb (kv_key e) key && str_eqb (kv_val e) val then Some s else find_exact r key val
  end.

(** The outer loop, lines 166-177. *)
Fixpoint find_loop (r : list entry) (key val : str) : option Z * option Z :=
  match r with
  | [] => (None, None)
  | (e, s) :: r =>
      if str_eqb (kv_key e) key then
        if str_eqb (kv_val e) val then (Some s, Some s)
        else match find_exact r key val with Some s' => (Some s', Some s') | None => (Some s, None) end
      else find_loop r key val
  end.
Definition find_entries (l : lru) (key val : str) : option Z * option Z := find_loop (rev (l_ring l)) key val.

(** ** class Storage of spdy4_codec_impl.py *)

(** Lines 20-86. *)
Definition default_kvs : list (str * str) :=
  [(lit ":scheme", lit "http"); (lit "connection", lit "keep-alive")] ++
  map (fun k => (lit k, []))
   ["x-xss-protection"; "x-powered-by"; "x-frame-options"; "x-content-type-options"; "p3p"; "get-dictionary";
    "content-disposition"; "access-control-allow-origin"; "www-authenticate"; "warning"; "via"; "vary"; "user-agent";
    "upgrade"; "transfer-encoding"; "trailer"; "te"; "status"; "set-cookie"; "server"; "retry-after"; "referer";
    "range"; "proxy-authorization"; "proxy-authenticate"; "pragma"; "origin"; "max-forwards"; "location";
    "last-modified"; "if-unmodified-since"; "if-range"; "if-none-match"; "if-modified-since"; "if-match"; "from";
    "expires"; "expect"; "etag"; "date"; "content-type"; "content-range"; "content-md5"; "content-location";
    "content-length"; "content-encoding"; "content-base"; "cache-control"; "authorizations"; "allow";
    "accept-ranges"; "accept-language"; "accept-encoding"; "accept-charset"; "accept"]%string ++
  [(lit ":version", lit "1.1"); (lit ":status-text", lit "OK"); (lit ":status", lit "200"); (lit "cookie", []);
   (lit ":host", []); (lit ":scheme", lit "https"); (lit ":method", lit "get"); (lit ":path", lit "/")].

Record storage := mk_storage { s_heap : heap; s_static : lru; s_lru : lru }.

(** Lines 699-701. *)
Fixpoint store_all (h : heap) (l : lru) (kvs : list (str * str)) : res (heap * lru) :=
  match kvs with
  | [] => Ok (h, l)
  | (k, v) :: r =>
      let (h, e) := kv_new h (RStr k) (RStr v) in
      let* l := store h l e in
      store_all h l r
  end.

(** __init__, lines 695-705. *)
Definition storage_new (max_byte_size max_entries max_index : Z) : res storage :=
  let* (h, static) := store_all [] (lru_new None None None 0) default_kvs in
  Ok (mk_storage h static (lru_new (Some max_byte_size) (Some max_entries) (Some max_index) (ring_len static))).

(** LruIdxToHgIdx, lines 706-714. *)
Definition lru_to_hg (s : storage) (idx : Z) : res Z :=
  if idx <? ring_len (s_lru s) then let* e := dq_get (l_ring (s_lru s)) (- (idx + 1)) in Ok (snd e)
  else Ok ((ring_len (s_static s) - 1) - (idx - ring_len (s_lru s))).

(** HgIdxToLruIdx, lines 716-725. *)
Definition hg_to_lru (s : storage) (idx : Z) : res Z :=
  let* r :=
    if ring_len (s_static s) <=? idx then
      let* p := idx_from_left (s_lru s) idx in Ok (p + ring_len (s_static s))
    else Ok idx in
  Ok ((ring_len (s_lru s) + ring_len (s_static s) - 1) - r).

(** InsertVal, lines 731-735; with the entries that were popped. *)
Definition insert_val (s : storage) (e : kv) : res (storage * option Z * list entry) :=
  let '(ok, h, l, popped) := reserve (s_heap s) (s_lru s) e 1 in
  if ok then
    let* l := store h l e in
    let* last := dq_get (l_ring l) (-1) in
    Ok (mk_storage h (s_static s) l, Some (snd last), popped)
  else Ok (mk_storage h (s_static s) l, None, popped).

(** LookupFromIdx, lines 737-741. *)
Definition lookup_idx (s : storage) (seq : Z) : res entry :=
  if seq <? ring_len (s_static s) then lookup (s_static s) seq else lookup (s_lru s) seq.

(** FindEntryIdx, lines 748-756: "if ke_idx:" is true unless None or 0. *)
Definition find_entry_idx (s : storage) (key val : str) : option Z * option Z :=
  let (ke, ve) := find_entries (s_lru s) key val in
  match ve with
  | Some _ => (ke, ve)
  | None =>
      if match ke with Some k => negb (k =? 0) | None => false end
      then (ke, snd (find_entries (s_static s) key val))
      else find_entries (s_static s) key val
  end.
