(** * Model of compressor/delta2_bohe: lrustorage.py, and HeaderGroup, Storage and
      Spdy4CoDe of spdy4_codec_impl.py (Python 2).

    Line numbers refer to spdy4_codec_impl.py unless lrustorage.py is named.  No
    Python version can load the package (C80); here the classes are taken in
    isolation.  Both directions are modelled: MakeOperations, and the methods that
    the commented-out Processor.decompress would call.  Simplifications:
    - the operations go from one to the other as values: they are what
      PreProcessToggles and the order of SerializeInstructions make of the
      instructions (their octets are in DCW_Model; they are those of DB_Model but for the group id, and
      binary values cannot be told from text in them: C64);
    - the field 'huff' of an operation, which only the writing looks at, and erefs,
      which nothing makes, are left out;
    - bohe.encode is any function that may raise ([enc]);
    - KV objects are not shared (Lookup returns copies), so they are values;
    - what an exception leaves behind is not modelled: the session ends with it. *)
From Coq Require Import String List NArith ZArith Bool Arith.
From Verif Require Import PyBase PyStr Lib_Model D1Wire_Model D2Code_Model DB_Model.
Import ListNotations.
Open Scope Z_scope.
Open Scope py_scope.

(** ** lrustorage.py *)

(** KV, lines 4-11 of lrustorage.py. *)
Record kv := mk_kv { q_seq : Z; q_key : str; q_val : str }.
Definition q_size (e : kv) : Z := slen (q_val e) + slen (q_key e).

(** The limits that Storage.__init__ gives, lines 646-649. *)
Definition max_bytes : Z := 16 * 1024.
Definition max_items : Z := 1024.
Definition max_seq : Z := 65536.

(** g_default_kvs, lines 23-89. *)
Definition g_default_kvs : list (str * str) := map (fun '(k, v) => (lit k, lit v)) [
  ("date", ""); (":scheme", "https"); (":method", "get"); (":path", "/"); (":host", ""); ("cookie", ""); (":status", "200");
  (":status-text", "OK"); (":version", "1.1"); ("accept", ""); ("accept-charset", ""); ("accept-encoding", "");
  ("accept-language", ""); ("accept-ranges", ""); ("allow", ""); ("authorizations", ""); ("cache-control", "");
  ("content-base", ""); ("content-encoding", ""); ("content-length", ""); ("content-location", ""); ("content-md5", "");
  ("content-range", ""); ("content-type", ""); ("etag", ""); ("expect", ""); ("expires", ""); ("from", ""); ("if-match", "");
  ("if-modified-since", ""); ("if-none-match", ""); ("if-range", ""); ("if-unmodified-since", ""); ("last-modified", "");
  ("location", ""); ("max-forwards", ""); ("origin", ""); ("pragma", ""); ("proxy-authenticate", ""); ("proxy-authorization", "");
  ("range", ""); ("referer", ""); ("retry-after", ""); ("server", ""); ("set-cookie", ""); ("status", ""); ("te", ""); ("trailer", "");
  ("transfer-encoding", ""); ("upgrade", ""); ("user-agent", ""); ("user-agent", ""); ("vary", ""); ("via", ""); ("warning", "");
  ("www-authenticate", ""); ("access-control-allow-origin", ""); ("content-disposition", ""); ("get-dictionary", ""); ("p3p", "");
  ("x-content-type-options", ""); ("x-frame-options", ""); ("x-powered-by", ""); ("x-xss-protection", "");
  ("connection", "keep-alive")]%string.

(** The static storage, lines 643-645: a ring without limits, numbered from 0. *)
Fixpoint number (n : Z) (l : list (str * str)) : list kv :=
  match l with [] => [] | (k, v) :: r => mk_kv n k v :: number (n + 1) r end.
Definition static : list kv := number 0 g_default_kvs.
Definition offset : Z := Z.of_nat (length static).

(** The other storage: ring, byte_size and seq_num. *)
Record lru := mk_lru { r_ring : list kv; r_bytes : Z; r_next : Z }.

(** ** HeaderGroup, lines 577-639: generation and hg_store. *)
Record group := mk_group { g_gen : N; g_store : list (Z * N) }.
Definition g_idxs (g : group) : list Z := map fst (g_store g).
Definition g_has (g : group) (i : Z) : bool := existsb (Z.eqb i) (g_idxs g).
(** TouchEntry, lines 607-611. *)
Definition g_touch (g : group) (i : Z) : group :=
  mk_group (g_gen g) (if g_has g i then map (fun x => if fst x =? i then (i, g_gen g) else x) (g_store g)
                      else g_store g ++ [(i, g_gen g)]).
(** RemoveEntry, lines 613-617. *)
Definition g_remove (g : group) (i : Z) : group := mk_group (g_gen g) (filter (fun x => negb (fst x =? i)) (g_store g)).
(** Toggle, lines 628-636. *)
Definition g_toggle (g : group) (i : Z) : group :=
  if g_has g i then g_remove g i else mk_group (g_gen g) (g_store g ++ [(i, g_gen g)]).
(** FindOldEntries, lines 619-623. *)
Definition g_old (g : group) : list Z := map fst (filter (fun x => negb (snd x =? g_gen g)%N) (g_store g)).
(** IncrementGeneration, lines 596-597. *)
Definition g_next (g : group) : group := mk_group (g_gen g + 1)%N (g_store g).

(** header_groups *)
Definition groups := list (N * group).
Fixpoint gs_get (gs : groups) (n : N) : option group :=
  match gs with [] => None | (m, g) :: r => if (m =? n)%N then Some g else gs_get r n end.
Fixpoint gs_set (gs : groups) (n : N) (g : group) : groups :=
  match gs with [] => [(n, g)] | (m, x) :: r => if (m =? n)%N then (n, g) :: r else (m, x) :: gs_set r n g end.
(** FindOrMakeHeaderGroup, lines 747-752. *)
Definition gs_make (gs : groups) (n : N) : groups * group :=
  match gs_get gs n with Some g => (gs, g) | None => (gs_set gs n (mk_group 0 []), mk_group 0 []) end.
(** header_groups[group_id] *)
Definition gs_at (gs : groups) (n : N) : res group := match gs_get gs n with Some g => Ok g | None => Err KeyError end.
(** RemoveVIdxFromAllHeaderGroups, lines 696-707: groups that are empty afterwards go. *)
Definition gs_drop (gs : groups) (i : Z) : groups :=
  filter (fun x => match g_store (snd x) with [] => false | _ => true end) (map (fun '(n, g) => (n, g_remove g i)) gs).

(** A codec: lru_storage and header_groups. *)
Record code := mk_code { k_lru : lru; k_groups : groups }.

(** ** Storage, lines 641-686 *)

(** Reserve, lines 35-44 of lrustorage.py, with PopOne, lines 46-52 (popleft of an
    empty deque raises) and the callback; item_count is 1. *)
Fixpoint pop_items (ring : list kv) (bytes : Z) (gs : groups) : res (list kv * Z * groups) :=
  if max_items <? Z.of_nat (length ring) + 1 then
    match ring with [] => Err IndexError | e :: r => pop_items r (bytes - q_size e) (gs_drop gs (q_seq e)) end
  else Ok (ring, bytes, gs).
Fixpoint pop_bytes (size : Z) (ring : list kv) (bytes : Z) (gs : groups) : res (list kv * Z * groups) :=
  if max_bytes <? bytes + size then
    match ring with [] => Err IndexError | e :: r => pop_bytes size r (bytes - q_size e) (gs_drop gs (q_seq e)) end
  else Ok (ring, bytes, gs).

(** Store, lines 54-65 of lrustorage.py. *)
Definition store (l : lru) (k v : str) : res (lru * Z) :=
  let size := slen v + slen k in
  if max_bytes <? r_bytes l + size then Err MemoryError
  else if max_items <? Z.of_nat (length (r_ring l)) + 1 then Err MemoryError
  else
    let n := r_next l in
    Ok (mk_lru (r_ring l ++ [mk_kv n k v]) (r_bytes l + size) (if max_seq <? n + 1 then offset else n + 1), n).

(** InsertVal, lines 659-662. *)
Definition insert_val (c : code) (k v : str) : res (code * Z) :=
  let l := k_lru c in
  let* (ring, bytes, gs) := pop_items (r_ring l) (r_bytes l) (k_groups c) in
  let* (ring, bytes, gs) := pop_bytes (slen v + slen k) ring bytes gs in
  let* (l, i) := store (mk_lru ring bytes (r_next l)) k v in
  Ok (mk_code l gs, i).

(** Lookup, lines 67-85 of lrustorage.py, in the ring with limits; LookupFromIdx,
    lines 654-657. *)
Definition nth_kv (ring : list kv) (i : Z) : res kv :=
  match nth_error ring (Z.to_nat i) with Some e => Ok e | None => Err IndexError end.
Definition lookup (c : code) (i : Z) : res kv :=
  if i <? offset then nth_kv static i
  else match r_ring (k_lru c) with
       | [] => Err IndexError
       | f :: _ =>
           if i <? q_seq f then nth_kv (r_ring (k_lru c)) (max_seq - q_seq f + i)
           else nth_kv (r_ring (k_lru c)) (i - q_seq f)
       end.

(** FindKeyValEntries, lines 87-101 of lrustorage.py: the newest entry with the key,
    the oldest entry of the ring apart; that one, if it has the value (C43). *)
Definition find_kv (ring : list kv) (k v : str) : option Z * option Z :=
  match find (fun e => str_eqb (q_key e) k) (rev (tl ring)) with
  | None => (None, None)
  | Some e => (Some (q_seq e), if str_eqb (q_val e) v then Some (q_seq e) else None)
  end.

(** FindEntryIdx, lines 667-686. *)
Definition find_idx (c : code) (k v : str) : option Z * option Z :=
  match find_kv (r_ring (k_lru c)) k v with
  | (Some ki, Some vi) => (Some ki, Some vi)
  | (Some ki, None) => (Some ki, snd (find_kv static k v))
  | (None, _) => find_kv static k v
  end.

(** ** MakeOperations, lines 844-879 *)

Record instrs := mk_instrs { n_toggl : list Z; n_clone : list (Z * str); n_kvsto : list (str * str) }.

(** HasKVAndTouchIfTrue, lines 585-591; [idxs]: hg_store.keys(). *)
Fixpoint has_kv (c : code) (k v : str) (idxs : list Z) : res (option Z) :=
  match idxs with
  | [] => Ok None
  | i :: r =>
      let* e := lookup c i in
      if str_eqb (q_key e) k && str_eqb (q_val e) v then Ok (Some i) else has_kv c k v r
  end.

(** ProcessKV, lines 811-842; [ord]: the order of hg_store. *)
Definition process_kv (ord : list Z -> list Z) (gid : N) (c : code) (i : instrs) (k v : str) : res (code * instrs) :=
  let* g := gs_at (k_groups c) gid in
  let touch n := mk_code (k_lru c) (gs_set (k_groups c) gid (g_touch g n)) in
  let* hit := has_kv c k v (ord (g_idxs g)) in
  match hit with
  | Some n => Ok (touch n, i)
  | None =>
      match find_idx c k v with
      | (_, Some n) =>
          if g_has g n then Ok (touch n, i)
          else Ok (c, mk_instrs (n_toggl i ++ [n]) (n_clone i) (n_kvsto i))
      | (Some n, None) => Ok (c, mk_instrs (n_toggl i) (n_clone i ++ [(n, v)]) (n_kvsto i))
      | (None, None) => Ok (c, mk_instrs (n_toggl i) (n_clone i) (n_kvsto i ++ [(k, v)]))
      end
  end.

(** The loop of lines 856-863.  The pairs of a message: the crumbs of a cookie one
    by one, each with the value bohe.encode gives it. *)
Fixpoint process_all (ord : list Z -> list Z) (enc : str -> str -> res str) (gid : N) (c : code) (i : instrs) (pairs : list (str * str))
  : res (code * instrs) :=
  match pairs with
  | [] => Ok (c, i)
  | (k, v) :: r =>
      let* w := enc k v in
      let* (c, i) := process_kv ord gid c i k w in
      process_all ord enc gid c i r
  end.
Definition split_headers (headers : list (str * str)) : list (str * str) :=
  flat_map (fun '(k, v) => map (pair k) (values_of k v)) headers.

(** ExecuteToggle, lines 912-914. *)
Definition exec_toggle (gid : N) (c : code) (i : Z) : res code :=
  let* g := gs_at (k_groups c) gid in
  Ok (mk_code (k_lru c) (gs_set (k_groups c) gid (g_toggle g i))).
Fixpoint exec_toggles (gid : N) (c : code) (is : list Z) : res code :=
  match is with [] => Ok c | i :: r => let* c := exec_toggle gid c i in exec_toggles gid c r end.

(** ExecuteOp for kvsto and tclon, lines 932-936, with TouchHeaderGroupEntry, lines
    754-759. *)
Definition exec_store (gid : N) (c : code) (k v : str) : res code :=
  let* (c, i) := insert_val c k v in
  let (gs, g) := gs_make (k_groups c) gid in
  Ok (mk_code (k_lru c) (gs_set gs gid (g_touch g i))).
Fixpoint exec_stores (gid : N) (c : code) (l : list (str * str)) : res code :=
  match l with [] => Ok c | (k, v) :: r => let* c := exec_store gid c k v in exec_stores gid c r end.

(** The translation of clones, lines 794-805 and 896-903. *)
Fixpoint translate (c : code) (l : list (Z * str)) : res (list (str * str)) :=
  match l with
  | [] => Ok []
  | (n, v) :: r => let* e := lookup c n in let* t := translate c r in Ok ((q_key e, v) :: t)
  end.

(** ExecuteInstructionsExceptERefs, lines 789-809. *)
Definition exec_instrs (gid : N) (c : code) (i : instrs) : res code :=
  let* c := exec_toggles gid c (n_toggl i) in
  let* t := translate c (n_clone i) in
  let* c := exec_stores gid c t in
  exec_stores gid c (n_kvsto i).

(** AdjustHeaderGroupEntries, lines 775-787: MoveToHeadOfLRU stores a copy. *)
Fixpoint lookups (c : code) (is : list Z) : res (list kv) :=
  match is with [] => Ok [] | i :: r => let* e := lookup c i in let* es := lookups c r in Ok (e :: es) end.
Fixpoint insert_each (c : code) (es : list kv) : res code :=
  match es with [] => Ok c | e :: r => let* (c, _) := insert_val c (q_key e) (q_val e) in insert_each c r end.
Definition adjust (gid : N) (c : code) : res code :=
  let* g := gs_at (k_groups c) gid in
  let* es := lookups c (sort_z (g_idxs g)) in
  insert_each c es.

Definition make_operations (ord : list Z -> list Z) (enc : str -> str -> res str) (gid : N) (c : code) (headers : list (str * str))
  : res (code * instrs) :=
  let (gs, _) := gs_make (k_groups c) gid in
  let* (c, i) := process_all ord enc gid (mk_code (k_lru c) gs) (mk_instrs [] [] []) (split_headers headers) in
  let* c := exec_instrs gid c i in
  let (gs, g) := gs_make (k_groups c) gid in
  let offs := ord (g_old g) in
  let* c := exec_toggles gid (mk_code (k_lru c) gs) offs in
  let* g := gs_at (k_groups c) gid in
  let* c := adjust gid (mk_code (k_lru c) (gs_set (k_groups c) gid (g_next g))) in
  Ok (c, mk_instrs (n_toggl i ++ offs) (n_clone i) (n_kvsto i)).

(** ** What arrives, lines 381-402 and 497-503. *)
Inductive op := OToggl (i : Z) | OTrang (first last : Z) | OClone (key_idx : Z) (v : str) | OKvsto (k v : str).
Definition sent (i : instrs) : list op :=
  let (ot, otr) := toggle_ranges (n_toggl i) in
  map OToggl ot ++ map (fun '(s, e) => OTrang s e) otr ++ map (fun '(n, v) => OClone n v) (n_clone i) ++
  map (fun '(k, v) => OKvsto k v) (n_kvsto i).

(** ExecuteOps, lines 890-910, with ExecuteOp, lines 916-937. *)
Definition clones_of (ops : list op) : list (Z * str) := flat_map (fun o => match o with OClone n v => [(n, v)] | _ => [] end) ops.
Definition exec_op (gid : N) (c : code) (o : op) : res code :=
  match o with
  | OToggl i => exec_toggle gid c i
  | OTrang s e => exec_toggles gid c (map (fun n => s + Z.of_nat n) (seq 0 (Z.to_nat (e + 1 - s))))
  | OClone _ _ => Ok c (* line 907 *)
  | OKvsto k v => exec_store gid c k v
  end.
Fixpoint exec_ops (gid : N) (c : code) (ops : list op) : res code :=
  match ops with [] => Ok c | o :: r => let* c := exec_op gid c o in exec_ops gid c r end.
Definition execute (gid : N) (c : code) (ops : list op) : res code :=
  let (gs, _) := gs_make (k_groups c) gid in
  let c := mk_code (k_lru c) gs in
  let* t := translate c (clones_of ops) in
  let* c := exec_stores gid c t in
  exec_ops gid c ops.

(** GenerateAllHeaders, lines 939-963. *)
Definition add_header (h : hdict) (e : kv) : hdict :=
  match dget h (q_key e) with
  | Some x => dset h (q_key e) (x ++ [0%N] ++ q_val e)
  | None => dset h (q_key e) (q_val e)
  end.
Definition generate (gid : N) (c : code) : res (code * hdict) :=
  let* g := gs_at (k_groups c) gid in
  let* es := lookups c (sort_z (g_idxs g)) in
  let h := cookie_nul (fold_left add_header es []) in
  let* c := adjust gid c in
  Ok (c, h).

(** A new codec, lines 689-708. *)
Definition code_new : code := mk_code (mk_lru [] 0 offset) [].

(** A conversation: each message through the one codec's MakeOperations and the
    other's ExecuteOps and GenerateAllHeaders. *)
Fixpoint converse (ord : nat -> list Z -> list Z) (enc : str -> str -> res str) (n : nat) (c d : code) (msgs : list (N * list (str * str)))
  : res (list hdict) :=
  match msgs with
  | [] => Ok []
  | (gid, headers) :: r =>
      let* (c, i) := make_operations (ord n) enc gid c headers in
      let* d := execute gid d (sent i) in
      let* (d, out) := generate gid d in
      let* outs := converse ord enc (S n) c d r in
      Ok (out :: outs)
  end.
