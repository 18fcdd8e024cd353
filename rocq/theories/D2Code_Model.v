(** * Model of delta2's codec: class HeaderGroup, IsTrueWithDefault and class
      Spdy4CoDe of compressor/delta2/spdy4_codec_impl.py, lines 354-358,
      675-691 and 776-1125, and class Processor of compressor/delta2/__init__.py
      (Python 2).

    Line numbers refer to spdy4_codec_impl.py unless said otherwise.
    Simplifications:
    - a set of indices is its sorted list; the order in which a set or a
      dictionary is iterated is given by an oracle ([order]);
    - the parameters have been parsed into an [options] record (the strings of
      lines 788-794 and int() are in Params_Model);
    - the statistics of lines 375-480 and 1023 (which only count letters) and
      printing are left out;
    - the callback of lines 831-839 runs for all entries popped by one InsertVal
      after the entries have been popped (it only touches header groups, which
      popping does not look at);
    - when an exception is raised the whole call is [Err]. *)
From Coq Require Import String List NArith ZArith Bool Arith.
From Verif Require Import PyBase PyStr Lib_Model Small_Model D2Huff_Model D2Wire_Model D2Store_Model.
Import ListNotations.
Open Scope Z_scope.
Open Scope py_scope.

(** ** Sets of indices *)

Definition zset := list Z.
Definition zmem (x : Z) (s : zset) : bool := existsb (Z.eqb x) s.
Fixpoint zadd (x : Z) (s : zset) : zset :=
  match s with
  | [] => [x]
  | y :: r => if x <? y then x :: s else if x =? y then s else y :: zadd x r
  end.
Definition zremove (x : Z) (s : zset) : zset := filter (fun y => negb (y =? x)) s.
(** s.symmetric_difference_update([x]) *)
Definition ztoggle (x : Z) (s : zset) : zset := if zmem x s then zremove x s else zadd x s.
(** s ^ t and s | t *)
Definition zsymdiff (s t : zset) : zset := fold_left (fun a x => ztoggle x a) t s.
Definition zunion (s t : zset) : zset := fold_left (fun a x => zadd x a) t s.
(** xrange(start, stop); Python 2 raises OverflowError unless both arguments and
    the number of elements fit a C long (64 bits). *)
Definition fits_long (z : Z) : bool := (- 2 ^ 63 <=? z) && (z <? 2 ^ 63).
Definition xrange_fits (start stop : Z) : bool := fits_long start && fits_long stop && (stop - start <? 2 ^ 63).
Definition xrange (start stop : Z) : list Z := map (fun i => start + Z.of_nat i) (seq 0 (Z.to_nat (stop - start))).

(** ** Configuration *)

Record options := mk_options {
  o_max_byte_size : option Z; o_max_entries : option Z; o_small_index : bool; o_varint : bool;
  o_hg_adjust : bool; o_implicit_hg_add : bool; o_refcnt_vals : bool; o_only_etoggles : bool; o_idx_from_end : bool }.

(** No parameters: the defaults of lines 796-798, 808, 815 and 819-823. *)
Definition default_options : options := mk_options None None true true false false false false true.

Record cfg := mk_cfg {
  c_max_byte_size : Z; c_max_entries : Z; c_max_index : Z; c_width : iwidth;
  c_hg_adjust : bool; c_implicit : bool; c_refcnt : bool; c_only_e : bool; c_from_end : bool }.

(** Lines 796-823. *)
Definition config (o : options) : cfg :=
  let n := Z.of_nat (length default_kvs) in
  let max_byte_size := match o_max_byte_size o with Some m => m | None => 4 * 1024 end in
  let max_index := 2 ^ 16 - 1 in
  let max_entries := match o_max_entries o with Some m => Z.min (max_index - n) m | None => 1024 end in
  let w := Int16 in
  let '(w, max_index, max_entries) :=
    if o_small_index o then (Int8, 256 - 1, Z.min ((256 - 1) - n) max_entries) else (w, max_index, max_entries) in
  let w := if o_varint o then VarInt else w in
  mk_cfg max_byte_size max_entries max_index w (o_hg_adjust o) (o_implicit_hg_add o) (o_refcnt_vals o)
    (o_only_etoggles o) (o_idx_from_end o).

(** ** The codec's state: the storage and the header groups by group id *)

Definition groups := list (N * zset).
Record code := mk_code { k_cfg : cfg; k_store : storage; k_groups : groups }.

(** Lines 826-841. *)
Definition code_new (o : options) : res code :=
  let c := config o in
  let* s := storage_new (c_max_byte_size c) (c_max_entries c) (c_max_index c) in
  Ok (mk_code c s []).

Fixpoint gget (g : groups) (id : N) : option zset :=
  match g with [] => None | (i, s) :: r => if N.eqb i id then Some s else gget r id end.
Fixpoint gset (g : groups) (id : N) (s : zset) : groups :=
  match g with [] => [(id, s)] | (i, t) :: r => if N.eqb i id then (i, s) :: r else (i, t) :: gset r id s end.

(** FindOrMakeHeaderGroup, lines 952-957. *)
Definition find_or_make (g : groups) (id : N) : groups :=
  match gget g id with Some _ => g | None => gset g id [] end.

Definition is_nil {A} (l : list A) : bool := match l with [] => true | _ => false end.

(** RemoveVIdxFromAllHeaderGroups, lines 831-839, with RemoveEntry, lines 684-688,
    and Empty, lines 681-682. *)
Definition remove_from_groups (g : groups) (e : entry) : groups :=
  filter (fun p => negb (is_nil (snd p))) (map (fun p => (fst p, zremove (snd e) (snd p))) g).

(** TranslateOpIdxFromHgToLru / TranslateOpIdxFromLruToHg, lines 843-871. *)
Definition map_index (f : Z -> res Z) (o : op) : res op :=
  match o with
  | OToggl e i => let* i := f i in Ok (OToggl e i)
  | OTrang e i s => let* i := f i in let* s := f s in Ok (OTrang e i s)
  | OClone e i v => let* i := f i in Ok (OClone e i v)
  | OKvsto _ _ _ => Ok o
  end.
Fixpoint mapm {A B} (f : A -> res B) (l : list A) : res (list B) :=
  match l with [] => Ok [] | x :: r => let* y := f x in let* r := mapm f r in Ok (y :: r) end.
Definition hg_to_lru_ops (c : cfg) (s : storage) (ops : list op) : res (list op) :=
  if c_from_end c then mapm (map_index (hg_to_lru s)) ops else Ok ops.
Definition lru_to_hg_ops (c : cfg) (s : storage) (ops : list op) : res (list op) :=
  if c_from_end c then mapm (map_index (lru_to_hg s)) ops else Ok ops.

(** ** DecompressorExecuteOps, lines 1043-1125 *)

(** AppendToHeaders, lines 354-358. *)
Definition append_to_headers (h : hdict) (k v : str) : hdict :=
  match dget h k with Some old => dset h k (old ++ [0%N] ++ v) | None => dset h k v end.

(** The local variables during the loop of lines 1052-1089. *)
Record xstate := mk_x { x_heap : heap; x_st : zset; x_et : zset; x_headers : hdict; x_later : list kv }.

Definition toggle (e : bool) (x : xstate) (i : Z) : xstate :=
  if e then mk_x (x_heap x) (x_st x) (ztoggle i (x_et x)) (x_headers x) (x_later x)
  else mk_x (x_heap x) (ztoggle i (x_st x)) (x_et x) (x_headers x) (x_later x).

(** Lines 1053-1089: one operation.  KV(kv.key_, val) shares the key's cell. *)
Definition exec_op (s : storage) (x : xstate) (o : op) : res xstate :=
  match o with
  | OToggl e i => Ok (toggle e x i)
  | OTrang e i start =>
      if xrange_fits start (i + 1) then Ok (fold_left (toggle e) (xrange start (i + 1)) x) else Err OverflowError
  | OClone e i v =>
      let* (k, _) := lookup_idx s i in
      let hd := append_to_headers (x_headers x) (kv_key k) v in
      if e then Ok (mk_x (x_heap x) (x_st x) (x_et x) hd (x_later x))
      else
        let (h, n) := kv_new (x_heap x) (RRef (kv_key k) (kv_kc k)) (RStr v) in
        Ok (mk_x h (x_st x) (x_et x) hd (x_later x ++ [n]))
  | OKvsto e k v =>
      let hd := append_to_headers (x_headers x) k v in
      if e then Ok (mk_x (x_heap x) (x_st x) (x_et x) hd (x_later x))
      else
        let (h, n) := kv_new (x_heap x) (RStr k) (RStr v) in
        Ok (mk_x h (x_st x) (x_et x) hd (x_later x ++ [n]))
  end.
Fixpoint exec_loop (s : storage) (x : xstate) (ops : list op) : res xstate :=
  match ops with [] => Ok x | o :: r => let* x := exec_op s x o in exec_loop s x r end.

(** Lines 1101-1103. *)
Fixpoint append_refs (s : storage) (hd : hdict) (refs : list Z) : res hdict :=
  match refs with
  | [] => Ok hd
  | i :: r => let* (k, _) := lookup_idx s i in append_refs s (append_to_headers hd (kv_key k) (kv_val k)) r
  end.

(** The table, the groups and the object [current_header_group]: it is in the
    dictionary until the callback removes it ([y_orphan = None]). *)
Record ystate := mk_y { y_store : storage; y_groups : groups; y_orphan : option zset }.

Definition y_cur (gid : N) (y : ystate) : zset :=
  match y_orphan y with Some s => s | None => match gget (y_groups y) gid with Some s => s | None => [] end end.
Definition y_set (gid : N) (y : ystate) (s : zset) : ystate :=
  match y_orphan y with
  | Some _ => mk_y (y_store y) (y_groups y) (Some s)
  | None => mk_y (y_store y) (gset (y_groups y) gid s) None
  end.
(** The callback for one entry; an emptied current group leaves the dictionary. *)
Definition y_evict (gid : N) (y : ystate) (e : entry) : ystate :=
  let g := remove_from_groups (y_groups y) e in
  mk_y (y_store y) g
    (match y_orphan y with
     | Some s => Some s
     | None => match gget g gid with Some _ => None | None => Some [] end
     end).

(** Store, lines 1038-1041. *)
Definition store_kv (c : cfg) (gid : N) (y : ystate) (k : kv) : res (ystate * option Z) :=
  let s := y_store y in
  let (h, e) := kv_new (s_heap s) (RRef (kv_key k) (kv_kc k))
                  (if c_refcnt c then RRef (kv_val k) (kv_vc k) else RStr (kv_val k)) in
  let* (s, n, popped) := insert_val (mk_storage h (s_static s) (s_lru s)) e in
  Ok (fold_left (y_evict gid) popped (mk_y s (y_groups y) (y_orphan y)), n).

(** Lines 1111-1114. *)
Fixpoint store_loop (c : cfg) (gid : N) (y : ystate) (later : list kv) : res ystate :=
  match later with
  | [] => Ok y
  | k :: r =>
      let* (y, n) := store_kv c gid y k in
      let y := match n with
               | Some i => if c_implicit c then y_set gid y (zadd i (y_cur gid y)) else y
               | None => y
               end in
      store_loop c gid y r
  end.

(** Lines 1115-1121. *)
Fixpoint adjust_loop (c : cfg) (gid : N) (y : ystate) (later : list (kv * Z)) : res ystate :=
  match later with
  | [] => Ok y
  | (k, old) :: r =>
      let y := if zmem old (y_cur gid y) then y_set gid y (zremove old (y_cur gid y)) else y in
      let* (y, n) := store_kv c gid y k in
      let y := match n with Some i => y_set gid y (zadd i (y_cur gid y)) | None => y end in
      adjust_loop c gid y r
  end.

(** headers['cookie'].replace('\0', '; '), lines 1123-1124. *)
Definition nul_to_semi (v : str) : str := flat_map (fun c => if N.eqb c 0 then [59%N; 32%N] else [c]) v.
Definition cookie_nul (h : hdict) : hdict :=
  match dget h (lit "cookie") with Some v => dset h (lit "cookie") (nul_to_semi v) | None => h end.

(** [ref_order] is the order in which the set kv_references is iterated. *)
Definition execute_ops (ref_order : zset -> list Z) (k : code) (ops : list op) (gid : N) : res (code * hdict) :=
  let c := k_cfg k in
  let s := k_store k in
  let g := find_or_make (k_groups k) gid in
  let* ops := lru_to_hg_ops c s ops in
  let* x := exec_loop s (mk_x (s_heap s) [] [] [] []) ops in
  let s := mk_storage (x_heap x) (s_static s) (s_lru s) in
  let y := mk_y s g None in
  let cur := zsymdiff (y_cur gid y) (x_st x) in
  let y := y_set gid y cur in
  let refs := zsymdiff (x_et x) cur in
  let* hd := append_refs s (x_headers x) (ref_order refs) in
  let* hg_later := if c_hg_adjust c then mapm (fun i => let* (e, _) := lookup_idx s i in Ok (e, i)) cur else Ok [] in
  let* y := store_loop c gid y (x_later x) in
  let* y := adjust_loop c gid y hg_later in
  Ok (mk_code c (y_store y) (y_groups y), cookie_nul hd).

(** ** MakeOperations, lines 959-1027 *)

(** FigureOutRanges, lines 923-944, on the indices of the toggles: single
    toggles and (index, index_start) pairs.  During the loop both lists are kept
    with their last element first. *)
Fixpoint insert_sorted (x : Z) (l : list Z) : list Z :=
  match l with [] => [x] | y :: r => if x <=? y then x :: l else y :: insert_sorted x r end.
Definition sorted (l : list Z) : list Z := fold_right insert_sorted [] l.

Fixpoint ranges_loop (toggles : list Z) (ot : list Z) (otr : list (Z * Z)) (collapsed : nat) : list Z * list (Z * Z) * nat :=
  match toggles with
  | [] => (ot, otr, collapsed)
  | idx :: r =>
      let single :=
        match ot with
        | t :: ot' => if idx - t =? 1 then ranges_loop r ot' ((idx, t) :: otr) (S collapsed) else ranges_loop r (idx :: ot) otr collapsed
        | [] => ranges_loop r (idx :: ot) otr collapsed
        end in
      match otr with
      | (i, start) :: otr' => if idx - i =? 1 then ranges_loop r ot ((idx, start) :: otr') (S collapsed) else single
      | [] => single
      end
  end.
Definition figure_out_ranges (ops : list Z) : list Z * list (Z * Z) :=
  let '(ot, otr, collapsed) := ranges_loop (sorted ops) [] [] 0 in
  if (collapsed <=? 2)%nat then (sorted ops, []) else (rev ot, rev otr).

(** The iteration orders one call can meet. *)
Record order := mk_order {
  r_headers : list (str * str) -> list (str * str);   (* headers_set *)
  r_group : zset -> list Z;                           (* hg_store *)
  r_instr : list opcode;                              (* the keys of instructions *)
  r_refs : zset -> list Z }.                          (* kv_references, in the compressor *)

(** Lines 967-976. *)
Definition pieces (k v : str) : list str :=
  map (strip is_blank) (split_on (if str_eqb k (lit "cookie") then 59%N else 0%N) v).
Definition add_pair (s : list (str * str)) (p : str * str) : list (str * str) := if mem_pair p s then s else s ++ [p].
Definition headers_set (headers : hdict) : list (str * str) :=
  fold_left add_pair (flat_map (fun p => map (fun e => (fst p, e)) (pieces (fst p) (snd p))) headers) [].

Definition remove_pair (p : str * str) (s : list (str * str)) : list (str * str) :=
  filter (fun q => if pair_eq_dec q p then false else true) s.

(** Lines 979-988: what is left of headers_set, and done_set. *)
Fixpoint keep_loop (s : storage) (idxs : list Z) (hs : list (str * str)) (done : zset) : res (list (str * str) * zset) :=
  match idxs with
  | [] => Ok (hs, done)
  | i :: r =>
      let* (e, _) := lookup_idx s i in
      let p := (kv_key e, kv_val e) in
      if mem_pair p hs then keep_loop s r (remove_pair p hs) done else keep_loop s r hs (zadd i done)
  end.

(** Lines 989-1007: stoggls and the lists etoggl (indices), sclone, eclone and
    skvsto of instructions. *)
Record mstate := mk_m { m_st : zset; m_et : list Z; m_sclone : list (Z * str); m_eclone : list (Z * str); m_skvsto : list (str * str) }.
Definition make_op (c : cfg) (s : storage) (m : mstate) (p : str * str) : mstate :=
  let (key, val) := p in
  match find_entry_idx s key val with
  | (_, Some v) =>
      if c_only_e c then mk_m (m_st m) (m_et m ++ [v]) (m_sclone m) (m_eclone m) (m_skvsto m)
      else mk_m (zadd v (m_st m)) (m_et m) (m_sclone m) (m_eclone m) (m_skvsto m)
  | (Some k, None) =>
      if str_eqb key (lit ":path") then mk_m (m_st m) (m_et m) (m_sclone m) (m_eclone m ++ [(k, val)]) (m_skvsto m)
      else mk_m (m_st m) (m_et m) (m_sclone m ++ [(k, val)]) (m_eclone m) (m_skvsto m)
  | (None, None) => mk_m (m_st m) (m_et m) (m_sclone m) (m_eclone m) (m_skvsto m ++ [(key, val)])
  end.

(** The operations of one kind: lines 991-1016, with MutateTogglesToTrangs,
    lines 922-950. *)
Definition ops_of (m : mstate) (done : zset) (c : opcode) : list op :=
  match c with
  | (Toggl, e) => map (OToggl e) (fst (figure_out_ranges (if e then m_et m else zunion (m_st m) done)))
  | (Trang, e) => map (fun r => OTrang e (fst r) (snd r)) (snd (figure_out_ranges (if e then m_et m else zunion (m_st m) done)))
  | (Clone, e) => map (fun r => OClone e (fst r) (snd r)) (if e then m_eclone m else m_sclone m)
  | (Kvsto, false) => map (fun r => OKvsto false (fst r) (snd r)) (m_skvsto m)
  | (Kvsto, true) => []
  end.

Definition make_operations (o : order) (k : code) (headers : hdict) (gid : N) : res (code * instructions) :=
  let c := k_cfg k in
  let s := k_store k in
  let g := find_or_make (k_groups k) gid in
  let cur := match gget g gid with Some z => z | None => [] end in
  let* (hs, done) := keep_loop s (r_group o cur) (headers_set headers) [] in
  let m := fold_left (make_op c s) (r_headers o hs) (mk_m [] [] [] [] []) in
  let* is := mapm (fun oc => let* ops := hg_to_lru_ops c s (ops_of m done oc) in Ok (oc, ops)) (r_instr o) in
  let* (k, _) := execute_ops (r_refs o) (mk_code c s g) (flat_map snd is) gid in
  Ok (k, is).

(** RealOpsToOpAndExecute, lines 1029-1036. *)
Definition real_ops_execute (h : huffman) (ref_order : zset -> list Z) (k : code) (blob : str) : res (code * hdict) :=
  let* (gid, ops) := from_wire (c_width (k_cfg k)) h blob in
  let k := mk_code (k_cfg k) (k_store k) (find_or_make (k_groups k) gid) in
  execute_ops ref_order k ops gid.

(** Lines 57-59 of __init__.py. *)
Definition compress_group (h : huffman) (o : order) (k : code) (headers : hdict) (gid : N) : res (code * str) :=
  let* (k, is) := make_operations o k headers gid in
  let* blob := to_wire (c_width (k_cfg k)) h is gid in
  Ok (k, blob).

(** ** class Processor of __init__.py *)

(** [hosts] maps normalised host names to group ids; the replacement of line 50
    is an arbitrary function [norm], in Host_Model.v the one of the code. *)
Record processor := mk_proc { p_comp : code; p_decomp : code; p_hosts : dict N; p_ids : idstore }.

(** __init__, lines 29-43; IDStore(255). *)
Definition proc_new (o : options) : res processor :=
  let* c := code_new o in
  let* d := code_new o in
  Ok (mk_proc c d [] (ids_new 255)).

(** compress, lines 49-60; identifiers are never given back, so which one
    set.pop would pick does not matter. *)
Definition proc_compress (norm : str -> str) (h : huffman) (o : order) (p : processor) (headers : hdict) (host : str)
  : res (processor * str) :=
  let n := norm host in
  let '(gid, hosts, ids) :=
    match dget (p_hosts p) n with
    | Some g => (g, p_hosts p, p_ids p)
    | None => let (g, ids) := ids_get (fun _ => 0%nat) (p_ids p) in (g, dset (p_hosts p) n g, ids)
    end in
  let* (c, blob) := compress_group h o (p_comp p) headers gid in
  Ok (mk_proc c (p_decomp p) hosts ids, blob).

(** decompress, lines 62-66. *)
Definition proc_decompress (h : huffman) (ref_order : zset -> list Z) (p : processor) (blob : str) : res (processor * hdict) :=
  let* (d, headers) := real_ops_execute h ref_order (p_decomp p) blob in
  Ok (mk_proc (p_comp p) d (p_hosts p) (p_ids p), headers).
