(** * Model of delta (v1)'s codec: classes HeaderGroup, LRU, Storage and
      Spdy4CoDe of compressor/delta/spdy4_codec_impl.py, lines 351-355 and
      556-1100, class IDStore of compressor/delta/common_utils.py and class
      Processor of compressor/delta/__init__.py (Python 2).

    Line numbers refer to spdy4_codec_impl.py unless said otherwise.
    Simplifications:
    - a value entry (class VE, lines 632-647) is named by its lru_idx; all
      entries that have one are kept in [t_lru], in the order of the linked list
      of class LRU, lines 578-611.  An entry is in the val_map of its key exactly
      when it is in that list, so the val_maps are not kept separately;
    - a key entry (class KE, lines 618-630) is its name and key_idx; ref_cnt is 0
      except while InsertVal makes room ([pin]);
    - a set of indices is its sorted list; the order in which it is iterated is
      given by an oracle;
    - the set [groups] of a value entry is the history of what was done to it
      ([v_hist], latest first); the order in which it is iterated is a function of that history;
    - the loop of lines 664-671 uses the module's leftover variables [key] and [val]
      (set by the loop of line 310), not [k] and [v].  So 65 entries with the
      indices 1 to 65 are made for one key, whose name is that of an opcode (the
      one Python's dictionary iterates last: [dk]) and whose value is a tuple.
      They are in lru_idx_to_ve, but not in the linked list.  No header value
      equals a tuple, so the compressor never refers to them; a message made by
      somebody else that does is outside this model ([GenericException]);
    - parsing of the parameters is in Params_Model; statistics and printing are left out;
    - when an exception is raised the whole call is [Err]. *)
From Coq Require Import String List NArith ZArith Bool Arith.
From Verif Require Import PyBase PyStr Lib_Model Small_Model D2Huff_Model D2Store_Model D2Code_Model D1Wire_Model.
Import ListNotations.
Open Scope Z_scope.
Open Scope py_scope.

(** ** Identifiers *)

(** IDStore.GetNext, lines 66-74 of common_utils.py, with the maximum 2**16;
    nothing is ever given back by the codec. *)
Definition next_id (minimum next : Z) : Z := if 2 ^ 16 <=? next + 1 then minimum else next + 1.

(** GetNextUnusedId, lines 745-756; [idx] is always next_idx.  [fuel]: at most
    2**16 identifiers come before the first one again. *)
Fixpoint unused_loop (fuel : nat) (used : Z -> bool) (minimum first idx : Z) : res Z :=
  if used idx then
    match fuel with
    | O => Err Diverge
    | S f =>
        let n := next_id minimum idx in
        if n =? first then Err StandardError else unused_loop f used minimum first n
    end
  else Ok idx.
Definition unused_id (used : Z -> bool) (minimum next : Z) : res Z :=
  let n := next_id minimum next in unused_loop (Z.to_nat (2 ^ 16)) used minimum n n.

(** ** Value entries *)

(** What has been done to the set of group ids of an entry. *)
Inductive gop := GAdd (g : N) | GRem (g : N) | GClear.
Fixpoint gels (h : list gop) : list N :=
  match h with
  | [] => []
  | GAdd g :: r => if existsb (N.eqb g) (gels r) then gels r else g :: gels r
  | GRem g :: r => filter (fun x => negb (N.eqb x g)) (gels r)
  | GClear :: _ => []
  end.
Definition gmem (g : N) (h : list gop) : bool := existsb (N.eqb g) (gels h).

Record ve := mk_ve { v_idx : Z; v_key : str; v_val : str; v_hist : list gop }.

(** ** class Storage, lines 615-817 *)

Record store1 := mk_store1 {
  t_keys : list (str * Z);      (* key_map: names and key_idx *)
  t_kidx : list (Z * str);      (* key_idx_to_ke *)
  t_kid : Z;                    (* key_ids.next_idx *)
  t_lid : Z;                    (* lru_ids.next_idx *)
  t_size : Z;                   (* state_size *)
  t_num : Z;                    (* num_vals *)
  t_maxv : Z; t_maxb : Z;
  t_lru : list ve }.

(** The length of g_default_kvs, lines 21-87. *)
Definition n_defaults : Z := 65.

(** __init__, lines 649-671. *)
Definition store1_new (dk : str) (maxb maxv : Z) : store1 :=
  mk_store1 [(dk, 1)] [] 1 n_defaults 0 0 maxv maxb [].

Definition set_lru (t : store1) (l : list ve) : store1 :=
  mk_store1 (t_keys t) (t_kidx t) (t_kid t) (t_lid t) (t_size t) (t_num t) (t_maxv t) (t_maxb t) l.

(** FindKeyEntry, lines 694-697: the entry's key_idx. *)
Fixpoint find_key (l : list (str * Z)) (k : str) : option Z :=
  match l with [] => None | (k', i) :: r => if str_eqb k' k then Some i else find_key r k end.
(** FindKeyByKeyIdx, lines 699-700: the entry's name. *)
Fixpoint find_kidx (l : list (Z * str)) (i : Z) : option str :=
  match l with [] => None | (i', k) :: r => if i' =? i then Some k else find_kidx r i end.
(** FindValEntry, lines 802-805. *)
Definition find_val (l : list ve) (k v : str) : option ve := find (fun e => str_eqb (v_key e) k && str_eqb (v_val e) v) l.
Definition is_default (i : Z) : bool := (1 <=? i) && (i <=? n_defaults).
Definition find_idx (l : list ve) (i : Z) : option ve := find (fun e => v_idx e =? i) l.
(** LookupFromIdx, lines 768-769, followed by the use of the entry, which fails for None. *)
Definition look (l : list ve) (i : Z) : res ve :=
  match find_idx l i with
  | Some e => Ok e
  | None => if is_default i then Err GenericException else Err AttributeError
  end.

(** ** The codec *)

Record code1 := mk_code1 { d_store : store1; d_groups : groups }.

(** __init__, lines 820-849. *)
Definition code1_new (dk : str) (maxb maxv : Z) : code1 := mk_code1 (store1_new dk maxb maxv) [].

(** RemoveVEFromAllHeaderGroups, lines 842-847, with RemoveEntry, lines 565-569;
    also the loop of lines 894-896. *)
Fixpoint remove_idx (g : groups) (i : Z) (ids : list N) : res groups :=
  match ids with
  | [] => Ok g
  | id :: r =>
      match gget g id with
      | Some z => remove_idx (gset g id (zremove i z)) i r
      | None => Err KeyError
      end
  end.

(** PopOne, lines 673-680, with RemoveVal, lines 778-797; None when the list is
    empty.  [pin] is the key whose ref_cnt is not 0. *)
Definition pop_one1 (dk : str) (pin : option str) (c : code1) : res (option code1) :=
  let t := d_store c in
  match t_lru t with
  | [] => Ok None
  | e :: r =>
      let* g := remove_idx (d_groups c) (v_idx e) (gels (v_hist e)) in
      let k := v_key e in
      let kept := existsb (fun e' => str_eqb (v_key e') k) r || str_eqb k dk ||
                  match pin with Some p => str_eqb p k | None => false end in
      let size := t_size t - Z.of_nat (length (v_val e)) in
      let size := if kept then size else size - Z.of_nat (length k) in
      Ok (Some (mk_code1 (mk_store1 (t_keys t) (t_kidx t) (t_kid t) (t_lid t) size (t_num t - 1) (t_maxv t) (t_maxb t) r) g))
  end.

(** MakeSpace, lines 682-692.  Every turn of the first loop makes the list
    shorter.  The second loop calls a function PopOne that does not exist. *)
Fixpoint space_loop (fuel : nat) (dk : str) (pin : option str) (adding : Z) (c : code1) : res (code1 * bool) :=
  if t_maxv (d_store c) <? t_num (d_store c) + adding then
    let* p := pop_one1 dk pin c in
    match p with
    | None => Ok (c, false)
    | Some c => match fuel with O => Err Diverge | S f => space_loop f dk pin adding c end
    end
  else Ok (c, true).
Definition make_space (dk : str) (pin : option str) (c : code1) (space adding : Z) : res code1 :=
  let* (c, go_on) := space_loop (length (t_lru (d_store c))) dk pin adding c in
  if go_on && (t_maxb (d_store c) <? t_size (d_store c) + space) then Err NameError else Ok c.

(** FindOrAddKey, lines 715-726, with NewKE, lines 708-710. *)
Definition find_or_add_key (dk : str) (c : code1) (k : str) : res code1 :=
  match find_key (t_keys (d_store c)) k with
  | Some _ => Ok c
  | None =>
      let* c := make_space dk None c (Z.of_nat (length k)) 0 in
      let t := d_store c in
      let* i := unused_id (fun i => match find_kidx (t_kidx t) i with Some _ => true | None => false end) 0 (t_kid t) in
      Ok (mk_code1 (mk_store1 (t_keys t ++ [(k, i)]) (t_kidx t ++ [(i, k)]) i (t_lid t) (t_size t + Z.of_nat (length k))
            (t_num t) (t_maxv t) (t_maxb t) (t_lru t)) (d_groups c))
  end.

(** GetNextUnusedLruId, lines 739-740; lru_idx_to_ve has the default entries and
    those of the list. *)
Definition lru_used (l : list ve) (i : Z) : bool := is_default i || match find_idx l i with Some _ => true | None => false end.

(** DoToggle, lines 1030-1040, with Toggle, lines 571-572. *)
Definition toggle_ve (gid : N) (e : ve) : ve :=
  mk_ve (v_idx e) (v_key e) (v_val e) ((if gmem gid (v_hist e) then GRem gid else GAdd gid) :: v_hist e).
Definition at_idx (i : Z) (f : ve -> ve) (l : list ve) : list ve := map (fun e => if v_idx e =? i then f e else e) l.
Definition do_toggle (c : code1) (gid : N) (i : Z) : res code1 :=
  let t := d_store c in
  let* _ := look (t_lru t) i in
  match gget (d_groups c) gid with
  | Some z => Ok (mk_code1 (set_lru t (at_idx i (toggle_ve gid) (t_lru t))) (gset (d_groups c) gid (ztoggle i z)))
  | None => Err KeyError
  end.
Fixpoint do_toggles (c : code1) (gid : N) (is : list Z) : res code1 :=
  match is with [] => Ok c | i :: r => let* c := do_toggle c gid i in do_toggles c gid r end.

(** Lines 1090-1095: InsertVal, lines 728-737, AddToHeadOfLRU, lines 758-766 (the
    new entry's lru_idx is None, and None >= 0 is False in Python 2), and DoToggle. *)
Definition store_pair (dk : str) (gid : N) (c : code1) (p : str * str) : res code1 :=
  let (k, v) := p in
  let* c := find_or_add_key dk c k in
  match find_val (t_lru (d_store c)) k v with
  | Some _ => Ok c
  | None =>
      let* c := make_space dk (Some k) c (Z.of_nat (length v)) 1 in
      let t := d_store c in
      let* i := unused_id (lru_used (t_lru t)) n_defaults (t_lid t) in
      let t := mk_store1 (t_keys t) (t_kidx t) (t_kid t) i (t_size t) (t_num t + 1) (t_maxv t) (t_maxb t) (t_lru t ++ [mk_ve i k v []]) in
      do_toggle (mk_code1 t (d_groups c)) gid i
  end.
Fixpoint store_pairs (dk : str) (gid : N) (c : code1) (ps : list (str * str)) : res code1 :=
  match ps with [] => Ok c | p :: r => let* c := store_pair dk gid c p in store_pairs dk gid c r end.

(** ** DecompressorExecuteOps, lines 1042-1100 *)

(** Lines 1048-1053. *)
Definition toggled (o : op1) : list Z :=
  match o with Toggl i => [i] | Trang i s => xrange s (i + 1) | _ => [] end.
Definition toggle_set (ops : list op1) : zset := fold_left (fun s i => zadd i s) (flat_map toggled ops) [].

(** Lines 1056-1059. *)
Fixpoint append_on (l : list ve) (hd : hdict) (idxs : list Z) : res hdict :=
  match idxs with
  | [] => Ok hd
  | i :: r => let* e := look l i in append_on l (append_to_headers hd (v_key e) (v_val e)) r
  end.

(** The loop of lines 1062-1078. *)
Fixpoint exec_ops1 (c : code1) (gid : N) (hd : hdict) (later : list (str * str)) (ops : list op1) : res (code1 * hdict * list (str * str)) :=
  match ops with
  | [] => Ok (c, hd, later)
  | Toggl i :: r => let* c := do_toggle c gid i in exec_ops1 c gid hd later r
  | Trang i s :: r => let* c := do_toggles c gid (xrange s (i + 1)) in exec_ops1 c gid hd later r
  | Clone i v :: r =>
      match find_kidx (t_kidx (d_store c)) i with
      | Some k => exec_ops1 c gid (append_to_headers hd k v) (later ++ [(k, v)]) r
      | None => Err AttributeError
      end
  | Kvsto k v :: r => exec_ops1 c gid (append_to_headers hd k v) (later ++ [(k, v)]) r
  | Eref k v :: r => exec_ops1 c gid (append_to_headers hd k v) later r
  end.

Definition cur_of (g : groups) (gid : N) : zset := match gget g gid with Some z => z | None => [] end.

(** [ord] is the order in which [turnons] is iterated. *)
Definition execute1 (dk : str) (ord : zset -> list Z) (c : code1) (ops : list op1) (gid : N) : res (code1 * hdict) :=
  let g := find_or_make (d_groups c) gid in
  let c := mk_code1 (d_store c) g in
  let turnons := zsymdiff (toggle_set ops) (cur_of g gid) in
  let* hd := append_on (t_lru (d_store c)) [] (ord turnons) in
  let* (ch, later) := exec_ops1 c gid hd [] ops in
  let (c, hd) := ch : code1 * hdict in
  let* c := store_pairs dk gid c later in
  Ok (c, cookie_nul hd).

(** ** AdjustHeaderGroupEntries, lines 905-914 *)

(** MoveToHeadOfLRU, lines 771-776, and RenumberVELruIdx, lines 891-903, of the
    entry with the index [i].  The loop of lines 894-896 leaves the last group it
    visited in group_id.  [iter] is the order in which a set of groups is iterated. *)
Definition renumber (iter : list gop -> list N) (gid : N) (c : code1) (i : Z) : res code1 :=
  let t := d_store c in
  let* e := look (t_lru t) i in
  let rest := filter (fun e => negb (v_idx e =? i)) (t_lru t) in
  let* g := remove_idx (d_groups c) i (iter (v_hist e)) in
  let gid := last (iter (v_hist e)) gid in
  let* n := unused_id (lru_used rest) n_defaults (t_lid t) in
  let e := mk_ve n (v_key e) (v_val e) (GAdd gid :: GClear :: v_hist e) in
  match gget g gid with
  | Some z => Ok (mk_code1 (mk_store1 (t_keys t) (t_kidx t) (t_kid t) n (t_size t) (t_num t) (t_maxv t) (t_maxb t) (rest ++ [e])) (gset g gid (zadd n z)))
  | None => Err KeyError
  end.
Fixpoint renumber_all (iter : list gop -> list N) (gid : N) (c : code1) (is : list Z) : res code1 :=
  match is with [] => Ok c | i :: r => let* c := renumber iter gid c i in renumber_all iter gid c r end.
Definition adjust1 (iter : list gop -> list N) (c : code1) (gid : N) : res code1 :=
  match gget (d_groups c) gid with
  | Some z => renumber_all iter gid c z
  | None => Err KeyError
  end.

(** ** MakeOperations, lines 916-1020 *)

(** The iteration orders one call of the compressor can meet. *)
Record order1 := mk_order1 {
  r1_group : zset -> list Z;                           (* hg_store *)
  r1_headers : list (str * str) -> list (str * str);   (* headers_set *)
  r1_toggl : zset -> list Z;                           (* full_toggl_list *)
  r1_on : zset -> list Z }.                            (* turnons *)

(** Lines 935-945: what is left of headers_set, and done_set.  Lines 922-933 are
    those of delta2: [headers_set]. *)
Fixpoint keep_loop1 (l : list ve) (idxs : list Z) (hs : list (str * str)) (done : zset) : res (list (str * str) * zset) :=
  match idxs with
  | [] => Ok (hs, done)
  | i :: r =>
      let* e := look l i in
      let p := (v_key e, v_val e) in
      if mem_pair p hs then keep_loop1 l r (remove_pair p hs) done else keep_loop1 l r hs (zadd i done)
  end.

(** Lines 954-979: toggls, clones, kvstos and erefs. *)
Record mstate1 := mk_m1 { m1_tog : zset; m1_clone : list (Z * str); m1_kvsto : list (str * str); m1_eref : list (str * str) }.
Definition make_op1 (t : store1) (m : mstate1) (p : str * str) : mstate1 :=
  let (key, val) := p in
  if str_eqb key (lit ":path") || str_eqb key (lit "referer") then mk_m1 (m1_tog m) (m1_clone m) (m1_kvsto m) (m1_eref m ++ [(key, val)])
  else
    match find_key (t_keys t) key with
    | None => mk_m1 (m1_tog m) (m1_clone m) (m1_kvsto m ++ [(key, val)]) (m1_eref m)
    | Some k =>
        match find_val (t_lru t) key val with
        | Some e => mk_m1 (zadd (v_idx e) (m1_tog m)) (m1_clone m) (m1_kvsto m) (m1_eref m)
        | None => mk_m1 (m1_tog m) (m1_clone m ++ [(k, val)]) (m1_kvsto m) (m1_eref m)
        end
    end.

(** output_instrs, lines 1003-1005. *)
Definition instr_ops (i : instr) : list op1 :=
  map Toggl (i_toggl i) ++ map (fun '(k, v) => Clone k v) (i_clone i) ++ map (fun '(k, v) => Kvsto k v) (i_kvsto i) ++
  map (fun '(k, v) => Eref k v) (i_eref i).

Definition make_operations1 (dk : str) (iter : list gop -> list N) (o : order1) (c : code1) (headers : hdict) (gid : N) : res (code1 * instr) :=
  let g := find_or_make (d_groups c) gid in
  let t := d_store c in
  let* (hs, done) := keep_loop1 (t_lru t) (r1_group o (cur_of g gid)) (headers_set headers) [] in
  let m := fold_left (make_op1 t) (r1_headers o hs) (mk_m1 [] [] [] []) in
  let i := mk_instr (r1_toggl o (zunion (m1_tog m) done)) (m1_clone m) (m1_kvsto m) (m1_eref m) in
  let* (c, _) := execute1 dk (r1_on o) (mk_code1 t g) (instr_ops i) gid in
  let* c := adjust1 iter c gid in
  Ok (c, i).

(** Lines 54-56 of __init__.py. *)
Definition compress1 (dk : str) (iter : list gop -> list N) (h : huffman) (o : order1) (c : code1) (headers : hdict) (gid : N) : res (code1 * str) :=
  let* (c, i) := make_operations1 dk iter o c headers gid in
  let* blob := to_wire1 h i gid in
  Ok (c, blob).

(** RealOpsToOpAndExecute, lines 1022-1028. *)
Definition decompress1 (dk : str) (iter : list gop -> list N) (h : huffman) (ord : zset -> list Z) (c : code1) (blob : str) : res (code1 * hdict) :=
  let* (gid, ops) := from_wire1 h blob in
  let c := mk_code1 (d_store c) (find_or_make (d_groups c) gid) in
  let* (c, hd) := execute1 dk ord c ops gid in
  let* c := adjust1 iter c gid in
  Ok (c, hd).

(** ** class Processor of __init__.py *)

(** [hosts] maps normalised host names to group ids; the replacement of line 47
    is an arbitrary function [norm], in Host_Model.v the one of the code. *)
Record processor1 := mk_proc1 { p1_comp : code1; p1_decomp : code1; p1_hosts : dict N; p1_ids : idstore }.

(** __init__, lines 26-40; IDStore(255). *)
Definition proc1_new (dk : str) (maxb maxv : Z) : processor1 :=
  mk_proc1 (code1_new dk maxb maxv) (code1_new dk maxb maxv) [] (ids_new 255).

(** compress, lines 46-57. *)
Definition proc1_compress (dk : str) (iter : list gop -> list N) (norm : str -> str) (h : huffman) (o : order1) (p : processor1) (headers : hdict) (host : str)
  : res (processor1 * str) :=
  let n := norm host in
  let '(gid, hosts, ids) :=
    match dget (p1_hosts p) n with
    | Some g => (g, p1_hosts p, p1_ids p)
    | None => let (g, ids) := ids_get (fun _ => 0%nat) (p1_ids p) in (g, dset (p1_hosts p) n g, ids)
    end in
  let* (c, blob) := compress1 dk iter h o (p1_comp p) headers gid in
  Ok (mk_proc1 c (p1_decomp p) hosts ids, blob).

(** decompress, lines 59-63. *)
Definition proc1_decompress (dk : str) (iter : list gop -> list N) (h : huffman) (ord : zset -> list Z) (p : processor1) (blob : str) : res (processor1 * hdict) :=
  let* (d, headers) := decompress1 dk iter h ord (p1_decomp p) blob in
  Ok (mk_proc1 (p1_comp p) d (p1_hosts p) (p1_ids p), headers).
