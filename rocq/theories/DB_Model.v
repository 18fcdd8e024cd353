(** * Model of compressor/delta_bohe: Storage, HeaderGroup, Spdy4CoDe and the
      writing half of Spdy4SeDer in spdy4_codec_impl.py, and Processor.compress
      of __init__.py (Python 2).

    Line numbers refer to spdy4_codec_impl.py unless __init__.py is named.  The
    bit bucket is [BB_Model], the Huffman coder and its tables are those of
    [D1Huff_Model], bohe.py is the file modelled in [Bohe_Model].
    Simplifications:
    - Processor.compress always uses the header group 0, so there is one group;
      a value entry's place in the group (its generation) is kept in the entry;
    - a value entry is in lru_idx_to_ve under its lru_idx, and in the val_map of
      its key, as long as it exists: the three tables are one list.  Removing an
      entry from the deque compares dictionaries, whose first two fields in
      Python 2's order, the key entry and the index, already differ for different entries;
    - the deque is kept as the part before and the part after the pin (the None
      that PinLRU appends), the entries of default_dict, which are never put into it,
      apart;
    - key_map and key_idx_to_ke hold the same entries and lose none: one list;
    - ref_cnt is 0 except during MakeOperations: the list of the keys for which
      it is not;
    - when an exception leaves MakeOperations the deque stays pinned and the next
      call raises in PinLRU, before it looks at anything else.  So nothing but
      the pin is kept of such a state ([None]);
    - the decoding half, which Processor does not use, printing and the
      statistics are left out. *)
From Coq Require Import String List NArith ZArith Bool Arith.
From Verif Require Import PyBase PyStr BB_Model D2Huff_Model D1Huff_Model D1Wire_Model Small_Model Bohe_Model.
Import ListNotations.
Open Scope Z_scope.
Open Scope py_scope.

(** ** Storage, lines 550-714 *)

Record entry := mk_entry {
  e_idx : Z;                (* lru_idx *)
  e_key : str;
  e_val : str;
  e_gen : option N }.       (* the generation in the header group's storage; None: not in the group *)

Record table := mk_table {
  b_keys : list (str * Z);      (* names and key_idx *)
  b_nkey : Z; b_nlru : Z;       (* next_idx of key_ids and lru_ids *)
  b_size : Z; b_num : Z;        (* state_size, num_vals *)
  b_def : list entry;           (* the entries of default_dict *)
  b_old : list entry;           (* the deque: before the pin *)
  b_new : list entry }.         (* after the pin *)
Definition entries (t : table) : list entry := b_def t ++ b_old t ++ b_new t.
Definition max_vals : Z := 1024.
Definition max_state_size : Z := 64 * 1024.

(** Something done to every entry. *)
Definition each (f : entry -> entry) (t : table) : table :=
  mk_table (b_keys t) (b_nkey t) (b_nlru t) (b_size t) (b_num t) (map f (b_def t)) (map f (b_old t)) (map f (b_new t)).
Definition set_gen (g : option N) (e : entry) : entry := mk_entry (e_idx e) (e_key e) (e_val e) g.
Definition grouped (e : entry) : bool := match e_gen e with Some _ => true | None => false end.

Definition slen (s : str) : Z := Z.of_nat (length s).

(** FindKeyEntry, lines 596-599, with key_idx. *)
Fixpoint key_index (l : list (str * Z)) (k : str) : option Z :=
  match l with [] => None | (k', i) :: r => if str_eqb k' k then Some i else key_index r k end.
(** FindKeyByKeyIdx, lines 607-608. *)
Fixpoint key_at (l : list (str * Z)) (i : Z) : option str :=
  match l with [] => None | (k, i') :: r => if i' =? i then Some k else key_at r i end.
(** FindValEntry, lines 699-702. *)
Definition find_entry (t : table) (k v : str) : option entry :=
  find (fun e => str_eqb (e_key e) k && str_eqb (e_val e) v) (entries t).

(** PopOne, lines 567-582, with RemoveVEFromAllHeaderGroups, lines 723-732 (an empty
    group makes [del header_group[group_id]] raise), and RemoveVal, lines 674-694.
    [refs]: the keys with a ref_cnt above 0. *)
Definition pop_one (refs : list str) (t : table) : res table :=
  match b_old t with
  | [] => Ok t
  | e :: r =>
      let t' := mk_table (b_keys t) (b_nkey t) (b_nlru t) (b_size t - slen (e_val e)) (b_num t - 1) (b_def t) r (b_new t) in
      if existsb grouped (entries t') then
        if existsb (fun x => str_eqb (e_key x) (e_key e)) (entries t') || mem_str (e_key e) refs then Ok t'
        else Ok (mk_table (b_keys t) (b_nkey t) (b_nlru t) (b_size t' - slen (e_key e)) (b_num t') (b_def t) r (b_new t))
      else Err TypeError
  end.

(** MakeSpace, lines 584-594: PopOne returns None, so the first loop ends with
    the function after one turn; the second one calls a name that is not defined. *)
Definition make_space (refs : list str) (t : table) (space adding : Z) : res table :=
  if max_vals <? b_num t + adding then pop_one refs t
  else if max_state_size <? b_size t + space then Err NameError
  else Ok t.

(** FindOrAddKey, lines 630-641, with NewKE, lines 616-621, and IDStore.GetNext;
    the test of line 637 is never true. *)
Definition add_key (refs : list str) (t : table) (k : str) : res table :=
  match key_index (b_keys t) k with
  | Some _ => Ok t
  | None =>
      let* t := make_space refs t (slen k) 0 in
      let i := b_nkey t + 1 in
      Ok (mk_table (b_keys t ++ [(k, i)]) i (b_nlru t) (b_size t + slen k) (b_num t) (b_def t) (b_old t) (b_new t))
  end.

(** InsertVal, lines 643-653, and AddToHeadOfLRU, lines 655-662 (None >= 0 is False in
    Python 2). *)
Definition insert_val (refs : list str) (gen : N) (t : table) (k v : str) : res table :=
  let* t := add_key refs t k in
  match find_entry t k v with
  | Some _ => Err StandardError
  | None =>
      let* t := make_space (k :: refs) t (slen v) 1 in
      let i := b_nlru t + 1 in
      Ok (mk_table (b_keys t) (b_nkey t) i (b_size t) (b_num t + 1) (b_def t) (b_old t) (b_new t ++ [mk_entry i k v (Some gen)]))
  end.

(** ** Spdy4CoDe.__init__, lines 718-810 *)

Definition default_dict : list (str * str) := map (fun '(k, v) => (lit k, lit v)) [
  ("date", ""); (":scheme", "https"); (":method", "get"); (":path", "/"); (":host", ""); ("cookie", ""); (":status", "200");
  (":status-text", "OK"); (":version", "1.1"); ("accept", ""); ("accept-charset", ""); ("accept-encoding", "");
  ("accept-language", ""); ("accept-ranges", ""); ("allow", ""); ("authorizations", ""); ("cache-control", "");
  ("content-base", ""); ("content-encoding", ""); ("content-length", ""); ("content-location", ""); ("content-md5", "");
  ("content-range", ""); ("content-type", ""); ("etag", ""); ("expect", ""); ("expires", ""); ("from", ""); ("if-match", "");
  ("if-modified-since", ""); ("if-none-match", ""); ("if-range", ""); ("if-unmodified-since", ""); ("last-modified", "");
  ("location", ""); ("max-forwards", ""); ("origin", ""); ("pragma", ""); ("proxy-authenticate", ""); ("proxy-authorization", "");
  ("range", ""); ("referer", ""); ("retry-after", ""); ("server", ""); ("set-cookie", ""); ("status", ""); ("te", ""); ("trailer", "");
  ("transfer-encoding", ""); ("upgrade", ""); ("user-agent", ""); ("vary", ""); ("via", ""); ("warning", ""); ("www-authenticate", "");
  ("access-control-allow-origin", ""); ("content-disposition", ""); ("get-dictionary", ""); ("p3p", ""); ("x-content-type-options", "");
  ("x-frame-options", ""); ("x-powered-by", ""); ("x-xss-protection", "")]%string.

(** The loop of lines 805-810.  [ds] is default_dict in the order Python iterates
    it; the entries are put nowhere but into the val_maps and lru_idx_to_ve. *)
Fixpoint add_defaults (t : table) (ds : list (str * str)) : res table :=
  match ds with
  | [] => Ok t
  | (k, v) :: r =>
      let* t := add_key [] t k in
      match find_entry t k v with
      | Some _ => Err StandardError
      | None =>
          let* t := make_space [k] t (slen v) 1 in
          let i := b_nlru t + 1 in
          add_defaults (mk_table (b_keys t) (b_nkey t) i (b_size t) (b_num t + 1) (b_def t ++ [mk_entry i k v None]) (b_old t) (b_new t)) r
      end
  end.
Definition table_new (ds : list (str * str)) : res table := add_defaults (mk_table [] 0 0 0 0 [] [] []) ds.

(** ** MakeOperations, lines 911-944 *)

(** The dictionary of instructions: indices to toggle, clones and stores with their
    field 'huff'; 'eref' stays empty. *)
Record instrs := mk_instrs { n_toggl : list Z; n_clone : list (Z * str * bool); n_kvsto : list (str * str * bool) }.

(** x.lstrip(' ') and sort, lines 926-927. *)
Fixpoint str_leb (a b : str) : bool :=
  match a, b with
  | [], _ => true
  | _ :: _, [] => false
  | x :: a', y :: b' => if (x =? y)%N then str_leb a' b' else (x <? y)%N
  end.
Fixpoint insert_s (x : str) (l : list str) : list str :=
  match l with
  | [] => [x]
  | y :: r => if str_leb x y then x :: l else y :: insert_s x r
  end.
Definition sort_s (l : list str) : list str := fold_right insert_s [] l.
Definition crumbs (v : str) : list str := sort_s (map (lstrip is_blank) (split_on 59 v)).

(** bohe.encode, lines 248-252 of bohe.py. *)
Definition bohe_encode (L : library) (k v : str) : res str := match encoder L k with Some e => e v | None => Ok v end.

(** ProcessKV, lines 895-909. *)
Definition process_kv (L : library) (gen : N) (t : table) (i : instrs) (k v : str) : table * instrs :=
  let huff := match encoder L k with Some _ => false | None => true end in
  match find_entry t k v with
  | Some e =>
      match e_gen e with
      | None => (t, mk_instrs (n_toggl i ++ [e_idx e]) (n_clone i) (n_kvsto i))
      | Some _ => (each (fun x => if e_idx x =? e_idx e then set_gen (Some gen) x else x) t, i)
      end
  | None =>
      match key_index (b_keys t) k with
      | Some n => (t, mk_instrs (n_toggl i) (n_clone i ++ [(n, v, huff)]) (n_kvsto i))
      | None => (t, mk_instrs (n_toggl i) (n_clone i) (n_kvsto i ++ [(k, v, huff)]))
      end
  end.

(** The loop of lines 924-931.  The values of a header: *)
Definition values_of (k v : str) : list str := if str_eqb k (lit "cookie") then crumbs v else [v].
Fixpoint process_values (L : library) (gen : N) (t : table) (i : instrs) (k : str) (vs : list str) : res (table * instrs) :=
  match vs with
  | [] => Ok (t, i)
  | v :: r =>
      let* w := bohe_encode L k v in
      let (t, i) := process_kv L gen t i k w in
      process_values L gen t i k r
  end.
Fixpoint process_headers (L : library) (gen : N) (t : table) (i : instrs) (headers : list (str * str)) : res (table * instrs) :=
  match headers with
  | [] => Ok (t, i)
  | (k, v) :: r =>
      let* (t, i) := process_values L gen t i k (values_of k v) in
      process_headers L gen t i r
  end.

(** DiscoverTurnOffs, lines 861-869; [ord] is the order in which the group is iterated. *)
Definition turn_offs (ord : list Z -> list Z) (gen : N) (t : table) : list Z :=
  ord (map e_idx (filter (fun e => match e_gen e with Some g => negb (g =? gen)%N | None => false end) (entries t))).

(** ExecuteToggle, lines 965-966, with Toggle, lines 539-548. *)
Definition toggle (gen : N) (t : table) (i : Z) : res table :=
  if existsb (fun e => e_idx e =? i) (entries t) then
    Ok (each (fun e => if e_idx e =? i then set_gen (match e_gen e with Some _ => None | None => Some gen end) e else e) t)
  else Err KeyError.
Fixpoint toggle_each (gen : N) (t : table) (is : list Z) : res table :=
  match is with [] => Ok t | i :: r => let* t := toggle gen t i in toggle_each gen t r end.

(** ExecuteOp for clones and stores, lines 980-994. *)
Fixpoint run_clones (refs : list str) (gen : N) (t : table) (l : list (Z * str * bool)) : res table :=
  match l with
  | [] => Ok t
  | (n, v, _) :: r =>
      match key_at (b_keys t) n with
      | None => Err StandardError
      | Some k => let* t := insert_val refs gen t k v in run_clones refs gen t r
      end
  end.
Fixpoint run_kvstos (refs : list str) (gen : N) (t : table) (l : list (str * str * bool)) : res table :=
  match l with
  | [] => Ok t
  | (k, v, _) :: r => let* t := insert_val refs gen t k v in run_kvstos refs gen t r
  end.

(** AdjustHeaderGroupEntries, lines 877-883, with MoveToHeadOfLRU, lines 667-672, and
    RenumberVELruIdx, lines 871-875. *)
Definition renumber_one (t : table) (i : Z) : table :=
  let n := b_nlru t + 1 in
  let f e := if e_idx e =? i then mk_entry n (e_key e) (e_val e) (e_gen e) else e in
  let moved := filter (fun e => e_idx e =? i) (b_old t) in
  let rest := filter (fun e => negb (e_idx e =? i)) (b_old t) in
  mk_table (b_keys t) (b_nkey t) n (b_size t) (b_num t) (map f (b_def t)) (map f (rest ++ moved)) (b_new t).
Definition adjust (t : table) : table := fold_left renumber_one (sort_z (map e_idx (filter grouped (entries t)))) t.

(** UnPinLRU, lines 710-714. *)
Definition unpin (t : table) : table :=
  mk_table (b_keys t) (b_nkey t) (b_nlru t) (b_size t) (b_num t) (b_def t) (b_old t ++ b_new t) [].

(** A codec between two calls: its tables and the generation of its group. *)
Record codec := mk_codec { c_table : table; c_gen : N }.

Definition make_operations (L : library) (ord : list Z -> list Z) (c : codec) (headers : list (str * str)) : res (codec * instrs) :=
  let (t, gen) := (c_table c, c_gen c) in
  let refs := filter (fun k => match key_index (b_keys t) k with Some _ => true | None => false end) (map fst headers) in
  let* (t, i) := process_headers L gen t (mk_instrs [] [] []) headers in
  let i := mk_instrs (n_toggl i ++ turn_offs ord gen t) (n_clone i) (n_kvsto i) in
  let* t := toggle_each gen t (n_toggl i) in
  let* t := run_clones refs gen t (n_clone i) in
  let* t := run_kvstos refs gen t (n_kvsto i) in
  Ok (mk_codec (adjust (unpin t)) (gen + 1)%N, i).

(** ** Writing, lines 179-212 and 309-441 *)

(** PackStr, lines 179-212: with a Huffman coder the octets that hold the code, without
    one the text as it is. *)
Definition put_str (h : huffman) (huff : bool) (b : bb) (s : str) : res bb :=
  if huff then pack_str1 h b s else bb_store b s (8 * length s)%nat.

(** WriteOpData, lines 363-378, and OutputOps, lines 332-360 (which announces at most
    256 operations and writes all). *)
Inductive wop := WToggl (i : Z) | WTrang (i s : Z) | WClone (i : Z) (v : str) (huff : bool) | WKvsto (k v : str) (huff : bool).
Definition put_op (h : huffman) (b : bb) (o : wop) : res bb :=
  match o with
  | WToggl i => pack_int16 b i
  | WTrang i s => let* b := pack_int16 b i in pack_int16 b s
  | WClone i v f => let* b := pack_int16 b i in put_str h f b v
  | WKvsto k v f => let* b := put_str h f b k in put_str h f b v
  end.
Fixpoint put_ops (h : huffman) (b : bb) (l : list wop) : res bb :=
  match l with [] => Ok b | o :: r => let* b := put_op h b o in put_ops h b r end.
Definition put_kind (h : huffman) (b : bb) (k : kind) (l : list wop) : res bb :=
  match l with
  | [] => Ok b
  | _ =>
      let* b := bb_store8 b (kind_val k) in
      let* b := bb_store8 b (N.min 256 (lenN l) - 1) in
      put_ops h b l
  end.
Definition put_instrs (h : huffman) (i : instrs) : res bb :=
  let (ot, otr) := toggle_ranges (n_toggl i) in
  let* b := put_kind h bb_new KToggl (map WToggl ot) in
  let* b := put_kind h b KTrang (map (fun '(s, e) => WTrang e s) otr) in
  let* b := put_kind h b KClone (map (fun '(n, v, f) => WClone n v f) (n_clone i)) in
  put_kind h b KKvsto (map (fun '(k, v, f) => WKvsto k v f) (n_kvsto i)).

(** WriteControlFrameBoilerplate, lines 380-397. *)
Definition frame_head (b : bb) (frame_len flags stream_id frame_type : N) : res bb :=
  let* b := bb_store16 b frame_len in
  let* b := bb_store8 b flags in
  let* b := bb_store32 b (N.lor 0x80000000 stream_id) in
  bb_store8 b frame_type.

(** The loop of lines 427-440 and SerializeInstructions, lines 399-441. *)
Fixpoint put_frames (fuel : nat) (b : bb) (payload : list N) (plen allowed : N) : res bb :=
  match fuel with
  | O => Err Diverge
  | S f =>
      let consume := N.min plen allowed in
      let* b := frame_head b consume (if consume <=? plen then 1 else 0)%N 1234 8 in
      let* b := bb_store b payload (8 * N.to_nat consume)%nat in
      let payload := skipn (N.to_nat consume) payload in
      if (plen <=? allowed)%N then Ok b else put_frames f b payload (plen - allowed) allowed
  end.
Definition serialize (h : huffman) (i : instrs) : res bb :=
  let* pb := put_instrs h i in
  let (payload, nbits) := bb_all pb in
  let plen := N.of_nat ((nbits + 7) / 8)%nat in
  let* fb := frame_head bb_new 0 0 0 0 in
  let allowed := (65536 - N.of_nat (bb_bytes fb))%N in
  put_frames (S (length payload)) bb_new payload plen allowed.

(** OpsToRealOps, lines 812-816, with PackOps, lines 228-235, and Compress. *)
Definition real_ops (h : huffman) (i : instrs) : res str :=
  let* b := serialize h i in
  let (o, n) := bb_all b in
  let* d := bb_store bb_new o n in
  Ok (fst (bb_all d)).

(** ** Processor.compress, lines 48-80 of __init__.py *)

(** A processor between two calls: None when the deque has stayed pinned. *)
Definition state := option codec.
Definition db_compress (L : library) (ord : list Z -> list Z) (h : huffman) (s : state) (headers : list (str * str)) : state * res str :=
  match s with
  | None => (None, Err StandardError)
  | Some c =>
      match make_operations L ord c headers with
      | Err e => (None, Err e)
      | Ok (c, i) => (Some c, real_ops h i)
      end
  end.

(** The constructors, lines 26-42 of __init__.py: the codec and the coder. *)
Definition db_new (ds : list (str * str)) : res state := let* t := table_new ds in Ok (Some (mk_codec t 0)).
Definition db_coder (is_request : bool) : res huffman :=
  d1_huffman (if is_request then d1_request_table else d1_response_table).
