(** * Model of compressor/delta2/huffman.py (Python 2).

    Line numbers refer to that file.  Simplifications:
    - weights are rational numbers; the code uses floats.  The two agree as long
      as every weight is a multiple of 1/512 and their sum is below 2^44: all
      numbers are then exact in 53 bits, whatever power of two they are divided
      by (the smallest is 2^-9 / 2^1023, and the smallest float is 2^-1074);
    - a divisor of 2^1024 cannot be converted to a float: OverflowError;
    - DiscoverDepthAndStoreIt walks the tree in breadth-first order and collects
      the symbols of each depth.  The caller sorts each collection, so the model
      takes the symbols of one depth from left to right.  In which order the
      dictionary of depths is iterated is a parameter ([order]), and
      [int_dict_order] is what CPython 2.7 does;
    - the decoding tree is built by inserting the bits of one code word at a time;
    - the decode table (lines 162-238), which BuildCodeTable does not build, the
      dead code after line 264, GetNextNode and the printing functions are left
      out. *)
From Coq Require Import String List NArith ZArith QArith Bool Arith.
From Verif Require Import PyBase Bits BB_Model.
Import ListNotations.
Open Scope N_scope.
Open Scope py_scope.

(** ** Building the tree *)

(** A node is (weight, symbol, depth, children), line 59. *)
Inductive ctree := CLeaf (w : Q) (s : N) | CNode (w : Q) (depth : nat) (l r : ctree).
Definition cweight (t : ctree) : Q := match t with CLeaf w _ => w | CNode w _ _ _ => w end.
Definition cdepth (t : ctree) : nat := match t with CLeaf _ _ => 0%nat | CNode _ d _ _ => d end.

(** Lines 51-56. *)
Definition leaf_of (divisor : positive) (e : N * N) : ctree :=
  let (sym, freq) := e in
  let freq := if freq =? 0 then (1 # 512)%Q else inject_Z (Z.of_N freq) in
  CLeaf (Qred (freq / inject_Z (Zpos divisor))) sym.

(** sorted(leaves), line 60: tuples (weight, symbol, 0, []). *)
Definition csym (t : ctree) : N := match t with CLeaf _ s => s | CNode _ _ _ _ => 0 end.
Definition leaf_leb (a b : ctree) : bool :=
  if Qeq_bool (cweight a) (cweight b) then csym a <=? csym b else Qle_bool (cweight a) (cweight b).
Fixpoint insert_leaf (x : ctree) (l : list ctree) : list ctree :=
  match l with
  | [] => [x]
  | y :: l' => if leaf_leb x y then x :: l else y :: insert_leaf x l'
  end.
Definition sort_leaves (l : list ctree) : list ctree := fold_right insert_leaf [] l.

(** Lines 65-73: one child. *)
Definition take_child (leaves internals : list ctree) : res (ctree * list ctree * list ctree) :=
  match leaves, internals with
  | x :: leaves', y :: internals' =>
      if Qle_bool (cweight x) (cweight y) then Ok (x, leaves', internals) else Ok (y, leaves, internals')
  | x :: leaves', [] => Ok (x, leaves', internals)
  | [], y :: internals' => Ok (y, leaves, internals')
  | [], [] => Err IndexError
  end.

(** Lines 74-75. *)
Definition join (a b : ctree) : ctree :=
  CNode (Qred (cweight a + cweight b)) (S (Nat.max (cdepth a) (cdepth b))) a b.

(** The loop of lines 62-75; every turn leaves one node less. *)
Fixpoint code_loop (fuel : nat) (leaves internals : list ctree) : res (list ctree * list ctree) :=
  if (1 <? length leaves + length internals)%nat then
    match fuel with
    | O => Err Diverge
    | S f =>
        let* (a, leaves, internals) := take_child leaves internals in
        let* (b, leaves, internals) := take_child leaves internals in
        code_loop f leaves (internals ++ [join a b])
    end
  else Ok (leaves, internals).

(** BuildCodeTree, lines 36-79. *)
Definition build_code_tree (table : list (N * N)) (divisor : positive) : res ctree :=
  if (length table <? 2)%nat then Err StandardError
  else
    let leaves := sort_leaves (map (leaf_of divisor) table) in
    let* (leaves, internals) := code_loop (length leaves) leaves [] in
    match leaves with
    | _ :: _ => Err StandardError
    | [] => match rev internals with [] => Err IndexError | t :: _ => Ok t end
    end.

(** The loop of lines 20-26; [n] divisors are left that fit a float. *)
Fixpoint build_loop (n : nat) (table : list (N * N)) (divisor : positive) : res ctree :=
  match n with
  | O => Err OverflowError
  | S n' =>
      let* t := build_code_tree table divisor in
      if (cdepth t <=? 32)%nat then Ok t else build_loop n' table (xO divisor)
  end.

(** ** Canonical codes *)

(** DiscoverDepthAndStoreIt, lines 81-92: the symbols at depth [d]. *)
Fixpoint syms_at (t : ctree) (d : nat) : list N :=
  match t, d with
  | CLeaf _ s, O => [s]
  | CLeaf _ _, S _ => []
  | CNode _ _ _ _, O => []
  | CNode _ _ a b, S d' => syms_at a d' ++ syms_at b d'
  end.
Definition nonempty {A} (l : list A) : bool := match l with [] => false | _ => true end.
(** The keys of depth_to_sym in the order of their insertion.  Nothing lies
    deeper than the recorded depth of the root. *)
Definition depth_keys (t : ctree) : list nat :=
  filter (fun d => nonempty (syms_at t d)) (seq 0 (S (cdepth t))).

(** CPython 2.7, Objects/dictobject.c: in which order a dictionary with small
    non-negative integer keys (whose hash is the key), inserted in the order
    given, is iterated.  lookdict (perturbation by 5 bits), PyDict_SetItem
    (resize to more than four times the number of entries as soon as two thirds
    of the slots are in use) and dictresize (the smallest power of two, at least
    8, above that number). *)
Definition slots := list (option nat).
Fixpoint probe (fuel : nat) (tab : slots) (i perturb key : nat) : nat :=
  let mask1 := length tab in
  let slot := (i mod mask1)%nat in
  match nth slot tab None with
  | None => slot
  | Some k =>
      if (k =? key)%nat then slot
      else match fuel with
           | O => slot
           | S f => probe f tab (5 * i + perturb + 1) (perturb / 32) key
           end
  end.
Definition put (tab : slots) (key : nat) : slots :=
  update_nth (probe (8 * length tab) tab key key key) (fun _ => Some key) tab.
Fixpoint catOptions {A} (l : list (option A)) : list A :=
  match l with [] => [] | None :: l' => catOptions l' | Some x :: l' => x :: catOptions l' end.
Fixpoint dict_size (fuel : nat) (size minused : nat) : nat :=
  match fuel with
  | O => size
  | S f => if (size <=? minused)%nat then dict_size f (2 * size) minused else size
  end.
Definition insert_key (tab : slots) (key : nat) : slots :=
  let tab := put tab key in
  let used := length (catOptions tab) in
  if (2 * length tab <=? 3 * used)%nat then
    fold_left put (catOptions tab) (repeat None (dict_size used 8 (4 * used)))
  else tab.
Definition int_dict_order (keys : list nat) : list nat :=
  catOptions (fold_left insert_key keys (repeat None 8)).

(** sorted of integers, line 124. *)
Fixpoint insert_sym (x : N) (l : list N) : list N :=
  match l with
  | [] => [x]
  | y :: l' => if x <=? y then x :: l else y :: insert_sym x l'
  end.
Definition sort_syms (l : list N) : list N := fold_right insert_sym [] l.

(** ('{0:0%db}' % width).format(n), line 137: as many digits as needed, at
    least [width]. *)
Definition bin_format (width : nat) (n : N) : list bool := bits_of (Nat.max width (N.size_nat n)) n.

(** BinaryStringToBREP, lines 94-112.  int(s, 2) is [val_of]. *)
Fixpoint brep_loop (fuel : nat) (s : list bool) : list N :=
  match fuel with
  | O => []
  | S f =>
      if (8 <? length s)%nat then val_of (firstn 8 s) :: brep_loop f (skipn 8 s)
      else match s with
           | [] => []
           | _ => [val_of (s ++ repeat false (8 - length s))]
           end
  end.
Definition brep (s : list bool) : res (list N * nat) :=
  match s with
  | [] => Err StandardError
  | _ => Ok (brep_loop (length s) s, length s)
  end.

(** A dictionary with integer keys. *)
Fixpoint zget {V} (d : list (N * V)) (k : N) : option V :=
  match d with
  | [] => None
  | (x, v) :: d' => if x =? k then Some v else zget d' k
  end.
Fixpoint zset {V} (d : list (N * V)) (k : N) (v : V) : list (N * V) :=
  match d with
  | [] => [(k, v)]
  | (x, y) :: d' => if x =? k then (x, v) :: d' else (x, y) :: zset d' k v
  end.

(** A code word: its octets, its number of bits. *)
Definition word := (list N * nat)%type.
Definition ctable := list (N * (word * N)).

(** The loop of lines 124-139 over one depth.  [next] is [code + 1] (the code
    starts at -1).  A negative shift count raises. *)
Fixpoint assign_depth (k : nat) (syms : list N) (next : N) (prev : nat) (tab : ctable) : res (N * nat * ctable) :=
  match syms with
  | [] => Ok (next, prev, tab)
  | s :: syms' =>
      if (k <? prev)%nat then Err ValueError
      else
        let code := N.shiftl next (N.of_nat (k - prev)) in
        let* w := brep (bin_format k code) in
        assign_depth k syms' (code + 1) k (zset tab s (w, code))
  end.
Fixpoint assign_all (t : ctree) (ks : list nat) (next : N) (prev : nat) (tab : ctable) : res ctable :=
  match ks with
  | [] => Ok tab
  | k :: ks' =>
      let* (next, prev, tab) := assign_depth k (sort_syms (syms_at t k)) next prev tab in
      assign_all t ks' next prev tab
  end.

(** The loop of lines 142-143: the words of the symbols 0, 1, ... *)
Fixpoint table_list (tab : ctable) (syms : list N) : res (list (word * N)) :=
  match syms with
  | [] => Ok []
  | s :: syms' =>
      match zget tab s with
      | None => Err KeyError
      | Some e => let* r := table_list tab syms' in Ok (e :: r)
      end
  end.
Definition count_up (n : nat) : list N := map N.of_nat (seq 0 n).

(** BuildCanonicalCodeTable, lines 115-144: canonical_code_table; code_table is
    its first components. *)
Definition canonical_table (order : list nat -> list nat) (t : ctree) : res (list (word * N)) :=
  let* tab := assign_all t (order (depth_keys t)) 0 0 [] in
  table_list tab (count_up (length tab)).

(** ** The decoding tree *)

(** A node [None, None, d, [a, b]], a leaf [None, sym, d, []], or None. *)
Inductive dtree := DNone | DLeaf (s : N) | DNode (l r : dtree).

(** Lines 153-159, on the bits read so far. *)
Fixpoint dinsert (t : dtree) (path : list bool) (s : N) : res dtree :=
  match path with
  | [] => Ok (DLeaf s)
  | b :: path' =>
      match t with
      | DLeaf _ => Err IndexError
      | DNone => let* x := dinsert DNone path' s in Ok (if b then DNode DNone x else DNode x DNone)
      | DNode l r =>
          if b then let* x := dinsert r path' s in Ok (DNode l x)
          else let* x := dinsert l path' s in Ok (DNode x r)
      end
  end.

(** [bb.GetBits(1)[0][0] >> 7] *)
Definition read_bit (b : bb) : res (bool * bb) :=
  let* (r, b) := bb_get b 1 in
  let* x := pynth r 0 in
  Ok (negb (N.shiftr x 7 =? 0), b).

(** Reading a bucket to its end, lines 153-154. *)
Fixpoint read_all (fuel : nat) (b : bb) : res (list bool) :=
  if bb_all_consumed b then Ok []
  else match fuel with
       | O => Err Diverge
       | S f => let* (x, b) := read_bit b in let* r := read_all f b in Ok (x :: r)
       end.

(** RebuildDecodeTreeFromCanonicalCodes, lines 146-160. *)
Fixpoint rebuild (t : dtree) (s : N) (words : list word) : res dtree :=
  match words with
  | [] => Ok t
  | (o, n) :: words' =>
      let* b := bb_store bb_new o n in
      let* path := read_all (S (bb_num b)) b in
      let* t := dinsert t path s in
      rebuild t (s + 1) words'
  end.

(** The constructor, lines 15-28, with BuildCodeTable, lines 254-264. *)
Record huffman := mk_huffman { h_codes : list word; h_tree : dtree }.
Definition new_huffman (order : list nat -> list nat) (table : list (N * N)) : res huffman :=
  let* t := build_loop 1024 table 1 in
  let* can := canonical_table order t in
  let codes := map fst can in
  let* d := rebuild (DNode DNone DNone) 0 codes in
  Ok (mk_huffman codes d).

(** ** Encoding and decoding *)

(** EncodeToBB, lines 285-298. *)
Definition store_symbol (h : huffman) (b : bb) (c : N) : res bb :=
  match nthN (h_codes h) c with
  | None => Err IndexError
  | Some (o, n) => bb_store b o n
  end.
Fixpoint store_symbols (h : huffman) (b : bb) (text : list N) : res bb :=
  match text with
  | [] => Ok b
  | c :: text' => let* b := store_symbol h b c in store_symbols h b text'
  end.
Definition encode_to_bb (h : huffman) (b : bb) (text : list N) (include_eof : bool) : res bb :=
  let* b := store_symbols h b text in
  if include_eof then store_symbol h b 256 else Ok b.

(** GetAllBits: the octets and the number of bits. *)
Definition bb_all (b : bb) : list N * nat := (bb_out b, bb_num b).

(** Encode, lines 300-308. *)
Definition huff_encode (h : huffman) (text : list N) (include_eof : bool) : res (list N * nat) :=
  let* b := encode_to_bb h bb_new text include_eof in Ok (bb_all b).

(** Lines 326-330: down to a leaf; the number of bits read.  [None[1]] raises
    TypeError. *)
Fixpoint walk (t : dtree) (b : bb) (total : nat) : res (N * bb * nat) :=
  match t with
  | DNone => Err TypeError
  | DLeaf s => Ok (s, b, total)
  | DNode l r =>
      let* (bit, b) := read_bit b in
      walk (if bit then r else l) b (S total)
  end.

(** The loop of lines 325-336.  [limit] is None for bits_to_decode = -1.  Every
    turn reads a bit or raises. *)
Fixpoint decode_loop (fuel : nat) (root : dtree) (eof : bool) (limit : option nat) (b : bb) (total : nat) (out : list N)
  : res (list N * bb * nat) :=
  if match limit with None => true | Some n => (total <? n)%nat end then
    match fuel with
    | O => Err Diverge
    | S f =>
        let* (s, b, total) := walk root b total in
        if eof && (s =? 256) then Ok (out, b, total)
        else decode_loop f root eof limit b total (out ++ [s])
    end
  else Ok (out, b, total).

(** DecodeFromBB, lines 310-339; [bits] is 0 for bits_to_decode <= 0. *)
Definition decode_from_bb (h : huffman) (b : bb) (includes_eof : bool) (bits : nat) : res (list N * bb) :=
  if negb includes_eof && (bits =? 0)%nat then Err StandardError
  else
    let limit := if (bits =? 0)%nat then None else Some bits in
    let* (out, b, total) := decode_loop (S (bb_num b)) (h_tree h) includes_eof limit b 0 [] in
    if negb (bits =? 0)%nat && (total <? bits)%nat then
      let* (_, b) := bb_get b (bits - total) in Ok (out, b)
    else Ok (out, b).

(** header_freq_tables.py, lines 5-92 and 94-181: the counts of the symbols 0,
    1, ... 256. *)
Definition d2_request_counts : list N := [
  0; 0; 0; 0; 0; 0; 0; 0; 0; 0; 0; 0; 0; 0; 0; 0;
  0; 0; 0; 0; 0; 0; 0; 0; 0; 0; 0; 0; 0; 0; 0; 0;
  7610; 930; 202; 134; 123; 44564; 25746; 103; 1917; 1958; 3102; 1031; 7830; 38776; 61420; 115378;
  78519; 75265; 83362; 54510; 37403; 40823; 35068; 36398; 33595; 36340; 5530; 9240; 16; 42481; 50; 5865;
  205; 16369; 9310; 11301; 12701; 7543; 17618; 5510; 5226; 6981; 4233; 3072; 5795; 8677; 5276; 6132;
  5241; 4150; 5655; 8546; 8826; 5201; 5305; 6627; 5961; 4464; 3212; 266; 0; 275; 149; 34919;
  9; 85465; 32815; 67786; 50950; 125495; 33026; 46142; 30069; 87001; 21311; 14902; 55591; 55290; 64016; 72711;
  57459; 8956; 60591; 84899; 90992; 35484; 16925; 29268; 14687; 13536; 7943; 30; 988; 30; 748; 0;
  0; 0; 0; 0; 0; 0; 0; 0; 0; 0; 0; 0; 0; 0; 0; 0;
  0; 0; 0; 0; 0; 0; 0; 0; 0; 0; 0; 0; 0; 0; 0; 0;
  0; 0; 0; 0; 0; 0; 0; 0; 0; 0; 0; 0; 0; 0; 0; 0;
  0; 0; 0; 0; 0; 0; 0; 0; 0; 0; 0; 0; 0; 0; 0; 0;
  0; 0; 0; 0; 0; 0; 0; 0; 0; 0; 0; 0; 0; 0; 0; 0;
  0; 0; 0; 0; 0; 0; 0; 0; 0; 0; 0; 0; 0; 0; 0; 0;
  0; 0; 0; 0; 0; 0; 0; 0; 0; 0; 0; 0; 0; 0; 0; 0;
  0; 0; 0; 0; 0; 0; 0; 0; 0; 0; 0; 0; 0; 0; 0; 0;
  33889
].
Definition d2_response_counts : list N := [
  0; 0; 0; 0; 0; 0; 0; 0; 0; 0; 0; 0; 0; 0; 0; 0;
  0; 0; 0; 0; 0; 0; 0; 0; 0; 0; 0; 0; 0; 0; 0; 0;
  172375; 473; 13272; 183; 61; 2657; 1589; 211; 3754; 3785; 370; 1191; 34525; 26062; 23541; 12241;
  117394; 134469; 122382; 71163; 58165; 51636; 39978; 40887; 48498; 42766; 60664; 4316; 19; 13958; 96; 359;
  15; 12315; 5339; 6633; 6866; 6922; 9760; 30326; 3827; 6145; 7748; 1863; 3633; 37849; 8346; 7175;
  4494; 2389; 3339; 23801; 47093; 3671; 2909; 7187; 2260; 2436; 1980; 724; 122; 735; 53; 3823;
  12; 52595; 15736; 41143; 24731; 64607; 19373; 18801; 16429; 28479; 4545; 4740; 17737; 20585; 28096; 35949;
  27630; 4091; 26111; 21098; 29704; 26652; 10503; 5251; 11828; 6472; 3535; 16; 79; 16; 24; 0;
  0; 0; 0; 0; 0; 0; 0; 0; 0; 0; 0; 0; 0; 0; 0; 0;
  0; 0; 0; 0; 0; 0; 0; 0; 0; 0; 0; 0; 0; 0; 0; 0;
  0; 0; 0; 0; 0; 0; 0; 0; 0; 0; 0; 0; 0; 0; 0; 0;
  0; 0; 0; 0; 0; 0; 0; 0; 0; 0; 0; 0; 0; 0; 0; 0;
  0; 0; 0; 0; 0; 0; 0; 0; 0; 0; 0; 0; 0; 0; 0; 0;
  0; 0; 0; 0; 0; 0; 0; 0; 0; 0; 0; 0; 0; 0; 0; 0;
  0; 0; 0; 0; 0; 0; 0; 0; 0; 0; 0; 0; 0; 0; 0; 0;
  0; 0; 0; 0; 0; 0; 0; 0; 0; 0; 0; 0; 0; 0; 0; 0;
  84578
].
Definition with_symbols (counts : list N) : list (N * N) := combine (count_up (length counts)) counts.
Definition d2_request_table : list (N * N) := with_symbols d2_request_counts.
Definition d2_response_table : list (N * N) := with_symbols d2_response_counts.
