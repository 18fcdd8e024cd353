(** * Model of compressor/delta/huffman.py (Python 2).

    Line numbers refer to that file; bohe, delta_bohe and delta2_bohe carry the
    same constructor.  Simplifications:
    - counts are natural numbers; a symbol is a number (MN, lines 27-30, turns
      the characters of a table into numbers);
    - the nodes are those of HDHuff_Model ([htree]), whose priority is the first
      component of [freq, symbol, children], and the children of one turn are
      picked by the [pick_node] of that model: lines 40-49 are the same code as
      headerdiff's;
    - BuildCodeTable pushes both children at the front of its queue, which makes
      it a walk from right to left;
    - BinaryStringToBREP, EncodeToBB, Encode and DecodeFromBB are, line by line,
      those of delta2/huffman.py: [brep], [huff_encode] and [decode_from_bb] of
      D2Huff_Model;
    - Decode (lines 153-189, documented as not to be used) and the printing
      functions are left out. *)
From Coq Require Import List NArith Bool Arith.
From Verif Require Import PyBase HDHuff_Model BB_Model D2Huff_Model.
Import ListNotations.
Open Scope N_scope.
Open Scope py_scope.

(** sorted([[frq, sym, []], ...]), line 36. *)
Definition entry_leb (a b : N * N) : bool :=
  if snd a =? snd b then fst a <=? fst b else snd a <? snd b.
Fixpoint insert_entry (x : N * N) (l : list (N * N)) : list (N * N) :=
  match l with
  | [] => [x]
  | y :: l' => if entry_leb x y then x :: l else y :: insert_entry x l'
  end.
Definition sort_entries (l : list (N * N)) : list (N * N) := fold_right insert_entry [] l.
Definition entry_leaf (e : N * N) : htree := HLeaf (snd e) (Num (fst e)).

(** The loop of lines 38-50; every turn leaves one node less. *)
Fixpoint merge_loop (fuel : nat) (leaves internals : list htree) : res (list htree * list htree) :=
  if (1 <? length leaves + length internals)%nat then
    match fuel with
    | O => Err Diverge
    | S f =>
        let* (a, leaves, internals) := pick_node leaves internals in
        let* (b, leaves, internals) := pick_node leaves internals in
        merge_loop f leaves (internals ++ [node_add a b])
    end
  else Ok (leaves, internals).

(** BuildCodeTree, lines 22-53. *)
Definition merge_tree (table : list (N * N)) : res htree :=
  if (length table <? 2)%nat then Err StandardError
  else
    let leaves := map entry_leaf (sort_entries table) in
    let* (leaves, internals) := merge_loop (length leaves) leaves [] in
    match leaves with
    | _ :: _ => Err StandardError
    | [] => match rev internals with [] => Err IndexError | t :: _ => Ok t end
    end.

(** The loop of lines 83-93: the symbols with their paths. *)
Definition sym_num (s : hsym) : N := match s with Chr c => c | Num n => n end.
Fixpoint pre_table (t : htree) (path : list bool) : list (N * list bool) :=
  match t with
  | HLeaf _ s => [(sym_num s, path)]
  | HNode _ a b => pre_table b (path ++ [true]) ++ pre_table a (path ++ [false])
  end.

(** sorted(pre_table, key=lambda x: x[0]), line 94: stable. *)
Fixpoint insert_path (x : N * list bool) (l : list (N * list bool)) : list (N * list bool) :=
  match l with
  | [] => [x]
  | y :: l' => if fst x <=? fst y then x :: l else y :: insert_path x l'
  end.
Definition sort_paths (l : list (N * list bool)) : list (N * list bool) := fold_right insert_path [] l.

(** The loop of lines 95-99. *)
Fixpoint number_words (i : N) (l : list (N * list bool)) : res (list word) :=
  match l with
  | [] => Ok []
  | (name, path) :: l' =>
      if i =? name then
        let* w := brep path in
        let* r := number_words (i + 1) l' in
        Ok (w :: r)
      else Err StandardError
  end.

(** BuildCodeTable, lines 75-99. *)
Definition code_table (t : htree) : res (list word) := number_words 0 (sort_paths (pre_table t [])).

(** The tree as the decoder walks it: root[1] is the symbol, root[2] the children. *)
Fixpoint dtree_of (t : htree) : dtree :=
  match t with
  | HLeaf _ s => DLeaf (sym_num s)
  | HNode _ a b => DNode (dtree_of a) (dtree_of b)
  end.

(** The constructor, lines 15-20. *)
Definition d1_huffman (table : list (N * N)) : res huffman :=
  let* t := merge_tree table in
  let* words := code_table t in
  Ok (mk_huffman words (dtree_of t)).

(** header_freq_tables.py, lines 5-48 and 50-93: the counts of the symbols 0, 1,
    ... 256. *)
Definition d1_request_counts : list N := [
  0; 0; 0; 0; 0; 0; 0; 0; 0; 0; 0; 0; 0; 0; 0; 0;
  0; 0; 0; 0; 0; 0; 0; 0; 0; 0; 0; 0; 0; 0; 0; 0;
  61; 9; 0; 0; 2; 1433; 1662; 2; 34; 34; 25; 4; 967; 1379; 2886; 4511;
  3198; 3331; 3597; 2691; 2251; 1880; 2155; 1639; 1916; 1728; 171; 214; 0; 2120; 0; 251;
  0; 931; 481; 566; 696; 362; 545; 513; 328; 524; 210; 260; 373; 287; 311; 288;
  381; 291; 328; 543; 434; 386; 372; 295; 216; 205; 199; 2; 0; 2; 0; 1702;
  0; 4237; 1601; 3203; 2392; 4941; 932; 2297; 1352; 3233; 913; 630; 2082; 2429; 3116; 3286;
  2510; 314; 2646; 3825; 3486; 1298; 839; 1172; 760; 705; 352; 12; 12; 12; 4; 0;
  0; 0; 0; 0; 0; 0; 0; 0; 0; 0; 0; 0; 0; 0; 0; 0;
  0; 0; 0; 0; 0; 0; 0; 0; 0; 0; 0; 0; 0; 0; 0; 0;
  0; 0; 0; 0; 0; 0; 0; 0; 0; 0; 0; 0; 0; 0; 0; 0;
  0; 0; 0; 0; 0; 0; 0; 0; 0; 0; 0; 0; 0; 0; 0; 0;
  0; 0; 0; 0; 0; 0; 0; 0; 0; 0; 0; 0; 0; 0; 0; 0;
  0; 0; 0; 0; 0; 0; 0; 0; 0; 0; 0; 0; 0; 0; 0; 0;
  0; 0; 0; 0; 0; 0; 0; 0; 0; 0; 0; 0; 0; 0; 0; 0;
  0; 0; 0; 0; 0; 0; 0; 0; 0; 0; 0; 0; 0; 0; 0; 0;
  1304 ].
Definition d1_response_counts : list N := [
  87; 0; 0; 0; 0; 0; 0; 0; 0; 0; 0; 0; 0; 0; 0; 0;
  0; 0; 0; 0; 0; 0; 0; 0; 0; 0; 0; 0; 0; 0; 0; 0;
  8277; 0; 948; 9; 0; 191; 203; 2; 191; 191; 6; 300; 2522; 2374; 1325; 3266;
  7630; 7965; 7636; 4415; 4337; 3594; 3253; 3223; 3920; 3306; 3545; 421; 0; 1626; 0; 24;
  0; 1644; 820; 1187; 1116; 954; 1260; 1955; 493; 674; 875; 560; 544; 2305; 844; 781;
  640; 537; 555; 965; 2550; 691; 504; 776; 459; 507; 476; 11; 0; 11; 0; 436;
  0; 5171; 3355; 4201; 3265; 5511; 2185; 2455; 1166; 3075; 768; 768; 1980; 1582; 3613; 3418;
  1864; 532; 2488; 2906; 3324; 2433; 1097; 927; 1169; 749; 506; 9; 13; 9; 0; 0;
  0; 0; 0; 0; 0; 0; 0; 0; 0; 0; 0; 0; 0; 0; 0; 0;
  0; 0; 0; 0; 0; 0; 0; 0; 0; 0; 0; 0; 0; 0; 0; 0;
  0; 0; 0; 0; 0; 0; 0; 0; 0; 0; 0; 0; 0; 0; 0; 0;
  0; 0; 0; 0; 0; 0; 0; 0; 0; 0; 0; 0; 0; 0; 0; 0;
  0; 0; 0; 0; 0; 0; 0; 0; 0; 0; 0; 0; 0; 0; 0; 0;
  0; 0; 0; 0; 0; 0; 0; 0; 0; 0; 0; 0; 0; 0; 0; 0;
  0; 0; 0; 0; 0; 0; 0; 0; 0; 0; 0; 0; 0; 0; 0; 0;
  0; 0; 0; 0; 0; 0; 0; 0; 0; 0; 0; 0; 0; 0; 0; 0;
  5072 ].
Definition d1_table (counts : list N) : list (N * N) := combine (map N.of_nat (seq 0 (length counts))) counts.
Definition d1_request_table : list (N * N) := d1_table d1_request_counts.
Definition d1_response_table : list (N * N) := d1_table d1_response_counts.
