(** * Model of compressor/headerdiff/Huffman.py (Python 2).

    Line numbers refer to that file.  Simplifications:
    - statistics are natural numbers; a dict is an association list in its
      iteration order;
    - a node is a tree: parent pointers (lines 28, 63-64) are replaced by
      walking down from the root, and [node.left_child] is tested by the
      constructor;
    - [codec] holds what the constructor computes; the bit encoder and decoder
      are reset at the start of every call (lines 174, 184), so their state is
      local to the call. *)
From Coq Require Import String List NArith ZArith Bool Arith.
From Verif Require Import PyBase HD_Model.
Import ListNotations.
Open Scope N_scope.
Open Scope py_scope.

(** A symbol is a character or a number (lines 103-105). *)
Inductive hsym := Chr (c : N) | Num (n : N).
Definition hsym_eqb (a b : hsym) : bool :=
  match a, b with
  | Chr x, Chr y | Num x, Num y => x =? y
  | _, _ => false
  end.

(** class Node, lines 20-28. *)
Inductive htree := HLeaf (priority : N) (s : hsym) | HNode (priority : N) (l r : htree).
Definition priority (t : htree) : N := match t with HLeaf p _ => p | HNode p _ _ => p end.

(** Node.__add__, lines 59-65. *)
Definition node_add (a b : htree) : htree := HNode (priority a + priority b) a b.

(** pick_node, lines 77-85: the node and the two queues afterwards. *)
Definition pick_node (l1 l2 : list htree) : res (htree * list htree * list htree) :=
  match l1, l2 with
  | [], [] => Err IndexError
  | [], y :: l2' => Ok (y, l1, l2')
  | x :: l1', [] => Ok (x, l1', l2)
  | x :: l1', y :: l2' => if priority x <=? priority y then Ok (x, l1', l2) else Ok (y, l1, l2')
  end.

(** sorted(nodes, key = priority), line 90: a stable sort. *)
Fixpoint insert_node (x : htree) (l : list htree) : list htree :=
  match l with
  | [] => [x]
  | y :: l' => if priority x <=? priority y then x :: l else y :: insert_node x l'
  end.
Definition sort_nodes (l : list htree) : list htree := fold_right insert_node [] l.

(** The loop of lines 93-96; every turn takes one node off the total. *)
Fixpoint tree_loop (fuel : nat) (onodes nnodes : list htree) : res (list htree) :=
  if (2 <=? length onodes + length nnodes)%nat then
    match fuel with
    | O => Err Diverge
    | S f =>
        let* (n1, onodes, nnodes) := pick_node onodes nnodes in
        let* (n2, onodes, nnodes) := pick_node onodes nnodes in
        tree_loop f onodes (nnodes ++ [node_add n1 n2])
    end
  else Ok nnodes.

(** create_tree, lines 87-98 (nnodes[0] raises for fewer than two symbols). *)
Definition create_tree (symbols : list (hsym * N)) : res htree :=
  let nodes := map (fun '(k, v) => HLeaf v k) symbols in
  let* nnodes := tree_loop (length nodes) (sort_nodes nodes) [] in
  match nnodes with [] => Err IndexError | t :: _ => Ok t end.

(** normalize_stats, lines 103-105. *)
Definition sym_of (k : N) : hsym := if k <? 256 then Chr k else Num k.
Definition normalize_stats (stats : list (N * N)) : list (hsym * N) :=
  map (fun '(k, v) => (sym_of k, if v =? 0 then 1 else v)) stats.

(** Node.encoding, lines 40-48, of every leaf: value and number of bits. *)
Fixpoint encodings (t : htree) (v : N) (l : nat) : list (hsym * (N * nat)) :=
  match t with
  | HLeaf _ s => [(s, (v, l))]
  | HNode _ a b => encodings a (N.shiftl v 1) (S l) ++ encodings b (N.shiftl v 1 + 1) (S l)
  end.

(** class BitEncoder, lines 107-134. *)
Record bitenc := mk_bitenc { be_bytes : str; be_current : N; be_free : nat }.
Definition bitenc_new : bitenc := mk_bitenc [] 0 8.

(** chr(c) *)
Definition py_chr (c : N) : res str := if c <? 256 then Ok [c] else Err ValueError.

(** push_bits, lines 117-128; every turn takes at least one bit off. *)
Fixpoint push_bits (fuel : nat) (e : bitenc) (value : N) (count : nat) : res bitenc :=
  match count with
  | O => Ok e
  | _ =>
      match fuel with
      | O => Err Diverge
      | S f =>
          let free := be_free e in
          if (free <=? count)%nat then
            let c := N.shiftl (be_current e) (N.of_nat free)
                     + N.land (N.shiftr value (N.of_nat (count - free))) (N.shiftr 255 (N.of_nat (8 - free))) in
            let* b := py_chr c in
            push_bits f (mk_bitenc (be_bytes e ++ b) 0 8) value (count - free)
          else
            Ok (mk_bitenc (be_bytes e)
                  (N.shiftl (be_current e) (N.of_nat count) + N.land value (N.shiftr 255 (N.of_nat (8 - count))))
                  (free - count))
      end
  end.

(** code, lines 130-134. *)
Definition be_code (e : bitenc) : res str :=
  if (be_free e <? 8)%nat then let* b := py_chr (N.shiftl (be_current e) (N.of_nat (be_free e))) in Ok (be_bytes e ++ b)
  else Ok (be_bytes e).

(** class BitDecoder, lines 136-158. *)
Record bitdec := mk_bitdec { bd_index : nat; bd_current : N; bd_bit : nat }.
Definition bitdec_new : bitdec := mk_bitdec 0 0 8.
Definition masks : list N := [128; 64; 32; 16; 8; 4; 2; 1].

(** next_bit, lines 150-158. *)
Definition next_bit (code : str) (d : bitdec) : res (N * bitdec) :=
  let* d := (if (8 <=? bd_bit d)%nat then
               match nth_error code (bd_index d) with
               | None => Err IndexError
               | Some c => Ok (mk_bitdec (S (bd_index d)) c 0)
               end
             else Ok d) in
  match nth_error masks (bd_bit d) with
  | None => Err IndexError
  | Some m => Ok (N.land (bd_current d) m, mk_bitdec (bd_index d) (bd_current d) (S (bd_bit d)))
  end.

(** HuffmanCodec.__init__, lines 165-171. *)
Record codec := mk_codec { k_encoder : list (hsym * (N * nat)); k_root : htree }.
Definition new_codec (stats : list (N * N)) : res codec :=
  let* root := create_tree (normalize_stats stats) in
  Ok (mk_codec (encodings root 0 0) root).

Fixpoint code_of (k : list (hsym * (N * nat))) (s : hsym) : res (N * nat) :=
  match k with
  | [] => Err KeyError
  | (x, c) :: k' => if hsym_eqb x s then Ok c else code_of k' s
  end.

(** encode, lines 173-179. *)
Fixpoint push_chars (k : codec) (e : bitenc) (s : str) : res bitenc :=
  match s with
  | [] => Ok e
  | c :: s' =>
      let* (v, n) := code_of (k_encoder k) (Chr c) in
      let* e := push_bits n e v n in
      push_chars k e s'
  end.
Definition huff_encode (k : codec) (s : str) : res str :=
  let* e := push_chars k bitenc_new s in
  let* (v, n) := code_of (k_encoder k) (Num 256) in
  let* e := push_bits n e v n in
  be_code e.

(** The inner loop of decode, lines 187-192. *)
Fixpoint walk (code : str) (t : htree) (d : bitdec) : res (hsym * bitdec) :=
  match t with
  | HLeaf _ s => Ok (s, d)
  | HNode _ a b =>
      let* (x, d) := next_bit code d in
      walk code (if x =? 0 then a else b) d
  end.

(** The loop of lines 185-195.  Every turn reads a bit, or raises. *)
Fixpoint huff_loop (fuel : nat) (code : str) (root : htree) (d : bitdec) (out : str) : res (str * N) :=
  match fuel with
  | O => Err Diverge
  | S f =>
      let* (last, d) := walk code root d in
      let out := match last with Chr c => out ++ [c] | Num _ => out end in
      if hsym_eqb last (Num 256) then Ok (out, N.of_nat (bd_index d))
      else huff_loop f code root d out
  end.

(** decode, lines 181-197. *)
Definition huff_decode (k : codec) (code : str) : res (str * N) :=
  huff_loop (S (8 * length code)) code (k_root k) bitdec_new [].

(** request_stats, lines 202-460, and response_stats, lines 465-723: the counts
    of the symbols 0, 1, ... 256. *)
Definition request_counts : list N := [
  0; 0; 0; 0; 0; 0; 0; 0; 0; 0; 0; 0; 0; 0; 0; 0;
  0; 0; 0; 0; 0; 0; 0; 0; 0; 0; 0; 0; 0; 0; 0; 0;
  1026; 944; 150; 155; 114; 43769; 24855; 113; 968; 1049; 889; 1089; 4008; 31547; 46976; 30217;
  61671; 64539; 73324; 47629; 32652; 34202; 29060; 33486; 28244; 31614; 2466; 4941; 18; 36853; 63; 3891;
  152; 15737; 8813; 10216; 11895; 6637; 18246; 3816; 4529; 5458; 3659; 2504; 4699; 5945; 4391; 4581;
  4264; 4223; 4877; 5744; 7163; 4396; 4407; 4514; 5509; 4247; 2883; 257; 0; 274; 142; 26219;
  17; 51091; 21671; 45189; 34389; 76843; 23063; 31026; 19036; 51279; 14245; 11033; 34184; 30439; 42519; 44796;
  36591; 5376; 40241; 48979; 56413; 26014; 11371; 18784; 10070; 9174; 5963; 29; 1531; 29; 490; 0;
  0; 0; 0; 0; 0; 0; 0; 0; 0; 0; 0; 0; 0; 0; 0; 0;
  0; 0; 0; 0; 0; 0; 0; 0; 0; 0; 0; 0; 0; 0; 0; 0;
  0; 0; 0; 0; 0; 0; 0; 0; 0; 0; 0; 0; 0; 0; 0; 0;
  0; 0; 0; 0; 0; 0; 0; 0; 0; 0; 0; 0; 0; 0; 0; 0;
  0; 0; 0; 0; 0; 0; 0; 0; 0; 0; 0; 0; 0; 0; 0; 0;
  0; 0; 0; 0; 0; 0; 0; 0; 0; 0; 0; 0; 0; 0; 0; 0;
  0; 0; 0; 0; 0; 0; 0; 0; 0; 0; 0; 0; 0; 0; 0; 0;
  0; 0; 0; 0; 0; 0; 0; 0; 0; 0; 0; 0; 0; 0; 0; 0;
  22803 ].
Definition response_counts : list N := [
  0; 0; 0; 0; 0; 0; 0; 0; 0; 0; 0; 0; 0; 0; 0; 0;
  0; 0; 0; 0; 0; 0; 0; 0; 0; 0; 0; 0; 0; 0; 0; 0;
  57434; 468; 6017; 156; 61; 2379; 1535; 188; 1354; 1854; 408; 1088; 4088; 12270; 12094; 5389;
  51167; 49470; 46318; 34850; 32732; 29867; 23980; 24184; 25422; 24720; 28394; 3104; 19; 8304; 90; 216;
  15; 7970; 3660; 5013; 6058; 4429; 5438; 22479; 2356; 4079; 3624; 1719; 2720; 24732; 4641; 4512;
  4081; 2166; 3377; 6182; 25239; 3518; 2892; 2336; 2080; 2080; 1882; 368; 96; 436; 43; 3289;
  11; 21432; 9701; 20280; 13496; 21771; 11557; 6700; 6961; 11591; 3168; 3305; 7927; 8196; 10878; 14524;
  10058; 2567; 11052; 9721; 12552; 7250; 4429; 3763; 5260; 4208; 2565; 7; 58; 15; 19; 0;
  0; 0; 0; 0; 0; 0; 0; 0; 0; 0; 0; 0; 0; 0; 0; 0;
  0; 0; 0; 0; 0; 0; 0; 0; 0; 0; 0; 0; 0; 0; 0; 0;
  0; 0; 0; 0; 0; 0; 0; 0; 0; 0; 0; 0; 0; 0; 0; 0;
  0; 0; 0; 0; 0; 0; 0; 0; 0; 0; 0; 0; 0; 0; 0; 0;
  0; 0; 0; 0; 0; 0; 0; 0; 0; 0; 0; 0; 0; 0; 0; 0;
  0; 0; 0; 0; 0; 0; 0; 0; 0; 0; 0; 0; 0; 0; 0; 0;
  0; 0; 0; 0; 0; 0; 0; 0; 0; 0; 0; 0; 0; 0; 0; 0;
  0; 0; 0; 0; 0; 0; 0; 0; 0; 0; 0; 0; 0; 0; 0; 0;
  57125 ].
Definition stats_of (counts : list N) : list (N * N) := combine (map N.of_nat (seq 0 (length counts))) counts.
Definition request_stats : list (N * N) := stats_of request_counts.
Definition response_stats : list (N * N) := stats_of response_counts.
