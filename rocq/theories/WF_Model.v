(** * Model of compressor/delta2/word_freak.py (all of it) and of its use by class
      Stats of compressor/delta2/spdy4_codec_impl.py, lines 422-434, which the
      compressor calls for every message (line 1023) (Python 2).

    The keys and values of operations are byte strings.  A dictionary of counts by
    length is an association list. *)
From Coq Require Import String List NArith Bool Arith.
From Verif Require Import PyBase PyNum D2Wire_Model D2Code_Model PyStr.
Import ListNotations.
Open Scope N_scope.
Open Scope py_scope.

(** __init__, lines 13-19 (code and eofs are never used). *)
Record wf := mk_wf { w_chars : list N; w_lens : list (N * N) }.
Definition wf_new : wf := mk_wf (repeat 0 257) [].

(** l[i] += 1 *)
Definition bump (l : list N) (i : N) : res (list N) :=
  if i <? lenN l then Ok (update_nth (N.to_nat i) (fun n => n + 1) l) else Err IndexError.

(** d[n] = d.get(n, 0) + 1 *)
Fixpoint bump_len (d : list (N * N)) (n : N) : list (N * N) :=
  match d with
  | [] => [(n, 1)]
  | (m, k) :: d => if n =? m then (m, k + 1) :: d else (m, k) :: bump_len d n
  end.
Fixpoint len_count (d : list (N * N)) (n : N) : N :=
  match d with [] => 0 | (m, k) :: d => if n =? m then k else len_count d n end.

Fixpoint bump_all (l : list N) (s : str) : res (list N) :=
  match s with [] => Ok l | c :: s => let* l := bump l c in bump_all l s end.

(** Lines 25-29. *)
Definition look_str (w : wf) (s : str) : res wf :=
  let d := bump_len (w_lens w) (lenN s) in
  let* l := bump (w_chars w) 256 in
  let* l := bump_all l s in
  Ok (mk_wf l d).

(** LookAt, lines 21-29: of each operation the key, if it has one, and the value. *)
Definition look_op (w : wf) (o : op) : res wf :=
  match o with
  | OToggl _ _ | OTrang _ _ _ => Ok w
  | OClone _ _ v => look_str w v
  | OKvsto _ k v => let* w := look_str w k in look_str w v
  end.
Fixpoint look_at (w : wf) (ops : list op) : res wf :=
  match ops with [] => Ok w | o :: ops => let* w := look_op w o in look_at w ops end.

(** Stats.Process, lines 432-434 of spdy4_codec_impl.py. *)
Definition stats := dict wf.
Definition process (st : stats) (description : str) (ops : list op) : res stats :=
  let w := match dget st description with Some w => w | None => wf_new end in
  let* w := look_at w ops in
  Ok (dset st description w).
Fixpoint process_all (st : stats) (calls : list (str * list op)) : res stats :=
  match calls with [] => Ok st | (d, ops) :: calls => let* st := process st d ops in process_all st calls end.

(** chr(i) of an int. *)
Definition py_chr (i : N) : res N := if i <? 256 then Ok i else Err ValueError.

(** SortedByFreq, lines 31-34, up to the sort. *)
Definition by_freq (w : wf) : res (list (N * N)) :=
  mapm (fun p => let* c := py_chr (fst p) in Ok (c, snd p)) (combine (map N.of_nat (seq 0 (length (w_chars w)))) (w_chars w)).

(** ** __repr__, lines 39-64 *)

(** '%*d' and '{:>4}'. *)
Definition right (n : nat) (s : str) : str := repeat 32 (n - length s) ++ s.

(** repr(chr(i)) for a printable character. *)
Definition repr_chr (i : N) : str :=
  if i =? 39 then [34; 39; 34]
  else if i =? 92 then [39; 92; 92; 39]
  else [39; i; 39].

(** Lines 51-54; digits, letters, punctuation and the blank are 32 to 126. *)
Definition sym_text (i : N) : str :=
  right 4 (if (i <? 128) && ((32 <=? i) && (i <=? 126)) then repr_chr i else dec i).

(** Lines 41-45. *)
Definition freq_len (l : list N) : nat := length (dec (fold_left (fun m i => if m <? i then i else m) l 0)).

(** Lines 49 and 55. *)
Definition pair_text (n : nat) (i count : N) : str := lit "(" ++ sym_text i ++ lit ", " ++ right n (dec count) ++ lit "),".

(** The loop of lines 50-59, and lines 60-61: the lines. *)
Fixpoint wf_lines (cur : str) (pairs : list str) : list str :=
  match pairs with
  | [] => if str_eqb cur (lit "  ") then [] else [cur]
  | p :: pairs =>
      if (60 <? length p + length cur)%nat then cur :: wf_lines (lit "  " ++ p) pairs
      else wf_lines (cur ++ p) pairs
  end.

Definition pairs_of (l : list N) : list str :=
  map (fun p => pair_text (freq_len l) (fst p) (snd p)) (combine (map N.of_nat (seq 0 (length l))) l).

Definition wf_repr (w : wf) : str :=
  join [10] (lit "[" :: wf_lines (lit "  ") (pairs_of (w_chars w)) ++ [lit "]"]).
