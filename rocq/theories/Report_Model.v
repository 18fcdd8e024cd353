(** * The text of the reports: lib/stream.py lines 32-71, and what line 46 uses of
      the standard library: locale.format("%13d", size, grouping=True) for en_US
      (Lib/locale.py: _group, _strip_padding), where digits come in threes with commas.

    Simplification: the texts of the numbers that are not integers (time and
    ratios, "%5.2f" and "%2.2f") are given. *)
From Coq Require Import String List NArith ZArith Bool.
From Verif Require Import PyBase PyNum SDate_Model Lib_Model Run_Model PyStr.
Import ListNotations.
Open Scope N_scope.

(** "%ns": blanks in front. *)
Definition rjust (n : nat) (s : str) : str := repeat 32 (n - length s) ++ s.

(** _group: from the end, three characters at a time as long as the last one is a
    digit; what remains is put in front.  The text is given reversed; the groups
    and what is left, reversed as well. *)
Fixpoint group_loop (fuel : nat) (r : str) : list str * str :=
  match fuel, r with
  | S f, c :: _ => if is_digit c then let '(g, l) := group_loop f (skipn 3 r) in (firstn 3 r :: g, l) else ([], r)
  | _, _ => ([], r)
  end.
Definition group (s : str) : str * nat :=
  let '(g, l) := group_loop (length s) (rev s) in
  (rev l ++ join [44] (rev (map (@rev N) g)), (length g - 1)%nat).

(** _strip_padding; the text ends with a digit, so nothing is taken off its end. *)
Fixpoint strip_padding (s : str) (amount : nat) : str :=
  match amount, s with
  | S a, c :: r => if c =? 32 then strip_padding r a else s
  | _, _ => s
  end.

(** locale.format("%13d", size, grouping=True), line 46. *)
Definition pretty_size (size : N) : str :=
  let '(s, seps) := group (rjust 13 (dec size)) in
  if (seps =? 0)%nat then s else strip_padding s seps.

(** print_header, lines 32-35. *)
Definition header_text (name : str) (count : nat) (msg_type : str) : str :=
  lit "* " ++ name ++ lit ": " ++ dec (N.of_nat count) ++ lit " " ++ msg_type ++ lit " messages" ++ [10].

(** A line of the table: processor, total size, and the texts of the time and of
    the four ratios. *)
Record cells := mkCells { c_proc : str; c_size : N; c_time : str; c_ratio : str; c_min : str; c_max : str; c_std : str }.

(** self.lname, line 21; procs is never empty. *)
Definition lname (procs : list str) : nat := fold_right Nat.max O (map (@length N) procs).

(** print_summary, lines 53-57. *)
Definition line_text (n : nat) (c : cells) : str :=
  lit "  " ++ rjust n (c_proc c) ++ lit " " ++ pretty_size (c_size c) ++ lit " " ++ c_time c ++ lit " | " ++
  c_ratio c ++ lit "  " ++ c_min c ++ lit "  " ++ c_max c ++ lit "  " ++ c_std c ++ [10].
Definition title_text (n : nat) : str := lit "  " ++ rjust (n + 9) [] ++ lit " size  time | ratio min   max   std" ++ [10].
Definition summary_text (procs : list str) (cs : list cells) : str :=
  title_text (lname procs) ++ concat (map (line_text (lname procs)) cs) ++ [10].

(** print_tsv_header and print_tsv, lines 59-71. *)
Definition tsv_header_text (procs : list str) : str := join [9] (lit "num" :: lit "name" :: procs) ++ [10].
Definition row_text (r : row) : str := join [9] (dec (N.of_nat (r_num r)) :: r_name r :: map dec (r_sizes r)) ++ [10].
(** compare_compressors.py, lines 70-76: a file. *)
Definition tsv_text (procs : list str) (rows : list row) : str := tsv_header_text procs ++ concat (map row_text rows).
