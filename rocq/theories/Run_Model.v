(** * Model of the whole tool: compare_compressors.py with the reports of
      lib/stream.py.

    Simplifications:
    - options are given parsed (parse_options, lines 86-127); [read_har_file]
      is C39's business: a file is the list of its exchanges (line 52);
    - of the verbosity only "above 0" matters here; higher levels print more
      for each message;
    - ratios are exact fractions, the standard deviation is represented by
      its square; times are not modelled;
    - reports are structured data, not text: column widths, the two digits
      after the point and the digit grouping of locale.format are left out;
    - what was printed before an exception is left out. *)
From Coq Require Import String List NArith ZArith QArith Bool.
From Verif Require Import PyBase PyStr Lib_Model.
Import ListNotations.
Open Scope N_scope.
Open Scope py_scope.

(** ** lib/stream.py: summaries *)

(** A dictionary of lists: defaultdict(list) (lines 22-24) or, after merge_dols,
    a plain dict.  Looking up an absent key of a defaultdict also inserts it;
    every caller here then raises, so this is not seen. *)
Definition lookup_list {A} (default : bool) (d : dict (list A)) (k : str) : res (list A) :=
  match dget d k with
  | Some l => Ok l
  | None => if default then Ok [] else Err KeyError
  end.

Definition sum_sizes (l : list N) : N := fold_left N.add l 0.

(** Comparison of fractions with denominators above 0. *)
Definition ratio_lt (a b : ratio) : bool := fst a * snd b <? fst b * snd a.

(** min() and max() of a list: the first of the smallest, of the largest. *)
Definition py_min (l : list ratio) : res ratio :=
  match l with
  | [] => Err ValueError
  | x :: r => Ok (fold_left (fun m y => if ratio_lt y m then y else m) r x)
  end.
Definition py_max (l : list ratio) : res ratio :=
  match l with
  | [] => Err ValueError
  | x :: r => Ok (fold_left (fun m y => if ratio_lt m y then y else m) r x)
  end.

Definition q_of (r : ratio) : Q := Z.of_N (fst r) # N.succ_pos (N.pred (snd r)).

(** meanstdv, lines 103-117: the square of the deviation; None: ZeroDivisionError. *)
Definition variance (l : list ratio) : option Q :=
  match l with
  | [] | [_] => None
  | _ =>
      let n := Z.of_nat (length l) in
      let mean := (fold_left (fun m x => m + q_of x) l 0 / inject_Z n)%Q in
      Some (fold_left (fun s x => s + (q_of x - mean) * (q_of x - mean)) l 0 / inject_Z (n - 1))%Q
  end.

(** A line of the summary, line 52. *)
Record line := mkLine { l_proc : str; l_size : N; l_ratio : ratio; l_min : ratio; l_max : ratio; l_var : Q }.

(** The loop body of print_summary, lines 41-52. *)
Definition summary_line (default : bool) (s : strm) (baseline_size : N) (proc : str) : res line :=
  let* sizes := lookup_list default (st_sizes s) proc in
  let ttl_size := sum_sizes sizes in
  if baseline_size =? 0 then Err ZeroDivisionError
  else
    let* ratios := lookup_list default (st_ratios s) proc in
    let std := match variance ratios with Some v => v | None => 0%Q end in
    let* min_ratio := py_min ratios in
    let* max_ratio := py_max ratios in
    Ok (mkLine proc ttl_size (ttl_size, baseline_size) min_ratio max_ratio std).

Fixpoint summary_lines (default : bool) (s : strm) (baseline_size : N) (procs : list str) : res (list line) :=
  match procs with
  | [] => Ok []
  | p :: ps =>
      let* l := summary_line default s baseline_size p in
      let* ls := summary_lines default s baseline_size ps in
      Ok (l :: ls)
  end.

(** print_summary, lines 37-57. *)
Definition print_summary (default : bool) (s : strm) (baseline : str) (procs : list str) : res (list line) :=
  let* b := lookup_list default (st_sizes s) baseline in
  summary_lines default s (sum_sizes b) procs.

(** ** lib/stream.py: TSV *)

Record row := mkRow { r_num : nat; r_name : str; r_sizes : list N }.

(** zip of columns, line 66: as long as the shortest. *)
Definition zip_columns (cols : list (list N)) : list (list N) :=
  match cols with
  | [] => []
  | c :: cs => map (fun i => map (fun l => nth i l 0) cols) (seq 0 (fold_left Nat.min (map (@length N) cs) (length c)))
  end.

Fixpoint number_rows (count : nat) (name : str) (rows : list (list N)) : list row :=
  match rows with
  | [] => []
  | r :: rs => mkRow (S count) name r :: number_rows (S count) name rs
  end.

(** print_tsv, lines 64-71: the rows and the counter afterwards. *)
Definition print_tsv (s : strm) (procs : list str) (count : nat) : list row * nat :=
  let rows := zip_columns (map (fun p => match dget (st_sizes s) p with Some l => l | None => [] end) procs) in
  (number_rows count (st_name s) rows, (count + length rows)%nat).

(** ** compare_compressors.py *)

Record opts := mkOpts { o_verbose : bool; o_debug : bool; o_names : list str; o_baseline : option str; o_tsv : bool }.

(** Lines 35-40. *)
Definition baseline_of (o : opts) : str := match o_baseline o with Some b => b | None => lit "http1" end.
Definition names_of (o : opts) : list str :=
  if mem_str (baseline_of o) (o_names o) then o_names o else baseline_of o :: o_names o.

(** What is printed for a session and for a direction. *)
Record session_report := mkSR { sr_name : str; sr_count : nat; sr_mism : list (list str); sr_lines : option (list line) }.
Record total_report := mkTR { tr_name : str; tr_count : nat; tr_lines : list line }.
Record report := mkReport { rep_sessions : list session_report; rep_req : total_report; rep_res : total_report;
  rep_tsv : option (list row * list row) }.

Section Run.
  Variable St : Type.
  Variable construct : str -> bool -> list str -> res St.
  Variable p_compress : str -> St -> hdict -> str -> res (St * str).
  Variable p_decompress : str -> St -> str -> res (St * option hdict).
  Variable ord : list (str * str) -> list (str * str).
  Variable streamify : list exchange -> res (list stream_desc).

  (** get_processors, lib/processors.py lines 47-64, for both directions; the
      display names. *)
  Fixpoint construct_all (names : list str) : res (list str) :=
    match names with
    | [] => Ok []
    | n :: ns =>
        let* (m, ps) := parse_spec n in
        let* _ := construct m true ps in
        let* _ := construct m false ps in
        let* r := construct_all ns in
        Ok (display_name m ps :: r)
    end.

  (** Lines 50-53. *)
  Fixpoint all_sessions (files : list (list exchange)) : res (list stream_desc) :=
    match files with
    | [] => Ok []
    | f :: fs => let* s := streamify f in let* ss := all_sessions fs in Ok (s ++ ss)
    end.

  (** Lines 54-59; the [k]-th session has the [k]-th message list. *)
  Fixpoint run_sessions (o : opts) (procs : list str) (k : nat) (ss : list stream_desc)
    : res (list strm * list session_report) :=
    match ss with
    | [] => Ok ([], [])
    | s :: ss' =>
        let* (sizes, ratios, mism) :=
          process_session St construct p_compress p_decompress ord (o_debug o) (baseline_of o) (names_of o)
            (sd_req s) (sd_msgs s) in
        let obj := mkStrm (sd_name s) k (sd_req s) sizes ratios in
        let* lines := if o_verbose o then let* l := print_summary true obj (baseline_of o) procs in Ok (Some l)
                      else Ok None in
        let* (objs, reps) := run_sessions o procs (S k) ss' in
        Ok (obj :: objs, mkSR (sd_name s) (length (sd_msgs s)) mism lines :: reps)
    end.

  (** [s for s in sessions if s.msg_type == msg_type], line 62, as places. *)
  Fixpoint places (t : bool) (k : nat) (ss : list stream_desc) : list nat :=
    match ss with
    | [] => []
    | s :: ss' => if Bool.eqb (sd_req s) t then k :: places t (S k) ss' else places t (S k) ss'
    end.

  (** Lines 62-65. *)
  Definition print_total (o : opts) (procs : list str) (ss : list stream_desc) (t : bool)
      (st : store (hdict * str)) : res (store (hdict * str) * total_report) :=
    let* (st, n) := total_stream _ st (places t 0 ss) in
    match nth_error (s_objs st) n with
    | None => Err AttributeError (* impossible *)
    | Some obj =>
        let count := match nth_error (s_lists st) (st_msgs obj) with Some l => length l | None => O end in
        let* lines := print_summary (n <? length ss)%nat obj (baseline_of o) procs in
        Ok (st, mkTR (st_name obj) count lines)
    end.

  (** Lines 74-76: the rows of both files, in the order of the sessions. *)
  Fixpoint tsv_rows (procs : list str) (objs : list strm) (nq ns : nat) : list row * list row :=
    match objs with
    | [] => ([], [])
    | s :: ss =>
        if st_type s then
          let '(r, n) := print_tsv s procs nq in
          let '(q, a) := tsv_rows procs ss n ns in (r ++ q, a)
        else
          let '(r, n) := print_tsv s procs ns in
          let '(q, a) := tsv_rows procs ss nq n in (q, r ++ a)
    end.

  (** __init__, lines 33-45, and run, lines 47-78. *)
  Definition run (o : opts) (files : list (list exchange)) : res report :=
    let* procs := construct_all (names_of o) in
    let* ss := all_sessions files in
    let* (objs, reps) := run_sessions o procs 0 ss in
    let st := mkStore (map sd_msgs ss) objs in
    let* (st, req) := print_total o procs ss true st in
    let* (st, rsp) := print_total o procs ss false st in
    Ok (mkReport reps req rsp
          (if o_tsv o then Some (tsv_rows procs (firstn (length ss) (s_objs st)) 0 0) else None)).
End Run.
