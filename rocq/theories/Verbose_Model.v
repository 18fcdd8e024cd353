(** * Model of what lib/processors.py writes while it processes messages.

    Line numbers refer to lib/processors.py.  [process_message], [process_session]
    and [process_sessions] of Lib_Model leave the printing out; here each function
    also takes and returns what has been written so far, so that the text is known
    when an exception ends the run.

    Simplifications:
    - as in Lib_Model, [None] from [p_decompress] is NotImplementedError; that a
      codec's decompress returns Python's None (lines 143-145) is not modelled;
    - times are left out; writing itself never raises;
    - the sessions' headers and summaries (compare_compressors.py lines 54-59) are
      Report_Model's business and left out here: with verbosity 0 there are none. *)
From Coq Require Import String List NArith ZArith Bool.
From Verif Require Import PyBase PyStr PyNum H1_Model Lib_Model.
Import ListNotations.
Open Scope N_scope.
Open Scope py_scope.

(** Standard output, standard error, and the keys of [self.warned] (line 44). *)
Record io := mk_io { out : str; err : str; warned : list str }.
Definition io_new : io := mk_io [] [] [lit "http1_gzip"].
Definition say (o : io) (s : str) : io := mk_io (out o ++ s) (err o) (warned o).

(** Lines 135-137. *)
Definition warning (name : str) : str := lit "  WARNING: " ++ name ++ lit " decompression not checked." ++ [10].

(** Lines 133-139. *)
Definition warn (o : io) (name : str) : io :=
  if mem_str name (warned o) then o else mk_io (out o) (err o ++ warning name) (warned o ++ [name]).

(** Lines 114-120. *)
Definition progress (verbose : Z) (is_req : bool) (host : str) (idx tot : nat) (name : str) (o : io) : io :=
  if (3 <=? verbose)%Z then
    say o (lit "# " ++ name ++ lit " " ++ (if is_req then lit "request" else lit "response") ++ lit " "
             ++ dec (N.of_nat idx) ++ lit " (of " ++ dec (N.of_nat tot) ++ lit ") for " ++ host ++ [10])
  else o.

(** Lines 140-148: the text of a message always ends with a line feed. *)
Definition show_message (verbose : Z) (d : hdict) (o : io) : io :=
  if (3 <? verbose)%Z then
    let txt := http1_compress d in
    let o := say o txt in
    if match txt with [] => true | c :: r => negb (last r c =? 10) end then say o [10; 10] else o
  else o.

(** Lines 152-155. *)
Definition complain (verbose : Z) (name compare_result : str) (o : io) : io :=
  let o := say o (lit "  - mismatch in " ++ name) in
  let o := if (1 <? verbose)%Z then say o (lit ":" ++ [10] ++ compare_result ++ [10]) else o in
  say o [10].

Section Processors.
  Variable St : Type.
  Variable construct : str -> bool -> list str -> res St.
  Variable p_compress : str -> St -> hdict -> str -> res (St * str).
  Variable p_decompress : str -> St -> str -> res (St * option hdict).
  Variable ord : list (str * str) -> list (str * str).

  (** The loop body of process_message, lines 114-157. *)
  Definition process_one_io (verbose : Z) (debug is_req : bool) (hdrs : hdict) (host : str) (idx tot : nat) (p : proc St) (o : io)
    : io * res (proc St * N * bool) :=
    let o := progress verbose is_req host idx tot (p_name St p) o in
    let filtered := filter_headers hdrs in
    match p_compress (p_mod St p) (p_st St p) filtered host with
    | Err e => (o, Err e)
    | Ok (st, compressed) =>
        match p_decompress (p_mod St p) st compressed with
        | Err e => (o, Err e)
        | Ok (st, decompressed) =>
            let p' := mkProc St (p_mod St p) (p_name St p) st in
            match decompressed with
            | None => (warn o (p_name St p), Ok (p', lenN compressed, false))
            | Some d =>
                let o := show_message verbose d o in
                match compare_headers ord filtered (lit "orig") d (p_name St p) with
                | [] => (o, Ok (p', lenN compressed, false))
                | r => let o := complain verbose (p_name St p) r o in
                       if debug then (o, Err SystemExit) else (o, Ok (p', lenN compressed, true))
                end
            end
        end
    end.

  Fixpoint message_loop_io (verbose : Z) (debug is_req : bool) (procs : list (proc St)) (hdrs : hdict) (host : str) (idx tot : nat)
      (results : dict N) (mism : list str) (o : io) : io * res (list (proc St) * dict N * list str) :=
    match procs with
    | [] => (o, Ok ([], results, mism))
    | p :: ps =>
        match process_one_io verbose debug is_req hdrs host idx tot p o with
        | (o, Err e) => (o, Err e)
        | (o, Ok (p, size, bad)) =>
            match message_loop_io verbose debug is_req ps hdrs host idx tot (dset results (p_name St p) size)
                    (if bad then mism ++ [p_name St p] else mism) o with
            | (o, Err e) => (o, Err e)
            | (o, Ok (ps, results, mism)) => (o, Ok (p :: ps, results, mism))
            end
        end
    end.

  (** process_message, lines 98-158. *)
  Definition process_message_io (verbose : Z) (debug is_req : bool) (procs : list (proc St)) (hdrs : hdict) (host : str) (idx tot : nat)
      (o : io) : io * res (list (proc St) * dict N * list str) :=
    let o := if (3 <? verbose)%Z then say o (repeat 35 80 ++ [10]) else o in
    message_loop_io verbose debug is_req procs hdrs host idx tot [] [] o.

  Fixpoint session_loop_io (verbose : Z) (debug : bool) (baseline : str) (is_req : bool) (procs : list (proc St)) (idx tot : nat)
      (msgs : list (hdict * str)) (sizes : dict (list N)) (ratios : dict (list ratio)) (mism : list (list str)) (o : io)
    : io * res (dict (list N) * dict (list ratio) * list (list str)) :=
    match msgs with
    | [] => (o, Ok (sizes, ratios, mism))
    | (hdrs, host) :: msgs' =>
        match process_message_io verbose debug is_req procs hdrs host (S idx) tot o with
        | (o, Err e) => (o, Err e)
        | (o, Ok (procs, results, bad)) =>
            match record_results baseline results results sizes ratios with
            | Err e => (o, Err e)
            | Ok (sizes, ratios) =>
                session_loop_io verbose debug baseline is_req procs (S idx) tot msgs' sizes ratios (mism ++ [bad]) o
            end
        end
    end.

  (** process_session, lines 66-83. *)
  Definition process_session_io (verbose : Z) (debug : bool) (baseline : str) (names : list str) (is_req : bool)
      (msgs : list (hdict * str)) (o : io) : io * res (dict (list N) * dict (list ratio) * list (list str)) :=
    match get_processors St construct is_req names with
    | Err e => (o, Err e)
    | Ok procs => session_loop_io verbose debug baseline is_req procs 0 (length msgs) msgs [] [] [] o
    end.

  (** compare_compressors.py lines 54-59. *)
  Fixpoint process_sessions_io (verbose : Z) (debug : bool) (baseline : str) (names : list str)
      (sessions : list (bool * list (hdict * str))) (o : io)
    : io * res (list (dict (list N) * dict (list ratio) * list (list str))) :=
    match sessions with
    | [] => (o, Ok [])
    | (is_req, msgs) :: ss =>
        match process_session_io verbose debug baseline names is_req msgs o with
        | (o, Err e) => (o, Err e)
        | (o, Ok r) =>
            match process_sessions_io verbose debug baseline names ss o with
            | (o, Err e) => (o, Err e)
            | (o, Ok rs) => (o, Ok (r :: rs))
            end
        end
    end.
End Processors.
