(** * Model of compressor/__init__.py : HTTP/1 text, and of http1/__init__.py.

    What counts as white space ([strip], [split(None)]) and what [lower]
    does depends on the kind of string: for a Python-2 [str], a list of
    octets, white space is blank, tab, newline, vertical tab, form feed and
    carriage return, and [lower] acts on ASCII letters; for texts (Python 3,
    and what json.load returns in either version) both follow Unicode.  The
    parser is given for any choice ([sp], [low]) and named for the first. *)
From Coq Require Import String List NArith ZArith Bool.
From Verif Require Import PyBase PyStr PyMerge Lib_Model.
Import ListNotations.
Open Scope N_scope.
Open Scope py_scope.

Definition get_or (d : hdict) (k dflt : str) : str := match dget d k with Some v => v | None => dflt end.

(** The text of one header, lines 71-77. *)
Definition h1_header (delimiter valsep host : str) (kv : str * str) : str :=
  let key := if str_eqb (fst kv) (lit ":host") then host else fst kv in
  flat_map (fun v => key ++ valsep ++ v ++ delimiter) (split_on 0 (snd kv)).

(** format_http1, lines 47-79. *)
Definition format_http1 (frame : hdict) (delimiter valsep host version : str) : str :=
  let '(top_line, avoid_list) :=
    if din frame (lit ":method") then
      (get_or frame (lit ":method") [] ++ [32] ++ get_or frame (lit ":path") [] ++ [32]
         ++ get_or frame (lit ":version") version ++ delimiter,
       [lit ":method"; lit ":path"; lit ":version"])
    else
      (get_or frame (lit ":version") version ++ [32] ++ get_or frame (lit ":status") [] ++ [32]
         ++ get_or frame (lit ":status-text") (lit "?") ++ delimiter,
       [lit ":version"; lit ":status"; lit ":status-text"]) in
  top_line
    ++ flat_map (fun kv => if mem_str (fst kv) avoid_list then [] else h1_header delimiter valsep host kv) frame
    ++ delimiter.

Fixpoint span (p : N -> bool) (s : str) : str * str :=
  match s with
  | [] => ([], [])
  | x :: s' => if p x then let '(a, b) := span p s' in (x :: a, b) else ([], s)
  end.

Section Strings.
Variable sp : N -> bool.
Variable low : str -> str.

(** s.split(None, n). *)
Fixpoint split_ws (n : nat) (s : str) : list str :=
  match lstrip sp s with
  | [] => []
  | s' => match n with
          | O => [s']
          | S m => let '(a, b) := span (fun c => negb (sp c)) s' in a :: split_ws m b
          end
  end.

(** The two splits of lines 90-94 ([ValueError] when there is no colon). *)
Definition h1_split_line (c : N) (r : str) : res (str * str) :=
  if c =? 58 then
    match split_once 58 r with
    | (n, Some v) => Ok (58 :: n, v)
    | (_, None) => Err ValueError
    end
  else
    match split_once 58 (c :: r) with
    | (n, Some v) => Ok (n, v)
    | (_, None) => Err ValueError
    end.

(** The loop over the lines, lines 87-99. *)
Fixpoint parse_lines (lines : list str) (out : hdict) : res hdict :=
  match lines with
  | [] => Ok out
  | [] :: _ => Ok out
  | (c :: r) :: ls =>
      let* (name, value) := h1_split_line c r in
      parse_lines ls (merge_step (fun _ => 0) out (low name, strip sp value))
  end.

(** parse_http1, lines 82-111. *)
Definition parse_http1_in (message : str) (is_request : bool) (host : str) : res hdict :=
  match split_on 10 (strip sp message) with
  | [] => Err IndexError (* impossible: split never returns [] *)
  | first :: lines =>
      let* out := parse_lines lines [] in
      match split_ws 2 first with
      | [t0; t1; t2] =>
          if is_request then
            let out := dset out (lit ":method") t0 in
            let out := dset out (lit ":path") t1 in
            let out := dset out (lit ":version") (strip sp t2) in
            match dget out host with
            | Some v => Ok (ddel (dset out (lit ":host") v) host)
            | None => Ok out
            end
          else
            let out := dset out (lit ":version") t0 in
            let out := dset out (lit ":status") t1 in
            Ok (dset out (lit ":status-text") (strip sp t2))
      | _ => Err IndexError
      end
  end.
End Strings.

(** The same on octets. *)
Definition parse_http1 : str -> bool -> str -> res hdict := parse_http1_in is_space lower.

(** http1/__init__.py, Processor.compress and decompress, lines 8-12. *)
Definition http1_compress (d : hdict) : str := format_http1 d [13; 10] (lit ": ") (lit "host") (lit "HTTP/1.1").
Definition http1_decompress (is_request : bool) (s : str) : res hdict := parse_http1 s is_request (lit "host").

(** The same on texts. *)
Definition http1_decompress_in (sp : N -> bool) (low : str -> str) (is_request : bool) (s : str) : res hdict :=
  parse_http1_in sp low s is_request (lit "host").
