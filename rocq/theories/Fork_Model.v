(** * Model of compressor/fork/__init__.py in its line mode, together with the
    child of sample_exec_codec.py: two processes joined by two pipes.

    Python 2 is meant: [Popen] without bufsize (lines 20-24) gives the parent
    unbuffered ends, the child reads its standard input and writes its
    standard output through buffers.  Every transfer of one octet is a step of
    its own and the steps of the two processes interleave freely, so any
    scheduling and any grouping of octets into read and write calls is an
    execution here.  [strip_conn_headers], which line 27 calls and nothing
    defines (C80), is left out: a session is a list of messages already
    formatted.  The 'bin' mode (lines 29-32) is in ForkBin_Model.  Not modelled: end of file and the
    end of the processes, signals. *)
From Coq Require Import String List NArith ZArith Bool.
From Verif Require Import PyBase PyStr Lib_Model H1_Model.
Import ListNotations.
Open Scope N_scope.

(** [line.strip() == ""], fork/__init__.py line 37 and sample_exec_codec.py line 16. *)
Definition blank_line (l : str) : bool := match strip is_space l with [] => true | _ => false end.

(** The parent, fork/__init__.py lines 26-40, and the session which calls
    compress once for each message of [todo]; [done] has the returned texts.
    - [Idle todo done]: between two calls;
    - [Writing rest ..]: in stdin.write, line 28, with [rest] still to go;
    - [Listening line out ..]: in the loop of lines 35-39, with [line] the
      part of stdout.readline() already there and [out] the variable output. *)
Inductive parent :=
| Idle (todo : list str) (done : list str)
| Writing (rest : str) (todo : list str) (done : list str)
| Listening (line out : str) (todo : list str) (done : list str).

(** The child, sample_exec_codec.py lines 6-23.
    - [Reading buf line kept]: in the loop of lines 14-18, with [buf] what
      stdin has read ahead, [line] the part of readline() already there, and
      [kept] the text of the list headers;
    - [Answering buf rest]: in lines 20-23, with [rest] still to go. *)
Inductive child :=
| Reading (buf line kept : str)
| Answering (buf rest : str).

(** [down] is the pipe from the parent to the child, [up] the other one. *)
Record system := mk_sys { s_parent : parent; s_down : str; s_child : child; s_up : str }.

(** fork/__init__.py lines 35-39: readline() has returned [line]. *)
Definition heard (line out : str) (todo done : list str) : parent :=
  if blank_line line then Idle todo (done ++ [out]) else Listening [] (out ++ line) todo done.

(** sample_exec_codec.py lines 15-21: readline() has returned [line]. *)
Definition taken (buf line kept : str) : child :=
  if blank_line line then Answering buf (kept ++ [10]) else Reading buf [] (kept ++ line).

(** One step; [cd] and [cu] are the capacities of the two pipes. *)
Inductive step (cd cu : N) : system -> system -> Prop :=
| st_call m todo done d c u :                     (* compress is called *)
    step cd cu (mk_sys (Idle (m :: todo) done) d c u) (mk_sys (Writing m todo done) d c u)
| st_write x rest todo done d c u :               (* line 28: one more octet fits *)
    lenN d < cd ->
    step cd cu (mk_sys (Writing (x :: rest) todo done) d c u) (mk_sys (Writing rest todo done) (d ++ [x]) c u)
| st_written todo done d c u :                    (* lines 28 and 34 *)
    step cd cu (mk_sys (Writing [] todo done) d c u) (mk_sys (Listening [] [] todo done) d c u)
| st_hear x line out todo done d c u :            (* line 36: one more octet of the line *)
    x <> 10 ->
    step cd cu (mk_sys (Listening line out todo done) d c (x :: u)) (mk_sys (Listening (line ++ [x]) out todo done) d c u)
| st_heard line out todo done d c u :             (* lines 36-39: the end of the line *)
    step cd cu (mk_sys (Listening line out todo done) d c (10 :: u)) (mk_sys (heard (line ++ [10]) out todo done) d c u)
| st_fill p d a b line kept u :                   (* the child reads ahead some of what is there *)
    a <> [] -> d = a ++ b ->
    step cd cu (mk_sys p d (Reading [] line kept) u) (mk_sys p b (Reading a line kept) u)
| st_take p d x buf line kept u :                 (* line 15: one more octet of the line *)
    x <> 10 ->
    step cd cu (mk_sys p d (Reading (x :: buf) line kept) u) (mk_sys p d (Reading buf (line ++ [x]) kept) u)
| st_taken p d buf line kept u :                  (* lines 15-21: the end of the line *)
    step cd cu (mk_sys p d (Reading (10 :: buf) line kept) u) (mk_sys p d (taken buf (line ++ [10]) kept) u)
| st_answer p d x buf rest u :                    (* lines 20-23: one more octet fits *)
    lenN u < cu ->
    step cd cu (mk_sys p d (Answering buf (x :: rest)) u) (mk_sys p d (Answering buf rest) (u ++ [x]))
| st_answered p d buf u :                         (* line 23 returns; lines 7-8 *)
    step cd cu (mk_sys p d (Answering buf []) u) (mk_sys p d (Reading buf [] []) u).

(** The start of a session. *)
Definition start (ms : list str) : system := mk_sys (Idle ms []) [] (Reading [] [] []) [].

(** All calls have returned. *)
Definition finished (s : system) (results : list str) : Prop := s_parent s = Idle [] results.

(** The text line 27 makes of a message. *)
Definition fork_text (d : hdict) : str := format_http1 d [13; 10] (lit ": ") (lit "host") (lit "HTTP/1.1").
