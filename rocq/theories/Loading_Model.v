(** Which of the shipped codecs a run of the tool can load: the import
    statements at the top level of every module under compressor/ (test
    programs apart) and of the modules the tool itself consists of, and the
    rules by which Python 2 and Python 3 resolve them.  Nothing else a module
    does at its top level (tables, class definitions) can fail. *)
From Coq Require Import String List Bool.
Import ListNotations.
Local Open Scope string_scope.

Inductive python := Py2 | Py3.
Inductive failure := SyntaxErr | ImportErr | TypeErr.
Inductive outcome := Fine | Fails (f : failure).

(** The import statements that occur. *)
Inductive import :=
| Plain (m : string)                 (* import m; from m import ... *)
| FromParent (names : list string)   (* from .. import ... *)
| FromHere (m : string).             (* from ..m import x, from . import x, for modules that are there and define x *)

(** A module: the directory it is in, its name, whether it contains a print
    statement or the literal '\u00' (neither is Python 3), its top-level imports in order. *)
Record module := mkM { m_dir : string; m_name : string; m_old : bool; m_imports : list import }.

(** compressor/__init__.py lines 10-109: what "from .. import" finds there,
    besides the submodule spdy_dictionary, which does load. *)
Definition parent_names : list string := ["BaseProcessor"; "format_http1"; "parse_http1"; "spdy_dictionary"].

Definition bit_bucket d := mkM d "bit_bucket" true [Plain "common_utils"; Plain "common_utils"; Plain "sys"; Plain "struct"].
Definition huffman d old := mkM d "huffman" old
  [Plain "heapq"; Plain "collections"; Plain "bit_bucket"; Plain "common_utils"; Plain "string"].
Definition bohe d := mkM d "bohe" false
  [Plain "datetime"; Plain "Cookie"; Plain "werkzeug"; Plain "sys"; Plain "struct"; Plain "md5"; Plain "re"].
Definition delta_init d parents := mkM d "__init__" true
  [Plain "zlib"; Plain "re"; Plain "header_freq_tables"; Plain "spdy4_codec_impl"; Plain "huffman"; Plain "common_utils";
   FromParent parents].

Definition modules : list module := [
  (* compressor/bohe/__init__.py lines 5-14 ('\u00' in line 46), bit_bucket.py 4-7 and 94, bohe.py 5-11, common_utils.py 63, huffman.py 4-8
     (its print, line 175, starts with a parenthesis and parses) *)
  mkM "bohe" "__init__" true [Plain "zlib"; Plain "re"; Plain "bohe"; Plain "struct"; Plain "header_freq_tables"; Plain "common_utils";
    Plain "huffman"; FromParent ["BaseProcessor"]; Plain "bit_bucket"];
  bit_bucket "bohe"; bohe "bohe"; mkM "bohe" "common_utils" true []; mkM "bohe" "header_freq_tables" false []; huffman "bohe" false;
  (* compressor/delta/__init__.py 5-12 and 44, bit_bucket.py 4-7 and 87, common_utils.py 63, huffman.py 4-8, spdy4_codec_impl.py 7-17 and 207 *)
  delta_init "delta" ["BaseProcessor"]; bit_bucket "delta"; mkM "delta" "common_utils" true []; mkM "delta" "header_freq_tables" false [];
  huffman "delta" false; mkM "delta" "word_freak" false [];
  mkM "delta" "spdy4_codec_impl" true [Plain "string"; Plain "struct"; Plain "bit_bucket"; Plain "collections"; Plain "collections";
    Plain "common_utils"; Plain "huffman"; Plain "optparse"; FromHere "spdy_dictionary"; Plain "word_freak"];
  (* compressor/delta2/__init__.py 5-12 and 47, bit_bucket.py 4-7 and 101, common_utils.py 4 and 61, huffman.py 4-8 and 241,
     lrustorage.py 2 and 146, spdy4_codec_impl.py 7-18 and 219, word_freak.py 5 *)
  delta_init "delta2" ["BaseProcessor"]; bit_bucket "delta2"; mkM "delta2" "common_utils" true [Plain "string"];
  mkM "delta2" "header_freq_tables" false []; huffman "delta2" true; mkM "delta2" "lrustorage" true [Plain "collections"];
  mkM "delta2" "word_freak" false [Plain "string"];
  mkM "delta2" "spdy4_codec_impl" true [Plain "string"; Plain "struct"; Plain "copy"; Plain "bit_bucket"; Plain "collections"; Plain "collections";
    Plain "common_utils"; Plain "huffman"; Plain "optparse"; Plain "word_freak"; Plain "lrustorage"];
  (* compressor/delta2_bohe/__init__.py 5-12 and 46, bit_bucket.py 4-7 and 87, bohe.py 5-11, common_utils.py 63, huffman.py 4-8,
     lrustorage.py 2, spdy4_codec_impl.py 7-19 and 235 *)
  delta_init "delta2_bohe" ["BaseProcessor"; "strip_conn_headers"]; bit_bucket "delta2_bohe"; bohe "delta2_bohe";
  mkM "delta2_bohe" "common_utils" true []; mkM "delta2_bohe" "header_freq_tables" false []; huffman "delta2_bohe" false;
  mkM "delta2_bohe" "lrustorage" false [Plain "collections"]; mkM "delta2_bohe" "word_freak" false [];
  mkM "delta2_bohe" "spdy4_codec_impl" true [Plain "string"; Plain "struct"; Plain "bit_bucket"; Plain "collections"; Plain "collections";
    Plain "common_utils"; Plain "huffman"; Plain "optparse"; FromHere "spdy_dictionary"; Plain "word_freak"; Plain "lrustorage"; Plain "bohe"];
  (* compressor/delta_bohe/__init__.py 5-12 and 46, bit_bucket.py 4-7 and 87, bohe.py 5-11, huffman.py 4-8, spdy4_codec_impl.py 7-19 and 167 *)
  delta_init "delta_bohe" ["BaseProcessor"]; bit_bucket "delta_bohe"; bohe "delta_bohe"; mkM "delta_bohe" "common_utils" false [];
  mkM "delta_bohe" "header_freq_tables" false []; huffman "delta_bohe" false; mkM "delta_bohe" "word_freak" false [];
  mkM "delta_bohe" "spdy4_codec_impl" true [Plain "string"; Plain "struct"; Plain "bohe"; Plain "bit_bucket"; Plain "collections"; Plain "collections";
    Plain "common_utils"; Plain "huffman"; Plain "optparse"; FromHere "spdy_dictionary"; Plain "word_freak"];
  (* compressor/fork/__init__.py 5-10 *)
  mkM "fork" "__init__" false [Plain "os"; Plain "subprocess"; Plain "struct"; Plain "sys";
    FromParent ["BaseProcessor"; "format_http1"; "strip_conn_headers"]];
  (* compressor/headerdiff/__init__.py 28-34, headerDiffCodec.py 33-36, Huffman.py *)
  mkM "headerdiff" "__init__" false [Plain "collections"; Plain "zlib"; Plain "headerDiffCodec"; Plain "headerDiffCodec";
    FromParent ["BaseProcessor"; "spdy_dictionary"]];
  mkM "headerdiff" "headerDiffCodec" false [Plain "struct"; Plain "zlib"; Plain "Huffman"];
  mkM "headerdiff" "Huffman" false [];
  (* compressor/http1/__init__.py 5 *)
  mkM "http1" "__init__" false [FromParent ["BaseProcessor"; "spdy_dictionary"; "format_http1"; "parse_http1"]];
  (* compressor/http1_gzip/__init__.py 5-6 *)
  mkM "http1_gzip" "__init__" false [Plain "zlib"; FromParent ["BaseProcessor"; "spdy_dictionary"; "format_http1"]];
  (* compressor/http1_huffman/__init__.py 5-6 *)
  mkM "http1_huffman" "__init__" false [Plain "zlib"; FromParent ["BaseProcessor"; "spdy_dictionary"; "format_http1"]];
  (* compressor/http2/__init__.py 28-30, http2Codec.py 28 *)
  mkM "http2" "__init__" false [FromParent ["BaseProcessor"]; Plain "http2Codec"];
  mkM "http2" "http2Codec" false [Plain "struct"];
  (* compressor/hyper_hpack/__init__.py 2-3 *)
  mkM "hyper_hpack" "__init__" false [Plain "hpack"; FromParent ["BaseProcessor"; "spdy_dictionary"; "format_http1"]];
  (* compressor/simple/__init__.py 4-15, seven.py 9 and 39 *)
  mkM "simple" "__init__" false [FromParent ["BaseProcessor"; "format_http1"; "parse_http1"]; Plain "collections"; Plain "re"; Plain "calendar";
    Plain "email.utils"; Plain "email.utils"; Plain "urlparse"; Plain "os.path"; Plain "copy"; Plain "zlib"; Plain "seven"];
  mkM "simple" "seven" true [Plain "bitarray"];
  (* compressor/spdy3/__init__.py 5-7 *)
  mkM "spdy3" "__init__" false [Plain "zlib"; Plain "struct"; FromParent ["spdy_dictionary"; "BaseProcessor"]]
].

(** The codecs: the directories under compressor/. *)
Definition shipped : list string := ["bohe"; "delta"; "delta2"; "delta2_bohe"; "delta_bohe"; "fork"; "headerdiff"; "http1"; "http1_gzip";
  "http1_huffman"; "http2"; "hyper_hpack"; "simple"; "spdy3"].

(** The standard library modules named above. *)
Definition always : list string := ["zlib"; "re"; "struct"; "heapq"; "collections"; "string"; "datetime"; "sys"; "optparse"; "copy"; "os";
  "subprocess"; "calendar"; "email.utils"; "os.path"; "importlib"; "locale"; "operator"; "functools"; "json"].
Definition only2 : list string := ["Cookie"; "md5"; "urlparse"].
Definition only3 : list string := ["urllib.parse"].

Definition mem (x : string) (l : list string) : bool := existsb (String.eqb x) l.

(** Is there such a top-level module?  [installed]: the third-party ones. *)
Definition library (v : python) (installed : string -> bool) (m : string) : bool :=
  mem m always || match v with Py2 => mem m only2 | Py3 => mem m only3 end || (installed m && negb (mem m only3)).

(** The module file [m].py beside those of package compressor.[d]. *)
Definition find_module (d m : string) : option module :=
  find (fun x => String.eqb (m_dir x) d && String.eqb (m_name x) m) modules.

(** Import: a file that does not parse raises before any of it is executed.
    Python 2 looks beside the importing module first, Python 3 only along
    the path, where the tool's own top-level directory has nothing of these
    names.  [depth] bounds the nesting. *)
Fixpoint load (v : python) (installed : string -> bool) (depth : nat) (x : module) : outcome :=
  match depth with
  | O => Fails ImportErr
  | S n =>
      match v, m_old x with
      | Py3, true => Fails SyntaxErr
      | _, _ =>
          let one i :=
            match i with
            | Plain m =>
                match v, find_module (m_dir x) m with
                | Py2, Some y => load v installed n y
                | _, _ => if library v installed m then Fine else Fails ImportErr
                end
            | FromParent names => if forallb (fun s => mem s parent_names) names then Fine else Fails ImportErr
            | FromHere _ => Fine
            end in
          (fix all is := match is with [] => Fine | i :: r => match one i with Fine => all r | e => e end end) (m_imports x)
      end
  end.

(** import_module("compressor.%s" % name), lib/processors.py line 61. *)
Definition load_codec (v : python) (installed : string -> bool) (name : string) : outcome :=
  match find_module name "__init__" with Some x => load v installed 5 x | None => Fails ImportErr end.

(** The modules imported before a command line is looked at:
    compare_compressors.py lines 15-23, lib/harfile.py 13-16, lib/processors.py 3-8. *)
Definition tool_imports : list string := ["collections"; "importlib"; "locale"; "optparse"; "operator"; "functools"; "re"; "json"; "sys";
  "urllib.parse"; "collections"; "copy"; "importlib"; "os"; "sys"].

(** "from urllib.parse import urlsplit" on Python 2, where urllib is not a
    package, fails whatever is installed. *)
Definition tool_starts (v : python) (installed : string -> bool) : bool := forallb (library v installed) tool_imports.

(** The constructors that hand spdy_dictionary.spdy_dict to zlib:
    http1_gzip and http1_huffman lines 9-14, spdy3 lines 10-16 if "dict" is
    among the parameters.  On Python 3 it is a text, not bytes (spdy_dictionary.py line 6). *)
Definition primed (name : string) (params : list string) : bool :=
  mem name ["http1_gzip"; "http1_huffman"] || (String.eqb name "spdy3" && mem "dict" params).

(** get_processors, lib/processors.py lines 61-63, up to the constructor's own work. *)
Definition make (v : python) (installed : string -> bool) (name : string) (params : list string) : outcome :=
  match load_codec v installed name with
  | Fails f => Fails f
  | Fine => match v with Py3 => if primed name params then Fails TypeErr else Fine | Py2 => Fine end
  end.
